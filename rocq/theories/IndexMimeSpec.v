(** What indexing a message should do under each decryption policy
    (doc/man1/notmuch-config.rst, index.decrypt; doc/man7/notmuch-properties.rst). *)
From Verif Require Import Bytes StrUtil Mime IndexMime.
Local Open Scope nat_scope.

(** The table of notmuch-config(1): with stashed session keys unless the policy is false, with
    secret keys if it is nostash or true. *)
Definition may_stashed (pl : option policy) : bool := match pl with None | Some DECRYPT_FALSE => false | _ => true end.
Definition may_secret (pl : option policy) : bool := match pl with Some DECRYPT_NOSTASH | Some DECRYPT_TRUE => true | _ => false end.
Definition opened (G : gpg) (pl : option policy) (keys : list bytes) (o : obj) : bool :=
  (may_stashed pl && existsb (g_opens G o) keys) || (may_secret pl && g_secret G o).
(** Decryption is tried if there is something to try. *)
Definition tries (pl : option policy) (keys : list bytes) : bool :=
  may_secret pl || may_stashed pl && match keys with [] => false | _ => true end.

(** The parts whose text is indexed, in order: all but signatures, encrypted data that is not
    opened, and PKCS#7 data that cannot be verified. *)
Fixpoint leaves (op : obj -> bool) (o : obj) : list obj :=
  match o with
  | OPart _ _ => [o]
  | OMessage _ _ body => leaves op body
  | OPkcs7 _ SM_signed (Some _, Some u) _ => leaves op u
  | OPkcs7 _ SM_enveloped _ (Some (u, _)) => if op o then leaves op u else []
  | OPkcs7 _ _ _ _ => []
  | OMulti _ k ch _ d =>
      match repair_mixed_up o with
      | Some r => match d with Some (u, _) => if op r then leaves op u else [] | None => [] end
      | None =>
          match k, ch with
          | MSigned, c0 :: _ :: rest => leaves op c0 ++ concat (map (leaves op) rest)
          | MEncrypted, _ :: _ :: _ => match d with Some (u, _) => if op o then leaves op u else [] | None => [] end
          | MEncrypted, _ => []
          | _, _ => concat (map (leaves op) ch)
          end
      end
  end.
(** The encrypted parts that are come upon, those inside of opened ones too. *)
Fixpoint encs (op : obj -> bool) (o : obj) : list obj :=
  match o with
  | OPart _ _ => []
  | OMessage _ _ body => encs op body
  | OPkcs7 _ SM_signed (Some _, Some u) _ => encs op u
  | OPkcs7 _ SM_enveloped _ d => o :: match d with Some (u, _) => if op o then encs op u else [] | None => [] end
  | OPkcs7 _ _ _ _ => []
  | OMulti _ k ch _ d =>
      match repair_mixed_up o with
      | Some r => r :: match d with Some (u, _) => if op r then encs op u else [] | None => [] end
      | None =>
          match k, ch with
          | MSigned, c0 :: _ :: rest => encs op c0 ++ concat (map (encs op) rest)
          | MEncrypted, _ :: _ :: _ => o :: match d with Some (u, _) => if op o then encs op u else [] | None => [] end
          | MEncrypted, _ => []
          | _, _ => concat (map (encs op) ch)
          end
      end
  end.
(** The text of a part (attachments are indexed only if index.as_text says so). *)
Definition text_of (G : gpg) (o : obj) : list bytes :=
  match o_attachment (info_of o) with
  | Some _ => if g_astext G (o_mime (info_of o)) then [o_text (info_of o)] else []
  | None => [o_text (info_of o)]
  end.
Definition texts (out : list event) : list bytes := flat_map (fun e => match e with EText t => [t] | _ => [] end) out.
Definition decrypts (e : obj) : bool := match cleartext e with Some _ => true | None => false end.
(** A part with everything hidden that is encrypted in it: what one sees without any key. *)
Fixpoint sealed (o : obj) : obj :=
  match o with
  | OPart _ _ => o
  | OMulti i k ch s _ => OMulti i k (map sealed ch) s None
  | OMessage i s b => OMessage i s (sealed b)
  | OPkcs7 i t (s, u) _ => OPkcs7 i t (s, match u with Some u => Some (sealed u) | None => None end) None
  end.
(** Session keys do not cross: one that is exported for a part opens no other part that could
    not be opened anyway. *)
Definition separate (G : gpg) (keys : list bytes) : Prop :=
  forall o k o', g_session G o = Some k -> g_opens G o' k = true -> existsb (g_opens G o') keys = true \/ g_secret G o' = true.
(** The part [x] has, as its first part, a copy of its protected headers for old programs. *)
Definition legacy_display (x copy : obj) : Prop :=
  exists i q sg d, x = OMulti i MPlain [copy; q] sg d /\ skip_legacy_display x = Some q.
