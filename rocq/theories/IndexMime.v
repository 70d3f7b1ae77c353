(** Model of the indexing of the parts of a message (lib/index.cc:358-770), of decryption
    under a policy (util/crypto.c:33-110), and of what notmuch_message_reindex
    (lib/message.cc:2235-2358) does to session keys.

    GMime and GnuPG (external): [obj] of Mime.v, in which the cleartext of an encrypted part
    is recorded; [gpg] says with which keys it can be had.  Not modelled: failing writes, the
    log, the tokenizer (Indexing of text is an event with the text). *)
From Verif Require Import Bytes StrUtil Reply Mime.
Local Open Scope nat_scope.

(** External: which session keys open an encrypted part, whether the user's secret key does,
    which session key is exported then; index.as_text. *)
Record gpg := {
  g_opens : obj -> bytes -> bool; g_secret : obj -> bool; g_session : obj -> option bytes;
  g_astext : bytes -> bool
}.
(** lib/notmuch.h notmuch_decryption_policy_t. *)
Inductive policy := DECRYPT_FALSE | DECRYPT_AUTO | DECRYPT_NOSTASH | DECRYPT_TRUE.

(** The cleartext of an encrypted part. *)
Definition cleartext (o : obj) : option obj :=
  match o with
  | OMulti _ MEncrypted _ _ (Some (u, _)) => Some u
  | OPkcs7 _ SM_enveloped _ (Some (u, _)) => Some u
  | _ => None
  end.
(** External: g_mime_multipart_encrypted_decrypt, g_mime_application_pkcs7_mime_decrypt with
    a session key. *)
Definition with_key (G : gpg) (o : obj) (k : bytes) : option obj := if g_opens G o k then cleartext o else None.
(** util/crypto.c:50-81: the stashed session keys in turn. *)
Fixpoint with_keys (G : gpg) (o : obj) (keys : list bytes) : option obj :=
  match keys with
  | [] => None
  | k :: r => match with_key G o k with Some u => Some u | None => with_keys G o r end
  end.
(** util/crypto.c:33-110 [_notmuch_crypto_decrypt]: the cleartext, whether decryption was
    attempted, and the session key in the result. *)
Definition crypto_decrypt (G : gpg) (pl : policy) (keys : list bytes) (o : obj) : option obj * bool * option bytes :=
  match pl with
  | DECRYPT_FALSE => (None, false, None)
  | _ =>
      let tried := match keys with [] => false | _ => true end in
      match with_keys G o keys with
      | Some u => (Some u, tried, None)
      | None =>
          match pl with
          | DECRYPT_AUTO => (None, tried, None)
          | _ =>
              match (if g_secret G o then cleartext o else None) with
              | Some u => (Some u, true, match pl with DECRYPT_TRUE => g_session G o | _ => None end)
              | None => (None, true, None)
              end
          end
      end
  end.

(** What goes into the index. *)
Inductive event :=
| ETag (t : bytes) | EType (t : bytes) | EText (t : bytes) | EAttachment (file : option bytes)
| ESubject (s : bytes) | EProperty (k v : bytes).
(** The state: what has gone into the index, the stashed session keys, the status. *)
Record ist := { x_out : list event; x_keys : list bytes; x_mc : mcrypto }.
(** append one term-generation event. *)
Definition emit (e : event) (st : ist) : ist := {| x_out := x_out st ++ [e]; x_keys := x_keys st; x_mc := x_mc st |}.
(** record update of the message-crypto state. *)
Definition with_mc (m : mcrypto) (st : ist) : ist := {| x_out := x_out st; x_keys := x_keys st; x_mc := m |}.
(** notmuch_message_add_property (message, "session-key", ...): a value is stored once, a null
    value refused. *)
Definition stash_key (k : option bytes) (st : ist) : ist :=
  match k with
  | None => st
  | Some k => if existsb (bseq k) (x_keys st) then st else {| x_out := x_out st; x_keys := x_keys st ++ [k]; x_mc := x_mc st |}
  end.
(** lib/index.cc:358-370 [_index_content_type]. *)
Definition index_content_type (o : obj) (st : ist) : ist := emit (EType (o_mime (info_of o))) st.
(** lib/index.cc:471-479, 678-685, 630-639: is [o] the payload; what of it to index. *)
Definition payload_check (o : obj) (parent : obj) (i : nat) (st : ist) : obj * ist :=
  let '(yes, m) := potential_payload (x_mc st) o (Some parent) i in
  let st := with_mc m st in
  if yes && is_full (m_dec m) then
    match skip_legacy_display o with
    | Some q => (q, emit (EProperty (lit "index.repaired") (lit "skip-protected-headers-legacy-display")) st)
    | None => (o, st)
    end
  else (o, st).

Section index.
  Variable G : gpg.
  Variable pl : option policy.        (* None: no notmuch_indexopts_t *)
  Variable go : obj -> ist -> option ist.   (* [_index_mime_part] *)
  (** lib/index.cc:574-648 [_index_encrypted_mime_part]. *)
  Definition index_encrypted (o : obj) (st : ist) : option ist :=
    match pl with
    | None | Some DECRYPT_FALSE => Some st
    | Some p =>
        let '(clear, attempted, session) := crypto_decrypt G p (x_keys st) o in
        let get_sk := match p with DECRYPT_TRUE => true | _ => false end in
        if negb attempted then Some st
        else match clear with
             | None => Some (emit (EProperty (lit "index.decryption") (lit "failure")) st)
             | Some u =>
                 let st := if get_sk then stash_key session (with_mc (successful_decryption (x_mc st)) st) else st in
                 let '(toindex, st) := payload_check u o 1 st in
                 match go toindex st with
                 | None => None
                 | Some st => Some (emit (EProperty (lit "index.decryption") (lit "success")) st)
                 end
             end
    end.
  (** lib/index.cc:443-481: the children of the multipart [o] of kind [k] from number [i]. *)
  Fixpoint index_children (o : obj) (k : mkind) (i : nat) (children : list obj) (st : ist) : option ist :=
    match children with
    | [] => Some st
    | child :: rest =>
        let continue := index_children o k (S i) rest in
        match k with
        | MSigned =>
            if i =? 1 then continue (index_content_type child st)
            else let '(toindex, st) := payload_check child o i st in
                 match go toindex st with None => None | Some st => continue st end
        | MEncrypted =>
            let st := index_content_type child st in
            if i =? 1 then match index_encrypted o st with None => None | Some st => continue st end
            else continue st
        | MPlain =>
            let '(toindex, st) := payload_check child o i st in
            match go toindex st with None => None | Some st => continue st end
        end
    end.
  (** lib/index.cc:650-701 [_index_pkcs7_part].  (GMime gives no signatures without content.) *)
  Definition index_pkcs7 (o : obj) (t : smime) (ver : option siglist * option obj) (st : ist) : option ist :=
    let st := index_content_type o st in
    match t with
    | SM_signed =>
        match ver with
        | (Some _, Some u) =>
            let '(toindex, st) := payload_check u o 0 (emit (ETag (lit "signed")) st) in go toindex st
        | (Some _, None) => Some (emit (ETag (lit "signed")) st)
        | (None, _) => Some st
        end
    | SM_enveloped => index_encrypted o (emit (ETag (lit "encrypted")) st)
    | SM_other => Some st
    end.
  (** lib/index.cc:401-570 [_index_mime_part]. *)
  Definition index_part1 (o : obj) (st : ist) : option ist :=
    let '(o, st) := match repair_mixed_up o with
                    | Some r => (r, emit (EProperty (lit "index.repaired") (lit "mixedup")) st)
                    | None => (o, st)
                    end in
    let st := index_content_type o st in
    match o with
    | OMulti _ k children _ _ =>
        let st := match k with MSigned => emit (ETag (lit "signed")) st | MEncrypted => emit (ETag (lit "encrypted")) st | MPlain => st end in
        index_children o k 0 children st
    | OMessage _ _ body => go body st
    | OPkcs7 _ t ver _ => index_pkcs7 o t ver st
    | OPart i _ =>
        match o_attachment i with
        | Some file =>
            let st := emit (EAttachment file) (emit (ETag (lit "attachment")) st) in
            if g_astext G (o_mime i) then Some (emit (EText (o_text i)) st) else Some st
        | None => Some (emit (EText (o_text i)) st)
        end
    end.
End index.
(** [index_part]: as above, lib/index.cc:401-570. *)
Fixpoint index_part (fuel : nat) (G : gpg) (pl : option policy) (o : obj) (st : ist) : option ist :=
  match fuel with
  | O => None
  | S f => index_part1 G pl (index_part f G pl) o st
  end.
(** lib/index.cc:728-770 [_notmuch_message_index_file], the body and the protected subject (the
    terms of the headers are in Index.v). *)
Definition index_file (fuel : nat) (G : gpg) (pl : option policy) (body : obj) (keys : list bytes) : option ist :=
  match index_part fuel G pl body {| x_out := []; x_keys := keys; x_mc := mcrypto_new |} with
  | None => None
  | Some st => Some match m_psubject (x_mc st) with Some s => emit (ESubject s) st | None => st end
  end.
(** lib/message.cc:2277-2284: session keys at the beginning of notmuch_message_reindex (of a
    message with one file). *)
Definition reindex_file (fuel : nat) (G : gpg) (pl : option policy) (body : obj) (keys : list bytes) : option ist :=
  index_file fuel G pl body match pl with Some DECRYPT_FALSE => [] | _ => keys end.
