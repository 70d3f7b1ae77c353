(** What is shown of a message, and what its cryptographic status should say
    (doc/man1/notmuch-show.rst, devel/schemata, util/crypto.h). *)
From Verif Require Import Bytes StrUtil Mime.
Local Open Scope nat_scope.

(** All parts of an object, in the order of the text: encrypted parts that can be decrypted
    are replaced by their content, PKCS#7 parts are opened, a multipart/encrypted that was
    mangled on its way is restored. *)
Fixpoint preorder (c : cctx) (o : obj) : list obj :=
  match o with
  | OPart _ _ => [o]
  | OMessage _ _ body => o :: preorder c body
  | OPkcs7 _ SM_signed (_, u) _ => o :: match u with Some u => preorder c u | None => [] end
  | OPkcs7 _ SM_enveloped _ d =>
      o :: (if c_decrypt c then match d with Some (u, _) => preorder c u | None => [] end else [])
  | OPkcs7 _ SM_other _ _ => [o]
  | OMulti _ k ch _ d =>
      match repair_mixed_up o with
      | Some r => r :: match ch with
                       | [_; p1; p2] => preorder c p1 ++
                           match c_decrypt c, d with true, Some (u, _) => preorder c u | _, _ => preorder c p2 end
                       | _ => []
                       end
      | None => o :: match k, c_decrypt c, ch, d with
                     | MEncrypted, true, [c0; _], Some (u, _) => preorder c c0 ++ preorder c u
                     | _, _, _, _ => concat (map (preorder c) ch)
                     end
      end
  end.

(** How deep an object is nested. *)
Fixpoint depth (o : obj) : nat :=
  match o with
  | OPart _ _ => 1
  | OMessage _ _ body => S (depth body)
  | OMulti _ _ ch _ d => S (Nat.max (list_max (map depth ch)) match d with Some (u, _) => depth u | None => 0 end)
  | OPkcs7 _ _ (_, u) d => S (Nat.max match u with Some u => depth u | None => 0 end match d with Some (u, _) => depth u | None => 0 end)
  end.

(** A layer of the cryptographic envelope: a verified signature, or encryption (perhaps
    signed inside). *)
Inductive layer := LSigned (s : siglist) | LEncrypted (s : option siglist).
(** A part that is neither signed nor encrypted, or is not examined. *)
Definition not_crypto (c : cctx) (o : obj) : Prop :=
  match o with
  | OMulti _ MSigned _ _ _ => c_verify c = false
  | OMulti _ MEncrypted _ _ _ => c_decrypt c = false
  | OPkcs7 _ SM_signed _ _ => False
  | OPkcs7 _ SM_enveloped _ _ => c_decrypt c = false
  | _ => True
  end.
(** [envelope c o layers before p after]: going inwards from [o] through layers that are all
    valid one comes to the payload [p]; [before] are the layers with their control parts,
    [after] the signature parts.  The third case is a multipart/encrypted that was mangled on
    its way. *)
Inductive envelope (c : cctx) : obj -> list layer -> list obj -> obj -> list obj -> Prop :=
| env_payload p : repair_mixed_up p = None -> not_crypto c p -> envelope c p [] [] p []
| env_signed i content si st s d ls before p after : c_verify c = true ->
    let o := OMulti i MSigned [content; OPart si st] (Some s) d in
    envelope c content ls before p after ->
    envelope c o (LSigned s :: ls) (o :: before) p (after ++ [OPart si st])
| env_encrypted i vi vt e sg content s ls before p after : c_decrypt c = true ->
    let o := OMulti i MEncrypted [OPart vi vt; e] sg (Some (content, s)) in
    o_protocol i = Some (o_mime vi) ->
    envelope c content ls before p after ->
    envelope c o (LEncrypted s :: ls) (o :: OPart vi vt :: before) p after
| env_mangled i k p0 vi vt e sg content s r ls before p after : c_decrypt c = true ->
    let o := OMulti i k [p0; OPart vi vt; e] sg (Some (content, s)) in
    repair_mixed_up o = Some r -> o_mime vi = lit "application/pgp-encrypted" ->
    envelope c content ls before p after ->
    envelope c o (LEncrypted s :: ls) (r :: OPart vi vt :: before) p after
| env_pkcs7_signed i content s d ls before p after :
    let o := OPkcs7 i SM_signed (Some s, Some content) d in
    envelope c content ls before p after -> envelope c o (LSigned s :: ls) (o :: before) p after
| env_pkcs7_encrypted i v content s ls before p after : c_decrypt c = true ->
    let o := OPkcs7 i SM_enveloped v (Some (content, s)) in
    envelope c content ls before p after -> envelope c o (LEncrypted s :: ls) (o :: before) p after.

Definition encrypted (ls : list layer) : bool := existsb (fun l => match l with LEncrypted _ => true | _ => false end) ls.
(** The signature closest to the payload. *)
Definition signature_in (l : layer) : option siglist := match l with LSigned s => Some s | LEncrypted s => s end.
Fixpoint innermost (ls : list layer) : option siglist :=
  match ls with
  | [] => None
  | l :: r => match innermost r with Some s => Some s | None => signature_in l end
  end.
(** Some signature is inside the encryption. *)
Fixpoint signed_inside (ls : list layer) : bool :=
  match ls with
  | [] => false
  | LEncrypted s :: r => match s, innermost r with None, None => false | _, _ => true end
  | LSigned _ :: r => signed_inside r
  end.
(** The payload without the duplicate of its protected headers for old programs. *)
Definition without_legacy_display (p : obj) : obj := match skip_legacy_display p with Some q => q | None => p end.
