(** Property C44: reading metadata back from a document's terms
    (lib/prefix.cc, lib/message.cc, lib/database.cc). *)
From Verif Require Import Bytes Terms Meta MetaProofs.

(** Everything the single pass over the (sorted) terms of a document caches is
    exactly what the terms of that kind say; no kind is confused with another or
    skipped because of another. *)
Theorem C44_metadata_unambiguous :
  forall terms, tsorted terms ->
  let m := ensure_metadata terms in
  (forall t, In t (mt_tags m) <-> In (lit "K" ++ t) terms) /\
  (forall r, In r (mt_references m) <-> In (lit "XREFERENCE" ++ r) terms) /\
  (forall f, In f (mt_filenames m) <-> In (lit "XFDIRENTRY" ++ f) terms) /\
  (forall f, In f (mt_properties m) <-> In (lit "XPROPERTY" ++ f) terms) /\
  (forall v, mt_thread m = Some v -> In (lit "G" ++ v) terms) /\
  (mt_thread m = None -> forall v, ~ In (lit "G" ++ v) terms) /\
  (forall v, mt_id m = Some v -> In (lit "Q" ++ v) terms) /\
  (mt_id m = None -> forall v, ~ In (lit "Q" ++ v) terms) /\
  (mt_in_reply_to m <> [] -> In (lit "XREPLYTO" ++ mt_in_reply_to m) terms) /\
  (forall v, In (lit "XREPLYTO" ++ v) terms ->
     In (lit "XREPLYTO" ++ mt_in_reply_to m) terms /\ bleb (mt_in_reply_to m) v = true) /\
  NoDup (mt_tags m).
Proof. exact ensure_metadata_spec. Qed.
Print Assumptions C44_metadata_unambiguous.

(** The type term (mail / ghost) is found. *)
Theorem C44_type_unambiguous :
  forall terms ty, tsorted terms ->
  In (lit "T" ++ ty) terms -> (forall v, In (lit "T" ++ v) terms -> v = ty) ->
  mt_ghost (ensure_metadata terms)
  = (if bseq ty (lit "mail") then Some false else if bseq ty (lit "ghost") then Some true else None).
Proof. exact ensure_metadata_type. Qed.
Print Assumptions C44_type_unambiguous.

(** Terms written with different prefixes of the table are different, and a
    prefix and a value are recovered from the term. *)
Theorem C44_prefixes_injective :
  forall p q v w, In p used_prefixes -> In q used_prefixes -> p ++ v = q ++ w -> p = q /\ v = w.
Proof. exact no_clash. Qed.
Print Assumptions C44_prefixes_injective.

(** The prefixes above are the ones the table gives for every name it has a
    (non-empty) term prefix for. *)
Theorem C44_prefixes_complete :
  forall name p, find_prefix name = Some p -> p <> [] -> In p used_prefixes.
Proof. exact find_prefix_used. Qed.
Print Assumptions C44_prefixes_complete.

Example C44_nontrivial :
  let terms := map lit ["G01"; "Kinbox"; "Kreplied"; "QK@x"; "Tmail"; "XFDIRENTRY3:a"; "XPROPERTYa=b";
                        "XREFERENCEG02"; "XREFERENCEr"; "XREPLYTOr"]%string in
  forallb (fun p => bltb (fst p) (snd p)) (combine terms (tl terms)) = true /\
  let m := ensure_metadata terms in
  mt_tags m = [lit "inbox"; lit "replied"] /\ mt_id m = Some (lit "K@x") /\ mt_thread m = Some (lit "01") /\
  mt_references m = [lit "G02"; lit "r"] /\ mt_in_reply_to m = lit "r" /\ mt_ghost m = Some false /\
  mt_properties m = [lit "a=b"] /\ mt_filenames m = [lit "3:a"].
Proof. now vm_compute. Qed.
