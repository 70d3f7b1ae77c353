(** Independent specification for tagging from Emacs. *)
From Verif Require Import Bytes Terms Meta DocMap Db TagOps TagLineSpec.

(** The text "+tag" or "-tag" stands for adding or removing the tag. *)
Definition says (c : bytes) (o : tagop) : Prop := c = (if to_remove o then "-"%char else "+"%char) :: to_tag o.

(** Tags of messages on disk, ids unique, terms in Xapian's order. *)
Definition sound (st : store) : Prop :=
  NoDup (map fst (st_docs st)) /\ forall k d, dget k (st_docs st) = Some d -> tsorted (d_terms d).
Definition tagged (st : store) (k : N) (t : bytes) : Prop :=
  exists d, dget k (st_docs st) = Some d /\ In t (tags_of (d_terms d)).
(** Message [k] exists and is selected by [q]. *)
Definition selected (q : query) (st : store) (k : N) : Prop :=
  exists d, dget k (st_docs st) = Some d /\ q d = true.

(** A change Emacs can pass on: a sign and a tag without whitespace or NUL; a tag to add
    must not start with '-', and "--" is not the removal of the tag "-". *)
Definition white (c : byte) : Prop := In (N_of_ascii c) [9; 10; 12; 13; 32]%N.
Definition plain_op (o : tagop) : Prop :=
  to_tag o <> [] /\ (forall c, In c (to_tag o) -> ~ white c /\ c <> ascii_of_N 0) /\
  (to_remove o = true -> to_tag o <> lit "-") /\ (to_remove o = false -> forall r, to_tag o <> "-"%char :: r).
(** A query that fits on a line: no newline or NUL, and something other than blanks. *)
Definition line_query (q body : bytes) : Prop :=
  (forall c, In c q -> c <> ascii_of_N 10 /\ c <> ascii_of_N 0) /\
  exists sp c r, q = sp ++ body /\ spaces sp /\ body = c :: r /\ c <> " "%char.

(** The opposite of an operation, and operations that all change a message whose tags
    are [P], each tag being named once. *)
Definition opposite (o : tagop) : tagop := {| to_tag := to_tag o; to_remove := negb (to_remove o) |}.
Definition effective (ops : list tagop) (P : bytes -> Prop) : Prop :=
  NoDup (map to_tag ops) /\ forall o, In o ops -> (P (to_tag o) <-> to_remove o = true).
