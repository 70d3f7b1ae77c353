(** Independent specification: last operation wins. *)
From Verif Require Import Bytes TagOps.

Definition last_op_on (t : bytes) (ops : list tagop) (r : bool) : Prop :=
  exists p q, ops = p ++ {| to_tag := t; to_remove := r |} :: q /\ forall o, In o q -> to_tag o <> t.
Definition not_mentioned (t : bytes) (ops : list tagop) : Prop := forall o, In o ops -> to_tag o <> t.

(** Tag [t] is present after applying [ops] to a message with tags [P]. *)
Definition tag_after (ra : bool) (ops : list tagop) (P : bytes -> Prop) (t : bytes) : Prop :=
  last_op_on t ops false \/ (not_mentioned t ops /\ ra = false /\ P t).

Definition tagop_valid (o : tagop) : Prop := (length (to_tag o) <= 200)%nat.
