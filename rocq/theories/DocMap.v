(** Finite maps from document ids to values, as association lists (the Xapian
    document table; external). *)
From Coq Require Import List NArith Lia Bool.
Import ListNotations.
Local Open Scope N_scope.

Section Map.
Context {V : Type}.
(** document ids to documents, in id order (Xapian). *)
Definition docmap := list (N * V).

(** get_document (Xapian). *)
Fixpoint dget (k : N) (m : docmap) : option V :=
  match m with
  | [] => None
  | (k', v) :: m' => if N.eqb k k' then Some v else dget k m'
  end.
(** replace_document / add_document (Xapian). *)
Fixpoint dput (k : N) (v : V) (m : docmap) : docmap :=
  match m with
  | [] => [(k, v)]
  | (k', v') :: m' => if N.eqb k k' then (k, v) :: m' else (k', v') :: dput k v m'
  end.
(** delete_document (Xapian). *)
Fixpoint ddel (k : N) (m : docmap) : docmap :=
  match m with
  | [] => []
  | (k', v') :: m' => if N.eqb k k' then ddel k m' else (k', v') :: ddel k m'
  end.

(** Insertion keeping keys in increasing order. *)
Fixpoint dins (k : N) (v : V) (m : docmap) : docmap :=
  match m with
  | [] => [(k, v)]
  | (k', v') :: m' => if N.eqb k k' then (k, v) :: m' else if N.ltb k k' then (k, v) :: m else (k', v') :: dins k v m'
  end.

Lemma dget_dins k v m k' : dget k' (dins k v m) = if N.eqb k' k then Some v else dget k' m.
Proof.
  induction m as [|[j w] m IH]; cbn.
  - now destruct (N.eqb_spec k' k).
  - destruct (N.eqb_spec k j) as [->|Hkj]; cbn.
    + now destruct (N.eqb_spec k' j).
    + destruct (N.ltb k j); cbn; [reflexivity|]. rewrite IH. destruct (N.eqb_spec k' j), (N.eqb_spec k' k); congruence.
Qed.
Lemma dget_dput k v m k' : dget k' (dput k v m) = if N.eqb k' k then Some v else dget k' m.
Proof.
  induction m as [|[j w] m IH]; cbn.
  - now destruct (N.eqb_spec k' k).
  - destruct (N.eqb_spec k j) as [->|Hkj]; cbn.
    + now destruct (N.eqb_spec k' j).
    + rewrite IH. destruct (N.eqb_spec k' j), (N.eqb_spec k' k); congruence.
Qed.
Lemma dget_ddel k m k' : dget k' (ddel k m) = if N.eqb k' k then None else dget k' m.
Proof.
  induction m as [|[j w] m IH]; cbn.
  - now destruct (N.eqb_spec k' k).
  - destruct (N.eqb_spec k j) as [->|Hkj]; cbn.
    + rewrite IH. now destruct (N.eqb_spec k' j).
    + rewrite IH. destruct (N.eqb_spec k' j), (N.eqb_spec k' k); congruence.
Qed.
Lemma dget_dput_same k v m : dget k (dput k v m) = Some v.
Proof. now rewrite dget_dput, N.eqb_refl. Qed.
Lemma dget_dput_other k v m k' : k' <> k -> dget k' (dput k v m) = dget k' m.
Proof. intros H. rewrite dget_dput. now destruct (N.eqb_spec k' k). Qed.
Lemma dget_ddel_same k m : dget k (ddel k m) = None.
Proof. now rewrite dget_ddel, N.eqb_refl. Qed.
Lemma dget_ddel_other k m k' : k' <> k -> dget k' (ddel k m) = dget k' m.
Proof. intros H. rewrite dget_ddel. now destruct (N.eqb_spec k' k). Qed.
Lemma dget_In k v m : dget k m = Some v -> In (k, v) m.
Proof.
  induction m as [|[j w] m IH]; cbn; [discriminate|].
  destruct (N.eqb_spec k j) as [->|]; [intros [= ->]; now left|right; auto].
Qed.
Lemma In_dget k m : In k (map fst m) -> dget k m <> None.
Proof.
  induction m as [|[j w] m IH]; cbn; [tauto|].
  destruct (N.eqb_spec k j) as [->|Hne]; [congruence|]. intros [H|H]; [congruence|auto].
Qed.
Lemma dget_keys k m : In k (map fst m) <-> dget k m <> None.
Proof.
  split; [apply In_dget|]. intros H. destruct (dget k m) eqn:E; [|congruence].
  apply dget_In in E. now apply (in_map fst) in E.
Qed.
(** Keys in increasing order. *)
Fixpoint ksorted (m : docmap) : Prop :=
  match m with
  | [] => True
  | (k, _) :: m' => (forall j w, dget j m' = Some w -> k < j) /\ ksorted m'
  end.
Lemma dins_sorted k v m : ksorted m -> ksorted (dins k v m).
Proof.
  induction m as [|[j w] m IH]; cbn.
  - intros _. split; [discriminate|exact I].
  - intros [H1 H2]. destruct (N.eqb_spec k j) as [->|Hne]; cbn; [split; assumption|].
    destruct (N.ltb_spec k j); cbn.
    + split; [|split; assumption]. intros i u. destruct (N.eqb_spec i j) as [->|]; [intros _; assumption|]. intros Hi. apply H1 in Hi. lia.
    + split; [|auto]. intros i u. rewrite dget_dins. destruct (N.eqb_spec i k) as [->|]; [intros _; lia|apply H1].
Qed.
Lemma ddel_sorted k m : ksorted m -> ksorted (ddel k m).
Proof.
  induction m as [|[j w] m IH]; cbn; [auto|]. intros [H1 H2]. destruct (N.eqb k j); cbn; [auto|]. split; [|auto].
  intros i u. rewrite dget_ddel. destruct (N.eqb i k); [discriminate|apply H1].
Qed.
Lemma In_dget_sorted k v m : ksorted m -> In (k, v) m -> dget k m = Some v.
Proof.
  induction m as [|[j w] m IH]; cbn; [tauto|]. intros [H1 H2] [E|Hin].
  - injection E as -> ->. now rewrite N.eqb_refl.
  - specialize (IH H2 Hin). destruct (N.eqb_spec k j) as [->|]; [|exact IH]. apply H1 in IH. lia.
Qed.
Lemma dput_keys k v m : NoDup (map fst m) -> NoDup (map fst (dput k v m)).
Proof.
  induction m as [|[j w] m IH]; cbn; [repeat constructor; auto|].
  intros H. inversion H as [|? ? Hj Hm]; subst.
  destruct (N.eqb_spec k j) as [->|Hne]; cbn; constructor; auto.
  rewrite dget_keys, dget_dput. destruct (N.eqb_spec j k); [congruence|]. now rewrite <- dget_keys.
Qed.
Lemma ddel_keys k m : NoDup (map fst m) -> NoDup (map fst (ddel k m)).
Proof.
  induction m as [|[j w] m IH]; cbn; [auto|].
  intros H. inversion H as [|? ? Hj Hm]; subst.
  destruct (N.eqb_spec k j) as [->|Hne]; cbn; auto. constructor; auto.
  rewrite dget_keys, dget_ddel. destruct (N.eqb_spec j k); [congruence|]. now rewrite <- dget_keys.
Qed.
Lemma In_dget_nodup k v m : NoDup (map fst m) -> In (k, v) m -> dget k m = Some v.
Proof.
  induction m as [|[j w] m IH]; cbn; [tauto|]. intros H [E|Hin]; inversion H as [|? ? Hj Hm]; subst.
  - injection E as -> ->. now rewrite N.eqb_refl.
  - destruct (N.eqb_spec k j) as [->|]; [|auto]. apply (in_map fst) in Hin. contradiction.
Qed.
End Map.
Arguments docmap : clear implicits.
