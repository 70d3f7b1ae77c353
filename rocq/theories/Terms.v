(** Sorted duplicate-free sets of byte strings: the term list of a Xapian
    document (Xapian keeps term lists sorted bytewise and without duplicates;
    external behaviour, trusted). *)
From Verif Require Import Bytes.
From Coq Require Import Sorted.

(** Xapian::Document::add_term (external): insert unless present. *)
Fixpoint tadd (x : bytes) (l : list bytes) : list bytes :=
  match l with
  | [] => [x]
  | y :: l' => match bcmp x y with
               | Lt => x :: y :: l'
               | Eq => y :: l'
               | Gt => y :: tadd x l'
               end
  end.

(** Xapian::Document::remove_term (external); the caller checks presence. *)
Fixpoint trem (x : bytes) (l : list bytes) : list bytes :=
  match l with
  | [] => []
  | y :: l' => if bseq x y then l' else y :: trem x l'
  end.

(** term membership (Xapian). *)
Definition tmem (x : bytes) (l : list bytes) : bool := existsb (bseq x) l.

(** term order (Xapian). *)
Definition blt (a b : bytes) : Prop := bltb a b = true.
(** a term list is sorted (Xapian). *)
Definition tsorted (l : list bytes) : Prop := StronglySorted blt l.

Lemma tmem_In x l : tmem x l = true <-> In x l.
Proof.
  unfold tmem. rewrite existsb_exists. split.
  - intros (y & Hy & E). apply bseq_eq in E. now subst.
  - intros H. exists x. split; [exact H|]. apply bseq_refl.
Qed.
Lemma tmem_false x l : tmem x l = false <-> ~ In x l.
Proof. rewrite <- tmem_In. destruct (tmem x l); split; congruence. Qed.

Lemma tadd_In x y l : In y (tadd x l) <-> y = x \/ In y l.
Proof.
  induction l as [|z l IH]; cbn; [intuition congruence|].
  destruct (bcmp x z) eqn:E; cbn.
  - apply bcmp_eq in E. subst. intuition congruence.
  - intuition congruence.
  - rewrite IH. intuition congruence.
Qed.
Lemma tadd_sorted x l : tsorted l -> tsorted (tadd x l).
Proof.
  unfold tsorted. induction 1 as [|y l Hl IH Hy]; cbn; [repeat constructor|].
  destruct (bcmp x y) eqn:E.
  - constructor; auto.
  - constructor; [constructor; auto|]. constructor.
    + unfold blt, bltb. now rewrite E.
    + eapply Forall_impl; [|exact Hy]. intros z Hz. unfold blt in *.
      eapply bltb_trans; [|exact Hz]. unfold bltb. now rewrite E.
  - constructor; auto. rewrite Forall_forall in *. intros z Hz. apply tadd_In in Hz as [->|Hz]; auto.
    unfold blt, bltb. rewrite (bcmp_antisym x y), E. reflexivity.
Qed.
Lemma tsorted_nodup l : tsorted l -> NoDup l.
Proof.
  induction 1 as [|y l Hl IH Hy]; constructor; auto.
  intros Hin. rewrite Forall_forall in Hy. apply Hy in Hin. unfold blt in Hin. rewrite bltb_irrefl in Hin. congruence.
Qed.
Lemma trem_In x y l : NoDup l -> In y (trem x l) <-> In y l /\ y <> x.
Proof.
  induction 1 as [|z l Hz Hl IH]; cbn; [tauto|].
  destruct (bseq_spec x z) as [->|Hne]; cbn.
  - split; [intros H; split; auto; intros ->; contradiction|intros [[->|H] Hn]; [congruence|auto]].
  - rewrite IH. intuition congruence.
Qed.
Lemma trem_sub x y l : In y (trem x l) -> In y l.
Proof.
  induction l as [|z l IH]; cbn; [auto|]. destruct (bseq x z); cbn; intuition.
Qed.
Lemma trem_sorted x l : tsorted l -> tsorted (trem x l).
Proof.
  unfold tsorted. induction 1 as [|y l Hl IH Hy]; cbn; [constructor|].
  destruct (bseq x y); auto. constructor; auto.
  rewrite Forall_forall in *. intros z Hz. apply Hy. eapply trem_sub; eauto.
Qed.
Lemma trem_notin x l : ~ In x l -> trem x l = l.
Proof.
  induction l as [|z l IH]; cbn; [auto|]. intros H. destruct (bseq_spec x z) as [->|Hne]; [tauto|].
  f_equal. tauto.
Qed.
Lemma tadd_in_id x l : tsorted l -> In x l -> tadd x l = l.
Proof.
  unfold tsorted. induction 1 as [|y l Hl IH Hy]; cbn; [tauto|].
  intros [->|Hin].
  - now rewrite bcmp_refl.
  - rewrite Forall_forall in Hy. specialize (Hy x Hin). unfold blt, bltb in Hy.
    rewrite (bcmp_antisym y x). destruct (bcmp y x) eqn:E; cbn; try congruence. now rewrite IH.
Qed.

(** Two sorted sets with the same members are equal. *)
Lemma tsorted_ext a b : tsorted a -> tsorted b -> (forall x, In x a <-> In x b) -> a = b.
Proof.
  unfold tsorted. intros Ha. revert b. induction Ha as [|x a Ha IH Hx]; intros b Hb H.
  - destruct b as [|y b]; [reflexivity|]. exfalso. apply (proj2 (H y)). now left.
  - destruct Hb as [|y b Hb Hy].
    + exfalso. apply (proj1 (H x)). now left.
    + rewrite Forall_forall in Hx, Hy.
      assert (x = y).
      { destruct (proj1 (H x) (or_introl eq_refl)) as [E|E]; [auto|].
        destruct (proj2 (H y) (or_introl eq_refl)) as [E'|E']; [auto|].
        apply Hy in E. apply Hx in E'. unfold blt in *.
        pose proof (bltb_trans _ _ _ E E') as C. rewrite bltb_irrefl in C. congruence. }
      subst y. f_equal. apply IH; auto. intros z. split; intros Hz.
      * destruct (proj1 (H z) (or_intror Hz)) as [E|E]; auto. subst z.
        apply Hx in Hz. unfold blt in Hz. rewrite bltb_irrefl in Hz. congruence.
      * destruct (proj2 (H z) (or_intror Hz)) as [E|E]; auto. subst z.
        apply Hy in Hz. unfold blt in Hz. rewrite bltb_irrefl in Hz. congruence.
Qed.

(** Building a set from a list. *)
Definition tset_of (l : list bytes) : list bytes := fold_right tadd [] l.
Lemma tset_of_In x l : In x (tset_of l) <-> In x l.
Proof. induction l as [|y l IH]; cbn; [tauto|]. rewrite tadd_In, IH. intuition. Qed.
Lemma tset_of_sorted l : tsorted (tset_of l).
Proof. induction l; cbn; [constructor|]. now apply tadd_sorted. Qed.
