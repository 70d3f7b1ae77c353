(** Proofs for C99: what has been removed. *)
From Verif Require Import Bytes Tidy TidySpec TidyProofs.
From Coq Require Import List Bool Ascii Lia.
Import ListNotations.

Lemma marks_only_iff l : marks_only l = true <-> marks_line l.
Proof.
  split; [apply marks_only_spec|]. intros (r & -> & H). cbn. apply forallb_forall. intros c I.
  destruct (H c I) as [->| ->]; reflexivity.
Qed.
(** No line of marks is followed by one that ends. *)
Fixpoint lone (t : list bytes) : Prop :=
  match t with [] => True | l :: t => (marks_only l = true -> marks_next t = false) /\ lone t end.
Lemma repeated_next t : marks_next (tidy_repeated t) = true -> marks_next t = true.
Proof.
  destruct t as [|y t]; [discriminate|]. cbn [tidy_repeated]. destruct (marks_only y && marks_next t) eqn:E.
  - intros _. apply andb_true_iff in E as [A B]. destruct t; [discriminate|exact A].
  - destruct t as [|x t]; [discriminate|]. cbn [marks_next]. destruct (tidy_repeated (x :: t)); [discriminate|trivial].
Qed.
Lemma repeated_lone t : lone (tidy_repeated t).
Proof.
  induction t as [|l t IH]; [exact I|]. cbn [tidy_repeated]. destruct (marks_only l && marks_next t) eqn:E; trivial.
  split; trivial. intros M. rewrite M in E. cbn in E. destruct (marks_next (tidy_repeated t)) eqn:N; trivial.
  apply repeated_next in N. congruence.
Qed.
Lemma fm_next t u : fewer_marks t u -> marks_next t = false -> marks_next u = false.
Proof.
  intros F H. destruct F as [|l t u F|l t u B F]; trivial.
  - destruct t as [|x t]; [now inversion F|]. cbn in H |- *. destruct u; trivial.
  - apply marks_only_iff in B. destruct t as [|x t]; [now inversion F|]. cbn in H. congruence.
Qed.
Lemma fm_lone t u : fewer_marks t u -> lone t -> lone u.
Proof.
  induction 1 as [|l t u F IH|l t u B F IH]; trivial; intros [A L].
  - split; [|auto]. intros M. eapply fm_next; eauto.
  - auto.
Qed.
Lemma after_head t x b : tidy_after t = x :: b ->
  (exists s, t = x :: s) \/ (exists m s, t = m :: x :: s /\ marks_only m = true).
Proof.
  destruct t as [|l t]; [discriminate|]. cbn [tidy_after]. destruct (marks_only l && _) eqn:E.
  - apply andb_true_iff in E as [A B]. destruct t as [|y t]; [discriminate|].
    assert (M : marks_only y = false) by (destruct y as [|c y]; trivial; cbn in *; destruct (beq c ">"); trivial; discriminate).
    cbn [tidy_after]. rewrite M. cbn [andb]. intros [= -> _]. right. eauto.
  - intros [= -> _]. left. eauto.
Qed.
Lemma after_none : forall t a m x b, lone t -> tidy_after t = a ++ m :: x :: b -> marks_only m = true -> uncited x = false /\ x <> [].
Proof.
  induction t as [|l t IH]; intros a m x b L E M; [destruct a; discriminate|]. cbn [tidy_after] in E. destruct L as [L1 L2].
  destruct (marks_only l && match t with [] => false | x :: _ => match x with [] => true | _ => uncited x end end) eqn:C; [eapply IH; eauto|].
  destruct a as [|z a]; [|injection E as _ E; eapply IH; eauto]. injection E as -> E. rewrite M in C. cbn in C.
  destruct (after_head _ _ _ E) as [(s & ->)|(k & s & -> & K)].
  - destruct x as [|c x]; [discriminate|]. split; [exact C|discriminate].
  - specialize (L1 M). cbn in L1. congruence.
Qed.
Lemma tidy_lone t : lone (tidy t).
Proof.
  unfold tidy. eapply fm_lone; [apply after_fm|]. eapply fm_lone; [eapply before_fm; reflexivity|]. apply repeated_lone.
Qed.
Lemma lone_pair : forall a x y z b, lone (a ++ x :: y :: z :: b) -> ~ (marks_line x /\ marks_line y).
Proof.
  induction a as [|l a IH]; intros x y z b H; cbn in H.
  - intros [X Y]. apply marks_only_iff in X, Y. destruct H as [H _]. specialize (H X). cbn in H. congruence.
  - eapply IH. apply H.
Qed.
