(** Proofs for C99: no uncited line is followed by a line of marks that ends. *)
From Verif Require Import Bytes Tidy TidySpec TidyProofs TidyProofs2.
From Coq Require Import List Bool Ascii Lia.
Import ListNotations.

(** No uncited line is followed by a line of marks that ends. *)
Fixpoint led (t : list bytes) : Prop :=
  match t with [] => True | l :: t => (uncited l = true -> marks_next t = false) /\ led t end.
Lemma fm_led t u : fewer_marks t u -> led t -> led u.
Proof.
  induction 1 as [|l t u F IH|l t u B F IH]; trivial; intros [A L].
  - split; [|auto]. intros M. eapply fm_next; eauto.
  - auto.
Qed.
Lemma marks_next_cons l t : marks_next (l :: t) = true -> marks_only l = true /\ t <> [].
Proof. destruct t; [discriminate|]. intros H. split; [exact H|discriminate]. Qed.
Lemma before_next t : marks_next (tidy_before t) = true -> marks_next t = true.
Proof.
  destruct t as [|l [|x t]].
  - discriminate.
  - cbn. rewrite andb_false_r. auto.
  - intros H. change (marks_only l = true). cbn [tidy_before] in H.
    destruct (uncited l && marks_next (x :: t)); [apply marks_next_cons in H; apply H|].
    destruct (_ && marks_next t); [|apply marks_next_cons in H; apply H].
    destruct t; apply marks_next_cons in H; apply H.
Qed.
Lemma not_next t : marks_next t = false -> marks_next (tidy_before t) = false.
Proof. intros H. destruct (marks_next (tidy_before t)) eqn:E; trivial. apply before_next in E. congruence. Qed.
Lemma before_led : forall n t, length t <= n -> lone t -> led (tidy_before t).
Proof.
  induction n as [|n IH]; intros [|l t1] L HL; [constructor|cbn in L; lia|constructor|cbn in L].
  destruct HL as [H1 H2]. cbn [tidy_before]. destruct (uncited l && marks_next t1) eqn:E.
  - apply andb_true_iff in E as [_ E]. destruct t1 as [|m t2]; [discriminate|]. apply marks_next_cons in E as [E _].
    destruct H2 as [H2 H3]. split; [|apply IH; [cbn in L; lia|trivial]]. intros _. apply not_next. auto.
  - assert (U : uncited l = true -> marks_next t1 = false) by (intros U; now rewrite U in E).
    destruct t1 as [|x t2]; [split; trivial|]. destruct (_ && marks_next t2) eqn:E2.
    + apply andb_true_iff in E2 as [_ E2]. destruct t2 as [|m t3]; [discriminate|]. apply marks_next_cons in E2 as [E2 N].
      destruct H2 as [H2 [H3 H4]]. split; [|split].
      * intros Ul. specialize (U Ul). cbn in U |- *. now destruct (tidy_before t3).
      * intros _. apply not_next. auto.
      * apply IH; [cbn in L; lia|trivial].
    + split; [intros Ul; apply not_next; auto|]. apply IH; [cbn in *; lia|trivial].
Qed.
Lemma tidy_led t : led (tidy t).
Proof. unfold tidy. eapply fm_led; [apply after_fm|]. eapply before_led; [reflexivity|apply repeated_lone]. Qed.
Lemma led_pair : forall a x m z b, led (a ++ x :: m :: z :: b) -> uncited x = true -> ~ marks_line m.
Proof.
  induction a as [|l a IH]; intros x m z b H U; cbn in H.
  - intros M. apply marks_only_iff in M. destruct H as [H _]. specialize (H U). cbn in H. congruence.
  - eapply IH; [apply H|trivial].
Qed.
