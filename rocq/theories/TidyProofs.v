(** Proofs for C99. *)
From Verif Require Import Bytes Elide ElideSpec Tidy TidySpec.
From Coq Require Import List Bool Ascii Lia.
Import ListNotations.

Lemma marks_only_spec l : marks_only l = true -> marks_line l.
Proof.
  destruct l as [|c r]; [discriminate|]. cbn. intros H. apply andb_true_iff in H as [A B]. apply beq_eq in A. subst.
  exists r. split; trivial. intros c I. rewrite forallb_forall in B. specialize (B c I). apply orb_true_iff in B as [B|B]; apply beq_eq in B; auto.
Qed.
Lemma fm_refl t : fewer_marks t t.
Proof. induction t; constructor; trivial. Qed.
Lemma fm_trans : forall t u, fewer_marks t u -> forall v, fewer_marks u v -> fewer_marks t v.
Proof.
  induction 1 as [|l t u H IH|l t u B H IH]; intros v K; trivial.
  - inversion K; subst; [apply fm_same|apply fm_drop]; auto.
  - apply fm_drop; auto.
Qed.
Lemma next_marks t : marks_next t = true -> exists l r, t = l :: r /\ marks_line l.
Proof. destruct t as [|l [|x t]]; cbn; try discriminate. intros H. exists l, (x :: t). split; trivial. now apply marks_only_spec. Qed.
Lemma repeated_fm t : fewer_marks t (tidy_repeated t).
Proof.
  induction t as [|l t IH]; cbn; [constructor|]. destruct (marks_only l && marks_next t) eqn:E; [|now apply fm_same].
  apply andb_true_iff in E as [E _]. apply fm_drop; trivial. now apply marks_only_spec.
Qed.
Lemma after_fm t : fewer_marks t (tidy_after t).
Proof.
  induction t as [|l t IH]; cbn; [constructor|]. destruct (marks_only l && _) eqn:E; [|now apply fm_same].
  apply andb_true_iff in E as [E _]. apply fm_drop; trivial. now apply marks_only_spec.
Qed.
Lemma before_fm : forall n t, length t <= n -> fewer_marks t (tidy_before t).
Proof.
  induction n as [|n IH]; intros [|l t1] L; [constructor|cbn in L; lia|constructor|cbn in L].
  cbn [tidy_before]. destruct (uncited l && marks_next t1) eqn:E.
  - apply andb_true_iff in E as [_ E]. apply next_marks in E as (m & r & -> & M). apply fm_same. apply fm_drop; [exact M|]. apply IH. cbn in L. lia.
  - destruct t1 as [|x t2]; [apply fm_refl|]. destruct (_ && marks_next t2) eqn:E2.
    + apply andb_true_iff in E2 as [_ E2]. apply next_marks in E2 as (m & r & -> & M). apply fm_same. apply fm_same. apply fm_drop; [exact M|]. apply IH. cbn in L. lia.
    + apply fm_same, IH. lia.
Qed.
Lemma tidy_fm t : fewer_marks t (tidy t).
Proof.
  unfold tidy. eapply fm_trans; [apply repeated_fm|]. eapply fm_trans; [eapply before_fm; reflexivity|apply after_fm].
Qed.

(** ** Both together *)
Lemma marks_silent l : marks_line l -> says_something l = false.
Proof.
  intros (r & -> & H). unfold says_something. destruct (existsb _ _) eqn:E; trivial. apply existsb_exists in E as (c & I & E).
  destruct (in_dec ascii_dec c _) as [|N]; [discriminate|]. exfalso. apply N. destruct I as [<-|I]; [cbn; tauto|].
  destruct (H c I) as [->| ->]; cbn; tauto.
Qed.
Lemma blank_silent l : blank_line l -> says_something l = false.
Proof.
  intros H. unfold says_something. destruct (existsb _ _) eqn:E; trivial. apply existsb_exists in E as (c & I & E).
  destruct (in_dec ascii_dec c _) as [|N]; [discriminate|]. exfalso. apply N. specialize (H c I). cbn in *. tauto.
Qed.
Lemma fm_says t u : fewer_marks t u -> filter says_something u = filter says_something t.
Proof.
  induction 1 as [|l t u H IH|l t u B H IH]; cbn; trivial.
  - now rewrite IH.
  - now rewrite (marks_silent _ B).
Qed.
Lemma fb_says t u : fewer_blanks t u -> filter says_something u = filter says_something t.
Proof.
  induction 1 as [|l t u H IH|l t u B H IH|l t u B H IH]; cbn; trivial.
  - now rewrite IH.
  - now rewrite (blank_silent _ B).
  - now rewrite (blank_silent _ B).
Qed.
