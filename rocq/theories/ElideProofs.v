(** Proofs for C98. *)
From Verif Require Import Bytes Elide ElideSpec.
From Coq Require Import List Bool Ascii Lia.
Import ListNotations.

Lemma white_spec c : white c = true <-> In c [" "; "009"; "012"; "013"]%char.
Proof. unfold white. rewrite !orb_true_iff, !beq_eq. cbn. intuition congruence. Qed.
Lemma all_white_spec l : all_white l = true <-> blank_line l.
Proof.
  unfold all_white, blank_line. rewrite forallb_forall. split; intros H c I; apply white_spec; auto.
Qed.
Lemma nil_blank : blank_line [].
Proof. intros c []. Qed.
Lemma fb_trans : forall t u, fewer_blanks t u -> forall v, fewer_blanks u v -> fewer_blanks t v.
Proof.
  induction 1 as [|l t u H IH|l t u B H IH|l t u B H IH]; intros v K; trivial.
  - inversion K; subst; [apply fb_same|apply fb_drop|apply fb_empty]; auto.
  - apply fb_drop; auto.
  - inversion K; subst; [apply fb_empty|apply fb_drop|apply fb_empty]; auto.
Qed.
Lemma fb_refl t : fewer_blanks t t.
Proof. induction t; constructor; trivial. Qed.
Lemma empty_fb t : fewer_blanks t (empty_blanks t).
Proof. induction t as [|l t IH]; cbn; [constructor|]. destruct (all_white l) eqn:E; [apply fb_empty|apply fb_same]; trivial. now apply all_white_spec. Qed.
Lemma join_fb : forall t prev, fewer_blanks t (join_blanks prev t).
Proof.
  induction t as [|l t IH]; intros prev; cbn; [constructor|]. destruct (all_white l) eqn:E.
  - apply all_white_spec in E. destruct prev; [apply fb_drop|apply fb_empty]; auto.
  - apply fb_same; auto.
Qed.
Lemma single_fb : forall t prev, fewer_blanks t (single_blanks prev t).
Proof.
  induction t as [|l t IH]; intros prev; [constructor|]. destruct t as [|x t]; [apply fb_refl|].
  change (fewer_blanks (l :: x :: t) (match l with [] => if prev then single_blanks true (x :: t) else l :: single_blanks true (x :: t) | _ => l :: single_blanks false (x :: t) end)).
  destruct l as [|c l]; [destruct prev|]; [apply fb_drop; [apply nil_blank|]|apply fb_same|apply fb_same]; apply IH.
Qed.
Lemma leading_fb t : fewer_blanks t (drop_leading t).
Proof. destruct t as [|[|c l] [|x t]]; try apply fb_refl. cbn. apply fb_drop; [apply nil_blank|apply fb_refl]. Qed.

(** Blank lines are empty, and no two are together, but perhaps at the end ([strict]: not there either). *)
Fixpoint apart (strict prev : bool) (t : list bytes) : Prop :=
  match t with
  | [] => True
  | l :: t => (blank_line l -> l = []) /\ (prev = true -> l = [] -> strict = false /\ t = []) /\
              apart strict (match l with [] => true | _ => false end) t
  end.
Lemma apart_weaken s t : apart s true t -> apart s false t.
Proof. destruct t; cbn; intuition congruence. Qed.
Lemma join_apart : forall t prev, apart true prev (join_blanks prev t).
Proof.
  induction t as [|l t IH]; intros prev; cbn; trivial. destruct (all_white l) eqn:E.
  - destruct prev; [apply IH|]. cbn. repeat split; try discriminate. apply IH.
  - assert (N : ~ blank_line l) by (rewrite <- all_white_spec, E; discriminate).
    cbn. destruct l as [|c l]; [now destruct N|]. repeat split; try contradiction; try discriminate. apply IH.
Qed.
Lemma single_id : forall t prev, apart true prev t -> single_blanks prev t = t.
Proof.
  induction t as [|l t IH]; intros prev H; trivial. destruct t as [|x t]; trivial.
  change (match l with [] => if prev then single_blanks true (x :: t) else l :: single_blanks true (x :: t) | _ => l :: single_blanks false (x :: t) end = l :: x :: t).
  destruct H as (_ & B & C). destruct l as [|c l].
  - destruct prev; [destruct (B eq_refl eq_refl); discriminate|]. now rewrite IH.
  - now rewrite IH.
Qed.
Lemma single_apart : forall t prev, (forall l, In l t -> blank_line l -> l = []) -> apart false prev (single_blanks prev t).
Proof.
  induction t as [|l t IH]; intros prev H; [exact I|]. destruct t as [|x t].
  - cbn. repeat split; auto. apply H. now left.
  - assert (H' : forall l, In l (x :: t) -> blank_line l -> l = []) by (intros; apply H; [now right|trivial]).
    change (apart false prev (match l with [] => if prev then single_blanks true (x :: t) else l :: single_blanks true (x :: t) | _ => l :: single_blanks false (x :: t) end)).
    destruct l as [|c l].
    + destruct prev; [now apply IH|]. split; [trivial|]. split; [discriminate|]. now apply IH.
    + split; [intros B; now apply H; [left|]|]. split; [discriminate|]. now apply IH.
Qed.
Lemma elide_apart nl t : exists u, elide nl t = drop_leading u /\ apart nl false u.
Proof.
  unfold elide, drop_trailing. destruct nl.
  - eexists. split; [reflexivity|]. rewrite single_id; apply join_apart.
  - eexists. split; [reflexivity|]. apply single_apart. intros l I B. unfold empty_blanks in I. apply in_map_iff in I as (x & <- & _).
    destruct (all_white x) eqn:E; trivial. apply all_white_spec in B. congruence.
Qed.
Lemma apart_pair s : forall a p t x y b, apart s p t -> t = a ++ x :: y :: b -> blank_line x -> blank_line y -> s = false /\ b = [].
Proof.
  induction a as [|z a IH]; intros p t x y b H -> X Y; cbn in H.
  - destruct H as (A & _ & (C & D & _)). rewrite (A X) in D. apply D; auto.
  - eapply IH; [apply H|reflexivity|trivial|trivial].
Qed.

(** ** Paragraphs *)
Lemma is_blank_white l : is_blank l = all_white l.
Proof.
  unfold is_blank, all_white. induction l as [|c l IH]; cbn [forallb]; trivial. rewrite IH. f_equal.
  destruct (in_dec ascii_dec c _) as [I|N].
  - symmetry. now apply white_spec.
  - destruct (white c) eqn:E; trivial. now apply white_spec in E.
Qed.
Lemma empty_par : forall t o, paragraphs_from o (empty_blanks t) = paragraphs_from o t.
Proof.
  induction t as [|l t IH]; intros o; cbn; trivial. rewrite (is_blank_white l). destruct (all_white l) eqn:E.
  - cbn. now rewrite IH.
  - rewrite is_blank_white, E. apply IH.
Qed.
Lemma join_par : forall t prev o, (prev = true -> o = []) -> paragraphs_from o (join_blanks prev t) = paragraphs_from o t.
Proof.
  induction t as [|l t IH]; intros prev o H; cbn; trivial. rewrite (is_blank_white l). destruct (all_white l) eqn:E.
  - destruct prev.
    + rewrite (H eq_refl). now apply IH.
    + cbn. rewrite IH; trivial.
  - cbn. rewrite is_blank_white, E. apply IH. discriminate.
Qed.
Lemma single_par : forall t prev o, (prev = true -> o = []) -> paragraphs_from o (single_blanks prev t) = paragraphs_from o t.
Proof.
  induction t as [|l t IH]; intros prev o H; trivial. destruct t as [|x t]; trivial.
  change (paragraphs_from o (match l with [] => if prev then single_blanks true (x :: t) else l :: single_blanks true (x :: t) | _ => l :: single_blanks false (x :: t) end)
          = paragraphs_from o (l :: x :: t)).
  destruct l as [|c l].
  - destruct prev.
    + rewrite (H eq_refl), (IH true []) by trivial. reflexivity.
    + change (paragraphs_from o ([] :: single_blanks true (x :: t))) with (match o with [] => paragraphs_from [] (single_blanks true (x :: t)) | _ => o :: paragraphs_from [] (single_blanks true (x :: t)) end).
      rewrite (IH true []) by trivial. reflexivity.
  - change (paragraphs_from o ((c :: l) :: single_blanks false (x :: t))) with
      (if is_blank (c :: l) then match o with [] => paragraphs_from [] (single_blanks false (x :: t)) | _ => o :: paragraphs_from [] (single_blanks false (x :: t)) end
       else paragraphs_from (o ++ [c :: l]) (single_blanks false (x :: t))).
    rewrite !IH by discriminate. reflexivity.
Qed.
Lemma leading_par t : paragraphs_from [] (drop_leading t) = paragraphs_from [] t.
Proof. destruct t as [|[|c l] [|x t]]; reflexivity. Qed.
