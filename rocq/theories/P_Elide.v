(** C98: eliding blank lines of a message shown in Emacs. *)
From Verif Require Import Bytes Elide ElideSpec ElideProofs.
From Coq Require Import List Bool Ascii Lia.
Import ListNotations.

(** No line that shows something is lost, changed or moved: only blank lines go away or become empty. *)
Theorem C98_text_kept : forall nl t, fewer_blanks t (elide nl t).
Proof.
  intros nl t. unfold elide, drop_trailing. eapply fb_trans; [|apply leading_fb].
  destruct nl; [eapply fb_trans; [apply (join_fb t false)|]|eapply fb_trans; [apply empty_fb|]]; apply single_fb.
Qed.
(** The paragraphs are the same: what was separated by blank lines still is, and nothing else. *)
Theorem C98_paragraphs : forall nl t, paragraphs (elide nl t) = paragraphs t.
Proof.
  intros nl t. unfold paragraphs, elide, drop_trailing. rewrite leading_par, single_par by trivial.
  destruct nl; [now apply join_par|apply empty_par].
Qed.
(** No two blank lines follow each other, but perhaps the last two, and those only if white space in the syntax table does not include
    the line break. *)
Theorem C98_single : forall nl t a x y b, elide nl t = a ++ x :: y :: b -> blank_line x -> blank_line y -> nl = false /\ b = [].
Proof.
  intros nl t a x y b E X Y. destruct (elide_apart nl t) as (u & E' & H). rewrite E' in E.
  destruct u as [|[|c l] [|z u]]; try (eapply apart_pair; [exact H|exact E|exact X|exact Y]).
  apply (apart_pair nl (nil :: a) false _ x y b H); trivial. cbn in E |- *. now rewrite E.
Qed.
(** The first line is not blank, unless it is the only one. *)
Theorem C98_leading : forall nl t x y r, elide nl t = x :: y :: r -> ~ blank_line x.
Proof.
  intros nl t x y r E B. destruct (elide_apart nl t) as (u & E' & H). rewrite E' in E.
  destruct u as [|[|c l] [|z u]]; cbn in E; try discriminate.
  - injection E as -> ->. destruct H as (_ & _ & (Z & D & _)). destruct (D eq_refl (Z B)); discriminate.
  - injection E as <- <- <-. destruct H as (Z & _). specialize (Z B). discriminate.
Qed.
(** Otherwise a trailing blank line is not removed, although the documentation says so: at the end of the buffer there is nothing to look at. *)
Theorem C98_trailing_refuted : elide false [lit "text"; []; []] = [lit "text"; []; []].
Proof. reflexivity. Qed.

Example C98_example :
  elide false [lit "  "; []; lit "one"; lit " "; []; lit "  two"; []] = [lit "one"; []; lit "  two"; []] /\
  elide true [lit "  "; []; lit "one"; lit " "; []; lit "  two"; lit " "; []] = [lit "one"; []; lit "  two"; []].
Proof. split; reflexivity. Qed.

Example C98_paragraphs_example :
  paragraphs [lit "one"; lit " two"; lit " "; []; lit "three"; []] = [[lit "one"; lit " two"]; [lit "three"]].
Proof. reflexivity. Qed.

Print Assumptions C98_text_kept.
Print Assumptions C98_paragraphs.
Print Assumptions C98_single.
Print Assumptions C98_leading.
Print Assumptions C98_trailing_refuted.
