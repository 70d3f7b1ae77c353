(** C99: tidying the citations of a message shown in Emacs. *)
From Verif Require Import Bytes Elide ElideSpec ElideProofs Tidy TidySpec TidyProofs TidyProofs2 TidyProofs3 P_Elide.
From Coq Require Import List Bool Ascii Lia.
Import ListNotations.

(** Nothing is changed or moved, and only lines of ">" and spaces are lost. *)
Theorem C99_only_marks : forall t, fewer_marks t (tidy t).
Proof. exact tidy_fm. Qed.
(** After tidying and then eliding blank lines, as Emacs does, all lines that say something are shown, in their order. *)
Theorem C99_text_kept : forall nl t, filter says_something (elide nl (tidy t)) = filter says_something t.
Proof. intros nl t. rewrite (fb_says _ _ (C98_text_kept nl (tidy t))). apply fm_says, tidy_fm. Qed.
(** A text without lines of marks alone is left as it is. *)
Theorem C99_untouched : forall t, (forall l, In l t -> ~ marks_line l) -> tidy t = t.
Proof.
  intros t H. pose proof (tidy_fm t) as F. induction F as [|l t u F IH|l t u B F IH]; trivial.
  - f_equal. apply IH. intros x I. apply H. now right.
  - destruct (H l (or_introl eq_refl) B).
Qed.
(** Afterwards no two lines of marks follow each other, but perhaps the last two of a text whose last line has no line break. *)
Theorem C99_repeated : forall t a x y z b, tidy t = a ++ x :: y :: z :: b -> ~ (marks_line x /\ marks_line y).
Proof. intros t a x y z b E. apply (lone_pair a x y z b). rewrite <- E. apply tidy_lone. Qed.
(** And after a line of marks there is a cited line, or nothing. *)
Theorem C99_trailers : forall t a m x b, tidy t = a ++ m :: x :: b -> marks_line m -> exists r, x = ">"%char :: r.
Proof.
  intros t a m x b E M. apply marks_only_iff in M. unfold tidy in E. apply after_none in E as [U N]; trivial.
  - destruct x as [|c x]; [congruence|]. cbn in U. apply negb_false_iff, beq_eq in U. subst. eauto.
  - eapply fm_lone; [eapply before_fm; reflexivity|apply repeated_lone].
Qed.
(** Nor does a line of marks with a line break follow a line of text that is not cited. *)
Theorem C99_leaders : forall t a c r m z b, tidy t = a ++ (c :: r) :: m :: z :: b -> c <> ">"%char -> ~ marks_line m.
Proof.
  intros t a c r m z b E N. apply (led_pair a (c :: r) m z b).
  - rewrite <- E. apply tidy_led.
  - cbn. now apply negb_true_iff, beq_neq.
Qed.
(** Paragraphs of a citation may run together, although the line of marks is neither before nor after a block of cited text:
    in Emacs [^>] matches a line break, so that after an empty line any line counts as one that is not cited. *)
Theorem C99_paragraphs_refuted :
  tidy [lit "He wrote:"; []; lit "> first"; lit ">"; lit "> second"; []] = [lit "He wrote:"; []; lit "> first"; lit "> second"; []].
Proof. reflexivity. Qed.

Example C99_example :
  tidy [lit "He wrote:"; lit ">"; lit "> a"; lit "> b"; lit "> "; lit ">>"; lit "> c"; lit "> "; lit "Yes"] =
  [lit "He wrote:"; lit "> a"; lit "> b"; lit ">>"; lit "> c"; lit "Yes"].
Proof. reflexivity. Qed.

Print Assumptions C99_only_marks.
Print Assumptions C99_text_kept.
Print Assumptions C99_untouched.
Print Assumptions C99_repeated.
Print Assumptions C99_trailers.
Print Assumptions C99_leaders.
Print Assumptions C99_paragraphs_refuted.
