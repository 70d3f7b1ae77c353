(** C84: what notmuch-emacs-mua makes of its command line. *)
From Verif Require Import Bytes EmacsMua EmacsMuaSpec EmacsMuaProofs.
Local Open Scope nat_scope.

(** Whatever the values, recipients and the current directory contain (quotation marks,
    backslashes, parentheses, newlines), the Lisp given to Emacs is one well-formed
    expression, and evaluating it composes a mail with exactly these contents. *)
Theorem C84_compose glob pwd ws its pos :
  spelled ws its -> operands pos -> Forall (fun w => is_mailto w = false) pos -> flagged Print its = false ->
  existsb modifies its = true \/ pos <> [] \/ flagged Hello_flag its = false ->
  exists e d, emacs_mua glob pwd (ws ++ pos) = Runs (flagged Client its) (words its) e /\
    eval_text e = Some {| s_dir := Some pwd; s_window := Composing d; s_exit := exits its |} /\
    d_subject d = concat (values Subject its) /\
    d_to d = comma_list (values To its) ++ concat (map (fun a => a ++ lit ", ") pos) /\
    d_cc d = comma_list (values Cc its) /\ d_bcc d = comma_list (values Bcc its) /\ d_files d = files its.
Proof.
  intros S O F P C. destruct (compose_acts glob pwd _ _ _ S O F C) as (e & d & E & R). exists e, d. split; [|exact R]. rewrite E. unfold acts. now rewrite P.
Qed.

(** A mailto: operand alone is handed to Emacs as it is. *)
Theorem C84_mailto glob pwd ws its u :
  spelled ws its -> existsb modifies its = false -> is_mailto u = true -> flagged Print its = false ->
  exists e, emacs_mua glob pwd (ws ++ [u]) = Runs (flagged Client its) (words its) e /\
    eval_text e = Some {| s_dir := Some pwd; s_window := Mail_url u; s_exit := exits its |}.
Proof. intros S M U P. destruct (mailto_acts glob pwd _ _ _ S M U) as (e & E & R). exists e. split; [|exact R]. rewrite E. unfold acts. now rewrite P. Qed.

(** --hello, when nothing asks for a mail, shows the hello screen. *)
Theorem C84_hello glob pwd ws its :
  spelled ws its -> existsb modifies its = false -> flagged Hello_flag its = true -> flagged Print its = false ->
  exists e, emacs_mua glob pwd ws = Runs (flagged Client its) (words its) e /\
    eval_text e = Some {| s_dir := Some pwd; s_window := Hello; s_exit := exits its |}.
Proof. intros S M U P. destruct (hello_acts glob pwd _ _ S M U) as (e & E & R). exists e. split; [|exact R]. rewrite E. unfold acts. now rewrite P. Qed.

(** A mailto: operand with anything else that says what to write, two of them, and unknown
    options are refused: nothing is run. *)
Theorem C84_refuses glob pwd ws its : spelled ws its ->
  (forall pos, operands pos -> existsb is_mailto pos = true -> existsb modifies its = true \/ existsb (fun w => negb (is_mailto w)) pos = true ->
     emacs_mua glob pwd (ws ++ pos) = Fails) /\
  (forall a b c u1 u2, operands (a ++ u1 :: b ++ u2 :: c) -> is_mailto u1 = true -> is_mailto u2 = true -> emacs_mua glob pwd (ws ++ a ++ u1 :: b ++ u2 :: c) = Fails) /\
  (forall w rest, unknown w -> emacs_mua glob pwd (ws ++ w :: rest) = Fails).
Proof.
  intros S. split; [intros pos; now apply mixed_fails|]. split; [|intros w rest; now apply (unknown_fails _ _ _ its)].
  intros a b c u1 u2. apply (two_fails glob pwd ws its _ a b c u1 u2 S). reflexivity.
Qed.

(** --print does not run anything, and prints the words of the expression that is run without it. *)
Theorem C84_print glob pwd its its' ws ws' pos : spelled ws its -> spelled ws' its' -> operands pos ->
  its' = filter (fun i => match i with Flag Print => false | _ => true end) its -> flagged Print its = true ->
  emacs_mua glob pwd (ws ++ pos) = match emacs_mua glob pwd (ws' ++ pos) with Runs _ _ e => Prints (echo (flat_map glob (split_words [] e))) | o => o end.
Proof.
  intros S S' O -> P. rewrite (emacs_mua_eq _ _ _ _ _ S O), (emacs_mua_eq _ _ _ _ _ S' O).
  set (fl := filter _ its). set (unp := fun v => set_flags false (v_no_window v) (v_client v) (v_daemon v) (v_frame v) (v_hello v) v).
  assert (G : forall l v w, unp v = unp w -> unp (fold_left apply_item l v) = unp (fold_left apply_item (filter (fun i => match i with Flag Print => false | _ => true end) l) w)).
  { induction l as [|i l IH]; intros v w E; [exact E|]. cbn [filter fold_left].
    assert (K : unp (apply_item v i) = unp (apply_item w i)).
    { unfold unp, set_flags in *. injection E as A1 A2 A3 A4 A5 A6 A7 A8 A9 A10. destruct i as [[] t|t|[]]; unfold apply_item; cbn; congruence. }
    destruct i as [f t|t|[]]; cbn [fold_left]; apply IH; exact K. }
  assert (Q : forall l v w, unp v = unp w -> match positional l v, positional l w with Some v, Some w => unp v = unp w | None, None => True | _, _ => False end).
  { induction l as [|x l IH]; intros v w E; [exact E|]. cbn [positional]. unfold unp, set_flags in E. injection E as A1 A2 A3 A4 A5 A6 A7 A8 A9 A10.
    destruct (starts_with (lit "mailto:") (escape x)).
    - rewrite <- A6. destruct (v_mailto v); [|exact Logic.I]. apply IH. unfold unp, set_flags. cbn. congruence.
    - apply IH. unfold unp, set_flags, add_elisp. cbn. congruence. }
  specialize (Q pos _ _ (G its mua_init mua_init eq_refl)). fold fl in Q.
  assert (R : forall l v v', positional l v = Some v' -> v_print v' = v_print v).
  { induction l as [|x l IH]; intros v v' E; [now injection E as <-|]. cbn [positional] in E. destruct (starts_with (lit "mailto:") (escape x)); [destruct (v_mailto v); [|discriminate]|]; apply IH in E; exact E. }
  destruct (said_all its) as (fs & d & SD). destruct (said_all fl) as (fs' & d' & SD').
  destruct (positional pos (fold_left apply_item its mua_init)) as [v|] eqn:E1, (positional pos (fold_left apply_item fl mua_init)) as [w|] eqn:E2; try contradiction; [|reflexivity].
  apply R in E1, E2. destruct (sd_flags _ _ _ _ _ SD) as (F1 & _). destruct (sd_flags _ _ _ _ _ SD') as (F1' & _).
  assert (N : flagged Print fl = false). { unfold fl. clear. induction its as [|i l IH]; [reflexivity|]. cbn [filter]. destruct i as [f t|t|[]]; cbn [flagged existsb]; exact IH. }
  rewrite F1, P in E1. rewrite F1', N in E2. rewrite !finish_eq.
  assert (X : main_of v = main_of w /\ v_client v = v_client w /\ v_frame v = v_frame w /\ v_no_window v = v_no_window w).
  { unfold unp, set_flags in Q. injection Q as A1 A2 A3 A4 A5 A6 A7 A8 A9 A10. unfold main_of. rewrite A5, A6, A7. auto. }
  destruct X as (X1 & X2 & X3 & X4). rewrite X1, X2, X3, X4, E1, E2. destruct (main_of w); [|reflexivity]. cbn zeta. destruct (v_client w); reflexivity.
Qed.

(** But the words are separated by single blanks: --print -s "a  b" prints a different subject. *)
Theorem C84_print_refuted : exists t d,
  emacs_mua (fun w => [w]) (lit "/") [lit "--print"; lit "-s"; lit "a  b"] = Prints t /\
  option_map s_window (eval_text t) = Some (Composing d) /\ d_subject d = lit "a b".
Proof. eexists _, _. split; [reflexivity|]. split; [vm_compute; reflexivity|reflexivity]. Qed.
(** --to=a b: no separator between the two recipients. *)
Theorem C84_glued_refuted : exists e d,
  emacs_mua (fun w => [w]) (lit "/") [lit "--to=a@x"; lit "b@x"] = Runs false [] e /\
  option_map s_window (eval_text e) = Some (Composing d) /\ d_to d = lit "a@xb@x, ".
Proof. eexists _, _. split; [reflexivity|]. split; [vm_compute; reflexivity|reflexivity]. Qed.
(** The word that ends the options becomes a recipient. *)
Theorem C84_dashdash_refuted : exists e d,
  emacs_mua (fun w => [w]) (lit "/") [lit "--"; lit "b@x"] = Runs false [] e /\
  option_map s_window (eval_text e) = Some (Composing d) /\ d_to d = lit "--, b@x, ".
Proof. eexists _, _. split; [reflexivity|]. split; [vm_compute; reflexivity|reflexivity]. Qed.

(** ** Examples *)
(** A subject that would be Lisp. *)
Example evil : bytes := lit "x" ++ [QUOTE] ++ lit ") (delete-file " ++ [QUOTE] ++ lit "~/.profile" ++ [QUOTE] ++ lit "); " ++ [BS].
Example evil_composes : exists e d,
  emacs_mua (fun w => [w]) (lit "/a b") [lit "--client"; lit "-s"; evil; lit "--to=a@x"; lit "--to=c@x"; lit "-cb@x"; lit "-i"; lit "f"] = Runs true [] e /\
  eval_text e = Some {| s_dir := Some (lit "/a b"); s_window := Composing d; s_exit := false |} /\
  d_subject d = evil /\ d_to d = lit "a@x, c@x" /\ d_cc d = lit "b@x" /\ d_files d = [lit "f"].
Proof.
  destruct (C84_compose (fun w => [w]) (lit "/a b") [lit "--client"; lit "-s"; evil; lit "--to=a@x"; lit "--to=c@x"; lit "-cb@x"; lit "-i"; lit "f"]
    [Flag Client; Set_field Subject evil; Set_field To (lit "a@x"); Set_field To (lit "c@x"); Set_field Cc (lit "b@x"); Body (lit "f")] []) as (e & d & E & R & A1 & A2 & A3 & A4 & A5).
  - apply (sp_cons [lit "--client"]); [constructor|]. apply (sp_cons [lit "-s"; evil]); [constructor|]. apply (sp_cons [lit "--to=a@x"]); [apply (s_to (lit "a@x"))|].
    apply (sp_cons [lit "--to=c@x"]); [apply (s_to (lit "c@x"))|]. apply (sp_cons [lit "-cb@x"]); [apply (s_c1 (lit "b@x")); discriminate|].
    apply (sp_cons [lit "-i"; lit "f"]); [constructor|]. constructor.
  - exact Logic.I.
  - constructor.
  - reflexivity.
  - left. reflexivity.
  - exists e, d. split; [exact E|]. split; [exact R|]. split; [rewrite A1; reflexivity|]. split; [exact A2|]. split; [exact A3|exact A5].
Qed.
Example refused_mailto : emacs_mua (fun w => [w]) (lit "/") [lit "-s"; lit "x"; lit "mailto:a@x"] = Fails. Proof. reflexivity. Qed.
Example refused_unknown : emacs_mua (fun w => [w]) (lit "/") [lit "--client"; lit "--subject"; lit "x"] = Fails.
Proof.
  apply (proj2 (proj2 (C84_refuses (fun w => [w]) (lit "/") [lit "--client"] [Flag Client] ltac:(apply (sp_cons [lit "--client"]); constructor))) (lit "--subject") [lit "x"]).
  apply (u_long "s"%char (lit "ubject")); [|discriminate]. intros i H. inversion H.
Qed.
Example printed : emacs_mua (fun w => [w]) (lit "/") [lit "--print"; lit "-s"; lit "x"] =
  Prints (lit "(prog1 'done (require 'notmuch) (cd " ++ [QUOTE] ++ lit "/" ++ [QUOTE] ++ lit ") (notmuch-mua-new-mail) (message-goto-subject) (insert " ++ [QUOTE] ++ lit "x" ++ [QUOTE] ++ lit ") (message-add-action #'save-buffers-kill-terminal 'exit))").
Proof. reflexivity. Qed.

Print Assumptions C84_compose.
Print Assumptions C84_mailto.
Print Assumptions C84_hello.
Print Assumptions C84_refuses.
Print Assumptions C84_print.
Print Assumptions C84_print_refuted.
Print Assumptions C84_glued_refuted.
Print Assumptions C84_dashdash_refuted.
