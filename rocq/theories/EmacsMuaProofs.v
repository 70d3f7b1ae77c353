(** The Lisp that notmuch-emacs-mua builds. *)
From Verif Require Import Bytes EmacsMua EmacsMuaSpec.
Local Open Scope nat_scope.

Definition esc1 (c : byte) : bytes := if beq c BS then [BS; BS] else if beq c QUOTE then [BS; QUOTE] else [c].
Lemma escape_map s : escape s = concat (map esc1 s).
Proof.
  unfold escape, replace_char, esc1. induction s as [|c s IH]; [reflexivity|]. cbn [map concat]. rewrite map_app, concat_app, IH. f_equal.
  destruct (beq c BS) eqn:B; [reflexivity|]. cbn [map concat]. destruct (beq c QUOTE); now rewrite ?app_nil_r.
Qed.
Lemma feed_app s a b : feed s (a ++ b) = match feed s a with Some s => feed s b | None => None end.
Proof. revert s. induction a as [|c a IH]; intros s; [reflexivity|]. cbn [app feed]. destruct (feed1 s c); [apply IH|reflexivity]. Qed.
Lemma feed_escape st s r : forall acc, feed (st, Str acc) (escape s ++ r) = feed (st, Str (rev s ++ acc)) r.
Proof.
  rewrite escape_map. induction s as [|c s IH]; intros acc; [reflexivity|]. cbn [map concat rev]. rewrite <- app_assoc, <- app_assoc. cbn [app]. unfold esc1 at 1.
  destruct (beq c BS) eqn:B.
  - apply Ascii.eqb_eq in B. subst c. cbn [app feed feed1]. change (beq BS (chr 34)) with false. change (beq BS (chr 92)) with true. cbn [orb]. apply IH.
  - destruct (beq c QUOTE) eqn:Q.
    + apply Ascii.eqb_eq in Q. subst c. cbn [app feed feed1]. change (beq BS (chr 34)) with false. change (beq BS (chr 92)) with true. change (beq QUOTE (chr 34)) with true. cbn [orb]. apply IH.
    + cbn [app feed feed1]. change (chr 34) with QUOTE. change (chr 92) with BS. rewrite B, Q. apply IH.
Qed.
Lemma escape_app a b : escape (a ++ b) = escape a ++ escape b.
Proof. rewrite !escape_map. now rewrite map_app, concat_app. Qed.
Lemma starts_escape p : forallb (fun c => negb (beq c BS) && negb (beq c QUOTE)) p = true -> forall s, starts_with p (escape s) = starts_with p s.
Proof.
  intros H s. rewrite escape_map. revert s. unfold starts_with. induction p as [|x p IH]; intros s; [reflexivity|]. cbn [forallb] in H. apply andb_true_iff in H as [X H]. apply andb_true_iff in X as [X1 X2]. apply negb_true_iff in X1, X2.
  destruct s as [|c s]; [reflexivity|]. cbn [map concat]. unfold esc1 at 1. destruct (beq c BS) eqn:B; [apply Ascii.eqb_eq in B; subst c; cbn [app strip_prefix]; now rewrite X1|].
  destruct (beq c QUOTE) eqn:Q; [apply Ascii.eqb_eq in Q; subst c; cbn [app strip_prefix]; now rewrite X1, X2|]. cbn [app strip_prefix]. destruct (beq x c); [apply IH; exact H|reflexivity].
Qed.
Lemma escape_nil s : escape s = [] -> s = [].
Proof. rewrite escape_map. destruct s as [|c s]; [reflexivity|]. cbn [map concat]. unfold esc1. destruct (beq c BS), (beq c QUOTE); discriminate. Qed.

(** ** Forms *)
Definition goto_name (p : place) : bytes := match p with At Subject => lit "subject" | At To => lit "to" | At Cc => lit "cc" | At Bcc => lit "bcc" | InBody => lit "body" end.
Definition goto_symbol (p : place) : bytes := lit "message-goto-" ++ goto_name p.
Definition verb (p : place) : bytes := match p with InBody => lit "insert-file" | _ => lit "insert" end.
Lemma feed_form p l st t : feed (FList l :: st, Between) (form (goto_name p) (verb p) (escape t)) =
  Some (FList (LList [LSym (verb p); LStr t] :: LList [LSym (goto_symbol p)] :: l) :: st, Between).
Proof.
  unfold form. assert (P : forall r, feed (FList l :: st, Between) (lit " (message-goto-" ++ goto_name p ++ lit ") (" ++ verb p ++ lit " " ++ [QUOTE] ++ r) =
    feed (FList [LSym (verb p)] :: FList (LList [LSym (goto_symbol p)] :: l) :: st, Str []) r) by (intros r; destruct p as [[]|]; reflexivity).
  rewrite P, feed_escape. rewrite app_nil_r. cbn [app]. rewrite <- (rev_involutive t) at 2. generalize (rev t). intros u. reflexivity.
Qed.
Lemma escape_comma s : escape (lit ", " ++ s) = lit ", " ++ escape s.
Proof. now rewrite escape_app. Qed.
Lemma escape_comma2 s : escape (s ++ lit ", ") = escape s ++ lit ", ".
Proof. now rewrite escape_app. Qed.

Lemma evals_app s a b : evals s (a ++ b) = match evals s a with Some s => evals s b | None => None end.
Proof. revert s. induction a as [|e a IH]; intros s; [reflexivity|]. cbn [app evals]. destruct (eval s e); [apply IH|reflexivity]. Qed.
Definition put (p : place) (t : bytes) (d : draft) : draft :=
  {| d_point := Some p;
     d_subject := d_subject d ++ match p with At Subject => t | _ => [] end; d_to := d_to d ++ match p with At To => t | _ => [] end;
     d_cc := d_cc d ++ match p with At Cc => t | _ => [] end; d_bcc := d_bcc d ++ match p with At Bcc => t | _ => [] end;
     d_files := d_files d ++ match p with InBody => [t] | _ => [] end |}.
Lemma eval_form dir ex d p t : evals {| s_dir := dir; s_window := Composing d; s_exit := ex |} [LList [LSym (goto_symbol p)]; LList [LSym (verb p); LStr t]] =
  Some {| s_dir := dir; s_window := Composing (put p t d); s_exit := ex |}.
Proof. destruct d, p as [[]|]; unfold put; cbn -[app]; rewrite ?app_nil_r; reflexivity. Qed.

(** ** Options *)
Definition place_of (i : item) : option (place * bytes) := match i with Set_field f v => Some (At f, v) | Body v => Some (InBody, v) | Flag _ => None end.
Definition opt_of (i : item) : opt * bytes :=
  match i with
  | Set_field Subject v => (OSubject, v) | Set_field To v => (OTo, v) | Set_field Cc v => (OCc, v) | Set_field Bcc v => (OBcc, v) | Body v => (OBody, v)
  | Flag Print => (OPrint, lit "-") | Flag No_window => (ONoWindow, lit "-") | Flag Client => (OClient, lit "-") | Flag Auto_daemon => (OAutoDaemon, lit "-")
  | Flag Create_frame => (OCreateFrame, lit "-") | Flag Hello_flag => (OHello, lit "-")
  end.
Definition apply_item (v : mua) (i : item) : mua := match handle (fst (opt_of i)) (snd (opt_of i)) v with Some v => v | None => v end.
Lemma options_spells w i ws v : spells w i -> options (w ++ ws) v = options ws (apply_item v i).
Proof. destruct 1; try reflexivity; destruct v0 as [|c v0]; try congruence; reflexivity. Qed.
Lemma options_spelled ws its rest : spelled ws its -> forall v, options (ws ++ rest) v = options rest (fold_left apply_item its v).
Proof. induction 1 as [|w i ws l S1 S2 IH]; intros v; [reflexivity|]. rewrite <- app_assoc, (options_spells _ i) by exact S1. apply IH. Qed.
Lemma options_operands pos v : operands pos -> options pos v = inl (v, pos).
Proof.
  destruct pos as [|w pos]; [reflexivity|]. cbn [operands operand]. destruct w as [|d [|c t]]; [reflexivity|reflexivity|]. cbn [options].
  intros H. assert (E : beq d "-"%char = false). { destruct (beq d "-"%char) eqn:E; [|reflexivity]. apply Ascii.eqb_eq in E. subst d. cbn in H. contradiction. }
  now rewrite E.
Qed.

Definition place_index (p : place) : nat := match p with At Subject => 0 | At To => 1 | At Cc => 2 | At Bcc => 3 | InBody => 4 end.
(** What the variables say after some options and positional parameters. *)
Record said (v : mua) (its : list item) (pos : list bytes) (fs : list lisp) (d : draft) : Prop := {
  sd_feed : forall l st, feed (FList l :: st, Between) (v_elisp v) = Some (FList (rev fs ++ l) :: st, Between);
  sd_eval : forall dir ex, evals {| s_dir := dir; s_window := Composing blank_draft; s_exit := ex |} fs = Some {| s_dir := dir; s_window := Composing d; s_exit := ex |};
  sd_subject : d_subject d = concat (values Subject its);
  sd_to : d_to d = comma_list (values To its) ++ concat (map (fun a => a ++ lit ", ") pos);
  sd_cc : d_cc d = comma_list (values Cc its);
  sd_bcc : d_bcc d = comma_list (values Bcc its);
  sd_files : d_files d = files its;
  sd_seps : v_to_sep v = (match values To its with [] => [] | _ => lit ", " end) /\ v_cc_sep v = (match values Cc its with [] => [] | _ => lit ", " end) /\ v_bcc_sep v = (match values Bcc its with [] => [] | _ => lit ", " end);
  sd_flags : v_print v = flagged Print its /\ v_no_window v = flagged No_window its /\ v_client v = flagged Client its /\ v_daemon v = flagged Auto_daemon its /\
    v_frame v = flagged Create_frame its || flagged Auto_daemon its /\ v_hello v = flagged Hello_flag its;
  sd_none : v_elisp v = [] <-> existsb modifies its = false /\ pos = []
}.
Lemma said_init : said mua_init [] [] [] blank_draft.
Proof. constructor; try reflexivity; try (repeat split; reflexivity); auto. Qed.
Lemma comma_snoc l x : comma_list (l ++ [x]) = comma_list l ++ (match l with [] => [] | _ => lit ", " end) ++ x.
Proof.
  induction l as [|y l IH]; [reflexivity|]. cbn [app comma_list]. destruct l as [|z l]; [reflexivity|]. cbn [app] in *. rewrite IH. cbn [comma_list]. now rewrite <- !app_assoc.
Qed.
Lemma values_snoc f l i : values f (l ++ [i]) = values f l ++ values f [i].
Proof. unfold values. apply flat_map_app. Qed.
Lemma flagged_snoc f l i : flagged f (l ++ [i]) = flagged f l || flagged f [i].
Proof. unfold flagged. apply existsb_app. Qed.
Lemma nonempty_sep {A} (l : list A) x : match l ++ [x] with [] => [] | _ => lit ", " end = lit ", ".
Proof. destruct l; reflexivity. Qed.
Lemma form_nonempty a b c : form a b c <> []. Proof. discriminate. Qed.
Lemma values_flag f fl : values f [Flag fl] = []. Proof. destruct f; reflexivity. Qed.

Definition two (p : place) (t : bytes) : list lisp := [LList [LSym (goto_symbol p)]; LList [LSym (verb p); LStr t]].
Lemma said_feed v its pos fs d p t : said v its pos fs d -> forall l st, feed (FList l :: st, Between) (v_elisp v ++ form (goto_name p) (verb p) (escape t)) = Some (FList (rev (fs ++ two p t) ++ l) :: st, Between).
Proof. intros S l st. rewrite feed_app, (sd_feed _ _ _ _ _ S), feed_form, rev_app_distr. reflexivity. Qed.
Lemma said_eval v its pos fs d p t : said v its pos fs d -> forall dir ex, evals {| s_dir := dir; s_window := Composing blank_draft; s_exit := ex |} (fs ++ two p t) = Some {| s_dir := dir; s_window := Composing (put p t d); s_exit := ex |}.
Proof. intros S dir ex. rewrite evals_app, (sd_eval _ _ _ _ _ S). apply eval_form. Qed.
Lemma escape_sep {A} (l : list A) t : (match l with [] => [] | _ => lit ", " end) ++ escape t = escape ((match l with [] => [] | _ => lit ", " end) ++ t).
Proof. destruct l; [reflexivity|]. now rewrite escape_comma. Qed.
Lemma app_nonempty {A} (a b : list A) : b <> [] -> a ++ b <> []. Proof. destruct a; [auto|discriminate]. Qed.
Lemma files_snoc l i : files (l ++ [i]) = files l ++ files [i]. Proof. apply flat_map_app. Qed.

Lemma said_item v its fs d i : said v its [] fs d -> exists fs' d', said (apply_item v i) (its ++ [i]) [] fs' d'.
Proof.
  intros S. destruct (sd_seps _ _ _ _ _ S) as (T1 & T2 & T3). destruct (sd_flags _ _ _ _ _ S) as (F1 & F2 & F3 & F4 & F5 & F6).
  assert (Fl : forall f, (forall g, i <> Flag g) -> flagged f (its ++ [i]) = flagged f its) by (intros f N; rewrite flagged_snoc; destruct i as [x y|x|x]; [| |destruct (N x); reflexivity]; destruct f; apply orb_false_r).
  assert (Mo : modifies i = true -> forall e : list ascii, e <> [] -> (e = [] <-> existsb modifies (its ++ [i]) = false /\ (@nil (list ascii)) = @nil (list ascii))).
  { intros M e N. rewrite existsb_app. cbn [existsb]. rewrite M, orb_true_r. split; [contradiction|]. intros [X _]. discriminate. }
  destruct i as [[| | |] t|t|fl].
  - exists (fs ++ two (At Subject) t), (put (At Subject) t d). constructor; unfold apply_item; cbn [fst snd opt_of handle add_elisp v_elisp v_to_sep v_cc_sep v_bcc_sep v_print v_no_window v_client v_daemon v_frame v_hello put d_subject d_to d_cc d_bcc d_files].
    + apply (said_feed _ _ _ _ _ (At Subject) t S).
    + apply (said_eval _ _ _ _ _ (At Subject) t S).
    + rewrite (sd_subject _ _ _ _ _ S), values_snoc, concat_app. cbn. now rewrite app_nil_r.
    + rewrite (sd_to _ _ _ _ _ S), values_snoc. cbn. now rewrite !app_nil_r.
    + rewrite (sd_cc _ _ _ _ _ S), values_snoc. cbn. now rewrite !app_nil_r.
    + rewrite (sd_bcc _ _ _ _ _ S), values_snoc. cbn. now rewrite !app_nil_r.
    + rewrite (sd_files _ _ _ _ _ S), files_snoc. cbn. now rewrite !app_nil_r.
    + rewrite !values_snoc. cbn [values flat_map]. rewrite !app_nil_r. auto.
    + rewrite !Fl by discriminate. auto 10.
    + apply Mo; [reflexivity|]. now apply app_nonempty.
  - set (sep := match values To its with [] => [] | _ => lit ", " end) in *. exists (fs ++ two (At To) (sep ++ t)), (put (At To) (sep ++ t) d). constructor; unfold apply_item; cbn [fst snd opt_of handle set_seps add_elisp v_elisp v_to_sep v_cc_sep v_bcc_sep v_print v_no_window v_client v_daemon v_frame v_hello put d_subject d_to d_cc d_bcc d_files].
    + rewrite T1. unfold sep. rewrite escape_sep. apply (said_feed _ _ _ _ _ (At To) _ S).
    + apply (said_eval _ _ _ _ _ (At To) _ S).
    + rewrite (sd_subject _ _ _ _ _ S), values_snoc, concat_app. cbn. now rewrite app_nil_r.
    + rewrite (sd_to _ _ _ _ _ S), values_snoc. cbn [values flat_map app map concat]. rewrite comma_snoc, !app_nil_r. fold sep. reflexivity.
    + rewrite (sd_cc _ _ _ _ _ S), values_snoc. cbn. now rewrite !app_nil_r.
    + rewrite (sd_bcc _ _ _ _ _ S), values_snoc. cbn. now rewrite !app_nil_r.
    + rewrite (sd_files _ _ _ _ _ S), files_snoc. cbn. now rewrite !app_nil_r.
    + rewrite !values_snoc. cbn [values flat_map app]. rewrite !app_nil_r. split; [symmetry; apply nonempty_sep|auto].
    + rewrite !Fl by discriminate. auto 10.
    + apply Mo; [reflexivity|]. now apply app_nonempty.
  - set (sep := match values Cc its with [] => [] | _ => lit ", " end) in *. exists (fs ++ two (At Cc) (sep ++ t)), (put (At Cc) (sep ++ t) d). constructor; unfold apply_item; cbn [fst snd opt_of handle set_seps add_elisp v_elisp v_to_sep v_cc_sep v_bcc_sep v_print v_no_window v_client v_daemon v_frame v_hello put d_subject d_to d_cc d_bcc d_files].
    + rewrite T2. unfold sep. rewrite escape_sep. apply (said_feed _ _ _ _ _ (At Cc) _ S).
    + apply (said_eval _ _ _ _ _ (At Cc) _ S).
    + rewrite (sd_subject _ _ _ _ _ S), values_snoc, concat_app. cbn. now rewrite app_nil_r.
    + rewrite (sd_to _ _ _ _ _ S), values_snoc. cbn. now rewrite !app_nil_r.
    + rewrite (sd_cc _ _ _ _ _ S), values_snoc. cbn [values flat_map app map concat]. rewrite comma_snoc. fold sep. reflexivity.
    + rewrite (sd_bcc _ _ _ _ _ S), values_snoc. cbn. now rewrite !app_nil_r.
    + rewrite (sd_files _ _ _ _ _ S), files_snoc. cbn. now rewrite !app_nil_r.
    + rewrite !values_snoc. cbn [values flat_map app]. rewrite !app_nil_r. split; [auto|]. split; [symmetry; apply nonempty_sep|auto].
    + rewrite !Fl by discriminate. auto 10.
    + apply Mo; [reflexivity|]. now apply app_nonempty.
  - set (sep := match values Bcc its with [] => [] | _ => lit ", " end) in *. exists (fs ++ two (At Bcc) (sep ++ t)), (put (At Bcc) (sep ++ t) d). constructor; unfold apply_item; cbn [fst snd opt_of handle set_seps add_elisp v_elisp v_to_sep v_cc_sep v_bcc_sep v_print v_no_window v_client v_daemon v_frame v_hello put d_subject d_to d_cc d_bcc d_files].
    + rewrite T3. unfold sep. rewrite escape_sep. apply (said_feed _ _ _ _ _ (At Bcc) _ S).
    + apply (said_eval _ _ _ _ _ (At Bcc) _ S).
    + rewrite (sd_subject _ _ _ _ _ S), values_snoc, concat_app. cbn. now rewrite app_nil_r.
    + rewrite (sd_to _ _ _ _ _ S), values_snoc. cbn. now rewrite !app_nil_r.
    + rewrite (sd_cc _ _ _ _ _ S), values_snoc. cbn. now rewrite !app_nil_r.
    + rewrite (sd_bcc _ _ _ _ _ S), values_snoc. cbn [values flat_map app map concat]. rewrite comma_snoc. fold sep. reflexivity.
    + rewrite (sd_files _ _ _ _ _ S), files_snoc. cbn. now rewrite !app_nil_r.
    + rewrite !values_snoc. cbn [values flat_map app]. rewrite !app_nil_r. split; [auto|]. split; [auto|symmetry; apply nonempty_sep].
    + rewrite !Fl by discriminate. auto 10.
    + apply Mo; [reflexivity|]. now apply app_nonempty.
  - exists (fs ++ two InBody t), (put InBody t d). constructor; unfold apply_item; cbn [fst snd opt_of handle add_elisp v_elisp v_to_sep v_cc_sep v_bcc_sep v_print v_no_window v_client v_daemon v_frame v_hello put d_subject d_to d_cc d_bcc d_files].
    + apply (said_feed _ _ _ _ _ InBody t S).
    + apply (said_eval _ _ _ _ _ InBody t S).
    + rewrite (sd_subject _ _ _ _ _ S), values_snoc, concat_app. cbn. now rewrite app_nil_r.
    + rewrite (sd_to _ _ _ _ _ S), values_snoc. cbn. now rewrite !app_nil_r.
    + rewrite (sd_cc _ _ _ _ _ S), values_snoc. cbn. now rewrite !app_nil_r.
    + rewrite (sd_bcc _ _ _ _ _ S), values_snoc. cbn. now rewrite !app_nil_r.
    + rewrite (sd_files _ _ _ _ _ S), files_snoc. reflexivity.
    + rewrite !values_snoc. cbn [values flat_map]. rewrite !app_nil_r. auto.
    + rewrite !Fl by discriminate. auto 10.
    + apply Mo; [reflexivity|]. now apply app_nonempty.
  - exists fs, d. assert (E : v_elisp (apply_item v (Flag fl)) = v_elisp v) by (destruct fl; reflexivity). constructor.
    + rewrite E. apply S.
    + apply S.
    + rewrite values_snoc, values_flag, app_nil_r. apply S.
    + rewrite values_snoc, values_flag, (app_nil_r (values _ its)). apply S.
    + rewrite values_snoc, values_flag, app_nil_r. apply S.
    + rewrite values_snoc, values_flag, app_nil_r. apply S.
    + rewrite files_snoc. cbn. rewrite app_nil_r. apply S.
    + rewrite !values_snoc, !values_flag, !app_nil_r. destruct fl; exact (conj T1 (conj T2 T3)).
    + rewrite !flagged_snoc. destruct fl; unfold apply_item; cbn [fst snd opt_of handle set_flags v_print v_no_window v_client v_daemon v_frame v_hello flagged existsb]; rewrite ?orb_false_r, ?orb_true_r; auto 10.
    + rewrite E, existsb_app. cbn [existsb modifies]. rewrite !orb_false_r. apply S.
Qed.
Lemma said_items its : forall v done fs d, said v done [] fs d -> exists fs' d', said (fold_left apply_item its v) (done ++ its) [] fs' d'.
Proof.
  induction its as [|i its IH]; intros v done fs d S; [exists fs, d; rewrite app_nil_r; exact S|]. cbn [fold_left].
  destruct (said_item _ _ _ _ i S) as (fs' & d' & S'). destruct (IH _ _ _ _ S') as (fs2 & d2 & S2). rewrite <- app_assoc in S2. eauto.
Qed.
(** Positional parameters. *)
Lemma said_positional pos : forall v its done fs d, said v its done fs d -> v_mailto v = [] -> Forall (fun w => is_mailto w = false) pos ->
  exists v' fs' d', positional pos v = Some v' /\ v_mailto v' = [] /\ said v' its (done ++ pos) fs' d'.
Proof.
  induction pos as [|w pos IH]; intros v its done fs d S M F; [exists v, fs, d; rewrite app_nil_r; auto|].
  inversion F as [|w' pos' F1 F2]; subst. cbn [positional]. unfold is_mailto in F1. rewrite starts_escape, F1 by reflexivity.
  assert (S1 : said (add_elisp (form (lit "to") (lit "insert") (escape w ++ lit ", ")) v) its (done ++ [w]) (fs ++ two (At To) (w ++ lit ", ")) (put (At To) (w ++ lit ", ") d)).
  { rewrite <- escape_comma2. constructor; cbn [add_elisp v_elisp v_to_sep v_cc_sep v_bcc_sep v_print v_no_window v_client v_daemon v_frame v_hello put d_subject d_to d_cc d_bcc d_files]; rewrite ?app_nil_r; try apply S.
    - apply (said_feed _ _ _ _ _ (At To) _ S).
    - apply (said_eval _ _ _ _ _ (At To) _ S).
    - rewrite (sd_to _ _ _ _ _ S), map_app, concat_app. cbn [map concat]. rewrite (app_nil_r (w ++ _)), <- !app_assoc. reflexivity.
    - split; [intros X; destruct (v_elisp v); discriminate X|]. intros [_ X]. now destruct done. }
  destruct (IH _ _ _ _ _ S1 M F2) as (v' & fs' & d' & P & M' & S'). rewrite <- app_assoc in S'. eauto 10.
Qed.

(** ** The whole expression *)
Definition head_forms (pwd : bytes) : list lisp := [LList [LSym (lit "cd"); LStr pwd]; LList [LSym (lit "require"); LQuote (LSym (lit "notmuch"))]; LQuote (LSym (lit "done")); LSym (lit "prog1")].
Definition kill_form : lisp := LList [LSym (lit "message-add-action"); LFun (LSym (lit "save-buffers-kill-terminal")); LQuote (LSym (lit "exit"))].
Definition wrap (pwd e : bytes) (kill : bool) : bytes :=
  lit "(prog1 'done (require 'notmuch) (cd " ++ [QUOTE] ++ escape pwd ++ [QUOTE] ++ lit ") " ++ (e ++ (if kill then lit " (message-add-action #'save-buffers-kill-terminal 'exit)" else [])) ++ lit ")".
Lemma read_wrap pwd e kill fs : (forall l st, feed (FList l :: st, Between) e = Some (FList (rev fs ++ l) :: st, Between)) ->
  read_all (wrap pwd e kill) = Some [LList (LSym (lit "prog1") :: LQuote (LSym (lit "done")) :: LList [LSym (lit "require"); LQuote (LSym (lit "notmuch"))] :: LList [LSym (lit "cd"); LStr pwd] :: fs ++ (if kill then [kill_form] else []))].
Proof.
  intros F. unfold read_all, wrap.
  assert (P : forall r, feed ([FList []], Between) (lit "(prog1 'done (require 'notmuch) (cd " ++ [QUOTE] ++ r) =
    feed ([FList [LSym (lit "cd")]; FList [LList [LSym (lit "require"); LQuote (LSym (lit "notmuch"))]; LQuote (LSym (lit "done")); LSym (lit "prog1")]; FList []], Str []) r) by reflexivity.
  rewrite P, feed_escape, app_nil_r.
  assert (P2 : forall r, feed ([FList [LSym (lit "cd")]; FList [LList [LSym (lit "require"); LQuote (LSym (lit "notmuch"))]; LQuote (LSym (lit "done")); LSym (lit "prog1")]; FList []], Str (rev pwd)) ([QUOTE] ++ lit ") " ++ r) =
    feed ([FList (head_forms pwd); FList []], Between) r).
  { intros r. unfold head_forms. rewrite <- (rev_involutive pwd) at 2. generalize (rev pwd). intros u. reflexivity. }
  rewrite P2, <- app_assoc, feed_app, F.
  assert (K : feed ([FList (rev fs ++ head_forms pwd); FList []], Between) ((if kill then lit " (message-add-action #'save-buffers-kill-terminal 'exit)" else []) ++ lit ")") =
    Some ([FList [LList (rev ((if kill then [kill_form] else []) ++ rev fs ++ head_forms pwd))]], Between)) by (destruct kill; reflexivity).
  rewrite K. cbn [rev app]. do 2 f_equal. rewrite !rev_app_distr, rev_involutive. unfold head_forms. destruct kill; reflexivity.
Qed.
Lemma eval_wrap pwd e kill fs s : (forall l st, feed (FList l :: st, Between) e = Some (FList (rev fs ++ l) :: st, Between)) ->
  evals {| s_dir := Some pwd; s_window := Nothing; s_exit := false |} fs = Some s ->
  eval_text (wrap pwd e kill) = Some {| s_dir := s_dir s; s_window := s_window s; s_exit := kill || s_exit s |}.
Proof.
  intros F E. unfold eval_text. rewrite (read_wrap _ _ _ _ F). change (bseq (lit "prog1") (lit "prog1") && bseq (lit "done") (lit "done")) with true.
  assert (H : forall r, evals new_session (LList [LSym (lit "require"); LQuote (LSym (lit "notmuch"))] :: LList [LSym (lit "cd"); LStr pwd] :: r) = evals {| s_dir := Some pwd; s_window := Nothing; s_exit := false |} r) by reflexivity.
  rewrite H.
  rewrite evals_app, E. destruct kill; [|destruct s; reflexivity]. reflexivity.
Qed.
Definition main_of (v : mua) : option bytes :=
  match v_mailto v with
    | _ :: _ => match v_elisp v with _ :: _ => None | [] => Some (lit "(browse-url-mail " ++ [QUOTE] ++ v_mailto v ++ [QUOTE] ++ lit ")") end
    | [] => match v_elisp v, v_hello v with
            | [], true => Some (lit "(notmuch)")
            | _, _ => Some (lit "(notmuch-mua-new-mail) " ++ v_elisp v)
            end
  end.
Lemma finish_eq glob pwd v : finish glob pwd v =
  match main_of v with
  | None => Fails
  | Some e => let e := wrap pwd e (negb (v_client v) || v_frame v || v_no_window v) in
      if v_print v then Prints (echo (flat_map glob (split_words [] e)))
      else
        let nw := if v_no_window v then [lit "-nw"] else [] in
        if v_client v then Runs true (nw ++ (if v_frame v then [lit "-c"] else []) ++ (if v_daemon v then [lit "--alternate-editor="] else [])) e
        else Runs false nw e
  end.
Proof. reflexivity. Qed.
Lemma kill_exits v its pos fs d : said v its pos fs d -> negb (v_client v) || v_frame v || v_no_window v = exits its.
Proof. intros S. destruct (sd_flags _ _ _ _ _ S) as (F1 & F2 & F3 & F4 & F5 & F6). unfold exits. rewrite F2, F3, F5. destruct (flagged Client its), (flagged Create_frame its), (flagged Auto_daemon its), (flagged No_window its); reflexivity. Qed.
(** What the script does, as a function of the Lisp that opens the window. *)
Definition acts (glob : bytes -> list bytes) (its : list item) (e : bytes) : outcome :=
  if flagged Print its then Prints (echo (flat_map glob (split_words [] e))) else Runs (flagged Client its) (words its) e.
Lemma finish_acts glob pwd v its pos fs d e : said v its pos fs d -> main_of v = Some e -> finish glob pwd v = acts glob its (wrap pwd e (exits its)).
Proof.
  intros S E. rewrite finish_eq, E, (kill_exits _ _ _ _ _ S). destruct (sd_flags _ _ _ _ _ S) as (F1 & F2 & F3 & F4 & F5 & F6). unfold acts, words. rewrite F1, F2, F3, F4, F5. cbn zeta.
  destruct (flagged Print its); [reflexivity|]. destruct (flagged Client its); [reflexivity|]. now rewrite app_nil_r.
Qed.
Lemma apply_mailto i v : v_mailto (apply_item v i) = v_mailto v.
Proof. destruct i as [[]| |[]]; reflexivity. Qed.
Lemma fold_mailto its : forall v, v_mailto (fold_left apply_item its v) = v_mailto v.
Proof. induction its as [|i its IH]; intros v; [reflexivity|]. cbn [fold_left]. now rewrite IH, apply_mailto. Qed.
Lemma said_all its : exists fs d, said (fold_left apply_item its mua_init) its [] fs d.
Proof. destruct (said_items its _ _ _ _ said_init) as (fs & d & S). eauto. Qed.
Lemma emacs_mua_eq glob pwd ws its pos : spelled ws its -> operands pos -> emacs_mua glob pwd (ws ++ pos) =
  match positional pos (fold_left apply_item its mua_init) with Some v => finish glob pwd v | None => Fails end.
Proof. intros S O. unfold emacs_mua. now rewrite (options_spelled _ _ _ S), (options_operands _ _ O). Qed.
Lemma feed_new e fs : (forall l st, feed (FList l :: st, Between) e = Some (FList (rev fs ++ l) :: st, Between)) ->
  forall l st, feed (FList l :: st, Between) (lit "(notmuch-mua-new-mail) " ++ e) = Some (FList (rev (LList [LSym (lit "notmuch-mua-new-mail")] :: fs) ++ l) :: st, Between).
Proof.
  intros F l st. assert (P : feed (FList l :: st, Between) (lit "(notmuch-mua-new-mail) ") = Some (FList (LList [LSym (lit "notmuch-mua-new-mail")] :: l) :: st, Between)) by reflexivity.
  rewrite feed_app, P, F. cbn [rev]. now rewrite <- app_assoc.
Qed.
Lemma compose_acts glob pwd ws its pos : spelled ws its -> operands pos -> Forall (fun w => is_mailto w = false) pos ->
  existsb modifies its = true \/ pos <> [] \/ flagged Hello_flag its = false ->
  exists e d, emacs_mua glob pwd (ws ++ pos) = acts glob its e /\
    eval_text e = Some {| s_dir := Some pwd; s_window := Composing d; s_exit := exits its |} /\
    d_subject d = concat (values Subject its) /\ d_to d = comma_list (values To its) ++ concat (map (fun a => a ++ lit ", ") pos) /\
    d_cc d = comma_list (values Cc its) /\ d_bcc d = comma_list (values Bcc its) /\ d_files d = files its.
Proof.
  intros S O F C. rewrite (emacs_mua_eq _ _ _ _ _ S O). destruct (said_all its) as (fs0 & d0 & S0).
  destruct (said_positional pos _ _ _ _ _ S0 (fold_mailto _ _) F) as (v & fs & d & -> & M & SD). cbn [app] in SD.
  exists (wrap pwd (lit "(notmuch-mua-new-mail) " ++ v_elisp v) (exits its)), d. split; [|split; [|split; [|split; [|split; [|split]]]]]; try apply SD.
  - apply (finish_acts _ _ _ _ _ _ _ _ SD). unfold main_of. rewrite M. destruct (v_elisp v) as [|c t] eqn:E; [|reflexivity].
    destruct (sd_flags _ _ _ _ _ SD) as (F1 & F2 & F3 & F4 & F5 & F6). rewrite F6. apply SD in E as [E1 E2]. subst pos.
    destruct C as [C|[C|C]]; [congruence|congruence|]. now rewrite C.
  - rewrite (eval_wrap _ _ _ _ {| s_dir := Some pwd; s_window := Composing d; s_exit := false |} (feed_new _ _ (sd_feed _ _ _ _ _ SD))); [now rewrite orb_false_r|].
    transitivity (evals {| s_dir := Some pwd; s_window := Composing blank_draft; s_exit := false |} fs); [reflexivity|apply SD].
Qed.
Lemma hello_acts glob pwd ws its : spelled ws its -> existsb modifies its = false -> flagged Hello_flag its = true ->
  exists e, emacs_mua glob pwd ws = acts glob its e /\ eval_text e = Some {| s_dir := Some pwd; s_window := Hello; s_exit := exits its |}.
Proof.
  intros S M H. rewrite <- (app_nil_r ws), (emacs_mua_eq _ _ _ _ [] S Logic.I). destruct (said_all its) as (fs & d & SD). cbn [positional].
  exists (wrap pwd (lit "(notmuch)") (exits its)). split.
  - apply (finish_acts _ _ _ _ _ _ _ _ SD). unfold main_of. rewrite fold_mailto. cbn [mua_init v_mailto].
    destruct (sd_flags _ _ _ _ _ SD) as (F1 & F2 & F3 & F4 & F5 & F6). rewrite F6, H. assert (E : v_elisp (fold_left apply_item its mua_init) = []) by (apply SD; auto). now rewrite E.
  - rewrite (eval_wrap _ _ _ [LList [LSym (lit "notmuch")]] {| s_dir := Some pwd; s_window := Hello; s_exit := false |}); [now rewrite orb_false_r|reflexivity|reflexivity].
Qed.
Lemma mailto_acts glob pwd ws its u : spelled ws its -> existsb modifies its = false -> is_mailto u = true ->
  exists e, emacs_mua glob pwd (ws ++ [u]) = acts glob its e /\ eval_text e = Some {| s_dir := Some pwd; s_window := Mail_url u; s_exit := exits its |}.
Proof.
  intros S M U. rewrite (emacs_mua_eq _ _ _ _ _ S); [|destruct u as [|[[] [] [] [] [] [] [] []] [|? ?]]; try discriminate U; exact Logic.I].
  destruct (said_all its) as (fs & d & SD). cbn [positional]. unfold is_mailto in U. rewrite starts_escape, U by reflexivity. rewrite fold_mailto. cbn [mua_init v_mailto].
  set (v := fold_left apply_item its mua_init) in *.
  exists (wrap pwd (lit "(browse-url-mail " ++ [QUOTE] ++ escape u ++ [QUOTE] ++ lit ")") (exits its)). split.
  - assert (NE : escape u <> []) by (intros X; apply escape_nil in X; subst u; discriminate U).
    rewrite (finish_acts _ _ _ its [] fs d (lit "(browse-url-mail " ++ [QUOTE] ++ escape u ++ [QUOTE] ++ lit ")")); [reflexivity| |].
    + destruct SD. constructor; assumption.
    + unfold main_of. cbn [v_mailto v_elisp]. assert (E : v_elisp v = []) by (apply SD; auto). rewrite E. destruct (escape u); [congruence|reflexivity].
  - rewrite (eval_wrap _ _ _ [LList [LSym (lit "browse-url-mail"); LStr u]] {| s_dir := Some pwd; s_window := Mail_url u; s_exit := false |}); [now rewrite orb_false_r| |reflexivity].
    intros l st. assert (P : forall r, feed (FList l :: st, Between) (lit "(browse-url-mail " ++ [QUOTE] ++ r) = feed (FList [LSym (lit "browse-url-mail")] :: FList l :: st, Str []) r) by reflexivity.
    rewrite P, feed_escape, app_nil_r. rewrite <- (rev_involutive u) at 2. generalize (rev u). reflexivity.
Qed.
(** Two kinds of message at once. *)
Lemma positional_elisp pos : forall v v', positional pos v = Some v' ->
  (v_elisp v <> [] \/ existsb (fun w => negb (is_mailto w)) pos = true -> v_elisp v' <> []) /\ (v_mailto v <> [] \/ existsb is_mailto pos = true -> v_mailto v' <> []).
Proof.
  induction pos as [|w pos IH]; intros v v' E; [injection E as <-; split; intros [H|H]; auto; discriminate|]. cbn [positional] in E. cbn [existsb]. rewrite starts_escape in E by reflexivity. fold (is_mailto w) in E.
  destruct (is_mailto w) eqn:W.
  - destruct (v_mailto v); [|discriminate]. apply IH in E as [E1 E2]. cbn [v_elisp v_mailto] in *. split; [intros [H|H]; apply E1; auto|]. intros _. apply E2. left. intros X. apply escape_nil in X. subst w. discriminate.
  - apply IH in E as [E1 E2]. cbn [add_elisp v_elisp v_mailto] in *. split; [intros _; apply E1; left; now apply app_nonempty|]. intros [H|H]; apply E2; auto.
Qed.
Lemma mixed_fails glob pwd ws its pos : spelled ws its -> operands pos -> existsb is_mailto pos = true ->
  existsb modifies its = true \/ existsb (fun w => negb (is_mailto w)) pos = true -> emacs_mua glob pwd (ws ++ pos) = Fails.
Proof.
  intros S O M C. rewrite (emacs_mua_eq _ _ _ _ _ S O). destruct (positional pos _) as [v|] eqn:P; [|reflexivity]. apply positional_elisp in P as [P1 P2].
  destruct (said_all its) as (fs & d & SD). assert (E : v_elisp v <> []).
  { apply P1. destruct C as [C|C]; [left|right; exact C]. intros X. apply SD in X as [X _]. congruence. }
  specialize (P2 (or_intror M)). rewrite finish_eq. unfold main_of. destruct (v_mailto v); [congruence|]. destruct (v_elisp v); [congruence|reflexivity].
Qed.
Lemma two_fails glob pwd ws its pos a b c u1 u2 : spelled ws its -> pos = a ++ u1 :: b ++ u2 :: c -> operands pos -> is_mailto u1 = true -> is_mailto u2 = true -> emacs_mua glob pwd (ws ++ pos) = Fails.
Proof.
  intros S E O U1 U2. rewrite (emacs_mua_eq _ _ _ _ _ S O). subst pos. clear O. generalize (fold_left apply_item its mua_init). intros v.
  assert (G : forall b v, v_mailto v <> [] -> positional (b ++ u2 :: c) v = None).
  { clear b v. induction b as [|w b IH]; intros v N; cbn [app positional]; rewrite starts_escape by reflexivity.
    - unfold is_mailto in U2. rewrite U2. destruct (v_mailto v); [congruence|reflexivity].
    - destruct (starts_with (lit "mailto:") w); [destruct (v_mailto v); [congruence|reflexivity]|]. apply IH. exact N. }
  assert (H : forall a v, positional (a ++ u1 :: b ++ u2 :: c) v = None).
  { clear a v. induction a as [|w a IH]; intros v; cbn [app positional]; rewrite starts_escape by reflexivity.
    - unfold is_mailto in U1. rewrite U1. destruct (v_mailto v); [|reflexivity]. apply G. cbn [v_mailto]. intros X. apply escape_nil in X. subst u1. discriminate.
    - destruct (starts_with (lit "mailto:") w); [destruct (v_mailto v); [apply IH|reflexivity]|]. apply IH. }
  now rewrite H.
Qed.
Lemma strip_app p s r : strip_prefix p s = Some r -> s = p ++ r.
Proof. revert s. induction p as [|x p IH]; intros s H; [injection H as ->; reflexivity|]. destruct s as [|c s]; [discriminate|]. cbn [strip_prefix] in H. destruct (beq x c) eqn:B; [|discriminate]. apply Ascii.eqb_eq in B. subst. cbn [app]. f_equal. now apply IH. Qed.
Lemma unknown_fails glob pwd ws its w rest : spelled ws its -> unknown w -> emacs_mua glob pwd (ws ++ w :: rest) = Fails.
Proof.
  intros S U. unfold emacs_mua. rewrite (options_spelled _ _ _ S). generalize (fold_left apply_item its mua_init). intros v.
  destruct U as [c t N|c t N H].
  - cbn [options negb beq]. change (beq "-" "-") with true. cbn [negb].
    assert (K : forall k, In k [chr 115; chr 99; chr 98; chr 105; chr 104; chr 45] -> beq c k = false) by (intros k I; destruct (beq c k) eqn:B; [apply Ascii.eqb_eq in B; subst; contradiction|reflexivity]).
    assert (D : bseq ("-"%char :: c :: t) (lit "--") = false). { transitivity (true && (beq c (chr 45) && bseq t [])); [reflexivity|]. rewrite K by (cbn; auto 10). reflexivity. }
    rewrite D. change (beq c "-"%char) with (beq c (chr 45)). change (beq c "h"%char) with (beq c (chr 104)). rewrite !K by (cbn; auto 10). unfold short_opt.
    change (beq c "s"%char) with (beq c (chr 115)). change (beq c "c"%char) with (beq c (chr 99)). change (beq c "b"%char) with (beq c (chr 98)). change (beq c "i"%char) with (beq c (chr 105)).
    rewrite !K by (cbn; auto 10). reflexivity.
  - set (w := lit "--" ++ c :: t) in *. assert (E : options (w :: rest) v = match long_with_arg w with
            | Some (o, a) => match handle o a v with Some v => options rest v | None => inr Manual end
            | None => match long_flag w with
                      | Some o => match handle o (lit "-") v with Some v => options rest v | None => inr Manual end
                      | None => inr Fails
                      end
            end) by reflexivity. rewrite E. clear E.
    assert (L : long_with_arg w = None).
    { unfold long_with_arg. destruct (strip_prefix (lit "--subject=") w) eqn:E1; [apply strip_app in E1; destruct (N (Set_field Subject l)); rewrite E1; constructor|].
      destruct (strip_prefix (lit "--to=") w) eqn:E2; [apply strip_app in E2; destruct (N (Set_field To l)); rewrite E2; constructor|].
      destruct (strip_prefix (lit "--cc=") w) eqn:E3; [apply strip_app in E3; destruct (N (Set_field Cc l)); rewrite E3; constructor|].
      destruct (strip_prefix (lit "--bcc=") w) eqn:E4; [apply strip_app in E4; destruct (N (Set_field Bcc l)); rewrite E4; constructor|].
      destruct (strip_prefix (lit "--body=") w) eqn:E5; [apply strip_app in E5; destruct (N (Body l)); rewrite E5; constructor|]. reflexivity. }
    assert (G : long_flag w = None).
    { unfold long_flag. assert (Q : forall k, bseq w k = true -> w = k) by (intros k; apply bseq_eq).
      destruct (bseq w (lit "--help")) eqn:E1; [apply Q in E1; contradiction|].
      destruct (bseq w (lit "--print")) eqn:E2; [apply Q in E2; destruct (N (Flag Print)); rewrite E2; constructor|].
      destruct (bseq w (lit "--no-window-system")) eqn:E3; [apply Q in E3; destruct (N (Flag No_window)); rewrite E3; constructor|].
      destruct (bseq w (lit "--client")) eqn:E4; [apply Q in E4; destruct (N (Flag Client)); rewrite E4; constructor|].
      destruct (bseq w (lit "--auto-daemon")) eqn:E5; [apply Q in E5; destruct (N (Flag Auto_daemon)); rewrite E5; constructor|].
      destruct (bseq w (lit "--create-frame")) eqn:E6; [apply Q in E6; destruct (N (Flag Create_frame)); rewrite E6; constructor|].
      destruct (bseq w (lit "--hello")) eqn:E7; [apply Q in E7; destruct (N (Flag Hello_flag)); rewrite E7; constructor|]. reflexivity. }
    now rewrite L, G.
Qed.
