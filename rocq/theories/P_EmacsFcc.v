(** C86: storing a sent mail from Emacs. *)
From Coq Require Import Relation_Operators Operators_Properties.
From Verif Require Import Bytes Decimal EmacsFcc EmacsFccSpec Maildir MaildirSpec MaildirProofs.
Local Open Scope nat_scope.

Lemma path_eqb_eq a b : path_eqb a b = true <-> a = b.
Proof.
  unfold path_eqb. destruct a as [d x], b as [e y]. cbn [fst snd]. rewrite andb_true_iff, bseq_eq. split; [intros [D ->]; destruct d, e; try discriminate D; reflexivity|].
  intros E. injection E as -> ->. split; [destruct e; reflexivity|reflexivity].
Qed.
Lemma upd_same p v s : upd p v s p = v.
Proof. unfold upd. assert (E : path_eqb p p = true) by now apply path_eqb_eq. now rewrite E. Qed.
Lemma upd_other p v s q : q <> p -> upd p v s q = s q.
Proof. unfold upd. destruct (path_eqb q p) eqn:E; [apply path_eqb_eq in E; contradiction|reflexivity]. Qed.
Lemma target_tmp seen id x : target seen id <> (Tmp, x). Proof. destruct seen; discriminate. Qed.

(** The states of our two files. *)
Definition inv (c : conf) (w : world) : Prop :=
  match w_phase w with
  | Writing id k => k <= length (c_mail c) /\ w_files w (Tmp, id) = Some (firstn k (c_mail c))
  | Written id => w_files w (Tmp, id) = Some (c_mail c)
  | Linked id => w_files w (Tmp, id) = Some (c_mail c) /\ w_files w (target (c_seen c) id) = Some (c_mail c)
  | Returned id => (w_files w (target (c_seen c) id) = Some (c_mail c) /\ w_files w (Tmp, id) = None) \/
                   (w_files w (target (c_seen c) id) <> None /\ w_files w (Tmp, id) = Some (c_mail c))
  | _ => True
  end.
Lemma inv_own c w w' : own c w w' -> inv c w -> inv c w'.
Proof.
  destruct 1; unfold inv; cbn [w_phase w_files]; intros I; auto.
  - split; [lia|]. now rewrite upd_same.
  - split; [lia|]. now rewrite upd_same.
  - destruct I as [_ I]. now rewrite firstn_all in I.
  - rewrite upd_same, (upd_other _ _ _ (Tmp, id)) by (intros E; symmetry in E; now apply target_tmp in E). auto.
  - left. rewrite upd_same, upd_other by apply target_tmp. tauto.
Qed.
Lemma inv_others c w w' : others c w w' -> inv c w -> inv c w'.
Proof.
  intros (P & _ & F) I. unfold inv in *. rewrite P. destruct (w_phase w) as [|id k|id|id|id|]; auto; destruct (F id eq_refl) as [F1 F2]; rewrite ?F1, ?F2; exact I.
Qed.
Lemma inv_reachable c s n w : reachable c s n w -> inv c w.
Proof.
  intros R. apply clos_rt_rtn1 in R. induction R as [|a b [O|O] _ IH]; [exact Logic.I|exact (inv_own _ _ _ O IH)|exact (inv_others _ _ _ O IH)].
Qed.

(** At every moment, whatever other programs do and wherever Emacs ends: the only files it changes are one in
    "tmp" of which the name was free, and the stored mail, which appears complete, in one step, under a name
    that was free; no other mail is changed or removed. *)
Theorem C86_only_whole_mails c s n w w' : reachable c s n w -> own c w w' ->
  exists id, forall p, w_files w' p = w_files w p \/
    (p = (Tmp, id) /\ (name_of (w_phase w) = Some id \/ w_files w p = None)) \/
    (p = target (c_seen c) id /\ w_files w p = None /\ w_files w' p = Some (c_mail c)).
Proof.
  intros R O. apply inv_reachable in R. unfold inv in R. revert R. destruct O; cbn [w_phase w_files]; intros R.
  - exists []. auto.
  - exists id. intros p. destruct (path_eqb p (Tmp, id)) eqn:E; [apply path_eqb_eq in E; subst p; auto|]. left. unfold upd. now rewrite E.
  - exists id. intros p. destruct (path_eqb p (Tmp, id)) eqn:E; [apply path_eqb_eq in E; subst p; cbn; auto|]. left. unfold upd. now rewrite E.
  - exists []. auto.
  - exists id. intros p. destruct (path_eqb p (target (c_seen c) id)) eqn:E; [apply path_eqb_eq in E; subst p; right; right; rewrite upd_same; auto|]. left. unfold upd. now rewrite E.
  - exists []. auto.
  - exists id. intros p. destruct (path_eqb p (Tmp, id)) eqn:E; [apply path_eqb_eq in E; subst p; cbn; auto|]. left. unfold upd. now rewrite E.
  - exists []. auto.
Qed.

(** When it returns, the mail is stored and the temporary file is gone; or another file has the name and the
    whole mail is still in "tmp".  After an error before the link was made nothing was stored. *)
Theorem C86_returns c s n w id : reachable c s n w -> w_phase w = Returned id ->
  (w_files w (target (c_seen c) id) = Some (c_mail c) /\ w_files w (Tmp, id) = None) \/
  (w_files w (target (c_seen c) id) <> None /\ w_files w (Tmp, id) = Some (c_mail c)).
Proof. intros R P. apply inv_reachable in R. unfold inv in R. now rewrite P in R. Qed.

(** The name is a maildir name, whatever the system is called, and says that the mail was seen. *)
Theorem C86_name time pid us count host root : ~ occurs (lit ":2,") root ->
  let id := uniq_id time pid us count host in
  maildir_name root (lit "cur") id (Some (lit "S")) /\
  root ++ lit "/cur/" ++ snd (target true id) = maildir_path root (lit "cur") id (Some (lit "S")).
Proof.
  intros N id. assert (D : forall n c, In c (dec n) -> isdigit c = true) by (intros k; apply forallb_forall, dec_digits).
  assert (C : forall x, x = "/"%char \/ x = ":"%char -> ~ In x id).
  { intros x X. assert (DX : isdigit x = false) by (destruct X; subst x; reflexivity). unfold id, uniq_id. rewrite !in_app_iff.
    assert (ND : forall k, ~ In x (dec k)) by (intros k I; apply D in I; congruence).
    assert (L : forall y, In x (lit y) -> In x (lit y)) by auto.
    intros [I|[I|[I|[I|[I|[I|[I|[I|I]]]]]]]]; try (now apply ND in I); try (cbn in I; destruct I as [I|[]]; subst x; destruct X; discriminate).
    unfold host_fixer in I. apply in_flat_map in I as (y & _ & I). destruct (beq y "/") eqn:E1; [cbn in I; destruct X; subst x; repeat (destruct I as [I|I]; [discriminate I|]); exact I|].
    destruct (beq y ":") eqn:E2; [cbn in I; destruct X; subst x; repeat (destruct I as [I|I]; [discriminate I|]); exact I|].
    destruct I as [I|[]]. subst y. destruct X; subst x; discriminate. }
  split; [|unfold maildir_path, target; cbn [snd]; reflexivity]. split; [exact N|]. split; [left; reflexivity|]. split; [apply C; auto|]. split.
  - intros (a & b & E). apply (C ":"%char); [auto|]. rewrite E. apply in_or_app. right. left. reflexivity.
  - cbn. intros [I|[]]. discriminate I.
Qed.

Lemma dec_cut a b x y r r' : isdigit x = false -> isdigit y = false -> dec a ++ x :: r = dec b ++ y :: r' -> a = b /\ r = r'.
Proof.
  intros X Y E. assert (E1 := read_dec_end a (x :: r) X). assert (E2 := read_dec_end b (y :: r') Y). rewrite E in E1. rewrite E1 in E2. injection E2 as -> _ ->. auto.
Qed.
Lemma fixer_inj h : forall h', ~ In (chr 92) h -> ~ In (chr 92) h' -> host_fixer h = host_fixer h' -> h = h'.
Proof.
  unfold host_fixer. induction h as [|c h IH]; intros [|d h'] N N' E; [reflexivity| | |].
  - cbn [flat_map] in E. destruct (beq d "/"), (beq d ":"); discriminate E.
  - cbn [flat_map] in E. destruct (beq c "/"), (beq c ":"); discriminate E.
  - cbn [flat_map] in E. assert (Nc : c <> chr 92) by (intros ->; apply N; now left). assert (Nd : d <> chr 92) by (intros ->; apply N'; now left).
    assert (K : c = d /\ flat_map (fun c => if beq c "/"%char then lit "\057" else if beq c ":"%char then lit "\072" else [c]) h = flat_map (fun c => if beq c "/"%char then lit "\057" else if beq c ":"%char then lit "\072" else [c]) h').
    { destruct (beq c "/") eqn:C1, (beq d "/") eqn:D1; [apply Ascii.eqb_eq in C1, D1; subst; injection E as E; auto| | |].
      - destruct (beq d ":"); [discriminate E|]. injection E as E _. destruct Nd. now rewrite <- E.
      - destruct (beq c ":"); [discriminate E|]. injection E as E _. now destruct Nc.
      - destruct (beq c ":") eqn:C2, (beq d ":") eqn:D2; [apply Ascii.eqb_eq in C2, D2; subst; injection E as E; auto| | |injection E as -> E; auto].
        + injection E as E _. destruct Nd. now rewrite <- E.
        + injection E as E _. now destruct Nc. }
    destruct K as [-> K]. f_equal. apply IH; [intros I; apply N; now right|intros I; apply N'; now right|exact K].
Qed.
(** Two names are equal only if system, process, time and count are. *)
Theorem C86_unique t p u n h t' p' u' n' h' : ~ In (chr 92) h -> ~ In (chr 92) h' ->
  uniq_id t p u n h = uniq_id t' p' u' n' h' -> t = t' /\ p = p' /\ u = u' /\ n = n' /\ h = h'.
Proof.
  intros N N' E. unfold uniq_id in E. apply dec_cut in E as [-> E]; [|reflexivity|reflexivity]. apply dec_cut in E as [-> E]; [|reflexivity|reflexivity].
  apply dec_cut in E as [-> E]; [|reflexivity|reflexivity]. apply dec_cut in E as [-> E]; [|reflexivity|reflexivity]. apply (fixer_inj _ _ N N') in E. auto.
Qed.
Lemma name_count c s n w id : reachable c s n w -> name_of (w_phase w) = Some id ->
  (exists t u, id = uniq_id t (c_pid c) u (w_count w) (c_host c)) /\ (n < w_count w)%N.
Proof.
  intros R. apply clos_rt_rtn1 in R. assert (G : match name_of (w_phase w) with Some id => (exists t u, id = uniq_id t (c_pid c) u (w_count w) (c_host c)) /\ (n < w_count w)%N | None => (n <= w_count w)%N end).
  { induction R as [|a b [O|O] R IH]; [cbn; lia| |].
    - destruct O; cbn [w_phase w_count name_of] in *; auto; try lia.
      + split; [exists time, us; reflexivity|lia].
      + destruct p; cbn [name_of] in IH; lia.
    - destruct O as (-> & -> & _). exact IH. }
  intros E. now rewrite E in G.
Qed.
(** Emacs never uses a name again, even if the clock is set back. *)
Theorem C86_fresh c c' s s' n w w' id id' : c_pid c = c_pid c' -> c_host c = c_host c' -> ~ In (chr 92) (c_host c) ->
  reachable c s n w -> name_of (w_phase w) = Some id ->
  reachable c' s' (w_count w) w' -> name_of (w_phase w') = Some id' -> id <> id'.
Proof.
  intros P H B R N R' N' E. destruct (name_count _ _ _ _ _ R N) as ((t & u & E1) & _). destruct (name_count _ _ _ _ _ R' N') as ((t' & u' & E2) & L).
  rewrite E1, E2 in E. apply C86_unique in E as (_ & _ & _ & E & _); [lia|exact B|now rewrite <- H].
Qed.

(** If another file has the name, the mail is not stored, and yet the caller is told that it was. *)
Theorem C86_lost_refuted : exists c s w id, reachable c s 0 w /\ w_phase w = Returned id /\
  w_files w (target (c_seen c) id) <> Some (c_mail c) /\ forall p, fst p = Cur \/ fst p = New -> w_files w p <> Some (c_mail c).
Proof.
  set (c := {| c_pid := 7; c_host := lit "h"; c_mail := lit "m"; c_seen := true |}). set (id := uniq_id 1 7 2 1 (lit "h")).
  set (s := upd (target true id) (Some []) (fun _ => None)).
  exists c, s, {| w_files := upd (Tmp, id) (Some (lit "m")) (upd (Tmp, id) (Some []) s); w_phase := Returned id; w_count := 1 |}, id.
  assert (T : s (target true id) = Some []) by apply upd_same.
  assert (T2 : upd (Tmp, id) (Some (lit "m")) (upd (Tmp, id) (Some []) s) (target true id) = Some []) by (rewrite !upd_other by apply target_tmp; exact T).
  split; [|split; [reflexivity|split]].
  - eapply rt_trans; [apply rt_step; left; apply (own_open c s 0 1 2); reflexivity|]. fold id. eapply rt_trans; [apply rt_step; left; apply (own_write c _ _ id 0 1); cbn; auto with arith|].
    eapply rt_trans; [apply rt_step; left; apply (own_written c)|]. apply rt_step. left. apply own_exists. change (c_seen c) with true. rewrite T2. discriminate.
  - change (c_seen c) with true. cbn [w_files]. rewrite T2. discriminate.
  - intros p P. cbn [w_files]. rewrite !upd_other by (intros ->; destruct P; discriminate). unfold s, upd. destruct (path_eqb p (target true id)); discriminate.
Qed.

(** ** Examples *)
(** A mail is stored while another program delivers one. *)
Example delivered : exists w, let c := {| c_pid := 7; c_host := lit "a/b"; c_mail := lit "mail"; c_seen := true |} in
  reachable c (fun _ => None) 0 w /\ w_phase w = Returned (lit "12.7_345_1.a\057b") /\ w_files w (Cur, lit "12.7_345_1.a\057b:2,S") = Some (lit "mail") /\ w_files w (Cur, lit "x") = Some (lit "y").
Proof.
  eexists. cbn zeta. set (c := {| c_pid := 7; c_host := lit "a/b"; c_mail := lit "mail"; c_seen := true |}). split.
  - eapply rt_trans; [apply rt_step; left; apply (own_open c _ 0 12 345); reflexivity|]. eapply rt_trans; [apply rt_step; left; apply (own_write c _ _ _ 0 3); cbn; auto with arith|].
    eapply rt_trans; [apply rt_step; right|].
    { instantiate (1 := {| w_files := upd (Cur, lit "x") (Some (lit "y")) _; w_phase := _; w_count := _ |}). split; [reflexivity|]. split; [reflexivity|]. intros id E. injection E as <-. split; reflexivity. }
    eapply rt_trans; [apply rt_step; left; apply (own_write c _ _ _ 3 4); cbn; auto with arith|]. eapply rt_trans; [apply rt_step; left; apply (own_written c)|].
    eapply rt_trans; [apply rt_step; left; apply own_link; reflexivity|]. apply rt_step. left. apply own_delete.
  - split; [reflexivity|]. split; reflexivity.
Qed.
Example named : uniq_id 1234567890 42 999999 3 (lit "a:b") = lit "1234567890.42_999999_3.a\072b". Proof. reflexivity. Qed.

Print Assumptions C86_only_whole_mails.
Print Assumptions C86_returns.
Print Assumptions C86_name.
Print Assumptions C86_unique.
Print Assumptions C86_fresh.
Print Assumptions C86_lost_refuted.
