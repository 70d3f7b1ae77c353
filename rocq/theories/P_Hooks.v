(** C69: hooks; C70: which command runs with which access. *)
From Verif Require Import Bytes StrUtilProofs Hooks.
Local Open Scope nat_scope.

(** Specification: a hook is no obstacle if there is none, or it ran and exited with status 0.
    ([Exec_enoent]: the file is there but the system says that it does not exist when it is to be
    run: the interpreter of a script is missing.) *)
Definition absent (h : hook_env) : Prop := h_access h = Access_enoent.
Definition ran_well (h : hook_env) : Prop := h_access h = Access_ok /\ h_fork h = true /\ h_wait h = true /\ h_exec h = Program (Exited 0).
Definition lost (h : hook_env) : Prop := h_access h = Access_ok /\ h_fork h = true /\ h_wait h = true /\ h_exec h = Exec_enoent.
Definition fine (h : hook_env) : Prop := absent h \/ ran_well h \/ lost h.

Theorem C69_hook_status : forall h name config m, ~ lost h ->
  fst (run_hook h name config m) <= 1 /\
  (fst (run_hook h name config m) = 0 <-> absent h \/ ran_well h) /\
  (ran_well h -> snd (run_hook h name config m) = [Hook_runs name config m]) /\
  forall x, In x (snd (run_hook h name config m)) -> x = Hook_runs name config m /\ ~ absent h.
Proof.
  intros [a f x w] name config m Hl. unfold absent, ran_well, lost, run_hook in *. cbn in *.
  destruct a; cbn; [|repeat split; auto; intros; try contradiction; intuition congruence..].
  destruct f; cbn; [|repeat split; auto; intros; try contradiction; intuition congruence].
  assert (X : x <> Exec_enoent -> forall z, In z (if started x then [Hook_runs name config m] else []) -> z = Hook_runs name config m /\ Access_ok <> Access_enoent).
  { intros _ z. destruct (started x); [|intros []]. intros [<- |[]]. split; [reflexivity|discriminate]. }
  assert (x <> Exec_enoent \/ w = false) as D by (destruct w; [left; intros ->; now destruct Hl|now right]).
  destruct w; cbn; [destruct D as [D|D]; [|discriminate D]|].
  - specialize (X D). destruct x as [| |[n|n]]; [now destruct D|cbn..].
    + repeat split; auto; intros; try contradiction; intuition congruence.
    + destruct n; cbn; (split; [lia|split; [|split]]); try exact X; try (intuition congruence). 
    + (split; [lia|split; [|split]]); try exact X; intuition congruence.
  - split; [lia|]. split; [intuition congruence|]. split; [intuition congruence|].
    intros z. destruct (started x); [|intros []]. intros [<- |[]]. split; [reflexivity|discriminate].
Qed.
Print Assumptions C69_hook_status.
(** Not true: "status 0 only if there is no hook or it ran and succeeded". *)
Theorem C69_hook_not_run_refuted : ~ (forall h name config m, fst (run_hook h name config m) = 0 -> absent h \/ ran_well h).
Proof.
  intros H. destruct (H {| h_access := Access_ok; h_fork := true; h_exec := Exec_enoent; h_wait := true |} [] [] Closed eq_refl) as [X|(_ & _ & _ & X)]; discriminate X.
Qed.
Print Assumptions C69_hook_not_run_refuted.

Lemma run_zero h name config m : fst (run_hook h name config m) = 0 <-> fine h.
Proof.
  destruct h as [a f x w]. unfold fine, absent, ran_well, lost, run_hook. cbn. destruct a, f, w, x as [| |[[|n]|n]]; cbn; intuition congruence.
Qed.
Lemma run_events h name config m : snd (run_hook h name config m) = [] \/ snd (run_hook h name config m) = [Hook_runs name config m].
Proof.
  destruct h as [a f x w]. unfold run_hook. cbn. destruct a, f, w, x as [| |[[|n]|n]]; cbn; auto.
Qed.

(** notmuch new: the order of things.  The hooks run without the write lock, with the
    configuration file in the environment; pre-new before any change, and if it fails nothing is
    changed; post-new after the database was closed, and only if all went well. *)
Theorem C69_new_order : forall e code ev, new_command e = (code, ev) ->
  exists pre work post, ev = pre ++ work ++ post /\
  (pre = [] \/ pre = [Hook_runs (lit "pre-new") (n_config e) Read_only]) /\
  (work = [] \/ work = [Work Writable]) /\
  (post = [] \/ post = [Hook_runs (lit "post-new") (n_config e) Closed]) /\
  (n_hooks e = false -> pre = [] /\ post = []) /\
  (work <> [] -> n_hooks e = true -> fine (n_pre e)) /\
  (n_hooks e = true -> ~ fine (n_pre e) -> work = [] /\ post = [] /\ code <> 0) /\
  (post <> [] -> work <> [] /\ n_ret e = 0 /\ n_interrupted e = false).
Proof.
  intros e code ev E.
  assert (B : forall before, exists work post, snd (new_body e before) = before ++ work ++ post /\ (work = [] \/ work = [Work Writable]) /\
     (post = [] \/ post = [Hook_runs (lit "post-new") (n_config e) Closed]) /\ (n_hooks e = false -> post = []) /\ (post <> [] -> work <> [] /\ n_ret e = 0 /\ n_interrupted e = false)).
  { intros before. unfold new_body. destruct (n_counting e); cbn [negb]; [|exists [], []; rewrite app_nil_r; cbn; repeat split; auto; congruence].
    destruct (n_indexopts e); cbn [negb]; [|exists [], []; rewrite app_nil_r; cbn; repeat split; auto; congruence].
    exists [Work Writable]. destruct (n_hooks e && (n_ret e =? 0) && negb (n_interrupted e)) eqn:C.
    - apply andb_prop in C as [C C3]. apply andb_prop in C as [C1 C2]. apply Nat.eqb_eq in C2. apply Bool.negb_true_iff in C3.
      pose proof (run_events (n_post e) (lit "post-new") (n_config e) Closed) as R. destruct (run_hook (n_post e) _ _ Closed) as [r h]. cbn [snd] in R. exists h.
      replace (snd _) with ((before ++ [Work Writable]) ++ h) by (rewrite C3; destruct (r =? 0); cbn; [destruct (n_vanished e =? 0)|]; reflexivity).
      rewrite <- app_assoc. repeat split; auto; congruence.
    - exists []. rewrite app_nil_r. replace (snd _) with (before ++ [Work Writable]).
      + repeat split; auto; congruence.
      + destruct (negb (n_ret e =? 0) || n_interrupted e); [reflexivity|]. destruct (negb (n_vanished e =? 0)); reflexivity. }
  assert (N : forall before, n_hooks e = false \/ fine (n_pre e) -> (before = [] \/ n_hooks e = true /\ before = [Hook_runs (lit "pre-new") (n_config e) Read_only]) -> new_body e before = (code, ev) ->
    exists pre work post, ev = pre ++ work ++ post /\ (pre = [] \/ pre = [Hook_runs (lit "pre-new") (n_config e) Read_only]) /\ (work = [] \/ work = [Work Writable]) /\
     (post = [] \/ post = [Hook_runs (lit "post-new") (n_config e) Closed]) /\ (n_hooks e = false -> pre = [] /\ post = []) /\ (work <> [] -> n_hooks e = true -> fine (n_pre e)) /\
     (n_hooks e = true -> ~ fine (n_pre e) -> work = [] /\ post = [] /\ code <> 0) /\ (post <> [] -> work <> [] /\ n_ret e = 0 /\ n_interrupted e = false)).
  { intros before Hf Hb Eb. destruct (B before) as (work & post & H1 & H2 & H3 & H4 & H5). rewrite Eb in H1. cbn [snd] in H1. exists before, work, post.
    split; [exact H1|]. split; [intuition|]. split; [exact H2|]. split; [exact H3|]. split; [intros X; split; [intuition congruence|auto]|].
    split; [intuition congruence|]. split; [intuition congruence|exact H5]. }
  unfold new_command in E. destruct (n_start e); cbn [negb] in E; [|injection E as <- <-; exists [], [], []; cbn; repeat split; auto; congruence].
  destruct (n_hooks e) eqn:EH; [|now apply (N []); auto].
  destruct (n_reopen_ro e); cbn [negb] in E; [|injection E as <- <-; exists [], [], []; cbn; repeat split; auto; congruence].
  pose proof (run_events (n_pre e) (lit "pre-new") (n_config e) Read_only) as R. pose proof (run_zero (n_pre e) (lit "pre-new") (n_config e) Read_only) as Z.
  destruct (run_hook (n_pre e) _ _ Read_only) as [r h]. cbn [fst snd] in R, Z.
  destruct (r =? 0) eqn:ER; cbn [negb] in E.
  - apply Nat.eqb_eq in ER. destruct Z as [Z _]. specialize (Z ER). destruct (n_reopen_rw e); cbn [negb] in E.
    + apply (N h); auto. intuition.
    + injection E as <- <-. exists h, [], []. cbn. rewrite app_nil_r. repeat split; auto; congruence.
  - injection E as <- <-. exists h, [], []. cbn. rewrite app_nil_r. repeat split; auto; congruence.
Qed.
Print Assumptions C69_new_order.

(** The exit status of notmuch new tells whether everything, hooks included, went well. *)
Definition new_went_well (e : new_env) : Prop :=
  n_start e = true /\ (n_hooks e = true -> n_reopen_ro e = true /\ fine (n_pre e) /\ n_reopen_rw e = true /\ fine (n_post e)) /\
  n_counting e = true /\ n_indexopts e = true /\ n_ret e = 0 /\ n_interrupted e = false.
Theorem C69_new_exit : forall e,
  (fst (new_command e) = 0 <-> new_went_well e /\ n_vanished e = 0) /\
  (fst (new_command e) = 75 <-> new_went_well e /\ n_vanished e <> 0) /\
  (fst (new_command e) = 1 <-> ~ new_went_well e).
Proof.
  intros e.
  assert (B : forall before, fst (new_body e before) = (if n_counting e && n_indexopts e && (n_ret e =? 0) && negb (n_interrupted e) && (negb (n_hooks e) || (fst (run_hook (n_post e) (lit "post-new") (n_config e) Closed) =? 0))
     then (if n_vanished e =? 0 then 0 else 75) else 1)).
  { intros before. unfold new_body. destruct (n_counting e), (n_indexopts e); cbn [negb andb]; try reflexivity.
    destruct (n_ret e =? 0) eqn:R, (n_interrupted e), (n_hooks e); cbn [negb andb orb]; rewrite ?R; cbn [negb andb orb]; try reflexivity; [|now destruct (n_vanished e =? 0)].
    destruct (run_hook (n_post e) _ _ Closed) as [r h]. cbn [fst]. destruct (r =? 0); cbn; [now destruct (n_vanished e =? 0)|reflexivity]. }
  assert (M : fst (new_command e) = (if n_start e && (negb (n_hooks e) || (n_reopen_ro e && (fst (run_hook (n_pre e) (lit "pre-new") (n_config e) Read_only) =? 0) && n_reopen_rw e)) &&
     (n_counting e && n_indexopts e && (n_ret e =? 0) && negb (n_interrupted e) && (negb (n_hooks e) || (fst (run_hook (n_post e) (lit "post-new") (n_config e) Closed) =? 0)))
     then (if n_vanished e =? 0 then 0 else 75) else 1)).
  { unfold new_command. destruct (n_start e); cbn [negb andb]; [|reflexivity]. destruct (n_hooks e) eqn:EH; cbn [negb orb andb].
    - destruct (n_reopen_ro e); cbn [negb andb]; [|reflexivity]. destruct (run_hook (n_pre e) _ _ Read_only) as [r h]. cbn [fst]. destruct (r =? 0); cbn [negb andb]; [|reflexivity].
      destruct (n_reopen_rw e); cbn [negb andb]; [|reflexivity]. rewrite B. reflexivity.
    - rewrite B. reflexivity. }
  set (P := n_start e && _ && _) in M.
  assert (W : P = true <-> new_went_well e).
  { unfold P, new_went_well. rewrite !Bool.andb_true_iff, !Bool.orb_true_iff, !Bool.andb_true_iff, !Bool.negb_true_iff, !Nat.eqb_eq, !run_zero.
    destruct (n_hooks e); intuition congruence. }
  rewrite M. destruct P; destruct (n_vanished e =? 0) eqn:V; (apply Nat.eqb_eq in V || apply Nat.eqb_neq in V); destruct W as [W1 W2];
    repeat split; intros; try (now apply W1); try congruence; try (intuition congruence); try lia.
Qed.
Print Assumptions C69_new_exit.

(** notmuch insert: post-insert runs when the message was delivered, after the database was
    closed, and whatever it does the exit status is that of the delivery. *)
Definition delivered (e : insert_env) : Prop := i_start e = true /\ i_indexopts e = true /\ (i_keep e = true \/ i_add e = Success /\ i_close e = Success).
Theorem C69_insert : forall e,
  (fst (insert_command e) = 0 <-> delivered e) /\
  (forall name config m, In (Hook_runs name config m) (snd (insert_command e)) -> delivered e /\ i_hooks e = true /\ name = lit "post-insert" /\ config = i_config e /\ m = Closed) /\
  (delivered e -> i_hooks e = true -> ran_well (i_post e) -> snd (insert_command e) = [Work Writable; Hook_runs (lit "post-insert") (i_config e) Closed]) /\
  (forall h, fst (insert_command {| i_start := i_start e; i_keep := i_keep e; i_hooks := i_hooks e; i_config := i_config e; i_indexopts := i_indexopts e; i_add := i_add e; i_close := i_close e; i_post := h |}) = fst (insert_command e)).
Proof.
  intros e. unfold delivered. split; [|split; [|split]].
  - unfold insert_command, EXIT_TEMPFAIL, status_to_exit. destruct (i_start e), (i_indexopts e), (i_keep e), (i_add e), (i_close e); cbn; unfold EXIT_TEMPFAIL; intuition congruence.
  - intros name config m. unfold insert_command.
    pose proof (run_events (i_post e) (lit "post-insert") (i_config e) Closed) as R. destruct (run_hook (i_post e) _ _ Closed) as [r h]. cbn [snd] in *.
    destruct (i_start e), (i_indexopts e), (i_keep e), (i_add e), (i_close e), (i_hooks e); cbn; intros H; destruct R as [->| ->]; cbn in H; intuition congruence.
  - intros (K1 & K2 & K) K3 (H1 & H2 & H3 & H4). destruct e as [st ke hk cf io ad cl po]. cbn in K1, K2, K3, K, H1, H2, H3, H4. subst st io hk. unfold insert_command, run_hook. cbn. rewrite H1, H2, H3, H4. cbn.
    destruct ke, ad, cl; cbn; try reflexivity; destruct K as [K|[K4 K5]]; congruence.
  - intros h. unfold insert_command. cbn. now destruct (i_start e), (i_indexopts e).
Qed.
Print Assumptions C69_insert.

Definition works := {| h_access := Access_ok; h_fork := true; h_exec := Program (Exited 0); h_wait := true |}.
Definition fails := {| h_access := Access_ok; h_fork := true; h_exec := Program (Exited 3); h_wait := true |}.
Definition ex_new (pre post : hook_env) := {| n_start := true; n_hooks := true; n_config := lit "/c"; n_reopen_ro := true; n_pre := pre; n_reopen_rw := true;
  n_counting := true; n_indexopts := true; n_ret := 0; n_interrupted := false; n_vanished := 0; n_post := post |}.
Example C69_example :
  ran_well works /\ ~ lost works /\ ~ fine fails /\
  new_command (ex_new works works) = (0, [Hook_runs (lit "pre-new") (lit "/c") Read_only; Work Writable; Hook_runs (lit "post-new") (lit "/c") Closed]) /\
  new_command (ex_new fails works) = (1, [Hook_runs (lit "pre-new") (lit "/c") Read_only]) /\
  new_command (ex_new works fails) = (1, [Hook_runs (lit "pre-new") (lit "/c") Read_only; Work Writable; Hook_runs (lit "post-new") (lit "/c") Closed]).
Proof.
  unfold fine, absent, ran_well, lost. cbn. repeat split; try reflexivity; intuition congruence.
Qed.

(** ** C70 *)
Definition writers : list bytes := map lit ["new"; "insert"; "tag"; "dump"; "restore"; "compact"; "reindex"]%string.
Definition readers : list bytes := map lit ["search"; "address"; "show"; "count"; "reply"]%string.
Definition others : list bytes := map lit ["setup"; "config"; "help"]%string.

Lemma find_cases name m : find_command name = Some (Some m) ->
  (exists n, name = Some n /\ In n writers /\ m_early m = true /\ m_write m = true /\ m_load m = false /\ (m_create_db m = true <-> n = lit "new")) \/
  (exists n, name = Some n /\ In n readers /\ m_early m = true /\ m_write m = false /\ m_load m = false /\ m_create_db m = false) \/
  (m_early m = false /\ (name = None \/ exists n, name = Some n /\ In n others) /\ (m_load m = true -> m_create_config m = true \/ name = Some (lit "config"))).
Proof.
  intros H. unfold find_command in H. destruct (find _ commands) as [[k v]|] eqn:F; [|discriminate H]. cbn in H. injection H as ->.
  apply find_some in F as [F1 F2]. cbn [fst] in F2.
  assert (name = k) as ->. { unfold oeq in F2. destruct name, k; try discriminate F2; [apply bseq_eq in F2; now subst|reflexivity]. }
  assert (NE : forall s t, bseq (lit s) (lit t) = false -> lit s <> lit t) by (intros s t E X; rewrite X, bseq_refl in E; discriminate E).
  unfold commands, mode in F1. cbn [In] in F1.
  repeat (destruct F1 as [F1|F1]; [pose proof (f_equal fst F1) as K; pose proof (f_equal snd F1) as V; cbn [fst snd] in K, V; clear F1; try discriminate V; subst k; (injection V as <- || discriminate V)|]);
    try contradiction; cbn [m_early m_write m_load m_create_db m_create_config].
  all: try (left; eexists; split; [reflexivity|]; split; [unfold writers; cbn [map]; repeat (first [left; reflexivity|right])|]; repeat split; trivial; intros X; try discriminate X; try reflexivity; exfalso; revert X; apply NE; reflexivity).
  all: try (right; left; eexists; split; [reflexivity|]; split; [unfold readers; cbn [map]; repeat (first [left; reflexivity|right])|]; repeat split; reflexivity).
  all: right; right; split; [reflexivity|]; split; [first [left; reflexivity|right; eexists; split; [reflexivity|unfold others; cbn [map]; repeat (first [left; reflexivity|right])]]|intros X; first [discriminate X|left; reflexivity|right; reflexivity]].
Qed.

(** A command gets a handle with which the database can be changed only if it is one of seven;
    the five commands for reading get one that is read-only; only "new" creates a database. *)
Theorem C70_access : forall e name code h, main e name = (code, Ran name h) ->
  (h = Database true <-> exists n, name = Some n /\ In n writers) /\
  (h = Database false <-> exists n, name = Some n /\ In n readers) /\
  code = x_run e name.
Proof.
  intros e name code h E. unfold main in E. destruct (x_options e); cbn [negb] in E; [|discriminate E].
  destruct (find_command name) as [[m|]|] eqn:F; [| destruct name; [destruct (x_external e)|]; discriminate E..].
  assert (D1 : forall n, In n writers -> In n readers -> False).
  { intros n H1 H2. unfold writers, readers in *. cbn [map In] in H1, H2.
    repeat (destruct H1 as [H1|H1]; [subst n; repeat (destruct H2 as [H2|H2]; [discriminate H2|]); exact H2|]). exact H1. }
  assert (D2 : forall n, In n others -> (In n readers \/ In n writers) -> False).
  { intros n H1 H2. unfold writers, readers, others in *. cbn [map In] in H1, H2.
    repeat (destruct H1 as [H1|H1]; [subst n; destruct H2 as [H2|H2]; repeat (destruct H2 as [H2|H2]; [discriminate H2|]); exact H2|]). exact H1. }
  destruct (find_cases name m F) as [(n & -> & Hw & M1 & M2 & M3 & M4)|[(n & -> & Hr & M1 & M2 & M3 & M4)|(M1 & Hn & M2)]].
  - rewrite M1, M2, M3 in E. cbn [orb] in E.
    assert (h = Database true /\ code = x_run e (Some n)) as [-> ->].
    { destruct (m_create_db m); [destruct (x_create e)|]; try (destruct (x_open e true)); try discriminate E; injection E as <- <-; auto. }
    split; [split; [intros _; now exists n|reflexivity]|]. split; [|reflexivity]. split; [discriminate|]. intros (n' & X & Hn). injection X as <-. destruct (D1 n Hw Hn).
  - rewrite M1, M2, M3, M4 in E. cbn [orb] in E.
    assert (h = Database false /\ code = x_run e (Some n)) as [-> ->] by (destruct (x_open e false); [injection E as <- <-; auto|discriminate E]).
    split; [split; [discriminate|]|]. { intros (n' & X & Hn). injection X as <-. destruct (D1 n Hn Hr). }
    split; [split; [intros _; now exists n|reflexivity]|reflexivity].
  - rewrite M1 in E.
    assert ((h = No_handle \/ h = Configuration) /\ code = x_run e name) as [Hh ->].
    { destruct (m_load m); [destruct (x_load e)|]; try (destruct (m_create_config m)); try (destruct name); try discriminate E; injection E as <- <-; auto. }
    split; [|split; [|reflexivity]]; (split; [intros X; destruct Hh; congruence|]); intros (n & -> & Hi); exfalso; (destruct Hn as [Hn|(n' & X & Hn)]; [discriminate Hn|]); injection X as <-; apply (D2 n Hn); auto.
Qed.
Print Assumptions C70_access.

(** Any other name, and emacs-mua: the program notmuch-<name>, or failure. *)
Theorem C70_external : forall e n, x_options e = true -> ~ In n (writers ++ readers ++ others) ->
  main e (Some n) = if x_external e then (0, Ran_external (lit "notmuch-" ++ n)) else (1, Nothing_run).
Proof.
  intros e n Ho H. unfold main. rewrite Ho. cbn [negb]. destruct (find_command (Some n)) as [[m|]|] eqn:F; [|reflexivity..].
  exfalso. apply H. apply find_cases in F. rewrite !in_app_iff.
  destruct F as [(n' & X & K & _)|[(n' & X & K & _)|(_ & [X|(n' & X & K)] & _)]]; try discriminate X; injection X as <-; auto.
Qed.
Print Assumptions C70_external.

(** Exit status 0 without having run anything: only "notmuch" alone, configured but without a
    database, and "notmuch config" without a configuration. *)
Theorem C70_exit_zero : forall e name a, main e name = (0, a) ->
  a <> Nothing_run \/ (name = None /\ x_load e = Load_no_database) \/ (name = Some (lit "config") /\ x_load e = Load_no_config).
Proof.
  intros e name a E. unfold main in E. destruct (x_options e); cbn [negb] in E; [|discriminate E].
  destruct (find_command name) as [[m|]|] eqn:F; [|destruct name; [destruct (x_external e)|]; try discriminate E; injection E as <-; left; discriminate..].
  destruct (find_cases name m F) as [(n & -> & Hw & M1 & M2 & M3 & M4)|[(n & -> & Hr & M1 & M2 & M3 & M4)|(M1 & Hn & M2)]]; rewrite M1 in E.
  - rewrite M3 in E. destruct (m_create_db m); [destruct (x_create e)|]; try (destruct (x_open e _)); try discriminate E; injection E as _ <-; left; discriminate.
  - rewrite M3 in E. destruct (m_create_db m); [destruct (x_create e)|]; try (destruct (x_open e _)); try discriminate E; injection E as _ <-; left; discriminate.
  - destruct (m_load m) eqn:ML; [|injection E as _ <-; left; discriminate].
    destruct (x_load e); try discriminate E; try (injection E as _ <-; left; discriminate).
    + destruct (m_create_config m); [injection E as _ <-; left; discriminate|]. destruct (M2 eq_refl) as [X|X]; [discriminate X|]. right; right. now split.
    + destruct name; [injection E as _ <-; left; discriminate|]. right; left. now split.
Qed.
Print Assumptions C70_exit_zero.
(** Not true: "if the configuration that a command needs is missing, the exit status says so". *)
Theorem C70_missing_configuration_refuted : ~ (forall e n a, x_load e = Load_no_config -> main e (Some n) = (0, a) -> a <> Nothing_run).
Proof.
  intros H. apply (H {| x_options := true; x_external := false; x_create := Create_error; x_open := fun _ => false; x_load := Load_no_config; x_run := fun _ => 1 |} (lit "config") Nothing_run eq_refl); reflexivity.
Qed.
Print Assumptions C70_missing_configuration_refuted.

Example C70_example :
  let e := {| x_options := true; x_external := true; x_create := Create_exists; x_open := fun _ => true; x_load := Load_ok; x_run := fun _ => 0 |} in
  main e (Some (lit "new")) = (0, Ran (Some (lit "new")) (Database true)) /\ main e (Some (lit "search")) = (0, Ran (Some (lit "search")) (Database false)) /\
  main e (Some (lit "emacs-mua")) = (0, Ran_external (lit "notmuch-emacs-mua")) /\ main e (Some (lit "git")) = (0, Ran_external (lit "notmuch-git")) /\
  main e None = (0, Ran None Configuration).
Proof. repeat split; vm_compute; reflexivity. Qed.
