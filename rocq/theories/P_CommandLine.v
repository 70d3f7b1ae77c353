(** Property C87: the options shared by all commands (--uuid, --version, --help, --query). *)
From Verif Require Import Bytes Options OptionsSpec OptionsProofs OptionsProofs2 P_Options OptionTables Hooks CommandLine CommandLineSpec CommandLineProofs.
Local Open Scope nat_scope.

Ltac each H := repeat (destruct H as [H|H]; [injection H as <- <-|]); [..|destruct H].

Lemma called_parse argv es cmd args : called argv es cmd args -> parse_arguments opts_notmuch_main argv = (es, Some (cmd :: args)).
Proof. intros H. apply parse_arguments_iff; [apply main_sensible|exact H]. Qed.
Lemma shared_run e g db name ev r : process_shared_options e g db name = (ev, r) -> Forall (fun x => goes_ahead x = false) ev.
Proof.
  unfold process_shared_options. intros H. destruct (g_version g); [injection H as <- <-; repeat constructor|].
  destruct (g_help g); [injection H as <- <-; repeat constructor|].
  destruct (g_uuid g); [|injection H as <- <-; constructor].
  destruct db; [destruct (bseq _ _)|]; injection H as <- <-; repeat constructor.
Qed.

(** --uuid protects the database: when the last --uuid on the command line, before or after the
    command, is not that of the database, the command does not go ahead (and the exit status is 1,
    unless it was asked for help or the version only). *)
Theorem C87_uuid :
  forall e argv es cmd t args es' rest u, In (cmd, t) database_commands ->
  called argv es cmd args -> reads t 0 args es' rest -> asks_uuid (es ++ es') u -> u <> l_uuid e ->
  Forall (fun x => goes_ahead x = false) (fst (notmuch_main e argv)) /\
  (~ asks_flag 500 es -> ~ asks_flag 501 es -> ~ asks_flag 500 (es ++ es') -> ~ asks_flag 501 (es ++ es') ->
   snd (notmuch_main e argv) = 1).
Proof.
  intros e argv es cmd t args es' rest u Hc Hm Hr Hu Hn. apply called_parse in Hm.
  assert (Hs : sensible t). { apply (command_sensible cmd). apply in_or_app. now left. }
  apply (parse_arguments_iff t args es' rest Hs) in Hr.
  assert (R : forall h, (exists w, h = Database w) -> forall g, g = fold_left store es globals0 ->
    Forall (fun x => goes_ahead x = false) (fst (run_command e g (Some cmd) h args)) /\
    (~ asks_flag 500 (es ++ es') -> ~ asks_flag 501 (es ++ es') -> snd (run_command e g (Some cmd) h args) = 1)).
  { intros h (w & ->) g ->. unfold run_command. rewrite (database_options cmd t Hc), Hr. rewrite <- fold_left_app.
    unfold process_shared_options. rewrite (fold_uuid (es ++ es') u _ Hu). apply bseq_neq in Hn.
    destruct (flag_decide 500 (es ++ es')) as [F|F].
    - rewrite (fold_version _ _ F). cbn [fst snd]. split; [repeat constructor|intros C; contradiction].
    - rewrite (fold_flag_false 500 g_version (es ++ es') globals0 F) by reflexivity.
      destruct (flag_decide 501 (es ++ es')) as [F1|F1].
      + rewrite (fold_help _ _ F1). cbn [fst snd]. split; [repeat constructor|intros _ C; contradiction].
      + rewrite (fold_flag_false 501 g_help (es ++ es') globals0 F1) by reflexivity. rewrite Hn. cbn [fst snd]. split; [constructor|reflexivity]. }
  unfold notmuch_main. rewrite Hm. destruct (process_shared_options e _ None (Some cmd)) as [ev [n|]] eqn:P.
  { pose proof (shared_run _ _ _ _ _ _ P) as Fv. cbn [fst snd]. split; [exact Fv|]. intros A B _ _.
    unfold process_shared_options in P.
    rewrite (fold_flag_false 500 g_version es globals0 A), (fold_flag_false 501 g_help es globals0 B) in P by reflexivity.
    destruct (g_uuid _) in P; discriminate P. }
  pose proof (shared_run _ _ _ _ _ _ P) as Fv. cbn [tl].
  destruct (database_find cmd t Hc) as (w & c & -> & Hw). cbn [m_load m_early m_write m_create_db mode m_create_config].
  assert (G : forall before h, (exists w, h = Database w) -> Forall (fun x => goes_ahead x = false) before ->
    let r := let '(ev', n) := run_command e (fold_left store es globals0) (Some cmd) h args in (ev ++ before ++ ev', n) in
    Forall (fun x => goes_ahead x = false) (fst r) /\
    (~ asks_flag 500 es -> ~ asks_flag 501 es -> ~ asks_flag 500 (es ++ es') -> ~ asks_flag 501 (es ++ es') -> snd r = 1)).
  { intros before h Hh Hb. specialize (R h Hh _ eq_refl). destruct (run_command _ _ _ _ _) as [ev' n] eqn:E. cbn [fst snd] in R |- *.
    destruct R as [R1 R2]. split; [|intros _ _; exact R2]. repeat (apply Forall_app; split); assumption. }
  destruct c.
  - destruct (l_exists e).
    + cbn [andb]. destruct (l_openable e (w || true)); [|split; [exact Fv|reflexivity]]. apply G; [eauto|repeat constructor].
    + destruct (l_creatable e); [|split; [exact Fv|reflexivity]]. apply G; [eauto|repeat constructor].
  - destruct (l_exists e && l_openable e (w || false)); [|split; [exact Fv|reflexivity]]. apply G; [eauto|repeat constructor].
Qed.
Print Assumptions C87_uuid.

(** Otherwise it does go ahead: with the right --uuid or none, a database command whose database
    can be opened opens it (for reading only, if it is one of the reading commands) and goes ahead with
    its own options, the last --query, and the arguments left over; nothing else happens and the exit
    status is the command's. *)
Theorem C87_goes_ahead :
  forall e argv es cmd t args es' rest q, In (cmd, t) database_commands ->
  called argv es cmd args -> reads t 0 args es' rest ->
  asks_uuid (es ++ es') (l_uuid e) \/ asks_no_uuid (es ++ es') ->
  ~ asks_flag 500 es -> ~ asks_flag 501 es -> ~ asks_flag 500 (es ++ es') -> ~ asks_flag 501 (es ++ es') ->
  asks_query (es ++ es') q -> l_exists e = true -> (forall w, l_openable e w = true) ->
  exists w, (w = false <-> In cmd reading_commands) /\
  without_warnings (fst (notmuch_main e argv)) = [Database_opened w; Body (Some cmd) (Database w) (own es') q rest] /\
  snd (notmuch_main e argv) = l_run e (Some cmd) (own es') q rest.
Proof.
  intros e argv es cmd t args es' rest q Hc Hm Hr Hu F1 F2 F3 F4 Hq Hx Ho. apply called_parse in Hm.
  assert (Ha : In (cmd, t) all_commands) by (apply in_or_app; now left).
  assert (Hs : sensible t) by (apply (command_sensible cmd); exact Ha).
  pose proof (command_own _ _ _ _ _ Ha Hr) as Hown.
  apply (parse_arguments_iff t args es' rest Hs) in Hr.
  assert (R : forall w, run_command e (fold_left store es globals0) (Some cmd) (Database w) args =
     ([Body (Some cmd) (Database w) (own es') q rest], l_run e (Some cmd) (own es') q rest)).
  { intros w. unfold run_command. rewrite (database_options cmd t Hc), Hr. rewrite <- fold_left_app.
    unfold process_shared_options. rewrite (fold_flag_false 500 g_version (es ++ es') globals0 F3) by reflexivity.
    rewrite (fold_flag_false 501 g_help (es ++ es') globals0 F4) by reflexivity. rewrite (fold_query _ _ Hq), Hown.
    destruct Hu as [Hu|Hu].
    - rewrite (fold_uuid _ _ _ Hu), bseq_refl. reflexivity.
    - rewrite (fold_uuid_keep _ _ Hu). reflexivity. }
  unfold notmuch_main. rewrite Hm.
  destruct (process_shared_options e _ None (Some cmd)) as [ev r] eqn:P.
  assert (W : without_warnings ev = [] /\ r = None).
  { unfold process_shared_options in P.
    rewrite (fold_flag_false 500 g_version es globals0 F1), (fold_flag_false 501 g_help es globals0 F2) in P by reflexivity.
    destruct (g_uuid _) in P; injection P as <- <-; split; reflexivity. }
  destruct W as [W ->]. cbn [tl].
  assert (D : exists w c, find_command (Some cmd) = Some (Some (mode true w c false false)) /\ (w || c = false <-> In cmd reading_commands)).
  { clear - Hc. cbn [database_commands In] in Hc. each Hc; (eexists _, _; split; [reflexivity|]);
      cbn [orb reading_commands In]; (split; [intros C; try discriminate C; tauto|intros C]); try reflexivity;
      repeat (destruct C as [C|C]; [discriminate C|]); destruct C. }
  destruct D as (w & c & -> & Hw). exists (w || c). split; [exact Hw|].
  cbn [m_load m_early m_write m_create_db mode m_create_config]. rewrite Hx, !Ho. cbn [andb]. rewrite !R.
  assert (T : without_warnings (ev ++ [Database_opened (w || c)] ++ [Body (Some cmd) (Database (w || c)) (own es') q rest]) =
              [Database_opened (w || c); Body (Some cmd) (Database (w || c)) (own es') q rest]).
  { unfold without_warnings in *. rewrite filter_app, W. reflexivity. }
  destruct c; cbn [fst snd]; (split; [exact T|reflexivity]).
Qed.
Print Assumptions C87_goes_ahead.

(** --version and --help before the command are answered before anything is looked at or opened. *)
Theorem C87_version_first :
  forall e argv es rest, reads opts_notmuch_main 0 argv es rest -> asks_flag 500 es ->
  notmuch_main e argv = ([Version_printed], 0).
Proof.
  intros e argv es rest R F. apply parse_arguments_iff in R; [|apply main_sensible]. unfold notmuch_main. rewrite R.
  unfold process_shared_options. rewrite (fold_version _ _ F). reflexivity.
Qed.
Print Assumptions C87_version_first.
Theorem C87_help_first :
  forall e argv es rest, reads opts_notmuch_main 0 argv es rest -> asks_flag 501 es -> ~ asks_flag 500 es ->
  notmuch_main e argv = ([Help_shown (hd_error rest)], l_help e (hd_error rest)).
Proof.
  intros e argv es rest R F N. apply parse_arguments_iff in R; [|apply main_sensible]. unfold notmuch_main. rewrite R.
  unfold process_shared_options. rewrite (fold_help _ _ F), (fold_flag_false 500 g_version es globals0 N) by reflexivity.
  destruct rest; reflexivity.
Qed.
Print Assumptions C87_help_first.

(** After the command they still keep it from going ahead, whatever the command. *)
Theorem C87_flags_after :
  forall e argv es cmd t args es' rest n, In (cmd, t) all_commands -> n = 500 \/ n = 501 ->
  called argv es cmd args -> reads t 0 args es' rest -> asks_flag n (es ++ es') ->
  Forall (fun x => goes_ahead x = false) (fst (notmuch_main e argv)).
Proof.
  intros e argv es cmd t args es' rest n Hc Hn Hm Hr F. apply called_parse in Hm.
  apply (parse_arguments_iff t args es' rest (command_sensible cmd t Hc)) in Hr.
  assert (R : forall h, Forall (fun x => goes_ahead x = false) (fst (run_command e (fold_left store es globals0) (Some cmd) h args))).
  { intros h. unfold run_command. destruct (options_of cmd) as [[t' p]|] eqn:O; [|constructor].
    assert (t' = t) as ->.
    { clear - Hc O. unfold all_commands, database_commands in Hc. cbn [app In] in Hc. each Hc;
        lazy [options_of find command_options bseq lit fst snd] in O; injection O; intros; congruence. }
    rewrite Hr, <- fold_left_app. unfold process_shared_options. destruct (g_version _) eqn:V; [repeat constructor|].
    destruct Hn as [-> | ->]; [rewrite (fold_version _ _ F) in V; discriminate|]. rewrite (fold_help _ _ F). repeat constructor. }
  unfold notmuch_main. rewrite Hm. destruct (process_shared_options e _ None (Some cmd)) as [ev [r|]] eqn:P;
    pose proof (shared_run _ _ _ _ _ _ P) as Fv; [exact Fv|]. cbn [tl].
  assert (G : forall before h, Forall (fun x => goes_ahead x = false) before ->
    Forall (fun x => goes_ahead x = false) (fst (let '(ev', n) := run_command e (fold_left store es globals0) (Some cmd) h args in (ev ++ before ++ ev', n)))).
  { intros before h Hb. specialize (R h). destruct (run_command _ _ _ _ _) as [ev' k]. cbn [fst] in *.
    repeat (apply Forall_app; split); assumption. }
  assert (D : exists m, find_command (Some cmd) = Some (Some m)).
  { clear - Hc. unfold all_commands, database_commands in Hc. cbn [app In] in Hc. each Hc; eexists; reflexivity. }
  destruct D as (m & ->). destruct m as [me mw mc ml mk]. cbn [m_load m_early m_write m_create_db m_create_config].
  assert (L : forall before h, Forall (fun x => goes_ahead x = false) before ->
     Forall (fun x => goes_ahead x = false) (fst (
                if ml then
                  match l_load e with
                  | Load_no_config => if mk then (let '(ev', n) := run_command e (fold_left store es globals0) (Some cmd) Configuration args in (ev ++ (before ++ [Configuration_loaded]) ++ ev', n)) else (ev ++ before, 0)
                  | Load_no_database => (let '(ev', n) := run_command e (fold_left store es globals0) (Some cmd) Configuration args in (ev ++ (before ++ [Configuration_loaded]) ++ ev', n))
                  | Load_ok => (let '(ev', n) := run_command e (fold_left store es globals0) (Some cmd) Configuration args in (ev ++ (before ++ [Configuration_loaded]) ++ ev', n))
                  | Load_error => (ev ++ before, 1)
                  end
                else (let '(ev', n) := run_command e (fold_left store es globals0) (Some cmd) h args in (ev ++ before ++ ev', n))))).
  { intros before h Hb. assert (B' : Forall (fun x => goes_ahead x = false) (before ++ [Configuration_loaded])).
    { apply Forall_app. split; [exact Hb|repeat constructor]. }
    destruct ml; [|now apply G]. destruct (l_load e); [now apply G| |now apply G|].
    - destruct mk; [now apply G|]. apply Forall_app. now split.
    - apply Forall_app. now split. }
  destruct me; [|apply L; constructor].
  destruct mc.
  - destruct (l_exists e); cbn [andb].
    + destruct (l_openable e (mw || true)); [apply L; repeat constructor|exact Fv].
    + destruct (l_creatable e); [apply L; repeat constructor|exact Fv].
  - destruct (l_exists e && l_openable e (mw || false)); [apply L; repeat constructor|exact Fv].
Qed.
Print Assumptions C87_flags_after.

(** "notmuch subcommand --uuid=HEX is equivalent to notmuch --uuid=HEX subcommand" (notmuch(1)), and the
    same for --query: apart from warnings the same things happen, with the same exit status. *)
Definition shared_word (w : bytes) : Prop :=
  (exists u, u <> [] /\ w = lit "--uuid=" ++ u) \/ w = lit "--query=infix" \/ w = lit "--query=sexp".
Definition same (a b : list happening * nat) : Prop :=
  without_warnings (fst a) = without_warnings (fst b) /\ snd a = snd b.
(** The word as an assignment. *)
Definition assigns (w : bytes) (x : effect) : Prop :=
  (exists u, u <> [] /\ w = lit "--uuid=" ++ u /\ x = SetString 502 u) \/
  (w = lit "--query=infix" /\ x = SetKeyword 503 40) \/ (w = lit "--query=sexp" /\ x = SetKeyword 503 41).
(** Reading one shared word first. *)
Lemma loop_acc t : forall fuel argv pos acc,
  parse_arguments_loop fuel t argv pos acc =
  (acc ++ fst (parse_arguments_loop fuel t argv pos []), snd (parse_arguments_loop fuel t argv pos [])).
Proof.
  induction fuel as [|f IH]; intros argv pos acc; cbn [parse_arguments_loop]; [cbn [fst snd]; now rewrite app_nil_r|].
  destruct argv as [|a rest]; [cbn [fst snd]; now rewrite app_nil_r|].
  destruct (negb (starts_dashes a)).
  - destruct (parse_position a pos t) as [x|]; [|cbn [fst snd]; now rewrite app_nil_r].
    rewrite (IH _ _ (acc ++ x)), (IH _ _ ([] ++ x)). cbn [fst snd app]. now rewrite app_assoc.
  - destruct (length a =? 2); [cbn [fst snd]; now rewrite app_nil_r|].
    destruct (parse_option t (skipn 2 a) rest) as [x [r|]]; [|cbn [fst snd app]; reflexivity].
    rewrite (IH _ _ (acc ++ x)), (IH _ _ ([] ++ x)). cbn [fst snd app]. now rewrite app_assoc.
Qed.
Definition tables_here : list (list desc) := opts_notmuch_main :: map snd all_commands.
Lemma shared_entries t : In t tables_here ->
  In (KString 502 false, lit "uuid", None) (entries t) /\
  In (KKeyword 503 [(lit "infix", 40%Z); (lit "sexp", 41%Z)] None, lit "query", None) (entries t).
Proof.
  intros H. unfold tables_here, all_commands, database_commands in H. cbn [app map snd In] in H.
  repeat (destruct H as [<- |H]; [cbn -[lit]; tauto|]). destruct H.
Qed.
Lemma sensible_here t : In t tables_here -> sensible t.
Proof.
  intros [<- |H]; [apply main_sensible|]. apply in_map_iff in H. destruct H as ([c t'] & <- & H). exact (command_sensible _ _ H).
Qed.
Lemma word_option t w x rest : In t tables_here -> assigns w x -> 
  parse_option t (skipn 2 w) rest = ([x], Some rest) /\ starts_dashes w = true /\ (length w =? 2) = false.
Proof.
  intros Ht Hw. destruct (shared_entries t Ht) as [H1 H2]. split.
  - apply parse_option_iff; [now apply sensible_here|].
    destruct Hw as [(u & Hu & -> & ->)|[[-> ->]|[-> ->]]].
    + exists (KString 502 false), (lit "uuid"), None, false, ("="%char :: u), (Attached u), rest, (SetString 502 u), false.
      repeat split; try assumption; try discriminate.
      * left. exists "="%char, u. repeat split. now left.
      * apply (m_string 502 false false (Attached u)); [discriminate|now left].
    + eexists _, (lit "query"), None, false, (lit "=infix"), (Attached (lit "infix")), rest, (SetKeyword 503 40), false.
      split; [exact H2|]. repeat split; try discriminate.
      * left. exists "="%char, (lit "infix"). repeat split. now left.
      * apply m_keyword. now left.
    + eexists _, (lit "query"), None, false, (lit "=sexp"), (Attached (lit "sexp")), rest, (SetKeyword 503 41), false.
      split; [exact H2|]. repeat split; try discriminate.
      * left. exists "="%char, (lit "sexp"). repeat split. now left.
      * apply m_keyword. right. split; [discriminate|]. now left.
  - destruct Hw as [(u & Hu & -> & ->)|[[-> ->]|[-> ->]]]; split; reflexivity.
Qed.
Lemma word_first t w x rest : In t tables_here -> assigns w x ->
  parse_arguments t (w :: rest) = (x :: fst (parse_arguments t rest), snd (parse_arguments t rest)).
Proof.
  intros Ht Hw. destruct (word_option t w x rest Ht Hw) as (A & B & C). unfold parse_arguments at 1. cbn [length].
  remember (S (length rest)) as f eqn:Ef. cbn [parse_arguments_loop]. rewrite B, C, A. cbn [negb].
  rewrite loop_acc. subst f. reflexivity.
Qed.
Lemma all_options cmd t : In (cmd, t) all_commands -> exists p, options_of cmd = Some (t, p).
Proof.
  intros Hc. unfold all_commands, database_commands in Hc. cbn [app In] in Hc. each Hc; eexists; reflexivity.
Qed.
Lemma run_command_word e cmd t h w x args : In (cmd, t) all_commands -> assigns w x ->
  run_command e (store globals0 x) (Some cmd) h args = run_command e globals0 (Some cmd) h (w :: args).
Proof.
  intros Hc Hw. assert (Ht : In t tables_here) by (right; apply in_map_iff; exists (cmd, t); now split).
  unfold run_command. destruct (all_options cmd t Hc) as (p & ->). rewrite (word_first t w x args Ht Hw).
  destruct (parse_arguments t args) as [es [rest|]]; cbn [fst snd]; [|reflexivity].
  cbn [fold_left filter].
  replace (is_shared x) with true by (destruct Hw as [(u & _ & _ & ->)|[[_ ->]|[_ ->]]]; reflexivity). reflexivity.
Qed.
Lemma without_app a b : without_warnings (a ++ b) = without_warnings a ++ without_warnings b.
Proof. unfold without_warnings. apply filter_app. Qed.

Theorem C87_placement :
  forall e w cmd t args, shared_word w -> In (cmd, t) all_commands ->
  same (notmuch_main e (w :: cmd :: args)) (notmuch_main e (cmd :: w :: args)).
Proof.
  intros e w cmd t args Hw Hc.
  assert (X : exists x, assigns w x).
  { destruct Hw as [(u & Hu & ->)|[-> | ->]]; [exists (SetString 502 u); left; eauto|exists (SetKeyword 503 40); right; left; auto|exists (SetKeyword 503 41); right; right; auto]. }
  destruct X as (x & Hx).
  assert (N : forall r, parse_arguments opts_notmuch_main (cmd :: r) = ([], Some (cmd :: r))).
  { intros r. clear - Hc. unfold all_commands, database_commands in Hc. cbn [app In] in Hc. each Hc; reflexivity. }
  unfold notmuch_main. rewrite (word_first opts_notmuch_main w x _ (or_introl eq_refl) Hx), !N. cbn [fst snd fold_left tl].
  destruct (process_shared_options e (store globals0 x) None (Some cmd)) as [ev r] eqn:P.
  assert (W : without_warnings ev = [] /\ r = None).
  { destruct Hx as [(u & _ & _ & ->)|[[_ ->]|[_ ->]]]; injection P as <- <-; split; reflexivity. }
  destruct W as [W ->]. assert (P0 : process_shared_options e globals0 None (Some cmd) = ([], None)) by reflexivity. rewrite P0.
  assert (R : forall before h, same
     (let '(ev', n) := run_command e (store globals0 x) (Some cmd) h args in (ev ++ before ++ ev', n))
     (let '(ev', n) := run_command e globals0 (Some cmd) h (w :: args) in ([] ++ before ++ ev', n))).
  { intros before h. rewrite (run_command_word e cmd t h w x args Hc Hx). destruct (run_command _ _ _ _ _) as [ev' n]. split; [|reflexivity].
    cbn [fst]. rewrite without_app, W. reflexivity. }
  assert (Z : forall before (n : nat), same (ev ++ before, n) ([] ++ before, n)).
  { intros before n. split; [|reflexivity]. cbn [fst]. rewrite without_app, W. reflexivity. }
  assert (Z' : same (ev, 1) ([], 1)). { split; [exact W|reflexivity]. }
  assert (D : exists m, find_command (Some cmd) = Some (Some m)).
  { clear - Hc. unfold all_commands, database_commands in Hc. cbn [app In] in Hc. each Hc; eexists; reflexivity. }
  destruct D as (m & ->). destruct m as [me mw mc ml mk]. cbn [m_load m_early m_write m_create_db m_create_config].
  repeat first [apply R | apply Z | apply Z'
    | match goal with
      | |- same (if ?b then _ else _) _ => destruct b
      | |- same (match l_load e with _ => _ end) _ => destruct (l_load e)
      end].
Qed.
Print Assumptions C87_placement.

(** A name that is not a command's is looked for as the program notmuch-NAME, which gets the
    arguments after the name unchanged and the configuration file of --config; nothing is opened. *)
Theorem C87_external :
  forall e argv es cmd args, called argv es cmd args -> ~ asks_flag 500 es -> ~ asks_flag 501 es ->
  (forall t, ~ In (cmd, t) all_commands) ->
  without_warnings (fst (notmuch_main e argv)) =
    (if l_external e (lit "notmuch-" ++ cmd) then [External (config_of es) (lit "notmuch-" ++ cmd) args] else []) /\
  (l_external e (lit "notmuch-" ++ cmd) = false -> snd (notmuch_main e argv) = 1).
Proof.
  intros e argv es cmd args Hm F1 F2 Hc. apply called_parse in Hm. unfold notmuch_main. rewrite Hm.
  destruct (process_shared_options e _ None (Some cmd)) as [ev r] eqn:P.
  assert (W : without_warnings ev = [] /\ r = None).
  { unfold process_shared_options in P.
    rewrite (fold_flag_false 500 g_version es globals0 F1), (fold_flag_false 501 g_help es globals0 F2) in P by reflexivity.
    destruct (g_uuid _) in P; injection P as <- <-; split; reflexivity. }
  destruct W as [W ->].
  assert (D : forall m, find_command (Some cmd) <> Some (Some m)).
  { intros m C. unfold find_command in C. destruct (find _ commands) as [[n k]|] eqn:Fi; [|discriminate]. injection C as ->.
    apply find_some in Fi. destruct Fi as [Hin E]. cbn [fst] in E. destruct n as [n|]; [|discriminate E].
    unfold oeq in E. apply bseq_eq in E. subst n. clear - Hc Hin. cbn [commands In] in Hin.
    repeat (destruct Hin as [Hin|Hin]; [try discriminate Hin; injection Hin as <- _; eapply Hc; unfold all_commands, database_commands; cbn [app In]; eauto 20|]).
    destruct Hin. }
  destruct (find_command (Some cmd)) as [[m|]|]; [now elim (D m)| |]; cbn [tl];
    (destruct (l_external e (lit "notmuch-" ++ cmd)); cbn [fst snd]; [|now split]; rewrite without_app, W; split; [reflexivity|discriminate]).
Qed.
Print Assumptions C87_external.

(** What does not hold.  [ready]: a database with UUID "a" that can be opened; [bare]: no database yet. *)
Definition ready : line_env :=
  {| l_exists := true; l_creatable := true; l_openable := fun _ => true; l_load := Load_ok; l_uuid := lit "a";
     l_external := fun _ => true; l_help := fun _ => 0; l_run := fun _ _ _ _ => 0 |}.
Definition bare : line_env :=
  {| l_exists := false; l_creatable := true; l_openable := fun _ => true; l_load := Load_no_database; l_uuid := lit "a";
     l_external := fun _ => true; l_help := fun _ => 0; l_run := fun _ _ _ _ => 0 |}.

(** "notmuch compact --uuid=b" compacts the database a, with a warning only. *)
Theorem C87_compact_refuted :
  ~ (forall e argv es args es' rest u, called argv es (lit "compact") args -> reads opts_notmuch_compact 0 args es' rest ->
     asks_uuid (es ++ es') u -> u <> l_uuid e -> Forall (fun x => goes_ahead x = false) (fst (notmuch_main e argv))).
Proof.
  intros H. specialize (H ready [lit "compact"; lit "--uuid=b"] [] [lit "--uuid=b"] [SetString 502 (lit "b")] [] (lit "b")).
  assert (A : called [lit "compact"; lit "--uuid=b"] [] (lit "compact") [lit "--uuid=b"]).
  { unfold called. apply parse_arguments_iff; [apply main_sensible|reflexivity]. }
  assert (B : reads opts_notmuch_compact 0 [lit "--uuid=b"] [SetString 502 (lit "b")] []).
  { apply parse_arguments_iff; [apply table_sensible; cbn [all_tables In]; tauto|reflexivity]. }
  specialize (H A B). assert (C : asks_uuid ([] ++ [SetString 502 (lit "b")]) (lit "b")) by (exists [], []; split; [reflexivity|intros v []]).
  specialize (H C ltac:(discriminate)).
  assert (E : fst (notmuch_main ready [lit "compact"; lit "--uuid=b"]) =
              [Database_opened true; Uuid_ignored (lit "b"); Body (Some (lit "compact")) (Database true) [] 40%Z []]) by reflexivity.
  rewrite E in H. inversion H as [|? ? _ K1]. inversion K1 as [|? ? _ K2]. inversion K2 as [|? ? C1 _]. discriminate C1.
Qed.
Print Assumptions C87_compact_refuted.

(** "notmuch new --uuid=b" where there is no database refuses, but has made one. *)
Theorem C87_refused_changes_nothing_refuted :
  ~ (forall e argv es cmd t args es' rest u, In (cmd, t) database_commands ->
     called argv es cmd args -> reads t 0 args es' rest -> asks_uuid (es ++ es') u -> u <> l_uuid e ->
     ~ In Database_created (fst (notmuch_main e argv))).
Proof.
  intros H. specialize (H bare [lit "new"; lit "--uuid=b"] [] (lit "new") opts_notmuch_new [lit "--uuid=b"] [SetString 502 (lit "b")] [] (lit "b")).
  apply H; clear H.
  - cbn [database_commands In]. tauto.
  - unfold called. apply parse_arguments_iff; [apply main_sensible|reflexivity].
  - apply parse_arguments_iff; [apply table_sensible; cbn [all_tables In]; tauto|reflexivity].
  - exists [], []. split; [reflexivity|intros v []].
  - discriminate.
  - assert (E : fst (notmuch_main bare [lit "new"; lit "--uuid=b"]) = [Database_created]) by reflexivity. rewrite E. now left.
Qed.
Print Assumptions C87_refused_changes_nothing_refuted.

(** "notmuch new --help" is not "notmuch --help new": it makes a database, and "notmuch search --help"
    without one shows no help. *)
Theorem C87_help_placement_refuted :
  ~ (forall e cmd t args, In (cmd, t) all_commands ->
     same (notmuch_main e (lit "--help" :: cmd :: args)) (notmuch_main e (cmd :: lit "--help" :: args))).
Proof.
  intros H. specialize (H bare (lit "new") opts_notmuch_new []).
  destruct H as [H _]; [unfold all_commands, database_commands; cbn [app In]; tauto|]. discriminate H.
Qed.
Print Assumptions C87_help_placement_refuted.
Example C87_search_help : notmuch_main bare [lit "search"; lit "--help"] = ([], 1) /\ notmuch_main bare [lit "--help"; lit "search"] = ([Help_shown (Some (lit "search"))], 0).
Proof. split; reflexivity. Qed.
Example C87_new_help : notmuch_main bare [lit "new"; lit "--help"] = ([Database_created; Help_shown (Some (lit "new"))], 0).
Proof. reflexivity. Qed.

(** "notmuch --uuid=b emacs-mua" and other external commands start anyway, without the option. *)
Theorem C87_external_uuid_refuted :
  ~ (forall e argv es cmd args u, called argv es cmd args -> asks_uuid es u -> u <> l_uuid e ->
     Forall (fun x => goes_ahead x = false) (fst (notmuch_main e argv))).
Proof.
  intros H. specialize (H ready [lit "--uuid=b"; lit "emacs-mua"] [SetString 502 (lit "b")] (lit "emacs-mua") [] (lit "b")).
  assert (A : called [lit "--uuid=b"; lit "emacs-mua"] [SetString 502 (lit "b")] (lit "emacs-mua") []).
  { unfold called. apply parse_arguments_iff; [apply main_sensible|reflexivity]. }
  specialize (H A ltac:(exists [], []; split; [reflexivity|intros v []]) ltac:(discriminate)).
  assert (E : fst (notmuch_main ready [lit "--uuid=b"; lit "emacs-mua"]) = [Uuid_ignored (lit "b"); External None (lit "notmuch-emacs-mua") []]) by reflexivity.
  rewrite E in H. inversion H as [|? ? _ K1]. inversion K1 as [|? ? C1 _]. discriminate C1.
Qed.
Print Assumptions C87_external_uuid_refuted.

(** The hypotheses are met. *)
Example C87_wrong_uuid :
  notmuch_main ready [lit "--query=sexp"; lit "--uuid"; lit "a"; lit "tag"; lit "--uuid:b"; lit "+x"; lit "--"; lit "y"] = ([Uuid_ignored (lit "a"); Database_opened true], 1).
Proof. reflexivity. Qed.
Example C87_right_uuid :
  notmuch_main ready [lit "--query=sexp"; lit "--uuid"; lit "b"; lit "tag"; lit "--batch"; lit "--uuid:a"; lit "+x"; lit "--"; lit "y"] =
  ([Uuid_ignored (lit "b"); Database_opened true; Body (Some (lit "tag")) (Database true) [SetBool 0 true] 41%Z [lit "+x"; lit "--"; lit "y"]], 0).
Proof. reflexivity. Qed.
Example C87_meets :
  called [lit "--query=sexp"; lit "tag"; lit "--uuid=b"] [SetKeyword 503 41] (lit "tag") [lit "--uuid=b"] /\
  reads opts_notmuch_tag 0 [lit "--uuid=b"] [SetString 502 (lit "b")] [] /\ In (lit "tag", opts_notmuch_tag) database_commands /\
  asks_uuid ([SetKeyword 503 41] ++ [SetString 502 (lit "b")]) (lit "b") /\ ~ asks_flag 500 ([SetKeyword 503 41] ++ [SetString 502 (lit "b")]).
Proof.
  split; [unfold called; apply parse_arguments_iff; [apply main_sensible|reflexivity]|].
  split; [apply parse_arguments_iff; [apply table_sensible; cbn [all_tables In]; tauto|reflexivity]|].
  split; [cbn [database_commands In]; tauto|]. split; [exists [SetKeyword 503 41], []; split; [reflexivity|intros v []]|].
  intros (a & b & E & _). assert (C : In (SetBool 500 true) [SetKeyword 503 41; SetString 502 (lit "b")]) by (cbn [app] in E; rewrite E; apply in_or_app; right; now left).
  cbn [In] in C. destruct C as [C|[C|[]]]; discriminate C.
Qed.
