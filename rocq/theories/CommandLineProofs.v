(** Lemmas for C87. *)
From Verif Require Import Bytes Options OptionsSpec OptionsProofs OptionsProofs2 P_Options OptionTables Hooks CommandLine CommandLineSpec.
Local Open Scope nat_scope.

Lemma fold_uuid_keep es : forall g, asks_no_uuid es -> g_uuid (fold_left store es g) = g_uuid g.
Proof.
  induction es as [|x es IH]; intros g H; [reflexivity|]. cbn [fold_left]. rewrite IH; [|intros v C; apply (H v); now right].
  destruct x; try reflexivity. cbn [store g_uuid]. destruct (v =? 502) eqn:E; [|reflexivity].
  apply Nat.eqb_eq in E. subst. exfalso. apply (H s). now left.
Qed.
Lemma fold_uuid es u g : asks_uuid es u -> g_uuid (fold_left store es g) = Some u.
Proof.
  intros (a & b & -> & H). rewrite fold_left_app. cbn [fold_left]. rewrite fold_uuid_keep by exact H. reflexivity.
Qed.
Lemma fold_version es g : asks_flag 500 es -> g_version (fold_left store es g) = true.
Proof.
  intros (a & b & -> & H). rewrite fold_left_app. cbn [fold_left].
  assert (K : forall g, (forall x, ~ In (SetBool 500 x) b) -> g_version (fold_left store b g) = g_version g).
  { clear. induction b as [|x b IH]; intros g H; [reflexivity|]. cbn [fold_left]. rewrite IH; [|intros v C; apply (H v); now right].
    destruct x; try reflexivity. cbn [store g_version]. destruct (v =? 500) eqn:E; [|reflexivity].
    apply Nat.eqb_eq in E. subst. exfalso. apply (H b0). now left. }
  rewrite K by exact H. reflexivity.
Qed.
Lemma fold_help es g : asks_flag 501 es -> g_help (fold_left store es g) = true.
Proof.
  intros (a & b & -> & H). rewrite fold_left_app. cbn [fold_left].
  assert (K : forall g, (forall x, ~ In (SetBool 501 x) b) -> g_help (fold_left store b g) = g_help g).
  { clear. induction b as [|x b IH]; intros g H; [reflexivity|]. cbn [fold_left]. rewrite IH; [|intros v C; apply (H v); now right].
    destruct x; try reflexivity. cbn [store g_help]. destruct (v =? 501) eqn:E; [|reflexivity].
    apply Nat.eqb_eq in E. subst. exfalso. apply (H b0). now left. }
  rewrite K by exact H. reflexivity.
Qed.
(** The converse: without the option the flag stays as it was or the last word was no. *)
Lemma flag_decide n es : {asks_flag n es} + {~ asks_flag n es}.
Proof.
  assert (D : forall es, {b | exists es1 es2, es = es1 ++ SetBool n b :: es2 /\ forall x, ~ In (SetBool n x) es2} + {forall x, ~ In (SetBool n x) es}).
  { clear. induction es as [|x es IH]; [right; intros x []|]. destruct IH as [[b H]|H].
    - left. exists b. destruct H as (a & c & -> & H). exists (x :: a), c. split; [reflexivity|exact H].
    - destruct x; try (right; intros y [C|C]; [discriminate C|now apply (H y)]).
      destruct (Nat.eq_dec v n) as [-> |N].
      + left. exists b. exists [], es. now split.
      + right. intros y [C|C]; [congruence|now apply (H y)]. }
  destruct (D es) as [[[] H]|H].
  - left. exact H.
  - right. intros (a & b & E & K). destruct H as (a' & b' & E' & K'). rewrite E in E'. clear E.
    revert a' E'. induction a as [|y a IH]; intros [|y' a'] E'; cbn [app] in E'.
    + discriminate.
    + injection E' as E1 E2. subst y'. apply (K false). rewrite E2. apply in_or_app. right. now left.
    + injection E' as E1 E2. subst y. apply (K' true). rewrite <- E2. apply in_or_app. right. now left.
    + injection E' as _ E2. now apply (IH a').
  - right. intros (a & b & E & _). apply (H true). rewrite E. apply in_or_app. right. now left.
Qed.
Lemma fold_flag_false n f es : forall g, ~ asks_flag n es -> (forall g e, f (store g e) = match e with SetBool v b => if v =? n then b else f g | _ => f g end) ->
  f g = false -> f (fold_left store es g) = false.
Proof.
  intros g H F. revert g. induction es as [|x es IH] using rev_ind; intros g Hg; [exact Hg|].
  rewrite fold_left_app. cbn [fold_left]. rewrite F.
  assert (N : (forall b, x <> SetBool n b) -> ~ asks_flag n es).
  { intros Nx (a & b & -> & K). apply H. exists a, (b ++ [x]). split; [now rewrite <- app_assoc|].
    intros y C. apply in_app_or in C. destruct C as [C|[C|[]]]; [now apply (K y)|now apply (Nx y)]. }
  destruct x; try (apply IH; [apply N; congruence|exact Hg]).
  destruct (v =? n) eqn:E.
  - apply Nat.eqb_eq in E. subst v. destruct b; [|reflexivity]. exfalso. apply H. exists es, []. split; [reflexivity|intros b []].
  - apply IH; [|exact Hg]. apply N. intros b' C. injection C as -> ->. now rewrite Nat.eqb_refl in E.
Qed.

Lemma table_sensible t : In t all_tables -> sensible t.
Proof. pose proof C46_notmuch_tables_sensible as F. rewrite Forall_forall in F. intros H. now apply F. Qed.
Lemma main_sensible : sensible opts_notmuch_main.
Proof. apply table_sensible. cbn [all_tables In]. tauto. Qed.
Lemma commands_tables : Forall (fun c => In (snd c) all_tables) all_commands.
Proof. unfold all_commands, database_commands. cbn [app]. repeat (apply Forall_cons; [cbn [snd all_tables In]; tauto|]). apply Forall_nil. Qed.
Lemma command_sensible cmd t : In (cmd, t) all_commands -> sensible t.
Proof.
  intros H. apply table_sensible. pose proof commands_tables as F. rewrite Forall_forall in F. exact (F _ H).
Qed.

Ltac each H := repeat (destruct H as [H|H]; [injection H as <- <-|]); [..|destruct H].

Lemma database_options cmd t : In (cmd, t) database_commands -> options_of cmd = Some (t, true).
Proof. intros H. cbn [database_commands In] in H. each H; reflexivity. Qed.
(** How a database command gets its handle. *)
Lemma database_find cmd t : In (cmd, t) database_commands ->
  exists w c, find_command (Some cmd) = Some (Some (mode true w c false false)) /\ (c = true -> w = true).
Proof. intros H. cbn [database_commands In] in H. each H; (eexists _, _; split; [reflexivity|]); intros C; congruence. Qed.
Lemma fold_query_keep es : forall g, (forall z, ~ In (SetKeyword 503 z) es) -> g_query (fold_left store es g) = g_query g.
Proof.
  induction es as [|x es IH]; intros g H; [reflexivity|]. cbn [fold_left]. rewrite IH; [|intros v C; apply (H v); now right].
  destruct x; try reflexivity. cbn [store g_query]. destruct (v =? 503) eqn:E; [|reflexivity].
  apply Nat.eqb_eq in E. subst. exfalso. apply (H z). now left.
Qed.
Lemma fold_query es q : asks_query es q -> g_query (fold_left store es globals0) = q.
Proof.
  intros [(a & b & -> & H)|[-> H]].
  - rewrite fold_left_app. cbn [fold_left]. rewrite fold_query_keep by exact H. reflexivity.
  - now rewrite fold_query_keep.
Qed.
(** The variables of the shared options have the kinds of OptionTables.v in every table. *)
Definition well_kinded (x : effect) : bool :=
  match x with
  | SetBool v _ => negb ((502 <=? v) && (v <=? 503))
  | SetString v _ => negb ((500 <=? v) && (v <=? 503) && negb (v =? 502))
  | SetKeyword v _ => negb ((500 <=? v) && (v <=? 502))
  | _ => true
  end.
Lemma own_shared es : forallb well_kinded es = true -> filter (fun x => negb (is_shared x)) es = own es.
Proof.
  intros H. unfold own. induction es as [|x es IH]; [reflexivity|]. cbn [forallb] in H. apply andb_true_iff in H. destruct H as [Hx H].
  cbn [filter]. rewrite <- IH by exact H.
  enough (E : negb (is_shared x) = match x with SetBool v _ | SetString v _ | SetKeyword v _ => negb ((500 <=? v) && (v <=? 503)) | _ => true end) by now rewrite E.
  destruct x; try reflexivity; cbn [is_shared well_kinded] in *; f_equal;
    repeat match goal with
    | H : context [?a <=? ?b] |- _ => destruct (Nat.leb_spec a b)
    | |- context [?a <=? ?b] => destruct (Nat.leb_spec a b)
    | |- context [?a =? ?b] => destruct (Nat.eqb_spec a b)
    | H : context [?a =? ?b] |- _ => destruct (Nat.eqb_spec a b)
    end; cbn [andb orb negb] in *; try discriminate; try reflexivity; try lia.
Qed.
Definition kind_ok (k : kind) : bool :=
  match k with
  | KBool v => well_kinded (SetBool v true)
  | KString v _ => well_kinded (SetString v [])
  | KKeyword v _ _ => well_kinded (SetKeyword v 0%Z)
  | _ => true
  end.
Lemma means_kind k neg r x gb : means k neg r x gb -> kind_ok k = true -> well_kinded x = true.
Proof. intros M. destruct M; cbn [kind_ok well_kinded]; intros K; try exact K; try reflexivity. destruct neg; reflexivity. Qed.
Lemma reads_kinded t pos argv es rest : reads t pos argv es rest -> forallb (fun '(k, _, _) => kind_ok k) (entries t) = true ->
  forallb well_kinded es = true.
Proof.
  intros R H. induction R as [pos|pos rest|pos a rest Ha Hn|pos a rest v p es rest' Ha Hn R IH|pos arg rest es1 rest1 es rest' Ha Ho R IH]; try reflexivity.
  - cbn [forallb well_kinded]. rewrite forallb_app, IH. destruct p; reflexivity.
  - rewrite forallb_app, IH, andb_true_r.
    destruct Ho as (k & n & p & neg & tail & r & rest2 & e & gb & Hin & _ & _ & _ & M & -> & _).
    pose proof (forallb_In _ _ _ H Hin) as K. cbn in K. cbn [forallb].
    rewrite (means_kind _ _ _ _ _ M K). destruct p; reflexivity.
Qed.
Lemma tables_kinded : forallb (fun c => forallb (fun '(k, _, _) => kind_ok k) (entries (snd c))) all_commands = true.
Proof. vm_compute. reflexivity. Qed.
Lemma command_own cmd t args es rest : In (cmd, t) all_commands -> reads t 0 args es rest ->
  filter (fun x => negb (is_shared x)) es = own es.
Proof.
  intros H R. apply own_shared. apply (reads_kinded _ _ _ _ _ R). exact (forallb_In _ _ _ tables_kinded H).
Qed.
