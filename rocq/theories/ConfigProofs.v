From Verif Require Import Bytes StringMap StringMapProofs StrUtil StrUtilProofs Dump Config ConfigSpec.
From Coq Require Import Permutation Sorted Lia.
Local Open Scope nat_scope.

(** The values of a key. *)
Definition at_key (k : bytes) (l : list pair_t) : list pair_t := filter (matches k true) l.
Definition holds (m : config) (k : bytes) (ov : option bytes) : Prop :=
  at_key k (sm_pairs m) = match ov with None => [] | Some v => [(k, v)] end.

Lemma Permutation_filter {A} (f : A -> bool) l l' : Permutation l l' -> Permutation (filter f l) (filter f l').
Proof.
  induction 1; cbn; auto.
  - destruct (f x); auto.
  - destruct (f x), (f y); auto. apply perm_swap.
  - now transitivity (filter f l').
Qed.
Lemma perm_single {A} (l : list A) (o : option A) :
  Permutation l (match o with None => [] | Some x => [x] end) -> l = match o with None => [] | Some x => [x] end.
Proof.
  destruct o; intros H; [now apply Permutation_sym, Permutation_length_1_inv in H|].
  apply Permutation_sym in H. now apply Permutation_nil in H.
Qed.
Lemma holds_perm k ov l l' : Permutation l l' ->
  at_key k l = match ov with None => [] | Some v => [(k, v)] end -> at_key k l' = match ov with None => [] | Some v => [(k, v)] end.
Proof.
  intros P E. pose proof (Permutation_filter (matches k true) _ _ P) as Q. fold (at_key k l) (at_key k l') in Q. rewrite E in Q.
  destruct ov as [v|].
  - now apply Permutation_length_1_inv in Q.
  - now apply Permutation_nil in Q.
Qed.
Lemma holds_sort m k ov : sm_ok m -> holds m k ov -> holds (sm_sort m) k ov.
Proof. intros Hm H. destruct (sm_sort_spec m Hm) as [_ P]. unfold holds. now apply (holds_perm k ov _ _ (Permutation_sym P)). Qed.
Lemma holds_get m k ov : sm_ok m -> holds m k ov -> config_get m k = ov.
Proof.
  intros Hm H. unfold config_get. rewrite get_spec by exact Hm. apply (holds_sort _ _ _ Hm) in H. unfold holds, at_key in H.
  rewrite H. now destruct ov.
Qed.
Lemma matches_true k p : matches k true p = bseq k (fst p). Proof. reflexivity. Qed.
Lemma holds_append_same m k v : holds m k None -> holds (sm_append m k v) k (Some v).
Proof.
  unfold holds, at_key. intros H. cbn [sm_append sm_pairs]. rewrite filter_app, H. cbn. now rewrite bseq_refl.
Qed.
Lemma bseq_neq a b : a <> b -> bseq a b = false.
Proof. intros H. destruct (bseq a b) eqn:E; [|reflexivity]. apply bseq_eq in E. contradiction. Qed.
Lemma holds_append_other m k k' v ov : k <> k' -> holds m k' ov -> holds (sm_append m k v) k' ov.
Proof.
  unfold holds, at_key. intros Hk H. cbn [sm_append sm_pairs]. rewrite filter_app, H. cbn.
  rewrite bseq_neq by congruence. apply app_nil_r.
Qed.
Lemma holds_set_same m k v ov : sm_ok m -> holds m k ov -> holds (sm_set m k v) k (Some v).
Proof.
  intros Hm H. apply (holds_sort _ _ _ Hm) in H. destruct (sm_sort_spec m Hm) as [Hs _]. unfold sm_set.
  destruct (bsearch_first_spec k true _ Hs) as (a & b & c & E & Ha & Hb & Hc & B). rewrite B.
  unfold holds, at_key in H. rewrite E, filter_split in H by assumption.
  destruct b as [|p b].
  - apply holds_append_same. unfold holds, at_key. now rewrite E, filter_split.
  - destruct ov as [w|]; [|discriminate]. injection H as -> ->. unfold holds. cbn [sm_pairs]. rewrite E. cbn [app].
    rewrite set_value_app. cbn [fst]. unfold at_key. change ((k, v) :: c) with ([(k, v)] ++ c).
    apply filter_split; auto. repeat constructor. unfold sg, string_cmp. apply bcmp_refl.
Qed.
Lemma holds_set_other m k k' v ov : sm_ok m -> k <> k' -> holds m k' ov -> holds (sm_set m k v) k' ov.
Proof.
  intros Hm Hk H. apply (holds_sort _ _ _ Hm) in H. destruct (sm_sort_spec m Hm) as [Hs _]. unfold sm_set.
  destruct (bsearch_first_spec k true _ Hs) as (a & b & c & E & Ha & Hb & Hc & B). rewrite B.
  destruct b as [|p b]; [now apply holds_append_other|].
  inversion Hb as [|? ? Hp Hb']; subst. apply sg_matches in Hp. cbn in Hp. apply bseq_eq in Hp.
  unfold holds in *. cbn [sm_pairs]. rewrite E in *. cbn [app] in *. rewrite set_value_app.
  unfold at_key in *. rewrite filter_app in *. cbn [filter] in *. rewrite matches_true in *. cbn [fst] in *.
  rewrite <- Hp in *. rewrite (bseq_neq k' k) in * by congruence. exact H.
Qed.

(** ** Loading *)
Lemma load_db_ok env g meta : forall m, sm_ok m -> sm_ok (load_from_database env g meta m).
Proof.
  unfold load_from_database. induction meta as [|[k v] meta IH]; intros m Hm; [exact Hm|]. cbn [fold_left]. apply IH.
  destruct (skipped g (fst (k, v))); [exact Hm|apply sm_append_ok].
Qed.
Lemma load_file_ok env g file : forall m m', sm_ok m -> load_from_file env g file m = Some m' -> sm_ok m'.
Proof.
  induction file as [|[[gr k] v] file IH]; cbn; intros m m' Hm H; [now injection H as <-|].
  destruct (skipped g (absolute_key gr k)); [now apply (IH m)|]. destruct v as [v|]; [|discriminate].
  apply IH in H; [exact H|]. now apply sm_set_ok.
Qed.

(** What the database and the file make of one key. *)
Definition from_meta (env : environment) (g : bool) (meta : list (bytes * bytes)) (key : bytes) : option bytes :=
  if skipped g key then None else option_map (expand_path env key) (in_database meta key).
Lemma not_in_database meta key : ~ In key (map fst meta) -> in_database meta key = None.
Proof.
  induction meta as [|[k v] meta IH]; cbn; [reflexivity|]. intros H. destruct (bseq k key) eqn:E; [apply bseq_eq in E; tauto|tauto].
Qed.
Lemma load_db_none env g meta key ov : (in_database meta key = None \/ skipped g key = true) -> forall m, holds m key ov ->
  holds (load_from_database env g meta m) key ov.
Proof.
  unfold load_from_database. induction meta as [|[k v] meta IH]; intros E m H; [exact H|]. cbn [fold_left in_database fst snd] in *.
  destruct (bseq k key) eqn:Ek.
  - apply bseq_eq in Ek. subst k. destruct E as [|E]; [discriminate|]. rewrite E. apply IH; auto.
  - apply IH; [tauto|]. destruct (skipped g k); [exact H|]. apply holds_append_other; [|exact H].
    intros ->. now rewrite bseq_refl in Ek.
Qed.
Lemma load_db_holds env g meta key : NoDup (map fst meta) -> forall m, holds m key None ->
  holds (load_from_database env g meta m) key (from_meta env g meta key).
Proof.
  unfold from_meta. destruct (skipped g key) eqn:Es; [intros _ m H; apply load_db_none; auto|].
  unfold load_from_database. induction meta as [|[k v] meta IH]; intros Hn m H; [exact H|]. cbn [fold_left in_database fst snd option_map].
  inversion Hn as [|? ? N1 N2]; subst. cbn in N1. destruct (bseq k key) eqn:Ek.
  - apply bseq_eq in Ek. subst k. rewrite Es. cbn [option_map].
    apply load_db_none; [left; now apply not_in_database|]. now apply holds_append_same.
  - apply IH; [exact N2|]. destruct (skipped g k); [exact H|]. apply holds_append_other; [|exact H].
    intros ->. now rewrite bseq_refl in Ek.
Qed.
Definition from_file (env : environment) (g : bool) (file : keyfile) (key : bytes) : option bytes :=
  if skipped g key then None else option_map (expand_path env key) (in_file file key).
Lemma load_file_holds env g file key : forall m m' ov, sm_ok m -> holds m key ov ->
  load_from_file env g file m = Some m' -> holds m' key (first_of (from_file env g file key) ov).
Proof.
  unfold from_file. induction file as [|[[gr k] v] file IH]; cbn [load_from_file in_file]; intros m m' ov Hm H E.
  - injection E as <-. destruct (skipped g key); exact H.
  - destruct (skipped g (absolute_key gr k)) eqn:Es.
    + specialize (IH m m' ov Hm H E). destruct (skipped g key) eqn:Ek; [exact IH|].
      destruct (in_file file key); [exact IH|]. destruct (bseq (gr ++ lit "." ++ k) key) eqn:Eb; [|exact IH].
      apply bseq_eq in Eb. unfold absolute_key in Es. rewrite Eb in Es. congruence.
    + destruct v as [v|]; [|discriminate]. destruct (bseq (gr ++ lit "." ++ k) key) eqn:Eb.
      * apply bseq_eq in Eb. unfold absolute_key in *. rewrite Eb in *.
        specialize (IH _ m' (Some (expand_path env key v)) (sm_set_ok _ _ _ Hm) (holds_set_same _ _ _ _ Hm H) E). rewrite Es in *.
        destruct (in_file file key); exact IH.
      * assert (N : absolute_key gr k <> key) by (intros X; unfold absolute_key in X; rewrite X, bseq_refl in Eb; discriminate).
        specialize (IH _ m' ov (sm_set_ok _ _ _ Hm) (holds_set_other _ _ _ _ _ Hm N H) E).
        destruct (skipped g key), (in_file file key); exact IH.
Qed.
Lemma load_file_some env g file : forall m,
  (exists m', load_from_file env g file m = Some m') <->
  (forall gr k, In (gr, k, None) file -> g = true /\ absolute_key gr k = lit "database.path").
Proof.
  induction file as [|[[gr k] v] file IH]; intros m; cbn [load_from_file].
  - split; [intros _ ? ? []|eauto].
  - destruct (skipped g (absolute_key gr k)) eqn:Es.
    + rewrite IH. unfold skipped in Es. apply andb_true_iff in Es as [E1 E2]. apply bseq_eq in E1. split; intros H gr' k' Hi.
      * destruct Hi as [[= -> -> ->]|Hi]; auto.
      * apply H. now right.
    + destruct v as [v|].
      * rewrite IH. split; intros H gr' k' Hi; [destruct Hi as [[=]|Hi]; auto|apply H; now right].
      * split; [intros (? & [=])|]. intros H. destruct (H gr k (or_introl eq_refl)) as [-> E]. rewrite E in Es.
        unfold skipped in Es. rewrite bseq_refl in Es. discriminate.
Qed.

(** ** Choosing directories, defaults *)
Definition dir_value env stat parent profile var prefix sub : option bytes :=
  match xdg_dir env var prefix profile with
  | None => None
  | Some p => match stat (slash p sub) with
              | Missing => Some (slash parent sub)
              | StatError => None
              | _ => Some (slash p sub)
              end
  end.
Lemma choose_dir_spec env stat parent profile k var prefix sub m :
  choose_dir env stat parent profile k var prefix sub m =
  match config_get m (key_string k) with
  | Some _ => Some m
  | None => option_map (sm_set m (key_string k)) (dir_value env stat parent profile var prefix sub)
  end.
Proof.
  unfold choose_dir, dir_value. destruct (config_get m (key_string k)); [reflexivity|].
  destruct (xdg_dir env var prefix profile) as [x|]; [|reflexivity]. now destruct (stat (slash x sub)).
Qed.
Lemma choose_dir_ok env stat parent profile k var prefix sub m m' : sm_ok m ->
  choose_dir env stat parent profile k var prefix sub m = Some m' -> sm_ok m'.
Proof.
  intros Hm. rewrite choose_dir_spec. destruct (config_get m (key_string k)); [now intros [= <-]|].
  destruct (dir_value _ _ _ _ _ _ _); [|discriminate]. intros [= <-]. now apply sm_set_ok.
Qed.
Lemma choose_dir_other env stat parent profile k var prefix sub m m' key ov : sm_ok m ->
  choose_dir env stat parent profile k var prefix sub m = Some m' -> key <> key_string k -> holds m key ov -> holds m' key ov.
Proof.
  intros Hm. rewrite choose_dir_spec. destruct (config_get m (key_string k)); [now intros [= <-]|].
  destruct (dir_value _ _ _ _ _ _ _); [|discriminate]. intros [= <-] N H. apply holds_set_other; auto.
Qed.
Lemma choose_dir_same env stat parent profile k var prefix sub m m' ov : sm_ok m ->
  choose_dir env stat parent profile k var prefix sub m = Some m' -> holds m (key_string k) ov ->
  holds m' (key_string k) (first_of ov (dir_value env stat parent profile var prefix sub)) /\
  first_of ov (dir_value env stat parent profile var prefix sub) <> None.
Proof.
  intros Hm. rewrite choose_dir_spec. intros E H. rewrite (holds_get _ _ _ Hm H) in E. destruct ov as [v|].
  - injection E as <-. split; [exact H|discriminate].
  - destruct (dir_value _ _ _ _ _ _ _) as [d|]; [|discriminate]. injection E as <-. split; [|discriminate].
    eapply holds_set_same; eauto.
Qed.

Lemma key_string_inj k k' : key_string k = key_string k' -> k = k'.
Proof.
  intros H. destruct k, k'; try reflexivity; discriminate H.
Qed.
Lemma all_keys_all k : In k all_keys.
Proof. destruct k; cbn; tauto. Qed.

Lemma load_default_ok env pw sp acc k : sm_ok (snd acc) -> sm_ok (snd (load_default env pw sp acc k)).
Proof.
  destruct acc as [ok m]. cbn [snd]. intros Hm. unfold load_default. destruct (config_get m (key_string k)); [exact Hm|]. cbn [snd].
  destruct (config_default env pw m k); [now apply sm_set_ok|exact Hm].
Qed.
Lemma load_default_other env pw sp acc k key ov : sm_ok (snd acc) -> key <> key_string k -> holds (snd acc) key ov ->
  holds (snd (load_default env pw sp acc k)) key ov.
Proof.
  destruct acc as [ok m]. cbn [snd]. intros Hm N H. unfold load_default. destruct (config_get m (key_string k)); [exact H|]. cbn [snd].
  destruct (config_default env pw m k); [apply holds_set_other; auto|exact H].
Qed.
Lemma load_default_same env pw sp acc k ov : sm_ok (snd acc) -> holds (snd acc) (key_string k) ov ->
  holds (snd (load_default env pw sp acc k)) (key_string k) (first_of ov (config_default env pw (snd acc) k)).
Proof.
  destruct acc as [ok m]. cbn [snd]. intros Hm H. unfold load_default. rewrite (holds_get _ _ _ Hm H).
  destruct ov as [v|]; [exact H|]. cbn [snd first_of]. destruct (config_default env pw m k); [|exact H].
  eapply holds_set_same; eauto.
Qed.
Lemma fold_default_ok env pw sp l : forall acc, sm_ok (snd acc) -> sm_ok (snd (fold_left (load_default env pw sp) l acc)).
Proof. induction l as [|k l IH]; intros acc H; [exact H|]. cbn. apply IH. now apply load_default_ok. Qed.
Lemma fold_default_other env pw sp l key ov : (forall k, In k l -> key <> key_string k) -> forall acc, sm_ok (snd acc) ->
  holds (snd acc) key ov -> holds (snd (fold_left (load_default env pw sp) l acc)) key ov.
Proof.
  induction l as [|k l IH]; intros N acc Hm H; [exact H|]. cbn [fold_left]. apply IH.
  - intros k' Hk. apply N. now right.
  - now apply load_default_ok.
  - apply load_default_other; auto. apply N. now left.
Qed.
(** The default depends on the map only through database.path. *)
Lemma config_default_dep env pw m m' k : config_get m (key_string DATABASE_PATH) = config_get m' (key_string DATABASE_PATH) ->
  config_default env pw m k = config_default env pw m' k.
Proof. intros E. destruct k; cbn [config_default]; auto. Qed.
Lemma all_keys_nodup : NoDup all_keys.
Proof. unfold all_keys. repeat constructor; cbn; intuition discriminate. Qed.
Lemma load_defaults_path env pw sp m p : sm_ok m -> holds m (key_string DATABASE_PATH) (Some p) ->
  holds (snd (load_defaults env pw sp m)) (key_string DATABASE_PATH) (Some p).
Proof.
  intros Hm H. unfold load_defaults, all_keys. cbn [fold_left].
  assert (X : forall l acc, sm_ok (snd acc) -> holds (snd acc) (key_string DATABASE_PATH) (Some p) ->
            holds (snd (fold_left (load_default env pw sp) l acc)) (key_string DATABASE_PATH) (Some p)).
  { induction l as [|k l IH]; intros acc Ha Hp; [exact Hp|]. cbn [fold_left]. apply IH; [now apply load_default_ok|].
    destruct (bseq (key_string DATABASE_PATH) (key_string k)) eqn:E.
    - apply bseq_eq in E. rewrite E in *. apply (load_default_same env pw sp acc k (Some p) Ha Hp).
    - apply load_default_other; auto. intros X. rewrite X, bseq_refl in E. discriminate. }
  exact (X all_keys (true, m) Hm H).
Qed.
Lemma load_defaults_key env pw sp m p k ov : sm_ok m -> holds m (key_string DATABASE_PATH) (Some p) ->
  k <> DATABASE_PATH -> holds m (key_string k) ov ->
  holds (snd (load_defaults env pw sp m)) (key_string k) (first_of ov (config_default env pw m k)).
Proof.
  intros Hm Hp Hk H. unfold load_defaults.
  pose proof all_keys_nodup as Hn. destruct (in_split _ _ (all_keys_all k)) as (l1 & l2 & E). rewrite E in *.
  apply NoDup_remove_2 in Hn. rewrite fold_left_app. cbn [fold_left].
  set (acc := fold_left (load_default env pw sp) l1 (true, m)).
  assert (A1 : sm_ok (snd acc)) by (apply fold_default_ok; exact Hm).
  assert (A2 : holds (snd acc) (key_string k) ov).
  { apply fold_default_other; auto. intros k' Hi X. apply key_string_inj in X. subst. apply Hn, in_app_iff. auto. }
  assert (A3 : config_get (snd acc) (key_string DATABASE_PATH) = Some p).
  { apply holds_get; [exact A1|].
    assert (Y : forall l a, sm_ok (snd a) -> holds (snd a) (key_string DATABASE_PATH) (Some p) ->
            holds (snd (fold_left (load_default env pw sp) l a)) (key_string DATABASE_PATH) (Some p)).
    { induction l as [|k' l IH]; intros a Ha Hpa; [exact Hpa|]. cbn [fold_left]. apply IH; [now apply load_default_ok|].
      destruct (bseq (key_string DATABASE_PATH) (key_string k')) eqn:E'.
      - apply bseq_eq in E'. rewrite E' in *. apply (load_default_same env pw sp a k' (Some p) Ha Hpa).
      - apply load_default_other; auto. intros X. rewrite X, bseq_refl in E'. discriminate. }
    apply Y; [exact Hm|exact Hp]. }
  apply fold_default_other.
  - intros k' Hi X. apply key_string_inj in X. subst. apply Hn, in_app_iff. auto.
  - now apply load_default_ok.
  - rewrite (config_default_dep env pw m (snd acc) k); [|rewrite A3; now apply holds_get].
    now apply load_default_same.
Qed.
Lemma load_defaults_other env pw sp m key ov : sm_ok m -> (forall k, key <> key_string k) ->
  holds m key ov -> holds (snd (load_defaults env pw sp m)) key ov.
Proof. intros Hm N H. apply fold_default_other; auto. Qed.
Lemma load_default_flag env pw sp acc k : fst (load_default env pw sp acc k) =
  fst acc && negb (match k with MAIL_ROOT => sp && match config_get (snd acc) (key_string MAIL_ROOT) with None => true | _ => false end | _ => false end).
Proof.
  destruct acc as [ok m]. unfold load_default. cbn [fst snd]. destruct k;
    try (destruct (config_get m _); cbn [fst]; [now rewrite andb_true_r|reflexivity]).
  destruct (config_get m (key_string MAIL_ROOT)); cbn [fst]; [now rewrite andb_false_r, andb_true_r|now rewrite andb_true_r].
Qed.
Lemma load_defaults_flag env pw sp m ov : sm_ok m -> holds m (key_string MAIL_ROOT) ov ->
  fst (load_defaults env pw sp m) = negb (sp && match ov with None => true | _ => false end).
Proof.
  intros Hm H. unfold load_defaults, all_keys. cbn [fold_left].
  rewrite !load_default_flag. cbn [fst negb]. rewrite !andb_true_r. cbn [andb].
  assert (E : config_get (snd (load_default env pw sp (true, m) DATABASE_PATH)) (key_string MAIL_ROOT) = ov).
  { apply holds_get; [now apply load_default_ok|]. apply load_default_other; auto.
    intros X. apply key_string_inj in X. discriminate. }
  rewrite <- E. reflexivity.
Qed.
