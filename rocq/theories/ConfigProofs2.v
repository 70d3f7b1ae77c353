From Verif Require Import Bytes StringMap StringMapProofs StrUtil StrUtilProofs Dump Config ConfigSpec ConfigProofs.
From Coq Require Import Permutation Sorted Lia.
Local Open Scope nat_scope.

Lemma path_key_spec key : is_path_key key = true <-> In key path_items \/ key = lit "database.backup_path".
Proof.
  unfold is_path_key, path_items, item. rewrite !orb_true_iff, !bseq_eq. cbn [In]. intuition congruence.
Qed.
Lemma peek_slash v : beq (peek v) "/"%char = true <-> absolute v.
Proof.
  unfold absolute. destruct v as [|c v]; cbn [peek].
  - split; [discriminate|intros (r & [=])].
  - rewrite beq_eq. split; [intros ->; now exists v|intros (r & [= -> _]); reflexivity].
Qed.
Definition home_of (env : environment) : bytes := printed (env (lit "HOME")).
Lemma expand_path_spec env key v : key <> lit "database.backup_path" -> from_home (home_of env) key v (expand_path env key v).
Proof.
  intros Hb. unfold from_home, expand_path. destruct (is_path_key key) eqn:Ek; cbn [andb].
  - apply path_key_spec in Ek as [Ek|Ek]; [|contradiction].
    destruct (beq (peek v) "/"%char) eqn:Ep; cbn [negb].
    + right. split; [|reflexivity]. right. now apply peek_slash.
    + left. split; [exact Ek|]. split; [|reflexivity]. rewrite <- peek_slash. congruence.
  - right. split; [|reflexivity]. left. intros H. assert (X : is_path_key key = true) by (apply path_key_spec; now left). congruence.
Qed.

Lemma dir_value_spec env stat parent profile var prefix sub d :
  dir_value env stat parent profile (lit var) (lit prefix) (lit sub) = Some d <->
  exists root prof,
       (env (lit var) = Some root \/
        env (lit var) = None /\ exists h, env (lit "HOME") = Some h /\ root = h ++ lit "/" ++ lit prefix) /\
       (profile = Some prof \/
        profile = None /\ (env (lit "NOTMUCH_PROFILE") = Some prof \/
                               env (lit "NOTMUCH_PROFILE") = None /\ prof = lit "default")) /\
       let x := root ++ lit "/notmuch/" ++ prof ++ lit "/" ++ lit sub in
       ((stat x = IsDir \/ stat x = NotDir) /\ d = x \/ stat x = Missing /\ d = parent ++ lit "/" ++ lit sub).
Proof.
  unfold dir_value, xdg_dir.
  set (root := match env (lit var) with Some r => Some r | None => match env (lit "HOME") with Some h => Some (slash h (lit prefix)) | None => None end end).
  set (prof := match profile with Some p => p | None => match env (lit "NOTMUCH_PROFILE") with Some p => p | None => lit "default" end end).
  assert (R : forall r, root = Some r <-> (env (lit var) = Some r \/
        env (lit var) = None /\ exists h, env (lit "HOME") = Some h /\ r = h ++ lit "/" ++ lit prefix)).
  { intros r. unfold root. destruct (env (lit var)) as [r'|].
    - split; [intros [= ->]; auto|intros [H|[H _]]; [now injection H as ->|discriminate]].
    - destruct (env (lit "HOME")) as [h|].
      + split; [intros [= <-]; right; split; [reflexivity|]; exists h; auto|].
        intros [H|[_ (h' & [= <-] & ->)]]; [discriminate|reflexivity].
      + split; [discriminate|]. intros [H|[_ (h' & [=] & _)]]; discriminate. }
  assert (P : forall q, q = prof <-> (profile = Some q \/
        profile = None /\ (env (lit "NOTMUCH_PROFILE") = Some q \/ env (lit "NOTMUCH_PROFILE") = None /\ q = lit "default"))).
  { intros q. unfold prof. destruct profile as [p|].
    - split; [intros ->; auto|intros [H|[H _]]; [now injection H as ->|discriminate]].
    - destruct (env (lit "NOTMUCH_PROFILE")) as [p|].
      + split; [intros ->; auto|intros [H|[_ [H|[H _]]]]; try discriminate; now injection H as ->].
      + split; [intros ->; auto|intros [H|[_ [H|[_ H]]]]; try discriminate; exact H]. }
  assert (X : forall r q, slash (slash (slash r (lit "notmuch")) q) (lit sub) = r ++ lit "/notmuch/" ++ q ++ lit "/" ++ lit sub).
  { intros r q. unfold slash. rewrite <- !app_assoc. reflexivity. }
  clearbody root prof. destruct root as [r|].
  - rewrite X. split.
    + intros H. exists r, prof. split; [now apply R|]. split; [now apply P|]. cbv zeta.
      destruct (stat (r ++ lit "/notmuch/" ++ prof ++ lit "/" ++ lit sub)); [injection H as <-|injection H as <-|injection H as <-|discriminate]; auto.
    + intros (r' & q & Hr & Hq & H). apply R in Hr. injection Hr as <-. apply P in Hq. subst q. cbv zeta in H.
      destruct (stat (r ++ lit "/notmuch/" ++ prof ++ lit "/" ++ lit sub)); destruct H as [[[H|H] ->]|[H ->]]; (discriminate || reflexivity).
  - split; [discriminate|]. intros (r' & q & Hr & _). apply R in Hr. discriminate.
Qed.

(** The map just before the defaults. *)
Definition base (o : opening) (key : bytes) : option bytes :=
  first_of (from_file (o_env o) (o_given o) (o_file o) key)
    (if bseq key (lit "database.path") then Some (strip_trailing (o_path o) "/"%char)
     else from_meta (o_env o) (o_given o) (o_meta o) key).
Lemma loaded o m : path_not_stored o ->
  load_from_file (o_env o) (o_given o) (o_file o) (load_from_database (o_env o) (o_given o) (o_meta o) (set_database_path (o_path o))) = Some m ->
  sm_ok m /\ forall key, holds m key (base o key).
Proof.
  intros [Hn Hp] E. set (m0 := set_database_path (o_path o)) in *.
  assert (H0 : sm_ok m0) by (apply sm_set_ok, sm_create_ok).
  assert (H1 := load_db_ok (o_env o) (o_given o) (o_meta o) m0 H0).
  split; [now apply (load_file_ok _ _ _ _ _ H1 E)|].
  intros key. unfold base. eapply load_file_holds; [exact H1| |exact E].
  destruct (bseq key (lit "database.path")) eqn:Ek.
  - apply bseq_eq in Ek. subst key. apply load_db_none.
    + destruct Hp as [->|Hp]; [right; reflexivity|now left].
    + apply (holds_set_same _ _ _ None sm_create_ok). reflexivity.
  - apply load_db_holds; [exact Hn|]. apply holds_set_other; [apply sm_create_ok|intros <-; now rewrite bseq_refl in Ek|reflexivity].
Qed.
Lemma base_path o : exists p, base o (lit "database.path") = Some p.
Proof. unfold base. rewrite bseq_refl. destruct (from_file _ _ _ _); cbn; eauto. Qed.
Lemma base_other o key : key <> lit "database.path" ->
  base o key = option_map (expand_path (o_env o) key) (first_of (in_file (o_file o) key) (in_database (o_meta o) key)).
Proof.
  intros H. unfold base, from_file, from_meta. rewrite (bseq_neq key (lit "database.path")) by exact H.
  unfold skipped. rewrite (bseq_neq key (lit "database.path")) by exact H. cbn [andb].
  destruct (in_file (o_file o) key); reflexivity.
Qed.

Definition hook_default (o : opening) := dir_value (o_env o) (o_stat o) (o_parent o) (o_profile o) (lit "XDG_CONFIG_HOME") (lit ".config") (lit "hooks").
Definition backup_default (o : opening) := dir_value (o_env o) (o_stat o) (o_parent o) (o_profile o) (lit "XDG_DATA_HOME") (lit ".local/share") (lit "backups").
(** The final value of a key. *)
Definition final (o : opening) (key : bytes) : option bytes :=
  first_of (base o key)
    (if bseq key (key_string HOOK_DIR) then hook_default o
     else if bseq key (key_string BACKUP_DIR) then backup_default o
     else match find (fun k => bseq (key_string k) key) all_keys with
          | None => None
          | Some k => match k with MAIL_ROOT => base o (lit "database.path")
                      | _ => config_default (o_env o) (o_pw o) sm_create k end
          end).
Lemma find_key key : match find (fun k => bseq (key_string k) key) all_keys with
  | Some k => key_string k = key | None => forall k, key <> key_string k end.
Proof.
  destruct (find _ all_keys) as [k|] eqn:E.
  - apply find_some in E as [_ E]. now apply bseq_eq in E.
  - intros k ->. apply (find_none _ _ E k) in all_keys_all as X || (pose proof (find_none _ _ E k (all_keys_all k)) as X; cbn in X; rewrite bseq_refl in X; discriminate).
Qed.
Lemma find_key_of k : find (fun k' => bseq (key_string k') (key_string k)) all_keys = Some k.
Proof.
  pose proof (find_key (key_string k)) as H. destruct (find _ all_keys) as [k'|].
  - now apply key_string_inj in H as ->.
  - exfalso. now apply (H k).
Qed.
Lemma open_config_spec o : path_not_stored o ->
  match open_config o with
  | Some m => sm_ok m /\ forall key, holds m key (final o key)
  | None => True
  end /\
  ((exists m, open_config o = Some m) <->
   (forall g k, In (g, k, None) (o_file o) -> o_given o = true /\ absolute_key g k = lit "database.path") /\
   (base o (key_string HOOK_DIR) <> None \/ hook_default o <> None) /\
   (base o (key_string BACKUP_DIR) <> None \/ backup_default o <> None) /\
   (o_split o = true -> base o (key_string MAIL_ROOT) <> None)).
Proof.
  intros Hs. unfold open_config. fold (hook_default o) (backup_default o).
  set (m0 := load_from_database (o_env o) (o_given o) (o_meta o) (set_database_path (o_path o))).
  pose proof (load_file_some (o_env o) (o_given o) (o_file o) m0) as LS.
  destruct (load_from_file (o_env o) (o_given o) (o_file o) m0) as [m1|] eqn:E1.
  2: { split; [exact I|]. split; [intros (m & [=])|]. intros [H _]. apply LS in H as (m' & [=]). }
  destruct (loaded o m1 Hs E1) as [K1 L1].
  assert (N1 : key_string HOOK_DIR <> key_string BACKUP_DIR) by (intros X; apply key_string_inj in X; discriminate).
  set (ch := choose_dir _ _ _ _ HOOK_DIR _ _ _ m1). destruct ch as [m2|] eqn:E2; unfold ch in E2; clear ch.
  2: { split; [exact I|]. split; [intros (m & [=])|]. intros (_ & [H|H] & _); exfalso; rewrite choose_dir_spec in E2;
       rewrite (holds_get _ _ _ K1 (L1 _)) in E2; destruct (base o (key_string HOOK_DIR)); try congruence;
       fold (hook_default o) in E2; destruct (hook_default o); cbn in E2; congruence. }
  pose proof (choose_dir_ok _ _ _ _ _ _ _ _ _ _ K1 E2) as K2.
  destruct (choose_dir_same _ _ _ _ _ _ _ _ _ _ _ K1 E2 (L1 _)) as [L2 G2]. fold (hook_default o) in L2, G2.
  assert (O2 : forall key ov, key <> key_string HOOK_DIR -> holds m1 key ov -> holds m2 key ov).
  { intros key ov. now apply (choose_dir_other _ _ _ _ _ _ _ _ _ _ _ _ K1 E2). }
  set (ch := choose_dir _ _ _ _ BACKUP_DIR _ _ _ m2). destruct ch as [m3|] eqn:E3; unfold ch in E3; clear ch.
  2: { split; [exact I|]. split; [intros (m & [=])|]. intros (_ & _ & H & _). exfalso. rewrite choose_dir_spec in E3.
       assert (N1' : key_string BACKUP_DIR <> key_string HOOK_DIR) by congruence.
       rewrite (holds_get _ _ _ K2 (O2 _ _ N1' (L1 _))) in E3.
       fold (backup_default o) in E3. destruct (base o (key_string BACKUP_DIR)); destruct (backup_default o); cbn in E3; destruct H; congruence. }
  pose proof (choose_dir_ok _ _ _ _ _ _ _ _ _ _ K2 E3) as K3.
  assert (N1' : key_string BACKUP_DIR <> key_string HOOK_DIR) by congruence.
  destruct (choose_dir_same _ _ _ _ _ _ _ _ _ _ _ K2 E3 (O2 _ _ N1' (L1 _))) as [L3 G3]. fold (backup_default o) in L3, G3.
  assert (O3 : forall key ov, key <> key_string BACKUP_DIR -> holds m2 key ov -> holds m3 key ov).
  { intros key ov. now apply (choose_dir_other _ _ _ _ _ _ _ _ _ _ _ _ K2 E3). }
  destruct (base_path o) as (p & Hp). rewrite <- (eq_refl : key_string DATABASE_PATH = lit "database.path") in Hp.
  assert (D3 : holds m3 (key_string DATABASE_PATH) (Some p)).
  { apply O3; [intros X; apply key_string_inj in X; discriminate|]. apply O2; [intros X; apply key_string_inj in X; discriminate|].
    rewrite <- Hp. apply L1. }
  assert (M3 : holds m3 (key_string MAIL_ROOT) (base o (key_string MAIL_ROOT))).
  { apply O3; [intros X; apply key_string_inj in X; discriminate|]. apply O2; [intros X; apply key_string_inj in X; discriminate|]. apply L1. }
  pose proof (load_defaults_flag (o_env o) (o_pw o) (o_split o) m3 _ K3 M3) as FL.
  pose proof (fold_default_ok (o_env o) (o_pw o) (o_split o) all_keys (true, m3) K3) as K4. fold (load_defaults (o_env o) (o_pw o) (o_split o) m3) in K4.
  assert (V : forall key, holds (snd (load_defaults (o_env o) (o_pw o) (o_split o) m3)) key (final o key)).
  { intros key. unfold final. destruct (bseq key (key_string HOOK_DIR)) eqn:Eh.
    { apply bseq_eq in Eh. subst key.
      pose proof (load_defaults_key (o_env o) (o_pw o) (o_split o) m3 p HOOK_DIR _ K3 D3 ltac:(discriminate) (O3 _ _ N1 L2)) as X.
      destruct (base o (key_string HOOK_DIR)); [exact X|]. cbn [first_of] in *. destruct (hook_default o); [exact X|congruence]. }
    destruct (bseq key (key_string BACKUP_DIR)) eqn:Eb.
    { apply bseq_eq in Eb. subst key.
      pose proof (load_defaults_key (o_env o) (o_pw o) (o_split o) m3 p BACKUP_DIR _ K3 D3 ltac:(discriminate) L3) as X.
      destruct (base o (key_string BACKUP_DIR)); [exact X|]. cbn [first_of] in *. destruct (backup_default o); [exact X|congruence]. }
    assert (Nh : key <> key_string HOOK_DIR) by (intros ->; now rewrite bseq_refl in Eh).
    assert (Nb : key <> key_string BACKUP_DIR) by (intros ->; now rewrite bseq_refl in Eb).
    pose proof (O3 key _ Nb (O2 key _ Nh (L1 key))) as L. pose proof (find_key key) as F.
    destruct (find _ all_keys) as [k|].
    - subst key. destruct k; try (match goal with |- holds _ (key_string ?K) _ => exact (load_defaults_key (o_env o) (o_pw o) (o_split o) m3 p K _ K3 D3 ltac:(discriminate) L) end).
      + rewrite Hp in L |- *. cbn [first_of]. now apply load_defaults_path.
      + pose proof (load_defaults_key (o_env o) (o_pw o) (o_split o) m3 p MAIL_ROOT _ K3 D3 ltac:(discriminate) L) as X.
        cbn [config_default] in X. rewrite (holds_get _ _ _ K3 D3) in X.
        rewrite <- (eq_refl : key_string DATABASE_PATH = lit "database.path"), Hp. exact X.
    - replace (first_of (base o key) None) with (base o key) by (now destruct (base o key)).
      now apply load_defaults_other. }
  destruct (load_defaults (o_env o) (o_pw o) (o_split o) m3) as [b m4]. cbn [fst snd] in *.
  assert (G2' : base o (key_string HOOK_DIR) <> None \/ hook_default o <> None).
  { destruct (base o (key_string HOOK_DIR)); [left; discriminate|right; exact G2]. }
  assert (G3' : base o (key_string BACKUP_DIR) <> None \/ backup_default o <> None).
  { destruct (base o (key_string BACKUP_DIR)); [left; discriminate|right; exact G3]. }
  assert (G1 := proj1 LS (ex_intro _ m1 eq_refl)).
  destruct b.
  - split; [split; [exact K4|exact V]|]. split; [intros _|eauto]. repeat split; auto; [apply (G1 _ _ H)|apply (G1 _ _ H)|].
    intros Hsp X. rewrite Hsp, X in FL. discriminate.
  - split; [exact I|]. split; [intros (m & [=])|]. intros (_ & _ & _ & H). exfalso.
    destruct (o_split o); [|discriminate]. destruct (base o (key_string MAIL_ROOT)); [discriminate|]. now apply H.
Qed.

(** ** Handles *)
Definition wf (m : config) : Prop := sm_ok m /\ exists f, forall key, holds m key (f key).
Lemma wf_set m k v : wf m -> wf (sm_set m k v).
Proof.
  intros [Hm (f & H)]. split; [now apply sm_set_ok|]. exists (fun key => if bseq k key then Some v else f key).
  intros key. destruct (bseq k key) eqn:E.
  - apply bseq_eq in E. subst. eapply holds_set_same; eauto.
  - apply holds_set_other; auto. intros ->. now rewrite bseq_refl in E.
Qed.
Lemma wf_get_set m k v key : wf m -> config_get (sm_set m k v) key = if bseq k key then Some v else config_get m key.
Proof.
  intros [Hm (f & H)]. destruct (bseq k key) eqn:E.
  - apply bseq_eq in E. subst. apply holds_get; [now apply sm_set_ok|]. eapply holds_set_same; eauto.
  - rewrite (holds_get m key (f key)) by auto. apply holds_get; [now apply sm_set_ok|]. apply holds_set_other; auto.
    intros ->. now rewrite bseq_refl in E.
Qed.
Lemma opened_wf o m : path_not_stored o -> open_config o = Some m -> wf m.
Proof.
  intros Hs E. pose proof (open_config_spec o Hs) as [H _]. rewrite E in H. destruct H as [H1 H2]. split; [exact H1|]. eauto.
Qed.
Lemma set_all_spec sets : forall h, h_writable h = true -> wf (h_config h) ->
  h_writable (set_all h sets) = true /\ wf (h_config (set_all h sets)) /\
  forall key, config_get (h_config (set_all h sets)) key = first_of (last_set sets key) (config_get (h_config h) key).
Proof.
  induction sets as [|[k v] sets IH]; intros h Hw Hc; [cbn; auto|]. unfold set_all in *. cbn [fold_left fst snd].
  unfold set_config at 2 4 6. rewrite Hw. cbn [snd fst].
  set (h1 := {| h_config := sm_set (h_config h) k v; h_meta := cfg_set k v (h_meta h); h_writable := true |}).
  destruct (IH h1 eq_refl (wf_set _ k v Hc)) as (I1 & I2 & I3). split; [exact I1|]. split; [exact I2|].
  intros key. rewrite I3. unfold h1. cbn [h_config last_set]. rewrite wf_get_set by exact Hc.
  destruct (last_set sets key); [reflexivity|]. cbn [first_of]. now destruct (bseq k key).
Qed.

(** Stored values. *)
Lemma cfg_set_keys k v c : forall x, In x (map fst (cfg_set k v c)) -> x = k \/ In x (map fst c).
Proof.
  induction c as [|[k' v'] c IH]; cbn; intros x.
  - destruct v; cbn; [tauto|intuition].
  - destruct (bseq k k') eqn:E; cbn.
    + destruct v; cbn; intuition.
    + intros [H|H]; [tauto|]. apply IH in H. tauto.
Qed.
Lemma cfg_set_nodup k v c : NoDup (map fst c) -> NoDup (map fst (cfg_set k v c)).
Proof.
  induction c as [|[k' v'] c IH]; cbn; intros H.
  - destruct v; cbn; repeat constructor; auto.
  - inversion H as [|? ? N1 N2]; subst. destruct (bseq k k') eqn:E.
    + apply bseq_eq in E. subst. destruct v; cbn; [exact N2|]. now constructor.
    + cbn. constructor; [|now apply IH]. intros X. apply cfg_set_keys in X as [->|X]; [now rewrite bseq_refl in E|contradiction].
Qed.
Lemma in_database_none_iff meta key : in_database meta key = None <-> ~ In key (map fst meta).
Proof.
  split; [|apply not_in_database]. induction meta as [|[k v] meta IH]; cbn; [tauto|]. destruct (bseq k key) eqn:E; [discriminate|].
  intros H [->|X]; [now rewrite bseq_refl in E|now apply IH].
Qed.
Lemma cfg_set_in k v c key : NoDup (map fst c) -> in_database (cfg_set k v c) key =
  if bseq k key then match v with [] => None | _ => Some v end else in_database c key.
Proof.
  induction c as [|[k' v'] c IH]; intros H.
  - destruct v; cbn; [now destruct (bseq k key)|reflexivity].
  - cbn [map fst] in H. inversion H as [|? ? N1 N2]; subst. cbn [cfg_set]. destruct (bseq k k') eqn:E.
    + apply bseq_eq in E. subst k'. destruct v as [|c0 v]; cbn [in_database].
      * destruct (bseq k key) eqn:Ek; [|reflexivity]. apply bseq_eq in Ek. subst. now apply not_in_database.
      * now destruct (bseq k key).
    + cbn [in_database]. rewrite IH by exact N2. destruct (bseq k key) eqn:Ek; [|reflexivity].
      apply bseq_eq in Ek. subst. rewrite (bseq_sym k' key), E. reflexivity.
Qed.
Lemma set_all_meta sets : forall h, h_writable h = true -> NoDup (map fst (h_meta h)) ->
  NoDup (map fst (h_meta (set_all h sets))) /\
  forall key, in_database (h_meta (set_all h sets)) key =
    match last_set sets key with Some [] => None | Some v => Some v | None => in_database (h_meta h) key end.
Proof.
  induction sets as [|[k v] sets IH]; intros h Hw Hc; [cbn; auto|]. unfold set_all in *. cbn [fold_left fst snd].
  unfold set_config at 2 4. rewrite Hw. cbn [snd fst].
  set (h1 := {| h_config := sm_set (h_config h) k v; h_meta := cfg_set k v (h_meta h); h_writable := true |}).
  destruct (IH h1 eq_refl (cfg_set_nodup k v _ Hc)) as (I1 & I2). split; [exact I1|].
  intros key. rewrite I2. unfold h1. cbn [h_meta last_set]. rewrite cfg_set_in by exact Hc.
  destruct (last_set sets key); [reflexivity|]. cbn [first_of]. now destruct (bseq k key).
Qed.

(** The listing. *)
Lemma ksorted_filter f l : ksorted l -> ksorted (filter f l).
Proof.
  induction 1 as [|x l Hl IH Hx]; cbn; [constructor|]. destruct (f x); [|exact IH]. constructor; [exact IH|].
  rewrite Forall_forall in *. intros y Hy. apply filter_In in Hy as [Hy _]. auto.
Qed.
Lemma holds_unique m f : (forall key, holds m key (f key)) -> NoDup (map fst (sm_pairs m)).
Proof.
  unfold holds. set (l := sm_pairs m). clearbody l. revert f. induction l as [|[k v] l IH]; intros f H; cbn; constructor.
  - intros X. apply in_map_iff in X as ([k' w] & E & X). cbn in E. subst k'. specialize (H k). unfold at_key in H. cbn in H.
    rewrite bseq_refl in H. assert (Y : In (k, w) (filter (matches k true) l)) by (apply filter_In; split; [exact X|cbn; apply bseq_refl]).
    destruct (f k) as [u|]; [|discriminate]. injection H as _ H. rewrite H in Y. destruct Y.
  - apply (IH (fun key => if bseq key k then None else f key)). intros key. specialize (H key). unfold at_key in *. cbn in H.
    destruct (bseq key k) eqn:E; [|exact H]. destruct (f key); [|discriminate]. now injection H as _ H.
Qed.
Lemma strictly_sorted l : ksorted l -> NoDup (map fst l) -> StronglySorted (fun a b => bcmp (fst a) (fst b) = Lt) l.
Proof.
  induction 1 as [|x l Hl IH Hx]; intros Hn; [constructor|]. cbn in Hn. inversion Hn as [|? ? N1 N2]; subst. constructor; [auto|].
  rewrite Forall_forall in *. intros y Hy. specialize (Hx y Hy). unfold key_le in Hx. destruct (bcmp (fst x) (fst y)) eqn:E; [|reflexivity|congruence].
  exfalso. apply bcmp_eq in E. apply N1. rewrite E. now apply in_map.
Qed.
Lemma config_pairs_spec m : wf m ->
  StronglySorted (fun a b => bcmp (fst a) (fst b) = Lt) (config_pairs m) /\
  forall k v, In (k, v) (config_pairs m) <-> config_get m k = Some v.
Proof.
  intros [Hm (f & H)]. unfold config_pairs. rewrite iterate_spec by exact Hm.
  destruct (sm_sort_spec m Hm) as [Hs P].
  assert (A : forall l, filter (matches [] false) l = l) by (intros l; apply filter_all, Forall_forall; intros [k v] _; reflexivity).
  rewrite A. split.
  - apply strictly_sorted; [exact Hs|]. eapply Permutation_NoDup; [apply Permutation_map, Permutation_sym, P|]. now apply (holds_unique m f).
  - intros k v. unfold config_get. rewrite get_unique; [|exact Hm|now apply (holds_unique m f)].
    split; apply Permutation_in; [exact P|now apply Permutation_sym].
Qed.
