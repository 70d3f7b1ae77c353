From Verif Require Import Bytes StringMap StrUtil Config ConfigSpec ConfigProofs ConfigProofs2 P_Config Open OpenSpec.
Local Open Scope nat_scope.

Lemma xdg_dir_eq w a var prefix : xdg_dir (w_env w) (lit var) (lit prefix) (a_profile a) = xdg w a var prefix.
Proof.
  unfold xdg_dir, xdg, profile_of, env_of, slash. cbn [first_place].
  destruct (w_env w (lit var)) as [r|]; [|destruct (w_env w (lit "HOME")) as [h|]; [|reflexivity]]; cbn [option_map first_place];
    destruct (a_profile a) as [p|]; try destruct (w_env w (lit "NOTMUCH_PROFILE")) as [p|]; rewrite <- ?app_assoc; reflexivity.
Qed.
Lemma home_eq w : printed (w_env w (lit "HOME")) = home w. Proof. reflexivity. Qed.
Lemma config_path_eq w a : config_path w a = match a_config a with Some [] => None | _ => first_place (config_places w a) end.
Proof.
  unfold config_path, config_places. cbn [first_place]. destruct (a_config a) as [[|c p]|]; try reflexivity.
  unfold env_of. destruct (w_env w (lit "NOTMUCH_CONFIG")); [reflexivity|].
  unfold xdg_config. rewrite <- (xdg_dir_eq w a).
  assert (E : default_config_path w a = home_config w a).
  { unfold default_config_path, home_config, profile_of, env_of. cbn [first_place]. rewrite home_eq. unfold slash.
    destruct (a_profile a) as [p|]; [|destruct (w_env w (lit "NOTMUCH_PROFILE")) as [p|]]; rewrite <- ?app_assoc; reflexivity. }
  rewrite E. destruct (xdg_dir _ _ _ _) as [r|]; cbn [option_map]; [|reflexivity]. unfold slash.
  change (r ++ lit "/" ++ lit "config") with (r ++ lit "/config").
  destruct (w_readable w (r ++ lit "/config")); reflexivity.
Qed.
Lemma load_key_file_spec w a :
  match load_key_file w a with
  | (None, _, kf) => uses_config w a kf
  | (Some s, _, _) => s = NO_CONFIG /\ forall kf, ~ uses_config w a kf
  end.
Proof.
  unfold load_key_file, uses_config. rewrite config_path_eq.
  assert (N : a_config a <> Some [] -> (match a_config a with Some [] => None | _ => first_place (config_places w a) end) = first_place (config_places w a)).
  { destruct (a_config a) as [[|c l]|]; [intros H; congruence|reflexivity|reflexivity]. }
  destruct (a_config a) as [[|c p]|] eqn:Ea; [left; auto| |].
  - destruct (first_place (config_places w a)) as [q|] eqn:Ef.
    + destruct (w_keyfile w q) as [k|] eqn:Ek.
      * right. split; [discriminate|]. exists q, k. auto.
      * split; [reflexivity|]. intros kf [[H _]|[_ (q' & k & [= <-] & H & _)]]; congruence.
    + exfalso. unfold config_places in Ef. cbn in Ef. rewrite Ea in Ef. discriminate.
  - destruct (first_place (config_places w a)) as [q|] eqn:Ef.
    + destruct (w_keyfile w q) as [k|] eqn:Ek.
      * right. split; [discriminate|]. exists q, k. auto.
      * split; [reflexivity|]. intros kf [[H _]|[_ (q' & k & [= <-] & H & _)]]; congruence.
    + exfalso. unfold config_places in Ef. cbn [first_place] in Ef.
      destruct (a_config a), (env_of w "NOTMUCH_CONFIG"); try discriminate.
      destruct (match xdg_config w a with Some p => _ | None => _ end); discriminate.
Qed.
Lemma named_path_eq w a kf : named_path w a kf = first_place [a_path a; env_of w "NOTMUCH_DATABASE"; OpenSpec.from_file w kf].
Proof.
  unfold named_path. cbn [first_place]. destruct (a_path a); [reflexivity|]. unfold env_of.
  destruct (w_env w (lit "NOTMUCH_DATABASE")); [reflexivity|]. unfold OpenSpec.from_file. destruct kf as [kf|]; [|reflexivity].
  destruct (kf_string kf _ _) as [p|]; reflexivity.
Qed.
Definition by_xdg w d a kf : bool := match named_path w a kf with Some _ => false | None =>
  match xdg w a "XDG_DATA_HOME" ".local/share" with Some p => is_dir d p | None => false end end.
Lemma candidate_eq w d a kf : candidate w d a kf = (database_place w d a kf, by_xdg w d a kf).
Proof.
  unfold candidate, database_place, database_places, by_xdg. rewrite named_path_eq. unfold xdg_database. rewrite xdg_dir_eq.
  cbn [first_place]. destruct (a_path a); [reflexivity|]. destruct (env_of w "NOTMUCH_DATABASE"); [reflexivity|].
  destruct (OpenSpec.from_file w kf); [reflexivity|].
  change (dir_exists d) with (is_dir d).
  destruct (xdg w a "XDG_DATA_HOME" ".local/share") as [p|]; [destruct (is_dir d p); [reflexivity|]|]; cbn [provided];
    fold (env_of w "MAILDIR"); (destruct (env_of w "MAILDIR"); [reflexivity|]); rewrite home_eq; unfold slash;
    change (home w ++ lit "/" ++ lit "mail") with (home w ++ lit "/mail"); destruct (is_dir d (home w ++ lit "/mail")); reflexivity.
Qed.
Lemma peek_abs p : negb (beq (peek p) "/"%char) = true <-> ~ absolute_path p.
Proof.
  unfold absolute_path. destruct p as [|c p]; cbn [peek].
  - split; [intros _ (r & [=])|reflexivity].
  - rewrite negb_true_iff. split.
    + intros H (r & [= -> ->]). now rewrite (proj2 (beq_eq _ _) eq_refl) in H.
    + intros H. destruct (beq c "/"%char) eqn:E; [|reflexivity]. apply beq_eq in E. subst. exfalso. apply H. now exists p.
Qed.
Lemma abs_true p : negb (beq (peek p) "/"%char) = false <-> absolute_path p.
Proof.
  destruct (negb (beq (peek p) "/"%char)) eqn:E.
  - split; [discriminate|]. apply peek_abs in E. contradiction.
  - split; [|reflexivity]. intros _. destruct p as [|c p]; [discriminate|]. cbn [peek] in E. apply negb_false_iff, beq_eq in E. subst. now exists p.
Qed.
Lemma choose_spec w d a kf : choose_database_path w d a kf =
  match database_place w d a kf with
  | None => (Some NO_DATABASE, None, by_xdg w d a kf)
  | Some p => ((if negb (beq (peek p) "/"%char) then Some PATH_ERROR else if is_dir d p then None else Some NO_DATABASE), Some p, by_xdg w d a kf)
  end.
Proof.
  unfold choose_database_path. rewrite candidate_eq. destruct (database_place w d a kf) as [p|]; [|reflexivity].
  change (dir_exists d) with (is_dir d). destruct (negb _); [reflexivity|]. now destruct (is_dir d p).
Qed.
Lemma choose_xapian_spec d p : is_dir d p = true ->
  match choose_xapian_path d p with
  | inr dir => d_xapian d (slash dir (lit "xapian")) = X_ok /\
      (dir = p \/ dir = p ++ lit "/.notmuch" /\ d_xapian d (p ++ lit "/xapian") = X_missing /\ is_dir d (p ++ lit "/.notmuch") = true)
  | inl s => s <> NO_DATABASE /\ s <> NO_CONFIG /\ s <> DATABASE_EXISTS /\
      d_xapian d (p ++ lit "/xapian") <> X_ok /\ (d_xapian d (p ++ lit "/xapian") = X_missing -> is_dir d (p ++ lit "/.notmuch") = true ->
        d_xapian d (p ++ lit "/.notmuch/xapian") <> X_ok)
  end.
Proof.
  intros Hd. unfold choose_xapian_path. change (dir_exists d) with (is_dir d). rewrite Hd. unfold trial_open, slash.
  replace ((p ++ lit "/" ++ lit ".notmuch") ++ lit "/" ++ lit "xapian") with (p ++ lit "/.notmuch/xapian") by (rewrite <- !app_assoc; reflexivity).
  change (p ++ lit "/" ++ lit "xapian") with (p ++ lit "/xapian"). change (p ++ lit "/" ++ lit ".notmuch") with (p ++ lit "/.notmuch").
  destruct (d_xapian d (p ++ lit "/xapian")) eqn:E1.
  - split; [exact E1|now left].
  - destruct (is_dir d (p ++ lit "/.notmuch")) eqn:E2.
    + destruct (d_xapian d (p ++ lit "/.notmuch/xapian")) eqn:E3; try (repeat split; congruence).
      split; [|right; auto]. replace ((p ++ lit "/.notmuch") ++ lit "/" ++ lit "xapian") with (p ++ lit "/.notmuch/xapian") by (rewrite <- !app_assoc; reflexivity). exact E3.
    + repeat split; congruence.
  - repeat split; congruence.
Qed.
Lemma finish_ok xcreate w d a kf write p dir split r d' : d_xapian d (slash dir (lit "xapian")) = X_ok ->
  finish_open xcreate w d a kf write p dir split = (r, d') -> d' = d /\
  match r with
  | Opened o => db_path o = p /\ db_xapian o = slash dir (lit "xapian") /\ db_split o = split
  | Failed s => s = FILE_ERROR \/ s = CONFIG_STATUS
  | Crash => False
  end.
Proof.
  unfold finish_open. intros E. rewrite E. destruct (d_compatible d (slash dir (lit "xapian")) write).
  - destruct (open_config _); intros [= <- <-]; auto.
  - intros [= <- <-]; auto.
Qed.

(** ** Creation *)
Lemma same_refl P d : same_databases P d d. Proof. intros q _. auto. Qed.
Lemma same_trans P d d1 d2 : same_databases P d d1 -> same_databases P d1 d2 -> same_databases P d d2.
Proof. intros H H1 q Hq. destruct (H q Hq) as (A & B & C), (H1 q Hq) as (A1 & B1 & C1). repeat split; congruence. Qed.
Lemma same_weaken (P Q : bytes -> Prop) d d' : (forall q, Q q -> P q) -> same_databases P d d' -> same_databases Q d d'.
Proof. intros H S q Hq. apply S. auto. Qed.
Lemma only_refl d : only_new_dirs d d. Proof. now left. Qed.
Lemma only_trans d d1 d2 : only_new_dirs d d1 -> only_new_dirs d1 d2 -> only_new_dirs d d2.
Proof. intros H H1 q. destruct (H q) as [A|[A B]], (H1 q) as [C|[C D]]; try (left; congruence); right; split; congruence. Qed.
Lemma only_dir d d' p : only_new_dirs d d' -> d_stat d p = IsDir -> d_stat d' p = IsDir.
Proof. intros H E. destruct (H p) as [A|[A B]]; congruence. Qed.

(** The first half of creation: finding (or making) the directory. *)
Definition place (mkdir : mkdir_t) (w : world) (d : disk) (a : args) (kf : option keyfile) :=
  match choose_database_path w d a kf with
  | (None, Some p, split) => Some (None, p, split, d)
  | (Some NO_DATABASE, c, split) => create_database_path mkdir w d a kf c split
  | (Some s, _, split) => Some (Some s, [], split, d)
  | (None, None, _) => None
  end.
Definition made_xdg w d a kf : bool := match database_place w d a kf with None => true | Some _ => by_xdg w d a kf end.
Lemma place_none w d a kf : database_place w d a kf = None -> named_path w a kf = None.
Proof.
  unfold database_place, database_places. rewrite named_path_eq. cbn [first_place].
  destruct (a_path a); [discriminate|]. destruct (env_of w "NOTMUCH_DATABASE"); [discriminate|]. now destruct (OpenSpec.from_file w kf).
Qed.
Lemma creation_eq w d a kf : creation_place w d a kf =
  match database_place w d a kf with Some p => Some p | None => xdg w a "XDG_DATA_HOME" ".local/share" end.
Proof.
  unfold creation_place, database_place. generalize (database_places w d a kf) as l. induction l as [|[p|] l IH]; cbn; auto.
  now destruct (xdg _ _ _ _).
Qed.
Lemma place_spec mkdir w d a kf : mkdir_works mkdir ->
  match place mkdir w d a kf with
  | None => creation_place w d a kf = None
  | Some (Some s, _, _, d') => d' = d /\ (s = PATH_ERROR \/ s = FILE_ERROR)
  | Some (None, p, split, d') =>
      creation_place w d a kf = Some p /\ absolute_path p /\ split = made_xdg w d a kf /\ d_stat d' p = IsDir /\
      only_new_dirs d d' /\ same_databases (fun _ => True) d d' /\ (is_dir d p = true -> d' = d \/ database_place w d a kf = None)
  end.
Proof.
  intros Hk. unfold place, made_xdg. rewrite choose_spec, creation_eq. destruct (database_place w d a kf) as [p|] eqn:Ep.
  - destruct (negb (beq (peek p) "/"%char)) eqn:Ea; [auto|]. pose proof (proj1 (abs_true p) Ea) as Hp.
    destruct (is_dir d p) eqn:Ed.
    + repeat split; auto; [unfold is_dir in Ed; now destruct (d_stat d p)|apply only_refl].
    + unfold create_database_path. rewrite Ea. destruct (mkdir p d) as [d1|] eqn:Em; [|auto].
      destruct (Hk _ _ _ Em) as (M1 & M2 & M3). repeat split; auto; try congruence; apply M3; exact I.
  - unfold create_database_path.
    replace (named_path w {| a_path := None; a_config := a_config a; a_profile := a_profile a |} kf) with (@None bytes).
    2: { pose proof (place_none _ _ _ _ Ep) as N. rewrite named_path_eq in N |- *. cbn [first_place a_path] in *. destruct (a_path a); [discriminate|]. now rewrite N. }
    unfold xdg_database. rewrite xdg_dir_eq. destruct (xdg w a "XDG_DATA_HOME" ".local/share") as [p|]; [|reflexivity].
    destruct (negb (beq (peek p) "/"%char)) eqn:Ea; [auto|]. pose proof (proj1 (abs_true p) Ea) as Hp.
    destruct (mkdir p d) as [d1|] eqn:Em; [|auto].
    destruct (Hk _ _ _ Em) as (M1 & M2 & M3). repeat split; auto; apply M3; exact I.
Qed.
Lemma create_unfold mkdir xcreate w d a : create_with_config mkdir xcreate w d a =
  match load_key_file w a with
  | (Some s, _, _) => (Failed s, d)
  | (None, _, kf) =>
      match place mkdir w d a kf with
      | None => (Crash, d)
      | Some (Some s, _, _, d) => (Failed s, d)
      | Some (None, p, split, d) =>
          match create_split d kf p split with
          | None => (Crash, d)
          | Some split =>
              match (if split then Some (p, d)
                     else match mkdir (slash p (lit ".notmuch")) d with Some d => Some (slash p (lit ".notmuch"), d) | None => None end) with
              | None => (Failed FILE_ERROR, d)
              | Some (dir, d) =>
                  match trial_open d (slash dir (lit "xapian")) with
                  | None => (Failed DATABASE_EXISTS, d)
                  | Some _ => finish_open xcreate w d a kf true p dir split
                  end
              end
          end
      end
  end.
Proof. reflexivity. Qed.
Definition create_opening w d a kf p dir split x : opening :=
  {| o_env := w_env w; o_pw := w_pw w; o_stat := d_stat d;
     o_given := match a_path a with Some _ => true | None => false end; o_split := split;
     o_path := p; o_parent := xapian_parent dir; o_profile := a_profile a;
     o_file := match kf with Some kf => kf | None => [] end; o_meta := d_meta d x |}.

Lemma finish_new xcreate w d a kf p dir split r d' : xcreate_works xcreate -> d_xapian d (slash dir (lit "xapian")) <> X_ok ->
  finish_open xcreate w d a kf true p dir split = (r, d') ->
  only_new_dirs d d' /\ same_databases (fun q => q <> slash dir (lit "xapian")) d d' /\
  match r with
  | Opened o => db_path o = p /\ db_xapian o = slash dir (lit "xapian") /\ db_split o = split /\
      d_xapian d (slash dir (lit "xapian")) = X_missing /\ d_xapian d' (slash dir (lit "xapian")) = X_ok /\
      d_meta d' (slash dir (lit "xapian")) = [] /\ (forall b, d_compatible d' (slash dir (lit "xapian")) b = true) /\
      open_config (create_opening w d' a kf p dir split (slash dir (lit "xapian"))) = Some (db_config o)
  | Failed s => s <> DATABASE_EXISTS
  | Crash => False
  end.
Proof.
  intros Hx E. unfold finish_open. set (x := slash dir (lit "xapian")) in *.
  destruct (d_xapian d x) eqn:Ex; [congruence| |].
  - destruct (xcreate x d) as [d1|] eqn:Ec.
    + destruct (Hx _ _ _ Ec) as (X1 & X2 & X3 & X4 & X5). rewrite X3. fold (create_opening w d1 a kf p dir split x).
      destruct (open_config (create_opening w d1 a kf p dir split x)) as [m|] eqn:Eo; intros [= <- <-]; (split; [exact X4|]; split; [exact X5|]).
      * cbn. repeat split; auto.
      * discriminate.
    + intros [= <- <-]. split; [apply only_refl|]. split; [apply same_refl|discriminate].
  - intros [= <- <-]. split; [apply only_refl|]. split; [apply same_refl|discriminate].
Qed.

Lemma named_eq w a kf : named_path w a kf = named_place w a kf. Proof. apply named_path_eq. Qed.
Lemma place_again w d d' a kf p : only_new_dirs d d' -> creation_place w d a kf = Some p -> d_stat d' p = IsDir ->
  xdg_undisturbed w d d' a kf ->
  database_place w d' a kf = Some p /\ (by_xdg w d' a kf = true -> made_xdg w d a kf = true).
Proof.
  intros O C Dp U. unfold xdg_undisturbed in U. rewrite creation_eq in C. unfold made_xdg, by_xdg. rewrite named_eq.
  assert (Ip : forall q, is_dir d q = true -> is_dir d' q = true).
  { intros q Hq. unfold is_dir in *. destruct (d_stat d q) eqn:E; try discriminate. now rewrite (only_dir _ _ _ O E). }
  assert (Ip' : is_dir d' p = true) by (unfold is_dir; now rewrite Dp).
  unfold database_place, database_places in *. unfold named_place in *. cbn [first_place] in *.
  destruct (a_path a) as [q|]; [split; [exact C|discriminate]|].
  destruct (env_of w "NOTMUCH_DATABASE") as [q|]; [split; [exact C|discriminate]|].
  destruct (OpenSpec.from_file w kf) as [q|]; [split; [exact C|discriminate]|].
  destruct (xdg w a "XDG_DATA_HOME" ".local/share") as [xd|] eqn:Ex.
  - destruct (is_dir d xd) eqn:E1.
    + rewrite (Ip _ E1). cbn in *. split; [exact C|auto].
    + cbn [provided first_place] in C, U. destruct (U xd eq_refl) as [U1|[U1|U1]]; [congruence| |].
      * assert (E2 : is_dir d' xd = false) by (unfold is_dir in *; now rewrite U1). rewrite E2. cbn [provided first_place].
        destruct (env_of w "MAILDIR"); [split; [exact C|discriminate]|].
        destruct (is_dir d (home w ++ lit "/mail")) eqn:E3; cbn [provided first_place] in C.
        -- rewrite (Ip _ E3). split; [exact C|discriminate].
        -- injection C as ->. congruence.
      * destruct (env_of w "MAILDIR"); [discriminate|]. destruct (is_dir d (home w ++ lit "/mail")); [discriminate|].
        cbn [provided first_place] in C |- *. injection C as ->. rewrite Ip'. cbn. auto.
  - destruct (env_of w "MAILDIR"); [split; [exact C|discriminate]|].
    destruct (is_dir d (home w ++ lit "/mail")) eqn:E3; cbn [provided first_place] in C; [|discriminate].
    rewrite (Ip _ E3). split; [exact C|discriminate].
Qed.
Lemma create_split_true d kf p : create_split d kf p true = Some true.
Proof. now destruct kf. Qed.
