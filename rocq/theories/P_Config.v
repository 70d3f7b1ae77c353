(** Property C49: where configuration values come from (lib/config.cc, lib/open.cc). *)
From Verif Require Import Bytes StringMap StrUtil StrUtilProofs Dump Config ConfigSpec ConfigProofs ConfigProofs2.
From Coq Require Import Permutation Sorted Lia.
Local Open Scope nat_scope.

Local Lemma base_none o key : key <> lit "database.path" ->
  (base o key <> None <-> set_anywhere o key).
Proof.
  intros H. rewrite base_other by exact H. unfold set_anywhere.
  destruct (in_file (o_file o) key); cbn; [intuition discriminate|]. destruct (in_database (o_meta o) key); cbn; intuition congruence.
Qed.

(** Every item: the configuration file first, then the database, then the documented
    default.  database.path is the caller's path if he gave one. *)
Theorem C49_precedence :
  forall o m, path_not_stored o -> open_config o = Some m ->
  exists path,
    config_get m (item "database.path") = Some path /\
    (o_given o = true \/ in_file (o_file o) (item "database.path") = None -> without_slashes (o_path o) path) /\
    (forall v, o_given o = false -> in_file (o_file o) (item "database.path") = Some v ->
       from_home (home_of (o_env o)) (item "database.path") v path) /\
    forall key, key <> item "database.path" -> key <> item "database.backup_path" ->
      item_value o path (home_of (o_env o)) key (config_get m key).
Proof.
  intros o m Hs E. pose proof (open_config_spec o Hs) as [K S]. rewrite E in K. destruct K as [Hm H].
  destruct (base_path o) as (p & Hp). exists p.
  assert (G : forall key, config_get m key = final o key) by (intros key; now apply holds_get).
  split; [rewrite G; unfold final, item; now rewrite Hp|].
  assert (W : without_slashes (o_path o) (strip_trailing (o_path o) "/"%char)).
  { destruct (strip_trailing_spec (o_path o) "/"%char) as (n & E1 & E2). split; [now exists n|]. exact E2. }
  split; [|split].
  - intros Hg. unfold base in Hp. rewrite bseq_refl in Hp. unfold from_file, skipped in Hp. rewrite bseq_refl in Hp. cbn [andb] in Hp.
    destruct Hg as [Hg|Hg]; [rewrite Hg in Hp|unfold item in Hg; rewrite Hg in Hp; destruct (o_given o)]; cbn in Hp; injection Hp as <-; exact W.
  - intros v Hg Hv. unfold base in Hp. rewrite bseq_refl in Hp. unfold from_file, skipped in Hp. rewrite bseq_refl in Hp. cbn [andb] in Hp.
    rewrite Hg in Hp. unfold item in Hv. rewrite Hv in Hp. cbn in Hp. injection Hp as <-. apply expand_path_spec. discriminate.
  - intros key Hk Hb. rewrite G. unfold item_value. unfold final. rewrite base_other by exact Hk.
    destruct (first_of (in_file (o_file o) key) (in_database (o_meta o) key)) as [v|] eqn:Ef; cbn [option_map first_of].
    + eexists. split; [reflexivity|]. now apply expand_path_spec.
    + assert (Bn : base o key = None) by (rewrite base_other by exact Hk; now rewrite Ef).
      destruct (proj1 S (ex_intro _ m E)) as (_ & X1 & X2 & _).
      unfold default_of.
      destruct (bseq key (key_string HOOK_DIR)) eqn:Eh.
      { apply bseq_eq in Eh. subst key. do 7 right. left. exists "XDG_CONFIG_HOME"%string, ".config"%string, "hooks"%string.
        destruct (hook_default o) as [d|] eqn:Ed.
        - exists d. split; [now left|]. split; [reflexivity|]. now apply dir_value_spec.
        - exfalso. destruct X1 as [X|X]; now apply X. }
      destruct (bseq key (key_string BACKUP_DIR)) eqn:Eb.
      { apply bseq_eq in Eb. subst key. do 7 right. left. exists "XDG_DATA_HOME"%string, ".local/share"%string, "backups"%string.
        destruct (backup_default o) as [d|] eqn:Ed.
        - exists d. split; [right; now left|]. split; [reflexivity|]. now apply dir_value_spec.
        - exfalso. destruct X2 as [X|X]; now apply X. }
      pose proof (find_key key) as F. destruct (find _ all_keys) as [k|].
      * subst key. destruct k; try (exfalso; apply Hk; reflexivity); try (vm_compute in Eh; discriminate); try (vm_compute in Eb; discriminate).
        -- left. split; [reflexivity|]. exact Hp.
        -- right. left. split; [now left|reflexivity].
        -- do 2 right. left. split; reflexivity.
        -- right. left. split; [right; now left|reflexivity].
        -- do 3 right. left. split; reflexivity.
        -- do 6 right. left. split; [reflexivity|]. cbn [config_default].
           destruct (o_env o (lit "EMAIL")); [left|right]; split; (reflexivity || discriminate).
        -- do 8 right. split; [|reflexivity]. cbn. intuition discriminate.
        -- do 5 right. left. split; [reflexivity|]. cbn [config_default].
           destruct (o_env o (lit "NAME")); [left; split; (reflexivity || discriminate)|right]. split; [reflexivity|].
           exists (fst (span (fun c => negb (beq c ","%char)) (pw_gecos (o_pw o)))), (snd (span (fun c => negb (beq c ","%char)) (pw_gecos (o_pw o)))).
           split; [reflexivity|]. clear. generalize (pw_gecos (o_pw o)) as l. induction l as [|c l (I1 & I2 & I3)]; [cbn; auto|].
           cbn [span]. destruct (beq c ","%char) eqn:Ec; cbn [negb].
           ++ apply beq_eq in Ec. subst c. cbn. split; [tauto|]. split; [reflexivity|]. right. eauto.
           ++ destruct (span _ l) as [a b]. cbn [fst snd] in *. split; [|split; [cbn; now rewrite I2|exact I3]].
              intros [->|X]; [discriminate|now apply I1].
        -- do 4 right. left. split; reflexivity.
        -- do 8 right. split; [|reflexivity]. cbn. intuition discriminate.
        -- right. left. split; [right; right; now left|reflexivity].
      * do 8 right. split; [|reflexivity]. unfold item. cbn [map In].
        intros X. repeat (destruct X as [X|X]; [symmetry in X;
          first [exact (F MAIL_ROOT X)|exact (F EXCLUDE_TAGS X)|exact (F NEW_IGNORE X)|exact (F INDEX_AS_TEXT X)|exact (F NEW_TAGS X)
                |exact (F SYNC_MAILDIR_FLAGS X)|exact (F AUTOCOMMIT X)|exact (F USER_NAME X)|exact (F PRIMARY_EMAIL X)|exact (F HOOK_DIR X)|exact (F BACKUP_DIR X)]|]).
        exact X.
Qed.
Print Assumptions C49_precedence.

(** When opening fails for its configuration: a value of the file that cannot be read, no
    usable directory for hooks or backups, or (split configuration) no mail root. *)
Theorem C49_when_opening_succeeds :
  forall o, path_not_stored o ->
  (exists m, open_config o = Some m) <->
  (forall g k, In (g, k, None) (o_file o) -> o_given o = true /\ g ++ lit "." ++ k = item "database.path") /\
  (forall key, key = item "database.hook_dir" \/ key = item "database.backup_dir" ->
     set_anywhere o key \/ exists d path, default_of o path key (Some d)) /\
  (o_split o = true -> set_anywhere o (item "database.mail_root")).
Proof.
  intros o Hs. pose proof (open_config_spec o Hs) as [_ S]. rewrite S. clear S.
  rewrite !base_none by discriminate.
  assert (D : forall d, hook_default o = Some d <-> exists path, default_of o path (item "database.hook_dir") (Some d)).
  { intros d. split.
    - intros H. exists []. do 7 right. left. exists "XDG_CONFIG_HOME"%string, ".config"%string, "hooks"%string, d.
      split; [now left|]. split; [reflexivity|]. now apply dir_value_spec.
    - intros (path & H). unfold default_of in H.
      repeat (destruct H as [(H & _)|H]; [try discriminate; cbn in H; exfalso; repeat (destruct H as [H|H]; [discriminate|]); exact H|]).
      destruct H as [(var & prefix & sub & d' & Hi & [= ->] & H)|[H _]].
      + destruct Hi as [[= <- <- <-]|[Hi|[]]]; [|discriminate]. now apply dir_value_spec.
      + exfalso. apply H. cbn. tauto. }
  assert (D' : forall d, backup_default o = Some d <-> exists path, default_of o path (item "database.backup_dir") (Some d)).
  { intros d. split.
    - intros H. exists []. do 7 right. left. exists "XDG_DATA_HOME"%string, ".local/share"%string, "backups"%string, d.
      split; [right; now left|]. split; [reflexivity|]. now apply dir_value_spec.
    - intros (path & H). unfold default_of in H.
      repeat (destruct H as [(H & _)|H]; [try discriminate; cbn in H; exfalso; repeat (destruct H as [H|H]; [discriminate|]); exact H|]).
      destruct H as [(var & prefix & sub & d' & Hi & [= ->] & H)|[H _]].
      + destruct Hi as [Hi|[[= <- <- <-]|[]]]; [discriminate|]. now apply dir_value_spec.
      + exfalso. apply H. cbn. tauto. }
  split; intros (H1 & H2).
  - destruct H2 as (H2 & H3 & H4). split; [exact H1|]. split; [|exact H4]. intros key [->| ->].
    + destruct H2 as [H2|H2]; [now left|right]. destruct (hook_default o) as [d|] eqn:E; [|congruence]. exists d. now apply D.
    + destruct H3 as [H3|H3]; [now left|right]. destruct (backup_default o) as [d|] eqn:E; [|congruence]. exists d. now apply D'.
  - destruct H2 as (H2 & H4). split; [exact H1|]. split; [|split; [|exact H4]].
    + destruct (H2 _ (or_introl eq_refl)) as [H|(d & H)]; [now left|right]. apply D in H. congruence.
    + destruct (H2 _ (or_intror eq_refl)) as [H|(d & H)]; [now left|right]. apply D' in H. congruence.
Qed.
Print Assumptions C49_when_opening_succeeds.

(** Setting values on a writable handle: each item reads back as last set, the others are
    as they were; a read-only handle refuses and nothing changes. *)
Theorem C49_set_then_get :
  forall o h sets key, path_not_stored o -> opens o true h ->
  config_get (h_config (set_all h sets)) key = first_of (last_set sets key) (config_get (h_config h) key).
Proof.
  intros o h sets key Hs (E & _ & Hw). now apply set_all_spec; [|apply (opened_wf o)].
Qed.
Print Assumptions C49_set_then_get.
Theorem C49_read_only :
  forall o h k v, opens o false h -> set_config k v h = (false, h).
Proof. intros o h k v (_ & _ & Hw). unfold set_config. now rewrite Hw. Qed.
Print Assumptions C49_read_only.

(** What was set is there when the database is opened again (in the same way): unless the
    file has the item, the value read is the one set last; setting the empty string brings
    the default back; items not set are as before. *)
Theorem C49_set_persists :
  forall o h sets m, path_not_stored o -> opens o true h ->
  last_set sets (item "database.path") = None ->
  open_config (later o (h_meta (set_all h sets))) = Some m ->
  exists path, config_get m (item "database.path") = Some path /\ config_get (h_config h) (item "database.path") = Some path /\
  forall key, key <> item "database.path" -> key <> item "database.backup_path" ->
    (forall v, in_file (o_file o) key = Some v -> config_get m key = config_get (h_config h) key) /\
    (in_file (o_file o) key = None -> forall v, last_set sets key = Some v ->
       (v <> [] -> exists x, config_get m key = Some x /\ from_home (home_of (o_env o)) key v x) /\
       (v = [] -> default_of o path key (config_get m key))) /\
    (last_set sets key = None -> config_get m key = config_get (h_config h) key).
Proof.
  intros o h sets m Hs (E & Hmeta & Hw) Lp E'.
  destruct (set_all_meta sets h Hw) as [Hn Hd]; [rewrite Hmeta; apply Hs|].
  set (o' := later o (h_meta (set_all h sets))) in *.
  assert (Hs' : path_not_stored o').
  { split; [exact Hn|]. destruct Hs as [_ [Hg|Hg]]; [now left|right]. cbn [o' later o_meta]. rewrite Hd, Lp, Hmeta. exact Hg. }
  pose proof (open_config_spec o Hs) as [K _]. rewrite E in K. destruct K as [K1 K2].
  pose proof (open_config_spec o' Hs') as [K' _]. rewrite E' in K'. destruct K' as [K1' K2'].
  destruct (base_path o) as (p & Hp).
  assert (Hp' : base o' (lit "database.path") = Some p).
  { rewrite <- Hp. unfold base. now rewrite bseq_refl. }
  exists p.
  assert (P1 : config_get m (item "database.path") = Some p).
  { rewrite (holds_get _ _ _ K1' (K2' _)). unfold final, item. now rewrite Hp'. }
  assert (P2 : config_get (h_config h) (item "database.path") = Some p).
  { rewrite (holds_get _ _ _ K1 (K2 _)). unfold final, item. now rewrite Hp. }
  split; [exact P1|]. split; [exact P2|].
  intros key Nk Nb.
  assert (F : forall key, first_of (in_file (o_file o) key) (in_database (o_meta o') key) = first_of (in_file (o_file o) key) (in_database (o_meta o) key) ->
              key <> item "database.path" -> config_get m key = config_get (h_config h) key).
  { intros k Ek Nk'. rewrite (holds_get _ _ _ K1' (K2' _)), (holds_get _ _ _ K1 (K2 _)).
    unfold final. rewrite (base_other o k), (base_other o' k) by exact Nk'. cbn [o' later o_file o_env]. rewrite Ek, Hp, Hp'. reflexivity. }
  split; [|split].
  - intros v Hv. apply F; [|exact Nk]. now rewrite Hv.
  - intros Hf v Hv. destruct (C49_precedence o' m Hs' E') as (path & Q1 & _ & _ & Q). rewrite P1 in Q1. injection Q1 as <-.
    specialize (Q key Nk Nb). unfold item_value in Q. cbn [o' later o_file o_meta o_env] in Q. rewrite Hf in Q. cbn [first_of] in Q.
    rewrite Hd, Hv in Q. split; intros Hne.
    + destruct v as [|c v]; [contradiction|]. exact Q.
    + subst v. exact Q.
  - intros Hl. apply F; [|exact Nk]. cbn [o' later o_meta]. now rewrite Hd, Hl, Hmeta.
Qed.
Print Assumptions C49_set_persists.

(** Booleans: unset is false; "false", "no", "true", "yes" in any case; anything else is an
    error. *)
Definition spelled (words : list string) (v : bytes) : Prop := exists w, In w words /\ map tolower v = lit w.
Theorem C49_booleans :
  forall h k, let v := config_get (h_config h) (key_string k) in
  (get_bool k h = Some true <-> exists s, v = Some s /\ spelled ["true"; "yes"]%string s) /\
  (get_bool k h = Some false <-> v = None \/ exists s, v = Some s /\ spelled ["false"; "no"]%string s).
Proof.
  intros h k v. unfold get_bool. fold v. destruct v as [s|].
  - assert (C : forall w, strcase_equal s (lit w) = true <-> map tolower s = map tolower (lit w)) by (intros w; apply bseq_eq).
    assert (S1 : strcase_equal s (lit "false") || strcase_equal s (lit "no") = true <-> spelled ["false"; "no"]%string s).
    { rewrite orb_true_iff, !C. unfold spelled. split.
      - intros [H|H]; [exists "false"%string|exists "no"%string]; cbn; auto.
      - intros (w & [<-|[<-|[]]] & H); auto. }
    assert (S2 : strcase_equal s (lit "true") || strcase_equal s (lit "yes") = true <-> spelled ["true"; "yes"]%string s).
    { rewrite orb_true_iff, !C. unfold spelled. split.
      - intros [H|H]; [exists "true"%string|exists "yes"%string]; cbn; auto.
      - intros (w & [<-|[<-|[]]] & H); auto. }
    assert (D : spelled ["false"; "no"]%string s -> spelled ["true"; "yes"]%string s -> False).
    { intros (w & [<-|[<-|[]]] & H) (w' & [<-|[<-|[]]] & H'); rewrite H in H'; discriminate. }
    destruct (strcase_equal s (lit "false") || strcase_equal s (lit "no")) eqn:E1.
    + split; (split; [intros [=]|]); try (intros [[=]|(s' & [= <-] & H)]); try (intros (s' & [= <-] & H)); auto.
      * exfalso. apply D; [now apply S1|exact H].
      * right. exists s. split; [reflexivity|now apply S1].
    + destruct (strcase_equal s (lit "true") || strcase_equal s (lit "yes")) eqn:E2.
      * split; (split; [intros [=]|]); try (intros [[=]|(s' & [= <-] & H)]); try (intros (s' & [= <-] & H)); auto.
        -- exists s. split; [reflexivity|now apply S2].
        -- exfalso. apply S1 in H. discriminate.
      * split; (split; [intros [=]|]); try (intros [[=]|(s' & [= <-] & H)]); try (intros (s' & [= <-] & H)).
        -- apply S2 in H. discriminate.
        -- apply S1 in H. discriminate.
  - split; (split; [intros [=]|]); auto. intros (s & [=] & _).
Qed.
Print Assumptions C49_booleans.

(** The listing has each item that has a value once, in order. *)
Theorem C49_listing :
  forall o h sets, path_not_stored o -> opens o true h ->
  let m := h_config (set_all h sets) in
  StronglySorted (fun a b => bcmp (fst a) (fst b) = Lt) (config_pairs m) /\
  forall k v, In (k, v) (config_pairs m) <-> config_get m k = Some v.
Proof.
  intros o h sets Hs (E & _ & Hw) m. apply config_pairs_spec. apply set_all_spec; [exact Hw|now apply (opened_wf o)].
Qed.
Print Assumptions C49_listing.

(** ** A concrete opening *)
Definition ex_env : environment := fun v =>
  if bseq v (lit "HOME") then Some (lit "/home/u") else if bseq v (lit "EMAIL") then Some (lit "u@x") else None.
Definition ex_open (given : bool) (path : string) (file : keyfile) (meta : list (bytes * bytes)) : opening :=
  {| o_env := ex_env; o_pw := {| pw_gecos := lit "A User,room 3"; pw_name := lit "u" |};
     o_stat := fun p => if bseq p (lit "/home/u/.config/notmuch/default/hooks") then IsDir else Missing;
     o_given := given; o_split := false; o_path := lit path; o_parent := lit path ++ lit "/.notmuch"; o_profile := None;
     o_file := file; o_meta := meta |}.
Definition ex_file : keyfile :=
  [(lit "database", lit "path", Some (lit "/other")); (lit "new", lit "tags", Some (lit "new"));
   (lit "database", lit "mail_root", Some (lit "Mail"))].
Definition ex_meta : list (bytes * bytes) := [(lit "new.tags", lit "stored"); (lit "query.a", lit "tag:b")].
Example C49_example :
  path_not_stored (ex_open true "/m//" ex_file ex_meta) /\
  exists m, open_config (ex_open true "/m//" ex_file ex_meta) = Some m /\
  config_pairs m =
  [(lit "database.autocommit", lit "8000"); (lit "database.backup_dir", lit "/m///.notmuch/backups");
   (lit "database.hook_dir", lit "/home/u/.config/notmuch/default/hooks"); (lit "database.mail_root", lit "/home/u/Mail");
   (lit "database.path", lit "/m"); (lit "index.as_text", []); (lit "maildir.synchronize_flags", lit "true");
   (lit "new.ignore", []); (lit "new.tags", lit "new"); (lit "query.a", lit "tag:b"); (lit "search.exclude_tags", []);
   (lit "user.name", lit "A User"); (lit "user.primary_email", lit "u@x")].
Proof.
  split; [split; [|now left]|].
  - repeat constructor; cbn; intuition discriminate.
  - eexists. split; [vm_compute; reflexivity|vm_compute; reflexivity].
Qed.
Example C49_example_set :
  exists m, open_config (ex_open true "/m" [] ex_meta) = Some m /\
  let h := {| h_config := m; h_meta := ex_meta; h_writable := true |} in
  let h' := set_all h [(lit "new.tags", lit "x"); (lit "query.a", []); (lit "new.tags", lit "y")] in
  get_config (lit "new.tags") h' = lit "y" /\ h_meta h' = [(lit "new.tags", lit "y")].
Proof. eexists. split; [vm_compute; reflexivity|]. split; vm_compute; reflexivity. Qed.

(** ** What does not hold *)
(** A path stored in the database itself (and none given) competes with the path that was
    opened: the smaller string wins, and the listing has the item twice. *)
Theorem C49_one_path_refuted :
  ~ (forall o m, NoDup (map fst (o_meta o)) -> o_given o = false -> open_config o = Some m ->
     forall v w, In (item "database.path", v) (config_pairs m) -> In (item "database.path", w) (config_pairs m) -> v = w).
Proof.
  intros H. assert (Hn : NoDup (map fst [(lit "database.path", lit "/a")])) by (repeat constructor; cbn; tauto).
  assert (E : exists m, open_config (ex_open false "/m" [] [(lit "database.path", lit "/a")]) = Some m /\
    In (item "database.path", lit "/a") (config_pairs m) /\ In (item "database.path", lit "/m") (config_pairs m)).
  { eexists. split; [vm_compute; reflexivity|]. split; vm_compute; tauto. }
  destruct E as (m & E & I1 & I2). specialize (H (ex_open false "/m" [] [(lit "database.path", lit "/a")]) m Hn eq_refl E _ _ I1 I2). discriminate H.
Qed.
Print Assumptions C49_one_path_refuted.

(** When the database was found through the environment (o_given = false, o_path the path
    really opened) and the file names another one, the handle reports the file's. *)
Theorem C49_path_is_the_opened_one_refuted :
  ~ (forall o m, path_not_stored o -> open_config o = Some m ->
     exists p, config_get m (item "database.path") = Some p /\ without_slashes (o_path o) p).
Proof.
  intros H. destruct (H (ex_open false "/b" [(lit "database", lit "path", Some (lit "/a"))] [])) with (m := match open_config (ex_open false "/b" [(lit "database", lit "path", Some (lit "/a"))] []) with Some m => m | None => sm_create end) as (p & E & (n & W) & _).
  - split; [constructor|now right].
  - vm_compute. reflexivity.
  - assert (X : config_get (match open_config (ex_open false "/b" [(lit "database", lit "path", Some (lit "/a"))] []) with Some m => m | None => sm_create end) (item "database.path") = Some (lit "/a")) by (vm_compute; reflexivity).
    rewrite X in E. injection E as <-. discriminate W.
Qed.
Print Assumptions C49_path_is_the_opened_one_refuted.

(** A relative backup directory is not taken from the home directory (the code tests for
    "database.backup_path"), unlike the other three directories. *)
Theorem C49_backup_dir_absolute_refuted :
  ~ (forall o m, path_not_stored o -> open_config o = Some m -> absolute (home_of (o_env o)) ->
     forall d, config_get m (item "database.backup_dir") = Some d -> absolute d).
Proof.
  intros H. set (o := ex_open true "/m" [(lit "database", lit "backup_dir", Some (lit "bak"))] []).
  assert (E : exists m, open_config o = Some m /\ config_get m (item "database.backup_dir") = Some (lit "bak")).
  { eexists. split; vm_compute; reflexivity. }
  destruct E as (m & E & G). destruct (H o m) with (d := lit "bak") as (r & X).
  - split; [constructor|now left].
  - exact E.
  - exists (lit "home/u"). reflexivity.
  - exact G.
  - discriminate X.
Qed.
Print Assumptions C49_backup_dir_absolute_refuted.

(** The root directory as database path is reported as the empty path. *)
Theorem C49_root_path_refuted :
  ~ (forall o m, path_not_stored o -> o_given o = true -> absolute (o_path o) -> open_config o = Some m ->
     exists p, config_get m (item "database.path") = Some p /\ absolute p).
Proof.
  intros H. assert (E : exists m, open_config (ex_open true "/" [] []) = Some m /\ config_get m (item "database.path") = Some []).
  { eexists. split; vm_compute; reflexivity. }
  destruct E as (m & E & G). destruct (H (ex_open true "/" [] []) m) as (p & E2 & (r & X)).
  - split; [constructor|now left].
  - reflexivity.
  - exists []. reflexivity.
  - exact E.
  - rewrite G in E2. injection E2 as <-. discriminate X.
Qed.
Print Assumptions C49_root_path_refuted.
