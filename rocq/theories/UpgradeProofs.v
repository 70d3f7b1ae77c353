From Verif Require Import Bytes Terms Meta MetaProofs Db Decimal Features Paths PathsSpec PathsProofs PathsProofs2 PathsProofs3 Upgrade UpgradeSpec.
From Coq Require Import ZArith Lia.
Local Open Scope nat_scope.

(** * Features *)
Lemma has_pow f k : has f (2 ^ k) = N.testbit f k.
Proof.
  unfold has. destruct (N.testbit f k) eqn:E.
  - destruct (N.eqb_spec (N.land f (2 ^ k)) 0) as [H|H]; [|reflexivity]. exfalso.
    apply (f_equal (fun x => N.testbit x k)) in H. rewrite N.land_spec, E, N.pow2_bits_true in H. discriminate.
  - assert (N.land f (2 ^ k) = 0)%N as ->; [|reflexivity]. apply N.bits_inj. intros j. rewrite N.land_spec, N.bits_0.
    destruct (N.eq_dec j k) as [->|Hne]; [now rewrite E|]. rewrite N.pow2_bits_false by auto. apply andb_false_r.
Qed.
Lemma new_has f k : N.testbit FEATURES_CURRENT k = true -> has (N.ldiff FEATURES_CURRENT f) (2 ^ k) = negb (has f (2 ^ k)).
Proof. intros H. rewrite !has_pow, N.ldiff_spec, H. reflexivity. Qed.
Lemma target_has f k : N.testbit FEATURES_CURRENT k = true -> has (N.lor f FEATURES_CURRENT) (2 ^ k) = true.
Proof. intros H. rewrite has_pow, N.lor_spec, H. apply orb_true_r. Qed.

Lemma existsb_false_In {A} (p : A -> bool) l : existsb p l = false -> forall x, In x l -> p x = false.
Proof. intros H x Hx. destruct (p x) eqn:E; [|reflexivity]. assert (existsb p l = true); [|congruence]. apply existsb_exists; eauto. Qed.

Lemma remove_prefixed_none p t : existsb (starts_with p) t = false -> tsorted t -> remove_prefixed p t = t.
Proof.
  intros H S. destruct (remove_prefixed_spec p t S) as [S' I]. apply tsorted_ext; auto. intros x. rewrite I. split; [tauto|].
  intros Hx. split; [exact Hx|]. exact (existsb_false_In _ _ H x Hx).
Qed.

(** * The shape of one step *)
Definition same_rest (a b : udb) : Prop :=
  u_mtimes b = u_mtimes a /\ u_stamps b = u_stamps a /\ u_tids b = u_tids a /\ u_features b = u_features a /\ u_version b = u_version a.
Lemma same_rest_refl a : same_rest a a. Proof. unfold same_rest. tauto. Qed.
Lemma same_rest_trans a b c : same_rest a b -> same_rest b c -> same_rest a c.
Proof. unfold same_rest. intros (A1 & A2 & A3 & A4 & A5) (B1 & B2 & B3 & B4 & B5). repeat split; congruence. Qed.

Record step_frame (s s' : ustate) : Prop := {
  sf_txn : s_txn s' = s_txn s;
  sf_crash : s_txn s <> None -> s_crash s' = s_crash s;
  sf_feat : s_feat s' = s_feat s;
  sf_rev : (s_rev s <= s_rev s')%N }.
Lemma step_frame_refl s : step_frame s s. Proof. constructor; auto. reflexivity. Qed.
Lemma step_frame_trans a b c : step_frame a b -> step_frame b c -> step_frame a c.
Proof.
  intros [A1 A2 A3 A4] [B1 B2 B3 B4]. constructor; try congruence; [|lia]. intros H. rewrite B2 by congruence. auto.
Qed.
Lemma put_frame d s : step_frame s (put d s).
Proof. constructor; try reflexivity. cbn. destruct (s_txn s); [reflexivity|congruence]. Qed.
Lemma rev_frame s r s' : new_revision s = (r, s') -> step_frame s s' /\ r = (s_rev s + 1)%N /\ s_rev s' = r /\ s_db s' = s_db s.
Proof. unfold new_revision. intros E. injection E as <- <-. repeat split; cbn; auto. lia. Qed.

Section Proofs.
Variable sha1 : bytes -> bytes.
Variable rcs : list bytes.
Hypothesis Rnames : names rcs.
Hypothesis Rne : rcs <> [].
Notation root := (absolute rcs).

Lemma sync_shape b m rest s m' s' : has (s_feat s) LAST_MOD = true -> msg_sync b m rest s = (m', s') ->
  step_frame s s' /\ same_rest (s_db s) (s_db s') /\ u_dirs (s_db s') = u_dirs (s_db s) /\
  um_doc m' = um_doc m /\ um_terms m' = um_terms m /\ um_data m' = um_data m /\
  (if b then u_msgs (s_db s') = rest m' /\ um_lastmod m' = (s_rev s + 1)%N /\ s_rev s' = (s_rev s + 1)%N
   else u_msgs (s_db s') = u_msgs (s_db s) /\ m' = m /\ s_rev s' = s_rev s).
Proof.
  intros HL E. unfold msg_sync in E. destruct b.
  - rewrite HL in E. unfold new_revision in E. injection E as <- <-. split; [|cbn; unfold same_rest; tauto].
    constructor; cbn; auto; [|lia]. destruct (s_txn s); [reflexivity|congruence].
  - injection E as <- <-. split; [apply step_frame_refl|]. unfold same_rest. tauto.
Qed.

Lemma upgrade_folder_shape t ds t' ch : tsorted t -> upgrade_folder t ds = Some (t', ch) -> ch = false -> t' = t.
Proof.
  unfold upgrade_folder. intros S E ->.
  destruct (add_directory_terms ds (remove_prefixed ZFOLDER_PREFIX_V1 (remove_prefixed FOLDER_PREFIX_V1 t))) as [st t3] eqn:E3.
  assert (K : t3 = t' /\ (existsb (starts_with FOLDER_PREFIX_V1) t || existsb (starts_with ZFOLDER_PREFIX_V1) t ||
     match file_entries (remove_prefixed ZFOLDER_PREFIX_V1 (remove_prefixed FOLDER_PREFIX_V1 t)) with [] => false | _ => true end) = false).
  { destruct st; try discriminate; injection E as <- E2; auto. }
  clear E. destruct K as [<- K]. apply orb_false_iff in K as [K K3]. apply orb_false_iff in K as [K1 K2].
  rewrite (remove_prefixed_none _ _ K1 S) in *. rewrite (remove_prefixed_none _ _ K2 S) in *.
  unfold add_directory_terms in E3. destruct (file_entries t); [|discriminate]. cbn in E3. injection E3 as _ <-. reflexivity.
Qed.

(** The shape of the upgrade of one message. *)
Lemma upgrade_message_shape new m rest s m' s' :
  has (s_feat s) LAST_MOD = true -> tsorted (um_terms m) ->
  upgrade_message sha1 root new m rest s = Some (m', s') ->
  step_frame s s' /\ same_rest (s_db s) (s_db s') /\ um_doc m' = um_doc m /\
  um_data m' = (if has new FILE_TERMS then [] else um_data m) /\
  (u_msgs (s_db s') = rest m' \/ u_msgs (s_db s') = u_msgs (s_db s) /\ m' = m) /\
  (um_lastmod m' = (s_rev s + 1)%N /\ s_rev s' = (s_rev s + 1)%N \/ has new LAST_MOD = false /\ um_lastmod m' = um_lastmod m /\ s_rev s' = s_rev s) /\
  exists t1 ds1,
    (if has new FILE_TERMS then
       (um_data m = [] /\ t1 = um_terms m /\ ds1 = u_dirs (s_db s)) \/
       exists st, st <> F_abort /\ st <> F_ub /\ add_filename sha1 root (um_data m) (um_terms m) (u_dirs (s_db s)) = (st, t1, ds1) /\ um_data m <> []
     else t1 = um_terms m /\ ds1 = u_dirs (s_db s)) /\
    u_dirs (s_db s') = ds1 /\
    (if has new BOOL_FOLDER then exists ch, upgrade_folder t1 ds1 = Some (um_terms m', ch) else um_terms m' = t1).
Proof.
  intros HL HS E. unfold upgrade_message in E.
  destruct (if has new FILE_TERMS then _ else _) as [[[m1 b1] s1]|] eqn:E1; [|discriminate].
  destruct (if has new BOOL_FOLDER then _ else _) as [[m2 b2]|] eqn:E2; [|discriminate].
  injection E as E.
  (* first step *)
  assert (A : step_frame s s1 /\ same_rest (s_db s) (s_db s1) /\ u_msgs (s_db s1) = u_msgs (s_db s) /\ um_doc m1 = um_doc m /\
    um_lastmod m1 = um_lastmod m /\ s_rev s1 = s_rev s /\ um_data m1 = (if has new FILE_TERMS then [] else um_data m) /\
    (b1 = false -> m1 = m /\ s1 = s) /\
    (if has new FILE_TERMS then
       (um_data m = [] /\ um_terms m1 = um_terms m /\ u_dirs (s_db s1) = u_dirs (s_db s)) \/
       exists st, st <> F_abort /\ st <> F_ub /\ add_filename sha1 root (um_data m) (um_terms m) (u_dirs (s_db s)) = (st, um_terms m1, u_dirs (s_db s1)) /\ um_data m <> []
     else um_terms m1 = um_terms m /\ u_dirs (s_db s1) = u_dirs (s_db s))).
  { destruct (has new FILE_TERMS).
    - destruct (um_data m) as [|c data] eqn:Ed.
      + injection E1 as <- <- <-. pose proof (step_frame_refl s) as R. unfold same_rest. tauto.
      + destruct (add_filename sha1 root (c :: data) (um_terms m) (u_dirs (s_db s))) as [[st t1] ds1] eqn:Ea.
        assert (K : st <> F_abort /\ st <> F_ub /\ (m1, b1, s1) = (clear_data (set_terms t1 m), true, put (with_dirs ds1 (s_db s)) s))
          by (destruct st; try discriminate; injection E1 as <- <- <-; repeat split; discriminate).
        destruct K as (K1 & K2 & K3). injection K3 as -> -> ->. split; [apply put_frame|]. cbn. unfold same_rest. cbn.
        repeat (split; [tauto|]). split; [intros X; discriminate X|]. right. exists st. repeat split; auto. discriminate.
    - injection E1 as <- <- <-. pose proof (step_frame_refl s) as R. unfold same_rest. tauto. }
  destruct A as (A1 & A2 & A3 & A4 & A5 & A6 & A7 & A8 & A9).
  (* second step *)
  assert (B : um_doc m2 = um_doc m1 /\ um_data m2 = um_data m1 /\ um_lastmod m2 = um_lastmod m1 /\ (tsorted (um_terms m1) -> b2 = false -> m2 = m1 /\ b1 = false) /\
    (if has new BOOL_FOLDER then exists ch, upgrade_folder (um_terms m1) (u_dirs (s_db s1)) = Some (um_terms m2, ch) else um_terms m2 = um_terms m1)).
  { destruct (has new BOOL_FOLDER).
    - destruct (upgrade_folder (um_terms m1) (u_dirs (s_db s1))) as [[t ch]|] eqn:Ef; [|discriminate]. injection E2 as <- <-.
      cbn. repeat (split; [reflexivity|]). split; [|eauto]. intros S Hb. apply orb_false_iff in Hb as [-> ->]. split; [|reflexivity].
      rewrite (upgrade_folder_shape _ _ _ _ S Ef eq_refl). now destruct m1.
    - injection E2 as <- <-. tauto. }
  destruct B as (B1 & B2 & B3 & B4 & B5).
  assert (HL1 : has (s_feat s1) LAST_MOD = true) by (rewrite (sf_feat _ _ A1); exact HL).
  destruct (sync_shape _ _ _ _ _ _ HL1 E) as (C1 & C2 & C3 & C4 & C5 & C6 & C7).
  split; [exact (step_frame_trans _ _ _ A1 C1)|]. split; [exact (same_rest_trans _ _ _ A2 C2)|].
  split; [congruence|]. split; [rewrite C6, B2; exact A7|].
  destruct (b2 || has new LAST_MOD) eqn:Eb.
  - destruct C7 as (C7 & C8 & C9). split; [now left|]. split; [left; split; congruence|].
    exists (um_terms m1), (u_dirs (s_db s1)). split; [exact A9|]. split; [exact C3|]. rewrite C5. exact B5.
  - destruct C7 as (C7 & C8 & C9). apply orb_false_iff in Eb as [-> Eb].
    assert (b1 = false) as Eb1.
    { destruct (has new BOOL_FOLDER).
      - destruct (upgrade_folder _ _) as [[t ch]|]; [|discriminate]. injection E2 as _ E2. now apply orb_false_iff in E2.
      - now injection E2. }
    destruct (A8 Eb1) as [-> ->]. destruct (B4 HS eq_refl) as [-> _]. subst m'.
    split; [right; split; congruence|]. split; [right; repeat split; congruence|].
    exists (um_terms m), (u_dirs (s_db s)). split; [exact A9|]. split; [exact C3|]. exact B5.
Qed.

(** * The meaning of one step *)
Variable D : list bytes -> Prop.
Hypothesis HD : directories sha1 D.
Let Dnames := dd_names _ _ HD.
Let Dparent := dd_parent _ _ HD.
Let Dinj := dd_no_collision _ _ HD.

Lemma dirs_wf_ok ds : dirs_wf sha1 D ds -> ds_ok sha1 D ds.
Proof. intros [A B C]. constructor; auto. Qed.

Definition clean (t0 : list bytes) : Prop :=
  forall x, ~ In (path_prefix ++ x) t0 /\ ~ In (folder_prefix ++ x) t0 /\ ~ In (filename_prefix ++ x) t0.

Definition keep (y : bytes) : bool :=
  negb (starts_with path_prefix y) && negb (starts_with filename_prefix y) &&
  negb (starts_with FOLDER_PREFIX_V1 y) && negb (starts_with ZFOLDER_PREFIX_V1 y).

Lemma sw_longer p q y : starts_with p q = true -> starts_with q y = true -> starts_with p y = true.
Proof. rewrite !starts_with_app. intros (a & ->) (b & ->). exists (a ++ b). now rewrite app_assoc. Qed.
Lemma sw_folder_v1 y : starts_with folder_prefix y = true -> starts_with FOLDER_PREFIX_V1 y = true.
Proof. apply sw_longer. reflexivity. Qed.
Lemma keep_clean t : clean (filter keep t).
Proof.
  intros x. repeat split; intros H; apply filter_In in H as [_ H]; unfold keep in H.
  - rewrite sw_app in H. cbn [negb] in H. discriminate.
  - rewrite (sw_folder_v1 (folder_prefix ++ x)) in H by apply sw_app. cbn [negb] in H. rewrite andb_false_r in H. discriminate.
  - rewrite sw_app in H. cbn [negb] in H. rewrite andb_false_r in H. discriminate.
Qed.
Lemma file_not_v1 e : starts_with FOLDER_PREFIX_V1 (filename_prefix ++ e) = false /\ starts_with ZFOLDER_PREFIX_V1 (filename_prefix ++ e) = false.
Proof. split; (destruct (starts_with _ _) eqn:E; [apply starts_with_app in E as (r & E); discriminate|reflexivity]). Qed.
Lemma path_not_v1 e : starts_with FOLDER_PREFIX_V1 (path_prefix ++ e) = false /\ starts_with ZFOLDER_PREFIX_V1 (path_prefix ++ e) = false.
Proof. split; (destruct (starts_with _ _) eqn:E; [apply starts_with_app in E as (r & E); discriminate|reflexivity]). Qed.

Lemma tsorted_filter (p : bytes -> bool) t : tsorted t -> tsorted (filter p t).
Proof.
  unfold tsorted. induction 1 as [|y l Hl IH Hy]; cbn; [constructor|]. destruct (p y); [|exact IH]. constructor; [exact IH|].
  rewrite Forall_forall in *. intros z Hz. apply filter_In in Hz as [Hz _]. auto.
Qed.

Definition has_entries (F : list file) (t : list bytes) (ds : dirs) : Prop :=
  forall e, In (filename_prefix ++ e) t <-> exists g i, In g F /\ dirid sha1 ds (fst g) = Some i /\ e = dec i ++ ":"%char :: snd g.
Definition files_ok (F : list file) (ds : dirs) : Prop :=
  forall g, In g F -> D (fst g) /\ name_ok (snd g) /\ exists i, dirid sha1 ds (fst g) = Some i.

Lemma upgrade_folder_inv F t ds t' ch : ds_ok sha1 D ds -> tsorted t -> files_ok F ds -> has_entries F t ds ->
  (forall x, In (path_prefix ++ x) t -> exists g, In g F /\ path_term (fst g) x) ->
  upgrade_folder t ds = Some (t', ch) -> inv sha1 D (filter keep t) F t' ds.
Proof.
  intros Hk Hs HF He HP E. unfold upgrade_folder in E.
  destruct (remove_prefixed_spec FOLDER_PREFIX_V1 t Hs) as [S1 R1].
  destruct (remove_prefixed_spec ZFOLDER_PREFIX_V1 _ S1) as [S2 R2].
  set (t2 := remove_prefixed ZFOLDER_PREFIX_V1 (remove_prefixed FOLDER_PREFIX_V1 t)) in *. cbv zeta in E.
  unfold add_directory_terms in E.
  destruct (directory_terms_loop ds (file_entries t2) t2) as [t5|] eqn:E5; [|discriminate].
  assert (t5 = t') as -> by (destruct (file_entries t2); congruence).
  assert (T2 : forall y, In y t2 <-> In y t /\ starts_with FOLDER_PREFIX_V1 y = false /\ starts_with ZFOLDER_PREFIX_V1 y = false)
    by (intros y; rewrite R2, R1; tauto).
  assert (Hent : forall e, In e (file_entries t2) <-> exists g i, In g F /\ dirid sha1 ds (fst g) = Some i /\ e = dec i ++ ":"%char :: snd g).
  { intros e. unfold file_entries. rewrite (proj1 (get_terms_spec filename_prefix t2 S2) e), T2, (He e). pose proof (file_not_v1 e). tauto. }
  destruct (loop_terms sha1 D Dnames Dinj ds Hk (file_entries t2) t2 t' E5) as [S5 T5].
  { intros e H. apply Hent in H as (g & i & Hg & Hi & ->). destruct (HF g Hg) as (Dg & _). exists (fst g), (snd g), i. auto. }
  constructor; auto. intros y. rewrite T5. split.
  - intros [H|(cs & b & i & Hin & Hi & Hc & H)].
    + apply T2 in H as (H & N1 & N2). destruct (starts_with filename_prefix y) eqn:Ef.
      { apply starts_with_app in Ef as (e & ->). apply He in H as (g & i & Hg & Hi & ->). right. exists g. split; [exact Hg|]. left. exists i. split; [exact Hi|reflexivity]. }
      destruct (starts_with path_prefix y) eqn:Ep.
      { apply starts_with_app in Ep as (x & ->). apply HP in H as (g & Hg & Hx). right. exists g. split; [exact Hg|]. right. right. eauto. }
      left. apply filter_In. split; [exact H|]. unfold keep. now rewrite Ef, Ep, N1, N2.
    + apply Hent in Hin as (g & j & Hg & Hj & Ee). apply (f_equal parse_direntry) in Ee. rewrite !parse_entry in Ee. injection Ee as -> ->.
      destruct (HF g Hg) as (Dg & _). assert (fst g = cs) by (eapply (dirid_inj sha1 D Dnames Dinj); eauto). subst cs.
      right. exists g. split; [exact Hg|]. now right.
  - intros [H|(g & Hg & [(i & Hi & ->)|H])].
    + left. apply filter_In in H as [H1 H2]. apply T2. unfold keep in H2.
      apply andb_true_iff in H2 as [H2 N2]. apply andb_true_iff in H2 as [H2 N1]. rewrite negb_true_iff in *. auto.
    + left. apply T2. split; [|apply file_not_v1]. apply He. eauto.
    + right. destruct (HF g Hg) as (Dg & _ & i & Hi). exists (fst g), (snd g), i. split; [apply Hent; eauto|]. auto.
Qed.

Lemma inv_has_entries t0 F t ds : clean t0 -> inv sha1 D t0 F t ds -> has_entries F t ds.
Proof.
  intros C I e. rewrite <- (inv_entries sha1 D t0 C F t ds I e). unfold file_entries.
  symmetry. apply (proj1 (get_terms_spec filename_prefix t (iv_sorted _ _ _ _ _ _ I)) e).
Qed.

Definition keep2 (y : bytes) : bool :=
  negb (starts_with path_prefix y) && negb (starts_with filename_prefix y) && negb (starts_with folder_prefix y).
Lemma keep2_clean t : clean (filter keep2 t).
Proof.
  intros x. repeat split; intros H; apply filter_In in H as [_ H]; unfold keep2 in H; rewrite sw_app in H; cbn [negb] in H;
    rewrite ?andb_false_r in H; discriminate.
Qed.
Lemma folder_name_of d : names d -> join (folder_name d) = folder_of (join d).
Proof. intros H. rewrite folder_join by exact H. unfold folder_name, is_maildir. destruct (_ || _); reflexivity. Qed.
Lemma located_inv F t ds : ds_ok sha1 D ds -> tsorted t -> files_ok F ds -> has_entries F t ds -> located F t ->
  inv sha1 D (filter keep2 t) F t ds.
Proof.
  intros Hk Hs HF He [LP LF]. constructor; auto. intros y. split.
  - intros H. destruct (starts_with filename_prefix y) eqn:Ef.
    { apply starts_with_app in Ef as (e & ->). apply He in H as (g & i & Hg & Hi & ->). right. exists g. split; [exact Hg|]. left. exists i. split; [exact Hi|reflexivity]. }
    destruct (starts_with path_prefix y) eqn:Ep.
    { apply starts_with_app in Ep as (x & ->). apply LP in H as (g & Hg & Hx). right. exists g. split; [exact Hg|]. right. right. eauto. }
    destruct (starts_with folder_prefix y) eqn:Eo.
    { apply starts_with_app in Eo as (x & ->). apply LF in H as (g & Hg & ->). right. exists g. split; [exact Hg|]. right. left.
      rewrite folder_name_of; [reflexivity|]. apply Dnames. now apply HF. }
    left. apply filter_In. split; [exact H|]. unfold keep2. now rewrite Ef, Ep, Eo.
  - intros [H|(g & Hg & [(i & Hi & ->)|[->|(x & Hx & ->)]])].
    + apply filter_In in H. tauto.
    + apply He. eauto.
    + apply LF. exists g. split; [exact Hg|]. rewrite folder_name_of; [reflexivity|]. apply Dnames. now apply HF.
    + apply LP. eauto.
Qed.
Lemma inv_located t0 F t ds : clean t0 -> inv sha1 D t0 F t ds -> located F t.
Proof.
  intros C I. split.
  - exact (inv_path sha1 D t0 C F t ds I).
  - intros x. change (lit "XFOLDER:") with folder_prefix. rewrite (inv_folder sha1 D t0 C F t ds I).
    split; intros (g & Hg & ->); exists g; (split; [exact Hg|]); [symmetry|]; apply folder_name_of; apply Dnames; now apply (iv_files _ _ _ _ _ _ I).
Qed.
Lemma spells_unique data d b d' b' : names d -> name_ok b -> names d' -> name_ok b' ->
  spells root data (d ++ [b]) -> spells root data (d' ++ [b']) -> d' = d /\ b' = b.
Proof.
  intros Hd Hb Hd' Hb' S S'.
  assert (Nm : forall d b, names d -> name_ok b -> names (d ++ [b])) by (intros; apply Forall_app; split; auto).
  apply (relative_spells rcs) in S; auto. apply (relative_spells rcs) in S'; auto. rewrite S in S'. apply join_inj in S'; auto.
  apply app_inj_tail in S' as [-> ->]. auto.
Qed.
Lemma spells_nonempty data d b : names d -> name_ok b -> spells root data (d ++ [b]) -> data <> [].
Proof.
  intros Hd Hb [->|(k & ->)] E.
  - apply join_nil in E; [destruct d; discriminate|]. apply Forall_app; auto.
  - destruct k; discriminate.
Qed.

(** One message: from what it was to the invariant of its terms. *)
Definition message_inv (f : N) (ds1 : dirs) (m m' : umsg) (F : list file) : Prop :=
  exists t0 F', clean t0 /\ inv sha1 D t0 F' (um_terms m') ds1 /\
    (forall y, unrelated f y -> (In y t0 <-> In y (um_terms m))) /\
    (has f BOOL_FOLDER = false -> forall y, In y t0 -> starts_with FOLDER_PREFIX_V1 y = false /\ starts_with ZFOLDER_PREFIX_V1 y = false) /\
    ((F' = F /\ (has f FILE_TERMS = false -> forall d b, D d -> name_ok b -> spells root (um_data m) (d ++ [b]) ->
                exists i, dirid sha1 ds1 d = Some i /\ NOTMUCH_TERM_MAX < length (filename_prefix ++ dec i ++ ":"%char :: b))) \/
     exists d b, has f FILE_TERMS = false /\ D d /\ name_ok b /\ spells root (um_data m) (d ++ [b]) /\ F' = (d, b) :: F).

Lemma message_inv_mono f ds ds' m m' F : ds_ok sha1 D ds' -> mono ds ds' -> message_inv f ds m m' F -> message_inv f ds' m m' F.
Proof.
  intros Hk M (t0 & F' & C & I & A & B & G). exists t0, F'. split; [exact C|]. split; [now apply (inv_mono sha1 D t0 F' _ ds)|].
  split; [exact A|]. split; [exact B|]. destruct G as [[-> G]|G]; [left|now right]. split; [reflexivity|].
  intros Hf d b Hd Hb Hs. destruct (G Hf d b Hd Hb Hs) as (i & Hi & L). exists i. split; [|exact L]. eapply mono_dirid; eauto.
Qed.

Lemma unrelated_keep f y : has f BOOL_FOLDER = false -> unrelated f y -> keep y = true.
Proof.
  intros Hf (A & B & C & E). destruct (E Hf) as [E1 E2]. unfold keep.
  change path_prefix with (lit "P"). change filename_prefix with (lit "XFDIRENTRY"). change FOLDER_PREFIX_V1 with (lit "XFOLDER").
  change ZFOLDER_PREFIX_V1 with (lit "ZXFOLDER"). now rewrite A, B, E1, E2.
Qed.
Lemma unrelated_keep2 f y : unrelated f y -> keep2 y = true.
Proof.
  intros (A & B & C & E). unfold keep2.
  change path_prefix with (lit "P"). change filename_prefix with (lit "XFDIRENTRY"). change folder_prefix with (lit "XFOLDER:"). now rewrite A, B, C.
Qed.
Lemma filter_keep_iff (p : bytes -> bool) t y : p y = true -> (In y (filter p t) <-> In y t).
Proof. intros H. rewrite filter_In. tauto. Qed.

Lemma message_step f ds0 ds m F m' t1 ds1 :
  old_message sha1 root D f ds0 m F -> ds_ok sha1 D ds -> mono ds0 ds ->
  (if negb (has f FILE_TERMS) then
     (um_data m = [] /\ t1 = um_terms m /\ ds1 = ds) \/
     exists st, st <> F_abort /\ st <> F_ub /\ add_filename sha1 root (um_data m) (um_terms m) ds = (st, t1, ds1) /\ um_data m <> []
   else t1 = um_terms m /\ ds1 = ds) ->
  (if negb (has f BOOL_FOLDER) then exists ch, upgrade_folder t1 ds1 = Some (um_terms m', ch) else um_terms m' = t1) ->
  ds_ok sha1 D ds1 /\ mono ds ds1 /\ message_inv f ds1 m m' F.
Proof.
  intros [Os Of Oe Ot Ol] Hk M E1 E2.
  assert (HF : files_ok F ds).
  { intros g Hg. destruct (Of g Hg) as (A & B & i & Hi). split; [exact A|]. split; [exact B|]. exists i. exact (mono_dirid sha1 _ _ _ _ M Hi). }
  assert (He : has_entries F (um_terms m) ds).
  { intros e. rewrite (Oe e). split; intros (g & i & Hg & Hi & ->); exists g, i; (split; [exact Hg|]); (split; [|reflexivity]).
    - exact (mono_dirid sha1 _ _ _ _ M Hi).
    - destruct (Of g Hg) as (_ & _ & j & Hj). pose proof (mono_dirid sha1 _ _ _ _ M Hj) as Hj'. congruence. }
  (* the file name in the data *)
  assert (S1 : (t1 = um_terms m /\ ds1 = ds /\ (has f FILE_TERMS = false -> forall d b, D d -> name_ok b -> ~ spells root (um_data m) (d ++ [b]))) \/
               (has f FILE_TERMS = false /\ F = [] /\ clean (um_terms m) /\ exists d b, D d /\ name_ok b /\ spells root (um_data m) (d ++ [b]) /\
                ds_ok sha1 D ds1 /\ mono ds ds1 /\
                (inv sha1 D (um_terms m) [(d, b)] t1 ds1 \/
                 inv sha1 D (um_terms m) [] t1 ds1 /\ exists i, dirid sha1 ds1 d = Some i /\ NOTMUCH_TERM_MAX < length (filename_prefix ++ dec i ++ ":"%char :: b)))).
  { destruct (has f FILE_TERMS) eqn:Hf; cbn [negb] in E1.
    - destruct E1 as [-> ->]. left. repeat split; auto. discriminate.
    - destruct (Ot eq_refl) as [-> Od]. destruct E1 as [(Ed & -> & ->)|(st & N1 & N2 & Ea & Nd)].
      + left. repeat split; auto. intros _ d b Hd Hb Hs. apply spells_nonempty in Hs; auto.
      + right. destruct Od as [Od|(d & b & Hd & Hb & Hs)]; [congruence|].
        assert (C : clean (um_terms m)).
        { intros x. assert (X : ~ In (filename_prefix ++ x) (um_terms m)) by (intros H; apply He in H as (g & _ & [] & _)).
          destruct (has f BOOL_FOLDER).
          - destruct Ol as [LP LF]. repeat split; [| |exact X]; intros H; [apply LP in H|apply LF in H]; destruct H as (g & [] & _).
          - destruct (Ol x). auto. }
        split; [reflexivity|]. split; [reflexivity|]. split; [exact C|]. exists d, b. split; [exact Hd|]. split; [exact Hb|]. split; [exact Hs|].
        assert (I0 : inv sha1 D (um_terms m) [] (um_terms m) ds).
        { constructor; auto. intros y. split; [auto|]. intros [H|(g & [] & _)]. exact H. }
        destruct (direntry_create sha1 rcs D Rnames Rne Dnames Dparent Dinj _ d b ds Hd Hb Hk Hs) as (Es & i & ds2 & Ed & K1 & M1 & I1).
        assert (ds1 = ds2 /\ (st = F_path_error -> NOTMUCH_TERM_MAX < length (filename_prefix ++ dec i ++ ":"%char :: b))) as [-> L].
        { unfold add_filename in Ea. rewrite Es, Ed in Ea. unfold add_term at 1 in Ea.
          destruct (Nat.ltb_spec NOTMUCH_TERM_MAX (length (filename_prefix ++ dec i ++ ":"%char :: b))) as [L|L].
          - injection Ea as <- <- <-. auto.
          - destruct (add_folder_terms _ _); [|injection Ea as <- <- <-; congruence]. destruct (add_path_terms _ _); injection Ea as <- <- <-; split; congruence. }
        split; [exact K1|]. split; [exact M1|].
        destruct (step_add sha1 rcs D Rnames Rne Dnames Dparent Dinj _ _ _ _ _ d b _ _ _ I0 Hd Hb Hs Ea) as [(-> & J)|[(-> & J)|X]]; [now left| |congruence].
        right. split; [exact J|]. exists i. auto. }
  destruct S1 as [(-> & -> & Hno)|(Hf & -> & C & d & b & Hd & Hb & Hs & K1 & M1 & J)].
  - (* nothing came from the data *)
    split; [exact Hk|]. split; [apply mono_refl|]. destruct (has f BOOL_FOLDER) eqn:Hbf; cbn [negb] in E2.
    + rewrite <- E2 in *. exists (filter keep2 (um_terms m')), F. split; [apply keep2_clean|].
      split; [now apply located_inv|]. split; [intros y Hy; rewrite <- E2; apply filter_keep_iff; now apply (unrelated_keep2 f)|].
      split; [intros X; congruence|]. left. split; [reflexivity|]. intros Hf d b Hd Hb Hs. now apply (Hno Hf) in Hs.
    + destruct E2 as (ch & E2). exists (filter keep (um_terms m)), F. split; [apply keep_clean|].
      split; [eapply upgrade_folder_inv; eauto; intros x Hx; now apply Ol in Hx|].
      split; [intros y Hy; apply filter_keep_iff; now apply (unrelated_keep f)|].
      split. { intros _ y Hy. apply filter_In in Hy as [_ Hy]. unfold keep in Hy. apply andb_true_iff in Hy as [Hy X2]. apply andb_true_iff in Hy as [_ X1].
               rewrite negb_true_iff in *. auto. }
      left. split; [reflexivity|]. intros Hf d b Hd Hb Hs. now apply (Hno Hf) in Hs.
  - split; [exact K1|]. split; [exact M1|].
    assert (J' : exists F', inv sha1 D (um_terms m) F' t1 ds1 /\ ((F' = [] /\ exists i, dirid sha1 ds1 d = Some i /\ NOTMUCH_TERM_MAX < length (filename_prefix ++ dec i ++ ":"%char :: b)) \/ F' = [(d, b)]))
      by (destruct J as [J|[J L]]; eauto).
    clear J. destruct J' as (F' & J & Q).
    assert (Hunique : forall d' b', D d' -> name_ok b' -> spells root (um_data m) (d' ++ [b']) -> d' = d /\ b' = b)
      by (intros d' b' Hd' Hb' Hs'; apply (spells_unique (um_data m)); auto).
    assert (Q' : (F' = [] /\ (has f FILE_TERMS = false -> forall d b, D d -> name_ok b -> spells root (um_data m) (d ++ [b]) ->
                exists i, dirid sha1 ds1 d = Some i /\ NOTMUCH_TERM_MAX < length (filename_prefix ++ dec i ++ ":"%char :: b))) \/
     exists d b, has f FILE_TERMS = false /\ D d /\ name_ok b /\ spells root (um_data m) (d ++ [b]) /\ F' = [(d, b)]).
    { destruct Q as [[-> (i & L)]| ->]; [left|right].
      - split; [reflexivity|]. intros _ d' b' Hd' Hb' Hs'. destruct (Hunique d' b' Hd' Hb' Hs') as [-> ->]. eauto.
      - exists d, b. auto. }
    destruct (has f BOOL_FOLDER) eqn:Hbf; cbn [negb] in E2.
    + exists (um_terms m), F'. split; [exact C|]. rewrite E2. split; [exact J|]. split; [tauto|]. split; [intros X; congruence|]. exact Q'.
    + destruct E2 as (ch & E2). exists (filter keep t1), F'. split; [apply keep_clean|].
      split.
      { eapply upgrade_folder_inv; eauto.
        - exact (iv_sorted _ _ _ _ _ _ J).
        - exact (iv_files _ _ _ _ _ _ J).
        - now apply (inv_has_entries (um_terms m)).
        - intros x Hx. now apply (inv_path sha1 D _ C _ _ _ J). }
      split. { intros y Hy. rewrite filter_keep_iff by now apply (unrelated_keep f). destruct Hy as (Y1 & Y2 & Y3 & _).
               exact (inv_frame sha1 D _ _ _ _ J y Y1 Y3 Y2). }
      split. { intros _ y Hy. apply filter_In in Hy as [_ Hy]. unfold keep in Hy. apply andb_true_iff in Hy as [Hy X2]. apply andb_true_iff in Hy as [_ X1].
               rewrite negb_true_iff in *. auto. }
      exact Q'.
Qed.
End Proofs.
