From Verif Require Import Bytes Terms Meta MetaProofs Db Decimal Features Paths PathsSpec PathsProofs PathsProofs2 PathsProofs3 Upgrade UpgradeSpec UpgradeProofs UpgradeProofs2 UpgradeProofs3.
From Coq Require Import ZArith Lia Sorted.
Local Open Scope nat_scope.

Lemma has_lor f a b : has f (N.lor a b) = has f a || has f b.
Proof.
  unfold has. rewrite N.land_lor_distr_r. destruct (N.eqb_spec (N.land f a) 0) as [->|Ha]; cbn [negb orb]; [now rewrite N.lor_0_l|].
  destruct (N.eqb_spec (N.lor (N.land f a) (N.land f b)) 0) as [E|E]; [|reflexivity]. apply N.lor_eq_0_iff in E. tauto.
Qed.
Lemma new_file f : has (N.ldiff FEATURES_CURRENT f) FILE_TERMS = negb (has f FILE_TERMS). Proof. exact (new_has f 0 eq_refl). Qed.
Lemma new_dirdocs f : has (N.ldiff FEATURES_CURRENT f) DIRECTORY_DOCS = negb (has f DIRECTORY_DOCS). Proof. exact (new_has f 1 eq_refl). Qed.
Lemma new_bool f : has (N.ldiff FEATURES_CURRENT f) BOOL_FOLDER = negb (has f BOOL_FOLDER). Proof. exact (new_has f 3 eq_refl). Qed.
Lemma new_ghosts f : has (N.ldiff FEATURES_CURRENT f) GHOSTS = negb (has f GHOSTS). Proof. exact (new_has f 4 eq_refl). Qed.
Lemma new_lastmod f : has (N.ldiff FEATURES_CURRENT f) LAST_MOD = negb (has f LAST_MOD). Proof. exact (new_has f 6 eq_refl). Qed.
Lemma target_lastmod f : has (N.lor f FEATURES_CURRENT) LAST_MOD = true. Proof. exact (target_has f 6 eq_refl). Qed.

Lemma dec_fuel_length fuel : forall n k, (n < 10 ^ N.of_nat k)%N -> 0 < k -> length (dec_fuel fuel n) <= k.
Proof.
  induction fuel as [|fuel IH]; intros n k Hn Hk; cbn [dec_fuel]; [cbn; lia|]. destruct (N.ltb_spec n 10) as [L|L]; [cbn; lia|].
  rewrite app_length. cbn [length]. destruct k as [|k]; [lia|]. destruct k as [|k].
  { change (10 ^ N.of_nat 1)%N with 10%N in Hn. lia. }
  assert (length (dec_fuel fuel (n / 10)) <= S k); [|lia]. apply IH; [|lia]. apply N.div_lt_upper_bound; [lia|].
  replace (N.of_nat (S (S k))) with (N.succ (N.of_nat (S k))) in Hn by lia. now rewrite N.pow_succ_r' in Hn.
Qed.
Lemma dec_length n : (n < 2 ^ 32)%N -> length (dec n) <= 10.
Proof. intros H. apply dec_fuel_length; [|lia]. change (2 ^ 32)%N with 4294967296%N in H. change (10 ^ N.of_nat 10)%N with 10000000000%N. lia. Qed.

Section Main.
Variable sha1 compress : bytes -> bytes.
Variable rcs : list bytes.
Hypothesis Rnames : names rcs.
Hypothesis Rne : rcs <> [].
Notation root := (absolute rcs).
Variable D : list bytes -> Prop.
Variable count_fails search_fails : bool.
Variable lookup_fails : bytes -> bool.
Notation upgrade := (upgrade sha1 compress root count_fails search_fails lookup_fails).

Lemma ds_ok_dl ds n : ds_ok sha1 D ds -> (next_id ds <= n)%N -> ds_ok sha1 D {| dl := dl ds; next_id := n |}.
Proof.
  intros H L. constructor; cbn.
  - intros d Hin. exact (dk_data _ _ ds H d Hin).
  - apply H.
  - intros d Hin. apply (dk_lt _ _ ds H) in Hin. lia.
Qed.

Lemma find_message_rel f ds0 ds lo hi ms ms' id : Forall2 (msg_rel sha1 rcs D f ds0 ds lo hi) ms ms' -> forall db db',
  find_message compress id (with_msgs ms db) = None <-> find_message compress id (with_msgs ms' db') = None.
Proof.
  intros H db db'. unfold find_message. cbn [u_msgs with_msgs]. induction H as [|m m' ms ms' Hr H IH]; cbn [find]; [tauto|].
  assert (E : existsb (bseq (id_term compress id)) (um_terms m) = existsb (bseq (id_term compress id)) (um_terms m')).
  { unfold msg_rel in Hr. destruct (is_mail m); [|now subst]. destruct Hr as (_ & _ & _ & _ & _ & Hr).
    specialize (Hr (id_term compress id) (sw_app _ _)).
    assert (X : forall t, existsb (bseq (id_term compress id)) t = true <-> In (id_term compress id) t).
    { intros t. rewrite existsb_exists. split; [intros (x & Hx & Ex); apply bseq_eq in Ex; now subst|]. intros Hx. exists (id_term compress id). split; [exact Hx|apply bseq_refl]. }
    destruct (existsb _ (um_terms m)) eqn:E1, (existsb _ (um_terms m')) eqn:E2; try reflexivity.
    - apply X in E1. apply Hr in E1. apply X in E1. congruence.
    - apply X in E2. apply Hr in E2. apply X in E2. congruence. }
  rewrite E. destruct (existsb _ (um_terms m')); [split; discriminate|exact IH].
Qed.

Theorem upgrade_success s s' : old_database sha1 compress root D s ->
  needs_upgrade true (u_version (s_db s)) (s_feat s) = true -> upgrade s = (U_ok, s') ->
  let f := s_feat s in let db := s_db s in let db' := s_db s' in
  s_txn s' = None /\ s_crash s' = db' :: s_crash s /\ s_feat s' = N.lor f FEATURES_CURRENT /\
  u_features db' = print_features (N.lor f FEATURES_CURRENT) /\ u_version db' = DATABASE_VERSION /\
  u_stamps db' = (if has f DIRECTORY_DOCS then u_stamps db else []) /\
  u_tids db' = (if has f GHOSTS then u_tids db else []) /\
  ds_ok sha1 D (u_dirs db') /\ mono (u_dirs db) (u_dirs db') /\
  (exists ms gs, u_msgs db' = ms ++ gs /\
    Forall2 (msg_rel sha1 rcs D f (u_dirs db) (u_dirs db') (s_rev s) (s_rev s')) (u_msgs db) ms /\
    (has f LAST_MOD = false -> let new := map um_lastmod (filter is_mail ms) in
       StronglySorted N.lt new /\ Forall (fun r => s_rev s < r <= s_rev s')%N new) /\
    Forall2 (fun p g => ghost compress (fst p) (snd p) g /\ (s_rev s < um_lastmod g <= s_rev s')%N /\
                        (next_id (u_dirs db) <= um_doc g < next_id (u_dirs db'))%N)
       (if has f GHOSTS then [] else filter (missing compress db) (u_tids db)) gs /\
    NoDup (map um_doc gs)) /\
  (forall cs, D cs ->
    match (if has f DIRECTORY_DOCS then None else last_stamp root (u_stamps db) cs) with
    | Some z => mtime_of sha1 db' cs = Some z
    | None => mtime_of sha1 db' cs = mtime_of sha1 db cs \/ (mtime_of sha1 db cs = None /\ mtime_of sha1 db' cs = Some 0%Z)
    end).
Proof.
  intros [Otx Odir Ods Omt Omsg Ost Oid] Hneed E f db db'. unfold Upgrade.upgrade in E. cbv zeta in E. rewrite Hneed in E. cbn [negb] in E.
  fold f in E. set (pm := has (N.ldiff FEATURES_CURRENT f) (N.lor FILE_TERMS (N.lor BOOL_FOLDER LAST_MOD))) in *.
  destruct (pm && count_fails); [unfold done_label, cancel_transaction in E; rewrite Otx in E; discriminate|].
  unfold begin_transaction in E. rewrite Otx in E.
  set (s0 := set_feat (N.lor f FEATURES_CURRENT) _) in E.
  destruct (pm && search_fails); [unfold done_label, cancel_transaction, s0 in E; cbn in E; discriminate|].
  destruct (if pm then _ else _) as [s1|] eqn:E1; [|discriminate].
  destruct (if has _ DIRECTORY_DOCS then _ else _) as [s2|] eqn:E2; [|discriminate].
  destruct (if has _ GHOSTS then _ else _) as [st3 s3] eqn:E3.
  pose proof (dirs_wf_ok sha1 D _ Ods) as Hk0.
  assert (HL0 : has (s_feat s0) LAST_MOD = true) by apply target_lastmod.
  (* phase 1 *)
  assert (P1 : step_frame s0 s1 /\ same_rest db (s_db s1) /\ ds_ok sha1 D (u_dirs (s_db s1)) /\ mono (u_dirs db) (u_dirs (s_db s1)) /\ fresh sha1 (u_dirs db) (u_dirs (s_db s1)) /\
    exists ms, u_msgs (s_db s1) = ms /\ Forall2 (msg_rel sha1 rcs D f (u_dirs db) (u_dirs (s_db s1)) (s_rev s) (s_rev s1)) (u_msgs db) ms /\
    (has f LAST_MOD = false -> let new := map um_lastmod (filter is_mail ms) in
       StronglySorted N.lt new /\ Forall (fun r => s_rev s < r <= s_rev s1)%N new)).
  { destruct pm eqn:Epm.
    - split; [now apply messages_frame in E1|].
      apply (messages_spec sha1 rcs Rnames Rne D Odir f (u_dirs db) (new_lastmod f)) in E1; auto using mono_refl.
    - injection E1 as <-. split; [apply step_frame_refl|]. split; [apply same_rest_refl|]. split; [exact Hk0|]. split; [apply mono_refl|]. split; [apply fresh_refl|].
      unfold pm in Epm. rewrite !has_lor, new_file, new_bool, new_lastmod in Epm. apply orb_false_iff in Epm as [P1 Epm]. apply orb_false_iff in Epm as [P2 P3].
      rewrite negb_false_iff in *. exists (u_msgs db). split; [reflexivity|]. split; [|congruence].
      assert (G : forall l, incl l (u_msgs db) -> Forall2 (msg_rel sha1 rcs D f (u_dirs db) (u_dirs db) (s_rev s) (s_rev s)) l l).
      { induction l as [|m l IH]; intros Hl; constructor; [|apply IH; intros x Hx; apply Hl; now right].
        unfold msg_rel. destruct (is_mail m) eqn:Em; [|reflexivity]. rewrite P1. split; [reflexivity|]. split; [reflexivity|]. split; [reflexivity|].
        split; [|split; [now left|tauto]]. intros F HF.
        refine (proj2 (proj2 (message_step sha1 rcs Rnames Rne D Odir f (u_dirs db) (u_dirs db) m F m (um_terms m) (u_dirs db) HF Hk0 (mono_refl _) _ _))).
        - rewrite P1. cbn [negb]. auto.
        - rewrite P2. reflexivity. }
      apply G. apply incl_refl. }
  destruct P1 as (F1 & R1 & K1 & M1 & Fr1 & ms & Ems & B1 & B2). destruct R1 as (R11 & R12 & R13 & R14 & R15).
  assert (Hbelow : mtimes_below (s_db s1)).
  { intros i z Hin. rewrite R11 in Hin. apply Omt in Hin. destruct Fr1 as [Fr1 _]. fold db in Hin. lia. }
  (* directories of phase 1 *)
  assert (T1 : forall cs, mtime_of sha1 (s_db s1) cs = mtime_of sha1 db cs \/ (mtime_of sha1 db cs = None /\ mtime_of sha1 (s_db s1) cs = Some 0%Z)).
  { intros cs. rewrite !mtime_of_dirid, R11. destruct (dirid sha1 (u_dirs (s_db s1)) cs) as [j|] eqn:Ej.
    - destruct (proj2 Fr1 cs j Ej) as [-> |[-> H]]; [now left|]. right. split; [reflexivity|]. cbn. f_equal.
      apply (look_fresh db); [exact Omt|exact H].
    - left. destruct (dirid sha1 (u_dirs db) cs) as [j|] eqn:E0; [|reflexivity]. rewrite (mono_dirid sha1 _ _ _ _ M1 E0) in Ej. discriminate. }
  (* phase 2 *)
  assert (P2 : step_frame s1 s2 /\ s_rev s2 = s_rev s1 /\ u_msgs (s_db s2) = ms /\ u_tids (s_db s2) = u_tids db /\
    u_stamps (s_db s2) = (if has f DIRECTORY_DOCS then u_stamps db else []) /\ u_version (s_db s2) = u_version db /\
    ds_ok sha1 D (u_dirs (s_db s2)) /\ mono (u_dirs (s_db s1)) (u_dirs (s_db s2)) /\
    (next_id (u_dirs (s_db s1)) <= next_id (u_dirs (s_db s2)))%N /\
    forall cs, D cs ->
      match (if has f DIRECTORY_DOCS then None else last_stamp root (u_stamps db) cs) with
      | Some z => mtime_of sha1 (s_db s2) cs = Some z
      | None => mtime_of sha1 (s_db s2) cs = mtime_of sha1 (s_db s1) cs \/ (mtime_of sha1 (s_db s1) cs = None /\ mtime_of sha1 (s_db s2) cs = Some 0%Z)
      end).
  { rewrite new_dirdocs in E2. destruct (has f DIRECTORY_DOCS); cbn [negb] in E2.
    - injection E2 as <-. split; [apply step_frame_refl|]. repeat (split; [solve [auto using mono_refl|lia]|]). intros cs _. now left.
    - split; [now apply stamps_frame in E2|]. assert (Nx : (next_id (u_dirs (s_db s1)) <= next_id (u_dirs (s_db s2)))%N).
      { clear - E2. revert E2. generalize (u_stamps (s_db s1)). intros l. revert s1 s2. induction l as [|[p z] l IH]; intros s1 s2 E; cbn [stamps_phase] in E.
        - injection E as <-. lia.
        - destruct (find_directory_id sha1 root true (Some p) (u_dirs (s_db s1))) as [[i|] ds] eqn:Ef; [|discriminate]. cbv zeta in E. apply IH in E.
          cbn [put with_dirs with_mtimes with_stamps s_db u_dirs] in E. unfold find_directory_id in Ef. apply foc_fresh in Ef. destruct Ef as [L _]. lia. }
      rewrite R12 in E2. apply (stamps_spec sha1 rcs Rnames Rne D Odir) in E2; auto.
      destruct E2 as (A1 & A2 & A3 & A4 & A5 & A6 & A7 & A8 & A9 & A10). repeat (split; [congruence|]). repeat (split; [assumption|]). exact A10. }
  destruct P2 as (F2 & Rv2 & Em2 & Et2 & Es2 & Ev2 & K2 & M2 & N2 & T2).
  assert (HL2 : has (s_feat s2) LAST_MOD = true) by (rewrite (sf_feat _ _ F2), (sf_feat _ _ F1); exact HL0).
  (* phase 3 *)
  destruct st3; [|unfold done_label in E; destruct (cancel_transaction s3); discriminate|discriminate].
  assert (P3 : step_frame s2 s3 /\ u_mtimes (s_db s3) = u_mtimes (s_db s2) /\ u_stamps (s_db s3) = u_stamps (s_db s2) /\
    u_version (s_db s3) = u_version (s_db s2) /\ u_tids (s_db s3) = (if has f GHOSTS then u_tids db else []) /\
    dl (u_dirs (s_db s3)) = dl (u_dirs (s_db s2)) /\ (next_id (u_dirs (s_db s2)) <= next_id (u_dirs (s_db s3)))%N /\
    exists gs, u_msgs (s_db s3) = ms ++ gs /\
      Forall2 (fun p g => ghost compress (fst p) (snd p) g /\ (s_rev s2 < um_lastmod g <= s_rev s3)%N /\
                          (next_id (u_dirs (s_db s2)) <= um_doc g < next_id (u_dirs (s_db s3)))%N)
        (if has f GHOSTS then [] else filter (missing compress db) (u_tids db)) gs /\ NoDup (map um_doc gs)).
  { rewrite new_ghosts in E3. destruct (has f GHOSTS); cbn [negb] in E3.
    - injection E3 as <-. split; [apply step_frame_refl|]. repeat (split; [solve [auto|lia]|]). exists []. rewrite app_nil_r.
      split; [exact Em2|]. split; constructor.
    - split; [now apply ghosts_frame in E3|]. rewrite Et2 in E3. apply ghosts_spec in E3; auto.
      destruct E3 as (A1 & A2 & A3 & A4 & A5 & A6 & A7 & gs & A8 & A9 & A10 & A11). repeat (split; [assumption|]).
      exists gs. split; [now rewrite A8, Em2|]. split.
      + assert (Efil : filter (missing compress (s_db s2)) (u_tids db) = filter (missing compress db) (u_tids db)); [|now rewrite Efil in A9].
        apply filter_ext_in'. intros [id tid] _. unfold missing. cbn [fst].
        pose proof (find_message_rel f (u_dirs db) _ _ _ _ _ id B1 db (s_db s2)) as X. rewrite <- Em2 in X.
        assert (Y1 : with_msgs (u_msgs db) db = db) by (destruct db; reflexivity).
        assert (Y2 : with_msgs (u_msgs (s_db s2)) (s_db s2) = s_db s2) by (destruct (s_db s2); reflexivity). rewrite Y1, Y2 in X.
        destruct (find_message compress id (s_db s2)), (find_message compress id db); try reflexivity; [discriminate (proj1 X eq_refl)|discriminate (proj2 X eq_refl)].
      + clear - A10. induction A10 as [|x l H IH Hf]; constructor; [|exact IH]. intros Hin. rewrite Forall_forall in Hf. apply Hf in Hin. lia. }
  destruct P3 as (F3 & Em3 & Es3 & Ev3 & Et3 & Ed3 & N3 & gs & Eg & G1 & G2).
  pose proof (step_frame_trans _ _ _ F1 (step_frame_trans _ _ _ F2 F3)) as F.
  assert (Tx : s_txn s3 = Some db) by (rewrite (sf_txn _ _ F); reflexivity).
  unfold done_label, commit_transaction in E. cbn [put s_txn] in E. rewrite Tx in E. injection E as <-.
  assert (Ds3 : u_dirs (s_db s3) = {| dl := dl (u_dirs (s_db s2)); next_id := next_id (u_dirs (s_db s3)) |})
    by (rewrite <- Ed3; destruct (u_dirs (s_db s3)); reflexivity).
  assert (K3 : ds_ok sha1 D (u_dirs (s_db s3))) by (rewrite Ds3; now apply ds_ok_dl).
  assert (M3 : mono (u_dirs (s_db s2)) (u_dirs (s_db s3))) by (rewrite Ds3; split; auto).
  unfold db'. cbn [s_txn s_crash s_feat s_db s_rev put with_meta u_features u_version u_msgs u_dirs u_mtimes u_stamps u_tids].
  rewrite Tx. split; [reflexivity|]. split; [f_equal; exact (sf_crash _ _ F ltac:(discriminate))|].
  split; [exact (sf_feat _ _ F)|]. split; [f_equal; exact (sf_feat _ _ F)|]. split; [reflexivity|].
  split; [congruence|]. split; [exact Et3|]. split; [exact K3|]. split; [exact (mono_trans _ _ _ M1 (mono_trans _ _ _ M2 M3))|].
  pose proof (sf_rev _ _ F1) as V1. pose proof (sf_rev _ _ F3) as V3. cbn [s0 set_feat s_rev] in V1.
  split.
  - exists ms, gs. split; [exact Eg|]. split; [|split; [|split]].
    + eapply Forall2_imp; [|exact B1]. intros m m'. apply (msg_rel_mono sha1 rcs D f (u_dirs db)); auto; [exact (mono_trans _ _ _ M2 M3)|lia|lia].
    + intros Hl. destruct (B2 Hl) as [S1 S2]. split; [exact S1|]. eapply Forall_impl; [|exact S2]. cbn. intros r. lia.
    + eapply Forall2_imp; [|exact G1]. intros p g (X1 & X2 & X3). split; [exact X1|]. destruct Fr1 as [Fr1 _]. lia.
    + exact G2.
  - intros cs Hc. specialize (T2 cs Hc).
    assert (T3 : mtime_of sha1 {| u_msgs := u_msgs (s_db s3); u_dirs := u_dirs (s_db s3); u_mtimes := u_mtimes (s_db s3); u_stamps := u_stamps (s_db s3);
        u_tids := u_tids (s_db s3); u_features := print_features (s_feat s3); u_version := DATABASE_VERSION |} cs = mtime_of sha1 (s_db s2) cs).
    { unfold mtime_of. cbn [u_mtimes u_dirs]. rewrite Em3. unfold dir_no. rewrite Ed3. reflexivity. }
    unfold with_meta. cbn [u_msgs u_dirs u_mtimes u_stamps u_tids u_features u_version]. rewrite T3.
    destruct (if has f DIRECTORY_DOCS then None else last_stamp root (u_stamps db) cs) as [z|]; [exact T2|].
    destruct (T1 cs) as [X|[X Y]], T2 as [Z|[Z W]]; [left; congruence|right; split; congruence|right; split; congruence|congruence].
Qed.

(** From the invariant to the specification. *)
Lemma message_inv_spec f ds0 ds' m m' F : directories sha1 D -> (next_id ds' <= 2 ^ 32)%N -> ds_ok sha1 D ds' ->
  um_doc m' = um_doc m -> um_data m' = (if has f FILE_TERMS then um_data m else []) ->
  old_message sha1 root D f ds0 m F -> message_inv sha1 rcs D f ds' m m' F ->
  exists F', upgraded_files root f m F F' /\ new_message root f ds' m m' F'.
Proof.
  intros HD Hn Hk Hdoc Hdat HO (t0 & F' & C & I & A & B & G). exists F'. split.
  - split; [|split].
    + destruct G as [[-> _]|(d & b & _ & _ & _ & _ & ->)]; [apply incl_refl|apply incl_tl, incl_refl].
    + intros g Hg. destruct G as [[-> _]|(d & b & Hf & _ & _ & Hs & ->)]; [now left|]. destruct Hg as [<-|Hg]; [|now left]. right. auto.
    + intros Hf d b Hd Hb Hs Hl. destruct G as [[-> G]|(d' & b' & _ & Hd' & Hb' & Hs' & ->)].
      * exfalso. assert (HDd : D d).
        { destruct (om_file_terms _ _ _ _ _ _ _ HO Hf) as [_ [E|(d1 & b1 & Hd1 & Hb1 & Hs1)]].
          - apply (spells_nonempty rcs) in Hs; auto. contradiction.
          - destruct (spells_unique rcs Rnames Rne _ d1 b1 d b (dd_names _ _ HD _ Hd1) Hb1 Hd Hb Hs1 Hs) as [-> _]. exact Hd1. }
        destruct (G Hf d b HDd Hb Hs) as (i & Hi & L).
        assert (Li : (i < 2 ^ 32)%N).
        { unfold dirid in Hi. destruct (find_dir _ ds') as [e|] eqn:Ed; [|discriminate]. injection Hi as <-. unfold find_dir in Ed.
          apply find_some in Ed as [Ed _]. pose proof (dk_lt _ _ _ Hk e Ed). lia. }
        apply dec_length in Li. rewrite !app_length in L. cbn [length] in L. change (length filename_prefix) with 10 in L. unfold NOTMUCH_TERM_MAX in L. lia.
      * destruct (spells_unique rcs Rnames Rne _ d' b' d b (dd_names _ _ HD _ Hd') Hb' Hd Hb Hs' Hs) as [-> ->]. now left.
  - constructor; auto.
    + exact (inv_filenames sha1 rcs D (dd_names _ _ HD) (dd_no_collision _ _ HD) t0 C F' _ _ I).
    + exact (inv_located sha1 D HD t0 F' _ _ C I).
    + intros y Hy. rewrite <- (A y Hy). destruct Hy as (Y1 & Y2 & Y3 & _). exact (inv_frame sha1 D _ _ _ _ I y Y1 Y3 Y2).
    + intros Hb y Hy Hin. destruct (starts_with (lit "XFOLDER:") y) eqn:Ey; [reflexivity|]. exfalso.
      assert (X : In y t0).
      { apply (inv_frame sha1 D _ _ _ _ I y); [| exact Ey| |exact Hin].
        - destruct (starts_with path_prefix y) eqn:E; [|reflexivity]. apply starts_with_app in E as (x & ->). pose proof (path_not_v1 x) as [N1 N2].
          change (lit "XFOLDER") with FOLDER_PREFIX_V1 in Hy. change (lit "ZXFOLDER") with ZFOLDER_PREFIX_V1 in Hy. destruct Hy; congruence.
        - destruct (starts_with filename_prefix y) eqn:E; [|reflexivity]. apply starts_with_app in E as (x & ->). pose proof (file_not_v1 x) as [N1 N2].
          change (lit "XFOLDER") with FOLDER_PREFIX_V1 in Hy. change (lit "ZXFOLDER") with ZFOLDER_PREFIX_V1 in Hy. destruct Hy; congruence. }
      destruct (B Hb y X) as [N1 N2]. change (lit "XFOLDER") with FOLDER_PREFIX_V1 in Hy. change (lit "ZXFOLDER") with ZFOLDER_PREFIX_V1 in Hy. destruct Hy; congruence.
Qed.
End Main.
