From Verif Require Import Bytes Terms Meta MetaProofs Db Decimal Features Paths PathsSpec PathsProofs PathsProofs2 PathsProofs3 Upgrade UpgradeSpec UpgradeProofs.
From Coq Require Import ZArith Lia Sorted.
Local Open Scope nat_scope.

Lemma Forall2_imp {A B} (P Q : A -> B -> Prop) l l' : (forall a b, P a b -> Q a b) -> Forall2 P l l' -> Forall2 Q l l'.
Proof. induction 2; constructor; auto. Qed.

(** * The transaction, without any assumption *)
Lemma sync_frame b m rest s m' s' : msg_sync b m rest s = (m', s') -> step_frame s s'.
Proof.
  unfold msg_sync. destruct b; [|intros E; injection E as <- <-; apply step_frame_refl]. destruct (has (s_feat s) LAST_MOD).
  - destruct (new_revision s) as [r s1] eqn:Er. destruct (rev_frame _ _ _ Er) as (A & _). intros E. injection E as <- <-.
    eapply step_frame_trans; [exact A|apply put_frame].
  - intros E. injection E as <- <-. apply put_frame.
Qed.
Section Fresh.
Variable sha1 : bytes -> bytes.
(** * New directory documents have new numbers *)
Lemma find_or_create_fresh root0 fuel : forall p ds r ds', find_or_create sha1 root0 fuel true p ds = (r, ds') ->
  (next_id ds <= next_id ds')%N /\
  forall x d, find_dir x ds' = Some d -> find_dir x ds = Some d \/ (find_dir x ds = None /\ (next_id ds <= dd_id d)%N).
Proof.
  induction fuel as [|fuel IH]; intros p ds r ds' E; cbn [find_or_create] in E.
  - injection E as <- <-. split; [lia|auto].
  - cbv zeta in E. destruct (find_dir _ ds) eqn:F0; [injection E as <- <-; split; [lia|auto]|]. cbn [negb] in E.
    destruct (split_path _) as [parent base].
    assert (K : exists pid ds1, (match parent with None => (Some 0%N, ds) | Some q => find_or_create sha1 root0 fuel true q ds end) = (pid, ds1) /\
      (next_id ds <= next_id ds1)%N /\ forall x d, find_dir x ds1 = Some d -> find_dir x ds = Some d \/ (find_dir x ds = None /\ (next_id ds <= dd_id d)%N)).
    { destruct parent as [q|].
      - destruct (find_or_create sha1 root0 fuel true q ds) as [pid ds1] eqn:E1. destruct (IH _ _ _ _ E1). exists pid, ds1. auto.
      - exists (Some 0%N), ds. split; [reflexivity|]. split; [lia|auto]. }
    destruct K as (pid & ds1 & Ek & L & K). rewrite Ek in E. destruct pid as [pid|]; injection E as <- <-; [|auto].
    split; [cbn; lia|]. intros x d. unfold find_dir, add_dir. cbn [dl find dd_term]. destruct (bseq _ x) eqn:Ex.
    + intros H. injection H as <-. cbn [dd_id]. fold (find_dir x ds).
      destruct (find_dir x ds) as [d0|] eqn:E0; [|right; auto].
      left. (* a directory found missing stays missing while its parents are created, or is replaced by a newer one *)
      exfalso. apply bseq_eq in Ex. subst x. congruence.
    + apply K.
Qed.

Definition fresh (ds ds' : dirs) : Prop :=
  (next_id ds <= next_id ds')%N /\
  forall qs j, dirid sha1 ds' qs = Some j -> dirid sha1 ds qs = Some j \/ (dirid sha1 ds qs = None /\ (next_id ds <= j)%N).
Lemma fresh_refl ds : fresh ds ds.
Proof. split; [lia|auto]. Qed.
Lemma fresh_trans a b c : mono a b -> fresh a b -> fresh b c -> fresh a c.
Proof.
  intros M [L1 F1] [L2 F2]. split; [lia|]. intros qs j H. destruct (F2 qs j H) as [H2|[H2 H3]]; [exact (F1 qs j H2)|].
  right. split; [|lia]. destruct (dirid sha1 a qs) as [i|] eqn:E; [|reflexivity]. rewrite (mono_dirid sha1 _ _ _ _ M E) in H2. discriminate.
Qed.
Lemma foc_fresh root0 fuel p ds r ds' : find_or_create sha1 root0 fuel true p ds = (r, ds') -> fresh ds ds'.
Proof.
  intros E. destruct (find_or_create_fresh _ _ _ _ _ _ E) as [L F]. split; [exact L|]. intros qs j. unfold dirid.
  destruct (find_dir _ ds') as [d|] eqn:Ed; [|discriminate]. intros H. injection H as <-. destruct (F _ _ Ed) as [-> |[-> H]]; auto.
Qed.
Lemma add_filename_fresh root0 f t ds st t' ds' : add_filename sha1 root0 f t ds = (st, t', ds') -> fresh ds ds'.
Proof.
  unfold add_filename, filename_to_direntry. destruct (split_path (relative_path root0 f)) as [dir base].
  destruct (find_directory_id sha1 root0 true dir ds) as [id ds1] eqn:E.
  assert (Fr : fresh ds ds1).
  { unfold find_directory_id in E. destruct dir as [q|]; [now apply foc_fresh in E|]. injection E as _ <-. apply fresh_refl. }
  intros H. assert (ds' = ds1); [|congruence].
  destruct id as [id|]; [|congruence]. destruct base; try congruence. destruct dir; [|congruence].
  destruct (add_term _ _ _); [|congruence]. destruct (add_folder_terms _ _); [|congruence]. destruct (add_path_terms _ _); congruence.
Qed.

End Fresh.

Section Frame.
Variable sha1 compress : bytes -> bytes.
Variable root : bytes.
Variable lookup_fails : bytes -> bool.
Lemma message_frame new m rest s m' s' : upgrade_message sha1 root new m rest s = Some (m', s') -> step_frame s s'.
Proof.
  intros E. unfold upgrade_message in E.
  destruct (if has new FILE_TERMS then _ else _) as [[[m1 b1] s1]|] eqn:E1; [|discriminate].
  destruct (if has new BOOL_FOLDER then _ else _) as [[m2 b2]|] eqn:E2; [|discriminate].
  injection E as E. apply sync_frame in E. eapply step_frame_trans; [|exact E].
  destruct (has new FILE_TERMS); [|injection E1 as _ _ <-; apply step_frame_refl].
  destruct (um_data m); [injection E1 as _ _ <-; apply step_frame_refl|].
  destruct (add_filename _ _ _ _ _) as [[[] t] ds]; try discriminate; injection E1 as _ _ <-; apply put_frame.
Qed.
Lemma messages_frame new todo : forall done s s', messages_phase sha1 root new done todo s = Some s' -> step_frame s s'.
Proof.
  induction todo as [|m todo IH]; intros done s s' E; cbn [messages_phase] in E; [injection E as <-; apply step_frame_refl|].
  destruct (is_mail m); [|now apply IH in E].
  destruct (upgrade_message _ _ _ _ _ _) as [[m' s1]|] eqn:Em; [|discriminate]. apply message_frame in Em.
  eapply step_frame_trans; [exact Em|]. now apply IH in E.
Qed.
Lemma stamps_frame todo : forall s s', stamps_phase sha1 root todo s = Some s' -> step_frame s s'.
Proof.
  induction todo as [|[p z] todo IH]; intros s s' E; cbn [stamps_phase] in E; [injection E as <-; apply step_frame_refl|].
  destruct (find_directory_id _ _ _ _ _) as [[id|] ds]; [|discriminate]. cbv zeta in E. apply IH in E.
  eapply step_frame_trans; [|exact E]. eapply step_frame_trans; [|apply put_frame]. eapply step_frame_trans; apply put_frame.
Qed.
Lemma ghosts_frame todo : forall s st s', ghosts_phase compress lookup_fails todo s = (st, s') -> step_frame s s'.
Proof.
  induction todo as [|[id tid] todo IH]; intros s st s' E; cbn [ghosts_phase] in E; [injection E as _ <-; apply step_frame_refl|].
  destruct (lookup_fails id); [injection E as _ <-; apply step_frame_refl|].
  destruct (find_message _ _ _).
  - apply IH in E. eapply step_frame_trans; [apply put_frame|exact E].
  - destruct (add_term _ _ _) as [t|]; [|injection E as _ <-; apply step_frame_refl]. cbv zeta in E.
    destruct (msg_sync _ _ _ _) as [m s1] eqn:Es. apply sync_frame in Es. apply IH in E.
    eapply step_frame_trans; [apply put_frame|]. eapply step_frame_trans; [exact Es|]. eapply step_frame_trans; [apply put_frame|exact E].
Qed.
End Frame.

(** * Phase one *)
Section Phases.
Variable sha1 compress : bytes -> bytes.
Variable rcs : list bytes.
Hypothesis Rnames : names rcs.
Hypothesis Rne : rcs <> [].
Notation root := (absolute rcs).
Variable D : list bytes -> Prop.
Hypothesis HD : directories sha1 D.
Let Dnames := dd_names _ _ HD.
Let Dparent := dd_parent _ _ HD.
Let Dinj := dd_no_collision _ _ HD.
Variable f : N.
Variable ds0 : dirs.

Definition msg_rel (ds' : dirs) (lo hi : N) (m m' : umsg) : Prop :=
  if is_mail m then
    is_mail m' = true /\ um_doc m' = um_doc m /\ um_data m' = (if has f FILE_TERMS then um_data m else []) /\
    (forall F, old_message sha1 root D f ds0 m F -> message_inv sha1 rcs D f ds' m m' F) /\
    (um_lastmod m' = um_lastmod m \/ (lo < um_lastmod m' <= hi)%N) /\
    (forall y, starts_with id_prefix y = true -> (In y (um_terms m') <-> In y (um_terms m)))
  else m' = m.

Lemma unrelated_id y : starts_with id_prefix y = true -> unrelated f y.
Proof.
  intros H. apply starts_with_app in H as (x & ->).
  repeat split; try intros _; (destruct (starts_with _ _) eqn:E; [apply starts_with_app in E as (r & E); discriminate|reflexivity]).
Qed.
Lemma unrelated_mail : unrelated f mail_term.
Proof. repeat split; try intros _; reflexivity. Qed.
Lemma message_inv_frame ds' m m' F y : message_inv sha1 rcs D f ds' m m' F -> unrelated f y -> (In y (um_terms m') <-> In y (um_terms m)).
Proof.
  intros (t0 & F' & C & I & A & _) Hy. rewrite <- (A y Hy). destruct Hy as (Y1 & Y2 & Y3 & _). exact (inv_frame sha1 D _ _ _ _ I y Y1 Y3 Y2).
Qed.
Lemma is_mail_In m : is_mail m = true <-> In mail_term (um_terms m).
Proof.
  unfold is_mail. rewrite existsb_exists. split.
  - intros (x & Hx & E). apply bseq_eq in E. now subst.
  - intros H. exists mail_term. split; [exact H|apply bseq_refl].
Qed.

Lemma msg_rel_mono ds ds' lo lo' hi hi' m m' : ds_ok sha1 D ds' -> mono ds ds' -> (lo' <= lo)%N -> (hi <= hi')%N ->
  msg_rel ds lo hi m m' -> msg_rel ds' lo' hi' m m'.
Proof.
  intros Hk M Hl Hh. unfold msg_rel. destruct (is_mail m); [|auto]. intros (A & B & C & E & G & H). split; [exact A|]. split; [exact B|].
  split; [exact C|]. split; [intros F HF; apply (message_inv_mono sha1 rcs D f ds); auto|]. split; [|exact H]. destruct G as [G|G]; [now left|right; lia].
Qed.

Lemma messages_spec (Hnew : has (N.ldiff FEATURES_CURRENT f) LAST_MOD = negb (has f LAST_MOD)) todo : forall done s s',
  has (s_feat s) LAST_MOD = true -> u_msgs (s_db s) = done ++ todo -> ds_ok sha1 D (u_dirs (s_db s)) -> mono ds0 (u_dirs (s_db s)) ->
  (forall m, In m todo -> is_mail m = true -> exists F, old_message sha1 root D f ds0 m F) ->
  messages_phase sha1 root (N.ldiff FEATURES_CURRENT f) done todo s = Some s' ->
  same_rest (s_db s) (s_db s') /\ ds_ok sha1 D (u_dirs (s_db s')) /\ mono (u_dirs (s_db s)) (u_dirs (s_db s')) /\ fresh sha1 (u_dirs (s_db s)) (u_dirs (s_db s')) /\
  exists todo', u_msgs (s_db s') = done ++ todo' /\ Forall2 (msg_rel (u_dirs (s_db s')) (s_rev s) (s_rev s')) todo todo' /\
  (has f LAST_MOD = false ->
     let new := map um_lastmod (filter is_mail todo') in
     StronglySorted N.lt new /\ Forall (fun r => s_rev s < r <= s_rev s')%N new).
Proof.
  induction todo as [|m todo IH]; intros done s s' HL Hm Hk M HO E; cbn [messages_phase] in E.
  - injection E as <-. split; [apply same_rest_refl|]. split; [exact Hk|]. split; [apply mono_refl|]. split; [apply fresh_refl|]. exists []. split; [exact Hm|].
    split; [constructor|]. intros _. split; constructor.
  - destruct (is_mail m) eqn:Em.
    + destruct (upgrade_message sha1 root (N.ldiff FEATURES_CURRENT f) m (fun m' => done ++ m' :: todo) s) as [[m' s1]|] eqn:Eu; [|discriminate].
      destruct (HO m (or_introl eq_refl) Em) as (F0 & HF0).
      destruct (upgrade_message_shape sha1 rcs _ _ _ _ _ _ HL (om_sorted _ _ _ _ _ _ _ HF0) Eu)
        as (A1 & A2 & A3 & A4 & A5 & A6 & t1 & ds1 & A7 & A8 & A9).
      change FILE_TERMS with (2 ^ 0)%N in A4, A7. rewrite (new_has f 0 eq_refl) in A4, A7. change (2 ^ 0)%N with FILE_TERMS in A4, A7.
      change BOOL_FOLDER with (2 ^ 3)%N in A9. rewrite (new_has f 3 eq_refl) in A9. change (2 ^ 3)%N with BOOL_FOLDER in A9.
      assert (St : forall F, old_message sha1 root D f ds0 m F -> ds_ok sha1 D ds1 /\ mono (u_dirs (s_db s)) ds1 /\ message_inv sha1 rcs D f ds1 m m' F).
      { intros F HF. eapply (message_step sha1 rcs Rnames Rne D HD); eauto. }
      assert (Fr1 : fresh sha1 (u_dirs (s_db s)) (u_dirs (s_db s1))).
      { rewrite A8. destruct (negb (has f FILE_TERMS)).
        - destruct A7 as [(_ & _ & ->)|(st & _ & _ & Ea & _)]; [apply fresh_refl|now apply add_filename_fresh in Ea].
        - destruct A7 as [_ ->]. apply fresh_refl. }
      destruct (St F0 HF0) as (K1 & M1 & I1). rewrite <- A8 in K1, M1.
      destruct (IH (done ++ [m']) s1 s') as (B1 & B2 & B3 & B3' & todo' & B4 & B5 & B6); auto.
      * rewrite (sf_feat _ _ A1). exact HL.
      * rewrite <- app_assoc. cbn [app]. destruct A5 as [-> |[-> ->]]; [reflexivity|exact Hm].
      * eapply mono_trans; eauto.
      * intros n Hn. apply HO. now right.
      * pose proof (messages_frame _ _ _ _ _ _ _ E) as Fr.
        split; [exact (same_rest_trans _ _ _ A2 B1)|]. split; [exact B2|]. split; [eapply mono_trans; eauto|]. split; [exact (fresh_trans _ _ _ _ M1 Fr1 B3')|].
        exists (m' :: todo'). split; [rewrite B4, <- app_assoc; reflexivity|]. split.
        -- constructor.
           ++ unfold msg_rel. rewrite Em. pose proof (message_inv_frame _ _ _ _ _ I1 unrelated_mail) as Hmail.
              split; [apply is_mail_In, Hmail, is_mail_In; exact Em|]. split; [exact A3|].
              split; [rewrite A4; now destruct (has f FILE_TERMS)|].
              split. { intros F HF. destruct (St F HF) as (_ & _ & I). rewrite <- A8 in I. now apply (message_inv_mono sha1 rcs D f _ _ m m' F B2 B3). }
              split. { pose proof (sf_rev _ _ Fr) as Rv. destruct A6 as [[R1 R2]|(R0 & R1 & R2)]; [right; lia|now left]. }
              intros y Hy. apply (message_inv_frame _ _ _ _ _ I1). now apply unrelated_id.
           ++ eapply Forall2_imp; [|exact B5]. intros a b. apply msg_rel_mono; auto.
              ** apply mono_refl.
              ** exact (sf_rev _ _ A1).
              ** lia.
        -- intros Hl. destruct (B6 Hl) as [B7 B8]. cbn [filter].
           assert (is_mail m' = true) as -> by (apply is_mail_In, (message_inv_frame _ _ _ _ _ I1 unrelated_mail), is_mail_In; exact Em).
           cbn [map]. assert (R : um_lastmod m' = (s_rev s + 1)%N /\ s_rev s1 = (s_rev s + 1)%N).
           { destruct A6 as [R|(R0 & _)]; [exact R|]. rewrite Hnew, Hl in R0. discriminate. }
           destruct R as [R1 R2]. pose proof (sf_rev _ _ Fr) as Rv. split.
           ++ constructor; [exact B7|]. eapply Forall_impl; [|exact B8]. intros r. cbn. lia.
           ++ constructor; [lia|]. eapply Forall_impl; [|exact B8]. intros r. cbn. lia.
    + destruct (IH (done ++ [m]) s s') as (B1 & B2 & B3 & B3' & todo' & B4 & B5 & B6); auto.
      * now rewrite <- app_assoc.
      * intros n Hn. apply HO. now right.
      * split; [exact B1|]. split; [exact B2|]. split; [exact B3|]. split; [exact B3'|]. exists (m :: todo'). split; [rewrite B4, <- app_assoc; reflexivity|].
        split; [constructor; [unfold msg_rel; now rewrite Em|exact B5]|]. intros Hl. cbn [filter]. rewrite Em. exact (B6 Hl).
Qed.

(** * Phase two: time stamps of directories *)
Lemma find_directory_spells p cs ds : D cs -> spells root p cs -> ds_ok sha1 D ds ->
  exists i ds', find_directory_id sha1 root true (Some p) ds = (Some i, ds') /\ ds_ok sha1 D ds' /\ mono ds ds' /\ dirid sha1 ds' cs = Some i /\
    fresh sha1 ds ds'.
Proof.
  intros Hc Hs Hk. unfold find_directory_id.
  assert (L : length cs < S (S (length p))).
  { pose proof (names_length cs (Dnames _ Hc)). destruct Hs as [->|(k & ->)]; [lia|]. rewrite !app_length. cbn [length]. lia. }
  assert (E : find_or_create sha1 root (S (S (length p))) true p ds = find_or_create sha1 root (S (S (length p))) true (join cs) ds).
  { cbn [find_or_create]. cbv zeta. rewrite (relative_spells rcs p cs Rnames Rne (Dnames _ Hc) Hs), relative_join by auto. reflexivity. }
  rewrite E. clear E. destruct (find_create sha1 root D Dnames Dparent Dinj cs _ ds Hc Hk L) as (i & ds' & E & K1 & M1 & I1).
  exists i, ds'. split; [exact E|]. split; [exact K1|]. split; [exact M1|]. split; [exact I1|].
  exact (foc_fresh _ _ _ _ _ _ _ E).
Qed.

Definition mtimes_below (db : udb) : Prop := forall i z, In (i, z) (u_mtimes db) -> (i < next_id (u_dirs db))%N.
Definition look (l : list (N * Z)) (i : N) : Z := match find (fun p => N.eqb (fst p) i) l with Some (_, z) => z | None => 0%Z end.
Lemma look_fresh db i : mtimes_below db -> (next_id (u_dirs db) <= i)%N -> look (u_mtimes db) i = 0%Z.
Proof.
  intros H L. unfold look. destruct (find _ _) as [[j z]|] eqn:E; [|reflexivity]. apply find_some in E as [E1 E2]. apply N.eqb_eq in E2. cbn in E2. subst.
  apply H in E1. lia.
Qed.
Lemma mtime_of_dirid db cs : mtime_of sha1 db cs = option_map (look (u_mtimes db)) (dirid sha1 (u_dirs db) cs).
Proof. reflexivity. Qed.

Lemma stamps_spec todo : forall s s', ds_ok sha1 D (u_dirs (s_db s)) -> mtimes_below (s_db s) -> u_stamps (s_db s) = todo ->
  (forall p z, In (p, z) todo -> exists cs, D cs /\ spells root p cs) ->
  stamps_phase sha1 root todo s = Some s' ->
  u_msgs (s_db s') = u_msgs (s_db s) /\ u_tids (s_db s') = u_tids (s_db s) /\ u_features (s_db s') = u_features (s_db s) /\
  u_version (s_db s') = u_version (s_db s) /\ u_stamps (s_db s') = [] /\ s_rev s' = s_rev s /\
  ds_ok sha1 D (u_dirs (s_db s')) /\ mono (u_dirs (s_db s)) (u_dirs (s_db s')) /\ mtimes_below (s_db s') /\
  forall cs, D cs ->
    match last_stamp root todo cs with
    | Some z => mtime_of sha1 (s_db s') cs = Some z
    | None => mtime_of sha1 (s_db s') cs = mtime_of sha1 (s_db s) cs \/
              (mtime_of sha1 (s_db s) cs = None /\ mtime_of sha1 (s_db s') cs = Some 0%Z)
    end.
Proof.
  induction todo as [|[p z] todo IH]; intros s s' Hk Hm Hst HP E; cbn [stamps_phase] in E.
  - injection E as <-. cbn [last_stamp]. repeat (split; [solve [auto using mono_refl]|]). intros cs Hc. now left.
  - destruct (HP p z (or_introl eq_refl)) as (cs & Hc & Hs).
    destruct (find_directory_spells p cs (u_dirs (s_db s)) Hc Hs Hk) as (i & ds1 & Ef & K1 & M1 & I1 & (L1 & Fr)).
    rewrite Ef in E. cbv zeta in E. apply IH in E; clear IH; [|exact K1| |reflexivity|].
    2:{ intros j w [Hj|Hj].
        - injection Hj as <- <-. unfold dirid in I1. cbn. destruct (find_dir _ ds1) as [d|] eqn:Ed; [|discriminate]. injection I1 as <-.
          unfold find_dir in Ed. apply find_some in Ed as [Ed _]. exact (dk_lt _ _ _ K1 d Ed).
        - cbn [u_mtimes with_mtimes with_dirs] in Hj. apply Hm in Hj. cbn [next_id u_dirs]. cbn. clear - Hj L1. lia. }
    2:{ intros q w Hq. apply (HP q w). now right. }
    destruct E as (A1 & A2 & A3 & A4 & A5 & A5' & A6 & A7 & A8 & A9).
    repeat (split; [first [exact A1|exact A2|exact A3|exact A4|exact A5|exact A5'|exact A6|exact (mono_trans _ _ _ M1 A7)|exact A8]|]).
    intros qs Hq. specialize (A9 qs Hq). cbn [last_stamp]. destruct (last_stamp root todo qs) as [w|]; [exact A9|].
    rewrite !mtime_of_dirid in A9 |- *. cbn [u_dirs u_mtimes with_mtimes with_dirs with_stamps put s_db] in A9.
    destruct (bseq_spec (relative_path root p) (join qs)) as [Er|Er].
    + rewrite (relative_spells rcs p cs Rnames Rne (Dnames _ Hc) Hs) in Er. apply join_inj in Er; auto. subst qs.
      rewrite I1 in A9. cbn [option_map] in A9. unfold look at 2 in A9. cbn [find fst] in A9. rewrite N.eqb_refl in A9.
      destruct A9 as [A9|[A9 _]]; [exact A9|discriminate].
    + assert (Hne : qs <> cs).
      { intros ->. apply Er. exact (relative_spells rcs p cs Rnames Rne (Dnames _ Hc) Hs). }
      assert (Q : option_map (look ((i, z) :: u_mtimes (s_db s))) (dirid sha1 ds1 qs) = option_map (look (u_mtimes (s_db s))) (dirid sha1 ds1 qs)).
      { destruct (dirid sha1 ds1 qs) as [j|] eqn:Ej; [|reflexivity]. cbn [option_map]. f_equal. unfold look. cbn [find fst].
        destruct (N.eqb_spec i j) as [->|]; [|reflexivity]. exfalso. apply Hne. eapply (dirid_inj sha1 D Dnames Dinj); eauto. }
      rewrite Q in A9. clear Q.
      assert (R : option_map (look (u_mtimes (s_db s))) (dirid sha1 ds1 qs) = option_map (look (u_mtimes (s_db s))) (dirid sha1 (u_dirs (s_db s)) qs) \/
                  dirid sha1 (u_dirs (s_db s)) qs = None /\ option_map (look (u_mtimes (s_db s))) (dirid sha1 ds1 qs) = Some 0%Z).
      { destruct (dirid sha1 ds1 qs) as [j|] eqn:Ej.
        - destruct (Fr qs j Ej) as [-> |[-> H]]; [now left|]. right. split; [reflexivity|]. cbn. f_equal. now apply look_fresh.
        - left. destruct (dirid sha1 (u_dirs (s_db s)) qs) as [j|] eqn:E0; [|reflexivity]. rewrite (mono_dirid sha1 _ _ _ _ M1 E0) in Ej. discriminate. }
      destruct R as [R|[R0 R]]; rewrite R in A9.
      * destruct A9 as [A9|[A9 A9']]; [now left|now right].
      * rewrite R0. cbn [option_map]. destruct A9 as [A9|[A9 _]]; [|discriminate]. right. auto.
Qed.
End Phases.
