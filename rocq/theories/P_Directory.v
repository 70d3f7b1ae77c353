(** C64: directories of the mail store. *)
From Verif Require Import Bytes Terms Meta MetaProofs Decimal Paths PathsSpec PathsProofs PathsProofs2 PathsProofs3 P_Paths Directory DirectorySpec UpgradeSpec UpgradeProofs UpgradeProofs2 DirectoryProofs.
From Coq Require Import ZArith Lia.
Local Open Scope nat_scope.

Section C64.
Variable sha1 : bytes -> bytes.
Variable rcs : list bytes.
Variable D : list bytes -> Prop.
Notation root := (absolute rcs).
Definition setting64 : Prop := names rcs /\ rcs <> [] /\ directories sha1 D.

Lemma full_name_inj cs b cs' b' : names cs -> name_ok b -> names cs' -> name_ok b' ->
  full_name root (cs, b) = full_name root (cs', b') -> cs = cs' /\ b = b'.
Proof.
  intros A B A' B' E. apply sw_inj in E; [now injection E|apply Forall_app; auto|apply Forall_app; auto].
Qed.

(** Files: after any history a directory lists, in order and without repetition, the
    base names of exactly the files that messages have in it; a directory in which a
    message has a file is known; and no message has a file name that cannot be made. *)
Theorem C64_files n ops s : setting64 -> run sha1 root D (empty_store n) ops s ->
  (forall d h, D d -> get_dir sha1 root (join d) s = Some h ->
     tsorted (list_files (dd_id h) s) /\
     (forall b, In b (list_files (dd_id h) s) -> name_ok b) /\
     (forall b, name_ok b -> (In b (list_files (dd_id h) s) <-> has_file root d b s))) /\
  (forall d b, D d -> name_ok b -> has_file root d b s -> known sha1 root d s) /\
  (forall t, In t (d_msgs s) -> NoDup (get_filenames root (d_dirs s) t) /\ ~ In None (get_filenames root (d_dirs s) t)).
Proof.
  intros (Rn & Rne & HD) R. pose proof (run_inv sha1 rcs Rn Rne D HD _ _ _ R (dinv_empty sha1 D n)) as I.
  pose proof (dd_names _ _ HD) as DN. pose proof (dd_no_collision _ _ HD) as DI.
  assert (HF : forall d b, D d -> name_ok b -> has_file root d b s -> exists t t0 F, In t (d_msgs s) /\ clean t0 /\ inv sha1 D t0 F t (d_dirs s) /\ In (d, b) F).
  { intros d b Hd Hb (t & Ht & Hin). destruct (di_msgs _ _ _ I t Ht) as (t0 & F & A1 & A2 & A3 & A4). exists t, t0, F. repeat (split; [assumption|]).
    apply (inv_filenames sha1 rcs D DN DI t0 A2 F t (d_dirs s) A4) in Hin as ((gd & gb) & Hg & E0).
    assert (E : full_name root (d, b) = full_name root (gd, gb)) by (change (match Some (full_name root (d, b)) with Some x => x | None => [] end = full_name root (gd, gb)); now rewrite E0).
    destruct (iv_files _ _ _ _ _ _ A4 _ Hg) as (Dg & Ng & _). cbn in Dg, Ng.
    apply full_name_inj in E as [-> ->]; auto. }
  split; [|split].
  - intros d h Hd G. rewrite (get_dir_spells sha1 rcs Rn Rne D HD _ d s Hd (spells_join rcs d)) in G.
    assert (Hi : dirid sha1 (d_dirs s) d = Some (dd_id h)) by (unfold dirid; now rewrite G).
    pose proof (fun b => list_files_inv sha1 D HD s (dd_id h) b d I Hd Hi) as L. split; [|split].
    + unfold list_files. apply get_terms_sorted. apply fold_tadd_sorted.
    + intros b Hb. apply L in Hb as (t & _ & t0 & F & _ & A & Hf). destruct (iv_files _ _ _ _ _ _ A _ Hf) as (_ & X & _). exact X.
    + intros b Hb. rewrite L. split.
      * intros (t & Ht & t0 & F & C & A & Hf). exists t. split; [exact Ht|].
        apply (inv_filenames sha1 rcs D DN DI t0 C F t (d_dirs s) A). eauto.
      * intros H. destruct (HF d b Hd Hb H) as (t & t0 & F & A1 & A2 & A3 & A4). exists t. split; [exact A1|]. eauto.
  - intros d b Hd Hb H. destruct (HF d b Hd Hb H) as (t & t0 & F & A1 & A2 & A3 & A4). destruct (iv_files _ _ _ _ _ _ A3 _ A4) as (_ & _ & i & Hi).
    unfold known. pose proof (get_dir_dirid sha1 rcs Rn Rne D HD d s Hd) as X. cbn in Hi. rewrite Hi in X. intros E. rewrite E in X. discriminate X.
  - intros t Ht. destruct (di_msgs _ _ _ I t Ht) as (t0 & F & A1 & A2 & A3 & A4).
    destruct (inv_filenames sha1 rcs D DN DI t0 A2 F t (d_dirs s) A4) as [B1 B2]. split; [exact B1|].
    intros X. apply B2 in X as (g & _ & X). discriminate X.
Qed.

(** Subdirectories: the parent of a known directory is known, and a directory lists, in
    order and without repetition, exactly its known subdirectories. *)
Theorem C64_directories n ops s : setting64 -> run sha1 root D (empty_store n) ops s ->
  (forall d b, D (d ++ [b]) -> known sha1 root (d ++ [b]) s -> known sha1 root d s) /\
  (forall d h, D d -> get_dir sha1 root (join d) s = Some h ->
     tsorted (list_directories (dd_id h) s) /\
     (forall b, In b (list_directories (dd_id h) s) -> D (d ++ [b])) /\
     (forall b, D (d ++ [b]) -> (In b (list_directories (dd_id h) s) <-> known sha1 root (d ++ [b]) s))).
Proof.
  intros (Rn & Rne & HD) R. pose proof (run_inv sha1 rcs Rn Rne D HD _ _ _ R (dinv_empty sha1 D n)) as I.
  pose proof (dd_names _ _ HD) as DN. pose proof (dd_no_collision _ _ HD) as DI. pose proof (dd_parent _ _ HD) as DP.
  assert (KN : forall d, D d -> (known sha1 root d s <-> dirid sha1 (d_dirs s) d <> None)).
  { intros d Hd. unfold known. pose proof (get_dir_dirid sha1 rcs Rn Rne D HD d s Hd) as X. rewrite <- X.
    destruct (get_dir sha1 root (join d) s); cbn; split; congruence. }
  split.
  - intros d b Hd H. apply (KN _ Hd) in H. apply (KN d (DP _ _ Hd)). unfold dirid in H. destruct (find_dir _ _) as [h|] eqn:F; [|now destruct H].
    apply find_dir_spec in F as [Hin Ht]. destruct (dk_data _ _ _ (di_ds _ _ _ I) h Hin) as (cs & C1 & _ & C3 & _ & C5).
    rewrite Ht in C3. apply DI in C3; auto. apply join_inj in C3; auto. destruct (C5 d b (eq_sym C3)) as (i & Hi & _). congruence.
  - intros d h Hd G. rewrite (get_dir_spells sha1 rcs Rn Rne D HD _ d s Hd (spells_join rcs d)) in G.
    assert (Hi : dirid sha1 (d_dirs s) d = Some (dd_id h)) by (unfold dirid; now rewrite G). split; [|split].
    + unfold list_directories. apply get_terms_sorted. apply fold_tadd_sorted.
    + intros b Hb. apply (list_directories_In sha1 D s (dd_id h) b I) in Hb as (e & He & Hb).
      destruct (dk_data _ _ _ (di_ds _ _ _ I) e He) as (cs & C1 & _ & _ & C4 & C5).
      destruct cs as [|c cs _] using rev_ind; [rewrite C4 in Hb by reflexivity; discriminate Hb|].
      destruct (C5 cs c eq_refl) as (i & H1 & H2). rewrite Hb in H2. injection H2 as <- <-.
      assert (cs = d) by (eapply (dirid_inj sha1 D DN DI); eauto; apply I). subst cs. exact C1.
    + intros b Hb. rewrite (list_directories_In sha1 D s (dd_id h) b I), (KN _ Hb). symmetry. now apply (entry_doc sha1 D HD s d b (dd_id h) I).
Qed.

(** Deleting a directory that lists nothing makes it unknown and changes nothing else. *)
Theorem C64_delete n ops s p d s' : setting64 -> run sha1 root D (empty_store n) ops s -> D d -> dir_spells root p d ->
  allowed sha1 root D s (DDelete p) -> dstep sha1 root (DDelete p) s = Some s' ->
  ~ known sha1 root d s' /\ d_msgs s' = d_msgs s /\
  (forall t, In t (d_msgs s) -> get_filenames root (d_dirs s') t = get_filenames root (d_dirs s) t) /\
  forall c, D c -> c <> d -> mtime sha1 root c s' = mtime sha1 root c s.
Proof.
  intros (Rn & Rne & HD) R Hd Hp Ha E. pose proof (run_inv sha1 rcs Rn Rne D HD _ _ _ R (dinv_empty sha1 D n)) as I.
  pose proof (step_inv sha1 rcs Rn Rne D HD _ _ _ I Ha E) as I'.
  pose proof (dd_names _ _ HD) as DN. pose proof (dd_no_collision _ _ HD) as DI.
  pose proof (get_dir_spells sha1 rcs Rn Rne D HD p d s Hd Hp) as G. cbn [dstep] in E. rewrite G in E.
  assert (MT : forall c s, D c -> mtime sha1 root c s = option_map (fun i => mtime_at i s) (dirid sha1 (d_dirs s) c)).
  { intros c s0 Hc. unfold mtime. rewrite <- (get_dir_dirid sha1 rcs Rn Rne D HD c s0 Hc). now destruct (get_dir sha1 root (join c) s0). }
  destruct (find_dir _ (d_dirs s)) as [h|] eqn:F; injection E as <-.
  - assert (Del : forall c, D c -> dirid sha1 (d_dirs (delete_directory h s)) c = if list_eq_dec (list_eq_dec Ascii.ascii_dec) c d then None else dirid sha1 (d_dirs s) c)
      by (intros c Hc; apply (delete_dirid sha1 D HD); auto).
    assert (Hi : dirid sha1 (d_dirs s) d = Some (dd_id h)) by (unfold dirid; now rewrite F).
    split; [|split; [reflexivity|split]].
    + unfold known. intros X. apply X. pose proof (get_dir_dirid sha1 rcs Rn Rne D HD d (delete_directory h s) Hd) as Y.
      rewrite (Del d Hd) in Y. destruct (list_eq_dec _ d d) as [_|X2]; [|now destruct X2]. destruct (get_dir sha1 root (join d) (delete_directory h s)) as [?|]; [discriminate Y|reflexivity].
    + intros t Ht. destruct (di_msgs _ _ _ I t Ht) as (t0 & Fs & A1 & A2 & A3 & A4). unfold get_filenames. apply map_ext_in. intros e He.
      apply (inv_entries sha1 D t0 A2 Fs t (d_dirs s) A4) in He as (g & j & Hg & Hj & ->). destruct (iv_files _ _ _ _ _ _ A4 _ Hg) as (Dg & _).
      unfold filename_of_entry. rewrite parse_entry. rewrite (dirid_path sha1 D DI (d_dirs s) (fst g) j (di_ds _ _ _ I) Dg Hj).
      rewrite (dirid_path sha1 D DI (d_dirs (delete_directory h s)) (fst g) j (di_ds _ _ _ I') Dg); [reflexivity|].
      rewrite (Del _ Dg). destruct (list_eq_dec _ (fst g) d) as [Eg|]; [|exact Hj]. exfalso.
      inversion Ha as [| | | | | |p0 d0 Hd0 Hs0 HL]; subst p0. destruct (HL h G) as [L _].
      assert (X : In (snd g) (list_files (dd_id h) s)).
      { apply (list_files_inv sha1 D HD s _ _ d I Hd Hi). exists t. split; [exact Ht|]. exists t0, Fs. split; [exact A2|]. split; [exact A4|].
        rewrite <- Eg. now destruct g. }
      rewrite L in X. destruct X.
    + intros c Hc Hne. rewrite !MT by exact Hc. rewrite (Del c Hc). destruct (list_eq_dec _ c d) as [|_]; [contradiction|].
      destruct (dirid sha1 (d_dirs s) c) as [i|] eqn:Ec; [|reflexivity]. cbn [option_map]. f_equal. unfold mtime_at, delete_directory. cbn [d_mtimes].
      assert (i <> dd_id h). { intros ->. apply Hne. eapply (dirid_inj sha1 D DN DI); eauto. apply I. }
      induction (d_mtimes s) as [|[j z] l IH]; [reflexivity|]. cbn [filter find fst]. destruct (N.eqb_spec j (dd_id h)) as [->|Nj]; cbn [negb].
      * destruct (N.eqb_spec (dd_id h) i); [congruence|exact IH].
      * cbn [find fst]. destruct (N.eqb j i); [reflexivity|exact IH].
  - split; [|auto]. unfold known. rewrite (get_dir_spells sha1 rcs Rn Rne D HD _ d s Hd (spells_join rcs d)). congruence.
Qed.

(** Times: what is set is what is read later, until it is set again or the directory is
    deleted; a directory that becomes known has the time 0 until one is set. *)
Lemma step_mtime s o s' d : setting64 -> dinv sha1 D s -> D d -> allowed sha1 root D s o -> dstep sha1 root o s = Some s' -> ~ touches root d o ->
  mtime sha1 root d s' = mtime sha1 root d s \/ (mtime sha1 root d s = None /\ mtime sha1 root d s' = Some 0%Z).
Proof.
  intros (Rn & Rne & HD) I Hd Ha E Hn. pose proof (step_inv sha1 rcs Rn Rne D HD _ _ _ I Ha E) as I'.
  pose proof (dd_names _ _ HD) as DN. pose proof (dd_no_collision _ _ HD) as DI.
  assert (MT : forall s, mtime sha1 root d s = option_map (fun i => mtime_at i s) (dirid sha1 (d_dirs s) d)).
  { intros s0. unfold mtime. rewrite <- (get_dir_dirid sha1 rcs Rn Rne D HD d s0 Hd). now destruct (get_dir sha1 root (join d) s0). }
  assert (Same : d_dirs s' = d_dirs s -> d_mtimes s' = d_mtimes s -> mtime sha1 root d s' = mtime sha1 root d s).
  { intros E1 E2. rewrite !MT, E1. unfold mtime_at. now rewrite E2. }
  inversion Ha; subst; cbn [dstep] in E.
  - injection E as <-. left. rewrite !MT. reflexivity.
  - destruct (nth_error (d_msgs s) i) as [t|] eqn:En; [|injection E as <-; auto].
    destruct (add_filename sha1 root f t (d_dirs s)) as [[st t'] ds'] eqn:Ea.
    assert (Na : st <> F_abort) by (intros ->; discriminate E).
    destruct (step_add_inv sha1 rcs Rn Rne D HD s i f d0 b t st t' ds' I H H0 H1 En Ea Na) as (_ & M & L).
    assert (Es : s' = {| d_msgs := upd i t' (d_msgs s); d_dirs := ds'; d_mtimes := d_mtimes s |}) by (destruct st; try discriminate; now injection E as <-).
    subst s'. rewrite !MT. cbn [d_dirs]. destruct (dirid sha1 (d_dirs s) d) as [j|] eqn:Ej.
    + rewrite (mono_dirid sha1 _ _ _ _ M Ej). now left.
    + destruct (dirid sha1 ds' d) as [j|] eqn:Ej'; [|now left]. right. split; [reflexivity|]. cbn [option_map]. f_equal. unfold mtime_at. cbn [d_mtimes].
      destruct (find _ (d_mtimes s)) as [[k z]|] eqn:Ef; [|reflexivity]. exfalso. apply find_some in Ef as [Ef1 Ef2]. apply N.eqb_eq in Ef2. cbn in Ef2. subst k.
      apply (di_mtimes _ _ _ I) in Ef1. destruct (add_filename_fresh sha1 _ _ _ _ _ _ _ Ea) as [_ Fr]. destruct (Fr d j Ej') as [X|[_ X]]; [congruence|lia].
  - destruct (nth_error (d_msgs s) i) as [t|] eqn:En; [|injection E as <-; auto].
    destruct (remove_filename sha1 root f t (d_dirs s)) as [[st t'] ds'] eqn:Ea.
    assert (Na : st <> F_abort) by (intros ->; discriminate E).
    destruct (step_remove_inv sha1 rcs Rn Rne D HD s i f d0 b t st t' ds' I H H0 H1 En Ea Na) as (-> & _).
    left. destruct st; try discriminate; injection E as <-; now apply Same.
  - left. destruct (nth_error (d_msgs s) i) as [t|]; [|injection E as <-; auto]. destruct (file_entries t); injection E as <-; now apply Same.
  - injection E as <-. left. rewrite !MT. reflexivity.
  - left. injection E as <-. pose proof (get_dir_spells sha1 rcs Rn Rne D HD p d0 s H H0) as G. rewrite G in *.
    destruct (find_dir _ (d_dirs s)) as [h|] eqn:F; [|reflexivity].
    pose proof (find_dir_spec _ _ _ F) as [Hin _]. rewrite !MT. rewrite (set_mtime_dirs sha1 D s h z I Hin).
    destruct (dirid sha1 (d_dirs s) d) as [j|] eqn:Ej; [|reflexivity]. cbn [option_map]. f_equal. unfold mtime_at, set_mtime. cbn [d_mtimes find fst].
    destruct (N.eqb_spec (dd_id h) j) as [<-|]; [|reflexivity]. exfalso. apply Hn. cbn [touches].
    assert (d0 = d); [|now subst]. eapply (dirid_inj sha1 D DN DI); eauto; [apply I|]. unfold dirid. now rewrite F.
  - left. injection E as <-. pose proof (get_dir_spells sha1 rcs Rn Rne D HD p d0 s H H0) as G. rewrite G in *.
    destruct (find_dir _ (d_dirs s)) as [h|] eqn:F; [|reflexivity].
    rewrite !MT. rewrite (delete_dirid sha1 D HD s h d d0 I Hd H F). destruct (list_eq_dec _ d d0) as [->|Hne].
    { exfalso. apply Hn. exact H0. }
    destruct (dirid sha1 (d_dirs s) d) as [i|] eqn:Ec; [|reflexivity]. cbn [option_map]. f_equal. unfold mtime_at, delete_directory. cbn [d_mtimes].
    assert (i <> dd_id h). { intros ->. apply Hne. eapply (dirid_inj sha1 D DN DI); eauto; [apply I|]. unfold dirid. now rewrite F. }
    clear - H2. induction (d_mtimes s) as [|[j z] l IH]; [reflexivity|]. cbn [filter find fst]. destruct (N.eqb_spec j (dd_id h)) as [->|Nj]; cbn [negb].
    + destruct (N.eqb_spec (dd_id h) i); [congruence|exact IH].
    + cbn [find fst]. destruct (N.eqb j i); [reflexivity|exact IH].
Qed.
Lemma run_mtime s ops s' d : setting64 -> dinv sha1 D s -> D d -> run sha1 root D s ops s' -> Forall (fun o => ~ touches root d o) ops ->
  mtime sha1 root d s' = mtime sha1 root d s \/ (mtime sha1 root d s = None /\ mtime sha1 root d s' = Some 0%Z).
Proof.
  intros HS I Hd R. revert I. induction R as [|s o s1 ops s2 Ha E R IH]; intros I Hn; [now left|]. inversion Hn as [|? ? N1 N2]; subst.
  pose proof (step_mtime s o s1 d HS I Hd Ha E N1) as X. destruct HS as (Rn & Rne & HD) eqn:HSe.
  specialize (IH (step_inv sha1 rcs Rn Rne D HD _ _ _ I Ha E) N2).
  destruct X as [X|[X1 X2]], IH as [Y|[Y1 Y2]]; rewrite ?X in *; auto; try congruence. right. split; congruence.
Qed.
Theorem C64_mtime n ops1 s1 p d z s2 ops2 s3 : setting64 -> D d -> dir_spells root p d ->
  run sha1 root D (empty_store n) ops1 s1 -> known sha1 root d s1 -> dstep sha1 root (DSetMtime p z) s1 = Some s2 ->
  run sha1 root D s2 ops2 s3 -> Forall (fun o => ~ touches root d o) ops2 ->
  mtime sha1 root d s3 = Some z.
Proof.
  intros HS Hd Hp R1 K E R2 Hn. pose proof HS as (Rn & Rne & HD).
  pose proof (run_inv sha1 rcs Rn Rne D HD _ _ _ R1 (dinv_empty sha1 D n)) as I1.
  pose proof (step_inv sha1 rcs Rn Rne D HD _ _ _ I1 (A_mtime _ _ _ _ p d z Hd Hp) E) as I2.
  assert (M : mtime sha1 root d s2 = Some z).
  { cbn [dstep] in E. pose proof (get_dir_spells sha1 rcs Rn Rne D HD p d s1 Hd Hp) as G. rewrite G in E.
    unfold known in K. pose proof (get_dir_spells sha1 rcs Rn Rne D HD (join d) d s1 Hd (spells_join rcs d)) as G'. rewrite G' in K.
    destruct (find_dir _ (d_dirs s1)) as [h|] eqn:F; [|congruence]. injection E as <-. pose proof (find_dir_spec _ _ _ F) as [Hin _].
    unfold mtime. pose proof (get_dir_spells sha1 rcs Rn Rne D HD (join d) d (set_mtime h z s1) Hd (spells_join rcs d)) as G2. rewrite G2.
    rewrite (set_mtime_dirs sha1 D s1 h z I1 Hin), F. cbn. unfold mtime_at. cbn. now rewrite N.eqb_refl. }
  destruct (run_mtime s2 ops2 s3 d HS I2 Hd R2 Hn) as [X|[X _]]; congruence.
Qed.
Theorem C64_new_mtime n ops1 s1 d ops2 s2 : setting64 -> D d ->
  run sha1 root D (empty_store n) ops1 s1 -> ~ known sha1 root d s1 ->
  run sha1 root D s1 ops2 s2 -> Forall (fun o => ~ touches root d o) ops2 -> known sha1 root d s2 ->
  mtime sha1 root d s2 = Some 0%Z.
Proof.
  intros HS Hd R1 K R2 Hn K2. pose proof HS as (Rn & Rne & HD).
  pose proof (run_inv sha1 rcs Rn Rne D HD _ _ _ R1 (dinv_empty sha1 D n)) as I1.
  assert (M : mtime sha1 root d s1 = None). { unfold known, mtime in *. destruct (get_dir _ _ _ s1); [exfalso; apply K; discriminate|reflexivity]. }
  destruct (run_mtime s1 ops2 s2 d HS I1 Hd R2 Hn) as [X|[_ X]]; [|exact X].
  unfold known, mtime in *. destruct (get_dir _ _ _ s2); [|congruence]. cbn in X. rewrite M in X. discriminate X.
Qed.
End C64.
Print Assumptions C64_files.
Print Assumptions C64_directories.
Print Assumptions C64_delete.
Print Assumptions C64_mtime.
Print Assumptions C64_new_mtime.

(** A store with a message in two directories. *)
Definition ex64_D (cs : list bytes) : Prop := In cs [[]; [lit "a"]; [lit "a"; lit "cur"]].
Lemma ex64_setting : setting64 (fun x => x) [lit "m"] ex64_D.
Proof.
  assert (Nm : forall cs, ex64_D cs -> names cs).
  { intros cs [<-|[<-|[<-|[]]]]; repeat constructor; try (intros X; discriminate X);
      intros X; repeat (destruct X as [X|X]; [discriminate X|]); exact X. }
  split; [repeat constructor; [intros X; discriminate X|intros [X|[]]; discriminate X]|]. split; [discriminate|]. constructor; [exact Nm| |].
  - intros cs b0 [H|[H|[H|[]]]].
    + symmetry in H. now apply app_eq_nil in H as [_ H].
    + change [lit "a"] with ([] ++ [lit "a"]) in H. apply app_inj_tail in H as [<- _]. now left.
    + change [lit "a"; lit "cur"] with ([lit "a"] ++ [lit "cur"]) in H. apply app_inj_tail in H as [<- _]. right; now left.
  - unfold no_collision. intros d1 d2 [<-|[<-|[<-|[]]]] [<-|[<-|[<-|[]]]] E; solve [reflexivity|vm_compute in E; discriminate E].
Qed.
Definition ex64_ops : list dop :=
  [DNew [lit "Tmail"]; DAdd 0 (lit "/m/a/cur/f"); DAdd 0 (lit "/m/g"); DSetMtime (lit "/m/a") 5; DRemove 0 (lit "a/cur/f"); DDelete (lit "/m/a/cur")].
Example C64_example :
  exists s, run (fun x => x) (lit "/m") ex64_D (empty_store 1) ex64_ops s /\
    known (fun x => x) (lit "/m") [lit "a"] s /\ ~ known (fun x => x) (lit "/m") [lit "a"; lit "cur"] s /\
    mtime (fun x => x) (lit "/m") [lit "a"] s = Some 5%Z /\
    (exists h, get_dir (fun x => x) (lit "/m") [] s = Some h /\ list_files (dd_id h) s = [lit "g"] /\ list_directories (dd_id h) s = [lit "a"]) /\
    has_file (lit "/m") [] (lit "g") s.
Proof.
  assert (Na : forall x, name_ok [x] <-> x <> SLASH).
  { intros x. split; [intros [_ H] ->; apply H; now left|]. intros H. split; [discriminate|]. intros [E|[]]; congruence. }
  eexists. split.
  { eapply R_cons; [apply A_new; [repeat constructor|intros x; repeat split; intros [H|[]]; discriminate H]|vm_compute; reflexivity|].
    eapply R_cons; [apply (A_add _ _ _ _ 0 _ [lit "a"; lit "cur"] (lit "f")); [right; right; now left|apply Na; discriminate|right; now exists 0]|vm_compute; reflexivity|].
    eapply R_cons; [apply (A_add _ _ _ _ 0 _ [] (lit "g")); [now left|apply Na; discriminate|right; now exists 0]|vm_compute; reflexivity|].
    eapply R_cons; [apply (A_mtime _ _ _ _ _ [lit "a"]); [right; now left|left; right; now exists 0]|vm_compute; reflexivity|].
    eapply R_cons; [apply (A_remove _ _ _ _ 0 _ [lit "a"; lit "cur"] (lit "f")); [right; right; now left|apply Na; discriminate|now left]|vm_compute; reflexivity|].
    eapply R_cons; [apply (A_delete _ _ _ _ _ [lit "a"; lit "cur"]); [right; right; now left|left; right; now exists 0|]|vm_compute; reflexivity|apply R_nil].
    intros h H. assert (h = {| dd_id := 4; dd_term := lit "a/cur"; dd_data := lit "a/cur"; dd_entry := Some (3%N, lit "cur") |}) as ->.
    { apply (f_equal (fun o => match o with Some x => x | None => h end)) in H. rewrite <- H. vm_compute. reflexivity. }
    split; vm_compute; reflexivity. }
  split; [vm_compute; intros X; discriminate X|]. split; [vm_compute; intros X; apply X; reflexivity|]. split; [vm_compute; reflexivity|]. split.
  - eexists. split; [vm_compute; reflexivity|]. split; vm_compute; reflexivity.
  - eexists. split; [now left|]. vm_compute. now left.
Qed.

(** Not so if a directory that still lists something is deleted: its subdirectory stays
    known but no directory lists it, even after the parent has come back; and the file
    names of its messages cannot be made any more. *)
Theorem C64_delete_nonempty_refuted :
  exists s s1 s2 s3 h, run (fun x => x) (lit "/m") ex64_D (empty_store 1) [DNew [lit "Tmail"]; DAdd 0 (lit "a/cur/f"); DAdd 0 (lit "a/e")] s /\
    dstep (fun x => x) (lit "/m") (DDelete (lit "a")) s = Some s1 /\ (exists t, In t (d_msgs s1) /\ In None (get_filenames (lit "/m") (d_dirs s1) t)) /\
    dstep (fun x => x) (lit "/m") (DNew [lit "Tmail"]) s1 = Some s2 /\
    dstep (fun x => x) (lit "/m") (DAdd 1 (lit "a/g")) s2 = Some s3 /\
    known (fun x => x) (lit "/m") [lit "a"; lit "cur"] s3 /\ get_dir (fun x => x) (lit "/m") (lit "a") s3 = Some h /\ list_directories (dd_id h) s3 = [].
Proof.
  assert (Na : forall x, name_ok [x] <-> x <> SLASH).
  { intros x. split; [intros [_ H] ->; apply H; now left|]. intros H. split; [discriminate|]. intros [E|[]]; congruence. }
  do 5 eexists. split.
  { eapply R_cons; [apply A_new; [repeat constructor|intros x; repeat split; intros [H|[]]; discriminate H]|vm_compute; reflexivity|].
    eapply R_cons; [apply (A_add _ _ _ _ 0 _ [lit "a"; lit "cur"] (lit "f")); [right; right; now left|apply Na; discriminate|now left]|vm_compute; reflexivity|].
    eapply R_cons; [apply (A_add _ _ _ _ 0 _ [lit "a"] (lit "e")); [right; now left|apply Na; discriminate|now left]|vm_compute; reflexivity|apply R_nil]. }
  split; [vm_compute; reflexivity|]. split; [eexists; split; [now left|vm_compute; tauto]|]. split; [vm_compute; reflexivity|]. split; [vm_compute; reflexivity|].
  split; [vm_compute; intros X; discriminate X|]. split; vm_compute; reflexivity.
Qed.
Print Assumptions C64_delete_nonempty_refuted.

(** Not so for an object kept after its directory was deleted: setting the time through
    it brings the directory back. *)
Theorem C64_stale_object_refuted :
  exists s h s', get_dir (fun x => x) (lit "/m") (lit "a") s = Some h /\
    dstep (fun x => x) (lit "/m") (DDelete (lit "a")) s = Some s' /\ ~ known (fun x => x) (lit "/m") [lit "a"] s' /\
    known (fun x => x) (lit "/m") [lit "a"] (set_mtime h 7 s').
Proof.
  exists {| d_msgs := []; d_dirs := {| dl := [{| dd_id := 2; dd_term := lit "a"; dd_data := lit "a"; dd_entry := Some (1%N, lit "a") |};
                                             {| dd_id := 1; dd_term := []; dd_data := []; dd_entry := None |}]; next_id := 3 |}; d_mtimes := [] |}.
  do 2 eexists. split; [vm_compute; reflexivity|]. split; [vm_compute; reflexivity|]. split; vm_compute; intros X; [now apply X|discriminate X].
Qed.
Print Assumptions C64_stale_object_refuted.
