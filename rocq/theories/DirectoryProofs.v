From Verif Require Import Bytes Terms Meta MetaProofs Decimal Paths PathsSpec PathsProofs PathsProofs2 PathsProofs3 Directory DirectorySpec UpgradeSpec UpgradeProofs UpgradeProofs2.
From Coq Require Import ZArith Lia.
Local Open Scope nat_scope.

Lemma In_upd {A} (x y : A) l : forall i, In y (upd i x l) -> y = x \/ In y l.
Proof.
  induction l as [|z l IH]; intros i H; [destruct i; destruct H|]. destruct i as [|i]; cbn in H.
  - destruct H as [<-|H]; [now left|right; now right].
  - destruct H as [<-|H]; [right; now left|]. apply IH in H as [H|H]; [now left|right; now right].
Qed.

Lemma filter_all {A} (p : A -> bool) l : (forall y, In y l -> p y = true) -> filter p l = l.
Proof. induction l as [|x l IH]; intros H; [reflexivity|]. cbn. rewrite (H x (or_introl eq_refl)). f_equal. apply IH. intros y Hy. apply H. now right. Qed.
Lemma fold_tadd_In l y : In y (fold_right tadd [] l) <-> In y l.
Proof. induction l as [|x l IH]; cbn; [tauto|]. rewrite tadd_In, IH. intuition congruence. Qed.
Lemma fold_tadd_sorted l : tsorted (fold_right tadd [] l).
Proof. induction l as [|x l IH]; cbn; [constructor|now apply tadd_sorted]. Qed.

Section Dirs.
Variable sha1 : bytes -> bytes.
Variable rcs : list bytes.
Hypothesis Rnames : names rcs.
Hypothesis Rne : rcs <> [].
Notation root := (absolute rcs).
Variable D : list bytes -> Prop.
Hypothesis HD : directories sha1 D.
Let Dnames := dd_names _ _ HD.
Let Dparent := dd_parent _ _ HD.
Let Dinj := dd_no_collision _ _ HD.
Notation dbp := (directory_db_path sha1).
Notation dirid := (dirid sha1).
Notation ds_ok := (ds_ok sha1 D).

(** No two documents for the same directory. *)
Definition single (ds : dirs) : Prop := NoDup (map dd_term (dl ds)).

Lemma foc_single cs : forall fuel ds r ds', D cs -> find_or_create sha1 root fuel true (join cs) ds = (r, ds') ->
  single ds -> single ds' /\ forall d, In d (dl ds') -> In d (dl ds) \/ exists ps, D ps /\ dd_term d = dbp (join ps) /\ length ps <= length cs.
Proof.
  induction cs as [|b cs IH] using rev_ind; intros fuel ds r ds' Hc E S; (destruct fuel as [|f]; [injection E as <- <-; auto|]);
    cbn [find_or_create] in E; cbv zeta in E; rewrite relative_join in E by auto;
    (destruct (find_dir (dbp (join _)) ds) as [d0|] eqn:F; [injection E as <- <-; auto|]); cbn [negb] in E.
  - cbn [join split_path] in E. injection E as <- <-. split.
    + unfold single, add_dir. cbn. constructor; [|exact S]. intros H. apply in_map_iff in H as (d & Hd & Hin).
      apply (find_none _ _ F) in Hin. cbn [join] in Hin. rewrite Hd, bseq_refl in Hin. discriminate.
    + intros d [<-|Hd]; [|auto]. right. exists []. auto.
  - pose proof (Dnames _ Hc) as Hn. unfold names in Hn. apply Forall_app in Hn as [Hn Hb]. inversion Hb; subst.
    rewrite split_join in E by assumption. destruct (find_or_create sha1 root f true (join cs) ds) as [pid ds1] eqn:E1.
    destruct (IH f ds pid ds1 (Dparent _ _ Hc) E1 S) as [S1 N1].
    assert (W : forall d, In d (dl ds1) -> In d (dl ds) \/ exists ps, D ps /\ dd_term d = dbp (join ps) /\ length ps <= length (cs ++ [b])).
    { intros d Hd. apply N1 in Hd as [Hd|(ps & P1 & P2 & P3)]; [auto|]. right. exists ps. rewrite app_length. split; [exact P1|]. split; [exact P2|lia]. }
    destruct pid as [pid|]; injection E as <- <-; [|auto]. split.
    + unfold single, add_dir. cbn. constructor; [|exact S1]. intros H. apply in_map_iff in H as (d & Hd & Hin).
      apply N1 in Hin as [Hin|(ps & P1 & P2 & P3)].
      * apply (find_none _ _ F) in Hin. rewrite Hd, bseq_refl in Hin. discriminate.
      * rewrite Hd in P2. apply Dinj in P2; auto. apply join_inj in P2; auto. subst ps. rewrite app_length in P3. cbn in P3. lia.
    + intros d [<-|Hd]; [|auto]. right. exists (cs ++ [b]). auto.
Qed.

Lemma direntry_single f d b ds : D d -> name_ok b -> spells root f (d ++ [b]) -> single ds ->
  single (snd (filename_to_direntry sha1 root true f ds)).
Proof.
  intros Hd Hb Hs S. pose proof (Dnames _ Hd) as Hn.
  assert (Hnn : names (d ++ [b])) by (apply Forall_app; split; [exact Hn|constructor; auto]).
  unfold filename_to_direntry. rewrite (relative_spells rcs f (d ++ [b])) by assumption. rewrite split_join by assumption.
  cbn [find_directory_id]. destruct (find_or_create sha1 root _ true (join d) ds) as [r ds'] eqn:E.
  destruct r; cbn [snd]; exact (proj1 (foc_single d _ _ _ _ Hd E S)).
Qed.
Lemma add_filename_dirs f t ds st t' ds' : add_filename sha1 root f t ds = (st, t', ds') -> ds' = snd (filename_to_direntry sha1 root true f ds).
Proof.
  unfold add_filename. destruct (split_path _) as [dir ?]. destruct (filename_to_direntry sha1 root true f ds) as [e ds1]. cbn [snd].
  destruct e; [|congruence]. destruct dir; [|congruence]. destruct (add_term _ _ _); [|congruence]. destruct (add_folder_terms _ _); [|congruence].
  destruct (add_path_terms _ _); congruence.
Qed.
Lemma remove_filename_dirs f d b t ds st t' ds' : D d -> name_ok b -> spells root f (d ++ [b]) ->
  remove_filename sha1 root f t ds = (st, t', ds') -> ds' = ds.
Proof.
  intros Hd Hb Hs. unfold remove_filename. rewrite (direntry_lookup sha1 rcs D Rnames Rne Dnames f d b ds Hd Hb Hs).
  destruct (dirid ds d); [|congruence]. destruct (add_directory_terms _ _). congruence.
Qed.

(** A message is consistent with the directories: [inv] for some start and files. *)
Definition msg_ok (ds : dirs) (t : list bytes) : Prop :=
  exists t0 F, tsorted t0 /\ clean t0 /\ (forall x, ~ In (direntry_prefix ++ x) t0) /\ inv sha1 D t0 F t ds.
Record dinv (s : dstore) : Prop := {
  di_ds : ds_ok (d_dirs s);
  di_single : single (d_dirs s);
  di_msgs : forall t, In t (d_msgs s) -> msg_ok (d_dirs s) t;
  di_mtimes : forall i z, In (i, z) (d_mtimes s) -> (i < next_id (d_dirs s))%N }.

(** Only the directories of its files matter. *)
Lemma inv_same t0 F t ds ds' : inv sha1 D t0 F t ds -> ds_ok ds' ->
  (forall f, In f F -> dirid ds' (fst f) = dirid ds (fst f)) -> inv sha1 D t0 F t ds'.
Proof.
  intros [A B C E] K H. constructor; auto.
  - intros f Hf. destruct (C f Hf) as (C1 & C2 & C3). rewrite (H f Hf). auto.
  - intros y. rewrite E. split; (intros [Hy|(f & Hf & Hy)]; [now left|right; exists f; split; [exact Hf|]]); unfold file_term in *; rewrite (H f Hf) in *; exact Hy.
Qed.
Lemma msg_mono ds ds' t : msg_ok ds t -> ds_ok ds' -> mono ds ds' -> msg_ok ds' t.
Proof. intros (t0 & F & A & B & N & C) K M. exists t0, F. split; [exact A|]. split; [exact B|]. split; [exact N|]. eapply inv_mono; eauto. Qed.

Lemma dinv_empty n : dinv (empty_store n).
Proof. constructor; cbn; try tauto; [constructor; cbn; [tauto|constructor|tauto]|constructor]. Qed.

(** ** Looking up *)
Lemma dir_spells_rel p cs : D cs -> dir_spells root p cs -> relative_path root p = join cs.
Proof.
  intros Hc [H|(-> & k & ->)]; [now apply relative_spells; auto|].
  rewrite <- (app_nil_r (absolute rcs)) at 2. rewrite relative_absolute_gen by assumption. reflexivity.
Qed.
Lemma get_dir_spells p cs s : D cs -> dir_spells root p cs -> get_dir sha1 root p s = find_dir (dbp (join cs)) (d_dirs s).
Proof. intros Hc Hs. unfold get_dir. now rewrite (dir_spells_rel p cs Hc Hs). Qed.
Lemma spells_join cs : dir_spells root (join cs) cs. Proof. left. now left. Qed.
Lemma get_dir_dirid cs s : D cs -> option_map dd_id (get_dir sha1 root (join cs) s) = dirid (d_dirs s) cs.
Proof. intros Hc. rewrite (get_dir_spells _ cs s Hc (spells_join cs)). reflexivity. Qed.
Lemma find_dir_spec x ds d : find_dir x ds = Some d -> In d (dl ds) /\ dd_term d = x.
Proof. intros F. apply find_some in F as [A B]. apply bseq_eq in B. auto. Qed.

(** ** Lists *)
Lemma list_files_In i b s : In b (list_files i s) <-> exists t, In t (d_msgs s) /\ In (entry i b) t.
Proof.
  unfold list_files, all_terms. rewrite (proj1 (get_terms_spec _ _ (fold_tadd_sorted _)) b), fold_tadd_In, in_app_iff.
  replace ((filename_prefix ++ dec i ++ [":"%char]) ++ b) with (entry i b) by (unfold entry; now rewrite <- !app_assoc).
  rewrite in_concat, in_flat_map. split.
  - intros [(t & A & B)|(d & A & B)]; [eauto|]. exfalso. unfold dir_terms in B. destruct B as [B|B]; [discriminate B|].
    destruct (dd_entry d) as [[p c]|]; [|destruct B]. destruct B as [B|[]]. discriminate B.
  - intros (t & A & B). left. eauto.
Qed.
Lemma dir_entry_inj i b j c : dec i ++ ":"%char :: b = dec j ++ ":"%char :: c -> i = j /\ b = c.
Proof. intros E. apply (f_equal parse_direntry) in E. rewrite !parse_entry in E. injection E; auto. Qed.


(** ** Every step keeps the invariant *)
Lemma dinv_msgs s ms : dinv s -> (forall t, In t ms -> msg_ok (d_dirs s) t) -> dinv {| d_msgs := ms; d_dirs := d_dirs s; d_mtimes := d_mtimes s |}.
Proof. intros [A B C E] H. constructor; auto. Qed.
Lemma dinv_grow s ms ds : dinv s -> ds_ok ds -> single ds -> mono (d_dirs s) ds -> (next_id (d_dirs s) <= next_id ds)%N ->
  (forall t, In t ms -> msg_ok ds t) -> dinv {| d_msgs := ms; d_dirs := ds; d_mtimes := d_mtimes s |}.
Proof. intros [A B C E] K S M L H. constructor; auto. cbn. intros i z Hi. apply E in Hi. lia. Qed.

Lemma bump_mono ds : mono ds {| dl := dl ds; next_id := (next_id ds + 1)%N |}. Proof. split; auto. Qed.

Lemma step_add_inv s i f d b t st t' ds' : dinv s -> D d -> name_ok b -> spells root f (d ++ [b]) ->
  nth_error (d_msgs s) i = Some t -> add_filename sha1 root f t (d_dirs s) = (st, t', ds') -> st <> F_abort ->
  dinv {| d_msgs := upd i t' (d_msgs s); d_dirs := ds'; d_mtimes := d_mtimes s |} /\ mono (d_dirs s) ds' /\ (next_id (d_dirs s) <= next_id ds')%N.
Proof.
  intros I Hd Hb Hs Hn E Na. pose proof (nth_error_In _ _ Hn) as Ht.
  destruct (direntry_create sha1 rcs D Rnames Rne Dnames Dparent Dinj f d b (d_dirs s) Hd Hb (di_ds _ I) Hs) as (_ & j & ds1 & E1 & K1 & M1 & _).
  pose proof (add_filename_dirs _ _ _ _ _ _ E) as Ed. rewrite E1 in Ed. cbn [snd] in Ed. subst ds1.
  assert (S1 : single ds'). { pose proof (direntry_single f d b (d_dirs s) Hd Hb Hs (di_single _ I)) as X. now rewrite E1 in X. }
  assert (L1 : (next_id (d_dirs s) <= next_id ds')%N) by (pose proof (add_filename_fresh sha1 _ _ _ _ _ _ _ E) as [X _]; exact X).
  split; [|auto]. apply dinv_grow; auto. intros u Hu. apply In_upd in Hu as [->|Hu]; [|eapply msg_mono; [exact (di_msgs _ I u Hu)|exact K1|exact M1]].
  destruct (di_msgs _ I t Ht) as (t0 & F & A1 & A2 & A3 & A4).
  destruct (step_add sha1 rcs D Rnames Rne Dnames Dparent Dinj t0 F t (d_dirs s) f d b st t' ds' A4 Hd Hb Hs E) as [[_ J]|[[_ J]|J]]; [| |congruence].
  - exists t0, ((d, b) :: F). auto.
  - exists t0, F. auto.
Qed.
Lemma step_remove_inv s i f d b t st t' ds' : dinv s -> D d -> name_ok b -> spells root f (d ++ [b]) ->
  nth_error (d_msgs s) i = Some t -> remove_filename sha1 root f t (d_dirs s) = (st, t', ds') -> st <> F_abort ->
  ds' = d_dirs s /\ dinv {| d_msgs := upd i t' (d_msgs s); d_dirs := ds'; d_mtimes := d_mtimes s |}.
Proof.
  intros I Hd Hb Hs Hn E Na. pose proof (nth_error_In _ _ Hn) as Ht. pose proof (remove_filename_dirs _ _ _ _ _ _ _ _ Hd Hb Hs E) as ->.
  split; [reflexivity|]. apply dinv_msgs; [exact I|]. intros u Hu. apply In_upd in Hu as [->|Hu]; [|exact (di_msgs _ I u Hu)].
  destruct (di_msgs _ I t Ht) as (t0 & F & A1 & A2 & A3 & A4).
  destruct (step_remove sha1 rcs D Rnames Rne Dnames Dinj t0 A2 F t (d_dirs s) f d b st t' (d_dirs s) A4 Hd Hb Hs E) as [J|J]; [congruence|].
  exists t0, (remove file_eq_dec (d, b) F). auto.
Qed.

Lemma put_doc_id h l : NoDup (map dd_id l) -> In h l -> put_doc h l = l.
Proof.
  intros N Hh. unfold put_doc. replace (existsb _ l) with true; [|symmetry; apply existsb_exists; exists h; split; [exact Hh|apply N.eqb_refl]].
  rewrite <- (map_id l) at 2. apply map_ext_in. intros d Hd. destruct (N.eqb_spec (dd_id d) (dd_id h)) as [E|]; [|reflexivity].
  clear - N Hh Hd E. induction l as [|x l IH]; [destruct Hh|]. cbn in N. inversion N as [|? ? Nx Nl]; subst.
  destruct Hh as [->|Hh], Hd as [->|Hd]; auto.
  - exfalso. apply Nx. rewrite <- E. now apply in_map.
  - exfalso. apply Nx. rewrite E. now apply in_map.
Qed.
Lemma set_mtime_dirs s h z : dinv s -> In h (dl (d_dirs s)) -> d_dirs (set_mtime h z s) = d_dirs s.
Proof. intros I Hh. unfold set_mtime. cbn. rewrite put_doc_id; [now destruct (d_dirs s)|apply (di_ds _ I)|exact Hh]. Qed.
Lemma set_mtime_inv s h z : dinv s -> In h (dl (d_dirs s)) -> dinv (set_mtime h z s).
Proof.
  intros I Hh. pose proof (set_mtime_dirs s h z I Hh) as E. constructor; rewrite ?E; try apply I.
  intros i w [Hi|Hi]; [|exact (di_mtimes _ I i w Hi)]. injection Hi as <- <-. exact (dk_lt _ _ _ (di_ds _ I) h Hh).
Qed.

(** Children of a directory, by number. *)
Lemma entry_doc s cs b i : dinv s -> D (cs ++ [b]) -> dirid (d_dirs s) cs = Some i ->
  (dirid (d_dirs s) (cs ++ [b]) <> None <-> exists d, In d (dl (d_dirs s)) /\ dd_entry d = Some (i, b)).
Proof.
  intros I Hc Hi. pose proof (di_ds _ I) as K. split.
  - intros Hn. unfold dirid in Hn. destruct (find_dir _ (d_dirs s)) as [d|] eqn:F; [|now destruct Hn]. apply find_dir_spec in F as [Hin Ht].
    destruct (dk_data _ _ _ K d Hin) as (cs' & Dc & _ & Ht' & _ & Hp). rewrite Ht in Ht'. apply Dinj in Ht'; auto. apply join_inj in Ht'; auto.
    destruct (Hp cs b (eq_sym Ht')) as (j & Hj & He). rewrite Hi in Hj. injection Hj as <-. eauto.
  - intros (d & Hin & He). destruct (dk_data _ _ _ K d Hin) as (cs' & Dc & _ & Ht' & H0 & Hp).
    destruct cs' as [|c cs' _] using rev_ind; [rewrite H0 in He by reflexivity; discriminate|].
    destruct (Hp cs' c eq_refl) as (j & Hj & He'). rewrite He in He'. injection He' as <- <-.
    assert (cs' = cs) by (eapply (dirid_inj sha1 D Dnames Dinj); eauto). subst cs'.
    unfold dirid. destruct (find_dir _ _) eqn:F; [discriminate|]. exfalso. apply (find_none _ _ F) in Hin. rewrite Ht', bseq_refl in Hin. discriminate.
Qed.
Lemma list_directories_In s i b : dinv s -> (In b (list_directories i s) <-> exists d, In d (dl (d_dirs s)) /\ dd_entry d = Some (i, b)).
Proof.
  intros I. unfold list_directories, all_terms. rewrite (proj1 (get_terms_spec _ _ (fold_tadd_sorted _)) b), fold_tadd_In, in_app_iff.
  replace ((direntry_prefix ++ dec i ++ [":"%char]) ++ b) with (direntry_prefix ++ dec i ++ ":"%char :: b) by (now rewrite <- !app_assoc).
  rewrite in_concat, in_flat_map. split.
  - intros [(t & A & B)|(d & A & B)].
    + exfalso. destruct (di_msgs _ I t A) as (t0 & F & A1 & A2 & A3 & A4).
      apply (iv_terms _ _ _ _ _ _ A4) in B; destruct B as [B|(f & _ & [(j & _ & B)|[B|(y & _ & B)]])]; [exact (A3 _ B)|discriminate B|discriminate B|discriminate B].
    + exists d. split; [exact A|]. unfold dir_terms in B. destruct B as [B|B]; [discriminate B|].
      destruct (dd_entry d) as [[p c]|]; [|destruct B]. destruct B as [B|[]]. apply app_inv_head in B. apply dir_entry_inj in B as [-> ->]. reflexivity.
  - intros (d & A & B). right. exists d. split; [exact A|]. unfold dir_terms. rewrite B. right. now left.
Qed.
Lemma list_files_inv s i b cs : dinv s -> D cs -> dirid (d_dirs s) cs = Some i ->
  (In b (list_files i s) <-> exists t, In t (d_msgs s) /\ exists t0 F, clean t0 /\ inv sha1 D t0 F t (d_dirs s) /\ In (cs, b) F).
Proof.
  intros I Hc Hi. rewrite list_files_In. split; intros (t & Ht & H); exists t; (split; [exact Ht|]).
  - destruct (di_msgs _ I t Ht) as (t0 & F & A1 & A2 & A3 & A4). exists t0, F. split; [exact A2|]. split; [exact A4|].
    apply (iv_terms _ _ _ _ _ _ A4) in H; destruct H as [H|(f & Hf & [(j & Hj & H)|[H|(y & _ & H)]])]; [|  |discriminate H|discriminate H].
    + exfalso. exact (proj2 (proj2 (A2 _)) H).
    + apply entry_inj in H as [<- H]. destruct f as [fd fb]. cbn [fst snd] in *. subst fb.
      destruct (iv_files _ _ _ _ _ _ A4 _ Hf) as (Df & _). assert (fd = cs) by (eapply (dirid_inj sha1 D Dnames Dinj); eauto; apply I). now subst.
  - destruct H as (t0 & F & A2 & A4 & Hf). apply (iv_terms _ _ _ _ _ _ A4). right. exists (cs, b). split; [exact Hf|]. left. exists i. auto.
Qed.

(** Deleting an empty directory. *)
Lemma delete_dirid s h cs d : dinv s -> D cs -> D d -> find_dir (dbp (join d)) (d_dirs s) = Some h ->
  dirid (d_dirs (delete_directory h s)) cs = if list_eq_dec (list_eq_dec Ascii.ascii_dec) cs d then None else dirid (d_dirs s) cs.
Proof.
  intros I Hc Hd F. apply find_dir_spec in F as [Hin Ht]. unfold dirid, find_dir, delete_directory. cbn [d_dirs dl].
  destruct (list_eq_dec _ cs d) as [->|Hne].
  - destruct (find _ _) as [e|] eqn:E; [|reflexivity]. exfalso. apply find_some in E as [E1 E2]. apply filter_In in E1 as [E1 E3]. apply bseq_eq in E2.
    assert (e = h); [|subst; rewrite N.eqb_refl in E3; discriminate].
    pose proof (di_single _ I) as S. unfold single in S. rewrite <- Ht in E2. clear - S Hin E1 E2.
    induction (dl (d_dirs s)) as [|x l IH]; [destruct Hin|]. cbn in S. inversion S as [|? ? Nx Nl]; subst.
    destruct Hin as [->|Hin], E1 as [->|E1]; auto; exfalso; apply Nx; [rewrite <- E2|rewrite E2]; now apply in_map.
  - f_equal. assert (Hx : dd_term h <> dbp (join cs)). { rewrite Ht. intros E. apply Dinj in E; auto. apply join_inj in E; auto. }
    pose proof (dk_nodup _ _ _ (di_ds _ I)) as N. clear - Hx Hin N.
    induction (dl (d_dirs s)) as [|x l IH]; [reflexivity|]. cbn [find filter]. cbn in N. inversion N as [|? ? Nx Nl]; subst.
    destruct Hin as [->|Hin].
    + rewrite N.eqb_refl. cbn [negb]. destruct (bseq_spec (dd_term h) (dbp (join cs))); [contradiction|].
      replace (filter _ l) with l; [reflexivity|]. symmetry. apply filter_all. intros y Hy.
      destruct (N.eqb_spec (dd_id y) (dd_id h)) as [E|]; [|reflexivity]. exfalso. apply Nx. rewrite <- E. now apply in_map.
    + destruct (N.eqb_spec (dd_id x) (dd_id h)) as [E|E]; [exfalso; apply Nx; rewrite E; now apply in_map|]. cbn [negb find].
      destruct (bseq (dd_term x) _); [reflexivity|auto].
Qed.
Lemma delete_inv s h d : dinv s -> D d -> find_dir (dbp (join d)) (d_dirs s) = Some h ->
  list_files (dd_id h) s = [] -> list_directories (dd_id h) s = [] -> dinv (delete_directory h s).
Proof.
  intros I Hd F Lf Ld. pose proof (find_dir_spec _ _ _ F) as [Hin Ht]. pose proof (di_ds _ I) as K.
  assert (Hi : dirid (d_dirs s) d = Some (dd_id h)) by (unfold dirid; now rewrite F).
  assert (K' : ds_ok (d_dirs (delete_directory h s))).
  { constructor.
    - intros e He. cbn in He. apply filter_In in He as [He Hne]. destruct (dk_data _ _ _ K e He) as (cs & C1 & C2 & C3 & C4 & C5).
      exists cs. repeat (split; [assumption|]). intros p b E. destruct (C5 p b E) as (i & Hp & Hb). exists i. split; [|exact Hb].
      assert (Dp : D p) by (subst cs; eapply Dparent; exact C1).
      rewrite (delete_dirid s h p d I Dp Hd F). destruct (list_eq_dec _ p d) as [->|]; [|exact Hp]. exfalso.
      assert (X : In b (list_directories (dd_id h) s)) by (apply list_directories_In; [exact I|]; exists e; split; [exact He|congruence]).
      rewrite Ld in X. destruct X.
    - cbn. pose proof (dk_nodup _ _ _ K) as N. clear - N. induction (dl (d_dirs s)) as [|x l IH]; cbn; [constructor|].
      inversion N as [|? ? Nx Nl]; subst. destruct (negb _); cbn; auto. constructor; auto.
      intros H. apply Nx. apply in_map_iff in H as (y & <- & Hy). apply filter_In in Hy as [Hy _]. now apply in_map.
    - intros e He. cbn in He. apply filter_In in He as [He _]. exact (dk_lt _ _ _ K e He). }
  constructor.
  - exact K'.
  - pose proof (di_single _ I) as N. unfold single, delete_directory in *. cbn. clear - N. induction (dl (d_dirs s)) as [|x l IH]; cbn; [constructor|].
    inversion N as [|? ? Nx Nl]; subst. destruct (negb _); cbn; auto. constructor; auto.
    intros H. apply Nx. apply in_map_iff in H as (y & <- & Hy). apply filter_In in Hy as [Hy _]. now apply in_map.
  - intros t Hm. cbn in Hm. destruct (di_msgs _ I t Hm) as (t0 & Fs & A1 & A2 & A3 & A4). exists t0, Fs. repeat (split; [assumption|]).
    eapply inv_same; [exact A4|exact K'|]. intros [fd fb] Hf. cbn [fst]. destruct (iv_files _ _ _ _ _ _ A4 _ Hf) as (Df & _).
    rewrite (delete_dirid s h fd d I Df Hd F). destruct (list_eq_dec _ fd d) as [->|]; [|reflexivity]. exfalso.
    assert (X : In fb (list_files (dd_id h) s)) by (apply (list_files_inv s _ _ d I Hd Hi); exists t; split; [exact Hm|]; eauto).
    rewrite Lf in X. destruct X.
  - intros i z Hz. cbn in *. apply filter_In in Hz as [Hz _]. exact (di_mtimes _ I i z Hz).
Qed.

Lemma step_inv s o s' : dinv s -> allowed sha1 root D s o -> dstep sha1 root o s = Some s' -> dinv s'.
Proof.
  intros I Ha E. destruct Ha; cbn [dstep] in E.
  - injection E as <-. apply dinv_grow; auto; [apply bump_ok, I|exact (di_single _ I)|apply bump_mono|cbn; lia|].
    intros u Hu. apply in_app_or in Hu as [Hu|[<-|[]]].
    + eapply msg_mono; [exact (di_msgs _ I u Hu)|apply bump_ok, I|apply bump_mono].
    + exists t, []. split; [assumption|]. split; [intros x; destruct (H0 x) as (A & B & C & _); auto|].
      split; [intros x; apply (H0 x)|]. constructor; auto; [apply bump_ok, I|intros f []|].
      intros y. split; [auto|]. intros [Hy|(f & [] & _)]. exact Hy.
  - destruct (nth_error (d_msgs s) i) as [t|] eqn:En; [|congruence].
    destruct (add_filename sha1 root f t (d_dirs s)) as [[st t'] ds'] eqn:Ea.
    assert (Na : st <> F_abort) by (intros ->; discriminate E).
    destruct (step_add_inv s i f d b t st t' ds' I H H0 H1 En Ea Na) as (J & _). destruct st; try discriminate; injection E as <-; exact J.
  - destruct (nth_error (d_msgs s) i) as [t|] eqn:En; [|congruence].
    destruct (remove_filename sha1 root f t (d_dirs s)) as [[st t'] ds'] eqn:Ea.
    assert (Na : st <> F_abort) by (intros ->; discriminate E).
    destruct (step_remove_inv s i f d b t st t' ds' I H H0 H1 En Ea Na) as (_ & J). destruct st; try discriminate; injection E as <-; exact J.
  - destruct (nth_error (d_msgs s) i) as [t|] eqn:En; [|congruence]. destruct (file_entries t); injection E as <-; [|exact I].
    apply dinv_msgs; [exact I|]. intros u Hu. apply In_upd in Hu as [->|Hu]; [|exact (di_msgs _ I u Hu)].
    exists [], []. split; [constructor|]. split; [intros x; cbn; tauto|]. split; [intros x; cbn; tauto|]. constructor; [apply I|constructor|intros ? []|].
    intros y. split; [intros []|]. intros [[]|(f & [] & _)].
  - injection E as <-. apply dinv_grow; auto; [apply bump_ok, I|exact (di_single _ I)|apply bump_mono|cbn; lia|].
    intros u Hu. eapply msg_mono; [exact (di_msgs _ I u Hu)|apply bump_ok, I|apply bump_mono].
  - rewrite (get_dir_spells p d s H H0) in E. destruct (find_dir _ (d_dirs s)) as [h|] eqn:F; injection E as <-; [|exact I].
    apply set_mtime_inv; [exact I|]. now apply find_dir_spec in F as [F _].
  - pose proof (get_dir_spells p d s H H0) as G. rewrite G in E. destruct (find_dir _ (d_dirs s)) as [h|] eqn:F; injection E as <-; [|exact I].
    destruct (H1 h G) as [L1 L2]. eapply delete_inv; eauto.
Qed.
Lemma run_inv s ops s' : run sha1 root D s ops s' -> dinv s -> dinv s'.
Proof. induction 1; auto. intros I. apply IHrun. eapply step_inv; eauto. Qed.
End Dirs.
