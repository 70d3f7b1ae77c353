From Verif Require Import Bytes Terms Meta MetaProofs Db Decimal Paths PathsSpec PathsProofs PathsProofs2.
Local Open Scope nat_scope.

Lemma prefixes_differ : starts_with filename_prefix folder_prefix = false /\ starts_with folder_prefix filename_prefix = false.
Proof. split; reflexivity. Qed.
Lemma path_not_folder x y : path_prefix ++ x <> folder_prefix ++ y. Proof. discriminate. Qed.
Lemma path_not_file x y : path_prefix ++ x <> filename_prefix ++ y. Proof. discriminate. Qed.
Lemma folder_not_file x y : folder_prefix ++ x <> filename_prefix ++ y. Proof. discriminate. Qed.
Lemma sw_app p x : starts_with p (p ++ x) = true.
Proof. apply starts_with_app. eauto. Qed.
Lemma sw_file_folder x : starts_with folder_prefix (filename_prefix ++ x) = false.
Proof. destruct (starts_with _ _) eqn:E; [|reflexivity]. apply starts_with_app in E as (r & E). discriminate. Qed.
Lemma sw_file_path x : starts_with path_prefix (filename_prefix ++ x) = false.
Proof. destruct (starts_with _ _) eqn:E; [|reflexivity]. apply starts_with_app in E as (r & E). discriminate. Qed.

Section Hist.
Variable sha1 : bytes -> bytes.
Variable rcs : list bytes.
Variable D : list bytes -> Prop.
Hypothesis Rnames : names rcs.
Hypothesis Rne : rcs <> [].
Hypothesis Dnames : forall cs, D cs -> names cs.
Hypothesis Dparent : forall cs b, D (cs ++ [b]) -> D cs.
Hypothesis Dinj : no_collision sha1 D.
Notation root := (absolute rcs).
Notation dirid := (dirid sha1).
Notation ds_ok := (ds_ok sha1 D).

Variable t0 : list bytes.
Hypothesis t0_sorted : tsorted t0.
Hypothesis t0_clean : forall x, ~ In (path_prefix ++ x) t0 /\ ~ In (folder_prefix ++ x) t0 /\ ~ In (filename_prefix ++ x) t0.

Definition entry (i : N) (b : bytes) : bytes := filename_prefix ++ dec i ++ ":"%char :: b.
Lemma parse_entry i b : parse_direntry (dec i ++ ":"%char :: b) = Some (i, b).
Proof. unfold parse_direntry. rewrite read_dec_end by reflexivity. reflexivity. Qed.
Lemma entry_inj i b j c : entry i b = entry j c -> i = j /\ b = c.
Proof.
  unfold entry. intros E. apply app_inv_head in E. apply (f_equal parse_direntry) in E. rewrite !parse_entry in E. injection E; auto.
Qed.

(** The terms a file gives its message. *)
Definition dir_term (cs : list bytes) (y : bytes) : Prop :=
  y = folder_prefix ++ folder_of (join cs) \/ exists x, path_term cs x /\ y = path_prefix ++ x.
Definition file_term (ds : dirs) (f : file) (y : bytes) : Prop :=
  (exists i, dirid ds (fst f) = Some i /\ y = entry i (snd f)) \/ dir_term (fst f) y.

Record inv (F : list file) (t : list bytes) (ds : dirs) : Prop := {
  iv_ds : ds_ok ds;
  iv_sorted : tsorted t;
  iv_files : forall f, In f F -> D (fst f) /\ name_ok (snd f) /\ exists i, dirid ds (fst f) = Some i;
  iv_terms : forall y, In y t <-> In y t0 \/ exists f, In f F /\ file_term ds f y }.

Lemma add_dir_terms_In cs t t1 t2 : names cs -> add_folder_terms (join cs) t = Some t1 -> add_path_terms (join cs) t1 = Some t2 ->
  forall y, In y t2 <-> In y t \/ dir_term cs y.
Proof.
  intros Hn E1 E2 y. apply add_term_In in E1. subst t1. rewrite (add_path_terms_In cs _ _ Hn E2 y), tadd_In. unfold dir_term. tauto.
Qed.

Lemma direntry_create f d b ds : D d -> name_ok b -> ds_ok ds -> spells root f (d ++ [b]) ->
  split_path (relative_path root f) = (Some (join d), Str b) /\
  exists i ds', filename_to_direntry sha1 root true f ds = (Some (dec i ++ ":"%char :: b), ds') /\ ds_ok ds' /\ mono ds ds' /\ dirid ds' d = Some i.
Proof.
  intros Hd Hb Hk Hs. pose proof (Dnames _ Hd) as Hn.
  assert (Hnn : names (d ++ [b])) by (apply Forall_app; split; [exact Hn|constructor; auto]).
  assert (E : split_path (relative_path root f) = (Some (join d), Str b)).
  { rewrite (relative_spells rcs f (d ++ [b])) by assumption. now apply split_join. }
  split; [exact E|]. unfold filename_to_direntry. rewrite E. cbn [find_directory_id].
  destruct (find_create sha1 root D Dnames Dparent Dinj d (S (S (length (join d)))) ds Hd Hk) as (i & ds' & E1 & H1 & M1 & I1).
  { pose proof (names_length d Hn). lia. }
  rewrite E1. exists i, ds'. auto.
Qed.
Lemma direntry_lookup f d b ds : D d -> name_ok b -> spells root f (d ++ [b]) ->
  filename_to_direntry sha1 root false f ds =
  (match dirid ds d with Some i => Some (dec i ++ ":"%char :: b) | None => None end, ds).
Proof.
  intros Hd Hb Hs. pose proof (Dnames _ Hd) as Hn.
  assert (Hnn : names (d ++ [b])) by (apply Forall_app; split; [exact Hn|constructor; auto]).
  unfold filename_to_direntry. rewrite (relative_spells rcs f (d ++ [b])) by assumption. rewrite split_join by assumption.
  cbn [find_directory_id]. rewrite (find_lookup sha1 root D Dnames) by assumption. destruct (dirid ds d); reflexivity.
Qed.

Lemma file_term_mono ds ds' f y : mono ds ds' -> (exists i, dirid ds (fst f) = Some i) -> file_term ds f y <-> file_term ds' f y.
Proof.
  intros M (i & Hi). pose proof (mono_dirid sha1 _ _ _ _ M Hi) as Hi'. unfold file_term. rewrite Hi, Hi'. reflexivity.
Qed.
Lemma inv_mono F t ds ds' : inv F t ds -> ds_ok ds' -> mono ds ds' -> inv F t ds'.
Proof.
  intros [H1 H2 H3 H4] Hk M. constructor; auto.
  - intros f Hf. destruct (H3 f Hf) as (A & B & i & C). split; [exact A|]. split; [exact B|]. exists i. eapply mono_dirid; eauto.
  - intros y. rewrite H4. split; (intros [H|(f & Hf & H)]; [now left|right; exists f; split; [exact Hf|]]).
    + apply (file_term_mono ds ds' f y M); [|exact H]. now destruct (H3 f Hf) as (_ & _ & X).
    + apply (file_term_mono ds ds' f y M); [|exact H]. now destruct (H3 f Hf) as (_ & _ & X).
Qed.

Lemma step_add F t ds f d b st t' ds' : inv F t ds -> D d -> name_ok b -> spells root f (d ++ [b]) ->
  add_filename sha1 root f t ds = (st, t', ds') ->
  (st = F_ok /\ inv ((d, b) :: F) t' ds') \/ (st = F_path_error /\ inv F t' ds') \/ st = F_abort.
Proof.
  intros I Hd Hb Hs E. destruct (direntry_create f d b ds Hd Hb (iv_ds _ _ _ I) Hs) as (Es & i & ds1 & Ed & K1 & M1 & I1).
  unfold add_filename in E. rewrite Es, Ed in E. pose proof (inv_mono F t ds ds1 I K1 M1) as J.
  destruct (add_term filename_prefix (dec i ++ ":"%char :: b) t) as [t1|] eqn:E1.
  2:{ injection E as <- <- <-. right. left. auto. }
  pose proof (add_term_In _ _ _ _ E1) as T1. pose proof (add_term_sorted _ _ _ _ (iv_sorted _ _ _ J) E1) as S1.
  destruct (add_folder_terms (join d) t1) as [t2|] eqn:E2; [|injection E as <- <- <-; auto].
  pose proof (add_term_sorted _ _ _ _ S1 E2) as S2.
  destruct (add_path_terms (join d) t2) as [t3|] eqn:E3; [|injection E as <- <- <-; auto].
  pose proof (add_path_terms_sorted _ _ _ S2 E3) as S3. injection E as <- <- <-. left. split; [reflexivity|]. constructor; auto.
  - intros g [<-|Hg]; [cbn; eauto|]. exact (iv_files _ _ _ J g Hg).
  - intros y. rewrite (add_dir_terms_In d t1 t2 t3 (Dnames _ Hd) E2 E3 y). rewrite T1, tadd_In, (iv_terms _ _ _ J).
    split.
    + intros [[->|[H|(g & Hg & H)]]|H]; [right|now left|right|right].
      * exists (d, b). split; [now left|]. left. exists i. auto.
      * exists g. split; [now right|exact H].
      * exists (d, b). split; [now left|]. now right.
    + intros [H|(g & [<-|Hg] & H)]; [auto| |].
      * destruct H as [(j & Hj & ->)|H]; [|auto]. cbn [fst snd] in *. rewrite I1 in Hj. injection Hj as <-. auto.
      * left. right. right. eauto.
Qed.

Lemma step_other F t ds f d b st t' ds' : inv F t ds -> D d -> name_ok b -> spells root f (d ++ [b]) ->
  add_filename sha1 root f [] ds = (st, t', ds') -> inv F t ds'.
Proof.
  intros I Hd Hb Hs E. destruct (direntry_create f d b ds Hd Hb (iv_ds _ _ _ I) Hs) as (Es & i & ds1 & Ed & K1 & M1 & I1).
  unfold add_filename in E. rewrite Es, Ed in E.
  assert (ds' = ds1). { destruct (add_term filename_prefix _ _); [|congruence]. destruct (add_folder_terms _ _); [|congruence]. destruct (add_path_terms _ _); congruence. }
  subst. eapply inv_mono; eauto.
Qed.

Lemma loop_terms ds (Hk : ds_ok ds) entries : forall t t', directory_terms_loop ds entries t = Some t' ->
  (forall e, In e entries -> exists cs b i, D cs /\ e = dec i ++ ":"%char :: b /\ dirid ds cs = Some i) ->
  (tsorted t -> tsorted t') /\
  forall y, In y t' <-> In y t \/ exists cs b i, In (dec i ++ ":"%char :: b) entries /\ dirid ds cs = Some i /\ D cs /\ dir_term cs y.
Proof.
  induction entries as [|e es IH]; intros t t' E He.
  - cbn in E. injection E as <-. split; [auto|]. intros y. split; [auto|]. intros [H|(cs & b & i & [] & _)]. exact H.
  - cbn [directory_terms_loop] in E. destruct (He e (or_introl eq_refl)) as (cs & b & i & Hc & -> & Hi).
    rewrite parse_entry in E. rewrite (dirid_path sha1 D Dinj ds cs i Hk Hc Hi) in E.
    destruct (add_folder_terms (join cs) t) as [t1|] eqn:E1; [|discriminate].
    destruct (add_path_terms (join cs) t1) as [t2|] eqn:E2; [|discriminate].
    destruct (IH t2 t' E (fun e' H => He e' (or_intror H))) as [S IHy]. split.
    { intros H. apply S. eapply add_path_terms_sorted; [|exact E2]. eapply add_term_sorted; [exact H|exact E1]. }
    intros y. rewrite IHy, (add_dir_terms_In cs t t1 t2 (Dnames _ Hc) E1 E2 y). split.
    + intros [[H|H]|(cs' & b' & i' & Hin & H)]; [now left| |].
      * right. exists cs, b, i. split; [now left|]. auto.
      * right. exists cs', b', i'. split; [now right|exact H].
    + intros [H|(cs' & b' & i' & [Hin|Hin] & Hi' & Hc' & H)]; [auto| |].
      * apply (f_equal parse_direntry) in Hin. rewrite !parse_entry in Hin. injection Hin as <- <-.
        assert (cs' = cs) by (eapply (dirid_inj sha1 D Dnames Dinj); eauto). subst. auto.
      * right. exists cs', b', i'. auto.
Qed.

Lemma step_remove F t ds f d b st t' ds' : inv F t ds -> D d -> name_ok b -> spells root f (d ++ [b]) ->
  remove_filename sha1 root f t ds = (st, t', ds') ->
  st = F_abort \/ inv (remove file_eq_dec (d, b) F) t' ds'.
Proof.
  intros I Hd Hb Hs E. unfold remove_filename in E. rewrite (direntry_lookup f d b ds Hd Hb Hs) in E. pose proof (iv_ds _ _ _ I) as Hk.
  destruct (dirid ds d) as [i|] eqn:Hi.
  2:{ injection E as <- <- <-. right. replace (remove file_eq_dec (d, b) F) with F; [exact I|].
      symmetry. apply notin_remove. intros Hin. apply (iv_files _ _ _ I) in Hin as (_ & _ & j & Hj). cbn in Hj. congruence. }
  cbv zeta in E.
  set (t1 := trem (filename_prefix ++ dec i ++ ":"%char :: b) t) in *.
  set (t2 := remove_prefixed folder_prefix t1) in *. set (t3 := remove_prefixed path_prefix t2) in *.
  assert (S1 : tsorted t1) by (apply trem_sorted, I).
  destruct (remove_prefixed_spec folder_prefix t1 S1) as [S2 R2]. destruct (remove_prefixed_spec path_prefix t2 S2) as [S3 R3].
  fold t2 in S2, R2. fold t3 in S3, R3.
  assert (T3 : forall y, In y t3 <-> In y t0 \/ exists g j, In g (remove file_eq_dec (d, b) F) /\ dirid ds (fst g) = Some j /\ y = entry j (snd g)).
  { intros y. rewrite R3, R2. unfold t1. rewrite trem_In by (apply tsorted_nodup, I). rewrite (iv_terms _ _ _ I). split.
    - intros [[[[H|(g & Hg & H)] Hne] N1] N2]; [now left|]. right. destruct H as [(j & Hj & ->)|[->|(x & _ & ->)]].
      + exists g, j. split; [|auto]. apply in_in_remove; [|exact Hg]. intros ->. cbn [fst snd] in *. apply Hne. unfold entry. congruence.
      + rewrite sw_app in N1. discriminate.
      + rewrite sw_app in N2. discriminate.
    - intros [H|(g & j & Hg & Hj & ->)].
      + assert (N : forall p x, y = p ++ x -> ~ In (p ++ x) t0 -> False) by (intros p x -> ?; contradiction).
        split; [split; [split; [now left|]|]|].
        * intros ->. now apply (proj2 (proj2 (t0_clean (dec i ++ ":"%char :: b)))).
        * destruct (starts_with folder_prefix y) eqn:E1; [|reflexivity]. apply starts_with_app in E1 as (r & ->). exfalso. now apply (proj1 (proj2 (t0_clean r))).
        * destruct (starts_with path_prefix y) eqn:E1; [|reflexivity]. apply starts_with_app in E1 as (r & ->). exfalso. now apply (proj1 (t0_clean r)).
      + apply in_remove in Hg as [Hg Hne]. split; [split; [split|]|].
        * right. exists g. split; [exact Hg|]. left. eauto.
        * intros E1. apply (entry_inj j (snd g) i b) in E1 as [-> E1]. apply Hne. destruct g as [gd gb]. cbn [fst snd] in *. subst gb. f_equal.
          destruct (iv_files _ _ _ I _ Hg) as (Dg & _). eapply (dirid_inj sha1 D Dnames Dinj); eauto.
        * apply sw_file_folder.
        * apply sw_file_path. }
  destruct (add_directory_terms ds t3) as [st1 t4] eqn:E4. injection E as <- <- <-.
  unfold add_directory_terms in E4. destruct (directory_terms_loop ds (file_entries t3) t3) as [t5|] eqn:E5; [|injection E4 as <- <-; now left].
  right. injection E4 as _ <-.
  assert (Hent : forall e, In e (file_entries t3) <-> exists g j, In g (remove file_eq_dec (d, b) F) /\ dirid ds (fst g) = Some j /\ e = dec j ++ ":"%char :: snd g).
  { intros e. unfold file_entries. rewrite (proj1 (get_terms_spec filename_prefix t3 S3) e), T3. split.
    - intros [H|(g & j & Hg & Hj & H)]; [exfalso; now apply (proj2 (proj2 (t0_clean e)))|]. exists g, j. split; [exact Hg|]. split; [exact Hj|].
      unfold entry in H. now apply app_inv_head in H.
    - intros (g & j & Hg & Hj & ->). right. exists g, j. auto. }
  destruct (loop_terms ds Hk (file_entries t3) t3 t5 E5) as [S5 T5].
  { intros e He. apply Hent in He as (g & j & Hg & Hj & ->). apply in_remove in Hg as [Hg _].
    destruct (iv_files _ _ _ I _ Hg) as (Dg & _). exists (fst g), (snd g), j. auto. }
  constructor; auto.
  - intros g Hg. apply in_remove in Hg as [Hg _]. exact (iv_files _ _ _ I g Hg).
  - intros y. rewrite T5, T3. split.
    + intros [[H|(g & j & Hg & Hj & ->)]|(cs & b' & j & Hin & Hj & Hc & H)]; [now left| |].
      * right. exists g. split; [exact Hg|]. left. eauto.
      * apply Hent in Hin as (g & j' & Hg & Hj' & Ee). apply (f_equal parse_direntry) in Ee. rewrite !parse_entry in Ee. injection Ee as <- ->.
        assert (fst g = cs). { apply in_remove in Hg as [Hg _]. destruct (iv_files _ _ _ I _ Hg) as (Dg & _). eapply (dirid_inj sha1 D Dnames Dinj); eauto. }
        subst cs. right. exists g. split; [exact Hg|]. now right.
    + intros [H|(g & Hg & [(j & Hj & ->)|H])]; [auto| |].
      * left. right. exists g, j. auto.
      * right. pose proof Hg as Hg'. apply in_remove in Hg' as [Hg' _]. destruct (iv_files _ _ _ I _ Hg') as (Dg & _ & j & Hj).
        exists (fst g), (snd g), j. split; [apply Hent; eauto|]. auto.
Qed.

Theorem history_inv ops : forall sops, Forall2 (spelled root) sops ops -> Forall sop_ok sops ->
  (forall o d b, In o sops -> sop_file o = Some (d, b) -> D d) ->
  forall F t ds sts t' ds', inv F t ds -> frun sha1 root ops t ds = Some (sts, t', ds') ->
  length sts = length sops /\ inv (files_after (combine sops sts) F) t' ds'.
Proof.
  induction ops as [|o ops IH]; intros sops Hsp Hok HD F t ds sts t' ds' I E; inversion Hsp as [|so ? sops' ? Ho Hops]; subst.
  - cbn in E. injection E as <- <- <-. auto.
  - inversion Hok as [|? ? Hso Hok']; subst. cbn [frun] in E.
    destruct (fstep sha1 root o t ds) as [[st t1] ds1] eqn:Es.
    assert (K : exists sts', sts = st :: sts' /\ frun sha1 root ops t1 ds1 = Some (sts', t', ds') /\ st <> F_abort /\ st <> F_ub).
    { destruct st; try discriminate; (destruct (frun sha1 root ops t1 ds1) as [[[sts' t''] ds'']|]; [|discriminate]);
        injection E as <- <- <-; exists sts'; repeat split; congruence. }
    destruct K as (sts' & -> & E' & Na & Nu).
    assert (HD' : forall o d b, In o sops' -> sop_file o = Some (d, b) -> D d) by (intros; eapply HD; eauto; now right).
    assert (Step : inv (files_after [(so, st)] F) t1 ds1).
    { inversion Ho; subst; cbn [fstep] in Es.
      - destruct Hso as [_ Hb]. pose proof (HD _ d b (or_introl eq_refl) eq_refl) as Hd.
        destruct (step_add F t ds f d b st t1 ds1 I Hd Hb H Es) as [(-> & J)|[(-> & J)| ->]]; [exact J|exact J|congruence].
      - destruct Hso as [_ Hb]. pose proof (HD _ d b (or_introl eq_refl) eq_refl) as Hd.
        destruct (step_remove F t ds f d b st t1 ds1 I Hd Hb H Es) as [ -> |J]; [congruence|]. destruct st; exact J.
      - destruct Hso as [_ Hb]. pose proof (HD _ d b (or_introl eq_refl) eq_refl) as Hd.
        destruct (add_filename sha1 root f [] ds) as [[st2 t2] ds2] eqn:Ea. injection Es as <- <- <-.
        pose proof (step_other F t ds f d b st2 t2 ds2 I Hd Hb H Ea) as J. destruct st2; exact J.
      - injection Es as <- <- <-. cbn. apply (inv_mono F t ds); auto; [|split; auto]. apply bump_ok, I. }
    destruct (IH sops' Hops Hok' HD' _ _ _ _ _ _ Step E') as [L R]. split; [cbn; congruence|].
    cbn [combine].
    replace (files_after ((so, st) :: combine sops' sts') F) with (files_after (combine sops' sts') (files_after [(so, st)] F)); [exact R|].
    destruct so, st; reflexivity.
Qed.
Lemma inv_start n : inv [] t0 {| dl := []; next_id := n |}.
Proof.
  constructor; auto.
  - constructor; cbn; [tauto|constructor|tauto].
  - intros f [].
  - intros y. split; [auto|]. intros [H|(f & [] & _)]. exact H.
Qed.

(** What the invariant says to the client. *)
Lemma inv_entries F t ds : inv F t ds -> forall e, In e (file_entries t) <->
  exists g j, In g F /\ dirid ds (fst g) = Some j /\ e = dec j ++ ":"%char :: snd g.
Proof.
  intros I e. unfold file_entries. rewrite (proj1 (get_terms_spec filename_prefix t (iv_sorted _ _ _ I)) e), (iv_terms _ _ _ I). split.
  - intros [H|(g & Hg & [(j & Hj & H)|[H|(x & _ & H)]])]; [exfalso; now apply (proj2 (proj2 (t0_clean e)))| | |].
    + exists g, j. split; [exact Hg|]. split; [exact Hj|]. unfold entry in H. now apply app_inv_head in H.
    + symmetry in H. now apply folder_not_file in H.
    + symmetry in H. now apply path_not_file in H.
  - intros (g & j & Hg & Hj & ->). right. exists g. split; [exact Hg|]. left. eauto.
Qed.
Lemma inv_filenames F t ds : inv F t ds ->
  NoDup (get_filenames root ds t) /\
  forall x, In x (get_filenames root ds t) <-> exists g, In g F /\ x = Some (full_name root g).
Proof.
  intros I. assert (K : forall g j, In g F -> dirid ds (fst g) = Some j -> filename_of_entry root ds (dec j ++ ":"%char :: snd g) = Some (full_name root g)).
  { intros g j Hg Hj. destruct (iv_files _ _ _ I g Hg) as (Dg & _). unfold filename_of_entry. rewrite parse_entry.
    rewrite (dirid_path sha1 D Dinj ds (fst g) j (iv_ds _ _ _ I) Dg Hj). unfold full_name. destruct g as [gd gb]. cbn [fst snd] in *.
    destruct (join gd) eqn:J.
    - apply join_nil in J; [|auto]. subst. reflexivity.
    - rewrite <- J. rewrite join_snoc; [reflexivity|]. intros ->. discriminate. }
  assert (FN : forall g h, In g F -> In h F -> full_name root g = full_name root h -> g = h).
  { intros g h Hg Hh E. unfold full_name in E. apply app_inv_head in E. injection E as E.
    destruct (iv_files _ _ _ I g Hg) as (Dg & Ng & _). destruct (iv_files _ _ _ I h Hh) as (Dh & Nh & _).
    assert (NN : forall d b, D d -> name_ok b -> names (d ++ [b])) by (intros dd bb Hdd Hbb; apply Forall_app; split; [exact (Dnames _ Hdd)|constructor; auto]).
    apply join_inj in E; [|now apply NN|now apply NN]. apply app_inj_tail in E as [E1 E2]. destruct g, h. cbn in *. congruence. }
  split.
  - unfold get_filenames. pose proof (tsorted_nodup _ (get_terms_sorted filename_prefix t (iv_sorted _ _ _ I))) as Nd. fold (file_entries t) in Nd.
    assert (Hin : forall e, In e (file_entries t) -> exists g j, In g F /\ dirid ds (fst g) = Some j /\ e = dec j ++ ":"%char :: snd g) by (intros e; apply inv_entries; exact I).
    revert Nd Hin. generalize (file_entries t). induction l as [|e l IH]; intros Nd Hin; cbn; [constructor|].
    inversion Nd as [|? ? Hni Nd']; subst. constructor; [|apply IH; [exact Nd'|intros; apply Hin; now right]].
    intros Hm. apply in_map_iff in Hm as (e' & He' & Hin'). destruct (Hin e (or_introl eq_refl)) as (g & j & Hg & Hj & ->).
    destruct (Hin e' (or_intror Hin')) as (h & j' & Hh & Hj' & ->). rewrite !K in He' by assumption.
    assert (E : full_name root h = full_name root g) by congruence. apply FN in E; auto. subst h. rewrite Hj in Hj'. injection Hj' as <-. contradiction.
  - intros x. unfold get_filenames. rewrite in_map_iff. split.
    + intros (e & <- & He). apply (inv_entries F t ds I) in He as (g & j & Hg & Hj & ->). exists g. split; [exact Hg|]. now apply K.
    + intros (g & Hg & ->). destruct (iv_files _ _ _ I g Hg) as (_ & _ & j & Hj). exists (dec j ++ ":"%char :: snd g). split; [now apply K|].
      apply (inv_entries F t ds I). eauto.
Qed.
Lemma inv_path F t ds : inv F t ds -> forall x, In (path_prefix ++ x) t <-> exists g, In g F /\ path_term (fst g) x.
Proof.
  intros I x. rewrite (iv_terms _ _ _ I). split.
  - intros [H|(g & Hg & [(j & Hj & H)|[H|(x' & Hx & H)]])]; [exfalso; now apply (proj1 (t0_clean x))| | |].
    + now apply path_not_file in H.
    + now apply path_not_folder in H.
    + apply app_inv_head in H. subst. eauto.
  - intros (g & Hg & H). right. exists g. split; [exact Hg|]. right. right. eauto.
Qed.
Lemma inv_folder F t ds : inv F t ds -> forall x, In (folder_prefix ++ x) t <-> exists g, In g F /\ x = folder_of (join (fst g)).
Proof.
  intros I x. rewrite (iv_terms _ _ _ I). split.
  - intros [H|(g & Hg & [(j & Hj & H)|[H|(x' & Hx & H)]])]; [exfalso; now apply (proj1 (proj2 (t0_clean x)))| | |].
    + now apply folder_not_file in H.
    + apply app_inv_head in H. subst. eauto.
    + symmetry in H. now apply path_not_folder in H.
  - intros (g & Hg & H). right. exists g. split; [exact Hg|]. right. left. now subst.
Qed.
Lemma inv_frame F t ds : inv F t ds -> forall y, starts_with path_prefix y = false -> starts_with folder_prefix y = false ->
  starts_with filename_prefix y = false -> (In y t <-> In y t0).
Proof.
  intros I y N1 N2 N3. rewrite (iv_terms _ _ _ I). split; [|auto]. unfold file_term, dir_term, entry.
  intros [H|(g & Hg & [(j & Hj & ->)|[->|(x' & Hx & ->)]])]; [exact H| | |]; rewrite sw_app in *; discriminate.
Qed.
End Hist.
