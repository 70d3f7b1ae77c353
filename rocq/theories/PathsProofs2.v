From Verif Require Import Bytes Terms Meta MetaProofs Db Decimal Paths PathsSpec PathsProofs.
Local Open Scope nat_scope.

(** * The terms of one directory *)
Lemma add_term_In p v t t' : add_term p v t = Some t' -> t' = tadd (p ++ v) t.
Proof. unfold add_term. destruct (Nat.ltb _ _); congruence. Qed.

Lemma rsplit_noslash b : no_slash b -> rsplit b = None.
Proof.
  unfold no_slash. induction b as [|c b IH]; cbn; [auto|]. rewrite andb_true_iff. intros [H1 H2]. rewrite IH by exact H2.
  apply negb_true_iff in H1. now rewrite H1.
Qed.
Lemma rsplit_app a b : no_slash b -> rsplit (a ++ SLASH :: b) = Some (a, b).
Proof.
  intros H. induction a as [|c a IH].
  - cbn [app rsplit]. rewrite rsplit_noslash by exact H. reflexivity.
  - cbn [app rsplit]. now rewrite IH.
Qed.
Lemma folder_join cs : names cs -> folder_of (join cs) = if is_maildir (leaf cs) then join (removelast cs) else join cs.
Proof.
  intros H. destruct cs as [|b cs _] using rev_ind; [reflexivity|]. unfold leaf. rewrite last_last, removelast_last.
  unfold names in H. apply Forall_app in H as [Hc Hb]. inversion Hb; subst. apply name_no_slash in H1 as [Hne Hn]. unfold folder_of.
  destruct cs as [|c cs].
  - cbn [app join]. rewrite rsplit_noslash by exact Hn. reflexivity.
  - rewrite join_snoc by discriminate. rewrite rsplit_app by exact Hn. reflexivity.
Qed.

Lemma path_loop_In p : forall path t t', p < length path -> path_loop p path t = Some t' ->
  forall y, In y t' <-> In y t \/ exists q, 1 <= q <= p /\ nth q path NUL = SLASH /\ y = path_prefix ++ firstn q path ++ lit "/**".
Proof.
  induction p as [|p IH]; intros path t t' Hp E y.
  - cbn in E. injection E as <-. split; [auto|]. intros [H|(q & Hq & _)]; [exact H|lia].
  - cbn [path_loop] in E. destruct (is_slash (nth (S p) path NUL)) eqn:Es.
    + destruct (add_term path_prefix (firstn (S p) path ++ RECURSIVE_SUFFIX) t) as [t1|] eqn:Ea; [|discriminate].
      apply add_term_In in Ea. subst t1. set (path' := firstn (S p) path ++ RECURSIVE_SUFFIX) in *.
      assert (Lf : length (firstn (S p) path) = S p) by (rewrite firstn_length; lia).
      specialize (IH path' _ t' ltac:(unfold path'; rewrite app_length, Lf; lia) E y). rewrite IH, tadd_In.
      assert (F : forall q, q <= p -> firstn q path' = firstn q path).
      { intros q Hq. unfold path'. rewrite firstn_app, Lf. replace (q - S p) with 0 by lia. rewrite firstn_O, app_nil_r, firstn_firstn. f_equal. lia. }
      assert (G : forall q, q <= p -> nth q path' NUL = nth q path NUL).
      { intros q Hq. unfold path'. rewrite app_nth1 by lia. rewrite <- (firstn_skipn (S p) path) at 2. symmetry. apply app_nth1. lia. }
      split.
      * intros [[->|H]|(q & Hq & Hn & ->)].
        -- right. exists (S p). split; [lia|]. split; [now apply is_slash_eq|reflexivity].
        -- now left.
        -- right. exists q. split; [lia|]. rewrite G in Hn by lia. rewrite F by lia. auto.
      * intros [H|(q & Hq & Hn & ->)]; [left; now right|]. destruct (Nat.eq_dec q (S p)) as [->|Hne]; [left; now left|].
        right. exists q. split; [lia|]. rewrite G, F by lia. auto.
    + rewrite (IH path t t' ltac:(lia) E y). split.
      * intros [H|(q & Hq & Hn & ->)]; [now left|]. right. exists q. split; [lia|]. auto.
      * intros [H|(q & Hq & Hn & ->)]; [now left|]. right. exists q. split; [|auto].
        assert (q <> S p); [|lia]. intros ->. apply is_slash_neq in Es. contradiction.
Qed.

(** Slashes in "a/b/c/": one after each non-empty initial part. *)
Fixpoint slashed (cs : list bytes) (z : bytes) : bytes :=
  match cs with [] => z | c :: cs' => c ++ SLASH :: slashed cs' z end.
Lemma slashed_join cs z : cs <> [] -> slashed cs z = join cs ++ SLASH :: z.
Proof.
  induction cs as [|c cs IH]; intros H; [congruence|]. destruct cs as [|c' cs]; [reflexivity|].
  cbn [slashed]. rewrite join_cons by discriminate. rewrite <- app_assoc. cbn [app]. rewrite <- IH by discriminate. reflexivity.
Qed.
Lemma join_length_cons c cs : cs <> [] -> length (join (c :: cs)) = length c + 1 + length (join cs).
Proof. intros H. rewrite join_cons by exact H. rewrite app_length. cbn. lia. Qed.
Lemma slash_positions z : no_slash z -> forall cs, names cs -> forall q,
  nth q (slashed cs z) NUL = SLASH <-> exists pre suf, cs = pre ++ suf /\ pre <> [] /\ q = length (join pre).
Proof.
  intros Hz. induction cs as [|c cs IH]; intros Hn q.
  - cbn [slashed]. split.
    + intros H. exfalso. apply no_slash_In in Hz. apply Hz. rewrite <- H. apply nth_In.
      destruct (Nat.lt_ge_cases q (length z)) as [L|L]; [exact L|]. rewrite nth_overflow in H by exact L. discriminate.
    + intros (pre & suf & E & Hne & _). destruct pre; [congruence|discriminate].
  - inversion Hn as [|? ? Hc Hcs]; subst. cbn [slashed]. apply name_no_slash in Hc as [Hc Hs].
    destruct (lt_eq_lt_dec q (length c)) as [[L|L]|L].
    + rewrite app_nth1 by exact L. split.
      * intros H. exfalso. apply no_slash_In in Hs. apply Hs. rewrite <- H. now apply nth_In.
      * intros (pre & suf & E & Hne & ->). exfalso. destruct pre as [|c' pre]; [congruence|]. injection E as <- E.
        destruct pre as [|d pre]; [cbn [join] in L; lia|]. rewrite join_length_cons in L by discriminate. lia.
    + subst q. rewrite app_nth2, Nat.sub_diag by lia. cbn [nth]. split; [|reflexivity]. intros _.
      exists [c], cs. split; [reflexivity|]. split; [discriminate|reflexivity].
    + rewrite app_nth2 by lia. destruct (q - length c) as [|q'] eqn:Eq; [lia|]. cbn [nth]. rewrite (IH Hcs q'). split.
      * intros (pre & suf & E & Hne & ->). exists (c :: pre), suf. split; [now rewrite E|]. split; [discriminate|].
        rewrite join_length_cons by exact Hne. lia.
      * intros (pre & suf & E & Hne & ->). destruct pre as [|c' pre]; [congruence|]. injection E as <- E.
        destruct pre as [|d pre]; [cbn [join] in L; lia|]. exists (d :: pre), suf. split; [exact E|]. split; [discriminate|].
        rewrite join_length_cons in Eq by discriminate. lia.
Qed.
Lemma firstn_join pre suf z : pre <> [] -> firstn (length (join pre)) (join (pre ++ suf) ++ z) = join pre.
Proof.
  intros H. assert (E : exists w, join (pre ++ suf) = join pre ++ w).
  { revert H. induction pre as [|c pre IH]; intros H; [congruence|]. destruct pre as [|d pre].
    - destruct suf; [exists []; cbn; now rewrite app_nil_r|]. cbn [app]. rewrite join_cons by discriminate. eexists. reflexivity.
    - destruct (IH ltac:(discriminate)) as (w & E). exists w. rewrite <- app_comm_cons, !join_cons by discriminate. rewrite E, <- app_assoc. reflexivity. }
  destruct E as (w & ->). rewrite <- app_assoc, firstn_app, Nat.sub_diag, firstn_O, app_nil_r. apply firstn_all.
Qed.

Lemma add_path_terms_In cs t t' : names cs -> add_path_terms (join cs) t = Some t' ->
  forall y, In y t' <-> In y t \/ exists x, path_term cs x /\ y = path_prefix ++ x.
Proof.
  intros Hn E y. unfold add_path_terms in E. destruct (add_term path_prefix (join cs) t) as [t1|] eqn:E1; [|discriminate].
  apply add_term_In in E1. subst t1.
  destruct (match join cs with [] => _ | _ => _ end) as [t2|] eqn:E2; [|discriminate]. apply add_term_In in E. subst t'.
  rewrite tadd_In.
  assert (K : forall y, In y t2 <-> In y t \/ y = path_prefix ++ join cs \/
             exists pre suf, cs = pre ++ suf /\ pre <> [] /\ y = path_prefix ++ join pre ++ lit "/**").
  { clear y. intros y. destruct (join cs) as [|c0 j] eqn:J.
    - injection E2 as <-. rewrite tadd_In. apply join_nil in J; [|exact Hn]. subst cs. split; [intuition|].
      intros [H|[H|(pre & suf & E & Hne & _)]]; auto. destruct pre; [congruence|discriminate].
    - rewrite <- J in *. assert (Hne : cs <> []) by (intros ->; discriminate). cbv zeta in E2.
      assert (Lp : length (join cs ++ RECURSIVE_SUFFIX) - 1 < length (join cs ++ RECURSIVE_SUFFIX)) by (rewrite app_length; change (length RECURSIVE_SUFFIX) with 3; lia).
      rewrite (path_loop_In _ _ _ _ Lp E2 y), tadd_In.
      assert (S : join cs ++ RECURSIVE_SUFFIX = slashed cs (lit "**")) by (rewrite slashed_join by exact Hne; reflexivity).
      split.
      + intros [[->|H]|(q & Hq & Hs & ->)]; auto. right. right. rewrite S in Hs.
        apply slash_positions in Hs as (pre & suf & -> & Hp & ->); [|reflexivity|exact Hn]. exists pre, suf. split; [reflexivity|]. split; [exact Hp|].
        rewrite firstn_join by exact Hp. reflexivity.
      + intros [H|[->|(pre & suf & E & Hp & ->)]]; auto. right. exists (length (join pre)). split; [|split].
        * assert (names pre) by (rewrite E in Hn; apply Forall_app in Hn; tauto).
          assert (join pre <> []) by (rewrite (join_nil pre); assumption).
          assert (length (join pre) <= length (join cs)).
          { rewrite E. rewrite <- (firstn_join pre suf [] Hp) at 1. rewrite app_nil_r, firstn_length. lia. }
          rewrite app_length. change (length RECURSIVE_SUFFIX) with 3. destruct (join pre); [congruence|]. cbn [length] in *. lia.
        * rewrite S. apply slash_positions; [reflexivity|exact Hn|]. exists pre, suf. auto.
        * rewrite E, firstn_join by exact Hp. reflexivity. }
  rewrite K. unfold path_term. split.
  - intros [->|[H|[->|(pre & suf & E & Hp & ->)]]]; [right; exists (lit "**"); auto|auto|right; exists (join cs); auto|right].
    exists (join pre ++ lit "/**"). split; [|reflexivity]. right. right. eauto.
  - intros [H|(x & [->|[->|(pre & suf & E & Hp & ->)]] & ->)]; auto. right. right. right. eauto.
Qed.

Lemma add_term_sorted p v t t' : tsorted t -> add_term p v t = Some t' -> tsorted t'.
Proof. intros H E. apply add_term_In in E. subst. now apply tadd_sorted. Qed.
Lemma path_loop_sorted p : forall path t t', tsorted t -> path_loop p path t = Some t' -> tsorted t'.
Proof.
  induction p as [|p IH]; intros path t t' H E; [cbn in E; congruence|]. cbn [path_loop] in E.
  destruct (is_slash _); [|eapply IH; eauto]. destruct (add_term _ _ _) eqn:Ea; [|discriminate].
  eapply IH; [|exact E]. eapply add_term_sorted; eauto.
Qed.
Lemma add_path_terms_sorted d t t' : tsorted t -> add_path_terms d t = Some t' -> tsorted t'.
Proof.
  intros H E. unfold add_path_terms in E. destruct (add_term path_prefix d t) as [t1|] eqn:E1; [|discriminate].
  apply add_term_sorted in E1; [|exact H]. destruct (match d with [] => _ | _ => _ end) as [t2|] eqn:E2; [|discriminate].
  eapply add_term_sorted; [|exact E]. destruct d; [congruence|]. eapply path_loop_sorted; [exact E1|exact E2].
Qed.

Lemma remove_prefixed_spec p t : tsorted t ->
  tsorted (remove_prefixed p t) /\ (forall x, In x (remove_prefixed p t) <-> In x t /\ starts_with p x = false).
Proof.
  unfold remove_prefixed. assert (L : length t < S (length t)) by lia. revert L.
  generalize (S (length t)) as n. intros n. revert t.
  induction n as [|n IH]; intros t0 L Hs; [lia|]. cbn [remove_prefixed_loop].
  pose proof (skip_to_In p) as K.
  assert (Stop : (forall x, In x t0 -> starts_with p x = false) ->
    tsorted t0 /\ (forall x, In x t0 <-> In x t0 /\ starts_with p x = false)).
  { intros H. split; [exact Hs|]. intros x. split; [auto|tauto]. }
  destruct (skip_to p t0) as [|t l] eqn:E.
  - apply Stop. intros x Hx. destruct (starts_with p x) eqn:Sx; [|reflexivity].
    apply starts_with_app in Sx as (r & ->). assert (X : In (p ++ r) []); [|destruct X].
    rewrite <- E. apply K; [exact Hs|]. split; [exact Hx|]. apply prefix_ge.
  - assert (Ht : In t t0) by (apply (K t t0 Hs); rewrite E; now left).
    assert (Htp : bltb t p = false) by (apply (K t t0 Hs); rewrite E; now left).
    destruct (starts_with p t) eqn:St.
    + assert (Hs1 : tsorted (trem t t0)) by (now apply trem_sorted).
      assert (L1 : length (trem t t0) < n).
      { assert (length (trem t t0) < length t0); [|lia].
        clear - Ht. revert Ht. induction t0 as [|y l IH]; cbn; [tauto|].
        destruct (bseq_spec t y) as [->|]; [lia|]. intros [->|H]; [congruence|]. cbn. specialize (IH H). lia. }
      destruct (IH _ L1 Hs1) as (A & B). split; [exact A|].
      intros x. rewrite B. rewrite trem_In by now apply tsorted_nodup. split; [tauto|].
      intros [H1 H2]. split; [|exact H2]. split; [exact H1|]. intros ->. congruence.
    + apply Stop. intros x Hx. destruct (starts_with p x) eqn:Sx; [|reflexivity].
      pose proof Sx as Sx'. apply starts_with_app in Sx as (r & ->).
      assert (In (p ++ r) (t :: l)) by (rewrite <- E; apply K; [exact Hs|]; split; [exact Hx|apply prefix_ge]).
      destruct H as [->|H]; [congruence|].
      assert (Hsk : tsorted (t :: l)) by (rewrite <- E; now apply skip_to_sorted).
      inversion Hsk as [|? ? _ Hall]; subst. rewrite Forall_forall in Hall. specialize (Hall _ H).
      rewrite (prefix_block p t (p ++ r) Htp Hall Sx') in St. discriminate.
Qed.

(** * Directory documents *)
Section Dirs.
Variable sha1 : bytes -> bytes.
Variable root : bytes.
Variable D : list bytes -> Prop.
Hypothesis Dnames : forall cs, D cs -> names cs.
Hypothesis Dparent : forall cs b, D (cs ++ [b]) -> D cs.
Hypothesis Dinj : no_collision sha1 D.

Notation dbp := (directory_db_path sha1).
Definition dirid (ds : dirs) (cs : list bytes) : option N := option_map dd_id (find_dir (dbp (join cs)) ds).

Record ds_ok (ds : dirs) : Prop := {
  dk_data : forall d, In d (dl ds) -> exists cs, D cs /\ dd_data d = join cs /\ dd_term d = dbp (join cs) /\
            (cs = [] -> dd_entry d = None) /\
            (forall p b, cs = p ++ [b] -> exists i, dirid ds p = Some i /\ dd_entry d = Some (i, b));
  dk_nodup : NoDup (map dd_id (dl ds));
  dk_lt : forall d, In d (dl ds) -> (dd_id d < next_id ds)%N }.

Definition mono (a b : dirs) : Prop :=
  (forall x d, find_dir x a = Some d -> find_dir x b = Some d) /\
  (forall i p, directory_path i a = Some p -> directory_path i b = Some p).
Lemma mono_refl a : mono a a. Proof. split; auto. Qed.
Lemma mono_trans a b c : mono a b -> mono b c -> mono a c.
Proof. intros [H1 H2] [H3 H4]. split; auto. Qed.
Lemma mono_dirid a b cs i : mono a b -> dirid a cs = Some i -> dirid b cs = Some i.
Proof.
  intros [H _]. unfold dirid. destruct (find_dir _ a) eqn:E; [|discriminate]. rewrite (H _ _ E). auto.
Qed.

Lemma directory_path_of ds d : ds_ok ds -> In d (dl ds) -> directory_path (dd_id d) ds = Some (dd_data d).
Proof.
  intros [_ Hnd _] Hin. unfold directory_path. revert Hnd Hin. generalize (dl ds). intros l.
  induction l as [|e l IH]; cbn; [tauto|]. intros Hnd [->|Hin]; [now rewrite N.eqb_refl|].
  inversion Hnd as [|? ? Hni Hnd']; subst. destruct (N.eqb_spec (dd_id e) (dd_id d)) as [E|E]; [|auto].
  exfalso. apply Hni. rewrite E. now apply in_map.
Qed.
Lemma dirid_path ds cs i : ds_ok ds -> D cs -> dirid ds cs = Some i -> directory_path i ds = Some (join cs).
Proof.
  intros H Hc E. unfold dirid in E. destruct (find_dir (dbp (join cs)) ds) as [d|] eqn:F; [|discriminate]. injection E as <-.
  pose proof F as F0. unfold find_dir in F. apply find_some in F as [Hin Ht]. apply bseq_eq in Ht.
  rewrite (directory_path_of ds d H Hin). destruct (dk_data ds H d Hin) as (cs' & Hc' & Hd & Ht' & _). rewrite Hd. f_equal.
  apply Dinj; auto. congruence.
Qed.
Lemma dirid_inj ds a b i : ds_ok ds -> D a -> D b -> dirid ds a = Some i -> dirid ds b = Some i -> a = b.
Proof.
  intros H Ha Hb E1 E2. apply dirid_path in E1; auto. apply dirid_path in E2; auto. apply join_inj; auto. congruence.
Qed.

Lemma find_dir_add ds x data e y d : find_dir y ds = Some d -> find_dir x ds = None -> find_dir y (add_dir x data e ds) = Some d.
Proof.
  intros E N. unfold find_dir, add_dir in *. cbn [dl find]. cbn [dd_term]. destruct (bseq_spec x y) as [->|Hne]; [congruence|exact E].
Qed.
Lemma add_dir_mono ds x data e : ds_ok ds -> find_dir x ds = None -> mono ds (add_dir x data e ds).
Proof.
  intros H N. split.
  - intros y d E. now apply find_dir_add.
  - intros i p. unfold directory_path, add_dir. cbn [dl find dd_id]. destruct (find (fun d => N.eqb (dd_id d) i) (dl ds)) as [d|] eqn:E; [|discriminate].
    pose proof E as E0. apply find_some in E as [Hin Hi]. apply N.eqb_eq in Hi. pose proof (dk_lt ds H d Hin) as L.
    destruct (N.eqb_spec (next_id ds) i); [lia|]. auto.
Qed.
Lemma find_dir_new ds x data e : find_dir x (add_dir x data e ds) = Some {| dd_id := next_id ds; dd_term := x; dd_data := data; dd_entry := e |}.
Proof. unfold find_dir, add_dir. cbn. now rewrite bseq_refl. Qed.
Lemma add_dir_ok ds cs e : ds_ok ds -> D cs -> find_dir (dbp (join cs)) ds = None ->
  (cs = [] -> e = None) -> (forall p b, cs = p ++ [b] -> exists i, dirid ds p = Some i /\ e = Some (i, b)) ->
  ds_ok (add_dir (dbp (join cs)) (join cs) e ds).
Proof.
  intros H Hc N He1 He2. pose proof (add_dir_mono ds (dbp (join cs)) (join cs) e H N) as M. constructor.
  - intros d [<-|Hin].
    + exists cs. cbn. repeat split; auto. intros p b E. destruct (He2 p b E) as (i & Hi & Hei). exists i. split; [|exact Hei].
      eapply mono_dirid; eauto.
    + destruct (dk_data ds H d Hin) as (cs' & A1 & A2 & A3 & A4 & A5). exists cs'. repeat split; auto. intros p b E.
      destruct (A5 p b E) as (i & Hi & Hei). exists i. split; [|exact Hei]. eapply mono_dirid; eauto.
  - cbn. constructor; [|apply H]. intros Hin. apply in_map_iff in Hin as (d & Hd & Hin). apply (dk_lt ds H) in Hin. lia.
  - cbn. intros d [<-|Hin]; [cbn; lia|]. apply (dk_lt ds H) in Hin. lia.
Qed.
Lemma bump_ok ds : ds_ok ds -> ds_ok {| dl := dl ds; next_id := (next_id ds + 1)%N |}.
Proof.
  intros H. constructor; cbn.
  - intros d Hin. exact (dk_data ds H d Hin).
  - apply H.
  - intros d Hin. apply (dk_lt ds H) in Hin. lia.
Qed.

Lemma find_create cs : forall fuel ds, D cs -> ds_ok ds -> length cs < fuel ->
  exists i ds', find_or_create sha1 root fuel true (join cs) ds = (Some i, ds') /\ ds_ok ds' /\ mono ds ds' /\ dirid ds' cs = Some i.
Proof.
  induction cs as [|b cs IH] using rev_ind; intros fuel ds Hc H Hf; (destruct fuel as [|f]; [lia|]); cbn [find_or_create]; cbv zeta;
    rewrite relative_join by auto.
  - destruct (find_dir (dbp (join [])) ds) as [d|] eqn:F.
    + exists (dd_id d), ds. split; [reflexivity|]. split; [exact H|]. split; [apply mono_refl|]. unfold dirid. rewrite F. reflexivity.
    + cbn [negb join split_path]. exists (next_id ds). eexists. split; [reflexivity|]. split.
      * apply (add_dir_ok ds []); auto. intros p b E. destruct p; discriminate.
      * split; [now apply add_dir_mono|]. unfold dirid. cbn [join]. rewrite find_dir_new. reflexivity.
  - destruct (find_dir (dbp (join (cs ++ [b]))) ds) as [d|] eqn:F.
    + exists (dd_id d), ds. split; [reflexivity|]. split; [exact H|]. split; [apply mono_refl|]. unfold dirid. rewrite F. reflexivity.
    + cbn [negb]. pose proof (Dnames _ Hc) as Hn. unfold names in Hn. apply Forall_app in Hn as [Hn Hb]. inversion Hb; subst.
      rewrite split_join by assumption.
      destruct (IH f ds (Dparent _ _ Hc) H ltac:(rewrite app_length in Hf; cbn in Hf; lia)) as (i & ds1 & E & H1 & M1 & I1).
      rewrite E. assert (F1 : find_dir (dbp (join (cs ++ [b]))) ds1 = None \/ exists d, find_dir (dbp (join (cs ++ [b]))) ds1 = Some d)
        by (destruct (find_dir _ ds1); eauto).
      exists (next_id ds1). eexists. split; [reflexivity|].
      (* the new document is never one of its own parents' *)
      assert (N1 : find_dir (dbp (join (cs ++ [b]))) ds1 = None).
      { clear F1 H2 Hb Hn. revert f ds ds1 i E H M1 I1 F Hf H1. intros f ds ds1 i E H M1 I1 F Hf H1.
        assert (G : forall (n : nat) ds ds' fuel i ps, D ps -> ds_ok ds -> length ps < fuel -> length ps <= n ->
                  find_or_create sha1 root fuel true (join ps) ds = (Some i, ds') ->
                  forall qs, D qs -> length ps < length qs -> find_dir (dbp (join qs)) ds = None -> find_dir (dbp (join qs)) ds' = None).
        { clear - Dnames Dparent Dinj IH. induction n as [|n IHn]; intros ds ds' fuel i ps Hp Hk Hf Hl E qs Hq Hlt N;
            (destruct fuel as [|fuel]; [lia|]); cbn [find_or_create] in E; cbv zeta in E; rewrite relative_join in E by auto;
            (destruct (find_dir (dbp (join ps)) ds) as [d|] eqn:Fp; [injection E as <- <-; exact N|]); cbn [negb] in E.
          - destruct ps; [|cbn in Hl; lia]. cbn [join split_path] in E. injection E as <- <-.
            unfold find_dir, add_dir. cbn [dl find dd_term]. destruct (bseq_spec (dbp []) (dbp (join qs))) as [E|E]; [|exact N].
            change ([] : bytes) with (join []) in E. apply Dinj in E; auto. symmetry in E. apply join_nil in E; auto. subst. cbn in Hlt. lia.
          - destruct ps as [|b ps _] using rev_ind.
            + cbn [join split_path] in E. injection E as <- <-.
              unfold find_dir, add_dir. cbn [dl find dd_term]. destruct (bseq_spec (dbp []) (dbp (join qs))) as [E|E]; [|exact N].
              change ([] : bytes) with (join []) in E. apply Dinj in E; auto. symmetry in E. apply join_nil in E; auto. subst. cbn in Hlt. lia.
            + pose proof (Dnames _ Hp) as Hn. unfold names in Hn. apply Forall_app in Hn as [Hn Hb]. inversion Hb; subst.
              rewrite split_join in E by assumption. rewrite app_length in *. cbn [length] in *.
              destruct (find_or_create sha1 root fuel true (join ps) ds) as [[pid|] ds2] eqn:E2; [|discriminate].
              injection E as <- <-. assert (N2 : find_dir (dbp (join qs)) ds2 = None).
              { eapply (IHn ds ds2 fuel pid ps); eauto; lia. }
              unfold find_dir, add_dir. cbn [dl find dd_term]. destruct (bseq_spec (dbp (join (ps ++ [b]))) (dbp (join qs))) as [E|E]; [|exact N2].
              apply Dinj in E; auto. apply join_inj in E; auto. subst qs. rewrite app_length in Hlt. cbn in Hlt. lia. }
        eapply (G (length cs) ds ds1 f i cs); eauto; try (rewrite app_length; cbn; lia). rewrite app_length in Hf. cbn in Hf. lia. }
      split.
      * apply (add_dir_ok ds1 (cs ++ [b])); auto.
        -- destruct cs; discriminate.
        -- intros p b' Epb. apply app_inj_tail in Epb as [<- <-]. exists i. auto.
      * split; [eapply mono_trans; [exact M1|now apply add_dir_mono]|]. unfold dirid. rewrite find_dir_new. reflexivity.
Qed.
Lemma find_lookup cs fuel ds : D cs -> find_or_create sha1 root (S fuel) false (join cs) ds = (dirid ds cs, ds).
Proof.
  intros H. cbn [find_or_create]. cbv zeta. rewrite relative_join by auto. unfold dirid.
  destruct (find_dir (dbp (join cs)) ds); reflexivity.
Qed.
Lemma names_length cs : names cs -> length cs <= length (join cs).
Proof.
  induction cs as [|c cs IH]; intros H; [auto|]. inversion H as [|? ? [Hc _] Hcs]; subst. destruct c; [congruence|].
  destruct cs as [|d cs]; [cbn; lia|]. rewrite join_length_cons by discriminate. specialize (IH Hcs). cbn [length] in *. lia.
Qed.
End Dirs.
