From Verif Require Import Bytes StringMap.
From Coq Require Import Sorting.Sorted Sorting.Permutation.
Local Open Scope nat_scope.

Definition pair_le (a b : pair_t) : Prop := cmppair a b <> Gt.
Lemma cmppair_refl a : cmppair a a = Eq.
Proof. unfold cmppair. now rewrite !bcmp_refl. Qed.
Lemma cmppair_eq a b : cmppair a b = Eq <-> a = b.
Proof.
  destruct a as [a1 a2], b as [b1 b2]. unfold cmppair. cbn [fst snd]. split.
  - destruct (bcmp a1 b1) eqn:E; try discriminate. intros H. apply bcmp_eq in E, H. congruence.
  - intros [= -> ->]. now rewrite !bcmp_refl.
Qed.
Lemma cmppair_antisym a b : cmppair b a = CompOpp (cmppair a b).
Proof.
  unfold cmppair. rewrite (bcmp_antisym (fst a) (fst b)). destruct (bcmp (fst a) (fst b)) eqn:E; cbn; try reflexivity.
  apply bcmp_antisym.
Qed.
Lemma bcmp_le_trans a b c : bcmp a b <> Gt -> bcmp b c <> Gt -> bcmp a c <> Gt.
Proof.
  intros H1 H2. destruct (bcmp a b) eqn:E1; [|clear H1|congruence].
  - apply bcmp_eq in E1. now subst.
  - destruct (bcmp b c) eqn:E2; [| |congruence].
    + apply bcmp_eq in E2. subst. congruence.
    + rewrite (bcmp_trans_lt _ _ _ E1 E2). discriminate.
Qed.
Lemma pair_le_fst a b : pair_le a b -> bcmp (fst a) (fst b) <> Gt.
Proof. unfold pair_le, cmppair. destruct (bcmp (fst a) (fst b)); congruence. Qed.
Lemma pair_le_trans a b c : pair_le a b -> pair_le b c -> pair_le a c.
Proof.
  unfold pair_le, cmppair. destruct a as [a1 a2], b as [b1 b2], c as [c1 c2]. cbn [fst snd].
  destruct (bcmp a1 b1) eqn:E1; try congruence; destruct (bcmp b1 c1) eqn:E2; try congruence; intros H1 H2.
  - apply bcmp_eq in E1, E2. subst. rewrite bcmp_refl. now apply bcmp_le_trans with b2.
  - apply bcmp_eq in E1. subst. now rewrite E2.
  - apply bcmp_eq in E2. subst. now rewrite E1.
  - now rewrite (bcmp_trans_lt _ _ _ E1 E2).
Qed.

Lemma insert_pair_perm x l : Permutation (insert_pair x l) (x :: l).
Proof.
  induction l as [|y l IH]; cbn; [reflexivity|]. destruct (cmppair x y); try reflexivity.
  rewrite IH. apply perm_swap.
Qed.
Lemma qsort_perm l : Permutation (qsort_pairs l) l.
Proof. induction l as [|x l IH]; cbn; [reflexivity|]. rewrite insert_pair_perm. now constructor. Qed.
Lemma insert_pair_sorted x l : StronglySorted pair_le l -> StronglySorted pair_le (insert_pair x l).
Proof.
  induction 1 as [|y l Hl IH Hy]; cbn; [repeat constructor|].
  destruct (cmppair x y) eqn:E.
  - constructor; [constructor; auto|]. constructor; [unfold pair_le; congruence|].
    eapply Forall_impl; [|exact Hy]. intros z Hz. apply pair_le_trans with y; [unfold pair_le; congruence|exact Hz].
  - constructor; [constructor; auto|]. constructor; [unfold pair_le; congruence|].
    eapply Forall_impl; [|exact Hy]. intros z Hz. apply pair_le_trans with y; [unfold pair_le; congruence|exact Hz].
  - constructor; [exact IH|]. eapply Permutation_Forall; [symmetry; apply insert_pair_perm|].
    constructor; [|exact Hy]. unfold pair_le. rewrite cmppair_antisym, E. discriminate.
Qed.
Lemma qsort_sorted l : StronglySorted pair_le (qsort_pairs l).
Proof. induction l as [|x l IH]; cbn; [constructor|now apply insert_pair_sorted]. Qed.

(** Invariant: when the flag is set, the keys are in order (values under one key
    need not be: [sm_set] overwrites a value in place). *)
Definition key_le (a b : pair_t) : Prop := bcmp (fst a) (fst b) <> Gt.
Definition ksorted (l : list pair_t) : Prop := StronglySorted key_le l.
Lemma sorted_ksorted l : StronglySorted pair_le l -> ksorted l.
Proof. induction 1 as [|x l _ IH H]; constructor; auto. eapply Forall_impl; [|exact H]. intros y. apply pair_le_fst. Qed.
Definition sm_ok (m : string_map) : Prop := sm_sorted m = true -> ksorted (sm_pairs m).
Lemma sm_create_ok : sm_ok sm_create. Proof. intros _. constructor. Qed.
Lemma sm_append_ok m k v : sm_ok (sm_append m k v). Proof. intros H. discriminate. Qed.
Lemma sm_sort_spec m : sm_ok m -> ksorted (sm_pairs (sm_sort m)) /\ Permutation (sm_pairs (sm_sort m)) (sm_pairs m).
Proof.
  unfold sm_ok, sm_sort. intros H. destruct (sm_pairs m) as [|p l] eqn:E; [rewrite E; split; constructor|].
  destruct (sm_sorted m) eqn:Es; [rewrite E; auto|]. cbn [sm_pairs]. split; [apply sorted_ksorted, qsort_sorted|apply qsort_perm].
Qed.
Lemma sm_sort_ok m : sm_ok m -> sm_ok (sm_sort m).
Proof. intros H _. now apply sm_sort_spec. Qed.

(** [string_cmp] is monotone. *)
Lemma bcmp_firstn_mono n : forall a b, bcmp a b <> Gt -> bcmp (firstn n a) (firstn n b) <> Gt.
Proof.
  induction n as [|n IH]; intros a b H; [discriminate|].
  destruct a as [|x a], b as [|y b]; cbn in *; try congruence.
  destruct (N.compare (code x) (code y)) eqn:E; try congruence. now apply IH.
Qed.
Definition sg (key : bytes) (exact : bool) (p : pair_t) : comparison := string_cmp key (fst p) exact.
Lemma sg_mono key exact p q : key_le p q ->
  (sg key exact p = Lt -> sg key exact q = Lt) /\ (sg key exact q = Gt -> sg key exact p = Gt).
Proof.
  intros H. unfold key_le in H. unfold sg, string_cmp.
  assert (K : forall x y, bcmp x y <> Gt -> (bcmp key x = Lt -> bcmp key y = Lt) /\ (bcmp key y = Gt -> bcmp key x = Gt)).
  { intros x y Hxy. split.
    - intros E. destruct (bcmp x y) eqn:E2; [apply bcmp_eq in E2; now subst| |congruence]. now apply bcmp_trans_lt with x.
    - intros E. rewrite (bcmp_antisym y key) in E. destruct (bcmp y key) eqn:E1; cbn in E; try discriminate.
      rewrite (bcmp_antisym x key). destruct (bcmp x y) eqn:E2; [apply bcmp_eq in E2; subst; now rewrite E1| |congruence].
      now rewrite (bcmp_trans_lt _ _ _ E2 E1). }
  destruct exact; apply K; [exact H|]. now apply bcmp_firstn_mono.
Qed.

Lemma sg_split key exact l : ksorted l ->
  exists a b c, l = a ++ b ++ c /\ Forall (fun p => sg key exact p = Gt) a /\
    Forall (fun p => sg key exact p = Eq) b /\ Forall (fun p => sg key exact p = Lt) c.
Proof.
  induction 1 as [|x l Hl (a & b & c & -> & Ha & Hb & Hc) Hx].
  - exists [], [], []. repeat split; constructor.
  - destruct (sg key exact x) eqn:E.
    + exists [], (x :: b), c. destruct a as [|y a].
      * cbn. repeat split; auto.
      * exfalso. inversion Ha; subst. inversion Hx; subst.
        destruct (sg_mono key exact x y) as [_ K]; auto. rewrite K in E by assumption. discriminate.
    + exists [], [], (x :: a ++ b ++ c). split; [reflexivity|]. split; [constructor|]. split; [constructor|].
      constructor; [exact E|]. eapply Forall_impl; [|exact Hx]. intros y Hy. destruct (sg_mono key exact x y) as [K _]; auto.
    + exists (x :: a), b, c. cbn. repeat split; auto.
Qed.

Lemma nth_Forall {A} (P : A -> Prop) l i d : Forall P l -> i < length l -> P (nth i l d).
Proof. intros H Hi. eapply Forall_forall; [exact H|]. now apply nth_In. Qed.

Lemma bsearch_loop_spec key exact a b c : 
  let l := a ++ b ++ c in
  Forall (fun p => sg key exact p = Gt) a -> Forall (fun p => sg key exact p <> Gt) (b ++ c) -> forall fuel first last,
  first <= last -> last < length l -> last - first < fuel -> first <= length a ->
  (length a <= last \/ last = length l - 1) ->
  let r := bsearch_loop fuel l key exact first last in
  r = Nat.min (length a) (length l - 1).
Proof.
  intros l Ha Hbc. induction fuel as [|f IH]; intros first last H1 H2 H3 H4 H5; [lia|]. cbn [bsearch_loop].
  assert (Ll : length l = length a + length (b ++ c)) by (unfold l; apply app_length).
  destruct (Nat.ltb_spec first last) as [H|H].
  - set (mid := (first + last) / 2).
    assert (M1 : first <= mid) by (unfold mid; apply Nat.div_le_lower_bound; lia).
    assert (M2 : mid < last) by (unfold mid; apply Nat.div_lt_upper_bound; lia).
    change (string_cmp key (fst (nth mid l dflt)) exact) with (sg key exact (nth mid l dflt)).
    destruct (Nat.lt_ge_cases mid (length a)) as [Hm|Hm].
    + assert (E : sg key exact (nth mid l dflt) = Gt).
      { unfold l. rewrite app_nth1 by exact Hm. apply (nth_Forall (fun p => sg key exact p = Gt)); auto. }
      rewrite E. apply IH; lia.
    + assert (E : sg key exact (nth mid l dflt) <> Gt).
      { unfold l. rewrite app_nth2 by exact Hm. apply (nth_Forall (fun p => sg key exact p <> Gt)); [exact Hbc|]. lia. }
      destruct (sg key exact (nth mid l dflt)); try congruence; apply IH; lia.
  - lia.
Qed.

Lemma bsearch_first_spec key exact l : ksorted l ->
  exists a b c, l = a ++ b ++ c /\ Forall (fun p => sg key exact p = Gt) a /\
    Forall (fun p => sg key exact p = Eq) b /\ Forall (fun p => sg key exact p = Lt) c /\
    bsearch_first l key exact = match b with [] => None | _ => Some (length a) end.
Proof.
  intros Hs. destruct (sg_split key exact l Hs) as (a & b & c & -> & Ha & Hb & Hc). exists a, b, c.
  split; [reflexivity|]. split; [exact Ha|]. split; [exact Hb|]. split; [exact Hc|].
  set (l := a ++ b ++ c) in *.
  assert (Ll : length l = length a + (length b + length c)) by (unfold l; now rewrite !app_length).
  unfold bsearch_first. destruct l as [|p l'] eqn:El.
  - destruct b; [reflexivity|]. cbn in Ll. lia.
  - rewrite <- El in *. assert (Hl : 0 < length l) by (rewrite El; cbn; lia).
    pose proof (bsearch_loop_spec key exact a b c Ha) as B. cbv zeta in B. fold l in B. rewrite B; try lia.
    2: { apply Forall_app. split; [eapply Forall_impl; [|exact Hb]|eapply Forall_impl; [|exact Hc]]; cbn; congruence. }
    change (string_cmp key (fst (nth ?i l dflt)) exact) with (sg key exact (nth i l dflt)).
    destruct b as [|y b'].
    + destruct (Nat.lt_ge_cases (length a) (length l)) as [H|H].
      * rewrite Nat.min_l by lia.
        assert (E1 : sg key exact (nth (length a) l dflt) = Lt).
        { unfold l. rewrite app_nth2 by lia. cbn [app].
          apply (nth_Forall (fun p => sg key exact p = Lt)); [exact Hc|cbn in *; lia]. }
        now rewrite E1.
      * rewrite Nat.min_r by lia.
        assert (E1 : sg key exact (nth (length l - 1) l dflt) = Gt).
        { assert (length l - 1 < length a) by lia. unfold l at 2. rewrite app_nth1 by lia.
          apply (nth_Forall (fun p => sg key exact p = Gt)); [exact Ha|lia]. }
        now rewrite E1.
    + cbn [length] in Ll. rewrite Nat.min_l by lia.
      assert (E1 : sg key exact (nth (length a) l dflt) = Eq).
      { unfold l. rewrite app_nth2 by lia. rewrite app_nth1 by (cbn; lia).
        apply (nth_Forall (fun p => sg key exact p = Eq)); [exact Hb|cbn; lia]. }
      now rewrite E1.
Qed.

(** Iteration yields the matching pairs in order. *)
Definition matches (key : bytes) (exact : bool) (p : pair_t) : bool :=
  if exact then bseq key (fst p) else starts_with key (fst p).
Lemma firstn_prefix_eq key k : key = firstn (length key) k <-> starts_with key k = true.
Proof.
  rewrite starts_with_app. split.
  - intros H. exists (skipn (length key) k). rewrite H at 1. symmetry. apply firstn_skipn.
  - intros (r & ->). rewrite firstn_app, Nat.sub_diag, firstn_all. cbn. now rewrite app_nil_r.
Qed.
Lemma sg_matches key exact p : sg key exact p = Eq <-> matches key exact p = true.
Proof.
  unfold sg, string_cmp, matches. destruct exact; rewrite bcmp_eq.
  - symmetry. apply bseq_eq.
  - apply firstn_prefix_eq.
Qed.

Lemma it_loop_spec key exact b c : Forall (fun p => sg key exact p = Eq) b -> Forall (fun p => sg key exact p = Lt) c ->
  forall fuel, length b < fuel ->
  it_loop fuel {| it_key := key; it_exact := exact; it_current := Some (b ++ c) |} = b.
Proof.
  intros Hb Hc. induction b as [|p b IH]; intros fuel Hf; (destruct fuel as [|f]; [lia|]); cbn [it_loop app].
  - unfold it_pair, it_valid. cbn [it_current it_key it_exact]. destruct c as [|q c]; [reflexivity|].
    inversion Hc as [|? ? Hq]; subst. unfold sg in Hq. now rewrite Hq.
  - inversion Hb as [|? ? Hp Hb']; subst. unfold sg in Hp.
    unfold it_pair, it_next, it_valid. cbn [it_current it_key it_exact tl]. rewrite Hp.
    f_equal. apply IH; [exact Hb'|cbn in Hf; lia].
Qed.
Lemma filter_all {A} (f : A -> bool) l : Forall (fun x => f x = true) l -> filter f l = l.
Proof. induction 1 as [|x l H _ IH]; cbn; [reflexivity|]. now rewrite H, IH. Qed.
Lemma filter_none {A} (f : A -> bool) l : Forall (fun x => f x = false) l -> filter f l = [].
Proof. induction 1 as [|x l H _ IH]; cbn; [reflexivity|]. now rewrite H. Qed.
Lemma filter_split key exact a b c : Forall (fun p => sg key exact p = Gt) a ->
    Forall (fun p => sg key exact p = Eq) b -> Forall (fun p => sg key exact p = Lt) c ->
  filter (matches key exact) (a ++ b ++ c) = b.
Proof.
  intros Ha Hb Hc. rewrite !filter_app.
  assert (F : forall p, sg key exact p <> Eq -> matches key exact p = false).
  { intros p H. destruct (matches key exact p) eqn:E; [|reflexivity]. apply sg_matches in E. contradiction. }
  rewrite (filter_none _ a), (filter_none _ c), (filter_all _ b).
  - cbn. apply app_nil_r.
  - eapply Forall_impl; [|exact Hb]. intros p. apply sg_matches.
  - eapply Forall_impl; [|exact Hc]. intros p H. apply F. cbn in H. congruence.
  - eapply Forall_impl; [|exact Ha]. intros p H. apply F. cbn in H. congruence.
Qed.
Lemma skipn_app_len {A} (a b : list A) : skipn (length a) (a ++ b) = b.
Proof. rewrite skipn_app, skipn_all, Nat.sub_diag. reflexivity. Qed.

Lemma iterate_spec m key exact : sm_ok m ->
  it_all (it_create m key exact) = filter (matches key exact) (sm_pairs (sm_sort m)).
Proof.
  intros Hm. destruct (sm_sort_spec m Hm) as [Hs _].
  destruct (bsearch_first_spec key exact _ Hs) as (a & b & c & E & Ha & Hb & Hc & B).
  unfold it_create, it_all. rewrite B, E. cbn [it_current]. rewrite filter_split by assumption.
  destruct b as [|p b]; [reflexivity|]. cbn [it_current]. rewrite skipn_app_len. apply it_loop_spec; auto.
  cbn. rewrite app_length. lia.
Qed.
Lemma get_spec m key : sm_ok m ->
  fst (sm_get m key) = match filter (matches key true) (sm_pairs (sm_sort m)) with [] => None | p :: _ => Some (snd p) end.
Proof.
  intros Hm. destruct (sm_sort_spec m Hm) as [Hs _].
  destruct (bsearch_first_spec key true _ Hs) as (a & b & c & E & Ha & Hb & Hc & B).
  unfold sm_get. rewrite B, E. rewrite filter_split by assumption.
  destruct b as [|p b]; [reflexivity|]. cbn [fst]. rewrite app_nth2, Nat.sub_diag by lia. reflexivity.
Qed.

(** Setting. *)
Lemma set_value_app a p b v : set_value (length a) v (a ++ p :: b) = a ++ (fst p, v) :: b.
Proof. induction a as [|q a IH]; cbn; [now destruct p|]. now rewrite IH. Qed.
Lemma ksorted_map_fst l l' : map fst l = map fst l' -> ksorted l -> ksorted l'.
Proof.
  unfold ksorted, key_le. revert l'. induction l as [|x l IH]; intros [|y l'] E H; try discriminate; [constructor|].
  cbn in E. injection E as E1 E2. inversion H as [|? ? H1 H2]; subst. constructor; [now apply IH|].
  rewrite Forall_forall in H2 |- *. intros z Hz. apply (in_map fst) in Hz. rewrite <- E2 in Hz.
  apply in_map_iff in Hz as (w & E3 & Hw). rewrite <- E1, <- E3. now apply H2.
Qed.
Lemma sm_set_ok m key v : sm_ok m -> sm_ok (sm_set m key v).
Proof.
  intros Hm. pose proof (sm_sort_spec m Hm) as [Hs _]. unfold sm_set.
  destruct (bsearch_first_spec key true _ Hs) as (a & b & c & E & Ha & Hb & Hc & B). rewrite B.
  destruct b as [|p b]; [apply sm_append_ok|]. intros _. cbn [sm_pairs]. rewrite E in *. cbn [app].
  rewrite set_value_app. eapply ksorted_map_fst; [|exact Hs]. rewrite !map_app. cbn. now rewrite map_app.
Qed.
Lemma get_ext m m' key : sm_ok m -> sm_ok m' ->
  filter (matches key true) (sm_pairs (sm_sort m)) = filter (matches key true) (sm_pairs (sm_sort m')) ->
  fst (sm_get m key) = fst (sm_get m' key).
Proof. intros H H' E. rewrite !get_spec by assumption. now rewrite E. Qed.
Lemma get_perm m key v : sm_ok m -> (forall w, In (key, w) (sm_pairs m) <-> w = v) -> fst (sm_get m key) = Some v.
Proof.
  intros Hm H. rewrite get_spec by exact Hm. pose proof (sm_sort_spec m Hm) as [_ P].
  destruct (filter (matches key true) (sm_pairs (sm_sort m))) as [|p l] eqn:E.
  - exfalso. assert (X : In (key, v) (filter (matches key true) (sm_pairs (sm_sort m)))); [|rewrite E in X; destruct X].
    apply filter_In. split; [|cbn; apply bseq_refl]. apply (Permutation_in _ (Permutation_sym P)). now apply H.
  - assert (Hp : In p (filter (matches key true) (sm_pairs (sm_sort m)))) by (rewrite E; now left).
    apply filter_In in Hp as [Hp1 Hp2]. cbn in Hp2. apply bseq_eq in Hp2. destruct p as [k w]. cbn in Hp2. subst k.
    cbn. f_equal. apply H. now apply (Permutation_in _ P).
Qed.

(** Maps in which each key occurs once. *)
Definition unique (m : string_map) : Prop := NoDup (map fst (sm_pairs m)).
Lemma unique_In l (k v w : bytes) : NoDup (map fst l) -> In (k, v) l -> In (k, w) l -> v = w.
Proof.
  induction l as [|[k' x] l IH]; cbn; [tauto|]; intros Hn [H1|H1] [H2|H2]; inversion Hn as [|? ? N1 N2]; subst.
  - congruence.
  - injection H1 as -> ->. exfalso. apply N1. now apply (in_map fst) in H2.
  - injection H2 as -> ->. exfalso. apply N1. now apply (in_map fst) in H1.
  - auto.
Qed.
Lemma get_unique m key v : sm_ok m -> unique m -> (fst (sm_get m key) = Some v <-> In (key, v) (sm_pairs m)).
Proof.
  intros Hm Hu. split.
  - rewrite get_spec by exact Hm. pose proof (sm_sort_spec m Hm) as [_ P].
    destruct (filter (matches key true) (sm_pairs (sm_sort m))) as [|p l] eqn:E; [discriminate|].
    intros [= <-]. assert (Hp : In p (filter (matches key true) (sm_pairs (sm_sort m)))) by (rewrite E; now left).
    apply filter_In in Hp as [Hp1 Hp2]. cbn in Hp2. apply bseq_eq in Hp2. destruct p as [k w]. cbn in Hp2. subst k.
    now apply (Permutation_in _ P).
  - intros H. apply get_perm; [exact Hm|]. intros w. split; [intros H'; now apply (unique_In _ _ _ _ Hu H')|now intros ->].
Qed.
Lemma sm_set_pairs m key v : sm_ok m -> unique m ->
  unique (sm_set m key v) /\
  forall k w, In (k, w) (sm_pairs (sm_set m key v)) <-> (k = key /\ w = v) \/ (k <> key /\ In (k, w) (sm_pairs m)).
Proof.
  intros Hm Hu. pose proof (sm_sort_spec m Hm) as [Hs P]. unfold sm_set, unique in *.
  assert (Hu' : NoDup (map fst (sm_pairs (sm_sort m)))).
  { eapply Permutation_NoDup; [apply Permutation_map, Permutation_sym, P|exact Hu]. }
  assert (HIn : forall x, In x (sm_pairs m) <-> In x (sm_pairs (sm_sort m))).
  { intros x. split; apply Permutation_in; [now apply Permutation_sym|exact P]. }
  destruct (bsearch_first_spec key true _ Hs) as (a & b & c & E & Ha & Hb & Hc & B). rewrite B.
  assert (Nk : forall l d, d <> Eq -> Forall (fun p => sg key true p = d) l -> forall w, ~ In (key, w) l).
  { intros l d Hd Hl w Hi. rewrite Forall_forall in Hl. apply Hl in Hi. unfold sg, string_cmp in Hi. cbn in Hi.
    rewrite bcmp_refl in Hi. congruence. }
  destruct b as [|p b]; cbn [sm_append sm_pairs].
  - assert (Nin : forall w, ~ In (key, w) (sm_pairs (sm_sort m))).
    { intros w. rewrite E. cbn [app]. rewrite in_app_iff. intros [H|H]; revert H; [now apply (Nk a Gt)|now apply (Nk c Lt)]. }
    split.
    + rewrite map_app. cbn. apply (Permutation_NoDup (Permutation_app_comm [key] _)). cbn. constructor; [|exact Hu'].
      intros H. apply in_map_iff in H as ([k w] & Hk & H). cbn in Hk. subst. now apply Nin in H.
    + intros k w. rewrite in_app_iff, HIn. cbn. split.
      * intros [H|[[= <- <-]|[]]]; [right|now left]. split; [|exact H]. intros ->. now apply Nin in H.
      * intros [[-> ->]|[_ H]]; auto.
  - inversion Hb as [|? ? Hp Hb']; subst. rewrite E in Hu', HIn |- *. cbn [app] in *. rewrite set_value_app. cbn [sm_pairs].
    assert (Kp : fst p = key).
    { unfold sg, string_cmp in Hp. apply bcmp_eq in Hp. now symmetry. }
    split; [rewrite map_app in *; exact Hu'|].
    assert (No : forall k w, In (k, w) (a ++ b ++ c) -> k <> key).
    { intros k w Hi ->. rewrite map_app in Hu'. cbn in Hu'. apply NoDup_remove_2 in Hu'. apply Hu'.
      rewrite <- map_app, Kp. change key with (fst (key, w)). now apply in_map. }
    intros k w. rewrite HIn. rewrite !in_app_iff. cbn [In]. rewrite Kp.
    assert (No' : forall w, In (k, w) a \/ In (k, w) (b ++ c) -> k <> key) by (intros w' Hi; apply (No k w'), in_app_iff, Hi).
    split.
    + intros [H|[[= <- <-]|H]]; [right|now left|right]; (split; [now apply (No' w); auto|auto]).
    + intros [[-> ->]|[Hk [H|[->|H]]]]; auto. cbn in Kp. congruence.
Qed.
