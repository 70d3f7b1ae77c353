(** Proofs about searching (C24, C25). *)
From Verif Require Import Bytes Terms XQuery DocSet Thread Query QuerySpec.
From Coq Require Import Sorted Permutation.
Local Open Scope nat_scope.

(** * The bitmap *)
Definition ds_wf (s : docset) : Prop := (ds_bound s <= 8 * N.of_nat (length (ds_bitmap s)))%N.
Definition ds_bit (bm : list N) (id : N) : bool := N.testbit (nth (docset_word id) bm 0%N) (docset_bit id).

Lemma word_lt id n : (id < 8 * N.of_nat n)%N -> docset_word id < n.
Proof.
  intros H. unfold docset_word, CHAR_BIT.
  assert (id / 8 < N.of_nat n)%N by (apply N.div_lt_upper_bound; lia). lia.
Qed.
Lemma land_bit w b : negb (N.land w (N.shiftl 1 b) =? 0)%N = N.testbit w b.
Proof.
  rewrite N.shiftl_1_l. destruct (N.testbit w b) eqn:E.
  - destruct (N.eqb_spec (N.land w (2 ^ b)) 0) as [Z|]; [|reflexivity]. exfalso.
    assert (T : N.testbit (N.land w (2 ^ b)) b = true) by (rewrite N.land_spec, E, N.pow2_bits_true; reflexivity).
    rewrite Z, N.bits_0 in T. discriminate.
  - destruct (N.eqb_spec (N.land w (2 ^ b)) 0) as [|NZ]; [reflexivity|]. exfalso. apply NZ.
    apply N.bits_inj. intros k. rewrite N.land_spec, N.bits_0. destruct (N.eq_dec b k) as [->|NE].
    + rewrite E. reflexivity.
    + rewrite N.pow2_bits_false by congruence. apply andb_false_r.
Qed.
Lemma ds_contains_eq s id : ds_wf s -> ds_contains s id = Some ((id <? ds_bound s)%N && ds_bit (ds_bitmap s) id).
Proof.
  intros W. unfold ds_contains. destruct (N.leb_spec (ds_bound s) id) as [L|L].
  - replace (id <? ds_bound s)%N with false by (symmetry; apply N.ltb_ge; exact L). reflexivity.
  - replace (id <? ds_bound s)%N with true by (symmetry; apply N.ltb_lt; exact L).
    assert (Hw : docset_word id < length (ds_bitmap s)) by (apply word_lt; unfold ds_wf in W; lia).
    rewrite (nth_error_nth' _ 0%N Hw), land_bit. reflexivity.
Qed.

Lemma set_nth_length l i v : length (set_nth l i v) = length l.
Proof. revert i. induction l as [|x l IH]; intros [|i]; cbn; auto. Qed.
Lemma nth_set_nth l i v j : i < length l -> nth j (set_nth l i v) 0%N = if Nat.eqb j i then v else nth j l 0%N.
Proof.
  revert i j. induction l as [|x l IH]; intros i j H; cbn in H; [lia|].
  destruct i as [|i], j as [|j]; cbn; auto. apply IH. lia.
Qed.
Lemma word_bit_inj a b : docset_word a = docset_word b -> docset_bit a = docset_bit b -> a = b.
Proof.
  unfold docset_word, docset_bit, CHAR_BIT. intros H1 H2. apply N2Nat.inj in H1.
  rewrite (N.div_mod' a 8), (N.div_mod' b 8). congruence.
Qed.
Lemma ds_set_bit_spec bm id : docset_word id < length bm ->
  exists bm', ds_set_bit bm id = Some bm' /\ length bm' = length bm /\
    forall j, ds_bit bm' j = (N.eqb j id) || ds_bit bm j.
Proof.
  intros H. unfold ds_set_bit. rewrite (nth_error_nth' _ 0%N H). eexists. split; [reflexivity|].
  split; [apply set_nth_length|]. intros j. unfold ds_bit. rewrite nth_set_nth by exact H.
  destruct (Nat.eqb_spec (docset_word j) (docset_word id)) as [E|E].
  - rewrite N.lor_spec, N.shiftl_1_l. destruct (N.eqb_spec j id) as [->|NE].
    + rewrite N.pow2_bits_true. apply orb_true_r.
    + rewrite N.pow2_bits_false by (intros X; apply NE; symmetry; apply word_bit_inj; congruence).
      rewrite E, orb_false_r. reflexivity.
  - destruct (N.eqb_spec j id) as [->|NE]; [congruence|reflexivity].
Qed.
Lemma ds_set_all_spec ids : forall bm, (forall id, In id ids -> docset_word id < length bm) ->
  exists bm', ds_set_all bm ids = Some bm' /\ length bm' = length bm /\
    forall j, ds_bit bm' j = (existsb (N.eqb j) ids) || ds_bit bm j.
Proof.
  induction ids as [|id ids IH]; intros bm H; cbn [ds_set_all].
  - exists bm. auto.
  - destruct (ds_set_bit_spec bm id) as (b1 & E1 & L1 & B1); [apply H; now left|]. rewrite E1.
    destruct (IH b1) as (b2 & E2 & L2 & B2); [intros; rewrite L1; apply H; now right|].
    exists b2. split; [exact E2|]. split; [congruence|]. intros j. rewrite B2, B1. cbn [existsb].
    rewrite orb_assoc. f_equal. apply orb_comm.
Qed.
Lemma ds_max_ge ids id : In id ids -> (id <= ds_max ids)%N.
Proof.
  unfold ds_max. assert (G : forall l a, (a <= fold_left N.max l a)%N /\ forall x, In x l -> (x <= fold_left N.max l a)%N).
  { induction l as [|y l IH]; intros a; cbn; [split; [lia|tauto]|]. destruct (IH (N.max a y)) as (H1 & H2).
    split; [lia|]. intros x [->|Hx]; [lia|auto]. }
  apply G.
Qed.
Lemma ds_max_in ids : ds_max ids = 0%N \/ In (ds_max ids) ids.
Proof.
  unfold ds_max. assert (G : forall l a, fold_left N.max l a = a \/ In (fold_left N.max l a) l).
  { induction l as [|y l IH]; intros a; cbn; [now left|]. destruct (IH (N.max a y)) as [H|H]; [|auto].
    rewrite H. destruct (N.max_spec a y) as [(_ & ->)|(_ & ->)]; auto. }
  apply G.
Qed.

(** [ds_rep s P]: the bitmap is sound and represents the set [P]. *)
Definition ds_rep (s : docset) (P : N -> bool) : Prop :=
  ds_wf s /\ forall id, ds_contains s id = Some (P id).

Lemma ds_init_rep ids : (forall id, In id ids -> (id < 2 ^ 32 - 1)%N) ->
  exists s, ds_init ids = Some s /\ ds_rep s (fun id => existsb (N.eqb id) ids).
Proof.
  intros H. unfold ds_init.
  assert (M : (ds_max ids < 2 ^ 32 - 1)%N) by (destruct (ds_max_in ids) as [->|X]; [lia|now apply H]).
  destruct (ds_set_all_spec ids (repeat 0%N (docset_word (ds_max ids) + 1))) as (bm & E & L & B).
  { intros id Hi. rewrite repeat_length. unfold docset_word, CHAR_BIT.
    pose proof (N.div_le_mono id (ds_max ids) 8 ltac:(lia) (ds_max_ge ids id Hi)). lia. }
  rewrite E. eexists. split; [reflexivity|]. rewrite N.mod_small by lia.
  assert (W : ds_wf (mk_docset bm (ds_max ids + 1))).
  { unfold ds_wf. cbn [ds_bound ds_bitmap]. rewrite L, repeat_length. unfold docset_word, CHAR_BIT.
    pose proof (N.div_mod' (ds_max ids) 8). pose proof (N.mod_upper_bound (ds_max ids) 8). lia. }
  split; [exact W|]. intros id. rewrite ds_contains_eq by exact W. cbn [ds_bound ds_bitmap]. rewrite B.
  assert (Z : ds_bit (repeat 0%N (docset_word (ds_max ids) + 1)) id = false).
  { unfold ds_bit. assert (G : forall n k, nth k (repeat 0%N n) 0%N = 0%N)
      by (induction n as [|n IH]; intros [|k]; cbn; auto). rewrite G. apply N.bits_0. }
  rewrite Z, orb_false_r. f_equal. destruct (existsb (N.eqb id) ids) eqn:X; [|apply andb_false_r].
  rewrite andb_true_r. apply existsb_exists in X as (y & Hy & Ey). apply N.eqb_eq in Ey. subst y.
  apply N.ltb_lt. pose proof (ds_max_ge ids id Hy). lia.
Qed.
Lemma ds_remove_rep s P id : ds_rep s P -> exists s', ds_remove s id = Some s' /\ ds_rep s' (fun j => P j && negb (N.eqb j id)).
Proof.
  intros (W & C). unfold ds_remove. destruct (N.ltb_spec id (ds_bound s)) as [L|L].
  - assert (Hw : docset_word id < length (ds_bitmap s)) by (apply word_lt; unfold ds_wf in W; lia).
    rewrite (nth_error_nth' _ 0%N Hw). eexists. split; [reflexivity|].
    assert (W' : ds_wf (mk_docset (set_nth (ds_bitmap s) (docset_word id)
               (N.ldiff (nth (docset_word id) (ds_bitmap s) 0%N) (N.shiftl 1 (docset_bit id)))) (ds_bound s)))
      by (unfold ds_wf; cbn [ds_bound ds_bitmap]; rewrite set_nth_length; exact W).
    split; [exact W'|]. intros j. rewrite ds_contains_eq by exact W'. cbn [ds_bound ds_bitmap].
    specialize (C j). rewrite ds_contains_eq in C by exact W. injection C as <-. f_equal.
    rewrite <- andb_assoc. f_equal. unfold ds_bit. rewrite nth_set_nth by exact Hw.
    destruct (Nat.eqb_spec (docset_word j) (docset_word id)) as [E|E].
    + rewrite N.ldiff_spec, N.shiftl_1_l. destruct (N.eqb_spec j id) as [->|NE].
      * rewrite N.pow2_bits_true. reflexivity.
      * rewrite N.pow2_bits_false by (intros X; apply NE; symmetry; apply word_bit_inj; congruence). now rewrite E.
    + destruct (N.eqb_spec j id) as [->|NE]; [congruence|]. now rewrite andb_true_r.
  - exists s. split; [reflexivity|]. split; [exact W|]. intros j. rewrite C. f_equal.
    destruct (N.eqb_spec j id) as [->|NE]; [|now rewrite andb_true_r].
    specialize (C id). rewrite ds_contains_eq in C by exact W. injection C as <-.
    replace (id <? ds_bound s)%N with false by (symmetry; apply N.ltb_ge; exact L). reflexivity.
Qed.

(** * Sorting *)
Lemma sort_ins_perm le d l : Permutation (sort_ins le d l) (d :: l).
Proof. induction l as [|e l IH]; cbn; [reflexivity|]. destruct (le d e); [reflexivity|]. rewrite IH. constructor. Qed.
Lemma sort_docs_perm le l : Permutation (sort_docs le l) l.
Proof. induction l as [|d l IH]; cbn; [constructor|]. rewrite sort_ins_perm. now constructor. Qed.
Lemma get_mset_In db x le d : In d (get_mset db x le) <-> In d db /\ matches x d.
Proof. unfold get_mset. rewrite (Permutation_in' (eq_refl d) (sort_docs_perm _ _)). apply filter_In. Qed.
Lemma NoDup_map_filter {A B} (f : A -> B) p l : NoDup (map f l) -> NoDup (map f (filter p l)).
Proof.
  induction l as [|x l IH]; cbn; intros H; [constructor|]. inversion H as [|? ? Hx Hl]; subst.
  destruct (p x); [|auto]. cbn. constructor; [|auto]. intros X. apply Hx. apply in_map_iff in X as (y & E & Hy).
  apply filter_In in Hy as (Hy & _). rewrite <- E. now apply in_map.
Qed.
Lemma get_mset_nodup db x le : NoDup (map xd_id db) -> NoDup (map xd_id (get_mset db x le)).
Proof.
  intros H. unfold get_mset. eapply Permutation_NoDup; [apply Permutation_map, Permutation_sym, sort_docs_perm|].
  now apply NoDup_map_filter.
Qed.
Lemma sort_docs_sorted le (R : xdoc -> xdoc -> Prop) :
  (forall a b, le a b = true -> R a b) -> (forall a b, le a b = false -> R b a) ->
  forall l, Sorted R (sort_docs le l).
Proof.
  intros H1 H2 l. induction l as [|d l IH]; cbn; [constructor|].
  induction IH as [|e t Ht IHt He]; cbn; [repeat constructor|]. destruct (le d e) eqn:E.
  - constructor; [constructor; assumption|]. constructor. auto.
  - constructor; [exact IHt|]. destruct t as [|g t]; cbn; [constructor; auto|].
    inversion He; subst. destruct (le d g); constructor; auto.
Qed.
Lemma get_mset_sorted db x s : Sorted (in_order s) (get_mset db x (sort_le s)).
Proof.
  apply sort_docs_sorted; destruct s; cbn; intros a b H; auto.
  - unfold le_date in H. lia.
  - lia.
  - unfold le_date in H. lia.
  - lia.
  - destruct (bleb_total (xd_mid a) (xd_mid b)); congruence.
Qed.

(** * Exclusion *)
Lemma strip_K t tag : strip_prefix (lit "K") t = Some tag <-> t = lit "K" ++ tag.
Proof. rewrite strip_prefix_Some. reflexivity. Qed.
Lemma doc_tags_In ts tag : In tag (doc_tags ts) <-> In (lit "K" ++ tag) ts.
Proof.
  induction ts as [|t ts IH]; cbn [doc_tags]; [cbn; tauto|].
  destruct (strip_prefix (lit "K") t) as [g|] eqn:E.
  - apply strip_K in E. subst t. cbn [In]. rewrite IH. split; (intros [H|H]; [left|auto]).
    + now subst.
    + apply app_inv_head in H. exact H.
  - cbn [In]. rewrite IH. split; [auto|]. intros [H|H]; [|exact H]. exfalso. subst t.
    rewrite strip_prefix_app in E. discriminate.
Qed.

Lemma configure_exclude x tags m s :
  let q := configure (Some x) tags m s in
  q_parse q = Some x /\ q_omit q = m /\ q_sort q = s /\
  q_exclude q = map (app (lit "K")) (filter (fun t => negb (tmem (lit "K" ++ t) (xterms x))) tags).
Proof.
  cbn zeta. unfold configure. cbn [set_sort set_omit_excluded q_parse q_exclude q_omit q_sort].
  assert (G : forall q, q_parse q = Some x ->
    q_parse (fold_left (fun q t => fst (add_tag_exclude q t)) tags q) = Some x /\
    q_exclude (fold_left (fun q t => fst (add_tag_exclude q t)) tags q) =
      q_exclude q ++ map (app (lit "K")) (filter (fun t => negb (tmem (lit "K" ++ t) (xterms x))) tags)).
  { induction tags as [|t tags IH]; intros q H; cbn [fold_left filter map]; [rewrite app_nil_r; auto|].
    destruct (IH (fst (add_tag_exclude q t))) as (I1 & I2).
    { unfold add_tag_exclude. rewrite H. destruct (tmem _ _); cbn; auto. }
    split; [exact I1|]. rewrite I2. unfold add_tag_exclude. rewrite H.
    destruct (tmem (lit "K" ++ t) (xterms x)); cbn [fst q_exclude negb map]; [reflexivity|].
    rewrite <- app_assoc. reflexivity. }
  destruct (G (query_create (Some x)) eq_refl) as (G1 & G2). auto.
Qed.

Lemma exclude_tags_match q d : xmatch (exclude_tags q) d = existsb (fun t => tmem t (xd_terms d)) (q_exclude q).
Proof.
  unfold exclude_tags. assert (G : forall l x, xmatch (fold_left (fun x term => XOp OP_OR x (XTerm term)) l x) d =
     xmatch x d || existsb (fun t => tmem t (xd_terms d)) l).
  { induction l as [|t l IH]; intros x; cbn [fold_left existsb]; [now rewrite orb_false_r|].
    rewrite IH. cbn [xmatch]. now rewrite orb_assoc. }
  rewrite G. reflexivity.
Qed.
Lemma exclude_spec x tags m s d : xmatch (exclude_tags (configure (Some x) tags m s)) d = true <-> excluded x tags d.
Proof.
  rewrite exclude_tags_match. destruct (configure_exclude x tags m s) as (_ & _ & _ & ->).
  rewrite existsb_exists. unfold excluded, names_tag, has_tag. split.
  - intros (t & Ht & H). apply in_map_iff in Ht as (g & <- & Hg). apply filter_In in Hg as (Hg & N).
    exists g. split; [exact Hg|]. rewrite negb_true_iff, tmem_false in N. rewrite tmem_In in H. auto.
  - intros (t & Ht & N & H). exists (lit "K" ++ t). split; [|now apply tmem_In].
    apply in_map. apply filter_In. split; [exact Ht|]. rewrite negb_true_iff, tmem_false. exact N.
Qed.

Lemma mail_query_match x d : xmatch (mail_query x) d = true <-> is_mail d /\ matches x d.
Proof. cbn [mail_query xmatch]. rewrite andb_true_iff, tmem_In. reflexivity. Qed.

Lemma existsb_ids l d : NoDup (map xd_id l) \/ True -> existsb (N.eqb (xd_id d)) (map xd_id l) = true <-> exists e, In e l /\ xd_id e = xd_id d.
Proof.
  intros _. rewrite existsb_exists. split.
  - intros (i & Hi & E). apply N.eqb_eq in E. apply in_map_iff in Hi as (e & He & H). exists e. split; [exact H|congruence].
  - intros (e & He & E). exists (xd_id e). split; [now apply in_map|]. now rewrite E, N.eqb_refl.
Qed.
Lemma id_inj db d e : NoDup (map xd_id db) -> In d db -> In e db -> xd_id d = xd_id e -> d = e.
Proof.
  induction db as [|x db IH]; cbn; intros N Hd He E; [contradiction|]. inversion N as [|? ? Hx Hl]; subst.
  destruct Hd as [->|Hd], He as [->|He]; auto.
  - exfalso. apply Hx. rewrite E. now apply in_map.
  - exfalso. apply Hx. rewrite <- E. now apply in_map.
Qed.

Lemma iterate_docs_const set l (f : xdoc -> bool) ds : (forall d, In d l -> message_flag (mk_messages ds set) d = Some (f d)) ->
  iterate_docs (mk_messages ds set) l = Some (map (fun d => (d, f d)) l).
Proof.
  induction l as [|d l IH]; intros H; cbn [iterate_docs]; [reflexivity|].
  rewrite (H d) by now left. rewrite IH; [reflexivity|]. intros; apply H; now right.
Qed.

Lemma search_ok db x tags m s : ids_ok db ->
  exists ms l, search_messages db (configure (Some x) tags m s) = Some ms /\ iterate_messages ms = Some l /\
    ms_docs ms = map fst l /\ NoDup (map xd_id (map fst l)) /\ Sorted (in_order s) (map fst l) /\
    (forall d b, In (d, b) l <-> selected db x tags m d /\ (b = true <-> m = EXCLUDE_FLAG /\ excluded x tags d)).
Proof.
  intros (N & B). destruct (configure_exclude x tags m s) as (Qp & Qo & Qs & Qe).
  set (q := configure (Some x) tags m s) in *. unfold search_messages. rewrite Qp, Qo, Qs.
  assert (CONST : forall (y : xq) f, map fst (map (fun d : xdoc => (d, f d : bool)) (get_mset db y (sort_le s))) = get_mset db y (sort_le s))
    by (intros; rewrite map_map; apply map_id).
  assert (SIMPLE : forall y, (forall d, In d db -> (xmatch y d = true <-> selected db x tags m d)) -> m <> EXCLUDE_FLAG ->
    exists ms l, Some (mk_messages (get_mset db y (sort_le s)) None) = Some ms /\ iterate_messages ms = Some l /\
    ms_docs ms = map fst l /\ NoDup (map xd_id (map fst l)) /\ Sorted (in_order s) (map fst l) /\
    (forall d b, In (d, b) l <-> selected db x tags m d /\ (b = true <-> m = EXCLUDE_FLAG /\ excluded x tags d))).
  { intros y Hy NF. eexists _, _. split; [reflexivity|]. unfold iterate_messages. cbn [ms_docs].
    split; [apply (iterate_docs_const None) with (f := fun _ => false); reflexivity|].
    rewrite CONST. split; [reflexivity|]. split; [now apply get_mset_nodup|]. split; [apply get_mset_sorted|].
    intros d b. rewrite in_map_iff. split.
    - intros (e & E & He). injection E as -> <-. apply get_mset_In in He as (He & Hm). split; [now apply Hy|].
      split; [discriminate|intros (F & _); contradiction].
    - intros (Hs & Hb). exists d. split; [|apply get_mset_In; split; [apply Hs|apply Hy; [apply Hs|exact Hs]]].
      f_equal. destruct b; [|reflexivity]. destruct Hb as (Hb & _). destruct (Hb eq_refl); contradiction. }
  destruct m.
  - apply SIMPLE; [|discriminate]. intros d Hd. rewrite mail_query_match. unfold selected. tauto.
  - apply SIMPLE; [|discriminate]. intros d Hd.
    change (xmatch (mail_query x) d && negb (xmatch (exclude_tags q) d) = true <-> selected db x tags EXCLUDE_TRUE d).
    rewrite andb_true_iff, mail_query_match, negb_true_iff, <- not_true_iff_false. unfold q. rewrite exclude_spec.
    unfold selected. tauto.
  - set (ex := XOp OP_AND (exclude_tags q) (mail_query x)).
    destruct (ds_init_rep (map xd_id (get_mset db ex (sort_le SORT_UNSORTED)))) as (set & Es & R).
    { intros id Hi. apply in_map_iff in Hi as (d & <- & Hd). apply get_mset_In in Hd as (Hd & _). now apply B. }
    rewrite Es. eexists _, _. split; [reflexivity|]. unfold iterate_messages. cbn [ms_docs].
    split.
    { apply (iterate_docs_const (Some set)) with (f := fun d => existsb (N.eqb (xd_id d)) (map xd_id (get_mset db ex (sort_le SORT_UNSORTED)))).
      intros d _. unfold message_flag. cbn [ms_excluded]. apply R. }
    rewrite CONST. split; [reflexivity|]. split; [now apply get_mset_nodup|]. split; [apply get_mset_sorted|].
    assert (FL : forall d, In d db -> matches (mail_query x) d ->
       existsb (N.eqb (xd_id d)) (map xd_id (get_mset db ex (sort_le SORT_UNSORTED))) = true <-> excluded x tags d).
    { intros d Hd Hm. rewrite existsb_ids by auto. split.
      - intros (e & He & E). apply get_mset_In in He as (He & Hx).
        assert (e = d) by (eapply id_inj; eauto). subst e. unfold matches, ex in Hx. cbn [xmatch] in Hx.
        apply andb_true_iff in Hx as (Hx & _). now apply exclude_spec in Hx.
      - intros Hx. exists d. split; [|reflexivity]. apply get_mset_In. split; [exact Hd|]. unfold matches, ex. cbn [xmatch].
        apply andb_true_iff. split; [now apply exclude_spec|exact Hm]. }
    intros d b. rewrite in_map_iff. split.
    + intros (e & E & He). injection E as -> <-. apply get_mset_In in He as (He & Hm).
      pose proof Hm as Hm'. apply mail_query_match in Hm'. unfold selected. split; [tauto|]. rewrite FL by auto. tauto.
    + intros ((Hd & Hm1 & Hm2 & _) & Hb). exists d.
      assert (Hm : matches (mail_query x) d) by (apply mail_query_match; auto).
      split; [|apply get_mset_In; auto]. f_equal. apply eq_true_iff_eq. rewrite FL by auto. tauto.
  - apply SIMPLE; [|discriminate]. intros d Hd.
    change (xmatch (mail_query x) d && negb (xmatch (exclude_tags q) d) = true <-> selected db x tags EXCLUDE_ALL d).
    rewrite andb_true_iff, mail_query_match, negb_true_iff, <- not_true_iff_false. unfold q. rewrite exclude_spec.
    unfold selected. tauto.
Qed.

Lemma count_ok db x tags m s : count_messages db (configure (Some x) tags m s) =
  Some (length (filter (fun d => xmatch (mail_query x) d && negb (xmatch (exclude_tags (configure (Some x) tags m s)) d)) db)).
Proof.
  unfold count_messages. destruct (configure_exclude x tags m s) as (Qp & _). rewrite Qp.
  f_equal. apply Permutation_length. unfold get_mset. rewrite sort_docs_perm. reflexivity.
Qed.
