From Verif Require Import Bytes Terms Meta MetaProofs StringMap StringMapProofs DocMap Db DbSpec DbProofs Props PropsSpec.
From Coq Require Import Sorting.Sorted Sorting.Permutation.
Local Open Scope nat_scope.

Lemma split_property_app k v : key_ok k -> split_property (k ++ "="%char :: v) = Some (k, v).
Proof.
  intros H. unfold split_property. rewrite span_eq.
  assert (F : forallb (fun c => negb (beq c "="%char)) k = true).
  { apply forallb_forall. intros c Hc. destruct (beq_spec c "="%char); [subst; contradiction|reflexivity]. }
  rewrite takewhile_app_stop, dropwhile_app_stop by (exact F || (right; reflexivity) || (left; reflexivity)). reflexivity.
Qed.
Lemma split_property_Some s k v : split_property s = Some (k, v) <-> s = k ++ "="%char :: v /\ key_ok k.
Proof.
  split; [|intros [-> H]; now apply split_property_app].
  unfold split_property. rewrite span_eq. pose proof (take_drop (fun c => negb (beq c "="%char)) s) as E.
  pose proof (dropwhile_head (fun c => negb (beq c "="%char)) s) as Hh.
  destruct (dropwhile _ s) as [|c r] eqn:Er; [discriminate|]. intros [= <- <-].
  apply negb_false_iff, beq_eq in Hh. subst c. split; [now rewrite E|].
  intros Hin. pose proof (takewhile_all (fun c => negb (beq c "="%char)) s) as F.
  apply (forallb_In _ _ _ F) in Hin. discriminate.
Qed.
Lemma split_property_None s : split_property s = None <-> ~ In "="%char s.
Proof.
  split.
  - unfold split_property. rewrite span_eq. intros H Hin.
    pose proof (take_drop (fun c => negb (beq c "="%char)) s) as E.
    destruct (dropwhile _ s) as [|c r] eqn:Er; [|discriminate]. rewrite app_nil_r in E. rewrite <- E in Hin.
    pose proof (takewhile_all (fun c => negb (beq c "="%char)) s) as F.
    apply (forallb_In _ _ _ F) in Hin. discriminate.
  - intros H. destruct (split_property s) as [[k v]|] eqn:E; [|reflexivity].
    apply split_property_Some in E as [-> _]. exfalso. apply H, in_or_app. right. now left.
Qed.
Lemma property_term_inj k v k' v' : key_ok k -> key_ok k' -> property_term k v = property_term k' v' -> k = k' /\ v = v'.
Proof.
  unfold property_term. intros H H' E. apply app_inv_head in E.
  apply (f_equal split_property) in E. rewrite !split_property_app in E by assumption. injection E. auto.
Qed.

Lemma fill_map_spec l : forall m, (forall s, In s l -> In "="%char s) ->
  exists m', fill_map l m = Some m' /\ (l <> [] -> sm_sorted m' = false) /\ (l = [] -> m' = m) /\
    (forall p, In p (sm_pairs m') <-> In p (sm_pairs m) \/ exists s, In s l /\ split_property s = Some p) /\
    (NoDup l -> NoDup (sm_pairs m) -> (forall s p, In s l -> split_property s = Some p -> ~ In p (sm_pairs m)) -> NoDup (sm_pairs m')).
Proof.
  induction l as [|s l IH]; intros m H; cbn [fill_map].
  - exists m. split; [reflexivity|]. split; [congruence|]. split; [reflexivity|]. split; [|auto].
    intros p. split; [now left|]. intros [Hp|(s & [] & _)]. exact Hp.
  - destruct (split_property s) as [[k v]|] eqn:E; [|exfalso; apply split_property_None in E; apply E, H; now left].
    destruct (IH (sm_append m k v)) as (m' & A & B & B0 & C & D); [intros; apply H; now right|].
    exists m'. split; [exact A|]. split.
    + intros _. destruct l as [|s' l']; [|apply B; discriminate]. now rewrite (B0 eq_refl).
    + split; [discriminate|]. split.
      * intros p. rewrite C. cbn [sm_append sm_pairs]. rewrite in_app_iff. cbn [In]. split.
        -- intros [[Hp|[<-|[]]]|(s' & H1 & H2)]; [now left| |]; right; eauto.
        -- intros [Hp|(s' & [<-|H1] & H2)]; [auto| |right; eauto]. rewrite E in H2. injection H2 as <-. auto.
      * intros Hn Hm Hd. inversion Hn as [|? ? N1 N2]; subst. apply D; [exact N2| |].
        -- cbn [sm_append sm_pairs]. apply (Permutation_NoDup (Permutation_app_comm [(k, v)] _)). cbn.
           constructor; [|exact Hm]. apply (Hd s); [now left|exact E].
        -- intros s' p Hs' Hp. cbn [sm_append sm_pairs]. rewrite in_app_iff. cbn [In].
           intros [Hx|[<-|[]]]; [revert Hx; apply (Hd s'); [now right|exact Hp]|].
           apply split_property_Some in E as [E _], Hp as [Hp _]. apply N1. congruence.
Qed.

Lemma property_strings terms : tsorted terms -> forall s,
  In s (fst (get_terms_with_prefix property_prefix terms)) <-> In (property_prefix ++ s) terms.
Proof. intros Hs s. now apply get_terms_spec. Qed.

Lemma property_map_spec terms : tsorted terms -> props_wf terms ->
  exists m, property_map terms = Some m /\ sm_ok m /\ NoDup (sm_pairs m) /\
    StronglySorted pair_le (sm_pairs (sm_sort m)) /\
    (forall k v, In (k, v) (sm_pairs m) <-> props terms k v).
Proof.
  intros Hs Hw. unfold property_map.
  set (l := fst (get_terms_with_prefix property_prefix terms)).
  assert (Hl : forall s, In s l <-> In (property_prefix ++ s) terms) by now apply property_strings.
  destruct (fill_map_spec l sm_create) as (m & A & B & B0 & C & D).
  { intros s Hin. apply Hw. now apply Hl. }
  exists m. split; [exact A|]. split.
  { destruct l as [|s l']; [rewrite B0 by reflexivity; apply sm_create_ok|].
    intros E. rewrite B in E; discriminate. }
  split.
  { apply D; [apply tsorted_nodup, get_terms_sorted, Hs|constructor|]. intros s p _ _ []. }
  split.
  { destruct l as [|s l']; [rewrite B0 by reflexivity; cbn; constructor|].
    unfold sm_sort. rewrite B by discriminate. destruct (sm_pairs m) eqn:E; [rewrite E; constructor|]. apply qsort_sorted. }
  intros k v. rewrite C. cbn [sm_create sm_pairs In]. unfold props, property_term. split.
  - intros [[]|(s & H1 & H2)]. apply split_property_Some in H2 as [-> H2]. split; [exact H2|]. now apply Hl.
  - intros [H1 H2]. right. exists (k ++ "="%char :: v). split; [now apply Hl|now apply split_property_app].
Qed.

Lemma sorted_nodup_strict l : StronglySorted pair_le l -> NoDup l -> StronglySorted pair_before l.
Proof.
  induction 1 as [|x l Hl IH Hx]; intros Hn; [constructor|]. inversion Hn as [|? ? N1 N2]; subst.
  constructor; [auto|]. rewrite Forall_forall in Hx |- *. intros y Hy. specialize (Hx y Hy).
  unfold pair_before. unfold pair_le, cmppair in Hx. destruct x as [a b], y as [c d]. cbn [fst snd] in *.
  destruct (bcmp a c) eqn:E; [|now left|congruence]. apply bcmp_eq in E. subst. right. split; [reflexivity|].
  destruct (bcmp b d) eqn:E2; [|reflexivity|congruence]. apply bcmp_eq in E2. subst. contradiction.
Qed.
Lemma filter_strict f l : StronglySorted pair_before l -> StronglySorted pair_before (filter f l).
Proof.
  induction 1 as [|x l Hl IH Hx]; cbn; [constructor|]. destruct (f x); [|exact IH]. constructor; [exact IH|].
  rewrite Forall_forall in *. intros y Hy. apply filter_In in Hy as [Hy _]. auto.
Qed.

Lemma lists_spec terms key exact : tsorted terms -> props_wf terms -> exists m, property_map terms = Some m /\ sm_ok m /\
  lists (filter (matches key exact) (sm_pairs (sm_sort m))) (props terms) (key_matches key exact).
Proof.
  intros Hs Hw. destruct (property_map_spec terms Hs Hw) as (m & A & B & C & D & E).
  exists m. split; [exact A|]. split; [exact B|]. destruct (sm_sort_spec m B) as [_ P]. split.
  - intros k v. rewrite filter_In. rewrite <- E.
    assert (PI : In (k, v) (sm_pairs (sm_sort m)) <-> In (k, v) (sm_pairs m))
      by (split; apply Permutation_in; [exact P|now apply Permutation_sym]).
    rewrite PI. assert (M : matches key exact (k, v) = true <-> key_matches key exact k).
    { unfold matches, key_matches. destruct exact; cbn [fst].
      - rewrite bseq_eq. split; congruence.
      - apply starts_with_app. }
    now rewrite M.
  - apply filter_strict, sorted_nodup_strict; [exact D|]. eapply Permutation_NoDup; [apply Permutation_sym, P|exact C].
Qed.

Lemma get_properties_spec terms key exact : tsorted terms -> props_wf terms ->
  exists l, get_properties terms key exact = Some l /\ lists l (props terms) (key_matches key exact).
Proof.
  intros Hs Hw. destruct (lists_spec terms key exact Hs Hw) as (m & A & B & C). eexists. unfold get_properties. rewrite A.
  split; [reflexivity|]. now rewrite iterate_spec.
Qed.
Lemma get_property_spec terms key : tsorted terms -> props_wf terms ->
  exists l, get_properties terms key true = Some l /\
    get_property terms key = Some (match l with [] => None | p :: _ => Some (snd p) end).
Proof.
  intros Hs Hw. destruct (lists_spec terms key true Hs Hw) as (m & A & B & C). unfold get_properties, get_property. rewrite A.
  cbn [option_map]. eexists. split; [reflexivity|]. rewrite get_spec, iterate_spec by exact B. reflexivity.
Qed.
Lemma it_count_loop fuel : forall it n, it_count fuel it n = n + length (it_loop fuel it).
Proof.
  induction fuel as [|f IH]; intros it n; cbn [it_count it_loop]; [cbn; lia|].
  unfold it_pair. destruct (it_valid it) eqn:E; [|cbn; lia].
  destruct (it_current it) as [[|p l]|] eqn:Ec; unfold it_valid in E; rewrite Ec in E; try discriminate.
  rewrite IH. cbn [length]. lia.
Qed.
Lemma count_properties_spec terms key : tsorted terms -> props_wf terms ->
  exists l, get_properties terms key true = Some l /\ count_properties terms key = Some (length l).
Proof.
  intros Hs Hw. destruct (lists_spec terms key true Hs Hw) as (m & A & B & C). unfold get_properties, count_properties. rewrite A.
  cbn [option_map]. eexists. split; [reflexivity|]. f_equal. rewrite it_count_loop. cbn [plus]. f_equal.
  rewrite iterate_spec by exact B. destruct (sm_sort_spec m B) as [Hs' P].
  destruct (bsearch_first_spec key true _ Hs') as (a & b & c & E & Ha & Hb & Hc & F).
  unfold it_create. rewrite F, E. rewrite filter_split by assumption. destruct b as [|p b]; [reflexivity|].
  rewrite skipn_app_len. apply it_loop_spec; auto. apply Permutation_length in P. rewrite E, !app_length in P. cbn in *. lia.
Qed.

(** ** Modification *)
Lemma remove_terms_spec p hd : tsorted (h_terms hd) ->
  tsorted (h_terms (remove_terms p hd)) /\
  (forall x, In x (h_terms (remove_terms p hd)) <-> In x (h_terms hd) /\ starts_with p x = false) /\
  (h_modified hd = true -> h_modified (remove_terms p hd) = true) /\
  (h_modified (remove_terms p hd) = false -> remove_terms p hd = hd).
Proof.
  unfold remove_terms. assert (L : length (h_terms hd) < S (length (h_terms hd))) by lia. revert L.
  generalize (S (length (h_terms hd))) as n. intros n. revert hd.
  induction n as [|n IH]; intros hd L Hs; [lia|]. cbn [remove_terms_loop].
  pose proof (skip_to_In p) as K.
  assert (Stop : (forall x, In x (h_terms hd) -> starts_with p x = false) ->
    tsorted (h_terms hd) /\ (forall x, In x (h_terms hd) <-> In x (h_terms hd) /\ starts_with p x = false) /\
    (h_modified hd = true -> h_modified hd = true) /\ (h_modified hd = false -> hd = hd)).
  { intros H. split; [exact Hs|]. split; [|auto]. intros x. split; [auto|tauto]. }
  destruct (skip_to p (h_terms hd)) as [|t l] eqn:E.
  - apply Stop. intros x Hx. destruct (starts_with p x) eqn:Sx; [|reflexivity].
    apply starts_with_app in Sx as (r & ->). assert (X : In (p ++ r) []); [|destruct X].
    rewrite <- E. apply K; [exact Hs|]. split; [exact Hx|]. apply prefix_ge.
  - assert (Ht : In t (h_terms hd)) by (apply (K t (h_terms hd) Hs); rewrite E; now left).
    assert (Htp : bltb t p = false) by (apply (K t (h_terms hd) Hs); rewrite E; now left).
    destruct (starts_with p t) eqn:St.
    + assert (Tm : tmem t (h_terms hd) = true) by now apply tmem_In.
      assert (R : h_remove_term t hd = {| h_doc := h_doc hd; h_terms := trem t (h_terms hd); h_modified := true; h_frozen := h_frozen hd |})
        by (unfold h_remove_term; now rewrite Tm).
      rewrite R. set (hd1 := {| h_doc := _; h_terms := _; h_modified := _; h_frozen := _ |}).
      assert (Hs1 : tsorted (h_terms hd1)) by (cbn; now apply trem_sorted).
      assert (L1 : length (h_terms hd1) < n).
      { cbn. assert (length (trem t (h_terms hd)) < length (h_terms hd)); [|lia].
        clear - Ht. revert Ht. generalize (h_terms hd). induction l as [|y l IH]; cbn; [tauto|].
        destruct (bseq_spec t y) as [->|]; [lia|]. intros [->|H]; [congruence|]. cbn. specialize (IH H). lia. }
      destruct (IH hd1 L1 Hs1) as (A & B & C & D). split; [exact A|]. split.
      * intros x. rewrite B. cbn [h_terms hd1]. rewrite trem_In by now apply tsorted_nodup. split; [tauto|].
        intros [H1 H2]. split; [|exact H2]. split; [exact H1|]. intros ->. congruence.
      * split; [auto|]. intros H. rewrite C in H; [discriminate|reflexivity].
    + apply Stop. intros x Hx. destruct (starts_with p x) eqn:Sx; [|reflexivity]. exfalso.
      assert (Hxl : In x (t :: l)).
      { rewrite <- E. apply K; [exact Hs|]. split; [exact Hx|]. apply starts_with_app in Sx as (r & ->). apply prefix_ge. }
      destruct Hxl as [->|Hxl]; [congruence|].
      assert (Hlt : bltb t x = true).
      { pose proof (skip_to_sorted p (h_terms hd) Hs) as S2. rewrite E in S2. inversion S2 as [|? ? _ F]; subst.
        rewrite Forall_forall in F. exact (F x Hxl). }
      rewrite (prefix_block p t x Htp Hlt Sx) in St. discriminate.
Qed.

(** What a property call through an unfrozen handle does to the stored document. *)
Lemma handle_write h f s hd hd1 d : dget h (handles s) = Some hd -> writable s = true ->
  f hd s = (let '(h', s') := sync_unless_frozen hd1 s in (St_success, h', s')) ->
  h_frozen hd1 = O -> h_doc hd1 = h_doc hd ->
  dget (h_doc hd) (st_docs (vis s)) = Some d -> (h_modified hd1 = false -> h_terms hd1 = d_terms d) ->
  exists s' d', on_handle h f s = (St_success, s') /\
    dget (h_doc hd) (st_docs (vis s')) = Some d' /\ d_terms d' = h_terms hd1 /\
    (forall k, k <> h_doc hd -> dget k (st_docs (vis s')) = dget k (st_docs (vis s))) /\
    exists hd', dget h (handles s') = Some hd' /\ h_doc hd' = h_doc hd /\ h_terms hd' = h_terms hd1 /\
      h_modified hd' = false /\ h_frozen hd' = O /\ writable s' = true /\ isopen s' = isopen s.
Proof.
  intros Hh Hw Ef Hf Hdoc Hd Hm. unfold on_handle. rewrite Hh, Ef. unfold sync_unless_frozen. rewrite Hf.
  rewrite message_sync_eq, Hw. cbn [andb]. destruct (h_modified hd1) eqn:Em.
  - eexists. exists {| d_terms := h_terms hd1; d_lastmod := (revision s + 1)%N |}. split; [reflexivity|].
    assert (V : forall hs, vis (set_handles hs (written (h_doc hd1) (h_terms hd1) s)) =
        store_put (h_doc hd1) {| d_terms := h_terms hd1; d_lastmod := (revision s + 1)%N |} (vis s)).
    { intros hs. unfold written. destruct (nesting s); reflexivity. }
    rewrite V. cbn [st_docs store_put]. rewrite Hdoc. split; [apply dget_dput_same|]. split; [reflexivity|].
    split; [intros k Hk; now apply dget_dput_other|].
    eexists. split; [cbn; apply dget_dput_same|]. cbn. repeat split; auto; unfold written; destruct (nesting s); auto.
  - exists (set_handles (dput h hd1 (handles s)) s), d. split; [reflexivity|]. cbn. split; [exact Hd|]. split; [symmetry; auto|].
    split; [reflexivity|]. exists hd1. split; [apply dget_dput_same|]. repeat split; auto.
Qed.

Lemma handle_change h k d s f hd1 (Q : propset) :
  handle_on s h k d ->
  f {| h_doc := k; h_terms := d_terms d; h_modified := false; h_frozen := 0 |} s
    = (let '(h', s') := sync_unless_frozen hd1 s in (St_success, h', s')) ->
  h_frozen hd1 = O -> h_doc hd1 = k -> tsorted (h_terms hd1) ->
  (h_modified hd1 = false -> h_terms hd1 = d_terms d) ->
  props_wf (h_terms hd1) ->
  (forall key v, props (h_terms hd1) key v <-> Q key v) ->
  (forall t, ~ is_property t -> (In t (h_terms hd1) <-> In t (d_terms d))) ->
  exists s', on_handle h f s = (St_success, s') /\ changes_props s s' h k d Q.
Proof.
  intros (Hw & Ho & Hd & Hs & Hp & Hh) Hf Hfr Hdoc Hs1 Hm Hp1 HQ Ht.
  destruct (handle_write h f s _ hd1 d Hh Hw Hf Hfr Hdoc Hd Hm) as (s' & d' & A & B & C & D & hd' & E & F & G & I & J & K & L).
  exists s'. split; [exact A|]. exists d'. rewrite C. cbn [h_doc] in *. split; [|split; [exact HQ|split; [exact Ht|exact D]]].
  unfold handle_on. rewrite C, L. repeat split; auto. rewrite E. destruct hd' as [a b c e]. cbn in *. now subst.
Qed.

Lemma property_term_is k v : property_term k v = lit "XPROPERTY" ++ k ++ "="%char :: v.
Proof. reflexivity. Qed.
Lemma props_wf_all terms t : props_wf terms -> In t terms -> is_property t -> exists k v, key_ok k /\ t = property_term k v.
Proof.
  intros Hw Ht (s & ->). apply Hw in Ht. destruct (split_property s) as [[k v]|] eqn:E.
  - apply split_property_Some in E as [-> Hk]. exists k, v. auto.
  - now apply split_property_None in E.
Qed.

Lemma add_property_spec h k d s key v : handle_on s h k d -> key_ok key -> length (property_term key v) <= 245 ->
  exists s', step (OpAddProp h key v) s = (St_success, s') /\
    changes_props s s' h k d (fun k' v' => (k' = key /\ v' = v) \/ props (d_terms d) k' v').
Proof.
  intros H Hk Hl. pose proof H as (Hw & Ho & Hd & Hs & Hp & Hh). cbn [step].
  apply (handle_change h k d s _ (h_add_term (property_term key v) {| h_doc := k; h_terms := d_terms d; h_modified := false; h_frozen := 0 |})); auto.
  - unfold modify_property. rewrite (proj2 (ensure_writable_success s) (conj Hw Ho)).
    assert (M : mem "="%char key = false) by now apply mem_not_In. rewrite M. cbv zeta.
    destruct (Nat.ltb_spec NOTMUCH_TERM_MAX (length (property_term key v))); [unfold NOTMUCH_TERM_MAX in *; lia|]. reflexivity.
  - cbn [h_add_term h_terms]. now apply tadd_sorted.
  - cbn. discriminate.
  - intros t Ht. cbn [h_add_term h_terms] in Ht. apply tadd_In in Ht as [Ht|Ht]; [|now apply Hp].
    rewrite property_term_is in Ht. apply app_inv_head in Ht. subst. apply in_or_app. right. now left.
  - cbn [h_add_term h_terms]. intros k' v'. unfold props. rewrite <- property_term_is. rewrite tadd_In. split.
    + intros [H1 [H2|H2]]; [left|right; auto]. now apply property_term_inj in H2.
    + intros [[-> ->]|[H1 H2]]; auto.
  - cbn [h_add_term h_terms]. intros t Ht. rewrite tadd_In. split; [|auto]. intros [->|Hi]; [|exact Hi]. exfalso. apply Ht. eexists. apply property_term_is.
Qed.

Lemma remove_property_spec h k d s key v : handle_on s h k d -> key_ok key -> length (property_term key v) <= 245 ->
  exists s', step (OpRemProp h key v) s = (St_success, s') /\
    changes_props s s' h k d (fun k' v' => props (d_terms d) k' v' /\ ~ (k' = key /\ v' = v)).
Proof.
  intros H Hk Hl. pose proof H as (Hw & Ho & Hd & Hs & Hp & Hh). cbn [step].
  set (hd0 := {| h_doc := k; h_terms := d_terms d; h_modified := false; h_frozen := 0 |}).
  assert (R : tsorted (h_terms (h_remove_term (property_term key v) hd0)) /\
     forall x, In x (h_terms (h_remove_term (property_term key v) hd0)) <-> x <> property_term key v /\ In x (d_terms d)).
  { unfold h_remove_term. cbn [h_terms hd0]. destruct (tmem _ _) eqn:E; cbn [h_terms hd0].
    + split; [now apply trem_sorted|]. intros x. rewrite trem_In by now apply tsorted_nodup. tauto.
    + split; [exact Hs|]. intros x. apply tmem_false in E. split; [|tauto]. intros Hx. split; [congruence|exact Hx]. }
  destruct R as [R1 R2]. destruct (h_remove_term_frame (property_term key v) hd0) as [F1 F2].
  apply (handle_change h k d s _ (h_remove_term (property_term key v) hd0)); auto.
  - unfold modify_property. rewrite (proj2 (ensure_writable_success s) (conj Hw Ho)).
    assert (M : mem "="%char key = false) by now apply mem_not_In. rewrite M. cbv zeta.
    destruct (Nat.ltb_spec NOTMUCH_TERM_MAX (length (property_term key v))); [unfold NOTMUCH_TERM_MAX in *; lia|]. reflexivity.
  - unfold h_remove_term. destruct (tmem _ _); [discriminate|reflexivity].
  - intros t Ht. apply R2 in Ht as [_ Ht]. now apply Hp.
  - intros k' v'. unfold props. rewrite <- property_term_is. rewrite R2. split.
    + intros [H1 [H2 H3]]. split; [auto|]. intros [-> ->]. congruence.
    + intros [[H1 H2] H3]. split; [exact H1|]. split; [|exact H2]. intros E. apply H3. now apply property_term_inj in E.
  - intros t Ht. rewrite R2. split; [tauto|]. intros Hi. split; [|exact Hi]. intros ->. apply Ht. eexists. apply property_term_is.
Qed.

Lemma starts_with_trans_app p q t : starts_with (p ++ q) (p ++ t) = starts_with q t.
Proof.
  destruct (starts_with q t) eqn:E.
  - apply starts_with_app in E as (r & ->). apply starts_with_app. exists r. apply app_assoc.
  - destruct (starts_with (p ++ q) (p ++ t)) eqn:E2; [|reflexivity]. apply starts_with_app in E2 as (r & E2).
    rewrite <- app_assoc in E2. apply app_inv_head in E2. subst. rewrite (proj2 (starts_with_app q (q ++ r))) in E by eauto. discriminate.
Qed.

Lemma remove_properties_spec h k d s key pf (Q : bytes -> Prop) : handle_on s h k d ->
  let p := match key with Some k => k ++ (if pf : bool then [] else ["="%char]) | None => [] end in
  (forall k' v', key_ok k' -> starts_with p (k' ++ "="%char :: v') = true <-> Q k') ->
  exists s', step (OpRemProps h key pf) s = (St_success, s') /\
    changes_props s s' h k d (fun k' v' => props (d_terms d) k' v' /\ ~ Q k').
Proof.
  intros H p HQ. pose proof H as (Hw & Ho & Hd & Hs & Hp & Hh). cbn [step].
  set (hd0 := {| h_doc := k; h_terms := d_terms d; h_modified := false; h_frozen := 0 |}).
  destruct (remove_terms_spec (property_prefix ++ p) hd0 Hs) as (A & B & _ & C).
  destruct (remove_terms_frame (property_prefix ++ p) hd0) as [F1 F2].
  apply (handle_change h k d s _ (remove_terms (property_prefix ++ p) hd0)); auto.
  - unfold remove_all_properties. rewrite (proj2 (ensure_writable_success s) (conj Hw Ho)). unfold p. cbv zeta.
    destruct key; [reflexivity|]. now rewrite app_nil_r.
  - intros M. now rewrite (C M).
  - intros t Ht. apply B in Ht as [Ht _]. now apply Hp.
  - intros k' v'. unfold props. rewrite B. cbn [h_terms hd0].
    change (lit "XPROPERTY") with property_prefix. rewrite starts_with_trans_app. split.
    + intros [H1 [H2 H3]]. split; [auto|]. intros HQ'. apply (HQ k' v' H1) in HQ'. congruence.
    + intros [[H1 H2] H3]. split; [exact H1|]. split; [exact H2|].
      destruct (starts_with p (k' ++ "="%char :: v')) eqn:E; [|reflexivity]. apply (HQ k' v' H1) in E. contradiction.
  - intros t Ht. rewrite B. cbn [h_terms hd0]. split; [tauto|]. intros Hi. split; [exact Hi|].
    destruct (starts_with (property_prefix ++ p) t) eqn:E; [|reflexivity]. exfalso. apply Ht.
    apply starts_with_app in E as (r & ->). exists (p ++ r). now rewrite <- app_assoc.
Qed.

Lemma key_eq_prefix key k' v' : key_ok key -> key_ok k' ->
  starts_with (key ++ ["="%char]) (k' ++ "="%char :: v') = true <-> k' = key.
Proof.
  intros Hk Hk'. rewrite starts_with_app. split.
  - intros (r & E). rewrite <- app_assoc in E. cbn in E. apply (f_equal split_property) in E.
    rewrite !split_property_app in E by assumption. congruence.
  - intros ->. exists v'. now rewrite <- app_assoc.
Qed.
Lemma key_prefix key k' v' : key_ok key -> key_ok k' ->
  starts_with (key ++ []) (k' ++ "="%char :: v') = true <-> exists r, k' = key ++ r.
Proof.
  intros Hk Hk'. rewrite app_nil_r, starts_with_app. split.
  - intros (r & E). revert k' Hk' E. induction key as [|c key IH]; intros k' Hk' E; [exists k'; reflexivity|].
    destruct k' as [|c' k']; cbn in E; injection E as Ec E; subst.
    + exfalso. apply Hk. now left.
    + destruct (IH (fun x => Hk (or_intror x)) k') as (r' & ->); [intros x; apply Hk'; now right|exact E|]. now exists r'.
  - intros (r & ->). exists (r ++ "="%char :: v'). rewrite <- app_assoc. reflexivity.
Qed.
