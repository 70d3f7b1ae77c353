(** Lemmas for C90. *)
From Coq Require Import Sorting.Sorted Permutation.
From Verif Require Import Bytes StringMap StringMapProofs PyTags PyTagsSpec PyTagsProofs PyTagsProofs2 PyConfig PyConfigSpec.

Lemma holds_parts c f : holds c f -> sm_ok (c_map c) /\ unique (c_map c).
Proof. intros (A & B & _). split; [exact A|exact B]. Qed.
Lemma encode_nil_iff s : encode s = Some [] <-> s = [].
Proof.
  split; [|now intros ->]. destruct s as [|c s]; [reflexivity|]. cbn [encode]. destruct (encode1 c) as [a|] eqn:E; [|discriminate]. destruct (encode s); [|discriminate].
  destruct (encode1_cons _ _ E) as (x & r & ->). discriminate.
Qed.
Lemma teq_refl s : teq s s = true.
Proof. now apply teq_eq. Qed.
Lemma teq_neq a b : a <> b -> teq a b = false.
Proof. intros N. destruct (teq a b) eqn:E; [apply teq_eq in E; contradiction|reflexivity]. Qed.
Lemma holds_None c f k : holds c f -> (f k = None <-> forall kb vb, encode k = Some kb -> In (kb, vb) (sm_pairs (c_map c)) -> vb = []).
Proof.
  intros (_ & _ & T & H). split.
  - intros N kb vb E I. destruct (T kb vb I) as (k' & v & E' & Ev & _). destruct vb as [|x vb]; [reflexivity|]. exfalso.
    assert (X : f k = Some v). { apply H. split; [|eauto]. intros ->. discriminate Ev. } congruence.
  - intros A. destruct (f k) as [v|] eqn:F; [|reflexivity]. exfalso. apply H in F. destruct F as (N & kb & vb & E & Ev & I). specialize (A kb vb E I). subst vb. apply N. now apply encode_nil_iff.
Qed.

Lemma getitem_spec c f k : holds c f -> plain k -> getitem (Str k) c = match f k with Some v => Ok v | None => Raised KeyError end.
Proof.
  intros Hc (kb & E & Nz). destruct (holds_parts c f Hc) as [So Un]. pose proof Hc as (_ & _ & T & H). unfold getitem. cbn [as_bytes]. rewrite E, (c_string_id _ Nz).
  destruct (fst (sm_get (c_map c) kb)) as [vb|] eqn:G.
  - apply (get_unique _ _ _ So Un) in G. destruct (T kb vb G) as (k' & v & E' & Ev & _). rewrite (decode_ignore_encode v vb Ev).
    destruct v as [|x v].
    + assert (F : f k = None); [|now rewrite F]. apply (holds_None c f k Hc). intros kb' vb' E2 I. assert (kb' = kb) by congruence. subst kb'.
      rewrite (unique_In _ _ _ _ Un I G). cbn in Ev. congruence.
    + assert (F : f k = Some (x :: v)); [|now rewrite F]. apply H. split; [discriminate|]. eauto.
  - assert (F : f k = None); [|rewrite F; reflexivity]. apply (holds_None c f k Hc). intros kb' vb' E2 I. assert (kb' = kb) by congruence. subst kb'.
    apply (get_unique _ _ _ So Un) in I. congruence.
Qed.
Lemma setitem_spec c f k v : holds c f -> c_writable c = true -> plain k -> plain v ->
  exists c', setitem (Str k) (Str v) c = (c', None) /\ c_writable c' = true /\ holds c' (set_in f k v).
Proof.
  intros Hc W (kb & E & Nz) (vb & Ev & Nv). destruct (holds_parts c f Hc) as [So Un]. pose proof Hc as (_ & _ & T & H). unfold setitem. cbn [as_bytes]. rewrite E, Ev, W. cbn [negb].
  rewrite (c_string_id _ Nz), (c_string_id _ Nv). eexists. split; [reflexivity|]. split; [reflexivity|].
  destruct (sm_set_pairs (c_map c) kb vb So Un) as [Un' P]. pose proof (sm_set_ok (c_map c) kb vb So) as So'.
  split; [exact So'|]. split; [exact Un'|]. cbn [c_map]. split.
    + intros k1 v1 I. apply P in I. destruct I as [[-> ->]|[_ I]]; [eauto 8|]. now apply T.
    + intros k1 v1. unfold set_in. destruct (teq k1 k) eqn:Te.
      * apply teq_eq in Te. subst k1. split.
        -- intros F. assert (v1 = v /\ v <> []) as [-> N] by (destruct v; [discriminate|]; injection F as <-; now split). split; [exact N|]. exists kb, vb.
           split; [exact E|]. split; [exact Ev|]. apply P. now left.
        -- intros (N & kb1 & vb1 & E1 & Ev1 & I). assert (kb1 = kb) by congruence. subst kb1. apply P in I. destruct I as [[_ ->]|[C _]]; [|now elim C].
           rewrite (encode_inj v1 v vb Ev1 Ev) in *. destruct v; [now elim N|reflexivity].
      * assert (Nk : k1 <> k) by (intros ->; rewrite teq_refl in Te; discriminate). rewrite H. split; intros (N & kb1 & vb1 & E1 & Ev1 & I); (split; [exact N|]); exists kb1, vb1; (split; [exact E1|]); (split; [exact Ev1|]).
        -- apply P. right. split; [|exact I]. intros ->. apply Nk. exact (encode_inj _ _ _ E1 E).
        -- apply P in I. destruct I as [[-> _]|[_ I]]; [|exact I]. elim Nk. exact (encode_inj _ _ _ E1 E).
Qed.
Lemma set_nil f k x : set_in f k [] x = del_in f k x.
Proof. reflexivity. Qed.
Lemma holds_ext c f g : (forall x, f x = g x) -> holds c f -> holds c g.
Proof. intros E (A & B & C & D). split; [exact A|]. split; [exact B|]. split; [exact C|]. intros k v. rewrite <- E. apply D. Qed.
Lemma plain_nil : plain [].
Proof. exists []. split; [reflexivity|]. intros []. Qed.
Lemma delitem_spec c f k : holds c f -> c_writable c = true -> plain k -> exists c', delitem (Str k) c = (c', None) /\ c_writable c' = true /\ holds c' (del_in f k).
Proof. intros A B C. exact (setitem_spec c f k [] A B C plain_nil). Qed.

Lemma sorted_in m x : sm_ok m -> (In x (sm_pairs (sm_sort m)) <-> In x (sm_pairs m)).
Proof. intros So. destruct (sm_sort_spec m So) as [_ P]. split; apply Permutation_in; [exact P|now apply Permutation_sym]. Qed.
Definition filled (p : pair_t) : bool := match decode_ignore (snd p) with [] => false | _ => true end.
Lemma iter_is c : sm_ok (c_map c) -> config_iter c = map (fun p => decode_ignore (fst p)) (filter filled (sm_pairs (sm_sort (c_map c)))).
Proof.
  intros So. unfold config_iter, all_pairs. rewrite iterate_spec by exact So. fold filled. rewrite (filter_all (matches [] false)); [reflexivity|].
  apply Forall_forall. intros p _. reflexivity.
Qed.
Lemma config_iter_in c f k : holds c f -> (In k (config_iter c) <-> f k <> None).
Proof.
  intros Hc. destruct (holds_parts c f Hc) as [So Un]. pose proof Hc as (_ & _ & T & H). rewrite iter_is by exact So. rewrite in_map_iff. split.
  - intros ((kb & vb) & <- & I). apply filter_In in I. destruct I as [I Fi]. apply (sorted_in _ _ So) in I. destruct (T kb vb I) as (k' & v & E & Ev & _). cbn [fst snd] in *.
    unfold filled in Fi. cbn [snd] in Fi. rewrite (decode_ignore_encode _ _ Ev) in Fi. rewrite (decode_ignore_encode _ _ E).
    assert (X : f k' = Some v); [|congruence]. apply H. split; [|eauto]. intros ->. discriminate.
  - intros N. destruct (f k) as [v|] eqn:F; [|now elim N]. apply H in F. destruct F as (Nv & kb & vb & E & Ev & I). exists (kb, vb). cbn [fst]. split; [exact (decode_ignore_encode _ _ E)|].
    apply filter_In. split; [now apply (sorted_in _ _ So)|]. unfold filled. cbn [snd]. rewrite (decode_ignore_encode _ _ Ev). destruct v; [now elim Nv|reflexivity].
Qed.
Lemma config_iter_nodup c f : holds c f -> NoDup (config_iter c).
Proof.
  intros Hc. destruct (holds_parts c f Hc) as [So Un]. pose proof Hc as (_ & _ & T & _). rewrite iter_is by exact So.
  assert (Un' : NoDup (map fst (sm_pairs (sm_sort (c_map c))))).
  { destruct (sm_sort_spec _ So) as [_ P]. eapply Permutation_NoDup; [apply Permutation_map, Permutation_sym, P|exact Un]. }
  assert (T' : forall kb vb, In (kb, vb) (sm_pairs (sm_sort (c_map c))) -> exists k, encode k = Some kb).
  { intros kb vb I. apply (sorted_in _ _ So) in I. destruct (T kb vb I) as (k & v & E & _). eauto. }
  induction (sm_pairs (sm_sort (c_map c))) as [|[kb vb] l IH]; [constructor|]. cbn [filter]. inversion Un' as [|? ? N1 N2]. subst.
  assert (IHl : NoDup (map (fun p => decode_ignore (fst p)) (filter filled l))) by (apply IH; [exact N2|intros k1 v1 I; apply (T' k1 v1); now right]).
  destruct (filled (kb, vb)); [|exact IHl]. cbn [map fst]. constructor; [|exact IHl]. intros C. apply in_map_iff in C. destruct C as ((kb' & vb') & Ed & C). apply filter_In in C. destruct C as [C _].
  cbn [fst] in Ed. destruct (T' kb vb (or_introl eq_refl)) as (k & E). destruct (T' kb' vb' (or_intror C)) as (k' & E').
  rewrite (decode_ignore_encode _ _ E), (decode_ignore_encode _ _ E') in Ed. subst k'. assert (kb' = kb) by congruence. subst kb'. apply N1. cbn [fst]. now apply (in_map fst) in C.
Qed.
Lemma key_plain c f k : holds c f -> f k <> None -> plain k /\ exists kb, encode k = Some kb /\ In kb (map fst (sm_pairs (c_map c))).
Proof.
  intros (_ & _ & T & H) N. destruct (f k) as [v|] eqn:F; [|now elim N]. apply H in F. destruct F as (Nv & kb & vb & E & Ev & I).
  destruct (T kb vb I) as (_ & _ & _ & _ & Nz & _). split; [exists kb; now split|]. exists kb. split; [exact E|]. now apply (in_map fst) in I.
Qed.
Lemma del_key f k x : del_in f k x <> None -> f x <> None /\ x <> k.
Proof. unfold del_in. destruct (teq x k) eqn:E; [now intros []|]. intros N. split; [exact N|]. intros ->. rewrite teq_refl in E. discriminate. Qed.

Lemma popitem_spec c f : holds c f -> c_writable c = true ->
  (exists k v c', f k = Some v /\ config_popitem c = (c', Ok (k, v)) /\ c_writable c' = true /\ holds c' (del_in f k) /\ (length (config_iter c') < length (config_iter c))%nat) \/
  ((forall k, f k = None) /\ config_popitem c = (c, Raised KeyError)).
Proof.
  intros Hc W. unfold config_popitem. destruct (config_iter c) as [|k l] eqn:It.
  - right. split; [|reflexivity]. intros k. destruct (f k) eqn:F; [|reflexivity]. exfalso. assert (X : In k (config_iter c)) by (apply (config_iter_in c f k Hc); congruence). rewrite It in X. destruct X.
  - left. assert (N : f k <> None) by (apply (config_iter_in c f k Hc); rewrite It; now left). destruct (key_plain c f k Hc N) as (P & kb & E & I).
    destruct (f k) as [v|] eqn:F; [|now elim N]. exists k, v. unfold config_pop. rewrite (getitem_spec c f k Hc P), F.
    destruct (delitem_spec c f k Hc W P) as (c' & -> & W' & H'). exists c'. split; [reflexivity|]. split; [reflexivity|]. split; [exact W'|]. split; [exact H'|].
    assert (L : incl (k :: config_iter c') (k :: l)).
    { intros x [<- |X]; [now left|]. apply (config_iter_in c' _ x H') in X. apply del_key in X. destruct X as [X _]. rewrite <- It. now apply (config_iter_in c f x Hc). }
    apply NoDup_incl_length in L; [cbn in *; lia|]. constructor; [|exact (config_iter_nodup c' _ H')].
    intros X. apply (config_iter_in c' _ k H') in X. apply del_key in X. now destruct X.
Qed.
Lemma clear_loop_spec n : forall c f, holds c f -> c_writable c = true -> (length (config_iter c) < n)%nat ->
  exists c' f', clear_loop n c = (c', None) /\ c_writable c' = true /\ holds c' f' /\ forall x, f' x = None.
Proof.
  induction n as [|n IH]; intros c f Hc W L; [lia|]. cbn [clear_loop]. destruct (popitem_spec c f Hc W) as [(k & v & c1 & F & -> & W1 & H1 & L1)|[N ->]].
  - apply (IH c1 (del_in f k) H1 W1). lia.
  - exists c, f. auto.
Qed.
Lemma clear_spec c f : holds c f -> c_writable c = true -> exists c' f', config_clear c = (c', None) /\ c_writable c' = true /\ holds c' f' /\ forall x, f' x = None.
Proof.
  intros Hc W. apply (clear_loop_spec _ c f Hc W). destruct (holds_parts c f Hc) as [So Un]. rewrite iter_is by exact So. rewrite map_length.
  destruct (sm_sort_spec _ So) as [_ P]. rewrite <- (Permutation_length P). generalize (sm_pairs (sm_sort (c_map c))). intros l.
  assert (X : (length (filter filled l) <= length l)%nat) by (induction l as [|a l IH]; cbn; [lia|destruct (filled a); cbn; lia]). unfold lt. apply le_n_S. exact X.
Qed.
Lemma update_spec l : forall c f, holds c f -> c_writable c = true -> Forall (fun p => exists k v, p = (Str k, Str v) /\ plain k /\ plain v) l ->
  exists c', config_update l c = (c', None) /\ c_writable c' = true /\ holds c' (update_in f l).
Proof.
  induction l as [|p l IH]; intros c f Hc W F; [exists c; auto|]. inversion F as [|? ? (k & v & -> & Pk & Pv) F']. subst. cbn [config_update update_in].
  destruct (setitem_spec c f k v Hc W Pk Pv) as (c1 & -> & W1 & H1). exact (IH c1 _ H1 W1 F').
Qed.
