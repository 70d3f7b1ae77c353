(** Lemmas for C92. *)
From Coq Require Import Sorting.Sorted.
From Verif Require Import Bytes Terms Meta DocMap Db Props PropsSpec PropsProofs P_Props PyTags PyTagsProofs PyTagsProofs2 PyProps PyPropsSpec.
Local Open Scope nat_scope.

Lemma encode_cons c k kb : encode (c :: k) = Some kb -> exists b r t, encode1 c = Some (b :: r) /\ encode k = Some t /\ kb = b :: r ++ t.
Proof.
  cbn [encode]. destruct (encode1 c) as [x|] eqn:E; [|discriminate]. destruct (encode k) as [t|]; [|discriminate]. intros X. apply some_inj in X. subst kb.
  destruct (encode1_cons c x E) as (b & r & ->). exists b, r, t. auto.
Qed.
Lemma encode_prefix p : forall k pb kb r, encode p = Some pb -> encode k = Some kb -> kb = pb ++ r -> exists r', k = p ++ r'.
Proof.
  induction p as [|c p IH]; intros k pb kb r Ep Ek E; [exists k; reflexivity|]. destruct (encode_cons c p pb Ep) as (b & x & t & E1 & E2 & ->).
  destruct k as [|c' k]. { cbn in Ek. apply some_inj in Ek. subst kb. discriminate. }
  destruct (encode_cons c' k kb Ek) as (b' & x' & t' & E1' & E2' & ->). cbn [app] in E. apply cons_inj in E. destruct E as [-> E]. rewrite <- app_assoc in E.
  pose proof (decode1_encode1 c b x (t ++ r) E1) as D. pose proof (decode1_encode1 c' b x' t' E1') as D'. rewrite E in D'. rewrite D in D'. injection D' as -> Et.
  destruct (IH k t t' r E2 E2' (eq_sym Et)) as (r' & ->). exists r'. reflexivity.
Qed.
Lemma encode_app p : forall k pb kb, encode p = Some pb -> encode (p ++ k) = Some kb -> exists r, kb = pb ++ r.
Proof.
  induction p as [|c p IH]; intros k pb kb Ep Ek. { cbn in Ep. apply some_inj in Ep. subst pb. now exists kb. }
  destruct (encode_cons c p pb Ep) as (b & x & t & E1 & E2 & ->). cbn [app] in Ek. destruct (encode_cons c (p ++ k) kb Ek) as (b' & x' & t' & E1' & E2' & ->).
  rewrite E1 in E1'. injection E1' as <- <-. destruct (IH k t t' E2 E2') as (r & ->). exists r. cbn. now rewrite <- app_assoc.
Qed.

Lemma arg_key k : key_text k -> exists b, encode k = Some b /\ ~ In NUL b /\ key_ok b /\ arg (Str k) = Good b.
Proof. intros (b & E & N & K). exists b. cbn [arg]. rewrite E, c_string_id by exact N. auto. Qed.
Lemma arg_value v : value_text v -> exists b, encode v = Some b /\ ~ In NUL b /\ arg (Str v) = Good b.
Proof. intros (b & E & N). exists b. cbn [arg]. rewrite E, c_string_id by exact N. auto. Qed.

Section Reading.
Variables (l : list bytes) (R : relation).
Hypothesis Rec : recorded l R.
Lemma rec_bytes kb vb : props l kb vb -> exists k v, encode k = Some kb /\ encode v = Some vb /\ R k v /\ key_text k /\ value_text v /\ fits k v.
Proof.
  destruct Rec as (_ & _ & T & I). intros P. destruct (T kb vb P) as (L & N1 & N2 & k & v & Ek & Ev). exists k, v. split; [exact Ek|]. split; [exact Ev|]. split; [apply I; eauto|].
  split; [exists kb; split; [exact Ek|]; split; [exact N1|apply P]|]. split; [exists vb; auto|]. intros a b Ea Eb. rewrite Ek in Ea. rewrite Ev in Eb. apply some_inj in Ea, Eb. now subst.
Qed.
Lemma rec_text k v : R k v -> key_text k /\ value_text v /\ fits k v.
Proof.
  intros H. destruct Rec as (_ & _ & _ & I). apply I in H. destruct H as (kb & vb & Ek & Ev & P). destruct (rec_bytes kb vb P) as (k' & v' & Ek' & Ev' & _ & A).
  rewrite (encode_inj _ _ _ Ek Ek'), (encode_inj _ _ _ Ev Ev'). exact A.
Qed.
Lemma get_text k : key_text k -> exists kb, arg (Str k) = Good kb /\
  ((exists vb v, get_property l kb = Some (Some vb) /\ decode_ignore vb = v /\ first_value R k v) \/ (get_property l kb = Some None /\ forall v, ~ R k v)).
Proof.
  intros Hk. destruct (arg_key k Hk) as (kb & E & N & K & A). exists kb. split; [exact A|]. destruct Rec as (So & Wf & T & I). destruct (C12_get l kb So Wf) as [(vb & G & P & M)|(G & M)].
  - left. destruct (rec_bytes kb vb P) as (k' & v & Ek & Ev & H & _). rewrite (encode_inj _ _ _ Ek E) in *. exists vb, v. split; [exact G|]. split; [now apply decode_ignore_encode|].
    split; [exact H|]. intros w Hw. apply I in Hw. destruct Hw as (kb' & wb & Ek' & Ew & Pw). rewrite E in Ek'. apply some_inj in Ek'. subst kb'. destruct (M wb Pw) as [-> |B].
    + left. exact (encode_inj _ _ _ Ew Ev).
    + right. exists vb, wb. auto.
  - right. split; [exact G|]. intros v Hv. apply I in Hv. destruct Hv as (kb' & vb & Ek' & Ev & P). rewrite E in Ek'. apply some_inj in Ek'. subst kb'. exact (M vb P).
Qed.
(** Strictly sorted lists of pairs of texts. *)
Definition tpair_before (a b : text * text) : Prop := before (fst a) (fst b) \/ (fst a = fst b /\ before (snd a) (snd b)).
Lemma before_irrefl a : ~ before a a.
Proof. intros (x & y & Ex & Ey & B). rewrite Ex in Ey. apply some_inj in Ey. subst y. assert (C : bcmp x x = Eq) by now apply bcmp_eq. congruence. Qed.
Lemma pairs_text p pb exact_ : encode p = Some pb -> exists q, get_properties l pb exact_ = Some q /\
  let t := map (fun p => (decode_ignore (fst p), decode_ignore (snd p))) q in
  StronglySorted tpair_before t /\ NoDup t /\ (forall k v, In (k, v) t <-> R k v /\ if exact_ then k = p else exists r, k = p ++ r).
Proof.
  intros Ep. destruct Rec as (So & Wf & T & I). destruct (C12_iteration l pb exact_ So Wf) as (q & G & L & S1). exists q. split; [exact G|]. cbv zeta.
  assert (S2 : StronglySorted tpair_before (map (fun p => (decode_ignore (fst p), decode_ignore (snd p))) q)).
  { assert (All : forall x, In x q -> props l (fst x) (snd x)) by (intros [a b] H; now apply L in H). clear L G.
    induction S1 as [|x q S1 IH F]; [constructor|]. cbn [map]. constructor; [apply IH; intros y H; apply All; now right|]. apply Forall_forall. intros y H. apply in_map_iff in H. destruct H as (z & <- & H).
    rewrite Forall_forall in F. specialize (F z H). pose proof (All x (or_introl eq_refl)) as Px. pose proof (All z (or_intror H)) as Pz.
    destruct (rec_bytes _ _ Px) as (k1 & v1 & K1 & V1 & _). destruct (rec_bytes _ _ Pz) as (k2 & v2 & K2 & V2 & _).
    rewrite (decode_ignore_encode _ _ K1), (decode_ignore_encode _ _ V1), (decode_ignore_encode _ _ K2), (decode_ignore_encode _ _ V2). unfold tpair_before. cbn [fst snd]. destruct F as [B|[Eq B]].
    - left. eexists _, _. eauto.
    - right. split; [rewrite Eq in K1; exact (encode_inj _ _ _ K1 K2)|]. eexists _, _. eauto. }
  split; [exact S2|]. split.
  { clear - S2. induction S2 as [|x q0 S2 IH F]; constructor; [|exact IH]. intros H. rewrite Forall_forall in F. specialize (F x H). destruct F as [B|[_ B]]; now apply before_irrefl in B. }
  intros k v. rewrite in_map_iff. split.
  - intros ([kb vb] & E & H). cbn [fst snd] in E. apply L in H. destruct H as [P M]. destruct (rec_bytes kb vb P) as (k' & v' & Ek & Ev & Hr & _).
    rewrite (decode_ignore_encode _ _ Ek), (decode_ignore_encode _ _ Ev) in E. injection E as <- <-. split; [exact Hr|]. unfold key_matches in M. destruct exact_.
    + subst kb. exact (encode_inj _ _ _ Ek Ep).
    + destruct M as (r & M). exact (encode_prefix p k' pb kb r Ep Ek M).
  - intros [Hr M]. apply I in Hr. destruct Hr as (kb & vb & Ek & Ev & P). exists (kb, vb). cbn [fst snd]. rewrite (decode_ignore_encode _ _ Ek), (decode_ignore_encode _ _ Ev). split; [reflexivity|].
    apply L. split; [exact P|]. unfold key_matches. destruct exact_.
    + subst k. rewrite Ep in Ek. now apply some_inj in Ek.
    + destruct M as (r & ->). exact (encode_app p r pb kb Ep Ek).
Qed.
End Reading.

Lemma once_in {A} (eq : A -> A -> bool) (l : list A) x : (forall a b, eq a b = true <-> a = b) -> (In x (once eq l) <-> In x l).
Proof.
  intros E. induction l as [|y l IH]; [reflexivity|]. cbn [once]. destruct (existsb (eq y) l) eqn:X.
  - rewrite IH. split; [now right|]. intros [<- |H]; [|exact H]. apply existsb_exists in X. destruct X as (z & I & Z). apply E in Z. now subst.
  - cbn [In]. now rewrite IH.
Qed.
Lemma once_nodup {A} (eq : A -> A -> bool) (l : list A) : (forall a b, eq a b = true <-> a = b) -> NoDup (once eq l).
Proof.
  intros E. induction l as [|y l IH]; [constructor|]. cbn [once]. destruct (existsb (eq y) l) eqn:X; [exact IH|]. constructor; [|exact IH]. rewrite (once_in eq l y E). intros I.
  assert (existsb (eq y) l = true); [|congruence]. apply existsb_exists. exists y. split; [exact I|now apply E].
Qed.
Lemma pair_eq (a b : text * text) : teq (fst a) (fst b) && teq (snd a) (snd b) = true <-> a = b.
Proof. destruct a, b. cbn. rewrite andb_true_iff, !teq_eq. split; [intros [-> ->]; reflexivity|intros X; injection X as -> ->; auto]. Qed.

(** ** Changes *)
Lemma terms_on s h k d : handle_on s h k d -> terms h s = d_terms d.
Proof. intros (_ & _ & _ & _ & _ & H). unfold terms. now rewrite H. Qed.
Lemma only_refl s h k : only_props s s h k. Proof. split; [reflexivity|auto]. Qed.
Lemma only_trans a b c h k : only_props a b h k -> only_props b c h k -> only_props a c h k.
Proof. intros [A1 A2] [B1 B2]. split; [intros t N; now rewrite B1, A1|]. intros j N. now rewrite B2, A2. Qed.
Lemma changed s s' h k d R (Q : propset) (R' : relation) : handle_on s h k d -> recorded (d_terms d) R -> changes_props s s' h k d Q ->
  (forall kb vb, Q kb vb -> length kb + length vb <= 235 /\ ~ In NUL kb /\ ~ In NUL vb /\ exists k v, encode k = Some kb /\ encode v = Some vb) ->
  (forall x y, R' x y <-> exists kb vb, encode x = Some kb /\ encode y = Some vb /\ Q kb vb) -> has_props s' h k R' /\ only_props s s' h k.
Proof.
  intros On0 Rec (d' & On & P & Fr1 & Fr2) T I. split.
  - exists d'. split; [exact On|]. destruct On as (_ & _ & _ & So & Wf & _). split; [exact So|]. split; [exact Wf|]. split.
    + intros kb vb H. apply P in H. now apply T.
    + intros x y. rewrite I. split; intros (kb & vb & A & B & C); exists kb, vb; (split; [exact A|split; [exact B|now apply P]]).
  - split; [|exact Fr2]. intros t N. rewrite (terms_on _ _ _ _ On), (terms_on _ _ _ _ On0). now apply Fr1.
Qed.
Lemma enc_unique {a b} {x y : bytes} : encode a = Some x -> encode b = Some y -> (x = y <-> a = b).
Proof. intros A B. split; [intros <-; exact (encode_inj _ _ _ A B)|intros <-; rewrite A in B; now apply some_inj in B]. Qed.
Lemma term_len kb vb : length kb + length vb <= 235 -> length (property_term kb vb) <= 245.
Proof. intros H. rewrite property_term_is, !app_length. cbn [length]. change (length (lit "XPROPERTY")) with 9. lia. Qed.

Section Changing.
Variables (h k0 : N).
Lemma add_props s R k v : has_props s h k0 R -> key_text k -> value_text v -> fits k v ->
  exists s', props_add h (Str k) (Str v) s = (s', None) /\ (has_props s' h k0 (added R k v) /\ only_props s s' h k0).
Proof.
  intros (d & On & Rec) Hk Hv F. destruct (arg_key k Hk) as (kb & Ek & N & K & A). destruct (arg_value v Hv) as (vb & Ev & Nv & Av). unfold props_add. rewrite A, Av.
  destruct (C12_add_property h k0 d s kb vb On K (term_len kb vb (F kb vb Ek Ev))) as (s' & -> & C). exists s'. split; [reflexivity|].
  pose proof Rec as (_ & _ & T & I). apply (changed _ _ _ _ _ R _ _ On Rec C).
  - intros a b [[-> ->]|H]; [|now apply T]. split; [now apply F|]. eauto 6.
  - intros x y. unfold added. split.
    + intros [H|[-> ->]]; [apply I in H; destruct H as (a & b & ? & ? & ?); exists a, b; auto|exists kb, vb; auto].
    + intros (a & b & Ea & Eb & [[-> ->]|H]); [right; split; [exact (encode_inj _ _ _ Ea Ek)|exact (encode_inj _ _ _ Eb Ev)]|left; apply I; eauto].
Qed.
Lemma remove_props s R k v : has_props s h k0 R -> key_text k -> value_text v -> fits k v ->
  exists s', props_remove h (Str k) (Str v) s = (s', None) /\ (has_props s' h k0 (removed R k v) /\ only_props s s' h k0).
Proof.
  intros (d & On & Rec) Hk Hv F. destruct (arg_key k Hk) as (kb & Ek & N & K & A). destruct (arg_value v Hv) as (vb & Ev & Nv & Av). unfold props_remove. rewrite A, Av.
  destruct (C12_remove_property h k0 d s kb vb On K (term_len kb vb (F kb vb Ek Ev))) as (s' & -> & C). exists s'. split; [reflexivity|].
  pose proof Rec as (_ & _ & T & I). apply (changed _ _ _ _ _ R _ _ On Rec C).
  - intros a b [H _]. now apply T.
  - intros x y. unfold removed. rewrite I. split.
    + intros [(a & b & Ea & Eb & H) X]. exists a, b. split; [exact Ea|]. split; [exact Eb|]. split; [exact H|]. rewrite (enc_unique Ea Ek), (enc_unique Eb Ev). exact X.
    + intros (a & b & Ea & Eb & H & X). rewrite (enc_unique Ea Ek), (enc_unique Eb Ev) in X. split; [eauto|exact X].
Qed.
Lemma del_props s R k : has_props s h k0 R -> key_text k ->
  exists s', props_delitem h (Str k) s = (s', None) /\ (has_props s' h k0 (fun x y => R x y /\ x <> k) /\ only_props s s' h k0).
Proof.
  intros (d & On & Rec) Hk. destruct (arg_key k Hk) as (kb & Ek & N & K & A). unfold props_delitem. rewrite A.
  destruct (C12_remove_all_of_key h k0 d s kb On K) as (s' & -> & C). exists s'. split; [reflexivity|].
  pose proof Rec as (_ & _ & T & I). apply (changed _ _ _ _ _ R _ _ On Rec C).
  - intros a b [H _]. now apply T.
  - intros x y. rewrite I. split.
    + intros [(a & b & Ea & Eb & H) X]. exists a, b. split; [exact Ea|]. split; [exact Eb|]. split; [exact H|]. now rewrite (enc_unique Ea Ek).
    + intros (a & b & Ea & Eb & H & X). rewrite (enc_unique Ea Ek) in X. split; [eauto|exact X].
Qed.
Lemma clear_props s R : has_props s h k0 R -> exists s', props_clear h s = (s', None) /\ (has_props s' h k0 (fun _ _ => False) /\ only_props s s' h k0).
Proof.
  intros (d & On & Rec). unfold props_clear. destruct (C12_remove_all h k0 d s On) as (s' & -> & C). exists s'. split; [reflexivity|].
  apply (changed _ _ _ _ _ R _ _ On Rec C); [intros a b []|]. intros x y. split; [intros []|intros (? & ? & _ & _ & [])].
Qed.
Lemma getitem_props s R k : has_props s h k0 R -> key_text k ->
  (exists v, props_getitem h (Str k) s = Good v /\ first_value R k v) \/ (props_getitem h (Str k) s = Bad PKeyError /\ forall v, ~ R k v).
Proof.
  intros (d & On & Rec) Hk. destruct (get_text _ _ Rec k Hk) as (kb & A & G). unfold props_getitem. rewrite A, (terms_on _ _ _ _ On).
  destruct G as [(vb & v & -> & D & F)|[-> N]]; [left; exists v; now rewrite D|right; auto].
Qed.
Lemma pop_props s R k dflt : has_props s h k0 R -> key_text k ->
  (exists v s', props_pop h (Str k) dflt s = (s', Good v) /\ first_value R k v /\ (has_props s' h k0 (removed R k v) /\ only_props s s' h k0)) \/
  (props_pop h (Str k) dflt s = (s, match dflt with Some d => Good d | None => Bad PKeyError end) /\ forall v, ~ R k v).
Proof.
  intros H Hk. unfold props_pop. destruct (getitem_props s R k H Hk) as [(v & -> & F)|[-> N]]; [|right; auto]. left.
  assert (X : value_text v /\ fits k v). { destruct H as (d & _ & Rec). destruct F as [F _]. now apply (rec_text _ _ Rec) in F. }
  destruct (remove_props s R k v H Hk (proj1 X) (proj2 X)) as (s' & -> & H'). exists v, s'. auto.
Qed.
Lemma iter_props s R : has_props s h k0 R -> exists t, pairs h [] false s = Good t /\ StronglySorted tpair_before t /\ NoDup t /\ forall k v, In (k, v) t <-> R k v.
Proof.
  intros (d & On & Rec). destruct (pairs_text _ _ Rec [] [] false eq_refl) as (q & G & S1 & N & I). unfold pairs. rewrite (terms_on _ _ _ _ On), G. eexists. split; [reflexivity|]. split; [exact S1|]. split; [exact N|].
  intros k v. rewrite I. split; [tauto|]. intros X. split; [exact X|]. now exists k.
Qed.
Lemma popitem_props s R : has_props s h k0 R ->
  (exists k v s', props_popitem h s = (s', Good (k, v)) /\ first_value R k v /\ (forall k', (exists w, R k' w) -> k' = k \/ before k k') /\ (has_props s' h k0 (removed R k v) /\ only_props s s' h k0)) \/
  (props_popitem h s = (s, Bad PKeyError) /\ forall k v, ~ R k v).
Proof.
  intros H. unfold props_popitem, props_iter. destruct (iter_props s R H) as (t & -> & S1 & N & I). cbn [pmap]. destruct t as [|[k v] t]; cbn [map fst].
  - right. split; [reflexivity|]. intros k v X. now apply I in X.
  - left. assert (Rkv : R k v) by (apply I; now left). assert (Hk : key_text k). { destruct H as (d & _ & Rec). now apply (rec_text _ _ Rec) in Rkv. }
    destruct (pop_props s R k None H Hk) as [(w & s' & -> & F & H')|[_ X]]; [|now apply X in Rkv]. exists k, w, s'. split; [reflexivity|]. split; [exact F|]. split; [|exact H'].
    intros k' (x & X). apply I in X. destruct X as [X|X]; [injection X as <- _; now left|]. inversion S1 as [|? ? _ Fa]; subst. rewrite Forall_forall in Fa. specialize (Fa _ X). destruct Fa as [B|[E _]]; [right; exact B|left; now symmetry].
Qed.
Lemma has_ext s R R' : (forall x y, R x y <-> R' x y) -> has_props s h k0 R -> has_props s h k0 R'.
Proof. intros E (d & On & A & B & C & D). exists d. split; [exact On|]. split; [exact A|]. split; [exact B|]. split; [exact C|]. intros k v. now rewrite <- E. Qed.
Lemma update_props l : forall s R, has_props s h k0 R ->
  Forall (fun p => exists k' v', fst p = Str k' /\ snd p = Str v' /\ key_text k' /\ value_text v' /\ fits k' v') l ->
  exists s', props_update h l s = (s', None) /\ (has_props s' h k0 (fun x y => R x y \/ In (Str x, Str y) l) /\ only_props s s' h k0).
Proof.
  induction l as [|[a b] l IH]; intros s R H F.
  - exists s. split; [reflexivity|]. split; [|apply only_refl]. apply (has_ext s R); [|exact H]. intros x y. cbn. tauto.
  - inversion F as [|? ? (k & v & Ek & Ev & P) F']; subst. cbn [fst snd] in Ek, Ev. subst a b. cbn [props_update]. unfold props_setitem.
    destruct P as (P1 & P2 & P3). destruct (add_props s R k v H P1 P2 P3) as (s1 & -> & H1 & O1). destruct (IH s1 _ H1 F') as (s' & -> & H' & O'). exists s'. split; [reflexivity|].
    split; [|exact (only_trans _ _ _ _ _ O1 O')]. revert H'. apply has_ext. intros x y. unfold added. cbn [In]. split.
    + intros [[X|[-> ->]]|X]; auto.
    + intros [X|[X|X]]; auto. injection X as -> ->. auto.
Qed.
End Changing.
