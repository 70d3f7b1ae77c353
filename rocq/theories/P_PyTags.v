(** Property C88: in Python the tags of a message behave as a set. *)
From Coq Require Import Sorting.Sorted.
From Verif Require Import Bytes PyTags PyTagsSpec PyTagsProofs PyTagsProofs2.
Local Open Scope N_scope.

(** Iterating over the tags gives each of them once, [in] finds exactly them, and len() counts them. *)
Theorem C88_reading :
  forall l, well_tagged l ->
  (forall s, In (Str s) (iter l) <-> has l s) /\ (forall v, In v (iter l) -> exists s, v = Str s) /\ NoDup (iter l) /\
  len l = length (iter l) /\ (forall s, encodable s -> tells (contains (Str s) l) (has l s)).
Proof.
  intros l W. split; [intros s; now apply iter_in|]. split; [apply iter_str|]. split; [now apply iter_nodup|]. split; [reflexivity|].
  intros s E. now apply contains_tells.
Qed.
Print Assumptions C88_reading.

(** The operators |, &, - and ^ (and the methods of those names) give exactly the set they stand for, for a
    set, a list or the tags of another message on the right. *)
Theorem C88_operators :
  forall self o, well_tagged self -> texts encodable o ->
  is_set_of (union self o) (fun s => has self s \/ other_has self o s) /\
  is_set_of (intersection self o) (fun s => has self s /\ other_has self o s) /\
  is_set_of (difference self o) (fun s => has self s /\ ~ other_has self o s) /\
  is_set_of (symmetric_difference self o) (fun s => (has self s /\ ~ other_has self o s) \/ (other_has self o s /\ ~ has self s)).
Proof.
  intros self o W T.
  pose proof (elements_good encodable self o taggable_encodable W T) as G.
  assert (I : forall s, In (Str s) (elements self o) <-> other_has self o s) by (intros s; now apply (elements_in encodable)).
  assert (U : is_set_of (union self o) (fun s => has self s \/ other_has self o s)).
  { unfold union. eexists. split; [reflexivity|]. split; [apply py_set_nodup|]. intros v. rewrite py_set_in, in_app_iff. split.
    - intros [H|H].
      + destruct (iter_str _ _ H) as (s & ->). exists s. split; [reflexivity|]. left. now apply iter_in.
      + unfold good in G. rewrite Forall_forall in G. destruct (G v H) as (s & -> & _). exists s. split; [reflexivity|]. right. now apply I.
    - intros (s & -> & [H|H]); [left; now apply iter_in|right; now apply I]. }
  assert (N : is_set_of (intersection self o) (fun s => has self s /\ other_has self o s)).
  { unfold intersection. destruct (comprehend_ok _ _ false _ (good_contains self _ G)) as (r & -> & Hr). cbn [from_iterable].
    eexists. split; [reflexivity|]. split; [apply py_set_nodup|]. intros v. rewrite py_set_in, Hr. split.
    - intros (s & -> & A & B). exists s. split; [reflexivity|]. split; [exact B|now apply I].
    - intros (s & -> & A & B). exists s. split; [reflexivity|]. split; [now apply I|exact A]. }
  assert (D : is_set_of (difference self o) (fun s => has self s /\ ~ other_has self o s)).
  { unfold difference. destruct (comprehend_ok _ _ true _ (iter_other encodable self o W T)) as (r & -> & Hr). cbn [from_iterable].
    eexists. split; [reflexivity|]. split; [apply py_set_nodup|]. intros v. rewrite py_set_in, Hr. split.
    - intros (s & -> & A & B). exists s. split; [reflexivity|]. split; [now apply iter_in|exact B].
    - intros (s & -> & A & B). exists s. split; [reflexivity|]. split; [now apply iter_in|exact B]. }
  split; [exact U|]. split; [exact N|]. split; [exact D|].
  unfold symmetric_difference, rdifference. destruct D as (d & -> & Nd & Hd).
  destruct (comprehend_ok _ _ true _ (good_contains self _ G)) as (r & -> & Hr). cbn [from_iterable].
  eexists. split; [reflexivity|]. split; [apply py_set_nodup|]. intros v. rewrite py_set_in, in_app_iff, Hd, py_set_in, Hr. split.
  - intros [(s & -> & A)|(s & -> & A & B)]; exists s; (split; [reflexivity|]); [now left|right]. split; [now apply I|exact B].
  - intros (s & -> & [A|[A B]]); [left|right]; exists s; (split; [reflexivity|]); [exact A|]. split; [now apply I|exact B].
Qed.
Print Assumptions C88_operators.

Lemma subset_incl self o P : well_tagged self -> texts P o -> ((forall s, has self s -> other_has self o s) <-> incl (iter self) (elements self o)).
Proof.
  intros W T. split.
  - intros H v Hv. destruct (iter_str _ _ Hv) as (s & ->). apply (elements_in P); [exact W|exact T|]. apply H. now apply iter_in.
  - intros H s Hs. apply (elements_in P); [exact W|exact T|]. apply H. now apply iter_in.
Qed.
Lemma superset_incl self o : well_tagged self -> texts encodable o -> ((forall s, other_has self o s -> has self s) <-> incl (elements self o) (iter self)).
Proof.
  intros W T. split.
  - intros H v Hv. pose proof (elements_good encodable self o taggable_encodable W T) as G. unfold good in G. rewrite Forall_forall in G.
    destruct (G v Hv) as (s & -> & _). apply iter_in; [exact W|]. apply H. now apply (elements_in encodable).
  - intros H s Hs. apply iter_in; [exact W|]. apply H. now apply (elements_in encodable).
Qed.
Lemma not_incl (a b : list pyval) : ~ incl a b -> exists v, In v a /\ ~ In v b.
Proof.
  intros H. destruct (Forall_Exists_dec (fun v => In v b) (fun v => match existsb (pyeq v) b as x return existsb (pyeq v) b = x -> _ with
    | true => fun E => left (proj1 (in_pyeq v b) E) | false => fun E => right (fun C => eq_ind false (fun b => if b then False else True) Logic.I true (eq_trans (eq_sym E) (proj2 (in_pyeq v b) C))) end eq_refl) a) as [F|E].
  - elim H. intros v Hv. rewrite Forall_forall in F. now apply F.
  - apply Exists_exists in E. exact E.
Qed.

(** The comparisons with a set or other tags tell what they say. *)
Theorem C88_comparisons :
  forall self o, well_tagged self -> texts encodable o -> is_set o = true ->
  tells (issubset self o) (forall s, has self s -> other_has self o s) /\
  tells (issuperset self o) (forall s, other_has self o s -> has self s) /\
  tells (proper_subset self o) ((forall s, has self s -> other_has self o s) /\ exists s, other_has self o s /\ ~ has self s) /\
  tells (proper_superset self o) ((forall s, other_has self o s -> has self s) /\ exists s, has self s /\ ~ other_has self o s) /\
  tells (isdisjoint self o) (forall s, other_has self o s -> ~ has self s).
Proof.
  intros self o W T S.
  pose proof (elements_good encodable self o taggable_encodable W T) as G.
  assert (I : forall s, In (Str s) (elements self o) <-> other_has self o s) by (intros s; now apply (elements_in encodable)).
  pose proof (iter_nodup self W) as N1. pose proof (elements_nodup encodable self o W T S) as N2.
  assert (Sub : tells (issubset self o) (forall s, has self s -> other_has self o s)).
  { unfold issubset. rewrite S. cbn [negb]. destruct (Nat.ltb_spec (other_len self o) (len self)) as [L|L].
    - exists false. split; [reflexivity|]. split; [discriminate|]. intros H. apply (subset_incl self o encodable W T) in H.
      apply (NoDup_incl_length N1) in H. unfold other_len, len in L. lia.
    - destruct (every_ok _ _ _ (iter_other encodable self o W T)) as (b & E & H). exists b. split; [exact E|]. rewrite H.
      split; intros A s Hs; apply A; now apply iter_in. }
  assert (Sup : tells (issuperset self o) (forall s, other_has self o s -> has self s)).
  { unfold issuperset. rewrite S. cbn [negb]. destruct (Nat.ltb_spec (len self) (other_len self o)) as [L|L].
    - exists false. split; [reflexivity|]. split; [discriminate|]. intros H. apply (superset_incl self o W T) in H.
      apply (NoDup_incl_length N2) in H. unfold other_len, len in L. lia.
    - destruct (every_ok _ _ _ (good_contains self _ G)) as (b & E & H). exists b. split; [exact E|]. rewrite H.
      split; intros A s Hs; apply A; now apply I. }
  split; [exact Sub|]. split; [exact Sup|]. split; [|split].
  - unfold proper_subset. rewrite S. cbn [negb]. destruct (Nat.ltb_spec (len self) (other_len self o)) as [L|L].
    + destruct Sub as (b & E & H). exists b. split; [exact E|]. rewrite H. split; [|tauto]. intros A. split; [exact A|].
      destruct (not_incl (elements self o) (iter self)) as (v & Hv & Nv).
      { intros C. apply (NoDup_incl_length N2) in C. unfold other_len, len in L. lia. }
      unfold good in G. rewrite Forall_forall in G. destruct (G v Hv) as (s & -> & _). exists s. split; [now apply I|].
      intros C. apply Nv. now apply iter_in.
    + exists false. split; [reflexivity|]. split; [discriminate|]. intros [A (s & B & C)].
      apply (subset_incl self o encodable W T) in A. exfalso. apply C. apply iter_in; [exact W|].
      apply (@NoDup_length_incl _ (iter self) (elements self o) N1 L A). now apply I.
  - unfold proper_superset. rewrite S. cbn [negb]. destruct (Nat.ltb_spec (other_len self o) (len self)) as [L|L].
    + destruct Sup as (b & E & H). exists b. split; [exact E|]. rewrite H. split; [|tauto]. intros A. split; [exact A|].
      destruct (not_incl (iter self) (elements self o)) as (v & Hv & Nv).
      { intros C. apply (NoDup_incl_length N1) in C. unfold other_len, len in L. lia. }
      destruct (iter_str _ _ Hv) as (s & ->). exists s. split; [now apply iter_in|]. intros C. apply Nv. now apply I.
    + exists false. split; [reflexivity|]. split; [discriminate|]. intros [A (s & B & C)].
      apply (superset_incl self o W T) in A. exfalso. apply C. apply I.
      apply (@NoDup_length_incl _ (elements self o) (iter self) N2 L A). now apply iter_in.
  - unfold isdisjoint. destruct (none_of_ok _ _ _ (good_contains self _ G)) as (b & E & H). exists b. split; [exact E|]. rewrite H.
    split; intros A s Hs; apply A; now apply I.
Qed.
Print Assumptions C88_comparisons.

(** == of two tag sets tells whether they have the same tags, and equal sets have equal hashes. *)
Lemma sorted_id l : StronglySorted (fun a b => bcmp a b = Lt) l -> sorted l = l.
Proof.
  induction 1 as [|x l S IH H]; [reflexivity|]. cbn [sorted fold_right] in *. fold (sorted l). rewrite IH.
  destruct l as [|y l]; [reflexivity|]. inversion H as [|? ? Hy]. subst. unfold bleb. now rewrite Hy.
Qed.
Lemma lbeq_eq a : forall b, lbeq a b = true <-> a = b.
Proof.
  induction a as [|x a IH]; intros [|y b]; cbn [lbeq]; try (split; congruence).
  rewrite andb_true_iff, bseq_eq, IH. split; [intros [-> ->]; reflexivity|intros [= -> ->]; now split].
Qed.
Lemma sorted_unique a : forall b, StronglySorted (fun a b => bcmp a b = Lt) a -> StronglySorted (fun a b => bcmp a b = Lt) b ->
  (forall x, In x a <-> In x b) -> a = b.
Proof.
  induction a as [|x a IH]; intros [|y b] Sa Sb H.
  - reflexivity.
  - exfalso. now apply (H y); left.
  - exfalso. now apply (H x); left.
  - inversion Sa as [|? ? Sa' Fa]. inversion Sb as [|? ? Sb' Fb]. subst. rewrite Forall_forall in Fa, Fb.
    assert (x = y).
    { assert (A : In x (y :: b)) by (apply H; now left). assert (B : In y (x :: a)) by (apply H; now left).
      destruct A as [A|A]; [now symmetry|]. destruct B as [B|B]; [exact B|]. specialize (Fb x A). specialize (Fa y B).
      rewrite bcmp_antisym, Fa in Fb. discriminate. }
    subst y. f_equal. apply IH; [exact Sa'|exact Sb'|]. intros z. split; intros Hz.
    + assert (A : In z (x :: b)) by (apply H; now right). destruct A as [-> |A]; [|exact A]. specialize (Fa z Hz). rewrite bcmp_refl in Fa. discriminate.
    + assert (A : In z (x :: a)) by (apply H; now right). destruct A as [-> |A]; [|exact A]. specialize (Fb z Hz). rewrite bcmp_refl in Fb. discriminate.
Qed.
Theorem C88_equality :
  forall a b, well_tagged a -> well_tagged b ->
  tells (equals a (TagsOf b)) (forall s, has a s <-> has b s) /\
  ((forall s, has a s <-> has b s) -> hashed a = hashed b).
Proof.
  intros a b [Sa Fa] [Sb Fb].
  assert (X : (forall s, has a s <-> has b s) <-> a = b).
  { split; [|now intros ->]. intros H. apply sorted_unique; [exact Sa|exact Sb|]. rewrite Forall_forall in Fa, Fb. intros x. split; intros Hx.
    - destruct (Fa x Hx) as (s & E & _). destruct (proj1 (H s)) as (y & E' & Hy); [now exists x|]. congruence.
    - destruct (Fb x Hx) as (s & E & _). destruct (proj2 (H s)) as (y & E' & Hy); [now exists x|]. congruence. }
  split; [|intros H; now apply X]. cbn [equals]. eexists. split; [reflexivity|]. unfold iter_bytes. rewrite !sorted_id by assumption.
  rewrite lbeq_eq. now rewrite X.
Qed.
Print Assumptions C88_equality.

(** The changes: add, discard, remove, clear, pop, |=, &=, ^= and -= with texts that can be tags do to the tags of the
    message what they do to a set, and raise KeyError exactly when a set would. *)
Theorem C88_changes :
  forall c m, m_writable m = true -> well_tagged (m_tags m) -> proper c ->
  exists m', m_writable m' = true /\ well_tagged (m_tags m') /\
    ((key_error c (has (m_tags m)) /\ perform c m = (m', Some KeyError) /\ m' = m) \/
     (~ key_error c (has (m_tags m)) /\ perform c m = (m', None) /\ meaning c (m_tags m) (has (m_tags m)) (has (m_tags m')))).
Proof.
  intros c m Wr Wt P. assert (F : fine m) by now split.
  destruct c as [v|v|v| | |o|o|o|o]; cbn [proper key_error perform meaning] in *.
  - destruct P as (s & -> & T). destruct (add_fine m s F T) as (m' & E & [A B] & H). exists m'. split; [exact A|]. split; [exact B|]. right. auto.
  - destruct P as (s & -> & T). destruct (discard_fine m s F T) as (m' & E & [A B] & H). exists m'. split; [exact A|]. split; [exact B|]. right. auto.
  - destruct P as (s & -> & T). unfold remove. destruct (contains_tells (m_tags m) s (taggable_encodable s T)) as (b & -> & Hb).
    destruct b.
    + destruct (discard_fine m s F T) as (m' & E & [A B] & H). exists m'. split; [exact A|]. split; [exact B|]. right.
      split; [|split; [exact E|exact H]]. intros C. apply C. now apply Hb.
    + exists m. split; [exact Wr|]. split; [exact Wt|]. left. split; [|now split]. intros C. apply Hb in C. discriminate.
  - destruct (clear_fine m F) as (m' & E & [A B] & H). exists m'. split; [exact A|]. split; [exact B|]. right. auto.
  - unfold pop. destruct (iter (m_tags m)) as [|v l] eqn:E.
    + exists m. split; [exact Wr|]. split; [exact Wt|]. left. split; [|now split]. intros s C. apply iter_in in C; [|exact Wt]. rewrite E in C. destruct C.
    + destruct (iter_taggable (m_tags m) v Wt) as (s & -> & T); [rewrite E; now left|].
      destruct (discard_fine m s F T) as (m' & Em & [A B] & H). exists m'. split; [exact A|]. split; [exact B|]. right.
      assert (Hs : has (m_tags m) s) by (apply iter_in; [exact Wt|rewrite E; now left]).
      split; [intros C; now apply (C s)|]. rewrite Em. split; [reflexivity|]. exists s. now split.
  - unfold ior. destruct (each_add (elements (m_tags m) o) m F (elements_good taggable _ _ (fun s h => h) Wt P)) as (m' & E & [A B] & H).
    exists m'. split; [exact A|]. split; [exact B|]. right. split; [tauto|]. split; [exact E|]. intros s. rewrite H.
    now rewrite (elements_in taggable).
  - unfold iand. destruct (comprehend_ok _ _ true _ (iter_other taggable (m_tags m) o Wt P)) as (r & Er & Hr).
    unfold difference. rewrite Er. cbn [from_iterable].
    assert (G : good taggable (py_set r)).
    { apply Forall_forall. intros v Hv. apply py_set_in, Hr in Hv. destruct Hv as (s & -> & Hv & _).
      destruct (iter_taggable _ _ Wt Hv) as (u & [= ->] & T). eauto. }
    destruct (each_discard (py_set r) m F G) as (m' & E & [A B] & H). exists m'. split; [exact A|]. split; [exact B|]. right.
    split; [tauto|]. split; [exact E|]. intros s. rewrite H, py_set_in, Hr. split.
    + intros [H1 H2]. split; [exact H1|]. destruct (other_decide (m_tags m) o s) as [D|D]; [exact D|]. exfalso. apply H2.
      exists s. split; [reflexivity|]. split; [now apply iter_in|exact D].
    + intros [H1 H2]. split; [exact H1|]. intros (u & [= ->] & _ & C). now apply C.
  - assert (X : forall l, good taggable l -> NoDup l -> (forall s, In (Str s) l <-> other_has (m_tags m) o s) ->
      exists m', m_writable m' = true /\ well_tagged (m_tags m') /\
      ((False /\ for_each (fun v m => match contains v (m_tags m) with
                           | Raised e => (m, Some e)
                           | Ok true => discard v m
                           | Ok false => add v m
                           end) l m = (m', Some KeyError) /\ m' = m) \/
       (~ False /\ for_each (fun v m => match contains v (m_tags m) with
                           | Raised e => (m, Some e)
                           | Ok true => discard v m
                           | Ok false => add v m
                           end) l m = (m', None) /\
        forall s, has (m_tags m') s <-> (has (m_tags m) s /\ ~ other_has (m_tags m) o s) \/ (~ has (m_tags m) s /\ other_has (m_tags m) o s)))).
    { intros l G N Hl. destruct (each_toggle l m F G N) as (m' & E & [A B] & H). exists m'. split; [exact A|]. split; [exact B|]. right.
      split; [tauto|]. split; [exact E|]. intros s. rewrite H, Hl. tauto. }
    pose proof (elements_good taggable (m_tags m) o (fun s h => h) Wt P) as G.
    assert (I : forall s, In (Str s) (elements (m_tags m) o) <-> other_has (m_tags m) o s) by (intros s; now apply (elements_in taggable)).
    unfold ixor. destruct o as [l|l|t|]; cbn [is_set].
    + apply X; [exact G|exact (proj1 P)|exact I].
    + apply X; [|apply py_set_nodup|intros s; rewrite py_set_in; apply I].
      apply Forall_forall. intros v Hv. apply (proj1 (py_set_in _ _)) in Hv. unfold good in G. rewrite Forall_forall in G. exact (G v Hv).
    + apply X; [exact G|now apply iter_nodup|exact I].
    + destruct (clear_fine m F) as (m' & E & [A B] & H). exists m'. split; [exact A|]. split; [exact B|]. right. split; [tauto|]. split; [exact E|].
      intros s. cbn [other_has]. specialize (H s). destruct (has_decide (m_tags m) s); tauto.
  - pose proof (elements_good taggable (m_tags m) o (fun s h => h) Wt P) as G.
    destruct (each_discard (elements (m_tags m) o) m F G) as (m' & E & [A B] & H).
    assert (H' : forall s, has (m_tags m') s <-> has (m_tags m) s /\ ~ other_has (m_tags m) o s).
    { intros s. rewrite H. now rewrite (elements_in taggable). }
    unfold isub. destruct o as [l|l|t|]; try (exists m'; split; [exact A|]; split; [exact B|]; right; split; [tauto|]; split; [exact E|exact H']).
    destruct (clear_fine m F) as (m1 & E1 & [A1 B1] & H1). exists m1. split; [exact A1|]. split; [exact B1|]. right. split; [tauto|]. split; [exact E1|].
    intros s. cbn [other_has]. specialize (H1 s). tauto.
Qed.
Print Assumptions C88_changes.

(** After any number of such calls, with their exceptions caught, the message has the tags that a set would have as
    its elements after the same calls. *)
Theorem C88_history :
  forall cs m, m_writable m = true -> well_tagged (m_tags m) -> Forall proper cs ->
  well_tagged (m_tags (performs cs m)) /\ as_sets cs (has (m_tags m)) (has (m_tags (performs cs m))).
Proof.
  induction cs as [|c cs IH]; intros m Wr Wt F.
  - split; [exact Wt|constructor].
  - inversion F as [|? ? Pc Pcs]. subst. destruct (C88_changes c m Wr Wt Pc) as (m' & Wr' & Wt' & [(K & E & ->)|(K & E & M)]); cbn [performs]; rewrite E; cbn [fst].
    + destruct (IH m Wr Wt Pcs) as [A B]. split; [exact A|]. now apply as_sets_error.
    + destruct (IH m' Wr' Wt' Pcs) as [A B]. split; [exact A|]. apply (as_sets_change c cs (m_tags m) _ (has (m_tags m'))); try assumption. intros s. tauto.
Qed.
Print Assumptions C88_history.

(** Whatever the values: add and discard raise TypeError for what is neither text nor bytes, UnicodeEncodeError for a text
    without an encoding, and otherwise what the library says of the bytes; a call on one tag that raises anything changes nothing,
    and if the database is read-only no call changes anything. *)
Theorem C88_errors :
  (forall v m, (exists n, v = Other n) -> add v m = (m, Some TypeError) /\ discard v m = (m, Some TypeError)) /\
  (forall s m, ~ encodable s -> add (Str s) m = (m, Some UnicodeEncodeError) /\ discard (Str s) m = (m, Some UnicodeEncodeError)) /\
  (forall b m, ~ In NUL b -> m_writable m = true -> (200 < length b)%nat -> add (Byts b) m = (m, Some TagTooLongError) /\ discard (Byts b) m = (m, Some TagTooLongError)) /\
  (forall c m m' e, match c with Add _ | Discard _ | Remove _ | Clear | Pop => True | _ => False end -> perform c m = (m', Some e) -> m' = m) /\
  (forall c m, m_writable m = false -> fst (perform c m) = m) /\
  (forall b m, m_writable m = false -> add (Byts b) m = (m, Some ReadOnlyDatabaseError) /\ discard (Byts b) m = (m, Some ReadOnlyDatabaseError) /\ clear m = (m, Some ReadOnlyDatabaseError)).
Proof.
  assert (A1 : forall v m m' e, add v m = (m', Some e) -> m' = m).
  { intros v m m' e. unfold add, add_tag. destruct (as_bytes v); [|congruence]. destruct (negb _); [congruence|]. destruct (_ <? _); congruence. }
  assert (D1 : forall v m m' e, discard v m = (m', Some e) -> m' = m).
  { intros v m m' e. unfold discard, remove_tag. destruct (as_bytes v); [|congruence]. destruct (negb _); [congruence|]. destruct (_ <? _); congruence. }
  assert (Ar : forall v m, m_writable m = false -> fst (add v m) = m).
  { intros v m R. unfold add, add_tag. destruct (as_bytes v); [|reflexivity]. now rewrite R. }
  assert (Dr : forall v m, m_writable m = false -> fst (discard v m) = m).
  { intros v m R. unfold discard, remove_tag. destruct (as_bytes v); [|reflexivity]. now rewrite R. }
  assert (Cr : forall m, m_writable m = false -> clear m = (m, Some ReadOnlyDatabaseError)).
  { intros m R. unfold clear, remove_all_tags. now rewrite R. }
  assert (Fr : forall f l m, (forall v m, m_writable m = false -> fst (f v m) = m) -> m_writable m = false -> fst (for_each f l m) = m).
  { intros f l. induction l as [|v l IH]; intros m H R; [reflexivity|]. cbn [for_each]. specialize (H v m R) as Hv. destruct (f v m) as [m1 [e|]]; cbn [fst] in Hv; subst m1; [reflexivity|]. now apply IH. }
  split; [intros v m (n & ->); now split|]. split; [|split; [|split; [|split]]].
  - intros s m N. unfold add, discard, as_bytes. destruct (encode s) as [b|] eqn:E; [|now split]. elim N. now exists b.
  - intros b m N W L. assert (C : c_string b = b).
    { clear L. induction b as [|x b IH]; [reflexivity|]. cbn [c_string]. destruct (beq x NUL) eqn:B.
      - apply beq_eq in B. elim N. now left.
      - f_equal. apply IH. intros H. apply N. now right. }
    unfold add, discard, as_bytes, add_tag, remove_tag. rewrite C, W. cbn [negb]. destruct (N.ltb_spec 200 (N.of_nat (length b))); [now split|lia].
  - intros c m m' e Hc H. destruct c as [v|v|v| | |o|o|o|o]; try destruct Hc; cbn [perform] in H.
    + now apply A1 in H.
    + now apply D1 in H.
    + unfold remove in H. destruct (contains v (m_tags m)) as [[|]|]; [now apply D1 in H|congruence|congruence].
    + unfold clear, remove_all_tags in H. destruct (negb _); congruence.
    + unfold pop in H. destruct (iter (m_tags m)) as [|v l]; [congruence|]. destruct (discard v m) as [m1 [e1|]] eqn:E; [|discriminate H]. injection H as <- _. now apply D1 in E.
  - intros c m R. destruct c as [v|v|v| | |o|o|o|o]; cbn [perform].
    + now apply Ar.
    + now apply Dr.
    + unfold remove. destruct (contains v (m_tags m)) as [[|]|]; [now apply Dr|reflexivity|reflexivity].
    + now rewrite Cr.
    + unfold pop. destruct (iter (m_tags m)) as [|v l]; [reflexivity|]. specialize (Dr v m R). destruct (discard v m) as [m1 [e1|]]; exact Dr.
    + unfold ior. now apply Fr.
    + unfold iand. destruct (difference _ _); [now apply Fr|reflexivity].
    + unfold ixor. assert (G : forall l, fst (for_each (fun v m => match contains v (m_tags m) with Raised e => (m, Some e) | Ok true => discard v m | Ok false => add v m end) l m) = m).
      { intros l. apply Fr; [|exact R]. intros v m1 R1. destruct (contains v (m_tags m1)) as [[|]|]; [now apply Dr|now apply Ar|reflexivity]. }
      destruct o; try apply G. now rewrite Cr.
    + unfold isub. destruct o; try (apply Fr; [exact Dr|exact R]). now rewrite Cr.
  - intros b m R. unfold add, discard, add_tag, remove_tag, as_bytes. rewrite R. split; [reflexivity|]. split; [reflexivity|]. now apply Cr.
Qed.
Print Assumptions C88_errors.

(** ** What is false *)
(** tags == {'inbox'}, with a set of Python instead of tags: AttributeError (for any tags). *)
Theorem C88_equals_set_refuted : forall self l, equals self (PySet l) = Raised AttributeError /\ equals self (PyList l) = Raised AttributeError.
Proof. intros. split; reflexivity. Qed.
(** A tag that is not UTF-8 (b'a\xff'): what iterating gives is not a member, and pop() returns it but the tag stays. *)
Definition odd_tag : bytes := [chr 97; chr 255].
Theorem C88_not_utf8_refuted :
  let m := {| m_writable := true; m_tags := [odd_tag] |} in
  iter (m_tags m) = [Str [97]] /\ contains (Str [97]) (m_tags m) = Ok false /\ pop m = (m, Ok (Str [97])).
Proof. repeat split; reflexivity. Qed.
(** Nor are the elements of an iteration distinct then. *)
Theorem C88_twice_refuted :
  exists l, StronglySorted (fun a b => bcmp a b = Lt) l /\ iter l = [Str [97]; Str [97]] /\ len l = 2%nat.
Proof. exists [[chr 97]; odd_tag]. split; [repeat constructor|split; reflexivity]. Qed.
(** add('a\0b') adds the tag a; 'a\0b' is then not a member. *)
Theorem C88_nul_refuted :
  let m := {| m_writable := true; m_tags := [] |} in
  let m' := fst (add (Str [97; 0; 98]) m) in
  snd (add (Str [97; 0; 98]) m) = None /\ m_tags m' = [[chr 97]] /\ contains (Str [97; 0; 98]) (m_tags m') = Ok false.
Proof. repeat split; reflexivity. Qed.
(** A bytes object is in the set if a tag has these bytes, whether or not they are UTF-8. *)
Theorem C88_bytes :
  forall b l, exists r, contains (Byts b) l = Ok r /\ (r = true <-> In b l).
Proof.
  intros b l. unfold contains. cbn. eexists. split; [reflexivity|]. rewrite existsb_exists. split.
  - intros (x & I & E). apply bseq_eq in E. now subst.
  - intros I. exists b. split; [exact I|now apply bseq_eq].
Qed.
Print Assumptions C88_bytes.
(** tags - {b'a'} does not leave out the tag a, although b'a' in tags, and tags & {b'a'} gives b'a', which no iteration gives. *)
Theorem C88_bytes_refuted :
  let l := [[chr 97]] in
  contains (Byts [chr 97]) l = Ok true /\ difference l (PySet [Byts [chr 97]]) = Ok [Str [97]] /\
  intersection l (PySet [Byts [chr 97]]) = Ok [Byts [chr 97]] /\ issubset l (PySet [Byts [chr 97]]) = Ok false.
Proof. repeat split; reflexivity. Qed.
(** An operation on several tags that raises an exception has changed some of the tags. *)
Theorem C88_part_refuted :
  let m := {| m_writable := true; m_tags := [] |} in
  ior (PyList [Str [97]; Other 1]) m = ({| m_writable := true; m_tags := [[chr 97]] |}, Some TypeError).
Proof. reflexivity. Qed.

(** ** Examples *)
Definition inbox : text := [105; 110; 98; 111; 120].
(** A text outside ASCII: U+00E9, U+20AC, U+1F4E7. *)
Definition wide : text := [233; 8364; 128231].
Example wide_encoded : encode wide = Some (map chr [195; 169; 226; 130; 172; 240; 159; 147; 167]).
Proof. reflexivity. Qed.
Example wide_taggable : taggable wide.
Proof. eexists. split; [reflexivity|]. split; [|cbn; lia]. intros H. repeat (destruct H as [H|H]; [discriminate H|]). exact H. Qed.
Example inbox_taggable : taggable inbox.
Proof. eexists. split; [reflexivity|]. split; [|cbn; lia]. intros H. repeat (destruct H as [H|H]; [discriminate H|]). exact H. Qed.
Definition two_tags : message := {| m_writable := true; m_tags := [map chr [105; 110; 98; 111; 120]; map chr [195; 169; 226; 130; 172; 240; 159; 147; 167]] |}.
Example two_well_tagged : well_tagged (m_tags two_tags).
Proof.
  split; [repeat constructor|]. constructor; [|constructor; [|constructor]].
  - destruct inbox_taggable as (b & E & H). exists inbox. split; [reflexivity|]. injection E as <-. exact H.
  - destruct wide_taggable as (b & E & H). exists wide. split; [reflexivity|]. injection E as <-. exact H.
Qed.
Example set_of_texts : texts encodable (PySet [Str inbox; Str [120]]) /\ texts taggable (PyList [Str wide; Str wide]).
Proof.
  split.
  - split; [repeat constructor; cbn; intuition discriminate|]. constructor; [|constructor; [|constructor]]; eexists; (split; [reflexivity|]); eexists; reflexivity.
  - constructor; [|constructor; [|constructor]]; exists wide; (split; [reflexivity|exact wide_taggable]).
Qed.
Example changes_met : Forall proper [Remove (Str inbox); Pop; Ixor (PyList [Str wide; Str wide]); Isub Self] /\
  m_tags (performs [Remove (Str inbox); Pop; Ixor (PyList [Str wide; Str wide])] two_tags) = [map chr [195; 169; 226; 130; 172; 240; 159; 147; 167]].
Proof.
  split; [|reflexivity]. constructor; [exists inbox; split; [reflexivity|exact inbox_taggable]|]. constructor; [exact Logic.I|].
  constructor; [exact (proj2 set_of_texts)|]. constructor; [exact Logic.I|constructor].
Qed.
Example not_encodable : ~ encodable [55296].
Proof. intros (b & H). discriminate H. Qed.
