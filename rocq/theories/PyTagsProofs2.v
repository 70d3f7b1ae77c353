(** Lemmas for C88: operators and changes. *)
From Coq Require Import Sorting.Sorted.
From Verif Require Import Bytes PyTags PyTagsSpec PyTagsProofs.
Local Open Scope N_scope.

Definition good (P : text -> Prop) (l : list pyval) : Prop := Forall (fun v => exists s, v = Str s /\ P s) l.
Lemma elements_good (P : text -> Prop) self o : (forall s, taggable s -> P s) -> well_tagged self -> texts P o -> good P (elements self o).
Proof.
  intros T W H. destruct o as [l|l|t|]; cbn [elements texts] in *; unfold good.
  - exact (proj2 H).
  - exact H.
  - apply Forall_forall. intros v Hv. destruct (iter_taggable t v H Hv) as (s & -> & G). eauto.
  - apply Forall_forall. intros v Hv. destruct (iter_taggable self v W Hv) as (s & -> & G). eauto.
Qed.
Lemma elements_in P self o s : well_tagged self -> texts P o -> (In (Str s) (elements self o) <-> other_has self o s).
Proof.
  intros W H. destruct o as [l|l|t|]; cbn [elements texts other_has] in *; try reflexivity; now apply iter_in.
Qed.
Lemma elements_nodup P self o : well_tagged self -> texts P o -> is_set o = true -> NoDup (elements self o).
Proof.
  intros W H S. destruct o as [l|l|t|]; cbn [elements texts is_set] in *; [exact (proj1 H)|discriminate|now apply iter_nodup|now apply iter_nodup].
Qed.
Lemma comprehend_ok p (Q : text -> Prop) neg l : Forall (fun v => exists s, v = Str s /\ tells (p v) (Q s)) l ->
  exists r, comprehend p neg l = Ok r /\ forall v, In v r <-> exists s, v = Str s /\ In v l /\ (if neg then ~ Q s else Q s).
Proof.
  induction l as [|v l IH]; intros F.
  - exists []. split; [reflexivity|]. intros v. split; [intros []|intros (s & _ & [] & _)].
  - inversion F as [|? ? (s & -> & b & Eb & Hb) Fl]. subst. destruct (IH Fl) as (r & Er & Hr). cbn [comprehend]. rewrite Eb, Er.
    eexists. split; [reflexivity|]. intros v. assert (X : xorb neg b = true <-> if neg then ~ Q s else Q s).
    { destruct neg, b; cbn [xorb]; intuition congruence. }
    destruct (xorb neg b).
    + cbn [In]. rewrite Hr. split.
      * intros [<- |(t & -> & A & B)]; [exists s; split; [reflexivity|split; [now left|now apply X]]|exists t; tauto].
      * intros (t & -> & [E|A] & B); [now left|right; exists t; tauto].
    + rewrite Hr. split; intros (t & -> & A & B); exists t; [cbn [In]; tauto|].
      split; [reflexivity|]. split; [|exact B]. destruct A as [E|A]; [|exact A]. injection E as <-. apply X in B. discriminate.
Qed.
Lemma every_ok p (Q : text -> Prop) l : Forall (fun v => exists s, v = Str s /\ tells (p v) (Q s)) l ->
  tells (every p l) (forall s, In (Str s) l -> Q s).
Proof.
  induction l as [|v l IH]; intros F.
  - exists true. split; [reflexivity|]. split; [intros _ s []|reflexivity].
  - inversion F as [|? ? (s & -> & b & Eb & Hb) Fl]. subst. destruct (IH Fl) as (c & Ec & Hc). cbn [every]. rewrite Eb.
    destruct b.
    + exists c. split; [exact Ec|]. rewrite Hc. split; [intros A t [E|B]; [injection E as <-; now apply Hb|now apply A]|intros A t B; apply A; now right].
    + exists false. split; [reflexivity|]. split; [discriminate|]. intros A. apply Hb. apply A. now left.
Qed.
Lemma none_of_ok p (Q : text -> Prop) l : Forall (fun v => exists s, v = Str s /\ tells (p v) (Q s)) l ->
  tells (none_of p l) (forall s, In (Str s) l -> ~ Q s).
Proof.
  induction l as [|v l IH]; intros F.
  - exists true. split; [reflexivity|]. split; [intros _ s []|reflexivity].
  - inversion F as [|? ? (s & -> & b & Eb & Hb) Fl]. subst. destruct (IH Fl) as (c & Ec & Hc). cbn [none_of]. rewrite Eb.
    destruct b.
    + exists false. split; [reflexivity|]. split; [discriminate|]. intros A. exfalso. apply (A s); [now left|now apply Hb].
    + exists c. split; [exact Ec|]. rewrite Hc. split; [intros A t [E|B]; [injection E as <-; intros C; apply Hb in C; discriminate|now apply A]|intros A t B; apply A; now right].
Qed.
Lemma good_contains self l : good encodable l -> Forall (fun v => exists s, v = Str s /\ tells (contains v self) (has self s)) l.
Proof.
  apply Forall_impl. intros v (s & -> & H). exists s. split; [reflexivity|now apply contains_tells].
Qed.
Lemma other_tells P self o s : texts P o -> encodable s -> tells (other_contains (Str s) self o) (other_has self o s).
Proof.
  intros H E. destruct o as [l|l|t|]; cbn [other_contains other_has]; try (now apply contains_tells);
    (eexists; split; [reflexivity|]; apply in_pyeq).
Qed.
Lemma iter_other P self o : well_tagged self -> texts P o ->
  Forall (fun v => exists s, v = Str s /\ tells (other_contains v self o) (other_has self o s)) (iter self).
Proof.
  intros W H. apply Forall_forall. intros v Hv. destruct (iter_taggable self v W Hv) as (s & -> & G). exists s. split; [reflexivity|].
  apply (other_tells P); [exact H|now apply taggable_encodable].
Qed.
Lemma other_decide self o s : {other_has self o s} + {~ other_has self o s}.
Proof.
  destruct o as [l|l|t|]; cbn [other_has]; try apply has_decide;
    (destruct (existsb (pyeq (Str s)) l) eqn:E; [left; now apply in_pyeq|right; intros C; apply in_pyeq in C; congruence]).
Qed.

(** ** The library's part *)
Lemma term_insert_in t l x : In x (term_insert t l) <-> In x l \/ x = t.
Proof.
  induction l as [|y l IH]; cbn [term_insert In]; [intuition congruence|].
  destruct (bcmp t y) eqn:E; cbn [In]; [apply bcmp_eq in E; subst; intuition congruence|intuition congruence|rewrite IH; intuition congruence].
Qed.
Lemma term_insert_sorted t l : StronglySorted (fun a b => bcmp a b = Lt) l -> StronglySorted (fun a b => bcmp a b = Lt) (term_insert t l).
Proof.
  induction 1 as [|y l S IH H]; cbn [term_insert]; [repeat constructor|]. destruct (bcmp t y) eqn:E; [now constructor| |].
  - constructor; [now constructor|]. constructor; [exact E|]. revert H. apply Forall_impl. intros z Hz. now apply (bcmp_trans_lt t y z).
  - constructor; [exact IH|]. apply Forall_forall. intros z Hz. apply term_insert_in in Hz. destruct Hz as [Hz| ->].
    + rewrite Forall_forall in H. now apply H.
    + rewrite bcmp_antisym, E. reflexivity.
Qed.
Lemma filter_sorted {A} (R : A -> A -> Prop) f l : StronglySorted R l -> StronglySorted R (filter f l).
Proof.
  induction 1 as [|y l S IH H]; cbn [filter]; [constructor|]. destruct (f y); [|exact IH]. constructor; [exact IH|].
  apply Forall_forall. intros z Hz. apply filter_In in Hz. rewrite Forall_forall in H. now apply H.
Qed.
Lemma c_string_id b : ~ In NUL b -> c_string b = b.
Proof.
  induction b as [|c b IH]; intros H; [reflexivity|]. cbn [c_string]. destruct (beq c NUL) eqn:E.
  - apply beq_eq in E. subst. exfalso. apply H. now left.
  - f_equal. apply IH. intros C. apply H. now right.
Qed.
(** A message open for writing, with good tags. *)
Definition fine (m : message) : Prop := m_writable m = true /\ well_tagged (m_tags m).
Lemma add_fine m s : fine m -> taggable s -> exists m', add (Str s) m = (m', None) /\ fine m' /\ forall u, has (m_tags m') u <-> has (m_tags m) u \/ u = s.
Proof.
  intros [W [S F]] (b & E & N & L). unfold add, as_bytes. rewrite E. unfold add_tag. rewrite W. cbn [negb]. rewrite (c_string_id b N).
  replace (200 <? N.of_nat (length b)) with false by (symmetry; apply N.ltb_ge; lia).
  eexists. split; [reflexivity|]. split; [split; [reflexivity|split]|].
  - now apply term_insert_sorted.
  - apply Forall_forall. intros x Hx. apply term_insert_in in Hx. rewrite Forall_forall in F. destruct Hx as [Hx| ->]; [now apply F|eauto].
  - intros u. unfold has. cbn [m_tags]. split.
    + intros (x & Ex & Hx). apply term_insert_in in Hx. destruct Hx as [Hx| ->]; [left; eauto|right]. now apply (encode_inj u s b).
    + intros [(x & Ex & Hx)| ->]; [exists x|exists b]; (split; [assumption|]); apply term_insert_in; tauto.
Qed.
Lemma discard_fine m s : fine m -> taggable s -> exists m', discard (Str s) m = (m', None) /\ fine m' /\ forall u, has (m_tags m') u <-> has (m_tags m) u /\ u <> s.
Proof.
  intros [W [S F]] (b & E & N & L). unfold discard, as_bytes. rewrite E. unfold remove_tag. rewrite W. cbn [negb]. rewrite (c_string_id b N).
  replace (200 <? N.of_nat (length b)) with false by (symmetry; apply N.ltb_ge; lia).
  eexists. split; [reflexivity|]. split; [split; [reflexivity|split]|].
  - now apply filter_sorted.
  - apply Forall_forall. intros x Hx. apply filter_In in Hx. rewrite Forall_forall in F. now apply F.
  - intros u. unfold has. cbn [m_tags]. unfold term_remove. split.
    + intros (x & Ex & Hx). apply filter_In in Hx. destruct Hx as [Hx Nx]. split; [eauto|]. intros ->. rewrite E in Ex. injection Ex as ->.
      now rewrite bseq_refl in Nx.
    + intros [(x & Ex & Hx) Nu]. exists x. split; [exact Ex|]. apply filter_In. split; [exact Hx|]. apply negb_true_iff, bseq_neq.
      intros ->. apply Nu. now apply (encode_inj u s x).
Qed.
Lemma clear_fine m : fine m -> exists m', clear m = (m', None) /\ fine m' /\ forall u, ~ has (m_tags m') u.
Proof.
  intros [W _]. unfold clear, remove_all_tags. rewrite W. cbn [negb]. eexists. split; [reflexivity|]. split.
  - repeat constructor.
  - intros u (b & _ & []).
Qed.
Lemma each_add l : forall m, fine m -> good taggable l ->
  exists m', for_each add l m = (m', None) /\ fine m' /\ forall u, has (m_tags m') u <-> has (m_tags m) u \/ In (Str u) l.
Proof.
  induction l as [|v l IH]; intros m F G.
  - exists m. split; [reflexivity|]. split; [exact F|]. intros u. cbn [In]. tauto.
  - inversion G as [|? ? (s & -> & T) G']. subst. destruct (add_fine m s F T) as (m1 & E & F1 & H1).
    destruct (IH m1 F1 G') as (m2 & E2 & F2 & H2). cbn [for_each]. rewrite E. exists m2. split; [exact E2|]. split; [exact F2|].
    intros u. rewrite H2, H1. cbn [In]. intuition congruence.
Qed.
Lemma each_discard l : forall m, fine m -> good taggable l ->
  exists m', for_each discard l m = (m', None) /\ fine m' /\ forall u, has (m_tags m') u <-> has (m_tags m) u /\ ~ In (Str u) l.
Proof.
  induction l as [|v l IH]; intros m F G.
  - exists m. split; [reflexivity|]. split; [exact F|]. intros u. cbn [In]. tauto.
  - inversion G as [|? ? (s & -> & T) G']. subst. destruct (discard_fine m s F T) as (m1 & E & F1 & H1).
    destruct (IH m1 F1 G') as (m2 & E2 & F2 & H2). cbn [for_each]. rewrite E. exists m2. split; [exact E2|]. split; [exact F2|].
    intros u. rewrite H2, H1. cbn [In]. intuition congruence.
Qed.
Lemma each_toggle l : forall m, fine m -> good taggable l -> NoDup l ->
  exists m', for_each (fun v m => match contains v (m_tags m) with
                           | Raised e => (m, Some e)
                           | Ok true => discard v m
                           | Ok false => add v m
                           end) l m = (m', None) /\ fine m' /\
    forall u, has (m_tags m') u <-> (has (m_tags m) u /\ ~ In (Str u) l) \/ (~ has (m_tags m) u /\ In (Str u) l).
Proof.
  induction l as [|v l IH]; intros m F G D.
  - exists m. split; [reflexivity|]. split; [exact F|]. intros u. cbn [In]. tauto.
  - inversion G as [|? ? (s & -> & T) G']. subst. inversion D as [|? ? Nd D']. subst. cbn [for_each].
    destruct (contains_tells (m_tags m) s (taggable_encodable s T)) as (b & Eb & Hb). rewrite Eb.
    assert (X : exists m1, (if b then discard (Str s) m else add (Str s) m) = (m1, None) /\ fine m1 /\
                forall u, has (m_tags m1) u <-> (if b then has (m_tags m) u /\ u <> s else has (m_tags m) u \/ u = s)).
    { destruct b; [now apply discard_fine|now apply add_fine]. }
    destruct X as (m1 & E & F1 & H1). destruct (IH m1 F1 G' D') as (m2 & E2 & F2 & H2). exists m2. split; [destruct b; now rewrite E|].
    split; [exact F2|]. intros u. rewrite H2, H1. cbn [In].
    assert (Q : Str s = Str u <-> u = s) by (split; congruence). rewrite Q. clear Q.
    assert (Z : u = s -> ~ In (Str u) l) by (intros ->; exact Nd).
    assert (Y : u = s -> (b = true <-> has (m_tags m) u)) by (intros ->; exact Hb).
    destruct (list_eq_dec N.eq_dec u s) as [e|n]; [specialize (Z e); specialize (Y e)|]; destruct b; intuition congruence.
Qed.
