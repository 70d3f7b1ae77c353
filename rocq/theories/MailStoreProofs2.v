From Verif Require Import Bytes DocMap MsgId MsgIdProofs MailStore MailStoreSpec MailStoreProofs.
From Coq Require Import Relations Permutation Sorted.
Local Open Scope N_scope.

(** The search for a common document. *)
Lemma skip_to_cons x y l : skip_to x (y :: l) = if N.ltb y x then skip_to x l else y :: l.
Proof. reflexivity. Qed.
Lemma skip_to_spec x l : StronglySorted N.lt l -> StronglySorted N.lt (skip_to x l) /\
  (forall z, In z (skip_to x l) <-> In z l /\ x <= z) /\ (length (skip_to x l) <= length l)%nat /\
  match l with y :: _ => y < x -> (length (skip_to x l) < length l)%nat | [] => True end /\
  match skip_to x l with y :: _ => x <= y | [] => True end.
Proof.
  induction 1 as [|y l H IH Hy]; [cbn; split; [constructor|]; split; [tauto|]; auto|]. rewrite skip_to_cons. destruct (N.ltb_spec y x).
  - destruct IH as (A & B & C & D & E). split; [exact A|]. split; [intros z; rewrite B; cbn; split; [intros [? ?]; auto|intros [[<-|?] ?]; [lia|auto]]|].
    split; [cbn; lia|]. split; [intros _; cbn; lia|exact E].
  - split; [constructor; assumption|]. split.
    { intros z. split; [|tauto]. intros Hz. split; [exact Hz|]. destruct Hz as [<-|Hz]; [assumption|]. rewrite Forall_forall in Hy. apply Hy in Hz. lia. }
    split; [lia|]. split; [lia|assumption].
Qed.
Definition gap (a b : list N) : Prop := match a, b with x :: _, y :: _ => x < y | _, _ => True end.
Lemma common_doc_spec fuel : forall a b, StronglySorted N.lt a -> StronglySorted N.lt b ->
  (length a + 1 <= fuel)%nat \/ (gap a b /\ (length a <= fuel)%nat) ->
  exists r, common_doc fuel a b = Some r /\ (r = true <-> exists x, In x a /\ In x b).
Proof.
  induction fuel as [|fuel IH]; intros a b Ha Hb Hf.
  - destruct a as [|x a]; [|cbn in Hf; lia]. cbn. exists false. split; [destruct b; reflexivity|]. split; [discriminate|]. intros (x & [] & _).
  - destruct a as [|x a0]; [exists false; split; [destruct b; reflexivity|]; split; [discriminate|]; intros (z & [] & _)|].
    destruct b as [|m b0]; [exists false; split; [reflexivity|]; split; [discriminate|]; intros (z & _ & [])|].
    cbn [common_doc]. set (a := x :: a0) in *. set (b := m :: b0) in *.
    destruct (skip_to_spec m a Ha) as (Sa & Ia & La & Ga & Ea).
    assert (La' : (length (skip_to m a) <= fuel)%nat).
    { destruct Hf as [Hf|[G Hf]]; [lia|]. unfold a in Ga. fold a in Ga. cbn [gap] in G. unfold a, b in G. specialize (Ga G). lia. }
    assert (Hm : forall z, In z b -> m <= z).
    { intros z [<-|Hz]; [lia|]. apply StronglySorted_inv in Hb as [_ Hb]. rewrite Forall_forall in Hb. apply Hb in Hz. lia. }
    destruct (skip_to m a) as [|t a'] eqn:Et.
    + exists false. split; [destruct fuel; reflexivity|]. split; [discriminate|]. intros (z & Hz1 & Hz2). exfalso. apply (Ia z). split; [exact Hz1|auto].
    + destruct (N.eqb_spec t m) as [->|Hne].
      { exists true. split; [reflexivity|]. split; [|reflexivity]. intros _. exists m. split; [apply Ia; now left|now left]. }
      destruct (skip_to_spec t b Hb) as (Sb & Ib & Lb & Gb & Eb).
      assert (Ht : forall z, In z (t :: a') -> t <= z).
      { intros z [<-|Hz]; [lia|]. apply StronglySorted_inv in Sa as [_ Sa]. rewrite Forall_forall in Sa. apply Sa in Hz. lia. }
      destruct (skip_to t b) as [|m' b'] eqn:Em.
      { exists false. split; [destruct fuel; reflexivity|]. split; [discriminate|]. intros (z & Hz1 & Hz2). exfalso. apply (Ib z). split; [exact Hz2|].
        apply Ht. apply Ia. split; [exact Hz1|auto]. }
      destruct (N.eqb_spec t m') as [->|Hne'].
      { exists true. split; [reflexivity|]. split; [|reflexivity]. intros _. exists m'. split; [apply Ia; now left|apply Ib; now left]. }
      destruct (IH (t :: a') (m' :: b') Sa Sb) as (r & E & Hr).
      { right. split; [cbn; lia|exact La']. }
      exists r. split; [exact E|]. rewrite Hr. split; intros (z & Hz1 & Hz2).
      * exists z. split; [now apply Ia|now apply Ib].
      * assert (Hz1' : In z (t :: a')) by (apply Ia; split; [exact Hz1|auto]). exists z. split; [exact Hz1'|]. apply Ib. split; [exact Hz2|auto].
Qed.

Section P.
Variable compressed : bytes -> bytes.
Hypothesis compressed_short : forall s, (length (compressed s) <= 189)%nat.
Notation canon := (canon compressed).
Notation inv := (inv compressed).

Lemma doc_ids_In p s k : ksorted (docs s) -> (In k (doc_ids p s) <-> exists d, has s k d /\ p d = true).
Proof.
  intros Hs. unfold doc_ids. rewrite in_map_iff. split.
  - intros ([j d] & <- & H). apply filter_In in H as [H1 H2]. exists d. split; [now apply In_dget_sorted|exact H2].
  - intros (d & H1 & H2). exists (k, d). split; [reflexivity|]. apply filter_In. split; [now apply dget_In|exact H2].
Qed.
Lemma doc_ids_sorted p s : ksorted (docs s) -> StronglySorted N.lt (doc_ids p s).
Proof.
  unfold doc_ids. induction (docs s) as [|[k d] m IH]; cbn; [constructor|]. intros [H1 H2]. specialize (IH H2).
  destruct (p d); cbn; [|exact IH]. constructor; [exact IH|]. apply Forall_forall. intros j Hj. apply in_map_iff in Hj as ([j' d'] & <- & Hj).
  apply filter_In in Hj as [Hj _]. apply (In_dget_sorted _ _ _ H2) in Hj. eapply H1; eauto.
Qed.
Lemma fold_ddel_get ks : forall (m : docmap mdoc) j, dget j (fold_left (fun m k => ddel k m) ks m) = if existsb (N.eqb j) ks then None else dget j m.
Proof.
  induction ks as [|k ks IH]; intros m j; cbn; [reflexivity|]. rewrite IH, dget_ddel. destruct (N.eqb j k), (existsb (N.eqb j) ks); reflexivity.
Qed.
Lemma fold_ddel_sorted ks : forall m : docmap mdoc, ksorted m -> ksorted (fold_left (fun m k => ddel k m) ks m).
Proof. induction ks as [|k ks IH]; intros m H; cbn; [exact H|]. now apply IH, ddel_sorted. Qed.

(** Deleting a message: [d0] is what is stored, [d] the handle used. *)
Lemma message_delete_spec k d0 d t s : inv s -> has s k d0 -> m_ghost d = false -> m_id d = m_id d0 -> m_threads d = [t] -> m_threads d0 = [t] ->
  exists s', message_delete compressed k d s = Some s' /\ inv s' /\ last_doc s <= last_doc s' /\ last_thread s' = last_thread s /\
  ((exists k1 e, has s k1 e /\ k1 <> k /\ m_ghost e = false /\ m_threads e = [t]) /\
     (forall j e, has s' j e <-> (j = last_doc s + 1 /\ e = initialize_ghost t (blank_doc (m_id d))) \/ (j <> k /\ has s j e))
   \/
   (forall k1 e, has s k1 e -> k1 <> k -> m_threads e = [t] -> m_ghost e = true) /\
     (forall j e, has s' j e <-> has s j e /\ m_threads e <> [t])).
Proof.
  intros Hi H0 Hg Eid T T0. unfold message_delete, get_thread_id. rewrite T, Hg.
  set (s1 := set_docs (ddel k (docs s)) s).
  assert (H1 : forall j e, has s1 j e <-> j <> k /\ has s j e).
  { intros j e. unfold has, s1. cbn. rewrite dget_ddel. destruct (N.eqb_spec j k); [split; [discriminate|tauto]|tauto]. }
  assert (Hs1 : ksorted (docs s1)) by (apply ddel_sorted, Hi).
  set (td := doc_ids (in_thread t) s1). set (md := doc_ids (fun d => negb (m_ghost d)) s1).
  assert (It : forall j e, has s j e -> (in_thread t e = true <-> m_threads e = [t])).
  { intros j e H. destruct (i_thread _ s Hi j e H) as (t' & E & _). unfold in_thread. rewrite E. cbn. rewrite orb_false_r. rewrite N.eqb_eq. split; [now intros ->|now intros [=]]. }
  destruct (common_doc_spec (S (length td)) td md (doc_ids_sorted _ _ Hs1) (doc_ids_sorted _ _ Hs1)) as (r & Er & Hr); [left; lia|].
  rewrite Er. destruct r.
  - destruct (proj1 Hr eq_refl) as (k1 & Hk1 & Hk2).
    apply (doc_ids_In _ _ _ Hs1) in Hk1 as (e & He1 & He2). apply (doc_ids_In _ _ _ Hs1) in Hk2 as (e' & He1' & He2').
    assert (e' = e) by (unfold has in *; congruence). subst e'. apply H1 in He1 as [Hk He].
    apply (It k1 e He) in He2. apply negb_true_iff in He2'.
    assert (Hno : forall j e, has s1 j e -> m_id e <> m_id d).
    { intros j e2 H E. apply H1 in H as [Hne H]. apply Hne. apply (i_unique _ s Hi j e2 k d0 H H0). congruence. }
    assert (Hc : canon (m_id d) = m_id d) by (rewrite Eid; exact (i_canon _ s Hi k d0 H0)).
    unfold create_for_message_id. pose proof (find_message_spec compressed (m_id d) s1 Hs1) as F. rewrite Hc in *.
    destruct (find_message compressed (m_id d) s1) as [[k2 d2]|]; [destruct F as [F1 F2]; exfalso; now apply (Hno k2 d2 F1)|].
    cbn [last_doc docs last_thread s1 set_docs]. eexists. split; [reflexivity|].
    set (s2 := {| docs := ddel k (docs s); last_doc := last_doc s + 1; last_thread := last_thread s |}).
    set (g := initialize_ghost t (blank_doc (m_id d))).
    assert (HH : forall j e, has (sync (last_doc s + 1) g s2) j e <-> (j = last_doc s + 1 /\ e = g) \/ (j <> k /\ has s j e)).
    { intros j e2. rewrite has_sync. unfold s2. change (has {| docs := ddel k (docs s); last_doc := last_doc s + 1; last_thread := last_thread s |} j e2) with (has s1 j e2).
      rewrite H1. split; [tauto|]. intros [X|[X1 X2]]; [auto|]. right. split; [|auto]. apply (i_last _ s Hi) in X2. lia. }
    split; [|split; [cbn; lia|split; [reflexivity|]]].
    + constructor.
      * unfold sync, s2. cbn. apply dins_sorted, ddel_sorted, Hi.
      * intros j e2 H. apply HH in H as [[-> _]|[_ H]]; cbn; [lia|]. apply (i_last _ s Hi) in H. lia.
      * intros j e2 j' e2' H H' E. apply HH in H as [[-> ->]|[X H]], H' as [[-> ->]|[X' H']]; [reflexivity| | |now apply (i_unique _ s Hi j e2 j' e2')].
        -- exfalso. apply X'. apply (i_unique _ s Hi j' e2' k d0 H' H0). cbn in E. congruence.
        -- exfalso. apply X. apply (i_unique _ s Hi j e2 k d0 H H0). cbn in E. congruence.
      * intros j e2 H. apply HH in H as [[-> ->]|[_ H]]; [|exact (i_thread _ s Hi j e2 H)]. exists t. split; [reflexivity|]. cbn.
        destruct (i_thread _ s Hi k d0 H0) as (t' & E & L). rewrite T0 in E. now injection E as ->.
      * intros j e2 H. apply HH in H as [[-> ->]|[_ H]]; [exact Hc|exact (i_canon _ s Hi j e2 H)].
      * intros j e2 H. apply HH in H as [[-> ->]|[_ H]]; [split; reflexivity|exact (i_files _ s Hi j e2 H)].
      * intros j e2 H. apply HH in H as [[-> ->]|[_ H]]; [constructor|exact (i_nodup _ s Hi j e2 H)].
      * intros j e2 r H Hin. apply HH in H as [[-> ->]|[X H]]; [destruct Hin|].
        destruct (i_refs _ s Hi j e2 r H Hin) as (k' & d' & X1 & X2 & X3). destruct (N.eq_dec k' k) as [->|Hne].
        -- assert (d' = d0) by (unfold has in *; congruence). subst d'. exists (last_doc s + 1), g. split; [apply HH; auto|]. split; [cbn; congruence|]. cbn. congruence.
        -- exists k', d'. split; [apply HH; auto|auto].
    + left. split; [exists k1, e; auto|exact HH].
  - eexists. split; [reflexivity|].
    assert (HH : forall j e, has (set_docs (fold_left (fun m k => ddel k m) td (docs s1)) s1) j e <-> has s j e /\ m_threads e <> [t]).
    { intros j e. unfold has at 1. cbn [set_docs docs]. rewrite fold_ddel_get. destruct (existsb (N.eqb j) td) eqn:Ex.
      - split; [discriminate|]. intros [X1 X2]. exfalso. apply X2. apply existsb_exists in Ex as (j' & Hin & Ej). apply N.eqb_eq in Ej as <-.
        apply (doc_ids_In _ _ _ Hs1) in Hin as (e' & X3 & X4). apply H1 in X3 as [_ X3]. assert (e' = e) by (unfold has in *; congruence). subst e'. now apply (It j e X1).
      - change (dget j (docs s1) = Some e) with (has s1 j e). rewrite H1.
        assert (Hno : forall e, j <> k -> has s j e -> m_threads e <> [t]).
        { intros e1 Hne He X. apply (It j e1 He) in X. assert (Y : existsb (N.eqb j) td = true).
          { apply existsb_exists. exists j. split; [|apply N.eqb_refl]. apply (doc_ids_In _ _ _ Hs1). exists e1. split; [apply H1; auto|exact X]. }
          congruence. }
        split; [intros [X1 X2]; split; [exact X2|now apply Hno]|]. intros [X1 X2]. split; [|exact X1]. intros ->.
        assert (e = d0) by (unfold has in *; congruence). subst e. congruence. }
    split; [|split; [cbn; lia|split; [reflexivity|]]].
    + constructor.
      * cbn. apply fold_ddel_sorted, ddel_sorted, Hi.
      * intros j e H. apply HH in H as [H _]. exact (i_last _ s Hi j e H).
      * intros j e j' e' H H'. apply HH in H as [H _], H' as [H' _]. now apply (i_unique _ s Hi).
      * intros j e H. apply HH in H as [H _]. exact (i_thread _ s Hi j e H).
      * intros j e H. apply HH in H as [H _]. exact (i_canon _ s Hi j e H).
      * intros j e H. apply HH in H as [H _]. exact (i_files _ s Hi j e H).
      * intros j e H. apply HH in H as [H _]. exact (i_nodup _ s Hi j e H).
      * intros j e r H Hin. apply HH in H as [H Hn]. destruct (i_refs _ s Hi j e r H Hin) as (k' & d' & X1 & X2 & X3).
        exists k', d'. split; [apply HH; split; [exact X1|congruence]|auto].
    + right. split; [|exact HH]. intros k1 e H Hne Te. destruct (m_ghost e) eqn:Eg; [reflexivity|]. exfalso.
      assert (X : false = true); [|discriminate]. apply Hr. exists k1. split; apply (doc_ids_In _ _ _ Hs1); exists e; (split; [apply H1; auto|]).
      * now apply (It k1 e H).
      * now rewrite Eg.
Qed.

Lemma brem_In x l y : NoDup l -> (In y (brem x l) <-> In y l /\ y <> x).
Proof.
  induction 1 as [|a l Ha H IH]; cbn; [tauto|]. destruct (bseq_spec x a) as [->|Hne].
  - split; [intros X; split; [auto|intros ->; contradiction]|]. intros [[->|X] Hn]; [congruence|exact X].
  - cbn. rewrite IH. intuition congruence.
Qed.
Lemma brem_NoDup x l : NoDup l -> NoDup (brem x l).
Proof.
  induction 1 as [|a l Ha H IH]; cbn; [constructor|]. destruct (bseq x a); [exact H|]. constructor; [|exact IH].
  intros X. apply (brem_In x l a H) in X as [X _]. contradiction.
Qed.
Lemma brem_length x l : (length l <= S (length (brem x l)))%nat.
Proof. induction l as [|a l IH]; cbn; [lia|]. destruct (bseq x a); cbn; lia. Qed.

Lemma remove_message_spec name s : inv s -> exists st s', remove_message compressed name s = Some (st, s') /\ inv s' /\
  last_doc s <= last_doc s' /\ last_thread s' = last_thread s /\
  ((st = M_success /\ s' = s /\ (forall k d, has s k d -> ~ In name (m_files d))) \/
   exists k d t, has s k d /\ In name (m_files d) /\ m_ghost d = false /\ m_threads d = [t] /\
    ((st = M_duplicate /\ (exists n, In n (m_files d) /\ n <> name) /\
        exists d', has s' k d' /\ d' = set_files (m_files d') d /\ (forall n, In n (m_files d') <-> In n (m_files d) /\ n <> name) /\
          forall j e, j <> k -> (has s' j e <-> has s j e)) \/
     (st = M_success /\ m_files d = [name] /\
       ((exists k1 e, has s k1 e /\ k1 <> k /\ m_ghost e = false /\ m_threads e = [t]) /\
          (forall j e, has s' j e <-> (j = last_doc s + 1 /\ e = initialize_ghost t (blank_doc (m_id d))) \/ (j <> k /\ has s j e))
        \/
        (forall k1 e, has s k1 e -> k1 <> k -> m_threads e = [t] -> m_ghost e = true) /\
          (forall j e, has s' j e <-> has s j e /\ m_threads e <> [t]))))).
Proof.
  intros Hi. unfold remove_message, find_by_filename.
  pose proof (find_spec (fun kd => existsb (bseq name) (m_files (snd kd))) (docs s)) as F.
  destruct (find _ (docs s)) as [[k d]|].
  2:{ exists M_success, s. split; [reflexivity|]. split; [exact Hi|]. split; [lia|]. split; [reflexivity|]. left. split; [reflexivity|]. split; [reflexivity|].
      intros k d H Hin. apply dget_In in H. apply F in H. cbn in H. apply existsb_bseq in Hin. congruence. }
  destruct F as [F1 F2]. cbn in F2. apply existsb_bseq in F2. apply (In_dget_sorted _ _ _ (i_sorted _ s Hi)) in F1. change (has s k d) in F1.
  pose proof (i_nodup _ s Hi k d F1) as Nd. destruct (i_thread _ s Hi k d F1) as (t & T & Lt).
  assert (Hg : m_ghost d = false).
  { pose proof (i_files _ s Hi k d F1) as Q. destruct (m_ghost d); [|reflexivity]. destruct Q as [Q _]. rewrite Q in F2. destruct F2. }
  destruct (Nat.ltb_spec 1 (length (m_files d))) as [Hl|Hl].
  - cbn [set_files m_files]. pose proof (brem_length name (m_files d)) as Lb. destruct (brem name (m_files d)) as [|n0 ns] eqn:Eb; [cbn in Lb; lia|]. rewrite <- Eb.
    set (d' := set_files (brem name (m_files d)) d).
    exists M_duplicate, (sync k d' s). split; [reflexivity|]. split.
    { apply (inv_put compressed k d' t); auto.
      - exact (i_last _ s Hi k d F1).
      - intros k' e H E. apply (i_unique _ s Hi k' e k d H F1). exact E.
      - intros e H. assert (e = d) by (unfold has in *; congruence). subst e. auto.
      - exact (i_canon _ s Hi k d F1).
      - cbn. rewrite Hg, Eb. discriminate.
      - cbn. now apply brem_NoDup.
      - cbn. intros r Hr. rewrite <- T. exact (i_refs _ s Hi k d r F1 Hr). }
    split; [cbn; lia|]. split; [reflexivity|]. right. exists k, d, t. split; [exact F1|]. split; [exact F2|]. split; [exact Hg|]. split; [exact T|]. left.
    split; [reflexivity|]. split.
    { exists n0. apply (brem_In name (m_files d) n0 Nd). rewrite Eb. now left. }
    exists d'. split; [apply has_sync; auto|]. split; [reflexivity|]. split; [intros n; cbn; now apply brem_In|].
    intros j e Hj. rewrite has_sync. tauto.
  - assert (Ef : m_files d = [name]).
    { destruct (m_files d) as [|a [|b l]]; [destruct F2|destruct F2 as [->|[]]; reflexivity|cbn in Hl; lia]. }
    destruct (message_delete_spec k d d t s Hi F1 Hg eq_refl T T) as (s' & E & Hi' & L1 & L2 & D). rewrite E.
    exists M_success, s'. split; [reflexivity|]. split; [exact Hi'|]. split; [exact L1|]. split; [exact L2|]. right. exists k, d, t.
    split; [exact F1|]. split; [exact F2|]. split; [exact Hg|]. split; [exact T|]. right. split; [reflexivity|]. split; [exact Ef|exact D].
Qed.

Lemma retag_spec id tags s : inv s -> inv (retag compressed id tags s) /\ last_doc (retag compressed id tags s) = last_doc s /\
  last_thread (retag compressed id tags s) = last_thread s /\
  forall j e', has (retag compressed id tags s) j e' <->
    exists e, has s j e /\ e' = if bseq (m_id e) (canon id) then set_tags tags e else e.
Proof.
  intros Hi. unfold retag. pose proof (find_message_spec compressed id s (i_sorted _ s Hi)) as F.
  destruct (find_message compressed id s) as [[k d]|].
  - destruct F as [F1 F2]. destruct (i_thread _ s Hi k d F1) as (t & T & Lt). split; [|split; [reflexivity|split; [reflexivity|]]].
    + apply (inv_put compressed k (set_tags tags d) t); auto.
      * exact (i_last _ s Hi k d F1).
      * intros k' e H E. apply (i_unique _ s Hi k' e k d H F1). exact E.
      * intros e H. assert (e = d) by (unfold has in *; congruence). subst e. auto.
      * exact (i_canon _ s Hi k d F1).
      * exact (i_files _ s Hi k d F1).
      * exact (i_nodup _ s Hi k d F1).
      * cbn. intros r Hr. rewrite <- T. exact (i_refs _ s Hi k d r F1 Hr).
    + intros j e'. rewrite has_sync. split.
      * intros [[-> ->]|[Hne H]].
        -- exists d. split; [exact F1|]. rewrite F2, bseq_refl. reflexivity.
        -- exists e'. split; [exact H|]. destruct (bseq_spec (m_id e') (canon id)) as [E|]; [|reflexivity].
           exfalso. apply Hne. apply (i_unique _ s Hi j e' k d H F1). congruence.
      * intros (e & H & ->). destruct (N.eq_dec j k) as [->|Hne].
        -- assert (e = d) by (unfold has in *; congruence). subst e. rewrite F2, bseq_refl. auto.
        -- right. split; [exact Hne|]. destruct (bseq_spec (m_id e) (canon id)) as [E|]; [|exact H].
           exfalso. apply Hne. apply (i_unique _ s Hi j e k d H F1). congruence.
  - split; [exact Hi|]. split; [reflexivity|]. split; [reflexivity|]. intros j e'. split.
    + intros H. exists e'. split; [exact H|]. destruct (bseq_spec (m_id e') (canon id)) as [E|]; [|reflexivity]. exfalso. now apply (F j e' H).
    + intros (e & H & ->). destruct (bseq_spec (m_id e) (canon id)) as [E|]; [|exact H]. exfalso. now apply (F j e H).
Qed.

(** Legal additions never refer to the message itself. *)
Lemma legal_self name f keys ok : legal compressed (OAdd name f keys ok) -> forall r, In r keys -> canon r <> canon (f_id f).
Proof.
  intros [Hp Hl] r Hr. destruct (Nat.le_gt_cases (length r) 189) as [H|H].
  - rewrite (canon_id compressed r H). intros ->. apply (Permutation_in _ Hp) in Hr. unfold file_parents in Hr.
    revert Hr. unfold read_parents. rewrite !parse_references_eq. cbn. rewrite !hadds_In. unfold stored. tauto.
  - rewrite Forall_forall in Hl. now apply (Hl r Hr).
Qed.

(** One step preserves the invariant and never aborts. *)
Lemma mstep_inv o s : inv s -> legal compressed o -> exists st s', mstep compressed o s = Some (st, s') /\ inv s' /\ last_doc s <= last_doc s' /\ last_thread s <= last_thread s'.
Proof.
  intros Hi Hl. destruct o as [name f keys ok|name|id tags].
  - destruct (index_file_spec compressed compressed_short name f keys ok s Hi (legal_self _ _ _ _ Hl)) as (st & s' & phi & t & E & Hi' & _ & _ & (N1 & N2 & _) & _).
    exists st, s'. auto.
  - destruct (remove_message_spec name s Hi) as (st & s' & E & Hi' & L1 & L2 & _). exists st, s'. split; [exact E|]. split; [exact Hi'|]. split; [exact L1|lia].
  - destruct (retag_spec id tags s Hi) as (Hi' & L1 & L2 & _). eexists _, _. split; [reflexivity|]. split; [exact Hi'|]. split; lia.
Qed.
Lemma mrun_inv h : forall s, inv s -> Forall (legal compressed) h -> exists s', mrun compressed h s = Some s' /\ inv s' /\ last_doc s <= last_doc s' /\ last_thread s <= last_thread s'.
Proof.
  induction h as [|o h IH]; intros s Hi Hl; cbn; [exists s; split; [reflexivity|]; split; [exact Hi|]; split; lia|].
  apply Forall_cons_iff in Hl as [Ho Hl]. destruct (mstep_inv o s Hi Ho) as (st & s1 & E & Hi1 & L1 & L2). rewrite E.
  destruct (IH s1 Hi1 Hl) as (s' & E' & Hi' & L3 & L4). exists s'. split; [exact E'|]. split; [exact Hi'|]. split; lia.
Qed.
Lemma mrun_app h1 : forall h2 s, mrun compressed (h1 ++ h2) s = match mrun compressed h1 s with Some s => mrun compressed h2 s | None => None end.
Proof. induction h1 as [|o h1 IH]; intros h2 s; cbn; [reflexivity|]. destruct (mstep compressed o s) as [[? ?]|]; [apply IH|reflexivity]. Qed.

(** While message [b] stays, whatever shares its thread keeps sharing it. *)
Lemma thread_single s k d t : inv s -> has s k d -> In t (m_threads d) -> m_threads d = [t].
Proof. intros Hi H T. destruct (i_thread _ s Hi k d H) as (t' & E & _). rewrite E in *. destruct T as [->|[]]. reflexivity. Qed.
Lemma keep_step o s st s' a b : inv s -> legal compressed o -> mstep compressed o s = Some (st, s') ->
  same_thread s a b -> is_mail s b -> is_mail s' b -> same_thread s' a b.
Proof.
  intros Hi Hl Hs Hab Hb Hb'. destruct o as [name f keys ok|name|id tags]; cbn in Hs.
  - destruct (index_file_spec compressed compressed_short name f keys ok s Hi (legal_self _ _ _ _ Hl)) as (st1 & s1 & phi & t & E & Hi' & Hev & _).
    rewrite E in Hs. injection Hs as <- <-. destruct Hab as (t0 & (k & d & H & Eid & T) & (k' & d' & H' & Eid' & T')).
    destruct (Hev k d H) as (e & X1 & X2 & X3 & _). destruct (Hev k' d' H') as (e' & Y1 & Y2 & Y3 & _).
    exists (phi t0). split.
    + exists k, e. split; [exact X1|]. split; [congruence|]. rewrite X3. now apply in_map.
    + exists k', e'. split; [exact Y1|]. split; [congruence|]. rewrite Y3. now apply in_map.
  - destruct (remove_message_spec name s Hi) as (st1 & s1 & E & Hi' & _ & _ & D). rewrite E in Hs. injection Hs as <- <-.
    destruct D as [(_ & -> & _)|(k & d & t & H & Hin & Hg & T & D)]; [exact Hab|].
    destruct D as [(_ & _ & d' & X1 & X2 & X3 & X4)|(_ & Ef & D)].
    + assert (Hk : forall id t0, thread_of s id t0 -> thread_of s1 id t0).
      { intros id t0 (j & e & He & Eid & Te). destruct (N.eq_dec j k) as [->|Hne].
        - assert (e = d) by (unfold has in *; congruence). subst e. exists k, d'. split; [exact X1|]. rewrite X2. auto.
        - exists j, e. split; [now apply X4|auto]. }
      destruct Hab as (t0 & A & B). exists t0. auto.
    + destruct D as [[_ HH]|[Hno HH]].
      * assert (Hk : forall id t0, thread_of s id t0 -> thread_of s1 id t0).
        { intros id t0 (j & e & He & Eid & Te). destruct (N.eq_dec j k) as [->|Hne].
          - assert (e = d) by (unfold has in *; congruence). subst e. exists (last_doc s + 1), (initialize_ghost t (blank_doc (m_id d))).
            split; [apply HH; auto|]. split; [exact Eid|]. rewrite T in Te. exact Te.
          - exists j, e. split; [apply HH; auto|auto]. }
        destruct Hab as (t0 & A & B). exists t0. auto.
      * destruct Hab as (t0 & (ka & da & Ha & Ea & Ta) & (kb & db & Hbb & Eb & Tb)).
        apply (thread_single s _ _ _ Hi Ha) in Ta. apply (thread_single s _ _ _ Hi Hbb) in Tb.
        assert (Hne : t0 <> t).
        { intros ->. destruct Hb' as (k2 & d2 & H2 & E2 & _). apply HH in H2 as [H2 N2].
          assert (k2 = kb) by (apply (i_unique _ s Hi k2 d2 kb db H2 Hbb); congruence). subst k2. assert (d2 = db) by (unfold has in *; congruence). subst d2. contradiction. }
        exists t0. split; [exists ka, da|exists kb, db]; (split; [apply HH; split; [assumption|congruence]|]); (split; [assumption|]).
        -- rewrite Ta. now left.
        -- rewrite Tb. now left.
  - injection Hs as <- <-. destruct (retag_spec id tags s Hi) as (_ & _ & _ & HH). destruct Hab as (t0 & (k & d & H & Eid & T) & (k' & d' & H' & Eid' & T')).
    assert (X : forall i d, thread_of s i d -> thread_of (retag compressed id tags s) i d).
    { intros i t1 (j & e & He & Ei & Te). exists j, (if bseq (m_id e) (canon id) then set_tags tags e else e). split; [apply HH; eauto|]. destruct (bseq _ _); auto. }
    exists t0. split; apply X; [exists k, d|exists k', d']; auto.
Qed.
Lemma keep h : forall s a b, inv s -> Forall (legal compressed) h -> same_thread s a b -> stays compressed b s h ->
  exists s', mrun compressed h s = Some s' /\ same_thread s' a b /\ is_mail s' b.
Proof.
  induction h as [|o h IH]; intros s a b Hi Hl Hab Hst.
  - exists s. cbn in *. intuition.
  - cbn [stays mrun] in *. apply Forall_cons_iff in Hl as [Ho Hl]. destruct (mstep_inv o s Hi Ho) as (st & s1 & E & Hi1 & _). rewrite E in *.
    destruct Hst as [Hb Hst]. apply (IH s1 a b Hi1 Hl); [|exact Hst]. apply (keep_step o s st s1 a b Hi Ho E Hab Hb). destruct h; cbn in Hst; apply Hst.
Qed.

(** Soundness: only connected ids share a thread. *)
Section Sound.
Variable R : bytes -> bytes -> Prop.
Hypothesis Rrefl : forall a, R a a.
Hypothesis Rsym : forall a b, R a b -> R b a.
Hypothesis Rtrans : forall a b c, R a b -> R b c -> R a c.
Definition sound (s : mdb) : Prop := forall k d k' d' t, has s k d -> has s k' d' -> m_threads d = [t] -> m_threads d' = [t] -> R (m_id d) (m_id d').
Definition all_in (self : bytes) (t : N) (s : mdb) : Prop := forall k e, has s k e -> m_threads e = [t] -> R self (m_id e).

Lemma sound_new_ghost id s : inv s -> sound s -> (forall k d, has s k d -> m_id d <> canon id) ->
  let s' := {| docs := dins (last_doc s + 1) (initialize_ghost (last_thread s + 1) (blank_doc (canon id))) (docs s);
         last_doc := last_doc s + 1; last_thread := last_thread s + 1 |} in
  sound s' /\ all_in (canon id) (last_thread s + 1) s' /\ (forall self t, t <= last_thread s -> all_in self t s -> all_in self t s').
Proof.
  intros Hi Hs Hn s'. assert (HH : forall j e, has s' j e <-> (j = last_doc s + 1 /\ e = initialize_ghost (last_thread s + 1) (blank_doc (canon id))) \/ has s j e).
  { apply has_new; [apply Hi|apply Hi|reflexivity]. }
  assert (Hold : forall j e, has s j e -> m_threads e <> [last_thread s + 1]).
  { intros j e H X. destruct (i_thread _ s Hi j e H) as (t & E & L). rewrite E in X. injection X as ->. lia. }
  split; [|split].
  - intros k d k' d' t H H' T T'. apply HH in H as [[-> ->]|H], H' as [[-> ->]|H'].
    + apply Rrefl.
    + cbn in T. injection T as <-. exfalso. now apply (Hold k' d').
    + cbn in T'. injection T' as <-. exfalso. now apply (Hold k d).
    + now apply (Hs k d k' d' t).
  - intros k e H T. apply HH in H as [[-> ->]|H]; [apply Rrefl|]. exfalso. now apply (Hold k e).
  - intros self t Ht Ha k e H T. apply HH in H as [[-> ->]|H]; [|now apply (Ha k e)]. cbn in T. injection T as <-. lia.
Qed.
Lemma sound_merge self w l s : inv s -> sound s -> all_in self w s -> all_in self l s ->
  sound (merge_threads w l s) /\ all_in self w (merge_threads w l s).
Proof.
  intros Hi Hs Hw Hl.
  assert (HH : forall k d', has (merge_threads w l s) k d' -> exists d, has s k d /\ m_id d' = m_id d /\ exists t, m_threads d = [t] /\ m_threads d' = [swap w l t]).
  { intros k d' H. apply has_merge in H as (d & H & ->). destruct (i_thread _ s Hi k d H) as (t & E & _). exists d. split; [exact H|].
    rewrite (merge_doc_eq w l d t E). cbn. split; [reflexivity|]. exists t. rewrite E. auto. }
  assert (A : all_in self w (merge_threads w l s)).
  { intros k e H T. apply HH in H as (d & H & E & t & T1 & T2). rewrite T2 in T. injection T as T. rewrite E. unfold swap in T.
    destruct (N.eqb_spec t l) as [->|]; [now apply (Hl k d)|subst t; now apply (Hw k d)]. }
  split; [|exact A]. intros k d k' d' t H H' T T'. destruct (N.eq_dec t w) as [->|Hne].
  - apply (Rtrans _ self); [apply Rsym, (A k d H T)|exact (A k' d' H' T')].
  - apply HH in H as (e & H & E & u & U1 & U2), H' as (e' & H' & E' & u' & U1' & U2'). rewrite E, E'. rewrite T in U2. rewrite T' in U2'.
    injection U2 as U2. injection U2' as U2'. unfold swap in *. destruct (N.eqb_spec u l); [congruence|]. destruct (N.eqb_spec u' l); [congruence|]. subst u u'.
    now apply (Hs k e k' e' t).
Qed.
Lemma link_one_sound self r tid s t s' : inv s -> sound s -> R self (canon r) ->
  match tid with Some t => t <= last_thread s /\ all_in self t s | None => True end ->
  link_one compressed r tid s = Some (t, s') -> sound s' /\ all_in self t s'.
Proof.
  intros Hi Hs Hr Ht E. unfold link_one in E. destruct (resolve_spec compressed r s Hi) as (pt & s1 & Er & D). rewrite Er in E.
  assert (X : inv s1 /\ sound s1 /\ all_in self pt s1 /\ match tid with Some t => all_in self t s1 | None => True end).
  { destruct D as [[-> (k & d & H & Ei & T)]|(Hn & -> & ->)].
    - split; [exact Hi|]. split; [exact Hs|]. split.
      + intros j e He Te. apply (Rtrans _ (canon r)); [exact Hr|]. rewrite <- Ei. now apply (Hs k d j e pt).
      + destruct tid; [apply Ht|exact I].
    - destruct (sound_new_ghost r s Hi Hs Hn) as (A & B & C). split; [now apply inv_new_ghost|]. split; [exact A|]. split.
      + intros j e He Te. apply (Rtrans _ (canon r)); [exact Hr|]. now apply (B j e).
      + destruct tid; [|exact I]. apply C; apply Ht. }
  destruct X as (X1 & X2 & X3 & X4). destruct tid as [t0|].
  - destruct (N.eqb_spec t0 pt) as [->|Hne].
    + injection E as <- <-. auto.
    + injection E as <- <-. now apply sound_merge.
  - injection E as <- <-. auto.
Qed.
Lemma link_keys_sound self keys : forall d tid s d' tid' s', inv s -> sound s -> (forall r, In r keys -> R self (canon r)) ->
  match tid with Some t => t <= last_thread s /\ all_in self t s | None => True end ->
  link_keys compressed keys d tid s = Some (d', tid', s') ->
  sound s' /\ match tid' with Some t => all_in self t s' | None => True end.
Proof.
  induction keys as [|r keys IH]; intros d tid s d' tid' s' Hi Hs Hr Ht E.
  - injection E as <- <- <-. split; [exact Hs|]. destruct tid; [apply Ht|exact I].
  - rewrite link_keys_cons in E. destruct (link_one compressed r tid s) as [[t s1]|] eqn:E1; [|discriminate].
    destruct (link_one_sound self r tid s t s1 Hi Hs (Hr r (or_introl eq_refl)) Ht E1) as (A & B).
    destruct (link_one_spec compressed compressed_short r tid s Hi) as (t' & s1' & phi & E1' & Hi1 & _ & _ & _ & Lt & _).
    { destruct tid; [apply Ht|exact I]. }
    rewrite E1 in E1'. injection E1' as <- <-. apply (IH _ _ _ _ _ _ Hi1 A (fun r' H => Hr r' (or_intror H))) in E; [exact E|]. auto.
Qed.
Lemma sound_put k dn t s : inv s -> sound s -> m_threads dn = [t] -> all_in (m_id dn) t s -> sound (sync k dn s).
Proof.
  intros Hi Hs T Ha j e j' e' t0 H H' Te Te'. apply has_sync in H as [[-> ->]|[_ H]], H' as [[-> ->]|[_ H']].
  - apply Rrefl.
  - rewrite T in Te. injection Te as <-. now apply (Ha j' e').
  - rewrite T in Te'. injection Te' as <-. apply Rsym. now apply (Ha j e).
  - now apply (Hs j e j' e' t0).
Qed.

Lemma index_file_sound name f keys ok s st s' : inv s -> sound s -> (forall r, In r keys -> R (canon (f_id f)) (canon r)) ->
  index_file compressed name f keys ok s = Some (st, s') -> sound s'.
Proof.
  intros Hi Hs Hr. unfold index_file, create_for_message_id. pose proof (find_message_spec compressed (f_id f) s (i_sorted _ s Hi)) as F.
  set (self := canon (f_id f)) in *.
  destruct (find_message compressed (f_id f) s) as [[k d0]|].
  - destruct F as [F1 F2]. destruct (i_thread _ s Hi k d0 F1) as (t0 & T0 & L0). cbn [andb negb orb].
    set (d1 := if m_ghost d0 then _ else _). assert (D1 : m_id d1 = self /\ m_threads d1 = [t0]) by (unfold d1; destruct (m_ghost d0); cbn; auto).
    destruct D1 as [D1 D2]. unfold link_message, get_thread_id. rewrite D2. cbn [andb]. unfold link_to_parents.
    set (d1' := add_replyto _ d1). assert (D1' : m_id d1' = self /\ m_threads d1' = [t0]) by (unfold d1', add_replyto; destruct (snd _); [destruct (Nat.leb _ _)|]; cbn; auto).
    assert (Ha : all_in self t0 s). { intros j e H T. rewrite <- F2. now apply (Hs k d0 j e t0). }
    destruct (link_keys_spec compressed compressed_short keys d1' (Some t0) s Hi L0) as (d2 & tid' & s1 & phi & El & Hi1 & _ & _ & _ & P1 & _ & P3 & _ & Q1 & _).
    rewrite El. destruct (P1 t0 eq_refl) as (-> & _).
    destruct (link_keys_sound self keys d1' (Some t0) s d2 (Some t0) s1 Hi Hs Hr (conj L0 Ha) El) as [A B].
    destruct ok; [|intros [= _ <-]; exact A]. intros [= _ <-]. apply (sound_put k _ t0); [exact Hi1|exact A|cbn; rewrite P3; apply D1'|]. cbn. rewrite Q1, (proj1 D1'). exact B.
  - cbn [andb negb orb]. set (s0 := {| docs := docs s; last_doc := last_doc s + 1; last_thread := last_thread s |}).
    assert (Hi0 : inv s0) by (apply inv_bump; [exact Hi|lia|lia]). assert (Hs0 : sound s0) by exact Hs.
    fold self. set (d1 := set_ghost false _). unfold link_message. cbn [andb]. unfold link_to_parents. set (d1' := add_replyto _ d1).
    assert (D1' : m_id d1' = self /\ m_threads d1' = []) by (unfold d1', add_replyto; destruct (snd _); [destruct (Nat.leb _ _)|]; cbn; auto).
    destruct (link_keys_spec compressed compressed_short keys d1' None s0 Hi0 I) as (d2 & tid' & s1 & phi & El & Hi1 & _ & _ & _ & P1 & P2 & P3 & _ & Q1 & _).
    rewrite El. destruct (link_keys_sound self keys d1' None s0 d2 tid' s1 Hi0 Hs0 Hr I El) as [A B]. destruct tid' as [t|].
    + destruct ok; [|intros [= _ <-]; exact A]. intros [= _ <-]. apply (sound_put _ _ t); [exact Hi1|exact A|cbn; rewrite P3, (proj2 D1'); reflexivity|]. cbn. rewrite Q1, (proj1 D1'). exact B.
    + cbn. destruct ok; [|intros [= _ <-]; exact A]. intros [= _ <-]. set (s2 := {| docs := docs s1; last_doc := last_doc s1; last_thread := last_thread s1 + 1 |}).
      assert (Hi2 : inv s2) by (apply inv_bump; [exact Hi1|lia|lia]).
      apply (sound_put _ _ (last_thread s1 + 1)); [exact Hi2|exact A|cbn; rewrite P3, (proj2 D1'); reflexivity|].
      intros j e H T. exfalso. destruct (i_thread _ s1 Hi1 j e H) as (t & E & L). rewrite E in T. injection T as ->. lia.
Qed.
Lemma remove_sound name s st s' : inv s -> sound s -> remove_message compressed name s = Some (st, s') -> sound s'.
Proof.
  intros Hi Hs E. destruct (remove_message_spec name s Hi) as (st1 & s1 & E1 & _ & _ & _ & D). rewrite E in E1. injection E1 as <- <-.
  destruct D as [(_ & -> & _)|(k & d & t & H & _ & _ & T & D)]; [exact Hs|].
  destruct D as [(_ & _ & d' & X1 & X2 & _ & X4)|(_ & _ & D)].
  - assert (M : forall j e, has s' j e -> exists e0, has s j e0 /\ m_id e0 = m_id e /\ m_threads e0 = m_threads e).
    { intros j e He. destruct (N.eq_dec j k) as [->|Hne].
      - assert (e = d') by (unfold has in *; congruence). subst e. exists d. rewrite X2. auto.
      - exists e. split; [now apply X4|auto]. }
    intros j e j' e' t0 H1 H2 T1 T2. apply M in H1 as (x & H1 & A1 & A2), H2 as (y & H2 & B1 & B2). rewrite <- A1, <- B1. apply (Hs j x j' y t0); congruence.
  - destruct D as [[_ HH]|[_ HH]].
    + assert (M : forall j e, has s' j e -> exists k0 e0, has s k0 e0 /\ m_id e0 = m_id e /\ m_threads e0 = m_threads e).
      { intros j e He. apply HH in He as [[-> ->]|[_ He]]; [exists k, d; rewrite T; auto|exists j, e; auto]. }
      intros j e j' e' t0 H1 H2 T1 T2. apply M in H1 as (kx & x & H1 & A1 & A2), H2 as (ky & y & H2 & B1 & B2). rewrite <- A1, <- B1. apply (Hs kx x ky y t0); congruence.
    + intros j e j' e' t0 H1 H2. apply HH in H1 as [H1 _], H2 as [H2 _]. now apply (Hs j e j' e' t0).
Qed.
Lemma retag_sound id tags s : inv s -> sound s -> sound (retag compressed id tags s).
Proof.
  intros Hi Hs. destruct (retag_spec id tags s Hi) as (_ & _ & _ & HH).
  intros j e j' e' t0 H1 H2 T1 T2. apply HH in H1 as (x & H1 & ->), H2 as (y & H2 & ->).
  assert (A : forall z, m_id (if bseq (m_id z) (canon id) then set_tags tags z else z) = m_id z /\
                        m_threads (if bseq (m_id z) (canon id) then set_tags tags z else z) = m_threads z) by (intros z; destruct (bseq (m_id z) (canon id)); split; reflexivity).
  rewrite (proj1 (A x)), (proj1 (A y)). rewrite (proj2 (A x)) in T1. rewrite (proj2 (A y)) in T2. now apply (Hs j x j' y t0).
Qed.
Lemma mrun_sound h : forall s s', inv s -> sound s -> Forall (legal compressed) h ->
  (forall name f keys ok r, In (OAdd name f keys ok) h -> In r keys -> R (canon (f_id f)) (canon r)) ->
  mrun compressed h s = Some s' -> sound s'.
Proof.
  induction h as [|o h IH]; intros s s' Hi Hs Hl HR E; cbn in E; [now injection E as <-|].
  apply Forall_cons_iff in Hl as [Ho Hl]. destruct (mstep compressed o s) as [[st s1]|] eqn:E1; [|discriminate].
  destruct (mstep_inv o s Hi Ho) as (st' & s1' & E1' & Hi1 & _). rewrite E1 in E1'. injection E1' as <- <-.
  apply (IH s1 s' Hi1); [|exact Hl|intros n f ks ok r H; apply (HR n f ks ok r); now right|exact E].
  destruct o as [name f keys ok|name|id tags]; cbn in E1.
  - apply (index_file_sound name f keys ok s st s1 Hi Hs); [|exact E1]. intros r Hr. apply (HR name f keys ok r); [now left|exact Hr].
  - exact (remove_sound name s st s1 Hi Hs E1).
  - injection E1 as _ <-. now apply retag_sound.
Qed.
End Sound.
End P.
