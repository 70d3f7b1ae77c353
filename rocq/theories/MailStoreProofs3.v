From Verif Require Import Bytes DocMap MsgId MsgIdProofs MailStore MailStoreSpec MailStoreProofs MailStoreProofs2.
From Coq Require Import Relations Permutation.
Local Open Scope N_scope.

Section P.
Variable compressed : bytes -> bytes.
Hypothesis compressed_short : forall s, (length (compressed s) <= 189)%nat.
Notation canon := (canon compressed).
Notation inv := (inv compressed).

(** Ids never reused. *)
Definition old_ids (s s' : mdb) : Prop :=
  last_doc s <= last_doc s' /\ last_thread s <= last_thread s' /\
  (forall k d', has s' k d' -> k <= last_doc s -> exists d, has s k d /\ m_id d = m_id d') /\
  (forall id t, thread_of s' id t -> t <= last_thread s -> exists id', thread_of s id' t).
Lemma old_ids_trans a b c : old_ids a b -> old_ids b c -> old_ids a c.
Proof.
  intros (A1 & A2 & A3 & A4) (B1 & B2 & B3 & B4). split; [lia|]. split; [lia|]. split.
  - intros k d H L. destruct (B3 k d H) as (e & He & Ee); [lia|]. destruct (A3 k e He L) as (f & Hf & Ef). exists f. split; [exact Hf|congruence].
  - intros id t H L. destruct (B4 id t H) as (id' & H'); [lia|]. now apply (A4 id' t).
Qed.
Lemma mstep_old o s st s' : inv s -> legal compressed o -> mstep compressed o s = Some (st, s') -> old_ids s s'.
Proof.
  intros Hi Hl Hs. destruct o as [name f keys ok|name|id tags]; cbn in Hs.
  - destruct (index_file_spec compressed compressed_short name f keys ok s Hi (legal_self compressed _ _ _ _ Hl)) as (st1 & s1 & phi & t & E & Hi' & _ & CF & (N1 & N2 & N3) & _).
    rewrite E in Hs. injection Hs as <- <-. split; [exact N1|]. split; [exact N2|]. split.
    + intros k d H L. destruct (CF k d H) as [X|(X & _)]; [exact X|lia].
    + intros id t0 H L. destruct (N3 id t0 H) as [X|X]; [exact X|lia].
  - destruct (remove_message_spec compressed name s Hi) as (st1 & s1 & E & Hi' & L1 & L2 & D). rewrite E in Hs. injection Hs as <- <-.
    split; [exact L1|]. split; [lia|].
    assert (M : forall j e, has s1 j e -> (last_doc s < j \/ exists d, has s j d /\ m_id d = m_id e) /\ exists j' d, has s j' d /\ m_threads d = m_threads e).
    { intros j e H. destruct D as [(_ & -> & _)|(k & d & t & Hk & _ & _ & T & D)]; [split; [right|]; eauto|].
      destruct D as [(_ & _ & d' & X1 & X2 & _ & X4)|(_ & _ & [[_ HH]|[_ HH]])].
      - destruct (N.eq_dec j k) as [->|Hne].
        + assert (e = d') by (unfold has in *; congruence). subst e. split; [right; exists d|exists k, d]; (split; [exact Hk|]); rewrite X2; reflexivity.
        + apply (X4 j e Hne) in H. split; [right|]; eauto.
      - apply HH in H as [[-> ->]|[_ H]]; [split; [left; lia|]; exists k, d; rewrite T; auto|]. split; [right|]; eauto.
      - apply HH in H as [H _]. split; [right|]; eauto. }
    split.
    + intros k d H L. destruct (M k d H) as [[X|X] _]; [lia|exact X].
    + intros id t (k & d & H & _ & T) _. destruct (M k d H) as [_ (j & e & He & Ee)]. exists (m_id e), j, e. rewrite Ee. auto.
  - injection Hs as <- <-. destruct (retag_spec compressed id tags s Hi) as (_ & L1 & L2 & HH). split; [lia|]. split; [lia|]. split.
    + intros k d H _. apply HH in H as (e & He & ->). exists e. split; [exact He|]. destruct (bseq _ _); reflexivity.
    + intros i t (k & d & H & E & T) _. apply HH in H as (e & He & ->). exists (m_id e), k, e. split; [exact He|]. split; [reflexivity|].
      destruct (bseq (m_id e) (canon id)); exact T.
Qed.
Lemma mrun_old h : forall s s', inv s -> Forall (legal compressed) h -> mrun compressed h s = Some s' -> old_ids s s'.
Proof.
  induction h as [|o h IH]; intros s s' Hi Hl E; cbn in E.
  - injection E as <-. split; [lia|]. split; [lia|]. split; [intros k d H _; exists d; auto|eauto].
  - apply Forall_cons_iff in Hl as [Ho Hl]. destruct (mstep compressed o s) as [[st s1]|] eqn:E1; [|discriminate].
    destruct (mstep_inv compressed compressed_short o s Hi Ho) as (st' & s1' & E1' & Hi1 & _). rewrite E1 in E1'. injection E1' as <- <-.
    apply (old_ids_trans s s1 s'); [eapply mstep_old; eauto|now apply IH].
Qed.

(** Additions never remove a message. *)
Lemma adds_keep_mail o s st s' a : inv s -> legal compressed o -> adds_only [o] -> mstep compressed o s = Some (st, s') -> is_mail s a -> is_mail s' a.
Proof.
  intros Hi Hl Ha Hs (k & d & H & E & G). destruct o as [name f keys ok|name|id tags]; cbn in Hs.
  - destruct (index_file_spec compressed compressed_short name f keys ok s Hi (legal_self compressed _ _ _ _ Hl)) as (st1 & s1 & phi & t & E1 & Hi' & Hev & _).
    rewrite E1 in Hs. injection Hs as <- <-. destruct (Hev k d H) as (d' & X1 & X2 & _ & X3 & _). exists k, d'. split; [exact X1|]. split; [congruence|auto].
  - apply Forall_inv in Ha. destruct Ha.
  - injection Hs as <- <-. destruct (retag_spec compressed id tags s Hi) as (_ & _ & _ & HH).
    exists k, (if bseq (m_id d) (canon id) then set_tags tags d else d). split; [apply HH; eauto|]. destruct (bseq _ _); auto.
Qed.
Lemma adds_stay h : forall s a, inv s -> Forall (legal compressed) h -> adds_only h -> is_mail s a -> stays compressed a s h.
Proof.
  induction h as [|o h IH]; intros s a Hi Hl Ha Hm; cbn; (split; [exact Hm|]); [exact I|].
  apply Forall_cons_iff in Hl as [Ho Hl]. apply Forall_cons_iff in Ha as [Ha1 Ha]. destruct (mstep_inv compressed compressed_short o s Hi Ho) as (st & s1 & E & Hi1 & _). rewrite E.
  apply IH; auto. apply (adds_keep_mail o s st s1 a Hi Ho); auto. constructor; [exact Ha1|constructor].
Qed.

Lemma same_thread_sym s a b : same_thread s a b -> same_thread s b a.
Proof. intros (t & A & B). exists t. auto. Qed.
Lemma same_thread_trans s a b c : inv s -> same_thread s a b -> same_thread s b c -> same_thread s a c.
Proof.
  intros Hi (t & A & (k & d & H & E & T)) (t' & (k' & d' & H' & E' & T') & C). exists t. split; [exact A|].
  assert (k = k') by (apply (i_unique _ s Hi k d k' d' H H'); congruence). subst k'. assert (d' = d) by (unfold has in *; congruence). subst d'.
  apply (thread_single compressed s k d t Hi H) in T. apply (thread_single compressed s k d t' Hi H) in T'. rewrite T in T'. injection T' as <-. exact C.
Qed.

(** What an addition links. *)
Lemma add_links name f keys s st s' : inv s -> legal compressed (OAdd name f keys true) -> mstep compressed (OAdd name f keys true) s = Some (st, s') ->
  is_mail s' (canon (f_id f)) /\ forall r, In r keys -> same_thread s' (canon r) (canon (f_id f)).
Proof.
  intros Hi Hl Hs. cbn in Hs.
  destruct (index_file_spec compressed compressed_short name f keys true s Hi (legal_self compressed _ _ _ _ Hl)) as (st1 & s1 & phi & t & E & Hi' & _ & _ & _ & Hself & _ & Hk & _).
  rewrite E in Hs. injection Hs as <- <-. destruct (Hself eq_refl) as (k & d & H & Eid & G & T & _).
  split; [exists k, d; auto|]. intros r Hr. destruct (Hk (or_intror eq_refl) r Hr) as (k' & e & X1 & X2 & X3). exists t.
  split; [exists k', e|exists k, d]; (split; [assumption|]); (split; [assumption|]); [rewrite X3|rewrite T]; now left.
Qed.

(** Every thread has a message, when indexing never fails. *)
Definition alive (s : mdb) : Prop := forall k d, has s k d -> exists k' d', has s k' d' /\ m_ghost d' = false /\ m_threads d' = m_threads d.
Lemma alive_step o s st s' : inv s -> legal compressed o -> alive s -> (forall n f ks ok, o = OAdd n f ks ok -> ok = true) ->
  mstep compressed o s = Some (st, s') -> alive s'.
Proof.
  intros Hi Hl Hal Hok Hs. destruct o as [name f keys ok|name|id tags]; cbn in Hs.
  - rewrite (Hok name f keys ok eq_refl) in *.
    destruct (index_file_spec compressed compressed_short name f keys true s Hi (legal_self compressed _ _ _ _ Hl)) as (st1 & s1 & phi & t & E & Hi' & Hev & CF & _ & Hself & _ & Hk & _).
    rewrite E in Hs. injection Hs as <- <-. destruct (Hself eq_refl) as (ks & ds & Hs1 & Es & Gs & Ts & _).
    intros j e H. destruct (CF j e H) as [(d & Hd & Ed)|(_ & _ & [[_ X]|(r & t' & Hr & ->)])].
    + destruct (Hev j d Hd) as (e' & X1 & _ & X2 & _). assert (e' = e) by (unfold has in *; congruence). subst e'.
      destruct (Hal j d Hd) as (k1 & d1 & Y1 & Y2 & Y3). destruct (Hev k1 d1 Y1) as (e1 & Z1 & _ & Z2 & Z3 & _).
      exists k1, e1. split; [exact Z1|]. split; [auto|]. now rewrite Z2, X2, Y3.
    + assert (j = ks) by (apply (i_unique _ s1 Hi' j e ks ds H Hs1); congruence). subst j. assert (e = ds) by (unfold has in *; congruence). subst e. exists ks, ds. auto.
    + destruct (Hk (or_intror eq_refl) r Hr) as (k1 & e1 & X1 & X2 & X3).
      assert (j = k1) by (apply (i_unique _ s1 Hi' j _ k1 e1 H X1); rewrite X2; reflexivity). subst j. unfold has in *. rewrite H in X1. injection X1 as <-.
      exists ks, ds. split; [exact Hs1|]. split; [exact Gs|]. now rewrite Ts, X3.
  - destruct (remove_message_spec compressed name s Hi) as (st1 & s1 & E & Hi' & _ & _ & D). rewrite E in Hs. injection Hs as <- <-.
    destruct D as [(_ & -> & _)|(k & d & t & Hk & _ & Hg & T & D)]; [exact Hal|].
    destruct D as [(_ & _ & d' & X1 & X2 & _ & X4)|(_ & _ & [[(k1 & e1 & Y1 & Y2 & Y3 & Y4) HH]|[_ HH]])].
    + assert (M : forall j e, has s j e -> exists e', has s1 j e' /\ m_ghost e' = m_ghost e /\ m_threads e' = m_threads e).
      { intros j e H. destruct (N.eq_dec j k) as [->|Hne].
        - assert (e = d) by (unfold has in *; congruence). subst e. exists d'. split; [exact X1|]. rewrite X2. split; reflexivity.
        - exists e. split; [now apply X4|auto]. }
      intros j e H. assert (X : exists e0, has s j e0 /\ m_threads e0 = m_threads e).
      { destruct (N.eq_dec j k) as [->|Hne].
        - assert (e = d') by (unfold has in *; congruence). subst e. exists d. split; [exact Hk|]. rewrite X2. reflexivity.
        - exists e. split; [now apply X4|auto]. }
      destruct X as (e0 & H0 & E0). destruct (Hal j e0 H0) as (k2 & d2 & Z1 & Z2 & Z3). destruct (M k2 d2 Z1) as (e2 & W1 & W2 & W3).
      exists k2, e2. split; [exact W1|]. split; congruence.
    + intros j e H. apply HH in H as [[-> ->]|[Hne H]].
      * exists k1, e1. split; [apply HH; auto|]. split; [exact Y3|exact Y4].
      * destruct (Hal j e H) as (k2 & d2 & Z1 & Z2 & Z3). destruct (N.eq_dec k2 k) as [->|Hn2].
        -- assert (d2 = d) by (unfold has in *; congruence). subst d2. exists k1, e1. split; [apply HH; auto|]. split; [exact Y3|congruence].
        -- exists k2, d2. split; [apply HH; auto|auto].
    + intros j e H. apply HH in H as [H Hn]. destruct (Hal j e H) as (k2 & d2 & Z1 & Z2 & Z3). exists k2, d2. split; [apply HH; split; [exact Z1|congruence]|auto].
  - injection Hs as <- <-. destruct (retag_spec compressed id tags s Hi) as (_ & _ & _ & HH). intros j e H. apply HH in H as (e0 & H0 & ->).
    destruct (Hal j e0 H0) as (k2 & d2 & Z1 & Z2 & Z3). exists k2, (if bseq (m_id d2) (canon id) then set_tags tags d2 else d2). split; [apply HH; eauto|].
    destruct (bseq (m_id d2) (canon id)), (bseq (m_id e0) (canon id)); auto.
Qed.
Lemma alive_run h : forall s s', inv s -> Forall (legal compressed) h -> alive s ->
  (forall n f ks ok, In (OAdd n f ks ok) h -> ok = true) -> mrun compressed h s = Some s' -> alive s'.
Proof.
  induction h as [|o h IH]; intros s s' Hi Hl Hal Hok E; cbn in E; [now injection E as <-|].
  apply Forall_cons_iff in Hl as [Ho Hl]. destruct (mstep compressed o s) as [[st s1]|] eqn:E1; [|discriminate].
  destruct (mstep_inv compressed compressed_short o s Hi Ho) as (st' & s1' & E1' & Hi1 & _). rewrite E1 in E1'. injection E1' as <- <-.
  apply (IH s1 s' Hi1 Hl); [|intros n f ks ok H; apply (Hok n f ks ok); now right|exact E].
  apply (alive_step o s st s1 Hi Ho Hal); [|exact E1]. intros n f ks ok ->. apply (Hok n f ks ok). now left.
Qed.
End P.
