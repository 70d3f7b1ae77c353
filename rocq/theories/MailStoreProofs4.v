(** Proofs about re-indexing (C43). *)
From Verif Require Import Bytes DocMap MsgId MsgIdSpec MsgIdProofs MailStore MailStoreSpec MailStoreProofs MailStoreProofs2 MailStoreProofs3.
From Coq Require Import Relations Permutation.
Local Open Scope N_scope.

Lemma badd_In x y l : In y (badd x l) <-> y = x \/ In y l.
Proof.
  unfold badd. destruct (existsb (bseq x) l) eqn:E.
  - apply existsb_exists in E as (z & Hz & Ez). apply bseq_eq in Ez. subst z. split; [auto|]. intros [->|H]; auto.
  - rewrite in_app_iff. cbn. intuition.
Qed.
Lemma fold_badd_In ts : forall l y, In y (fold_left (fun l t => badd t l) ts l) <-> In y ts \/ In y l.
Proof.
  induction ts as [|t ts IH]; intros l y; cbn; [tauto|]. rewrite IH, badd_In. intuition.
Qed.

Section R.
Variable compressed : bytes -> bytes.
(** Every reference resolves to thread [t] in [s] without changing it. *)
Definition resolves (t : N) (s : mdb) (keys : list bytes) : Prop := forall r, In r keys -> resolve compressed r s = Some (t, s).

(** What the linking loop does to the message itself when all references are in [t]. *)
Lemma link_keys_same t keys : forall d tid s, resolves t s keys -> tid = None \/ tid = Some t ->
  exists d' tid', link_keys compressed keys d tid s = Some (d', tid', s) /\
    (tid' = tid \/ tid' = Some t) /\
    m_id d' = m_id d /\ m_ghost d' = m_ghost d /\ m_tags d' = m_tags d /\ m_props d' = m_props d /\ m_files d' = m_files d /\
    m_replyto d' = m_replyto d /\
    (forall r, In r (m_refs d') <-> In r (m_refs d) \/ (In r keys /\ (length r <= 235)%nat)) /\
    (m_threads d' = m_threads d \/ m_threads d' = nadd t (m_threads d)).
Proof.
  induction keys as [|r keys IH]; intros d tid s Hr Ht.
  - cbn. exists d, tid. split; [reflexivity|]. split; [auto|]. repeat (split; [reflexivity|]). split; [|auto]. intros r. tauto.
  - cbn. rewrite (Hr r (or_introl eq_refl)).
    assert (Hr' : resolves t s keys) by (intros x Hx; apply Hr; now right).
    assert (A : m_id (add_reference r d) = m_id d /\ m_ghost (add_reference r d) = m_ghost d /\ m_tags (add_reference r d) = m_tags d /\
      m_props (add_reference r d) = m_props d /\ m_files (add_reference r d) = m_files d /\ m_replyto (add_reference r d) = m_replyto d /\
      m_threads (add_reference r d) = m_threads d /\
      (forall x, In x (m_refs (add_reference r d)) <-> In x (m_refs d) \/ (x = r /\ (length r <= 235)%nat))).
    { unfold add_reference. destruct (Nat.leb_spec (10 + length r) 245); cbn.
      - repeat (split; [reflexivity|]). intros x. rewrite badd_In. split; [intros [->|X]; [right; split; [reflexivity|lia]|auto]|tauto].
      - repeat (split; [reflexivity|]). intros x. split; [auto|]. intros [X|[_ X]]; [exact X|lia]. }
    destruct A as (A1 & A2 & A3 & A4 & A5 & A6 & A7 & A8).
    destruct tid as [t0|].
    + assert (t0 = t) by (destruct Ht as [Ht|Ht]; congruence). subst t0. rewrite N.eqb_refl.
      destruct (IH (add_reference r d) (Some t) s Hr' (or_intror eq_refl)) as (d' & tid' & E & T & B1 & B2 & B3 & B4 & B5 & B6 & B7 & B8).
      exists d', tid'. split; [exact E|]. split; [exact T|]. do 6 (split; [congruence|]). split.
      * intros x. rewrite B7, A8. cbn. intuition congruence.
      * rewrite A7 in B8. exact B8.
    + destruct (IH (add_thread t (add_reference r d)) (Some t) s Hr' (or_intror eq_refl)) as (d' & tid' & E & T & B1 & B2 & B3 & B4 & B5 & B6 & B7 & B8).
      cbn in B1, B2, B3, B4, B5, B6, B7, B8.
      exists d', tid'. split; [exact E|]. split; [right; destruct T as [->| ->]; reflexivity|]. do 6 (split; [congruence|]). split.
      * intros x. rewrite B7, A8. cbn. intuition congruence.
      * right. rewrite A7 in B8. destruct B8 as [-> | ->]; [reflexivity|].
        clear. induction (m_threads d) as [|y l IHl]; cbn.
        -- now rewrite N.compare_refl.
        -- destruct (N.compare t y) eqn:C; cbn.
           ++ now rewrite C.
           ++ now rewrite N.compare_refl.
           ++ rewrite C, IHl. reflexivity.
Qed.

Definition in_t (t : N) (l : list N) : Prop := l = [] \/ l = [t].
Lemma nadd_t t l : in_t t l -> nadd t l = [t].
Proof. intros [->| ->]; cbn; [reflexivity|]. now rewrite N.compare_refl. Qed.

(** The loop over the files. *)
Lemma reindex_files_same content t names : forall d n s,
  (forall x f keys ok, In x names -> content x = Some (f, keys, ok) -> resolves t s keys) -> in_t t (m_threads d) ->
  exists d' n', reindex_files compressed content t names d n s = Some (d', n', s) /\
    m_id d' = m_id d /\ m_ghost d' = m_ghost d /\ m_props d' = m_props d /\
    (forall x, In x (m_tags d') <-> In x (m_tags d) \/ exists m f keys, In m names /\ content m = Some (f, keys, true) /\ In x (f_auto_tags f)) /\
    (forall x, In x (m_files d') <-> In x (m_files d) \/ (In x names /\ content x <> None)) /\
    (forall r, In r (m_refs d') <-> In r (m_refs d) \/ exists m f keys ok, In m names /\ content m = Some (f, keys, ok) /\ In r keys /\ (length r <= 235)%nat) /\
    in_t t (m_threads d') /\ (n <= n')%nat /\
    ((n < n')%nat -> m_threads d' = [t]) /\
    ((n < n')%nat <-> exists m f keys, In m names /\ content m = Some (f, keys, true)) /\
    (m_threads d = [t] -> m_threads d' = [t]).
Proof.
  induction names as [|m names IH]; intros d n s Hr Ht.
  - cbn. exists d, n. repeat (split; [reflexivity|]). split; [intros x; split; [auto|]; intros [X|(m & f & ks & [] & _)]; auto|].
    split; [intros x; tauto|]. split; [intros r; split; [auto|]; intros [X|(m & f & ks & ok & [] & _)]; auto|].
    split; [exact Ht|]. split; [lia|]. split; [lia|]. split; [|auto]. split; [lia|]. intros (m & f & ks & [] & _).
  - cbn. destruct (content m) as [[[f keys] ok]|] eqn:Ec.
    + unfold link_to_parents.
      set (d0 := add_replyto _ _).
      assert (Z : m_id d0 = m_id d /\ m_ghost d0 = m_ghost d /\ m_props d0 = m_props d /\ m_tags d0 = m_tags d /\ m_refs d0 = m_refs d /\
        m_threads d0 = m_threads d /\ m_files d0 = badd m (m_files d)).
      { unfold d0, add_replyto. destruct (snd _); [destruct (Nat.leb _ _)|]; cbn; repeat split; reflexivity. }
      destruct Z as (Z1 & Z2 & Z3 & Z4 & Z5 & Z6 & Z7).
      destruct (link_keys_same t keys d0 None s (Hr m f keys ok (or_introl eq_refl) Ec) (or_introl eq_refl))
        as (d1 & tid & E & T & B1 & B2 & B3 & B4 & B5 & B6 & B7 & B8).
      rewrite E.
      assert (Et : (match tid with Some t0 => t0 | None => t end) = t) by (destruct T as [->| ->]; reflexivity).
      rewrite Et.
      assert (T1 : m_threads (add_thread t d1) = [t]).
      { cbn. apply nadd_t. rewrite Z6 in B8. destruct B8 as [->| ->]; [exact Ht|]. right. now apply nadd_t. }
      assert (Hr' : forall x f keys ok, In x names -> content x = Some (f, keys, ok) -> resolves t s keys) by (intros x f0 ks0 ok0 Hx; apply Hr; now right).
      destruct ok.
      * destruct (IH (set_tags (fold_left (fun l t0 => badd t0 l) (f_auto_tags f) (m_tags (add_thread t d1))) (add_thread t d1)) (S n) s Hr')
          as (d' & n' & E' & C1 & C2 & C3 & C4 & C5 & C6 & C7 & C8 & C9 & C10 & C11); [right; exact T1|].
        cbn in C1, C2, C3, C4, C5, C6, C9. exists d', n'. split; [exact E'|]. split; [congruence|]. split; [congruence|]. split; [congruence|].
        split.
        { intros x. rewrite C4, fold_badd_In, B3, Z4. split.
          - intros [[X|X]|(m' & f' & ks' & X1 & X2 & X3)]; [|auto|].
            + right. exists m, f, keys. auto.
            + right. exists m', f', ks'. auto.
          - intros [X|(m' & f' & ks' & [<-|X1] & X2 & X3)]; [auto| |].
            + rewrite Ec in X2. injection X2 as <- <-. auto.
            + right. exists m', f', ks'. auto. }
        split.
        { intros x. rewrite C5, B5, Z7, badd_In. split; [intros [[->|X]|X]; [right; split; [auto|congruence]|auto|intuition]|].
          intros [X|[[<-|X1] X2]]; auto. }
        split.
        { intros r. rewrite C6, B7, Z5. split.
          - intros [[X|[X1 X2]]|(m' & f' & ks' & ok' & X1 & X2 & X3)]; [auto| |].
            + right. exists m, f, keys, true. auto.
            + right. exists m', f', ks', ok'. auto.
          - intros [X|(m' & f' & ks' & ok' & [<-|X1] & X2 & X3 & X4)]; [auto| |].
            + rewrite Ec in X2. injection X2 as <- <- _. auto.
            + right. exists m', f', ks', ok'. auto. }
        split; [exact C7|]. split; [lia|]. split; [intros _; apply C11; exact T1|]. split; [|intros _; apply C11; exact T1].
        split; [intros _|lia]. exists m, f, keys. auto.
      * destruct (IH (add_thread t d1) n s Hr')
          as (d' & n' & E' & C1 & C2 & C3 & C4 & C5 & C6 & C7 & C8 & C9 & C10 & C11); [right; exact T1|].
        cbn in C1, C2, C3, C4, C5, C6, C9. exists d', n'. split; [exact E'|]. split; [congruence|]. split; [congruence|]. split; [congruence|].
        split.
        { intros x. rewrite C4, B3, Z4. split.
          - intros [X|(m' & f' & ks' & X1 & X2 & X3)]; [auto|]. right. exists m', f', ks'. auto.
          - intros [X|(m' & f' & ks' & [<-|X1] & X2 & X3)]; [auto|congruence|]. right. exists m', f', ks'. auto. }
        split.
        { intros x. rewrite C5, B5, Z7, badd_In. split; [intros [[->|X]|X]; [right; split; [auto|congruence]|auto|intuition]|].
          intros [X|[[<-|X1] X2]]; auto. }
        split.
        { intros r. rewrite C6, B7, Z5. split.
          - intros [[X|[X1 X2]]|(m' & f' & ks' & ok' & X1 & X2 & X3)]; [auto| |].
            + right. exists m, f, keys, false. auto.
            + right. exists m', f', ks', ok'. auto.
          - intros [X|(m' & f' & ks' & ok' & [<-|X1] & X2 & X3 & X4)]; [auto| |].
            + rewrite Ec in X2. injection X2 as <- <- _. auto.
            + right. exists m', f', ks', ok'. auto. }
        split; [exact C7|]. split; [lia|]. split; [exact C9|]. split; [|intros _; apply C11; exact T1].
        rewrite C10. split.
        { intros (m' & f' & ks' & X1 & X2). exists m', f', ks'. auto. }
        { intros (m' & f' & ks' & [<-|X1] & X2); [congruence|]. exists m', f', ks'. auto. }
    + destruct (IH d n s) as (d' & n' & E' & C1 & C2 & C3 & C4 & C5 & C6 & C7 & C8 & C9 & C10 & C11); [intros x f0 ks0 ok0 Hx; apply Hr; now right|exact Ht|].
      exists d', n'. split; [exact E'|]. do 3 (split; [assumption|]). split.
      { intros x. rewrite C4. split.
        - intros [X|(m' & f' & ks' & X1 & X2 & X3)]; [auto|]. right. exists m', f', ks'. auto.
        - intros [X|(m' & f' & ks' & [<-|X1] & X2 & X3)]; [auto|congruence|]. right. exists m', f', ks'. auto. }
      split.
      { intros x. rewrite C5. split; [intuition|]. intros [X|[[<-|X1] X2]]; [auto|congruence|auto]. }
      split.
      { intros r. rewrite C6. split.
        - intros [X|(m' & f' & ks' & ok' & X1 & X2 & X3)]; [auto|]. right. exists m', f', ks', ok'. auto.
        - intros [X|(m' & f' & ks' & ok' & [<-|X1] & X2 & X3 & X4)]; [auto|congruence|]. right. exists m', f', ks', ok'. auto. }
      split; [exact C7|]. split; [exact C8|]. split; [exact C9|]. split; [|exact C11].
      rewrite C10. split.
      { intros (m' & f' & ks' & X1 & X2). exists m', f', ks'. auto. }
      { intros (m' & f' & ks' & [<-|X1] & X2); [congruence|]. exists m', f', ks'. auto. }
Qed.

Notation inv := (inv compressed).
(** Keys that lead to other messages of the thread resolve, while the message's own
    document is written without a thread. *)
Lemma resolves_cleared b s k d t keys : inv s -> has s k d -> m_threads d = [t] ->
  (forall r, In r keys -> canon compressed r <> m_id d /\ same_thread s (canon compressed r) (m_id d)) ->
  resolves t (sync k (clear_indexed b d) s) keys.
Proof.
  intros Hi H T Hk r Hr. destruct (Hk r Hr) as (Hne & t' & (k1 & d1 & H1 & E1 & T1) & (k2 & d2 & H2 & E2 & T2)).
  assert (k2 = k) by now apply (i_unique compressed s Hi k2 d2 k d H2 H). subst k2. assert (d2 = d) by (unfold has in *; congruence). subst d2.
  rewrite T in T2. destruct T2 as [->|[]]. apply (thread_single compressed s k1) in T1; [|exact Hi|exact H1].
  assert (Hk1 : k1 <> k). { intros ->. unfold has in *. rewrite H in H1. injection H1 as <-. congruence. }
  unfold resolve, create_for_message_id.
  assert (Hs : ksorted (docs (sync k (clear_indexed b d) s))) by (cbn; apply dins_sorted, Hi).
  pose proof (find_message_spec compressed r (sync k (clear_indexed b d) s) Hs) as F.
  assert (H1' : has (sync k (clear_indexed b d) s) k1 d1).
  { unfold has. cbn. rewrite dget_dins. destruct (N.eqb_spec k1 k); [congruence|exact H1]. }
  destruct (find_message _ _ _) as [[j e]|].
  - destruct F as [F1 F2]. unfold has in F1. cbn in F1. rewrite dget_dins in F1. destruct (N.eqb_spec j k) as [->|Hj].
    + injection F1 as <-. cbn in F2. congruence.
    + assert (j = k1) by (apply (i_unique compressed s Hi j e k1 d1 F1 H1); congruence). subst j.
      assert (e = d1) by (unfold has in *; congruence). subst e. unfold get_thread_id. rewrite T1. reflexivity.
  - exfalso. apply (F k1 d1 H1'). exact E1.
Qed.
End R.
