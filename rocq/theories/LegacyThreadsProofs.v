(** Proofs for C93. *)
From Verif Require Import Bytes Terms DocMap MsgId MailStore MailStoreSpec MailStoreProofs MailStoreProofs2 LegacyThreads.
From Coq Require Import Relations.
Local Open Scope N_scope.

Section P.
Variable compressed : bytes -> bytes.
Hypothesis compressed_short : forall s, (length (compressed s) <= 189)%nat.
Notation canon := (canon compressed).

Record linv (s : ldb) : Prop := {
  l_sorted : ksorted (docs (l_db s));
  l_last : forall k d, has (l_db s) k d -> k <= last_doc (l_db s);
  l_unique : forall k d k' d', has (l_db s) k d -> has (l_db s) k' d' -> m_id d = m_id d' -> k = k';
  l_thread : forall k d, has (l_db s) k d -> exists t, m_threads d = [t] /\ t <= last_thread (l_db s);
  l_canon : forall k d, has (l_db s) k d -> canon (m_id d) = m_id d;
  l_mbound : forall id t, mget id (l_meta s) = Some t -> t <= last_thread (l_db s) }.

Lemma linv_empty : linv empty_ldb.
Proof. constructor; try discriminate; try exact I; intros; discriminate. Qed.

(** ** Metadata. *)
Lemma mget_mclear a b m : mget a (mclear b m) = if bseq a b then None else mget a m.
Proof.
  unfold mclear. induction m as [|[k t] m IH]; cbn.
  - now destruct (bseq a b).
  - destruct (bseq_spec b k) as [->|Hne]; cbn.
    + rewrite IH. destruct (bseq a k); reflexivity.
    + rewrite IH. destruct (bseq_spec a b) as [->|Hab]; [|reflexivity].
      destruct (bseq_spec b k); [congruence|reflexivity].
Qed.
Lemma mget_mset a b t m : mget a (mset b t m) = if bseq a b then Some t else mget a m.
Proof. unfold mset. cbn. rewrite mget_mclear. destruct (bseq a b); reflexivity. Qed.

Arguments mset : simpl never.
Arguments mclear : simpl never.
(** ** What the link phases do to stored documents. *)
Definition same_but (self : bytes) (phi : N -> N) (d d' : mdoc) : Prop :=
  m_id d' = m_id d /\ m_ghost d' = m_ghost d /\ m_files d' = m_files d /\ m_tags d' = m_tags d /\ m_props d' = m_props d /\ m_replyto d' = m_replyto d /\
  m_threads d' = map phi (m_threads d) /\ incl (m_refs d') (m_refs d) /\ (forall x, x <> self -> In x (m_refs d) -> In x (m_refs d')).
Definition levolve (self : bytes) (phi : N -> N) (s s' : mdb) : Prop :=
  (forall k d, has s k d -> exists d', has s' k d' /\ same_but self phi d d') /\
  (forall k d', has s' k d' -> exists d, has s k d /\ same_but self phi d d') /\
  last_doc s' = last_doc s /\ last_thread s <= last_thread s'.
Lemma same_but_refl self d : same_but self (fun t => t) d d.
Proof. unfold same_but. rewrite map_id. auto 10 using incl_refl. Qed.
Lemma same_but_trans self f g a b c : same_but self f a b -> same_but self g b c -> same_but self (fun t => g (f t)) a c.
Proof.
  intros (A1 & A2 & A3 & A4 & A5 & A6 & A7 & A8 & A9) (B1 & B2 & B3 & B4 & B5 & B6 & B7 & B8 & B9). unfold same_but.
  repeat (split; [congruence|]). split; [rewrite B7, A7, map_map; reflexivity|]. split; [eapply incl_tran; eauto|auto].
Qed.
Lemma levolve_refl self s : levolve self (fun t => t) s s.
Proof.
  split; [|split; [|split; [reflexivity|lia]]]; intros k d H; exists d; split; auto using same_but_refl.
Qed.
Lemma levolve_trans self f g a b c : levolve self f a b -> levolve self g b c -> levolve self (fun t => g (f t)) a c.
Proof.
  intros (A1 & A2 & A3 & A4) (B1 & B2 & B3 & B4). split; [|split; [|split; [congruence|lia]]].
  - intros k d H. destruct (A1 k d H) as (d1 & H1 & S1). destruct (B1 k d1 H1) as (d2 & H2 & S2). exists d2. split; [exact H2|]. eapply same_but_trans; eauto.
  - intros k d H. destruct (B2 k d H) as (d1 & H1 & S1). destruct (A2 k d1 H1) as (d2 & H2 & S2). exists d2. split; [exact H2|]. eapply same_but_trans; eauto.
Qed.
Lemma linv_evolve self phi s s' : linv s -> levolve self phi (l_db s) (l_db s') -> ksorted (docs (l_db s')) ->
  (forall t, t <= last_thread (l_db s) -> phi t <= last_thread (l_db s')) ->
  (forall id t, mget id (l_meta s') = Some t -> t <= last_thread (l_db s')) -> linv s'.
Proof.
  intros Hi (A1 & A2 & A3 & A4) Hs Hp Hm. constructor; auto.
  - intros k d H. destruct (A2 k d H) as (d0 & H0 & _). rewrite A3. exact (l_last s Hi k d0 H0).
  - intros k d k' d' H H' E. destruct (A2 k d H) as (d0 & H0 & S0). destruct (A2 k' d' H') as (d1 & H1 & S1).
    apply (l_unique s Hi k d0 k' d1 H0 H1). rewrite <- (proj1 S0), <- (proj1 S1). exact E.
  - intros k d H. destruct (A2 k d H) as (d0 & H0 & S0). destruct (l_thread s Hi k d0 H0) as (t & T & L).
    destruct S0 as (_ & _ & _ & _ & _ & _ & S0 & _). rewrite S0, T. exists (phi t). split; [reflexivity|auto].
  - intros k d H. destruct (A2 k d H) as (d0 & H0 & S0). rewrite (proj1 S0). exact (l_canon s Hi k d0 H0).
Qed.

Lemma evolve_merge self w l s : (forall k d, has s k d -> exists t, m_threads d = [t]) -> levolve self (swap w l) s (merge_threads w l s).
Proof.
  intros Ht.
  assert (E : forall k d, has s k d -> same_but self (swap w l) d (merge_doc w l d)).
  { intros k d H. destruct (Ht k d H) as (t & T). rewrite (merge_doc_eq w l d t T). unfold same_but. cbn. auto 12 using incl_refl. }
  split; [|split; [|split; [reflexivity|cbn; lia]]].
  - intros k d H. exists (merge_doc w l d). split; [apply has_merge; eauto|eauto].
  - intros k d H. apply has_merge in H as (d0 & H0 & ->). eauto.
Qed.
Lemma evolve_drop k c s self : has s k c -> levolve self (fun t => t) s (sync k (drop_reference self c) s).
Proof.
  intros H. assert (E : same_but self (fun t => t) c (drop_reference self c)).
  { unfold same_but, drop_reference. cbn. rewrite map_id. repeat (split; [reflexivity|]). split.
    - intros x Hx. now apply filter_In in Hx.
    - intros x Hne Hx. apply filter_In. split; [exact Hx|]. apply negb_true_iff. destruct (bseq_spec self x); congruence. }
  split; [|split; [|split; [reflexivity|cbn; lia]]].
  - intros j d Hj. destruct (N.eq_dec j k) as [->|Hne].
    + assert (d = c) by (unfold has in *; congruence). subst d. exists (drop_reference self c). split; [apply has_sync; auto|exact E].
    + exists d. split; [apply has_sync; auto|apply same_but_refl].
  - intros j d Hj. apply has_sync in Hj as [[-> ->]|[Hne Hj]]; [exists c; auto|exists d; split; [exact Hj|apply same_but_refl]].
Qed.
Lemma sync_sorted k d s : ksorted (docs s) -> ksorted (docs (sync k d s)).
Proof. intros H. cbn. now apply dins_sorted. Qed.
Lemma merge_sorted w l s : ksorted (docs s) -> ksorted (docs (merge_threads w l s)).
Proof. intros H. cbn. now apply map_sorted. Qed.

Lemma swap_le w l t n : w <= n -> t <= n -> swap w l t <= n.
Proof. unfold swap. destruct (N.eqb t l); auto. Qed.
Lemma swap_w w l : swap w l w = w.
Proof. unfold swap. now destruct (N.eqb w l). Qed.
Lemma swap_l w l : swap w l l = w.
Proof. unfold swap. now rewrite N.eqb_refl. Qed.
Lemma linv_threads s : linv s -> forall k d, has (l_db s) k d -> exists t, m_threads d = [t].
Proof. intros Hi k d H. destruct (l_thread s Hi k d H) as (t & T & _). eauto. Qed.

(** ** Who is in which thread, and why. *)
Definition lmem (s : ldb) (id : bytes) (t : N) : Prop := thread_of (l_db s) id t \/ mget id (l_meta s) = Some t.
Record just (R : bytes -> bytes -> Prop) (s : ldb) : Prop := {
  j_thread : forall a b t, lmem s a t -> lmem s b t -> R a b;
  j_ref : forall k d x, has (l_db s) k d -> In x (m_refs d) -> R (m_id d) (canon x) }.
Section R.
Variable R : bytes -> bytes -> Prop.
Hypothesis Rrefl : forall a, R a a.
Hypothesis Rsym : forall a b, R a b -> R b a.
Hypothesis Rtrans : forall a b c, R a b -> R b c -> R a c.

Lemma lmem_bound s id t : linv s -> lmem s id t -> t <= last_thread (l_db s).
Proof.
  intros Hi [(k & d & H & _ & T)|H]; [|exact (l_mbound s Hi id t H)].
  destruct (l_thread s Hi k d H) as (u & U & L). rewrite U in T. destruct T as [T|[]]. subst u. exact L.
Qed.
Lemma just_refs_evolve self phi s s' : levolve self phi (l_db s) (l_db s') -> 
  (forall k d x, has (l_db s) k d -> In x (m_refs d) -> R (m_id d) (canon x)) ->
  forall k d x, has (l_db s') k d -> In x (m_refs d) -> R (m_id d) (canon x).
Proof.
  intros (_ & E & _) J k d x H Hx. destruct (E k d H) as (d0 & H0 & S). destruct S as (S1 & _ & _ & _ & _ & _ & _ & S8 & _).
  rewrite S1. apply (J k d0 x H0). now apply S8.
Qed.
Lemma lmem_merge s w l self phi id t db : levolve self phi (l_db s) db ->
  (forall t, phi t = swap w l t) -> lmem {| l_db := db; l_meta := l_meta s |} id t -> lmem s id t \/ (t = w /\ lmem s id l).
Proof.
  intros (_ & E & _) Hp [(k & d & H & I1 & T)|H]; [|left; right; exact H]. cbn in H.
  destruct (E k d H) as (d0 & H0 & S). destruct S as (S1 & _ & _ & _ & _ & _ & S7 & _). rewrite S7 in T. apply in_map_iff in T as [u [U Hu]].
  rewrite Hp in U. unfold swap in U. destruct (N.eqb_spec u l) as [El|Hne].
  - right. split; [congruence|]. left. exists k, d0. split; [exact H0|]. split; [congruence|]. now rewrite <- El.
  - left. left. exists k, d0. split; [exact H0|]. split; [congruence|]. now rewrite <- U.
Qed.
(** Merging two threads that are known to be connected. *)
Lemma just_merge s w l self phi db x y : just R s -> levolve self phi (l_db s) db -> (forall t, phi t = swap w l t) ->
  (forall a, lmem s a w -> R a x) -> (forall a, lmem s a l -> R a y) -> R y x ->
  let s' := {| l_db := db; l_meta := l_meta s |} in just R s' /\ (forall a, lmem s' a w -> R a x).
Proof.
  intros J E Hp Hx Hy Ryx s'. 
  assert (Q : forall a t, lmem s' a t -> lmem s a t \/ (t = w /\ R a x)).
  { intros a t H. destruct (lmem_merge s w l self phi a t db E Hp H) as [H1|[-> H1]]; [auto|]. right. split; [reflexivity|]. eauto. }
  assert (Q2 : forall a, lmem s' a w -> R a x).
  { intros a H. destruct (Q a w H) as [H1|[_ H1]]; auto. }
  split; [|exact Q2]. constructor.
  - intros a b t Ha Hb. destruct (Q a t Ha) as [H1|[E1 H1]], (Q b t Hb) as [H2|[E2 H2]].
    + exact (j_thread R s J a b t H1 H2).
    + subst t. eauto.
    + subst t. eauto.
    + eauto.
  - exact (just_refs_evolve self phi s s' E (j_ref R s J)).
Qed.

(** The parents loop and the children loop keep this. *)
Definition tjust (self : bytes) (tid : option N) (s : ldb) : Prop := forall t, tid = Some t -> forall a, lmem s a t -> R a self.

Lemma resolve_old_spec r s : linv s -> exists t s', resolve_old compressed r s = Some (t, s') /\ linv s' /\ docs (l_db s') = docs (l_db s) /\
  last_doc (l_db s') = last_doc (l_db s) /\ last_thread (l_db s) <= last_thread (l_db s') /\ t <= last_thread (l_db s') /\ lmem s' (canon r) t /\
  (forall k d, has (l_db s) k d -> m_id d = canon r -> m_threads d = [t]) /\
  (forall a u, lmem s' a u -> lmem s a u \/ (a = canon r /\ u = last_thread (l_db s) + 1)).
Proof.
  intros Hi. unfold resolve_old. pose proof (find_message_spec compressed r (l_db s) (l_sorted s Hi)) as F.
  destruct (find_message compressed r (l_db s)) as [[k d]|].
  - destruct F as [F1 F2]. destruct (l_thread s Hi k d F1) as (t & T & L). unfold get_thread_id. rewrite T. exists t, s.
    repeat (split; [first [reflexivity|assumption|lia]|]). split; [left; exists k, d; repeat split; auto; rewrite T; now left|]. split; [|auto].
    intros k' d' H' E. assert (k' = k) by (apply (l_unique s Hi k' d' k d); congruence). subst k'. unfold has in *. congruence.
  - destruct (mget (canon r) (l_meta s)) as [t|] eqn:M.
    + exists t, s. repeat (split; [first [reflexivity|assumption|lia|exact (l_mbound s Hi _ _ M)]|]). split; [right; exact M|]. split; [|auto].
      intros k d H E. now apply F in H.
    + cbn. eexists _, _. split; [reflexivity|]. cbn. split; [|split; [reflexivity|split; [reflexivity|split; [lia|split; [lia|split; [right; cbn; rewrite mget_mset, bseq_refl; reflexivity|split]]]]]].
      * constructor; cbn; try apply Hi.
        -- intros k d H. destruct (l_thread s Hi k d H) as (t & T & L). exists t. split; [exact T|lia].
        -- intros id t. rewrite mget_mset. destruct (bseq id (canon r)); [intros [= <-]; lia|]. intros H. apply (l_mbound s Hi) in H. lia.
      * intros k d H E. now apply F in H.
      * intros a u [H|H]; [left; left; exact H|]. cbn in H. rewrite mget_mset in H. destruct (bseq_spec a (canon r)) as [->|_]; [right; split; congruence|left; right; exact H].
Qed.
Lemma just_resolve r s t s' : linv s -> just R s -> resolve_old compressed r s = Some (t, s') -> just R s'.
Proof.
  intros Hi J E. destruct (resolve_old_spec r s Hi) as (t1 & s1 & E1 & Hi1 & D & L1 & L2 & L3 & M & T & Q). rewrite E in E1. injection E1 as <- <-.
  constructor.
  - intros a b u Ha Hb. destruct (Q a u Ha) as [H1|[E1 F1]], (Q b u Hb) as [H2|[E2 F2]].
    + exact (j_thread R s J a b u H1 H2).
    + apply (lmem_bound s a _ Hi) in H1. lia.
    + apply (lmem_bound s b _ Hi) in H2. lia.
    + subst a b. apply Rrefl.
  - intros k d x H. apply (j_ref R s J k d x). unfold has in *. congruence.
Qed.
End R.

(** ** The parents loop. *)
Definition tid_threads (tid : option N) : list N := match tid with Some t => [t] | None => [] end.
Definition tid_ok (tid : option N) (s : ldb) : Prop := forall t, tid = Some t -> t <= last_thread (l_db s).

(** The fields of the document in hand. *)
Definition keeps_doc (d d' : mdoc) : Prop := m_id d' = m_id d /\ m_ghost d' = m_ghost d /\ m_files d' = m_files d /\ m_tags d' = m_tags d /\ m_props d' = m_props d.

Lemma evolve_docs self a b : docs b = docs a -> last_doc b = last_doc a -> last_thread a <= last_thread b -> levolve self (fun t => t) a b.
Proof.
  intros D L1 L2. assert (E : forall k d, has b k d <-> has a k d) by (intros; unfold has; now rewrite D).
  split; [|split; [|auto]]; intros k d H; apply E in H; exists d; split; auto using same_but_refl.
Qed.

Lemma link_keys_old_spec self keys : forall d tid s, linv s -> tid_ok tid s -> m_threads d = tid_threads tid ->
  exists d' tid' s' phi, link_keys_old compressed keys d tid s = Some (d', tid', s') /\ linv s' /\ levolve self phi (l_db s) (l_db s') /\
    tid_ok tid' s' /\ m_threads d' = tid_threads tid' /\ keeps_doc d d' /\ m_replyto d' = m_replyto d /\
    (forall t, tid = Some t -> tid' = Some t /\ phi t = t) /\
    (forall k e, has (l_db s) k e -> exists e', has (l_db s') k e' /\ m_refs e' = m_refs e) /\
    (forall x, In x (m_refs d') <-> In x (m_refs d) \/ (In x keys /\ (length x <= 235)%nat)) /\
    (forall r k e, In r keys -> has (l_db s') k e -> m_id e = canon r -> m_threads e = tid_threads tid') /\
    (forall (R : bytes -> bytes -> Prop), (forall a, R a a) -> (forall a b, R a b -> R b a) -> (forall a b c, R a b -> R b c -> R a c) ->
       just R s -> tjust R self tid s -> (forall r, In r keys -> R self (canon r)) -> just R s' /\ tjust R self tid' s') /\
    (keys <> [] -> tid' <> None).
Proof.
  induction keys as [|r keys IH]; intros d tid s Hi Ht Td.
  - exists d, tid, s, (fun t => t). cbn. split; [reflexivity|]. split; [exact Hi|]. split; [apply levolve_refl|]. unfold keeps_doc.
    repeat (split; [solve [auto]|]). split; [intros k e H; exists e; auto|]. split; [intros x; tauto|]. split; [intros r k e []|]. split; [auto|congruence].
  - cbn [link_keys_old]. destruct (resolve_old_spec r s Hi) as (pt & s1 & E & Hi1 & D1 & L1 & L2 & L3 & M1 & T1 & Q1). rewrite E.
    destruct (add_reference_fields r d) as (A1 & A2 & A3 & A4 & A5 & A6 & A7).
    assert (E1 : levolve self (fun t => t) (l_db s) (l_db s1)) by (apply evolve_docs; auto).
    (* state and thread after this key *)
    set (t0 := match tid with None => pt | Some t => t end).
    set (s2 := match tid with None => s1 | Some t => if N.eqb t pt then s1 else on_db (merge_threads t pt) s1 end).
    set (d2 := match tid with None => add_thread pt (add_reference r d) | Some _ => add_reference r d end).
    assert (EQ : match tid with
                 | None => link_keys_old compressed keys (add_thread pt (add_reference r d)) (Some pt) s1
                 | Some t => if N.eqb t pt then link_keys_old compressed keys (add_reference r d) tid s1
                             else link_keys_old compressed keys (add_reference r d) tid (on_db (merge_threads t pt) s1) end
                 = link_keys_old compressed keys d2 (Some t0) s2).
    { unfold d2, t0, s2. destruct tid as [t|]; [destruct (N.eqb t pt)|]; reflexivity. }
    rewrite EQ. clear EQ.
    assert (St : exists phi, linv s2 /\ levolve self phi (l_db s1) (l_db s2) /\ t0 <= last_thread (l_db s2) /\ (forall t, tid = Some t -> phi t = t) /\
              l_meta s2 = l_meta s1 /\
              (forall k e, has (l_db s1) k e -> exists e', has (l_db s2) k e' /\ m_refs e' = m_refs e) /\
              (forall k e, has (l_db s2) k e -> m_id e = canon r -> m_threads e = [t0]) /\
              (forall (R : bytes -> bytes -> Prop), (forall a, R a a) -> (forall a b, R a b -> R b a) -> (forall a b c, R a b -> R b c -> R a c) ->
                 just R s -> tjust R self tid s -> R self (canon r) -> just R s2 /\ tjust R self (Some t0) s2)).
    { assert (T1' : forall k e, has (l_db s1) k e -> m_id e = canon r -> m_threads e = [pt]).
      { intros k e H. apply (T1 k e). unfold has in *. congruence. }
      assert (JJ : forall (R : bytes -> bytes -> Prop), (forall a, R a a) -> (forall a b, R a b -> R b a) -> (forall a b c, R a b -> R b c -> R a c) ->
                 just R s -> tjust R self tid s -> R self (canon r) -> just R s1 /\ tjust R self tid s1 /\ (forall a, lmem s1 a pt -> R a (canon r))).
      { intros R R1 R2 R3 J TJ Rr. pose proof (just_resolve R R1 r s pt s1 Hi J E) as J1. split; [exact J1|]. split.
        - intros t Et a Ha. destruct (Q1 a t Ha) as [H|[-> ->]]; [exact (TJ t Et a H)|]. now apply R2.
        - intros a Ha. exact (j_thread R s1 J1 a (canon r) pt Ha M1). }
      unfold s2, t0. destruct tid as [t|].
      - destruct (N.eqb_spec t pt) as [->|Hne].
        + exists (fun t => t). split; [exact Hi1|]. split; [apply levolve_refl|]. split; [exact L3|]. split; [auto|]. split; [reflexivity|].
          split; [intros k e H; exists e; auto|]. split; [exact T1'|]. intros R R1 R2 R3 J TJ Rr. destruct (JJ R R1 R2 R3 J TJ Rr) as (X & Y & _). auto.
        + assert (Ev : levolve self (swap t pt) (l_db s1) (merge_threads t pt (l_db s1))) by (apply evolve_merge, linv_threads; exact Hi1).
          assert (Lt : t <= last_thread (l_db s1)) by (pose proof (Ht t eq_refl); lia).
          exists (swap t pt). split; [|split; [exact Ev|split; [exact Lt|split; [|split; [reflexivity|split; [|split]]]]]].
          * apply (linv_evolve self (swap t pt) s1); auto.
            -- apply merge_sorted, Hi1.
            -- intros u Hu. now apply swap_le.
            -- exact (l_mbound s1 Hi1).
          * intros u [= <-]. apply swap_w.
          * intros k e H. exists (merge_doc t pt e). split; [apply has_merge; eauto|]. unfold merge_doc. destruct (existsb _ _); reflexivity.
          * intros k e H Ee. destruct Ev as (_ & Ev & _). destruct (Ev k e H) as (e0 & H0 & S0).
            destruct S0 as (S1 & _ & _ & _ & _ & _ & S7 & _). rewrite S7, (T1' k e0 H0); [cbn; now rewrite swap_l|congruence].
          * intros R R1 R2 R3 J TJ Rr. destruct (JJ R R1 R2 R3 J TJ Rr) as (J1 & TJ1 & P1).
            destruct (just_merge R R2 R3 s1 t pt self (swap t pt) (merge_threads t pt (l_db s1)) self (canon r) J1 Ev (fun _ => eq_refl)) as [X Y].
            -- exact (TJ1 t eq_refl).
            -- exact P1.
            -- now apply R2.
            -- split; [exact X|]. intros u [= <-]. exact Y.
      - exists (fun t => t). split; [exact Hi1|]. split; [apply levolve_refl|]. split; [exact L3|]. split; [discriminate|]. split; [reflexivity|].
        split; [intros k e H; exists e; auto|]. split; [exact T1'|]. intros R R1 R2 R3 J TJ Rr. destruct (JJ R R1 R2 R3 J TJ Rr) as (X & Y & Z).
        split; [exact X|]. intros u [= <-] a Ha. apply R3 with (canon r); [exact (Z a Ha)|now apply R2]. }
    destruct St as (phi & Hi2 & E2 & L4 & P2 & Mt & Rf & Tr & JJ).
    assert (Td2 : m_threads d2 = tid_threads (Some t0)).
    { unfold d2, t0. destruct tid as [t|]; cbn in Td |- *; [rewrite A3; exact Td|]. rewrite A3, Td. reflexivity. }
    assert (Hok : tid_ok (Some t0) s2) by (intros u [= <-]; exact L4).
    destruct (IH d2 (Some t0) s2 Hi2 Hok Td2) as (d' & tid' & s' & phi' & EQ & Hi' & E' & Ok' & Td' & K' & Rp & P' & Rf' & X' & Y' & J' & _).
    destruct (P' t0 eq_refl) as [-> P0].
    exists d', (Some t0), s', (fun t => phi' (phi t)). split; [exact EQ|]. split; [exact Hi'|].
    split; [change (fun t => phi' (phi t)) with (fun t => (fun u => phi' (phi u)) ((fun v => v) t)); eapply levolve_trans; [exact E1|]; eapply levolve_trans; eauto|].
    split; [exact Ok'|]. split; [exact Td'|].
    assert (Kd : keeps_doc d d2 /\ m_replyto d2 = m_replyto d /\ m_refs d2 = m_refs (add_reference r d)).
    { unfold keeps_doc, d2. destruct tid; cbn; rewrite ?A1, ?A2, ?A4, ?A5, ?A6, ?A7; auto 10. }
    destruct Kd as ((K1 & K2 & K3 & K4 & K5) & K6 & K7).
    split; [destruct K' as (B1 & B2 & B3 & B4 & B5); unfold keeps_doc; repeat split; congruence|]. split; [congruence|].
    split.
    { intros t ->. unfold t0 in *. split; [reflexivity|]. rewrite (P2 t eq_refl). exact P0. }
    split.
    { intros k e H. assert (H1 : has (l_db s1) k e) by (unfold has in *; congruence). destruct (Rf k e H1) as (e1 & H2 & F2).
      destruct (Rf' k e1 H2) as (e2 & H3 & F3). exists e2. split; [exact H3|congruence]. }
    split.
    { intros x. rewrite X', K7, add_reference_refs. cbn. split; [intros [[H|[-> H]]|[H H1]]; auto|]. intros [H|[[->|H] H1]]; auto. }
    split.
    { intros q k e [<-|Hq] H Ee; [|exact (Y' q k e Hq H Ee)]. destruct E' as (_ & E' & _). destruct (E' k e H) as (e0 & H0 & S0).
      destruct S0 as (S1 & _ & _ & _ & _ & _ & S7 & _). rewrite S7, (Tr k e0 H0); [cbn; now rewrite P0|congruence]. }
    split; [|intros _; discriminate].
    intros R R1 R2 R3 J TJ Rr. destruct (JJ R R1 R2 R3 J TJ (Rr r (or_introl eq_refl))) as [J2 TJ2].
    apply J'; auto. intros q Hq. apply Rr. now right.
Qed.
End P.
