(** Proofs for C93, continued: the children loop and whole additions. *)
From Verif Require Import Bytes Terms DocMap MsgId MsgIdProofs MailStore MailStoreSpec MailStoreProofs MailStoreProofs2 LegacyThreads LegacyThreadsProofs.
From Coq Require Import Relations.
Local Open Scope N_scope.

Definition equivalence (R : bytes -> bytes -> Prop) : Prop :=
  (forall a, R a a) /\ (forall a b, R a b -> R b a) /\ (forall a b c, R a b -> R b c -> R a c).

Section P.
Variable compressed : bytes -> bytes.
Hypothesis compressed_short : forall s, (length (compressed s) <= 189)%nat.
Notation canon := (canon compressed).
Notation linv := (linv compressed).
Notation just := (just compressed).

Lemma children_loop_spec ks : forall d tid s, linv s -> tid_ok tid s -> m_threads d = tid_threads tid ->
  (forall k, In k ks -> exists c, has (l_db s) k c) ->
  exists d' tid' s' phi, children_loop ks d tid s = Some (d', tid', s') /\ linv s' /\ levolve (m_id d) phi (l_db s) (l_db s') /\
    l_meta s' = l_meta s /\ last_thread (l_db s') = last_thread (l_db s) /\
    tid_ok tid' s' /\ m_threads d' = tid_threads tid' /\ keeps_doc d d' /\ m_replyto d' = m_replyto d /\ m_refs d' = m_refs d /\
    (forall t, tid = Some t -> tid' = Some t /\ phi t = t) /\
    (forall k e, In k ks -> has (l_db s') k e -> m_threads e = tid_threads tid') /\
    (forall R, equivalence R -> just R s -> tjust R (m_id d) tid s -> (forall k c, In k ks -> has (l_db s) k c -> R (m_id c) (m_id d)) ->
       just R s' /\ tjust R (m_id d) tid' s').
Proof.
  induction ks as [|k ks IH]; intros d tid s Hi Ht Td Hk.
  - exists d, tid, s, (fun t => t). cbn. split; [reflexivity|]. split; [exact Hi|]. split; [apply levolve_refl|]. unfold keeps_doc.
    repeat (split; [solve [auto]|]). split; [intros k e []|auto].
  - cbn [children_loop]. destruct (Hk k (or_introl eq_refl)) as (c & Hc). unfold has in Hc. rewrite Hc. fold (has (l_db s) k c) in Hc.
    destruct (l_thread compressed s Hi k c Hc) as (ct & Tc & Lc). unfold get_thread_id. rewrite Tc. fold (get_thread_id c).
    set (self := m_id d) in *.
    set (t0 := match tid with None => ct | Some t => t end).
    set (s2 := match tid with None => s | Some t => if N.eqb t ct then s
                 else on_db (fun db => merge_threads t ct (sync k (drop_reference self c) db)) s end).
    set (d2 := match tid with None => add_thread ct d | Some _ => d end).
    assert (EQ : match tid with
                 | None => children_loop ks (add_thread ct d) (Some ct) s
                 | Some t => if N.eqb t ct then children_loop ks d tid s
                             else children_loop ks d tid (on_db (fun db => merge_threads t ct (sync k (drop_reference self c) db)) s) end
                 = children_loop ks d2 (Some t0) s2).
    { unfold d2, t0, s2. destruct tid as [t|]; [destruct (N.eqb t ct)|]; reflexivity. }
    rewrite EQ. clear EQ.
    assert (St : exists phi, linv s2 /\ levolve self phi (l_db s) (l_db s2) /\ l_meta s2 = l_meta s /\ last_thread (l_db s2) = last_thread (l_db s) /\
              t0 <= last_thread (l_db s2) /\ (forall t, tid = Some t -> phi t = t) /\
              (forall e, has (l_db s2) k e -> m_threads e = [t0]) /\
              (forall R, equivalence R -> just R s -> tjust R self tid s -> R (m_id c) self -> just R s2 /\ tjust R self (Some t0) s2)).
    { unfold s2, t0. destruct tid as [t|].
      - destruct (N.eqb_spec t ct) as [->|Hne].
        + exists (fun t => t). split; [exact Hi|]. split; [apply levolve_refl|]. split; [reflexivity|]. split; [reflexivity|]. split; [exact Lc|].
          split; [auto|]. split; [|auto]. intros e He. unfold has in *. congruence.
        + assert (Lt : t <= last_thread (l_db s)) by exact (Ht t eq_refl).
          set (db1 := sync k (drop_reference self c) (l_db s)).
          assert (E1 : levolve self (fun t => t) (l_db s) db1) by (now apply evolve_drop).
          assert (Hi1 : linv {| l_db := db1; l_meta := l_meta s |}).
          { apply (linv_evolve compressed self (fun t => t) s); auto; [apply sync_sorted; apply Hi|exact (l_mbound _ s Hi)]. }
          assert (E2 : levolve self (swap t ct) db1 (merge_threads t ct db1)) by (apply evolve_merge; exact (linv_threads compressed _ Hi1)).
          assert (Ev : levolve self (swap t ct) (l_db s) (merge_threads t ct db1)).
          { change (swap t ct) with (fun u => swap t ct ((fun v => v) u)). eapply levolve_trans; eauto. }
          exists (swap t ct). split; [|split; [exact Ev|split; [reflexivity|split; [reflexivity|split; [exact Lt|split; [|split]]]]]].
          * apply (linv_evolve compressed self (swap t ct) s); auto.
            -- apply merge_sorted, sync_sorted, Hi.
            -- intros u Hu. now apply swap_le.
            -- exact (l_mbound _ s Hi).
          * intros u [= <-]. apply swap_w.
          * intros e He. destruct Ev as (_ & Ev & _). destruct (Ev k e He) as (e0 & H0 & S0).
            assert (e0 = c) by (unfold has in *; congruence). subst e0. destruct S0 as (_ & _ & _ & _ & _ & _ & S7 & _). rewrite S7, Tc. cbn. now rewrite swap_l.
          * intros R (R1 & R2 & R3) J TJ Rc.
            assert (Mc : lmem s (m_id c) ct) by (left; exists k, c; repeat split; auto; rewrite Tc; now left).
            destruct (just_merge compressed R R2 R3 s t ct self (swap t ct) (merge_threads t ct db1) self (m_id c) J Ev (fun _ => eq_refl)) as [X Y].
            -- exact (TJ t eq_refl).
            -- intros a Ha. exact (j_thread _ R s J a (m_id c) ct Ha Mc).
            -- exact Rc.
            -- split; [exact X|]. intros u [= <-]. exact Y.
      - exists (fun t => t). split; [exact Hi|]. split; [apply levolve_refl|]. split; [reflexivity|]. split; [reflexivity|]. split; [exact Lc|].
        split; [discriminate|]. split; [intros e He; unfold has in *; congruence|]. intros R (R1 & R2 & R3) J TJ Rc. split; [exact J|].
        intros u [= <-] a Ha. apply R3 with (m_id c); [|exact Rc]. apply (j_thread _ R s J a (m_id c) ct Ha). left. exists k, c. repeat split; auto. rewrite Tc. now left. }
    destruct St as (phi & Hi2 & E2 & Mt & Lt2 & L4 & P2 & Tk & JJ).
    assert (Td2 : m_threads d2 = tid_threads (Some t0)).
    { unfold d2, t0. destruct tid as [t|]; cbn in Td |- *; [exact Td|]. rewrite Td. reflexivity. }
    assert (Hok : tid_ok (Some t0) s2) by (intros u [= <-]; exact L4).
    assert (Id2 : m_id d2 = self) by (unfold d2; destruct tid; reflexivity).
    assert (Hk2 : forall k0, In k0 ks -> exists c0, has (l_db s2) k0 c0).
    { intros k0 H0. destruct (Hk k0 (or_intror H0)) as (c0 & H1). destruct E2 as (E2 & _). destruct (E2 k0 c0 H1) as (c1 & H2 & _). eauto. }
    destruct (IH d2 (Some t0) s2 Hi2 Hok Td2 Hk2) as (d' & tid' & s' & phi' & EQ & Hi' & E' & Mt' & Lt' & Ok' & Td' & K' & Rp & Rr & P' & Y' & J').
    rewrite Id2 in *. destruct (P' t0 eq_refl) as [-> P0].
    exists d', (Some t0), s', (fun t => phi' (phi t)). split; [exact EQ|]. split; [exact Hi'|]. split; [eapply levolve_trans; eauto|].
    split; [congruence|]. split; [congruence|]. split; [exact Ok'|]. split; [exact Td'|].
    assert (Kd : keeps_doc d d2 /\ m_replyto d2 = m_replyto d /\ m_refs d2 = m_refs d) by (unfold keeps_doc, d2; destruct tid; cbn; auto 10).
    destruct Kd as ((K1 & K2 & K3 & K4 & K5) & K6 & K7).
    split; [destruct K' as (B1 & B2 & B3 & B4 & B5); unfold keeps_doc; repeat split; congruence|]. split; [congruence|]. split; [congruence|].
    split.
    { intros t ->. unfold t0 in *. split; [reflexivity|]. rewrite (P2 t eq_refl). exact P0. }
    split.
    { intros q e [<-|Hq] H; [|exact (Y' q e Hq H)]. destruct E' as (_ & E' & _). destruct (E' k e H) as (e0 & H0 & S0).
      destruct S0 as (S1 & _ & _ & _ & _ & _ & S7 & _). rewrite S7, (Tk e0 H0). cbn. now rewrite P0. }
    intros R Req J TJ Rc. destruct (JJ R Req J TJ (Rc k c (or_introl eq_refl) Hc)) as [J2 TJ2].
    apply J'; auto. intros q e Hq He. destruct E2 as (_ & E2 & _). destruct (E2 q e He) as (e0 & H0 & S0). rewrite (proj1 S0). exact (Rc q e0 (or_intror Hq) H0).
Qed.

Lemma add_replyto_fields r d : keeps_doc d (add_replyto r d) /\ m_threads (add_replyto r d) = m_threads d /\ m_refs (add_replyto r d) = m_refs d.
Proof. unfold keeps_doc, add_replyto. destruct r; [|auto 10]. destruct (Nat.leb _ _); cbn; auto 10. Qed.

Lemma linv_bump s a b m : linv s -> last_doc (l_db s) <= a -> last_thread (l_db s) <= b -> (forall id t, mget id m = Some t -> t <= b) ->
  linv {| l_db := {| docs := docs (l_db s); last_doc := a; last_thread := b |}; l_meta := m |}.
Proof.
  intros Hi Ha Hb Hm. constructor; cbn; try apply Hi; [| |exact Hm].
  - intros k d H. apply (l_last _ s Hi) in H. lia.
  - intros k d H. destruct (l_thread _ s Hi k d H) as (t & T & L). exists t. split; [exact T|lia].
Qed.

(** Linking a document [d] in hand. *)
Lemma link_message_old_spec keys f (found : bool) d s : linv s ->
  (if found then exists t, m_threads d = [t] /\ t <= last_thread (l_db s) /\ True else m_threads d = []) ->
  exists d' s' phi t, link_message_old compressed keys f found d s = Some (d', s') /\ linv s' /\ levolve (m_id d) phi (l_db s) (l_db s') /\
    keeps_doc d d' /\ m_threads d' = [t] /\ t <= last_thread (l_db s') /\
    (found = true -> m_threads d = [t] /\ phi t = t) /\
    (forall x, In x (m_refs d') <-> In x (m_refs d) \/ (In x keys /\ (length x <= 235)%nat)) /\
    (forall r k e, In r keys -> has (l_db s') k e -> m_id e = canon r -> m_threads e = [t]) /\
    (forall k e e', has (l_db s) k e -> In (m_id d) (m_refs e) -> has (l_db s') k e' -> m_threads e' = [t]) /\
    (forall R, equivalence R -> just R s -> canon (m_id d) = m_id d ->
       (found = true -> forall a, lmem s a t -> R a (m_id d)) -> (forall r, In r keys -> R (m_id d) (canon r)) ->
       just R s' /\ (forall a, lmem s' a t -> R a (m_id d))).
Proof.
  intros Hi Hf. unfold link_message_old. set (self := m_id d).
  (* the start *)
  assert (St : exists d1 tid s1, (if found then match get_thread_id d with Some t => Some (d, Some t, s) | None => None end
         else match mget self (l_meta s) with
              | Some t => Some (add_thread t d, Some t, {| l_db := l_db s; l_meta := mclear self (l_meta s) |})
              | None => Some (d, None, s) end) = Some (d1, tid, s1) /\
       linv s1 /\ l_db s1 = l_db s /\ tid_ok tid s1 /\ m_threads d1 = tid_threads tid /\ keeps_doc d d1 /\ m_refs d1 = m_refs d /\
       (found = true -> exists t, tid = Some t /\ m_threads d = [t]) /\
       (forall a u, lmem s1 a u -> lmem s a u) /\ (found = false -> forall t, tid = Some t -> lmem s self t)).
  { destruct found.
    - destruct Hf as (t & T & L & _). unfold get_thread_id. rewrite T. exists d, (Some t), s. unfold keeps_doc.
      split; [reflexivity|]. split; [exact Hi|]. split; [reflexivity|]. split; [intros u [= <-]; exact L|]. split; [exact T|].
      split; [auto|]. split; [reflexivity|]. split; [eauto|]. split; [auto|discriminate].
    - destruct (mget self (l_meta s)) as [t|] eqn:M.
      + eexists _, _, _. split; [reflexivity|]. unfold keeps_doc. split.
        { constructor; cbn; try apply Hi. intros id u. rewrite mget_mclear. destruct (bseq id self); [discriminate|]. exact (l_mbound _ s Hi id u). }
        split; [reflexivity|]. split; [intros u [= <-]; exact (l_mbound _ s Hi self t M)|]. split; [cbn; rewrite Hf; reflexivity|].
        split; [cbn; auto 10|]. split; [reflexivity|]. split; [discriminate|]. split.
        * intros a u [H|H]; [left; exact H|right]. cbn in H. rewrite mget_mclear in H. destruct (bseq a self); [discriminate|exact H].
        * intros _ u [= <-]. right. exact M.
      + exists d, None, s. unfold keeps_doc. split; [reflexivity|]. split; [exact Hi|]. split; [reflexivity|]. split; [discriminate|]. split; [exact Hf|].
        split; [auto 10|]. split; [reflexivity|]. split; [discriminate|]. split; [auto|discriminate]. }
  destruct St as (d1 & tid & s1 & EQ & Hi1 & D1 & Ok1 & Td1 & K1 & Rf1 & Fd & Mm & Mf). rewrite EQ. clear EQ.
  destruct (add_replyto_fields (snd (file_parents (m_id d1) f)) d1) as (K2 & T2 & R2). set (d2 := add_replyto _ d1) in *.
  destruct (link_keys_old_spec compressed self keys d2 tid s1 Hi1 Ok1) as (d3 & tid3 & s3 & phi3 & E3 & Hi3 & Ev3 & Ok3 & Td3 & K3 & Rp3 & P3 & Rf3 & X3 & Y3 & J3 & _); [congruence|].
  rewrite E3. clear E3.
  assert (Id3 : m_id d3 = self) by (destruct K1 as (A & _), K2 as (B & _), K3 as (C & _); unfold self; congruence).
  unfold link_to_children. set (ks := doc_ids _ (l_db s3)).
  assert (Hks : forall k, In k ks <-> exists c, has (l_db s3) k c /\ In self (m_refs c)).
  { intros k. unfold ks. rewrite (doc_ids_In _ _ _ (l_sorted _ s3 Hi3)), Id3. split; intros (c & H1 & H2); exists c; (split; [exact H1|]); now apply existsb_bseq. }
  destruct (children_loop_spec ks d3 tid3 s3 Hi3 Ok3 Td3) as (d4 & tid4 & s4 & phi4 & E4 & Hi4 & Ev4 & Mt4 & Lt4 & Ok4 & Td4 & K4 & Rp4 & Rf4 & P4 & Y4 & J4).
  { intros k H. apply Hks in H as (c & H & _). eauto. }
  rewrite E4. clear E4. rewrite Id3 in *.
  assert (Ev : levolve self (fun t => phi4 (phi3 t)) (l_db s) (l_db s4)) by (rewrite <- D1; eapply levolve_trans; eauto).
  assert (Hd4 : keeps_doc d d4).
  { destruct K1 as (A1 & A2 & A3 & A4 & A5), K2 as (B1 & B2 & B3 & B4 & B5), K3 as (C1 & C2 & C3 & C4 & C5), K4 as (D1' & D2 & D3 & D4 & D5).
    unfold keeps_doc. repeat split; congruence. }
  assert (Hrefs : forall x, In x (m_refs d4) <-> In x (m_refs d) \/ (In x keys /\ (length x <= 235)%nat)).
  { intros x. rewrite Rf4, X3, R2, Rf1. reflexivity. }
  assert (Hpar : forall r k e, In r keys -> has (l_db s4) k e -> m_id e = canon r -> exists t, tid4 = Some t /\ m_threads e = [t]).
  { intros r k e Hr H Ee. destruct Ev4 as (_ & Ev4 & _). destruct (Ev4 k e H) as (e0 & H0 & S0). destruct S0 as (S1 & _ & _ & _ & _ & _ & S7 & _).
    pose proof (Y3 r k e0 Hr H0 ltac:(congruence)) as T. destruct (l_thread _ s3 Hi3 k e0 H0) as (u & U & _). rewrite U in T.
    destruct tid3 as [v|]; [|discriminate T]. injection T as ->. destruct (P4 v eq_refl) as [-> P]. exists v. split; [reflexivity|]. rewrite S7, U. cbn. now rewrite P. }
  assert (Hchild : forall k e e', has (l_db s) k e -> In self (m_refs e) -> has (l_db s4) k e' -> exists t, tid4 = Some t /\ m_threads e' = [t]).
  { intros k e e' H Hr H'. rewrite <- D1 in H. destruct (Rf3 k e H) as (e3 & H3 & F3).
    assert (Hin : In k ks) by (apply Hks; exists e3; split; [exact H3|now rewrite F3]).
    pose proof (Y4 k e' Hin H') as T. destruct (l_thread _ s4 Hi4 k e' H') as (u & U & _). rewrite U in T. destruct tid4 as [v|]; [|discriminate T].
    exists v. split; [reflexivity|]. now rewrite U, T. }
  assert (Hfound : found = true -> exists t, tid4 = Some t /\ m_threads d = [t] /\ phi4 (phi3 t) = t).
  { intros F. destruct (Fd F) as (t & -> & T). destruct (P3 t eq_refl) as [-> Q3]. destruct (P4 t eq_refl) as [-> Q4]. exists t. rewrite Q3, Q4. auto. }
  assert (HJ : forall R, equivalence R -> just R s -> canon self = self ->
       (found = true -> forall t, tid = Some t -> forall a, lmem s a t -> R a self) -> (forall r, In r keys -> R self (canon r)) ->
       just R s4 /\ tjust R self tid4 s4).
  { intros R Req J Hc Hfd Hr. pose proof Req as (R1' & R2' & R3').
    assert (J1 : just R s1).
    { constructor; [|intros k c x H; rewrite D1 in H; exact (j_ref _ R s J k c x H)]. intros a b u Ha Hb. exact (j_thread _ R s J a b u (Mm _ _ Ha) (Mm _ _ Hb)). }
    assert (TJ1 : tjust R self tid s1).
    { intros t Et a Ha. apply Mm in Ha. destruct found; [exact (Hfd eq_refl t Et a Ha)|]. exact (j_thread _ R s J a self t Ha (Mf eq_refl t Et)). }
    destruct (J3 R R1' R2' R3' J1 TJ1 Hr) as [JJ3 TJ3]. apply J4; auto.
    intros k c Hin Hk. apply Hks in Hin as (c' & H' & Hx). assert (c' = c) by (unfold has in *; congruence). subst c'.
    pose proof (j_ref _ R s3 JJ3 k c self Hk Hx) as Q. rewrite Hc in Q. exact Q. }
  destruct tid4 as [t4|].
  - exists d4, s4, (fun t => phi4 (phi3 t)), t4. split; [reflexivity|]. split; [exact Hi4|]. split; [exact Ev|]. split; [exact Hd4|]. split; [exact Td4|].
    split; [exact (Ok4 t4 eq_refl)|]. split; [intros F; destruct (Hfound F) as (t & [= <-] & A & B); auto|]. split; [exact Hrefs|].
    split; [intros r k e Hr H Ee; destruct (Hpar r k e Hr H Ee) as (t & [= <-] & A); exact A|].
    split; [intros k e e' H Hr H'; destruct (Hchild k e e' H Hr H') as (t & [= <-] & A); exact A|].
    intros R Req J Hc Hfd Hr. destruct (HJ R Req J Hc) as [A B]; auto.
    + intros F t Et a Ha. destruct (Fd F) as (t' & Et' & _). destruct (Hfound F) as (t'' & [= <-] & T'' & _). destruct (Fd F) as (u & Eu & Tu).
      assert (u = t4) by congruence. subst u. assert (t = t4) by congruence. subst t. exact (Hfd F a Ha).
    + split; [exact A|]. exact (B t4 eq_refl).
  - cbn. set (t4 := last_thread (l_db s4) + 1). exists (add_thread t4 d4).
    eexists {| l_db := {| docs := docs (l_db s4); last_doc := last_doc (l_db s4); last_thread := t4 |}; l_meta := l_meta s4 |}, (fun t => phi4 (phi3 t)), t4.
    split; [reflexivity|]. split; [apply linv_bump; auto; [lia|unfold t4; lia|intros id t H; apply (l_mbound _ s4 Hi4) in H; unfold t4; lia]|].
    split. { change (fun t => phi4 (phi3 t)) with (fun t => (fun v => v) ((fun u => phi4 (phi3 u)) t)). eapply levolve_trans; [exact Ev|]. apply evolve_docs; cbn; [reflexivity|reflexivity|unfold t4; lia]. }
    split; [exact Hd4|]. split; [cbn; rewrite Td4; reflexivity|]. split; [cbn; lia|].
    split; [intros F; destruct (Hfound F) as (t & Q & _); discriminate Q|]. split; [exact Hrefs|].
    split; [intros r k e Hr H Ee; destruct (Hpar r k e Hr H Ee) as (t & Q & A); discriminate Q|].
    split; [intros k e e' H Hr H'; destruct (Hchild k e e' H Hr H') as (t & Q & A); discriminate Q|].
    intros R Req J Hc Hfd Hr. destruct (HJ R Req J Hc) as [A B]; auto.
    + intros F t Et a Ha. destruct (Hfound F) as (t'' & Q & _). discriminate Q.
    + split; [constructor; apply A|]. intros a Ha. apply (lmem_bound compressed s4 a t4 Hi4) in Ha. unfold t4 in Ha. lia.
Qed.
End P.
