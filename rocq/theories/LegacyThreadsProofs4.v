(** Proofs for C93, continued: removals keep references and threads. *)
From Verif Require Import Bytes Terms DocMap MsgId MsgIdProofs MailStore MailStoreSpec MailStoreProofs MailStoreProofs2 LegacyThreads LegacyThreadsProofs LegacyThreadsProofs2 LegacyThreadsProofs3.
Local Open Scope N_scope.

Section P.
Variable compressed : bytes -> bytes.
Hypothesis compressed_short : forall s, (length (compressed s) <= 189)%nat.
Notation canon := (canon compressed).
Notation linv := (linv compressed).

Definition no_ghost_files (s : ldb) : Prop := forall k d, has (l_db s) k d -> m_ghost d = true -> m_files d = [].

Lemma message_delete_full k d0 d t s0 : linv s0 -> has (l_db s0) k d0 -> m_ghost d = false -> m_id d = m_id d0 -> m_threads d = [t] -> m_threads d0 = [t] ->
  exists s', message_delete compressed k d (l_db s0) = Some s' /\
  ((exists k1 e, has (l_db s0) k1 e /\ k1 <> k /\ m_ghost e = false /\ m_threads e = [t]) /\
     (forall j e, has s' j e <-> (j = last_doc (l_db s0) + 1 /\ e = initialize_ghost t (blank_doc (m_id d))) \/ (j <> k /\ has (l_db s0) j e))
   \/
   (forall k1 e, has (l_db s0) k1 e -> k1 <> k -> m_threads e = [t] -> m_ghost e = true) /\
     (forall j e, has s' j e <-> has (l_db s0) j e /\ m_threads e <> [t])).
Proof.
  intros Hi H0 Hg Eid T T0. set (s := l_db s0) in *. unfold message_delete, get_thread_id. rewrite T, Hg.
  set (s1 := set_docs (ddel k (docs s)) s).
  assert (H1 : forall j e, has s1 j e <-> j <> k /\ has s j e).
  { intros j e. unfold has, s1. cbn. rewrite dget_ddel. destruct (N.eqb_spec j k); [split; [discriminate|tauto]|tauto]. }
  assert (Hs1 : ksorted (docs s1)) by (apply ddel_sorted, Hi).
  set (td := doc_ids (in_thread t) s1). set (md := doc_ids (fun d => negb (m_ghost d)) s1).
  assert (It : forall j e, has s j e -> (in_thread t e = true <-> m_threads e = [t])).
  { intros j e H. destruct (l_thread _ s0 Hi j e H) as (t' & E & _). unfold in_thread. rewrite E. cbn. rewrite orb_false_r. rewrite N.eqb_eq. split; [now intros ->|now intros [=]]. }
  destruct (common_doc_spec (S (length td)) td md (doc_ids_sorted _ _ Hs1) (doc_ids_sorted _ _ Hs1)) as (r & Er & Hr); [left; lia|].
  rewrite Er. destruct r.
  - destruct (proj1 Hr eq_refl) as (k1 & Hk1 & Hk2).
    apply (doc_ids_In _ _ _ Hs1) in Hk1 as (e & He1 & He2). apply (doc_ids_In _ _ _ Hs1) in Hk2 as (e' & He1' & He2').
    assert (e' = e) by (unfold has in *; congruence). subst e'. apply H1 in He1 as [Hk He].
    apply (It k1 e He) in He2. apply negb_true_iff in He2'.
    assert (Hno : forall j e, has s1 j e -> m_id e <> m_id d).
    { intros j e2 H E. apply H1 in H as [Hne H]. apply Hne. apply (l_unique _ s0 Hi j e2 k d0 H H0). congruence. }
    assert (Hc : canon (m_id d) = m_id d) by (rewrite Eid; exact (l_canon _ s0 Hi k d0 H0)).
    unfold create_for_message_id. pose proof (find_message_spec compressed (m_id d) s1 Hs1) as F. rewrite Hc in *.
    destruct (find_message compressed (m_id d) s1) as [[k2 d2]|]; [destruct F as [F1 F2]; exfalso; now apply (Hno k2 d2 F1)|].
    cbn [last_doc docs last_thread s1 set_docs]. eexists. split; [reflexivity|].
    set (s2 := {| docs := ddel k (docs s); last_doc := last_doc s + 1; last_thread := last_thread s |}).
    set (g := initialize_ghost t (blank_doc (m_id d))).
    assert (HH : forall j e, has (sync (last_doc s + 1) g s2) j e <-> (j = last_doc s + 1 /\ e = g) \/ (j <> k /\ has s j e)).
    { intros j e2. rewrite has_sync. unfold s2. change (has {| docs := ddel k (docs s); last_doc := last_doc s + 1; last_thread := last_thread s |} j e2) with (has s1 j e2).
      rewrite H1. split; [tauto|]. intros [X|[X1 X2]]; [auto|]. right. split; [|auto]. apply (l_last _ s0 Hi) in X2. fold s in X2. lia. }
        left. split; [exists k1, e; auto|exact HH].
  - eexists. split; [reflexivity|].
    assert (HH : forall j e, has (set_docs (fold_left (fun m k => ddel k m) td (docs s1)) s1) j e <-> has s j e /\ m_threads e <> [t]).
    { intros j e. unfold has at 1. cbn [set_docs docs]. rewrite fold_ddel_get. destruct (existsb (N.eqb j) td) eqn:Ex.
      - split; [discriminate|]. intros [X1 X2]. exfalso. apply X2. apply existsb_exists in Ex as (j' & Hin & Ej). apply N.eqb_eq in Ej as <-.
        apply (doc_ids_In _ _ _ Hs1) in Hin as (e' & X3 & X4). apply H1 in X3 as [_ X3]. assert (e' = e) by (unfold has in *; congruence). subst e'. now apply (It j e X1).
      - change (dget j (docs s1) = Some e) with (has s1 j e). rewrite H1.
        assert (Hno : forall e, j <> k -> has s j e -> m_threads e <> [t]).
        { intros e1 Hne He X. apply (It j e1 He) in X. assert (Y : existsb (N.eqb j) td = true).
          { apply existsb_exists. exists j. split; [|apply N.eqb_refl]. apply (doc_ids_In _ _ _ Hs1). exists e1. split; [apply H1; auto|exact X]. }
          congruence. }
        split; [intros [X1 X2]; split; [exact X2|now apply Hno]|]. intros [X1 X2]. split; [|exact X1]. intros ->.
        assert (e = d0) by (unfold has in *; congruence). subst e. congruence. }
        right. split; [|exact HH]. intros k1 e H Hne Te. destruct (m_ghost e) eqn:Eg; [reflexivity|]. exfalso.
      assert (X : false = true); [|discriminate]. apply Hr. exists k1. split; apply (doc_ids_In _ _ _ Hs1); exists e; (split; [apply H1; auto|]).
      * now apply (It k1 e H).
      * now rewrite Eg.
Qed.

Lemma remove_full name s st db : linv s -> no_ghost_files s -> remove_message compressed name (l_db s) = Some (st, db) ->
  db = l_db s \/ exists k d t, has (l_db s) k d /\ m_ghost d = false /\ m_threads d = [t] /\
   ((exists fs, forall j e, has db j e <-> (j = k /\ e = set_files fs d) \/ (j <> k /\ has (l_db s) j e)) \/
    (forall j e, has db j e <-> (j = last_doc (l_db s) + 1 /\ e = initialize_ghost t (blank_doc (m_id d))) \/ (j <> k /\ has (l_db s) j e)) \/
    (forall j e, has db j e <-> has (l_db s) j e /\ m_threads e <> [t])).
Proof.
  intros Hi Hg. unfold remove_message, find_by_filename. pose proof (find_spec (fun kd => existsb (bseq name) (m_files (snd kd))) (docs (l_db s))) as F.
  destruct (find _ (docs (l_db s))) as [[k d]|]; [|intros [= <- <-]; auto].
  destruct F as [F1 F2]. cbn in F2. apply existsb_bseq in F2. apply (In_dget_sorted _ _ _ (l_sorted _ s Hi)) in F1. fold (has (l_db s) k d) in F1.
  destruct (l_thread _ s Hi k d F1) as (t & T & Lt).
  assert (Gd : m_ghost d = false).
  { destruct (m_ghost d) eqn:G; [|reflexivity]. rewrite (Hg k d F1 G) in F2. destruct F2. }
  destruct (Nat.ltb 1 (length (m_files d))).
  - set (d1 := set_files (brem name (m_files d)) d). destruct (m_files d1).
    + destruct (message_delete_full k d d1 t s Hi F1 Gd eq_refl T T) as (s' & E & D). rewrite E. intros [= <- <-]. right. exists k, d, t.
      split; [exact F1|]. split; [exact Gd|]. split; [exact T|]. destruct D as [[_ D]|[_ D]]; auto.
    + intros [= <- <-]. right. exists k, d, t. split; [exact F1|]. split; [exact Gd|]. split; [exact T|]. left. exists (brem name (m_files d)). intros j e'. now rewrite has_sync.
  - destruct (message_delete_full k d d t s Hi F1 Gd eq_refl T T) as (s' & E & D). rewrite E. intros [= <- <-]. right. exists k, d, t.
    split; [exact F1|]. split; [exact Gd|]. split; [exact T|]. destruct D as [[_ D]|[_ D]]; auto.
Qed.

Lemma step_no_ghost_files o s st s' : linv s -> no_ghost_files s -> lstep compressed o s = Some (st, s') -> no_ghost_files s'.
Proof.
  intros Hi Hg E. destruct o as [name f keys ok|name|id tags]; cbn [lstep] in E.
  - destruct (index_file_old_spec compressed compressed_short name f keys ok s Hi) as (st1 & s1 & phi & t & E1 & Hi1 & FW & BW & A & _).
    rewrite E in E1. injection E1 as <- <-. intros k d H G.
    assert (Q : ok = false \/ m_id d <> canon (f_id f)).
    { destruct ok; [right|auto]. intros Ed. destruct (A eq_refl) as ((kn & dn & Hn & In_ & Gn & _) & _).
      assert (k = kn) by (apply (l_unique _ s' Hi1 k d kn dn H Hn); congruence). subst kn. assert (dn = d) by (unfold has in *; congruence). congruence. }
    destruct (BW k d H) as [(d0 & H0 & I0)|[Eo Ed]]; [|destruct Q as [Q|Q]; [congruence|contradiction]].
    destruct (FW k d0 H0) as (d1 & H1 & I1 & _ & _ & O). assert (d1 = d) by (unfold has in *; congruence). subst d1.
    rewrite I0 in Q. destruct (O Q) as (O1 & O2 & _). rewrite O2. apply (Hg k d0 H0). congruence.
  - destruct (remove_message compressed name (l_db s)) as [[st1 db]|] eqn:R; [|discriminate]. injection E as <- <-.
    destruct (remove_full name s st1 db Hi Hg R) as [->|(k & d & t & H & Gd & T & [[fs D]|[D|D]])]; intros j e He G; cbn in He; [exact (Hg j e He G)| | |].
    + apply D in He as [[-> ->]|[_ He]]; [cbn in G; congruence|exact (Hg j e He G)].
    + apply D in He as [[-> ->]|[_ He]]; [reflexivity|exact (Hg j e He G)].
    + apply D in He as [He _]. exact (Hg j e He G).
  - injection E as <- <-. destruct (retag_old_spec compressed id tags s Hi) as [_ F]. intros j e He G. apply F in He as (e0 & H0 & ->).
    destruct (bseq (m_id e0) (canon id)); exact (Hg j e0 H0 G).
Qed.
Lemma run_no_ghost_files h : forall s s', linv s -> no_ghost_files s -> lrun compressed h s = Some s' -> no_ghost_files s'.
Proof.
  induction h as [|o h IH]; intros s s' Hi Hg E; [injection E as <-; exact Hg|]. cbn [lrun] in E.
  destruct (lstep_inv compressed compressed_short o s Hi) as (st & s1 & E1 & Hi1 & _). rewrite E1 in E. apply (IH s1 s' Hi1); [exact (step_no_ghost_files o s st s1 Hi Hg E1)|exact E].
Qed.

Lemma linked_remove name s st s' a r : linv s -> no_ghost_files s -> lstep compressed (ORemove name) s = Some (st, s') -> is_mail (l_db s') a -> linked s a r -> linked s' a r.
Proof.
  intros Hi Hg E (ka & da & Ha & Ia & Ga) (k0 & d0 & H0 & I0 & L). cbn [lstep] in E.
  destruct (remove_message compressed name (l_db s)) as [[st1 db]|] eqn:R; [|discriminate]. injection E as <- <-. cbn in Ha.
  assert (U : forall j e, has (l_db s) j e -> m_id e = a -> j = k0 /\ e = d0).
  { intros j e H Ee. assert (j = k0) by (apply (l_unique _ s Hi j e k0 d0 H H0); congruence). subst j. split; [reflexivity|]. unfold has in *. congruence. }
  destruct (remove_full name s st1 db Hi Hg R) as [->|(k & d & t & H & Gd & T & [[fs D]|[D|D]])].
  - exists k0, d0. auto.
  - exists k0. destruct (N.eq_dec k0 k) as [->|Hne].
    + assert (d0 = d) by (unfold has in *; congruence). subst d0. exists (set_files fs d). split; [apply D; auto|]. split; [exact I0|].
      destruct L as [(k' & d' & H' & Ir & Tr)|[Hno Hr]].
      * left. destruct (N.eq_dec k' k) as [->|Hk]; [exists k, (set_files fs d); split; [apply D; auto|]; assert (d' = d) by (unfold has in *; congruence); subst d'; auto|].
        exists k', d'. split; [apply D; auto|auto].
      * right. split; [|exact Hr]. intros k' d' H' Ed. apply D in H' as [[-> ->]|[_ H']]; [exact (Hno k d H Ed)|exact (Hno k' d' H' Ed)].
    + exists d0. split; [apply D; auto|]. split; [exact I0|]. destruct L as [(k' & d' & H' & Ir & Tr)|[Hno Hr]].
      * left. destruct (N.eq_dec k' k) as [->|Hk]; [exists k, (set_files fs d); split; [apply D; auto|]; assert (d' = d) by (unfold has in *; congruence); subst d'; auto|].
        exists k', d'. split; [apply D; auto|auto].
      * right. split; [|exact Hr]. intros k' d' H' Ed. apply D in H' as [[-> ->]|[_ H']]; [exact (Hno k d H Ed)|exact (Hno k' d' H' Ed)].
  - apply D in Ha as [[-> ->]|[Hne Ha]]; [discriminate Ga|]. destruct (U ka da Ha Ia) as [-> ->].
    exists k0, d0. split; [apply D; auto|]. split; [exact I0|]. destruct L as [(k' & d' & H' & Ir & Tr)|[Hno Hr]].
    + left. destruct (N.eq_dec k' k) as [->|Hk]; [|exists k', d'; split; [apply D; auto|auto]].
      assert (d' = d) by (unfold has in *; congruence). subst d'. eexists _, _. split; [apply D; left; split; reflexivity|]. split; [exact Ir|]. cbn. congruence.
    + right. split; [|exact Hr]. intros k' d' H' Ed. apply D in H' as [[-> ->]|[_ H']]; [exact (Hno k d H Ed)|exact (Hno k' d' H' Ed)].
  - apply D in Ha as [Ha Ta]. destruct (U ka da Ha Ia) as [-> ->]. exists k0, d0. split; [apply D; auto|]. split; [exact I0|].
    destruct L as [(k' & d' & H' & Ir & Tr)|[Hno Hr]].
    + left. exists k', d'. split; [apply D; split; [exact H'|congruence]|auto].
    + right. split; [|exact Hr]. intros k' d' H' Ed. apply D in H' as [H' _]. exact (Hno k' d' H' Ed).
Qed.
End P.
