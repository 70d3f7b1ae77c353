(** Properties C17-C21: adding and removing messages, threads
    (lib/add-message.cc, lib/message.cc, lib/database.cc). *)
From Verif Require Import Bytes DocMap MsgId MsgIdSpec MsgIdProofs MailStore MailStoreSpec MailStoreProofs MailStoreProofs2 MailStoreProofs3 P_MsgId.
From Coq Require Import Relations Permutation.
Local Open Scope N_scope.

(** The only assumption on the hash of long ids: its result is short ("notmuch-sha1-"
    and 40 digits). *)
Definition short_hash (compressed : bytes -> bytes) : Prop := forall s, (length (compressed s) <= 189)%nat.

(** No legal history makes the library abort for a message without thread id. *)
Theorem C17_no_abort :
  forall compressed h, short_hash compressed -> Forall (legal compressed) h -> exists s, mrun compressed h empty_db = Some s.
Proof.
  intros c h Hc Hl. destruct (mrun_inv c Hc h empty_db (inv_empty c) Hl) as (s & E & _). eauto.
Qed.
Print Assumptions C17_no_abort.

(** Once a file has been added, its message shares its thread with every message the
    file refers to - known, unknown, deleted or added later - for as long as the
    message stays in the database, whatever else happens. *)
Theorem C17_referenced_messages_share_the_thread :
  forall compressed h1 name f keys h2 s1 st s2, short_hash compressed ->
  Forall (legal compressed) (h1 ++ OAdd name f keys true :: h2) ->
  mrun compressed h1 empty_db = Some s1 -> mstep compressed (OAdd name f keys true) s1 = Some (st, s2) ->
  stays compressed (stored compressed (f_id f)) s2 h2 ->
  exists s3, mrun compressed h2 s2 = Some s3 /\
    forall r, In r keys -> same_thread s3 (stored compressed r) (stored compressed (f_id f)).
Proof.
  intros c h1 name f keys h2 s1 st s2 Hc Hl E1 E2 Hst. apply Forall_app in Hl as [Hl1 Hl]. apply Forall_cons_iff in Hl as [Ho Hl2].
  destruct (mrun_inv c Hc h1 empty_db (inv_empty c) Hl1) as (s1' & E1' & Hi1 & _). rewrite E1 in E1'. injection E1' as <-.
  destruct (mstep_inv c Hc _ s1 Hi1 Ho) as (st' & s2' & E2' & Hi2 & _). rewrite E2 in E2'. injection E2' as <- <-.
  destruct (add_links c Hc name f keys s1 st s2 Hi1 Ho E2) as (Hm & Hk).
  destruct (mrun_inv c Hc h2 s2 Hi2 Hl2) as (s3 & E3 & Hi3 & _). exists s3. split; [exact E3|]. intros r Hr.
  destruct (keep c Hc h2 s2 (canon c r) (canon c (f_id f)) Hi2 Hl2 (Hk r Hr) Hst) as (s3' & E3' & X & _). rewrite E3 in E3'. injection E3' as <-. exact X.
Qed.
Print Assumptions C17_referenced_messages_share_the_thread.

(** The references recorded in the database always lead to the same thread. *)
Theorem C17_recorded_references :
  forall compressed h s, short_hash compressed -> Forall (legal compressed) h -> mrun compressed h empty_db = Some s ->
  forall k d r, has s k d -> In r (m_refs d) -> same_thread s (stored compressed r) (m_id d).
Proof.
  intros c h s Hc Hl E k d r H Hr. destruct (mrun_inv c Hc h empty_db (inv_empty c) Hl) as (s' & E' & Hi & _). rewrite E in E'. injection E' as <-.
  destruct (i_refs c s Hi k d r H Hr) as (k' & d' & H' & Ei & T). destruct (i_thread c s Hi k d H) as (t & Et & _).
  exists t. split; [exists k', d'|exists k, d]; (split; [assumption|]); (split; [try assumption; reflexivity|]); [rewrite T|]; rewrite Et; now left.
Qed.
Print Assumptions C17_recorded_references.

(** C18: two messages share a thread only if they are connected through references of
    files that were added, in every history with additions, removals and failures. *)
Theorem C18_only_connected_messages_share_a_thread :
  forall compressed h s, short_hash compressed -> Forall (legal compressed) h -> mrun compressed h empty_db = Some s ->
  forall a b, same_thread s a b -> connected compressed h a b.
Proof.
  intros c h s Hc Hl E a b (t & (k & d & H & Ei & T) & (k' & d' & H' & Ei' & T')).
  destruct (mrun_inv c Hc h empty_db (inv_empty c) Hl) as (s' & E' & Hi & _). rewrite E in E'. injection E' as <-.
  assert (S : sound (connected c h) s).
  { apply (mrun_sound c Hc (connected c h)) with (h := h) (s := empty_db).
    - intros x. apply rst_refl.
    - intros x y. apply rst_sym.
    - intros x y z. apply rst_trans.
    - apply inv_empty.
    - intros k0 d0 k1 d1 t0 X. discriminate.
    - exact Hl.
    - intros n f ks ok r H1 H2. apply rst_step. exists n, f, ks, ok, r. auto.
    - exact E. }
  subst a b. apply (S k d k' d' t H H'); [now apply (thread_single c s k)|now apply (thread_single c s k')].
Qed.
Print Assumptions C18_only_connected_messages_share_a_thread.

(** Threads are exactly the connected components, for histories of successful
    additions, whatever their order. *)
Definition mentioned (compressed : bytes -> bytes) (h : list mop) (a : bytes) : Prop :=
  exists name f keys ok, In (OAdd name f keys ok) h /\ (a = stored compressed (f_id f) \/ exists r, In r keys /\ a = stored compressed r).
Theorem C18_threads_are_the_connected_components :
  forall compressed h s, short_hash compressed -> Forall (legal compressed) h -> adds_only h -> mrun compressed h empty_db = Some s ->
  forall a b, mentioned compressed h a -> mentioned compressed h b -> (same_thread s a b <-> connected compressed h a b).
Proof.
  intros c h s Hc Hl Ha E.
  destruct (mrun_inv c Hc h empty_db (inv_empty c) Hl) as (s' & E' & Hi & _). rewrite E in E'. injection E' as <-.
  assert (L : forall name f keys ok, In (OAdd name f keys ok) h -> is_mail s (canon c (f_id f)) /\ forall r, In r keys -> same_thread s (canon c r) (canon c (f_id f))).
  { intros name f keys ok Hin. apply in_split in Hin as (h1 & h2 & ->). apply Forall_app in Hl as [Hl1 Hl]. apply Forall_cons_iff in Hl as [Ho Hl2].
    unfold adds_only in Ha. apply Forall_app in Ha as [Ha1 Ha]. apply Forall_cons_iff in Ha as [Hao Ha2]. cbn in Hao. subst ok.
    rewrite mrun_app in E. destruct (mrun_inv c Hc h1 empty_db (inv_empty c) Hl1) as (s1 & E1 & Hi1 & _). rewrite E1 in E. cbn [mrun] in E.
    destruct (mstep_inv c Hc _ s1 Hi1 Ho) as (st & s2 & E2 & Hi2 & _). rewrite E2 in E.
    destruct (add_links c Hc name f keys s1 st s2 Hi1 Ho E2) as (Hm & Hk).
    pose proof (adds_stay c Hc h2 s2 _ Hi2 Hl2 Ha2 Hm) as Hst. split.
    - clear - Hst E. revert s2 Hst E. induction h2 as [|o h2 IH]; intros s2 Hst E; cbn in *; [injection E as <-; apply Hst|].
      destruct (mstep c o s2) as [[st s3]|]; [|discriminate]. apply (IH s3); [apply Hst|exact E].
    - intros r Hr. destruct (keep c Hc h2 s2 _ _ Hi2 Hl2 (Hk r Hr) Hst) as (s3 & E3 & X & _). rewrite E in E3. injection E3 as <-. exact X. }
  assert (Self : forall a, mentioned c h a -> same_thread s a a).
  { intros a (name & f & keys & ok & Hin & D). destruct (L name f keys ok Hin) as (Lm & Lk). destruct D as [->|(r & Hr & ->)].
    - destruct Lm as (k & d & H & Ei & _). destruct (i_thread c s Hi k d H) as (t & T & _).
      exists t. split; exists k, d; (split; [exact H|]); (split; [exact Ei|]); rewrite T; now left.
    - destruct (Lk r Hr) as (t & A & _). exists t. auto. }
  assert (X : forall a b, connected c h a b -> a = b \/ same_thread s a b).
  { intros a b Hab. induction Hab as [a b (name & f & keys & ok & r & Hin & -> & Hr & ->)|a|a b _ IH|a b d _ IH1 _ IH2].
    - right. apply same_thread_sym. now apply (L name f keys ok Hin).
    - now left.
    - destruct IH as [->|IH]; [now left|right; now apply same_thread_sym].
    - destruct IH1 as [->|IH1], IH2 as [->|IH2]; auto. right. eapply same_thread_trans; eauto. }
  intros a b Hma Hmb. split.
  - now apply (C18_only_connected_messages_share_a_thread c h s Hc Hl E).
  - intros H. destruct (X a b H) as [->|Y]; [now apply Self|exact Y].
Qed.
Print Assumptions C18_threads_are_the_connected_components.
(** Hence the arrival order does not matter. *)
Theorem C18_order_independent :
  forall compressed h h' s s', short_hash compressed -> Permutation h h' ->
  Forall (legal compressed) h -> adds_only h -> mrun compressed h empty_db = Some s -> mrun compressed h' empty_db = Some s' ->
  forall a b, mentioned compressed h a -> mentioned compressed h b -> (same_thread s a b <-> same_thread s' a b).
Proof.
  intros c h h' s s' Hc Hp Hl Ha E E' a b Hma Hmb.
  assert (Hl' : Forall (legal c) h') by (eapply Permutation_Forall; eauto).
  assert (Ha' : adds_only h') by (unfold adds_only in *; eapply Permutation_Forall; eauto).
  assert (M : forall x, mentioned c h x -> mentioned c h' x).
  { intros x (n & f & ks & ok & Hin & D). exists n, f, ks, ok. split; [eapply Permutation_in; eauto|exact D]. }
  rewrite (C18_threads_are_the_connected_components c h s Hc Hl Ha E a b Hma Hmb).
  rewrite (C18_threads_are_the_connected_components c h' s' Hc Hl' Ha' E' a b (M a Hma) (M b Hmb)).
  assert (Rf : forall g g', Permutation g g' -> forall x y, connected c g x y -> connected c g' x y).
  { intros g g' Hg x y H. induction H as [x y (n & f & ks & ok & r & Hin & D)|x|x y _ IH|x y z _ IH1 _ IH2].
    - apply rst_step. exists n, f, ks, ok, r. split; [eapply Permutation_in; eauto|exact D].
    - apply rst_refl.
    - now apply rst_sym.
    - eapply rst_trans; eauto. }
  split; [now apply Rf|apply Rf; now apply Permutation_sym].
Qed.
Print Assumptions C18_order_independent.

(** A concrete legal history: a reply, then its grandchild, then the root. *)
Definition ex_hash (_ : bytes) : bytes := lit "notmuch-sha1-0".
Definition ex_file (id refs : string) : mfile := {| f_id := lit id; f_references := lit refs; f_in_reply_to := []; f_auto_tags := [] |}.
Definition ex_history : list mop :=
  [OAdd (lit "1") (ex_file "b@x" "<a@x>") [lit "a@x"] true;
   OAdd (lit "2") (ex_file "d@x" "<c@x>") [lit "c@x"] true;
   OAdd (lit "3") (ex_file "c@x" "<b@x> <a@x>") [lit "b@x"; lit "a@x"] true;
   OAdd (lit "4") (ex_file "a@x" "") [] true].
Example C17_example_legal : Forall (legal ex_hash) ex_history /\ adds_only ex_history /\ short_hash ex_hash.
Proof.
  split; [|split].
  - repeat constructor; cbn; try (apply Permutation_refl); try (intros X; exfalso; repeat apply le_S_n in X; now inversion X).
  - repeat constructor.
  - intros s. cbn. lia.
Qed.
Example C17_example_runs : exists s, mrun ex_hash ex_history empty_db = Some s /\
  same_thread s (lit "a@x") (lit "d@x") /\ is_mail s (lit "a@x").
Proof.
  eexists. split; [vm_compute; reflexivity|]. split.
  - exists 2. split; [exists 2|exists 3]; (eexists; split; [vm_compute; reflexivity|split; [reflexivity|left; reflexivity]]).
  - exists 2. eexists. split; [vm_compute; reflexivity|]. split; reflexivity.
Qed.

(** C19: at every point of every history message ids are unique and every document,
    message or placeholder, has exactly one thread id. *)
Theorem C19_unique_ids_one_thread :
  forall compressed h s, short_hash compressed -> Forall (legal compressed) h -> mrun compressed h empty_db = Some s ->
  (forall k d k' d', has s k d -> has s k' d' -> m_id d = m_id d' -> k = k') /\
  (forall k d, has s k d -> exists t, m_threads d = [t]) /\
  (forall k d, has s k d -> (m_ghost d = false <-> m_files d <> [])).
Proof.
  intros c h s Hc Hl E. destruct (mrun_inv c Hc h empty_db (inv_empty c) Hl) as (s' & E' & Hi & _). rewrite E in E'. injection E' as <-.
  split; [apply (i_unique c s Hi)|]. split.
  - intros k d H. destruct (i_thread c s Hi k d H) as (t & T & _). eauto.
  - intros k d H. pose proof (i_files c s Hi k d H) as F. destruct (m_ghost d); [destruct F as [-> _]|]; split; congruence.
Qed.
Print Assumptions C19_unique_ids_one_thread.
(** Document ids are never given to another message, and a thread id that is no longer
    used never comes back. *)
Theorem C19_ids_never_reused :
  forall compressed h1 h2 h3 s1 s2 s3, short_hash compressed -> Forall (legal compressed) (h1 ++ h2 ++ h3) ->
  mrun compressed h1 empty_db = Some s1 -> mrun compressed h2 s1 = Some s2 -> mrun compressed h3 s2 = Some s3 ->
  (forall k d d', has s1 k d -> has s3 k d' -> m_id d = m_id d') /\
  (forall k d, has s1 k d -> (forall d', ~ has s2 k d') -> forall d', ~ has s3 k d') /\
  (forall id t, thread_of s1 id t -> (forall id', ~ thread_of s2 id' t) -> forall id', ~ thread_of s3 id' t).
Proof.
  intros c h1 h2 h3 s1 s2 s3 Hc Hl E1 E2 E3. apply Forall_app in Hl as [Hl1 Hl]. apply Forall_app in Hl as [Hl2 Hl3].
  destruct (mrun_inv c Hc h1 empty_db (inv_empty c) Hl1) as (s & E & Hi1 & _). rewrite E1 in E. injection E as <-.
  destruct (mrun_inv c Hc h2 s1 Hi1 Hl2) as (s & E & Hi2 & _). rewrite E2 in E. injection E as <-.
  pose proof (mrun_old c Hc h2 s1 s2 Hi1 Hl2 E2) as O12. pose proof (mrun_old c Hc h3 s2 s3 Hi2 Hl3 E3) as O23.
  pose proof (old_ids_trans _ _ _ O12 O23) as (_ & _ & A & B). destruct O12 as (L1 & L2 & _). destruct O23 as (_ & _ & A2 & B2). split; [|split].
  - intros k d d' H H'. destruct (A k d' H') as (e & He & Ee); [exact (i_last c s1 Hi1 k d H)|]. unfold has in *. rewrite H in He. injection He as <-. exact Ee.
  - intros k d H Hn d' H'. destruct (A2 k d' H') as (e & He & _); [pose proof (i_last c s1 Hi1 k d H); lia|]. now apply (Hn e).
  - intros id t (k & d & H & _ & T) Hn id' H'. destruct (B2 id' t H') as (i & Hx); [|now apply (Hn i)].
    destruct (i_thread c s1 Hi1 k d H) as (t' & T' & L). rewrite T' in T. destruct T as [->|[]]. lia.
Qed.
Print Assumptions C19_ids_never_reused.
(** Adding a file with a known message id adds the name to that message, reports a
    duplicate, and keeps its other names, tags and properties; adding a file with an
    unknown id, or one known only as a placeholder, reports success. *)
Theorem C19_duplicate_is_reported_and_merged :
  forall compressed h s name f keys, short_hash compressed -> Forall (legal compressed) (h ++ [OAdd name f keys true]) ->
  mrun compressed h empty_db = Some s ->
  exists st s' k' d', mstep compressed (OAdd name f keys true) s = Some (st, s') /\
    (st = M_duplicate <-> is_mail s (stored compressed (f_id f))) /\ (st = M_success <-> ~ is_mail s (stored compressed (f_id f))) /\
    has s' k' d' /\ m_id d' = stored compressed (f_id f) /\ m_ghost d' = false /\ In name (m_files d') /\
    forall k d, has s k d -> m_id d = stored compressed (f_id f) ->
      k = k' /\ (forall n, In n (m_files d') <-> n = name \/ In n (m_files d)) /\
      (forall t, In t (m_tags d') <-> In t (m_tags d) \/ In t (f_auto_tags f)) /\ m_props d' = m_props d.
Proof.
  intros c h s name f keys Hc Hl E. apply Forall_app in Hl as [Hl Ho]. apply Forall_inv in Ho.
  destruct (mrun_inv c Hc h empty_db (inv_empty c) Hl) as (s0 & E0 & Hi & _). rewrite E in E0. injection E0 as <-.
  destruct (index_file_spec c Hc name f keys true s Hi (legal_self c _ _ _ _ Ho)) as (st & s' & phi & t & Es & Hi' & Hev & CF & _ & Hself & _ & _ & Est).
  destruct (Hself eq_refl) as (k' & d' & H' & Ei' & Hg' & T' & Hn' & _ & Hfiles & Htags & Hauto).
  exists st, s', k', d'. split; [exact Es|].
  assert (M : existsb (fun kd => bseq (m_id (snd kd)) (canon c (f_id f)) && negb (m_ghost (snd kd))) (docs s) = true <-> is_mail s (stored c (f_id f))).
  { rewrite existsb_exists. split.
    - intros ([k d] & Hin & Hp). cbn in Hp. apply andb_true_iff in Hp as [Hp1 Hp2]. apply bseq_eq in Hp1. apply negb_true_iff in Hp2.
      exists k, d. split; [apply In_dget_sorted; [apply Hi|exact Hin]|auto].
    - intros (k & d & H & E1 & E2). exists (k, d). split; [now apply dget_In|]. cbn. rewrite E1, E2. unfold stored. now rewrite bseq_refl. }
  rewrite <- M, Est. split; [destruct (existsb _ _); split; congruence|]. split; [destruct (existsb _ _); split; congruence|].
  split; [exact H'|]. split; [exact Ei'|]. split; [exact Hg'|]. split; [exact Hn'|].
  intros k d H Ei. destruct (Hev k d H) as (e & X1 & X2 & X3 & X4 & X5 & X6 & X7 & X8 & X9).
  assert (k = k') by (apply (i_unique c s' Hi' k e k' d' X1 H'); unfold stored in Ei; congruence). subst k'.
  assert (e = d') by (unfold has in *; congruence). subst e. split; [reflexivity|]. split; [|split; [|exact X9]].
  - intros n. split; [|intros [->|Hn]; [exact Hn'|now apply X7]]. intros Hn. apply Hfiles in Hn as [Hn|(d0 & Hd0 & Hn)]; [auto|].
    assert (d0 = d) by (unfold has in *; congruence). subst d0. auto.
  - intros g. split; [|intros [Hg|Hg]; [now apply X6|now apply Hauto]]. intros Hg. apply Htags in Hg as [Hg|(d0 & Hd0 & Hg)]; [auto|].
    assert (d0 = d) by (unfold has in *; congruence). subst d0. auto.
Qed.
Print Assumptions C19_duplicate_is_reported_and_merged.

(** Without the restriction on long self-references uniqueness fails: a message whose
    id is longer than 189 bytes and which refers to itself gets a placeholder with its
    own id beside it. *)
Theorem C19_long_self_reference_refuted :
  forall compressed id, short_hash compressed -> regular_id id -> (189 < length id)%nat ->
  exists f keys s k d k' d', f_id f = id /\ Permutation keys (fst (file_parents (stored compressed id) f)) /\
    mrun compressed [OAdd (lit "file") f keys true] empty_db = Some s /\
    has s k d /\ has s k' d' /\ m_id d = m_id d' /\ k <> k' /\ m_ghost d = false /\ m_ghost d' = true.
Proof.
  intros c id Hc Hr Hl. set (f := {| f_id := id; f_references := "<"%char :: id ++ [">"%char]; f_in_reply_to := []; f_auto_tags := [] |}).
  assert (Ec : canon c id = c id).
  { unfold canon, NOTMUCH_MESSAGE_ID_MAX. destruct (Nat.ltb_spec 189 (length id)); [reflexivity|lia]. }
  assert (N : id <> c id) by (intros X; specialize (Hc id); rewrite <- X in Hc; lia).
  assert (Hd : header [id] ("<"%char :: id ++ [">"%char])).
  { apply (hd_id [] [] [] id [] []); [constructor|split; [intros []|exact I]|constructor|exact Hr|]. apply (hd_end [] []); [constructor|]. split; [intros []|exact I]. }
  assert (P : fst (file_parents (stored c id) f) = [id]).
  { unfold file_parents, read_parents, f, stored. cbn [f_references f_in_reply_to]. rewrite !parse_references_eq, (ids_of_regular_header _ _ Hd), Ec. cbn.
    unfold hadds, hadd. cbn. rewrite (proj2 (bseq_neq id (c id)) N). reflexivity. }
  exists f, [id]. unfold mrun, mstep, index_file, create_for_message_id, find_message. cbn [docs empty_db find f_id f]. rewrite Ec. cbn [last_doc last_thread negb andb orb].
  unfold link_message, link_to_parents. cbn [andb]. unfold link_keys, resolve, create_for_message_id, find_message. cbn [docs find last_doc last_thread generate_thread_id]. rewrite Ec.
  cbn. eexists _, 1, _, 2, _. split; [reflexivity|]. split; [rewrite P; apply Permutation_refl|]. split; [reflexivity|].
  split; [reflexivity|]. split; [reflexivity|].
  unfold add_replyto, add_reference. destruct (snd _) as [x|]; [destruct (Nat.leb _ _)|]; cbn; (destruct (Nat.leb _ _) || idtac); cbn; auto 10; repeat split; discriminate.
Qed.
Print Assumptions C19_long_self_reference_refuted.

(** C20: removing the last file of a message.  Every other message stays exactly as it
    is; if another message of the thread remains, a placeholder keeps the place of the
    removed one in the same thread; otherwise no trace of the thread is left. *)
Theorem C20_removal_does_not_disturb_the_rest :
  forall compressed h s k d t name, short_hash compressed -> Forall (legal compressed) h -> mrun compressed h empty_db = Some s ->
  has s k d -> m_files d = [name] -> m_threads d = [t] ->
  (forall k' d', has s k' d' -> In name (m_files d') -> k' = k) ->
  exists s', mstep compressed (ORemove name) s = Some (M_success, s') /\
    ~ is_mail s' (m_id d) /\
    (forall k' e, has s k' e -> k' <> k -> m_ghost e = false -> has s' k' e) /\
    (forall k' e, has s' k' e -> m_ghost e = false -> has s k' e) /\
    ((exists b, is_mail s b /\ thread_of s b t /\ b <> m_id d) -> thread_of s' (m_id d) t) /\
    ((forall b, is_mail s b -> thread_of s b t -> b = m_id d) -> forall b, ~ thread_of s' b t).
Proof.
  intros c h s k d t name Hc Hl E H Hf T Hu. destruct (mrun_inv c Hc h empty_db (inv_empty c) Hl) as (s0 & E0 & Hi & _). rewrite E in E0. injection E0 as <-.
  destruct (remove_message_spec c name s Hi) as (st & s' & Es & Hi' & _ & _ & D).
  destruct D as [(_ & _ & Hn)|(k1 & d1 & t1 & H1 & Hin & Hg & T1 & D)].
  { exfalso. apply (Hn k d H). rewrite Hf. now left. }
  assert (k1 = k) by now apply (Hu k1 d1). subst k1. assert (d1 = d) by (unfold has in *; congruence). subst d1. rewrite T in T1. injection T1 as <-.
  destruct D as [(_ & (n & Hn1 & Hn2) & _)|(-> & _ & D)]; [exfalso; rewrite Hf in Hn1; destruct Hn1 as [->|[]]; congruence|].
  exists s'. split; [exact Es|].
  assert (Other : forall b, is_mail s b -> thread_of s b t -> b <> m_id d -> exists k1 e1, has s k1 e1 /\ k1 <> k /\ m_ghost e1 = false /\ m_threads e1 = [t]).
  { intros b (kb & db & Hb & Eb & Gb) (kb' & db' & Hb' & Eb' & Tb') Hne. assert (kb = kb') by (apply (i_unique c s Hi kb db kb' db' Hb Hb'); congruence). subst kb'.
    assert (db' = db) by (unfold has in *; congruence). subst db'. exists kb, db. split; [exact Hb|]. split.
    - intros ->. apply Hne. unfold has in *. rewrite H in Hb. injection Hb as <-. congruence.
    - split; [exact Gb|]. now apply (thread_single c s kb). }
  destruct D as [[(k1 & e1 & Y1 & Y2 & Y3 & Y4) HH]|[Hno HH]].
  - split; [|split; [|split; [|split]]].
    + intros (j & e & X1 & X2 & X3). apply HH in X1 as [[-> ->]|[Hne X1]]; [discriminate|]. apply Hne. now apply (i_unique c s Hi j e k d).
    + intros j e X1 X2 _. apply HH. auto.
    + intros j e X1 X2. apply HH in X1 as [[-> ->]|[_ X1]]; [discriminate|exact X1].
    + intros _. exists (last_doc s + 1), (initialize_ghost t (blank_doc (m_id d))). split; [apply HH; auto|]. split; [reflexivity|now left].
    + intros Hall. exfalso. apply Y2. apply (i_unique c s Hi k1 e1 k d Y1 H). apply Hall; [exists k1, e1; auto|]. exists k1, e1. rewrite Y4. cbn. auto.
  - split; [|split; [|split; [|split]]].
    + intros (j & e & X1 & X2 & X3). apply HH in X1 as [X1 X4]. assert (j = k) by now apply (i_unique c s Hi j e k d). subst j.
      assert (e = d) by (unfold has in *; congruence). subst e. contradiction.
    + intros j e X1 X2 X3. apply HH. split; [exact X1|]. intros X4. rewrite (Hno j e X1 X2 X4) in X3. discriminate.
    + intros j e X1 X2. now apply HH in X1 as [X1 _].
    + intros (b & Hb1 & Hb2 & Hb3). exfalso. destruct (Other b Hb1 Hb2 Hb3) as (k1 & e1 & Z1 & Z2 & Z3 & Z4). rewrite (Hno k1 e1 Z1 Z2 Z4) in Z3. discriminate.
    + intros _ b (j & e & X1 & X2 & X3). apply HH in X1 as [X1 X4]. apply X4. now apply (thread_single c s j).
Qed.
Print Assumptions C20_removal_does_not_disturb_the_rest.
(** A message sharing a thread with [b] keeps its place there: removed, it is still
    known in the thread of [b], and added again it is in the thread of [b], as long as
    [b] stays. *)
Theorem C20_readding_rejoins_the_thread :
  forall compressed h1 h2 s1 a b, short_hash compressed -> Forall (legal compressed) (h1 ++ h2) -> mrun compressed h1 empty_db = Some s1 ->
  same_thread s1 a b -> stays compressed b s1 h2 ->
  exists s2, mrun compressed h2 s1 = Some s2 /\ same_thread s2 a b.
Proof.
  intros c h1 h2 s1 a b Hc Hl E Hab Hst. apply Forall_app in Hl as [Hl1 Hl2].
  destruct (mrun_inv c Hc h1 empty_db (inv_empty c) Hl1) as (s0 & E0 & Hi & _). rewrite E in E0. injection E0 as <-.
  destruct (keep c Hc h2 s1 a b Hi Hl2 Hab Hst) as (s2 & E2 & X & _). eauto.
Qed.
Print Assumptions C20_readding_rejoins_the_thread.
(** If indexing never fails, no thread consists of placeholders only. *)
Theorem C20_every_thread_has_a_message :
  forall compressed h s, short_hash compressed -> Forall (legal compressed) h ->
  (forall n f keys ok, In (OAdd n f keys ok) h -> ok = true) -> mrun compressed h empty_db = Some s ->
  forall a t, thread_of s a t -> exists b, is_mail s b /\ thread_of s b t.
Proof.
  intros c h s Hc Hl Hok E a t (k & d & H & _ & T).
  destruct (alive_run c Hc h empty_db s (inv_empty c) Hl) with (k := k) (d := d) as (k' & d' & H' & G & T'); auto.
  - intros k0 d0 X. discriminate.
  - exists (m_id d'). split; exists k', d'; [auto|]. rewrite T'. auto.
Qed.
Print Assumptions C20_every_thread_has_a_message.
(** A file whose text cannot be indexed leaves placeholders behind. *)
Theorem C20_failed_indexing_leaves_placeholders_refuted :
  ~ (forall compressed h s, short_hash compressed -> Forall (legal compressed) h -> mrun compressed h empty_db = Some s ->
       forall a t, thread_of s a t -> exists b, is_mail s b /\ thread_of s b t).
Proof.
  intros H. specialize (H ex_hash [OAdd (lit "1") (ex_file "b@x" "<a@x>") [lit "a@x"] false]).
  assert (L : exists s, mrun ex_hash [OAdd (lit "1") (ex_file "b@x" "<a@x>") [lit "a@x"] false] empty_db = Some s /\
     docs s = [(2, initialize_ghost 1 (blank_doc (lit "a@x")))]).
  { eexists. split; [vm_compute; reflexivity|]. reflexivity. }
  destruct L as (s & E & Ed). destruct (H s) with (a := lit "a@x") (t := 1) as (b & (k & d & Hk & _ & G) & _).
  - intros x. cbn. lia.
  - repeat constructor; cbn; try (apply Permutation_refl); try (intros X; exfalso; repeat apply le_S_n in X; now inversion X).
  - exact E.
  - exists 2, (initialize_ghost 1 (blank_doc (lit "a@x"))). split; [unfold has; rewrite Ed; reflexivity|]. split; [reflexivity|now left].
  - unfold has in Hk. rewrite Ed in Hk. cbn in Hk. destruct (N.eqb k 2); [|discriminate]. injection Hk as <-. discriminate.
Qed.
Print Assumptions C20_failed_indexing_leaves_placeholders_refuted.
Example C20_removal_applies : exists s s', mrun ex_hash ex_history empty_db = Some s /\ mstep ex_hash (ORemove (lit "1")) s = Some (M_success, s') /\
  thread_of s' (lit "b@x") 2 /\ ~ is_mail s' (lit "b@x").
Proof.
  eexists _, _. split; [vm_compute; reflexivity|]. split; [vm_compute; reflexivity|]. split.
  - exists 5. eexists. split; [vm_compute; reflexivity|]. split; [reflexivity|left; reflexivity].
  - intros (k & d & H & E & G). unfold has in H. apply dget_In in H. cbn in H.
    repeat (destruct H as [H|H]; [injection H as <- <-; cbn in E, G; discriminate|]). destruct H.
Qed.

(** C21: removing one of several names of a message keeps the message with exactly the
    other names, everything else unchanged, and says so. *)
Theorem C21_other_copies_remain :
  forall compressed h s k d name other, short_hash compressed -> Forall (legal compressed) h -> mrun compressed h empty_db = Some s ->
  has s k d -> In name (m_files d) -> In other (m_files d) -> other <> name ->
  (forall k' d', has s k' d' -> In name (m_files d') -> k' = k) ->
  exists s' d', mstep compressed (ORemove name) s = Some (M_duplicate, s') /\ has s' k d' /\
    (forall n, In n (m_files d') <-> In n (m_files d) /\ n <> name) /\
    m_id d' = m_id d /\ m_ghost d' = m_ghost d /\ m_tags d' = m_tags d /\ m_props d' = m_props d /\ m_threads d' = m_threads d /\ m_refs d' = m_refs d /\
    (forall j e, j <> k -> (has s' j e <-> has s j e)).
Proof.
  intros c h s k d name other Hc Hl E H Hin Ho Hne Hu. destruct (mrun_inv c Hc h empty_db (inv_empty c) Hl) as (s0 & E0 & Hi & _). rewrite E in E0. injection E0 as <-.
  destruct (remove_message_spec c name s Hi) as (st & s' & Es & Hi' & _ & _ & D).
  destruct D as [(_ & _ & Hn)|(k1 & d1 & t1 & H1 & Hin1 & Hg & T1 & D)]; [exfalso; now apply (Hn k d H)|].
  assert (k1 = k) by now apply (Hu k1 d1). subst k1. assert (d1 = d) by (unfold has in *; congruence). subst d1.
  destruct D as [(-> & _ & d' & X1 & X2 & X3 & X4)|(_ & Ef & _)].
  - exists s', d'. split; [exact Es|]. split; [exact X1|]. split; [exact X3|]. rewrite X2. cbn. repeat (split; [reflexivity|]). exact X4.
  - exfalso. rewrite Ef in Ho. destruct Ho as [->|[]]. congruence.
Qed.
Print Assumptions C21_other_copies_remain.
(** The status tells which: a removal reports a duplicate exactly if a message with that
    name had another one; otherwise it reports success.  Here no two messages have the
    removed name. *)
Theorem C21_status_tells :
  forall compressed h s name st s', short_hash compressed -> Forall (legal compressed) h -> mrun compressed h empty_db = Some s ->
  mstep compressed (ORemove name) s = Some (st, s') ->
  (forall k d k' d', has s k d -> has s k' d' -> In name (m_files d) -> In name (m_files d') -> k = k') ->
  (st = M_duplicate <-> exists k d other, has s k d /\ In name (m_files d) /\ In other (m_files d) /\ other <> name) /\
  (st = M_success <-> forall k d, has s k d -> In name (m_files d) -> m_files d = [name]) /\
  (forall k d, has s' k d -> ~ In name (m_files d)).
Proof.
  intros c h s name st s' Hc Hl E Es Hu. destruct (mrun_inv c Hc h empty_db (inv_empty c) Hl) as (s0 & E0 & Hi & _). rewrite E in E0. injection E0 as <-.
  destruct (remove_message_spec c name s Hi) as (st1 & s1 & Es1 & Hi' & L1 & _ & D). cbn in Es. rewrite Es in Es1. injection Es1 as <- <-.
  destruct D as [(-> & -> & Hn)|(k1 & d1 & t1 & H1 & Hin1 & Hg & T1 & D)].
  - split; [|split].
    + split; [discriminate|]. intros (k & d & o & H & Hin & _). exfalso. now apply (Hn k d H).
    + split; [|reflexivity]. intros _ k d H Hin. exfalso. now apply (Hn k d H).
    + exact Hn.
  - destruct D as [(-> & (o & Ho1 & Ho2) & d' & X1 & X2 & X3 & X4)|(-> & Ef & D)].
    + split; [|split].
      * split; [|reflexivity]. intros _. exists k1, d1, o. auto.
      * split; [discriminate|]. intros Q. rewrite (Q k1 d1 H1 Hin1) in Ho1. destruct Ho1 as [->|[]]. congruence.
      * intros k d H Hin. destruct (N.eq_dec k k1) as [->|Hne].
        -- assert (d = d') by (unfold has in *; congruence). subst d. apply X3 in Hin. now apply Hin.
        -- apply (X4 k d Hne) in H. apply Hne. exact (Hu k d k1 d1 H H1 Hin Hin1).
    + split; [|split].
      * split; [discriminate|]. intros (k & d & o & H & Hin & Ho1 & Ho2). exfalso. assert (k = k1) by exact (Hu k d k1 d1 H H1 Hin Hin1). subst k.
        assert (d = d1) by (unfold has in *; congruence). subst d. rewrite Ef in Ho1. destruct Ho1 as [->|[]]. congruence.
      * split; [|reflexivity]. intros _ k d H Hin. assert (k = k1) by exact (Hu k d k1 d1 H H1 Hin Hin1). subst k.
        assert (d = d1) by (unfold has in *; congruence). subst d. exact Ef.
      * intros k d H Hin. destruct D as [[_ HH]|[_ HH]]; apply HH in H.
        -- destruct H as [[-> ->]|[Hne H]]; [destruct Hin|]. apply Hne. exact (Hu k d k1 d1 H H1 Hin Hin1).
        -- destruct H as [H Hne]. assert (k = k1) by exact (Hu k d k1 d1 H H1 Hin Hin1). subst k.
           assert (d = d1) by (unfold has in *; congruence). subst d. contradiction.
Qed.
Print Assumptions C21_status_tells.
Example C21_applies : exists s, mrun ex_hash (ex_history ++ [OAdd (lit "5") (ex_file "b@x" "<a@x>") [lit "a@x"] true]) empty_db = Some s /\
  exists d, has s 1 d /\ m_files d = [lit "1"; lit "5"].
Proof. eexists. split; [vm_compute; reflexivity|]. eexists. split; vm_compute; reflexivity. Qed.
