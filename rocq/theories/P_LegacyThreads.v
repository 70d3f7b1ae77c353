(** Property C93: threads in databases without ghost messages (lib/add-message.cc), those made before notmuch 0.19
    and not upgraded.  The specification of threads is MailStoreSpec.v, as for C17 and C18. *)
From Coq Require Import Relations Permutation.
From Verif Require Import Bytes DocMap MsgId MsgIdSpec MsgIdProofs MailStore MailStoreSpec MailStoreProofs MailStoreProofs2 MailStoreProofs3 P_MsgId P_Threads
  LegacyThreads LegacyThreadsProofs LegacyThreadsProofs2 LegacyThreadsProofs3 LegacyThreadsProofs4.
Local Open Scope N_scope.

(** A document for the id is in the database. *)
Definition present (s : mdb) (a : bytes) : Prop := exists k d, has s k d /\ m_id d = a.
(** The id was added by the history. *)
Definition was_added (compressed : bytes -> bytes) (h : list mop) (a : bytes) : Prop :=
  exists name f keys ok, In (OAdd name f keys ok) h /\ a = stored compressed (f_id f).

Lemma run_inv c h s : short_hash c -> lrun c h empty_ldb = Some s -> linv c s.
Proof. intros Hc E. destruct (lrun_inv c Hc h empty_ldb (linv_empty c)) as (s' & E' & Hi & _). rewrite E in E'. now injection E' as <-. Qed.
Lemma thread_unique c s a t u : linv c s -> thread_of (l_db s) a t -> thread_of (l_db s) a u -> t = u.
Proof.
  intros Hi (k & d & H & E & T) (k' & d' & H' & E' & T'). assert (k' = k) by (apply (l_unique c s Hi k' d' k d H' H); congruence). subst k'.
  assert (d' = d) by (unfold has in *; congruence). subst d'. destruct (l_thread c s Hi k d H) as (v & V & _). rewrite V in T, T'.
  destruct T as [<-|[]], T' as [<-|[]]. reflexivity.
Qed.
Lemma same_trans c s a b d : linv c s -> same_thread (l_db s) a b -> same_thread (l_db s) b d -> same_thread (l_db s) a d.
Proof. intros Hi (t & A & B) (u & C & D). rewrite (thread_unique c s b t u Hi B C) in A. exists u. auto. Qed.
Lemma same_sym s a b : same_thread s a b -> same_thread s b a.
Proof. intros (t & A & B). exists t. auto. Qed.
Lemma linked_same c s a r : linv c s -> linked s a r -> present (l_db s) r -> same_thread (l_db s) a r.
Proof.
  intros Hi (k & d & H & E & L) (k0 & d0 & H0 & E0). destruct L as [(k' & d' & H' & Er & T)|[Hno _]]; [|exfalso; exact (Hno k0 d0 H0 E0)].
  destruct (l_thread c s Hi k d H) as (t & U & _). exists t. split; [exists k, d|exists k', d']; (split; [assumption|]); (split; [assumption|]); [|rewrite T]; rewrite U; now left.
Qed.

(** No history of additions, removals and tag changes makes the library abort for a message without thread id. *)
Theorem C93_no_abort : forall compressed h, short_hash compressed -> exists s, lrun compressed h empty_ldb = Some s.
Proof. intros c h Hc. destruct (lrun_inv c Hc h empty_ldb (linv_empty c)) as (s & E & _). eauto. Qed.
Print Assumptions C93_no_abort.

(** At every point ids are unique and every message has exactly one thread. *)
Theorem C93_unique_ids_one_thread :
  forall compressed h s, short_hash compressed -> lrun compressed h empty_ldb = Some s ->
  (forall k d k' d', has (l_db s) k d -> has (l_db s) k' d' -> m_id d = m_id d' -> k = k') /\
  (forall k d, has (l_db s) k d -> exists t, m_threads d = [t]).
Proof.
  intros c h s Hc E. pose proof (run_inv c h s Hc E) as Hi. split; [exact (l_unique c s Hi)|]. intros k d H. destruct (l_thread c s Hi k d H) as (t & T & _). eauto.
Qed.
Print Assumptions C93_unique_ids_one_thread.

(** The message [a] is in the database after each of the calls [h] made from [s]. *)
Fixpoint lstays (compressed : bytes -> bytes) (a : bytes) (s : ldb) (h : list mop) : Prop :=
  is_mail (l_db s) a /\
  match h with
  | [] => True
  | o :: h => match lstep compressed o s with Some (_, s) => lstays compressed a s h | None => False end
  end.
(** No addition of the history fails. *)
Definition no_failure (h : list mop) : Prop := Forall (fun o => match o with OAdd _ _ _ ok => ok = true | _ => True end) h.
Lemma linked_stays c (Hc : short_hash c) h : forall s s' a r, linv c s -> no_ghost_files s -> lrun c h s = Some s' -> no_failure h -> lstays c a s h ->
  linked s a r -> linked s' a r.
Proof.
  induction h as [|o h IH]; intros s s' a r Hi Hg E Hn St L; [injection E as <-; exact L|]. cbn [lrun] in E. destruct St as [_ St].
  destruct (lstep_inv c Hc o s Hi) as (st & s1 & E1 & Hi1 & _). rewrite E1 in E, St. apply Forall_cons_iff in Hn as [Ho Hn].
  apply (IH s1 s' a r Hi1); auto; [exact (step_no_ghost_files c Hc o s st s1 Hi Hg E1)|].
  destruct o as [name f keys ok|name|id tags].
  - apply (linked_step c Hc (OAdd name f keys ok) s st s1 a r Hi E1 Ho L).
  - apply (linked_remove c name s st s1 a r Hi Hg E1); [|exact L]. destruct h; destruct St; assumption.
  - apply (linked_step c Hc (OTags id tags) s st s1 a r Hi E1 Logic.I L).
Qed.

(** After any history a file is added; then, whenever a message it refers to is in the database, known before or added later, the
    two share a thread, for as long as the message stays, whatever else is added, removed or tagged, as long as no addition fails. *)
Theorem C93_referenced_messages_share_the_thread :
  forall compressed h1 name f keys h2 s1 st s2 s3, short_hash compressed ->
  lrun compressed h1 empty_ldb = Some s1 -> lstep compressed (OAdd name f keys true) s1 = Some (st, s2) ->
  lrun compressed h2 s2 = Some s3 -> no_failure h2 -> lstays compressed (stored compressed (f_id f)) s2 h2 ->
  forall r, In r keys -> (length r <= 189)%nat -> present (l_db s3) r -> same_thread (l_db s3) (stored compressed (f_id f)) r.
Proof.
  intros c h1 name f keys h2 s1 st s2 s3 Hc E1 E2 E3 Hn St r Hr Hl Hp. pose proof (run_inv c h1 s1 Hc E1) as Hi1.
  destruct (lstep_inv c Hc (OAdd name f keys true) s1 Hi1) as (st' & s2' & E2' & Hi2 & _). rewrite E2 in E2'. injection E2' as <- <-.
  destruct (lrun_inv c Hc h2 s2 Hi2) as (s3' & E3' & Hi3 & _). rewrite E3 in E3'. injection E3' as <-.
  assert (G1 : no_ghost_files s1) by (apply (run_no_ghost_files c Hc h1 empty_ldb s1 (linv_empty c)); [intros k d H; discriminate|exact E1]).
  pose proof (step_no_ghost_files c Hc _ s1 st s2 Hi1 G1 E2) as G2.
  apply (linked_same c); auto. apply (linked_stays c Hc h2 s2 s3 _ r Hi2 G2 E3 Hn St). exact (linked_add c Hc name f keys s1 st s2 r Hi1 E2 Hr Hl).
Qed.
Print Assumptions C93_referenced_messages_share_the_thread.

(** In particular through additions and changes of tags. *)
Theorem C93_additions_keep_the_thread :
  forall compressed h1 name f keys h2 s, short_hash compressed -> adds_only h2 ->
  lrun compressed (h1 ++ OAdd name f keys true :: h2) empty_ldb = Some s ->
  forall r, In r keys -> (length r <= 189)%nat -> present (l_db s) r -> same_thread (l_db s) (stored compressed (f_id f)) r.
Proof.
  intros c h1 name f keys h2 s Hc Ha E r Hr Hl Hp. pose proof (run_inv c _ s Hc E) as Hi.
  rewrite lrun_app in E. destruct (lrun_inv c Hc h1 empty_ldb (linv_empty c)) as (s1 & E1 & Hi1 & _). rewrite E1 in E. cbn [lrun] in E.
  destruct (lstep_inv c Hc (OAdd name f keys true) s1 Hi1) as (st & s2 & E2 & Hi2 & _). rewrite E2 in E.
  apply (linked_same c); auto. apply (linked_run c Hc h2 s2 s _ r Hi2 E Ha). exact (linked_add c Hc name f keys s1 st s2 r Hi1 E2 Hr Hl).
Qed.
Print Assumptions C93_additions_keep_the_thread.

(** Two messages share a thread only if they are connected through references of files that were added, in every history with
    additions, removals and failures. *)
Theorem C93_only_connected_messages_share_a_thread :
  forall compressed h s, short_hash compressed -> lrun compressed h empty_ldb = Some s ->
  forall a b, same_thread (l_db s) a b -> connected compressed h a b.
Proof.
  intros c h s Hc E a b (t & A & B). destruct (lrun_inv c Hc h empty_ldb (linv_empty c)) as (s' & E' & _ & J). rewrite E in E'. injection E' as <-.
  assert (Q : just c (connected c h) s).
  { apply J.
    - split; [intros x; apply rst_refl|]. split; [intros x y; apply rst_sym|intros x y z; apply rst_trans].
    - constructor; [|discriminate]. intros x y u [(k & d & H & _)|H]; discriminate.
    - intros n f ks ok r H1 H2. apply rst_step. exists n, f, ks, ok, r. auto. }
  apply (j_thread c _ s Q a b t); now left.
Qed.
Print Assumptions C93_only_connected_messages_share_a_thread.

(** A successful addition puts the message and the file name in the database and later additions keep the message. *)
Lemma step_present c (Hc : short_hash c) o s st s' a : linv c s -> lstep c o s = Some (st, s') ->
  match o with ORemove _ => False | _ => True end -> present (l_db s) a -> present (l_db s') a.
Proof.
  intros Hi E Ho (k & d & H & Id). destruct o as [name f keys ok|name|id tags]; [|destruct Ho|]; cbn [lstep] in E.
  - destruct (index_file_old_spec c Hc name f keys ok s Hi) as (st1 & s1 & phi & t & E1 & _ & FW & _). rewrite E in E1. injection E1 as <- <-.
    destruct (FW k d H) as (d1 & H1 & I1 & _). exists k, d1. split; [exact H1|congruence].
  - injection E as <- <-. destruct (retag_old_spec c id tags s Hi) as [_ F]. eexists k, _. split; [apply F; exists d; split; [exact H|reflexivity]|].
    destruct (bseq (m_id d) (canon c id)); exact Id.
Qed.
Lemma run_present c (Hc : short_hash c) h : forall s s' a, linv c s -> lrun c h s = Some s' -> adds_only h -> present (l_db s) a -> present (l_db s') a.
Proof.
  induction h as [|o h IH]; intros s s' a Hi E Ha Hp; [injection E as <-; exact Hp|]. cbn [lrun] in E. destruct (lstep_inv c Hc o s Hi) as (st & s1 & E1 & Hi1 & _).
  rewrite E1 in E. apply Forall_cons_iff in Ha as [Ho Ha]. apply (IH s1 s' a Hi1 E Ha). apply (step_present c Hc o s st s1 a Hi E1); [|exact Hp]. destruct o; auto.
Qed.
Lemma added_present c (Hc : short_hash c) h s a : lrun c h empty_ldb = Some s -> adds_only h -> was_added c h a -> present (l_db s) a.
Proof.
  intros E Ha (name & f & keys & ok & Hin & ->). apply in_split in Hin as (h1 & h2 & ->). apply Forall_app in Ha as [_ Ha]. apply Forall_cons_iff in Ha as [Ho Ha]. cbn in Ho. subst ok.
  rewrite lrun_app in E. destruct (lrun_inv c Hc h1 empty_ldb (linv_empty c)) as (s1 & E1 & Hi1 & _). rewrite E1 in E. cbn [lrun lstep] in E.
  destruct (index_file_old_spec c Hc name f keys true s1 Hi1) as (st & s2 & phi & t & E2 & Hi2 & _ & _ & A & _). rewrite E2 in E.
  apply (run_present c Hc h2 s2 s _ Hi2 E Ha). destruct (A eq_refl) as ((k & d & H & Id & _) & _). exists k, d. auto.
Qed.

(** When every message referred to is added sooner or later, and in whatever order, threads are exactly the connected components. *)
Theorem C93_threads_are_the_connected_components :
  forall compressed h s, short_hash compressed -> adds_only h -> lrun compressed h empty_ldb = Some s ->
  (forall name f keys ok r, In (OAdd name f keys ok) h -> In r keys -> (length r <= 189)%nat /\ was_added compressed h r) ->
  forall a b, was_added compressed h a -> was_added compressed h b -> (same_thread (l_db s) a b <-> connected compressed h a b).
Proof.
  intros c h s Hc Ha E Hall a b Wa Wb. pose proof (run_inv c h s Hc E) as Hi. split; [now apply C93_only_connected_messages_share_a_thread|].
  assert (St : forall x y, refers c h x y -> same_thread (l_db s) x y /\ was_added c h x /\ was_added c h y).
  { intros x y (name & f & keys & ok & r & Hin & -> & Hr & ->). destruct (Hall name f keys ok r Hin Hr) as [Hl Hw].
    unfold stored at 2 4. rewrite (canon_id c r Hl). split; [|split; [exists name, f, keys, ok; auto|exact Hw]].
    apply (linked_same c); auto; [|exact (added_present c Hc h s r E Ha Hw)]. exact (linked_history c Hc h s name f keys ok r E Ha Hin Hr Hl). }
  assert (Rf : forall x, was_added c h x -> same_thread (l_db s) x x).
  { intros x Hx. destruct (added_present c Hc h s x E Ha Hx) as (k & d & H & Ed). destruct (l_thread c s Hi k d H) as (t & T & _).
    exists t. split; exists k, d; rewrite T; repeat split; auto; now left. }
  intros C. cut ((was_added c h a <-> was_added c h b) /\ (was_added c h a -> same_thread (l_db s) a b)); [intros [_ Q]; exact (Q Wa)|].
  clear Wa Wb. induction C as [x y R|x|x y C [I1 I2]|x y z C1 [I1 I2] C2 [I3 I4]].
  - destruct (St x y R) as (A & B & D). split; [tauto|auto].
  - split; [tauto|exact (Rf x)].
  - split; [tauto|]. intros H. apply same_sym, I2. tauto.
  - split; [tauto|]. intros H. apply (same_trans c s x y z Hi); [exact (I2 H)|]. apply I4. tauto.
Qed.
Print Assumptions C93_threads_are_the_connected_components.

(** So the order of the additions does not matter: the same files in any other order give the same threads. *)
Theorem C93_order_does_not_matter :
  forall compressed h h' s s', short_hash compressed -> adds_only h -> Permutation h h' ->
  lrun compressed h empty_ldb = Some s -> lrun compressed h' empty_ldb = Some s' ->
  (forall name f keys ok r, In (OAdd name f keys ok) h -> In r keys -> (length r <= 189)%nat /\ was_added compressed h r) ->
  forall a b, was_added compressed h a -> was_added compressed h b -> (same_thread (l_db s) a b <-> same_thread (l_db s') a b).
Proof.
  intros c h h' s s' Hc Ha P E E' Hall a b Wa Wb.
  assert (W : forall x, was_added c h x <-> was_added c h' x).
  { intros x. split; intros (n & f & ks & ok & Hin & Ex); exists n, f, ks, ok; (split; [|exact Ex]); [apply (Permutation_in _ P Hin)|apply (Permutation_in _ (Permutation_sym P) Hin)]. }
  assert (Ha' : adds_only h').
  { apply Forall_forall. intros o Ho. apply (proj1 (Forall_forall _ _) Ha). apply (Permutation_in _ (Permutation_sym P) Ho). }
  assert (Cn : forall x y, connected c h x y <-> connected c h' x y).
  { intros x y. split; intros C; induction C as [x y (n & f & ks & ok & r & Hin & X)| | |].
    - apply rst_step. exists n, f, ks, ok, r. split; [apply (Permutation_in _ P Hin)|exact X].
    - apply rst_refl.
    - now apply rst_sym.
    - eapply rst_trans; eauto.
    - apply rst_step. exists n, f, ks, ok, r. split; [apply (Permutation_in _ (Permutation_sym P) Hin)|exact X].
    - apply rst_refl.
    - now apply rst_sym.
    - eapply rst_trans; eauto. }
  rewrite (C93_threads_are_the_connected_components c h s Hc Ha E Hall a b Wa Wb), Cn. symmetry.
  apply (C93_threads_are_the_connected_components c h' s' Hc Ha' E'); [|now apply W|now apply W].
  intros n f ks ok r Hin Hr. destruct (Hall n f ks ok r) as [A B]; [apply (Permutation_in _ (Permutation_sym P) Hin)|exact Hr|]. split; [exact A|now apply W].
Qed.
Print Assumptions C93_order_does_not_matter.

(** Adding a file, even when it fails, never changes the tags, file names or properties of another message, removes none, and creates no
    other. *)
Theorem C93_other_messages_are_kept :
  forall compressed h s name f keys ok st s', short_hash compressed -> lrun compressed h empty_ldb = Some s ->
  lstep compressed (OAdd name f keys ok) s = Some (st, s') ->
  (forall k d, has (l_db s) k d -> m_id d <> stored compressed (f_id f) ->
    exists d', has (l_db s') k d' /\ m_id d' = m_id d /\ m_ghost d' = m_ghost d /\ m_files d' = m_files d /\ m_tags d' = m_tags d /\ m_props d' = m_props d) /\
  (forall k d', has (l_db s') k d' -> m_id d' <> stored compressed (f_id f) -> exists d, has (l_db s) k d /\ m_id d = m_id d') /\
  (forall a b, same_thread (l_db s) a b -> same_thread (l_db s') a b).
Proof.
  intros c h s name f keys ok st s' Hc E Es. pose proof (run_inv c h s Hc E) as Hi. cbn [lstep] in Es.
  destruct (index_file_old_spec c Hc name f keys ok s Hi) as (st1 & s1 & phi & t & E1 & Hi1 & FW & BW & _). rewrite Es in E1. injection E1 as <- <-.
  split; [|split].
  - intros k d H Hn. destruct (FW k d H) as (d' & H' & I' & _ & _ & O). destruct (O (or_intror Hn)) as (O1 & O2 & O3 & O4). exists d'. auto 10.
  - intros k d' H Hn. destruct (BW k d' H) as [(d & H0 & I0)|[_ I0]]; [exists d; auto|exfalso; exact (Hn I0)].
  - intros a b (u & (k & d & H & Ia & Ta) & (k' & d' & H' & Ib & Tb)).
    destruct (FW k d H) as (d1 & H1 & I1 & T1 & _), (FW k' d' H') as (d2 & H2 & I2 & T2 & _). exists (phi u).
    split; [exists k, d1|exists k', d2]; (split; [assumption|]); (split; [congruence|]); [rewrite T1|rewrite T2]; now apply in_map.
Qed.
Print Assumptions C93_other_messages_are_kept.

(** A successful addition records the message and the file name; a failed one adds no message. *)
Theorem C93_added :
  forall compressed h s name f keys ok st s', short_hash compressed -> lrun compressed h empty_ldb = Some s ->
  lstep compressed (OAdd name f keys ok) s = Some (st, s') ->
  (ok = true -> is_mail (l_db s') (stored compressed (f_id f)) /\ exists k d, has (l_db s') k d /\ m_id d = stored compressed (f_id f) /\ In name (m_files d)) /\
  (ok = false -> forall a, present (l_db s') a -> present (l_db s) a).
Proof.
  intros c h s name f keys ok st s' Hc E Es. pose proof (run_inv c h s Hc E) as Hi. cbn [lstep] in Es.
  destruct (index_file_old_spec c Hc name f keys ok s Hi) as (st1 & s1 & phi & t & E1 & Hi1 & _ & BW & A & _). rewrite Es in E1. injection E1 as <- <-.
  split.
  - intros ->. destruct (A eq_refl) as ((k & d & H & Id & G & _ & F & _) & _). split; exists k, d; auto.
  - intros -> a (k & d & H & Id). destruct (BW k d H) as [(d0 & H0 & I0)|[X _]]; [|discriminate X]. exists k, d0. split; [exact H0|congruence].
Qed.
Print Assumptions C93_added.

(** What placeholders give (C17, C18) and these databases do not. *)
(** Two messages that refer to the same message, which is not in the database, may be in different threads. *)
Definition ex_missing : list mop :=
  [OAdd (lit "1") (ex_file "a@x" "<x@x>") [lit "x@x"] true; OAdd (lit "2") (ex_file "b@x" "<y@x>") [lit "y@x"] true;
   OAdd (lit "3") (ex_file "c@x" "<x@x> <y@x>") [lit "x@x"; lit "y@x"] true; OAdd (lit "4") (ex_file "d@x" "<y@x>") [lit "y@x"] true].
Theorem C93_common_missing_parent_refuted :
  ~ (forall compressed h s, short_hash compressed -> Forall (legal compressed) h -> adds_only h -> lrun compressed h empty_ldb = Some s ->
     forall a b r, refers compressed h a r -> refers compressed h b r -> same_thread (l_db s) a b).
Proof.
  intros Q. destruct (C93_no_abort ex_hash ex_missing) as (s & E); [intros x; cbn; lia|].
  assert (Hi : linv ex_hash s) by (apply (run_inv ex_hash ex_missing); [intros x; cbn; lia|exact E]).
  assert (S : same_thread (l_db s) (lit "b@x") (lit "d@x")).
  { apply (Q ex_hash ex_missing s) with (r := lit "y@x").
    - intros x. cbn. lia.
    - repeat constructor; cbn; try (apply Permutation_refl); try (intros X; exfalso; repeat apply le_S_n in X; now inversion X).
    - repeat constructor.
    - exact E.
    - exists (lit "2"), (ex_file "b@x" "<y@x>"), [lit "y@x"], true, (lit "y@x"). repeat split; cbn; auto.
    - exists (lit "4"), (ex_file "d@x" "<y@x>"), [lit "y@x"], true, (lit "y@x"). repeat split; cbn; auto 6. }
  assert (T1 : thread_of (l_db s) (lit "b@x") 1 /\ thread_of (l_db s) (lit "d@x") 2).
  { vm_compute in E. injection E as <-. split; [exists 2|exists 4]; (eexists; split; [vm_compute; reflexivity|split; [reflexivity|left; reflexivity]]). }
  destruct S as (t & A & B), T1 as [A1 B1]. pose proof (thread_unique ex_hash s _ _ _ Hi A A1). pose proof (thread_unique ex_hash s _ _ _ Hi B B1). subst t. discriminate.
Qed.
Print Assumptions C93_common_missing_parent_refuted.

(** A failed addition (C17 needs no such exception) can lose the link: the message added again is not in the thread of the one that
    refers to it. *)
Definition ex_failed : list mop :=
  [OAdd (lit "1") (ex_file "e@x" "<x@x> <y@x>") [lit "x@x"; lit "y@x"] true; OAdd (lit "2") (ex_file "y@x" "") [] false;
   OAdd (lit "2") (ex_file "y@x" "") [] true].
Theorem C93_failed_addition_refuted :
  ~ (forall compressed h s, short_hash compressed -> Forall (legal compressed) h -> lrun compressed h empty_ldb = Some s ->
     forall a r, refers compressed h a r -> present (l_db s) a -> present (l_db s) r -> same_thread (l_db s) a r).
Proof.
  intros Q. destruct (C93_no_abort ex_hash ex_failed) as (s & E); [intros x; cbn; lia|].
  assert (Hi : linv ex_hash s) by (apply (run_inv ex_hash ex_failed); [intros x; cbn; lia|exact E]).
  assert (T1 : thread_of (l_db s) (lit "e@x") 2 /\ thread_of (l_db s) (lit "y@x") 3).
  { clear Hi. vm_compute in E. injection E as <-. split; [exists 1|exists 3]; (eexists; split; [vm_compute; reflexivity|split; [reflexivity|left; reflexivity]]). }
  destruct T1 as [A1 B1].
  assert (S : same_thread (l_db s) (lit "e@x") (lit "y@x")).
  { apply (Q ex_hash ex_failed s).
    - intros x. cbn. lia.
    - repeat constructor; cbn; try (apply Permutation_refl); try (intros X; exfalso; repeat apply le_S_n in X; now inversion X).
    - exact E.
    - exists (lit "1"), (ex_file "e@x" "<x@x> <y@x>"), [lit "x@x"; lit "y@x"], true, (lit "y@x"). repeat split; cbn; auto.
    - destruct A1 as (k & d & H & I & _). exists k, d. auto.
    - destruct B1 as (k & d & H & I & _). exists k, d. auto. }
  destruct S as (t & A & B). pose proof (thread_unique ex_hash s _ _ _ Hi A A1). pose proof (thread_unique ex_hash s _ _ _ Hi B B1). subst t. discriminate.
Qed.
Print Assumptions C93_failed_addition_refuted.

(** References longer than 189 bytes: the lookup of the messages that refer to a new one compares the reference as written with the
    hash. *)
Definition ex_long_id : bytes := repeat "a"%char 200.
Definition ex_long : list mop :=
  [OAdd (lit "1") {| f_id := lit "e@x"; f_references := lit "<x@x> <" ++ ex_long_id ++ lit ">"; f_in_reply_to := []; f_auto_tags := [] |} [lit "x@x"; ex_long_id] true;
   OAdd (lit "2") {| f_id := ex_long_id; f_references := []; f_in_reply_to := []; f_auto_tags := [] |} [] true].
Theorem C93_long_reference_refuted :
  ~ (forall compressed h s, short_hash compressed -> Forall (legal compressed) h -> adds_only h -> lrun compressed h empty_ldb = Some s ->
     forall a r, refers compressed h a r -> present (l_db s) a -> present (l_db s) r -> same_thread (l_db s) a r).
Proof.
  intros Q. destruct (C93_no_abort ex_hash ex_long) as (s & E); [intros x; cbn; lia|].
  assert (Hi : linv ex_hash s) by (apply (run_inv ex_hash ex_long); [intros x; cbn; lia|exact E]).
  assert (T1 : thread_of (l_db s) (lit "e@x") 1 /\ thread_of (l_db s) (lit "notmuch-sha1-0") 2).
  { clear Hi. vm_compute in E. injection E as <-. split; [exists 1|exists 2]; (eexists; split; [vm_compute; reflexivity|split; [reflexivity|left; reflexivity]]). }
  destruct T1 as [A1 B1].
  assert (S : same_thread (l_db s) (lit "e@x") (lit "notmuch-sha1-0")).
  { apply (Q ex_hash ex_long s).
    - intros x. cbn. lia.
    - constructor; [|constructor; [|constructor]].
      + split; [|constructor; [|constructor; [|constructor]]].
        * replace (fst _) with [lit "x@x"; ex_long_id] by (vm_compute; reflexivity). apply Permutation_refl.
        * intros X. exfalso. cbn in X. lia.
        * intros _ X. vm_compute in X. discriminate X.
      + split; [vm_compute; constructor|constructor].
    - repeat constructor.
    - exact E.
    - eexists (lit "1"), _, [lit "x@x"; ex_long_id], true, ex_long_id. split; [left; reflexivity|]. split; [vm_compute; reflexivity|]. split; [right; left; reflexivity|vm_compute; reflexivity].
    - destruct A1 as (k & d & H & I & _). exists k, d. auto.
    - destruct B1 as (k & d & H & I & _). exists k, d. auto. }
  destruct S as (t & A & B). pose proof (thread_unique ex_hash s _ _ _ Hi A A1). pose proof (thread_unique ex_hash s _ _ _ Hi B B1). subst t. discriminate.
Qed.
Print Assumptions C93_long_reference_refuted.

(** A reply added before its parent, a sibling, an unrelated message: the hypotheses of the theorems hold and the threads are as
    expected. *)
Definition ex_closed : list mop :=
  [OAdd (lit "1") (ex_file "b@x" "<a@x>") [lit "a@x"] true; OAdd (lit "2") (ex_file "z@x" "") [] true;
   OAdd (lit "3") (ex_file "c@x" "<b@x> <a@x>") [lit "b@x"; lit "a@x"] true; OAdd (lit "4") (ex_file "a@x" "") [] true].
Example C93_applies : exists s, lrun ex_hash ex_closed empty_ldb = Some s /\ adds_only ex_closed /\ Forall (legal ex_hash) ex_closed /\
  (forall name f keys ok r, In (OAdd name f keys ok) ex_closed -> In r keys -> (length r <= 189)%nat /\ was_added ex_hash ex_closed r) /\
  same_thread (l_db s) (lit "a@x") (lit "c@x") /\ thread_of (l_db s) (lit "z@x") 2 /\ thread_of (l_db s) (lit "a@x") 1.
Proof.
  eexists. split; [vm_compute; reflexivity|]. split; [repeat constructor|]. split.
  { repeat constructor; cbn; try (apply Permutation_refl); try (intros X; exfalso; repeat apply le_S_n in X; now inversion X). }
  split.
  { intros name f keys ok r Hin Hr. repeat (destruct Hin as [Hin|Hin]; [injection Hin as <- <- <- <-; cbn in Hr; repeat (destruct Hr as [<-|Hr]; [split; [cbn; lia|]|]); try destruct Hr|]); try destruct Hin.
    - exists (lit "4"), (ex_file "a@x" ""), [], true. cbn; auto 8.
    - exists (lit "1"), (ex_file "b@x" "<a@x>"), [lit "a@x"], true. cbn; auto 8.
    - exists (lit "4"), (ex_file "a@x" ""), [], true. cbn; auto 8. }
  split; [exists 1; split; [exists 4|exists 3]|split; [exists 2|exists 4]]; (eexists; split; [vm_compute; reflexivity|split; [reflexivity|left; reflexivity]]).
Qed.
(** The message referred to is added, removed and added again. *)
Example C93_removal_applies : exists s1 s2 s3,
  lrun ex_hash [OAdd (lit "0") (ex_file "z@x" "") [] true] empty_ldb = Some s1 /\ lstep ex_hash (OAdd (lit "1") (ex_file "b@x" "<a@x>") [lit "a@x"] true) s1 = Some (M_success, s2) /\
  lrun ex_hash [OAdd (lit "2") (ex_file "a@x" "") [] true; ORemove (lit "2"); ORemove (lit "0"); OAdd (lit "3") (ex_file "a@x" "") [] true] s2 = Some s3 /\
  lstays ex_hash (lit "b@x") s2 [OAdd (lit "2") (ex_file "a@x" "") [] true; ORemove (lit "2"); ORemove (lit "0"); OAdd (lit "3") (ex_file "a@x" "") [] true] /\
  is_mail (l_db s3) (lit "a@x").
Proof.
  eexists _, _, _. split; [vm_compute; reflexivity|]. split; [vm_compute; reflexivity|]. split; [vm_compute; reflexivity|]. split.
  - assert (Q : forall s k d, dget k (docs (l_db s)) = Some d -> m_id d = lit "b@x" -> m_ghost d = false -> is_mail (l_db s) (lit "b@x")) by (intros s k d H1 H2 H3; exists k, d; auto).
    repeat first [exact Logic.I | split; [eapply Q with (k := 2); [vm_compute; reflexivity|reflexivity|reflexivity]|] | progress (vm_compute lstep)].
  - exists 4. eexists. split; [vm_compute; reflexivity|]. split; reflexivity.
Qed.
