(** Property C43: re-indexing (lib/message.cc notmuch_message_reindex). *)
From Verif Require Import Bytes DocMap MsgId MsgIdSpec MsgIdProofs MailStore MailStoreSpec MailStoreProofs MailStoreProofs2 MailStoreProofs3 MailStoreProofs4 P_Threads.
From Coq Require Import Relations Permutation.
Local Open Scope N_scope.

(** The names of message [d] now hold [content]; every reference found there is already
    in the thread of the message, and is not the message itself. *)
Definition consistent (compressed : bytes -> bytes) (s : mdb) (d : mdoc) (content : bytes -> option (mfile * list bytes * bool)) : Prop :=
  forall n f keys ok r, In n (m_files d) -> content n = Some (f, keys, ok) -> In r keys ->
    stored compressed r <> m_id d /\ same_thread s (stored compressed r) (m_id d).
(** The tags that indexing sets by itself. *)
Definition automatic (t : bytes) : Prop := t = lit "encrypted" \/ t = lit "signed" \/ t = lit "attachment".
Lemma is_automatic_spec t : is_automatic t = true <-> automatic t.
Proof.
  unfold is_automatic, automatic. rewrite !orb_true_iff.
  assert (B : forall a b, bseq a b = true <-> a = b) by (intros a b; split; [apply bseq_eq|intros ->; apply bseq_refl]).
  rewrite !B. tauto.
Qed.

(** Re-indexing a message of which at least one file can still be read: same id, same
    thread, all tags that are not automatic, exactly the automatic tags its files now
    ask for, all properties except the "index." ones (and the session keys if
    decryption is turned off); its names are those still readable; every other message
    and placeholder is untouched. *)
Theorem C43_reindex_preserves :
  forall compressed h s k d content decrypt_false, short_hash compressed -> Forall (legal compressed) h -> mrun compressed h empty_db = Some s ->
  has s k d -> m_ghost d = false -> consistent compressed s d content ->
  (exists n f keys, In n (m_files d) /\ content n = Some (f, keys, true)) ->
  exists s' d', reindex compressed decrypt_false content k d s = Some s' /\ has s' k d' /\
    m_id d' = m_id d /\ m_ghost d' = false /\ m_threads d' = m_threads d /\
    (forall t, In t (m_tags d') <-> (In t (m_tags d) /\ ~ automatic t) \/
       exists n f keys, In n (m_files d) /\ content n = Some (f, keys, true) /\ In t (f_auto_tags f)) /\
    (forall key v, In (key, v) (m_props d') <-> In (key, v) (m_props d) /\ starts_with (lit "index.") key = false /\
       (decrypt_false = true -> key <> lit "session-key")) /\
    (forall n, In n (m_files d') <-> In n (m_files d) /\ content n <> None) /\
    (forall r, In r (m_refs d') <-> exists n f keys ok, In n (m_files d) /\ content n = Some (f, keys, ok) /\ In r keys /\ (length r <= 235)%nat) /\
    (forall j e, j <> k -> (has s' j e <-> has s j e)) /\
    last_doc s' = last_doc s /\ last_thread s' = last_thread s.
Proof.
  intros c h s k d content b Hc Hl E H Hg Hcons Hsome. destruct (mrun_inv c Hc h empty_db (inv_empty c) Hl) as (s0 & E0 & Hi & _). rewrite E in E0. injection E0 as <-.
  destruct (i_thread c s Hi k d H) as (t & T & _). unfold reindex, get_thread_id. rewrite T.
  set (s1 := sync k (clear_indexed b d) s).
  assert (R : forall x f keys ok, In x (m_files d) -> content x = Some (f, keys, ok) -> resolves c t s1 keys).
  { intros x f keys ok Hx Ex. apply (resolves_cleared c b s k d t keys Hi H T). intros r Hr. exact (Hcons x f keys ok r Hx Ex Hr). }
  destruct (reindex_files_same c content t (m_files d) (clear_indexed b d) 0 s1 R (or_introl eq_refl))
    as (d' & n' & E' & C1 & C2 & C3 & C4 & C5 & C6 & C7 & C8 & C9 & C10 & C11).
  rewrite E'. pose proof (proj2 C10 Hsome) as Hn. destruct n' as [|n']; [lia|].
  exists (sync k d' s1), d'. split; [reflexivity|]. split; [unfold has; cbn; rewrite dget_dins, N.eqb_refl; reflexivity|].
  split; [rewrite C1; reflexivity|]. split; [rewrite C2; reflexivity|]. split; [apply C9; exact Hn|]. split.
  { intros x. rewrite C4. cbn. rewrite filter_In, negb_true_iff. pose proof (is_automatic_spec x) as A. destruct (is_automatic x).
    - split; [intros [[_ X]|X]; [discriminate|auto]|]. intros [[_ X]|X]; [exfalso; apply X; now apply A|auto].
    - split; [intros [[X _]|X]; [left; split; [exact X|]; intros Y; apply A in Y; discriminate|auto]|]. intros [[X _]|X]; auto. }
  split.
  { intros key v. rewrite C3. cbn. rewrite filter_In. cbn. rewrite andb_true_iff, !negb_true_iff, andb_false_iff.
    split; [intros (X1 & X2 & X3)|intros (X1 & X2 & X3)]; (split; [exact X1|]); (split; [exact X2|]).
    - intros -> ->. destruct X3 as [X3|X3]; [discriminate|]. rewrite bseq_refl in X3. discriminate.
    - destruct b; [right|now left]. specialize (X3 eq_refl). apply bseq_neq. exact X3. }
  split; [intros n; rewrite C5; cbn; tauto|].
  split; [intros r; rewrite C6; cbn; tauto|].
  split; [|split; reflexivity].
  intros j e Hj. unfold has, s1. cbn. rewrite !dget_dins. destruct (N.eqb_spec j k); [congruence|reflexivity].
Qed.
Print Assumptions C43_reindex_preserves.

(** Files that are the ones indexed before are consistent: re-indexing then keeps the
    thread.  Each name of the message holds the file some addition in the past read
    there, and the message has stayed in the database since. *)
Theorem C43_unchanged_files_are_consistent :
  forall compressed h s k d content, short_hash compressed -> Forall (legal compressed) h -> mrun compressed h empty_db = Some s ->
  has s k d ->
  (forall n f keys ok, In n (m_files d) -> content n = Some (f, keys, ok) ->
     exists h1 keys0 h2 s1 st s2, h = h1 ++ OAdd n f keys0 true :: h2 /\ Permutation keys keys0 /\ stored compressed (f_id f) = m_id d /\
       mrun compressed h1 empty_db = Some s1 /\ mstep compressed (OAdd n f keys0 true) s1 = Some (st, s2) /\
       stays compressed (m_id d) s2 h2) ->
  consistent compressed s d content.
Proof.
  intros c h s k d content Hc Hl E H Hf n f keys ok r Hn En Hr.
  destruct (Hf n f keys ok Hn En) as (h1 & keys0 & h2 & s1 & st & s2 & -> & Hp & Eid & E1 & E2 & Hst).
  rewrite <- Eid in Hst.
  destruct (C17_referenced_messages_share_the_thread c h1 n f keys0 h2 s1 st s2 Hc Hl E1 E2 Hst) as (s3 & E3 & X).
  assert (Es : s3 = s).
  { assert (A : forall l1 l2 x, mrun c (l1 ++ l2) x = match mrun c l1 x with Some y => mrun c l2 y | None => None end).
    { induction l1 as [|o l1 IH]; intros l2 x; cbn; [reflexivity|]. destruct (mstep c o x) as [[? ?]|]; [apply IH|reflexivity]. }
    rewrite A, E1 in E. cbn [mrun] in E. rewrite E2, E3 in E. congruence. }
  subst s3. rewrite <- Eid. split; [|apply X; now apply (Permutation_in _ Hp)].
  apply Forall_app in Hl as [_ Hl]. apply Forall_cons_iff in Hl as [Ho _].
  apply (legal_self c n f keys0 true Ho). now apply (Permutation_in _ Hp).
Qed.
Print Assumptions C43_unchanged_files_are_consistent.

(** If no file can be read any more, the message is gone, and the other messages are
    untouched. *)
Theorem C43_reindex_of_lost_files_removes :
  forall compressed h s k d content decrypt_false, short_hash compressed -> Forall (legal compressed) h -> mrun compressed h empty_db = Some s ->
  has s k d -> m_ghost d = false -> (forall n, In n (m_files d) -> content n = None) ->
  exists s', reindex compressed decrypt_false content k d s = Some s' /\ ~ is_mail s' (m_id d) /\
    (forall j e, j <> k -> m_ghost e = false -> (has s' j e <-> has s j e)).
Proof.
  intros c h s k d content b Hc Hl E H Hg Hnone. destruct (mrun_inv c Hc h empty_db (inv_empty c) Hl) as (s0 & E0 & Hi & _). rewrite E in E0. injection E0 as <-.
  destruct (i_thread c s Hi k d H) as (t & T & _). unfold reindex, get_thread_id. rewrite T.
  set (s1 := sync k (clear_indexed b d) s).
  assert (R : forall names dd n, (forall x, In x names -> content x = None) -> reindex_files c content t names dd n s1 = Some (dd, n, s1)).
  { induction names as [|x names IH]; intros dd n Hx; cbn; [reflexivity|]. rewrite (Hx x (or_introl eq_refl)). apply IH. intros y Hy. apply Hx. now right. }
  rewrite (R (m_files d) _ _ Hnone).
  (* deletion sees the same state as from [s] with the document itself *)
  destruct (message_delete_spec c k d (add_thread t (clear_indexed b d)) t s Hi H) as (s' & Es & _ & L1 & L2 & D); [reflexivity|reflexivity|reflexivity|exact T|].
  assert (Same : message_delete c k (add_thread t (clear_indexed b d)) s1 = message_delete c k (add_thread t (clear_indexed b d)) s).
  { unfold message_delete, get_thread_id. cbn [m_threads add_thread set_threads clear_indexed nadd].
    assert (Q : ddel k (docs s1) = ddel k (docs s)).
    { unfold s1. cbn. pose proof (i_sorted c s Hi) as Sd. clear -H Sd. unfold has in H. revert H Sd. generalize (clear_indexed b d). intros v H.
      induction (docs s) as [|[a w] m IH]; [discriminate|]. cbn in H. intros [S1 S2].
      cbn. destruct (N.eqb_spec k a) as [->|Hne]; cbn.
      - now rewrite N.eqb_refl.
      - destruct (N.ltb_spec k a) as [C|C]; cbn.
        + exfalso. apply S1 in H. lia.
        + destruct (N.eqb_spec k a); [congruence|]. f_equal. now apply IH. }
    unfold s1 in *. cbn [set_docs sync docs] in *. unfold set_docs. cbn [docs last_doc last_thread]. rewrite Q. reflexivity. }
  rewrite Same, Es. exists s'. split; [reflexivity|]. destruct D as [[(k1 & e1 & Y1 & Y2 & Y3 & Y4) HH]|[Hno HH]].
  - split.
    + intros (j & e & X1 & X2 & X3). apply HH in X1 as [[-> ->]|[Hne X1]]; [discriminate|]. apply Hne. now apply (i_unique c s Hi j e k d).
    + intros j e Hj Ge. rewrite HH. split; [|auto]. intros [[-> ->]|[_ X]]; [discriminate|exact X].
  - split.
    + intros (j & e & X1 & X2 & X3). apply HH in X1 as [X1 X4]. assert (j = k) by now apply (i_unique c s Hi j e k d). subst j.
      assert (e = d) by (unfold has in *; congruence). subst e. contradiction.
    + intros j e Hj Ge. rewrite HH. split; [tauto|]. intros X. split; [exact X|]. intros X4. rewrite (Hno j e X Hj X4) in Ge. discriminate.
Qed.
Print Assumptions C43_reindex_of_lost_files_removes.

(** The hypotheses apply: the reply of the example, whose file now has an attachment. *)
Definition ex_content (n : bytes) : option (mfile * list bytes * bool) :=
  if bseq n (lit "1") then Some ({| f_id := lit "b@x"; f_references := lit "<a@x>"; f_in_reply_to := []; f_auto_tags := [lit "attachment"] |}, [lit "a@x"], true)
  else None.
Example C43_applies : exists s s' d', mrun ex_hash (ex_history ++ [OTags (lit "b@x") [lit "inbox"; lit "signed"]]) empty_db = Some s /\
  (exists d, has s 1 d /\ m_ghost d = false /\ consistent ex_hash s d ex_content /\ reindex ex_hash false ex_content 1 d s = Some s') /\
  has s' 1 d' /\ m_tags d' = [lit "inbox"; lit "attachment"] /\ m_threads d' = [2].
Proof.
  do 3 eexists. split; [vm_compute; reflexivity|]. split; [|split; [|split]].
  - eexists. split; [vm_compute; reflexivity|]. split; [reflexivity|]. split; [|vm_compute; reflexivity].
    intros n f keys ok r [<-|[]] X Hr. assert (Ec : ex_content (lit "1") = Some ({| f_id := lit "b@x"; f_references := lit "<a@x>"; f_in_reply_to := []; f_auto_tags := [lit "attachment"] |}, [lit "a@x"], true)) by reflexivity.
    assert (X' := eq_trans (eq_sym X) Ec). injection X' as -> -> ->. destruct Hr as [<-|[]]. split; [discriminate|].
    exists 2. split; [exists 2|exists 1]; (eexists; split; [vm_compute; reflexivity|split; [reflexivity|left; reflexivity]]).
  - vm_compute; reflexivity.
  - reflexivity.
  - reflexivity.
Qed.

(** Without consistency the message need not stay with its thread, and may end in two
    threads: two copies, whose references were changed on disk to unrelated messages. *)
Definition bad_content (n : bytes) : option (mfile * list bytes * bool) :=
  if bseq n (lit "1") then Some (ex_file "b@x" "<p@x>", [lit "p@x"], true)
  else if bseq n (lit "5") then Some (ex_file "b@x" "<q@x>", [lit "q@x"], true) else None.
Theorem C43_changed_files_two_threads_refuted :
  ~ (forall compressed h s k d content decrypt_false s' d', short_hash compressed -> Forall (legal compressed) h -> mrun compressed h empty_db = Some s ->
     has s k d -> m_ghost d = false ->
     (forall n f keys ok, In n (m_files d) -> content n = Some (f, keys, ok) -> legal compressed (OAdd n f keys ok) /\ stored compressed (f_id f) = m_id d) ->
     reindex compressed decrypt_false content k d s = Some s' -> has s' k d' -> exists t, m_threads d' = [t]).
Proof.
  intros H. specialize (H ex_hash [OAdd (lit "1") (ex_file "b@x" "<a@x>") [lit "a@x"] true; OAdd (lit "5") (ex_file "b@x" "<a@x>") [lit "a@x"] true]).
  assert (L : exists s d s' d', mrun ex_hash [OAdd (lit "1") (ex_file "b@x" "<a@x>") [lit "a@x"] true; OAdd (lit "5") (ex_file "b@x" "<a@x>") [lit "a@x"] true] empty_db = Some s /\
    has s 1 d /\ m_ghost d = false /\ m_files d = [lit "1"; lit "5"] /\ m_id d = lit "b@x" /\ reindex ex_hash false bad_content 1 d s = Some s' /\ has s' 1 d' /\ m_threads d' = [2; 3]).
  { do 4 eexists. split; [vm_compute; reflexivity|]. split; [vm_compute; reflexivity|]. split; [reflexivity|]. split; [reflexivity|]. split; [reflexivity|].
    split; [vm_compute; reflexivity|]. split; [vm_compute; reflexivity|]. reflexivity. }
  destruct L as (s & d & s' & d' & E & H1 & G & Ef & Ei & Er & H2 & T).
  destruct (H s 1 d bad_content false s' d') as (t & Et); try assumption.
  - intros x. cbn. lia.
  - repeat constructor; cbn; try (apply Permutation_refl); try (intros X; exfalso; repeat apply le_S_n in X; now inversion X).
  - rewrite Ef, Ei. intros n f keys ok [<-|[<-|[]]] X.
    + assert (Ec : bad_content (lit "1") = Some (ex_file "b@x" "<p@x>", [lit "p@x"], true)) by reflexivity. rewrite Ec in X. injection X as <- <- <-.
      split; [|reflexivity]. repeat constructor; cbn; try (apply Permutation_refl); try (intros X; exfalso; repeat apply le_S_n in X; now inversion X).
    + assert (Ec : bad_content (lit "5") = Some (ex_file "b@x" "<q@x>", [lit "q@x"], true)) by reflexivity. rewrite Ec in X. injection X as <- <- <-.
      split; [|reflexivity]. repeat constructor; cbn; try (apply Permutation_refl); try (intros X; exfalso; repeat apply le_S_n in X; now inversion X).
  - congruence.
Qed.
Print Assumptions C43_changed_files_two_threads_refuted.
