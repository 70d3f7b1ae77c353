(** C80: a 'notmuch tag' run that is killed, and repeated. *)
From Verif Require Import Bytes DocMap TagOps TagOpsSpec TagOpsProofs Maildir MailStore TagKill TagKillSpec TagKillProofs.
Local Open Scope N_scope.

(** Killed anywhere: every message has exactly the tags it had, or -- only if the query
    selects it -- exactly the tags the whole list of operations gives; nothing else of it
    changed, none appeared, none is gone. *)
Theorem C80_killed_all_or_nothing : forall ok sync ra q ops w w', at_rest w -> killed (tag_actions ok sync ra q ops w) w w' ->
  at_rest w' /\
  (forall k d, dget k (w_seen w) = Some d -> exists d', dget k (w_seen w') = Some d' /\ same_but d d' /\
     (d' = d \/ (q d = true /\ forall t, In t (m_tags d') <-> tag_after ra ops (fun u => In u (m_tags d)) t))) /\
  (forall k, dget k (w_seen w) = None -> dget k (w_seen w') = None).
Proof. exact killed_effect. Qed.

(** The messages are done one after another: up to one of them all are done, from there on
    none is touched. *)
Theorem C80_killed_order : forall ok sync ra q ops w w', at_rest w -> killed (tag_actions ok sync ra q ops w) w w' ->
  exists done todo, results q ra ops (w_seen w) = done ++ todo /\
    (forall k d, In (k, d) done -> exists d', dget k (w_seen w') = Some d' /\ same_but d d' /\
       forall t, In t (m_tags d') <-> tag_after ra ops (fun u => In u (m_tags d)) t) /\
    (forall k d, In (k, d) todo -> dget k (w_seen w') = Some d).
Proof.
  intros ok sync ra q ops w w' R K. destruct (killed_seen _ _ _ _ _ _ _ R K) as (p & r & E & S & R'). destruct R as [_ N]. rewrite S.
  apply (prefix_order ok ra (negb ra) sync ops _ (w_disk w) p r w); [now apply results_NoDup| |exact E].
  intros k d I. apply results_In in I as [I _]. now apply In_dget_nodup.
Qed.

(** The files: each is under its old name or under the new one that the run gives it, with
    its contents; no other file appears. *)
Theorem C80_no_file_lost : forall ok sync ra q ops w w', clean (tag_actions ok sync ra q ops w) (w_disk w) ->
  killed (tag_actions ok sync ra q ops w) w w' ->
  (forall f c, w_disk w f = Some c ->
     w_disk w' f = Some c \/ exists g, In (ARename f g) (tag_actions ok sync ra q ops w) /\ w_disk w' g = Some c) /\
  (forall g, w_disk w g = None -> ~ In g (targets (tag_actions ok sync ra q ops w)) -> w_disk w' g = None).
Proof.
  intros ok sync ra q ops w w' C K. destruct (killed_prefix _ _ _ K) as (_ & p & r & E & D & _). rewrite E in *.
  destruct (sub_clean _ _ _ C) as [C1 C2]. destruct (run_disk p w C1 C2) as [A B]. rewrite D. split.
  - intros f c H. destruct (A f c H) as [[X _]|(g & X & Y)]; [now left|right]. exists g. split; [apply in_or_app; now left|exact Y].
  - intros g H Hg. apply B; [exact H|]. intros I. apply Hg. unfold targets in *. rewrite flat_map_app. apply in_or_app. now left.
Qed.

(** Run to the end: the operations on the messages selected, nothing on the others. *)
Theorem C80_complete : forall ok sync ra q ops w, at_rest w ->
  (forall k d, dget k (w_seen w) = Some d -> exists d', dget k (w_durable (finish (tag_actions ok sync ra q ops w) w)) = Some d' /\ same_but d d' /\
     forall t, In t (m_tags d') <-> (if q d then tag_after ra ops (fun u => In u (m_tags d)) t else In t (m_tags d))) /\
  (forall k, dget k (w_seen w) = None -> dget k (w_durable (finish (tag_actions ok sync ra q ops w) w)) = None).
Proof. intros ok sync ra q ops w [_ N]. now apply finish_effect. Qed.

(** Killed any number of times and then run to the end: the tags are those of a run that
    was never killed, also when the query is about the tags that the operations change.  (The
    query is one about the message itself, not about its thread.) *)
Theorem C80_repeat_completes : forall ok sync ra q ops w w', at_rest w -> killed_repeatedly ok sync ra q ops w w' ->
  forall k, match dget k (w_durable (finish (tag_actions ok sync ra q ops w) w)), dget k (w_durable (finish (tag_actions ok sync ra q ops w') w')) with
            | Some d, Some d' => same_but d d' /\ same_tags (m_tags d) (m_tags d')
            | None, None => True
            | _, _ => False
            end.
Proof.
  intros ok sync ra q ops w w' R K k.
  assert (H : at_rest w' /\
    (forall d, dget k (w_seen w) = Some d -> exists d', dget k (w_seen w') = Some d' /\ same_but d d' /\
       (d' = d \/ (q d = true /\ forall t, In t (m_tags d') <-> tag_after ra ops (fun u => In u (m_tags d)) t))) /\
    (dget k (w_seen w) = None -> dget k (w_seen w') = None)).
  { induction K as [w|w w1 w2 K1 K IH].
    - split; [exact R|]. split; [|auto]. intros d Hd. exists d. split; [exact Hd|]. split; [apply same_but_refl|]. now left.
    - destruct (killed_effect _ _ _ _ _ _ _ R K1) as (R1 & A & B). destruct (IH R1) as (R2 & C & D). split; [exact R2|]. split.
      + intros d Hd. destruct (A k d Hd) as (d1 & E1 & S1 & T1). destruct (C d1 E1) as (d2 & E2 & S2 & T2).
        exists d2. split; [exact E2|]. split; [now apply same_but_trans with d1|].
        destruct T1 as [->|[Q1 T1]]; [exact T2|]. right. split; [exact Q1|]. intros t. destruct T2 as [T2|[_ T2]].
        * subst d2. apply T1.
        * rewrite T2. rewrite (tag_after_mono ra ops (fun u => In u (m_tags d1)) (tag_after ra ops (fun u => In u (m_tags d)))) by exact T1.
          apply tag_after_idem.
      + intros Hk. apply D, B, Hk. }
  destruct H as (R' & H1 & H2).
  destruct (C80_complete ok sync ra q ops w R) as [A1 A2]. destruct (C80_complete ok sync ra q ops w' R') as [B1 B2].
  destruct (dget k (w_seen w)) as [d|] eqn:E.
  - destruct (A1 k d E) as (e & E1 & S1 & T1). destruct (H1 d eq_refl) as (d' & E' & S' & T').
    destruct (B1 k d' E') as (e' & E2 & S2 & T2). rewrite E1, E2.
    split.
    { destruct S1 as (a1 & a2 & a3 & a4 & a5 & a6), S' as (b1 & b2 & b3 & b4 & b5 & b6), S2 as (c1 & c2 & c3 & c4 & c5 & c6). repeat split; congruence. }
    intros t. rewrite T1, T2. destruct T' as [->|[Qd T']]; [reflexivity|].
    rewrite Qd. destruct (q d'); [|symmetry; apply T'].
    rewrite (tag_after_mono ra ops (fun u => In u (m_tags d')) (tag_after ra ops (fun u => In u (m_tags d)))) by exact T'.
      symmetry. apply tag_after_idem.
  - rewrite (A2 k E), (B2 k (H2 eq_refl)). exact Logic.I.
Qed.

(** Interrupted with a signal the command handles: the first [n] results are done, the
    others not touched, all of it durable. *)
Theorem C80_interrupted : forall n ok sync ra q ops w, at_rest w ->
  let w' := interrupted_after n ok sync ra q ops w in
  w_seen w' = w_durable w' /\
  (forall k d, In (k, d) (firstn n (results q ra ops (w_seen w))) -> exists d', dget k (w_durable w') = Some d' /\ same_but d d' /\
     forall t, In t (m_tags d') <-> tag_after ra ops (fun u => In u (m_tags d)) t) /\
  (forall k, ~ In k (map fst (firstn n (results q ra ops (w_seen w)))) -> dget k (w_durable w') = dget k (w_durable w)).
Proof.
  intros n ok sync ra q ops w [E N] w'. unfold w', interrupted_after, finish. cbn [flush w_seen w_durable].
  set (rs := firstn n (results q ra ops (w_seen w))).
  change (fold_left (fun w a => exec a w) ?l ?x) with (run_acts l x).
  assert (I0 : forall x, In x rs -> In x (results q ra ops (w_seen w))).
  { intros x Hx. rewrite <- (firstn_skipn n). apply in_or_app. now left. }
  assert (Nr : NoDup (map fst rs)).
  { pose proof (results_NoDup q ra ops _ N) as X. unfold rs. revert X. generalize (results q ra ops (w_seen w)). clear. intros l X.
    assert (Y : NoDup ((map fst (firstn n l) ++ map fst (skipn n l)) ++ [] ++ [])).
    { rewrite <- map_app, firstn_skipn. cbn. now rewrite app_nil_r. }
    apply NoDup_drop in Y. now rewrite app_nil_r in Y. }
  split; [reflexivity|]. split.
  - intros k d I. apply (all_done ok ra (negb ra) sync ops rs w (w_disk w) Nr); [|exact I].
    intros j e Ij. apply I0 in Ij. apply results_In in Ij as [Ij _]. now apply In_dget_nodup.
  - intros k Hk. rewrite other_writes by now apply writes_of. now rewrite E.
Qed.

(** ** A case, and what does not hold *)
Definition ex_msg (tags : list bytes) (file : bytes) : mdoc :=
  {| m_id := lit "a@b"; m_ghost := false; m_threads := [1]; m_tags := tags; m_props := []; m_files := [file]; m_refs := []; m_replyto := [] |}.
Definition ex_old := lit "/m/cur/1:2,".
Definition ex_new := lit "/m/cur/1:2,S".
Definition ex_world : world :=
  let m := [(1, ex_msg [lit "unread"; lit "inbox"] ex_old)] in
  {| w_seen := m; w_durable := m; w_disk := fun p => if bseq p ex_old then Some (lit "mail") else None |}.
Definition ex_ops := [{| to_tag := lit "unread"; to_remove := true |}; {| to_tag := lit "done"; to_remove := false |}].
Definition ex_all : mquery := fun _ => true.
Definition ex_ok : bytes -> bool := fun _ => true.

Example C80_example_actions : tag_actions ex_ok true false ex_all ex_ops ex_world =
  [AWrite 1 (ex_msg [lit "done"; lit "inbox"] ex_old); ARename ex_old ex_new; AWrite 1 (ex_msg [lit "done"; lit "inbox"] ex_new)].
Proof. vm_compute. reflexivity. Qed.
Example C80_example_rest : at_rest ex_world /\ clean (tag_actions ex_ok true false ex_all ex_ops ex_world) (w_disk ex_world).
Proof.
  split; [split; [reflexivity|repeat constructor; intros []]|].
  rewrite C80_example_actions. split.
  - cbn. repeat constructor; cbn; intuition discriminate.
  - intros g [<-|[]]. vm_compute. reflexivity.
Qed.
(** killed after the first write, which had been flushed. *)
Definition ex_k1 : world :=
  let m := [(1, ex_msg [lit "done"; lit "inbox"] ex_old)] in {| w_seen := m; w_durable := m; w_disk := w_disk ex_world |}.
Example C80_example_killed : killed (tag_actions ex_ok true false ex_all ex_ops ex_world) ex_world ex_k1.
Proof. rewrite C80_example_actions. apply k_effect, k_flush. exact (k_now _ (flush (exec (AWrite 1 (ex_msg [lit "done"; lit "inbox"] ex_old)) ex_world))). Qed.
(** killed after the rename, nothing flushed. *)
Definition ex_k2 : world :=
  {| w_seen := w_seen ex_world; w_durable := w_seen ex_world; w_disk := rename_file ex_old ex_new (w_disk ex_world) |}.
Example C80_example_killed2 : killed (tag_actions ex_ok true false ex_all ex_ops ex_world) ex_world ex_k2.
Proof.
  rewrite C80_example_actions. apply k_effect, k_effect.
  exact (k_now _ (exec (ARename ex_old ex_new) (exec (AWrite 1 (ex_msg [lit "done"; lit "inbox"] ex_old)) ex_world))).
Qed.
Lemma ex_k1_nothing : tag_actions ex_ok true false ex_all ex_ops ex_k1 = [].
Proof. vm_compute. reflexivity. Qed.

(** Repeating the command does not bring the files up to date: a message killed between the
    two is no longer among the results (the query leaves out messages that have the tags
    already), so its file is never renamed. *)
Theorem C80_repeat_completes_files_refuted :
  ~ (forall ok sync ra q ops w w', at_rest w -> killed_repeatedly ok sync ra q ops w w' ->
     forall p, w_disk (finish (tag_actions ok sync ra q ops w') w') p = w_disk (finish (tag_actions ok sync ra q ops w) w) p).
Proof.
  intros H. destruct C80_example_rest as (R & _).
  specialize (H ex_ok true false ex_all ex_ops ex_world ex_k1 R).
  specialize (H (kr_more _ _ _ _ _ _ _ _ C80_example_killed (kr_none _ _ _ _ _ _)) ex_old).
  rewrite ex_k1_nothing, C80_example_actions in H.
  assert (A : w_disk (finish [] ex_k1) ex_old = Some (lit "mail")) by (vm_compute; reflexivity).
  rewrite A in H. vm_compute in H. discriminate H.
Qed.

(** And with the flags on the disk taken as the truth afterwards ('notmuch new' with
    maildir.synchronize_flags), the operations are not all or nothing: here the message has
    lost "unread" and not got "done". *)
Theorem C80_all_or_nothing_with_flags_refuted :
  ~ (forall ok sync ra q ops w w' k d d' files, at_rest w -> killed (tag_actions ok sync ra q ops w) w w' ->
     dget k (w_seen w) = Some d -> dget k (w_seen w') = Some d' ->
     (forall f, In f files <-> w_disk w' f <> None) ->
     same_tags (maildir_flags_to_tags files (m_tags d')) (m_tags d) \/
     forall t, In t (maildir_flags_to_tags files (m_tags d')) <-> tag_after ra ops (fun u => In u (m_tags d)) t).
Proof.
  intros H. destruct C80_example_rest as (R & _).
  specialize (H ex_ok true false ex_all ex_ops ex_world ex_k2 1 (ex_msg [lit "unread"; lit "inbox"] ex_old) (ex_msg [lit "unread"; lit "inbox"] ex_old) [ex_new] R C80_example_killed2 eq_refl eq_refl).
  assert (L : maildir_flags_to_tags [ex_new] [lit "unread"; lit "inbox"] = [lit "inbox"]) by (vm_compute; reflexivity).
  cbn [ex_msg m_tags] in H. rewrite L in H. destruct H as [H|H].
  - intros f. cbn [ex_k2 w_disk ex_world]. unfold rename_file. destruct (bseq_spec f ex_new) as [->|Hn].
    + split; [|intros _; now left]. intros _. vm_compute. discriminate.
    + split; [intros [X|[]]; congruence|]. destruct (bseq_spec f ex_old); [congruence|]. intros X. now elim X.
  - destruct (proj2 (H (lit "unread")) (or_introl eq_refl)) as [X|[]]. discriminate X.
  - assert (X : In (lit "done") [lit "inbox"]); [|destruct X as [X|[]]; discriminate X].
    apply H. left. exists [{| to_tag := lit "unread"; to_remove := true |}], []. split; [reflexivity|]. intros o [].
Qed.

Print Assumptions C80_killed_all_or_nothing.
Print Assumptions C80_killed_order.
Print Assumptions C80_no_file_lost.
Print Assumptions C80_complete.
Print Assumptions C80_repeat_completes.
Print Assumptions C80_interrupted.
Print Assumptions C80_repeat_completes_files_refuted.
Print Assumptions C80_all_or_nothing_with_flags_refuted.
