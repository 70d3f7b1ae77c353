(** C95: lifetimes of objects in the Ruby bindings. *)
From Coq Require Import Arith Bool List Lia.
From Verif Require Import RbLife RbLifeSpec RbLifeProofs RbLifeProofs7 RbLifeProofs8 RbLifeProofs10 RbLifeProofs11.
Import ListNotations.
Local Open Scope nat_scope.

(** A tidy program, whatever it does and however long it runs, never touches memory that is free. *)
Theorem C95_safe : forall es, follows tidy empty es -> exists s, run empty es = Some s.
Proof. intros es H. destruct (run_D es empty D_empty H) as (s & A & _). eauto. Qed.

(** After destroy! every method of the object raises, for ever, and changes nothing; in any program. *)
Theorem C95_destroyed : forall es s o s1 es' s2 e,
  run empty es = Some s -> step s (Destroy o) = Returns s1 -> run s1 es' = Some s2 -> on e o -> step s2 e = Raises s2.
Proof.
  intros es s o s1 es' s2 e H1 H2 H3 H4. assert (B : bounded s) by (eapply run_bounded; eauto; apply bounded_empty).
  assert (B1 : bounded s1) by (eapply step_bounded; eauto; rewrite H2; auto).
  apply destroyed_raises with o; auto. eapply destroyed_stays; eauto. eapply destroy_destroyed; eauto.
Qed.

(** In any program, tidy or not, the interpreter itself frees nothing twice. *)
Theorem C95_collect : forall es s o, run empty es = Some s -> step s (Collect o) <> Undefined.
Proof. intros es s o H. apply collect_never. eapply run_G; eauto. apply G_empty. Qed.

(** When all objects are gone all memory is free, but for the empty wrappers that "alloc" made. *)
Theorem C95_no_leak : forall es s, run empty es = Some s -> (forall x r, ~ live s x r) ->
  forall b ch, mem s b = Some ch -> ch = {| parent := None; what := KWrap None |}.
Proof. intros es s H. apply no_leak. eapply run_G; eauto. apply G_empty. Qed.

(** What was changed in a database, even if the program did not keep what it needs later, is on disk
    once close or destroy! has returned, and stays there. *)
Theorem C95_written : forall es s x r c s1 es1 s2 e s3 es2 s4,
  run empty es = Some s -> objs s x = Some r -> o_cls r = Database -> step s (Write x c) = Returns s1 ->
  run s1 es1 = Some s2 -> (e = Close x \/ e = Destroy x) -> step s2 e = Returns s3 -> run s3 es2 = Some s4 ->
  In c (disk s3) /\ In c (disk s4).
Proof.
  intros es s x r c s1 es1 s2 e s3 es2 s4 H1 H2 H3 H4 H5 H6 H7 H8.
  assert (G0 : G None s) by (eapply run_G; eauto; apply G_empty).
  assert (G1 : G None s1) by (eapply step_G'; eauto; rewrite H4; auto).
  assert (G2 : G None s2) by (eapply run_G; eauto).
  assert (G3 : G None s3) by (eapply step_G'; eauto; rewrite H7; auto).
  assert (X : In c (disk s3)).
  { apply (closed_kept s2 e s3 c x); auto. apply (kept_run es1 s1 s2); auto. apply (write_kept_db s x r c s1); auto. }
  split; [auto|]. apply (disk_run es2 s3); auto.
Qed.
(** So is what was changed through a message or a directory, if the program was tidy up to then. *)
Theorem C95_written_object : forall es s o r c s1 es1 s2 e s3 es2 s4,
  follows tidy empty es -> run empty es = Some s -> objs s o = Some r -> step s (Write o c) = Returns s1 ->
  run s1 es1 = Some s2 -> (e = Close (o_db r) \/ e = Destroy (o_db r)) -> step s2 e = Returns s3 -> run s3 es2 = Some s4 ->
  In c (disk s3) /\ In c (disk s4).
Proof.
  intros es s o r c s1 es1 s2 e s3 es2 s4 HT H1 H2 H4 H5 H6 H7 H8.
  assert (G0 : G None s) by (eapply run_G; eauto; apply G_empty).
  assert (D0 : D s) by (destruct (run_D es empty D_empty HT) as (s' & A & B); congruence).
  assert (G1 : G None s1) by (eapply step_G'; eauto; rewrite H4; auto).
  assert (G2 : G None s2) by (eapply run_G; eauto).
  assert (G3 : G None s3) by (eapply step_G'; eauto; rewrite H7; auto).
  assert (X : In c (disk s3)).
  { apply (closed_kept s2 e s3 c (o_db r)); auto. apply (kept_run es1 s1 s2); auto. apply (write_kept s o r c s1); auto. }
  split; [auto|]. apply (disk_run es2 s3); auto.
Qed.

(** *** None of what "tidy" asks for can be left out. *)
Definition two_messages : shape := {| sh_replies := [[1]; []]; sh_top := [0] |}.
(** A query does not keep its database: the interpreter collects the database, then the query counts. *)
Theorem C95_keeps_database_refuted : run empty [New; Make 0 query; Collect 0; Use 1 true] = None.
Proof. vm_compute. reflexivity. Qed.
(** Threads do not keep their query. *)
Theorem C95_keeps_query_refuted : run empty [New; Make 0 query; Make 1 search_threads; Collect 1; Each 2 (Some two_messages)] = None.
Proof. vm_compute. reflexivity. Qed.
(** thread.messages does not keep the thread. *)
Theorem C95_keeps_thread_refuted :
  run empty [New; Make 0 query; Make 1 search_threads; Each 2 (Some two_messages); ThreadMessages 3 false; Collect 3; Each 4 None] = None.
Proof. vm_compute. reflexivity. Qed.
(** A message of a thread belongs to the last Ruby object made for it: after that one was collected the
    message is gone from the thread too, so that one cannot go through the messages again. *)
Theorem C95_messages_again_refuted :
  run empty [New; Make 0 query; Make 1 search_threads; Each 2 (Some two_messages); ThreadMessages 3 false; Each 4 None; Break;
             Collect 5; ThreadMessages 3 false; Each 6 None] = None.
Proof. vm_compute. reflexivity. Qed.
(** Two objects for one message: destroy! of both frees it twice. *)
Theorem C95_destroy_both_refuted :
  run empty [New; Make 0 query; Make 1 search_threads; Each 2 (Some two_messages); ThreadMessages 3 false; Each 4 None; Break;
             ThreadMessages 3 true; Each 6 None; Break; Destroy 5; Destroy 7] = None.
Proof. vm_compute. reflexivity. Qed.
(** messages.destroy! in the block of its own "each". *)
Theorem C95_destroy_in_each_refuted : run empty [New; Make 0 query; Make 1 search_messages; Each 2 (Some two_messages); Destroy 2; Continue None] = None.
Proof. vm_compute. reflexivity. Qed.
(** message.replies.tags of a message that has no replies. *)
Theorem C95_no_replies_tags_refuted : run empty [New; Make 0 find; Replies 1; Tags 2] = None.
Proof. vm_compute. reflexivity. Qed.
(** thread.messages.tags frees the messages of the thread. *)
Theorem C95_thread_tags_refuted :
  run empty [New; Make 0 query; Make 1 search_threads; Each 2 (Some two_messages); ThreadMessages 3 false; Tags 4; ThreadMessages 3 false; Each 5 None] = None.
Proof. vm_compute. reflexivity. Qed.
(** A database that is collected, not closed, forgets what was changed, though the program is tidy. *)
Theorem C95_collected_changes_refuted : exists es s s1 s2,
  follows tidy empty es /\ run empty es = Some s /\ step s (Write 0 7) = Returns s1 /\ step s1 (Collect 0) = Returns s2 /\ ~ In 7 (disk s2) /\ forall x r, ~ live s2 x r.
Proof.
  exists [New]. do 3 eexists. split; [apply followsb_ok; [apply bounded_empty|reflexivity]|]. split; [reflexivity|]. split; [reflexivity|]. split; [reflexivity|].
  split; [simpl; auto|]. intros x r (A & B & C). simpl in A. unfold upd in A. destruct (x =? 0); [|discriminate]. injection A as <-. discriminate.
Qed.
(** Every Database.new leaves a block behind. *)
Theorem C95_leak_refuted : exists es s b, follows tidy empty es /\ run empty es = Some s /\ (forall x r, ~ live s x r) /\ mem s b <> None.
Proof.
  exists [New; Destroy 0]. do 1 eexists. exists 0. split; [apply followsb_ok; [apply bounded_empty|vm_compute; reflexivity]|]. split; [reflexivity|]. split; [|vm_compute; discriminate].
  intros x r (A & B & C). simpl in A. unfold upd in A. destruct (x =? 0); [|discriminate]. injection A as <-. apply C. reflexivity.
Qed.

(** *** Not vacuous *)
(** A program that searches for threads, goes through the messages of a thread and the replies, writes, and lets go of everything in order. *)
Definition program : list event :=
  [New; Make 0 query; Make 1 search_threads; Each 2 (Some two_messages); ThreadMessages 3 true; Each 4 None;
   Write 5 7; Replies 5; Each 6 None; Use 7 true; Continue None; Continue None;
   Destroy 7; Destroy 6; Collect 5; Destroy 4; Destroy 3; Continue None; Collect 2; Destroy 1; Destroy 0].
Definition blocks_in_use (s : state) : list block := filter (in_use (mem s)) (seq 0 (next_block s)).
Example C95_program_tidy : follows tidy empty program.
Proof. apply followsb_ok; [apply bounded_empty|vm_compute; reflexivity]. Qed.
Example C95_program_result : match run empty program with Some s => (disk s, next_obj s, blocks_in_use s) | None => ([], 0, []) end = ([7], 8, [0]).
Proof. vm_compute. reflexivity. Qed.
(** The hypotheses of C95_destroyed, C95_written and C95_written_object are met on the way. *)
Example C95_program_steps :
  match run empty (firstn 6 program) with
  | Some s => match step s (Write 5 7) with
              | Returns s1 => match run s1 (firstn 13 (skipn 7 program)) with
                              | Some s2 => match step s2 (Destroy 0) with Returns s3 => (map o_db (match objs s 5 with Some r => [r] | None => [] end), disk s2, disk s3) | _ => ([], [], []) end
                              | None => ([], [], [])
                              end
              | _ => ([], [], [])
              end
  | None => ([], [], [])
  end = ([0], [], [7]).
Proof. vm_compute. reflexivity. Qed.

Print Assumptions C95_safe.
Print Assumptions C95_destroyed.
Print Assumptions C95_collect.
Print Assumptions C95_no_leak.
Print Assumptions C95_written.
Print Assumptions C95_written_object.
Print Assumptions C95_keeps_database_refuted.
Print Assumptions C95_keeps_query_refuted.
Print Assumptions C95_keeps_thread_refuted.
Print Assumptions C95_messages_again_refuted.
Print Assumptions C95_destroy_both_refuted.
Print Assumptions C95_destroy_in_each_refuted.
Print Assumptions C95_no_replies_tags_refuted.
Print Assumptions C95_thread_tags_refuted.
Print Assumptions C95_collected_changes_refuted.
Print Assumptions C95_leak_refuted.
