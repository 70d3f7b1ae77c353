(** C83: no program that uses the Python bindings as intended makes the library read or free
    memory that is free, in whatever order the interpreter finalizes the objects. *)
From Verif Require Import PyLife PyLifeSpec PyLifeProofs PyLifeProofs2 PyLifeProofs3.
From Coq Require Import Arith Bool List Lia.
Import ListNotations.
Local Open Scope nat_scope.

(** A program that asks objects whether they are alive before it uses them, destroys what it likes when
    it likes, and whose objects are finalized in any order at any time, is safe. *)
Theorem C83_careful : forall es, follows careful empty es -> run empty es <> None.
Proof. exact careful_safe. Qed.
(** A program that leaves lifetimes to reference counting need not ask, with the two exceptions in [counted]. *)
Theorem C83_counted : forall es, follows counted empty es -> run empty es <> None.
Proof. exact counted_safe. Qed.
(** After any program, an object that was destroyed raises an exception when it is used, and
    so does every view of it; destroying it again does nothing to the memory or other objects. *)
Theorem C83_destroyed : forall es s o r s1, run empty es = Some s -> objs s o = Some r -> o_cls r <> Owned -> o_cls r <> View -> step s (Destroy o) = Returns s1 ->
  step s1 (Use o) = Raises s1 /\ step s1 (Exhaust o) = Raises s1 /\ (forall m, step s1 (Call o m) = Raises s1) /\ (forall found, step s1 (Rollback o found) = Raises s1) /\
  (forall v rv, objs s1 v = Some rv -> o_cls rv = View -> o_parent rv = Some o -> step s1 (Use v) = Raises s1 /\ forall m, step s1 (Call v m) = Raises s1) /\
  exists s2, step s1 (Destroy o) = Returns s2 /\ memory s2 = memory s1 /\ forall x, objs s2 x = objs s1 x.
Proof.
  intros es s o r s1 Run E N1 N2 D. cbn [step] in *. assert (Kn : keeps_nothing (o_cls r) = false) by (destruct (o_cls r); try reflexivity; exfalso; auto).
  pose proof (destroyed s o s1 D ltac:(now rewrite E)) as P. destruct (destroy_objs s o s1 D) as (_ & _ & Oth & r0 & r1 & E0 & E1 & C1 & P1 & _ & Ptr). assert (r0 = r) by congruence. subst r0.
  assert (P0 : o_ptr r1 = None) by (destruct Ptr as [Ptr|[Ptr _]]; [exact Ptr|congruence]).
  assert (A : forall k, access s1 o k = Raises s1) by (intros k; unfold access; now rewrite P).
  split; [apply A|]. split; [rewrite E1; destruct (o_cls r1); auto|]. split; [intros m; unfold call; rewrite E1; destruct (makes (o_cls r1) m) as [[c n]|]; auto|].
  split; [intros found; unfold rollback; rewrite E1; destruct (o_cls r1); auto|]. split.
  - intros v rv Ev Cv Pv. assert (A' : forall k, access s1 v k = Raises s1) by (intros k; unfold access, pointer; now rewrite Ev, Cv, Pv, E1, P0).
    split; [apply A'|]. intros m. unfold call. rewrite Ev. destruct (makes (o_cls rv) m) as [[c n]|]; auto.
  - unfold destroy. rewrite E1, C1, Kn, P0. destruct (_ || _); [exists s1; auto|]. exists (set_obj s1 o (with_ptr r1 None)). split; [reflexivity|]. split; [reflexivity|]. intros x. cbn [set_obj objs].
    destruct (Nat.eq_dec x o) as [->|N]; [rewrite upd_same, E1; f_equal; destruct r1; cbn in *; now subst|now rewrite upd_other].
Qed.
(** After any program, if its databases are destroyed, nothing is left allocated, even if other objects were not destroyed. *)
Theorem C83_no_leak : forall es s, run empty es = Some s -> (forall o r, objs s o = Some r -> o_cls r = Database -> o_ptr r = None) -> forall b, memory s b = None.
Proof.
  intros es s Run H b. assert (Q : rooted s) by (apply (run_rooted es empty s empty_wf); [intros x L; cbn in L; congruence|exact Run]).
  destruct (memory s b) eqn:E; [|reflexivity]. destruct (Q b) as (R & rR & d & E1 & C & P & _); [congruence|]. rewrite (H R rR E1 C) in P. discriminate.
Qed.

(** A message of a thread belongs to the thread: after any program, destroying or finalizing it frees nothing at all and
    leaves every object as usable as it was, so that the same message can still be used through another object
    (the library gives the same memory for it every time: lib/thread.cc:656-666). *)
Theorem C83_of_thread : forall es s o r, run empty es = Some s -> objs s o = Some r -> o_cls r = Owned ->
  step s (Destroy o) = Returns s /\
  exists s1, step s (Finalize o) = Returns s1 /\ memory s1 = memory s /\ forall x, pointer (objs s1) x = pointer (objs s) x.
Proof.
  intros es s o r _ E C. assert (D : destroy s o = Returns s) by (unfold destroy; rewrite E, C; reflexivity).
  cbn [step]. split; [exact D|]. rewrite E, D, E. eexists. split; [reflexivity|]. split; [reflexivity|].
  intros x. assert (P : forall y, match objs (set_obj s o (finalized r)) y with Some r' => Some (o_cls r', o_parent r', o_ptr r') | None => None end =
    match objs s y with Some r' => Some (o_cls r', o_parent r', o_ptr r') | None => None end).
  { intros y. cbn [objs set_obj]. unfold upd. destruct (Nat.eqb_spec y o) as [-> |_]; [now rewrite E|reflexivity]. }
  pose proof (P x) as Px. unfold pointer.
  destruct (objs (set_obj s o (finalized r)) x) as [a|], (objs s x) as [b|]; try discriminate Px; [|reflexivity].
  injection Px as -> -> ->. destruct (o_cls b); try reflexivity. destruct (o_parent b) as [p|]; [|reflexivity].
  pose proof (P p) as Pp. destruct (objs (set_obj s o (finalized r)) p) as [a'|], (objs s p) as [b'|]; try discriminate Pp; [|reflexivity].
  injection Pp as _ _ ->. reflexivity.
Qed.
Print Assumptions C83_of_thread.
Example thread_message_met : exists s r, run empty [Open; Call 0 create_query; Call 1 threads; Call 2 next; Call 3 thread_messages; Call 4 next] = Some s /\ objs s 5 = Some r /\ o_cls r = Owned.
Proof. eexists. eexists. split; [reflexivity|]. split; reflexivity. Qed.

(** A list of the messages found by a query cannot be used: "list (db.messages (q)) [0].tags".
    The end of the iteration frees the messages.  Nothing is destroyed by the program. *)
Definition list_messages : list event := [Open; Call 0 create_query; Call 1 messages; Call 2 next; Exhaust 2; Use 3].
Theorem C83_list_refuted : (forall o, ~ In (Destroy o) list_messages) /\ (forall o, ~ In (Finalize o) list_messages) /\ run empty list_messages = None.
Proof. split; [|split]; [intros o H; repeat (destruct H as [H|H]; [discriminate H|]); exact H|intros o H; repeat (destruct H as [H|H]; [discriminate H|]); exact H|reflexivity]. Qed.
(** Nor does "alive" help if a "with message.frozen ():" fails while an iterator over the tags of the message exists:
    the iterator says it is alive, but using or finalizing it is undefined. *)
Definition frozen_fails : list event := [Open; Call 0 PyLife.find; Call 1 leaf; Rollback 1 true].
Theorem C83_frozen_refuted : exists s, run empty frozen_fails = Some s /\ alive (objs s) 2 = true /\ step s (Use 2) = Undefined /\ step s (Finalize 2) = Undefined.
Proof.
  destruct (run empty frozen_fails) as [s|] eqn:E; [|discriminate E]. exists s. split; [reflexivity|]. split; [exact (at_state _ s (fun s => alive (objs s) 2) true E eq_refl)|].
  split; [apply (at_state frozen_fails s (fun s => step s (Use 2)) _ E); reflexivity|apply (at_state frozen_fails s (fun s => step s (Finalize 2)) _ E); reflexivity].
Qed.
(** And an object can say it is not alive although it can be used: a thread, once the iteration over the threads has ended. *)
Theorem C83_alive_refuted : exists s, run empty [Open; Call 0 create_query; Call 1 threads; Call 2 next; Exhaust 2] = Some s /\ alive (objs s) 3 = false /\ step s (Use 3) = Returns s.
Proof.
  destruct (run empty _) as [s|] eqn:E; [|discriminate E]. exists s. split; [reflexivity|]. split; [exact (at_state _ s (fun s => alive (objs s) 3) false E eq_refl)|]. cbn [step]. unfold access.
  rewrite (at_state _ s (fun s => pointer (objs s) 3) (Some 3) E eq_refl). now rewrite (at_state _ s (fun s => in_use (memory s) 3) true E eq_refl).
Qed.

(** ** Examples *)
(** Iterating over messages, looking at the tags of each, then everything is finalized, database first. *)
Definition any_order : list event := [Open; Call 0 create_query; Call 1 messages; Call 2 next; GetView 3; Call 4 leaf; Use 5; Exhaust 5; Destroy 0; Finalize 0; Finalize 5; Finalize 2; Finalize 3; Finalize 4; Finalize 1].
Example any_order_careful : follows careful empty any_order.
Proof.
  apply follows_at; [reflexivity|]. intros n e s N R.
  do 15 (destruct n as [|n]; [cbn [nth_error any_order] in N; injection N as <-; cbn [firstn any_order] in R; cbn [careful]; try exact Logic.I; match goal with |- alive (objs s) ?o = _ => exact (at_state _ s (fun s => alive (objs s) o) true R eq_refl) end|]).
  destruct n; discriminate N.
Qed.
Example any_order_runs : option_map (fun s => (next_obj s, next_block s, map (memory s) (seq 0 5))) (run empty any_order) = Some (6, 5, [None; None; None; None; None]).
Proof. reflexivity. Qed.
(** Threads, their messages and replies, by reference counting. *)
Definition threads_counted : list event := [Open; Call 0 create_query; Call 1 threads; Call 2 next; Exhaust 2; Call 3 thread_messages; Call 4 next; Call 5 replies; Call 6 next; Use 7; Exhaust 4; Use 5; Use 7; Finalize 7; Finalize 6; Finalize 5; Finalize 4; Finalize 3].
Example threads_follow : follows counted empty threads_counted.
Proof.
  apply follows_at; [reflexivity|]. intros n e s N R.
  assert (Hand : forall o c pa pt, option_map (fun s => objs s o) (run empty (firstn n threads_counted)) = Some (Some {| o_cls := c; o_parent := pa; o_ptr := pt; o_final := false |}) -> in_hand s o).
  { intros o c pa pt H. rewrite R in H. cbn [option_map] in H. injection H as H. eexists. split; [exact H|reflexivity]. }
  assert (Cls : forall o c r, option_map (fun s => objs s o) (run empty (firstn n threads_counted)) = Some (Some r) -> o_cls r <> c -> ~ of_class s o c).
  { intros o c r H X (r' & E & C). rewrite R in H. cbn [option_map] in H. injection H as H. congruence. }
  assert (Fin : forall o, option_map (fun s => forallb (fun x => match objs s x with Some r => negb (match o_parent r with Some p => p =? o | None => false end) || o_final r | None => true end) (seq 0 (next_obj s))) (run empty (firstn n threads_counted)) = Some true ->
    forall x, child_of s x o -> is_final s x).
  { intros o H x (r & E & P). rewrite R in H. cbn [option_map] in H. injection H as H. rewrite forallb_forall in H. specialize (H x). rewrite E, P, Nat.eqb_refl in H. exists r. split; [exact E|].
    apply H. apply in_seq. pose proof (run_wf _ _ _ empty_wf R) as W. apply (wf_obj s W) in E. lia. }
  do 18 (destruct n as [|n]; [cbn [nth_error threads_counted] in N; injection N as <-; cbn [counted]; first
    [exact Logic.I | eapply Hand; reflexivity
    | split; [eapply Hand; reflexivity|]; first [intros C; exfalso; revert C; eapply Cls; [reflexivity|discriminate] | apply Fin; reflexivity]]|]).
  destruct n; discriminate N.
Qed.
Example threads_run : option_map (fun s => (alive (objs s) 0, pointer (objs s) 3, pointer (objs s) 1)) (run empty threads_counted) = Some (true, None, Some 1).
Proof. reflexivity. Qed.
(** A message of a database that was destroyed: it says it is not alive, and must not be used. *)
Example destroyed_case : option_map (fun s => (alive (objs s) 1, alive (objs s) 2, match step s (Use 0) with Raises _ => true | _ => false end, match step s (Use 1) with Undefined => true | _ => false end))
  (run empty [Open; Call 0 PyLife.find; GetView 1; Destroy 0]) = Some (false, false, true, true).
Proof. reflexivity. Qed.

Print Assumptions C83_careful.
Print Assumptions C83_counted.
Print Assumptions C83_destroyed.
Print Assumptions C83_no_leak.
Print Assumptions C83_list_refuted.
Print Assumptions C83_frozen_refuted.
Print Assumptions C83_alive_refuted.
