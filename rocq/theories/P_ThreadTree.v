(** Properties C22 and C23: the reply tree of a thread. *)
From Verif Require Import Bytes ThreadTree ThreadTreeSpec ThreadTreeProofs.
From Coq Require Import Permutation Sorted.
Local Open Scope nat_scope.

(** C22.  Whatever the In-Reply-To and References headers say, arranging the thread ends,
    walking it from the top-level messages through the replies ends, and no message is
    visited twice; `notmuch show' performs exactly that walk. *)
Theorem C22_walk_terminates_without_repetition :
  forall qsort ms shown fuel, sorts_by_date ms qsort -> length ms < fuel ->
  exists r top visited out,
    resolve qsort fuel ms = Some (r, top) /\
    walks r top visited /\ NoDup visited /\ (forall i, In i visited -> i < length ms) /\
    show_messages shown fuel r 0 top = Some out /\ map fst out = visited.
Proof.
  intros qsort ms shown fuel Q L. destruct (resolve_ok qsort ms fuel Q L) as (r & top & E & F & _).
  destruct (walk_ok _ _ _ shown fuel F L) as (vs & out & H1 & H2 & H3 & _ & H4 & H5).
  exists r, top, vs, out. auto 10.
Qed.
Print Assumptions C22_walk_terminates_without_repetition.

(** Every message hangs under a message it names in its In-Reply-To or References. *)
Theorem C22_replies_are_replies :
  forall qsort ms fuel r top, sorts_by_date ms qsort -> length ms < fuel ->
  resolve qsort fuel ms = Some (r, top) ->
  forall p i, In i (r p) -> names ms i p.
Proof.
  intros qsort ms fuel r top Q L R p i H. destruct (resolve_ok qsort ms fuel Q L) as (r' & top' & E & F & Ed & _).
  rewrite R in E. injection E as <- <-. destruct (Ed p i H) as (Hp & M).
  apply edge_names; [eapply forest_child_range; eauto|exact Hp|exact M].
Qed.
Print Assumptions C22_replies_are_replies.

(** Messages at the same place are shown oldest first. *)
Theorem C22_siblings_oldest_first :
  forall qsort ms fuel r top, sorts_by_date ms qsort -> length ms < fuel ->
  resolve qsort fuel ms = Some (r, top) ->
  Sorted (fun i j => (tm_date (get ms i) <= tm_date (get ms j))%Z) top /\
  forall p, reachable r top p -> Sorted (fun i j => (tm_date (get ms i) <= tm_date (get ms j))%Z) (r p).
Proof.
  intros qsort ms fuel r top Q L R. destruct (resolve_ok qsort ms fuel Q L) as (r' & top' & E & _ & _ & _ & S & D).
  rewrite R in E. injection E as <- <-. split; [exact S|]. intros p Hp.
  apply lev_reachable in Hp as (k & Hk). eauto.
Qed.
Print Assumptions C22_siblings_oldest_first.

(** C23, where messages only refer to messages that do not (through others) refer back to
    them: every message of the thread is shown, once. *)
Theorem C23_every_message_shown_partial :
  forall qsort ms shown fuel, sorts_by_date ms qsort -> length ms < fuel -> acyclic ms ->
  exists r top out,
    resolve qsort fuel ms = Some (r, top) /\
    (forall i, i < length ms -> reachable r top i) /\
    show_messages shown fuel r 0 top = Some out /\
    Permutation (map fst out) (seq 0 (length ms)).
Proof.
  intros qsort ms shown fuel Q L A. destruct (resolve_ok qsort ms fuel Q L) as (r & top & E & F & Ed & _).
  destruct (walk_ok _ _ _ shown fuel F L) as (vs & out & H1 & H2 & H3 & H6 & H4 & H5).
  pose proof (acyclic_reachable ms r top F Ed A) as R.
  exists r, top, out. split; [exact E|]. split; [exact R|]. split; [exact H4|]. rewrite H5.
  apply NoDup_Permutation; [exact H2|apply seq_NoDup|]. intros i. rewrite H6, lev_reachable, seq_In. split.
  - intros H. apply H3. rewrite H6, lev_reachable. exact H.
  - apply R.
Qed.
Print Assumptions C23_every_message_shown_partial.

(** Even with circular references something is shown. *)
Theorem C23_something_shown :
  forall qsort ms fuel r top, sorts_by_date ms qsort -> length ms < fuel -> ms <> [] ->
  resolve qsort fuel ms = Some (r, top) -> top <> [].
Proof.
  intros qsort ms fuel r top Q L NE R. destruct (resolve_ok qsort ms fuel Q L) as (r' & top' & E & _ & _ & T & _).
  rewrite R in E. injection E as <- <-. now apply T.
Qed.
Print Assumptions C23_something_shown.

(** Which tree (for threads of the kind of C23, with distinct message ids): a direct reply
    to a message of the thread hangs under that message; any other message hangs under the
    message of its References that is deepest in the tree of direct replies; and the
    top-level messages are exactly those that refer to no message of the thread. *)
Theorem C23_shape :
  forall qsort ms fuel r top, sorts_by_date ms qsort -> length ms < fuel ->
  NoDup (map tm_mid ms) -> acyclic ms -> resolve qsort fuel ms = Some (r, top) ->
  (forall p i, In i (r p) ->
     replies_to ms i p \/
     ((forall q, ~ replies_to ms i q) /\ refers_to ms i p /\
      forall q d d', refers_to ms i q -> reply_depth ms q d -> reply_depth ms p d' -> d <= d')) /\
  (forall i, In i top <-> i < length ms /\ forall p, ~ names ms i p).
Proof. exact resolve_shape. Qed.
Print Assumptions C23_shape.

(** * Concrete threads *)
Definition msg (id : string) (irt : option string) (refs : list string) (d : Z) : tmsg :=
  mk_tmsg (lit id) (option_map lit irt) (map lit refs) d.

(** a root, two replies (one of them only by References), a reply to a reply. *)
Definition ex_thread : list tmsg :=
  [ msg "a" None [] 1; msg "b" (Some "a"%string) ["a"%string] 4;
    msg "c" None ["missing"%string; "a"%string] 3; msg "d" (Some "b"%string) ["a"%string; "b"%string] 5 ].
Example C22_example :
  sorts_by_date ex_thread (isort ex_thread) /\ acyclic ex_thread /\
  (exists r, resolve (isort ex_thread) 5 ex_thread = Some (r, [0]) /\ r 0 = [2; 1] /\ r 1 = [3] /\
     show_messages (fun _ => true) 5 r 0 [0] = Some [(0, Some 0); (2, Some 1); (1, Some 1); (3, Some 2)]).
Proof.
  split; [apply isort_sorts|]. split.
  - exists (fun i => i).
    assert (W : forall i j, names ex_thread i j -> exists mi mj, nth_error ex_thread i = Some mi /\ nth_error ex_thread j = Some mj /\
              (tm_irt mi = Some (tm_mid mj) \/ In (tm_mid mj) (tm_refs mi)))
      by (intros i j [(mi & mj & H1 & H2 & H3 & _)|(mi & mj & H1 & H2 & H3)]; exists mi, mj; auto).
    intros i j N. destruct (W i j N) as (mi & mj & Hi & Hj & H). clear W N.
    repeat (destruct i as [|i]; cbn in Hi; [injection Hi as <-|]); [| | | |destruct i; discriminate];
    repeat (destruct j as [|j]; cbn in Hj; [injection Hj as <-|]); try (destruct j; discriminate);
    cbn in H; (lia || (exfalso; intuition discriminate)).
  - eexists. repeat split; vm_compute; reflexivity.
Qed.

(** A message whose References name its own reply is attached below that reply, and the
    two are not shown at all. *)
Definition lost_thread : list tmsg :=
  [ msg "a" None ["b"%string] 1; msg "b" (Some "a"%string) [] 2; msg "c" None [] 3; msg "d" None [] 4 ].
Theorem C23_every_message_shown_refuted :
  ~ (forall qsort ms fuel r top, sorts_by_date ms qsort -> length ms < fuel ->
       resolve qsort fuel ms = Some (r, top) -> forall i, i < length ms -> reachable r top i).
Proof.
  intros H.
  assert (L : exists r, resolve (isort lost_thread) 5 lost_thread = Some (r, [2; 3]) /\
                map r [0; 1; 2; 3] = [[1]; [0]; []; []]) by (eexists; split; vm_compute; reflexivity).
  destruct L as (r & E & M). cbn in M. injection M as M0 M1 M2 M3.
  specialize (H _ lost_thread 5 _ _ (isort_sorts _) ltac:(cbn; lia) E 0 ltac:(cbn; lia)).
  assert (G : forall i, reachable r [2; 3] i -> i = 2 \/ i = 3).
  { induction 1 as [i Hi|i j _ [-> | ->] Hj]; [cbn in Hi; lia|rewrite M2 in Hj; destruct Hj|rewrite M3 in Hj; destruct Hj]. }
  apply G in H. lia.
Qed.
Print Assumptions C23_every_message_shown_refuted.

(** Likewise two messages that are In-Reply-To each other, when the thread has another root. *)
Definition loop_thread : list tmsg :=
  [ msg "a" None [] 1; msg "b" (Some "c"%string) [] 2; msg "c" (Some "b"%string) [] 3 ].
Theorem C23_reply_cycle_shown_refuted :
  exists r, resolve (isort loop_thread) 4 loop_thread = Some (r, [0]) /\
    show_messages (fun _ => true) 4 r 0 [0] = Some [(0, Some 0)].
Proof. eexists. split; vm_compute; reflexivity. Qed.
Print Assumptions C23_reply_cycle_shown_refuted.
