(** What the reply tree of a thread is supposed to be, without reference to how it is
    computed. *)
From Verif Require Import Bytes ThreadTree.
From Coq Require Import Permutation Sorted.

(** message [i] is a direct reply to message [j]: its In-Reply-To is [j]'s id. *)
Definition replies_to (ms : list tmsg) (i j : nat) : Prop :=
  exists mi mj, nth_error ms i = Some mi /\ nth_error ms j = Some mj /\
    tm_irt mi = Some (tm_mid mj) /\ tm_mid mj <> [].
(** message [i] has [j]'s id among its References. *)
Definition refers_to (ms : list tmsg) (i j : nat) : Prop :=
  exists mi mj, nth_error ms i = Some mi /\ nth_error ms j = Some mj /\ In (tm_mid mj) (tm_refs mi).
Definition names (ms : list tmsg) (i j : nat) : Prop := replies_to ms i j \/ refers_to ms i j.

(** the number of direct-reply steps from a message up to one that is no direct reply to
    a message of the thread. *)
Inductive reply_depth (ms : list tmsg) : nat -> nat -> Prop :=
| depth_0 i : (i < length ms)%nat -> (forall p, ~ replies_to ms i p) -> reply_depth ms i 0
| depth_S i p d : replies_to ms i p -> reply_depth ms p d -> reply_depth ms i (S d).

(** no message refers, directly or through others, to itself: as in any thread where
    messages only refer to mail that existed when they were written. *)
Definition acyclic (ms : list tmsg) : Prop :=
  exists rank : nat -> nat, forall i j, names ms i j -> (rank j < rank i)%nat.

(** qsort with _cmpmsg: a sorting function by date. *)
Definition sorts_by_date (ms : list tmsg) (qsort : list nat -> list nat) : Prop :=
  forall l, Permutation (qsort l) l /\
            Sorted (fun i j => (tm_date (get ms i) <= tm_date (get ms j))%Z) (qsort l).

(** the message reached from the top level by going down through replies. *)
Inductive reachable (r : replies) (top : list nat) : nat -> Prop :=
| reach_top i : In i top -> reachable r top i
| reach_reply i j : reachable r top i -> In j (r i) -> reachable r top j.

(** The preorder walk of the tree, as a relation: [walks r l vs] when visiting the
    messages of [l] in order, each followed by its replies, visits [vs] and ends. *)
Inductive walks (r : replies) : list nat -> list nat -> Prop :=
| walks_nil : walks r [] []
| walks_cons m l sub rest : walks r (r m) sub -> walks r l rest -> walks r (m :: l) (m :: sub ++ rest).

(** insertion sort by date, an instance of [sorts_by_date] used in the examples. *)
Fixpoint isort_ins (ms : list tmsg) (i : nat) (l : list nat) : list nat :=
  match l with
  | [] => [i]
  | j :: l' => if (tm_date (get ms i) <=? tm_date (get ms j))%Z then i :: l else j :: isort_ins ms i l'
  end.
Fixpoint isort (ms : list tmsg) (l : list nat) : list nat :=
  match l with [] => [] | i :: l' => isort_ins ms i (isort ms l') end.
