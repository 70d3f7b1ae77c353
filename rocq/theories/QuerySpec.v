(** What searching with excluded tags and searching threads should give, stated on the
    documents of the database. *)
From Verif Require Import Bytes XQuery Thread Query.
From Coq Require Import Sorted.
Local Open Scope nat_scope.

Definition has_tag (d : xdoc) (tag : bytes) : Prop := In (lit "K" ++ tag) (xd_terms d).
Definition is_mail (d : xdoc) : Prop := In (lit "Tmail") (xd_terms d).
Definition in_thread (d : xdoc) (tid : bytes) : Prop := In (lit "G" ++ tid) (xd_terms d).
Definition matches (x : xq) (d : xdoc) : Prop := xmatch x d = true.
(** the query mentions tag:T somewhere. *)
Definition names_tag (x : xq) (tag : bytes) : Prop := In (lit "K" ++ tag) (xterms x).

(** [d] carries an excluded tag that the query does not mention. *)
Definition excluded (x : xq) (tags : list bytes) (d : xdoc) : Prop :=
  exists t, In t tags /\ ~ names_tag x t /\ has_tag d t.

(** the messages a search returns. *)
Definition selected (db : list xdoc) (x : xq) (tags : list bytes) (m : omit_mode) (d : xdoc) : Prop :=
  In d db /\ is_mail d /\ matches x d /\
  match m with
  | EXCLUDE_TRUE | EXCLUDE_ALL => ~ excluded x tags d
  | EXCLUDE_FALSE | EXCLUDE_FLAG => True
  end.

(** Xapian document ids: distinct, and below 2^32 - 1 (they are allocated from 1 up). *)
Definition ids_ok (db : list xdoc) : Prop :=
  NoDup (map xd_id db) /\ forall d, In d db -> (xd_id d < 2 ^ 32 - 1)%N.

(** every message is in exactly one thread. *)
Definition single_threaded (db : list xdoc) : Prop :=
  forall d, In d db -> is_mail d -> exists tid, forall u, in_thread d u <-> u = tid.

(** the order of the results. *)
Definition in_order (s : sort_mode) (a b : xdoc) : Prop :=
  match s with
  | SORT_OLDEST_FIRST => (xd_date a <= xd_date b)%Z
  | SORT_NEWEST_FIRST => (xd_date b <= xd_date a)%Z
  | SORT_MESSAGE_ID => bleb (xd_mid a) (xd_mid b) = true
  | SORT_UNSORTED => True
  end.

(** a client may call the three functions on a thread iterator in any order. *)
Inductive tcall := CALL_valid | CALL_get | CALL_next.
Fixpoint run_calls (db : list xdoc) (cs : list tcall) (t : threads) : option (list thread * threads) :=
  match cs with
  | [] => Some ([], t)
  | CALL_valid :: cs' => match threads_valid t with
                         | Some (_, t') => run_calls db cs' t'
                         | None => None
                         end
  | CALL_get :: cs' => match threads_get db t with
                       | Some (o, t') =>
                           match run_calls db cs' t' with
                           | Some (l, t'') => Some ((match o with Some th => [th] | None => [] end) ++ l, t'')
                           | None => None
                           end
                       | None => None
                       end
  | CALL_next :: cs' => run_calls db cs' (threads_next t)
  end.
