(** Independent specification of tag edits: a message's tags are a set. *)
From Verif Require Import Bytes DocMap Db.
Local Open Scope N_scope.

Inductive edit := EAdd (t : bytes) | ERem (t : bytes) | ERemAll.

(** Tags longer than 200 bytes are refused. *)
Definition edit_valid (e : edit) : Prop :=
  match e with EAdd t | ERem t => (length t <= 200)%nat | ERemAll => True end.

Definition edit_effect (e : edit) (P : bytes -> Prop) : bytes -> Prop :=
  match e with
  | EAdd t => fun x => x = t \/ P x
  | ERem t => fun x => x <> t /\ P x
  | ERemAll => fun _ => False
  end.

Definition edits_effect (es : list edit) (P : bytes -> Prop) : bytes -> Prop :=
  fold_left (fun P e => edit_effect e P) es P.

Definition edit_op (h : N) (e : edit) : op :=
  match e with EAdd t => OpAddTag h t | ERem t => OpRemTag h t | ERemAll => OpRemAll h end.


(** A history in which the database is never reopened inside an atomic section. *)
Definition proper (s : db) (ops : list op) : Prop :=
  forall p q rw, ops = p ++ OpReopen rw :: q -> nesting (run p s) = O.

(** A database whose stored upper bound really bounds the stored revisions. *)
Definition store_ok (st : store) : Prop :=
  forall k d, In (k, d) (st_docs st) -> d_lastmod d <= st_ub st.

(** Operations inside an atomic section: it is never left. *)
Definition stays_inside (s : db) (ops : list op) : Prop :=
  (forall p q, ops = p ++ q -> (0 < nesting (run p s))%nat) /\
  ~ In OpClose ops /\ (forall rw, ~ In (OpReopen rw) ops) /\ (forall rw, ~ In (OpCrash rw) ops).


(** No deletion and no crash. *)
Definition grows (o : op) : Prop :=
  (forall k ub, o <> OpDelete k ub) /\ (forall rw, o <> OpCrash rw).


(** Freeze depth of a message handle, and operations through that handle. *)
Definition frozen_count (h : N) (s : db) : nat :=
  match dget h (handles s) with Some hd => h_frozen hd | None => O end.
Definition through (h : N) (o : op) : Prop :=
  match o with
  | OpAddTag h' _ | OpRemTag h' _ | OpRemAll h' | OpFreeze h' | OpThaw h'
  | OpAddProp h' _ _ | OpRemProp h' _ _ | OpRemProps h' _ _ => h' = h
  | _ => False
  end.


(** States reachable from opening a database by a history that never reopens inside
    an atomic section. *)
Definition reachable (s : db) : Prop :=
  exists st thr rw ops, store_ok st /\ proper (open_db st thr rw) ops /\ s = run ops (open_db st thr rw).
