(** Vocabulary for C89. *)
From Verif Require Import Bytes Terms Meta DocMap Db DbSpec PyBlocks.
Local Open Scope N_scope.

(** The tag change as an operation on sets (DbSpec.v), and whether the library takes it: a tag has at most 200 bytes. *)
Definition as_edit (c : tagcall) : edit := match c with TAdd t => EAdd t | TDiscard t => ERem t | TClear => ERemAll end.
Definition fits (c : tagcall) : bool := match c with TAdd t | TDiscard t => Nat.leb (length t) 200 | TClear => true end.
(** What a program does, by its control flow alone: the changes it gets to, and how it ends. *)
Fixpoint flow (c : stmt) : list edit * outcome :=
  match c with
  | Change t => if fits t then ([as_edit t], Fine) else ([], Raised Exc)
  | Raise k => ([], Raised k)
  | Frozen b | Atomic b => flow_block b
  | Abort _ => ([], Fine)
  | TryExcept b => match flow_block b with (l, Raised Exc) => (l, Fine) | r => r end
  end
with flow_block (b : block) : list edit * outcome :=
  match b with
  | Done => ([], Fine)
  | Then c b => match flow c with (l, Fine) => let '(l', o) := flow_block b in (l ++ l', o) | r => r end
  end.
(** No "with frozen" inside. *)
Fixpoint flat (c : stmt) : bool :=
  match c with Frozen _ => false | Atomic b | TryExcept b => flat_block b | _ => true end
with flat_block (b : block) : bool := match b with Done => true | Then c b => flat c && flat_block b end.
(** No "with frozen" inside a try (so that nothing catches the exception between two blocks). *)
Fixpoint uncaught (c : stmt) : bool :=
  match c with Frozen b | Atomic b => uncaught_block b | TryExcept b => flat_block b | _ => true end
with uncaught_block (b : block) : bool := match b with Done => true | Then c b => uncaught c && uncaught_block b end.
(** No abort inside. *)
Fixpoint no_abort (c : stmt) : bool :=
  match c with Frozen b | Atomic b | TryExcept b => no_abort_block b | Abort _ => false | _ => true end
with no_abort_block (b : block) : bool := match b with Done => true | Then c b => no_abort c && no_abort_block b end.

(** The database is open for writing, and a transaction is open exactly inside atomic sections. *)
Definition usable (s : db) : Prop := writable s = true /\ isopen s = true /\ in_txn s = Nat.ltb 0 (nesting s).
(** The Python object refers to document k, with nothing pending: not frozen, and with the terms that are stored. *)
Definition settled (st : pystate) (k : N) (d : doc) : Prop :=
  usable (p_db st) /\ dget k (st_docs (vis (p_db st))) = Some d /\
  p_msg st = Some {| h_doc := k; h_terms := d_terms d; h_modified := false; h_frozen := 0 |}.
(** A block with one more statement at its end. *)
Fixpoint snoc (b : block) (c : stmt) : block := match b with Done => Then c Done | Then c' b => Then c' (snoc b c) end.
(** The tags of a document. *)
Definition tag_set (d : doc) (t : bytes) : Prop := In t (tags_of (d_terms d)).
