(** Model of "with message.frozen ():" and "with database.atomic ():" of the Python bindings
    (bindings/python-cffi/notmuch2/_message.py, _database.py) and of the comparisons of DbRevision, over the
    model of the library in Db.v.

    A program works on one message object.  Simplifications: the documents of other messages change only by
    other programs, which are left out; every library call either succeeds or returns a status (Db.v). *)
From Verif Require Import Bytes Terms Meta DocMap Db.
Local Open Scope N_scope.

(** ** Programs *)
(** An exception: of class Exception, or of another class (KeyboardInterrupt, SystemExit, GeneratorExit). *)
Inductive kind := Exc | Base.
(** How a piece of program ends. *)
Inductive outcome := Fine | Raised (k : kind).
(** message.tags.add (t), discard (t), clear (): _tags.py:168-227 (C88 is about texts and bytes). *)
Inductive tagcall := TAdd (t : bytes) | TDiscard (t : bytes) | TClear.
(** Pieces of program: a change of tags, raise, with message.frozen (): ..., with database.atomic () as c: ...,
    c.abort () for the n-th enclosing c, and try: ... except Exception: pass (_message.py:292-336, _database.py:688-752). *)
Inductive stmt :=
| Change (c : tagcall) | Raise (k : kind) | Frozen (b : block) | Atomic (b : block) | Abort (n : nat) | TryExcept (b : block)
with block := Done | Then (s : stmt) (b : block).

(** ** State *)
(** The library's database, the library's message the Python object refers to ([None]: destroyed), messages of the
    library left behind without an object ([p_left]), and for each enclosing atomic section whether abort was called. *)
Record pystate := { p_db : db; p_msg : option handle; p_left : list handle; p_aborted : list bool }.
(** Record updates. *)
Definition with_db (s : db) (st : pystate) : pystate := {| p_db := s; p_msg := p_msg st; p_left := p_left st; p_aborted := p_aborted st |}.
(** As above. *)
Definition with_msg (m : option handle) (st : pystate) : pystate := {| p_db := p_db st; p_msg := m; p_left := p_left st; p_aborted := p_aborted st |}.
(** As above. *)
Definition with_aborted (l : list bool) (st : pystate) : pystate := {| p_db := p_db st; p_msg := p_msg st; p_left := p_left st; p_aborted := l |}.

(** A status other than success becomes an exception, e.g. _message.py:315-317. *)
Definition raised (r : status) : outcome := match r with St_success => Fine | _ => Raised Exc end.
(** A call of the library with the message; ObjectDestroyedError if there is none (_base.py:109-118).
    With every call comes the state of the database after it. *)
Definition call (f : handle -> db -> status * handle * db) (st : pystate) : list db * pystate * outcome :=
  match p_msg st with
  | None => ([], st, Raised Exc)
  | Some h => let '(r, h, s) := f h (p_db st) in ([s], with_msg (Some h) (with_db s st), raised r)
  end.
(** _tags.py:168-227. *)
Definition change (c : tagcall) : handle -> db -> status * handle * db :=
  match c with TAdd t => add_tag t | TDiscard t => remove_tag t | TClear => remove_all_tags end.
(** _message.py:323-331: find the message again and take its pointer.  [owned]: an OwnedMessage, whose
    _destroy does nothing (_message.py:407-408), so that the library's message stays as it is, in the thread. *)
Definition rollback (owned : bool) (st : pystate) : pystate :=
  match p_msg st with
  | None => st (* self.messageid raises ObjectDestroyedError *)
  | Some h =>
      match (if isopen (p_db st) then dget (h_doc h) (st_docs (vis (p_db st))) else None) with
      | Some d =>
          {| p_db := p_db st; p_msg := Some {| h_doc := h_doc h; h_terms := d_terms d; h_modified := false; h_frozen := 0 |};
             p_left := if owned then h :: p_left st else p_left st; p_aborted := p_aborted st |}
      | None => if owned then st else with_msg None st
      end
  end.
(** _database.py:744-752 [abort] of the n-th enclosing context: _exit_fn becomes a function that does nothing. *)
Fixpoint mark (n : nat) (l : list bool) : list bool :=
  match n, l with O, _ :: l => true :: l | S n, b :: l => b :: mark n l | _, [] => [] end.

(** ** Execution *)
Section Exec.
(** Is the message an OwnedMessage; XAPIAN_FLUSH_THRESHOLD=1 in the environment (lib/database.cc:1155-1158). *)
Variables owned flush_env : bool.
(** A piece of program: the databases after each library call, the state, how it ends.
    frozen: _message.py:292-336; atomic: _database.py:696-752. *)
Fixpoint exec (c : stmt) (st : pystate) : list db * pystate * outcome :=
  match c with
  | Change t => call (change t) st
  | Raise k => ([], st, Raised k)
  | Frozen b =>
      match call freeze st with
      | (t1, st, Fine) =>
          match exec_block b st with
          | (t2, st, Fine) => let '(t3, st, o) := call thaw st in (t1 ++ t2 ++ t3, st, o)
          | (t2, st, Raised Exc) => (t1 ++ t2, rollback owned st, Raised Exc)
          | (t2, st, Raised Base) => (t1 ++ t2, st, Raised Base)
          end
      | r => r
      end
  | Atomic b =>
      match begin_atomic (p_db st) with
      | (St_success, s) =>
          let '(t, st, o) := exec_block b (with_aborted (false :: p_aborted st) (with_db s st)) in
          let aborted := match p_aborted st with a :: _ => a | [] => false end in
          let st := with_aborted (tl (p_aborted st)) st in
          if aborted then (s :: t, st, o)
          else let '(r, s') := end_atomic flush_env (p_db st) in
               (s :: t ++ [s'], with_db s' st, match raised r with Fine => o | e => e end)
      | (_, s) => ([s], with_db s st, Raised Exc)
      end
  | Abort n => let s := close (p_db st) in ([s], with_aborted (mark n (p_aborted st)) (with_db s st), Fine)
  | TryExcept b =>
      match exec_block b st with
      | (t, st, Raised Exc) => (t, st, Fine)
      | r => r
      end
  end
with exec_block (b : block) (st : pystate) : list db * pystate * outcome :=
  match b with
  | Done => ([], st, Fine)
  | Then c b =>
      match exec c st with
      | (t1, st, Fine) => let '(t2, st, o) := exec_block b st in (t1 ++ t2, st, o)
      | r => r
      end
  end.
End Exec.

(** ** DbRevision *)
(** _database.py:755-775: the number and the UUID. *)
Record dbrevision := { r_rev : N; r_uuid : bytes }.
(** _database.py:781-787 [__eq__]. *)
Definition rev_eq (a b : dbrevision) : bool := if negb (bseq (r_uuid a) (r_uuid b)) then false else r_rev a =? r_rev b.
(** _database.py:789-795 [__lt__]. *)
Definition rev_lt (a b : dbrevision) : bool := if negb (bseq (r_uuid a) (r_uuid b)) then false else r_rev a <? r_rev b.
(** functools.total_ordering (_database.py:755) makes the others of these two. *)
Definition rev_gt (a b : dbrevision) : bool := negb (rev_lt a b) && negb (rev_eq a b).
(** As above. *)
Definition rev_le (a b : dbrevision) : bool := rev_lt a b || rev_eq a b.
(** As above. *)
Definition rev_ge (a b : dbrevision) : bool := negb (rev_lt a b).
