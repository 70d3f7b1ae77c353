(** Model of the lifetimes of objects in the Python bindings: bindings/python-cffi/notmuch2
    (_base.py, _database.py, _query.py, _message.py, _thread.py, _tags.py, _config.py) over the
    hierarchical allocator talloc of the library (lib/*.c).

    Memory of the library: blocks, each with a parent; freeing a block frees everything below
    it.  An object of the bindings has a class, a parent object, and a pointer to a block, or
    None.  What is read from a block or written into it is left out; reading from or freeing
    memory that is free is undefined.

    Simplifications: an iterator the library gives as NULL, because it is empty, has a block;
    messages of a thread that the library returns twice get two blocks, which makes no
    difference as they are never freed one by one; the references by which an iterator keeps
    the list it goes through (talloc_steal in lib/tags.c:43, talloc_reference in lib/filenames.c:40 and lib/string-map.c:195) are left out:
    the list lives as long as the iterator.  Allocation does not fail.  Objects without memory
    of their own and without a finalizer that does anything (PropertiesItemsView, DbRevision, AtomicContext) are
    left out. *)
From Coq Require Import Arith Bool List.
Import ListNotations.
Local Open Scope nat_scope.

(** ** Memory *)
Definition block := nat.
(** talloc: [None] if free or never allocated, [Some parent] if allocated. *)
Definition heap := block -> option (option block).
(** talloc: is the block allocated? *)
Definition in_use (h : heap) (b : block) : bool := match h b with Some _ => true | None => false end.
(** talloc: is [c] the block [b] or above it?  Parents are allocated before (see the bound [fuel]). *)
Fixpoint above (fuel : nat) (h : heap) (b c : block) : bool :=
  (b =? c) || match fuel, h b with S f, Some (Some p) => above f h p c | _, _ => false end.
(** talloc_free. *)
Definition talloc_free (h : heap) (c : block) : heap := fun b => if above b h b c then None else h b.
(** talloc: a new block. *)
Definition talloc (h : heap) (b : block) (parent : option block) : heap := fun x => if x =? b then Some parent else h x.
(** The block [n] levels up. *)
Fixpoint up (n : nat) (h : heap) (b : block) : option block :=
  match n with O => Some b | S n => match h b with Some (Some p) => up n h p | _ => None end end.

(** ** Objects *)
(** The classes.  [Messages] is a MessageIter over the results of a query, [ThreadMessages]
    over the messages of a thread, [Replies] over replies in a thread; [Owned] is
    OwnedMessage; [View] stands for ImmutableTagSet, MutableTagSet, PropertiesMap and
    ConfigMapping, which use the pointer of their parent; [Leaf] for TagsIter, FilenamesIter,
    PathIter, PropertiesIter, PropertiesKeyIter, ConfigIter, IndexOptions and a MessageIter over the
    replies to a message that is not from a thread. *)
Inductive cls := Database | Query | Messages | Threads | Thread | ThreadMessages | Replies | Message | Owned | View | Leaf.
(** [o_final]: the finalizer __del__ has run. *)
Record obj := { o_cls : cls; o_parent : option nat; o_ptr : option block; o_final : bool }.
(** Everything: the library's memory and the objects of the bindings (lib/notmuch.h:253-265 and
    _base.py:11-52: every object but the database has a parent). *)
Record state := { memory : heap; next_block : block; objs : nat -> option obj; next_obj : nat }.
(** Before the first Database (_database.py:142-170). *)
Definition empty : state := {| memory := fun _ => None; next_block := 0; objs := fun _ => None; next_obj := 0 |}.

(** Classes without a pointer of their own to give back: _message.py:403-408, _tags.py:50-55,
    _message.py:461-473, _config.py:58-63. *)
Definition keeps_nothing (c : cls) : bool := match c with Owned | View => true | _ => false end.
(** The property "alive": _database.py:254-261, _query.py:24-33, _message.py:60-69, 403-405, _thread.py:22-31,
    _base.py:196-205, _tags.py:50-52, 314-323.  (PropertiesMap.alive, _message.py:461-470, tests the
    function _ptr instead of its result, so that it is alive if its message is.) *)
Fixpoint alive_from (fuel : nat) (os : nat -> option obj) (o : nat) : bool :=
  match fuel, os o with
  | S f, Some r =>
      match o_parent r with Some p => alive_from f os p | None => true end &&
      (keeps_nothing (o_cls r) || match o_ptr r with Some _ => true | None => false end)
  | _, _ => false
  end.
(** [alive]: as above; an object is younger than its parent. *)
Definition alive (os : nat -> option obj) (o : nat) : bool := alive_from (S o) os o.
(** The pointer that a method uses; None raises ObjectDestroyedError: _base.py:109-118, and
    _tags.py:46, _message.py:459, _config.py:56 for views. *)
Definition pointer (os : nat -> option obj) (o : nat) : option block :=
  match os o with
  | Some r => match o_cls r, o_parent r with
              | View, Some p => match os p with Some r' => o_ptr r' | None => None end
              | View, None => None
              | _, _ => o_ptr r
              end
  | None => None
  end.
(** Assignments to the attributes, e.g. _query.py:38-41, and the memory. *)
Definition with_ptr (r : obj) (p : option block) : obj := {| o_cls := o_cls r; o_parent := o_parent r; o_ptr := p; o_final := o_final r |}.
(** As above. *)
Definition finalized (r : obj) : obj := {| o_cls := o_cls r; o_parent := o_parent r; o_ptr := o_ptr r; o_final := true |}.
(** As above. *)
Definition upd (os : nat -> option obj) (o : nat) (r : obj) : nat -> option obj := fun x => if x =? o then Some r else os x.
(** As above. *)
Definition set_obj (s : state) (o : nat) (r : obj) : state :=
  {| memory := memory s; next_block := next_block s; objs := upd (objs s) o r; next_obj := next_obj s |}.
(** As above. *)
Definition set_memory (s : state) (h : heap) : state := {| memory := h; next_block := next_block s; objs := objs s; next_obj := next_obj s |}.
(** A new object with a new block below [owner]. *)
Definition new_obj (s : state) (c : cls) (parent : option nat) (owner : option block) : state :=
  {| memory := talloc (memory s) (next_block s) owner; next_block := S (next_block s);
     objs := upd (objs s) (next_obj s) {| o_cls := c; o_parent := parent; o_ptr := Some (next_block s); o_final := false |}; next_obj := S (next_obj s) |}.

(** What an operation does: returns, raises an exception, or something undefined. *)
Inductive result := Returns (s : state) | Raises (s : state) | Undefined.

(** Methods that return an object with memory. *)
Inductive method := find | create_query | messages | threads | next | thread_messages | replies | leaf.
(** The class of what a method returns, and how many levels above the block of its object the
    library allocates it:
    find and add: _database.py:424-428, 479-488, lib/database.cc:455 (below the database);
    _create_query: _database.py:583-595, lib/query.cc:98;
    messages, threads: _query.py:47-57, 67-74, lib/query.cc:366, 604 (below the query);
    next: _message.py:722-724, lib/query.cc:508 (below the iterator); _thread.py:192-194, lib/query.cc:674
    (below the query); in a thread, lib/thread.cc:273-274 (below the thread);
    the messages of a thread: _thread.py:57-78, lib/thread.cc:656-666, lib/messages.c:76 (below the thread);
    replies: _message.py:371-384, lib/message.cc:695 (below the message); not from a thread there are none;
    the others: lib/tags.c:38, lib/filenames.c:35, lib/string-map.c:191, lib/config.cc:146, lib/indexopts.c:30. *)
Definition makes (c : cls) (m : method) : option (cls * nat) :=
  match c, m with
  | Database, find => Some (Message, 0)
  | Database, create_query => Some (Query, 0)
  | Database, leaf => Some (Leaf, 0)
  | Query, messages => Some (Messages, 0)
  | Query, threads => Some (Threads, 0)
  | Messages, next => Some (Message, 0)
  | Threads, next => Some (Thread, 1)
  | Thread, thread_messages => Some (ThreadMessages, 0)
  | ThreadMessages, next => Some (Owned, 1)
  | Replies, next => Some (Owned, 2)
  | Owned, replies => Some (Replies, 0)
  | Message, replies => Some (Leaf, 0)
  | Message, leaf | Owned, leaf | View, leaf => Some (Leaf, 0)
  | _, _ => None
  end.
(** The library reads the object's memory before anything else. *)
Definition access (s : state) (o : nat) (k : block -> result) : result :=
  match pointer (objs s) o with
  | None => Raises s
  | Some b => if in_use (memory s) b then k b else Undefined
  end.
(** Calling such a method. *)
Definition call (s : state) (o : nat) (m : method) : result :=
  match objs s o with
  | None => Raises s
  | Some r => match makes (o_cls r) m with
              | None => Raises s
              | Some (c, n) => access s o (fun b => match up n (memory s) b with
                                                    | Some owner => Returns (new_obj s c (Some o) (Some owner))
                                                    | None => Undefined
                                                    end)
              end
  end.
(** The methods _destroy: _database.py:263-271, _query.py:38-41, _message.py:74-77, 407-408, _thread.py:36-39,
    _base.py:207-213, _tags.py:54-55, 325-331, _database.py:826-829, _message.py:472-473, _config.py:62-63. *)
Definition destroy (s : state) (o : nat) : result :=
  match objs s o with
  | None => Raises s
  | Some r =>
      if keeps_nothing (o_cls r) then Returns s
      else if alive (objs s) o || match o_cls r with Database => true | _ => false end then
        match o_ptr r with
        | Some b => if in_use (memory s) b then Returns (set_memory (set_obj s o (with_ptr r None)) (talloc_free (memory s) b)) else Undefined
        | None => Returns s
        end
      else Returns (set_obj s o (with_ptr r None))
  end.
(** The database of an object (attribute _db): the oldest ancestor. *)
Fixpoint root_from (fuel : nat) (os : nat -> option obj) (o : nat) : nat :=
  match fuel, os o with S f, Some r => match o_parent r with Some p => root_from f os p | None => o end | _, _ => o end.
(** As above, with enough fuel. *)
Definition root (os : nat -> option obj) (o : nat) : nat := root_from (S o) os o.

(** What a program and the interpreter do with the objects: _database.py, _query.py, _message.py, _thread.py, _tags.py. *)
Inductive event :=
| Open                              (* Database () *)
| Call (o : nat) (m : method)       (* a method that returns an object with memory *)
| GetView (o : nat)                 (* .tags, .properties, .config *)
| Use (o : nat)                     (* any other method or attribute *)
| Exhaust (o : nat)                 (* next () of an iterator that is at its end *)
| Destroy (o : nat)                 (* a call of _destroy () *)
| Finalize (o : nat)                (* the interpreter calls __del__ () *)
| Rollback (o : nat) (found : bool). (* an exception in "with message.frozen ():" *)

(** _message.py:320-332: the message is destroyed and replaced by the same message found again. *)
Definition rollback (s : state) (o : nat) (found : bool) : result :=
  match objs s o with
  | Some r =>
      match o_cls r with
      | Message | Owned =>
          access s o (fun _ =>
            match destroy s o with
            | Returns s1 =>
                match objs s1 o, pointer (objs s1) (root (objs s1) o) with
                | Some r1, Some d =>
                    if in_use (memory s1) d then
                      if found then
                        Raises {| memory := talloc (memory s1) (next_block s1) (Some d); next_block := S (next_block s1);
                                  objs := upd (objs s1) o (with_ptr r1 (Some (next_block s1))); next_obj := next_obj s1 |}
                      else Raises s1
                    else Undefined
                | _, _ => Raises s1
                end
            | x => x
            end)
      | _ => Raises s
      end
  | None => Raises s
  end.
(** One such operation: __del__ methods _database.py:251-252, _query.py:35-36, _message.py:71-72, _thread.py:33-34,
    _base.py:193-194, _tags.py:311-312; tags, properties and config _database.py:543-582, _thread.py:150-172, _message.py:270-298, 338-369. *)
Definition step (s : state) (e : event) : result :=
  match e with
  | Open => Returns (new_obj s Database None None)
  | Call o m => call s o m
  | GetView o =>
      match objs s o with
      | Some r => match o_cls r with
                  | Database | Thread | Message | Owned =>
                      Returns {| memory := memory s; next_block := next_block s;
                                 objs := upd (objs s) (next_obj s) {| o_cls := View; o_parent := Some o; o_ptr := None; o_final := false |}; next_obj := S (next_obj s) |}
                  | _ => Raises s
                  end
      | None => Raises s
      end
  | Use o => access s o (fun _ => Returns s)
  | Exhaust o =>
      (* _base.py:224-230, _tags.py:342-345, _message.py:656-659, _config.py:21-34 *)
      match objs s o with
      | Some r => match o_cls r with
                  | Messages | Threads | ThreadMessages | Replies | Leaf =>
                      access s o (fun _ => match destroy s o with Returns s1 => Raises s1 | x => x end)
                  | _ => Raises s
                  end
      | None => Raises s
      end
  | Destroy o => destroy s o
  | Finalize o =>
      match objs s o with
      | None => Raises s
      | Some _ =>
          match destroy s o with
          | Returns s1 => match objs s1 o with Some r => Returns (set_obj s1 o (finalized r)) | None => Raises s1 end
          | x => x
          end
      end
  | Rollback o found => rollback s o found
  end.
(** A program, that is, any sequence of operations; exceptions are handled somewhere. *)
Fixpoint run (s : state) (es : list event) : option state :=
  match es with
  | [] => Some s
  | e :: es => match step s e with Returns s1 | Raises s1 => run s1 es | Undefined => None end
  end.
