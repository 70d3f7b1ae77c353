(** Model of the lifetimes of objects in the Ruby bindings: bindings/ruby (defs.h, database.c,
    query.c, threads.c, thread.c, messages.c, message.c, directory.c) over the hierarchical
    allocator talloc of the library (lib).

    Memory: blocks, each with a parent and with the pointers it holds; freeing a block frees
    everything below it.  Every Ruby object points (DATA_PTR) to a small block of its own, the
    wrapper, which owns the library's object: that is taken away from where the library had
    put it.  The Ruby interpreter frees the wrapper when it collects the object; the bindings
    do not tell it that one object needs another.  Reading or freeing memory that is free, and
    reading through a null pointer, is undefined.

    Simplifications: strings, tags and file names, which are copied at once, and whatever else
    only hangs below an object are left out.  Allocation does not fail.  The index and
    everything read from it is an input of the operations.  Changes reach the disk when the
    database is closed; Xapian may write them earlier, which is left out.  [o_of], [o_parent],
    [o_db] and [o_thread] of an object are for the specification; the program never reads them. *)
From Coq Require Import Arith Bool List.
Import ListNotations.
Local Open Scope nat_scope.

(** ** Memory *)
(** A block is known by its address; addresses are not used again (lib/thread.cc:549-652). *)
Definition block := nat.
(** What is in a block: bindings/ruby/defs.h:109-111; lib/database-private.h:232-298 ("open", and the changes not yet on disk);
    lib/directory.cc:45-50, 134-144; lib/query.cc:27-64; lib/thread.cc:34-56; lib/messages.c:68-84 (an iterator
    points to a node of the list of [owner], a thread or a message; [rest] are the messages from there on);
    lib/message.cc:29-60. *)
Inductive kind :=
| KWrap (p : option block)
| KDb (is_open : bool) (pending : list nat)
| KDir (db : block)
| KQuery (db : block)
| KMset (db : block)
| KThreads (query : block)
| KThread (db : block) (all top : list block)
| KList (owner : block) (rest : list block)
| KMsg (db : block) (replies : list block).
(** talloc: a block has at most one parent (lib/thread.cc:273-274). *)
Record chunk := { parent : option block; what : kind }.
(** talloc: [None] is free, or never allocated (lib/thread.cc:549-652). *)
Definition heap := block -> option chunk.
(** talloc: is it allocated (lib/thread.cc:549-652)? *)
Definition in_use (h : heap) (b : block) : bool := match h b with Some _ => true | None => false end.
(** talloc: is [c] the block [b] or above it (lib/thread.cc:549-652)?  [fuel] bounds the depth. *)
Fixpoint above (fuel : nat) (h : heap) (b c : block) : bool :=
  (b =? c) || match fuel, h b with
              | S f, Some ch => match parent ch with Some p => above f h p c | None => false end
              | _, _ => false
              end.
(** talloc_free (bindings/ruby/defs.h:126-130). *)
Definition talloc_free (fuel : nat) (h : heap) (c : block) : heap := fun b => if above fuel h b c then None else h b.

(** ** Ruby objects *)
(** bindings/ruby/init.c:61-67. *)
Inductive cls := Database | Directory | Query | Threads | Thread | Messages | Message.
(** A Ruby object: DATA_PTR, [None] after destroy! (bindings/ruby/defs.h:132-143), and whether it was collected.  For the
    specification: the library's object it was made for, the object it came out of, its
    database, and the thread it came out of, if any. *)
Record obj := { o_cls : cls; o_data : option block; o_gone : bool;
                o_of : option block; o_parent : option nat; o_db : nat; o_thread : option nat }.
(** Everything.  [loops]: the calls of "each" that are running, innermost first, with the local
    variable "messages" or "threads" (bindings/ruby/messages.c:45, bindings/ruby/threads.c:45); [disk]: changes on disk. *)
Record state := { mem : heap; next_block : block; objs : nat -> option obj; next_obj : nat;
                  loops : list (nat * option block); disk : list nat }.
(** Before the first Database (bindings/ruby/database.c:23-27). *)
Definition empty : state := {| mem := fun _ => None; next_block := 0; objs := fun _ => None; next_obj := 0; loops := []; disk := [] |}.
(** What an operation does: it returns, raises an exception, or something undefined (bindings/ruby/defs.h:67-74). *)
Inductive result := Returns (s : state) | Raises (s : state) | Undefined.

(** A map changed in one place (lib/messages.c:148). *)
Definition upd {A} (f : nat -> option A) (x : nat) (v : option A) : nat -> option A := fun y => if y =? x then v else f y.
(** Memory after an assignment (lib/database.cc:527). *)
Definition set_mem (s : state) (h : heap) : state := {| mem := h; next_block := next_block s; objs := objs s; next_obj := next_obj s; loops := loops s; disk := disk s |}.
(** "each" starts or ends (bindings/ruby/messages.c:47-54). *)
Definition set_loops (s : state) l : state := {| mem := mem s; next_block := next_block s; objs := objs s; next_obj := next_obj s; loops := l; disk := disk s |}.
(** Assigning DATA_PTR (bindings/ruby/defs.h:142). *)
Definition set_obj (s : state) o r : state := {| mem := mem s; next_block := next_block s; objs := upd (objs s) o (Some r); next_obj := next_obj s; loops := loops s; disk := disk s |}.
(** Assigning what is in a block (lib/messages.c:148, lib/database.cc:527). *)
Definition set_what (s : state) (b : block) (k : kind) : state :=
  match mem s b with Some ch => set_mem s (upd (mem s) b (Some {| parent := parent ch; what := k |})) | None => s end.
(** talloc (lib/query.cc:98). *)
Definition alloc (s : state) (par : option block) (k : kind) : state :=
  {| mem := upd (mem s) (next_block s) (Some {| parent := par; what := k |}); next_block := S (next_block s);
     objs := objs s; next_obj := next_obj s; loops := loops s; disk := disk s |}.
(** talloc_free (bindings/ruby/defs.h:126-130). *)
Definition free (s : state) (b : block) : state := set_mem s (talloc_free (2 + next_block s) (mem s) b).

(** Data_Wrap_Notmuch_Object, notmuch_rb_object_create (bindings/ruby/defs.h:82-83, 113-124): a wrapper takes the
    library's object [ptr] from its parent (talloc_steal). *)
Definition wrap (s : state) (c : cls) (ptr : option block) (from : option nat) : result :=
  let w := next_block s in
  let o := next_obj s in
  let r := match from with Some x => objs s x | None => None end in
  let stolen := match ptr with
                | Some p => match mem s p with Some ch => upd (mem s) p (Some {| parent := Some w; what := what ch |}) | None => mem s end
                | None => mem s
                end in
  if match ptr with Some p => in_use (mem s) p | None => true end then
    Returns {| mem := upd stolen w (Some {| parent := None; what := KWrap ptr |}); next_block := S w;
               objs := upd (objs s) o (Some {| o_cls := c; o_data := Some w; o_gone := false; o_of := ptr; o_parent := from;
                                               o_db := match r with Some r => o_db r | None => o end;
                                               o_thread := match r with Some r => match o_cls r with Thread => from | _ => o_thread r end | None => None end |});
               next_obj := S o; loops := loops s; disk := disk s |}
  else Undefined.
(** Data_Get_Notmuch_Rb_Object, Data_Get_Notmuch_Object (bindings/ruby/defs.h:67-81): raises if destroy! was called.
    (Nothing can be done with an object that was collected; so that too raises here.) *)
Definition access (s : state) (o : nat) (k : obj -> block -> option block -> result) : result :=
  match objs s o with
  | None => Raises s
  | Some r => if o_gone r then Raises s
              else match o_data r with
                   | None => Raises s
                   | Some w => match mem s w with
                               | Some ch => match what ch with KWrap p => k r w p | _ => Undefined end
                               | None => Undefined
                               end
                   end
  end.
(** Reading through a pointer: lib/query.cc:358. *)
Definition deref (s : state) (p : option block) (k : block -> kind -> result) : result :=
  match p with
  | None => Undefined
  | Some b => match mem s b with Some ch => k b (what ch) | None => Undefined end
  end.
(** The database of an object of the library: query->notmuch, message->notmuch, ... (lib/query.cc:358, 509, 675,
    lib/message.cc:2183-2187, lib/thread.cc:580, lib/directory.cc:140). *)
Definition with_db (s : state) (b : block) (kd : kind) (k : block -> bool -> list nat -> result) : result :=
  let go d := match mem s d with Some {| what := KDb op pe |} => k d op pe | _ => Undefined end in
  match kd with
  | KDb _ _ => go b
  | KDir d | KQuery d | KMset d | KThread d _ _ | KMsg d _ => go d
  | KThreads q => match mem s q with Some {| what := KQuery d |} => go d | _ => Undefined end
  | _ => Undefined
  end.

(** ** Operations *)
(** Methods that return a new object (bindings/ruby/init.c:258-310). *)
Inductive method := find | directory | query | search_messages | search_threads.
(** The class of what they return, and the new object of the library, below that of the receiver:
    find_message, find_message_by_filename, add_message: bindings/ruby/database.c:310-404, lib/message.cc:107-175, 201-219;
    get_directory: bindings/ruby/database.c:282-300, lib/directory.cc:134; query: bindings/ruby/database.c:438-494, lib/query.cc:89-122;
    search_messages: bindings/ruby/query.c:150-164, lib/query.cc:353-468; search_threads: bindings/ruby/query.c:129-143, lib/query.cc:596-636. *)
Definition makes (c : cls) (m : method) : option cls :=
  match c, m with
  | Database, find => Some Message
  | Database, directory => Some Directory
  | Database, query => Some Query
  | Query, search_messages => Some Messages
  | Query, search_threads => Some Threads
  | _, _ => None
  end.
(** The same, the new object of the library (lib/query.cc:89-122, 353-468, 596-636, lib/directory.cc:134, lib/message.cc:107-175). *)
Definition made (m : method) (b d : block) : kind :=
  match m with
  | find => KMsg d []
  | directory => KDir d
  | query => KQuery d
  | search_messages => KMset d
  | search_threads => KThreads b
  end.
(** A thread in the index: for each message the numbers of the replies to it, and the numbers
    of the messages at the top (lib/thread.cc:34-56). *)
Record shape := { sh_replies : list (list nat); sh_top : list nat }.
(** The blocks of the messages with these numbers; [t] is that of the thread (lib/thread.cc:273-274). *)
Definition blocks_of (t n : nat) (l : list nat) : list block := map (fun i => t + 1 + i) (filter (fun i => i <? n) l).
(** lib/thread.cc:540-654: a new thread below [par], and its messages below it. *)
Definition new_thread (s : state) (par d : block) (sh : shape) : state :=
  let t := next_block s in
  let n := length (sh_replies sh) in
  {| mem := fun b => if b =? t then Some {| parent := Some par; what := KThread d (seq (t + 1) n) (blocks_of t n (sh_top sh)) |}
                     else if (t <? b) && (b <=? t + n) then Some {| parent := Some t; what := KMsg d (blocks_of t n (nth (b - t - 1) (sh_replies sh) [])) |}
                     else mem s b;
     next_block := t + 1 + n; objs := objs s; next_obj := next_obj s; loops := loops s; disk := disk s |}.
(** The innermost "each", from the test "valid" on: the end of the loop, or "get" and the block of the program
    is called with the new object: bindings/ruby/threads.c:49-52, bindings/ruby/messages.c:49-52; lib/query.cc:493-522, 644-681,
    lib/messages.c:101-135.  [more]: is there one more result of the search, and as a thread what does it look like? *)
Definition visit (s : state) (more : option shape) : result :=
  match loops s with
  | [] => Raises s
  | (o, p) :: rest_loops =>
      match p with
      | None => Returns (set_loops s rest_loops)
      | Some b => deref s p (fun _ kd =>
          match kd with
          | KMset _ => match more with
                       | None => Returns (set_loops s rest_loops)
                       | Some _ => with_db s b kd (fun d _ _ => wrap (alloc s (Some b) (KMsg d [])) Message (Some (next_block s)) (Some o))
                       end
          | KThreads q => match more with
                          | None => Returns (set_loops s rest_loops)
                          | Some sh => with_db s b kd (fun d _ _ => wrap (new_thread s q d sh) Thread (Some (next_block s)) (Some o))
                          end
          | KList owner [] => Returns (set_loops s rest_loops)
          | KList owner (m :: _) => if in_use (mem s) owner then wrap s Message (Some m) (Some o) else Undefined
          | _ => Undefined
          end)
      end
  end.
(** "move_to_next" (lib/messages.c:137-149, lib/query.cc:524-532, 683-687) when the block of the program returns, and on as above. *)
Definition continue (s : state) (more : option shape) : result :=
  match loops s with
  | (o, Some b) :: _ =>
      deref s (Some b) (fun _ kd =>
        match kd with
        | KList owner (m :: rest) => if in_use (mem s) owner then visit (set_what s b (KList owner rest)) more else Undefined
        | _ => visit s more
        end)
  | _ => Raises s
  end.
(** The loop of notmuch_messages_collect_tags over the messages of a thread (lib/messages.c:173-182): each is read and freed. *)
Fixpoint collect_list (s : state) (owner : block) (ms : list block) : result :=
  match ms with
  | [] => Returns s
  | m :: ms => if in_use (mem s) owner then
                 deref s (Some m) (fun b kd => with_db s b kd (fun _ _ _ => collect_list (free s m) owner ms))
               else Undefined
  end.
(** notmuch_database_close (lib/database.cc:504-529). *)
Definition close (s : state) (d : block) : state :=
  match mem s d with
  | Some {| what := KDb op pe |} =>
      let s1 := set_what s d (KDb false []) in
      {| mem := mem s1; next_block := next_block s1; objs := objs s1; next_obj := next_obj s1; loops := loops s1; disk := pe ++ disk s1 |}
  | _ => s
  end.

(** What a program and the interpreter do (bindings/ruby/init.c:258-376). *)
Inductive event :=
| New                                        (* Database.new *)
| Make (o : nat) (m : method)
| ThreadMessages (o : nat) (top : bool)      (* thread.messages, thread.toplevel_messages *)
| Replies (o : nat)                          (* message.replies *)
| Each (o : nat) (more : option shape)       (* threads.each, messages.each: up to the first call of the block *)
| Continue (more : option shape)             (* the block returns; up to its next call, or the end of "each" *)
| Break                                      (* the block leaves "each", by break or an exception *)
| Tags (o : nat)                             (* messages.tags *)
| Use (o : nat) (reads_db : bool)            (* any other method; some also read the database *)
| Write (o : nat) (change : nat)             (* add_tag, remove_message, directory.mtime=, ... *)
| Close (o : nat)                            (* database.close *)
| Destroy (o : nat)                          (* destroy! *)
| Collect (o : nat).                         (* the interpreter frees an object that the program can no longer reach *)

(** One such operation.
    New: bindings/ruby/database.c:23-27, 51-116 (the wrapper made by "alloc" is never freed);
    ThreadMessages: bindings/ruby/thread.c:74-108, lib/thread.cc:656-666, lib/messages.c:68-84; Replies: bindings/ruby/message.c:77-88, lib/message.cc:692-696
    (without replies the iterator is a null pointer);
    Tags: bindings/ruby/messages.c:62-76, lib/messages.c:158-194;
    Close: bindings/ruby/database.c:142-154; Destroy: bindings/ruby/defs.h:132-143, lib/database.cc:735-769, lib/query.cc:638-642, 689-693,
    lib/messages.c:151-155, lib/thread.cc:738-742, lib/message.cc:2177-2181, lib/directory.cc:331-335 (talloc_free of a null pointer does nothing);
    Collect: bindings/ruby/init.c:45-50, 52-60, bindings/ruby/defs.h:126-130.  What "each" runs on cannot be collected. *)
Definition step (s : state) (e : event) : result :=
  match e with
  | New =>
      let s1 := alloc s None (KWrap None) in
      let s2 := alloc s1 None (KDb true []) in
      wrap s2 Database (Some (next_block s1)) None
  | Make o m =>
      access s o (fun r _ p =>
        match makes (o_cls r) m with
        | None => Raises s
        | Some c => deref s p (fun b kd => with_db s b kd (fun d _ _ =>
                      wrap (alloc s (Some b) (made m b d)) c (Some (next_block s)) (Some o)))
        end)
  | ThreadMessages o top =>
      access s o (fun r _ p =>
        match o_cls r with
        | Thread => deref s p (fun b kd =>
                      match kd with
                      | KThread _ all tops =>
                          match (if top then tops else all) with
                          | [] => Raises s
                          | l => wrap (alloc s (Some b) (KList b l)) Messages (Some (next_block s)) (Some o)
                          end
                      | _ => Undefined
                      end)
        | _ => Raises s
        end)
  | Replies o =>
      access s o (fun r _ p =>
        match o_cls r with
        | Message => deref s p (fun b kd =>
                       match kd with
                       | KMsg _ [] => wrap s Messages None (Some o)
                       | KMsg _ l => wrap (alloc s (Some b) (KList b l)) Messages (Some (next_block s)) (Some o)
                       | _ => Undefined
                       end)
        | _ => Raises s
        end)
  | Each o more =>
      access s o (fun r _ p =>
        match o_cls r with
        | Threads | Messages => visit (set_loops s ((o, p) :: loops s)) more
        | _ => Raises s
        end)
  | Continue more => continue s more
  | Break => Returns (set_loops s (tl (loops s)))
  | Tags o =>
      access s o (fun r _ p =>
        match o_cls r with
        | Messages => deref s p (fun b kd =>
                        match kd with
                        | KMset _ => with_db s b kd (fun _ _ _ => Returns s)
                        | KList owner l => collect_list (set_what s b (KList owner [])) owner l
                        | _ => Undefined
                        end)
        | _ => Raises s
        end)
  | Use o reads_db =>
      access s o (fun r _ p =>
        match o_cls r with
        | Messages | Threads => Raises s
        | _ => deref s p (fun b kd => if reads_db then with_db s b kd (fun _ _ _ => Returns s) else Returns s)
        end)
  | Write o c =>
      access s o (fun r _ p =>
        match o_cls r with
        | Database | Message | Directory =>
            deref s p (fun b kd => with_db s b kd (fun d op pe => if op then Returns (set_what s d (KDb op (c :: pe))) else Raises s))
        | _ => Raises s
        end)
  | Close o =>
      access s o (fun r _ p =>
        match o_cls r with
        | Database => deref s p (fun b kd => Returns (close s b))
        | _ => Raises s
        end)
  | Destroy o =>
      access s o (fun r w p =>
        let finish s1 := Returns (set_obj (free s1 w) o {| o_cls := o_cls r; o_data := None; o_gone := o_gone r; o_of := o_of r;
                                                           o_parent := o_parent r; o_db := o_db r; o_thread := o_thread r |}) in
        match p with
        | None => finish s
        | Some b => if in_use (mem s) b then finish (free (match o_cls r with Database => close s b | _ => s end) b) else Undefined
        end)
  | Collect o =>
      match objs s o with
      | Some r =>
          if o_gone r || existsb (fun l => fst l =? o) (loops s) then Raises s
          else
            let dead := {| o_cls := o_cls r; o_data := o_data r; o_gone := true; o_of := o_of r; o_parent := o_parent r; o_db := o_db r; o_thread := o_thread r |} in
            match o_data r with
            | None => Returns (set_obj s o dead)
            | Some w => if in_use (mem s) w then Returns (set_obj (free s w) o dead) else Undefined
            end
      | None => Raises s
      end
  end.
(** A program: any sequence of operations (as listed in bindings/ruby/init.c:258-376); exceptions are handled somewhere. *)
Fixpoint run (s : state) (es : list event) : option state :=
  match es with
  | [] => Some s
  | e :: es => match step s e with Returns s1 | Raises s1 => run s1 es | Undefined => None end
  end.
