(** Model of the reply tree of a thread: lib/thread.cc 397-523
    (_parent_via_in_reply_to, _parent_or_toplevel, _resolve_thread_relationships),
    lib/message.cc 606-690 (_notmuch_message_add_reply, thread_depth,
    _notmuch_message_label_depths, _cmpmsg, _notmuch_message_sort_subtrees), the list
    type of lib/messages.c 30-80, and the walk of notmuch-show.c 1055-1107
    (show_messages).

    A message object is represented by its position in thread->message_list (oldest
    first); the `replies' field of all the message objects is a function from positions
    to lists of positions (messages.c's singly linked lists, appended at the tail), and
    the `thread_depth' fields another.  Recursion over this mutable graph need not
    terminate, so the recursive functions take fuel: [None] = not finished within that
    recursion depth.  Memory allocation failure is not modelled. *)
From Verif Require Import Bytes.

(** What the threading code reads of a message: its id, its In-Reply-To message id
    (message.cc 584-589; NULL or "" when there is none), the list of its References
    (message.cc 633-638), its date (message.cc notmuch_message_get_date). *)
Record tmsg := mk_tmsg {
  tm_mid : bytes;
  tm_irt : option bytes;
  tm_refs : list bytes;
  tm_date : Z
}.

(** thread->message_hash (thread.cc:278-280, g_hash_table_insert: a later message with
    the same id replaces the earlier). *)
Fixpoint hash_lookup_from (k : nat) (ms : list tmsg) (id : bytes) : option nat :=
  match ms with
  | [] => None
  | m :: ms' =>
      match hash_lookup_from (S k) ms' id with
      | Some j => Some j
      | None => if bseq (tm_mid m) id then Some k else None
      end
  end.
(** [hash_lookup]: as above, thread.cc:278-280. *)
Definition hash_lookup (ms : list tmsg) (id : bytes) : option nat := hash_lookup_from 0 ms id.

(** the replies list of every message. *)
Definition replies := nat -> list nat.
(** [depths]: as above, thread.cc:278-280. *)
Definition depths := nat -> nat.
(** [upd]: as above, thread.cc:278-280. *)
Definition upd {A} (f : nat -> A) (i : nat) (v : A) : nat -> A :=
  fun j => if Nat.eqb j i then v else f j.

(** _notmuch_message_list_add_message, messages.c:46-57: append. *)
Definition list_add (l : list nat) (i : nat) : list nat := l ++ [i].
(** _notmuch_message_add_reply, message.cc:606-611. *)
Definition add_reply (r : replies) (parent reply : nat) : replies :=
  upd r parent (list_add (r parent) reply).

(** the i-th message; the default is never used (positions are always in range). *)
Definition no_msg : tmsg := mk_tmsg [] None [] 0.
(** message at an index. *)
Definition get (ms : list tmsg) (i : nat) : tmsg := nth i ms no_msg.

(** _parent_via_in_reply_to, thread.cc:397-416: [None] = false. *)
Definition parent_via_in_reply_to (ms : list tmsg) (r : replies) (i : nat) : option replies :=
  match tm_irt (get ms i) with
  | None => None
  | Some [] => None
  | Some irt => match hash_lookup ms irt with
                | Some p => Some (add_reply r p i)
                | None => None
                end
  end.

(** the loop over the references in _parent_or_toplevel, thread.cc:430-444: keep the
    deepest message of the thread named there, the first of equals. *)
Fixpoint best_parent (ms : list tmsg) (dep : depths) (refs : list bytes)
                     (max_depth : nat) (parent : option nat) : option nat :=
  match refs with
  | [] => parent
  | ref :: refs' =>
      match hash_lookup ms ref with
      | Some np =>
          if Nat.ltb max_depth (dep np) || (match parent with None => true | Some _ => false end)
          then best_parent ms dep refs' (dep np) (Some np)
          else best_parent ms dep refs' max_depth parent
      | None => best_parent ms dep refs' max_depth parent
      end
  end.

(** _parent_or_toplevel, thread.cc:418-455. *)
Definition parent_or_toplevel (ms : list tmsg) (dep : depths) (r : replies) (top : list nat) (i : nat)
  : replies * list nat :=
  match best_parent ms dep (tm_refs (get ms i)) 0 None with
  | Some p => (add_reply r p i, top)
  | None => (r, list_add top i)
  end.

(** first loop of _resolve_thread_relationships, thread.cc:472-476. *)
Fixpoint first_pass (ms : list tmsg) (is : list nat) (r : replies) (maybe : list nat)
  : replies * list nat :=
  match is with
  | [] => (r, maybe)
  | i :: is' =>
      match parent_via_in_reply_to ms r i with
      | Some r' => first_pass ms is' r' maybe
      | None => first_pass ms is' r (list_add maybe i)
      end
  end.

(** thread.cc:484-496: the oldest message last, and only given a parent when there is
    already a candidate top-level message. *)
Definition first_message (ms : list tmsg) (r : replies) (maybe : list nat) : replies * list nat :=
  match maybe with
  | [] => (r, list_add maybe 0%nat)
  | _ :: _ => match parent_via_in_reply_to ms r 0%nat with
              | Some r' => (r', maybe)
              | None => (r, list_add maybe 0%nat)
              end
  end.

(** _notmuch_message_label_depths, message.cc:619-631. *)
Fixpoint label_depths (fuel : nat) (r : replies) (d : nat) (dep : depths) (m : nat) : option depths :=
  match fuel with
  | O => None
  | S f =>
      fold_left (fun acc child => match acc with
                                  | None => None
                                  | Some dep' => label_depths f r (S d) dep' child
                                  end)
                (r m) (Some (upd dep m d))
  end.

(** thread.cc:498-503. *)
Definition label_all (fuel : nat) (r : replies) (roots : list nat) (dep : depths) : option depths :=
  fold_left (fun acc root => match acc with
                             | None => None
                             | Some dep' => label_depths fuel r 0 dep' root
                             end) roots (Some dep).

(** thread.cc:505-514: _notmuch_messages_has_next is "there is a next root". *)
Fixpoint second_pass (ms : list tmsg) (dep : depths) (roots : list nat) (r : replies) (top : list nat)
  : replies * list nat :=
  match roots with
  | [] => (r, top)
  | i :: rest =>
      match rest, top with
      | [], [] => second_pass ms dep rest r (list_add top i)
      | _, _ => let (r', top') := parent_or_toplevel ms dep r top i in
                second_pass ms dep rest r' top'
      end
  end.

(** _notmuch_message_sort_subtrees, message.cc:656-690.  qsort with _cmpmsg (646-652) is
    the C library's; any sorting function will do. *)
Fixpoint sort_subtrees (qsort : list nat -> list nat) (fuel : nat) (r : replies) (l : list nat)
  : option (replies * list nat) :=
  match fuel with
  | O => None
  | S f =>
      match fold_left (fun acc root =>
               match acc with
               | None => None
               | Some r1 => match sort_subtrees qsort f r1 (r1 root) with
                            | None => None
                            | Some (r2, l2) => Some (upd r2 root l2)
                            end
               end) l (Some r) with
      | None => None
      | Some r' => Some (r', qsort l)
      end
  end.

(** _resolve_thread_relationships, thread.cc:457-522.  message.cc:137 starts every depth
    at 0, and every message starts without replies. *)
Definition resolve (qsort : list nat -> list nat) (fuel : nat) (ms : list tmsg)
  : option (replies * list nat) :=
  match ms with
  | [] => Some (fun _ => [], [])
  | _ :: rest =>
      let (r1, maybe1) := first_pass ms (seq 1 (length rest)) (fun _ => []) [] in
      let (r2, maybe2) := first_message ms r1 maybe1 in
      match label_all fuel r2 maybe2 (fun _ => 0%nat) with
      | None => None
      | Some dep =>
          let (r3, top) := second_pass ms dep maybe2 r2 [] in
          sort_subtrees qsort fuel r3 top
      end
  end.

(** show_messages, notmuch-show.c:1054-1107: the messages visited, each with the
    indentation it is shown at ([None]: replaced by null in the output, 1087).
    [shown m] is the condition of line 1080 (matched and not excluded, or
    --entire-thread). *)
Fixpoint show_messages (shown : nat -> bool) (fuel : nat) (r : replies) (indent : nat) (l : list nat)
  : option (list (nat * option nat)) :=
  match fuel with
  | O => None
  | S f =>
      (fix loop (l : list nat) : option (list (nat * option nat)) :=
         match l with
         | [] => Some []
         | m :: l' =>
             let out := if shown m then Some indent else None in
             let next_indent := if shown m then S indent else indent in
             match show_messages shown f r next_indent (r m) with
             | None => None
             | Some sub => match loop l' with
                           | None => None
                           | Some rest => Some ((m, out) :: sub ++ rest)
                           end
             end
         end) l
  end.
