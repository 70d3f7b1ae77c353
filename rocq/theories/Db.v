(** Model of message handles, freeze/thaw, atomic sections, revisions and
    durability (lib/message.cc, lib/database.cc, lib/open.cc).

    Xapian (external, trusted): a writable database handle sees its own changes at
    once; changes become durable when flushed; [begin_transaction(false)] opens a
    transaction during which nothing is flushed; [close] flushes, unless a
    transaction is open, in which case everything not yet flushed is discarded
    (the comment at lib/database.cc:517-519); a crash loses everything not flushed.
    [get_value_upper_bound] is an upper bound of the stored values which Xapian may
    lower only when a document is deleted.

    Not modelled: Xapian exceptions other than the ones named, several processes,
    the lazy loading of a document's terms (a handle holds the terms from the time
    it was obtained), the upgrade check in begin_atomic (no upgrade pending),
    databases without the last-modification feature. *)
From Verif Require Import Bytes Terms Meta DocMap.
Local Open Scope N_scope.

Definition NOTMUCH_TAG_MAX : nat := 200.    (* lib/notmuch.h:1822 *)
Definition NOTMUCH_TERM_MAX : nat := 245.   (* lib/notmuch-private.h:112 *)

Inductive status :=
| St_success | St_read_only | St_closed | St_xapian_exception | St_tag_too_long
| St_unbalanced_freeze_thaw | St_unbalanced_atomic | St_illegal_argument
| St_internal_error (* INTERNAL_ERROR / COERCE_STATUS on a private status: the process aborts *)
| St_no_handle (* model only: the caller used a handle it does not hold *).

(** A Xapian document, as far as needed here. *)
Record doc := { d_terms : list bytes; d_lastmod : N }.
(** All documents, and the upper bound Xapian keeps for the LAST_MOD value slot. *)
Record store := { st_docs : docmap doc; st_ub : N }.

(** struct _notmuch_message (lib/message.cc:26-60), fields used here. *)
Record handle := { h_doc : N; h_terms : list bytes; h_modified : bool; h_frozen : nat }.

(** struct _notmuch_database (lib/database-private.h), fields used here; [durable]
    is what a new process would find. *)
Record db := {
  vis : store; durable : store; in_txn : bool; nesting : nat; dirty : bool;
  revision : N; tcount : nat; threshold : nat; writable : bool; isopen : bool;
  handles : docmap handle }.

(** record update of the field. *)
Definition set_vis v s := {| vis := v; durable := durable s; in_txn := in_txn s; nesting := nesting s;
  dirty := dirty s; revision := revision s; tcount := tcount s; threshold := threshold s; writable := writable s;
  isopen := isopen s; handles := handles s |}.
(** record update of the field. *)
Definition set_durable v s := {| vis := vis s; durable := v; in_txn := in_txn s; nesting := nesting s;
  dirty := dirty s; revision := revision s; tcount := tcount s; threshold := threshold s; writable := writable s;
  isopen := isopen s; handles := handles s |}.
(** record update of the field. *)
Definition set_txn v s := {| vis := vis s; durable := durable s; in_txn := v; nesting := nesting s;
  dirty := dirty s; revision := revision s; tcount := tcount s; threshold := threshold s; writable := writable s;
  isopen := isopen s; handles := handles s |}.
(** record update of the field. *)
Definition set_nesting v s := {| vis := vis s; durable := durable s; in_txn := in_txn s; nesting := v;
  dirty := dirty s; revision := revision s; tcount := tcount s; threshold := threshold s; writable := writable s;
  isopen := isopen s; handles := handles s |}.
(** record update of the field. *)
Definition set_dirty v s := {| vis := vis s; durable := durable s; in_txn := in_txn s; nesting := nesting s;
  dirty := v; revision := revision s; tcount := tcount s; threshold := threshold s; writable := writable s;
  isopen := isopen s; handles := handles s |}.
(** record update of the field. *)
Definition set_rev v s := {| vis := vis s; durable := durable s; in_txn := in_txn s; nesting := nesting s;
  dirty := dirty s; revision := v; tcount := tcount s; threshold := threshold s; writable := writable s;
  isopen := isopen s; handles := handles s |}.
(** record update of the field. *)
Definition set_tcount v s := {| vis := vis s; durable := durable s; in_txn := in_txn s; nesting := nesting s;
  dirty := dirty s; revision := revision s; tcount := v; threshold := threshold s; writable := writable s;
  isopen := isopen s; handles := handles s |}.
(** record update of the field. *)
Definition set_mode w o s := {| vis := vis s; durable := durable s; in_txn := in_txn s; nesting := nesting s;
  dirty := dirty s; revision := revision s; tcount := tcount s; threshold := threshold s; writable := w;
  isopen := o; handles := handles s |}.
(** record update of the field. *)
Definition set_handles v s := {| vis := vis s; durable := durable s; in_txn := in_txn s; nesting := nesting s;
  dirty := dirty s; revision := revision s; tcount := tcount s; threshold := threshold s; writable := writable s;
  isopen := isopen s; handles := v |}.

(** Xapian replace_document (external). *)
Definition store_put (k : N) (d : doc) (st : store) : store :=
  {| st_docs := dput k d (st_docs st); st_ub := N.max (st_ub st) (d_lastmod d) |}.
(** get_value_upper_bound of the LASTMOD slot (Xapian). *)
Fixpoint max_lastmod (m : docmap doc) : N :=
  match m with [] => 0 | (_, d) :: m' => N.max (d_lastmod d) (max_lastmod m') end.
(** Xapian delete_document (external); the upper bound may be lowered to any value
    [ub] that still bounds the remaining documents. *)
Definition store_del (k : N) (ub : N) (st : store) : store :=
  let m := ddel k (st_docs st) in
  {| st_docs := m; st_ub := N.max (max_lastmod m) (N.min ub (st_ub st)) |}.

(** lib/database.cc:471-485 [_notmuch_database_ensure_writable]. *)
Definition ensure_writable (s : db) : status :=
  if negb (writable s) then St_read_only
  else if negb (isopen s) then St_closed else St_success.

(** lib/database.cc:488-502 [_notmuch_database_new_revision]. *)
Definition new_revision (s : db) : N * db :=
  let r := revision s + 1 in
  (r, match nesting s with O => set_rev r s | S _ => set_dirty true s end).

(** lib/message.cc:1349-1373 [_notmuch_message_sync]. *)
Definition message_sync (h : handle) (s : db) : handle * db :=
  if negb (writable s) then (h, s)
  else if negb (h_modified h) then (h, s)
  else
    let '(r, s) := new_revision s in
    let s := set_vis (store_put (h_doc h) {| d_terms := h_terms h; d_lastmod := r |} (vis s)) s in
    ({| h_doc := h_doc h; h_terms := h_terms h; h_modified := false; h_frozen := h_frozen h |}, s).

(** lib/message.cc:1508-1539 [_notmuch_message_add_term] for the tag prefix. *)
Definition h_add_term (term : bytes) (h : handle) : handle :=
  {| h_doc := h_doc h; h_terms := tadd term (h_terms h); h_modified := true; h_frozen := h_frozen h |}.
(** lib/message.cc:1583-1615 [_notmuch_message_remove_term]: removing an absent
    term throws InvalidArgumentError before [modified] is set. *)
Definition h_remove_term (term : bytes) (h : handle) : handle :=
  if tmem term (h_terms h)
  then {| h_doc := h_doc h; h_terms := trem term (h_terms h); h_modified := true; h_frozen := h_frozen h |}
  else h.
(** [h_set_frozen]: as above, lib/message.cc:1583-1615. *)
Definition h_set_frozen (n : nat) (h : handle) : handle :=
  {| h_doc := h_doc h; h_terms := h_terms h; h_modified := h_modified h; h_frozen := n |}.

(** "if (! message->frozen) _notmuch_message_sync (message)". *)
Definition sync_unless_frozen (h : handle) (s : db) : handle * db :=
  match h_frozen h with O => message_sync h s | S _ => (h, s) end.

(** lib/message.cc:1652-1685 [notmuch_message_add_tag].  (The TERM_TOO_LONG path is
    dead: a tag of at most 200 bytes plus the prefix is below 245.) *)
Definition add_tag (tag : bytes) (h : handle) (s : db) : status * handle * db :=
  match ensure_writable s with
  | St_success =>
      if Nat.ltb NOTMUCH_TAG_MAX (length tag) then (St_tag_too_long, h, s)
      else let '(h, s) := sync_unless_frozen (h_add_term (tag_term tag) h) s in (St_success, h, s)
  | st => (st, h, s)
  end.
(** lib/message.cc:1687-1719 [notmuch_message_remove_tag]. *)
Definition remove_tag (tag : bytes) (h : handle) (s : db) : status * handle * db :=
  match ensure_writable s with
  | St_success =>
      if Nat.ltb NOTMUCH_TAG_MAX (length tag) then (St_tag_too_long, h, s)
      else let '(h, s) := sync_unless_frozen (h_remove_term (tag_term tag) h) s in (St_success, h, s)
  | st => (st, h, s)
  end.
(** lib/message.cc:2109-2142 [notmuch_message_remove_all_tags]: the tag list is
    taken before the loop.  A stored tag longer than TERM_MAX-1 would stop the loop
    with an error; add_tag never stores one and that path is not modelled. *)
Definition remove_all_tags (h : handle) (s : db) : status * handle * db :=
  match ensure_writable s with
  | St_success =>
      let h := fold_left (fun h t => h_remove_term (tag_term t) h) (tags_of (h_terms h)) h in
      let '(h, s) := sync_unless_frozen h s in (St_success, h, s)
  | st => (st, h, s)
  end.
(** lib/message.cc:2144-2156 [notmuch_message_freeze]. *)
Definition freeze (h : handle) (s : db) : status * handle * db :=
  match ensure_writable s with
  | St_success => (St_success, h_set_frozen (S (h_frozen h)) h, s)
  | st => (st, h, s)
  end.
(** lib/message.cc:2158-2175 [notmuch_message_thaw]. *)
Definition thaw (h : handle) (s : db) : status * handle * db :=
  match ensure_writable s with
  | St_success =>
      match h_frozen h with
      | O => (St_unbalanced_freeze_thaw, h, s)
      | S n =>
          let h := h_set_frozen n h in
          match n with
          | O => let '(h, s) := message_sync h s in (St_success, h, s)
          | S _ => (St_success, h, s)
          end
      end
  | st => (st, h, s)
  end.

(** The term of a property, lib/message-property.cc:98. *)
Definition property_term (key value : bytes) : bytes := property_prefix ++ key ++ "="%char :: value.
(** lib/message-property.cc:80-120 [_notmuch_message_modify_property].  A term over
    TERM_MAX gives a private status that COERCE_STATUS turns into an abort. *)
Definition modify_property (delete_it : bool) (key value : bytes) (h : handle) (s : db) : status * handle * db :=
  match ensure_writable s with
  | St_success =>
      if mem "="%char key then (St_illegal_argument, h, s)
      else
        let term := property_term key value in
        if Nat.ltb NOTMUCH_TERM_MAX (length term) then (St_internal_error, h, s)
        else let '(h, s) := sync_unless_frozen (if delete_it then h_remove_term term h else h_add_term term h) s in
             (St_success, h, s)
  | st => (st, h, s)
  end.
(** lib/message.cc:698-724 [_notmuch_message_remove_terms]: remove the first term
    with the prefix until none is left. *)
Fixpoint remove_terms_loop (fuel : nat) (prefix : bytes) (h : handle) : handle :=
  match fuel with
  | O => h
  | S f =>
      match skip_to prefix (h_terms h) with
      | [] => h
      | t :: _ => if starts_with prefix t then remove_terms_loop f prefix (h_remove_term t h) else h
      end
  end.
(** [remove_terms]: as above, lib/message.cc:698-724. *)
Definition remove_terms (prefix : bytes) (h : handle) : handle :=
  remove_terms_loop (S (length (h_terms h))) prefix h.
(** lib/message-property.cc:134-163 [_notmuch_message_remove_all_properties]. *)
Definition remove_all_properties (key : option bytes) (prefix : bool) (h : handle) (s : db) : status * handle * db :=
  match ensure_writable s with
  | St_success =>
      let term_prefix := match key with
                         | Some k => property_prefix ++ k ++ (if prefix then [] else ["="%char])
                         | None => property_prefix
                         end in
      let '(h, s) := sync_unless_frozen (remove_terms term_prefix h) s in (St_success, h, s)
  | st => (st, h, s)
  end.

(** lib/database.cc:1110-1132 [notmuch_database_begin_atomic].  begin_transaction
    throws on a closed database and when a transaction is already active. *)
Definition begin_atomic (s : db) : status * db :=
  if negb (writable s) || Nat.ltb 0 (nesting s)
  then (St_success, set_nesting (S (nesting s)) s)
  else if negb (isopen s) || in_txn s then (St_xapian_exception, s)
  else (St_success, set_nesting (S (nesting s)) (set_txn true s)).

(** lib/database.cc:1134-1179 [notmuch_database_end_atomic]; [flush_env] is
    XAPIAN_FLUSH_THRESHOLD=1 in the environment.  commit_transaction throws on a
    closed database and when no transaction is active. *)
Definition end_atomic (flush_env : bool) (s : db) : status * db :=
  match nesting s with
  | O => (St_unbalanced_atomic, s)
  | S n =>
      if negb (writable s) || Nat.ltb 0 n
      then (St_success, set_nesting n s)
      else if negb (isopen s) || negb (in_txn s) then (St_xapian_exception, s)
      else
        let s := set_txn false s in
        let s := set_tcount (S (tcount s)) s in
        let s := if (Nat.ltb 0 (threshold s) && Nat.leb (threshold s) (tcount s)) || flush_env
                 then set_tcount 0 (set_durable (vis s) s) else s in
        let s := if dirty s then set_dirty false (set_rev (revision s + 1) s) else s in
        (St_success, set_nesting n s)
  end.

(** lib/database.cc:504-529 [notmuch_database_close]: on a read-write handle Xapian
    flushes, or discards when a transaction is open. *)
Definition close (s : db) : db :=
  if isopen s then
    let s := if writable s then
               if in_txn s then set_txn false (set_vis (durable s) s) else set_durable (vis s) s
             else s in
    set_mode (writable s) false s
  else s.

(** lib/open.cc:841-887 [notmuch_database_reopen] and 406-437
    [_load_database_state]: the revision is the upper bound kept by Xapian; note
    that [atomic_nesting] and [atomic_dirty] are not touched.  Message objects
    survive (their documents are not re-read). *)
Definition reopen (rw : bool) (s : db) : status * db :=
  let s := if negb (writable s) && negb rw && isopen s
           then set_vis (durable s) s
           else let s := close s in
                set_mode rw true (set_vis (durable s) s) in
  (St_success, set_rev (st_ub (vis s)) s).

(** A fresh process opening the database (lib/open.cc). *)
Definition open_db (st : store) (thr : nat) (rw : bool) : db :=
  {| vis := st; durable := st; in_txn := false; nesting := 0; dirty := false; revision := st_ub st;
     tcount := 0; threshold := thr; writable := rw; isopen := true; handles := [] |}.

(** lib/message.cc [_notmuch_message_create] on an existing document. *)
Definition open_message (h : N) (k : N) (s : db) : status * db :=
  match dget k (st_docs (vis s)) with
  | None => (St_no_handle, s)
  | Some d =>
      (St_success,
       set_handles (dput h {| h_doc := k; h_terms := d_terms d; h_modified := false; h_frozen := 0 |} (handles s)) s)
  end.

(** What a client, the environment and Xapian can do. *)
Inductive op :=
| OpBegin | OpEnd (flush_env : bool) | OpFlush | OpClose | OpReopen (rw : bool) | OpCrash (rw : bool)
| OpOpenMsg (h k : N)
| OpNewMsg (h k : N) (terms : list bytes)  (* message object for a document not yet written *)
| OpAddTag (h : N) (t : bytes) | OpRemTag (h : N) (t : bytes) | OpRemAll (h : N)
| OpFreeze (h : N) | OpThaw (h : N)
| OpAddProp (h : N) (k v : bytes) | OpRemProp (h : N) (k v : bytes) | OpRemProps (h : N) (k : option bytes) (prefix : bool)
| OpSync (h : N)                           (* lib-internal sync, e.g. when indexing *)
| OpDelete (k ub : N).

(** run an operation on a message handle, if it exists. *)
Definition on_handle (h : N) (f : handle -> db -> status * handle * db) (s : db) : status * db :=
  match dget h (handles s) with
  | None => (St_no_handle, s)
  | Some hd => let '(st, hd', s') := f hd s in (st, set_handles (dput h hd' (handles s')) s')
  end.

(** one API call; each case cites its function. *)
Definition step (o : op) (s : db) : status * db :=
  match o with
  | OpBegin => begin_atomic s
  | OpEnd fe => end_atomic fe s
  | OpFlush => (St_success, if writable s && isopen s && negb (in_txn s) then set_durable (vis s) s else s)
  | OpClose => (St_success, close s)
  | OpReopen rw => reopen rw s
  | OpCrash rw => (St_success, open_db (durable s) (threshold s) rw)
  | OpOpenMsg h k => open_message h k s
  | OpNewMsg h k terms =>
      (St_success, set_handles (dput h {| h_doc := k; h_terms := terms; h_modified := true; h_frozen := 0 |} (handles s)) s)
  | OpAddTag h t => on_handle h (add_tag t) s
  | OpRemTag h t => on_handle h (remove_tag t) s
  | OpRemAll h => on_handle h remove_all_tags s
  | OpFreeze h => on_handle h freeze s
  | OpThaw h => on_handle h thaw s
  | OpAddProp h k v => on_handle h (modify_property false k v) s
  | OpRemProp h k v => on_handle h (modify_property true k v) s
  | OpRemProps h k pf => on_handle h (remove_all_properties k pf) s
  | OpSync h => on_handle h (fun hd s => match ensure_writable s with
                 | St_success => let '(hd, s) := message_sync hd s in (St_success, hd, s)
                 | st => (st, hd, s) end) s
  | OpDelete k ub =>
      match ensure_writable s with
      | St_success => (St_success, set_vis (store_del k ub (vis s)) s)
      | st => (st, s)
      end
  end.

(** a sequence of API calls. *)
Definition run (ops : list op) (s : db) : db := fold_left (fun s o => snd (step o s)) ops s.
