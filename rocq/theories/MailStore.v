(** Model of adding, removing and re-indexing messages, and of thread assignment
    (lib/add-message.cc, lib/message.cc, lib/database.cc).

    A message document is a record of the values of its terms by kind; C44 proves
    that reading the kinds back from one term list is unambiguous.  Thread ids, in
    the code "%016x" of a 64-bit counter, are the counter values; the order of the
    strings is the order of the numbers.  Counters do not overflow.

    Assumed: databases with the GHOSTS, FILE_TERMS and BOOL_FOLDER features (all
    databases created since notmuch 0.19); no Xapian exception; opening the mail file
    succeeded and its path is short enough for a file-direntry term.
    Xapian (external): posting iterators run through document ids in increasing order
    and see the database as it was when they were created; the document table is kept
    in increasing order of ids here, because new ids are larger than all others.

    Not modelled: date, subject, author values, the text terms, directory documents,
    databases without ghost messages (those are in LegacyThreads.v). *)
From Verif Require Import Bytes Terms DocMap MsgId.
Local Open Scope N_scope.

(** lib/notmuch-private.h:116. *)
Definition NOTMUCH_MESSAGE_ID_MAX : nat := 189.

Section Store.
(** lib/database.cc [_notmuch_message_id_compressed] (SHA-1): any function. *)
Variable compressed : bytes -> bytes.

(** a message document: its terms and values, lib/message.cc, lib/add-message.cc. *)
Record mdoc := {
  m_id : bytes;            (* id term *)
  m_ghost : bool;          (* type term: ghost or mail *)
  m_threads : list N;      (* thread terms, sorted *)
  m_tags : list bytes;     (* tag terms *)
  m_props : list (bytes * bytes);  (* property terms *)
  m_files : list bytes;    (* file-direntry terms, as path names *)
  m_refs : list bytes;     (* reference terms *)
  m_replyto : list bytes   (* replyto terms *) }.
(** documents, last document id, and the last_thread_id metadata, lib/add-message.cc:40-51. *)
Record mdb := { docs : docmap mdoc; last_doc : N; last_thread : N }.

(** record update of the field. *)
Definition set_threads t d := {| m_id := m_id d; m_ghost := m_ghost d; m_threads := t; m_tags := m_tags d; m_props := m_props d;
  m_files := m_files d; m_refs := m_refs d; m_replyto := m_replyto d |}.
(** record update of the field. *)
Definition set_tags t d := {| m_id := m_id d; m_ghost := m_ghost d; m_threads := m_threads d; m_tags := t; m_props := m_props d;
  m_files := m_files d; m_refs := m_refs d; m_replyto := m_replyto d |}.
(** record update of the field. *)
Definition set_files f d := {| m_id := m_id d; m_ghost := m_ghost d; m_threads := m_threads d; m_tags := m_tags d; m_props := m_props d;
  m_files := f; m_refs := m_refs d; m_replyto := m_replyto d |}.
(** record update of the field. *)
Definition set_refs r d := {| m_id := m_id d; m_ghost := m_ghost d; m_threads := m_threads d; m_tags := m_tags d; m_props := m_props d;
  m_files := m_files d; m_refs := r; m_replyto := m_replyto d |}.
(** record update of the field. *)
Definition set_replyto r d := {| m_id := m_id d; m_ghost := m_ghost d; m_threads := m_threads d; m_tags := m_tags d; m_props := m_props d;
  m_files := m_files d; m_refs := m_refs d; m_replyto := r |}.
(** record update of the field. *)
Definition set_ghost g d := {| m_id := m_id d; m_ghost := g; m_threads := m_threads d; m_tags := m_tags d; m_props := m_props d;
  m_files := m_files d; m_refs := m_refs d; m_replyto := m_replyto d |}.
(** record update of the field. *)
Definition set_docs v s := {| docs := v; last_doc := last_doc s; last_thread := last_thread s |}.

(** Sorted sets of thread ids (external: term lists). *)
Fixpoint nadd (x : N) (l : list N) : list N :=
  match l with
  | [] => [x]
  | y :: l' => match N.compare x y with Lt => x :: y :: l' | Eq => y :: l' | Gt => y :: nadd x l' end
  end.
(** remove_term of a thread id (Xapian). *)
Fixpoint nrem (x : N) (l : list N) : list N :=
  match l with [] => [] | y :: l' => if N.eqb x y then l' else y :: nrem x l' end.

(** Ids over NOTMUCH_MESSAGE_ID_MAX are replaced by their hash (lib/database.cc:445-446,
    lib/message.cc:271-272). *)
Definition canon (id : bytes) : bytes := if Nat.ltb NOTMUCH_MESSAGE_ID_MAX (length id) then compressed id else id.

(** lib/database.cc:383-409, 434-469 [notmuch_database_find_message]: the first document
    with the id term. *)
Definition find_message (id : bytes) (s : mdb) : option (N * mdoc) :=
  find (fun kd => bseq (m_id (snd kd)) (canon id)) (docs s).

(** lib/message.cc:252-309 [_notmuch_message_create_for_message_id]: [true] if the document
    exists already, else a blank document with a new id (lib/database.cc:1433-1444). *)
Definition blank_doc (id : bytes) : mdoc :=
  {| m_id := id; m_ghost := false; m_threads := []; m_tags := []; m_props := []; m_files := []; m_refs := []; m_replyto := [] |}.
(** [create_for_message_id]: as above, lib/message.cc:252-309. *)
Definition create_for_message_id (id : bytes) (s : mdb) : N * mdoc * bool * mdb :=
  match find_message id s with
  | Some (k, d) => (k, d, true, s)
  | None => let k := last_doc s + 1 in
            (k, blank_doc (canon id), false, {| docs := docs s; last_doc := k; last_thread := last_thread s |})
  end.

(** lib/add-message.cc:40-51 [_notmuch_database_generate_thread_id]. *)
Definition generate_thread_id (s : mdb) : N * mdb :=
  let t := last_thread s + 1 in (t, {| docs := docs s; last_doc := last_doc s; last_thread := t |}).

(** lib/message.cc [notmuch_message_get_thread_id]: the first thread term; [None] is the
    INTERNAL_ERROR for a message without one. *)
Definition get_thread_id (d : mdoc) : option N := match m_threads d with t :: _ => Some t | [] => None end.

(** lib/message.cc:1472-1486 [_notmuch_message_initialize_ghost]. *)
Definition initialize_ghost (t : N) (d : mdoc) : mdoc := set_threads (nadd t (m_threads d)) (set_ghost true d).

(** lib/message.cc:1349-1373 [_notmuch_message_sync], the document part. *)
Definition sync (k : N) (d : mdoc) (s : mdb) : mdb := set_docs (dins k d (docs s)) s.

(** lib/add-message.cc:83-123 [_resolve_message_id_to_thread_id]. *)
Definition resolve (id : bytes) (s : mdb) : option (N * mdb) :=
  match create_for_message_id id s with
  | (k, d, true, s) => match get_thread_id d with Some t => Some (t, s) | None => None end
  | (k, d, false, s) => let '(t, s) := generate_thread_id s in Some (t, sync k (initialize_ghost t d) s)
  end.

(** lib/add-message.cc:175-209 [_merge_threads]. *)
Definition merge_doc (winner loser : N) (d : mdoc) : mdoc :=
  if existsb (N.eqb loser) (m_threads d) then set_threads (nadd winner (nrem loser (m_threads d))) d else d.
(** [merge_threads]: as above, lib/add-message.cc:175-209. *)
Definition merge_threads (winner loser : N) (s : mdb) : mdb :=
  set_docs (map (fun kd => (fst kd, merge_doc winner loser (snd kd))) (docs s)) s.

(** lib/message.cc:1508-1539 [_notmuch_message_add_term] for "reference" (term
    "XREFERENCE" + id) and "replyto" ("XREPLYTO" + id): longer than NOTMUCH_TERM_MAX is
    silently not added. *)
Definition badd (x : bytes) (l : list bytes) : list bytes := if existsb (bseq x) l then l else l ++ [x].
(** [add_reference]: as above, lib/message.cc:1508-1539. *)
Definition add_reference (r : bytes) (d : mdoc) : mdoc :=
  if Nat.leb (10 + length r) 245 then set_refs (badd r (m_refs d)) d else d.
(** [add_replyto]: as above, lib/message.cc:1508-1539. *)
Definition add_replyto (r : option bytes) (d : mdoc) : mdoc :=
  match r with
  | Some r => if Nat.leb (8 + length r) 245 then set_replyto (badd r (m_replyto d)) d else d
  | None => d
  end.
(** [add_thread]: as above, lib/message.cc:1508-1539. *)
Definition add_thread (t : N) (d : mdoc) : mdoc := set_threads (nadd t (m_threads d)) d.

(** lib/add-message.cc:264-288: the loop over the keys of the hash table. *)
Fixpoint link_keys (keys : list bytes) (d : mdoc) (tid : option N) (s : mdb) : option (mdoc * option N * mdb) :=
  match keys with
  | [] => Some (d, tid, s)
  | r :: keys =>
      let d := add_reference r d in
      match resolve r s with
      | None => None
      | Some (pt, s) =>
          match tid with
          | None => link_keys keys (add_thread pt d) (Some pt) s
          | Some t => if N.eqb t pt then link_keys keys d tid s
                      else link_keys keys d tid (merge_threads t pt s)
          end
      end
  end.

(** What a mail file contributes: its Message-Id (after lib/message-file.c:362-387), the
    References and In-Reply-To headers, the automatic tags found while indexing its
    text (lib/index.cc: attachment, signed, encrypted). *)
Record mfile := { f_id : bytes; f_references : bytes; f_in_reply_to : bytes; f_auto_tags : list bytes }.
(** The references of a file that count for message [self] (lib/add-message.cc:229-262). *)
Definition file_parents (self : bytes) (f : mfile) : list bytes * option bytes :=
  match read_parents self (f_references f) (f_in_reply_to f) with Some x => x | None => ([], None) end.

(** lib/add-message.cc:217-298 [_notmuch_database_link_message_to_parents]; [keys]: the
    keys of the hash table in the order g_hash_table_get_keys returns them. *)
Definition link_to_parents (keys : list bytes) (f : mfile) (d : mdoc) (tid : option N) (s : mdb) : option (mdoc * option N * mdb) :=
  link_keys keys (add_replyto (snd (file_parents (m_id d) f)) d) tid s.

(** lib/add-message.cc:403-461 [_notmuch_database_link_message] (GHOSTS feature). *)
Definition link_message (keys : list bytes) (f : mfile) (found : bool) (d : mdoc) (s : mdb) : option (mdoc * mdb) :=
  let tid := if found then get_thread_id d else None in
  if found && match tid with None => true | _ => false end then None
  else match link_to_parents keys f d tid s with
       | None => None
       | Some (d, Some t, s) => Some (d, s)
       | Some (d, None, s) => let '(t, s) := generate_thread_id s in Some (add_thread t d, s)
       end.

(** notmuch_status_t values of notmuch_database_index_file. *)
Inductive mstatus := M_success | M_duplicate | M_index_error.

(** lib/add-message.cc:463-594 [notmuch_database_index_file]; [index_ok]: the result of
    _notmuch_message_index_file.  [None]: the process aborts. *)
Definition index_file (name : bytes) (f : mfile) (keys : list bytes) (index_ok : bool) (s : mdb) : option (mstatus * mdb) :=
  let '(k, d, found, s) := create_for_message_id (f_id f) s in
  let is_ghost := found && m_ghost d in
  let d := set_files (badd name (m_files d)) d in
  let d := if negb found || is_ghost then set_ghost false d else d in
  match link_message keys f found d s with
  | None => None
  | Some (d, s) =>
      if index_ok then
        let d := set_tags (fold_left (fun l t => badd t l) (f_auto_tags f) (m_tags d)) d in
        Some (if negb found || is_ghost then M_success else M_duplicate, sync k d s)
      else Some (M_index_error, s)
  end.

(** lib/message.cc:1412-1429: two posting lists advanced in turn with skip_to. *)
Definition skip_to (x : N) (l : list N) : list N := 
  (fix go l := match l with [] => [] | y :: l' => if N.ltb y x then go l' else l end) l.
(** [common_doc]: as above, lib/message.cc:1412-1429. *)
Fixpoint common_doc (fuel : nat) (thread_doc mail_doc : list N) : option bool :=
  match thread_doc, mail_doc with
  | [], _ | _, [] => Some false
  | _ :: _, m :: _ =>
      match fuel with
      | O => None
      | S f =>
          let thread_doc := skip_to m thread_doc in
          match thread_doc with
          | [] => common_doc f thread_doc mail_doc
          | t :: _ =>
              if N.eqb t m then Some true
              else let mail_doc := skip_to t mail_doc in
                   match mail_doc with
                   | m' :: _ => if N.eqb t m' then Some true else common_doc f thread_doc mail_doc
                   | [] => common_doc f thread_doc mail_doc
                   end
          end
      end
  end.
(** lib/database.cc [_notmuch_database_find_doc_ids]. *)
Definition doc_ids (p : mdoc -> bool) (s : mdb) : list N := map fst (filter (fun kd => p (snd kd)) (docs s)).
(** the document has the thread term. *)
Definition in_thread (t : N) (d : mdoc) : bool := existsb (N.eqb t) (m_threads d).

(** lib/message.cc:1377-1468 [_notmuch_message_delete] of the document [k] read as [d]. *)
Definition message_delete (k : N) (d : mdoc) (s : mdb) : option mdb :=
  match get_thread_id d with
  | None => None
  | Some tid =>
      let s := set_docs (ddel k (docs s)) s in
      if m_ghost d then Some s
      else
        let thread_doc := doc_ids (in_thread tid) s in
        let mail_doc := doc_ids (fun d => negb (m_ghost d)) s in
        match common_doc (S (length thread_doc)) thread_doc mail_doc with
        | None => None
        | Some true =>
            match create_for_message_id (m_id d) s with
            | (k', g, false, s) => Some (sync k' (initialize_ghost tid g) s)
            | (_, _, true, s) => Some s
            end
        | Some false => Some (set_docs (fold_left (fun m k => ddel k m) thread_doc (docs s)) s)
        end
  end.

(** lib/database.cc:1471-1527 [notmuch_database_find_message_by_filename]. *)
Definition find_by_filename (name : bytes) (s : mdb) : option (N * mdoc) :=
  find (fun kd => existsb (bseq name) (m_files (snd kd))) (docs s).

(** lib/database.cc:1446-1469 [notmuch_database_remove_message], with
    lib/message.cc:1007-1047 [_notmuch_message_remove_filename]. *)
Fixpoint brem (x : bytes) (l : list bytes) : list bytes :=
  match l with [] => [] | y :: l' => if bseq x y then l' else y :: brem x l' end.
(** [remove_message]: as above, lib/database.cc:1446-1469. *)
Definition remove_message (name : bytes) (s : mdb) : option (mstatus * mdb) :=
  match find_by_filename name s with
  | None => Some (M_success, s)
  | Some (k, d) =>
      if Nat.ltb 1 (length (m_files d)) then
        let d := set_files (brem name (m_files d)) d in
        match m_files d with
        | [] => match message_delete k d s with Some s => Some (M_success, s) | None => None end
        | _ => Some (M_duplicate, sync k d s)
        end
      else match message_delete k d s with Some s => Some (M_success, s) | None => None end
  end.

(** Changing the tags of a message (C13 treats the API in detail). *)
Definition retag (id : bytes) (tags : list bytes) (s : mdb) : mdb :=
  match find_message id s with Some (k, d) => sync k (set_tags tags d) s | None => s end.

(** lib/message.cc:2235-2358 [notmuch_message_reindex] of an unfrozen message: first
    lib/message.cc:731-786 [_notmuch_message_remove_indexed_terms], then removal of the
    "index." properties, which writes the document, then each file is read again.
    [content]: what is now on disk under a name: the file, the order of the hash table
    keys, and whether _notmuch_message_index_file succeeds ([false]: FILE_ERROR). *)
Definition is_automatic (t : bytes) : bool := bseq t (lit "encrypted") || bseq t (lit "signed") || bseq t (lit "attachment").
(** [clear_indexed]: as above, lib/message.cc:2235-2358. *)
Definition clear_indexed (decrypt_false : bool) (d : mdoc) : mdoc :=
  {| m_id := m_id d; m_ghost := false; m_threads := []; m_tags := filter (fun t => negb (is_automatic t)) (m_tags d);
     m_props := filter (fun kv => negb (starts_with (lit "index.") (fst kv))
                                  && negb (decrypt_false && bseq (fst kv) (lit "session-key"))) (m_props d);
     m_files := []; m_refs := []; m_replyto := [] |}.
(** [reindex_files]: as above, lib/message.cc:2235-2358. *)
Fixpoint reindex_files (content : bytes -> option (mfile * list bytes * bool)) (orig : N) (names : list bytes)
  (d : mdoc) (found : nat) (s : mdb) : option (mdoc * nat * mdb) :=
  match names with
  | [] => Some (d, found, s)
  | n :: names =>
      match content n with
      | None => reindex_files content orig names d found s
      | Some (f, keys, ok) =>
          let d := set_files (badd n (m_files d)) d in
          match link_to_parents keys f d None s with
          | None => None
          | Some (d, tid, s) =>
              let d := add_thread (match tid with Some t => t | None => orig end) d in
              if ok then
                reindex_files content orig names
                  (set_tags (fold_left (fun l t => badd t l) (f_auto_tags f) (m_tags d)) d) (S found) s
              else reindex_files content orig names d found s
          end
      end
  end.
(** [reindex]: as above, lib/message.cc:2235-2358. *)
Definition reindex (decrypt_false : bool) (content : bytes -> option (mfile * list bytes * bool)) (k : N) (d : mdoc) (s : mdb) : option mdb :=
  match get_thread_id d with
  | None => None
  | Some orig =>
      let names := m_files d in
      let d := clear_indexed decrypt_false d in
      match reindex_files content orig names d 0 (sync k d s) with
      | None => None
      | Some (d, O, s) => message_delete k (add_thread orig d) s
      | Some (d, S _, s) => Some (sync k d s)
      end
  end.

(** Histories of API calls. *)
Inductive mop :=
| OAdd (name : bytes) (f : mfile) (keys : list bytes) (index_ok : bool)
| ORemove (name : bytes)
| OTags (id : bytes) (tags : list bytes).
(** one library call on the mail store. *)
Definition mstep (o : mop) (s : mdb) : option (mstatus * mdb) :=
  match o with
  | OAdd name f keys ok => index_file name f keys ok s
  | ORemove name => remove_message name s
  | OTags id tags => Some (M_success, retag id tags s)
  end.
(** a history of library calls. *)
Fixpoint mrun (h : list mop) (s : mdb) : option mdb :=
  match h with
  | [] => Some s
  | o :: h => match mstep o s with Some (_, s) => mrun h s | None => None end
  end.
(** a new database. *)
Definition empty_db : mdb := {| docs := []; last_doc := 0; last_thread := 0 |}.
End Store.
