(** Model of thread assignment in databases without ghost messages (made before notmuch 0.19 and not upgraded):
    lib/add-message.cc:54-63, 125-173, 301-372, 403-461.  The documents and everything that does not depend on the
    feature are those of MailStore.v.

    Simplification: as in MailStore.v; the metadata with the prefix of thread ids is a list of pairs (id, thread). *)
From Verif Require Import Bytes Terms DocMap MsgId MailStore.
Local Open Scope N_scope.

(** The database: documents, and the thread ids stored for messages not seen yet (lib/database.cc:222-231). *)
Record ldb := { l_db : mdb; l_meta : list (bytes * N) }.
(** get_metadata; the empty string is [None]. *)
Fixpoint mget (id : bytes) (m : list (bytes * N)) : option N :=
  match m with [] => None | (k, t) :: m => if bseq id k then Some t else mget id m end.
(** set_metadata with the empty string. *)
Definition mclear (id : bytes) (m : list (bytes * N)) : list (bytes * N) := filter (fun kt => negb (bseq id (fst kt))) m.
(** set_metadata. *)
Definition mset (id : bytes) (t : N) (m : list (bytes * N)) : list (bytes * N) := (id, t) :: mclear id m.
(** The documents change, the metadata do not. *)
Definition on_db (f : mdb -> mdb) (s : ldb) : ldb := {| l_db := f (l_db s); l_meta := l_meta s |}.

Section Legacy.
(** See MailStore.v. *)
Variable compressed : bytes -> bytes.

(** lib/add-message.cc:125-173 [_resolve_message_id_to_thread_id_old], with 54-63 [_get_metadata_thread_id_key]. *)
Definition resolve_old (id : bytes) (s : ldb) : option (N * ldb) :=
  match find_message compressed id (l_db s) with
  | Some (_, d) => match get_thread_id d with Some t => Some (t, s) | None => None end
  | None =>
      match mget (canon compressed id) (l_meta s) with
      | Some t => Some (t, s)
      | None => let '(t, db) := generate_thread_id (l_db s) in Some (t, {| l_db := db; l_meta := mset (canon compressed id) t (l_meta s) |})
      end
  end.
(** lib/add-message.cc:264-288: the loop of [_notmuch_database_link_message_to_parents]. *)
Fixpoint link_keys_old (keys : list bytes) (d : mdoc) (tid : option N) (s : ldb) : option (mdoc * option N * ldb) :=
  match keys with
  | [] => Some (d, tid, s)
  | r :: keys =>
      let d := add_reference r d in
      match resolve_old r s with
      | None => None
      | Some (pt, s) =>
          match tid with
          | None => link_keys_old keys (add_thread pt d) (Some pt) s
          | Some t => if N.eqb t pt then link_keys_old keys d tid s else link_keys_old keys d tid (on_db (merge_threads t pt) s)
          end
      end
  end.
(** _notmuch_message_remove_term of a reference (lib/message.cc:1583-1615). *)
Definition drop_reference (id : bytes) (d : mdoc) : mdoc := set_refs (filter (fun r => negb (bseq id r)) (m_refs d)) d.
(** lib/add-message.cc:301-346 [_notmuch_database_link_message_to_children]: the loop over the documents found; each is read
    when its turn comes. *)
Fixpoint children_loop (ks : list N) (d : mdoc) (tid : option N) (s : ldb) : option (mdoc * option N * ldb) :=
  match ks with
  | [] => Some (d, tid, s)
  | k :: ks =>
      match dget k (docs (l_db s)) with
      | None => None
      | Some c =>
          match get_thread_id c with
          | None => None
          | Some ct =>
              match tid with
              | None => children_loop ks (add_thread ct d) (Some ct) s
              | Some t => if N.eqb t ct then children_loop ks d tid s
                          else children_loop ks d tid (on_db (fun db => merge_threads t ct (sync k (drop_reference (m_id d) c) db)) s)
              end
          end
      end
  end.
(** As above; the documents with the reference. *)
Definition link_to_children (d : mdoc) (tid : option N) (s : ldb) : option (mdoc * option N * ldb) :=
  children_loop (doc_ids (fun c => existsb (bseq (m_id d)) (m_refs c)) (l_db s)) d tid s.
(** lib/add-message.cc:403-461 [_notmuch_database_link_message] without the feature, with 348-372
    [_consume_metadata_thread_id]. *)
Definition link_message_old (keys : list bytes) (f : mfile) (found : bool) (d : mdoc) (s : ldb) : option (mdoc * ldb) :=
  let start :=
    if found then match get_thread_id d with Some t => Some (d, Some t, s) | None => None end
    else match mget (m_id d) (l_meta s) with
         | Some t => Some (add_thread t d, Some t, {| l_db := l_db s; l_meta := mclear (m_id d) (l_meta s) |})
         | None => Some (d, None, s)
         end in
  match start with
  | None => None
  | Some (d, tid, s) =>
      match link_keys_old keys (add_replyto (snd (file_parents (m_id d) f)) d) tid s with
      | None => None
      | Some (d, tid, s) =>
          match link_to_children d tid s with
          | None => None
          | Some (d, Some _, s) => Some (d, s)
          | Some (d, None, s) => let '(t, db) := generate_thread_id (l_db s) in Some (add_thread t d, {| l_db := db; l_meta := l_meta s |})
          end
      end
  end.
(** lib/add-message.cc:463-594 [notmuch_database_index_file]; see MailStore.v. *)
Definition index_file_old (name : bytes) (f : mfile) (keys : list bytes) (index_ok : bool) (s : ldb) : option (mstatus * ldb) :=
  let '(k, d, found, db) := create_for_message_id compressed (f_id f) (l_db s) in
  let s := {| l_db := db; l_meta := l_meta s |} in
  let is_ghost := found && m_ghost d in
  let d := set_files (badd name (m_files d)) d in
  let d := if negb found || is_ghost then set_ghost false d else d in
  match link_message_old keys f found d s with
  | None => None
  | Some (d, s) =>
      if index_ok then
        let d := set_tags (fold_left (fun l t => badd t l) (f_auto_tags f) (m_tags d)) d in
        Some (if negb found || is_ghost then M_success else M_duplicate, on_db (sync k d) s)
      else Some (M_index_error, s)
  end.
(** One library call: the others do not depend on the feature. *)
Definition lstep (o : mop) (s : ldb) : option (mstatus * ldb) :=
  match o with
  | OAdd name f keys ok => index_file_old name f keys ok s
  | ORemove name => match remove_message compressed name (l_db s) with Some (st, db) => Some (st, {| l_db := db; l_meta := l_meta s |}) | None => None end
  | OTags id tags => Some (M_success, on_db (retag compressed id tags) s)
  end.
(** A history of library calls. *)
Fixpoint lrun (h : list mop) (s : ldb) : option ldb :=
  match h with [] => Some s | o :: h => match lstep o s with Some (_, s) => lrun h s | None => None end end.
(** A new database. *)
Definition empty_ldb : ldb := {| l_db := empty_db; l_meta := [] |}.
End Legacy.
