(** Model of notmuch_database_upgrade (lib/database.cc:842-1108) with
    lib/message.cc:1049-1076 ([_notmuch_message_upgrade_folder], copy_data, clear_data),
    1341-1373 ([_notmuch_message_upgrade_last_mod], [_notmuch_message_sync]) and 1472-1486
    ([_notmuch_message_initialize_ghost]).

    Simplified: the progress timer and callback are not modelled; Xapian exceptions are
    modelled at the points given as parameters (counting, searching, looking up an id);
    message documents, directory documents and time stamp documents are kept in three
    lists that share one counter of document numbers. *)
From Verif Require Import Bytes Terms Meta Db Decimal Features Paths.
From Coq Require Import ZArith.
Local Open Scope nat_scope.

(** lib/database-private.h:66-121. *)
Definition FILE_TERMS : N := 1.
(** [DIRECTORY_DOCS]: as above, lib/database-private.h:66-121. *)
Definition DIRECTORY_DOCS : N := 2.
(** [BOOL_FOLDER]: as above, lib/database-private.h:66-121. *)
Definition BOOL_FOLDER : N := 8.
(** [GHOSTS]: as above, lib/database-private.h:66-121. *)
Definition GHOSTS : N := 16.
(** [LAST_MOD]: as above, lib/database-private.h:66-121. *)
Definition LAST_MOD : N := 64.
(** [has]: as above, lib/database-private.h:66-121. *)
Definition has (f bit : N) : bool := negb (N.land f bit =? 0)%N.

(** A message document: number, terms, data, and the revision in its LAST_MOD value. *)
Record umsg := { um_doc : N; um_terms : list bytes; um_data : bytes; um_lastmod : N }.

(** What the database holds: message documents (ghosts too), directory documents and
    the modification times in them, XTIMESTAMP documents (path in the term, time stamp),
    the thread_id_ metadata (message id, thread id), and "features" and "version". *)
Record udb := { u_msgs : list umsg; u_dirs : dirs; u_mtimes : list (N * Z); u_stamps : list (bytes * Z);
                u_tids : list (bytes * bytes); u_features : bytes; u_version : N }.

(** The handle during the upgrade: the database as the process sees it, the state to
    return to if a transaction is open, every state that a crash could leave on disk,
    the features of the handle and its revision counter. *)
Record ustate := { s_db : udb; s_txn : option udb; s_crash : list udb; s_feat : N; s_rev : N }.

(** Every change goes through here: outside a transaction Xapian may flush it at any
    time, inside one nothing reaches the disk before the commit. *)
Definition put (db : udb) (s : ustate) : ustate :=
  {| s_db := db; s_txn := s_txn s; s_crash := match s_txn s with None => db :: s_crash s | Some _ => s_crash s end;
     s_feat := s_feat s; s_rev := s_rev s |}.
(** WritableDatabase transactions (Xapian). *)
Definition begin_transaction (s : ustate) : option ustate :=
  match s_txn s with
  | Some _ => None                                    (* Xapian::InvalidOperationError *)
  | None => Some {| s_db := s_db s; s_txn := Some (s_db s); s_crash := s_crash s; s_feat := s_feat s; s_rev := s_rev s |}
  end.
(** WritableDatabase transactions (Xapian). *)
Definition commit_transaction (s : ustate) : option ustate :=
  match s_txn s with
  | None => None
  | Some _ => Some {| s_db := s_db s; s_txn := None; s_crash := s_db s :: s_crash s; s_feat := s_feat s; s_rev := s_rev s |}
  end.
(** WritableDatabase transactions (Xapian). *)
Definition cancel_transaction (s : ustate) : option ustate :=
  match s_txn s with
  | None => None
  | Some old => Some {| s_db := old; s_txn := None; s_crash := s_crash s; s_feat := s_feat s; s_rev := s_rev s |}
  end.
(** record update. *)
Definition set_feat (f : N) (s : ustate) : ustate :=
  {| s_db := s_db s; s_txn := s_txn s; s_crash := s_crash s; s_feat := f; s_rev := s_rev s |}.
(** lib/database.cc:488-502 [_notmuch_database_new_revision] outside notmuch_database_begin_atomic. *)
Definition new_revision (s : ustate) : N * ustate :=
  let r := (s_rev s + 1)%N in
  (r, {| s_db := s_db s; s_txn := s_txn s; s_crash := s_crash s; s_feat := s_feat s; s_rev := r |}).

(** record update. *)
Definition with_msgs (m : list umsg) (d : udb) : udb :=
  {| u_msgs := m; u_dirs := u_dirs d; u_mtimes := u_mtimes d; u_stamps := u_stamps d; u_tids := u_tids d;
     u_features := u_features d; u_version := u_version d |}.
(** [with_dirs]: as above, lib/database.cc:488-502. *)
Definition with_dirs (ds : dirs) (d : udb) : udb :=
  {| u_msgs := u_msgs d; u_dirs := ds; u_mtimes := u_mtimes d; u_stamps := u_stamps d; u_tids := u_tids d;
     u_features := u_features d; u_version := u_version d |}.
(** [with_mtimes]: as above, lib/database.cc:488-502. *)
Definition with_mtimes (m : list (N * Z)) (d : udb) : udb :=
  {| u_msgs := u_msgs d; u_dirs := u_dirs d; u_mtimes := m; u_stamps := u_stamps d; u_tids := u_tids d;
     u_features := u_features d; u_version := u_version d |}.
(** [with_stamps]: as above, lib/database.cc:488-502. *)
Definition with_stamps (m : list (bytes * Z)) (d : udb) : udb :=
  {| u_msgs := u_msgs d; u_dirs := u_dirs d; u_mtimes := u_mtimes d; u_stamps := m; u_tids := u_tids d;
     u_features := u_features d; u_version := u_version d |}.
(** [with_tids]: as above, lib/database.cc:488-502. *)
Definition with_tids (m : list (bytes * bytes)) (d : udb) : udb :=
  {| u_msgs := u_msgs d; u_dirs := u_dirs d; u_mtimes := u_mtimes d; u_stamps := u_stamps d; u_tids := m;
     u_features := u_features d; u_version := u_version d |}.
(** [with_meta]: as above, lib/database.cc:488-502. *)
Definition with_meta (f : bytes) (v : N) (d : udb) : udb :=
  {| u_msgs := u_msgs d; u_dirs := u_dirs d; u_mtimes := u_mtimes d; u_stamps := u_stamps d; u_tids := u_tids d;
     u_features := f; u_version := v |}.

(** How the call ends: it returns NOTMUCH_STATUS_SUCCESS or an error status, or the
    process stops (INTERNAL_ERROR or an exception that nobody catches). *)
Inductive ustatus := U_ok | U_error | U_abort.

(** lib/message.cc:1050-1051. *)
Definition FOLDER_PREFIX_V1 : bytes := lit "XFOLDER".
(** [ZFOLDER_PREFIX_V1]: as above, lib/message.cc:1050-1051. *)
Definition ZFOLDER_PREFIX_V1 : bytes := lit "ZXFOLDER".
(** [mail_term]: as above, lib/message.cc:1050-1051. *)
Definition mail_term : bytes := lit "Tmail".
(** [ghost_term]: as above, lib/message.cc:1050-1051. *)
Definition ghost_term : bytes := lit "Tghost".
(** [id_prefix]: as above, lib/message.cc:1050-1051. *)
Definition id_prefix : bytes := lit "Q".
(** [thread_prefix]: as above, lib/message.cc:1050-1051. *)
Definition thread_prefix : bytes := lit "G".
Definition ID_MAX : nat := 189.                       (* lib/notmuch-private.h:122 *)

(** Does the document belong to the results of the query "" (lib/query.cc: the term
    "Tmail")? *)
Definition is_mail (m : umsg) : bool := existsb (bseq mail_term) (um_terms m).

(** record update. *)
Definition set_terms (t : list bytes) (m : umsg) : umsg :=
  {| um_doc := um_doc m; um_terms := t; um_data := um_data m; um_lastmod := um_lastmod m |}.
(** record update. *)
Definition clear_data (m : umsg) : umsg :=
  {| um_doc := um_doc m; um_terms := um_terms m; um_data := []; um_lastmod := um_lastmod m |}.
(** record update. *)
Definition set_lastmod (r : N) (m : umsg) : umsg :=
  {| um_doc := um_doc m; um_terms := um_terms m; um_data := um_data m; um_lastmod := r |}.

Section Upgrade.
Variable sha1 : bytes -> bytes.          (* _notmuch_sha1_of_string *)
Variable compress : bytes -> bytes.      (* _notmuch_message_id_compressed *)
Variable root : bytes.                   (* the mail root *)
Variable count_fails search_fails : bool.      (* the query for all messages fails *)
Variable lookup_fails : bytes -> bool.         (* looking up a message id fails *)

(** lib/message.cc:1052-1063 [_notmuch_message_upgrade_folder]: the terms (None: the
    process stops) and whether the document was changed. *)
Definition upgrade_folder (t : list bytes) (ds : dirs) : option (list bytes * bool) :=
  let t1 := remove_prefixed FOLDER_PREFIX_V1 t in
  let t2 := remove_prefixed ZFOLDER_PREFIX_V1 t1 in
  match add_directory_terms ds t2 with
  | (F_abort, _) | (F_ub, _) => None
  | (_, t3) => Some (t3, existsb (starts_with FOLDER_PREFIX_V1) t || existsb (starts_with ZFOLDER_PREFIX_V1) t ||
                         match file_entries t2 with [] => false | _ => true end)
  end.

(** lib/message.cc:1349-1373 [_notmuch_message_sync]: [rest] puts the document back
    among the others. *)
Definition msg_sync (modified : bool) (m : umsg) (rest : umsg -> list umsg) (s : ustate) : umsg * ustate :=
  if modified then
    let '(m, s) := if has (s_feat s) LAST_MOD then let '(r, s) := new_revision s in (set_lastmod r m, s) else (m, s) in
    (m, put (with_msgs (rest m) (s_db s)) s)
  else (m, s).

(** lib/database.cc:945-977: one message of the loop. *)
Definition upgrade_message (new : N) (m : umsg) (rest : umsg -> list umsg) (s : ustate) : option (umsg * ustate) :=
  match (if has new FILE_TERMS then
           match um_data m with
           | [] => Some (m, false, s)
           | filename =>
               match add_filename sha1 root filename (um_terms m) (u_dirs (s_db s)) with
               | (F_abort, _, _) | (F_ub, _, _) => None
               | (_, t, ds) => Some (clear_data (set_terms t m), true, put (with_dirs ds (s_db s)) s)
               end
           end
         else Some (m, false, s)) with
  | None => None
  | Some (m, modified, s) =>
      match (if has new BOOL_FOLDER then
               match upgrade_folder (um_terms m) (u_dirs (s_db s)) with
               | None => None
               | Some (t, changed) => Some (set_terms t m, modified || changed)
               end
             else Some (m, modified)) with
      | None => None
      | Some (m, modified) => Some (msg_sync (modified || has new LAST_MOD) m rest s)
      end
  end.
(** lib/database.cc:932-984: the loop over the messages; [done] are the documents
    already passed. *)
Fixpoint messages_phase (new : N) (done todo : list umsg) (s : ustate) : option ustate :=
  match todo with
  | [] => Some s
  | m :: todo' =>
      if is_mail m then
        match upgrade_message new m (fun m' => done ++ m' :: todo') s with
        | None => None
        | Some (m', s) => messages_phase new (done ++ [m']) todo' s
        end
      else messages_phase new (done ++ [m]) todo' s
  end.

(** lib/database.cc:991-1028: the time stamps of directories.  The document of the
    directory is found or created and its mtime set; a NULL directory would be used. *)
Fixpoint stamps_phase (todo : list (bytes * Z)) (s : ustate) : option ustate :=
  match todo with
  | [] => Some s
  | (path, mtime) :: todo' =>
      match find_directory_id sha1 root true (Some path) (u_dirs (s_db s)) with
      | (None, _) => None
      | (Some id, ds) =>
          let s := put (with_dirs ds (s_db s)) s in
          let s := put (with_mtimes ((id, mtime) :: u_mtimes (s_db s)) (s_db s)) s in
          let s := put (with_stamps todo' (s_db s)) s in
          stamps_phase todo' s
      end
  end.

(** lib/database.cc:434-469 [notmuch_database_find_message] and lib/message.cc:252-309
    [_notmuch_message_create_for_message_id]: the id term. *)
Definition id_term (id : bytes) : bytes := id_prefix ++ (if Nat.ltb ID_MAX (length id) then compress id else id).
(** [find_message]: as above, lib/database.cc:434-469. *)
Definition find_message (id : bytes) (db : udb) : option umsg :=
  find (fun m => existsb (bseq (id_term id)) (um_terms m)) (u_msgs db).

(** lib/database.cc:1036-1078: the thread ids of missing messages. *)
Fixpoint ghosts_phase (todo : list (bytes * bytes)) (s : ustate) : ustatus * ustate :=
  match todo with
  | [] => (U_ok, s)
  | (id, tid) :: todo' =>
      if lookup_fails id then (U_error, s)
      else
        match find_message id (s_db s) with
        | Some _ => ghosts_phase todo' (put (with_tids todo' (s_db s)) s)
        | None =>
            let ds := u_dirs (s_db s) in
            match add_term thread_prefix tid (tadd ghost_term [id_term id]) with
            | None => (U_abort, s)           (* COERCE_STATUS on TERM_TOO_LONG *)
            | Some t =>
                let m := {| um_doc := next_id ds; um_terms := t; um_data := []; um_lastmod := 0 |} in
                let s := put (with_dirs {| dl := dl ds; next_id := (next_id ds + 1)%N |} (s_db s)) s in
                let '(_, s) := msg_sync true m (fun m' => u_msgs (s_db s) ++ [m']) s in
                ghosts_phase todo' (put (with_tids todo' (s_db s)) s)
            end
        end
  end.

(** the process is killed: open transaction lost. *)
Definition abort (s : ustate) : ustatus * ustate := (U_abort, s).
(** lib/database.cc:1084-1088: the label DONE. *)
Definition done_label (st : ustatus) (s : ustate) : ustatus * ustate :=
  match st with
  | U_abort => (U_abort, s)
  | U_ok => match commit_transaction s with Some s => (U_ok, s) | None => abort s end
  | U_error => match cancel_transaction s with Some s => (U_error, s) | None => abort s end
  end.

(** lib/database.cc:842-1108 [notmuch_database_upgrade] on a handle opened read-write. *)
Definition upgrade (s : ustate) : ustatus * ustate :=
  let target := N.lor (s_feat s) FEATURES_CURRENT in
  let new := N.ldiff FEATURES_CURRENT (s_feat s) in
  if negb (needs_upgrade true (u_version (s_db s)) (s_feat s)) then (U_ok, s)
  else
    let per_message := has new (N.lor FILE_TERMS (N.lor BOOL_FOLDER LAST_MOD)) in
    if per_message && count_fails then done_label U_error s
    else
      match begin_transaction s with
      | None => abort s
      | Some s =>
          let s := set_feat target s in
          if per_message && search_fails then done_label U_error s
          else
            match (if per_message then messages_phase new [] (u_msgs (s_db s)) s else Some s) with
            | None => abort s
            | Some s =>
                match (if has new DIRECTORY_DOCS then stamps_phase (u_stamps (s_db s)) s else Some s) with
                | None => abort s
                | Some s =>
                    match (if has new GHOSTS then ghosts_phase (u_tids (s_db s)) s else (U_ok, s)) with
                    | (U_ok, s) =>
                        let s := put (with_meta (print_features (s_feat s)) (u_version (s_db s)) (s_db s)) s in
                        let s := put (with_meta (u_features (s_db s)) DATABASE_VERSION (s_db s)) s in
                        done_label U_ok s
                    | (st, s) => done_label st s
                    end
                end
            end
      end.
End Upgrade.
