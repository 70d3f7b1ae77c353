(** Model of "notmuch new" (notmuch-new.c): scanning the mail store against the
    database, adding new files, removing the ones that are gone.

    The mail store is a tree, as stat shows it (symbolic links followed; a cycle of
    links is not representable).  It does not change while the scan runs.  Path names are
    relative to the mail root and start with '/': the root is the empty path.
    The database is the one of MailStore.v plus the directory documents, each with its
    recorded mtime.  [interrupted] (SIGINT) may become true at any of the places where the
    code tests it: [s_tick] counts the tests left before it does.

    Not modelled: progress output, counters other than [vanished_files], hooks, upgrade,
    "--decrypt", path names over the term length limit (NOTMUCH_STATUS_PATH_ERROR), Xapian
    exceptions and lack of memory. *)
From Verif Require Import Bytes Terms DocMap MsgId MailStore Maildir.

(** talloc_asprintf ("%s/%s"), notmuch-new.c:487-804. *)
Definition child (path name : bytes) : bytes := path ++ SLASH :: name.

(** What index_file makes of a file: [None]: not an email (FILE_NOT_EMAIL); otherwise the
    headers, the order of the hash table keys, and whether the body could be indexed
    ([false]: FILE_ERROR). *)
Definition content := option (mfile * list bytes * bool).
(** a file-system tree as scandir/stat show it (POSIX). *)
Inductive node :=
| NReg (c : content)
| NDir (mtime : Z) (nlink : N) (entries : list (bytes * node))
| NUnreadable (mtime : Z) (nlink : N)   (* a directory scandir fails on *)
| NOther                                (* fifo, socket, device *)
| NBroken.                              (* type cannot be determined: dangling link *)
(** notmuch-new.c:177-212 [dirent_type]. *)
Inductive kind := KReg (c : content) | KDir | KOther | KBroken.
(** [dirent_type]: as above, notmuch-new.c:177-212. *)
Definition dirent_type (nd : node) : kind :=
  match nd with NReg c => KReg c | NDir _ _ _ | NUnreadable _ _ => KDir | NOther => KOther | NBroken => KBroken end.

(** Database: messages and directory documents (path, mtime). *)
Record ndb := { n_mail : mdb; n_dirs : list (bytes * Z) }.
(** mtime of a directory document, lib/directory.cc:256-260. *)
Definition dir_get (p : bytes) (db : ndb) : option Z :=
  option_map snd (find (fun d => bseq p (fst d)) (n_dirs db)).
(** lib/directory.cc:262-305 child files and child directories: sorted term lists. *)
Definition child_name (path f : bytes) : option bytes :=
  match strip_prefix (path ++ [SLASH]) f with
  | Some n => if mem SLASH n then None else Some n
  | None => None
  end.
(** [names_in]: as above, lib/directory.cc:262-305. *)
Definition names_in (path : bytes) (fs : list bytes) : list bytes :=
  flat_map (fun f => match child_name path f with Some n => [n] | None => [] end) fs.
(** [all_files]: as above, lib/directory.cc:262-305. *)
Definition all_files (m : mdb) : list bytes := flat_map (fun kd => m_files (snd kd)) (docs m).
(** [child_files]: as above, lib/directory.cc:262-305. *)
Definition child_files (path : bytes) (db : ndb) : list bytes := tset_of (names_in path (all_files (n_mail db))).
(** [child_dirs]: as above, lib/directory.cc:262-305. *)
Definition child_dirs (path : bytes) (db : ndb) : list bytes := tset_of (names_in path (map fst (n_dirs db))).
(** lib/directory.cc [_notmuch_directory_find_or_create], called for the directory of an
    added file: the directory and all its parents get documents (C26). *)
Fixpoint ancestors (pre rest : bytes) : list bytes :=
  match rest with
  | [] => [pre]
  | c :: rest => (if beq c SLASH then [pre] else []) ++ ancestors (pre ++ [c]) rest
  end.
(** create a directory document, lib/directory.cc:111-217. *)
Definition add_dir (p : bytes) (ds : list (bytes * Z)) : list (bytes * Z) :=
  if existsb (fun d => bseq p (fst d)) ds then ds else ds ++ [(p, 0%Z)].
(** the directory and its parents, lib/directory.cc:111-217. *)
Definition make_dirs (p : bytes) (ds : list (bytes * Z)) : list (bytes * Z) :=
  fold_left (fun ds q => add_dir q ds) (ancestors [] p) ds.

(** add_files_state_t (notmuch-new.c:46-81), with the database. *)
Record nstate := {
  s_db : ndb;
  s_removed_files : list bytes;
  s_removed_dirs : list bytes;
  s_mtimes : list (bytes * Z);
  s_vanished : nat;
  s_tick : option nat }.
(** [with_db]: as above, notmuch-new.c:46-81. *)
Definition with_db db s := {| s_db := db; s_removed_files := s_removed_files s; s_removed_dirs := s_removed_dirs s;
  s_mtimes := s_mtimes s; s_vanished := s_vanished s; s_tick := s_tick s |}.
(** [with_mail]: as above, notmuch-new.c:46-81. *)
Definition with_mail m s := with_db {| n_mail := m; n_dirs := n_dirs (s_db s) |} s.
(** [queue_files]: as above, notmuch-new.c:46-81. *)
Definition queue_files l s := {| s_db := s_db s; s_removed_files := s_removed_files s ++ l; s_removed_dirs := s_removed_dirs s;
  s_mtimes := s_mtimes s; s_vanished := s_vanished s; s_tick := s_tick s |}.
(** [queue_dirs]: as above, notmuch-new.c:46-81. *)
Definition queue_dirs l s := {| s_db := s_db s; s_removed_files := s_removed_files s; s_removed_dirs := s_removed_dirs s ++ l;
  s_mtimes := s_mtimes s; s_vanished := s_vanished s; s_tick := s_tick s |}.
(** [queue_mtime]: as above, notmuch-new.c:46-81. *)
Definition queue_mtime p m s := {| s_db := s_db s; s_removed_files := s_removed_files s; s_removed_dirs := s_removed_dirs s;
  s_mtimes := s_mtimes s ++ [(p, m)]; s_vanished := s_vanished s; s_tick := s_tick s |}.
(** [vanish]: as above, notmuch-new.c:46-81. *)
Definition vanish s := {| s_db := s_db s; s_removed_files := s_removed_files s; s_removed_dirs := s_removed_dirs s;
  s_mtimes := s_mtimes s; s_vanished := S (s_vanished s); s_tick := s_tick s |}.
(** Reading the variable [interrupted], which stays set. *)
Definition interrupted (s : nstate) : bool * nstate :=
  match s_tick s with
  | None => (false, s)
  | Some O => (true, s)
  | Some (S n) => (false, {| s_db := s_db s; s_removed_files := s_removed_files s; s_removed_dirs := s_removed_dirs s;
                             s_mtimes := s_mtimes s; s_vanished := s_vanished s; s_tick := Some n |})
  end.

Section New.
Variable compressed : bytes -> bytes.       (* SHA-1 of long ids *)
Variable full_scan : bool.                  (* --full-scan *)
Variable synchronize_flags : bool.          (* maildir.synchronize_flags *)
Variable new_tags : list bytes.             (* new.tags *)
Variable ignore_verbatim : list bytes.      (* new.ignore: names *)
Variable ignore_regex : list (bytes -> bool). (* new.ignore: regexps (regexec is external) *)
Variable stat_time : bytes -> Z.            (* time (NULL) when a directory is examined *)

(** notmuch-new.c:311-331 [_get_relative_path], 333-364 [_entry_in_ignore_list]. *)
Definition relative_path (path entry : bytes) : bytes := match path with [] => entry | _ :: p => p ++ SLASH :: entry end.
(** [entry_in_ignore_list]: as above, notmuch-new.c:311-331. *)
Definition entry_in_ignore_list (path entry : bytes) : bool :=
  existsb (bseq entry) ignore_verbatim || existsb (fun r => r (relative_path path entry)) ignore_regex.
(** notmuch-new.c:242-246 [_special_directory]. *)
Definition special_directory (n : bytes) : bool := bseq n (lit ".") || bseq n (lit "..").
(** notmuch-new.c:214-240 [_entries_resemble_maildir]. *)
Fixpoint maildir_found (es : list (bytes * kind)) : nat :=
  match es with
  | [] => 0
  | (n, KDir) :: es => (if bseq n (lit "new") || bseq n (lit "cur") || bseq n (lit "tmp") then 1 else 0) + maildir_found es
  | _ :: es => maildir_found es
  end.
(** [entries_resemble_maildir]: as above, notmuch-new.c:214-240. *)
Definition entries_resemble_maildir (es : list (bytes * kind)) : bool := Nat.leb 3 (maildir_found es).

(** notmuch_message_maildir_flags_to_tags of the message with this id (C15). *)
Definition flags_to_tags (id : bytes) (m : mdb) : mdb :=
  match find_message compressed id m with
  | Some (k, d) => retag compressed id (maildir_flags_to_tags (m_files d) (m_tags d)) m
  | None => m
  end.
(** notmuch-new.c:389-401: the tags of a new message. *)
Definition add_new_tags (id : bytes) (m : mdb) : mdb :=
  match find_message compressed id m with
  | Some (k, d) =>
      retag compressed id
        (fold_left (fun tags t => if negb (bseq (lit "unread") t) || negb (has_maildir_flag (m_files d) "S"%char)
                                  then add_tag t tags else tags) new_tags (m_tags d)) m
  | None => m
  end.
(** notmuch-new.c:368-444 [add_file] of the file [name] in the directory [path]. [None]:
    the process aborts.  The status is that of end_atomic, so an unreadable file or one
    that is not an email is no error. *)
Definition add_file (path name : bytes) (c : content) (s : nstate) : option nstate :=
  match c with
  | None => Some s
  | Some (f, keys, ok) =>
      match index_file compressed (child path name) f keys ok (n_mail (s_db s)) with
      | None => None
      | Some (st, m) =>
          let m := match st with
                   | M_success => add_new_tags (f_id f) (if synchronize_flags then flags_to_tags (f_id f) m else m)
                   | M_duplicate => if synchronize_flags then flags_to_tags (f_id f) m else m
                   | M_index_error => m
                   end in
          let s := with_db {| n_mail := m; n_dirs := make_dirs path (n_dirs (s_db s)) |} s in
          Some (match st with M_index_error => vanish s | _ => s end)
      end
  end.

(** scandir, 160-165 [dirent_sort_strcmp_name]. *)
Fixpoint insert_entry {A} (e : bytes * A) (l : list (bytes * A)) : list (bytes * A) :=
  match l with
  | [] => [e]
  | e' :: l' => if bleb (fst e) (fst e') then e :: l else e' :: insert_entry e l'
  end.
(** scandir; name order, as dirent_sort_strcmp_name gives (SIMPLIFICATION for dirent_sort_inode), notmuch-new.c:487-804. *)
Definition sort_entries {A} (l : list (bytes * A)) : list (bytes * A) := fold_right insert_entry [] l.

(** An entry as the loops see it: its name, its type, and what recursing into it does.
    The result: [None]: the process aborts; [false]: an error status. *)
Definition walker := bytes -> nstate -> option (bool * nstate).
(** a directory entry with its type. *)
Definition entry := (bytes * (kind * walker))%type.

(** notmuch-new.c:577-628, pass 1. *)
Definition never_entered (maildir : bool) (path name : bytes) : bool :=
  (maildir && bseq name (lit "tmp")) || (bseq name (lit ".notmuch") && bseq path []).
(** [pass1]: as above, notmuch-new.c:577-628. *)
Fixpoint pass1 (maildir : bool) (path : bytes) (es : list entry) (s : nstate) : option (bool * nstate) :=
  match es with
  | [] => Some (true, s)
  | (n, (k, walk)) :: es =>
      let '(i, s) := interrupted s in
      if i then Some (true, s)
      else if special_directory n then pass1 maildir path es s
      else if entry_in_ignore_list path n then pass1 maildir path es s
      else match k with
           | KBroken => Some (false, s)
           | KDir => if never_entered maildir path n then pass1 maildir path es s
                     else match walk (child path n) s with
                          | Some (true, s) => pass1 maildir path es s
                          | r => r
                          end
           | _ => pass1 maildir path es s
           end
  end.

(** notmuch-new.c:661-676: names in db_files that have been walked past. *)
Fixpoint passed_files (name : bytes) (db_files : list bytes) : list bytes * list bytes :=
  match db_files with
  | f :: l => if bltb f name then let '(q, rest) := passed_files name l in (f :: q, rest) else ([], db_files)
  | [] => ([], [])
  end.
(** notmuch-new.c:678-694: the same for db_subdirs, which also steps over an equal name. *)
Fixpoint passed_dirs (name : bytes) (db_subdirs : list bytes) : list bytes * list bytes :=
  match db_subdirs with
  | f :: l => if bleb f name then let '(q, rest) := passed_dirs name l in (if bltb f name then f :: q else q, rest) else ([], db_subdirs)
  | [] => ([], [])
  end.
(** notmuch-new.c:645-744, pass 2. Returns the names left over in the database lists. *)
Fixpoint pass2 (path : bytes) (es : list entry) (db_files db_subdirs : list bytes) (s : nstate)
  : option (bool * list bytes * list bytes * nstate) :=
  match es with
  | [] => Some (true, db_files, db_subdirs, s)
  | (n, (k, _)) :: es =>
      let '(i, s) := interrupted s in
      if i then Some (true, db_files, db_subdirs, s)
      else if special_directory n then pass2 path es db_files db_subdirs s
      else if entry_in_ignore_list path n then pass2 path es db_files db_subdirs s
      else
        let '(qf, db_files) := passed_files n db_files in
        let s := queue_files (map (child path) qf) s in
        let '(qd, db_subdirs) := passed_dirs n db_subdirs in
        let s := queue_dirs (map (child path) qd) s in
        match k with
        | KBroken => Some (false, db_files, db_subdirs, s)
        | KReg c =>
            let known := match db_files with f :: _ => bseq f n | [] => false end in
            if known then pass2 path es (tl db_files) db_subdirs s
            else match add_file path n c s with
                 | Some s => pass2 path es db_files db_subdirs s
                 | None => None
                 end
        | _ => pass2 path es db_files db_subdirs s
        end
  end.

(** notmuch-new.c:487-804 [add_files]. *)
Definition scan_dir (mtime : Z) (nlink : N) (entries : list entry) (path : bytes) (s : nstate) : option (bool * nstate) :=
  let directory := dir_get path (s_db s) in
  let unchanged := match directory with Some db_mtime => negb full_scan && Z.eqb mtime db_mtime | None => false end in
  if unchanged && N.eqb nlink 2 && match child_dirs path (s_db s) with [] => true | _ => false end then Some (true, s)
  else
    let es := match directory with Some _ => sort_entries entries | None => entries end in
    let maildir := entries_resemble_maildir (map (fun e => (fst e, fst (snd e))) es) in
    match pass1 maildir path es s with
    | None => None
    | Some (false, s) => Some (false, s)
    | Some (true, s) =>
        if unchanged then Some (true, s)
        else
          let db_files := match directory with Some _ => child_files path (s_db s) | None => [] end in
          let db_subdirs := match directory with Some _ => child_dirs path (s_db s) | None => [] end in
          match pass2 path es db_files db_subdirs s with
          | None => None
          | Some (false, _, _, s) => Some (false, s)
          | Some (true, left_files, left_dirs, s) =>
              let '(i, s) := interrupted s in
              if i then Some (true, s)
              else
                let s := queue_files (map (child path) left_files) s in
                let s := queue_dirs (map (child path) left_dirs) s in
                Some (true, if Z.eqb mtime (stat_time path) then s else queue_mtime path mtime s)
          end
    end.
(** [add_files]: as above, notmuch-new.c:487-804. *)
Fixpoint add_files (nd : node) (path : bytes) (s : nstate) : option (bool * nstate) :=
  match nd with
  | NDir mtime nlink entries =>
      let es := (fix mk (l : list (bytes * node)) : list entry :=
                   match l with [] => [] | (n, nd) :: l => (n, (dirent_type nd, add_files nd)) :: mk l end) entries in
      scan_dir mtime nlink es path s
  | NUnreadable mtime nlink =>
      (* 548-570: the early return, then scandir fails *)
      let directory := dir_get path (s_db s) in
      let unchanged := match directory with Some db_mtime => negb full_scan && Z.eqb mtime db_mtime | None => false end in
      if unchanged && N.eqb nlink 2 && match child_dirs path (s_db s) with [] => true | _ => false end then Some (true, s)
      else Some (false, s)
  | _ => Some (false, s)
  end.

(** notmuch-new.c:944-973 [remove_filename].  (The message object read before the removal
    is taken to see the document as it is after it: Xapian documents are read lazily.) *)
Definition remove_filename (name : bytes) (m : mdb) : option mdb :=
  match find_by_filename name m with
  | None => Some m
  | Some (k, d) =>
      match remove_message compressed name m with
      | None => None
      | Some (M_duplicate, m) => Some (if synchronize_flags then flags_to_tags (m_id d) m else m)
      | Some (_, m) => Some m
      end
  end.
(** [remove_filenames]: as above, notmuch-new.c:944-973. *)
Fixpoint remove_filenames (names : list bytes) (m : mdb) : option mdb :=
  match names with
  | [] => Some m
  | n :: names => match remove_filename n m with Some m => remove_filenames names m | None => None end
  end.
(** lib/directory.cc:307-329 [notmuch_directory_delete]. *)
Definition del_dir (p : bytes) (ds : list (bytes * Z)) : list (bytes * Z) := filter (fun d => negb (bseq p (fst d))) ds.
(** notmuch-new.c:977-1019 [_remove_directory].  [fuel]: the depth; [None] also if it is
    used up. *)
Fixpoint remove_directory (fuel : nat) (path : bytes) (db : ndb) : option ndb :=
  match fuel with
  | O => None
  | S fuel =>
      match dir_get path db with
      | None => Some db
      | Some _ =>
          match remove_filenames (map (child path) (child_files path db)) (n_mail db) with
          | None => None
          | Some m =>
              let db := {| n_mail := m; n_dirs := n_dirs db |} in
              match (fix go subdirs db := match subdirs with
                                          | [] => Some db
                                          | q :: subdirs => match remove_directory fuel (child path q) db with
                                                            | Some db => go subdirs db
                                                            | None => None
                                                            end
                                          end) (child_dirs path db) db with
              | None => None
              | Some db => Some {| n_mail := n_mail db; n_dirs := del_dir path (n_dirs db) |}
              end
          end
      end
  end.
(** [depth_bound]: as above, notmuch-new.c:977-1019. *)
Definition depth_bound (db : ndb) : nat := S (fold_right (fun d n => Nat.max (length (fst d)) n) 0 (n_dirs db)).

(** notmuch-new.c:1260-1294: the loops of [notmuch_new_command] after the scan. *)
Fixpoint removal_loop (names : list bytes) (s : nstate) : option nstate :=
  match names with
  | [] => Some s
  | n :: names =>
      let '(i, s) := interrupted s in
      if i then Some s
      else match remove_filename n (n_mail (s_db s)) with Some m => removal_loop names (with_mail m s) | None => None end
  end.
(** [directory_loop]: as above, notmuch-new.c:1260-1294. *)
Fixpoint directory_loop (paths : list bytes) (s : nstate) : option nstate :=
  match paths with
  | [] => Some s
  | p :: paths =>
      let '(i, s) := interrupted s in
      if i then Some s
      else match remove_directory (depth_bound (s_db s)) p (s_db s) with
           | Some db => directory_loop paths (with_db db s)
           | None => None
           end
  end.
(** [set_mtime]: as above, notmuch-new.c:1260-1294. *)
Definition set_mtime (p : bytes) (m : Z) (ds : list (bytes * Z)) : list (bytes * Z) :=
  map (fun d => if bseq p (fst d) then (fst d, m) else d) ds.
(** [mtime_loop]: as above, notmuch-new.c:1260-1294. *)
Fixpoint mtime_loop (l : list (bytes * Z)) (s : nstate) : nstate :=
  match l with
  | [] => s
  | (p, m) :: l =>
      let '(i, s) := interrupted s in
      if i then s
      else mtime_loop l (with_db {| n_mail := n_mail (s_db s); n_dirs := set_mtime p m (n_dirs (s_db s)) |} s)
  end.
(** notmuch-new.c:1115-1325 [notmuch_new_command], from the scan on; [ticks]: after how
    many tests of [interrupted] it becomes true. *)
Inductive new_exit := ExitSuccess | ExitFailure | ExitTempfail.
(** [notmuch_new]: as above, notmuch-new.c:1115-1325. *)
Definition notmuch_new (root : node) (ticks : option nat) (db : ndb) : option (new_exit * ndb) :=
  let s := {| s_db := db; s_removed_files := []; s_removed_dirs := []; s_mtimes := []; s_vanished := 0; s_tick := ticks |} in
  match add_files root [] s with
  | None => None
  | Some (false, s) => Some (ExitFailure, s_db s)
  | Some (true, s) =>
      match removal_loop (s_removed_files s) s with
      | None => None
      | Some s =>
          match directory_loop (s_removed_dirs s) s with
          | None => None
          | Some s =>
              let s := mtime_loop (s_mtimes s) s in
              let '(i, s) := interrupted s in
              Some (if i then ExitFailure else if Nat.eqb (s_vanished s) 0 then ExitSuccess else ExitTempfail, s_db s)
          end
      end
  end.
End New.
