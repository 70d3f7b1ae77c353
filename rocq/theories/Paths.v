(** Model of paths in the database: relative paths, directory documents, file
    entries and the folder:/path: terms of a message (lib/database.cc:1180-1396,
    lib/directory.cc, lib/message.cc:788-1047,1090-1146, lib/regexp-fields.cc:198-252).

    Not modelled: allocation failure, Xapian exceptions, the feature checks (all
    features present), directory modification times. *)
From Verif Require Import Bytes Terms Meta Db Decimal.
Local Open Scope nat_scope.

(** character constant. *)
Definition SLASH : byte := "/"%char.
(** == '/'. *)
Definition is_slash (c : byte) : bool := beq c SLASH.

(** lib/database.cc:1385-1386: skip all but the last of several leading slashes. *)
Fixpoint skip_multi (p : bytes) : bytes :=
  match p with
  | a :: ((b :: _) as p') => if is_slash a && is_slash b then skip_multi p' else p
  | _ => p
  end.
(** lib/database.cc:1372-1396 [_notmuch_database_relative_path]; [root] is the
    configured mail root. *)
Definition relative_path (root path : bytes) : bytes :=
  if is_slash (peek path) then
    let r := skip_multi path in
    match strip_prefix root r with
    | Some rest => dropwhile is_slash rest
    | None => r
    end
  else path.

(** "while (slash != path && f (*slash)) --slash;" on an index. *)
Fixpoint back (f : byte -> bool) (p : bytes) (i : nat) : nat :=
  match i with
  | O => O
  | S i' => if f (nth i p NUL) then back f p i' else i
  end.
(** lib/database.cc:1262-1263: "while (slash != path && *(slash - 1) == '/') --slash;". *)
Fixpoint back_multi (p : bytes) (i : nat) : nat :=
  match i with
  | O => O
  | S i' => if is_slash (nth i' p NUL) then back_multi p i' else i
  end.
(** lib/database.cc:1230-1277 [_notmuch_database_split_path]: (directory, basename),
    [None] for NULL.  A basename never assigned would be [Uninit]. *)
Inductive cptr := Null | Uninit | Str (s : bytes).
(** [split_path]: as above, lib/database.cc:1230-1277. *)
Definition split_path (path : bytes) : option bytes * cptr :=
  match path with
  | [] => (None, Null)
  | _ =>
      let i1 := back is_slash path (length path - 1) in
      let i2 := back (fun c => negb (is_slash c)) path i1 in
      let i3 := back_multi path i2 in
      match i3 with
      | O => (Some [], Str path)
      | _ => (Some (firstn i3 path), if Nat.ltb i2 i1 then Str (skipn (S i2) path) else Uninit)
      end
  end.

(** lib/database.cc:1198-1207 [_notmuch_database_get_directory_db_path]; [sha1] is
    _notmuch_sha1_of_string (external). *)
Definition directory_prefix : bytes := lit "XDIRECTORY".
(** [directory_db_path]: as above, lib/database.cc:1198-1207. *)
Definition directory_db_path (sha1 : bytes -> bytes) (path : bytes) : bytes :=
  if Nat.ltb NOTMUCH_TERM_MAX (length directory_prefix + length path) then sha1 path else path.

(** A directory document: its number, the value of its "directory" term, its data
    (the path) and its "directory-direntry" term (parent, base name). *)
Record dirdoc := { dd_id : N; dd_term : bytes; dd_data : bytes; dd_entry : option (N * bytes) }.
(** The directory documents of the database and the next free document number
    (lib/database.cc [_notmuch_database_generate_doc_id]). *)
Record dirs := { dl : list dirdoc; next_id : N }.

(** find the directory document, lib/directory.cc:111-217. *)
Definition find_dir (term : bytes) (ds : dirs) : option dirdoc :=
  find (fun d => bseq (dd_term d) term) (dl ds).
(** create the directory document, lib/directory.cc:111-217. *)
Definition add_dir (term data : bytes) (e : option (N * bytes)) (ds : dirs) : dirs :=
  {| dl := {| dd_id := next_id ds; dd_term := term; dd_data := data; dd_entry := e |} :: dl ds;
     next_id := (next_id ds + 1)%N |}.

Section Directories.
Variable sha1 : bytes -> bytes.
Variable root : bytes.

(** lib/directory.cc:111-216 [_notmuch_directory_find_or_create] with
    lib/database.cc:1286-1311 [_notmuch_database_find_directory_id] for the parent
    (NULL has number 0).  [None]: no such directory.  [fuel] bounds the recursion
    over parents. *)
Fixpoint find_or_create (fuel : nat) (create : bool) (path : bytes) (ds : dirs) : option N * dirs :=
  match fuel with
  | O => (None, ds)
  | S f =>
      let path := relative_path root path in
      let db_path := directory_db_path sha1 path in
      match find_dir db_path ds with
      | Some d => (Some (dd_id d), ds)
      | None =>
          if negb create then (None, ds)
          else
            let '(parent, base) := split_path path in
            let '(pid, ds) := match parent with
                              | None => (Some 0%N, ds)
                              | Some q => find_or_create f true q ds
                              end in
            match pid with
            | None => (None, ds)
            | Some pid =>
                (Some (next_id ds),
                 add_dir db_path path (match base with Str b => Some (pid, b) | _ => None end) ds)
            end
      end
  end.
(** [find_directory_id]: as above, lib/directory.cc:111-216. *)
Definition find_directory_id (create : bool) (path : option bytes) (ds : dirs) : option N * dirs :=
  match path with
  | None => (Some 0%N, ds)
  | Some p => find_or_create (S (S (length p))) create p ds
  end.

(** lib/database.cc:1335-1363 [_notmuch_database_filename_to_direntry]: "%u:%s"; a
    NULL or uninitialised base name is outside the model ([None]). *)
Definition filename_to_direntry (create : bool) (filename : bytes) (ds : dirs) : option bytes * dirs :=
  let relative := relative_path root filename in
  let '(directory, base) := split_path relative in
  let '(id, ds) := find_directory_id create directory ds in
  match id, base with
  | Some id, Str b => (Some (dec id ++ ":"%char :: b), ds)
  | _, _ => (None, ds)
  end.

(** lib/message.cc:1508-1539 [_notmuch_message_add_term]; [None] is
    NOTMUCH_PRIVATE_STATUS_TERM_TOO_LONG. *)
Definition add_term (prefix value : bytes) (t : list bytes) : option (list bytes) :=
  if Nat.ltb NOTMUCH_TERM_MAX (length (prefix ++ value)) then None else Some (tadd (prefix ++ value) t).

(** prefix table entry for folder:, lib/prefix.cc:30-78. *)
Definition folder_prefix : bytes := lit "XFOLDER:".
(** [path_prefix]: as above, lib/message.cc:1508-1539. *)
Definition path_prefix : bytes := lit "P".

(** lib/message.cc:790-794 [is_maildir]. *)
Definition is_maildir (p : bytes) : bool := bseq p (lit "cur") || bseq p (lit "new").
(** strrchr (s, '/'): text before and after the last slash. *)
Fixpoint rsplit (s : bytes) : option (bytes * bytes) :=
  match s with
  | [] => None
  | c :: s' =>
      match rsplit s' with
      | Some (a, b) => Some (c :: a, b)
      | None => if is_slash c then Some ([], s') else None
      end
  end.
(** lib/message.cc:797-842 [_notmuch_message_add_folder_terms]: the folder name. *)
Definition folder_of (directory : bytes) : bytes :=
  match rsplit directory with
  | Some (a, l) => if is_maildir l then a else directory
  | None => if is_maildir directory then [] else directory
  end.
(** [add_folder_terms]: as above, lib/message.cc:797-842. *)
Definition add_folder_terms (directory : bytes) (t : list bytes) : option (list bytes) :=
  add_term folder_prefix (folder_of directory) t.

(** lib/message.cc:847-887 [_notmuch_message_add_path_terms]. *)
Definition RECURSIVE_SUFFIX : bytes := lit "/**".
(** [path_loop]: as above, lib/message.cc:847-887. *)
Fixpoint path_loop (p : nat) (path : bytes) (t : list bytes) : option (list bytes) :=
  match p with
  | O => Some t
  | S p' =>
      if is_slash (nth p path NUL) then
        let path := firstn p path ++ RECURSIVE_SUFFIX in       (* strcpy (p, RECURSIVE_SUFFIX) *)
        match add_term path_prefix path t with
        | None => None
        | Some t => path_loop p' path t
        end
      else path_loop p' path t
  end.
(** [add_path_terms]: as above, lib/message.cc:847-887. *)
Definition add_path_terms (directory : bytes) (t : list bytes) : option (list bytes) :=
  match add_term path_prefix directory t with
  | None => None
  | Some t =>
      match (match directory with
             | [] => Some t
             | _ => let path := directory ++ RECURSIVE_SUFFIX in path_loop (length path - 1) path t
             end) with
      | None => None
      | Some t => add_term path_prefix (lit "**") t
      end
  end.

(** Result of changing a message's file names.  [F_abort]: COERCE_STATUS on
    TERM_TOO_LONG, the process stops.  [F_ub]: outside the model. *)
Inductive fstatus := F_ok | F_duplicate | F_path_error | F_abort | F_ub.

(** lib/message.cc:940-993 [_notmuch_message_add_filename]. *)
Definition add_filename (filename : bytes) (t : list bytes) (ds : dirs) : fstatus * list bytes * dirs :=
  let '(directory, _) := split_path (relative_path root filename) in
  let '(direntry, ds) := filename_to_direntry true filename ds in
  match direntry, directory with
  | Some direntry, Some directory =>
      match add_term filename_prefix direntry t with
      | None => (F_path_error, t, ds)
      | Some t =>
          match add_folder_terms directory t with
          | None => (F_abort, t, ds)
          | Some t =>
              match add_path_terms directory t with
              | None => (F_abort, t, ds)
              | Some t => (F_ok, t, ds)
              end
          end
      end
  | _, _ => (F_ub, t, ds)
  end.

(** lib/message.cc:698-724 [_notmuch_message_remove_terms]. *)
Fixpoint remove_prefixed_loop (fuel : nat) (prefix : bytes) (t : list bytes) : list bytes :=
  match fuel with
  | O => t
  | S f =>
      match skip_to prefix t with
      | x :: _ => if starts_with prefix x then remove_prefixed_loop f prefix (trem x t) else t
      | [] => t
      end
  end.
(** [remove_prefixed]: as above, lib/message.cc:698-724. *)
Definition remove_prefixed (prefix : bytes) (t : list bytes) : list bytes :=
  remove_prefixed_loop (S (length t)) prefix t.

(** strtol (direntry, &colon, 10) and the ':' after it; [None] is INTERNAL_ERROR. *)
Definition parse_direntry (e : bytes) : option (N * bytes) :=
  let '(id, rest) := read_digits 0 e in
  match rest with
  | c :: base => if beq c ":"%char then Some (id, base) else None
  | [] => None
  end.
(** lib/database.cc:1313-1323 [_notmuch_database_get_directory_path]. *)
Definition directory_path (id : N) (ds : dirs) : option bytes :=
  option_map dd_data (find (fun d => N.eqb (dd_id d) id) (dl ds)).

(** lib/message.cc:890-934 [_notmuch_message_add_directory_terms].  The list of
    file entries is taken at the start; the terms added sort after it and do not
    change it. *)
Fixpoint directory_terms_loop (ds : dirs) (entries : list bytes) (t : list bytes) : option (list bytes) :=
  match entries with
  | [] => Some t
  | e :: entries' =>
      match parse_direntry e with
      | None => None
      | Some (id, _) =>
          match directory_path id ds with
          | None => None
          | Some d =>
              match add_folder_terms d t with
              | None => None
              | Some t => match add_path_terms d t with
                          | None => None
                          | Some t => directory_terms_loop ds entries' t
                          end
              end
          end
      end
  end.
(** [file_entries]: as above, lib/message.cc:890-934. *)
Definition file_entries (t : list bytes) : list bytes := fst (get_terms_with_prefix filename_prefix t).
(** [add_directory_terms]: as above, lib/message.cc:890-934. *)
Definition add_directory_terms (ds : dirs) (t : list bytes) : fstatus * list bytes :=
  match directory_terms_loop ds (file_entries t) t with
  | None => (F_abort, t)
  | Some t' => (match file_entries t with [] => F_ok | _ => F_duplicate end, t')
  end.

(** lib/message.cc:1007-1047 [_notmuch_message_remove_filename]. *)
Definition remove_filename (filename : bytes) (t : list bytes) (ds : dirs) : fstatus * list bytes * dirs :=
  let '(direntry, ds) := filename_to_direntry false filename ds in
  match direntry with
  | None => (F_ok, t, ds)
  | Some direntry =>
      let t := trem (filename_prefix ++ direntry) t in
      let t := remove_prefixed folder_prefix t in
      let t := remove_prefixed path_prefix t in
      let '(st, t) := add_directory_terms ds t in
      (st, t, ds)
  end.

(** lib/message.cc:1078-1147 [_notmuch_message_ensure_filename_list] and
    notmuch_message_get_filenames; [None] marks an INTERNAL_ERROR or exception.
    (The branch for documents of very old versions is not modelled.) *)
Definition filename_of_entry (ds : dirs) (e : bytes) : option bytes :=
  match parse_direntry e with
  | None => None
  | Some (id, base) =>
      match directory_path id ds with
      | None => None
      | Some [] => Some (root ++ SLASH :: base)
      | Some d => Some (root ++ SLASH :: d ++ SLASH :: base)
      end
  end.
(** [get_filenames]: as above, lib/message.cc:1078-1147. *)
Definition get_filenames (ds : dirs) (t : list bytes) : list (option bytes) :=
  map (filename_of_entry ds) (file_entries t).

(** lib/regexp-fields.cc:198-252, boolean field: the term a query "path:str" or
    "folder:str" looks for; [None]: a regular expression or an error. *)
Definition boolean_query_term (prefix str : bytes) : option bytes :=
  match str with
  | [] => Some prefix
  | c :: _ =>
      if is_slash c then None
      else if Nat.ltb 1 (length str) && is_slash (last str NUL) then Some (prefix ++ removelast str)
      else Some (prefix ++ str)
  end.

(** lib/directory.cc:285-305 [notmuch_directory_get_child_directories]: the names in
    the "directory-direntry" terms with this parent number (their order, that of
    the sorted term list, is not modelled). *)
Definition child_directories (id : N) (ds : dirs) : list bytes :=
  flat_map (fun d => match dd_entry d with
                     | Some (p, b) => if N.eqb p id then [b] else []
                     | None => []
                     end) (dl ds).
(** lib/database.cc:1398-1419 [notmuch_database_get_directory]: document number of a
    directory, if it is known. *)
Definition get_directory (path : bytes) (ds : dirs) : option N := fst (find_directory_id false (Some path) ds).

(** What happens to one message and to the directory documents over time. *)
Inductive fop :=
| FAdd (filename : bytes)          (* a file is added to the message *)
| FRemove (filename : bytes)       (* a file is removed from the message *)
| FOther (filename : bytes)        (* a file is added to another message *)
| FDoc.                            (* some other document takes a number *)
Definition fstep (o : fop) (t : list bytes) (ds : dirs) : fstatus * list bytes * dirs :=
  match o with
  | FAdd f => add_filename f t ds
  | FRemove f => remove_filename f t ds
  | FOther f => let '(st, _, ds) := add_filename f [] ds in (st, t, ds)
  | FDoc => (F_ok, t, {| dl := dl ds; next_id := (next_id ds + 1)%N |})
  end.
(** A history that no abort cuts short: the statuses returned and the final state. *)
Fixpoint frun (ops : list fop) (t : list bytes) (ds : dirs) : option (list fstatus * list bytes * dirs) :=
  match ops with
  | [] => Some ([], t, ds)
  | o :: ops' =>
      match fstep o t ds with
      | (F_abort, _, _) | (F_ub, _, _) => None
      | (st, t, ds) =>
          match frun ops' t ds with
          | Some (sts, t, ds) => Some (st :: sts, t, ds)
          | None => None
          end
      end
  end.
End Directories.
