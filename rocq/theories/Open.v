(** Model of lib/open.cc: which configuration file and which database are used, opening and
    creating.  Xapian, glib's key files, the environment and the file system are external;
    [mkdir] and [xcreate] (g_mkdir_with_parents, and Xapian::WritableDatabase with
    DB_CREATE_OR_OPEN on a path without database) are arguments.
    Not modelled: messages, allocation failure, index.as_text and autocommit checks
    (open.cc:585-600), query field setup (601-607; see Query.v), the upgrade of the created
    database (open.cc:792-797; see Features.v). *)
From Verif Require Import Bytes StringMap StrUtil Config.
Local Open Scope nat_scope.

(** What does not change while a database is opened or created. *)
Record world := {
  w_env : environment; w_pw : passwd;
  w_readable : bytes -> bool;              (* access (path, R_OK) *)
  w_keyfile : bytes -> option keyfile      (* g_key_file_load_from_file *)
}.
(** Opening a Xapian database: it opens, DatabaseOpeningError, another Xapian::Error. *)
Inductive xap := X_ok | X_missing | X_error.
(** the files lib/open.cc looks at (POSIX). *)
Record disk := {
  d_stat : bytes -> st;
  d_canon : bytes -> option bytes;         (* notmuch_canonicalize_file_name *)
  d_xapian : bytes -> xap;
  d_meta : bytes -> list (bytes * bytes);  (* configuration metadata of a database *)
  d_compatible : bytes -> bool -> bool     (* version and features, open.cc:511-538; true: for writing *)
}.
(** [mkdir_t]: as above, open.cc:511-538. *)
Definition mkdir_t := bytes -> disk -> option disk.
(** [xcreate_t]: as above, open.cc:511-538. *)
Definition xcreate_t := bytes -> disk -> option disk.
(** The caller's arguments; [None] is NULL. *)
Record args := { a_path : option bytes; a_config : option bytes; a_profile : option bytes }.
(** notmuch_status_t values of lib/open.cc. *)
Inductive status := NO_CONFIG | NO_DATABASE | PATH_ERROR | FILE_ERROR | XAPIAN_EXCEPTION | DATABASE_EXISTS
                  | CONFIG_STATUS (* whatever filling the configuration returned *).

(** lib/open.cc:116-164 [_load_key_file]: status, config_path and the file. *)
Definition default_config_path (w : world) (a : args) : bytes :=
  let p := slash (printed (w_env w (lit "HOME"))) (lit ".notmuch-config") in
  match (match a_profile a with Some p => Some p | None => w_env w (lit "NOTMUCH_PROFILE") end) with
  | Some prof => p ++ lit "." ++ prof
  | None => p
  end.
(** [config_path]: as above, lib/open.cc:116-164. *)
Definition config_path (w : world) (a : args) : option bytes :=
  match a_config a with
  | Some [] => None
  | Some p => Some p
  | None =>
      match w_env w (lit "NOTMUCH_CONFIG") with
      | Some p => Some p
      | None =>
          match xdg_dir (w_env w) (lit "XDG_CONFIG_HOME") (lit ".config") (a_profile a) with
          | Some dir => if w_readable w (slash dir (lit "config")) then Some (slash dir (lit "config"))
                        else Some (default_config_path w a)
          | None => Some (default_config_path w a)
          end
      end
  end.
(** [load_key_file]: as above, lib/open.cc:116-164. *)
Definition load_key_file (w : world) (a : args) : option status * option bytes * option keyfile :=
  match config_path w a with
  | None => (None, None, None)
  | Some p => match w_keyfile w p with
              | Some kf => (None, Some p, Some kf)
              | None => (Some NO_CONFIG, Some p, Some [])
              end
  end.

(** g_key_file_get_string (external): the last value, NULL if it cannot be decoded. *)
Fixpoint kf_string (kf : keyfile) (g k : bytes) : option bytes :=
  match kf with
  | [] => None
  | (g', k', v) :: kf' =>
      if existsb (fun e => bseq (fst (fst e)) g && bseq (snd (fst e)) k) kf' then kf_string kf' g k
      else if bseq g' g && bseq k' k then v else None
  end.

(** lib/open.cc:166-187 [_db_dir_exists]. *)
Definition dir_exists (d : disk) (p : bytes) : bool := match d_stat d p with IsDir => true | _ => false end.

(** The first three places of lib/open.cc:198-211 and 280-293. *)
Definition named_path (w : world) (a : args) (kf : option keyfile) : option bytes :=
  match a_path a with
  | Some p => Some p
  | None =>
      match w_env w (lit "NOTMUCH_DATABASE") with
      | Some p => Some p
      | None =>
          match kf with
          | None => None
          | Some kf =>
              match kf_string kf (lit "database") (lit "path") with
              | None => None
              | Some p => Some (if beq (peek p) "/"%char then p else slash (printed (w_env w (lit "HOME"))) p)
              end
          end
      end
  end.
(** [xdg_database]: as above, lib/open.cc:198-211. *)
Definition xdg_database (w : world) (a : args) : option bytes :=
  xdg_dir (w_env w) (lit "XDG_DATA_HOME") (lit ".local/share") (a_profile a).
(** lib/open.cc:189-258 [_choose_database_path]: the status, *database_path afterwards, and
    whether NOTMUCH_PARAM_SPLIT was set.  (stat of NULL fails.) *)
Definition candidate (w : world) (d : disk) (a : args) (kf : option keyfile) : option bytes * bool :=
  match named_path w a kf with
  | Some p => (Some p, false)
  | None =>
      match (match xdg_database w a with Some p => if dir_exists d p then Some p else None | None => None end) with
      | Some p => (Some p, true)
      | None =>
          match w_env w (lit "MAILDIR") with
          | Some p => (Some p, false)
          | None => let p := slash (printed (w_env w (lit "HOME"))) (lit "mail") in
                    (if dir_exists d p then Some p else None, false)
          end
      end
  end.
(** [choose_database_path]: as above, lib/open.cc:189-258. *)
Definition choose_database_path (w : world) (d : disk) (a : args) (kf : option keyfile) : option status * option bytes * bool :=
  let '(c, split) := candidate w d a kf in
  match c with
  | None => (Some NO_DATABASE, None, split)
  | Some p => if negb (beq (peek p) "/"%char) then (Some PATH_ERROR, c, split)
              else if dir_exists d p then (None, c, split) else (Some NO_DATABASE, c, split)
  end.

(** lib/open.cc:271-309 [_create_database_path], given *database_path; the outer [None] is a
    NULL dereference. *)
Definition create_database_path (mkdir : mkdir_t) (w : world) (d : disk) (a : args) (kf : option keyfile)
  (database_path : option bytes) (split : bool) : option (option status * bytes * bool * disk) :=
  let named := match database_path with Some p => Some p | None => named_path w {| a_path := None; a_config := a_config a; a_profile := a_profile a |} kf end in
  let '(c, split) := match named with Some p => (Some p, split) | None => (xdg_database w a, true) end in
  match c with
  | None => None
  | Some p =>
      if negb (beq (peek p) "/"%char) then Some (Some PATH_ERROR, p, split, d)
      else match mkdir p d with
           | None => Some (Some FILE_ERROR, p, split, d)
           | Some d' => Some (None, p, split, d')
           end
  end.

(** lib/open.cc:342-360 [_trial_open]. *)
Definition trial_open (d : disk) (p : bytes) : option status :=
  match d_xapian d p with X_ok => None | X_missing => Some PATH_ERROR | X_error => Some XAPIAN_EXCEPTION end.
(** lib/open.cc:362-393 [_notmuch_choose_xapian_path]; the result stands for "[dir]/xapian". *)
Definition choose_xapian_path (d : disk) (p : bytes) : status + bytes :=
  if dir_exists d p then
    match trial_open d (slash p (lit "xapian")) with
    | None => inr p
    | Some PATH_ERROR =>
        if dir_exists d (slash p (lit ".notmuch")) then
          match trial_open d (slash (slash p (lit ".notmuch")) (lit "xapian")) with
          | None => inr (slash p (lit ".notmuch"))
          | Some s => inl s
          end
        else inl FILE_ERROR
    | Some s => inl s
    end
  else inl FILE_ERROR.

(** An open database, or why not. *)
Record opened := { db_path : bytes; db_xapian : bytes; db_split : bool; db_config : config }.
(** result of opening. *)
Inductive outcome := Crash | Failed (s : status) | Opened (o : opened).

(** dirname of "[p]/xapian" (libc, external): lib/open.cc:96. *)
Definition xapian_parent (p : bytes) : bytes := match strip_trailing p "/"%char with [] => lit "/" | q => q end.
(** lib/open.cc:484-617 [_finish_open], for the database in [dir]/xapian. *)
Definition finish_open (xcreate : xcreate_t) (w : world) (d : disk) (a : args) (kf : option keyfile) (write : bool)
  (path dir : bytes) (split : bool) : outcome * disk :=
  let x := slash dir (lit "xapian") in
  match (match d_xapian d x with
         | X_ok => Some d
         | X_missing => if write then xcreate x d else None
         | X_error => None
         end) with
  | None => (Failed XAPIAN_EXCEPTION, d)
  | Some d =>
      if d_compatible d x write then
        match open_config {| o_env := w_env w; o_pw := w_pw w; o_stat := d_stat d;
                             o_given := match a_path a with Some _ => true | None => false end; o_split := split;
                             o_path := path; o_parent := xapian_parent dir; o_profile := a_profile a;
                             o_file := match kf with Some kf => kf | None => [] end; o_meta := d_meta d x |} with
        | Some m => (Opened {| db_path := path; db_xapian := x; db_split := split; db_config := m |}, d)
        | None => (Failed CONFIG_STATUS, d)
        end
      else (Failed FILE_ERROR, d)
  end.

(** lib/open.cc:619-687 [notmuch_database_open_with_config]. *)
Definition open_with_config (xcreate : xcreate_t) (w : world) (d : disk) (a : args) (write : bool) : outcome * disk :=
  match load_key_file w a with
  | (Some s, _, _) => (Failed s, d)
  | (None, _, kf) =>
      match choose_database_path w d a kf with
      | (Some s, _, _) => (Failed s, d)
      | (None, None, _) => (Crash, d)
      | (None, Some p, split) =>
          match choose_xapian_path d p with
          | inl s => (Failed s, d)
          | inr dir => finish_open xcreate w d a kf write p dir split
          end
      end
  end.

(** lib/open.cc:714-829 [notmuch_database_create_with_config]; strcmp with a NULL db_path
    crashes (line 756). *)
Definition create_split (d : disk) (kf : option keyfile) (p : bytes) (split : bool) : option bool :=
  match kf with
  | Some kf =>
      if split then Some true
      else match (match kf_string kf (lit "database") (lit "mail_root") with Some r => d_canon d r | None => None end) with
           | None => Some false
           | Some r => match d_canon d p with None => None | Some q => Some (negb (bseq r q)) end
           end
  | None => Some split
  end.
(** [create_with_config]: as above, lib/open.cc:714-829. *)
Definition create_with_config (mkdir : mkdir_t) (xcreate : xcreate_t) (w : world) (d : disk) (a : args) : outcome * disk :=
  match load_key_file w a with
  | (Some s, _, _) => (Failed s, d)
  | (None, _, kf) =>
      match (match choose_database_path w d a kf with
             | (None, Some p, split) => Some (None, p, split, d)
             | (Some NO_DATABASE, c, split) => create_database_path mkdir w d a kf c split
             | (Some s, _, split) => Some (Some s, [], split, d)
             | (None, None, _) => None
             end) with
      | None => (Crash, d)
      | Some (Some s, _, _, d) => (Failed s, d)
      | Some (None, p, split, d) =>
          match create_split d kf p split with
          | None => (Crash, d)
          | Some split =>
              match (if split then Some (p, d)
                     else match mkdir (slash p (lit ".notmuch")) d with Some d => Some (slash p (lit ".notmuch"), d) | None => None end) with
              | None => (Failed FILE_ERROR, d)
              | Some (dir, d) =>
                  match trial_open d (slash dir (lit "xapian")) with
                  | None => (Failed DATABASE_EXISTS, d)
                  | Some _ => finish_open xcreate w d a kf true p dir split
                  end
              end
          end
      end
  end.
