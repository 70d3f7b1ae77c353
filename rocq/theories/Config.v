(** Model of the configuration of an open database: lib/config.cc and the part of
    lib/open.cc that fills it (_finish_open, lib/open.cc:557-586).

    The configuration is the string map notmuch->config (StringMap.v).  A NULL value in it
    (a key without default) is represented by the absence of the key: reading gives NULL
    in both cases and "notmuch config list" skips such keys.
    Not modelled: allocation failure, Xapian exceptions; the consumers of the
    configuration (index.as_text, database.autocommit). *)
From Verif Require Import Bytes StringMap StrUtil Dump.
Local Open Scope nat_scope.

(** the key/value map of an open database, lib/config.cc:417-476. *)
Definition config := string_map.

(** getenv (external); a NULL printed with "%s" is "(null)" (glibc). *)
Definition environment := bytes -> option bytes.
(** printf %s of a possibly NULL string (glibc). *)
Definition printed (s : option bytes) : bytes := match s with Some s => s | None => lit "(null)" end.
(** the character '/'. *)
Definition slash (a b : bytes) : bytes := a ++ lit "/" ++ b.

(** lib/config.cc:699-704 [notmuch_config_get] and the others that read the map. *)
Definition config_get (m : config) (key : bytes) : option bytes := fst (sm_get m key).

(** lib/config.cc:400-415 [_expand_path]. *)
Definition is_path_key (key : bytes) : bool :=
  bseq key (lit "database.path") || bseq key (lit "database.mail_root") ||
  bseq key (lit "database.hook_dir") || bseq key (lit "database.backup_path").
(** [expand_path]: as above, lib/config.cc:400-415. *)
Definition expand_path (env : environment) (key val : bytes) : bytes :=
  if is_path_key key && negb (beq (peek val) "/"%char) then slash (printed (env (lit "HOME"))) val else val.

(** "If we opened from a given path, do not overwrite it": lib/config.cc:264-268, 441-445;
    [given]: NOTMUCH_PARAM_DATABASE. *)
Definition skipped (given : bool) (key : bytes) : bool := bseq key (lit "database.path") && given.

(** lib/config.cc:244-276 [_notmuch_config_load_from_database]; [meta]: the metadata with
    the prefix "C", without it. *)
Definition load_from_database (env : environment) (given : bool) (meta : list (bytes * bytes)) (m : config) : config :=
  fold_left (fun m kv => if skipped given (fst kv) then m else sm_append m (fst kv) (expand_path env (fst kv) (snd kv))) meta m.

(** A GKeyFile as the loops read it: group, key, and the value unless it has a bad escape. *)
Definition keyfile := list (bytes * bytes * option bytes).
(** lib/config.cc:437. *)
Definition absolute_key (group key : bytes) : bytes := group ++ lit "." ++ key.
(** lib/config.cc:417-476 [_notmuch_config_load_from_file]; [None] is FILE_ERROR. *)
Fixpoint load_from_file (env : environment) (given : bool) (file : keyfile) (m : config) : option config :=
  match file with
  | [] => Some m
  | (g, k, v) :: file' =>
      let key := absolute_key g k in
      if skipped given key then load_from_file env given file' m
      else match v with
           | None => None
           | Some v => load_from_file env given file' (sm_set m key (expand_path env key v))
           end
  end.

(** lib/notmuch.h [notmuch_config_key_t], with lib/config.cc:581-616
    [_notmuch_config_key_to_string]. *)
Inductive ckey := DATABASE_PATH | MAIL_ROOT | HOOK_DIR | BACKUP_DIR | EXCLUDE_TAGS | NEW_TAGS | NEW_IGNORE
                | SYNC_MAILDIR_FLAGS | PRIMARY_EMAIL | OTHER_EMAIL | USER_NAME | AUTOCOMMIT | EXTRA_HEADERS | INDEX_AS_TEXT.
(** [all_keys]: as above, lib/config.cc:581-616. *)
Definition all_keys : list ckey :=
  [DATABASE_PATH; MAIL_ROOT; HOOK_DIR; BACKUP_DIR; EXCLUDE_TAGS; NEW_TAGS; NEW_IGNORE; SYNC_MAILDIR_FLAGS;
   PRIMARY_EMAIL; OTHER_EMAIL; USER_NAME; AUTOCOMMIT; EXTRA_HEADERS; INDEX_AS_TEXT].
(** [key_string]: as above, lib/config.cc:581-616. *)
Definition key_string (k : ckey) : bytes :=
  match k with
  | DATABASE_PATH => lit "database.path"
  | MAIL_ROOT => lit "database.mail_root"
  | HOOK_DIR => lit "database.hook_dir"
  | BACKUP_DIR => lit "database.backup_dir"
  | EXCLUDE_TAGS => lit "search.exclude_tags"
  | NEW_TAGS => lit "new.tags"
  | NEW_IGNORE => lit "new.ignore"
  | SYNC_MAILDIR_FLAGS => lit "maildir.synchronize_flags"
  | PRIMARY_EMAIL => lit "user.primary_email"
  | OTHER_EMAIL => lit "user.other_email"
  | USER_NAME => lit "user.name"
  | AUTOCOMMIT => lit "database.autocommit"
  | EXTRA_HEADERS => lit "show.extra_headers"
  | INDEX_AS_TEXT => lit "index.as_text"
  end.

(** The user's password entry (external): pw_gecos and pw_name. *)
Record passwd := { pw_gecos : bytes; pw_name : bytes }.
(** lib/config.cc:618-670 [_notmuch_config_default], with 504-579. *)
Definition config_default (env : environment) (pw : passwd) (m : config) (k : ckey) : option bytes :=
  match k with
  | DATABASE_PATH => Some (match env (lit "MAILDIR") with Some p => p | None => slash (printed (env (lit "HOME"))) (lit "mail") end)
  | MAIL_ROOT => config_get m (key_string DATABASE_PATH)
  | EXCLUDE_TAGS => Some []
  | NEW_TAGS => Some (lit "unread;inbox")
  | SYNC_MAILDIR_FLAGS => Some (lit "true")
  | USER_NAME => Some (match env (lit "NAME") with Some n => n | None => fst (span (fun c => negb (beq c ","%char)) (pw_gecos pw)) end)
  | PRIMARY_EMAIL => Some (match env (lit "EMAIL") with Some e => e | None => pw_name pw ++ lit "@localhost" end)
  | INDEX_AS_TEXT | NEW_IGNORE => Some []
  | AUTOCOMMIT => Some (lit "8000")
  | EXTRA_HEADERS | HOOK_DIR | BACKUP_DIR | OTHER_EMAIL => None
  end.
(** lib/config.cc:672-697 [_notmuch_config_load_defaults]; [false]: NO_MAIL_ROOT.
    [split]: NOTMUCH_PARAM_SPLIT. *)
Definition load_default (env : environment) (pw : passwd) (split : bool) (acc : bool * config) (k : ckey) : bool * config :=
  let '(ok, m) := acc in
  match config_get m (key_string k) with
  | Some _ => (ok, m)
  | None =>
      (ok && negb (match k with MAIL_ROOT => split | _ => false end),
       match config_default env pw m k with Some v => sm_set m (key_string k) v | None => m end)
  end.
(** [load_defaults]: as above, lib/config.cc:672-697. *)
Definition load_defaults (env : environment) (pw : passwd) (split : bool) (m : config) : bool * config :=
  fold_left (load_default env pw split) all_keys (true, m).

(** lib/open.cc:43-72 [_xdg_dir]. *)
Definition xdg_dir (env : environment) (var prefix : bytes) (profile : option bytes) : option bytes :=
  match (match env var with
         | Some r => Some r
         | None => match env (lit "HOME") with Some h => Some (slash h prefix) | None => None end
         end) with
  | None => None
  | Some root =>
      let p := match profile with
               | Some p => p
               | None => match env (lit "NOTMUCH_PROFILE") with Some p => p | None => lit "default" end
               end in
      Some (slash (slash root (lit "notmuch")) p)
  end.

(** stat (external). *)
Inductive st := Missing | IsDir | NotDir | StatError.
(** lib/open.cc:74-114 [_choose_dir]; [parent]: the dirname of the Xapian path. *)
Definition choose_dir (env : environment) (stat : bytes -> st) (parent : bytes) (profile : option bytes)
  (k : ckey) (var prefix subdir : bytes) (m : config) : option config :=
  match config_get m (key_string k) with
  | Some _ => Some m
  | None =>
      match xdg_dir env var prefix profile with
      | None => None
      | Some p =>
          let dir := slash p subdir in
          match stat dir with
          | Missing => Some (sm_set m (key_string k) (slash parent subdir))
          | StatError => None
          | _ => Some (sm_set m (key_string k) dir)
          end
      end
  end.

(** lib/open.cc:406-415 [_set_database_path]. *)
Definition set_database_path (path : bytes) : config :=
  sm_set sm_create (key_string DATABASE_PATH) (strip_trailing path "/"%char).

(** The arguments of [_finish_open] that matter here. *)
Record opening := {
  o_env : environment; o_pw : passwd; o_stat : bytes -> st;
  o_given : bool;              (* a database path was given by the caller *)
  o_split : bool;
  o_path : bytes;              (* the path of the database *)
  o_parent : bytes;            (* the directory that holds the Xapian database *)
  o_profile : option bytes;
  o_file : keyfile;            (* [] when there is no config file *)
  o_meta : list (bytes * bytes)
}.
(** lib/open.cc:557-586; [None]: an error status. *)
Definition open_config (o : opening) : option config :=
  let env := o_env o in
  let m := set_database_path (o_path o) in
  let m := load_from_database env (o_given o) (o_meta o) m in
  match load_from_file env (o_given o) (o_file o) m with
  | None => None
  | Some m =>
      match choose_dir env (o_stat o) (o_parent o) (o_profile o) HOOK_DIR (lit "XDG_CONFIG_HOME") (lit ".config") (lit "hooks") m with
      | None => None
      | Some m =>
          match choose_dir env (o_stat o) (o_parent o) (o_profile o) BACKUP_DIR (lit "XDG_DATA_HOME") (lit ".local/share") (lit "backups") m with
          | None => None
          | Some m => match load_defaults env (o_pw o) (o_split o) m with
                      | (true, m) => Some m
                      | (false, _) => None
                      end
          end
      end
  end.

(** An open database: its configuration and the metadata on disk. *)
Record handle := { h_config : config; h_meta : list (bytes * bytes); h_writable : bool }.
(** lib/config.cc:59-90 [notmuch_database_set_config]: [false] is READ_ONLY_DATABASE. *)
Definition set_config (key value : bytes) (h : handle) : bool * handle :=
  if h_writable h then
    (true, {| h_config := sm_set (h_config h) key value; h_meta := cfg_set key value (h_meta h); h_writable := true |})
  else (false, h).
(** lib/config.cc:110-136 [notmuch_database_get_config]. *)
Definition get_config (key : bytes) (h : handle) : bytes :=
  match config_get (h_config h) key with Some v => v | None => [] end.
(** lib/config.cc:478-502 [notmuch_config_get_bool]; [None] is ILLEGAL_ARGUMENT. *)
Definition strcase_equal (a b : bytes) : bool := bseq (map tolower a) (map tolower b).
(** [get_bool]: as above, lib/config.cc:478-502. *)
Definition get_bool (k : ckey) (h : handle) : option bool :=
  match config_get (h_config h) (key_string k) with
  | None => Some false
  | Some v => if strcase_equal v (lit "false") || strcase_equal v (lit "no") then Some false
              else if strcase_equal v (lit "true") || strcase_equal v (lit "yes") then Some true
              else None
  end.
(** notmuch-config.c:697-712: the pairs "notmuch config list" prints, in order. *)
Definition config_pairs (m : config) : list (bytes * bytes) := it_all (it_create m [] false).
(** notmuch-config.c:546-565 and lib/config.cc:278-351: the lines "notmuch config get"
    prints for an item that is not "built_with.*". *)
Definition command_get (item : bytes) (m : config) : list bytes :=
  match config_get m item with None => [] | Some v => config_values v end.
