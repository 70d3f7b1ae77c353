(** Specification for C49, from doc/man1/notmuch-config.rst and lib/notmuch.h: where the
    value of a configuration item comes from. *)
From Verif Require Import Bytes StrUtil Config.
Local Open Scope nat_scope.

Definition item (s : string) : bytes := lit s.

(** The value an item has in the configuration file: the last one under its group and key. *)
Fixpoint in_file (file : list (bytes * bytes * option bytes)) (key : bytes) : option bytes :=
  match file with
  | [] => None
  | (g, k, v) :: file' =>
      match in_file file' key with
      | Some w => Some w
      | None => if bseq (g ++ lit "." ++ k) key then v else None
      end
  end.
(** The value stored in the database. *)
Fixpoint in_database (meta : list (bytes * bytes)) (key : bytes) : option bytes :=
  match meta with
  | [] => None
  | (k, v) :: meta' => if bseq k key then Some v else in_database meta' key
  end.
Definition first_of {A} (a b : option A) : option A := match a with Some x => Some x | None => b end.

(** Relative paths of the three path items start at the home directory. *)
Definition absolute (p : bytes) : Prop := exists r, p = lit "/" ++ r.
Definition path_items : list bytes := [item "database.path"; item "database.mail_root"; item "database.hook_dir"].
Definition from_home (home key v w : bytes) : Prop :=
  (In key path_items /\ ~ absolute v /\ w = home ++ lit "/" ++ v) \/
  ((~ In key path_items \/ absolute v) /\ w = v).

(** The documented default of an item that is neither in the file nor in the database;
    [path] is the value of database.path. *)
Definition default_of (o : opening) (path : bytes) (key : bytes) (w : option bytes) : Prop :=
  (key = item "database.mail_root" /\ w = Some path) \/
  (In key [item "search.exclude_tags"; item "new.ignore"; item "index.as_text"] /\ w = Some []) \/
  (key = item "new.tags" /\ w = Some (lit "unread;inbox")) \/
  (key = item "maildir.synchronize_flags" /\ w = Some (lit "true")) \/
  (key = item "database.autocommit" /\ w = Some (lit "8000")) \/
  (key = item "user.name" /\
     (w = o_env o (lit "NAME") /\ w <> None \/
      o_env o (lit "NAME") = None /\ exists name rest, w = Some name /\ ~ In ","%char name /\
        pw_gecos (o_pw o) = name ++ rest /\ (rest = [] \/ exists r, rest = ","%char :: r))) \/
  (key = item "user.primary_email" /\
     (w = o_env o (lit "EMAIL") /\ w <> None \/
      o_env o (lit "EMAIL") = None /\ w = Some (pw_name (o_pw o) ++ lit "@localhost"))) \/
  (exists var prefix sub d,
     In (key, var, prefix, sub) [(item "database.hook_dir", "XDG_CONFIG_HOME", ".config", "hooks")%string;
                                 (item "database.backup_dir", "XDG_DATA_HOME", ".local/share", "backups")%string] /\
     (* $XDG_CONFIG_HOME/notmuch/<profile>/hooks if it exists, else a sibling of the Xapian database *)
     w = Some d /\
     exists root profile,
       (o_env o (lit var) = Some root \/
        o_env o (lit var) = None /\ exists h, o_env o (lit "HOME") = Some h /\ root = h ++ lit "/" ++ lit prefix) /\
       (o_profile o = Some profile \/
        o_profile o = None /\ (o_env o (lit "NOTMUCH_PROFILE") = Some profile \/
                               o_env o (lit "NOTMUCH_PROFILE") = None /\ profile = lit "default")) /\
       let x := root ++ lit "/notmuch/" ++ profile ++ lit "/" ++ lit sub in
       ((o_stat o x = IsDir \/ o_stat o x = NotDir) /\ d = x \/ o_stat o x = Missing /\ d = o_parent o ++ lit "/" ++ lit sub)) \/
  (~ In key (map item ["database.mail_root"; "search.exclude_tags"; "new.ignore"; "index.as_text"; "new.tags";
                       "maildir.synchronize_flags"; "database.autocommit"; "user.name"; "user.primary_email";
                       "database.hook_dir"; "database.backup_dir"]%string) /\ w = None).

(** The value of every item but database.path. *)
Definition item_value (o : opening) (path : bytes) (home : bytes) (key : bytes) (w : option bytes) : Prop :=
  match first_of (in_file (o_file o) key) (in_database (o_meta o) key) with
  | Some v => exists x, w = Some x /\ from_home home key v x
  | None => default_of o path key w
  end.

(** Opening can only succeed if the directory of hooks, and of backups, is set or its
    default can be found. *)
Definition set_anywhere (o : opening) (key : bytes) : Prop :=
  in_file (o_file o) key <> None \/ in_database (o_meta o) key <> None.

(** The path of the database, without trailing slashes. *)
Definition without_slashes (p q : bytes) : Prop :=
  (exists n, p = q ++ repeat "/"%char n) /\ forall r, q <> r ++ lit "/".

(** A sequence of notmuch_database_set_config calls on a handle. *)
Definition set_all (h : handle) (sets : list (bytes * bytes)) : handle :=
  fold_left (fun h kv => snd (set_config (fst kv) (snd kv) h)) sets h.
(** The value given to [key] last. *)
Fixpoint last_set (sets : list (bytes * bytes)) (key : bytes) : option bytes :=
  match sets with
  | [] => None
  | (k, v) :: sets' => first_of (last_set sets' key) (if bseq k key then Some v else None)
  end.
(** The handle that opening returns. *)
Definition opens (o : opening) (w : bool) (h : handle) : Prop :=
  open_config o = Some (h_config h) /\ h_meta h = o_meta o /\ h_writable h = w.
(** The same opening, later: the database may have other stored values. *)
Definition later (o : opening) (meta : list (bytes * bytes)) : opening :=
  {| o_env := o_env o; o_pw := o_pw o; o_stat := o_stat o; o_given := o_given o; o_split := o_split o; o_path := o_path o;
     o_parent := o_parent o; o_profile := o_profile o; o_file := o_file o; o_meta := meta |}.
(** Openings in which database.path has one origin: the caller, or nothing stored in the
    database itself (the documentation does not say what such a value would mean). *)
Definition path_not_stored (o : opening) : Prop :=
  NoDup (map fst (o_meta o)) /\ (o_given o = true \/ in_database (o_meta o) (item "database.path") = None).
