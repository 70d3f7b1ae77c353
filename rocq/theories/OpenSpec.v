(** Specification for C50: lib/notmuch.h (notmuch_database_open_with_config,
    notmuch_database_create) and doc/man1/notmuch-config.rst (search orders). *)
From Verif Require Import Bytes StrUtil Config Open.
Local Open Scope nat_scope.

Fixpoint first_place (l : list (option bytes)) : option bytes :=
  match l with [] => None | Some p :: _ => Some p | None :: l' => first_place l' end.
Definition provided (b : bool) (p : option bytes) : option bytes := if b then p else None.
Definition env_of (w : world) (v : string) : option bytes := w_env w (lit v).
Definition home (w : world) : bytes := match env_of w "HOME" with Some h => h | None => lit "(null)" end.

(** $var/notmuch/<profile> where $var defaults to $HOME/<prefix>; the profile is the
    argument, $NOTMUCH_PROFILE or "default". *)
Definition profile_of (w : world) (a : args) : option bytes := first_place [a_profile a; env_of w "NOTMUCH_PROFILE"].
Definition xdg (w : world) (a : args) (var prefix : string) : option bytes :=
  match first_place [env_of w var; option_map (fun h => h ++ lit "/" ++ lit prefix) (env_of w "HOME")] with
  | None => None
  | Some root => Some (root ++ lit "/notmuch/" ++ match profile_of w a with Some p => p | None => lit "default" end)
  end.
Definition xdg_config (w : world) (a : args) : option bytes :=
  option_map (fun r => r ++ lit "/config") (xdg w a "XDG_CONFIG_HOME" ".config").
Definition home_config (w : world) (a : args) : bytes :=
  home w ++ lit "/.notmuch-config" ++ match profile_of w a with Some p => lit "." ++ p | None => [] end.
(** The configuration file. *)
Definition config_places (w : world) (a : args) : list (option bytes) :=
  [a_config a; env_of w "NOTMUCH_CONFIG";
   match xdg_config w a with Some p => provided (w_readable w p) (Some p) | None => None end; Some (home_config w a)].
(** "" as argument: no file. *)
Definition uses_config (w : world) (a : args) (kf : option keyfile) : Prop :=
  (a_config a = Some [] /\ kf = None) \/
  (a_config a <> Some [] /\ exists p k, first_place (config_places w a) = Some p /\ w_keyfile w p = Some k /\ kf = Some k).

Definition is_dir (d : disk) (p : bytes) : bool := match d_stat d p with IsDir => true | _ => false end.
Definition absolute_path (p : bytes) : Prop := exists r, p = "/"%char :: r.
Definition from_file (w : world) (kf : option keyfile) : option bytes :=
  match kf with
  | None => None
  | Some kf => option_map (fun p => if beq (peek p) "/"%char then p else home w ++ lit "/" ++ p) (kf_string kf (lit "database") (lit "path"))
  end.
Definition database_places (w : world) (d : disk) (a : args) (kf : option keyfile) : list (option bytes) :=
  [a_path a; env_of w "NOTMUCH_DATABASE"; from_file w kf;
   match xdg w a "XDG_DATA_HOME" ".local/share" with Some p => provided (is_dir d p) (Some p) | None => None end;
   env_of w "MAILDIR"; let m := home w ++ lit "/mail" in provided (is_dir d m) (Some m)].
Definition database_place (w : world) (d : disk) (a : args) (kf : option keyfile) : option bytes :=
  first_place (database_places w d a kf).
(** For a new database there is a last resort. *)
Definition creation_place (w : world) (d : disk) (a : args) (kf : option keyfile) : option bytes :=
  first_place (database_places w d a kf ++ [xdg w a "XDG_DATA_HOME" ".local/share"]).

(** What the file system and Xapian do (external). *)
Definition only_new_dirs (d d' : disk) : Prop :=
  forall q, d_stat d' q = d_stat d q \/ (d_stat d q = Missing /\ d_stat d' q = IsDir).
Definition same_databases (P : bytes -> Prop) (d d' : disk) : Prop :=
  forall q, P q -> d_xapian d' q = d_xapian d q /\ d_meta d' q = d_meta d q /\ d_compatible d' q = d_compatible d q.
Definition mkdir_works (mkdir : mkdir_t) : Prop :=
  forall p d d', mkdir p d = Some d' -> d_stat d' p = IsDir /\ only_new_dirs d d' /\ same_databases (fun _ => True) d d'.
Definition xcreate_works (xcreate : xcreate_t) : Prop :=
  forall p d d', xcreate p d = Some d' ->
    d_xapian d' p = X_ok /\ d_meta d' p = [] /\ (forall b, d_compatible d' p b = true) /\
    only_new_dirs d d' /\ same_databases (fun q => q <> p) d d'.

(** The place the user names: argument, environment or file. *)
Definition named_place (w : world) (a : args) (kf : option keyfile) : option bytes :=
  first_place [a_path a; env_of w "NOTMUCH_DATABASE"; from_file w kf].
(** Making directories did not, as a side effect, bring the XDG directory into being (it
    may have been made on purpose, as the last resort). *)
Definition xdg_undisturbed (w : world) (d d' : disk) (a : args) (kf : option keyfile) : Prop :=
  forall xd, xdg w a "XDG_DATA_HOME" ".local/share" = Some xd ->
    named_place w a kf <> None \/ d_stat d' xd = d_stat d xd \/ database_place w d a kf = None.
