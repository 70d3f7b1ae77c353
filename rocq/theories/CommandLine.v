(** Model of the command line of the notmuch program: main and the beginning of every command up
    to the point where it has read its options and obeyed the shared ones (notmuch.c and the
    notmuch-*.c files).  What a command does after that point is one event, [Body], here; it is
    modelled elsewhere.  Messages on stderr are not modelled, except the warning of line 97. *)
From Verif Require Import Bytes Options OptionTables Hooks.
Local Open Scope nat_scope.

(** notmuch.c:51-57, the variables behind the shared options; they are global, so what main read is
    still there when the command reads its own options.  [g_query]: 40 infix, 41 sexp (OptionTables.v). *)
Record globals := { g_version : bool; g_help : bool; g_uuid : option bytes; g_query : Z }.
(** notmuch.c:51-57, their initial values. *)
Definition globals0 : globals := {| g_version := false; g_help := false; g_uuid := None; g_query := 40%Z |}.
(** The stores of notmuch.c:59-69 made by reading options. *)
Definition store (g : globals) (e : effect) : globals :=
  {| g_version := match e with SetBool v b => if v =? 500 then b else g_version g | _ => g_version g end;
     g_help := match e with SetBool v b => if v =? 501 then b else g_help g | _ => g_help g end;
     g_uuid := match e with SetString v s => if v =? 502 then Some s else g_uuid g | _ => g_uuid g end;
     g_query := match e with SetKeyword v z => if v =? 503 then z else g_query g | _ => g_query g end |}.
(** Whether an assignment goes to one of these variables, notmuch.c:59-69. *)
Definition is_shared (e : effect) : bool :=
  match e with
  | SetBool v _ => (v =? 500) || (v =? 501)
  | SetString v _ => v =? 502
  | SetKeyword v _ => v =? 503
  | _ => false
  end.
(** config_file_name of main, notmuch.c:471-476. *)
Definition config_of (es : list effect) : option bytes :=
  fold_left (fun c e => match e with SetString v s => if v =? 0 then Some s else c | _ => c end) es None.

(** What happens, in order: output of --version and --help (the topic), the database being created or
    opened, the configuration alone being loaded, another program taking over, "Warning: ignoring
    --uuid", and the command itself going ahead with its handle, the options of its own it read, the
    query syntax and its other arguments. *)
Inductive happening :=
| Version_printed | Help_shown (topic : option bytes)
| Database_created | Database_opened (write : bool) | Configuration_loaded
| External (config : option bytes) (program : bytes) (args : list bytes)
| Uuid_ignored (u : bytes)
| Body (command : option bytes) (h : handle) (options : list effect) (query : Z) (args : list bytes).

(** What the system answers.  [l_exists]: there is a database; [l_creatable], [l_openable], [l_load]:
    whether creating it and opening it works, and the status of loading the configuration; [l_uuid]:
    the UUID of the database that is there, or of the one that would be made; [l_external]: whether
    execvp finds and runs the program; [l_help]: what _help_for returns or the man program exits
    with; [l_run]: what a command returns. *)
Record line_env := { l_exists : bool; l_creatable : bool; l_openable : bool -> bool; l_load : load_status; l_uuid : bytes;
                     l_external : bytes -> bool; l_help : option bytes -> nat; l_run : option bytes -> list effect -> Z -> list bytes -> nat }.

(** notmuch.c:82-102 [notmuch_process_shared_options] with notmuch.c:302-317
    [notmuch_exit_if_unmatched_db_uuid]; [db]: the UUID of the database, when one was passed;
    [Some n]: the process exits with n. *)
Definition process_shared_options (e : line_env) (g : globals) (db : option bytes) (subcommand : option bytes)
  : list happening * option nat :=
  if g_version g then ([Version_printed], Some 0)
  else if g_help g then ([Help_shown subcommand], Some (l_help e subcommand))
  else match g_uuid g with
       | None => ([], None)
       | Some u => match db with
                   | Some uuid => if bseq u uuid then ([], None) else ([], Some 1)
                   | None => ([Uuid_ignored u], None)
                   end
       end.

(** The option table of each command, and whether it passes its database to
    notmuch_process_shared_options: notmuch-search.c:830 and 896, notmuch-count.c:187,
    notmuch-show.c:1376, notmuch-reply.c:752, notmuch-tag.c:252, notmuch-dump.c:396,
    notmuch-restore.c:275, notmuch-reindex.c:112, notmuch-new.c:1151, notmuch-insert.c:503; not
    notmuch-compact.c:48, nor notmuch.c:108-125 [notmuch_minimal_options] for setup, config and help. *)
Definition command_options : list (bytes * (list desc * bool)) :=
  [(lit "search", (opts_notmuch_search, true)); (lit "address", (opts_notmuch_address, true));
   (lit "count", (opts_notmuch_count, true)); (lit "show", (opts_notmuch_show, true));
   (lit "reply", (opts_notmuch_reply, true)); (lit "tag", (opts_notmuch_tag, true));
   (lit "dump", (opts_notmuch_dump, true)); (lit "restore", (opts_notmuch_restore, true));
   (lit "reindex", (opts_notmuch_reindex, true)); (lit "new", (opts_notmuch_new, true));
   (lit "insert", (opts_notmuch_insert, true)); (lit "compact", (opts_notmuch_compact, false));
   (lit "config", (opts_notmuch_minimal, false)); (lit "setup", (opts_notmuch_minimal, false));
   (lit "help", (opts_notmuch_minimal, false))].
(** The entry of a command, command_options above (notmuch.c:163-208 for the names). *)
Definition options_of (name : bytes) : option (list desc * bool) :=
  match find (fun c => bseq name (fst c)) command_options with Some c => Some (snd c) | None => None end.

(** The beginning of a command, for instance notmuch-tag.c:223-254: its options, then the shared
    ones, then the rest of it.  A command that stops at a bad option returns EXIT_FAILURE.  The
    command "notmuch" alone (notmuch.c:381-417) reads nothing: when it calls the setup command, that has
    no arguments and the shared options left from main (a second warning about --uuid is not
    modelled). *)
Definition run_command (e : line_env) (g : globals) (name : option bytes) (h : handle) (args : list bytes) : list happening * nat :=
  match name with
  | None => ([Body None h [] (g_query g) []], l_run e None [] (g_query g) [])
  | Some n =>
      match options_of n with
      | None => ([], 1)
      | Some (table, passes) =>
          match parse_arguments table args with
          | (_, None) => ([], 1)
          | (es, Some rest) =>
              let g := fold_left store es g in
              let db := match h with Database _ => if passes then Some (l_uuid e) else None | _ => None end in
              match process_shared_options e g db name with
              | (ev, Some n) => (ev, n)
              | (ev, None) => let own := filter (fun x => negb (is_shared x)) es in
                  (ev ++ [Body name h own (g_query g) rest], l_run e name own (g_query g) rest)
              end
          end
      end
  end.

(** notmuch.c:463-622 [main]: the arguments without argv[0]. *)
Definition notmuch_main (e : line_env) (argv : list bytes) : list happening * nat :=
  match parse_arguments opts_notmuch_main argv with
  | (_, None) => ([], 1)
  | (es, Some rest) =>
      let name := match rest with c :: _ => Some c | [] => None end in
      let g := fold_left store es globals0 in
      match process_shared_options e g None name with
      | (ev, Some n) => (ev, n)
      | (ev, None) =>
          let go (before : list happening) (h : handle) :=
            let '(ev', n) := run_command e g name h (tl rest) in (ev ++ before ++ ev', n) in
          match find_command name with
          | Some (Some m) =>
              let load (before : list happening) (h : handle) :=
                if m_load m then
                  match l_load e with
                  | Load_no_config => if m_create_config m then go (before ++ [Configuration_loaded]) Configuration else (ev ++ before, 0)
                  | Load_no_database => match name with None => (ev ++ before, 0) | Some _ => go (before ++ [Configuration_loaded]) Configuration end
                  | Load_ok => go (before ++ [Configuration_loaded]) Configuration
                  | Load_error => (ev ++ before, 1)
                  end
                else go before h in
              if m_early m then
                let write := m_write m || m_create_db m in
                let open := if l_exists e && l_openable e write then load [Database_opened write] (Database write) else (ev, 1) in
                if m_create_db m then
                  if l_exists e then open
                  else if l_creatable e then load [Database_created] (Database true) else (ev, 1)
                else open
              else load [] No_handle
          | _ =>
              let prog := lit "notmuch-" ++ match name with Some n => n | None => [] end in
              if l_external e prog then (ev ++ [External (config_of es) prog (tl rest)], l_run e name [] (g_query g) (tl rest)) else (ev, 1)
          end
      end
  end.
