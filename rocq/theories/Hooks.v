(** Model of hooks.c and of where notmuch-new.c, notmuch-insert.c and notmuch.c call hooks and
    commands.  What the commands do to messages is modelled elsewhere (New.v, Insert.v); here
    it is one step.  Allocation and setenv do not fail. *)
From Verif Require Import Bytes.
Local Open Scope nat_scope.

(** How the operating system answers: access(2) for the hook file, fork, execl in the child
    (then the hook runs and ends), waitpid. *)
Inductive sys_access := Access_ok | Access_enoent | Access_denied.
(** wait(2) status. *)
Inductive ended := Exited (status : nat) | Killed (signal : nat).
(** outcome of execl in the child, hooks.c:26-104. *)
Inductive sys_exec := Exec_enoent | Exec_error | Program (e : ended).
(** outcomes of access, fork, exec and waitpid, hooks.c:26-104. *)
Record hook_env := { h_access : sys_access; h_fork : bool; h_exec : sys_exec; h_wait : bool }.

(** state of the database handle when the hook runs. *)
Inductive db_mode := Writable | Read_only | Closed.
(** observable events, in order. *)
Inductive event := Hook_runs (name : bytes) (config : bytes) (m : db_mode) | Work (m : db_mode).

(** hooks.c:26-104 [notmuch_run_hook]: the status returned, and the events. *)
Definition child_status (x : sys_exec) : ended :=
  match x with Exec_enoent => Exited 0 | Exec_error => Exited 1 | Program e => e end.
(** [started]: as above, hooks.c:26-104. *)
Definition started (x : sys_exec) : bool := match x with Program _ => true | _ => false end.
(** [run_hook]: as above, hooks.c:26-104. *)
Definition run_hook (h : hook_env) (name config : bytes) (m : db_mode) : nat * list event :=
  match h_access h with
  | Access_enoent => (0, [])
  | Access_denied => (1, [])
  | Access_ok =>
      if negb (h_fork h) then (1, [])
      else
        let ev := if started (h_exec h) then [Hook_runs name config m] else [] in
        if negb (h_wait h) then (1, ev)
        else match child_status (h_exec h) with
             | Exited 0 => (0, ev)
             | _ => (1, ev)
             end
  end.

(** notmuch-new.c:1115-1325 [notmuch_new_command]: the outcome of each step, in order.
    [n_start]: options, configuration and tags are good; [n_reopen_ro], [n_reopen_rw]: dropping
    and taking the write lock; [n_counting]: not interrupted while counting (first run), or the
    upgrade succeeded; [n_indexopts]; then the work itself: [n_ret], [n_interrupted],
    [n_vanished]. *)
Record new_env := {
  n_start : bool; n_hooks : bool; n_config : bytes; n_reopen_ro : bool; n_pre : hook_env; n_reopen_rw : bool;
  n_counting : bool; n_indexopts : bool; n_ret : nat; n_interrupted : bool; n_vanished : nat; n_post : hook_env }.
(** [EXIT_TEMPFAIL]: as above, notmuch-new.c:1115-1325. *)
Definition EXIT_TEMPFAIL : nat := 75.
(** [new_body]: as above, notmuch-new.c:1115-1325. *)
Definition new_body (e : new_env) (before : list event) : nat * list event :=
  if negb (n_counting e) then (1, before)
  else if negb (n_indexopts e) then (1, before)
  else
    let ev := before ++ [Work Writable] in
    let '(ret, ev) :=
      if n_hooks e && (n_ret e =? 0) && negb (n_interrupted e) then
        let '(r, h) := run_hook (n_post e) (lit "post-new") (n_config e) Closed in (r, ev ++ h)
      else (n_ret e, ev) in
    if negb (ret =? 0) || n_interrupted e then (1, ev)
    else if negb (n_vanished e =? 0) then (EXIT_TEMPFAIL, ev)
    else (0, ev).
(** [new_command]: as above, notmuch-new.c:1115-1325. *)
Definition new_command (e : new_env) : nat * list event :=
  if negb (n_start e) then (1, [])
  else if n_hooks e then
    if negb (n_reopen_ro e) then (1, [])
    else let '(r, ev) := run_hook (n_pre e) (lit "pre-new") (n_config e) Read_only in
         if negb (r =? 0) then (1, ev)
         else if negb (n_reopen_rw e) then (1, ev)
         else new_body e ev
  else new_body e [].

(** status.c:60-74 [status_to_exit] for the statuses in question. *)
Inductive status := Success | Temporary | Permanent.
(** [status_to_exit]: as above, status.c:60-74. *)
Definition status_to_exit (s : status) : nat := match s with Success => 0 | Temporary => EXIT_TEMPFAIL | Permanent => 1 end.

(** notmuch-insert.c:466-619 [notmuch_insert_command]: [i_start]: everything up to the file in the
    maildir; [i_add]: indexing and tagging; [i_close]: committing. *)
Record insert_env := { i_start : bool; i_keep : bool; i_hooks : bool; i_config : bytes; i_indexopts : bool; i_add : status; i_close : status; i_post : hook_env }.
(** [insert_command]: as above, notmuch-insert.c:466-619. *)
Definition insert_command (e : insert_env) : nat * list event :=
  if negb (i_start e) then (1, [])
  else if negb (i_indexopts e) then (1, [])
  else
    let ev := [Work Writable] in
    let s := match i_add e with Success => i_close e | s => s end in
    let s := match s with Success => Success | _ => if i_keep e then Success else s end in
    let ev := match s with
              | Success => if i_hooks e then ev ++ snd (run_hook (i_post e) (lit "post-insert") (i_config e) Closed) else ev
              | _ => ev
              end in
    (status_to_exit s, ev).

(** notmuch.c:163-208, the table of commands. *)
Record cmode := { m_early : bool; m_write : bool; m_create_db : bool; m_load : bool; m_create_config : bool }.
(** [mode]: as above, notmuch.c:163-208. *)
Definition mode (early write create load conf : bool) : cmode :=
  {| m_early := early; m_write := write; m_create_db := create; m_load := load; m_create_config := conf |}.
(** [None]: the command has no function (emacs-mua). *)
Definition commands : list (option bytes * option cmode) :=
  [(None, Some (mode false false false true true));
   (Some (lit "setup"), Some (mode false false false true true));
   (Some (lit "new"), Some (mode true true true false false));
   (Some (lit "insert"), Some (mode true true false false false));
   (Some (lit "search"), Some (mode true false false false false));
   (Some (lit "address"), Some (mode true false false false false));
   (Some (lit "show"), Some (mode true false false false false));
   (Some (lit "count"), Some (mode true false false false false));
   (Some (lit "reply"), Some (mode true false false false false));
   (Some (lit "tag"), Some (mode true true false false false));
   (Some (lit "dump"), Some (mode true true false false false));
   (Some (lit "restore"), Some (mode true true false false false));
   (Some (lit "compact"), Some (mode true true false false false));
   (Some (lit "reindex"), Some (mode true true false false false));
   (Some (lit "config"), Some (mode false false false true false));
   (Some (lit "emacs-mua"), None);
   (Some (lit "help"), Some (mode false false false false true))].
(** [oeq]: as above, notmuch.c:163-208. *)
Definition oeq (a b : option bytes) : bool :=
  match a, b with None, None => true | Some x, Some y => bseq x y | _, _ => false end.
(** notmuch.c:224-235 [find_command]. *)
Definition find_command (name : option bytes) : option (option cmode) :=
  match find (fun c => oeq name (fst c)) commands with Some c => Some (snd c) | None => None end.

(** What happens: an external program replaces this one, or a command function is called with a
    handle. *)
Inductive handle := No_handle | Database (write : bool) | Configuration.
(** what main does, notmuch.c:463-622. *)
Inductive action := Ran_external (program : bytes) | Ran (name : option bytes) (h : handle) | Nothing_run.
(** notmuch_database_load_config status, notmuch.c:463-622. *)
Inductive load_status := Load_ok | Load_no_config | Load_no_database | Load_error.
(** notmuch_database_create_with_config status, notmuch.c:463-622. *)
Inductive create_status := Create_ok | Create_exists | Create_error.
(** [x_options]: the options are good; [x_external]: execvp finds the program; [x_create],
    [x_open], [x_load]: creating and opening the database, loading the configuration; [x_run]: what
    the command returns. *)
Record main_env := { x_options : bool; x_external : bool; x_create : create_status; x_open : bool -> bool; x_load : load_status; x_run : option bytes -> nat }.
(** notmuch.c:463-622 [main], without --version, --help and the report of talloc: the exit
    status and the action. *)
Definition main (e : main_env) (name : option bytes) : nat * action :=
  if negb (x_options e) then (1, Nothing_run)
  else
    match find_command name with
    | Some (Some m) =>
        let run h := (x_run e name, Ran name h) in
        let load (h : handle) :=
          if m_load m then
            match x_load e with
            | Load_no_config => if m_create_config m then run Configuration else (0, Nothing_run)
            | Load_no_database => match name with None => (0, Nothing_run) | Some _ => run Configuration end
            | Load_ok => run Configuration
            | Load_error => (1, Nothing_run)
            end
          else run h in
        if m_early m then
          let write := m_write m || m_create_db m in
          let open := if x_open e write then load (Database write) else (1, Nothing_run) in
          if m_create_db m then
            match x_create e with
            | Create_ok => load (Database true)
            | Create_exists => open
            | Create_error => (1, Nothing_run)
            end
          else open
        else load No_handle
    | _ =>
        match name with
        | Some n => if x_external e then (0, Ran_external (lit "notmuch-" ++ n)) else (1, Nothing_run)
        | None => (1, Nothing_run)
        end
    end.
