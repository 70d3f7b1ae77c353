(** Model of notmuch-setup.c, with the key files of ConfigCmd.v.

    The texts printed are not modelled.  The current values come from the configuration
    of the database handle; only the current additional addresses matter.  getcwd and
    allocation do not fail. *)
From Verif Require Import Bytes StrUtil TagLine Dump Config ConfigCmd.
Local Open Scope nat_scope.

(** notmuch-setup.c:136-145, the macro [prompt]: the answer, the rest of the input. *)
Inductive asked := Answer (r : bytes) (rest : list bytes) | Eof | Bad_read.
(** [prompt]: as above, notmuch-setup.c:136-145. *)
Definition prompt (lines : list bytes) : asked :=
  match lines with
  | [] => Eof
  | line :: rest => match chomp_newline (takewhile nonul line) with
                    | None => Bad_read
                    | Some r => Answer r rest
                    end
  end.

(** notmuch-setup.c:23-44 [make_path_absolute]. *)
Definition make_path_absolute (cwd path : bytes) : bytes :=
  if beq (peek path) "/"%char then path else cwd ++ lit "/" ++ path.

(** notmuch-setup.c:105-124 [parse_tag_list]: up to the next space (or the end), then
    over the spaces. *)
Definition not_space (c : byte) : bool := negb (beq c " "%char).
(** [tag_list]: as above, notmuch-setup.c:105-124. *)
Fixpoint tag_list (fuel : nat) (tag : bytes) : list bytes :=
  match fuel, tag with
  | S f, _ :: _ => takewhile not_space tag :: tag_list f (dropwhile (fun c => beq c " "%char) (dropwhile not_space tag))
  | _, _ => []
  end.
(** [parse_tag_list]: as above, notmuch-setup.c:105-124. *)
Definition parse_tag_list (response : bytes) : list bytes := tag_list (length response) response.

(** outcome of notmuch setup. *)
Inductive result := Saved (f : kfile) | Failed | Undefined.
(** Calls on the configuration object. *)
Inductive conf_call := Call_open | Call_save | Call_close | Call_is_new.

Section S.
Variable good_names : bytes -> bytes -> bool.
Notation update := (update good_names).

(** notmuch-setup.c:169-179: one prompt for each current address. *)
Fixpoint ask_current (emails : list bytes) (lines : list bytes) (acc : list bytes) (k : list bytes -> list bytes -> result) : result :=
  match emails with
  | [] => k acc lines
  | email :: emails' =>
      match prompt lines with
      | Answer r rest => ask_current emails' rest (acc ++ [match r with [] => email | _ => r end]) k
      | Eof => Failed
      | Bad_read => Undefined
      end
  end.
(** notmuch-setup.c:181-185: more addresses, until an empty answer. *)
Fixpoint ask_more (lines : list bytes) (acc : list bytes) (k : list bytes -> list bytes -> result) : result :=
  match lines with
  | [] => Failed
  | line :: rest =>
      match chomp_newline (takewhile nonul line) with
      | None => Undefined
      | Some [] => k acc rest
      | Some r => ask_more rest (acc ++ [r]) k
      end
  end.
(** [ask]: as above, notmuch-setup.c:181-185. *)
Definition ask (lines : list bytes) (k : bytes -> list bytes -> result) : result :=
  match prompt lines with
  | Answer r rest => k r rest
  | Eof => Failed
  | Bad_read => Undefined
  end.

(** notmuch-setup.c:126-243 [notmuch_setup_command].  [file]: the key file, [None] if it does
    not exist; [emails]: the current user.other_email; [save]: whether saving succeeds. *)
Definition setup_command (save : bool) (cwd : bytes) (emails : list bytes) (file : option kfile) (lines : list bytes) : result :=
  let f := fold_left ensure_group standard_groups (match file with Some f => f | None => [] end) in
  ask lines (fun name lines =>
  let f := match name with [] => f | _ => update (lit "user") (lit "name") [name] f end in
  ask lines (fun email lines =>
  let f := match email with [] => f | _ => update (lit "user") (lit "primary_email") [email] f end in
  ask_current emails lines [] (fun others lines =>
  ask_more lines others (fun others lines =>
  let f := match others with [] => f | _ => update (lit "user") (lit "other_email") others f end in
  ask lines (fun path lines =>
  let f := match path with [] => f | _ => update (lit "database") (lit "path") [make_path_absolute cwd path] f end in
  ask lines (fun tags lines =>
  let f := match tags with [] => f | _ => update (lit "new") (lit "tags") (parse_tag_list tags) f end in
  ask lines (fun excl lines =>
  let f := match excl with [] => f | _ => update (lit "search") (lit "exclude_tags") (parse_tag_list excl) f end in
  if save then Saved f else Failed))))))).

(** The calls made on the configuration object if saving succeeds
    (notmuch-setup.c:150, 155, 233-240). *)
Definition config_calls : list conf_call := [Call_open; Call_is_new; Call_save; Call_close; Call_is_new].

(** The configuration file afterwards. *)
Definition file_after (file : option kfile) (r : result) : option kfile :=
  match r with Saved f => Some f | _ => file end.
End S.
