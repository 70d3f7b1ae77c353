(** Model of "notmuch config set" (notmuch-config.c) and of the parts of GLib's key files it
    relies on (external: gkeyfile.c, as documented): setting, removing, escaping, and
    reading back.

    Simplifications: comments in the file are left out; a file that was saved parses into
    the groups, keys and raw values that were in memory, except that blanks at the beginning
    of a raw value are lost; setting under a name GLib does not accept for a group or a
    key changes nothing. *)
From Verif Require Import Bytes StrUtil StringMap Dump Config.
Local Open Scope nat_scope.

(** The key file in memory: groups with their keys and raw (escaped) values, in order;
    GLib keeps one entry per group name and per key. *)
Definition kgroup := (bytes * list (bytes * bytes))%type.
(** a GKeyFile: groups of keys in order (GLib). *)
Definition kfile := list kgroup.

(** character constant (GLib key-file escapes). *)
Definition BACKSLASH : ascii := "\"%char.
(** character constant. *)
Definition LF : ascii := chr 10.
(** character constant. *)
Definition CR : ascii := chr 13.
(** character constant. *)
Definition TAB : ascii := chr 9.
(** character constant. *)
Definition FF : ascii := chr 12.

(** glib: g_key_file_parse_string_as_value (string, escape_separator). *)
Fixpoint escape (separator leading : bool) (s : bytes) : bytes :=
  match s with
  | [] => []
  | c :: s' =>
      if beq c " " then (if leading then [BACKSLASH; "s"%char] else [c]) ++ escape separator leading s'
      else if beq c TAB then (if leading then [BACKSLASH; "t"%char] else [c]) ++ escape separator leading s'
      else if beq c LF then [BACKSLASH; "n"%char] ++ escape separator leading s'
      else if beq c CR then [BACKSLASH; "r"%char] ++ escape separator leading s'
      else if beq c BACKSLASH then [BACKSLASH; BACKSLASH] ++ escape separator false s'
      else if separator && beq c ";" then [BACKSLASH; c] ++ escape separator true s'
      else c :: escape separator false s'
  end.

(** glib: g_key_file_parse_value_as_string (value, NULL): the string, and whether there was
    no bad escape. *)
Fixpoint unescape (s : bytes) : bytes * bool :=
  match s with
  | [] => ([], true)
  | c :: s' =>
      if beq c BACKSLASH then
        match s' with
        | [] => ([], false)
        | e :: s'' =>
            let '(r, ok) := unescape s'' in
            if beq e "s" then (" "%char :: r, ok)
            else if beq e "n" then (LF :: r, ok)
            else if beq e "t" then (TAB :: r, ok)
            else if beq e "r" then (CR :: r, ok)
            else if beq e BACKSLASH then (BACKSLASH :: r, ok)
            else (BACKSLASH :: e :: r, false)
        end
      else let '(r, ok) := unescape s' in (c :: r, ok)
  end.
(** g_ascii_isspace; parsing a line "key=value" skips them after the equals sign. *)
Definition g_isspace (c : ascii) : bool := beq c " " || beq c TAB || beq c LF || beq c CR || beq c FF.
(** g_strchug (GLib). *)
Definition chug (s : bytes) : bytes := dropwhile g_isspace s.

(** g_key_file_set_value on the keys of a group, and on the file. *)
Fixpoint set_key (k v : bytes) (l : list (bytes * bytes)) : list (bytes * bytes) :=
  match l with
  | [] => [(k, v)]
  | (k', v') :: l' => if bseq k k' then (k, v) :: l' else (k', v') :: set_key k v l'
  end.
(** g_key_file_set_value (GLib). *)
Fixpoint set_value (g k v : bytes) (f : kfile) : kfile :=
  match f with
  | [] => [(g, [(k, v)])]
  | (g', l) :: f' => if bseq g g' then (g', set_key k v l) :: f' else (g', l) :: set_value g k v f'
  end.
(** g_key_file_remove_key. *)
Definition remove_key (g k : bytes) (f : kfile) : kfile :=
  map (fun e : kgroup => if bseq g (fst e) then (fst e, filter (fun p => negb (bseq k (fst p))) (snd e)) else e) f.
(** Force a group to exist (notmuch-config.c:281-300). *)
Definition ensure_group (f : kfile) (g : bytes) : kfile :=
  if existsb (fun e : kgroup => bseq g (fst e)) f then f else f ++ [(g, [])].
(** notmuch-config.c:35-116, the names in group_comment_table. *)
Definition standard_groups : list bytes := map lit ["database"; "user"; "new"; "search"; "maildir"]%string.

Section Command.
(** External: g_utf8_validate; unicode_word_utf8 (util/unicode-util.c); the names GLib takes
    for groups and keys; whether g_key_file_get_string returns NULL, or the text with
    the bad escape left in it, when an escape is bad (this differs between versions). *)
Variable utf8_valid : bytes -> bool.
Variable is_word : bytes -> bool.
Variable good_names : bytes -> bytes -> bool.
Variable null_on_bad_escape : bool.

(** g_key_file_get_string of a value of a saved file. *)
Definition get_string (raw : bytes) : option bytes :=
  let v := chug raw in
  if utf8_valid v then
    let '(s, ok) := unescape v in if ok || negb null_on_bad_escape then Some s else None
  else None.
(** The file as the next command reads it (lib/config.cc:433-462). *)
Definition reload (f : kfile) : keyfile :=
  flat_map (fun e : kgroup => map (fun p => (fst e, fst p, get_string (snd p))) (snd e)) f.

(** notmuch-config.c:458-477 [_item_split]: at the first period. *)
Fixpoint split_period (s : bytes) : option (bytes * bytes) :=
  match s with
  | [] => None
  | c :: s' => if beq c "." then Some ([], s')
               else match split_period s' with Some (a, b) => Some (c :: a, b) | None => None end
  end.
(** [item_split]: as above, notmuch-config.c:458-477. *)
Definition item_split (item : bytes) : option (bytes * bytes) :=
  match split_period item with
  | Some (g, k) => match k with [] => None | _ => Some (g, k) end
  | None => None
  end.

(** notmuch-config.c:481-514 [validate_field_name]: the part after the last period. *)
Fixpoint after_last_period (s : bytes) : option bytes :=
  match s with
  | [] => None
  | c :: s' => match after_last_period s' with
               | Some r => Some r
               | None => if beq c "." then Some s' else None
               end
  end.
(** [validate_field_name]: as above, notmuch-config.c:481-514. *)
Definition validate_field_name (s : bytes) : bool :=
  utf8_valid s &&
  match after_last_period s with
  | None => false
  | Some k => match k with
              | [] => false
              | c :: _ => is_word k && negb ((97 <=? code c)%N && (code c <=? 122)%N)
              end
  end.
(** notmuch-config.c:524-544, the table and [_config_key_info]: what has to be validated. *)
Definition key_allowed (item : bytes) : bool :=
  if bseq item (lit "index.decrypt") then true
  else if starts_with (lit "index.header.") item then validate_field_name item
  else if starts_with (lit "query.") item then true
  else if starts_with (lit "squery.") item then validate_field_name item
  else true.

(** notmuch-config.c:652-670: remove, a string, or a list of strings; g_key_file_set_string_list
    puts the separator after each string. *)
Definition raw_value (values : list bytes) : bytes :=
  match values with
  | [v] => escape false true v
  | _ => concat (map (fun v => escape true true v ++ lit ";") values)
  end.
(** [update]: as above, notmuch-config.c:652-670. *)
Definition update (g k : bytes) (values : list bytes) (f : kfile) : kfile :=
  match values with
  | [] => remove_key g k f
  | _ => if good_names g k then set_value g k (raw_value values) f else f
  end.

(** The world: the configuration file ([None]: there is none) and the database. *)
Record world := { w_file : option kfile; w_meta : list (bytes * bytes) }.

(** notmuch-config.c:598-677 [notmuch_config_command_set] without the parsing of options;
    [to_database]: --database; [io]: whether saving the file (g_file_set_contents, which
    replaces the file at once or not at all) and reopening and writing the database succeed.
    Result: whether the command reports success. *)
Definition command_set (io to_database : bool) (item : bytes) (values : list bytes) (w : world) : bool * world :=
  if starts_with (lit "built_with.") item then (false, w)
  else if negb (key_allowed item) then (false, w)
  else if to_database then
    (* notmuch-config.c:567-596 [_set_db_config] *)
    match values with
    | _ :: _ :: _ => (false, w)
    | _ => if io then (true, {| w_file := w_file w; w_meta := cfg_set item (match values with v :: _ => v | [] => [] end) (w_meta w) |})
           else (false, w)
    end
  else match item_split item with
       | None => (false, w)
       | Some (g, k) =>
           match w_file w with
           | None => (false, w)
           | Some f =>
               let f' := update g k values (fold_left ensure_group standard_groups f) in
               if io then (true, {| w_file := Some f'; w_meta := w_meta w |}) else (false, w)
           end
       end.
End Command.
