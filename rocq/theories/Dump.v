(** Model of 'notmuch dump' (notmuch-dump.c) and 'notmuch restore'
    (notmuch-restore.c).

    Simplifications: text is produced and consumed as a list of bytes (gzip layer:
    C40; file handling: C30); allocation and Xapian failures are not modelled; the
    maildir flag is not set (C16); restore input contains no NUL byte. *)
From Verif Require Import Bytes Hex StrUtil Terms Meta StringMap DocMap Db Props TagOps TagLine.
Local Open Scope nat_scope.

(** newline character. *)
Definition NL : byte := chr 10.

(** What 'dump' reads of a message: notmuch_message_get_message_id,
    notmuch_message_get_tags, notmuch_message_get_properties (message, "", false). *)
Record dumped := { dm_id : bytes; dm_tags : list bytes; dm_props : list (bytes * bytes) }.
(** ids, tags and properties of one message as notmuch-dump.c:94-208 reads them. *)
Definition read_message (d : doc) : option dumped :=
  match fst (get_term id_prefix (d_terms d)), get_properties (d_terms d) [] false with
  | Some id, Some l => Some {| dm_id := id; dm_tags := tags_of (d_terms d); dm_props := l |}
  | _, _ => None
  end.

(** notmuch-dump.c:147-208 [dump_tags_message], batch-tag format. *)
Fixpoint dump_tags (first : bool) (tags : list bytes) : bytes :=
  match tags with
  | [] => []
  | t :: tags' => (if first then [] else [" "%char]) ++ "+"%char :: hex_encode t ++ dump_tags false tags'
  end.
(** [dump_tags_message]: as above, notmuch-dump.c:147-208. *)
Definition dump_tags_message (m : dumped) : bytes :=
  if mem NL (dm_id m) then []
  else dump_tags true (dm_tags m) ++ lit " -- " ++ make_boolean_term (Some (lit "id")) (dm_id m) ++ [NL].
(** The same in sup format. *)
Fixpoint dump_tags_sup (first : bool) (tags : list bytes) : bytes :=
  match tags with
  | [] => []
  | t :: tags' => (if first then [] else [" "%char]) ++ t ++ dump_tags_sup false tags'
  end.
(** DUMP_FORMAT_SUP of dump_tags_message, notmuch-dump.c:147-208. *)
Definition dump_sup_message (m : dumped) : bytes :=
  dm_id m ++ lit " (" ++ dump_tags_sup true (dm_tags m) ++ lit ")" ++ [NL].

(** notmuch-dump.c:94-145 [dump_properties_message]. *)
Definition dump_property (p : bytes * bytes) : bytes :=
  " "%char :: hex_encode (fst p) ++ "="%char :: hex_encode (snd p).
(** [dump_properties_message]: as above, notmuch-dump.c:94-145. *)
Definition dump_properties_message (m : dumped) : bytes :=
  if mem NL (dm_id m) then []
  else match dm_props m with
       | [] => []
       | l => lit "#= " ++ hex_encode (dm_id m) ++ concat (map dump_property l) ++ [NL]
       end.

(** notmuch-dump.c:26-69 [database_dump_config]. *)
Definition dump_config_item (p : bytes * bytes) : bytes :=
  lit "#@ " ++ hex_encode (fst p) ++ [" "%char] ++ hex_encode (snd p) ++ [NL].

(** DUMP_INCLUDE_* flags. *)
Record include := { inc_config : bool; inc_properties : bool; inc_tags : bool }.

(** notmuch-dump.c:71-92 [print_dump_header]; NOTMUCH_DUMP_VERSION is 3. *)
Definition dump_header (sup : bool) (i : include) : bytes :=
  lit "#notmuch-dump " ++ (if sup then lit "sup" else lit "batch-tag") ++ lit ":3 " ++
  (if inc_config i then lit "config" else []) ++
  (if inc_properties i then (if inc_config i then [","%char] else []) ++ lit "properties" else []) ++
  (if inc_tags i then (if inc_config i || inc_properties i then [","%char] else []) ++ lit "tags" else []) ++ [NL].

(** notmuch-dump.c:210-272 [database_dump_file]: [ms] are the messages of the query,
    in the order delivered; [cfg] the config items stored in the database. *)
Definition dump_message (sup : bool) (i : include) (m : dumped) : bytes :=
  (if inc_tags i then (if sup then dump_sup_message m else dump_tags_message m) else []) ++
  (if inc_properties i then dump_properties_message m else []).
(** [dump]: as above, notmuch-dump.c:210-272. *)
Definition dump (sup : bool) (i : include) (cfg : list (bytes * bytes)) (ms : list dumped) : bytes :=
  dump_header sup i ++
  (if inc_config i then concat (map dump_config_item cfg) else []) ++
  concat (map (dump_message sup i) ms).

(** ** Restore *)

(** Lines as read by getline (glibc) or gz_getline: each with its newline, the last
    one possibly without. *)
Fixpoint split_lines_acc (acc s : bytes) : list bytes :=
  match s with
  | [] => match acc with [] => [] | _ => [acc] end
  | c :: s' => if beq c NL then (acc ++ [c]) :: split_lines_acc [] s' else split_lines_acc (acc ++ [c]) s'
  end.
(** the lines getline returns, notmuch-restore.c:221-467. *)
Definition split_lines (s : bytes) : list bytes := split_lines_acc [] s.

(** Xapian metadata under the config prefix (external): setting an empty value
    removes the key. *)
Fixpoint cfg_set (k v : bytes) (c : list (bytes * bytes)) : list (bytes * bytes) :=
  match c with
  | [] => match v with [] => [] | _ => [(k, v)] end
  | (k', v') :: c' => if bseq k k' then match v with [] => c' | _ => (k, v) :: c' end
                      else (k', v') :: cfg_set k v c'
  end.
(** configuration lookup with default "" (lib/config.cc:110-136). *)
Fixpoint cfg_get (k : bytes) (c : list (bytes * bytes)) : bytes :=
  match c with [] => [] | (k', v) :: c' => if bseq k k' then v else cfg_get k c' end.

(** The state restore works on. *)
Record rstate := { rs_db : db; rs_cfg : list (bytes * bytes) }.
(** Result of processing one line: crash, EXIT_FAILURE or EXIT_SUCCESS. *)
Inductive rres := R_crash | R_fail (r : rstate) | R_ok (r : rstate).

(** TOK delimiters, tag-util.c:54-154. *)
Definition delim : bytes := " "%char :: chr 9 :: [NL].

(** notmuch-restore.c:27-58 [process_config_line]; a missing key or value makes the
    code dereference NULL. *)
Definition process_config_line (line : bytes) (r : rstate) : rres :=
  match strtok_len delim line with
  | None => R_crash
  | Some (kt, rest) =>
      match strtok_len delim rest with
      | None => R_crash
      | Some (vt, _) =>
          match decode_c kt, decode_c vt with
          | Some k, Some v =>
              match ensure_writable (rs_db r) with
              | St_success => R_ok {| rs_db := rs_db r; rs_cfg := cfg_set k v (rs_cfg r) |}
              | _ => R_fail r
              end
          | _, _ => R_fail r
          end
      end
  end.

(** 200 - sizeof ("thread_id_"), lib/notmuch-private.h:122. *)
Definition NOTMUCH_MESSAGE_ID_MAX : nat := 189.

Section Restore.
(** lib/message-id.c [_notmuch_message_id_compressed] (SHA-1), not modelled: any function. *)
Variable compressed : bytes -> bytes.
(** The message object used (see Db.v). *)
Variable h : N.

(** lib/database.cc:434-469 [notmuch_database_find_message] and 384-409: the first
    document of the posting list of the id term. *)
Definition find_doc (id : bytes) (m : docmap doc) : option N :=
  find (fun k => match dget k m with Some d => tmem (id_prefix ++ id) (d_terms d) | None => false end) (map fst m).
(** [find_message]: as above, lib/database.cc:434-469. *)
Definition find_message (id : bytes) (s : db) : option N :=
  find_doc (if Nat.ltb NOTMUCH_MESSAGE_ID_MAX (length id) then compressed id else id) (st_docs (vis s)).

(** notmuch-restore.c:90-115: the loop over key=value tokens; [s] is the text from
    [tok + tok_len].  A token that ends the text and has no '=' makes the code read
    beyond the terminator. *)
Fixpoint restore_properties (fuel : nat) (s : bytes) (r : rstate) : rres :=
  match fuel with
  | O => R_crash
  | S f =>
      match strtok_len delim s with
      | None => R_ok r
      | Some (tok, rest) =>
          let off := length (fst (span (fun c => negb (beq c "="%char)) (tok ++ rest))) in
          if Nat.ltb (length tok) off then R_fail r
          else if Nat.eqb off (length tok) then R_crash
          else
            match decode_c (firstn off tok), decode_c (skipn (S off) tok) with
            | Some k, Some v =>
                match step (OpAddProp h k v) (rs_db r) with
                | (St_success, s') => restore_properties f rest {| rs_db := s'; rs_cfg := rs_cfg r |}
                | (St_internal_error, _) => R_crash
                | (_, s') => R_fail {| rs_db := s'; rs_cfg := rs_cfg r |}
                end
            | _, _ => R_fail r
            end
      end
  end.
(** notmuch-restore.c:60-122 [process_properties_line]; a message that is not in the
    database is NULL and dereferenced. *)
Definition process_properties_line (line : bytes) (r : rstate) : rres :=
  match strtok_len delim line with
  | None => R_crash
  | Some (idt, rest) =>
      match decode_c idt with
      | None => R_fail r
      | Some id =>
          match find_message id (rs_db r) with
          | None => R_crash
          | Some k =>
              match step (OpOpenMsg h k) (rs_db r) with
              | (St_success, s1) =>
                  match step (OpRemProps h None false) s1 with
                  | (St_success, s2) => restore_properties (S (length rest)) rest {| rs_db := s2; rs_cfg := rs_cfg r |}
                  | (_, s2) => R_fail {| rs_db := s2; rs_cfg := rs_cfg r |}
                  end
              | (_, s1) => R_fail {| rs_db := s1; rs_cfg := rs_cfg r |}
              end
          end
      end
  end.

(** notmuch-restore.c:131-163 [tag_message]; [ra] is TAG_FLAG_REMOVE_ALL. *)
Definition restore_tag_message (id : bytes) (ops : list tagop) (ra : bool) (s : db) : status * db :=
  match find_message id s with
  | None => (St_success, s)
  | Some k =>
      match step (OpOpenMsg h k) s with
      | (St_success, s1) =>
          if ra || negb (Nat.eqb (length ops) 0) then tag_op_list_apply h ops ra false s1 else (St_success, s1)
      | r => r
      end
  end.

(** notmuch-restore.c:170-219 [parse_sup_line] with the regular expression
    "^([^ ]+) \(([^)]-star)\)$"; [None] = ignored line (return 1). *)
Definition parse_sup_line (line : bytes) : parsed :=
  match chomp_newline line with
  | None => P_ub
  | Some [] => P_skipped
  | Some l =>
      let '(id, rest) := span (fun c => negb (beq c " "%char)) l in
      match id, rest with
      | _ :: _, sp :: lp :: body =>
          if beq lp "("%char then
            let '(tags, fin) := span (fun c => negb (beq c ")"%char)) body in
            if bseq fin (lit ")")
            then P_ok (map (fun t => {| to_tag := t; to_remove := false |}) (strtok_all (S (length tags)) (lit " ") tags)) id
            else P_skipped
          else P_skipped
      | _, _ => P_skipped
      end
  end.

(** DUMP_FORMAT_*, notmuch-client.h:435-439; notmuch-restore.c:221-467. *)
Inductive format := F_auto | F_batch | F_sup.

(** notmuch-restore.c:393-428: one iteration of the second loop, after the properties
    part: [None] = stop with failure. *)
Definition restore_tag_line (sup ra : bool) (line : bytes) (r : rstate) : rres :=
  match (if sup then parse_sup_line line else parse_tag_line true line) with
  | P_ub => R_crash
  | P_skipped | P_invalid => R_ok r
  | P_ok ops q =>
      let target := if sup then Some q else
        match parse_boolean_term q with
        | None => None                                   (* cannot parse query (skipping) *)
        | Some (prefix, term) => if bseq prefix (lit "id") then Some term else None
        end in
      match target with
      | None => R_ok r
      | Some id =>
          match restore_tag_message id ops ra (rs_db r) with
          | (St_success, s') => R_ok {| rs_db := s'; rs_cfg := rs_cfg r |}
          | (_, s') => R_fail {| rs_db := s'; rs_cfg := rs_cfg r |}
          end
      end
  end.
(** [is_properties_line]: as above, notmuch-restore.c:393-428. *)
Definition is_properties_line (i : include) (line : bytes) : bool := inc_properties i && starts_with (lit "#=") line.
(** [is_config_line]: as above, notmuch-restore.c:393-428. *)
Definition is_config_line (i : include) (line : bytes) : bool := inc_config i && starts_with (lit "#@") line.
(** notmuch-restore.c:378-441, the second loop.  (A failing [tag_message] whose
    status happens to equal UTIL_EOF = NOTMUCH_STATUS_READ_ONLY_DATABASE would be
    taken for success; the database is open read-write here.) *)
Fixpoint second_loop (i : include) (sup ra : bool) (lines : list bytes) (r : rstate) : rres :=
  match lines with
  | [] => R_ok r
  | l :: ls =>
      match (if is_properties_line i l then process_properties_line (skipn 2 l) r else R_ok r) with
      | R_ok r1 =>
          match restore_tag_line sup ra l r1 with
          | R_ok r2 => second_loop i sup ra ls r2
          | x => x
          end
      | x => x
      end
  end.
(** notmuch-restore.c:322-355, the first loop: configuration and properties lines
    until the first line that is neither blank nor a comment. *)
Definition blank_or_comment (l : bytes) : bool :=
  match l with [] => true | c :: _ => beq c "#"%char end || forallb (fun c => mem c delim) l.
(** [first_loop]: as above, notmuch-restore.c:322-355. *)
Fixpoint first_loop (i : include) (lines : list bytes) (r : rstate) : rres * list bytes :=
  match lines with
  | [] => (R_ok r, [])
  | l :: ls =>
      match (if is_config_line i l then process_config_line (skipn 2 l) r else R_ok r) with
      | R_ok r1 =>
          match (if is_properties_line i l then process_properties_line (skipn 2 l) r1 else R_ok r1) with
          | R_ok r2 => if blank_or_comment l then first_loop i ls r2 else (R_ok r2, l :: ls)
          | x => (x, [])
          end
      | x => (x, [])
      end
  end.
(** notmuch-restore.c:221-467 [notmuch_restore_command] after option parsing. *)
Definition restore (fmt : format) (i : include) (accumulate : bool) (input : bytes) (r : rstate) : rres :=
  match first_loop i (split_lines input) r with
  | (R_ok r1, l :: ls) =>
      if negb (inc_tags i) && negb (inc_properties i) then R_ok r1
      else
        let sup := match fmt with
                   | F_sup => true
                   | F_batch => false
                   | F_auto => mem "("%char l
                   end in
        second_loop i sup (negb accumulate) (l :: ls) r1
  | (x, _) => x
  end.
End Restore.
