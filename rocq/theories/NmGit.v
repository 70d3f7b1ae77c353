(** Model of 'notmuch git' (notmuch-git.py): how message ids and tags become paths of a
    git tree and back, how the private index is brought up to date with the tags of the
    database, and what status, commit, checkout, merge and pull then do.

    Simplifications.  Python strings are the bytes of their UTF-8 form (ids and tags that
    are not valid UTF-8, which Python replaces or refuses, and white space outside ASCII
    are not modelled).  A git index is the sorted list of its paths (every entry is the
    empty blob); the checksum of an index file is its content and the hash of a commit is
    its tree (no collisions).  The hash in the paths of format 1 is a parameter.  The
    prefix contains neither a double quote nor a backslash (it is passed inside an
    s-expression string); Xapian::Unicode::tolower is ASCII.  Reading and writing of the
    cache files is atomic, subprocesses do not fail. *)
From Verif Require Import Bytes Hex StrUtil Terms Meta StringMap DocMap Db Props TagOps TagLine Dump.
Local Open Scope nat_scope.

(** ** Strings *)

(** urllib.parse.quote (Python library): characters it keeps, beyond [safe]. *)
Definition pq_keep (safe : bytes) (c : byte) : bool :=
  isalnum c || mem c (lit "_.-~") || mem c safe.
(** A digit of "%{:02X}" in urllib.parse.quote (Python library). *)
Definition updigit (n : N) : byte := nth (N.to_nat n) (lit "0123456789ABCDEF") NUL.
(** urllib.parse.quote (string, safe) (Python library). *)
Fixpoint py_quote (safe s : bytes) : bytes :=
  match s with
  | [] => []
  | c :: s' => (if pq_keep safe c then [c] else ["%"%char; updigit (code c / 16); updigit (code c mod 16)])
               ++ py_quote safe s'
  end.
(** A character of the class [0-9A-F] of notmuch-git.py:50 [_HEX_ESCAPE_REGEX]. *)
Definition is_updigit (c : byte) : bool := mem c (lit "0123456789ABCDEF").
(** notmuch-git.py:67-69: _HEX_ESCAPE_REGEX.sub (lower). *)
Fixpoint lower_escapes (s : bytes) : bytes :=
  match s with
  | [] => []
  | c :: r =>
      if beq c "%"%char then
        match r with
        | a :: b :: r' => if is_updigit a && is_updigit b then c :: tolower a :: tolower b :: lower_escapes r'
                          else c :: lower_escapes r
        | _ => c :: lower_escapes r
        end
      else c :: lower_escapes r
  end.
(** notmuch-git.py:58-69 [_hex_quote]; its default [safe] is [default_safe]. *)
Definition hex_quote (safe s : bytes) : bytes := lower_escapes (py_quote safe s).
(** Default argument of _hex_quote, notmuch-git.py:58. *)
Definition default_safe : bytes := lit "+@=:,".
(** notmuch-git.py:1179 [_ENCODED_TAG_PREFIX]. *)
Definition encoded_prefix (prefix : bytes) : bytes := hex_quote (lit "+@=,") prefix.

(** urllib.parse.unquote (Python library): a '%' without two hexadecimal digits stays. *)
Fixpoint py_unquote (s : bytes) : bytes :=
  match s with
  | [] => []
  | c :: r =>
      if beq c "%"%char then
        match r with
        | a :: b :: r' => if isxdigit a && isxdigit b then chr (16 * xval a + xval b) :: py_unquote r'
                          else c :: py_unquote r
        | _ => c :: py_unquote r
        end
      else c :: py_unquote r
  end.

(** notmuch-git.py:71-82 [_xapian_quote]. *)
Definition xapian_quote (s : bytes) : bytes := """"%char :: double_quotes s ++ [""""%char].
(** str.replace of two double quotes by one (Python library), at notmuch-git.py:90. *)
Fixpoint undouble (s : bytes) : bytes :=
  match s with
  | [] => []
  | c :: r =>
      match r with
      | d :: r' => if beq c """"%char && beq d """"%char then c :: undouble r' else c :: undouble r
      | [] => [c]
      end
  end.
(** notmuch-git.py:85-91 [_xapian_unquote]. *)
Definition xapian_unquote (s : bytes) : bytes :=
  match s with
  | c :: r => if beq c """"%char && beq (last s NUL) """"%char then undouble (removelast r) else s
  | [] => s
  end.

(** ASCII white space of str.strip and str.split (Python library). *)
Definition pyspace (c : byte) : bool :=
  let n := code c in ((9 <=? n)%N && (n <=? 13)%N) || ((28 <=? n)%N && (n <=? 32)%N).
(** str.strip () (Python library). *)
Definition py_strip (s : bytes) : bytes := rev (dropwhile pyspace (rev (dropwhile pyspace s))).
(** str.split () (Python library): the maximal runs of other characters. *)
Fixpoint py_words_acc (acc s : bytes) : list bytes :=
  match s with
  | [] => match acc with [] => [] | _ => [acc] end
  | c :: r => if pyspace c then match acc with [] => py_words_acc [] r | _ => acc :: py_words_acc [] r end
              else py_words_acc (acc ++ [c]) r
  end.
(** str.split () (Python library). *)
Definition py_words (s : bytes) : list bytes := py_words_acc [] s.
(** str.split (sep) (Python library), [sep] not empty: leftmost occurrences, not
    overlapping; [skip] characters of the separator remain to be stepped over. *)
Fixpoint py_split_acc (sep : bytes) (skip : nat) (acc s : bytes) : list bytes :=
  match s with
  | [] => [acc]
  | c :: r =>
      match skip with
      | S k => py_split_acc sep k acc r
      | O => if starts_with sep s then acc :: py_split_acc sep (pred (length sep)) [] r
             else py_split_acc sep 0 (acc ++ [c]) r
      end
  end.
(** str.split (sep) (Python library). *)
Definition py_split (sep s : bytes) : list bytes := py_split_acc sep 0 [] s.
(** Universal newlines of a text stream (Python library): CR LF and CR are read as LF;
    [cr]: the previous character was a CR. *)
Fixpoint universal (cr : bool) (s : bytes) : bytes :=
  match s with
  | [] => []
  | c :: r => if beq c (chr 13) then NL :: universal true r
              else if beq c NL then (if cr then universal false r else NL :: universal false r)
              else c :: universal false r
  end.
(** 'for line in stream' (Python library). *)
Definition py_lines (text : bytes) : list bytes := split_lines (universal false text).

(** ** Paths *)

(** FORMAT_VERSION, notmuch-git.py:48. *)
Inductive fmt := V0 | V1.

Section Paths.
Variable hash : bytes -> bytes.       (* blake2b (hid, digest_size=2).hexdigest () *)

(** notmuch-git.py:905-918 [_id_path]. *)
Definition id_path (v : fmt) (id : bytes) : bytes :=
  let hid := hex_quote default_safe id in
  match v with
  | V0 => lit "tags/" ++ hid
  | V1 => lit "tags/" ++ firstn 2 (hash hid) ++ lit "/" ++ skipn 2 (hash hid) ++ lit "/" ++ hid
  end.
(** The path of _index_tags_for_message, notmuch-git.py:934. *)
Definition tag_path (v : fmt) (id tag : bytes) : bytes :=
  id_path v id ++ lit "/" ++ hex_quote default_safe tag.

End Paths.

(** A character of [0-9a-f], notmuch-git.py:53. *)
Definition is_lowhex (c : byte) : bool := mem c (lit "0123456789abcdef").
(** Is it a slash? *)
Definition not_slash (c : byte) : bool := negb (beq c "/"%char).
(** The groups id and tag of notmuch-git.py:52-53: a run of non-slashes, a slash, a run of
    non-slashes. *)
Definition match_id_tag (s : bytes) : option (bytes * bytes) :=
  match dropwhile not_slash s with
  | [] => None
  | _ :: r => Some (takewhile not_slash s, takewhile not_slash r)
  end.
(** Two lower-case hexadecimal digits and a slash, notmuch-git.py:53. *)
Definition match_hexdir (s : bytes) : option bytes :=
  match s with
  | a :: b :: c :: r => if is_lowhex a && is_lowhex b && beq c "/"%char then Some r else None
  | _ => None
  end.
(** notmuch-git.py:52-53 [_TAG_FILE_REGEX] applied by re.match (anchored at the start
    only). *)
Definition match_tag_file (v : fmt) (s : bytes) : option (bytes * bytes) :=
  match strip_prefix (lit "tags/") s with
  | None => None
  | Some r =>
      match v with
      | V0 => match_id_tag r
      | V1 => match match_hexdir r with
              | None => None
              | Some r => match match_hexdir r with None => None | Some r => match_id_tag r end
              end
      end
  end.
(** notmuch-git.py:947-959 [_unpack_diff_lines], for one line. *)
Inductive unpacked := U_pair (id tag : bytes) | U_skip | U_error.
(** [_unpack_diff_lines]: as above, notmuch-git.py:947-959. *)
Definition unpack_line (v : fmt) (line : bytes) : unpacked :=
  match match_tag_file v (py_strip line) with
  | Some (i, t) => U_pair (py_unquote i) (py_unquote t)
  | None => if starts_with (lit "tags/") line then U_error else U_skip
  end.
(** [_unpack_diff_lines]: all lines; [None] is the ValueError. *)
Fixpoint unpack_lines (v : fmt) (lines : list bytes) : option (list (bytes * bytes)) :=
  match lines with
  | [] => Some []
  | l :: lines' =>
      match unpack_line v l with
      | U_error => None
      | U_skip => unpack_lines v lines'
      | U_pair i t => option_map (cons (i, t)) (unpack_lines v lines')
      end
  end.

(** ** Reading 'notmuch dump', writing 'notmuch tag --batch' *)

(** notmuch-git.py:848-856: one line of the dump.  [D_error] is the ValueError of the
    assignment when the line has not exactly one separator. *)
Inductive dumpline := D_skip | D_error | D_line (id : bytes) (tags : list bytes).
(** [_index_tags]: as above, notmuch-git.py:848-856. *)
Definition parse_dump_line (prefix line : bytes) : dumpline :=
  if starts_with (lit "#") (py_strip line) then D_skip
  else match map py_strip (py_split (lit " -- id:") line) with
       | [tags_string; id] =>
           let pre := "+"%char :: encoded_prefix prefix in
           D_line (xapian_unquote id)
                  (map (fun t => py_unquote (skipn (length pre) t))
                       (filter (starts_with pre) (py_words tags_string)))
       | _ => D_error
       end.
(** [_index_tags]: all lines of the dump, notmuch-git.py:848-856. *)
Fixpoint parse_dump_lines (prefix : bytes) (lines : list bytes) : option (list (bytes * list bytes)) :=
  match lines with
  | [] => Some []
  | l :: lines' =>
      match parse_dump_line prefix l with
      | D_error => None
      | D_skip => parse_dump_lines prefix lines'
      | D_line id tags => option_map (cons (id, tags)) (parse_dump_lines prefix lines')
      end
  end.
(** [_index_tags]: the text of the dump. *)
Definition read_dump (prefix text : bytes) : option (list (bytes * list bytes)) :=
  parse_dump_lines prefix (py_lines text).

(** notmuch-git.py:521-534 [_batch_line]; [act] is '-' or '+'. *)
Fixpoint join_tags (act : byte) (prefix : bytes) (first : bool) (tags : list bytes) : bytes :=
  match tags with
  | [] => []
  | t :: tags' => (if first then [] else lit " ") ++
                  act :: encoded_prefix prefix ++ hex_quote default_safe t ++ join_tags act prefix false tags'
  end.
(** [_batch_line]: as above, notmuch-git.py:521-534. *)
Definition batch_line_of (act : byte) (prefix id : bytes) (tags : list bytes) : bytes :=
  join_tags act prefix true tags ++ lit " -- id:" ++ xapian_quote id ++ [NL].

(** ** Git *)

(** Components of a path (git). *)
Fixpoint components_acc (acc s : bytes) : list bytes :=
  match s with
  | [] => [acc]
  | c :: r => if beq c "/"%char then acc :: components_acc [] r else components_acc (acc ++ [c]) r
  end.
(** Components of a path (git). *)
Definition components (s : bytes) : list bytes := components_acc [] s.
(** verify_path of git: no component is empty, '.', '..' or '.git' (in any case).  (The
    further names it refuses for the sake of other file systems are not modelled.) *)
Definition component_ok (c : bytes) : bool :=
  negb (bseq c [] || bseq c (lit ".") || bseq c (lit "..") || bseq (map tolower c) (lit ".git")).
(** verify_path of git. *)
Definition path_ok (p : bytes) : bool := forallb component_ok (components p).

(** A line for 'git update-index --index-info'. *)
Inductive iop := I_add (p : bytes) | I_del (p : bytes).
(** The effect of a line: a path git refuses is ignored with a message. *)
Definition iapply (idx : list bytes) (o : iop) : list bytes :=
  match o with
  | I_add p => if path_ok p then tadd p idx else idx
  | I_del p => if path_ok p then trem p idx else idx
  end.
(** All lines. *)
Definition iapply_all (ops : list iop) (idx : list bytes) : list bytes := fold_left iapply ops idx.

(** os.path.dirname of a path with a slash (Python library). *)
Definition dirname (p : bytes) : bytes := rev (tl (dropwhile not_slash (rev p))).

(** What notmuch-git uses of a message: [g_mail] is false for a ghost. *)
Record gmsg := { g_id : bytes; g_tags : list bytes; g_mod : N; g_mail : bool }.
(** The database: its messages, its revision and its uuid. *)
Record gdb := { g_msgs : list gmsg; g_rev : N; g_uuid : bytes }.
(** The cache file of the private index, notmuch-git.py:769-773; [gc_sum] is the
    checksum of the index file ([None]: no such file). *)
Record gcache := { gc_prefix : bytes; gc_uuid : bytes; gc_lastmod : N; gc_sum : option (list bytes) }.
(** The repository: the tree of HEAD; the private index file and its cache; the index
    file of the repository and its cache (hash, checksum), notmuch-git.py:314-368. *)
Record grepo := { r_head : list bytes; r_priv : option (list bytes); r_cache : option gcache;
                  r_index : option (list bytes); r_icache : option (list bytes * option (list bytes)) }.
(** status dictionaries of notmuch-git.py:729-743, as lists of pairs. *)
Record gstatus := { s_added : list (bytes * bytes); s_deleted : list (bytes * bytes); s_missing : list (bytes * bytes) }.

(** Equality of checksums. *)
Fixpoint bsl_eq (a b : list bytes) : bool :=
  match a, b with
  | [], [] => true
  | x :: a', y :: b' => bseq x y && bsl_eq a' b'
  | _, _ => false
  end.
(** Equality of checksums, one of which may be None. *)
Definition sum_eq (a b : option (list bytes)) : bool :=
  match a, b with
  | None, None => true
  | Some a, Some b => bsl_eq a b
  | _, _ => false
  end.

Section Git.
Variable hash : bytes -> bytes.
Variable v : fmt.
Variable prefix : bytes.
Variable cfg : list (bytes * bytes).             (* configuration stored in the database: dumped too *)
Variable props : bytes -> list (bytes * bytes).  (* properties of messages: dumped too *)

(** The query of notmuch-git.py:238-241 [_tag_query]: some tag starts with the
    lower-cased prefix (lib/parse-sexp.cc:239-258 [_sexp_parse_wildcard]). *)
Definition tag_match (m : gmsg) : bool := existsb (starts_with (map tolower prefix)) (g_tags m).
(** What the dump prints of a message. *)
Definition to_dumped (m : gmsg) : dumped :=
  {| dm_id := g_id m; dm_tags := g_tags m; dm_props := props (g_id m) |}.
(** The query of the dump, notmuch-git.py:836-842: [Some n] is the incremental case.  The
    text of the query is '(and (infix "lastmod:n+1..")) (tag ...))': the first
    parenthesis is closed early, only (and (infix ...)) is parsed. *)
Definition dump_match (since : option N) (m : gmsg) : bool :=
  g_mail m && match since with Some n => (n <? g_mod m)%N | None => tag_match m end.
(** 'notmuch dump --format=batch-tag --query=sexp -- query', notmuch-git.py:843-845. *)
Definition run_dump (since : option N) (db : gdb) : bytes :=
  dump false {| inc_config := true; inc_properties := true; inc_tags := true |} cfg
       (map to_dumped (filter (dump_match since) (g_msgs db))).

(** notmuch-git.py:806-824 [_clear_tags_for_message]: the entries of the message in the
    index file as it was before ([idx0]; notmuch-git.py:790-803 [_read_file_tree]). *)
Definition clear_ops (idx0 : list bytes) (id : bytes) : list iop :=
  map I_del (filter (fun p => starts_with (lit "tags/") p && bseq (dirname p) (id_path hash v id)) idx0).
(** notmuch-git.py:920-935 [_index_tags_for_message]. *)
Definition add_ops (id : bytes) (tags : list bytes) : list iop :=
  map (fun t => I_add (tag_path hash v id t)) tags.
(** The same with status 'D'. *)
Definition del_ops (id : bytes) (tags : list bytes) : list iop :=
  map (fun t => I_del (tag_path hash v id t)) tags.

(** notmuch-git.py:831-835: is the private index emptied? *)
Definition must_reset (r : grepo) : bool :=
  match r_cache r with
  | None => true
  | Some c => negb (bseq (gc_prefix c) prefix) ||
              match gc_sum c with None => true | Some _ => negb (sum_eq (gc_sum c) (r_priv r)) end
  end.
(** notmuch-git.py:836-842: the incremental case and its revision. *)
Definition incremental (r : grepo) (db : gdb) : option N :=
  match r_cache r with
  | Some c => if bseq (gc_prefix c) prefix && negb (bseq (gc_uuid c) []) &&
                 bseq (gc_uuid c) (g_uuid db) && sum_eq (gc_sum c) (r_priv r)
              then Some (gc_lastmod c) else None
  | None => None
  end.
(** notmuch-git.py:827-865 [_index_tags]: the new private index; [None]: an exception. *)
Definition index_tags (r : grepo) (db : gdb) : option (list bytes) :=
  let idx0 := if must_reset r then [] else match r_priv r with Some i => i | None => [] end in
  let since := incremental r db in
  match read_dump prefix (run_dump since db) with
  | None => None
  | Some l =>
      Some (iapply_all
              (flat_map (fun p => (match since with Some _ => clear_ops idx0 (fst p) | None => [] end) ++
                                  add_ops (fst p) (snd p)) l) idx0)
  end.

(** notmuch-git.py:868-884 [diff]: 'git diff-index --cached --name-only HEAD' with filter
    'D' (in [a] = HEAD, not in the index) or 'A' (the other way round). *)
Definition diff_names (a b : list bytes) : option (list (bytes * bytes)) :=
  unpack_lines v (map (fun p => p ++ [NL]) (filter (fun p => negb (tmem p b)) a)).

(** notmuch-git.py:700-725 [DatabaseCache.known] with the Python bindings:
    notmuch_database_find_message finds mail and ghosts. *)
Definition known (db : gdb) (id : bytes) : bool := existsb (fun m => bseq (g_id m) id) (g_msgs db).
(** The same without the bindings, notmuch-git.py:719-724: the output of 'notmuch search'
    is a string, never None. *)
Definition known_search (db : gdb) (id : bytes) : bool := true.

Variable is_known : gdb -> bytes -> bool.

(** notmuch-git.py:727-743 [get_status].  [db] is the database while the index is brought
    up to date, [db'] the database when the cache file is written (notmuch-git.py:769-773):
    it may have changed in between.  Result: the repository and the status, [None] after
    an exception.  An exception of index_tags leaves the repository as it was (a partly
    written index is not modelled). *)
Definition get_status (r : grepo) (db db' : gdb) : grepo * option gstatus :=
  match index_tags r db with
  | None => (r, None)
  | Some idx =>
      let r' := {| r_head := r_head r; r_priv := Some idx;
                   r_cache := Some {| gc_prefix := prefix; gc_uuid := g_uuid db'; gc_lastmod := g_rev db'; gc_sum := Some idx |};
                   r_index := r_index r; r_icache := r_icache r |} in
      match diff_names (r_head r) idx, diff_names idx (r_head r) with
      | Some d, Some a =>
          (r', Some {| s_added := a;
                       s_deleted := filter (fun p => is_known db (fst p)) d;
                       s_missing := filter (fun p => negb (is_known db (fst p))) d |})
      | _, _ => (r', None)
      end
  end.

(** notmuch-git.py:310-311 [_is_committed]. *)
Definition is_committed (s : gstatus) : bool :=
  match s_added s, s_deleted s with [], [] => true | _, _ => false end.

(** The dictionaries {id: {tag, ...}} of a list of pairs, in order of first occurrence. *)
Fixpoint dict_add (i t : bytes) (d : list (bytes * list bytes)) : list (bytes * list bytes) :=
  match d with
  | [] => [(i, [t])]
  | (j, ts) :: d' => if bseq i j then (j, if tmem t ts then ts else ts ++ [t]) :: d' else (j, ts) :: dict_add i t d'
  end.
(** As above: notmuch-git.py:874-883. *)
Definition dict_of (l : list (bytes * bytes)) : list (bytes * list bytes) :=
  fold_left (fun d p => dict_add (fst p) (snd p) d) l [].

Variable excluded : gmsg -> bool.                (* search.exclude_tags: 'notmuch count' excludes by default *)
Variable safe_num safe_den : N.                  (* git.safe_fraction (default 1/10), exact *)

(** notmuch-git.py:243-251 [count_messages]. *)
Definition count_messages (db : gdb) : N :=
  N.of_nat (length (filter (fun m => g_mail m && tag_match m && negb (excluded m)) (g_msgs db))).
(** notmuch-git.py:371-388 [check_safe_fraction]: false is exit (1). *)
Definition check_safe (db : gdb) (s : gstatus) : bool :=
  let total := count_messages db in
  let change := N.of_nat (length (dict_of (s_added s)) + length (dict_of (s_deleted s))) in
  negb (total =? 0)%N && negb (safe_num * total <? change * safe_den)%N.

(** notmuch-git.py:430-439 [_update_index]. *)
Definition update_ops (s : gstatus) : list iop :=
  flat_map (fun p => del_ops (fst p) (snd p)) (dict_of (s_deleted s)) ++
  flat_map (fun p => add_ops (fst p) (snd p)) (dict_of (s_added s)).
(** notmuch-git.py:355-368 [read_tree]: the index file used by the commit. *)
Definition read_tree (r : grepo) : list bytes :=
  match r_icache r, r_index r with
  | Some (h, Some sum), Some idx => if bsl_eq h (r_head r) && bsl_eq sum idx then idx else r_head r
  | _, _ => r_head r
  end.

(** Outcome of a command: [C_done] ended normally, [C_nothing] nothing to commit,
    [C_refused] exit (1), [C_exception] a Python exception. *)
Inductive cmd := C_done | C_nothing | C_refused | C_exception.

(** notmuch-git.py:390-427 [commit]. *)
Definition commit (force : bool) (r : grepo) (db : gdb) : grepo * cmd :=
  match get_status r db db with
  | (r, None) => (r, C_exception)
  | (r, Some s) =>
      if is_committed s then (r, C_nothing)
      else if negb force && negb (check_safe db s) then (r, C_refused)
      else
        let idx := iapply_all (update_ops s) (read_tree r) in
        ({| r_head := idx; r_priv := r_priv r; r_cache := r_cache r;
            r_index := Some idx; r_icache := Some (idx, Some idx) |}, C_done)
  end.

(** One operation of a batch line on a tag list (tag-util.c:216-246, kept in term order). *)
Definition apply_op (ts : list bytes) (o : tagop) : list bytes :=
  if to_remove o then trem (to_tag o) ts else tadd (to_tag o) ts.
(** 'notmuch tag' on the mail with an id: a message whose tags do not change is not
    touched (notmuch-tag.c:41-89 asks only for messages the operations change), another gets the next revision. *)
Fixpoint tag_messages (id : bytes) (ops : list tagop) (rev : N) (ms : list gmsg) : N * list gmsg :=
  match ms with
  | [] => (rev, [])
  | m :: ms' =>
      let ts := fold_left apply_op ops (g_tags m) in
      if g_mail m && bseq (g_id m) id && negb (bsl_eq ts (g_tags m)) then
        let '(rev', l) := tag_messages id ops (rev + 1)%N ms' in
        (rev', {| g_id := g_id m; g_tags := ts; g_mod := (rev + 1)%N; g_mail := true |} :: l)
      else let '(rev', l) := tag_messages id ops rev ms' in (rev', m :: l)
  end.
(** 'notmuch tag --batch' on one line (notmuch-tag.c:172-216; TagLine.tag_file_loop): a
    line that does not parse is skipped.  The query of these lines is one quoted id,
    which is read as parse_boolean_term does. *)
Definition run_batch_line (db : gdb) (line : bytes) : gdb :=
  match parse_tag_line false line with
  | P_ok ops q =>
      match parse_boolean_term q with
      | Some (f, id) =>
          if bseq f (lit "id") then
            let '(rev, ms) := tag_messages id ops (g_rev db) (g_msgs db) in
            {| g_msgs := ms; g_rev := rev; g_uuid := g_uuid db |}
          else db
      | None => db
      end
  | _ => db
  end.
(** 'notmuch tag --batch' on all lines. *)
Definition run_batch (lines : list bytes) (db : gdb) : gdb := fold_left run_batch_line lines db.

(** The lines written by checkout, notmuch-git.py:513-518. *)
Definition checkout_lines (s : gstatus) : list bytes :=
  map (fun p => batch_line_of "-"%char prefix (fst p) (snd p)) (dict_of (s_added s)) ++
  map (fun p => batch_line_of "+"%char prefix (fst p) (snd p)) (dict_of (s_deleted s)).
(** notmuch-git.py:501-518 [checkout]. *)
Definition checkout (force : bool) (r : grepo) (db : gdb) : grepo * gdb * cmd :=
  match get_status r db db with
  | (r, None) => (r, db, C_exception)
  | (r, Some s) =>
      if negb force && negb (check_safe db s) then (r, db, C_refused)
      else (r, run_batch (checkout_lines s) db, C_done)
  end.

(** notmuch-git.py:551-595 [pull], [merge]: refused with uncommitted changes
    (notmuch-git.py:537-548 [_insist_committed]); [merged] is the tree git leaves in HEAD
    (and in the index, by the 'git reset --hard' and the merge). *)
Definition merge (merged : list bytes) (r : grepo) (db : gdb) : grepo * gdb * cmd :=
  match get_status r db db with
  | (r, None) => (r, db, C_exception)
  | (r, Some s) =>
      if is_committed s then
        checkout false {| r_head := merged; r_priv := r_priv r; r_cache := r_cache r;
                          r_index := Some merged; r_icache := r_icache r |} db
      else (r, db, C_refused)
  end.

(** 'notmuch search --exclude=false --query=sexp --output=tags' with _tag_query: all tags
    of the messages found; notmuch-git.py:253-258 [get_tags]. *)
Definition get_tags (db : gdb) : list bytes :=
  flat_map g_tags (filter (fun m => g_mail m && tag_match m) (g_msgs db)).
(** notmuch-git.py:278-307 [clone], after git clone gave [r]. *)
Definition clone (r : grepo) (db : gdb) : grepo * gdb * cmd :=
  match get_tags db with
  | [] => checkout false r db
  | _ => (r, db, C_done)
  end.

End Git.
