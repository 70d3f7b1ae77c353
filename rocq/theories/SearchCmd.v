(** Model of notmuch-search.c: the search command (which results are shown, in which
    order) and the strings it prints.  The library calls are those of Query.v and Thread.v.

    Not modelled: the layout of the summary lines (their contents are the thread's, C47),
    format selection and version checks, allocation failure. *)
From Verif Require Import Bytes Terms XQuery DocSet Thread Query StrUtil.
Local Open Scope nat_scope.

(** The command's outcome: what it shows; a failure exit; undefined behaviour. *)
Inductive result (A : Type) := Out (a : A) | Fail | Undef.
Arguments Out {A} _. Arguments Fail {A}. Arguments Undef {A}.
(** notmuch-search.c:25-31 (search command). *)
Inductive output := O_SUMMARY | O_THREADS | O_MESSAGES | O_FILES | O_TAGS.
(** notmuch-search.c:52-68 search_context_t, the options of the command. *)
Record search_args := {
  s_exclude : omit_mode; s_sort : sort_mode; s_output : output;
  s_offset : Z; s_limit : Z; s_dupe : Z
}.
(** [output_eqb]: as above, notmuch-search.c:52-68. *)
Definition output_eqb (a b : output) : bool :=
  match a, b with
  | O_SUMMARY, O_SUMMARY | O_THREADS, O_THREADS | O_MESSAGES, O_MESSAGES | O_FILES, O_FILES | O_TAGS, O_TAGS => true
  | _, _ => false
  end.

(** notmuch-search.c:743-753: exclude each tag; [None]: an error status. *)
Fixpoint add_excludes (q : query) (tags : list bytes) : option query :=
  match tags with
  | [] => Some q
  | t :: r => match add_tag_exclude q t with
              | (_, EX_ERROR) => None
              | (q', _) => add_excludes q' r
              end
  end.
(** notmuch-search.c:723-757: the query [_notmuch_search_prepare] sets up; [tags] is
    search.exclude_tags. *)
Definition search_prepare (parse : option xq) (tags : list bytes) (a : search_args) : option query :=
  let q := set_sort (query_create parse) (s_sort a) in
  let exclude := match s_exclude a with
                 | EXCLUDE_FLAG => if output_eqb (s_output a) O_SUMMARY then EXCLUDE_FLAG else EXCLUDE_FALSE
                 | m => m
                 end in
  match exclude with
  | EXCLUDE_FALSE => Some q
  | m => match add_excludes q tags with
         | Some q => Some (set_omit_excluded q m)
         | None => None
         end
  end.

(** limits.h. *)
Definition INT_MAX : Z := 2 ^ 31 - 1.
(** Conversion of an unsigned sum to int (gcc: modulo 2^32). *)
Definition to_int (z : Z) : Z := (let r := z mod 2 ^ 32 in if r <=? INT_MAX then r else r - 2 ^ 32)%Z.
(** notmuch-search.c:129-139 and 549-559: a negative offset counts from the end. *)
Definition fix_offset (offset : Z) (count : nat) : Z :=
  (let o := to_int (offset + Z.of_nat count) in if o <? 0 then 0 else o)%Z.
(** notmuch-search.c:148 and 568: limit < 0 || i < offset + limit; [None]: signed overflow. *)
Definition below_limit (i offset limit : Z) : option bool :=
  (if limit <? 0 then Some true
   else if INT_MAX <? offset + limit then None
   else Some (i <? offset + limit))%Z.

(** notmuch-search.c:567-571: the loop over the messages: the ones shown. *)
Fixpoint messages_slice {A} (l : list A) (i offset limit : Z) : result (list A) :=
  match l with
  | [] => Out []
  | d :: l' =>
      match below_limit i offset limit with
      | None => Undef
      | Some false => Out []
      | Some true =>
          match messages_slice l' (i + 1) offset limit with
          | Out r => Out (if (i <? offset)%Z then r else d :: r)
          | Fail => Fail
          | Undef => Undef
          end
      end
  end.
(** notmuch-search.c:147-155: the loop over the threads. *)
Fixpoint threads_slice (fuel : nat) (db : list xdoc) (t : threads) (i offset limit : Z) : result (list thread) :=
  match fuel with
  | O => Undef
  | S f =>
      match threads_valid t with
      | None => Undef
      | Some (false, _) => Out []
      | Some (true, t) =>
          match below_limit i offset limit with
          | None => Undef
          | Some false => Out []
          | Some true =>
              match threads_get db t with
              | Some (Some th, t) =>
                  match threads_slice f db (threads_next t) (i + 1) offset limit with
                  | Out r => Out (if (i <? offset)%Z then r else th :: r)
                  | Fail => Fail
                  | Undef => Undef
                  end
              | _ => Undef
              end
          end
      end
  end.

(** notmuch-search.c:118-155 [do_search_threads]: the threads shown. *)
Definition do_search_threads (db : list xdoc) (q : query) (offset limit : Z) : result (list thread) :=
  let offset := if (offset <? 0)%Z
                then match count_threads db q with Some n => Some (fix_offset offset n) | None => None end
                else Some offset in
  match offset with
  | None => Fail
  | Some offset =>
      match search_threads db q with
      | None => Fail
      | Some t => threads_slice (S (length db)) db t 0 offset limit
      end
  end.

(** notmuch-search.c:575-598: what is printed for one message; [files d]: the file names
    notmuch_message_get_filenames gives. *)
Fixpoint nth_names (j : Z) (dupe : Z) (names : list bytes) : list bytes :=
  match names with
  | [] => []
  | n :: r => (if (dupe <? 0) || (dupe =? j) then [n] else [])%Z ++ nth_names (j + 1)%Z dupe r
  end.
(** [show_message]: as above, notmuch-search.c:575-598. *)
Definition show_message (files : xdoc -> list bytes) (out : output) (dupe : Z) (d : xdoc) : list bytes :=
  match out with
  | O_FILES => nth_names 1 dupe (files d)
  | _ => if ((dupe <=? 1) || (dupe <=? Z.of_nat (length (files d))))%Z then [xd_mid d] else []
  end.
(** notmuch-search.c:539-630 [do_search_messages] for the search command.  get_mset is
    iterated from the front; skipped messages are not touched. *)
Definition do_search_messages (db : list xdoc) (files : xdoc -> list bytes) (q : query) (a : search_args) : result (list bytes) :=
  let offset := if (s_offset a <? 0)%Z
                then match count_messages db q with Some n => Some (fix_offset (s_offset a) n) | None => None end
                else Some (s_offset a) in
  match offset with
  | None => Fail
  | Some offset =>
      match search_messages db q with
      | None => Fail
      | Some m =>
          match messages_slice (ms_docs m) 0 offset (s_limit a) with
          | Out l => Out (concat (map (show_message files (s_output a) (s_dupe a)) l))
          | Fail => Fail
          | Undef => Undef
          end
      end
  end.

(** lib/messages.c:158-194 [notmuch_messages_collect_tags] and lib/database.cc
    [notmuch_database_get_all_tags]: the set of tags, sorted ([tadd]: hash table, then sort). *)
Definition collect_tags (l : list xdoc) : list bytes :=
  fold_left (fun acc d => fold_left (fun acc t => tadd t acc) (doc_tags (xd_terms d)) acc) l [].
(** notmuch-search.c:632-679 [do_search_tags]; [star]: the query string is "*". *)
Definition do_search_tags (db : list xdoc) (star : bool) (q : query) : result (list bytes) :=
  if star then Out (collect_tags db)
  else match search_messages db q with
       | None => Fail
       | Some m => Out (collect_tags (ms_docs m))
       end.

(** what a search prints: threads or strings. *)
Inductive shown := Threads (l : list thread) | Strings (l : list bytes).
(** notmuch-search.c:796-861 [notmuch_search_command], after option parsing. *)
Definition search_command (db : list xdoc) (files : xdoc -> list bytes) (star : bool) (parse : option xq)
    (tags : list bytes) (a : search_args) : result shown :=
  if negb (output_eqb (s_output a) O_FILES) && negb (output_eqb (s_output a) O_MESSAGES) && negb (s_dupe a =? -1)%Z
  then Fail
  else
    match search_prepare parse tags a with
    | None => Fail
    | Some q =>
        match s_output a with
        | O_SUMMARY | O_THREADS =>
            match do_search_threads db q (s_offset a) (s_limit a) with
            | Out l => Out (Threads l) | Fail => Fail | Undef => Undef
            end
        | O_MESSAGES | O_FILES =>
            match do_search_messages db files q a with
            | Out l => Out (Strings l) | Fail => Fail | Undef => Undef
            end
        | O_TAGS =>
            match do_search_tags db star q with
            | Out l => Out (Strings l) | Fail => Fail | Undef => Undef
            end
        end
    end.

(** sprinter-text.c:28-37, 63-77 and notmuch-search.c:157-161, 582-584, 593-596: the text of
    a list of strings; [sep] is newline (text) or NUL (text0). *)
Definition print_text (prefix : option bytes) (sep : byte) (items : list bytes) : bytes :=
  concat (map (fun s => match prefix with Some p => p ++ [":"%char] | None => [] end ++ s ++ [sep]) items).

(** notmuch-search.c:80-116 [get_thread_query]; [None]: NULL. *)
Definition append_query (buf : option bytes) (id : bytes) : option bytes :=
  let escaped := make_boolean_term (Some (lit "id")) id in
  match buf with
  | Some b => Some (b ++ lit " " ++ escaped)
  | None => Some escaped
  end.
(** [get_thread_query]: as above, notmuch-search.c:80-116. *)
Fixpoint get_thread_query (l : list (bytes * bool)) (matched unmatched : option bytes) : option bytes * option bytes :=
  match l with
  | [] => (matched, unmatched)
  | (id, true) :: r => get_thread_query r (append_query matched id) unmatched
  | (id, false) :: r => get_thread_query r matched (append_query unmatched id)
  end.
