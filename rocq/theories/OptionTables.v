(** The option tables of the notmuch commands.  Variables are numbered within each
    table (present flags from 900 on); keyword values are numbered symbols. *)
From Verif Require Import Bytes Options.
Local Open Scope Z_scope.

(** notmuch.c:59-69. *)
Definition notmuch_shared_options : list desc :=
  [Opt (KBool 500) (Some (lit "version")) None;
   Opt (KBool 501) (Some (lit "help")) None;
   Opt (KString 502 false) (Some (lit "uuid")) None;
   Opt (KKeyword 503 [(lit "infix", 40); (lit "sexp", 41)] None) (Some (lit "query")) None].

(** notmuch-search.c:781-794. *)
Definition search_common_options : list desc :=
  [Opt (KKeyword 600 [(lit "oldest-first", 18); (lit "newest-first", 19)] None) (Some (lit "sort")) None;
   Opt (KKeyword 601 [(lit "json", 20); (lit "sexp", 21); (lit "text", 22); (lit "text0", 23)] None) (Some (lit "format")) None;
   Opt (KInt 602) (Some (lit "format-version")) None].

(** notmuch.c:130-140. *)
Definition notmuch_shared_indexing_options : list desc :=
  [Opt (KKeyword 700 [(lit "false", 14); (lit "true", 39); (lit "auto", 15); (lit "nostash", 16)] None) (Some (lit "decrypt")) (Some 950%nat)].

(** notmuch-compact.c:37-42. *)
Definition opts_notmuch_compact : list desc :=
  [Opt (KString 0 false) (Some (lit "backup")) None;
   Opt (KBool 1) (Some (lit "quiet")) None;
   Inherit notmuch_shared_options].

(** notmuch-config.c:609-612. *)
Definition opts_notmuch_config : list desc :=
  [Opt (KBool 0) (Some (lit "database")) None].

(** notmuch-count.c:169-181. *)
Definition opts_notmuch_count : list desc :=
  [Opt (KKeyword 0 [(lit "threads", 0); (lit "messages", 1); (lit "files", 2)] None) (Some (lit "output")) None;
   Opt (KBool 1) (Some (lit "exclude")) None;
   Opt (KBool 2) (Some (lit "lastmod")) None;
   Opt (KBool 3) (Some (lit "batch")) None;
   Opt (KString 4 false) (Some (lit "input")) None;
   Inherit notmuch_shared_options].

(** notmuch-dump.c:377-390. *)
Definition opts_notmuch_dump : list desc :=
  [Opt (KKeyword 0 [(lit "sup", 3); (lit "batch-tag", 4)] None) (Some (lit "format")) None;
   Opt (KFlags 1 [(lit "config", 5); (lit "properties", 6); (lit "tags", 7)]) (Some (lit "include")) None;
   Opt (KString 2 false) (Some (lit "output")) None;
   Opt (KBool 3) (Some (lit "gzip")) None;
   Inherit notmuch_shared_options].

(** notmuch-insert.c:488-497. *)
Definition opts_notmuch_insert : list desc :=
  [Opt (KString 0 true) (Some (lit "folder")) None;
   Opt (KBool 1) (Some (lit "create-folder")) None;
   Opt (KBool 2) (Some (lit "keep")) None;
   Opt (KBool 3) (Some (lit "hooks")) None;
   Opt (KBool 4) (Some (lit "world-readable")) None;
   Inherit notmuch_shared_indexing_options;
   Inherit notmuch_shared_options].

(** notmuch-new.c:1136-1145. *)
Definition opts_notmuch_new : list desc :=
  [Opt (KBool 0) (Some (lit "quiet")) None;
   Opt (KBool 1) (Some (lit "verbose")) None;
   Opt (KBool 2) (Some (lit "debug")) None;
   Opt (KBool 3) (Some (lit "full-scan")) None;
   Opt (KBool 4) (Some (lit "hooks")) None;
   Inherit notmuch_shared_indexing_options;
   Inherit notmuch_shared_options].

(** notmuch-reindex.c:102-106. *)
Definition opts_notmuch_reindex : list desc :=
  [Inherit notmuch_shared_indexing_options;
   Inherit notmuch_shared_options].

(** notmuch-reply.c:725-746. *)
Definition opts_notmuch_reply : list desc :=
  [Opt (KKeyword 0 [(lit "default", 8); (lit "json", 9); (lit "sexp", 10); (lit "headers-only", 11)] None) (Some (lit "format")) None;
   Opt (KInt 1) (Some (lit "format-version")) None;
   Opt (KKeyword 2 [(lit "all", 12); (lit "sender", 13)] None) (Some (lit "reply-to")) None;
   Opt (KKeyword 3 [(lit "false", 14); (lit "auto", 15); (lit "true", 16)] (Some (lit "true"))) (Some (lit "decrypt")) None;
   Opt (KInt 4) (Some (lit "duplicate")) None;
   Inherit notmuch_shared_options].

(** notmuch-restore.c:252-267. *)
Definition opts_notmuch_restore : list desc :=
  [Opt (KKeyword 0 [(lit "auto", 17); (lit "batch-tag", 4); (lit "sup", 3)] None) (Some (lit "format")) None;
   Opt (KFlags 1 [(lit "config", 5); (lit "properties", 6); (lit "tags", 7)]) (Some (lit "include")) None;
   Opt (KString 2 false) (Some (lit "input")) None;
   Opt (KBool 3) (Some (lit "accumulate")) None;
   Inherit notmuch_shared_options].

(** notmuch-search.c:802-822. *)
Definition opts_notmuch_search : list desc :=
  [Opt (KKeyword 0 [(lit "summary", 24); (lit "threads", 0); (lit "messages", 1); (lit "files", 2); (lit "tags", 25)] None) (Some (lit "output")) None;
   Opt (KKeyword 1 [(lit "true", 26); (lit "false", 27); (lit "flag", 28); (lit "all", 29)] None) (Some (lit "exclude")) None;
   Opt (KInt 2) (Some (lit "offset")) None;
   Opt (KInt 3) (Some (lit "limit")) None;
   Opt (KInt 4) (Some (lit "duplicate")) None;
   Inherit search_common_options;
   Inherit notmuch_shared_options].

(** notmuch-search.c:869-888. *)
Definition opts_notmuch_address : list desc :=
  [Opt (KFlags 0 [(lit "sender", 30); (lit "recipients", 31); (lit "count", 32); (lit "address", 33)]) (Some (lit "output")) None;
   Opt (KKeyword 1 [(lit "true", 26); (lit "false", 27)] None) (Some (lit "exclude")) None;
   Opt (KKeyword 2 [(lit "no", 34); (lit "mailbox", 35); (lit "address", 36)] None) (Some (lit "deduplicate")) None;
   Inherit search_common_options;
   Inherit notmuch_shared_options].

(** notmuch-show.c:1337-1370. *)
Definition opts_notmuch_show : list desc :=
  [Opt (KKeyword 0 [(lit "oldest-first", 18); (lit "newest-first", 19)] None) (Some (lit "sort")) None;
   Opt (KKeyword 1 [(lit "json", 20); (lit "text", 22); (lit "sexp", 21); (lit "mbox", 37); (lit "raw", 38)] None) (Some (lit "format")) None;
   Opt (KInt 2) (Some (lit "format-version")) None;
   Opt (KBool 3) (Some (lit "exclude")) None;
   Opt (KBool 4) (Some (lit "entire-thread")) (Some 904%nat);
   Opt (KBool 5) (Some (lit "unthreaded")) None;
   Opt (KInt 6) (Some (lit "part")) None;
   Opt (KKeyword 7 [(lit "false", 14); (lit "auto", 15); (lit "true", 16); (lit "stash", 39)] (Some (lit "true"))) (Some (lit "decrypt")) None;
   Opt (KBool 8) (Some (lit "verify")) None;
   Opt (KBool 9) (Some (lit "body")) None;
   Opt (KBool 10) (Some (lit "include-html")) None;
   Opt (KInt 11) (Some (lit "duplicate")) None;
   Opt (KInt 12) (Some (lit "limit")) None;
   Opt (KInt 13) (Some (lit "offset")) None;
   Inherit notmuch_shared_options].

(** notmuch-tag.c:240-246. *)
Definition opts_notmuch_tag : list desc :=
  [Opt (KBool 0) (Some (lit "batch")) None;
   Opt (KString 1 false) (Some (lit "input")) None;
   Opt (KBool 2) (Some (lit "remove-all")) None;
   Inherit notmuch_shared_options].

(** notmuch.c:113-116. *)
Definition opts_notmuch_minimal : list desc :=
  [Inherit notmuch_shared_options].

(** notmuch.c:475-479. *)
Definition opts_notmuch_main : list desc :=
  [Opt (KString 0 true) (Some (lit "config")) None;
   Inherit notmuch_shared_options].

(** every table above. *)
Definition all_tables : list (list desc) :=
  [opts_notmuch_compact; opts_notmuch_config; opts_notmuch_count; opts_notmuch_dump; opts_notmuch_insert; opts_notmuch_new; opts_notmuch_reindex; opts_notmuch_reply; opts_notmuch_restore; opts_notmuch_search; opts_notmuch_address; opts_notmuch_show; opts_notmuch_tag; opts_notmuch_minimal; opts_notmuch_main].
(* symbols: 0=OUTPUT_THREADS, 1=OUTPUT_MESSAGES, 2=OUTPUT_FILES, 3=DUMP_FORMAT_SUP, 4=DUMP_FORMAT_BATCH_TAG, 5=DUMP_INCLUDE_CONFIG, 6=DUMP_INCLUDE_PROPERTIES, 7=DUMP_INCLUDE_TAGS, 8=FORMAT_DEFAULT, 9=FORMAT_JSON, 10=FORMAT_SEXP, 11=FORMAT_HEADERS_ONLY, 12=true, 13=false, 14=NOTMUCH_DECRYPT_FALSE, 15=NOTMUCH_DECRYPT_AUTO, 16=NOTMUCH_DECRYPT_NOSTASH, 17=DUMP_FORMAT_AUTO, 18=NOTMUCH_SORT_OLDEST_FIRST, 19=NOTMUCH_SORT_NEWEST_FIRST, 20=NOTMUCH_FORMAT_JSON, 21=NOTMUCH_FORMAT_SEXP, 22=NOTMUCH_FORMAT_TEXT, 23=NOTMUCH_FORMAT_TEXT0, 24=OUTPUT_SUMMARY, 25=OUTPUT_TAGS, 26=NOTMUCH_EXCLUDE_TRUE, 27=NOTMUCH_EXCLUDE_FALSE, 28=NOTMUCH_EXCLUDE_FLAG, 29=NOTMUCH_EXCLUDE_ALL, 30=OUTPUT_SENDER, 31=OUTPUT_RECIPIENTS, 32=OUTPUT_COUNT, 33=OUTPUT_ADDRESS, 34=DEDUP_NONE, 35=DEDUP_MAILBOX, 36=DEDUP_ADDRESS, 37=NOTMUCH_FORMAT_MBOX, 38=NOTMUCH_FORMAT_RAW, 39=NOTMUCH_DECRYPT_TRUE, 40=NOTMUCH_QUERY_SYNTAX_XAPIAN, 41=NOTMUCH_QUERY_SYNTAX_SEXP *)

(** The keyword loop of _process_keyword_arg (command-line-arguments.c:30-42) on the C
    array: it ends at an entry without a name; [PastEnd] is a read beyond the array. *)
Inductive scan_result := Found (z : Z) | NotFound | PastEnd.
(** [scan_array]: as above, command-line-arguments.c:30-42. *)
Fixpoint scan_array (a : list (option bytes * Z)) (s : bytes) : scan_result :=
  match a with
  | [] => PastEnd
  | (None, _) :: _ => NotFound
  | (Some n, z) :: a' => if bseq s n then Found z else scan_array a' s
  end.
(** The array for [kws], with or without the terminating { 0, 0 }. *)
Definition c_array (kws : list keyword) (terminated : bool) : list (option bytes * Z) :=
  map (fun '(n, z) => (Some n, z)) kws ++ if terminated then [(None, 0)] else [].

(** notmuch-dump.c:382-385 and notmuch-restore.c:258-261: the keywords of --include,
    written without the terminating entry (every other keyword array in the tables
    above has one). *)
Definition include_keywords : list keyword :=
  [(lit "config", 0); (lit "properties", 1); (lit "tags", 2)].
(** [include_array]: as above, notmuch-dump.c:382-385. *)
Definition include_array : list (option bytes * Z) := c_array include_keywords false.
