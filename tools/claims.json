{
 "C01": {
  "status": "proved",
  "note": "util/hex-escape.c encode/decode, both decoders. C strings contain no NUL; %00 in decoder input is outside the encoder's image."
 },
 "C02": {
  "status": "proved",
  "note": "The output alphabet; no blanks, quotes, parentheses, colon, '#', control or non-ASCII byte."
 },
 "C03": {
  "status": "proved",
  "note": "Sizes computed by the code vs bytes written, for the copying encoder/decoder; in-place decoder never reads past the terminator or writes ahead of its read position."
 },
 "C04": {
  "status": "proved",
  "note": "make_boolean_term / parse_boolean_term."
 },
 "C29": {
  "status": "proved",
  "note": "Round trip for representable values; the restriction is shown necessary by C29_backslash_value_refuted."
 },
 "C41": {
  "status": "proved",
  "note": "sanitize_string; only C0 controls are replaced (C41_del_passes_refuted shows DEL passes)."
 },
 "C44": {
  "status": "proved",
  "note": "Prefix table, skip_to/get_term/get_terms_with_prefix, _notmuch_message_ensure_metadata as one pass over the sorted terms."
 },
 "C13": {
  "status": "proved",
  "note": "Handles, freeze counters, sync. Limits shown by C13_two_handles_lose_update_refuted. notmuch_message_tags_to_maildir_flags syncs a frozen message (lib/message.cc:2098) and is outside this model."
 },
 "C14": {
  "status": "proved",
  "note": "Histories of API calls with crash, close, reopen, flush at arbitrary points; reopening inside a section is excluded and shown to break it (C14_reopen_inside_section_refuted). Revision may go down after deletion+reopen or a crash (refuted theorems)."
 },
 "C08": {
  "status": "proved",
  "note": "tag_op_list_apply, makes_changes on freshly opened messages; maildir sync flag is treated under C16. The no-change decision is one-sided (C08_decision_exact_refuted)."
 },
 "C09": {
  "status": "proved",
  "note": "Infix queries: proved. For S-expression queries the claim is false of the code (conjunction of conditions): C09_sexp_optimisation_refuted, C09_sexp_text_injective_refuted."
 },
 "C12": {
  "status": "proved",
  "note": "add/remove/remove_all properties through a message handle on the database model, string map with its binary search, iteration/get/count. Exceptions shown: remove_all does not check the key for '=' and over-long pairs abort (refuted theorems)."
 },
 "C05": {
  "status": "proved",
  "note": "notmuch-dump.c tag lines against tag-util.c parse_tag_line and parse_boolean_term. Ids with a newline are skipped by the dumper (C05_every_message_dumped_refuted)."
 },
 "C06": {
  "status": "proved",
  "note": "Batch-tag format, everything included, any target state. Messages dumped without properties keep the target's properties (C06_properties_cleared_refuted); automatic format detection needs ids without '('. Sup format is modelled but not claimed."
 },
 "C07": {
  "status": "partial",
  "note": "Grammar, no-effect and command line fully proved. 'Only legal tags' holds for unescaped text only: legality is tested before hex decoding (C07_accepted_tags_legal_refuted)."
 },
 "C10": {
  "status": "proved",
  "note": "_notmuch_message_id_parse (with skip_space_and_comments), _parse_strict, parse_references. Exactness on RFC-shaped headers; ids of one character, adjacent blanks and '<>' are shown to be exceptions (refuted theorems)."
 },
 "C11": {
  "status": "proved",
  "note": "Own id filtered from references as a string. The strict In-Reply-To is not compared with the own id, and ids over 189 bytes escape the filter (refuted theorems)."
 },
 "C17": {
  "status": "proved",
  "note": "index_message_file, link_message, ghosts (database with the ghosts feature), merge_threads, removal. The hash table of references is enumerated in arbitrary order (legal permutations). References over 235 bytes are linked but not recorded."
 },
 "C18": {
  "status": "proved",
  "note": "Connected component characterisation for all histories of additions, removals and failed additions. Legality excludes a reference over 189 bytes whose hash is the message's own id; needed, see C19_long_self_reference_refuted."
 },
 "C19": {
  "status": "proved",
  "note": "Unique ids, exactly one thread id per document, fresh document and thread ids. C19_long_self_reference_refuted shows the excluded case."
 },
 "C20": {
  "status": "proved",
  "note": "_notmuch_message_delete with placeholder bookkeeping. Failing indexing leaves placeholders: C20_failed_indexing_leaves_placeholders_refuted."
 },
 "C21": {
  "status": "proved",
  "note": "notmuch_database_remove_message; two messages may carry the same name only if the caller indexes a changed file under its old name, excluded by hypothesis."
 },
 "C43": {
  "status": "proved",
  "note": "notmuch_message_reindex of an unfrozen message on reachable databases; properties that indexing itself sets anew (index.decryption, session keys) are not modelled. Files changed on disk since they were added may leave the message in two threads (C43_changed_files_two_threads_refuted)."
 },
 "C15": {
  "status": "proved",
  "note": "_filename_is_in_maildir, _new_maildir_filename including its buffer. The first ':2,' anywhere in the path counts; names below a directory containing ':2,' are never renamed (C15_every_name)."
 },
 "C16": {
  "status": "proved",
  "note": "_get_maildir_flag_actions, tags_to_maildir_flags, maildir_flags_to_tags on a disk model with failing renames. rename(2) silently replaces an existing target: C16_overwrites_existing_file_refuted."
 },
 "C36": {
  "status": "proved",
  "note": "Whole JSON printer modelled; printed calls for any value tree (separators anywhere) read back by an independent RFC 8259 reader; UTF-8 kept; refuted for non-UTF-8 strings being valid JSON text. Write errors are not modelled."
 },
 "C37": {
  "status": "proved",
  "note": "Whole S-expression printer modelled; reads back as the Lisp datum for keys of alphanumerics, '-' and '_'; refuted: false/null and list/map are not distinguished, other keys abort."
 },
 "C40": {
  "status": "proved",
  "note": "gz_getline modelled with zlib's gzgets as external; lines whole for every NUL-free input and buffer; refuted with NULs (line merging, buf[-1])."
 },
 "C30": {
  "status": "proved",
  "note": "Every crash point and every failing call of notmuch_database_dump with an output file; zlib and mkstemp contracts are explicit hypotheses; refuted: failing mkstemp may unlink another file."
 },
 "C31": {
  "status": "proved",
  "note": "Every crash point and failing call of notmuch_database_compact_db over directory states; refuted: after a failed second rename the database is not at its path."
 },
 "C32": {
  "status": "proved",
  "note": "copy_fd, write_buf, maildir_write_tmp/new and the command's tail with arbitrary read/write/signal schedules and every crash point; refuted where the code falls short (bad index options or moved file left behind, split 'From ' line, 'From ' alone)."
 },
 "C33": {
  "status": "proved",
  "note": "is_valid_folder_name exactly; containment below the mail root by names; mkdir_recursive at every moment; refuted: doubled slashes make folder creation fail."
 },
 "C26": {
  "status": "proved",
  "note": "Full for canonical paths over all histories; the claim for arbitrary spellings and for siblings of the root is refuted (C26_*_refuted)."
 },
 "C27": {
  "status": "proved",
  "note": "Proved over all add/remove histories; the plain claims fail for directories named ** / cur / new (refuted theorems)."
 },
 "C28": {
  "status": "proved",
  "note": "Feature strings: round trip of every set, exact parsing/blocking for any string, mode and version; upgrade then reopen. Refuted: an upgrade forgets unknown (accepted) features."
 },
 "C38": {
  "status": "proved",
  "note": "lastmod ranges: exact selection by revision below 2^53 with negative and open bounds, rejection of bad bounds, s-expression forms. Refuted: trailing text after a number rejected; exactness beyond 2^53."
 },
 "C46": {
  "status": "proved",
  "note": "parse_arguments/parse_option agree exactly with an independent reading relation for every table without ambiguous names (true of all 15 notmuch tables); '--' and stop behaviour. Refuted: int overflow refused; refused option assigns nothing; --include keyword array unterminated (read past end)."
 },
 "C34": {
  "status": "proved",
  "note": "Exact set of recorded files after a full scan (or with trustworthy mtimes), soundness at every interruption point, exit status, mtimes, obstacles, idempotence; three refuted expectations (directory turned into a file, mail behind a symlinked directory, temporary failure not retried). Model: New.v; the tree does not change during the scan."
 },
 "C35": {
  "status": "proved",
  "note": "Any message with a visible old or new name survives with its id, properties and user tags at every interruption point."
 },
 "C22": {
  "status": "proved",
  "note": "Every thread, every header arrangement (cycles, self references, duplicate ids): building the tree (labelling, reparenting, sorting) and the show walk end, and no message is visited twice. Any qsort. Also: every edge is a named parent, siblings oldest first."
 },
 "C23": {
  "status": "partial",
  "note": "Proved for every thread whose In-Reply-To/References relation has no cycle (C23_every_message_shown_partial), with the exact shape of the tree (C23_shape) and, for every thread, that something is shown. Without that hypothesis the statement is false of the code: C23_every_message_shown_refuted (a message whose References name its own reply) and C23_reply_cycle_shown_refuted."
 },
 "C24": {
  "status": "proved",
  "note": "Thread search over documents with single thread terms: each thread once, in order of its first match, contents, count; any sequence of iterator calls. Xapian's matching and sorting are the trusted base (XQuery.v)."
 },
 "C25": {
  "status": "partial",
  "note": "Search result, flags and IGNORED status proved in every mode; counting agrees with searching in modes TRUE and ALL only: in FALSE and FLAG the code always subtracts the excluded messages (C25_count_agrees_refuted)."
 },
 "C42": {
  "status": "proved",
  "note": "One reply prefix is removed and nothing else; chains are not (C42_chain_refuted) and the first message's subject is shown uncleaned when no match has a subject (C42_uncleaned_refuted). Which subject is chosen is proved for distinct dates of the matches; its origin for all."
 },
 "C47": {
  "status": "partial",
  "note": "Counts, tags, newest date and author names in full; the authors line when some match has an author (otherwise \"(null)\", refuted); the oldest date outside mode FLAG (there refuted)."
 },
 "C39": {
  "status": "proved",
  "note": "Every plain expression: translated iff well formed (documented field table, operators, modifiers) and then selects exactly the messages meant; and/or/not of arbitrary subqueries incl. empty forms; errors reported. The reader of s-expressions, stemming, phrases, regexps, infix parsing and ranges are parameters. Refuted: matching outside a field crashes; mimetype combines with and; (matching A B) needs one message; starts-with lowercases exact fields; quoted words match tags."
 },
 "C48": {
  "status": "proved",
  "note": "Macro call = substitution, saved query = definition, full expansion preserves the translation (simulation over lazily bound environments), arity errors, termination for acyclic definitions. Refuted: self reference loops; () or atom definitions crash; parameters inside (matching ...) are undefined; a non-macro saved query sees its caller's parameters."
 },
 "C45": {
  "status": "proved",
  "note": "Civil calendar specified and shown unique; every accepted expression selects one whole period; range = first time of A to last time of B; unknown words and bad components rejected; no overflow for moderate numbers; documented forms (YYYY, YYYY-MM, YYYY-MM-DD [HH:MM[:SS]], @N, N units [ago], today, yesterday, weekdays) characterised exactly. Local zone is a fixed offset. Refuted corners kept as _refuted theorems."
 },
 "C49": {
  "status": "proved",
  "note": "Exact value of every item after opening, exact condition for opening to succeed, set/get, persistence, booleans, listing. Refuted: a database.path in the metadata competes with the opened path; with NOTMUCH_DATABASE and a file naming another path the handle reports the file's; a relative backup_dir is not made absolute; path / is reported as empty."
 },
 "C50": {
  "status": "proved",
  "note": "For every world, disk and arguments; mkdir and Xapian creation are external with stated effects (shown to be met by a concrete file system). 'Found again' needs: no second database in path/xapian, and the XDG directory not made as a by-product (both shown necessary or refuted without). Refuted: empty NOTMUCH_DATABASE is not ignored; failed creation can leave a database; NULL dereference without HOME and XDG_DATA_HOME."
 },
 "C51": {
  "status": "proved",
  "note": "Recipients, From, headers, subject, quoting filter in full; GMime's parsing of headers and addresses is external. format_part_reply (which parts are quoted) is not modelled. Refuted: recipients deduplicated; munged Reply-To in another spelling; domain guess with empty labels; decoding filter for arbitrary lines."
 },
 "C52": {
  "status": "proved",
  "note": "Windows for all offsets and limits that do not overflow int; hypotheses: distinct document ids, every message in one thread (threads output), every message has a file. Refuted parts named _refuted."
 },
 "C53": {
  "status": "proved",
  "note": "Counters unbounded (int in C). Parsing of headers and quoting of names are GMime's."
 },
 "C54": {
  "status": "proved",
  "note": "status of every message with good layers and soundness for all messages; two refuted stronger readings (a status 'signed' need not cover all text shown; a protected subject may come from the control part)"
 },
 "C55": {
  "status": "proved",
  "note": "numbers, --part=k and completeness of what is shown, for every tree"
 },
 "C56": {
  "status": "proved",
  "note": "For any MIME tree, key set and policy; which keys open what is an assumption-free parameter (one hypothesis: an exported session key opens no part that could not be opened anyway). Two refuted theorems: nostash differs from true in more than stashing; encryption inside of a signature."
 },
 "C57": {
  "status": "proved",
  "note": "mbox output read back by an independent mboxrd reader; the read error loop and the loss after NUL are proved as refutations"
 },
 "C58": {
  "status": "proved",
  "note": "threads, trees, the messages printed, unthreaded and single modes; three deviations from the documentation are proved as refutations"
 },
 "C59": {
  "status": "proved",
  "note": "The run as a whole, interrupted anywhere: exact tags for one-file messages; for messages with several files all tags except unread and (when synchronized) flag tags, whose values depend on all files (C16). Tags set by indexing are excluded via auto_tag."
 },
 "C60": {
  "status": "proved",
  "note": "The filter of lib/index.cc with its tables. The natural stronger claims about the character after the data, begin at line start, HTML comments and NUL are refuted by separate theorems."
 },
 "C61": {
  "status": "proved",
  "note": "The whole of lib/regexp-fields.cc; regcomp/regexec, Xapian's value streams and its parser are external. Two natural stronger claims are refuted by separate theorems."
 },
 "C62": {
  "status": "proved",
  "note": "notmuch-config.c with GLib's key file (setting, escaping, reading back) as an external definition; comments in the file are left out."
 },
 "C63": {
  "status": "proved",
  "note": "Success case for all older feature sets, all-or-nothing for every failure and crash point. A file name of 225 to 255 bytes is lost, a failed upgrade leaves the handle's features changed, and a failed count aborts: the three refuted theorems give the cases; C63_messages states the length bound."
 },
 "C64": {
  "status": "proved",
  "note": "For directories deleted only when their lists are empty (as notmuch new does); the refuted theorems show what happens otherwise, and with objects kept after a delete."
 },
 "C65": {
  "status": "proved",
  "note": "header cache, indexing headers, notmuch_message_get_header; GMime's parser and decoder are parameters"
 },
 "C66": {
  "status": "proved",
  "note": "local time zone as a function of time; the claim is for equal offsets now and then (it is false otherwise: C66_dst_*_refuted); C locale"
 },
 "C67": {
  "status": "proved",
  "note": "the query parser is a parameter; counts fit the printed types"
 },
 "C68": {
  "status": "proved",
  "note": "GLib's key file functions as in C62; the texts of the prompts are not modelled"
 },
 "C69": {
  "status": "proved",
  "note": "the work of notmuch new and insert is one step here (see C32-C35, C59)"
 },
 "C70": {
  "status": "proved",
  "note": "--version, --help and --uuid are not modelled; the individual commands are in other properties"
 },
 "C71": {
  "status": "proved",
  "note": "all failure points before the final write of the message; directory documents and text terms not included; three expectations refuted"
 },
 "C72": {
  "status": "proved",
  "note": "thread:{}, thread:ID, query:NAME and their combination, errors, termination; the counterexamples (ghosts, unset names, circular names, empty value, reuse of infix objects) are refuted theorems"
 },
 "C73": {
  "status": "proved",
  "note": "All quoting layers, paths and both file formats; limits of the encoding are given as refuted theorems."
 },
 "C74": {
  "status": "proved",
  "note": "status/commit/checkout/merge for repositories whose cache is valid (an invariant of all commands and of later database changes); the situations in which the code breaks it are given as refuted theorems."
 },
 "C75": {
  "status": "proved",
  "note": "invariant over histories with kill points; two refuted corner cases given"
 },
 "C76": {
  "status": "proved",
  "note": "Structured output of format_message/format_part for every MIME tree: one value, schema of devel/schemata, contents; reads back from JSON and S-expressions. Duplicate header keys and --body=false refuted."
 },
 "C77": {
  "status": "proved",
  "note": "--part=k equals the sub-value with id k of the whole output; nothing if there is no such part."
 },
 "C78": {
  "status": "proved",
  "note": "Incremental parser of emacs/notmuch-parser.el against sprinter-sexp output, any chunking, any truncation, promptness."
 },
 "C79": {
  "status": "proved",
  "note": "full statement, with the conditions under which undo restores; the unconditional versions (any query, any validated string, unconditional undo) are false of the code and refuted"
 },
 "C80": {
  "status": "proved",
  "note": "Kill points and flush schedules arbitrary; Xapian durability, rename(2) external; query per message. Two stronger readings refuted."
 },
 "C81": {
  "status": "proved",
  "note": "GMime external as in C76. Refuted without the hypothesis on the texts; file name line and raw fallback refuted."
 },
 "C82": {
  "status": "proved",
  "note": "Dates are those of C66; ids and tags without newline for the text output (refuted otherwise)"
 },
 "C83": {
  "status": "proved",
  "note": "C83_careful, C83_counted, C83_destroyed and C83_no_leak hold for every program. Refuted, with concrete programs: without the conditions in careful and counted, use after free happens (C83_list_refuted, C83_frozen_refuted); alive can be False for usable objects (C83_alive_refuted)."
 },
 "C84": {
  "status": "proved",
  "note": "The evaluator of Lisp covers the functions the script uses and refuses everything else. Three defects are stated as refuted theorems (--print, an operand after --to, the word --)."
 },
 "C85": {
  "status": "proved",
  "note": "For tags that are words and equal case-fold-search when saving and resuming; MIME encoding and decoding by Emacs are assumed to give the text back. Four defects are stated as refuted theorems."
 },
 "C86": {
  "status": "proved",
  "note": "Other programs are assumed not to touch the two files of the name in use. That success is reported when the mail was not stored in cur is stated as a refuted theorem."
 },
 "C87": {
  "status": "proved",
  "note": "C87_uuid, C87_goes_ahead, C87_placement, C87_version_first, C87_help_first, C87_flags_after, C87_external; compact, external programs, notmuch new creating a database first and the placement of --help are refuted."
 },
 "C88": {
  "status": "proved",
  "note": "For tags and operands that are texts; refuted theorems: == with a Python set, tags that are not UTF-8, texts with NUL, operands of bytes, several tags with an error half way."
 },
 "C89": {
  "status": "proved",
  "note": "For programs that do not catch exceptions between two frozen blocks and, in the atomic theorem, do not abort; refuted theorems: nested blocks with the inner exception caught, KeyboardInterrupt, messages of threads, abort in an inner section, revisions of different databases."
 },
 "C90": {
  "status": "proved",
  "note": "Reading, changing and histories of db.config as a dictionary proved; del of a missing key, values or keys that are not UTF-8 and NUL refuted (C90_*_refuted)."
 },
 "C91": {
  "status": "proved",
  "note": "For Xapian reading the parenthesised lists of id: terms as EmacsSearchSpec.v says (reads_disjunctions) and message ids without newline or NUL. The display after * (matched messages only) is refuted for threads with unmatched messages (C91_display_tag_all_refuted)."
 },
 "C92": {
  "status": "proved",
  "note": "For keys and values with an encoding without NUL (keys without '=') that fit into a term of 245 bytes; the behaviour outside of this is refuted separately (C92_pop_refuted, C92_popitem_refuted, C92_del_refuted)."
 },
 "C93": {
  "status": "proved",
  "note": "References longer than 189 bytes, later failed additions and messages missing for ever: refuted theorems show what goes wrong."
 },
 "C94": {
  "status": "proved",
  "note": "Xapian's reading of 'id:a or id:b' is a hypothesis on the parser; what a stale view does is refuted."
 },
 "C95": {
  "status": "proved",
  "note": "Safety proved for tidy programs; destroy!, the collector, memory and changes for every program. That none of the conditions of tidy can be dropped is shown by refuted theorems."
 },
 "C96": {
  "status": "proved",
  "note": "All histories of one object; reindexing, reopening, several objects and file names that become too long are refuted by concrete runs."
 },
 "C97": {
  "status": "proved",
  "note": "All texts and widths for what may change; termination and full wrapping under the stated bound, which is shown to be needed."
 },
 "C98": {
  "status": "proved",
  "note": "All texts, both readings of the regular expression; the documented removal of a trailing blank line is refuted."
 },
 "C99": {
  "status": "proved",
  "note": "All texts; that cited paragraphs stay apart is refuted."
 }
}