{"id": "C01", "title": "Hex escaping is loss-free", "statement": "Decoding the hex-escaped form of any C string (as written by 'notmuch dump' for tags, message ids, property keys/values and config values) gives back exactly the original bytes, and decoding never fails on encoder output.", "quantifier": "every NUL-free byte string of every length", "why_tests_cant": "A test tries a few strings; the claim is about every byte string, including every '%', control and non-ASCII byte in every position.", "anchors": ["util/hex-escape.c: hex_encode, hex_decode, hex_decode_inplace"]}
{"id": "C02", "title": "Hex-escaped text is a single safe token", "statement": "The escaped form contains only the documented safe characters and '%', so it never contains a space, newline, double quote, parenthesis, colon, '#' or control byte and can be embedded in a dump line without changing how the line is split.", "quantifier": "every NUL-free byte string", "why_tests_cant": "One offending byte value anywhere breaks the file format; tests sample bytes and positions.", "anchors": ["util/hex-escape.c: hex_encode, output_charset"]}
{"id": "C03", "title": "Hex escape buffers never overflow", "statement": "The encoder allocates exactly as many bytes as it then writes (plus the terminator), the decoder never writes more bytes than it read (so in-place decoding is safe), and the decoder rejects every malformed escape instead of reading past the terminator.", "quantifier": "every NUL-free input string, every malformed input", "why_tests_cant": "Overflow depends on the input length and escape mix; memory errors are silent in tests.", "anchors": ["util/hex-escape.c: maybe_realloc, hex_encode, hex_decode_internal, hex_decode, hex_decode_inplace"]}
{"id": "C04", "title": "Quoted boolean query terms round-trip", "statement": "For every prefix that a query can name and every term text, the quoted query term built by the tools (id:\"...\", thread:..., tag:...) parses back to exactly the same prefix and term; and the buffer used is always large enough.", "quantifier": "every prefix without ':' that does not start with a space, every NUL-free term text (spaces, quotes, parentheses, non-ASCII included)", "why_tests_cant": "Quoting has interactions (doubled quotes at the ends, empty term, leading quote) that only a universal statement covers.", "anchors": ["util/string-util.c: make_boolean_term, parse_boolean_term, is_unquoted_terminator"]}
{"id": "C05", "title": "A dumped tag line restores to the same message and tags", "statement": "For every message id and every list of tags, the batch-tag line that 'notmuch dump' writes is parsed by 'notmuch restore' / 'notmuch tag --batch' into an add operation for exactly those tags, in order, and a query naming exactly that message id.", "quantifier": "every message id accepted by the dumper, every list of legal tags", "why_tests_cant": "Needs all byte values in all positions through four layers of encoding (hex, boolean term, line tokenizer, query).", "anchors": ["notmuch-dump.c: dump_tags_message, print_dump_header", "tag-util.c: parse_tag_line", "notmuch-restore.c: notmuch_restore_command"]}
{"id": "C06", "title": "Dump followed by restore reproduces tags, properties and config", "statement": "Restoring a full dump into a database holding the same messages leaves every message with exactly the tags (and properties) it had when dumped, and every config item with the dumped value, whatever the tags were in between.", "quantifier": "every finite database content; every intermediate state of tags/properties on the same messages", "why_tests_cant": "The state space (any tags on any messages in any order) cannot be enumerated.", "anchors": ["notmuch-dump.c: notmuch_database_dump_file", "notmuch-restore.c: notmuch_restore_command, process_properties_line, process_config_line, tag_message"]}
{"id": "C07", "title": "Malformed batch input never changes a message", "statement": "A batch line that is not of the form '+tag|-tag ... [--] query' (illegal tag, missing query, undecodable escape, non-id restore query) is rejected before any operation on any message is applied; an accepted line contains only legal tags.", "quantifier": "every input line", "why_tests_cant": "Adversarial lines are unbounded in number.", "anchors": ["tag-util.c: parse_tag_line, parse_tag_command_line, illegal_tag", "notmuch-restore.c: notmuch_restore_command"]}
{"id": "C08", "title": "Applying tag operations has last-operation-wins set semantics", "statement": "Applying a list of tag operations to a message ends with: tag t present iff the last operation mentioning t adds it, or none mentions it and it was present (after --remove-all: and not removed by it). No other tag changes. When the tool decides an operation list makes no change, applying it would indeed change nothing.", "quantifier": "every operation list, every initial tag set, both flag settings", "why_tests_cant": "Interactions among repeated/contradictory operations are unbounded.", "anchors": ["tag-util.c: tag_op_list_apply, makes_changes, tag_op_list_append", "lib/message.cc: notmuch_message_add_tag, notmuch_message_remove_tag, notmuch_message_remove_all_tags"]}
{"id": "C09", "title": "Restricting a tag query to affected messages loses nothing", "statement": "The query optimisation in 'notmuch tag' (skip messages that already have/lack the tags) leaves the database in the same state as applying the operations to every message matching the original query.", "quantifier": "every query result set, every operation list, every tag assignment; both query syntaxes", "why_tests_cant": "Requires comparing two executions on every database.", "anchors": ["notmuch-tag.c: _optimize_tag_query, tag_query"]}
{"id": "C10", "title": "Message-Id header parsing is total and canonical", "statement": "Parsing ids out of a References/In-Reply-To header always terminates and consumes input; on a well-formed header <a> <b> ... it returns exactly the ids a, b, ... without angle brackets or whitespace; it never returns an empty id.", "quantifier": "every header text (including nested comments, unterminated brackets)", "why_tests_cant": "Header text is attacker-controlled and unbounded.", "anchors": ["lib/message-id.c: _notmuch_message_id_parse, _notmuch_message_id_parse_strict, skip_ws_and_comments", "lib/database.cc / add-message.cc: parse_references"]}
{"id": "C11", "title": "A message never references itself", "statement": "After indexing, the recorded references of a message never contain its own id, and the recorded in-reply-to parent is one of the ids from its headers.", "quantifier": "every pair of References/In-Reply-To headers and own id", "why_tests_cant": "Header contents are unbounded.", "anchors": ["lib/add-message.cc: parse_references, _notmuch_database_link_message_to_parents"]}
{"id": "C12", "title": "Message properties behave as a multimap", "statement": "Adding, removing, removing-all and reading message properties behaves as a set of (key,value) pairs: get returns a value stored under the key iff one exists, count is the exact number, iteration (exact and prefix) yields exactly the matching pairs in order, and keys containing '=' are refused so that no pair can be confused with another.", "quantifier": "every history of property operations, every key and value", "why_tests_cant": "Sorted-array/binary-search behaviour depends on every key neighbourhood.", "anchors": ["lib/string-map.c: _notmuch_string_map_*", "lib/message-property.cc: notmuch_message_*propert*"]}
{"id": "C13", "title": "Freeze/thaw makes tag changes atomic", "statement": "Between freeze and the matching thaw no tag change reaches the database; at the outermost thaw all of them do at once; nested freezes count; an unmatched thaw reports an error and changes nothing. The final stored tags equal those obtained by applying the changes unfrozen.", "quantifier": "every sequence of freeze/thaw/add/remove/remove-all calls, every crash point inside the sequence", "why_tests_cant": "Histories and crash points are unbounded.", "anchors": ["lib/message.cc: notmuch_message_freeze, notmuch_message_thaw, notmuch_message_add_tag, notmuch_message_remove_tag, notmuch_message_remove_all_tags, _notmuch_message_sync"]}
{"id": "C14", "title": "Atomic sections and database revision", "statement": "begin/end atomic nest; end without begin is an error; nothing written inside an open section is visible after a crash; the revision counter never decreases, is not consumed by an empty section, all modifications inside one outermost section share one revision which is larger than every earlier committed one.", "quantifier": "every sequence of atomic/modify/crash events", "why_tests_cant": "Histories are unbounded.", "anchors": ["lib/database.cc: notmuch_database_begin_atomic, notmuch_database_end_atomic, notmuch_database_get_revision, _notmuch_database_new_revision", "lib/message.cc: _notmuch_message_sync"]}
{"id": "C15", "title": "Maildir flag renaming keeps file identity and canonical flags", "statement": "The new filename computed for a message keeps the directory (except new->cur), keeps the base name up to ':2,', and its info part lists the flags sorted, each once, equal to old flags plus those to set minus those to clear; flags notmuch does not know are preserved; recomputing on the result changes nothing.", "quantifier": "every filename, every set/clear flag list", "why_tests_cant": "File names are arbitrary bytes with arbitrary flag suffixes.", "anchors": ["lib/message.cc: _new_maildir_filename, _filename_is_in_maildir, _get_maildir_flag_actions"]}
{"id": "C16", "title": "Maildir flags and tags synchronise consistently", "statement": "After tags_to_maildir_flags every maildir file of the message carries a flag iff the message has the corresponding tag (or lacks 'unread' for S); reading flags back with maildir_flags_to_tags then leaves the tags unchanged.", "quantifier": "every tag set, every list of filenames, success/failure of every rename", "why_tests_cant": "All combinations of tags, flags, multiple copies and failing renames.", "anchors": ["lib/message.cc: notmuch_message_tags_to_maildir_flags, notmuch_message_maildir_flags_to_tags, _ensure_maildir_flags"]}
{"id": "C17", "title": "Connected messages share a thread", "statement": "At every point in every history of added messages, a message and each message it references (present or not yet present) have the same thread id; hence reference-connected messages are always in one thread whatever order they arrived in.", "quantifier": "every sequence of message additions with arbitrary reference lists and arrival order", "why_tests_cant": "Arrival orders are factorial; late arrival of a linking message must merge threads.", "anchors": ["lib/add-message.cc: _notmuch_database_link_message, _notmuch_database_link_message_to_parents, _notmuch_database_link_message_to_children, _merge_threads, notmuch_database_index_file"]}
{"id": "C18", "title": "Only connected messages share a thread", "statement": "Two messages have the same thread id only if they are connected through references; so threads are exactly the connected components, independent of arrival order.", "quantifier": "every sequence of message additions", "why_tests_cant": "Same as C17 in the converse direction.", "anchors": ["lib/add-message.cc: _notmuch_database_link_message*, _resolve_message_id_to_thread_id", "lib/database.cc: _notmuch_database_generate_thread_id"]}
{"id": "C19", "title": "One document per message id; fresh ids", "statement": "In every reachable database no two documents carry the same message id, every message has exactly one thread id, and newly generated thread ids and document ids were never used before. Adding a second file with a known message id adds a filename to the same message and reports it as a duplicate.", "quantifier": "every history of add/remove operations", "why_tests_cant": "Global invariant over unbounded histories.", "anchors": ["lib/message.cc: _notmuch_message_create_for_message_id", "lib/database.cc: _notmuch_database_generate_doc_id, _notmuch_database_generate_thread_id, notmuch_database_find_message", "lib/add-message.cc: notmuch_database_index_file"]}
{"id": "C20", "title": "Removing a message does not disturb the rest of its thread", "statement": "After deleting a message, every other message keeps its tags, filenames and thread id; while some message of the thread remains, the deleted one leaves a placeholder so that re-adding it rejoins the same thread; when the last real message of a thread goes, all placeholders of the thread go too.", "quantifier": "every reachable database and every choice of deleted message", "why_tests_cant": "Global invariant over unbounded histories.", "anchors": ["lib/message.cc: _notmuch_message_delete", "lib/database.cc: notmuch_database_remove_message"]}
{"id": "C21", "title": "Removing one of several copies keeps the message", "statement": "Removing a filename from a message having others leaves the message with exactly the other filenames and its tags; only removal of the last filename deletes it; the reported status tells which.", "quantifier": "every message with any set of filenames", "why_tests_cant": "Histories of add/remove interleavings.", "anchors": ["lib/message.cc: _notmuch_message_remove_filename", "lib/database.cc: notmuch_database_remove_message", "lib/add-message.cc: notmuch_database_index_file"]}
{"id": "C22", "title": "Thread display terminates and shows no message twice", "statement": "Walking the reply tree of any thread (however its References and In-Reply-To headers are arranged, cycles included) visits each message at most once and terminates.", "quantifier": "every set of messages with arbitrary reply/reference headers", "why_tests_cant": "Header graphs are adversarial and unbounded.", "anchors": ["lib/thread.cc: _resolve_thread_relationships, _parent_via_in_reply_to, _parent_or_toplevel, _thread_add_message"]}
{"id": "C23", "title": "Thread display shows every message", "statement": "Every message of the thread is reachable from the thread's top-level messages through replies.", "quantifier": "every set of messages with arbitrary reply/reference headers", "why_tests_cant": "Header graphs are adversarial and unbounded.", "anchors": ["lib/thread.cc: _resolve_thread_relationships, _parent_via_in_reply_to, _parent_or_toplevel"]}
{"id": "C24", "title": "Thread search partitions the matching messages", "statement": "Searching threads returns each thread once, every matching message belongs to exactly one returned thread, every returned thread has a matching message, and the thread count equals the number of threads returned.", "quantifier": "every database with single-threaded messages, every result set and order", "why_tests_cant": "Result sets unbounded; bitmap arithmetic at word boundaries.", "anchors": ["lib/query.cc: notmuch_query_search_threads, notmuch_threads_valid, notmuch_threads_get, _notmuch_doc_id_set_*, notmuch_query_count_threads", "lib/thread.cc: _notmuch_thread_create"]}
{"id": "C25", "title": "Exclusion modes", "statement": "With exclusion on, messages with an excluded tag are omitted unless the query names the tag; with FLAG they are returned and flagged; counting agrees with searching in every mode.", "quantifier": "every query, tag assignment, exclude list and mode", "why_tests_cant": "Mode x query x tags product is unbounded.", "anchors": ["lib/query.cc: notmuch_query_add_tag_exclude, _notmuch_exclude_tags, _notmuch_query_search_documents, _notmuch_query_count_documents"]}
{"id": "C26", "title": "Database-relative paths identify files", "statement": "A path below the mail root maps to the relative path that, joined with the root, names the same file; paths outside the root are left alone; splitting into directory and base name and re-joining gives the same path.", "quantifier": "every root and path string (repeated and trailing slashes included)", "why_tests_cant": "Paths are unbounded strings.", "anchors": ["lib/database.cc: _notmuch_database_relative_path, _notmuch_database_split_path, _notmuch_database_filename_to_direntry"]}
{"id": "C27", "title": "folder: and path: terms match exactly the right messages", "statement": "A message is found by path:DIR iff one of its files is directly in DIR, by path:DIR/** iff one of its files is in DIR or below, and by folder:DIR iff one is in DIR, DIR/cur or DIR/new.", "quantifier": "every file path and directory name", "why_tests_cant": "Directory nesting depth unbounded.", "anchors": ["lib/message.cc: _notmuch_message_add_path_terms, _notmuch_message_add_folder_terms, _notmuch_message_add_directory_terms, parse_non_leading..."]}
{"id": "C28", "title": "Database feature negotiation round-trips", "statement": "The feature set stored in a database is recovered exactly when reopened; an unknown feature that is required blocks opening in the documented modes with its name reported; unknown harmless features are ignored.", "quantifier": "every feature set, every feature string, both modes", "why_tests_cant": "Feature strings from future versions are arbitrary.", "anchors": ["lib/features.cc: _notmuch_database_print_features, _notmuch_database_parse_features, feature_names"]}
{"id": "C29", "title": "Config list values round-trip", "statement": "A list of config values joined with ';' and stored is split back into the same values (those that can be represented), with surrounding whitespace removed and empty elements dropped consistently.", "quantifier": "every list of values", "why_tests_cant": "Delimiters, blanks and escapes in every position.", "anchors": ["util/string-util.c: strsplit_len, strtok_len", "lib/config.cc: notmuch_config_get_values, notmuch_config_values_*"]}
{"id": "C30", "title": "Dump to a file is all-or-nothing", "statement": "If 'notmuch dump --output=FILE' fails or is killed at any point, FILE is either untouched or complete; on reported failure the temporary file is removed.", "quantifier": "every crash point and every failing system call", "why_tests_cant": "Crash points cannot be enumerated in tests.", "anchors": ["notmuch-dump.c: notmuch_database_dump"]}
{"id": "C31", "title": "Compaction never loses the database", "statement": "At every crash point during compaction a complete copy of the database exists under the database path, the compact path or the backup path; on success the database path holds the compacted one.", "quantifier": "every crash point and failing system call", "why_tests_cant": "Crash points cannot be enumerated in tests.", "anchors": ["lib/database.cc: notmuch_database_compact_db"]}
{"id": "C32", "title": "Mail delivery writes the message exactly once, complete", "statement": "'notmuch insert' makes a message visible in new/ only after all its bytes are written and synced; on failure nothing remains visible; the delivered bytes are the input bytes (with the mbox 'From ' line rewritten).", "quantifier": "every input, every read/write chunking, every failing call and crash point", "why_tests_cant": "Short reads/writes and crash points are schedule-dependent.", "anchors": ["notmuch-insert.c: copy_fd, write_buf, maildir_write_tmp, maildir_write_new"]}
{"id": "C33", "title": "Delivery folder names cannot escape the mail root", "statement": "A folder name is accepted iff it contains no '..' path component.", "quantifier": "every folder string", "why_tests_cant": "Security property over all strings.", "anchors": ["notmuch-insert.c: is_valid_folder_name"]}
{"id": "C34", "title": "'notmuch new' detects exactly the added and removed files", "statement": "When a changed directory is scanned, the files added are exactly the regular, non-ignored files not already recorded, and the files queued for removal are exactly the recorded ones that no longer exist (as regular non-ignored entries); same for subdirectories.", "quantifier": "every pair of (recorded, actual) directory listings", "why_tests_cant": "Merge of two sorted sequences: all interleavings.", "anchors": ["notmuch-new.c: add_files, _entry_in_ignore_list, _entries_resemble_maildir"]}
{"id": "C35", "title": "A renamed message keeps its tags", "statement": "When a message file is renamed or moved between scans, 'notmuch new' adds the new name before removing the old one, so the message and its tags survive.", "quantifier": "every set of renames, additions and deletions", "why_tests_cant": "Schedules of adds/removes over arbitrary file sets.", "anchors": ["notmuch-new.c: add_files, remove_filename, notmuch_new_command"]}
{"id": "C36", "title": "JSON output is well formed and faithful", "statement": "For every structured value printed through the output interface the JSON text parses back to the same value; string contents survive byte for byte.", "quantifier": "every value tree, every string", "why_tests_cant": "Escaping and separators for all nestings.", "anchors": ["sprinter-json.c"]}
{"id": "C37", "title": "S-expression output is well formed and faithful", "statement": "For every structured value the S-expression text parses back to the same value.", "quantifier": "every value tree, every string", "why_tests_cant": "Escaping and separators for all nestings.", "anchors": ["sprinter-sexp.c"]}
{"id": "C38", "title": "lastmod range queries select by revision", "statement": "lastmod:A..B selects exactly the messages with revision between A and B inclusive; negative values count back from the current revision; missing ends are unbounded.", "quantifier": "every pair of bounds and every database revision", "why_tests_cant": "Arithmetic over all values incl. wrap-around.", "anchors": ["lib/lastmod-fp.cc: LastModRangeProcessor"]}
{"id": "C39", "title": "S-expression queries mean what they say", "statement": "The translation of (and ...), (or ...), (not ...) and nested combinations selects the intersection, union and complement of the sub-queries, including the empty forms.", "quantifier": "every query expression", "why_tests_cant": "Unbounded nesting.", "anchors": ["lib/parse-sexp.cc: _sexp_combine_query, _sexp_to_xapian_query"]}
{"id": "C40", "title": "Lines are read whole from (compressed) input", "statement": "Reading a dump line by line returns each line exactly once and complete, whatever the internal buffer size and however the input is chunked; an unterminated last line is also returned.", "quantifier": "every input and initial buffer size", "why_tests_cant": "Buffer boundary cases are unbounded.", "anchors": ["util/zlib-extra.c: gz_getline"]}
{"id": "C41", "title": "Text output cannot inject control characters", "statement": "Subjects, authors and other header text printed by the text formats contain no C0 control characters (newline, tab, escape), and all other bytes are unchanged.", "quantifier": "every header string", "why_tests_cant": "Security property over all strings.", "anchors": ["util/string-util.c: sanitize_string"]}
{"id": "C42", "title": "Subject cleaning", "statement": "The displayed thread subject is the message subject without any leading chain of reply prefixes handled by the code and nothing else is removed.", "quantifier": "every subject", "why_tests_cant": "All strings.", "anchors": ["lib/thread.cc: _thread_set_subject_from_message, _thread_cleanup_author"]}
{"id": "C43", "title": "Tags survive re-indexing", "statement": "Re-indexing a message preserves its tags and properties, message id and thread membership constraints.", "quantifier": "every message content and term set", "why_tests_cant": "All term sets.", "anchors": ["lib/message.cc: notmuch_message_reindex, _notmuch_message_remove_indexed_terms"]}
{"id": "C44", "title": "Term prefixes are unambiguous", "statement": "Reading back a message's tags/thread id/message id/properties from its term list never confuses terms of different kinds.", "quantifier": "every assignment of tags, ids, properties", "why_tests_cant": "All strings in all kinds of terms.", "anchors": ["lib/prefix.cc: _find_prefix, prefix table", "lib/message.cc: _notmuch_message_ensure_metadata, _notmuch_get_terms_with_prefix"]}
{"id": "C45", "title": "Date expressions and ranges", "statement": "A date range date:A..B covers from the start of A to the end of B; malformed expressions are rejected; all arithmetic stays in range.", "quantifier": "every expression", "why_tests_cant": "Grammar is unbounded.", "anchors": ["lib/parse-time-vrp.cc", "parse-time-string/parse-time-string.c"]}
{"id": "C46", "title": "Command-line option parsing", "statement": "Every option list is parsed deterministically: each recognised option sets exactly its variable and the parser stops at the first non-option; '--' ends options.", "quantifier": "every argv", "why_tests_cant": "All argument vectors.", "anchors": ["command-line-arguments.c: parse_option, parse_arguments"]}
{"id": "C47", "title": "Thread summary", "statement": "A thread returned by a search reports the number of its messages, files and matching messages, the sorted union of its messages' tags, its authors each once (authors of matching messages first, the others after a bar), and the dates of its oldest and newest matching message.", "quantifier": "every database, query, exclusion mode, order and sequence of calls on the thread iterator", "why_tests_cant": "Threads, author lists and tag sets are unbounded and the summary is accumulated message by message.", "anchors": ["lib/thread.cc: _thread_add_message, _thread_add_matched_message, _thread_add_author, _thread_add_matched_author, _resolve_thread_authors_string, _thread_cleanup_author, notmuch_thread_get_total_messages, notmuch_thread_get_matched_messages, notmuch_thread_get_authors, notmuch_thread_get_tags, notmuch_thread_get_oldest_date, notmuch_thread_get_newest_date"]}
{"id": "C48", "title": "Saved s-expression queries and macros are abbreviations", "statement": "Using a saved s-expression query gives the same result as writing out its definition; calling a macro gives the same result as its body with the arguments substituted for the parameters, in whatever field it is used; a wrong number of arguments is a syntax error; translation always ends when saved queries do not refer to themselves.", "quantifier": "every set of saved queries, every expression, every nesting of macros and fields", "why_tests_cant": "Definitions, nesting and arguments are unbounded; parameters are evaluated lazily in their own context.", "anchors": ["lib/parse-sexp.cc: maybe_saved_squery, maybe_apply_macro, _sexp_expand_param, _sexp_expand_term, resolve_binding"]}
{"id": "C49", "title": "Configuration precedence", "statement": "Once a database is open, every configuration item has the value of the configuration file if the item is there, else the value stored in the database, else its documented default; a database path given by the caller is the value of database.path. Setting an item on a writable handle makes exactly that item read as set, in this handle and (unless the file has it) when the database is opened again, and setting it to the empty string brings the default back; a read-only handle refuses. The listing has every item that has a value, once and in order. (A database.path stored in the database's own metadata is outside the claim: see the refuted theorems.)", "quantifier": "every configuration file, stored configuration, environment, password entry, profile and sequence of set calls", "why_tests_cant": "Items, files and stored configurations are unbounded, and values are merged by position in a sorted array that is built, searched and modified in place.", "anchors": ["lib/config.cc: _notmuch_config_load_from_database, _notmuch_config_load_from_file, _notmuch_config_load_defaults, _notmuch_config_default, _expand_path, notmuch_database_set_config, notmuch_database_get_config, notmuch_config_get_bool, notmuch_config_get_pairs", "lib/open.cc: _finish_open, _choose_dir, _xdg_dir, _set_database_path", "lib/string-map.c"]}
{"id": "C50", "title": "Which configuration file and database are used; creating and opening", "statement": "Opening uses the first configuration file and the first database directory of the documented search orders (the argument, the environment variable, the file, the XDG directory, MAILDIR, ~/mail), the Xapian database in 'xapian' there or else in '.notmuch/xapian', and reports the documented status otherwise; it never creates or changes anything. Creating makes a new database only where there is none, never changes an existing one, and refuses if there is one; a database just created is what opening with the same arguments finds.", "quantifier": "every environment, file system, set of existing databases, configuration file and arguments", "why_tests_cant": "The choice depends on all combinations of arguments, environment, files and directories present.", "anchors": ["lib/open.cc: _load_key_file, _choose_database_path, _create_database_path, _notmuch_choose_xapian_path, _trial_open, _finish_open, notmuch_database_open_with_config, notmuch_database_create_with_config"]}
{"id": "C51", "title": "Replies: recipients, sender, threading and quoting", "statement": "notmuch reply addresses, in reply-to-all mode, the sender (Reply-To, unless its only address is already a recipient, else From), To, Cc and Bcc of the message in order and kind, leaving out exactly the user's own addresses (any letter case, groups opened); in sender mode the first of these headers with anybody else. The user is addressed only if there is nobody else. From is the first own address in these headers, else one mentioned in Envelope-To/X-Original-To/Delivered-To, else one guessed from Received, else the primary address: always one of the user's. The subject gets one Re:, the threading headers make the reply a child of the original when it is indexed, and every line of the quoted text is preceded by '> ' in whatever pieces it is read.", "quantifier": "every message (all address lists including nested groups, all header texts), every configuration of own addresses, both modes; every text and every division of it into pieces", "why_tests_cant": "The number of address constellations, header texts and chunk boundaries is unbounded; tests in T220 cover a few dozen.", "anchors": ["notmuch-reply.c: match_address, address_match, scan_address_list, reply_to_header_is_redundant, get_sender, add_recipients_from_message, guess_from_in_received_for, guess_from_in_received_by, get_from_in_to_headers, create_reply_message", "gmime-filter-reply.c: filter_filter, filter_complete, filter_reset", "doc/man1/notmuch-reply.rst"]}
{"id": "C52", "title": "notmuch search shows the right window of one list of results", "statement": "For a query, its exclusions and a sort order there is one list of results (messages without repetition, or threads) such that notmuch search with --output=messages, files, threads or summary shows, for every --offset (also negative, counting from the end), --limit and --duplicate, exactly that window of it; pages neither lose nor repeat anything. --output=tags lists exactly the tags of the selected messages, sorted. --exclude=flag acts as false except for the summary. Unparsable queries and misplaced --duplicate are refused. The text0 output splits back into the items, and the query strings of a summary denote exactly the matched and the other messages of the thread.", "quantifier": "every database, query, exclusion setting, order, output, offset, limit and duplicate number in the range of int; every list of items; every thread", "why_tests_cant": "Offsets, limits and databases are unbounded and the cases interact (negative offsets, exclusions, counting); T090/T080 try a few.", "anchors": ["notmuch-search.c: get_thread_query, do_search_threads, do_search_messages, do_search_tags, _notmuch_search_prepare, notmuch_search_command", "lib/messages.c: notmuch_messages_collect_tags", "sprinter-text.c: text_string, text_separator, text0_separator", "doc/man1/notmuch-search.rst"]}
{"id": "C53", "title": "notmuch address lists and counts exactly the mailboxes of the selected messages", "statement": "notmuch address takes From (sender, the default) and/or To, Cc and Bcc (recipients) of every selected message, groups opened. --deduplicate=no lists every occurrence in order; mailbox lists each distinct name and address once, at its first occurrence, and with --output=count exactly once with the number of its occurrences (the counts add up to all occurrences); address gives for every address, in whatever letter case, exactly one mailbox, the most frequent variant (the first of equals), with the number of occurrences of all variants. Counting without deduplication is refused.", "quantifier": "every database, query, header contents (nested groups, missing names, any letter case), every combination of options, every order in which the hash table is visited", "why_tests_cant": "Histories of occurrences, hash collisions and visiting orders are unbounded; T095 has one mail store.", "anchors": ["notmuch-search.c: is_duplicate, mailbox_compare, print_mailbox, process_address_list, process_address_header, print_popular, print_hash_value, do_search_messages, notmuch_address_command", "util/string-util.c: strcmp_null, strcase_equal, strcase_hash", "doc/man1/notmuch-address.rst"]}
{"id": "C54", "title": "The message-wide cryptographic status is that of the payload", "statement": "When the layers of a message, from the outside in, are all good (verified multipart/signed or PKCS#7 signed data, decrypted multipart/encrypted or enveloped data, in any order and depth), the status shown for the whole message is: signed by the innermost signature of these layers, fully decrypted exactly if one of them is encryption (partially if only something inside the payload was decrypted), the signature inside the encryption exactly if some signature is, and the subject is replaced by the protected one of the payload exactly if there is a layer. For any message at all: a signature of the status is that of some shown part; decryption is reported just if some part was decrypted; a replaced subject needs a signature or full encryption.", "quantifier": "every MIME tree (any nesting of parts, multiparts, messages, PKCS#7, mangled multipart/encrypted), every outcome of verifying and decrypting its parts, every crypto context", "why_tests_cant": "Trees and combinations of outcomes are unbounded; T350-T357 contain a few messages.", "anchors": ["mime-node.c: _mime_node_set_up_part, node_verify, node_decrypt_and_verify, mime_node_child", "util/crypto.c: _notmuch_message_crypto_potential_sig_list, _notmuch_message_crypto_potential_payload, _notmuch_message_crypto_successful_decryption", "util/repair.c", "devel/schemata"]}
{"id": "C55", "title": "Parts are all shown, numbered in order, and found again by number", "statement": "Showing a message ends for every message, numbers its parts 1, 2, 3, ... in the order shown, and hides none of them (except the legacy-display copy of protected headers in a fully decrypted message). --part=0 is the whole message, --part=k finds exactly the part shown with number k, with the same parts below it, and a number beyond the last finds nothing.", "quantifier": "every MIME tree, every outcome of verifying and decrypting, every crypto context, every number", "why_tests_cant": "Trees are unbounded and the numbers depend on decryption and repair of every part before; tests use a few messages.", "anchors": ["mime-node.c: mime_node_open, mime_node_child, _mime_node_seek_dfs_walk, mime_node_seek_dfs", "util/repair.c", "notmuch-show.c: format_part_text, format_part_sprinter, do_show_single"]}
{"id": "C56", "title": "What is indexed of an encrypted message is decided by index.decrypt alone, and session keys are kept as it says", "statement": "When a message is indexed under a decryption policy (false, auto, nostash, true; notmuch_indexopts_set_decrypt_policy, index.decrypt, --decrypt), the body text put into the index is exactly that of the parts that are not encrypted or that can be opened in a way the policy allows: with a session key stashed for the message unless the policy is false, with the user's secret keys under nostash and true. Under false, or auto without a stashed key, the index is the same as if the encrypted content did not exist, and no key is used or stored; under auto the result does not depend on what the secret keys could open. Session keys are added only under true, only ones exported for parts of this message, and afterwards every part that was opened opens with the stashed keys alone; reindexing under false forgets all of them, under the other policies loses none. index.decryption=success / =failure are set just if some encrypted part was, or was tried and was not, opened. A subject from inside of the encryption is indexed only under true.", "quantifier": "every tree of MIME parts of any depth (nested encryption, S/MIME, mixed-up messages), every set of stashed keys, every assignment of which key opens what, every policy", "why_tests_cant": "MIME trees nest without bound, and a leak of cleartext into the index for one shape of message is not seen by tests of others; tests have a few messages made with one key", "anchors": ["lib/index.cc:_index_mime_part", "lib/index.cc:_index_encrypted_mime_part", "lib/index.cc:_index_pkcs7_part", "util/crypto.c:_notmuch_crypto_decrypt", "util/crypto.c:_notmuch_message_crypto_potential_payload", "lib/message.cc:notmuch_message_reindex", "doc/man1/notmuch-config.rst"]}
{"id": "C57", "title": "mbox output can be read back", "statement": "notmuch show --format=mbox writes, for every message whose file can be read, a From_ line, the lines of the file in order with every line that starts with any number of '>' followed by 'From ' prefixed by one more '>', and a blank line; reading the output by the mboxrd rules gives back exactly the messages, in order. If a file cannot be opened the command fails without writing anything for the message. (Two ways in which this fails are proved too: the loop over the lines ends only at end of file, so a read error such as a damaged gzip file makes the command write for ever; and a NUL byte cuts the line at that place.)", "quantifier": "all message files (any bytes without NUL), all lists of messages", "why_tests_cant": "The quoting must be invertible for every body, including lines that already look quoted, missing final newlines and messages that contain mbox separators; tests look at a handful of bodies.", "anchors": ["notmuch-show.c: format_part_mbox, is_from_line", "util/zlib-extra.c: gz_getline"]}
{"id": "C58", "title": "notmuch show prints the messages asked for, each once, replies below what they reply to", "statement": "notmuch show prints the threads that notmuch search lists for the same query, sort order, offset and limit. Each thread is printed as trees in which every message is below one that it names in In-Reply-To or References, siblings oldest first, no message appears twice, and messages that are not selected are null; the messages printed are exactly the selected ones (with --entire-thread: all mail of the threads with a selected message) if no message names itself through others; the structure is the documented one. With --unthreaded a window of the list of selected messages is printed. With --part, --duplicate or --format=raw exactly one message must match. A message whose file cannot be read changes nothing about the others and makes the command fail. (Refuted: an unreadable message and --unthreaded both give a structure that is not the documented one; --unthreaded --exclude=false with a negative offset prints the wrong window.)", "quantifier": "all databases in which a message has one thread, all queries, excluded tags, options, sorting functions and sets of unreadable messages", "why_tests_cant": "It must hold for every shape of the reply graph, including cycles and missing parents, and every combination of matching and excluded messages in a thread.", "anchors": ["notmuch-show.c: show_message, show_messages, do_show_threaded, do_show_unthreaded, do_show_single, notmuch_show_command", "lib/thread.cc: _resolve_thread_relationships", "devel/schemata"]}
{"id": "C59", "title": "notmuch new gives a new message exactly the configured tags", "statement": "After a run of notmuch new, a message whose id was not in the database before has exactly the tags of new.tags, apart from the tags that indexing sets (attachment, signed, encrypted) and the tags that stand for maildir flags when those are synchronized; a message with one file has exactly: the tags its maildir flags stand for (when synchronized) and the configured tags, except that 'unread' is not added when the file carries the seen flag.", "quantifier": "all databases that can exist, mail stores, configurations (new.tags, ignore lists, flag synchronization), points of interruption, ids, tags, and numbers of files of the message", "why_tests_cant": "a test looks at a few files and one configuration; the claim covers every order of files, duplicates of one message in one run, interruption at any place, and removals in the same run", "anchors": ["notmuch-new.c: add_file, add_files, remove_filename", "lib/message.cc: notmuch_message_maildir_flags_to_tags, notmuch_message_has_maildir_flag"]}
{"id": "C60", "title": "Indexing drops only uuencoded data and HTML tags from the text of a part", "statement": "Of the decoded text of a text part, indexing sees everything except: in plain text, the data lines of a uuencoded file (lines of the full length introduced by 'M' after a line 'begin <mode> <name>'), and in HTML, the tags. The filter that does so works on any bytes, gives the same result however the text is cut into buffers, never writes more than it reads, and a text without a 'begin' line is kept byte for byte. (Refuted in detail: the first character after the data is lost too; 'begin' need not be at the beginning of a line; an apostrophe in an HTML comment hides the text after it; text after a NUL byte is not indexed.)", "quantifier": "all byte strings as content of a part, all ways of cutting them into the pieces in which GMime hands them to the filter, both kinds of text", "why_tests_cant": "the filter is a state machine over 256 byte values with state carried between buffers of arbitrary sizes; tests try a handful of texts smaller than one buffer", "anchors": ["lib/index.cc: filter_filter, filter_complete, notmuch_filter_discard_non_term_new, uuencode_states, html_states, _index_mime_part"]}
{"id": "C61", "title": "Searching a field with a regular expression finds exactly the matching messages", "statement": "from:/re/, subject:/re/ and mid:/re/ match exactly the messages whose stored sender, subject or id is not empty and matches re; tag:/re/, is:/re/, path:/re/ and folder:/re/ match exactly the messages that have a tag, path or folder that matches re, whatever other conditions they are combined with (the object that yields the matching messages answers correctly for every sequence of next, skip_to and check requests of the search engine). A value not between slashes is looked up literally; an unbalanced slash or an expression that does not compile is an error, not an empty result. (Refuted: a tag that ends in a slash cannot be found by tag:; subject:/^$/ finds no message with an empty subject.)", "quantifier": "all databases, expressions, fields, values, and all interleavings of next/skip_to/check calls by Xapian's matcher with either of its permitted behaviours for check", "why_tests_cant": "which of the cursor calls Xapian makes depends on the rest of the query and on statistics of the database; tests exercise few call patterns and few values", "anchors": ["lib/regexp-fields.cc: RegexpPostingSource::next, skip_to, check, init, at_end, _notmuch_regexp_to_query, RegexpFieldProcessor::operator()", "lib/regexp-fields.h", "lib/prefix.cc: prefix_table, _setup_query_field"]}
{"id": "C62", "title": "notmuch config set changes exactly the named item, and config get gives it back", "statement": "notmuch config set section.item with values either fails and changes nothing, or sets the item (in the file, or with --database in the database) and leaves every other item as it was; without values the item is removed. A later notmuch config get (or any command that reads the configuration) sees exactly the values that were set, in order, for UTF-8 values without semicolons and without blanks or a backslash at their ends; and setting such values never makes a later command fail to read its configuration. (Refuted: a list value that contains a semicolon is not read back; a value that is not UTF-8 makes the file unreadable for every later command; a section name with a period in the file can hide an item that was just set; success is reported when GLib refuses the name; prefix names with a period escape the check for reserved names.)", "quantifier": "all configuration files, items, lists of values, states of the database metadata and results of the file operations", "why_tests_cant": "escaping by one library and unescaping and splitting by another must cancel for every string; tests try three values", "anchors": ["notmuch-config.c: notmuch_config_command_set, _set_db_config, _item_split, validate_field_name, _config_key_info, notmuch_conffile_open, notmuch_conffile_save, notmuch_config_command_get", "lib/config.cc: _notmuch_config_load_from_file, notmuch_config_get_values_string"]}
{"id": "C63", "title": "Upgrading a database keeps every message and its files, and happens entirely or not at all", "statement": "notmuch_database_upgrade on a database of any older format either succeeds or leaves the database on disk as it was, also if the process is killed at any point. After success: every message has its document, its tags and its other terms; it is found under the files it had, including the one that the first format stored in the document's data, and under exactly the path: and folder: terms of these files; every directory has the time of its old time stamp; every stored thread id of a message that is missing has become a ghost in that thread and no other document was added; messages without a revision got new, different ones; and reopening the database finds the current features and needs no upgrade.", "quantifier": "all databases of all older feature sets (messages, directories, time stamps, thread ids), all failures of the queries, all crash points", "why_tests_cant": "the tests have one database of an old format; the combinations of missing features, names and lengths, and the points of failure, are not enumerable", "anchors": ["lib/database.cc notmuch_database_upgrade", "lib/message.cc _notmuch_message_upgrade_folder, _notmuch_message_upgrade_filename_storage, _notmuch_message_initialize_ghost, _notmuch_message_sync"]}
{"id": "C64", "title": "A directory object lists exactly the files and subdirectories the database knows there, and keeps its time", "statement": "After any history of adding and removing files of any messages, setting directory times and deleting directories that list nothing: notmuch_directory_get_child_files gives, sorted and without repetition, exactly the base names of the files that messages have in the directory; notmuch_directory_get_child_directories gives exactly its known subdirectories; every directory with a file, and every parent of a known directory, is known; every file name of every message can be made; notmuch_directory_get_mtime gives the time last set (0 if none was set since the directory became known); deleting a directory changes nothing else.", "quantifier": "all mail roots, directory names (also those stored as SHA-1, if they do not collide), messages and histories of these operations", "why_tests_cant": "the lists come from prefix ranges over the terms of the whole database, and document numbers from a shared counter; correctness is about every order of creating, deleting and creating again", "anchors": ["lib/directory.cc: _notmuch_directory_find_or_create, notmuch_directory_get_child_files, notmuch_directory_get_child_directories, notmuch_directory_set_mtime, notmuch_directory_delete", "lib/database.cc: _notmuch_database_get_terms_with_prefix, notmuch_database_get_directory"]}
{"id": "C65", "title": "A header of a message is determined by its file, whatever was asked before", "statement": "Reading a header of a message file gives the decoded value of the first header with that name in any case (for Received and Delivered-To all of them with spaces between; an empty text if there is none), whichever headers were read before. A file is indexed as mail exactly if it parses as one message and has a nonempty From, Subject or To; its id is never empty and is the id in its Message-Id header, else that header's text, else made from the file's SHA-1. notmuch_message_get_header gives From, Subject and Message-Id as they were when the message was first indexed, without needing the file; any other header comes from the message's first file as it was when first opened through this object. A file is opened below the mail root if its name is relative, and under its own name if it is absolute and begins with the root.", "quantifier": "all header lists, decoders, names, sequences of calls, changes of files between calls, roots and file names", "why_tests_cant": "decoded headers are cached in a hash table that ignores case and files are opened lazily, so an answer could depend on the whole history of calls", "anchors": ["lib/message-file.c: _notmuch_message_file_get_header, _notmuch_message_file_get_combined_header, _extend_header, _notmuch_message_file_get_headers, _notmuch_message_file_open_ctx", "lib/message.cc: notmuch_message_get_header, _notmuch_message_set_header_values"]}
{"id": "C66", "title": "A relative date is the right one for the distance in time, and unambiguous", "statement": "notmuch_time_relative_date shows a time of the last hour as minutes, a time on the local day as Today with its time of day, one on the day before as Yest., one two to six days before with its weekday, an older one up to 180 days ago with month and day and any other with the full date, provided the zone's offset from UTC is the same now and then. Two times shown alike are less than a minute apart or on the same day, at the same minute of it if it is one of the last seven. No text is cut off by the buffer. The hours, minutes and seconds of a printed elapsed time add up to it.", "quantifier": "all current times, times and zone offsets", "why_tests_cant": "tests run at one time in one zone; the conditions mix elapsed seconds and weekdays, and only arithmetic over all days shows that they never disagree", "anchors": ["notmuch-time.c: notmuch_time_relative_date, notmuch_time_print_formatted_seconds"]}
{"id": "C67", "title": "notmuch count prints the number of results notmuch search shows", "statement": "For every database, query and set of excluded tags, notmuch count with --output=threads, messages or files prints the number of results that notmuch search with the same query, the same output and the same exclusion shows, in whatever order. In batch mode the queries are answered one per line and in order, each as if asked alone, up to the first that fails; then the command fails and prints nothing more.", "quantifier": "all databases, queries, tags, outputs, orders and batch inputs", "why_tests_cant": "counting takes other paths through the library (Xapian's match count, a hash of thread ids, loops over file names) than searching; agreement is about all databases", "anchors": ["notmuch-count.c: print_count, count_files, count_file, notmuch_count_command", "lib/query.cc: notmuch_query_count_messages, notmuch_query_count_threads"]}
{"id": "C68", "title": "notmuch setup writes the answers, all or nothing", "statement": "After a complete dialogue every item for which something was typed reads back from the configuration file as typed (the mail directory made absolute, the tag answers split into their words, the additional addresses being the current ones - each kept or replaced - followed by the new ones), every other item of the file reads as before; Enter at every question changes nothing; end of input before the last answer or a failing save leaves the file as it was; the next command gets the tags that were typed. (Answers with leading spaces, lines beginning with NUL and the configuration object after it was closed are mishandled: refuted.)", "quantifier": "all configuration files GLib can hold without dotted group names, current addresses, answers in UTF-8, working directories and truncations of the dialogue", "why_tests_cant": "the answers, the old file and the point where the input ends are unbounded; test/T040-setup.sh tries two dialogues", "anchors": ["notmuch-setup.c:notmuch_setup_command", "notmuch-setup.c:parse_tag_list", "notmuch-setup.c:make_path_absolute", "notmuch-config.c:_config_set_list", "notmuch-config.c:notmuch_conffile_save"]}
{"id": "C69", "title": "Hooks run at the right time, without the write lock, and their failure is reported", "statement": "A missing hook is no error; a hook that is not executable, cannot be started, is killed or exits with a non-zero status is. notmuch new runs pre-new before any change and without the write lock - if it fails nothing is changed and the exit status is 1 - and post-new only after all changes succeeded and the database was closed; its exit status is 0 exactly if everything including the hooks went well and no file vanished, 75 if only files vanished, 1 otherwise. notmuch insert runs post-insert exactly after a delivery, after the database was closed, and the hook cannot change the exit status. (A script whose interpreter is missing counts as success: refuted.)", "quantifier": "all outcomes of access, fork, exec, waitpid, of the hooks and of every step of the commands", "why_tests_cant": "the tests provoke a handful of the failure combinations; the claim is about all of them and about the lock at the time the hook runs", "anchors": ["hooks.c:notmuch_run_hook", "notmuch-new.c:notmuch_new_command", "notmuch-insert.c:notmuch_insert_command", "status.c:status_to_exit"]}
{"id": "C70", "title": "Only the commands that change the database can write to it", "statement": "The handle given to a command allows changes exactly for new, insert, tag, dump, restore, compact and reindex, is read-only for search, address, show, count and reply, and is no open database for the others; any other name runs the external program notmuch-<name> or fails; the exit status of a command that ran is the one it returned; exit status 0 without running anything happens only for plain 'notmuch' without a database and for 'notmuch config' without a configuration (the latter contradicts the expectation that failure is reported: refuted).", "quantifier": "all command names and all outcomes of creating, opening, loading and executing", "why_tests_cant": "names and outcomes of the steps are unbounded combinations", "anchors": ["notmuch.c:main", "notmuch.c:find_command", "notmuch.c:try_external_command", "notmuch.c:commands"]}
{"id": "C71", "title": "A failed addition loses no mail", "statement": "If notmuch_database_index_file fails at any step before it writes the message (a Xapian exception anywhere in linking it to its references, also between two documents of a thread merge, or an error while indexing its text), then all messages are still in the database under the same document with the same files, tags, properties and references, each in one thread; no message was added and everything else is a placeholder without files, tags, properties or references; two ids share a thread only if references of files added before or of the failing file connect them. That the threads are as before is false, as is that a thread stays together when the failure hits a merge, and that adding the file again mends it (refuted).", "quantifier": "all histories of calls, all files, all orders of the references, every point of failure", "why_tests_cant": "failure points and histories are unbounded; the merge can stop after any document", "anchors": ["lib/add-message.cc:notmuch_database_index_file", "lib/add-message.cc:_merge_threads", "lib/add-message.cc:_resolve_message_id_to_thread_id"]}
{"id": "C72", "title": "Subqueries mean what they find", "statement": "In an infix search, thread:{q} finds exactly the messages of threads in which some document matches q (so, when q can only match messages, exactly the threads of the messages q finds), thread:ID exactly the messages of that thread, and query:NAME exactly what the text saved under that name finds; and, or and not combine them as sets. If any text used on the way (between braces, or saved under a name, at any depth) does not parse, the search is an error and never runs with a part left out; if saved queries do not refer to each other in a circle, parsing ends. A query object with s-expression syntax, reused after a change, searches the database as it is (false of infix syntax, refuted). That thread:{q} follows only messages q finds, that query:NAME of an unset name means the empty query, that circular names are reported and that every bad value is an error status are false (refuted).", "quantifier": "all databases, all query strings and nestings of subqueries and saved queries, all results of Xapian's grammar", "why_tests_cant": "quantifies over every database (with or without ghosts), every nesting depth of subqueries and every set of saved queries", "anchors": ["lib/thread-fp.cc:ThreadFieldProcessor::operator()", "lib/query-fp.cc:_notmuch_query_name_to_query", "lib/sexp-fp.cc:SexpFieldProcessor::operator()", "lib/query.cc:_notmuch_query_string_to_xapian_query", "lib/query.cc:_notmuch_query_expand", "lib/query.cc:_notmuch_query_ensure_parsed"]}
{"id": "C73", "title": "notmuch git stores ids and tags without loss", "statement": "notmuch git writes a tag of a message as the documented path (encoded id, encoded tag, in format 1 below two hash directories) of its git tree; reading that path back gives the same id and tag, different (id, tag) pairs are different paths, every character of a path is one git prints unquoted, and git accepts it exactly when id and tag are usable file names. The output of 'notmuch dump' is read as exactly the messages with exactly their tags carrying the prefix, and the lines checkout writes are read by 'notmuch tag --batch' as operations on exactly the prefixed tags of exactly that message. False (refuted): that only the documented characters are kept, that a prefix with a tilde works, that every message id is read, that every tag can be stored, that a repository read in the other format gives an error.", "quantifier": "all message ids, tags, prefixes, database contents and dump texts; both repository formats; every hash function", "why_tests_cant": "quoting is composed of four codecs (Python's quoting, git's paths, notmuch's hex and Xapian quoting) over unbounded strings", "anchors": ["notmuch-git.py:_hex_quote", "notmuch-git.py:_id_path", "notmuch-git.py:_unpack_diff_lines", "notmuch-git.py:_xapian_quote", "notmuch-git.py:_xapian_unquote", "notmuch-git.py:_batch_line", "notmuch-git.py:PrivateIndex"]}
{"id": "C74", "title": "notmuch git status, commit, checkout and merge agree with the database", "statement": "notmuch git status lists as added exactly the prefixed tags of mail in the database that HEAD lacks, as deleted exactly those HEAD has and the message in the database lacks, as missing those of messages not in the database; it changes neither HEAD nor the database and stays exact when run again, incrementally, after any further additions of messages and changes of tags. commit makes HEAD hold exactly the tracked tags plus what it held of messages not in the database, and leaves a clean status; checkout makes the prefixed tags of all mail those of HEAD and touches nothing else; merge and pull refuse to start with uncommitted changes, so that none are lost, and end with the tags of the merged tree. Without --force no more messages change than the safe fraction allows. False (refuted): that clone loads the tags, that commit keeps the tags of messages known only by reference (or, without the Python bindings, of any message the database lacks), that status is right after the database was replaced, after messages were removed, after a change concurrent with an earlier run, or with a prefix containing an upper-case letter.", "quantifier": "all databases, repositories with a valid cache, histories of runs and changes, merged trees, prefixes, fractions", "why_tests_cant": "correctness of the incremental private index is an invariant over unbounded histories of runs, commits, checkouts and database changes", "anchors": ["notmuch-git.py:get_status", "notmuch-git.py:PrivateIndex", "notmuch-git.py:commit", "notmuch-git.py:checkout", "notmuch-git.py:merge", "notmuch-git.py:pull", "notmuch-git.py:check_safe_fraction", "notmuch-git.py:clone"]}
{"id": "C75", "title": "notmuch new converges after any history of interruptions, kills and changes of the mail store", "statement": "Whatever happened before - runs of notmuch new that completed, failed, were interrupted or were killed at any moment (also in the middle of removing a directory), deliveries by other commands, removals, tag changes, and any changes of the mail store that give the directories they change a new modification time - one more run that is not interrupted and finds no unreadable directory or dangling link succeeds, records every mail of the scanned directories, and drops every file that is gone; no --full-scan is needed. A killed run drops no file that still exists and leaves the messages of such files their properties and non-flag tags. False (refuted): that it converges when a directory is moved away and back with its old modification time around a killed run, or after new.ignore changes.", "quantifier": "all histories of runs (with every interruption and kill point), commands and mail-store states, of any length", "why_tests_cant": "the recorded modification times are an invariant over unbounded histories and over every crash point between the database operations of a run", "anchors": ["notmuch-new.c:add_files", "notmuch-new.c:_remove_directory", "notmuch-new.c:notmuch_new_command", "lib/directory.cc:notmuch_directory_set_mtime"]}
{"id": "C76", "title": "The structured output of notmuch show has the documented structure and says what is known of the message", "statement": "For every message, MIME tree, set of headers and signatures and every option, what notmuch show prints of a message in JSON or S-expressions is one value that reads back from the text; it has the structure of devel/schemata (required and optional keys, their types, no repeated keys in objects other than headers); it shows every part of the message in its place with the number by which it can be requested, its content type, disposition, file name, text (unless HTML without --include-html) or its size, the status of the signatures and of decryption, and the subject that was protected by the encryption if there is one. A signer's name and address are printed only for a good signature by a key of full or ultimate validity. False (refuted): that header names are always distinct (show.extra_headers=Subject prints the outside subject a second time), and that --body=false only leaves the bodies out (it also shows the outside subject and an empty crypto status).", "quantifier": "all MIME trees, header sets, signature lists, crypto contexts, options and format versions", "why_tests_cant": "the schema has to hold for MIME trees of any shape and depth and every combination of signature statuses", "anchors": ["notmuch-show.c:format_part_sprinter", "notmuch-show.c:format_message_sprinter", "notmuch-show.c:format_headers_sprinter", "notmuch-show.c:format_part_sigstatus_sprinter", "devel/schemata"]}
{"id": "C77", "title": "notmuch show --part=k prints exactly what the full output shows for part k", "statement": "For every message and every k >= 1: if the message has at least k parts, notmuch show --part=k prints the very value that the full structured output contains for the part with id k; otherwise it prints nothing.", "quantifier": "all messages, all part numbers, all options and crypto contexts", "why_tests_cant": "numbering is global over a lazily decrypted tree of unbounded shape; the claim relates two different traversals", "anchors": ["notmuch-show.c:show_message", "mime-node.c:mime_node_seek_dfs", "notmuch-show.c:format_part_sprinter"]}
{"id": "C78", "title": "Emacs delivers every result of a search once, in order, however the output is split into pieces", "statement": "notmuch search, show and address with --format=sexp, run asynchronously by the Emacs front end, send a list whose text arrives in arbitrary pieces. Whatever the elements (with any bytes in their strings), the layout of the printer and the pieces, the result function is applied to exactly the elements of the list, in order, once each, no error is signalled and nothing is left in the buffer. While the output is arriving, or if it is cut short, exactly the first n elements have been delivered, where n counts at least every element whose text has arrived completely (with one more character after a number, t or nil).", "quantifier": "all lists of values, all printer layouts, all ways of cutting the output into pieces, all truncation points", "why_tests_cant": "the pieces are decided by the scheduler and the pipe; a piece may end anywhere, e.g. within an escape of a string", "anchors": ["emacs/notmuch-parser.el:notmuch-sexp-read", "emacs/notmuch-parser.el:notmuch-sexp-begin-list", "emacs/notmuch-parser.el:notmuch-sexp-parse-partial-list", "emacs/notmuch.el:notmuch-search-process-filter", "sprinter-sexp.c"]}
{"id": "C79", "title": "Tagging from Emacs: what is sent is what was asked, what is shown is what is stored, and undo", "statement": "When tag changes that pass the front end's check are applied to a query, one batch line is sent to the command line tool, which reads it as exactly those additions and removals and that query; the messages the query selects get exactly those changes (the last one for a tag wins), no other message changes, and the operation is recorded. After tagging the message shown, the tags displayed are, in order and without repetition, the tags the database now has for it. The query built for a message id is read back as that id whatever characters it contains. Undo restores the tags of every message when each change was effective on each message, no tag was named twice and the query still selects the same messages. Strings that fail the check, or a missing query, run nothing.", "quantifier": "all lists of changes, queries, ids, databases and displayed tag lists; all strings for the check", "why_tests_cant": "tags, ids and queries are arbitrary text; agreement between the Emacs-side update, the batch grammar and the database must hold for all of them and for every database", "anchors": ["emacs/notmuch-tag.el: notmuch-tag, notmuch-update-tags, notmuch-tag-undo, notmuch-tag-change-list", "emacs/notmuch-lib.el: notmuch-hex-encode, notmuch-escape-boolean-term, notmuch-id-to-query", "emacs/notmuch-show.el: notmuch-show-tag", "tag-util.c: parse_tag_line", "notmuch-tag.c: tag_file, tag_query"]}
{"id": "C80", "title": "A killed 'notmuch tag' leaves every message with its old or its new tags, and repeating it completes it", "statement": "Kill 'notmuch tag' anywhere, with or without maildir.synchronize_flags. What the next process finds is: every message has exactly the tags it had, or, if the query selects it, exactly the tags the complete list of operations gives; the messages were done in the order of the results, so up to one of them all are done and from there on none is touched; nothing else of any message changed, except file names; every mail file is under its old name or the one the run gives it, with its contents, provided no name is taken twice. Repeated until it runs to the end, after any number of kills, the command leaves exactly the tags of a run that was never killed, also when the query is about the tags being changed. Interrupted by a signal it handles, it completes the message at hand and what it did is durable.", "quantifier": "for every database, disk, query (about single messages), list of operations, set of failing renames, for every point of the kill and every flush schedule of Xapian, and for any number of kills", "why_tests_cant": "A test kills a process at a few times; the claim is about every point between any two effects, every moment Xapian chooses to flush, and every number of repetitions.", "anchors": ["notmuch-tag.c:tag_query", "notmuch-tag.c:_optimize_tag_query_infix", "tag-util.c:tag_op_list_apply", "lib/message.cc:notmuch_message_tags_to_maildir_flags", "lib/message.cc:_notmuch_message_sync"]}
{"id": "C81", "title": "The text output of notmuch show has the structure of the mail; raw output is the file", "statement": "A program that reads 'notmuch show --format=text' by the lines that open and close blocks gets back: the message with its id, depth, flags and file name, its headers, and in its body exactly the parts of the mail, nested as they are, numbered as for --part, each with its text or a note that it is none; several messages one after the other are read as what each is read as. This holds for every mail whose pieces cannot be taken for such lines. With --duplicate=N the N-th file is shown or an error reported; without it, the first file that can be opened. Raw output of a message is exactly what the file holds, or fails.", "quantifier": "for every MIME structure of any depth, every cryptographic result, every header and text whose lines do not begin with a form feed and end with a newline, every list of files and set of them that can be opened, and every sequence of reads", "why_tests_cant": "Tests compare the output for some mails; the claim is about all nestings of parts and all texts.", "anchors": ["notmuch-show.c:format_part_text", "notmuch-show.c:format_part_raw", "notmuch-show.c:_get_filename", "notmuch-show.c:_get_one_line_summary", "mime-node.c:mime_node_open"]}
{"id": "C82", "title": "Search, address and reply output can be read back", "statement": "For every list of threads, notmuch search --output=summary prints, in JSON and as an S-expression, a list with one object per thread in order, with the fields of devel/schemata (with \"query\" from format version 2 on), each with the thread's own values; the two queries name exactly the matched and the other messages, null if there are none. The other search outputs are the list of the strings, notmuch address gives an object per mailbox with its name, address and count, notmuch reply an object with the headers of the reply and the original as notmuch show prints it. As text, the summary has one line per thread, from which identifier, date, the numbers of messages and files, and (for tags without blanks and parentheses) the tags can be read; only tags with newlines can forge lines.", "quantifier": "every list of threads, mailboxes or strings, every sort order, format version, time zone and time of day, every message replied to", "why_tests_cant": "Tests compare the output for a few threads; that no author, subject or tag can upset the structure, or be lost, holds for all strings.", "anchors": ["notmuch-search.c: do_search_threads, do_search_messages, do_search_tags, print_mailbox, get_thread_query", "notmuch-reply.c: do_reply", "devel/schemata", "sprinter-text.c"]}
{"id": "C83", "title": "Lifetimes of objects in the Python bindings", "statement": "Using the Python bindings never makes the library read or free memory that is already free, whatever the order in which objects are destroyed or finalized by the interpreter, provided the program asks objects whether they are alive before it uses them, and nothing that came out of a message holds memory when a 'with message.frozen()' block on it fails. A program that leaves all lifetimes to reference counting need not even ask, except that messages must not outlive the end of the iteration over the query that gave them. An object that was destroyed raises an exception when used, and so do its tags, properties or configuration views; destroying it again is harmless. Once the databases of a program are destroyed, no memory of the library is left allocated, even if other objects were never destroyed.", "quantifier": "all programs (sequences of opening, method calls, views, iteration, iteration to the end, failing frozen blocks, destruction and finalization), of any length, on any number of databases and objects, with finalizers in every order", "why_tests_cant": "The order of finalizers depends on the interpreter, reference cycles and shutdown; a use after free often goes unnoticed in a test, and there is no bound on the number of objects or on how they are nested.", "anchors": ["bindings/python-cffi/notmuch2/_base.py:NotmuchIter", "bindings/python-cffi/notmuch2/_base.py:MemoryPointer", "bindings/python-cffi/notmuch2/_database.py:Database._destroy", "bindings/python-cffi/notmuch2/_query.py:Query", "bindings/python-cffi/notmuch2/_message.py:Message.frozen", "bindings/python-cffi/notmuch2/_message.py:MessageIter", "bindings/python-cffi/notmuch2/_thread.py:Thread", "bindings/python-cffi/notmuch2/_tags.py:TagsIter", "lib/query.cc:_notmuch_mset_messages_get", "lib/thread.cc:notmuch_thread_get_messages"]}
{"id": "C84", "title": "notmuch-emacs-mua composes exactly what its command line says", "statement": "notmuch-emacs-mua hands Emacs one well-formed Lisp expression whatever the subjects, addresses, file names, mailto: URL and current directory contain (quotation marks, backslashes, parentheses, newlines); evaluating it changes to the current directory and composes a mail whose subject, recipients and inserted files are exactly the values given, in order, with recipients separated by commas, and nothing else is evaluated. A single mailto: operand is passed on unchanged, --hello shows the hello screen when nothing asks for a mail. Combining mailto: with other parameters, two mailto: operands and unknown options are refused and nothing is run. --print runs nothing.", "quantifier": "all sequences of options, in every documented spelling, with arbitrary bytes as values, all operands, and all current directories", "why_tests_cant": "The values are arbitrary text that becomes part of a program; whether some value escapes from the string it is put into cannot be seen on a few values.", "anchors": ["emacs/notmuch-emacs-mua:escape", "emacs/notmuch-emacs-mua"]}
{"id": "C85", "title": "Drafts saved from Emacs come back as they were", "statement": "A mail saved as a draft in Emacs and resumed has the body it had, including MML tags, MML tags that were already quoted and the line that asks for encryption, and the headers it had except Message-ID and Date. What is saved contains none of the MML tags the user chose to quote. A mail with a tag <#part encrypt or a line <#secure ... mode=...encrypt> is saved only if the user agreed. However often a mail is saved, with failing or refused saves in between, at most one draft of it that is not tagged deleted is left, the one saved last, and none after it was sent; drafts of other mails are not touched.", "quantifier": "all bodies and headers (arbitrary bytes), all lists of tags that are words, both settings of case-fold-search, all settings of notmuch-draft-save-plaintext, all sequences of saving and sending with all failures of notmuch insert and of the transport", "why_tests_cant": "Quoting has to be undone exactly for every text, including text that looks quoted already, and the drafts left over depend on which commands failed in a history of any length.", "anchors": ["emacs/notmuch-draft.el:notmuch-draft-quote-some-mml", "emacs/notmuch-draft.el:notmuch-draft-unquote-some-mml", "emacs/notmuch-draft.el:notmuch-draft-save", "emacs/notmuch-draft.el:notmuch-draft-resume", "emacs/notmuch-draft.el:notmuch-draft--mark-deleted", "emacs/notmuch-draft.el:notmuch-draft--has-encryption-tag"]}
{"id": "C86", "title": "Storing a sent mail in a maildir from Emacs", "statement": "When Emacs stores a sent mail itself (Fcc to a maildir, without notmuch insert), then at every moment, whatever other programs do to the maildir and wherever Emacs is interrupted, no existing mail is changed or removed and the stored mail appears in cur only as a whole. When the function returns, the whole mail is in the maildir: in cur, with nothing left in tmp, or still in tmp if another file had the name. The name is a maildir name whose only flag is S, whatever the host is called; no two mails stored by one Emacs, by two processes on a host or by two hosts get the same name, even if the clock is set back.", "quantifier": "all mails, host names, clocks and process ids, all prior contents of the maildir, all interleavings with other programs (that leave the two files of that name alone), all points of interruption and failing file operations", "why_tests_cant": "Interruption points, partial writes and the actions of other programs cannot be enumerated by tests, and uniqueness of names is a statement about all pairs.", "anchors": ["emacs/notmuch-maildir-fcc.el:notmuch-maildir-fcc-write-buffer-to-maildir", "emacs/notmuch-maildir-fcc.el:notmuch-maildir-fcc-save-buffer-to-tmp", "emacs/notmuch-maildir-fcc.el:notmuch-maildir-fcc-make-uniq-maildir-id", "emacs/notmuch-maildir-fcc.el:notmuch-maildir-fcc-host-fixer", "emacs/notmuch-maildir-fcc.el:notmuch-maildir-fcc-move-tmp-to-cur"]}
{"id": "C87", "title": "Shared options: --uuid, --query, --version, --help, before or after the command", "statement": "With --uuid=U, where U is not the UUID of the database, no command that works on the database (but compact) goes ahead and the exit status is 1; the last --uuid on the line counts, before or after the command. With the right --uuid or none, the command opens the database (read-only for search, address, count, show, reply), and goes ahead with exactly its own options, the last --query and the remaining arguments, and its status is the exit status. --uuid=U and --query=S have the same effect before and after the command. --version and --help before the command are answered before anything is opened or created, and after the command they keep it from going ahead. A name that is no command's starts the program notmuch-NAME with the arguments unchanged.", "quantifier": "all command lines (any number of options and arguments), all commands, all answers of the system (database there or not, can be created or opened, state of the configuration)", "why_tests_cant": "Command lines and the states of the system they meet are unbounded; the test suite tries single options on three commands.", "anchors": ["notmuch.c:main", "notmuch.c:notmuch_process_shared_options", "notmuch.c:notmuch_exit_if_unmatched_db_uuid", "notmuch.c:notmuch_minimal_options", "notmuch.c:try_external_command", "notmuch-compact.c:notmuch_compact_command", "doc/man1/notmuch.rst"]}
{"id": "C88", "title": "In Python the tags of a message behave as a set", "statement": "message.tags is a set: iterating gives each tag once, 'in' finds exactly them, |, &, - and ^ (with a set, a list or other tags) give exactly the union, intersection, difference and symmetric difference, <=, <, >=, > and isdisjoint tell what they say, == of two tag sets tells whether they have the same tags and equal sets have equal hashes. add, discard, remove, clear, pop, |=, &=, ^= and -= change the tags of the message as they would change a set, and raise KeyError exactly when a set would, over any number of calls. A call on one tag that raises leaves the tags unchanged, and on a read-only database nothing changes them.", "quantifier": "all sets of tags that are texts (UTF-8 without NUL, at most 200 bytes), all texts, all operands (sets, lists, tags of other messages, the same tags), all sequences of changes of any length; errors: all values", "why_tests_cant": "The set of sets, operands and histories of changes is unbounded, and the operators are inherited from collections.abc, which relies on how __contains__, __iter__, add and discard agree for every text (encoding and decoding must be inverse).", "anchors": ["bindings/python-cffi/notmuch2/_tags.py:ImmutableTagSet", "bindings/python-cffi/notmuch2/_tags.py:MutableTagSet", "bindings/python-cffi/notmuch2/_tags.py:TagsIter", "lib/message.cc:notmuch_message_add_tag", "lib/message.cc:notmuch_message_remove_tag"]}
{"id": "C89", "title": "Python: frozen() and atomic() blocks are all or nothing", "statement": "A block 'with message.frozen():' stores nothing before its end, so that no crash leaves a part of its changes; if it ends normally exactly the tag changes it got to are stored, at once, and no other document changes; if an Exception comes out of it nothing is stored and the object is again unfrozen with the old tags. Such blocks may be nested and contain atomic sections and exceptions that are caught inside one block. A block 'with db.atomic():' is ended however it is left; until then nothing becomes durable, and what was written before an exception stays. abort() in an outermost section closes the database and keeps nothing of the section. Revisions of one database are ordered as their numbers.", "quantifier": "all programs of tag changes, raise, try, frozen and atomic blocks nested to any depth and of any length, all messages and databases, every crash point, messages of queries and of threads", "why_tests_cant": "Programs, nesting depths, places where an exception occurs and crash points are unbounded; the tests of the bindings try one block with one exception.", "anchors": ["bindings/python-cffi/notmuch2/_message.py:Message.frozen", "bindings/python-cffi/notmuch2/_message.py:OwnedMessage", "bindings/python-cffi/notmuch2/_database.py:AtomicContext", "bindings/python-cffi/notmuch2/_database.py:DbRevision", "lib/message.cc:notmuch_message_freeze", "lib/message.cc:notmuch_message_thaw"]}
{"id": "C90", "title": "Python: the configuration of a database is a dictionary", "statement": "db.config, with texts as keys and values, is a dictionary in which an empty value is the same as none: [], in, get, iteration, len and items agree with each other and give exactly the keys that have a value, each once; assignment, pop, popitem, clear, setdefault and update do what they do to a dict, with KeyError exactly when pop or popitem find nothing, over any history of calls; on a database open for reading only, and for a key or value without an encoding, nothing changes and the exception says so.", "quantifier": "all maps of the library with texts in them, all keys and values with an encoding, all sequences of calls of any length", "why_tests_cant": "Histories of calls and contents of the map are unbounded; the tests of the bindings set and get a few keys.", "anchors": ["bindings/python-cffi/notmuch2/_config.py:ConfigMapping", "bindings/python-cffi/notmuch2/_config.py:ConfigIter", "lib/config.cc:notmuch_config_set", "lib/config.cc:notmuch_config_get", "lib/config.cc:notmuch_config_get_pairs"]}
{"id": "C91", "title": "Emacs: tag changes in a search view reach the messages shown in the region", "statement": "In a notmuch-search buffer, adding or removing tags (+, -, a, and * for the whole buffer) changes, in one command, exactly the messages that were shown in the lines that meet the region (with *, the matched ones of every line): not the neighbouring lines, and not messages that have arrived since; if there is no such message nothing is run. Exactly the lines that meet the region are drawn again, also while their widths change, and a line that showed the tags of its thread's messages shows them afterwards.", "quantifier": "all lists of search results with any threads and message ids, all widths of lines, all regions, all lists of tag changes, all stores", "why_tests_cant": "Results, ids, widths and positions are unbounded; the tests of the front end tag one line of a small search.", "anchors": ["emacs/notmuch.el:notmuch-search-foreach-result", "emacs/notmuch.el:notmuch-search-find-stable-query-region", "emacs/notmuch.el:notmuch-search-tag", "emacs/notmuch.el:notmuch-search-update-result", "emacs/notmuch.el:notmuch-search-archive-thread", "emacs/notmuch.el:notmuch-search-tag-all", "notmuch-search.c:get_thread_query"]}
{"id": "C92", "title": "Python: the properties of a message are a set of pairs", "statement": "message.properties, with texts as keys and values, is a set of pairs (key, value): [], in and get give the first value of a key; iteration gives each key once per value in order, len counts the pairs, keys, values, items and getall give exactly the keys, values and pairs, each once; [k] = v and add add a pair, remove takes one away, del all of a key, pop and popitem the first, clear all, setdefault and update as their names say, over any history of calls, and nothing else of the message or of another message changes; KeyError is raised exactly when there is nothing to pop and no default. On a database open for reading only, with a '=' in the key, or with something that is not a text nothing changes and an exception is raised.", "quantifier": "all messages with texts as properties, all keys and values with an encoding that fit into a term, all sequences of calls of any length", "why_tests_cant": "Histories of calls and contents of the message are unbounded; the tests of the bindings use a few pairs.", "anchors": ["bindings/python-cffi/notmuch2/_message.py:PropertiesMap", "bindings/python-cffi/notmuch2/_message.py:PropertiesIter", "lib/message-property.cc:notmuch_message_add_property", "lib/message-property.cc:notmuch_message_get_properties"]}
{"id": "C93", "title": "Threads in databases without ghost messages", "statement": "In a database without the ghost-messages feature (made before notmuch 0.19 and not upgraded), no history of additions, removals and tag changes aborts for want of a thread id; ids are unique and every message has one thread. Once a file has been added, its message shares its thread with every message it refers to (ids of at most 189 bytes) that is in the database, whether that came earlier or comes later, for as long as the message stays, through all later successful additions, removals and tag changes. Messages share a thread only if connected through references of added files, in every history. When every message referred to is eventually added, threads are exactly the connected components, whatever the order of additions. An addition, even one that fails, leaves tags, files and properties of other messages alone and separates no two messages.", "quantifier": "all histories of additions, removals and tag changes, of any length, with any references, any order of the hash table and any failures of indexing", "why_tests_cant": "Orders of arrival and reference graphs are unbounded; no test builds such a database except through one upgrade fixture.", "anchors": ["lib/add-message.cc:_resolve_message_id_to_thread_id_old", "lib/add-message.cc:_notmuch_database_link_message_to_children", "lib/add-message.cc:_consume_metadata_thread_id", "lib/add-message.cc:_notmuch_database_link_message"]}
{"id": "C94", "title": "Emacs: changing tags in the tree view and in the show view", "statement": "In a tree view every message of every thread found has a line with its tags. Tagging or archiving the thread of the current line gives the operations to exactly the messages in the lines of that thread, tagging a message to exactly that one; in a show view the same for the current message and for all messages of the buffer, in one command each. No other message is touched, such as one that has joined a thread since. If what a view shows is true of the database, then after any sequence of tag commands in that view (also marking messages as read on its own, which happens to a message at most once) every one of them has succeeded and the tags shown are still those in the database.", "quantifier": "all forests of threads, all message ids without newline and NUL, all tags, all positions in the buffers, all sequences of commands of any length, all databases", "why_tests_cant": "The shapes of threads, ids that need quoting in a query and histories of commands are unbounded.", "anchors": ["emacs/notmuch-tree.el:notmuch-tree-tag-thread", "emacs/notmuch-tree.el:notmuch-tree-thread-mapcar", "emacs/notmuch-tree.el:notmuch-tree-insert-tree", "emacs/notmuch-tree.el:notmuch-tree-tag-update-display", "emacs/notmuch-show.el:notmuch-show-tag-message", "emacs/notmuch-show.el:notmuch-show-tag-all", "emacs/notmuch-show.el:notmuch-show-seen-current-message"]}
{"id": "C95", "title": "Lifetimes of objects in the Ruby bindings", "statement": "A Ruby program that lets an object go (by destroy! or to the garbage collector) only after what came out of it and still needs it - of a database everything, of a query its threads, of a thread everything, of a message its replies, and no iterator during its own each -, that fetches no message of a thread twice and collects tags of search results only, never touches memory that was freed, whatever it does and in whatever order the collector runs. In any program at all: after destroy! every method of that object raises and changes nothing; the collector never frees anything twice; when all objects are gone all memory is free but for one empty block per Database.new; and a change made through a database is on disk when its close or destroy! has returned.", "quantifier": "all sequences of operations of any length, with any number of databases, queries, threads, messages, nested each loops and any moments of garbage collection; all contents of the index", "why_tests_cant": "The order in which the collector frees objects is arbitrary, and so are the programs and the shapes of threads; undefined behaviour often goes unnoticed in a test.", "anchors": ["bindings/ruby/defs.h:notmuch_rb_object_create", "bindings/ruby/defs.h:notmuch_rb_object_destroy", "bindings/ruby/defs.h:notmuch_rb_object_free", "bindings/ruby/init.c:define_type", "bindings/ruby/database.c:notmuch_rb_database_initialize", "bindings/ruby/messages.c:notmuch_rb_messages_each", "bindings/ruby/threads.c:notmuch_rb_threads_each", "bindings/ruby/messages.c:notmuch_rb_messages_collect_tags", "lib/messages.c:notmuch_messages_collect_tags"]}
{"id": "C96", "title": "A message object says what is true of the message", "statement": "Whatever was read through a message object before, its tags, thread, file names, properties, ghost flag and In-Reply-To always take every change made through it into account at once, frozen or not, and no other (as long as it is the only object for the message, and is not reindexed). When it is not frozen, exactly this is in the database, and a new object says the same; while it is frozen, none of its changes but renames is written. Through a database opened for reading only, nothing changes.", "quantifier": "all documents; all sequences of reads, tag and property changes, renames by maildir flags, freezes and thaws, of any length; all values, also too long ones", "why_tests_cant": "What is remembered depends on the whole history of reads and changes of the object; a stale answer shows only for particular orders of them.", "anchors": ["lib/message.cc:_notmuch_message_ensure_metadata", "lib/message.cc:_notmuch_message_invalidate_metadata", "lib/message.cc:_notmuch_message_add_term", "lib/message.cc:_notmuch_message_remove_term", "lib/message.cc:_notmuch_message_remove_terms", "lib/message.cc:_notmuch_message_remove_indexed_terms", "lib/message.cc:_notmuch_message_sync", "lib/message.cc:notmuch_message_reindex", "lib/message.cc:notmuch_message_tags_to_maildir_flags", "lib/message-property.cc:notmuch_message_remove_all_properties_with_prefix"]}
{"id": "C97", "title": "Emacs: wrapping long lines of a message", "statement": "When Emacs has wrapped the long lines of a shown message, nothing has changed but that some spaces have become line breaks, each followed by the citation marks of its line. Wrapping ends, without an error, when no line has more '>' than half the width. Each part of a wrapped line then fits into the width or has no place to break, and so does every line of a text without '>'; in any text, what is left unwrapped are lines at its end with no more characters than the repeated marks have.", "quantifier": "all texts (characters of width one), all widths", "why_tests_cant": "The text comes from others; tests wrap only a few lines, and do not find the texts on which the loop never ends.", "anchors": ["emacs/coolj.el:coolj-wrap-region", "emacs/coolj.el:coolj-wrap-line", "emacs/coolj.el:coolj-set-breakpoint", "emacs/coolj.el:coolj-find-break-backward", "emacs/coolj.el:coolj-find-break-forward", "emacs/coolj.el:coolj-determine-prefix", "emacs/notmuch-wash.el:notmuch-wash-wrap-long-lines"]}
{"id": "C98", "title": "Emacs: eliding blank lines", "statement": "When Emacs elides blank lines of a shown message, no line that shows something is lost, changed or moved, and the paragraphs are the same. Afterwards the first line is not blank (unless it is the only one), and no two blank lines follow each other, but perhaps at the very end.", "quantifier": "all texts, whether or not the syntax table counts line breaks as white space", "why_tests_cant": "The text comes from others; regular expressions that are greedy across lines lose text only for particular arrangements of blank lines and indentation.", "anchors": ["emacs/notmuch-wash.el:notmuch-wash-elide-blank-lines"]}
{"id": "C99", "title": "Emacs: tidying citations", "statement": "When Emacs tidies the citations of a shown message, nothing is changed or moved, and only lines of '>' and spaces are removed; a text without such lines is left as it is. No two such lines that end are left together, and behind each that is left there is a cited line or nothing; none that ends follows a non-empty line that is not cited. After tidying and eliding blank lines, all lines that say something are shown, in their order.", "quantifier": "all texts", "why_tests_cant": "The text comes from others; three regular expressions are applied one after another, each of which may match across lines.", "anchors": ["emacs/notmuch-wash.el:notmuch-wash-tidy-citations", "emacs/notmuch-wash.el:notmuch-wash-elide-blank-lines"]}
