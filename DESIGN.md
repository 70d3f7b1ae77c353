# Formal model of notmuch in Rocq (Coq 8.16.1)

This file is generated by `tools/design.py` from `tools/design/*.md`,
`tools/design/plan.json`, `properties.jsonl` and `MANIFEST.json`.

## 1. What this is

`rocq/theories` holds a hand-written, executable model of large parts of notmuch and
machine-checked proofs of the properties listed in `properties.jsonl`.
For each area `X`:

* `X.v`: the model. Definitions only; each cites the file and lines of /repo it models
  and says what it leaves out.
* `XSpec.v`: the specification, written from the documentation or the English property,
  without using the model's helper functions where the claim is about what they compute.
* `XProofs*.v`: lemmas.
* `P_X.v`: the property theorems `Cnn_...`, concrete examples that meet their hypotheses,
  and `Print Assumptions` for each theorem.

Names ending in `_refuted` are theorems too: they state that a plausible stronger claim
is *false* of the modelled code and exhibit the counterexample. Names ending in `_partial`
prove part of a property; a property has status "partial" in the manifest only where the full
statement is false of the code (the refutation is given next to it).

## 2. Conventions

* A byte is `Ascii.ascii`; a C string is the `list ascii` before its NUL; a pointer walking
  a string is the remaining suffix, and reading at the end gives NUL (`peek`).
* Mutation becomes a returned value. Loops become structural recursion, or recursion on fuel
  whose exhaustion is a separate outcome which the theorems exclude (or which the theorem
  shows never happens with the fuel the entry point supplies).
* Crashes are explicit: `INTERNAL_ERROR`, NULL dereference, out-of-bounds access and signed
  overflow are outcomes (`None`, `Undef`, ...) of the model wherever the comment says so;
  theorems either exclude them or exhibit them.
* Effects of the world (which system call fails, what read(2) returns, which permutation a
  hash table enumerates, which of several equal elements qsort puts first, when a signal or a
  crash happens) are universally quantified arguments.
* Out-of-memory is not modelled unless said so.

## 3. Trusted base

* Coq 8.16.1's kernel (also `coqchk`), and its virtual machine for `vm_compute`, used for
  closed computations (tables of 256 bytes, examples).
* `Print Assumptions` prints "Closed under the global context" for **every** property
  theorem: no axiom, neither of ours nor of the standard library.
  (`coqchk` lists the `Under_rel` parameters of Coq's own ssreflect library among the
  axioms of loaded libraries, because the standard library's `ssr` files are loaded through
  the prelude of some imported file; no theorem depends on them.)
* The faithfulness of the hand-written model to the C/C++ text. The means used to control it:
  line citations on each definition, independent specifications, concrete examples, and
  seeded faults (section 6).
* External software, represented by definitions or universally quantified parameters with
  the assumptions written in the comments and statements:
  Xapian (term lists sorted and duplicate free, documents as finite maps, transactions,
  boolean matching, sorting; `Terms.v`, `DocMap.v`, `Db.v`, `XQuery.v`), zlib's gzgets/gzwrite,
  POSIX file system calls (`Fs.v`, `Compact.v`, `New.v`, `Open.v`), GMime's header and address
  parsing (addresses and header values are given), sfsexp's reader, glib's key files,
  hash tables and qsort (any order allowed), the C library's calendar with a fixed zone
  offset (`Calendar.v`), printf of integers (`Decimal.v`), SHA-1 (an arbitrary function).

## 4. Not modelled at all

GMime itself (parsing of files into parts, decoding, character sets) and Xapian's splitting of
text into words, the cryptography itself (util/crypto.c), Xapian's infix query parser, the bindings (of the Python ones, notmuch2, the lifetimes of objects (C83), tags (C88), frozen and atomic blocks (C89), the configuration (C90) and properties (C92) are modelled, of the Ruby ones the lifetimes of objects (C95), the rest not; Go not at all), the Vim front end and the Emacs front
end except its S-expression parser (C78), tagging (C79), the script notmuch-emacs-mua (C84), drafts (C85), Fcc to a maildir (C86) tagging in the search view (C91) and in the tree and show views (C94), the wrapping of long lines (C97), the eliding of blank lines (C98) and the tidying of citations (C99), the completion and test code.  Of notmuch-git.py: git itself beyond paths in trees and
index files, and the commands init, archive, log, fetch and push, which only call git.  Multi-threading: the library is not thread
safe and no claim is made; several processes are considered only through crash points,
arbitrary file-system schedules and Xapian's single-writer lock.

## 5. Properties: model, proof, status

### C01: Hex escaping is loss-free

* Model: Hex.v. Proof: induction on the string; the per-byte facts by computation over all 256 bytes.
* Status: **proved**. util/hex-escape.c encode/decode, both decoders. C strings contain no NUL; %00 in decoder input is outside the encoder's image.
* Theorems (P_Hex.v): `C01_hex_roundtrip`, `C01_hex_roundtrip_inplace`, `C01_hex_decode_meets_spec`.

### C02: Hex-escaped text is a single safe token

* Model: Hex.v. Proof: as C01.
* Status: **proved**. The output alphabet; no blanks, quotes, parentheses, colon, '#', control or non-ASCII byte.
* Theorems (P_Hex.v): `C02_hex_safe_alphabet`, `C02_safe_char_is_token_char`.

### C03: Hex escape buffers never overflow

* Model: Hex.v. Proof: induction with an invariant relating buffer size and bytes written.
* Status: **proved**. Sizes computed by the code vs bytes written, for the copying encoder/decoder; in-place decoder never reads past the terminator or writes ahead of its read position.
* Theorems (P_Hex.v): `C03_hex_encode_no_overflow`, `C03_hex_decode_fits`, `C03_hex_decode_size_exact`, `C03_hex_decode_inplace_safe`.

### C04: Quoted boolean query terms round-trip

* Model: StrUtil.v. Proof: induction on the term; an automaton for quotes.
* Status: **proved**. make_boolean_term / parse_boolean_term.
* Theorems (P_StrUtil.v): `C04_boolean_term_roundtrip`, `C04_boolean_term_roundtrip_blanks`, `C04_parse_meets_spec`, `C04_make_buffer_large_enough`, `C04_unquote_buffer_large_enough`, `C04_bare_only_when_safe`.

### C05: A dumped tag line restores to the same message and tags

* Model: Dump.v, TagLine.v. Proof: composition of the round trips C01, C04 and of the tag line parser.
* Status: **proved**. notmuch-dump.c tag lines against tag-util.c parse_tag_line and parse_boolean_term. Ids with a newline are skipped by the dumper (C05_every_message_dumped_refuted).
* Theorems (P_Dump.v): `C05_restore_reads_back`, `C05_tag_batch_reads_back`, `C05_every_message_dumped_refuted`.

### C06: Dump followed by restore reproduces tags, properties and config

* Model: Dump.v, Db.v. Proof: line by line simulation of restore on the dump; induction on the list of messages.
* Status: **proved**. Batch-tag format, everything included, any target state. Messages dumped without properties keep the target's properties (C06_properties_cleared_refuted); automatic format detection needs ids without '('. Sup format is modelled but not claimed.
* Theorems (P_Dump.v, P_Dump2.v): `C06_dump_restore`, `C06_restore_own_dump`, `C06_properties_cleared_refuted`, `C06_auto_format_refuted`, `C06_missing_message_crash_refuted`, `C06_include_properties_only_refuted`.

### C07: Malformed batch input never changes a message

* Model: TagLine.v. Proof: equivalence of the parser with a grammar (relation), induction on the line.
* Status: **partial**. Grammar, no-effect and command line fully proved. 'Only legal tags' holds for unescaped text only: legality is tested before hex decoding (C07_accepted_tags_legal_refuted).
* Theorems (P_Batch.v): `C07_accepts_exactly_the_grammar`, `C07_unambiguous`, `C07_malformed_line_no_effect`, `C07_only_malformed_lines`, `C07_restore_malformed_line_no_effect`, `C07_accepted_tags_legal_partial`, `C07_accepted_tags_legal_refuted`, `C07_empty_tag_refused_refuted`, `C07_every_line_handled_refuted`, `C07_command_line`.

### C08: Applying tag operations has last-operation-wins set semantics

* Model: TagOps.v, Db.v. Proof: induction on the operation list.
* Status: **proved**. tag_op_list_apply, makes_changes on freshly opened messages; maildir sync flag is treated under C16. The no-change decision is one-sided (C08_decision_exact_refuted).
* Theorems (P_TagOps.v): `C08_last_operation_wins`, `C08_no_change_decision`, `C08_failure_writes_nothing`, `C08_decision_exact_refuted`.

### C09: Restricting a tag query to affected messages loses nothing

* Model: TagOps.v, StrUtil.v. Proof: monotonicity of the optimised query; round trip of the printed terms.
* Status: **proved**. Infix queries: proved. For S-expression queries the claim is false of the code (conjunction of conditions): C09_sexp_optimisation_refuted, C09_sexp_text_injective_refuted.
* Theorems (P_TagOps.v): `C09_infix_optimisation_loses_nothing`, `C09_tag_query_effect`, `C09_sexp_optimisation_refuted`, `C09_sexp_text_injective_refuted`.

### C10: Message-Id header parsing is total and canonical

* Model: MsgId.v. Proof: progress lemma, induction on fuel bounded by the length; grammar for well-formed headers.
* Status: **proved**. _notmuch_message_id_parse (with skip_space_and_comments), _parse_strict, parse_references. Exactness on RFC-shaped headers; ids of one character, adjacent blanks and '<>' are shown to be exceptions (refuted theorems).
* Theorems (P_MsgId.v): `C10_progress_and_shape`, `C10_terminates`, `C10_exact_on_well_formed`, `C10_strict_exact`, `C10_header_message_id_nonempty`, `C10_one_character_id_refuted`, `C10_blanks_removed_refuted`, `C10_strict_nonempty_refuted`.

### C11: A message never references itself

* Model: MsgId.v. Proof: induction on the list of references.
* Status: **proved**. Own id filtered from references as a string. The strict In-Reply-To is not compared with the own id, and ids over 189 bytes escape the filter (refuted theorems).
* Theorems (P_MsgId.v): `C11_references_never_self`, `C11_exact_on_well_formed`, `C11_parent_never_self_refuted`, `C11_long_id_self_reference_refuted`.

### C12: Message properties behave as a multimap

* Model: StringMap.v, Props.v, Db.v. Proof: sortedness invariant of the map, binary search correctness, term-level multimap.
* Status: **proved**. add/remove/remove_all properties through a message handle on the database model, string map with its binary search, iteration/get/count. Exceptions shown: remove_all does not check the key for '=' and over-long pairs abort (refuted theorems).
* Theorems (P_Props.v): `C12_add_property`, `C12_remove_property`, `C12_remove_all_of_key`, `C12_remove_all_with_prefix`, `C12_remove_all`, `C12_bad_key_refused`, `C12_iteration`, `C12_get`, `C12_count`, `C12_pairs_not_confused`, `C12_remove_all_checks_key_refuted`, `C12_long_value_returns_error_refuted`.

### C13: Freeze/thaw makes tag changes atomic

* Model: Db.v. Proof: invariant over histories of calls; a frozen handle's changes stay in its document.
* Status: **proved**. Handles, freeze counters, sync. Limits shown by C13_two_handles_lose_update_refuted. notmuch_message_tags_to_maildir_flags syncs a frozen message (lib/message.cc:2098) and is outside this model.
* Theorems (P_Db.v): `C13_frozen_changes_stay_out`, `C13_frozen_batch_publishes_all_at_once`, `C13_frozen_batch_set_semantics`, `C13_unfrozen_set_semantics`, `C13_freezes_count`, `C13_unbalanced_thaw_refused`, `C13_two_handles_lose_update_refuted`.

### C14: Atomic sections and database revision

* Model: Db.v. Proof: invariant over histories with crash, close, reopen and flush.
* Status: **proved**. Histories of API calls with crash, close, reopen, flush at arbitrary points; reopening inside a section is excluded and shown to break it (C14_reopen_inside_section_refuted). Revision may go down after deletion+reopen or a crash (refuted theorems).
* Theorems (P_Db.v): `C14_durable_state_is_consistent`, `C14_crash_discards_open_section`, `C14_close_discards_open_section`, `C14_section_shares_one_revision`, `C14_empty_section_keeps_revision`, `C14_revision_bounds_documents`, `C14_revision_monotone`, `C14_revision_monotone_session`, `C14_unbalanced_end_refused`, `C14_sections_nest`, `C14_reopen_inside_section_refuted`, `C14_reopened_section_cannot_end`, `C14_revision_after_delete_refuted`, `C14_revision_after_crash_refuted`.

### C15: Maildir flag renaming keeps file identity and canonical flags

* Model: Maildir.v. Proof: case analysis and induction on the file name.
* Status: **proved**. _filename_is_in_maildir, _new_maildir_filename including its buffer. The first ':2,' anywhere in the path counts; names below a directory containing ':2,' are never renamed (C15_every_name).
* Theorems (P_Maildir.v): `C15_every_name`, `C15_new_name`, `C15_other_flags_kept`, `C15_odd_flags_not_renamed`, `C15_idempotent`, `C15_distinct_names`, `C15_buffer_exact`.

### C16: Maildir flags and tags synchronise consistently

* Model: Maildir.v. Proof: induction on the list of files, disk as a function, failing renames.
* Status: **proved**. _get_maildir_flag_actions, tags_to_maildir_flags, maildir_flags_to_tags on a disk model with failing renames. rename(2) silently replaces an existing target: C16_overwrites_existing_file_refuted.
* Theorems (P_Maildir.v): `C16_actions`, `C16_flags_match_tags`, `C16_read_back`, `C16_other_tags_untouched`, `C16_flags_to_tags`, `C16_flags_of_all_files`, `C16_no_rename_after_reading`, `C16_names_exist`, `C16_no_mail_lost`, `C16_overwrites_existing_file_refuted`.

### C17: Connected messages share a thread

* Model: MailStore.v. Proof: reachable-state invariant preserved by each operation.
* Status: **proved**. index_message_file, link_message, ghosts (database with the ghosts feature), merge_threads, removal. The hash table of references is enumerated in arbitrary order (legal permutations). References over 235 bytes are linked but not recorded.
* Theorems (P_Threads.v): `C17_no_abort`, `C17_referenced_messages_share_the_thread`, `C17_recorded_references`.

### C18: Only connected messages share a thread

* Model: MailStore.v. Proof: connected components as a reflexive-transitive closure; order independence from the characterisation.
* Status: **proved**. Connected component characterisation for all histories of additions, removals and failed additions. Legality excludes a reference over 189 bytes whose hash is the message's own id; needed, see C19_long_self_reference_refuted.
* Theorems (P_Threads.v): `C18_only_connected_messages_share_a_thread`, `C18_threads_are_the_connected_components`, `C18_order_independent`.

### C19: One document per message id; fresh ids

* Model: MailStore.v. Proof: invariant: unique ids, counters above all ids used.
* Status: **proved**. Unique ids, exactly one thread id per document, fresh document and thread ids. C19_long_self_reference_refuted shows the excluded case.
* Theorems (P_Threads.v): `C19_unique_ids_one_thread`, `C19_ids_never_reused`, `C19_duplicate_is_reported_and_merged`, `C19_long_self_reference_refuted`.

### C20: Removing a message does not disturb the rest of its thread

* Model: MailStore.v. Proof: invariant of placeholders (ghosts).
* Status: **proved**. _notmuch_message_delete with placeholder bookkeeping. Failing indexing leaves placeholders: C20_failed_indexing_leaves_placeholders_refuted.
* Theorems (P_Threads.v): `C20_removal_does_not_disturb_the_rest`, `C20_readding_rejoins_the_thread`, `C20_every_thread_has_a_message`, `C20_failed_indexing_leaves_placeholders_refuted`.

### C21: Removing one of several copies keeps the message

* Model: MailStore.v. Proof: as C17.
* Status: **proved**. notmuch_database_remove_message; two messages may carry the same name only if the caller indexes a changed file under its old name, excluded by hypothesis.
* Theorems (P_Threads.v): `C21_other_copies_remain`, `C21_status_tells`.

### C22: Thread display terminates and shows no message twice

* Model: ThreadTree.v. Proof: forest invariant, fuel bound by the number of messages.
* Status: **proved**. Every thread, every header arrangement (cycles, self references, duplicate ids): building the tree (labelling, reparenting, sorting) and the show walk end, and no message is visited twice. Any qsort. Also: every edge is a named parent, siblings oldest first.
* Theorems (P_ThreadTree.v): `C22_walk_terminates_without_repetition`, `C22_replies_are_replies`, `C22_siblings_oldest_first`.

### C23: Thread display shows every message

* Model: ThreadTree.v. Proof: well-founded ascent along parents for acyclic headers.
* Status: **partial**. Proved for every thread whose In-Reply-To/References relation has no cycle (C23_every_message_shown_partial), with the exact shape of the tree (C23_shape) and, for every thread, that something is shown. Without that hypothesis the statement is false of the code: C23_every_message_shown_refuted (a message whose References name its own reply) and C23_reply_cycle_shown_refuted.
* Theorems (P_ThreadTree.v): `C23_every_message_shown_partial`, `C23_something_shown`, `C23_shape`, `C23_every_message_shown_refuted`, `C23_reply_cycle_shown_refuted`.

### C24: Thread search partitions the matching messages

* Model: Query.v, DocSet.v, Thread.v, XQuery.v. Proof: loop invariant of the iterator over the doc id set.
* Status: **proved**. Thread search over documents with single thread terms: each thread once, in order of its first match, contents, count; any sequence of iterator calls. Xapian's matching and sorting are the trusted base (XQuery.v).
* Theorems (P_Query.v): `C24_thread_search`, `C24_any_calls`, `C24_thread_contents`.

### C25: Exclusion modes

* Model: Query.v. Proof: set algebra on query results.
* Status: **partial**. Search result, flags and IGNORED status proved in every mode; counting agrees with searching in modes TRUE and ALL only: in FALSE and FLAG the code always subtracts the excluded messages (C25_count_agrees_refuted).
* Theorems (P_Query.v): `C25_search`, `C25_add_exclude`, `C25_count`, `C25_count_agrees_partial`, `C25_count_agrees_refuted`.

### C26: Database-relative paths identify files

* Model: Paths.v. Proof: induction on components; injectivity of the directory table over histories.
* Status: **proved**. Full for canonical paths over all histories; the claim for arbitrary spellings and for siblings of the root is refuted (C26_*_refuted).
* Theorems (P_Paths.v): `C26_relative_path_below_root`, `C26_relative_path_elsewhere`, `C26_paths_outside_left_alone_refuted`, `C26_repeated_slash_below_root_refuted`, `C26_split_path`, `C26_split_path_canonical`, `C26_trailing_slash_ignored_refuted`, `C26_filenames_after_history`, `C26_directory_tree`, `C26_other_spellings_same_file_refuted`.

### C27: folder: and path: terms match exactly the right messages

* Model: Paths.v. Proof: term-level characterisation over histories.
* Status: **proved**. Proved over all add/remove histories; the plain claims fail for directories named ** / cur / new (refuted theorems).
* Theorems (P_Paths.v): `C27_query_term`, `C27_path_exact`, `C27_path_recursive`, `C27_folder`, `C27_path_exact_refuted`, `C27_folder_refuted`, `C27_long_directory_reported_refuted`.

### C28: Database feature negotiation round-trips

* Model: Features.v. Proof: sweep over the table lifted to all sets; parser against a relation.
* Status: **proved**. Feature strings: round trip of every set, exact parsing/blocking for any string, mode and version; upgrade then reopen. Refuted: an upgrade forgets unknown (accepted) features.
* Theorems (P_Features.v): `C28_features_roundtrip`, `C28_stored_declarations`, `C28_open_iff`, `C28_open_features`, `C28_refusal_names_features`, `C28_write_only_features_do_not_block_reading`, `C28_old_versions`, `C28_newer_format_refused`, `C28_upgrade_then_reopen`, `C28_upgrade_keeps_unknown_features_refuted`.

### C29: Config list values round-trip

* Model: StrUtil.v. Proof: induction on the list of values.
* Status: **proved**. Round trip for representable values; the restriction is shown necessary by C29_backslash_value_refuted.
* Theorems (P_StrUtil.v): `C29_config_values_meet_spec`, `C29_config_list_roundtrip`, `C29_backslash_value_refuted`, `C29_no_value_is_a_bare_semicolon`.

### C30: Dump to a file is all-or-nothing

* Model: DumpFile.v, Fs.v. Proof: all prefixes of the trace of system calls.
* Status: **proved**. Every crash point and every failing call of notmuch_database_dump with an output file; zlib and mkstemp contracts are explicit hypotheses; refuted: failing mkstemp may unlink another file.
* Theorems (P_DumpFile.v): `C30_all_or_nothing`, `C30_success`, `C30_failure`, `C30_failed_mkstemp_refuted`.

### C31: Compaction never loses the database

* Model: Compact.v. Proof: all prefixes of the trace of directory operations.
* Status: **proved**. Every crash point and failing call of notmuch_database_compact_db over directory states; refuted: after a failed second rename the database is not at its path.
* Theorems (P_Compact.v): `C31_every_crash_point`, `C31_nothing_else_changed`, `C31_success`, `C31_backup_not_overwritten`, `C31_failure_leaves_database_refuted`.

### C32: Mail delivery writes the message exactly once, complete

* Model: Insert.v, Fs.v. Proof: loop invariants of copy_fd/write_buf under arbitrary schedules; all states seen.
* Status: **proved**. copy_fd, write_buf, maildir_write_tmp/new and the command's tail with arbitrary read/write/signal schedules and every crash point; refuted where the code falls short (bad index options or moved file left behind, split 'From ' line, 'From ' alone).
* Theorems (P_Insert.v): `C32_only_complete_messages_visible`, `C32_success`, `C32_failed_write_leaves_nothing`, `C32_failure_leaves_nothing`, `C32_bad_options_leave_message_refuted`, `C32_moved_message_left_refuted`, `C32_delivery_succeeds`, `C32_split_from_line_refuted`, `C32_from_alone_fails_refuted`.

### C33: Delivery folder names cannot escape the mail root

* Model: Insert.v. Proof: equivalence with a component-wise specification; induction on the path.
* Status: **proved**. is_valid_folder_name exactly; containment below the mail root by names; mkdir_recursive at every moment; refuted: doubled slashes make folder creation fail.
* Theorems (P_Insert.v): `C33_accepted_iff`, `C33_components`, `C33_stays_below_mail_root`, `C33_create_only_on_the_way`, `C33_create_succeeds`, `C33_double_slash_refuted`.

### C34: 'notmuch new' detects exactly the added and removed files

* Model: New.v, MailStore.v, Maildir.v. Proof: invariant of the two-way merge of sorted listings, induction on the tree.
* Status: **proved**. Exact set of recorded files after a full scan (or with trustworthy mtimes), soundness at every interruption point, exit status, mtimes, obstacles, idempotence; three refuted expectations (directory turned into a file, mail behind a symlinked directory, temporary failure not retried). Model: New.v; the tree does not change during the scan.
* Theorems (P_New.v): `C34_no_abort`, `C34_exactly_the_visible_files`, `C34_never_wrong`, `C34_exit_status`, `C34_mtimes`, `C34_an_obstacle_loses_nothing`, `C34_idempotent`, `C34_vanished_directory_is_noticed_refuted`, `C34_new_mail_behind_a_link_is_found_refuted`, `C34_temporary_failure_is_retried_refuted`.

### C35: A renamed message keeps its tags

* Model: New.v. Proof: adds come before removals: invariant at every interruption point.
* Status: **proved**. Any message with a visible old or new name survives with its id, properties and user tags at every interruption point.
* Theorems (P_New.v): `C35_a_visible_message_survives`, `C35_a_renamed_message_survives`.

### C36: JSON output is well formed and faithful

* Model: Sprinter.v. Proof: independent RFC 8259 reader; round trip by induction on value trees.
* Status: **proved**. Whole JSON printer modelled; printed calls for any value tree (separators anywhere) read back by an independent RFC 8259 reader; UTF-8 kept; refuted for non-UTF-8 strings being valid JSON text. Write errors are not modelled.
* Theorems (P_Sprinter.v): `C36_json_reads_back`, `C36_json_sequence`, `C36_json_unambiguous`, `C36_json_utf8`, `C36_json_utf8_always_refuted`.

### C37: S-expression output is well formed and faithful

* Model: Sprinter.v. Proof: independent Lisp reader; round trip by induction on value trees.
* Status: **proved**. Whole S-expression printer modelled; reads back as the Lisp datum for keys of alphanumerics, '-' and '_'; refuted: false/null and list/map are not distinguished, other keys abort.
* Theorems (P_Sprinter.v): `C37_sexp_reads_back`, `C37_sexp_strings_unambiguous`, `C37_sexp_faithful_refuted`, `C37_sexp_key_aborts`.

### C38: lastmod range queries select by revision

* Model: Lastmod.v. Proof: arithmetic case analysis.
* Status: **proved**. lastmod ranges: exact selection by revision below 2^53 with negative and open bounds, rejection of bad bounds, s-expression forms. Refuted: trailing text after a number rejected; exactness beyond 2^53.
* Theorems (P_Lastmod.v): `C38_range_selects_by_revision`, `C38_open_ends`, `C38_changes_since`, `C38_out_of_range_rejected`, `C38_non_number_rejected`, `C38_trailing_text_rejected_refuted`, `C38_sexp_forms`, `C38_exact_for_all_revisions_refuted`.

### C39: S-expression queries mean what they say

* Model: Sexp.v, XQuery.v. Proof: translation against a denotational semantics, induction on expressions.
* Status: **proved**. Every plain expression: translated iff well formed (documented field table, operators, modifiers) and then selects exactly the messages meant; and/or/not of arbitrary subqueries incl. empty forms; errors reported. The reader of s-expressions, stemming, phrases, regexps, infix parsing and ranges are parameters. Refuted: matching outside a field crashes; mimetype combines with and; (matching A B) needs one message; starts-with lowercases exact fields; quoted words match tags.
* Theorems (P_Sexp.v): `C39_meaning`, `C39_deterministic`, `C39_rejects`, `C39_rejects_with_error`, `C39_and`, `C39_or`, `C39_not`, `C39_every_bad_query_is_reported_refuted`, `C39_mimetype_is_or_refuted`, `C39_matching_distinct_messages_refuted`, `C39_starts_with_capital_refuted`, `C39_quoted_word_only_text_refuted`.

### C40: Lines are read whole from (compressed) input

* Model: GzLine.v. Proof: loop invariant over gzgets chunks.
* Status: **proved**. gz_getline modelled with zlib's gzgets as external; lines whole for every NUL-free input and buffer; refuted with NULs (line merging, buf[-1]).
* Theorems (P_GzLine.v): `C40_lines_determined`, `C40_all_lines`, `C40_one_line`, `C40_error_reported`, `C40_all_bytes_refuted`, `C40_no_out_of_bounds_refuted`.

### C41: Text output cannot inject control characters

* Model: StrUtil.v. Proof: induction on the string.
* Status: **proved**. sanitize_string; only C0 controls are replaced (C41_del_passes_refuted shows DEL passes).
* Theorems (P_StrUtil.v): `C41_sanitize`, `C41_del_passes_refuted`.

### C42: Subject cleaning

* Model: Thread.v. Proof: case analysis; choice of the subject by induction on the messages.
* Status: **proved**. One reply prefix is removed and nothing else; chains are not (C42_chain_refuted) and the first message's subject is shown uncleaned when no match has a subject (C42_uncleaned_refuted). Which subject is chosen is proved for distinct dates of the matches; its origin for all.
* Theorems (P_ThreadSummary.v): `C42_clean_subject`, `C42_chain_refuted`, `C42_subject_origin`, `C42_newest_first`, `C42_oldest_first`, `C42_uncleaned_refuted`.

### C43: Tags survive re-indexing

* Model: MailStore.v. Proof: re-indexing simulated as removal and addition on the invariant of C17.
* Status: **proved**. notmuch_message_reindex of an unfrozen message on reachable databases; properties that indexing itself sets anew (index.decryption, session keys) are not modelled. Files changed on disk since they were added may leave the message in two threads (C43_changed_files_two_threads_refuted).
* Theorems (P_Reindex.v): `C43_reindex_preserves`, `C43_unchanged_files_are_consistent`, `C43_reindex_of_lost_files_removes`, `C43_changed_files_two_threads_refuted`.

### C44: Term prefixes are unambiguous

* Model: Meta.v, Terms.v. Proof: prefix incompatibility lifted to the sorted term list.
* Status: **proved**. Prefix table, skip_to/get_term/get_terms_with_prefix, _notmuch_message_ensure_metadata as one pass over the sorted terms.
* Theorems (P_Meta.v): `C44_metadata_unambiguous`, `C44_type_unambiguous`, `C44_prefixes_injective`, `C44_prefixes_complete`.

### C45: Date expressions and ranges

* Model: Dates.v, Calendar.v, DatesForms.v (the documented forms). Proof: calendar bijection; the parser as a fold over fields; per-form characterisations; P_DatesForms.v: all documented forms of dates, months, times, zones and number words, by a step-wise parsing relation over an abstract state (DatesProofs12-16).
* Status: **proved**. Civil calendar specified and shown unique; every accepted expression selects one whole period; range = first time of A to last time of B; unknown words and bad components rejected; no overflow for moderate numbers; documented forms (YYYY, YYYY-MM, YYYY-MM-DD [HH:MM[:SS]], @N, N units [ago], today, yesterday, weekdays) characterised exactly. Local zone is a fixed offset. Refuted corners kept as _refuted theorems.
* Theorems (P_Dates.v, P_DatesForms.v): `C45_calendar`, `C45_selects_a_period`, `C45_range`, `C45_range_abbreviations`, `C45_unknown_words_rejected`, `C45_no_overflow`, `C45_year_month_day`, `C45_bad_dates_rejected`, `C45_day_overrun`, `C45_year_month`, `C45_year`, `C45_date_time`, `C45_date_minute`, `C45_bad_times_rejected`, `C45_time_stamp`, `C45_ago`, `C45_today_yesterday`, `C45_weekdays`, `C45_am_with_dots_refuted`, `C45_overflow_refuted`, `C45_empty_accepted_refuted`, `C45_nonexistent_day_refuted`, `C45_minus_one_refuted`, `C45_open_start_refuted`, `C45_number_words`, `C45_documented_dates`, `C45_documented_months`, `C45_documented_moments`, `C45_six_digit_time`, `C45_six_digits_and_zone_refuted`.

### C46: Command-line option parsing

* Model: Options.v, OptionTables.v. Proof: equivalence with a reading relation; all real tables shown to meet the hypotheses by computation.
* Status: **proved**. parse_arguments/parse_option agree exactly with an independent reading relation for every table without ambiguous names (true of all 15 notmuch tables); '--' and stop behaviour. Refuted: int overflow refused; refused option assigns nothing; --include keyword array unterminated (read past end).
* Theorems (P_Options.v): `C46_parse_iff_readable`, `C46_option_iff_readable`, `C46_option_sets_only_its_variable`, `C46_only_table_variables_assigned`, `C46_dashdash_ends_options`, `C46_stops_at_first_non_option`, `C46_unknown_option_refused`, `C46_notmuch_tables_sensible`, `C46_int_out_of_range_refused_refuted`, `C46_refused_option_assigns_nothing_refuted`, `C46_keyword_search_in_bounds`, `C46_include_keyword_search_in_bounds_refuted`.

### C47: Thread summary

* Model: Thread.v. Proof: folds over the messages of a thread.
* Status: **partial**. Counts, tags, newest date and author names in full; the authors line when some match has an author (otherwise "(null)", refuted); the oldest date outside mode FLAG (there refuted).
* Theorems (P_ThreadSummary.v): `C47_counts`, `C47_tags`, `C47_authors_partial`, `C47_authors_once`, `C47_author_name`, `C47_authors_refuted`, `C47_newest_date`, `C47_oldest_date_partial`, `C47_oldest_date_refuted`, `C47_oldest_of_thread_refuted`.

### C48: Saved s-expression queries and macros are abbreviations

* Model: Sexp.v. Proof: simulation between lazily bound environments and substitution.
* Status: **proved**. Macro call = substitution, saved query = definition, full expansion preserves the translation (simulation over lazily bound environments), arity errors, termination for acyclic definitions. Refuted: self reference loops; () or atom definitions crash; parameters inside (matching ...) are undefined; a non-macro saved query sees its caller's parameters.
* Theorems (P_Sexp.v): `C48_macro_is_substitution`, `C48_macro_arity`, `C48_saved_query`, `C48_expansion`, `C48_meaning`, `C48_terminates`, `C48_terminates_refuted`, `C48_saved_query_refuted`, `C48_substitution_everywhere_refuted`, `C48_lexical_scope_refuted`.

### C49: Configuration precedence

* Model: Config.v, StringMap.v. Proof: map algebra over the loading passes.
* Status: **proved**. Exact value of every item after opening, exact condition for opening to succeed, set/get, persistence, booleans, listing. Refuted: a database.path in the metadata competes with the opened path; with NOTMUCH_DATABASE and a file naming another path the handle reports the file's; a relative backup_dir is not made absolute; path / is reported as empty.
* Theorems (P_Config.v): `C49_precedence`, `C49_when_opening_succeeds`, `C49_set_then_get`, `C49_read_only`, `C49_set_persists`, `C49_booleans`, `C49_listing`, `C49_one_path_refuted`, `C49_path_is_the_opened_one_refuted`, `C49_backup_dir_absolute_refuted`, `C49_root_path_refuted`.

### C50: Which configuration file and database are used; creating and opening

* Model: Open.v, Config.v. Proof: case analysis over the search order; external mkdir/create with stated effects.
* Status: **proved**. For every world, disk and arguments; mkdir and Xapian creation are external with stated effects (shown to be met by a concrete file system). 'Found again' needs: no second database in path/xapian, and the XDG directory not made as a by-product (both shown necessary or refuted without). Refuted: empty NOTMUCH_DATABASE is not ignored; failed creation can leave a database; NULL dereference without HOME and XDG_DATA_HOME.
* Theorems (P_Open.v): `C50_open_uses_the_first_place`, `C50_open_changes_nothing`, `C50_open_failures`, `C50_create_makes_a_new_database`, `C50_create_never_touches_a_database`, `C50_created_database_is_found`, `C50_empty_variable_is_ignored_refuted`, `C50_created_database_is_found_refuted`, `C50_failed_creation_leaves_nothing_refuted`, `C50_create_never_crashes_refuted`, `C50_create_never_crashes`.

### C51: Replies: recipients, sender, threading and quoting

* Model: Reply.v. Proof: addresses flattened to a list of mailboxes, loop invariants for both modes; the filter as a state machine, induction on the text.
* Status: **proved**. Recipients, From, headers, subject, quoting filter in full; GMime's parsing of headers and addresses is external. format_part_reply (which parts are quoted) is not modelled. Refuted: recipients deduplicated; munged Reply-To in another spelling; domain guess with empty labels; decoding filter for arbitrary lines.
* Theorems (P_Reply.v): `C51_reply_to_all`, `C51_reply_to_sender`, `C51_specification_is_exact`, `C51_not_to_myself`, `C51_always_a_reply`, `C51_from`, `C51_received_guess`, `C51_reply_joins_the_thread`, `C51_quoting`, `C51_unquoting_fits`, `C51_unquoting_undoes_quoting`, `C51_unquoting_any_line_refuted`, `C51_each_recipient_once_refuted`, `C51_author_gets_the_reply_refuted`, `C51_domain_has_two_labels_refuted`, `C51_mentioned_whole_address_refuted`.

### C52: notmuch search shows the right window of one list of results

* Model: SearchCmd.v. Proof: the loops compute skipn/firstn of the library's result list (C24, C25), counting agrees with the list; the printed strings read back by a grammar.
* Status: **proved**. Windows for all offsets and limits that do not overflow int; hypotheses: distinct document ids, every message in one thread (threads output), every message has a file. Refuted parts named _refuted.
* Theorems (P_SearchCmd.v): `C52_messages`, `C52_pages`, `C52_threads`, `C52_tags`, `C52_all_tags`, `C52_all_tags_exclude_refuted`, `C52_refused`, `C52_text`, `C52_text_newline_refuted`, `C52_thread_query`, `C52_limit_overflow_refuted`.

### C53: notmuch address lists and counts exactly the mailboxes of the selected messages

* Model: Address.v. Proof: the hash table after any list of occurrences equals a function of that list (induction from the right), then facts about that function; visiting order as a permutation.
* Status: **proved**. Counters unbounded (int in C). Parsing of headers and quoting of names are GMime's.
* Theorems (P_Address.v): `C53_no_dedup`, `C53_mailbox`, `C53_mailbox_count`, `C53_address`, `C53_refused`, `C53_hash`.

### C54: The message-wide cryptographic status is that of the payload

* Model: Mime.v. Proof: the walk of the formatters without numbers; induction over the layers of the envelope with the status as accumulator; growth invariant of the status for arbitrary messages.
* Status: **proved**. status of every message with good layers and soundness for all messages; two refuted stronger readings (a status 'signed' need not cover all text shown; a protected subject may come from the control part)
* Theorems (P_Mime.v): `C54_status_of_envelope`, `C54_status_is_of_some_part`, `C54_signature_covers_text_refuted`, `C54_subject_is_encrypted_refuted`.

### C55: Parts are all shown, numbered in order, and found again by number

* Model: Mime.v. Proof: fuel adequacy by depth; invariant of the frames of next part numbers; simulation of the seek by the walk.
* Status: **proved**. numbers, --part=k and completeness of what is shown, for every tree
* Theorems (P_Mime.v): `C55_always_shown`, `C55_numbers`, `C55_part_by_number`, `C55_nothing_hidden`.

### C56: What is indexed of an encrypted message is decided by index.decrypt alone, and session keys are kept as it says

* Model: IndexMime.v (on Mime.v). Proof: the run of the indexer is related to a structural list of events by induction on the depth of parts; the specification folds over the tree and knows no status.
* Status: **proved**. For any MIME tree, key set and policy; which keys open what is an assumption-free parameter (one hypothesis: an exported session key opens no part that could not be opened anyway). Two refuted theorems: nostash differs from true in more than stashing; encryption inside of a signature.
* Theorems (P_IndexMime.v): `C56_policy_decides_what_is_indexed`, `C56_without_keys_nothing_leaks`, `C56_auto_uses_no_secret_key`, `C56_session_keys`, `C56_reindex`, `C56_index_decryption_property`, `C56_protected_subject_only_true`, `C56_nostash_like_true_refuted`, `C56_encrypted_in_signed_refuted`.

### C57: mbox output can be read back

* Model: Mbox.v, MboxSpec.v. Proof: the quoting is shown to be inverted by an independent mboxrd reader, by induction on the lines of the file; the read loop is a relation on the results of gz_getline, refutations by concrete results.
* Status: **proved**. mbox output read back by an independent mboxrd reader; the read error loop and the loss after NUL are proved as refutations
* Theorems (P_Mbox.v): `C57_mbox_roundtrip`, `C57_missing_file`, `C57_terminates_refuted`, `C57_nul_refuted`.

### C58: notmuch show prints the messages asked for, each once, replies below what they reply to

* Model: ShowCmd.v, ShowCmdSpec.v (on Query.v, Thread.v, ThreadTree.v, SearchCmd.v). Proof: the recursion over the reply forest is related to the trees of C26/C48, the set of messages printed to the specification of C24/C25/C52; counterexamples by computation on a concrete database.
* Status: **proved**. threads, trees, the messages printed, unthreaded and single modes; three deviations from the documentation are proved as refutations
* Theorems (P_ShowCmd.v): `C58_threads`, `C58_messages`, `C58_unreadable`, `C58_unthreaded`, `C58_single`, `C58_unreadable_schema_refuted`, `C58_unthreaded_schema_refuted`, `C58_unthreaded_offset_refuted`.

### C59: notmuch new gives a new message exactly the configured tags

* Model: New.v, MailStore.v, Maildir.v. Proof: the effect of a run is a sequence of added files followed by a sequence of removals of files that are gone; an invariant on the documents with the new id over the first, and a frame lemma for the second (NewTagsProofs.v).
* Status: **proved**. The run as a whole, interrupted anywhere: exact tags for one-file messages; for messages with several files all tags except unread and (when synchronized) flag tags, whose values depend on all files (C16). Tags set by indexing are excluded via auto_tag.
* Theorems (P_NewTags.v): `C59_new_message_gets_the_configured_tags`, `C59_new_message_with_one_file`, `C59_seen_is_not_unread`.

### C60: Indexing drops only uuencoded data and HTML tags from the text of a part

* Model: Discard.v (the scanner tables and filter_filter with its state carried between buffers). Proof: the state machine's run over concatenated pieces is characterised by structural recursions, then by inductive specifications uu and html independent of the table.
* Status: **proved**. The filter of lib/index.cc with its tables. The natural stronger claims about the character after the data, begin at line start, HTML comments and NUL are refuted by separate theorems.
* Theorems (P_Discard.v): `C60_total_and_independent_of_pieces`, `C60_output_fits`, `C60_plain_text_kept`, `C60_only_uuencoded_data_dropped`, `C60_uuencoded_file_dropped`, `C60_html_text_kept`, `C60_line_after_data_kept_refuted`, `C60_begin_at_line_start_refuted`, `C60_text_after_comment_kept_refuted`, `C60_text_after_nul_indexed_refuted`.

### C61: Searching a field with a regular expression finds exactly the matching messages

* Model: Regexp.v (posting source over a Xapian value stream with nondeterministic check; term expansion; the field processor). Proof: simulation between the cursor and an abstract set-with-position (Xapian's documented contract), invariant: what is left of the stream against a bound; case analysis for the processor.
* Status: **proved**. The whole of lib/regexp-fields.cc; regcomp/regexec, Xapian's value streams and its parser are external. Two natural stronger claims are refuted by separate theorems.
* Theorems (P_Regexp.v): `C61_source_stands_for_matching_documents`, `C61_source_always_answers`, `C61_all_matching_documents`, `C61_value_fields`, `C61_term_fields`, `C61_literal_value`, `C61_refused`, `C61_literal_tag_refuted`, `C61_empty_value_refuted`.

### C62: notmuch config set changes exactly the named item, and config get gives it back

* Model: ConfigCmd.v (the command, the key file as groups of keys with GLib's escaping), Config.v, StrUtil.v. Proof: escape/unescape cancel by induction; key file lookup lemmas; composed with C49_precedence and the C29 list round trip.
* Status: **proved**. notmuch-config.c with GLib's key file (setting, escaping, reading back) as an external definition; comments in the file are left out.
* Theorems (P_ConfigCmd.v): `C62_failure_changes_nothing`, `C62_set_changes_one_item`, `C62_set_then_get`, `C62_still_opens`, `C62_set_in_database`, `C62_list_with_semicolon_refuted`, `C62_any_value_readable_refuted`, `C62_dotted_group_refuted`, `C62_success_means_set_refuted`, `C62_reserved_prefix_refuted`.

### C63: Upgrading a database keeps every message and its files, and happens entirely or not at all

* Model: Upgrade.v (the whole function as phases over messages, time stamps and thread ids, inside a transaction; on Paths.v, Features.v). Proof: frame lemmas for each phase, an invariant of a message under each step composed with the path lemmas of C30-C32, and one master theorem for the success case.
* Status: **proved**. Success case for all older feature sets, all-or-nothing for every failure and crash point. A file name of 225 to 255 bytes is lost, a failed upgrade leaves the handle's features changed, and a failed count aborts: the three refuted theorems give the cases; C63_messages states the length bound.
* Theorems (P_Upgrade.v): `C63_all_or_nothing`, `C63_messages`, `C63_revisions`, `C63_directories`, `C63_ghosts`, `C63_done`, `C63_long_name_kept_refuted`, `C63_handle_after_failure_refuted`, `C63_count_failure_reported_refuted`.

### C64: A directory object lists exactly the files and subdirectories the database knows there, and keeps its time

* Model: Directory.v (directory objects over the terms of the whole database; on Paths.v). Proof: invariant of the store: consistent directory documents, one per directory, every message consistent with them; preserved by each operation; lists characterised by the prefix range lemma of Meta.
* Status: **proved**. For directories deleted only when their lists are empty (as notmuch new does); the refuted theorems show what happens otherwise, and with objects kept after a delete.
* Theorems (P_Directory.v): `C64_files`, `C64_directories`, `C64_delete`, `C64_mtime`, `C64_new_mtime`, `C64_delete_nonempty_refuted`, `C64_stale_object_refuted`.

### C65: A header of a message is determined by its file, whatever was asked before

* Model: MessageFile.v, MessageFileSpec.v. Proof: cache invariant (every cached value is the value of the file) by induction over calls; inductive specification of a header's value shown to be functional.
* Status: **proved**. header cache, indexing headers, notmuch_message_get_header; GMime's parser and decoder are parameters
* Theorems (P_MessageFile.v): `C65_file_header`, `C65_index_headers`, `C65_message_header`, `C65_recorded`, `C65_open`, `C65_open_below_root_refuted`, `C65_all_received_refuted`.

### C66: A relative date is the right one for the distance in time, and unambiguous

* Model: RelDate.v, RelDateSpec.v, Calendar.v. Proof: arithmetic on day numbers; the texts are told apart by the character before the last two.
* Status: **proved**. local time zone as a function of time; the claim is for equal offsets now and then (it is false otherwise: C66_dst_*_refuted); C locale
* Theorems (P_RelDate.v): `C66_relative_date`, `C66_unambiguous`, `C66_fits`, `C66_dst_today_refuted`, `C66_dst_yesterday_refuted`, `C66_elapsed`, `C66_elapsed_carry_refuted`.

### C67: notmuch count prints the number of results notmuch search shows

* Model: CountCmd.v (with Query.v, SearchCmd.v). Proof: composition with C24, C25 and C52: both are the length of lists without repetition and with the same elements.
* Status: **proved**. the query parser is a parameter; counts fit the printed types
* Theorems (P_CountCmd.v): `C67_agrees`, `C67_batch`, `C67_every_line_handled_refuted`.

### C68: notmuch setup writes the answers, all or nothing

* Model: Setup.v (on ConfigCmd.v, Config.v). Proof: each question reads one line (lemmas for the two loops); the result is a composition of six optional updates, each of which changes one item (find_raw lemmas of C62); a prefix of the dialogue fails by the same decomposition.
* Status: **proved**. GLib's key file functions as in C62; the texts of the prompts are not modelled
* Theorems (P_Setup.v): `C68_answers`, `C68_all_or_nothing`, `C68_enter_keeps`, `C68_next_command_sees_tags`, `C68_words`, `C68_leading_space_refuted`, `C68_any_input_defined_refuted`, `C68_no_use_after_close_refuted`.

### C69: Hooks run at the right time, without the write lock, and their failure is reported

* Model: Hooks.v. Proof: case analysis over the outcomes of the system calls; the trace of events of notmuch new is pre ++ work ++ post.
* Status: **proved**. the work of notmuch new and insert is one step here (see C32-C35, C59)
* Theorems (P_Hooks.v): `C69_hook_status`, `C69_hook_not_run_refuted`, `C69_new_order`, `C69_new_exit`, `C69_insert`.

### C70: Only the commands that change the database can write to it

* Model: Hooks.v. Proof: the table of commands is classified once (find_cases); main by cases.
* Status: **proved**. --version, --help and --uuid are not modelled; the individual commands are in other properties
* Theorems (P_Hooks.v): `C70_access`, `C70_external`, `C70_exit_zero`, `C70_missing_configuration_refuted`.

### C71: A failed addition loses no mail

* Model: IndexFailure (list of all intermediate databases of index_file), MailStore. Proof: induction over the references with the invariant and soundness of MailStoreProofs; counterexamples by computation.
* Status: **proved**. all failure points before the final write of the message; directory documents and text terms not included; three expectations refuted
* Theorems (P_IndexFailure.v): `C71_failure_keeps_mail`, `C71_index_error_state`, `C71_failure_leaves_threads_refuted`, `C71_failure_splits_thread_refuted`, `C71_retry_mends_threads_refuted`.

### C72: Subqueries mean what they find

* Model: FieldProc.v, FieldProcSpec.v. Proof: fuelled evaluation of the field processors over an arbitrary grammar; results do not depend on the fuel once it is enough (monotonicity); membership of found messages by unfolding the search; termination by well-founded induction on the texts used; refutations by concrete databases and by a self-referring name.
* Status: **proved**. thread:{}, thread:ID, query:NAME and their combination, errors, termination; the counterexamples (ghosts, unset names, circular names, empty value, reuse of infix objects) are refuted theorems
* Theorems (P_FieldProc.v): `C72_deterministic`, `C72_thread_braces`, `C72_thread_of_found`, `C72_thread_contains_found`, `C72_thread_id`, `C72_named`, `C72_operators`, `C72_no_partial_query`, `C72_bad_subquery`, `C72_missing_brace`, `C72_terminates`, `C72_reuse_sexp`, `C72_thread_of_found_refuted`, `C72_named_refuted`, `C72_terminates_refuted`, `C72_errors_reported_refuted`, `C72_reuse_infix_refuted`.

### C73: notmuch git stores ids and tags without loss

* Model: NmGit.v, NmGitSpec.v. Proof: inductive specification of the encoding; quoting inverted by induction on the string, the path regular expression by takewhile/dropwhile lemmas; reading of the dump composed with the C08 dump lemmas; the batch line composed with the tag-line parser lemmas.
* Status: **proved**. All quoting layers, paths and both file formats; limits of the encoding are given as refuted theorems.
* Theorems (P_NmGit.v): `C73_path_meets_spec`, `C73_path_roundtrip`, `C73_path_injective`, `C73_path_printable`, `C73_git_accepts`, `C73_dump_read_back`, `C73_batch_line_read`, `C73_documented_alphabet_refuted`, `C73_tilde_prefix_refuted`, `C73_every_id_read_refuted`, `C73_every_tag_storable_refuted`, `C73_other_format_refuted`.

### C74: notmuch git status, commit, checkout and merge agree with the database

* Model: NmGit.v, NmGitSpec.v. Proof: invariant on the cached private index (agrees with every message not changed since the recorded revision), preserved by status, commit, checkout and any evolution of the database; commands as composition of index operations on sorted path lists; refutations by concrete repositories.
* Status: **proved**. status/commit/checkout/merge for repositories whose cache is valid (an invariant of all commands and of later database changes); the situations in which the code breaks it are given as refuted theorems.
* Theorems (P_NmGit.v): `C74_status_exact`, `C74_incremental`, `C74_commit`, `C74_commit_clean`, `C74_checkout`, `C74_checkout_clean`, `C74_safe_fraction`, `C74_merge_insists`, `C74_merge`, `C74_clone_refuted`, `C74_missing_mail_kept_refuted`, `C74_without_bindings_refuted`, `C74_new_database_refuted`, `C74_removed_message_refuted`, `C74_concurrent_change_refuted`, `C74_upper_case_prefix_refuted`.

### C75: notmuch new converges after any history of interruptions, kills and changes of the mail store

* Model: New.v, NewCrash.v (states after each atomic operation), NewHistorySpec.v. Proof: NewHistoryProofs*.v: invariant over histories: a recorded mtime is 0 or was found by some run, and the database agrees with that run's listing unless something happened to the directory since; preserved at every stop point of a run; hence `trustworthy` for the next run.
* Status: **proved**. invariant over histories with kill points; two refuted corner cases given
* Theorems (P_NewHistory.v): `C75_converges`, `C75_one_more_run_is_enough`, `C75_killed_anywhere`, `C75_directory_moved_away_and_back_refuted`, `C75_changed_ignore_list_refuted`.

### C76: The structured output of notmuch show has the documented structure and says what is known of the message

* Model: ShowPart.v (format_message_sprinter, format_headers_sprinter, format_part_sprinter, signatures, crypto as calls to a sprinter), Sprinter.v, Mime.v. Proof: ShowPartProofs*.v: the calls are the flattening of a value computed from the tree of parts the MIME walk visits (induction over the tree); schema and content read off that value; composed with the reader theorems C36/C37 and the numbering theorems C55.
* Status: **proved**. Structured output of format_message/format_part for every MIME tree: one value, schema of devel/schemata, contents; reads back from JSON and S-expressions. Duplicate header keys and --body=false refuted.
* Theorems (P_ShowPart.v): `C76_show_message`, `C76_show_without_body`, `C76_show_message_sexp`, `C76_header_keys_distinct`, `C76_header_keys_distinct_always_refuted`, `C76_reply_headers`, `C76_signer`, `C76_body_false_only_omits_the_body_refuted`.

### C77: notmuch show --part=k prints exactly what the full output shows for part k

* Model: ShowPart.v (show_part, find_dfs), Mime.v. Proof: ShowPartProofs*.v: the depth-first search visits the same tree as the full output, with the same crypto state before part k (induction with the state threaded).
* Status: **proved**. --part=k equals the sub-value with id k of the whole output; nothing if there is no such part.
* Theorems (P_ShowPart.v): `C77_show_part`.

### C78: Emacs delivers every result of a search once, in order, however the output is split into pieces

* Model: EmacsParser.v (the parser, the filters; Emacs' read as a machine over characters and parse-partial-sexp as a scanner), Sprinter.v. Proof: EmacsParserProofs*.v: the scanner follows the reader character by character, scanning may be resumed, every proper prefix of a compound value is end-of-file; invariant of the stream over pieces: delivered elements, skipped white space, text after point and what is still to come make up the printed text; composed with the printer's layout (C37).
* Status: **proved**. Incremental parser of emacs/notmuch-parser.el against sprinter-sexp output, any chunking, any truncation, promptness.
* Theorems (P_EmacsParser.v): `C78_any_pieces`, `C78_as_it_arrives`.

### C79: Tagging from Emacs: what is sent is what was asked, what is shown is what is stored, and undo

* Model: EmacsTag.v models validation, encoding, the batch text, the display update, history and undo; the command is run in the model of 'notmuch tag --batch' (TagLine.v, TagOps.v, Db.v) as a process of its own.. Proof: The text is shown to be in the batch grammar (C07) with the wanted operations; the effect comes from C09; the display update is proved equal to the last-operation-wins specification..
* Status: **proved**. full statement, with the conditions under which undo restores; the unconditional versions (any query, any validated string, unconditional undo) are false of the code and refuted
* Theorems (P_EmacsTag.v): `C79_command`, `C79_validation`, `C79_refused`, `C79_tag_effect`, `C79_id_query`, `C79_display`, `C79_undo`, `C79_undo_refuted`, `C79_undo_selection_refuted`, `C79_newline_query_refuted`, `C79_validated_refuted`, `C79_validated_newline_refuted`.

### C80: A killed 'notmuch tag' leaves every message with its old or its new tags, and repeating it completes it

* Model: The effects of a run (documents written, files renamed) as a list, killed at any point with flushes anywhere (TagKill.v: killed); Xapian's durability and rename(2) are external.. Proof: Invariant over beginnings of the list: only completely tagged documents are ever written (TagKillProofs.v); idempotence of tag_after for the repetition. Refuted: repeating brings the flags of the files up to date; all or nothing when flags are read back afterwards..
* Status: **proved**. Kill points and flush schedules arbitrary; Xapian durability, rename(2) external; query per message. Two stronger readings refuted.
* Theorems (P_TagKill.v): `C80_killed_all_or_nothing`, `C80_killed_order`, `C80_no_file_lost`, `C80_complete`, `C80_repeat_completes`, `C80_interrupted`, `C80_repeat_completes_files_refuted`, `C80_all_or_nothing_with_flags_refuted`.

### C81: The text output of notmuch show has the structure of the mail; raw output is the file

* Model: format_part_text over the nodes of Mime.v (ShowText.v); GMime and the decoded text are external as in C76. The reader of blocks is in ShowTextSpec.v.. Proof: The output is the rendering of a tree of blocks (ShowTextProofs.v), rendering is read back by induction. Refuted: without the hypothesis on texts (forged parts, text without final newline), the file name on the opening line with --duplicate, raw output when the first file is gone..
* Status: **proved**. GMime external as in C76. Refuted without the hypothesis on the texts; file name line and raw fallback refuted.
* Theorems (P_ShowText.v): `C81_text_reads_back`, `C81_text_without_body`, `C81_one_after_another`, `C81_duplicate`, `C81_first_readable`, `C81_raw_first_readable_refuted`, `C81_raw`, `C81_forged_part_refuted`, `C81_line_names_file_refuted`.

### C82: Search, address and reply output can be read back

* Model: SearchOut.v (notmuch-search.c:157-262, 384-397, notmuch-reply.c:674-690), Sprinter.v, ShowPart.v, RelDate.v; SearchOutSpec.v has the schemata, what each value should say, and a reader of lines. Proof: The calls of the printer are those of a value given field by field; the schema and the fields are checked of it, C36 and C37 read it back. For text: each line is split again by the reader; lines have no newline because sanitize_string removes it..
* Status: **proved**. Dates are those of C66; ids and tags without newline for the text output (refuted otherwise)
* Theorems (P_SearchOut.v): `C82_summary`, `C82_list`, `C82_address`, `C82_reply`, `C82_text`, `C82_text_newline_in_tag_refuted`, `C82_text_ambiguous_refuted`.

### C83: Lifetimes of objects in the Python bindings

* Model: PyLife.v models the memory of the library as a talloc forest (a block, its parent; freeing frees what is below) and the objects of the bindings (class, parent object, pointer or none), with the method tables saying what each method returns and below which block the library allocates it, the alive properties, the _destroy methods, iterator exhaustion, finalizers and the rollback of Message.frozen. PyLifeSpec.v says which programs are careful (ask before use) and counted (reference counting).. Proof: Two invariants over all sequences of operations: the pointer of an object that is alive (or, for counted programs, not finalized) points to memory in use, because memory below a block belongs to objects that came out of the object of that block. Leaks: every block in use lies below the block of a database object. Refutations are concrete programs, evaluated..
* Status: **proved**. C83_careful, C83_counted, C83_destroyed and C83_no_leak hold for every program. Refuted, with concrete programs: without the conditions in careful and counted, use after free happens (C83_list_refuted, C83_frozen_refuted); alive can be False for usable objects (C83_alive_refuted).
* Theorems (P_PyLife.v): `C83_careful`, `C83_counted`, `C83_destroyed`, `C83_no_leak`, `C83_of_thread`, `C83_list_refuted`, `C83_frozen_refuted`, `C83_alive_refuted`.

### C84: notmuch-emacs-mua composes exactly what its command line says

* Model: EmacsMua.v models the script with the relevant behaviour of getopts, word splitting and echo; EmacsMuaSpec.v gives a Lisp reader (strings with escapes, lists, quotes), an evaluator for the few functions used, and what a command line means.. Proof: The reader fed with escaped text collects exactly the text (induction over the bytes); the expression is read form by form, with an invariant over the options relating the Lisp so far, the separators and the mail so far..
* Status: **proved**. The evaluator of Lisp covers the functions the script uses and refuses everything else. Three defects are stated as refuted theorems (--print, an operand after --to, the word --).
* Theorems (P_EmacsMua.v): `C84_compose`, `C84_mailto`, `C84_hello`, `C84_refuses`, `C84_print`, `C84_print_refuted`, `C84_glued_refuted`, `C84_dashdash_refuted`.

### C85: Drafts saved from Emacs come back as they were

* Model: EmacsDraft.v models the regular expressions as functions with all backtracking choices, the search loops, the headers, saving, resuming and the history of drafts. message.el and mml.el are external; encoding as MIME and back is taken to be the identity.. Proof: Matching at a position is not changed by quoting later positions (tags are words), hence unquoting meets exactly the quoted positions; induction on the length. History: an invariant on the drafts that are not deleted..
* Status: **proved**. For tags that are words and equal case-fold-search when saving and resuming; MIME encoding and decoding by Emacs are assumed to give the text back. Four defects are stated as refuted theorems.
* Theorems (P_EmacsDraft.v): `C85_round_trip`, `C85_hidden`, `C85_consent`, `C85_one_draft`, `C85_tag_fails_refuted`, `C85_send_fails_refuted`, `C85_consent_refuted`, `C85_case_refuted`.

### C86: Storing a sent mail in a maildir from Emacs

* Model: EmacsFcc.v models the naming and the steps (check, open, partial writes, link, delete, errors) on a file system as a function from paths to contents; EmacsFccSpec.v adds steps of other programs.. Proof: Invariant over reachable worlds; each own step is a guarantee about every path. Names: reading decimals back, and the maildir names of C15..
* Status: **proved**. Other programs are assumed not to touch the two files of the name in use. That success is reported when the mail was not stored in cur is stated as a refuted theorem.
* Theorems (P_EmacsFcc.v): `C86_only_whole_mails`, `C86_returns`, `C86_name`, `C86_unique`, `C86_fresh`, `C86_lost_refuted`.

### C87: Shared options: --uuid, --query, --version, --help, before or after the command

* Model: CommandLine.v models main and the start of all commands on top of the option parser (Options.v) and the real option tables (OptionTables.v): parsing twice with shared global variables, creating or opening the database, and what was asked.. Proof: The readings of C46 give the assignments of a command line; the last assignment to each variable decides, by induction on the list; case analysis over the table of commands..
* Status: **proved**. C87_uuid, C87_goes_ahead, C87_placement, C87_version_first, C87_help_first, C87_flags_after, C87_external; compact, external programs, notmuch new creating a database first and the placement of --help are refuted.
* Theorems (P_CommandLine.v): `C87_uuid`, `C87_goes_ahead`, `C87_version_first`, `C87_help_first`, `C87_flags_after`, `C87_placement`, `C87_external`, `C87_compact_refuted`, `C87_refused_changes_nothing_refuted`, `C87_help_placement_refuted`, `C87_external_uuid_refuted`.

### C88: In Python the tags of a message behave as a set

* Model: PyTags.v models _tags.py, what it inherits from collections.abc (Set, MutableSet), UTF-8 encoding and decoding with errors ignored, and the tags in the library.. Proof: UTF-8 decoding inverts encoding (by cases on the length of the sequence); sorted lists without duplicates represent sets; induction over operands and over the calls..
* Status: **proved**. For tags and operands that are texts; refuted theorems: == with a Python set, tags that are not UTF-8, texts with NUL, operands of bytes, several tags with an error half way.
* Theorems (P_PyTags.v): `C88_reading`, `C88_operators`, `C88_comparisons`, `C88_equality`, `C88_changes`, `C88_history`, `C88_errors`, `C88_equals_set_refuted`, `C88_not_utf8_refuted`, `C88_twice_refuted`, `C88_nul_refuted`, `C88_bytes`, `C88_bytes_refuted`, `C88_part_refuted`.

### C89: Python: frozen() and atomic() blocks are all or nothing

* Model: PyBlocks.v models frozen(), atomic(), abort() and exceptions as a small language of programs with a trace of the database after every library call, over the library model Db.v; DbRevision's comparisons as total_ordering derives them.. Proof: Mutual induction over programs and blocks: inside a frozen block the stored documents stay the same and the handle collects the changes (DbProofs.v gives their meaning as sets); inside a section nothing becomes durable and nesting is restored..
* Status: **proved**. For programs that do not catch exceptions between two frozen blocks and, in the atomic theorem, do not abort; refuted theorems: nested blocks with the inner exception caught, KeyboardInterrupt, messages of threads, abort in an inner section, revisions of different databases.
* Theorems (P_PyBlocks.v): `C89_frozen`, `C89_atomic`, `C89_abort`, `C89_revisions`, `C89_nested_refuted`, `C89_interrupt_refuted`, `C89_thread_refuted`, `C89_abort_nested_refuted`, `C89_revisions_refuted`.

### C90: Python: the configuration of a database is a dictionary

* Model: PyConfig.v models ConfigMapping with the methods it inherits from MutableMapping over StringMap.v, with UTF-8 and C strings of PyTags.v.. Proof: A relation between the sorted array of the library and a function from texts to optional texts is preserved by every call (StringMapProofs.v gives get and set); induction over histories; clear() by the number of keys..
* Status: **proved**. Reading, changing and histories of db.config as a dictionary proved; del of a missing key, values or keys that are not UTF-8 and NUL refuted (C90_*_refuted).
* Theorems (P_PyConfig.v): `C90_is_a_dict`, `C90_reading`, `C90_changes`, `C90_popped`, `C90_history`, `C90_errors`, `C90_del_refuted`, `C90_bytes_refuted`, `C90_nul_refuted`, `C90_clear_refuted`.

### C91: Emacs: tag changes in a search view reach the messages shown in the region

* Model: EmacsSearch.v models the buffer as lines of any width, positions, text properties, the marker, the loop over a region, the stable queries (with SearchCmd.v for their text) and the tag commands over EmacsTag.v; EmacsSearchSpec.v says which lines meet a region and how a disjunction of ids is read.. Proof: The loop is followed line by line, with the marker moving as lines are replaced; a reader of disjunctions gets back the ids; C79 gives the effect on the store..
* Status: **proved**. For Xapian reading the parenthesised lists of id: terms as EmacsSearchSpec.v says (reads_disjunctions) and message ids without newline or NUL. The display after * (matched messages only) is refuted for threads with unmatched messages (C91_display_tag_all_refuted).
* Theorems (P_EmacsSearch.v): `C91_query`, `C91_messages`, `C91_lines`, `C91_display`, `C91_tag_all`, `C91_archive`, `C91_display_tag_all_refuted`.

### C92: Python: the properties of a message are a set of pairs

* Model: PyProps.v models PropertiesMap with the methods it inherits over the message handles of Db.v and the reading of Props.v, with UTF-8 and C strings of PyTags.v.. Proof: The terms of the message represent a relation between texts; C12 gives each library call, and that UTF-8 encodings are prefix-free turns prefixes of bytes into prefixes of texts; induction over histories..
* Status: **proved**. For keys and values with an encoding without NUL (keys without '=') that fit into a term of 245 bytes; the behaviour outside of this is refuted separately (C92_pop_refuted, C92_popitem_refuted, C92_del_refuted).
* Theorems (P_PyProps.v): `C92_lookup`, `C92_iteration`, `C92_getall`, `C92_calls`, `C92_history`, `C92_refused`, `C92_pop_refuted`, `C92_popitem_refuted`, `C92_del_refuted`.

### C93: Threads in databases without ghost messages

* Model: LegacyThreads.v models additions without the feature (stored thread ids for missing messages, the parents loop, the children loop, merging) over the documents of MailStore.v.. Proof: An invariant of one thread per document; each loop only renames threads and drops references to the new message from documents it puts in its thread; a relation 'same thread, or referred to and missing' is kept by induction over histories; soundness for any equivalence containing the references..
* Status: **proved**. References longer than 189 bytes, later failed additions and messages missing for ever: refuted theorems show what goes wrong.
* Theorems (P_LegacyThreads.v): `C93_no_abort`, `C93_unique_ids_one_thread`, `C93_referenced_messages_share_the_thread`, `C93_additions_keep_the_thread`, `C93_only_connected_messages_share_a_thread`, `C93_threads_are_the_connected_components`, `C93_order_does_not_matter`, `C93_other_messages_are_kept`, `C93_added`, `C93_common_missing_parent_refuted`, `C93_failed_addition_refuted`, `C93_long_reference_refuted`.

### C94: Emacs: changing tags in the tree view and in the show view

* Model: EmacsTree.v models filling the tree view, the search for the lines of a thread, the queries made of ids, and the commands that change tags in the two views, over notmuch-tag of EmacsTag.v; Xapian's reading of alternative ids is a hypothesis.. Proof: The loops over lines are described by the block of a thread; the query is read back as the ids of the block (quoting); C79 gives the effect of one command, extended by: ids do not change; invariant over histories of commands..
* Status: **proved**. Xapian's reading of 'id:a or id:b' is a hypothesis on the parser; what a stale view does is refuted.
* Theorems (P_EmacsShow.v, P_EmacsTree.v): `C94_show_tag`, `C94_show_tag_message`, `C94_show_tag_all`, `C94_show_stays_true`, `C94_marked_once`, `C94_seen`, `C94_failure`, `C94_stale_view_refuted`, `C94_pane_refuted`, `C94_filled`, `C94_thread_query`, `C94_tag_thread`, `C94_tag_message`, `C94_no_message`, `C94_archive`, `C94_tree_stays_true`.

### C95: Lifetimes of objects in the Ruby bindings

* Model: RbLife.v models talloc's tree of blocks, the wrappers of the Ruby bindings that steal the library's objects, the methods that make objects, the each loops, tags, close, destroy! and the garbage collector; RbLifeSpec.v says what a tidy program is.. Proof: An invariant of tidy programs (every live object has its wrapper, its library object below it and everything that points into) is kept by every operation; a weaker one (roots are wrappers of live objects, trees of depth two, databases stay) is kept by every operation of any program. Each condition of tidy is shown to be needed by a program that breaks it..
* Status: **proved**. Safety proved for tidy programs; destroy!, the collector, memory and changes for every program. That none of the conditions of tidy can be dropped is shown by refuted theorems.
* Theorems (P_RbLife.v): `C95_safe`, `C95_destroyed`, `C95_collect`, `C95_no_leak`, `C95_written`, `C95_written_object`, `C95_keeps_database_refuted`, `C95_keeps_query_refuted`, `C95_keeps_thread_refuted`, `C95_messages_again_refuted`, `C95_destroy_both_refuted`, `C95_destroy_in_each_refuted`, `C95_no_replies_tags_refuted`, `C95_thread_tags_refuted`, `C95_collected_changes_refuted`, `C95_leak_refuted`.

### C96: A message object says what is true of the message

* Model: MsgCache.v models the fields of notmuch_message_t that remember parts of the document, how they are filled and forgotten, the functions that change the document, freezing, syncing, reindexing and reopening; MsgCacheSpec.v says what each operation does to the facts about a message, as sets.. Proof: An invariant (what is remembered is what the document says; an unmodified object agrees with the database; an unfrozen one is unmodified) is kept by every operation. Reindexing, reopening, a second object and a file name that becomes too long are shown to break the statement..
* Status: **proved**. All histories of one object; reindexing, reopening, several objects and file names that become too long are refuted by concrete runs.
* Theorems (P_MsgCache.v): `C96_current`, `C96_stored`, `C96_fresh`, `C96_frozen`, `C96_read_only`, `C96_reindex_tags_refuted`, `C96_reindex_reply_refuted`, `C96_reopen_refuted`, `C96_reopen_for_ever_refuted`, `C96_two_objects_refuted`, `C96_rename_too_long_refuted`.

### C97: Emacs: wrapping long lines of a message

* Model: Coolj.v models coolj.el function by function on the lines of a text, with the position in the buffer that the condition of the loop compares with the old end; CooljSpec.v says what citation marks are, what a broken line is and when a line cannot be broken.. Proof: Only breaks: induction over the loop. Termination: every break shortens the line when the marks are not wider than the width; the number of '>' bounds the width of marks of all lines that come about. Breaks: a case analysis of set-breakpoint by positions. Endless wrapping, an error and an unwrapped rest are shown by concrete texts..
* Status: **proved**. All texts and widths for what may change; termination and full wrapping under the stated bound, which is shown to be needed.
* Theorems (P_Coolj.v): `C97_only_breaks`, `C97_terminates`, `C97_line`, `C97_plain_text`, `C97_text`, `C97_terminates_refuted`, `C97_terminates_deep_refuted`, `C97_error_refuted`, `C97_unfinished_refuted`.

### C98: Emacs: eliding blank lines

* Model: Elide.v models the four passes of notmuch-wash-elide-blank-lines on the lines of a buffer, for both readings of [[:space:]]; ElideSpec.v says what it is to lose only blank lines.. Proof: Each pass loses only blank lines (transitivity); after the passes blank lines are empty and apart. The documented removal of a trailing blank line is refuted..
* Status: **proved**. All texts, both readings of the regular expression; the documented removal of a trailing blank line is refuted.
* Theorems (P_Elide.v): `C98_text_kept`, `C98_paragraphs`, `C98_single`, `C98_leading`, `C98_trailing_refuted`.

### C99: Emacs: tidying citations

* Model: Tidy.v follows the three regular expressions of notmuch-wash-tidy-citations on the lines of a buffer; TidySpec.v says what it is to lose only lines of marks, and which lines say something.. Proof: Each pass loses only lines of marks (transitivity); with C98, the lines that say something are the same before and after both. That cited paragraphs may run together is shown by a concrete text..
* Status: **proved**. All texts; that cited paragraphs stay apart is refuted.
* Theorems (P_Tidy.v): `C99_only_marks`, `C99_text_kept`, `C99_untouched`, `C99_repeated`, `C99_trailers`, `C99_leaders`, `C99_paragraphs_refuted`.


## 6. Testing the theorems

`tools/mutate.py` applies an edit to one definition of the model in a scratch copy, rebuilds
and records which theorems fail. `seeded/LOG.jsonl` holds one line per seeded fault:
definition, edit, broken claim, failed theorems, tightened theorems. Faults that
survived either led to a tightened theorem (named there) or are explained in the record as
equivalent to the original.

## 7. Findings about the code

Found while modelling; those marked (T) are proved as `_refuted` theorems.

* **Hex escaping**: `%00` decodes to NUL; `isxdigit` is applied to plain `char`; `out_size` is
  not reset when `*out == NULL`.
* **Batch tagging**: legality of tags is tested before hex decoding, so an illegal tag (for
  instance empty, or starting with `-`) can be added through escapes (T, C07).
* **Restore**: `find_message` returns ghost messages; exit status is success despite malformed
  lines; an unterminated `#= id foo` line makes the property parser read out of bounds;
  messages dumped without properties keep the target's (T, C06).
* **Reindex** of an unfrozen message writes a document without thread and files half way.
  Re-indexing after files changed on disk can leave a message in two threads (T, C43).
* **Tag optimisation**: combining the query with the tag conditions is wrong for
  s-expression queries (T, C09).
* **Maildir**: renaming replaces an existing target silently (T, C16); files under a directory
  whose name contains ":2," are never renamed; notmuch_message_tags_to_maildir_flags
  writes a frozen message to the database (lib/message.cc:2098).
* **gz_getline**: a NUL byte merges lines, and an empty chunk reads buf[-1] (T, C40); `*bufptr` is
  stale after a reallocation followed by an error.
* **Dump file**: a failing mkstemp may unlink a file that is not ours (T, C30).
* **Compaction**: after a failed second rename the database is missing from its path (T, C31).
* **Insert**: bad index options leave the delivered message behind; after a flag sync the moved
  file is left behind on failure; a "From " line split between two reads is not rewritten; an
  input of exactly "From " fails; `--create-folder` with "//" fails (T, C32, C33).
* **Printers**: the s-expression printer does not distinguish false/null and list/map and aborts
  on unusual keys; JSON is not valid for strings which are not UTF-8 (T, C36, C37).
* **Paths**: relative_path does not check for a component boundary; doubled slashes give a file two
  identities; `path:a/**` is confused with a directory literally named `**`; `folder:x/cur` never
  matches; long directory paths abort (T, C26, C27).
* **Features**: an upgrade drops unknown but accepted features from the metadata (T, C28).
* **lastmod:** trailing text after a number is ignored; inexact beyond 2^53 (T, C38).
* **Options**: integer overflow wraps; a refused integer option still assigns; the `--include`
  keyword arrays of notmuch-dump.c:382 and notmuch-restore.c:258 lack the `{ 0, 0 }` terminator,
  so an unknown keyword reads past the array (T, C46).
* **notmuch new**: a directory turned into a file keeps its recorded contents; mail in a
  symlinked directory is missed when nlink is 2; a temporarily unreadable message is not
  retried (T, C34); "tmp" and ".notmuch" directories recorded earlier are never cleaned.
* **Threads**: circular references lose messages from display (T, C23); count_messages always
  subtracts excluded messages (T, C25); authors may read "(null)"; only one "Re:" is stripped;
  oldest date in FLAG mode (T, C42, C47); count_threads leaves the sort order changed on error;
  calling notmuch_threads_get twice without moving yields different threads.
* **S-expression queries**: `(matching …)` outside a field dereferences NULL; saved `()` or atom
  crashes; a self-referencing saved query recurses forever; `mimetype` combines with "and" although
  documented as "or"; parameters inside `(matching …)` are undefined; a saved non-macro query
  sees its caller's parameters (T, C39, C48); `(query x)` with a broken saved infix query
  throws an uncaught exception; trailing slashes are stripped in place from shared macro arguments.
* **Dates**: "a.m."/"p.m." are never understood; signed overflow with large numbers; expressions
  without any date accepted as 1970; 2021-02-31 runs into March; the time -1 is
  treated as an error; `date:..X` excludes times <= 0 (T in part, C45).
* **Configuration**: a `database.path` in the metadata competes with the opened path; with
  NOTMUCH_DATABASE set and another path in the file the handle reports the file's; the typo
  "database.backup_path" leaves a relative backup_dir unexpanded; path "/" is reported as ""
  (T, C49); the manual says primary_email defaults to the host name, the code uses "localhost".
* **Opening and creating**: empty NOTMUCH_DATABASE or NOTMUCH_CONFIG are not ignored although
  notmuch.h says "if non-empty"; a failed creation leaves a database behind, so that the next
  attempt says it exists; HOME and XDG_DATA_HOME unset dereferences NULL (T, C50).
* **Reply**: a person named in two headers is addressed twice; a munged Reply-To is recognised
  only in the exact spelling of the recipient, else the author gets no reply; a host with an
  empty label ("mx.ma..com") makes a single label count as the domain; an address is "found" as a part of a
  longer one; the unused decoding direction of the filter does not treat lines after an empty
  line (T, C51).
* **Search command**: `--offset=1 --limit=2147483647` overflows a signed sum (with gcc nothing is
  shown); `--output=tags '*'` lists tags of excluded messages; a line break in a file name makes
  the text format ambiguous (T, C52); `--duplicate=0` shows all ids but no files.
* **Cryptographic status**: an outer `multipart/signed` that cannot be verified or has not two
  parts, or a `multipart/encrypted` that cannot be decrypted, is not a payload and does not end
  the envelope: with a validly signed message as its first part, the status says the whole
  message is signed although any other text is shown beside it (C54). The control part of a
  `multipart/encrypted` is recognised by a case-sensitive comparison, otherwise it is taken for
  the payload and its cleartext subject exported as protected (C54).
* **index.decrypt=nostash is not like true (C56)**: the manual says it is the same except for the stashing. With nostash (and auto) no decryption result is asked for, and the code that marks the message as decrypted is inside the test for it: the protected subject is not indexed and the copy of the headers for old programs is (`C56_nostash_like_true_refuted`).
* **Encrypted inside of signed (C56)**: while indexing, the child of a multipart/signed is taken for the payload before it is decrypted, unlike when showing: such a message is decrypted "in part" for the index and "fully" for show, its protected subject is not found by subject: (`C56_encrypted_in_signed_refuted`).
* **mbox output** (C57): the loop over the lines of a message file ends only at end of file (notmuch-show.c, format_part_mbox); a read error (a damaged compressed file) is not one, so the command writes the last line for ever. A NUL byte in a line loses the rest of the line.
* **show, unreadable messages** (C58): for a message whose file cannot be read nothing is printed, not even null, so its node is a list of one element; the schema promises two (C58_unreadable_schema_refuted).
* **show --unthreaded** (C58): the nodes are printed without the list of replies that the schema promises (C58_unthreaded_schema_refuted); a negative --offset together with --exclude=false counts without the excluded messages and prints the wrong window (C58_unthreaded_offset_refuted).
* **Filter of indexed text** (C60): the first character after uuencoded data is lost; "begin" is recognised in the middle of a line, and "bbegin" hides it; an apostrophe in an HTML comment hides the text after it; text after a NUL byte is not indexed; the filter runs before the conversion of the character set, so markup in UTF-16 or ISO-2022-JP is misread.
* **Regular expression fields** (C61): a trailing slash is stripped from the value of every boolean field of this kind, so a tag "todo/" is not found by tag:todo/ ; a tag beginning with "/" can only be searched as an expression; an empty subject or sender is not stored, so subject:/^$/ never matches; text after a NUL in a value is not looked at.
* **config set** (C62): `notmuch config set new.tags 'a;b' c` writes an escape that the library does not understand; a value that is not UTF-8 is accepted and then no command can read the file, not even config set; a section "a.b" in the file can hide an item set as a.b.c; `.name` reports success and sets nothing; `index.header.from.X` passes the check that prefixes do not begin with a lower case letter.
* **Upgrade** (C63): the status of adding the file name of an old message is ignored and the data cleared, so a message whose file name is too long for a term (225 to 255 bytes) loses its only file (C63_long_name_kept_refuted); after a failed upgrade the features of the handle stay at the target, so needs_upgrade says no and further writes use the new format (C63_handle_after_failure_refuted); if the first count fails, a transaction that was not begun is cancelled and Xapian throws (C63_count_failure_reported_refuted); a NULL directory is used if its document cannot be created; the comment says that all messages get revision 1, but each gets its own.
* **Directories** (C64): notmuch_directory_delete on a directory that still lists something leaves its subdirectories known but listed by no directory, even after it comes back, and file names of messages that cannot be made (C64_delete_nonempty_refuted); an object kept after its directory was deleted brings it back when its time is set (C64_stale_object_refuted).
* **Message files** (C65): the check that a file is inside the mail root compares only the beginning of the name, so with root /home/u/mail a file /home/u/mail-archive/x (or /home/u/mail/../x) is accepted (C65_open_below_root_refuted); a Received header that can't be decoded makes those before it be forgotten (C65_all_received_refuted); only the first file of a message is tried for headers that are not in the database, so they can't be read if it is gone although another copy exists; a From or Subject that cannot be decoded would be passed as NULL to a std::string.
* **Relative dates** (C66): the conditions mix elapsed seconds and weekdays, so with daylight saving time a time of the same day, more than 24 hours ago, is shown as a date (C66_dst_today_refuted), and a time eight days ago as "Yest." (C66_dst_yesterday_refuted); an elapsed hour and a minute is printed as "1h 60s" (C66_elapsed_carry_refuted).
* **Count** (C67): like notmuch tag --batch, a batch line that begins with a NUL byte makes chomp_newline read (and perhaps write) before the start of the buffer (C67_every_line_handled_refuted).
* **notmuch setup** (C68): an answer with tags that begins with a space gives an empty tag; `notmuch_conffile_is_new (config)` is called after `notmuch_conffile_close (config)` on every successful run (use after free, notmuch-setup.c:245-249); a line that begins with NUL makes chomp_newline look at the byte before the buffer; additional addresses can be replaced but not removed; Enter for the current additional addresses copies those in effect (for example from the environment or the database) into the file.
* **Hooks** (C69): a hook that exists but whose interpreter does not (execl: ENOENT) makes the child exit with status 0, so the hook counts as having succeeded (hooks.c:69-79); notmuch new goes on.
* **Exit status** (C70): `notmuch config get ...` without a configuration file prints "Try running 'notmuch setup'" and exits with status 0 (notmuch.c:580-584: goto DONE with ret still EXIT_SUCCESS).
* **Failed addition** (C71): notmuch_database_index_file always ends its atomic section with end_atomic (lib/add-message.cc:587), even after a failed begin_atomic; nothing cancels it, so what was written before the failure is committed. Threads stay joined by the references of a file that is not in the database (C71_failure_leaves_threads_refuted); an exception in the middle of _merge_threads leaves a thread split (C71_failure_splits_thread_refuted), and adding the file again with success does not rejoin it, because the reference already resolves to the winner (C71_retry_mends_threads_refuted).
* **Subqueries** (C72): `thread:{q}` also looks at ghost documents, so `thread:{not tag:x}` finds a thread all of whose messages have the tag, if a parent is missing (lib/query.cc:828-874, C72_thread_of_found_refuted); `query:NAME` of a name that is not set finds nothing although an empty query finds everything (lib/query-fp.cc:27-43 bypasses lib/query.cc:189-190, C72_named_refuted); a saved query that refers to itself recurses without end (C72_terminates_refuted); an empty `thread:` value makes `str.at (0)` throw std::out_of_range, which no caller catches (lib/thread-fp.cc:34, C72_errors_reported_refuted); a query object with infix syntax keeps the thread ids of its first search (C72_reuse_infix_refuted), one with s-expression syntax is parsed anew at each use because query->parsed is never set (lib/query.cc:232-247, C72_reuse_sexp).
* **notmuch git, encoding** (C73): a tag prefix containing `~` matches nothing (the prefix is compared in Python's quoting, which keeps `~`, with a dump that escapes it); the help text says every octet outside its list is escaped but `~` is kept; a message id containing ` -- id:` stops the program with a ValueError; tags `.`, `..`, `.git` and the empty rest of a tag equal to the prefix are silently ignored by `git update-index`.
* **notmuch git, clone** (C74): `clone` reads the format before the repository exists (so format 0 is assumed: tag paths of format 1 are read as wrong ids), and calls `checkout` only when no message carries the prefix, in which case `check_safe_fraction` finds a total of 0 and stops it: the tags of the clone are never loaded.
* **notmuch git, missing messages** (C74): ghosts count as known messages, so `commit` deletes the tags of messages that are only referred to; without the Python bindings `known` is always true (the output of `notmuch search` is a string, compared with None), so `commit` deletes the tags of all messages the database lacks.
* **notmuch git, private index** (C74): the cache of the private index is not dropped when the database uuid changed: stale entries are reported and committed as added; tags of removed messages stay in the index for ever; the revision is read after the dump, so a change made in between is never noticed; a prefix with an upper-case letter finds nothing because wildcard queries are lower-cased; `count_messages` leaves out messages with excluded tags, so the safe fraction is of a smaller number; the query of the incremental run has unbalanced parentheses, so that the tag part is ignored (which happens to be what makes removal of the last prefixed tag work).
* **notmuch new: directory moved away and back** (C75): if a run is killed while it removes a vanished directory from the database, and the directory is then moved back with its old modification time, its already removed mails are missed by all later runs without --full-scan: `_remove_directory` deletes the files first and the directory document (with the recorded mtime) last, and does not reset the mtime. The same holds for a change of new.ignore (documented: use --full-scan).
* **HHMMSS with a zone** (C45): `date:"2012-03-04 101112 +05:30"` is refused although both forms are documented and `101112 +0530` is accepted: the six digits are still a postponed number when the zone is read, so `+05:30` is taken for a second time of day (parse-time-string.c:1061-1094; C45_six_digits_and_zone_refuted).
* **--body=false** (C76): documented as leaving the bodies out, it also shows the subject outside where the full output has the protected one, and `"crypto": {}` for encrypted and signed mail (notmuch-show.c:661-712: the children are not visited, so nothing is decrypted; C76_body_false_only_omits_the_body_refuted).
* **show.extra_headers** (C76): a name that is printed anyway is printed twice; with `Subject` the second one - the one most JSON readers take - is the subject outside (C76_header_keys_distinct_always_refuted).
* **devel/schemata** (C76): does not say that `signed.encrypted`, `signed.headers` and `decrypted.header-mask` are optional, nor that the content of an opened PKCS#7 part is a list of parts; the status "unknown" and the error "alg-unsupported" are never printed.
* **Emacs tagging** (C79): undo is not an inverse: it removes a tag from messages that already had it, and cannot find messages that the operation took out of the query (`-inbox` on `tag:inbox`) -- `C79_undo_refuted`, `C79_undo_selection_refuted`. A query containing a newline is cut at it and more messages are tagged (`C79_newline_query_refuted`). The check `^[-+]\\S-+$` matches any *line* of the string, so a change containing a newline passes, as does `--`, which the batch grammar reads as the end of the operations (`C79_validated_newline_refuted`, `C79_validated_refuted`).* **Killed tagging** (C80): a message whose new tags were flushed but whose file was not yet renamed when 'notmuch tag' was killed is left out by the optimised query of a repeated run, so its maildir flags stay out of date; and a file renamed before the flush makes a later 'notmuch new' with synchronize_flags change only the tags that have flags, half of the operations.
* **Text output** (C81): the text of a mail is not escaped, so a mail can close its part and open another, or (without a final newline) hide the closing line; with --duplicate the opening line names the first file, not the one shown; raw output (without --duplicate) fails if the first file of a message is gone, where the other formats use the next one.
* **Forged lines in notmuch search** (C82): authors and subjects are sanitized in the text output of notmuch search, tags are not. A tag with a newline (from a tag command, a dump file or a mail delivered with `+tag`) makes one thread print as two, the second with an identifier, subject and tags of choice (`C82_text_newline_in_tag_refuted`). Besides, the end of the authors and of the subject cannot be told (`C82_text_ambiguous_refuted`).* **Python: a list of messages is a use after free** (C83): MessageIter.__next__ destroys the iterator when it reaches the end (_base.py:224-230), and the library allocates the messages of a query below the iterator (lib/query.cc:508), so every message kept from `db.messages(q)` past the end of the loop, as in `list(db.messages(q))`, points to freed memory. Its alive property is False, but methods do not look at it: they call the library with the dangling pointer.
* **Python: frozen() and iterators** (C83): when a `with message.frozen():` block fails, the message is freed and its pointer replaced (_message.py:320-332). An iterator over its tags, filenames or properties that still exists then has freed memory, says it is alive because its parent is, and is freed a second time when it is finalized.
* **Python: alive says too little** (C83): a thread is allocated below the query, not below the iterator that gave it (lib/query.cc:674), so it can be used after the iteration has ended, but it says it is not alive, and its own memory is then not given back before the query is.
* **Python: iterators after their end** (C83): a second next() on an exhausted iterator raises ObjectDestroyedError instead of StopIteration, because the pointer is gone; Python requires StopIteration for ever.
* **notmuch-emacs-mua --print changes the Lisp** (C84): `echo ${ELISP}` is not quoted (emacs/notmuch-emacs-mua:176), so runs of blanks and newlines in a subject become one blank and words with `*` or `?` are replaced by names of files.
* **notmuch-emacs-mua: --to and an operand are glued** (C84): `--to=a b` puts "ab, " in To:, because operands are inserted without looking at TO_SEP (emacs/notmuch-emacs-mua:148); several operands leave a trailing ", ".
* **notmuch-emacs-mua: "--" is a recipient** (C84): when getopts meets "--" the loop ends without the shift of line 132, so "--" stays and is inserted in To:.
* **Emacs: encryption not noticed when saving a draft** (C85): the regular expression of emacs/notmuch-draft.el:99 wants "encrypt>" at the end of the secure tag and "encrypt" as the first attribute of a part; `<#secure method=pgpmime mode=encrypt sender=me@x>` and `<#part type=text/plain encrypt=pgpmime>` are saved and indexed in the clear even with notmuch-draft-save-plaintext set to never.
* **Emacs: the draft is deleted before the mail is sent** (C85): notmuch-draft--mark-deleted is in message-send-hook (emacs/notmuch-draft.el:283), which runs before sending; if sending fails the draft is already tagged deleted.
* **Emacs: forgotten draft** (C85): when notmuch tag fails after notmuch insert has stored the new draft (emacs/notmuch-draft.el:221-230), notmuch-draft-id keeps the old id and the new draft is never tagged deleted.
* **Emacs: quoting of tags and case** (C85): saving binds case-fold-search to t (emacs/notmuch-maildir-fcc.el:150), resuming uses the user's value; with nil, `<#PART` stays quoted after resuming.
* **Emacs: Fcc reports success without storing** (C86): notmuch-maildir-fcc-write-buffer-to-maildir returns t even when the link failed because the name exists (the `t` of emacs/notmuch-maildir-fcc.el:358 is outside the catch), contrary to its documentation ("nil otherwise"); the mail then stays in tmp only and nobody is told.
* **notmuch compact ignores --uuid** (C87): notmuch-compact.c:48 passes NULL although the database is open, so `notmuch compact --uuid=X` only warns and compacts another database. External commands (`notmuch --uuid=X emacs-mua`) ignore it too.
* **A refused `notmuch new` has already made a database** (C87): main creates the database before the command reads its options, so `notmuch new --uuid=X` (refused) and even `notmuch new --help`, run where there is no database, leave a new one; `notmuch search --help` without a database shows no help at all, while `notmuch --help search` does. notmuch(1) calls the two places equivalent.
* `notmuch --uuid=X COMMAND` prints "Warning: ignoring --uuid=X" (notmuch.c:97-100, called with NULL from main) although the command does obey it (C87_uuid).
* **Python tags: == with a set raises** (C88): `message.tags == {'inbox'}` raises AttributeError ('set' object has no attribute 'iter'), because ImmutableTagSet.__eq__ (_tags.py:110) calls other.iter(); all other comparisons accept sets.
* **Python tags that are not UTF-8** (C88): iterating ignores the undecodable bytes, so the text it gives is not a member; pop() returns it without removing the tag, so `while tags: tags.pop()` never ends; two tags can give the same text.
* **Python tags and bytes** (C88): documented as accepting bytes or str, but `tags - {b'a'}`, `tags <= {b'a'}` treat b'a' as different from the tag a although `b'a' in tags`; NUL cuts the tag that add() adds.
* **Python: message.tags |= {...}** (C88): Message.tags is a property without a setter, so the statement changes the tags and then raises AttributeError.
* **Python: nesting frozen() is not safe** (C89): documented as safe, but when the exception of an inner `with msg.frozen()` is caught inside the outer one, the message was replaced by one that is not frozen: the outer block's earlier changes are lost, later ones are stored at once, and its end raises UnbalancedFreezeThawError (_message.py:320-336).
* **Python: interrupted frozen()** (C89): `except Exception` does not catch KeyboardInterrupt and SystemExit; the message then stays frozen and later changes are silently never stored.
* **Python: frozen() on messages of threads** (C89): OwnedMessage._destroy does nothing, so after a failed block the thread's message stays frozen and changed; got again from the thread it shows the tags that were rolled back, and changes to it are never stored.
* **Python: abort() in a nested section** (C89): the outer `with db.atomic()` ends without an exception although everything was discarded and the database is closed, because end_atomic only decrements the count that the inner section left behind. AtomicContext.alive raises AttributeError (there is no self.parent).
* **Python: revisions of different databases** (C89): DbRevision.__lt__ and __eq__ return False for different UUIDs, from which total_ordering derives that each is greater than the other.
* **Python: del config['missing']** (C90) raises no KeyError: __delitem__ sets the empty string (_config.py:87-88).
* **Python: config values that are not UTF-8** (C90): config[k] = b'\xff' succeeds, and the key is then not there, because the value is decoded with errors='ignore' and an empty text means KeyError. A *key* that is not UTF-8 is iterated over under another name: list(config.items()) raises KeyError, and clear() stops at it without an exception and leaves it and every value after it. Keys are cut at NUL.
* **Python: changing the configuration while iterating over it** (not modelled): config.clear() takes a new iterator each time, but `for k in config: config[k] = ...` with a new key makes the library reallocate and sort the array under the C iterator (lib/string-map.c:63-111).
* **Emacs: '*' in a search view** (C91): the help of notmuch-search-mode (emacs/notmuch.el:395-399) still warns that '*' also tags messages that arrived after the buffer was made. It does not: stable queries name the messages shown. But it tags only the matched messages of each thread and draws every line as if all the messages of the thread had changed (`C91_display_tag_all_refuted`): '* -x' removes x from the display of threads in which an unmatched message still has it.
* **Python: properties that are not UTF-8** (C92): pop() of such a value returns it and leaves it in the message, because the lossy text is passed to remove() (_message.py:584-594), so popping until KeyError never ends; popitem() raises KeyError although the map is not empty if the first key is not UTF-8 (`C92_pop_refuted`, `C92_popitem_refuted`).
* **Python: del message.properties[k]** (C92) raises no KeyError for a missing key, and a key such as 'a=2' is not refused: it removes the values of 'a' that begin with '2=' (`C92_del_refuted`, the library part is in C12).
* **Python: message.properties.values()** (C92, not modelled): PropertiesValuesView has no _from_iterable, so `values() & other` gives a view of a generator: len() of it raises TypeError and `in` consumes it (_message.py:691-708).
* **Databases without ghost messages** (C93): the thread id stored for a missing message is not updated when its thread is merged into another, so messages that refer to the same missing message may be in different threads until it arrives (`C93_common_missing_parent_refuted`); the children loop removes the reference term before the new message is written, so after a failed addition the message added again may miss the thread (`C93_failed_addition_refuted`); references of 190 to 235 bytes are looked up by the hash but stored as written (`C93_long_reference_refuted`). `_notmuch_message_delete` creates ghost documents in such databases too (lib/message.cc:1430-1445), although the feature is not set.
* **Emacs show view: stale tags** (C94): notmuch-show-tag-message, which archiving and marking as read use, compares with the tags shown and runs nothing when these would not change, without an error, although the message in the database has got the tag since (`C94_stale_view_refuted`); notmuch-show-tag does run the command.
* **Emacs tree view: the message pane** (C94): notmuch-tree-tag-update-display redraws the header line in the pane but leaves the :tags property there (notmuch-show-update-tags instead of notmuch-show-set-tags), so after removing "inbox" in the tree view, un-archiving the same message in the pane does nothing (`C94_pane_refuted`).
* **Ruby bindings: nothing is kept alive** (C95): the data types have no dmark function, and no object refers to the one it came from. A query, message or directory is used after free once the collector has freed the Database (`C95_keeps_database_refuted`), Threads once it has freed the Query (`C95_keeps_query_refuted`), thread.messages once it has freed the Thread (`C95_keeps_thread_refuted`).
* **Ruby bindings: messages of a thread are stolen** (C95): each Ruby Message takes the library's message away from its thread, so that after the collector or destroy! has freed it, going through thread.messages again reads freed memory (`C95_messages_again_refuted`), and two Ruby objects for the same message free it twice (`C95_destroy_both_refuted`). thread.messages.tags frees all messages of the thread (`C95_thread_tags_refuted`).
* **Ruby bindings: message.replies.tags** (C95) of a message without replies passes a null pointer to notmuch_messages_collect_tags, which reads through it (`C95_no_replies_tags_refuted`). destroy! of an iterator inside its own each is a use after free (`C95_destroy_in_each_refuted`).
* **Ruby bindings: a collected Database loses changes** (C95): the collector only calls talloc_free, and the database has no talloc destructor, so that the Xapian database is neither closed nor committed (`C95_collected_changes_refuted`). Database.new leaks the wrapper made by its allocator (`C95_leak_refuted`).
* **Reindexing leaves stale answers** (C96): `_notmuch_message_remove_indexed_terms` clears the terms of the document without forgetting what was remembered (lib/message.cc:731-786), so that after notmuch_message_reindex the object still shows the automatic tags (attachment, signed, encrypted) and In-Reply-To of the old file (`C96_reindex_tags_refuted`, `C96_reindex_reply_refuted`).
* **Reopening does not refresh message objects** (C96): a new view makes `_notmuch_message_ensure_metadata` read the terms again, but it only fills in what is not there, so that what an object has shown once it shows for ever (`C96_reopen_for_ever_refuted`), along with newer values of what it had not yet read.
* **Two objects for the same message** (C96): each has its own copy of the document; a change through one overwrites a change through the other (`C96_two_objects_refuted`).
* **Maildir flags and long file names** (C96): when the renamed file has a name too long for a term, notmuch_message_tags_to_maildir_flags has renamed it and removed the old name from the object, does not add the new one and does not sync; the next change of the message stores it without a file (`C96_rename_too_long_refuted`).
* **Emacs hangs on deep citations** (C97): coolj-find-break-forward starts at the fill column and may find the space that ends the citation marks; the rest with the marks in front is then the same line again. A line of 80 characters, ">" and 39 times "> " and a letter, in a window 80 wide makes notmuch-wash-wrap-long-lines, which is on the default hook, insert lines for ever (`C97_terminates_refuted`); in deep threads, where the indentation is subtracted from the width, a few levels of citation suffice (`C97_terminates_deep_refuted`).
* **Error on long runs of ">"** (C97): when the marks are longer than the width, search-backward gets a bound on the wrong side of point, which is an error (`C97_error_refuted`).
* **Long lines after a wrapped citation** (C97): coolj-wrap-region compares point with the end as it was before the marks were inserted, and stops at the first two lines after it that need no wrapping (`C97_unfinished_refuted`).
* **Trailing blank line** (C98): the last step of notmuch-wash-elide-blank-lines looks for a line break after the end of the buffer and never does anything (`C98_trailing_refuted`).
* **Cited paragraphs run together** (C99): in the second regular expression of notmuch-wash-tidy-citations [^>] also matches a line break, so that after an empty line any line, also a cited one, counts as uncited and the line of marks after it is removed (`C99_paragraphs_refuted`).
