{
 "claims": [
  {
   "property": "C01",
   "status": "proved",
   "theorems": [
    "C01_hex_roundtrip",
    "C01_hex_roundtrip_inplace",
    "C01_hex_decode_meets_spec"
   ],
   "note": "util/hex-escape.c encode/decode, both decoders. C strings contain no NUL; %00 in decoder input is outside the encoder's image."
  },
  {
   "property": "C02",
   "status": "proved",
   "theorems": [
    "C02_hex_safe_alphabet",
    "C02_safe_char_is_token_char"
   ],
   "note": "The output alphabet; no blanks, quotes, parentheses, colon, '#', control or non-ASCII byte."
  },
  {
   "property": "C03",
   "status": "proved",
   "theorems": [
    "C03_hex_encode_no_overflow",
    "C03_hex_decode_fits",
    "C03_hex_decode_size_exact",
    "C03_hex_decode_inplace_safe"
   ],
   "note": "Sizes computed by the code vs bytes written, for the copying encoder/decoder; in-place decoder never reads past the terminator or writes ahead of its read position."
  },
  {
   "property": "C04",
   "status": "proved",
   "theorems": [
    "C04_boolean_term_roundtrip",
    "C04_boolean_term_roundtrip_blanks",
    "C04_parse_meets_spec",
    "C04_make_buffer_large_enough",
    "C04_unquote_buffer_large_enough",
    "C04_bare_only_when_safe"
   ],
   "note": "make_boolean_term / parse_boolean_term."
  },
  {
   "property": "C05",
   "status": "proved",
   "theorems": [
    "C05_restore_reads_back",
    "C05_tag_batch_reads_back",
    "C05_every_message_dumped_refuted"
   ],
   "note": "notmuch-dump.c tag lines against tag-util.c parse_tag_line and parse_boolean_term. Ids with a newline are skipped by the dumper (C05_every_message_dumped_refuted)."
  },
  {
   "property": "C06",
   "status": "proved",
   "theorems": [
    "C06_dump_restore",
    "C06_restore_own_dump",
    "C06_properties_cleared_refuted",
    "C06_auto_format_refuted",
    "C06_missing_message_crash_refuted",
    "C06_include_properties_only_refuted"
   ],
   "note": "Batch-tag format, everything included, any target state. Messages dumped without properties keep the target's properties (C06_properties_cleared_refuted); automatic format detection needs ids without '('. Sup format is modelled but not claimed."
  },
  {
   "property": "C07",
   "status": "partial",
   "theorems": [
    "C07_accepts_exactly_the_grammar",
    "C07_unambiguous",
    "C07_malformed_line_no_effect",
    "C07_only_malformed_lines",
    "C07_restore_malformed_line_no_effect",
    "C07_accepted_tags_legal_partial",
    "C07_accepted_tags_legal_refuted",
    "C07_empty_tag_refused_refuted",
    "C07_every_line_handled_refuted",
    "C07_command_line"
   ],
   "note": "Grammar, no-effect and command line fully proved. 'Only legal tags' holds for unescaped text only: legality is tested before hex decoding (C07_accepted_tags_legal_refuted)."
  },
  {
   "property": "C08",
   "status": "proved",
   "theorems": [
    "C08_last_operation_wins",
    "C08_no_change_decision",
    "C08_failure_writes_nothing",
    "C08_decision_exact_refuted"
   ],
   "note": "tag_op_list_apply, makes_changes on freshly opened messages; maildir sync flag is treated under C16. The no-change decision is one-sided (C08_decision_exact_refuted)."
  },
  {
   "property": "C09",
   "status": "proved",
   "theorems": [
    "C09_infix_optimisation_loses_nothing",
    "C09_tag_query_effect",
    "C09_sexp_optimisation_refuted",
    "C09_sexp_text_injective_refuted"
   ],
   "note": "Infix queries: proved. For S-expression queries the claim is false of the code (conjunction of conditions): C09_sexp_optimisation_refuted, C09_sexp_text_injective_refuted."
  },
  {
   "property": "C10",
   "status": "proved",
   "theorems": [
    "C10_progress_and_shape",
    "C10_terminates",
    "C10_exact_on_well_formed",
    "C10_strict_exact",
    "C10_header_message_id_nonempty",
    "C10_one_character_id_refuted",
    "C10_blanks_removed_refuted",
    "C10_strict_nonempty_refuted"
   ],
   "note": "_notmuch_message_id_parse (with skip_space_and_comments), _parse_strict, parse_references. Exactness on RFC-shaped headers; ids of one character, adjacent blanks and '<>' are shown to be exceptions (refuted theorems)."
  },
  {
   "property": "C11",
   "status": "proved",
   "theorems": [
    "C11_references_never_self",
    "C11_exact_on_well_formed",
    "C11_parent_never_self_refuted",
    "C11_long_id_self_reference_refuted"
   ],
   "note": "Own id filtered from references as a string. The strict In-Reply-To is not compared with the own id, and ids over 189 bytes escape the filter (refuted theorems)."
  },
  {
   "property": "C12",
   "status": "proved",
   "theorems": [
    "C12_add_property",
    "C12_remove_property",
    "C12_remove_all_of_key",
    "C12_remove_all_with_prefix",
    "C12_remove_all",
    "C12_bad_key_refused",
    "C12_iteration",
    "C12_get",
    "C12_count",
    "C12_pairs_not_confused",
    "C12_remove_all_checks_key_refuted",
    "C12_long_value_returns_error_refuted"
   ],
   "note": "add/remove/remove_all properties through a message handle on the database model, string map with its binary search, iteration/get/count. Exceptions shown: remove_all does not check the key for '=' and over-long pairs abort (refuted theorems)."
  },
  {
   "property": "C13",
   "status": "proved",
   "theorems": [
    "C13_frozen_changes_stay_out",
    "C13_frozen_batch_publishes_all_at_once",
    "C13_frozen_batch_set_semantics",
    "C13_unfrozen_set_semantics",
    "C13_freezes_count",
    "C13_unbalanced_thaw_refused",
    "C13_two_handles_lose_update_refuted"
   ],
   "note": "Handles, freeze counters, sync. Limits shown by C13_two_handles_lose_update_refuted. notmuch_message_tags_to_maildir_flags syncs a frozen message (lib/message.cc:2098) and is outside this model."
  },
  {
   "property": "C14",
   "status": "proved",
   "theorems": [
    "C14_durable_state_is_consistent",
    "C14_crash_discards_open_section",
    "C14_close_discards_open_section",
    "C14_section_shares_one_revision",
    "C14_empty_section_keeps_revision",
    "C14_revision_bounds_documents",
    "C14_revision_monotone",
    "C14_revision_monotone_session",
    "C14_unbalanced_end_refused",
    "C14_sections_nest",
    "C14_reopen_inside_section_refuted",
    "C14_reopened_section_cannot_end",
    "C14_revision_after_delete_refuted",
    "C14_revision_after_crash_refuted"
   ],
   "note": "Histories of API calls with crash, close, reopen, flush at arbitrary points; reopening inside a section is excluded and shown to break it (C14_reopen_inside_section_refuted). Revision may go down after deletion+reopen or a crash (refuted theorems)."
  },
  {
   "property": "C15",
   "status": "proved",
   "theorems": [
    "C15_every_name",
    "C15_new_name",
    "C15_other_flags_kept",
    "C15_odd_flags_not_renamed",
    "C15_idempotent",
    "C15_distinct_names",
    "C15_buffer_exact"
   ],
   "note": "_filename_is_in_maildir, _new_maildir_filename including its buffer. The first ':2,' anywhere in the path counts; names below a directory containing ':2,' are never renamed (C15_every_name)."
  },
  {
   "property": "C16",
   "status": "proved",
   "theorems": [
    "C16_actions",
    "C16_flags_match_tags",
    "C16_read_back",
    "C16_other_tags_untouched",
    "C16_flags_to_tags",
    "C16_flags_of_all_files",
    "C16_no_rename_after_reading",
    "C16_names_exist",
    "C16_no_mail_lost",
    "C16_overwrites_existing_file_refuted"
   ],
   "note": "_get_maildir_flag_actions, tags_to_maildir_flags, maildir_flags_to_tags on a disk model with failing renames. rename(2) silently replaces an existing target: C16_overwrites_existing_file_refuted."
  },
  {
   "property": "C17",
   "status": "proved",
   "theorems": [
    "C17_no_abort",
    "C17_referenced_messages_share_the_thread",
    "C17_recorded_references"
   ],
   "note": "index_message_file, link_message, ghosts (database with the ghosts feature), merge_threads, removal. The hash table of references is enumerated in arbitrary order (legal permutations). References over 235 bytes are linked but not recorded."
  },
  {
   "property": "C18",
   "status": "proved",
   "theorems": [
    "C18_only_connected_messages_share_a_thread",
    "C18_threads_are_the_connected_components",
    "C18_order_independent"
   ],
   "note": "Connected component characterisation for all histories of additions, removals and failed additions. Legality excludes a reference over 189 bytes whose hash is the message's own id; needed, see C19_long_self_reference_refuted."
  },
  {
   "property": "C19",
   "status": "proved",
   "theorems": [
    "C19_unique_ids_one_thread",
    "C19_ids_never_reused",
    "C19_duplicate_is_reported_and_merged",
    "C19_long_self_reference_refuted"
   ],
   "note": "Unique ids, exactly one thread id per document, fresh document and thread ids. C19_long_self_reference_refuted shows the excluded case."
  },
  {
   "property": "C20",
   "status": "proved",
   "theorems": [
    "C20_removal_does_not_disturb_the_rest",
    "C20_readding_rejoins_the_thread",
    "C20_every_thread_has_a_message",
    "C20_failed_indexing_leaves_placeholders_refuted"
   ],
   "note": "_notmuch_message_delete with placeholder bookkeeping. Failing indexing leaves placeholders: C20_failed_indexing_leaves_placeholders_refuted."
  },
  {
   "property": "C21",
   "status": "proved",
   "theorems": [
    "C21_other_copies_remain",
    "C21_status_tells"
   ],
   "note": "notmuch_database_remove_message; two messages may carry the same name only if the caller indexes a changed file under its old name, excluded by hypothesis."
  },
  {
   "property": "C22",
   "status": "proved",
   "theorems": [
    "C22_walk_terminates_without_repetition",
    "C22_replies_are_replies",
    "C22_siblings_oldest_first"
   ],
   "note": "Every thread, every header arrangement (cycles, self references, duplicate ids): building the tree (labelling, reparenting, sorting) and the show walk end, and no message is visited twice. Any qsort. Also: every edge is a named parent, siblings oldest first."
  },
  {
   "property": "C23",
   "status": "partial",
   "theorems": [
    "C23_every_message_shown_partial",
    "C23_something_shown",
    "C23_shape",
    "C23_every_message_shown_refuted",
    "C23_reply_cycle_shown_refuted"
   ],
   "note": "Proved for every thread whose In-Reply-To/References relation has no cycle (C23_every_message_shown_partial), with the exact shape of the tree (C23_shape) and, for every thread, that something is shown. Without that hypothesis the statement is false of the code: C23_every_message_shown_refuted (a message whose References name its own reply) and C23_reply_cycle_shown_refuted."
  },
  {
   "property": "C24",
   "status": "proved",
   "theorems": [
    "C24_thread_search",
    "C24_any_calls",
    "C24_thread_contents"
   ],
   "note": "Thread search over documents with single thread terms: each thread once, in order of its first match, contents, count; any sequence of iterator calls. Xapian's matching and sorting are the trusted base (XQuery.v)."
  },
  {
   "property": "C25",
   "status": "partial",
   "theorems": [
    "C25_search",
    "C25_add_exclude",
    "C25_count",
    "C25_count_agrees_partial",
    "C25_count_agrees_refuted"
   ],
   "note": "Search result, flags and IGNORED status proved in every mode; counting agrees with searching in modes TRUE and ALL only: in FALSE and FLAG the code always subtracts the excluded messages (C25_count_agrees_refuted)."
  },
  {
   "property": "C26",
   "status": "proved",
   "theorems": [
    "C26_relative_path_below_root",
    "C26_relative_path_elsewhere",
    "C26_paths_outside_left_alone_refuted",
    "C26_repeated_slash_below_root_refuted",
    "C26_split_path",
    "C26_split_path_canonical",
    "C26_trailing_slash_ignored_refuted",
    "C26_filenames_after_history",
    "C26_directory_tree",
    "C26_other_spellings_same_file_refuted"
   ],
   "note": "Full for canonical paths over all histories; the claim for arbitrary spellings and for siblings of the root is refuted (C26_*_refuted)."
  },
  {
   "property": "C27",
   "status": "proved",
   "theorems": [
    "C27_query_term",
    "C27_path_exact",
    "C27_path_recursive",
    "C27_folder",
    "C27_path_exact_refuted",
    "C27_folder_refuted",
    "C27_long_directory_reported_refuted"
   ],
   "note": "Proved over all add/remove histories; the plain claims fail for directories named ** / cur / new (refuted theorems)."
  },
  {
   "property": "C28",
   "status": "proved",
   "theorems": [
    "C28_features_roundtrip",
    "C28_stored_declarations",
    "C28_open_iff",
    "C28_open_features",
    "C28_refusal_names_features",
    "C28_write_only_features_do_not_block_reading",
    "C28_old_versions",
    "C28_newer_format_refused",
    "C28_upgrade_then_reopen",
    "C28_upgrade_keeps_unknown_features_refuted"
   ],
   "note": "Feature strings: round trip of every set, exact parsing/blocking for any string, mode and version; upgrade then reopen. Refuted: an upgrade forgets unknown (accepted) features."
  },
  {
   "property": "C29",
   "status": "proved",
   "theorems": [
    "C29_config_values_meet_spec",
    "C29_config_list_roundtrip",
    "C29_backslash_value_refuted",
    "C29_no_value_is_a_bare_semicolon"
   ],
   "note": "Round trip for representable values; the restriction is shown necessary by C29_backslash_value_refuted."
  },
  {
   "property": "C30",
   "status": "proved",
   "theorems": [
    "C30_all_or_nothing",
    "C30_success",
    "C30_failure",
    "C30_failed_mkstemp_refuted"
   ],
   "note": "Every crash point and every failing call of notmuch_database_dump with an output file; zlib and mkstemp contracts are explicit hypotheses; refuted: failing mkstemp may unlink another file."
  },
  {
   "property": "C31",
   "status": "proved",
   "theorems": [
    "C31_every_crash_point",
    "C31_nothing_else_changed",
    "C31_success",
    "C31_backup_not_overwritten",
    "C31_failure_leaves_database_refuted"
   ],
   "note": "Every crash point and failing call of notmuch_database_compact_db over directory states; refuted: after a failed second rename the database is not at its path."
  },
  {
   "property": "C32",
   "status": "proved",
   "theorems": [
    "C32_only_complete_messages_visible",
    "C32_success",
    "C32_failed_write_leaves_nothing",
    "C32_failure_leaves_nothing",
    "C32_bad_options_leave_message_refuted",
    "C32_moved_message_left_refuted",
    "C32_delivery_succeeds",
    "C32_split_from_line_refuted",
    "C32_from_alone_fails_refuted"
   ],
   "note": "copy_fd, write_buf, maildir_write_tmp/new and the command's tail with arbitrary read/write/signal schedules and every crash point; refuted where the code falls short (bad index options or moved file left behind, split 'From ' line, 'From ' alone)."
  },
  {
   "property": "C33",
   "status": "proved",
   "theorems": [
    "C33_accepted_iff",
    "C33_components",
    "C33_stays_below_mail_root",
    "C33_create_only_on_the_way",
    "C33_create_succeeds",
    "C33_double_slash_refuted"
   ],
   "note": "is_valid_folder_name exactly; containment below the mail root by names; mkdir_recursive at every moment; refuted: doubled slashes make folder creation fail."
  },
  {
   "property": "C34",
   "status": "proved",
   "theorems": [
    "C34_no_abort",
    "C34_exactly_the_visible_files",
    "C34_never_wrong",
    "C34_exit_status",
    "C34_mtimes",
    "C34_an_obstacle_loses_nothing",
    "C34_idempotent",
    "C34_vanished_directory_is_noticed_refuted",
    "C34_new_mail_behind_a_link_is_found_refuted",
    "C34_temporary_failure_is_retried_refuted"
   ],
   "note": "Exact set of recorded files after a full scan (or with trustworthy mtimes), soundness at every interruption point, exit status, mtimes, obstacles, idempotence; three refuted expectations (directory turned into a file, mail behind a symlinked directory, temporary failure not retried). Model: New.v; the tree does not change during the scan."
  },
  {
   "property": "C35",
   "status": "proved",
   "theorems": [
    "C35_a_visible_message_survives",
    "C35_a_renamed_message_survives"
   ],
   "note": "Any message with a visible old or new name survives with its id, properties and user tags at every interruption point."
  },
  {
   "property": "C36",
   "status": "proved",
   "theorems": [
    "C36_json_reads_back",
    "C36_json_sequence",
    "C36_json_unambiguous",
    "C36_json_utf8",
    "C36_json_utf8_always_refuted"
   ],
   "note": "Whole JSON printer modelled; printed calls for any value tree (separators anywhere) read back by an independent RFC 8259 reader; UTF-8 kept; refuted for non-UTF-8 strings being valid JSON text. Write errors are not modelled."
  },
  {
   "property": "C37",
   "status": "proved",
   "theorems": [
    "C37_sexp_reads_back",
    "C37_sexp_strings_unambiguous",
    "C37_sexp_faithful_refuted",
    "C37_sexp_key_aborts"
   ],
   "note": "Whole S-expression printer modelled; reads back as the Lisp datum for keys of alphanumerics, '-' and '_'; refuted: false/null and list/map are not distinguished, other keys abort."
  },
  {
   "property": "C38",
   "status": "proved",
   "theorems": [
    "C38_range_selects_by_revision",
    "C38_open_ends",
    "C38_changes_since",
    "C38_out_of_range_rejected",
    "C38_non_number_rejected",
    "C38_trailing_text_rejected_refuted",
    "C38_sexp_forms",
    "C38_exact_for_all_revisions_refuted"
   ],
   "note": "lastmod ranges: exact selection by revision below 2^53 with negative and open bounds, rejection of bad bounds, s-expression forms. Refuted: trailing text after a number rejected; exactness beyond 2^53."
  },
  {
   "property": "C39",
   "status": "proved",
   "theorems": [
    "C39_meaning",
    "C39_deterministic",
    "C39_rejects",
    "C39_rejects_with_error",
    "C39_and",
    "C39_or",
    "C39_not",
    "C39_every_bad_query_is_reported_refuted",
    "C39_mimetype_is_or_refuted",
    "C39_matching_distinct_messages_refuted",
    "C39_starts_with_capital_refuted",
    "C39_quoted_word_only_text_refuted"
   ],
   "note": "Every plain expression: translated iff well formed (documented field table, operators, modifiers) and then selects exactly the messages meant; and/or/not of arbitrary subqueries incl. empty forms; errors reported. The reader of s-expressions, stemming, phrases, regexps, infix parsing and ranges are parameters. Refuted: matching outside a field crashes; mimetype combines with and; (matching A B) needs one message; starts-with lowercases exact fields; quoted words match tags."
  },
  {
   "property": "C40",
   "status": "proved",
   "theorems": [
    "C40_lines_determined",
    "C40_all_lines",
    "C40_one_line",
    "C40_error_reported",
    "C40_all_bytes_refuted",
    "C40_no_out_of_bounds_refuted"
   ],
   "note": "gz_getline modelled with zlib's gzgets as external; lines whole for every NUL-free input and buffer; refuted with NULs (line merging, buf[-1])."
  },
  {
   "property": "C41",
   "status": "proved",
   "theorems": [
    "C41_sanitize",
    "C41_del_passes_refuted"
   ],
   "note": "sanitize_string; only C0 controls are replaced (C41_del_passes_refuted shows DEL passes)."
  },
  {
   "property": "C42",
   "status": "proved",
   "theorems": [
    "C42_clean_subject",
    "C42_chain_refuted",
    "C42_subject_origin",
    "C42_newest_first",
    "C42_oldest_first",
    "C42_uncleaned_refuted"
   ],
   "note": "One reply prefix is removed and nothing else; chains are not (C42_chain_refuted) and the first message's subject is shown uncleaned when no match has a subject (C42_uncleaned_refuted). Which subject is chosen is proved for distinct dates of the matches; its origin for all."
  },
  {
   "property": "C43",
   "status": "proved",
   "theorems": [
    "C43_reindex_preserves",
    "C43_unchanged_files_are_consistent",
    "C43_reindex_of_lost_files_removes",
    "C43_changed_files_two_threads_refuted"
   ],
   "note": "notmuch_message_reindex of an unfrozen message on reachable databases; properties that indexing itself sets anew (index.decryption, session keys) are not modelled. Files changed on disk since they were added may leave the message in two threads (C43_changed_files_two_threads_refuted)."
  },
  {
   "property": "C44",
   "status": "proved",
   "theorems": [
    "C44_metadata_unambiguous",
    "C44_type_unambiguous",
    "C44_prefixes_injective",
    "C44_prefixes_complete"
   ],
   "note": "Prefix table, skip_to/get_term/get_terms_with_prefix, _notmuch_message_ensure_metadata as one pass over the sorted terms."
  },
  {
   "property": "C45",
   "status": "proved",
   "theorems": [
    "C45_calendar",
    "C45_selects_a_period",
    "C45_range",
    "C45_range_abbreviations",
    "C45_unknown_words_rejected",
    "C45_no_overflow",
    "C45_year_month_day",
    "C45_bad_dates_rejected",
    "C45_day_overrun",
    "C45_year_month",
    "C45_year",
    "C45_date_time",
    "C45_date_minute",
    "C45_bad_times_rejected",
    "C45_time_stamp",
    "C45_ago",
    "C45_today_yesterday",
    "C45_weekdays",
    "C45_am_with_dots_refuted",
    "C45_overflow_refuted",
    "C45_empty_accepted_refuted",
    "C45_nonexistent_day_refuted",
    "C45_minus_one_refuted",
    "C45_open_start_refuted",
    "C45_number_words",
    "C45_documented_dates",
    "C45_documented_months",
    "C45_documented_moments",
    "C45_six_digit_time",
    "C45_six_digits_and_zone_refuted"
   ],
   "note": "Civil calendar specified and shown unique; every accepted expression selects one whole period; range = first time of A to last time of B; unknown words and bad components rejected; no overflow for moderate numbers; documented forms (YYYY, YYYY-MM, YYYY-MM-DD [HH:MM[:SS]], @N, N units [ago], today, yesterday, weekdays) characterised exactly. Local zone is a fixed offset. Refuted corners kept as _refuted theorems."
  },
  {
   "property": "C46",
   "status": "proved",
   "theorems": [
    "C46_parse_iff_readable",
    "C46_option_iff_readable",
    "C46_option_sets_only_its_variable",
    "C46_only_table_variables_assigned",
    "C46_dashdash_ends_options",
    "C46_stops_at_first_non_option",
    "C46_unknown_option_refused",
    "C46_notmuch_tables_sensible",
    "C46_int_out_of_range_refused_refuted",
    "C46_refused_option_assigns_nothing_refuted",
    "C46_keyword_search_in_bounds",
    "C46_include_keyword_search_in_bounds_refuted"
   ],
   "note": "parse_arguments/parse_option agree exactly with an independent reading relation for every table without ambiguous names (true of all 15 notmuch tables); '--' and stop behaviour. Refuted: int overflow refused; refused option assigns nothing; --include keyword array unterminated (read past end)."
  },
  {
   "property": "C47",
   "status": "partial",
   "theorems": [
    "C47_counts",
    "C47_tags",
    "C47_authors_partial",
    "C47_authors_once",
    "C47_author_name",
    "C47_authors_refuted",
    "C47_newest_date",
    "C47_oldest_date_partial",
    "C47_oldest_date_refuted",
    "C47_oldest_of_thread_refuted"
   ],
   "note": "Counts, tags, newest date and author names in full; the authors line when some match has an author (otherwise \"(null)\", refuted); the oldest date outside mode FLAG (there refuted)."
  },
  {
   "property": "C48",
   "status": "proved",
   "theorems": [
    "C48_macro_is_substitution",
    "C48_macro_arity",
    "C48_saved_query",
    "C48_expansion",
    "C48_meaning",
    "C48_terminates",
    "C48_terminates_refuted",
    "C48_saved_query_refuted",
    "C48_substitution_everywhere_refuted",
    "C48_lexical_scope_refuted"
   ],
   "note": "Macro call = substitution, saved query = definition, full expansion preserves the translation (simulation over lazily bound environments), arity errors, termination for acyclic definitions. Refuted: self reference loops; () or atom definitions crash; parameters inside (matching ...) are undefined; a non-macro saved query sees its caller's parameters."
  },
  {
   "property": "C49",
   "status": "proved",
   "theorems": [
    "C49_precedence",
    "C49_when_opening_succeeds",
    "C49_set_then_get",
    "C49_read_only",
    "C49_set_persists",
    "C49_booleans",
    "C49_listing",
    "C49_one_path_refuted",
    "C49_path_is_the_opened_one_refuted",
    "C49_backup_dir_absolute_refuted",
    "C49_root_path_refuted"
   ],
   "note": "Exact value of every item after opening, exact condition for opening to succeed, set/get, persistence, booleans, listing. Refuted: a database.path in the metadata competes with the opened path; with NOTMUCH_DATABASE and a file naming another path the handle reports the file's; a relative backup_dir is not made absolute; path / is reported as empty."
  },
  {
   "property": "C50",
   "status": "proved",
   "theorems": [
    "C50_open_uses_the_first_place",
    "C50_open_changes_nothing",
    "C50_open_failures",
    "C50_create_makes_a_new_database",
    "C50_create_never_touches_a_database",
    "C50_created_database_is_found",
    "C50_empty_variable_is_ignored_refuted",
    "C50_created_database_is_found_refuted",
    "C50_failed_creation_leaves_nothing_refuted",
    "C50_create_never_crashes_refuted",
    "C50_create_never_crashes"
   ],
   "note": "For every world, disk and arguments; mkdir and Xapian creation are external with stated effects (shown to be met by a concrete file system). 'Found again' needs: no second database in path/xapian, and the XDG directory not made as a by-product (both shown necessary or refuted without). Refuted: empty NOTMUCH_DATABASE is not ignored; failed creation can leave a database; NULL dereference without HOME and XDG_DATA_HOME."
  },
  {
   "property": "C51",
   "status": "proved",
   "theorems": [
    "C51_reply_to_all",
    "C51_reply_to_sender",
    "C51_specification_is_exact",
    "C51_not_to_myself",
    "C51_always_a_reply",
    "C51_from",
    "C51_received_guess",
    "C51_reply_joins_the_thread",
    "C51_quoting",
    "C51_unquoting_fits",
    "C51_unquoting_undoes_quoting",
    "C51_unquoting_any_line_refuted",
    "C51_each_recipient_once_refuted",
    "C51_author_gets_the_reply_refuted",
    "C51_domain_has_two_labels_refuted",
    "C51_mentioned_whole_address_refuted"
   ],
   "note": "Recipients, From, headers, subject, quoting filter in full; GMime's parsing of headers and addresses is external. format_part_reply (which parts are quoted) is not modelled. Refuted: recipients deduplicated; munged Reply-To in another spelling; domain guess with empty labels; decoding filter for arbitrary lines."
  },
  {
   "property": "C52",
   "status": "proved",
   "theorems": [
    "C52_messages",
    "C52_pages",
    "C52_threads",
    "C52_tags",
    "C52_all_tags",
    "C52_all_tags_exclude_refuted",
    "C52_refused",
    "C52_text",
    "C52_text_newline_refuted",
    "C52_thread_query",
    "C52_limit_overflow_refuted"
   ],
   "note": "Windows for all offsets and limits that do not overflow int; hypotheses: distinct document ids, every message in one thread (threads output), every message has a file. Refuted parts named _refuted."
  },
  {
   "property": "C53",
   "status": "proved",
   "theorems": [
    "C53_no_dedup",
    "C53_mailbox",
    "C53_mailbox_count",
    "C53_address",
    "C53_refused",
    "C53_hash"
   ],
   "note": "Counters unbounded (int in C). Parsing of headers and quoting of names are GMime's."
  },
  {
   "property": "C54",
   "status": "proved",
   "theorems": [
    "C54_status_of_envelope",
    "C54_status_is_of_some_part",
    "C54_signature_covers_text_refuted",
    "C54_subject_is_encrypted_refuted"
   ],
   "note": "status of every message with good layers and soundness for all messages; two refuted stronger readings (a status 'signed' need not cover all text shown; a protected subject may come from the control part)"
  },
  {
   "property": "C55",
   "status": "proved",
   "theorems": [
    "C55_always_shown",
    "C55_numbers",
    "C55_part_by_number",
    "C55_nothing_hidden"
   ],
   "note": "numbers, --part=k and completeness of what is shown, for every tree"
  },
  {
   "property": "C56",
   "status": "proved",
   "theorems": [
    "C56_policy_decides_what_is_indexed",
    "C56_without_keys_nothing_leaks",
    "C56_auto_uses_no_secret_key",
    "C56_session_keys",
    "C56_reindex",
    "C56_index_decryption_property",
    "C56_protected_subject_only_true",
    "C56_nostash_like_true_refuted",
    "C56_encrypted_in_signed_refuted"
   ],
   "note": "For any MIME tree, key set and policy; which keys open what is an assumption-free parameter (one hypothesis: an exported session key opens no part that could not be opened anyway). Two refuted theorems: nostash differs from true in more than stashing; encryption inside of a signature."
  },
  {
   "property": "C57",
   "status": "proved",
   "theorems": [
    "C57_mbox_roundtrip",
    "C57_missing_file",
    "C57_terminates_refuted",
    "C57_nul_refuted"
   ],
   "note": "mbox output read back by an independent mboxrd reader; the read error loop and the loss after NUL are proved as refutations"
  },
  {
   "property": "C58",
   "status": "proved",
   "theorems": [
    "C58_threads",
    "C58_messages",
    "C58_unreadable",
    "C58_unthreaded",
    "C58_single",
    "C58_unreadable_schema_refuted",
    "C58_unthreaded_schema_refuted",
    "C58_unthreaded_offset_refuted"
   ],
   "note": "threads, trees, the messages printed, unthreaded and single modes; three deviations from the documentation are proved as refutations"
  },
  {
   "property": "C59",
   "status": "proved",
   "theorems": [
    "C59_new_message_gets_the_configured_tags",
    "C59_new_message_with_one_file",
    "C59_seen_is_not_unread"
   ],
   "note": "The run as a whole, interrupted anywhere: exact tags for one-file messages; for messages with several files all tags except unread and (when synchronized) flag tags, whose values depend on all files (C16). Tags set by indexing are excluded via auto_tag."
  },
  {
   "property": "C60",
   "status": "proved",
   "theorems": [
    "C60_total_and_independent_of_pieces",
    "C60_output_fits",
    "C60_plain_text_kept",
    "C60_only_uuencoded_data_dropped",
    "C60_uuencoded_file_dropped",
    "C60_html_text_kept",
    "C60_line_after_data_kept_refuted",
    "C60_begin_at_line_start_refuted",
    "C60_text_after_comment_kept_refuted",
    "C60_text_after_nul_indexed_refuted"
   ],
   "note": "The filter of lib/index.cc with its tables. The natural stronger claims about the character after the data, begin at line start, HTML comments and NUL are refuted by separate theorems."
  },
  {
   "property": "C61",
   "status": "proved",
   "theorems": [
    "C61_source_stands_for_matching_documents",
    "C61_source_always_answers",
    "C61_all_matching_documents",
    "C61_value_fields",
    "C61_term_fields",
    "C61_literal_value",
    "C61_refused",
    "C61_literal_tag_refuted",
    "C61_empty_value_refuted"
   ],
   "note": "The whole of lib/regexp-fields.cc; regcomp/regexec, Xapian's value streams and its parser are external. Two natural stronger claims are refuted by separate theorems."
  },
  {
   "property": "C62",
   "status": "proved",
   "theorems": [
    "C62_failure_changes_nothing",
    "C62_set_changes_one_item",
    "C62_set_then_get",
    "C62_still_opens",
    "C62_set_in_database",
    "C62_list_with_semicolon_refuted",
    "C62_any_value_readable_refuted",
    "C62_dotted_group_refuted",
    "C62_success_means_set_refuted",
    "C62_reserved_prefix_refuted"
   ],
   "note": "notmuch-config.c with GLib's key file (setting, escaping, reading back) as an external definition; comments in the file are left out."
  },
  {
   "property": "C63",
   "status": "proved",
   "theorems": [
    "C63_all_or_nothing",
    "C63_messages",
    "C63_revisions",
    "C63_directories",
    "C63_ghosts",
    "C63_done",
    "C63_long_name_kept_refuted",
    "C63_handle_after_failure_refuted",
    "C63_count_failure_reported_refuted"
   ],
   "note": "Success case for all older feature sets, all-or-nothing for every failure and crash point. A file name of 225 to 255 bytes is lost, a failed upgrade leaves the handle's features changed, and a failed count aborts: the three refuted theorems give the cases; C63_messages states the length bound."
  },
  {
   "property": "C64",
   "status": "proved",
   "theorems": [
    "C64_files",
    "C64_directories",
    "C64_delete",
    "C64_mtime",
    "C64_new_mtime",
    "C64_delete_nonempty_refuted",
    "C64_stale_object_refuted"
   ],
   "note": "For directories deleted only when their lists are empty (as notmuch new does); the refuted theorems show what happens otherwise, and with objects kept after a delete."
  },
  {
   "property": "C65",
   "status": "proved",
   "theorems": [
    "C65_file_header",
    "C65_index_headers",
    "C65_message_header",
    "C65_recorded",
    "C65_open",
    "C65_open_below_root_refuted",
    "C65_all_received_refuted"
   ],
   "note": "header cache, indexing headers, notmuch_message_get_header; GMime's parser and decoder are parameters"
  },
  {
   "property": "C66",
   "status": "proved",
   "theorems": [
    "C66_relative_date",
    "C66_unambiguous",
    "C66_fits",
    "C66_dst_today_refuted",
    "C66_dst_yesterday_refuted",
    "C66_elapsed",
    "C66_elapsed_carry_refuted"
   ],
   "note": "local time zone as a function of time; the claim is for equal offsets now and then (it is false otherwise: C66_dst_*_refuted); C locale"
  },
  {
   "property": "C67",
   "status": "proved",
   "theorems": [
    "C67_agrees",
    "C67_batch",
    "C67_every_line_handled_refuted"
   ],
   "note": "the query parser is a parameter; counts fit the printed types"
  },
  {
   "property": "C68",
   "status": "proved",
   "theorems": [
    "C68_answers",
    "C68_all_or_nothing",
    "C68_enter_keeps",
    "C68_next_command_sees_tags",
    "C68_words",
    "C68_leading_space_refuted",
    "C68_any_input_defined_refuted",
    "C68_no_use_after_close_refuted"
   ],
   "note": "GLib's key file functions as in C62; the texts of the prompts are not modelled"
  },
  {
   "property": "C69",
   "status": "proved",
   "theorems": [
    "C69_hook_status",
    "C69_hook_not_run_refuted",
    "C69_new_order",
    "C69_new_exit",
    "C69_insert"
   ],
   "note": "the work of notmuch new and insert is one step here (see C32-C35, C59)"
  },
  {
   "property": "C70",
   "status": "proved",
   "theorems": [
    "C70_access",
    "C70_external",
    "C70_exit_zero",
    "C70_missing_configuration_refuted"
   ],
   "note": "--version, --help and --uuid are not modelled; the individual commands are in other properties"
  },
  {
   "property": "C71",
   "status": "proved",
   "theorems": [
    "C71_failure_keeps_mail",
    "C71_index_error_state",
    "C71_failure_leaves_threads_refuted",
    "C71_failure_splits_thread_refuted",
    "C71_retry_mends_threads_refuted"
   ],
   "note": "all failure points before the final write of the message; directory documents and text terms not included; three expectations refuted"
  },
  {
   "property": "C72",
   "status": "proved",
   "theorems": [
    "C72_deterministic",
    "C72_thread_braces",
    "C72_thread_of_found",
    "C72_thread_contains_found",
    "C72_thread_id",
    "C72_named",
    "C72_operators",
    "C72_no_partial_query",
    "C72_bad_subquery",
    "C72_missing_brace",
    "C72_terminates",
    "C72_reuse_sexp",
    "C72_thread_of_found_refuted",
    "C72_named_refuted",
    "C72_terminates_refuted",
    "C72_errors_reported_refuted",
    "C72_reuse_infix_refuted"
   ],
   "note": "thread:{}, thread:ID, query:NAME and their combination, errors, termination; the counterexamples (ghosts, unset names, circular names, empty value, reuse of infix objects) are refuted theorems"
  },
  {
   "property": "C73",
   "status": "proved",
   "theorems": [
    "C73_path_meets_spec",
    "C73_path_roundtrip",
    "C73_path_injective",
    "C73_path_printable",
    "C73_git_accepts",
    "C73_dump_read_back",
    "C73_batch_line_read",
    "C73_documented_alphabet_refuted",
    "C73_tilde_prefix_refuted",
    "C73_every_id_read_refuted",
    "C73_every_tag_storable_refuted",
    "C73_other_format_refuted"
   ],
   "note": "All quoting layers, paths and both file formats; limits of the encoding are given as refuted theorems."
  },
  {
   "property": "C74",
   "status": "proved",
   "theorems": [
    "C74_status_exact",
    "C74_incremental",
    "C74_commit",
    "C74_commit_clean",
    "C74_checkout",
    "C74_checkout_clean",
    "C74_safe_fraction",
    "C74_merge_insists",
    "C74_merge",
    "C74_clone_refuted",
    "C74_missing_mail_kept_refuted",
    "C74_without_bindings_refuted",
    "C74_new_database_refuted",
    "C74_removed_message_refuted",
    "C74_concurrent_change_refuted",
    "C74_upper_case_prefix_refuted"
   ],
   "note": "status/commit/checkout/merge for repositories whose cache is valid (an invariant of all commands and of later database changes); the situations in which the code breaks it are given as refuted theorems."
  },
  {
   "property": "C75",
   "status": "proved",
   "theorems": [
    "C75_converges",
    "C75_one_more_run_is_enough",
    "C75_killed_anywhere",
    "C75_directory_moved_away_and_back_refuted",
    "C75_changed_ignore_list_refuted"
   ],
   "note": "invariant over histories with kill points; two refuted corner cases given"
  },
  {
   "property": "C76",
   "status": "proved",
   "theorems": [
    "C76_show_message",
    "C76_show_without_body",
    "C76_show_message_sexp",
    "C76_header_keys_distinct",
    "C76_header_keys_distinct_always_refuted",
    "C76_reply_headers",
    "C76_signer",
    "C76_body_false_only_omits_the_body_refuted"
   ],
   "note": "Structured output of format_message/format_part for every MIME tree: one value, schema of devel/schemata, contents; reads back from JSON and S-expressions. Duplicate header keys and --body=false refuted."
  },
  {
   "property": "C77",
   "status": "proved",
   "theorems": [
    "C77_show_part"
   ],
   "note": "--part=k equals the sub-value with id k of the whole output; nothing if there is no such part."
  },
  {
   "property": "C78",
   "status": "proved",
   "theorems": [
    "C78_any_pieces",
    "C78_as_it_arrives"
   ],
   "note": "Incremental parser of emacs/notmuch-parser.el against sprinter-sexp output, any chunking, any truncation, promptness."
  },
  {
   "property": "C79",
   "status": "proved",
   "theorems": [
    "C79_command",
    "C79_validation",
    "C79_refused",
    "C79_tag_effect",
    "C79_id_query",
    "C79_display",
    "C79_undo",
    "C79_undo_refuted",
    "C79_undo_selection_refuted",
    "C79_newline_query_refuted",
    "C79_validated_refuted",
    "C79_validated_newline_refuted"
   ],
   "note": "full statement, with the conditions under which undo restores; the unconditional versions (any query, any validated string, unconditional undo) are false of the code and refuted"
  },
  {
   "property": "C80",
   "status": "proved",
   "theorems": [
    "C80_killed_all_or_nothing",
    "C80_killed_order",
    "C80_no_file_lost",
    "C80_complete",
    "C80_repeat_completes",
    "C80_interrupted",
    "C80_repeat_completes_files_refuted",
    "C80_all_or_nothing_with_flags_refuted"
   ],
   "note": "Kill points and flush schedules arbitrary; Xapian durability, rename(2) external; query per message. Two stronger readings refuted."
  },
  {
   "property": "C81",
   "status": "proved",
   "theorems": [
    "C81_text_reads_back",
    "C81_text_without_body",
    "C81_one_after_another",
    "C81_duplicate",
    "C81_first_readable",
    "C81_raw_first_readable_refuted",
    "C81_raw",
    "C81_forged_part_refuted",
    "C81_line_names_file_refuted"
   ],
   "note": "GMime external as in C76. Refuted without the hypothesis on the texts; file name line and raw fallback refuted."
  },
  {
   "property": "C82",
   "status": "proved",
   "theorems": [
    "C82_summary",
    "C82_list",
    "C82_address",
    "C82_reply",
    "C82_text",
    "C82_text_newline_in_tag_refuted",
    "C82_text_ambiguous_refuted"
   ],
   "note": "Dates are those of C66; ids and tags without newline for the text output (refuted otherwise)"
  },
  {
   "property": "C83",
   "status": "proved",
   "theorems": [
    "C83_careful",
    "C83_counted",
    "C83_destroyed",
    "C83_no_leak",
    "C83_of_thread",
    "C83_list_refuted",
    "C83_frozen_refuted",
    "C83_alive_refuted"
   ],
   "note": "C83_careful, C83_counted, C83_destroyed and C83_no_leak hold for every program. Refuted, with concrete programs: without the conditions in careful and counted, use after free happens (C83_list_refuted, C83_frozen_refuted); alive can be False for usable objects (C83_alive_refuted)."
  },
  {
   "property": "C84",
   "status": "proved",
   "theorems": [
    "C84_compose",
    "C84_mailto",
    "C84_hello",
    "C84_refuses",
    "C84_print",
    "C84_print_refuted",
    "C84_glued_refuted",
    "C84_dashdash_refuted"
   ],
   "note": "The evaluator of Lisp covers the functions the script uses and refuses everything else. Three defects are stated as refuted theorems (--print, an operand after --to, the word --)."
  },
  {
   "property": "C85",
   "status": "proved",
   "theorems": [
    "C85_round_trip",
    "C85_hidden",
    "C85_consent",
    "C85_one_draft",
    "C85_tag_fails_refuted",
    "C85_send_fails_refuted",
    "C85_consent_refuted",
    "C85_case_refuted"
   ],
   "note": "For tags that are words and equal case-fold-search when saving and resuming; MIME encoding and decoding by Emacs are assumed to give the text back. Four defects are stated as refuted theorems."
  },
  {
   "property": "C86",
   "status": "proved",
   "theorems": [
    "C86_only_whole_mails",
    "C86_returns",
    "C86_name",
    "C86_unique",
    "C86_fresh",
    "C86_lost_refuted"
   ],
   "note": "Other programs are assumed not to touch the two files of the name in use. That success is reported when the mail was not stored in cur is stated as a refuted theorem."
  },
  {
   "property": "C87",
   "status": "proved",
   "theorems": [
    "C87_uuid",
    "C87_goes_ahead",
    "C87_version_first",
    "C87_help_first",
    "C87_flags_after",
    "C87_placement",
    "C87_external",
    "C87_compact_refuted",
    "C87_refused_changes_nothing_refuted",
    "C87_help_placement_refuted",
    "C87_external_uuid_refuted"
   ],
   "note": "C87_uuid, C87_goes_ahead, C87_placement, C87_version_first, C87_help_first, C87_flags_after, C87_external; compact, external programs, notmuch new creating a database first and the placement of --help are refuted."
  },
  {
   "property": "C88",
   "status": "proved",
   "theorems": [
    "C88_reading",
    "C88_operators",
    "C88_comparisons",
    "C88_equality",
    "C88_changes",
    "C88_history",
    "C88_errors",
    "C88_equals_set_refuted",
    "C88_not_utf8_refuted",
    "C88_twice_refuted",
    "C88_nul_refuted",
    "C88_bytes",
    "C88_bytes_refuted",
    "C88_part_refuted"
   ],
   "note": "For tags and operands that are texts; refuted theorems: == with a Python set, tags that are not UTF-8, texts with NUL, operands of bytes, several tags with an error half way."
  },
  {
   "property": "C89",
   "status": "proved",
   "theorems": [
    "C89_frozen",
    "C89_atomic",
    "C89_abort",
    "C89_revisions",
    "C89_nested_refuted",
    "C89_interrupt_refuted",
    "C89_thread_refuted",
    "C89_abort_nested_refuted",
    "C89_revisions_refuted"
   ],
   "note": "For programs that do not catch exceptions between two frozen blocks and, in the atomic theorem, do not abort; refuted theorems: nested blocks with the inner exception caught, KeyboardInterrupt, messages of threads, abort in an inner section, revisions of different databases."
  },
  {
   "property": "C90",
   "status": "proved",
   "theorems": [
    "C90_is_a_dict",
    "C90_reading",
    "C90_changes",
    "C90_popped",
    "C90_history",
    "C90_errors",
    "C90_del_refuted",
    "C90_bytes_refuted",
    "C90_nul_refuted",
    "C90_clear_refuted"
   ],
   "note": "Reading, changing and histories of db.config as a dictionary proved; del of a missing key, values or keys that are not UTF-8 and NUL refuted (C90_*_refuted)."
  },
  {
   "property": "C91",
   "status": "proved",
   "theorems": [
    "C91_query",
    "C91_messages",
    "C91_lines",
    "C91_display",
    "C91_tag_all",
    "C91_archive",
    "C91_display_tag_all_refuted"
   ],
   "note": "For Xapian reading the parenthesised lists of id: terms as EmacsSearchSpec.v says (reads_disjunctions) and message ids without newline or NUL. The display after * (matched messages only) is refuted for threads with unmatched messages (C91_display_tag_all_refuted)."
  },
  {
   "property": "C92",
   "status": "proved",
   "theorems": [
    "C92_lookup",
    "C92_iteration",
    "C92_getall",
    "C92_calls",
    "C92_history",
    "C92_refused",
    "C92_pop_refuted",
    "C92_popitem_refuted",
    "C92_del_refuted"
   ],
   "note": "For keys and values with an encoding without NUL (keys without '=') that fit into a term of 245 bytes; the behaviour outside of this is refuted separately (C92_pop_refuted, C92_popitem_refuted, C92_del_refuted)."
  },
  {
   "property": "C93",
   "status": "proved",
   "theorems": [
    "C93_no_abort",
    "C93_unique_ids_one_thread",
    "C93_referenced_messages_share_the_thread",
    "C93_additions_keep_the_thread",
    "C93_only_connected_messages_share_a_thread",
    "C93_threads_are_the_connected_components",
    "C93_order_does_not_matter",
    "C93_other_messages_are_kept",
    "C93_added",
    "C93_common_missing_parent_refuted",
    "C93_failed_addition_refuted",
    "C93_long_reference_refuted"
   ],
   "note": "References longer than 189 bytes, later failed additions and messages missing for ever: refuted theorems show what goes wrong."
  },
  {
   "property": "C94",
   "status": "proved",
   "theorems": [
    "C94_show_tag",
    "C94_show_tag_message",
    "C94_show_tag_all",
    "C94_show_stays_true",
    "C94_marked_once",
    "C94_seen",
    "C94_failure",
    "C94_stale_view_refuted",
    "C94_pane_refuted",
    "C94_filled",
    "C94_thread_query",
    "C94_tag_thread",
    "C94_tag_message",
    "C94_no_message",
    "C94_archive",
    "C94_tree_stays_true"
   ],
   "note": "Xapian's reading of 'id:a or id:b' is a hypothesis on the parser; what a stale view does is refuted."
  },
  {
   "property": "C95",
   "status": "proved",
   "theorems": [
    "C95_safe",
    "C95_destroyed",
    "C95_collect",
    "C95_no_leak",
    "C95_written",
    "C95_written_object",
    "C95_keeps_database_refuted",
    "C95_keeps_query_refuted",
    "C95_keeps_thread_refuted",
    "C95_messages_again_refuted",
    "C95_destroy_both_refuted",
    "C95_destroy_in_each_refuted",
    "C95_no_replies_tags_refuted",
    "C95_thread_tags_refuted",
    "C95_collected_changes_refuted",
    "C95_leak_refuted"
   ],
   "note": "Safety proved for tidy programs; destroy!, the collector, memory and changes for every program. That none of the conditions of tidy can be dropped is shown by refuted theorems."
  },
  {
   "property": "C96",
   "status": "proved",
   "theorems": [
    "C96_current",
    "C96_stored",
    "C96_fresh",
    "C96_frozen",
    "C96_read_only",
    "C96_reindex_tags_refuted",
    "C96_reindex_reply_refuted",
    "C96_reopen_refuted",
    "C96_reopen_for_ever_refuted",
    "C96_two_objects_refuted",
    "C96_rename_too_long_refuted"
   ],
   "note": "All histories of one object; reindexing, reopening, several objects and file names that become too long are refuted by concrete runs."
  },
  {
   "property": "C97",
   "status": "proved",
   "theorems": [
    "C97_only_breaks",
    "C97_terminates",
    "C97_line",
    "C97_plain_text",
    "C97_text",
    "C97_terminates_refuted",
    "C97_terminates_deep_refuted",
    "C97_error_refuted",
    "C97_unfinished_refuted"
   ],
   "note": "All texts and widths for what may change; termination and full wrapping under the stated bound, which is shown to be needed."
  },
  {
   "property": "C98",
   "status": "proved",
   "theorems": [
    "C98_text_kept",
    "C98_paragraphs",
    "C98_single",
    "C98_leading",
    "C98_trailing_refuted"
   ],
   "note": "All texts, both readings of the regular expression; the documented removal of a trailing blank line is refuted."
  },
  {
   "property": "C99",
   "status": "proved",
   "theorems": [
    "C99_only_marks",
    "C99_text_kept",
    "C99_untouched",
    "C99_repeated",
    "C99_trailers",
    "C99_leaders",
    "C99_paragraphs_refuted"
   ],
   "note": "All texts; that cited paragraphs stay apart is refuted."
  }
 ]
}