{
 "claims": [
  {
   "property": "C01",
   "status": "proved",
   "theorems": [
    "C01_ringbuffer_refines_queue",
    "C01_spec_deterministic",
    "reachable_has_contents"
   ],
   "note": "refinement of a bounded FIFO queue for every operation sequence"
  },
  {
   "property": "C02",
   "status": "proved",
   "theorems": [
    "C02_write_and_overwrite"
   ],
   "note": ""
  },
  {
   "property": "C03",
   "status": "proved",
   "theorems": [
    "C03_iterators"
   ],
   "note": ""
  },
  {
   "property": "C04",
   "status": "proved",
   "theorems": [
    "C04_raw_ranges"
   ],
   "note": ""
  },
  {
   "property": "C05",
   "status": "proved",
   "theorems": [
    "C05_setCapacity_keeps_newest"
   ],
   "note": ""
  },
  {
   "property": "C06",
   "status": "proved",
   "theorems": [
    "C06_find_decides_equivalence",
    "C06_size_and_out_of_range"
   ],
   "note": ""
  },
  {
   "property": "C07",
   "status": "proved",
   "theorems": [
    "C07_find_depth_logarithmic"
   ],
   "note": ""
  },
  {
   "property": "C08",
   "status": "partial",
   "theorems": [
    "C08_normalize",
    "C08_canonical_unique",
    "C08_idempotent",
    "C08_stamp_constructor_partial",
    "C08_stamp_constructor_refuted"
   ],
   "note": "proved for every (int64,int32) constructor; TimeStamp(uint64,uint32) is wrong for nsec >= 2^31 (refuted there, proved below)"
  },
  {
   "property": "C09",
   "status": "proved",
   "theorems": [
    "C09_exact_arithmetic",
    "C09_algebraic_laws"
   ],
   "note": ""
  },
  {
   "property": "C10",
   "status": "proved",
   "theorems": [
    "C10_comparison_is_total_order",
    "C10_max_time"
   ],
   "note": ""
  },
  {
   "property": "C11",
   "status": "proved",
   "theorems": [
    "C11_unit_conversions",
    "C11_microseconds_part"
   ],
   "note": ""
  },
  {
   "property": "C12",
   "status": "proved",
   "theorems": [
    "C12_calendar_components"
   ],
   "note": ""
  },
  {
   "property": "C13",
   "status": "proved",
   "theorems": [
    "C13_every_valid_date_has_a_day_number",
    "C13_parse_with_fraction",
    "C13_parse_without_fraction",
    "C13_parse_shorter",
    "C13_invalid_month_is_UB_refuted"
   ],
   "note": "the _refuted theorem records that malformed months are undefined behaviour, outside the property's range"
  },
  {
   "property": "C14",
   "status": "proved",
   "theorems": [
    "C14_format_parse_roundtrip",
    "C14_format_correct"
   ],
   "note": ""
  },
  {
   "property": "C15",
   "status": "partial",
   "theorems": [
    "C15_printed_span_exactly_when_partial",
    "C15_printed_span_refuted"
   ],
   "note": "the code prints sec in the hour/minute branch without reducing it; exact set of spans printed correctly is characterised"
  },
  {
   "property": "C16",
   "status": "proved",
   "theorems": [
    "C16_increments_count_modulo",
    "C16_period",
    "C16_ranges",
    "C16_beyond_the_range"
   ],
   "note": "all base types, signed and unsigned"
  },
  {
   "property": "C17",
   "status": "proved",
   "theorems": [
    "C17_less_is_reachable_forward",
    "C17_less_odd_range",
    "C17_successor_is_greater",
    "C17_operators",
    "C17_positive_min_refuted"
   ],
   "note": "for min=0 as stated; the _refuted theorem shows the claim is false for min>0"
  },
  {
   "property": "C18",
   "status": "proved",
   "theorems": [
    "C18_sha224_conforms",
    "C18_sha256_conforms",
    "C18_sha384_conforms",
    "C18_sha512_conforms",
    "C18_primes"
   ],
   "note": "Full pipeline (process, padding, 64/80 unrolled rounds with rotated variables and 16-word circular schedule, hex output) against FIPS 180-3 with constants characterised by cube/square roots of primes, for every message of < 2^61 bytes and any initial memory."
  },
  {
   "property": "C19",
   "status": "proved",
   "theorems": [
    "C19_chunking",
    "C19_no_undefined_behaviour"
   ],
   "note": "Any mix of the C-string and pointer/size overloads, after any history ending in clear()."
  },
  {
   "property": "C20",
   "status": "proved",
   "theorems": [
    "C20_split_cuts_at_delimiters",
    "C20_join_of_split",
    "C20_no_piece_contains_delimiter",
    "C20_split_of_join",
    "C20_split_of_join_char",
    "C20_join_is_glue",
    "C20_split_empty_delimiter_diverges"
   ],
   "note": ""
  },
  {
   "property": "C21",
   "status": "partial",
   "theorems": [
    "C21_trim_partial",
    "C21_white_space",
    "C21_trim_empty_refuted"
   ],
   "note": "proved for all non-empty strings; trim(\"\") reads str[npos] (undefined behaviour), so the full property is false"
  },
  {
   "property": "C22",
   "status": "proved",
   "theorems": [
    "C22_pad"
   ],
   "note": ""
  },
  {
   "property": "C23",
   "status": "proved",
   "theorems": [
    "C23_string2Enum_vector",
    "C23_string2Enum_array"
   ],
   "note": ""
  },
  {
   "property": "C24",
   "status": "proved",
   "theorems": [
    "C24_directory_is_a_map"
   ],
   "note": ""
  },
  {
   "property": "C25",
   "status": "proved",
   "theorems": [
    "C25_next_is_the_next_matching_key",
    "C25_query_enumerates_matches",
    "C25_next_after_the_end_is_UB",
    "C25_reset_starts_over",
    "C25_nothing_to_read_is_UB",
    "C25_match_groups",
    "C25_match_groups_before_the_first",
    "C25_match_groups_at_the_end_refuted"
   ],
   "note": "regular expression = arbitrary predicate on keys; matchGroup not modelled"
  },
  {
   "property": "C26",
   "status": "proved",
   "theorems": [
    "C26_setRelation_classifies"
   ],
   "note": ""
  },
  {
   "property": "C27",
   "status": "proved",
   "theorems": [
    "C27_cells_hold_the_least_value",
    "C27_update_reports_and_is_local"
   ],
   "note": ""
  },
  {
   "property": "C28",
   "status": "proved",
   "theorems": [
    "C28_index_is_a_bijection",
    "C28_write_changes_one_cell",
    "C28_fill",
    "C28_resize_does_not_keep_cells"
   ],
   "note": ""
  },
  {
   "property": "C29",
   "status": "proved",
   "theorems": [
    "C29_bits",
    "C29_isBitSet",
    "C29_64bit_refuted"
   ],
   "note": "types of at most 32 bits; 64-bit types refuted"
  },
  {
   "property": "C30",
   "status": "proved",
   "theorems": [
    "C30_final_is_for_ever",
    "C30_assignable_until_final"
   ],
   "note": ""
  },
  {
   "property": "C31",
   "status": "proved",
   "theorems": [
    "C31_at_most_one_live",
    "C31_returned_object_is_the_live_instance",
    "C31_never_null",
    "C31_no_deadlock",
    "C31_default_created_once",
    "C31_throws_after_destruction",
    "C31_concurrent_destroy_refuted",
    "C31_without_lock_refuted",
    "C31_destruction_is_remembered",
    "C31_destroySingleton"
   ],
   "note": "The refuted variants document what the code does not guarantee: destruction concurrent with instance() can yield a null reference, and the lock-less threading model can create two objects."
  },
  {
   "property": "C32",
   "status": "proved",
   "theorems": [
    "C32_parse_complete",
    "C32_parse_sound",
    "C32_unique_decomposition",
    "C32_nul_terminates",
    "C32_reuse_keeps_stale_parts",
    "C32_reuse_refuted",
    "C32_characters"
   ],
   "note": "Spirit combinators modelled by their documented behaviour; rules and actions as in the code. The reuse of a parser object leaves stale parts (C32_reuse_refuted)."
  },
  {
   "property": "C33",
   "status": "proved",
   "theorems": [
    "C33_round_trip_iff",
    "C33_anchor_becomes_value",
    "C33_round_trip_refuted"
   ],
   "note": "The unconditional round trip is refuted: operator<< prints the anchor after the queries, the grammar wants it before them."
  },
  {
   "property": "C34",
   "status": "proved",
   "theorems": [
    "C34_accepts_iff",
    "C34_rejects_iff",
    "C34_exits_iff",
    "C34_accounting_unique",
    "C34_results",
    "C34_colon_means_value",
    "C34_first_registration_wins",
    "C34_missing_long_value_refuted",
    "C34_second_call_refuted",
    "C34_prefix_is_regex_refuted",
    "C34_help_is_always_there",
    "C34_help_ends",
    "C34_no_words"
   ],
   "note": "The regex engine is an arbitrary function that tests prefixes on plain names; the two fixed expressions are modelled exactly. Refuted: rejection of a missing long value, idempotence of initialize, literal reading of prefix names."
  },
  {
   "property": "C35",
   "status": "proved",
   "theorems": [
    "C35_cleanup_keeps",
    "C35_cleanup_exact_iff",
    "C35_null_terminator_iff",
    "C35_untouched",
    "C35_cleanup_refuted",
    "C35_terminator_refuted"
   ],
   "note": "The naive claims (exactly the non-options; argv stays null-terminated) are refuted, the exact conditions proved."
  },
  {
   "property": "C36",
   "status": "proved",
   "theorems": [
    "C36_load",
    "C36_load_complete",
    "C36_load_returns",
    "C36_include_cycle_refuted",
    "C36_precedence",
    "C36_failure",
    "C36_initialize_once",
    "C36_initialize_returns"
   ],
   "note": "TinyXML, AttributeTree::load, FilePath and regex matching are arguments of the model; include cycles make load recurse forever (refuted theorem)"
  },
  {
   "property": "C37",
   "status": "proved",
   "theorems": [
    "C37_initialize",
    "C37_setValue",
    "C37_registration",
    "C37_register_all",
    "C37_register_key",
    "C37_register_regex_refuted",
    "C37_unregistered",
    "C37_unregistered_count",
    "C37_empty_key_refuted"
   ],
   "note": "observers that call back into the manager from valueChanged are outside the model; findings: empty key announced twice, registration key used as a regex"
  },
  {
   "property": "C38",
   "status": "proved",
   "theorems": [
    "C38_terminates",
    "C38_same_file",
    "C38_normal",
    "C38_absolute",
    "C38_separators",
    "C38_climbing_refuted",
    "C38_climbing_down_refuted",
    "C38_root_refuted",
    "C38_empty_component_refuted",
    "C38_dot_refuted",
    "C38_idempotent_refuted",
    "C38_filepath",
    "C38_filepath_absolute",
    "C38_filepath_file",
    "C38_extension",
    "C38_extension_refuted",
    "C38_colon",
    "C38_colon_refuted",
    "C38_protocol_refuted"
   ],
   "note": "reworded: holds for contained paths, refuted outside"
  },
  {
   "property": "C39",
   "status": "proved",
   "theorems": [
    "C39_terminates",
    "C39_diverges_refuted",
    "C39_result",
    "C39_expands",
    "C39_literal_dollar_refuted"
   ],
   "note": "reworded: terminates for environments whose values have no $"
  },
  {
   "property": "C40",
   "status": "proved",
   "theorems": [
    "C40_each_operation_at_most_once",
    "C40_queue_order",
    "C40_nothing_skipped_without_stop",
    "C40_eventually_invoked",
    "C40_no_lost_wakeup",
    "C40_worker_drains_queue",
    "C40_stop_terminates_and_deletes",
    "C40_no_pop_from_empty_queue",
    "C40_deleted_or_still_queued",
    "C40_always_deleted_refuted",
    "C40_data_race_refuted",
    "C40_fair_invoked",
    "C40_fair_calls_return",
    "C40_fair_stop_ends_worker",
    "C40_fair_stop_deletes",
    "C40_fair_stop_always_deletes_refuted"
   ],
   "note": "Two defects of the code are stated as refuted theorems: the leak of operations pushed after the worker's clean-up and the unsynchronised empty() call."
  },
  {
   "property": "C41",
   "status": "proved",
   "theorems": [
    "C41_writers_exclusive",
    "C41_writer_excludes_readers",
    "C41_no_deadlock",
    "C41_failed_tryWriteLock_refuted",
    "C41_recursive_writeLock_refuted",
    "C41_tryReadLock_does_not_wait_refuted",
    "C41_failed_tryWriteLock_stays_refuted",
    "C41_unlock_returns_true",
    "C41_fair_calls_return",
    "C41_fair_reader_lock_frees",
    "C41_writer_starvation_refuted"
   ],
   "note": "Concurrent model of RWLockImplWin32 (sequential consistency, Win32 objects by documented behaviour). Three expected behaviours are refuted by theorems."
  },
  {
   "property": "C42",
   "status": "partial",
   "theorems": [
    "C42_case_conversion_partial",
    "C42_high_bytes_refuted"
   ],
   "note": "proved for 7-bit strings; bytes >= 128 are undefined behaviour"
  },
  {
   "property": "C43",
   "status": "proved",
   "theorems": [
    "C43_stack_is_lifo",
    "C43_find_is_the_lowest_match"
   ],
   "note": ""
  },
  {
   "property": "C44",
   "status": "proved",
   "theorems": [
    "C44_mutual_exclusion",
    "C44_lock_succeeds_when_free",
    "C44_tryLock_result_is_inverted",
    "C44_tryLock_exclusion_refuted",
    "C44_failed_tryLock_refuted",
    "C44_unlock",
    "C44_fair_lock_returns",
    "C44_fair_unlock_returns",
    "C44_spin_starvation_refuted"
   ],
   "note": "lock/unlock proved; tryLock is inverted in the code, which is proved and refutes the expected behaviour."
  },
  {
   "property": "C45",
   "status": "proved",
   "theorems": [
    "C45_run_does_not_overlap",
    "C45_start_true",
    "C45_start_false",
    "C45_wait_true",
    "C45_stop_is_not_lost",
    "C45_joined_at_most_once",
    "C45_destructor_waits_for_run",
    "C45_no_deadlock",
    "C45_wait_succeeds_refuted",
    "C45_destructor_use_after_free_refuted",
    "C45_all_joined_refuted",
    "C45_wait_after_cancel_refuted",
    "C45_restart_after_cancel_refuted",
    "C45_wait_false",
    "C45_fair_calls_return",
    "C45_fair_cooperative_run",
    "C45_fair_cooperative_wait_refuted"
   ],
   "note": "Concurrent model of Thread on Posix with one client; five expected behaviours are refuted by theorems."
  },
  {
   "property": "C46",
   "status": "proved",
   "theorems": [
    "C46_relative_timeout",
    "C46_absolute_timeout",
    "C46_timeout_round_trip",
    "C46_longest_timeout_refuted",
    "C46_waitPeriod",
    "C46_waitPeriod_returns",
    "C46_executions_are_spaced"
   ],
   "note": "Exact over 64/32 bit time arithmetic; clock is an arbitrary sequence of readings. The overflow for huge time spans is refuted."
  },
  {
   "property": "C47",
   "status": "proved",
   "theorems": [
    "C47_message",
    "C47_newline",
    "C47_new_stream",
    "C47_printf",
    "C47_decimal",
    "C47_level_names",
    "C47_double_refuted",
    "C47_long_object_refuted",
    "C47_long_filename_refuted",
    "C47_levels"
   ],
   "note": "Sequential part of a log statement; see C49 for the sharing of streams by threads. Refuted parts: C47_*_refuted."
  },
  {
   "property": "C48",
   "status": "proved",
   "theorems": [
    "C48_line",
    "C48_accepts",
    "C48_incomplete_refuted",
    "C48_hundred_refuted",
    "C48_empty"
   ],
   "note": "Format parser and printer; refuted parts: C48_*_refuted."
  },
  {
   "property": "C49",
   "status": "proved",
   "theorems": [
    "C49_delivery",
    "C49_one_thread",
    "C49_exclusive",
    "C49_no_overrun",
    "C49_no_deadlock",
    "C49_race_refuted",
    "C49_nested_refuted",
    "C49_fair_statement_ends",
    "C49_fair_delivered",
    "C49_fair_mutex_frees",
    "C49_weakly_fair_refuted"
   ],
   "note": "Interleaving model of the thread stream pool. Defects stated as refuted theorems: the write index is reset outside the mutex; nested statements."
  },
  {
   "property": "C50",
   "status": "proved",
   "theorems": [
    "C50_order",
    "C50_shutdown",
    "C50_delivery",
    "C50_calls_return",
    "C50_push_returns",
    "C50_one_worker",
    "C50_fixed_queue",
    "C50_shutdown_interrupted_refuted",
    "C50_delivery_interrupted_refuted",
    "C50_late_refuted",
    "C50_join_refuted",
    "C50_race_refuted",
    "C50_fixed_capacity_refuted",
    "C50_fair_delivery",
    "C50_fair_push",
    "C50_fair_push_output",
    "C50_fair_calls_return",
    "C50_weakly_fair_refuted"
   ],
   "note": "Interleaving model of push(), the worker and start()/shutdown(); interrupted waits are transitions that the main theorems exclude and the refutations use"
  },
  {
   "property": "C51",
   "status": "proved",
   "theorems": [
    "C51_safety",
    "C51_shutdown",
    "C51_log",
    "C51_initialize",
    "C51_config",
    "C51_configure",
    "C51_new_stream",
    "C51_setLogLevel",
    "C51_setLogLevel_refuted",
    "C51_restart_refuted",
    "C51_running_refuted",
    "C51_default_level_refuted",
    "C51_print"
   ],
   "note": "LoggingManager (sequential); message formats, threads and error output not modelled. Refuted expectations are stated as theorems."
  },
  {
   "property": "C52",
   "status": "proved",
   "theorems": [
    "C52_components",
    "C52_get_cases",
    "C52_get_stored",
    "C52_get_unset",
    "C52_get_missing",
    "C52_get_leaf_refuted",
    "C52_set",
    "C52_set_get",
    "C52_set_other",
    "C52_set_null",
    "C52_set_null_refuted",
    "C52_empty_component_refuted",
    "C52_default",
    "C52_default_returns",
    "C52_is_attribute",
    "C52_file_attribute",
    "C52_nearest",
    "C52_get_returns",
    "C52_search",
    "C52_contains",
    "C52_changed",
    "C52_set_changed",
    "C52_unmark",
    "C52_changed_added_refuted",
    "C52_changed_renamed_refuted"
   ],
   "note": "Heap model of AttributeTree; the *_refuted theorems are claims of the documentation that the code does not meet."
  },
  {
   "property": "C53",
   "status": "proved",
   "theorems": [
    "C53_forest",
    "C53_enumerate",
    "C53_root",
    "C53_delete",
    "C53_unlink",
    "C53_unlink_survives",
    "C53_unlinkSub",
    "C53_copy",
    "C53_copy_order",
    "C53_copy_same_refuted",
    "C53_revert",
    "C53_new_name",
    "C53_add_new",
    "C53_add",
    "C53_add_next",
    "C53_add_leaf_refuted",
    "C53_add_digits_refuted",
    "C53_add_twice_refuted",
    "C53_add_cycle_refuted"
   ],
   "note": "Forest invariant over all histories of operations; the *_refuted theorems show what happens outside the stated preconditions."
  },
  {
   "property": "C54",
   "status": "proved",
   "theorems": [
    "C54_get",
    "C54_line_meaning",
    "C54_line_meaning_unique",
    "C54_get_safe",
    "C54_load_safe",
    "C54_forest",
    "C54_print_defined",
    "C54_load_missing",
    "C54_save_get",
    "C54_save_get_sub",
    "C54_save_load",
    "C54_nothing_lost",
    "C54_error_line_refuted",
    "C54_small_root_refuted",
    "C54_small_sub_refuted",
    "C54_last_line_refuted",
    "C54_open_erases_refuted",
    "C54_blank_refuted",
    "C54_empty_refuted",
    "C54_print_refuted",
    "C54_load_refuted",
    "C54_second_load_refuted",
    "C54_long_line_refuted",
    "C54_open_comment_refuted",
    "C54_own_include_refuted"
   ],
   "note": "Round trip for clean descriptions/values and trees of at least change_style_depth attributes; the other cases are refuted theorems. Undefined behaviour of getAttribute on a null list is the parameter strict."
  },
  {
   "property": "C55",
   "status": "proved",
   "theorems": [
    "C55_integer",
    "C55_one_integer",
    "C55_every_text",
    "C55_saturates",
    "C55_unsigned",
    "C55_invalid_rejected_refuted",
    "C55_overflow_rejected_refuted",
    "C55_blank_defined_refuted",
    "C55_missing",
    "C55_string",
    "C55_bool",
    "C55_bool_defined_refuted",
    "C55_char",
    "C55_enum",
    "C55_round_trip",
    "C55_round_trip_char_refuted",
    "C55_default_on_invalid_refuted",
    "C55_option_integer",
    "C55_option_missing",
    "C55_option_enum",
    "C55_option_string",
    "C55_option_string_whole_refuted",
    "C55_option_bool_word_refuted",
    "C55_option_bool",
    "C55_positional",
    "C55_positional_missing",
    "C55_bool_casts"
   ],
   "note": "Integers of 16, 32 and 64 bits, char, bool, String and enumerations; floating point and DDS strings are not modelled. The behaviour of std::num_get is modelled from the standard (and libstdc++ for bounds)."
  },
  {
   "property": "C56",
   "status": "proved",
   "theorems": [
    "C56_batch",
    "C56_values",
    "C56_array",
    "C56_prefix",
    "C56_text",
    "C56_query",
    "C56_query_only",
    "C56_empty_refuted",
    "C56_default_on_invalid_refuted",
    "C56_string_whole_refuted",
    "C56_list_once_refuted",
    "C56_defined_refuted"
   ],
   "note": "stringValue() and the wording of the messages are not modelled; the regular expression of a list is an arbitrary matcher, and its meaning for a prefix without special characters is literal_match."
  },
  {
   "property": "C57",
   "status": "proved",
   "theorems": [
    "C57_start",
    "C57_behaviour",
    "C57_same",
    "C57_distinct",
    "C57_lazy",
    "C57_initialize_again",
    "C57_thrown",
    "C57_paths_static",
    "C57_errors_lazy",
    "C57_errors",
    "C57_errors_failed",
    "C57_destroy_nothing",
    "C57_destroy_lazy",
    "C57_destroy_undefined",
    "C57_destroy_endless",
    "C57_destroy_refuted",
    "C57_unknown_refuted",
    "C57_create_unknown_refuted",
    "C57_available_null_refuted",
    "C57_retry_refuted",
    "C57_late_path_refuted"
   ],
   "note": "Histories of calls of any length over any file system and libraries. Refuted parts are kept as _refuted theorems: a used manager cannot be destroyed (undefined behaviour or endless loop), asking for an unknown plugin changes plugins()/available(), a failed search cannot be retried, late paths are not searched."
  },
  {
   "property": "C58",
   "status": "proved",
   "theorems": [
    "C58_lines_are_kept",
    "C58_archive_by_day",
    "C58_other_files",
    "C58_only_old_files_are_deleted",
    "C58_old_files_are_deleted",
    "C58_zip_failure_refuted",
    "C58_clock_set_back_refuted",
    "C58_kill_without_flush_refuted",
    "C58_delete_older_than_0_refuted",
    "C58_file_of_another_logger_refuted",
    "C58_failed_open_drops_lines_refuted",
    "C58_failed_delete_throws_refuted"
   ],
   "note": "Refuted beside it: a failing zip loses the day's lines (its result is ignored), a clock set back overwrites an archive, a kill without flush loses lines, DeleteOlderThan 0 deletes yesterday's lines, files of other loggers with the same prefix are deleted, a failing open drops lines silently, a failing delete throws out of push and loses the line."
  },
  {
   "property": "C59",
   "status": "proved",
   "theorems": [
    "C59_every_reply",
    "C59_defined",
    "C59_no_exception",
    "C59_measures_since_start",
    "C59_laps",
    "C59_measured_is_number",
    "C59_switched_off_is_idle_refuted",
    "C59_startstop_starts_refuted",
    "C59_unstarted_timer_refuted"
   ],
   "note": "The documented effect of m_enabled=false and of startStop on an unstarted timer is refuted for enableAll(true); both limits are in the statement."
  },
  {
   "property": "C60",
   "status": "proved",
   "theorems": [
    "C60_summary",
    "C60_figures",
    "C60_report_of_plain_prefix",
    "C60_report_of_all",
    "C60_reports_defined",
    "C60_every_prefix_reported_refuted",
    "C60_labels_distinct_refuted",
    "C60_all_shows_everything_refuted",
    "C60_initialize",
    "C60_unknown_name_refuted"
   ],
   "note": "Prefixes containing '::' or ending in ':' are reported under another prefix (refuted); the order among 0.0 and -0.0 is left open."
  },
  {
   "property": "C61",
   "status": "proved",
   "theorems": [
    "C61_rows_are_kept",
    "C61_every_message",
    "C61_other_files",
    "C61_no_filename",
    "C61_archive_of_the_day_refuted",
    "C61_midnight_refuted",
    "C61_clock_set_back_refuted",
    "C61_own_values_refuted",
    "C61_opened_later_refuted"
   ],
   "note": "Rows are kept through failures, kills and rotations; every message is stored when nothing fails; other files untouched; limits are _refuted theorems."
  },
  {
   "property": "C62",
   "status": "proved",
   "theorems": [
    "C62_stored",
    "C62_doubled",
    "C62_escape_refuted",
    "C62_apostrophe_refuted",
    "C62_altered_refuted",
    "C62_forgery_refuted"
   ],
   "note": "Plain messages are stored exactly; the escaping is the identity (refuted), apostrophes lose the message and allow forged rows (refuted)."
  },
  {
   "property": "C63",
   "status": "proved",
   "theorems": [
    "C63_exclusion",
    "C63_defined",
    "C63_released",
    "C63_forced",
    "C63_acquired",
    "C63_no_deadlock",
    "C63_any_order_refuted",
    "C63_upgrade_refuted",
    "C63_waits",
    "C63_own_write_lock",
    "C63_fair_constructors_return",
    "C63_fair_blocks_left",
    "C63_fair_mutexes",
    "C63_fair_writer_starvation_refuted"
   ],
   "note": "Exclusion, release, forced scopes, acquisition and deadlock freedom under ascending order; the limits are _refuted theorems."
  },
  {
   "property": "C64",
   "status": "proved",
   "theorems": [
    "C64_one_per_period",
    "C64_never_early",
    "C64_wakes",
    "C64_no_drift",
    "C64_rounds",
    "C64_stop",
    "C64_ends",
    "C64_ends_after_wait",
    "C64_defined",
    "C64_period_is_set",
    "C64_set_before_start",
    "C64_other_timers",
    "C64_no_garbage_descriptor",
    "C64_zero_period_refuted",
    "C64_signal_refuted",
    "C64_descriptors_refuted",
    "C64_long_period_refuted",
    "C64_negative_period_refuted",
    "C64_add_while_running_refuted"
   ],
   "note": "timerfd as documented for Linux; m_execute, m_period and the queue accessed atomically; the list of operations unprotected against addOperation from other threads (shown)"
  },
  {
   "property": "C65",
   "status": "proved",
   "theorems": [
    "C65_exclusion",
    "C65_lock_answer",
    "C65_locks_defined",
    "C65_new_semaphore",
    "C65_semaphore_value",
    "C65_semaphore_answer",
    "C65_semaphore_scopes",
    "C65_whole_milliseconds",
    "C65_early_refuted",
    "C65_win32_range_refuted",
    "C65_signal_refuted",
    "C65_post_lost_refuted",
    "C65_initial_value_refuted",
    "C65_foreign_unlock_refuted"
   ],
   "note": "all histories on one object; the system's primitives as documented are trusted (TimedModel.v header); limits of the code shown by _refuted theorems"
  },
  {
   "property": "C66",
   "status": "proved",
   "theorems": [
    "C66_now",
    "C66_now_monotone",
    "C66_future",
    "C66_boost_time",
    "C66_boost_time_refuted",
    "C66_sleep_times",
    "C66_windows_answer_refuted",
    "C66_sleep_too_short_refuted",
    "C66_rtai_nanosleep_refuted"
   ],
   "note": "Holds within the stated ranges; boost times, Windows answers and RTAI/Windows lengths outside of them are refuted separately."
  },
  {
   "property": "C67",
   "status": "proved",
   "theorems": [
    "C67_times",
    "C67_divided",
    "C67_undefined",
    "C67_scaling_refuted"
   ],
   "note": "Within the stated ranges; the loss of fractions of seconds is refuted separately."
  },
  {
   "property": "C68",
   "status": "proved",
   "theorems": [
    "C68_exactly_once",
    "C68_not_early",
    "C68_reverse_order",
    "C68_closing_brace",
    "C68_exceptions_pass",
    "C68_killed_only_by_a_throwing_cleanup",
    "C68_runs_to_the_end",
    "C68_one_report",
    "C68_lines",
    "C68_copies_clean_up_again"
   ],
   "note": "AtScopeEnd and ScopedTimer as objects of a small language with C++'s rules for automatic objects; statements about the trace of every program. User functions do not touch other guards; one thread."
  },
  {
   "property": "C69",
   "status": "proved",
   "theorems": [
    "C69_text",
    "C69_every_option_once",
    "C69_prefix_options_are_not_listed",
    "C69_taken_short_form_refuted"
   ],
   "note": "printHelp as a function of the registrations; the boost regular expression \\n is a newline. The refuted theorem shows a short form listed for two options."
  },
  {
   "property": "C70",
   "status": "proved",
   "theorems": [
    "C70_calendar",
    "C70_one_reading",
    "C70_utc_basic",
    "C70_utc_extended",
    "C70_utc_extended_before_1970_refuted",
    "C70_local_basic",
    "C70_local_extended",
    "C70_local_utc",
    "C70_local_unknown",
    "C70_day_numbers",
    "C70_valid_dates",
    "C70_round_trip_before_1970_refuted",
    "C70_texts_sort",
    "C70_readings_sort",
    "C70_extended_sorts",
    "C70_texts_sort_short_years_refuted"
   ],
   "note": "gmtime/localtime/strftime of the C library are modelled by the proleptic Gregorian calendar and the offset of the zone; the rounding of formatIso8601UTC and the round trip before 1970 are refuted"
  },
  {
   "property": "C71",
   "status": "proved",
   "theorems": [
    "C71_stamp_message_round_trip",
    "C71_stamp_message_value",
    "C71_stamp_message_received",
    "C71_stamp_assignment",
    "C71_stamp_assignment_refuted",
    "C71_many_nanoseconds_refuted",
    "C71_span_message_round_trip",
    "C71_span_message_received",
    "C71_dds_received",
    "C71_dds_assignment",
    "C71_dds_round_trip",
    "C71_dds_value",
    "C71_dds_after_2038_refuted",
    "C71_dds_invalid_refuted",
    "C71_mach_exact",
    "C71_darwin_deadline",
    "C71_darwin_negative_refuted"
   ],
   "note": "OpenSplice and Mach conversions; limits as _refuted theorems."
  },
  {
   "property": "C72",
   "status": "proved",
   "theorems": [
    "C72_last_written",
    "C72_read",
    "C72_print",
    "C72_print_size",
    "C72_print_defined",
    "C72_readback",
    "C72_frame_refuted",
    "C72_uninitialised_refuted"
   ],
   "note": "Boost's to_simple_string is modelled from its documentation; stream flags at their defaults; shared pointers not modelled."
  },
  {
   "property": "C73",
   "status": "proved",
   "theorems": [
    "C73_check",
    "C73_listed_found",
    "C73_yes_means",
    "C73_unreadable",
    "C73_prefix_refuted",
    "C73_long_line_refuted",
    "C73_available",
    "C73_task_kinds",
    "C73_make_task",
    "C73_back_to_linux",
    "C73_no_hard_real_time",
    "C73_without_lxrt"
   ],
   "note": "One thread; getline and RTAI modelled from their documentation; timer and execution time not modelled."
  },
  {
   "property": "C74",
   "status": "proved",
   "theorems": [
    "C74_stopping_destructor_safe",
    "C74_careful_client_safe",
    "C74_plain_destructor_refuted",
    "C74_stop_is_not_enough_refuted",
    "C74_pure_virtual_refuted",
    "C74_no_deadlock",
    "C74_fair_delete_returns",
    "C74_destructor_stops"
   ],
   "note": "One derived class, without cancel(); m_thread_info read in runThread's last line is C45's."
  },
  {
   "property": "C75",
   "status": "proved",
   "theorems": [
    "C75_as_on_posix",
    "C75_no_deadlock",
    "C75_barrier",
    "C75_destructor_joins",
    "C75_one_start",
    "C75_semaphores",
    "C75_waiting_semaphore",
    "C75_mode",
    "C75_mode_said",
    "C75_set_hard_realtime",
    "C75_restart_refuted",
    "C75_task_failure_refuted",
    "C75_semaphore_leak_refuted"
   ],
   "note": "RTAI 3.8 variant, without cancel(); RTAI by its documentation, lack of memory for semaphores not modelled."
  },
  {
   "property": "C76",
   "status": "proved",
   "theorems": [
    "C76_whole_formats",
    "C76_locked",
    "C76_no_deadlock",
    "C76_two_changes_refuted",
    "C76_interrupted_refuted",
    "C76_calls_finish"
   ],
   "note": "one change at a time, no interrupted wait; limits refuted"
  }
 ]
}