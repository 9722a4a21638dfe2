{
 "claims": [
  {
   "property": "C01",
   "status": "proved",
   "theorems": [
    "C01_resolved_list_is_ordered",
    "C01_declared_dependencies_come_first"
   ],
   "note": "For every enumeration order of the dependency sets and every visit list, including ones not drawn from the job list."
  },
  {
   "property": "C02",
   "status": "proved",
   "theorems": [
    "C02_resolution_is_exact"
   ],
   "note": "For visit lists drawn from the job list."
  },
  {
   "property": "C03",
   "status": "proved",
   "theorems": [
    "C03_resolution_terminates",
    "C03_success_iff_sound_input",
    "C03_errors_are_genuine",
    "C03_equal_copy_refuted"
   ],
   "note": "Assumes no checksum collisions between listed jobs. Finding: an equal copy of a listed job in the visit list turns a cycle into an AssertionError."
  },
  {
   "property": "C04",
   "status": "proved",
   "theorems": [
    "C04_ordered_list_is_kept",
    "C04_resolution_is_idempotent"
   ],
   "note": ""
  },
  {
   "property": "C05",
   "status": "proved",
   "theorems": [
    "C05_selection_is_exact",
    "C05_selection_terminates",
    "C05_never_fails_refuted"
   ],
   "note": "Any job list, any selection (known or unknown jobs), any enumeration order of dependency sets. The never-raises reading is refuted: a malformed requires of a job on the run list makes the call raise."
  },
  {
   "property": "C06",
   "status": "proved",
   "theorems": [
    "C06_startable_iff_ready_or_overlooked",
    "C06_startable_iff_ready",
    "C06_inhibitors_are_real",
    "C06_result_touches_one_job",
    "C06_overlooked_refuted"
   ],
   "note": "Exact characterisation for every reachable session. The unrestricted claim is refuted (a non-resource job named in an expression is overlooked); proved exactly when all mentioned resource jobs use the resource plugin."
  },
  {
   "property": "C07",
   "status": "proved",
   "theorems": [
    "C07_trim_is_all_or_nothing"
   ],
   "note": "All reachable sessions and all qualifiers."
  },
  {
   "property": "C08",
   "status": "proved",
   "theorems": [
    "C08_jobs_and_states_in_step",
    "C08_construction",
    "C08_adding_a_job",
    "C08_removing_a_job",
    "C08_removing_a_running_job_refuted"
   ],
   "note": "Over all histories of public operations with sensible arguments. Removing a job that is on the run list is shown to raise KeyError and to leave the session unusable (refuted theorem)."
  },
  {
   "property": "C09",
   "status": "proved",
   "theorems": [
    "C09_category_verdict",
    "C09_category_verdict_ignores_order",
    "C09_plugin_verdict",
    "C09_plugin_verdict_ignores_order",
    "C09_stats_count",
    "C09_category_names",
    "C09_certification_filter"
   ],
   "note": "Verdict per category and per plugin, statistics, names and certification filter; order independence."
  },
  {
   "property": "C10",
   "status": "proved",
   "theorems": [
    "C10_sum_or_unknown",
    "C10_manual_unknown_refuted"
   ],
   "note": "Exact sums (left to right, any addition) and exact condition for unknown. The English claim is refuted for manual jobs without command and estimate (C10_manual_unknown_refuted)."
  },
  {
   "property": "C11",
   "status": "proved",
   "theorems": [
    "C11_atomic_when_killed",
    "C11_atomic_when_power_fails",
    "C11_finished_save_is_durable",
    "C11_never_garbage",
    "C11_load_is_faithful",
    "C11_histories_are_sane",
    "C11_failing_flush_refuted"
   ],
   "note": "Kill at any point with any faults; power loss at any point provided flushing a file does not fail (otherwise refuted by C11_failing_flush_refuted). System calls, crash and power-loss behaviour are the relations sysstep and power_loss."
  },
  {
   "property": "C12",
   "status": "proved",
   "theorems": [
    "C12_locked_storage_is_left_alone",
    "C12_locked_means_locked",
    "C12_break_lock",
    "C12_checkpoint_recovers",
    "C12_checkpoint_is_atomic"
   ],
   "note": "For every history of saves, checkpoints, lock breaks, kills and power losses."
  },
  {
   "property": "C13",
   "status": "proved",
   "theorems": [
    "C13_return_means_saved",
    "C13_raise_keeps_old",
    "C13_failed_write_is_reported",
    "C13_failing_rename_refuted"
   ],
   "note": "Exact outcome for every choice of failing calls. The claim that the caller is always told is refuted for a failing rename (C13_failing_rename_refuted), and closing the directory can fail after the save took effect."
  },
  {
   "property": "C14",
   "status": "proved",
   "theorems": [
    "C14_resume_restores_what_was_saved",
    "C14_readiness_is_restored",
    "C14_ordinary_use_can_be_resumed",
    "C14_any_number_of_cycles",
    "C14_other_jobs_refuted",
    "C14_desired_list_refuted",
    "C14_cleared_result_refuted"
   ],
   "note": "At the level of JSON values; the text, UTF-8 and gzip envelope is not modelled. The desired list, unrecorded jobs and cleared results are not restored: refuted versions."
  },
  {
   "property": "C15",
   "status": "proved",
   "theorems": [
    "C15_changed_or_missing_jobs",
    "C15_resumed_session_has_the_recorded_jobs",
    "C15_other_jobs_are_refused",
    "C15_supplied_jobs_present_refuted"
   ],
   "note": "The claim that all supplied jobs are present is false: refuted version."
  },
  {
   "property": "C16",
   "status": "proved",
   "theorems": [
    "C16_only_announced_errors",
    "C16_peek_only_announced_errors",
    "C16_resumed_session_is_possible",
    "C16_unsupported_version",
    "C16_supported_versions",
    "C16_no_version",
    "C16_null_results_refuted",
    "C16_no_location_refuted",
    "C16_unreadable_log_refuted",
    "C16_rewrite_refuted",
    "C16_duplicate_jobs_refuted",
    "C16_bad_requirements_refuted"
   ],
   "note": "Exceptions that escape when a condition fails are shown by the refuted theorems."
  },
  {
   "property": "C17",
   "status": "proved",
   "theorems": [
    "C17_selects_exactly",
    "C17_order",
    "C17_each_once",
    "C17_fast_path_agrees",
    "C17_duplicate_identifiers_refuted"
   ],
   "note": "For every job list with unique identifiers and every nesting of qualifiers; matching of other qualifiers is an arbitrary predicate. With repeated identifiers the two paths differ (C17_duplicate_identifiers_refuted)."
  },
  {
   "property": "C18",
   "status": "proved",
   "theorems": [
    "C18_votes",
    "C18_composite",
    "C18_flattening"
   ],
   "note": "Every nesting of qualifiers."
  },
  {
   "property": "C19",
   "status": "proved",
   "theorems": [
    "C19_every_text_has_pieces",
    "C19_tokens_are_the_pieces",
    "C19_same_tokens",
    "C19_end_of_file_is_stable",
    "C19_each_call_returns",
    "C19_unclosed_quote",
    "C19_all_texts_refuted",
    "C19_nul_refuted"
   ],
   "note": "False for texts with a quote that is never closed (the scanner then never reaches the end, or fails an assertion) and for texts with NUL characters, both refuted; proved for all other texts, whose tokens are exactly their pieces."
  },
  {
   "property": "C20",
   "status": "proved",
   "theorems": [
    "C20_words",
    "C20_quoted_words_round_trip",
    "C20_bare_words_round_trip",
    "C20_unclosed_quote_refuted"
   ],
   "note": "For every text without NUL whose quotes are closed, and for every list of words written bare or quoted. Refuted for a quote that is never closed: the parser never returns."
  },
  {
   "property": "C21",
   "status": "proved",
   "theorems": [
    "C21_round_trip",
    "C21_round_trip_exactly",
    "C21_round_trip_string",
    "C21_many_records",
    "C21_list_is_lines",
    "C21_any_value_refuted"
   ],
   "note": "Exact characterisation for records with good keys: read back iff all values are good. Witnesses for what is lost are in C21_any_value_refuted."
  },
  {
   "property": "C22",
   "status": "proved",
   "theorems": [
    "C22_only_syntax_errors",
    "C22_errors_are_final",
    "C22_meaning",
    "C22_concatenation",
    "C22_comments",
    "C22_origins"
   ],
   "note": "The loader refines a specification by blocks of lines; errors are only syntax errors, on the first bad line; origins are right."
  },
  {
   "property": "C23",
   "status": "proved",
   "theorems": [
    "C23_accepted_exactly",
    "C23_ids",
    "C23_rejected",
    "C23_without_calls",
    "C23_calls_refuted",
    "C23_accepted_safe",
    "C23_safe_is_confined"
   ],
   "note": "The property as stated is false: arguments of calls are not checked (C23_calls_refuted). Proved: exact characterisation of what is accepted, and safety when arguments of calls are safe."
  },
  {
   "property": "C24",
   "status": "proved",
   "theorems": [
    "C24_holds",
    "C24_failed",
    "C24_cannot",
    "C24_more_records",
    "C24_ids_of_aliases",
    "C24_bare_tuple_refuted"
   ],
   "note": "For any semantics of values; evaluation of the tree is modelled, python's operations on values are parameters."
  },
  {
   "property": "C25",
   "status": "proved",
   "theorems": [
    "C25_round_trip",
    "C25_append",
    "C25_one_line_each",
    "C25_injective",
    "C25_base64",
    "C25_cut"
   ],
   "note": "Round trip of every record sequence, appending, one line per record, base64 form, and reading of a file cut at any character. The gzip layer and float printing are not modelled: a number is its text."
  },
  {
   "property": "C26",
   "status": "proved",
   "theorems": [
    "C26_cut_is_unique",
    "C26_everything_is_delivered",
    "C26_prefix_at_any_time",
    "C26_call_returns",
    "C26_failing_delegate_refuted"
   ],
   "note": "Every schedule of the main thread, both readers, the queue worker and the child, in line and in chunk mode, with interrupts while waiting; call() returns once the child is gone. Refuted for delegates that raise: output is lost silently."
  },
  {
   "property": "C27",
   "status": "proved",
   "theorems": [
    "C27_run_needs_a_prepared_session",
    "C27_result_needs_a_prepared_session",
    "C27_finalized_session_runs_nothing",
    "C27_refused_call_changes_nothing",
    "C27_one_shot_calls",
    "C27_session_is_there",
    "C27_protocol_does_not_trip",
    "C27_sso_transport_is_unreachable",
    "C27_other_methods_are_reachable",
    "C27_ignored_finalize_refuted",
    "C27_failed_finalize_refuted",
    "C27_noreturn_bootstrap_refuted",
    "C27_hand_picked_mandatory_refuted"
   ],
   "note": "For every history of calls and every result of the work they do (callbacks into the assistant from user interfaces excluded). Finalizing is refuted where finalize_session() is ignored or its checkpoint fails."
  },
  {
   "property": "C28",
   "status": "proved",
   "theorems": [
    "C28_alternation",
    "C28_alternation_without_reselection",
    "C28_alternation_refuted"
   ],
   "note": "The claim as worded is refuted (hand_pick_jobs and finish_bootstrap reset the protocol); proved in the strongest true form."
  },
  {
   "property": "C29",
   "status": "proved",
   "theorems": [
    "C29_fire",
    "C29_history",
    "C29_disconnect",
    "C29_registrations",
    "C29_removal",
    "C29_removal_of_single_listeners",
    "C29_removal_refuted",
    "C29_removal_with_pass_signal_refuted"
   ],
   "note": "Delivery, histories and disconnection for every behaviour of the listeners, including nested firing and exceptions. remove_signals_listeners skips every other signal and raises for pass_signal listeners (both refuted); what it does remove is characterised."
  },
  {
   "property": "C30",
   "status": "proved",
   "theorems": [
    "C30_best",
    "C30_nobody",
    "C30_no_controllers",
    "C30_ordinary_unprivileged",
    "C30_ordinary_runs",
    "C30_user_respected",
    "C30_command_user",
    "C30_preference",
    "C30_qml_refuted",
    "C30_other_user_refuted"
   ],
   "note": "Choice for every list of controllers and scores; ordinary jobs unprivileged; user respected except for QML jobs (refuted) and when plainbox runs as root (refuted for other users)."
  },
  {
   "property": "C31",
   "status": "proved",
   "theorems": [
    "C31_layers",
    "C31_locale",
    "C31_no_locale",
    "C31_config_locale_refuted",
    "C31_preserved",
    "C31_config_never_overrides",
    "C31_inherited",
    "C31_assigned",
    "C31_stale_refuted",
    "C31_differential",
    "C31_differential_locale",
    "C31_differential_enough",
    "C31_differential_path",
    "C31_differential_share_refuted"
   ],
   "note": "Environment characterised variable by variable for every process environment, configuration and provider; differential environment characterised; refutations: configuration can bring LC_* back, stale provider variables, variables omitted for root jobs."
  },
  {
   "property": "C32",
   "status": "proved",
   "theorems": [
    "C32_filtered",
    "C32_typed",
    "C32_typed_items",
    "C32_unset_or_typed",
    "C32_const",
    "C32_const_raises",
    "C32_rejected",
    "C32_notified",
    "C32_notify_exactly",
    "C32_silent",
    "C32_silent_stores",
    "C32_bound",
    "C32_class",
    "C32_class_order",
    "C32_unique_refuted",
    "C32_const_unset_refuted"
   ],
   "note": "Listeners may assign and raise inside a notification. False: 'const' fields whose initial value is UNSET can still be set once (C32_const_unset_refuted); the unique filter never detects duplicates and refuses every list (C32_unique_refuted)."
  },
  {
   "property": "C33",
   "status": "proved",
   "theorems": [
    "C33_effective",
    "C33_any_time",
    "C33_category",
    "C33_category_map",
    "C33_agree",
    "C33_agree_refuted",
    "C33_blank_line_refuted",
    "C33_nested_category_refuted",
    "C33_anchored_inline_refuted"
   ],
   "note": "True version; the unconditional agreement of the three APIs is refuted (C33_*_refuted). Regular expressions are parameters; the test plans are set once."
  },
  {
   "property": "C34",
   "status": "proved",
   "theorems": [
    "C34_instances",
    "C34_numbered",
    "C34_rendered",
    "C34_resource",
    "C34_filter_no_imports",
    "C34_filter_one_line",
    "C34_two_lines_refuted",
    "C34_nested_refuted"
   ],
   "note": "Filters of several lines about an imported resource and nested format specifications are refuted; jinja2 and the python parser are parameters."
  },
  {
   "property": "C35",
   "status": "proved",
   "theorems": [
    "C35_written_durations",
    "C35_other_texts",
    "C35_unambiguous"
   ],
   "note": "Every written duration gets its value, nothing else is read that way, and the reading is unambiguous. ASCII digits only."
  },
  {
   "property": "C36",
   "status": "proved",
   "theorems": [
    "C36_same_definition",
    "C36_identifies",
    "C36_checksum",
    "C36_change_field",
    "C36_namespace_field_refuted"
   ],
   "note": "Canonical text is independent of field order and identifies fields, namespace and parameters of units without a field called namespace; the general claim is refuted. SHA256 is a parameter."
  },
  {
   "property": "C37",
   "status": "proved",
   "theorems": [
    "C37_return_codes_decide",
    "C37_the_user_decides",
    "C37_where_results_come_from",
    "C37_only_zero_passes",
    "C37_only_own_files",
    "C37_dry_runs_do_nothing",
    "C37_who_shares_a_log",
    "C37_simple_ids_have_their_own_logs",
    "C37_logs_stay_in_their_directory",
    "C37_logs_are_complete",
    "C37_output_files",
    "C37_every_result_keeps_its_log",
    "C37_ui",
    "C37_different_jobs_have_different_logs_refuted",
    "C37_results_keep_their_logs_refuted",
    "C37_earlier_results_keep_their_logs_refuted",
    "C37_chunked_output_is_logged_refuted",
    "C37_unknown_plugins_are_not_implemented_refuted"
   ],
   "note": "The unrestricted separation of logs is refuted (identifiers are flattened to file names); proved with the exact condition."
  },
  {
   "property": "C38",
   "status": "proved",
   "theorems": [
    "C38_what_is_run",
    "C38_warmup_runs_nothing",
    "C38_unknown_target",
    "C38_unknown_generator",
    "C38_known_target",
    "C38_generated_target",
    "C38_only_requested_jobs"
   ],
   "note": "For every command line and provider content: at most two commands are started, each the command of a trusted job whose checksum is among the arguments; unknown target/generator errors; known and generated targets are run with the given variables over the launcher's environment and their status is the exit status."
  },
  {
   "property": "C39",
   "status": "proved",
   "theorems": [
    "C39_hits_are_genuine",
    "C39_loaded_hits_have_their_log",
    "C39_when_loading_returns",
    "C39_smooth_histories_load",
    "C39_stored_results_survive",
    "C39_stored_results_are_hits",
    "C39_storing_repairs",
    "C39_every_crash_can_be_survived_refuted",
    "C39_loading_always_works_refuted",
    "C39_hits_have_their_log_refuted"
   ],
   "note": "The unrestricted statement is refuted: interrupted or failed stores make later loads raise (misspelt logger method). Proved: hits are genuine in every history, exact condition for loading, survival and repair."
  },
  {
   "property": "C40",
   "status": "proved",
   "theorems": [
    "C40_read_string",
    "C40_read_string_returns",
    "C40_one_meaning",
    "C40_always_valid",
    "C40_assignment",
    "C40_expansion",
    "C40_always_returns_refuted",
    "C40_distinct_variables_refuted"
   ],
   "note": "The literal documentation claim (nothing but ValidationErrors, all captured) is false and refuted; the theorems characterise exactly when read_string returns, what it does then and what holds when it does not."
  },
  {
   "property": "C41",
   "status": "proved",
   "theorems": [
    "C41_concurrent_saves",
    "C41_second_opener_is_refused",
    "C41_failing_write_refuted",
    "C41_breaking_a_live_lock_refuted"
   ],
   "note": "Any number of processes, any interleaving. Refuted when a write fails (C41_failing_write_refuted) or when a manager breaks the lock of a live process (C41_breaking_a_live_lock_refuted)."
  },
  {
   "property": "C42",
   "status": "proved",
   "theorems": [
    "C42_selection",
    "C42_exactly_the_matching_ones",
    "C42_useless_pattern_refuted",
    "C42_retry_refuted",
    "C42_selection_can_be_added"
   ],
   "note": "Exact selection proved; repeating a failed call and the documented meaning of ValueError are refuted."
  },
  {
   "property": "C43",
   "status": "proved",
   "theorems": [
    "C43_import_line",
    "C43_imports",
    "C43_import_wins"
   ],
   "note": "Lines are given as their words."
  },
  {
   "property": "C44",
   "status": "proved",
   "theorems": [
    "C44_env_command",
    "C44_user_command",
    "C44_dash_refuted"
   ],
   "note": "env(1) reads back exactly the settings and command; names with a leading dash are refuted. The QML controller and the trusted launcher's command line are not covered here."
  },
  {
   "property": "C45",
   "status": "proved",
   "theorems": [
    "C45_format",
    "C45_missing",
    "C45_accessed"
   ],
   "note": "The CPython format parser is modelled as a character machine; conversion and formatting of values are parameters."
  },
  {
   "property": "C46",
   "status": "proved",
   "theorems": [
    "C46_override",
    "C46_include",
    "C46_decided",
    "C46_bad_start",
    "C46_override_message",
    "C46_include_message",
    "C46_lines",
    "C46_include_list",
    "C46_override_list"
   ],
   "note": "Texts without NUL, which the scanner takes for the end of the text."
  },
  {
   "property": "C47",
   "status": "proved",
   "theorems": [
    "C47_selection",
    "C47_select_jobs",
    "C47_mandatory",
    "C47_bootstrap",
    "C47_bootstrap_jobs",
    "C47_nested_exclusion"
   ],
   "note": "Nested parts are given as a finite tree; regular expressions are parameters; texts without NUL and with closed quotes in the bootstrap lists."
  },
  {
   "property": "C48",
   "status": "proved",
   "theorems": [
    "C48_launcher_understands_controller",
    "C48_dash_refuted"
   ],
   "note": "Round trip between CtrlModel.execution_command and LauncherModel.parse_args; C48_dash_refuted shows why names must not start with a dash."
  },
  {
   "property": "C49",
   "status": "proved",
   "theorems": [
    "C49_written_can_be_read_back",
    "C49_ini_round_trip",
    "C49_everything_survives_refuted"
   ],
   "note": "Writing and reading back; counterexamples outside the stated class of values are given."
  },
  {
   "property": "C50",
   "status": "proved",
   "theorems": [
    "C50_later_files_win",
    "C50_reading_returns",
    "C50_syntax_errors_are_listed_refuted"
   ],
   "note": "read() of several files; syntax errors are raised by read although read_string lists them (refuted theorem)."
  },
  {
   "property": "C51",
   "status": "proved",
   "theorems": [
    "C51_options_accepted",
    "C51_last_setting_wins",
    "C51_result_map",
    "C51_fields_are_known",
    "C51_lists",
    "C51_attachments",
    "C51_categories",
    "C51_archive",
    "C51_archive_names",
    "C51_empty_value_turns_off_refuted",
    "C51_lenient_keeps_supported_refuted",
    "C51_lenient_never_fails",
    "C51_archive_names_are_unique_refuted",
    "C51_archive_from_any_directory_refuted"
   ],
   "note": "Options, entries field by field, logs and attachments through base64 decoding, lists and maps, archive members; the refuted theorems record options set to nothing, options dropped by create_exporter, colliding member names and record.gz in paths."
  },
  {
   "property": "C52",
   "status": "proved",
   "theorems": [
    "C52_flat_text",
    "C52_reading_is_unique",
    "C52_cutting_does_not_matter",
    "C52_text_is_shown",
    "C52_no_controls",
    "C52_text_attachment",
    "C52_utf8_is_injective"
   ],
   "note": "The decoder of codecs.iterdecode is modelled byte by byte with what it holds back between records (both behaviours of CPython, before and since 3.8); the specification reads the whole output at once."
  },
  {
   "property": "C53",
   "status": "proved",
   "theorems": [
    "C53_assignments",
    "C53_get_result",
    "C53_properties",
    "C53_hollow",
    "C53_get_builder",
    "C53_get_builder_with",
    "C53_rebuild",
    "C53_builders_are_well_typed",
    "C53_comments_add_up",
    "C53_comments_are_sanitised",
    "C53_plain_comments_stay",
    "C53_sanitised_once_is_enough_refuted",
    "C53_comments_have_no_controls_refuted",
    "C53_misspelt_argument_refuted",
    "C53_any_result_rebuilds_refuted"
   ],
   "note": "Builders and results with their six fields; four refuted readings are recorded: sanitising once is not always enough, control characters stay in comments, misspelt arguments of get_builder are ignored, and results not made by a builder need not come back."
  },
  {
   "property": "C54",
   "status": "proved",
   "theorems": [
    "C54_files_are_loaded",
    "C54_loading_raises",
    "C54_failed_load_is_retried_refuted",
    "C54_entry_points_are_loaded",
    "C54_problems_are_recorded_once_refuted",
    "C54_faking_leaves_no_trace",
    "C54_fakes_are_seen",
    "C54_same_plugin_forever",
    "C54_lazy_load",
    "C54_listed_names_can_be_got_refuted"
   ],
   "note": "All three kinds of collection. Refuted: a file collection whose load() raised is never loaded completely; entry point problems are recorded again by a second try; names listed by a lazy collection need not be loadable."
  },
  {
   "property": "C55",
   "status": "proved",
   "theorems": [
    "C55_unit_files",
    "C55_base_is_above",
    "C55_executables",
    "C55_executables_in_bin",
    "C55_vcs",
    "C55_every_file_is_classified",
    "C55_units_come_from_their_directories_refuted",
    "C55_txt_in_files_are_loaded_refuted",
    "C55_base_of_translations_refuted",
    "C55_search_always_ends_refuted",
    "C55_units_are_loaded",
    "C55_loading_raises",
    "C55_job_list",
    "C55_executable_list",
    "C55_units_are_loaded_once_refuted"
   ],
   "note": "File system observations (executable bit, first two bytes) and the parser and validators of units are parameters. The refuted theorems record where the directory test, the .txt.in rule, the base of translations, the search for version control and retrying after an exception differ from what a user expects."
  },
  {
   "property": "C56",
   "status": "proved",
   "theorems": [
    "C56_definitions_become_providers",
    "C56_directories_exist",
    "C56_secure_by_place",
    "C56_names",
    "C56_secure_directories",
    "C56_secure_directories_of_a_snap",
    "C56_provider_path",
    "C56_provider_path_unset",
    "C56_secure_on_the_path",
    "C56_names_well_formed_refuted",
    "C56_versions_well_formed_refuted",
    "C56_bad_definitions_are_refused_refuted",
    "C56_secure_is_system_refuted"
   ],
   "note": "Exact characterisation of when a definition becomes a provider and which one; directories exist; secure by place; search paths. Four refuted readings recorded as findings."
  },
  {
   "property": "C57",
   "status": "proved",
   "theorems": [
    "C57_selecting_gives_order",
    "C57_every_job_gets_an_outcome",
    "C57_no_job_runs_twice",
    "C57_results_are_kept",
    "C57_dependencies_come_first",
    "C57_starts_only_when_ready",
    "C57_blocked_for_a_reason",
    "C57_outcome_of_blocked_jobs",
    "C57_running_job_is_on_disk",
    "C57_earlier_results_are_on_disk",
    "C57_result_is_saved_at_once_refuted",
    "C57_the_run_ends",
    "C57_no_errors_without_templates",
    "C57_incomplete_or_done",
    "C57_export_is_retried_refuted",
    "C57_settling_the_last_job",
    "C57_completion_ratio_range",
    "C57_completion_ratio_full",
    "C57_offered_sessions",
    "C57_finished_session_is_complete_refuted"
   ],
   "note": "How the run of one job ends is a parameter (a list of answers, which may end at any point: the machine goes down); what is on the disk after a checkpoint is the subject of C11 and C14."
  },
  {
   "property": "C58",
   "status": "proved",
   "theorems": [
    "C58_picking",
    "C58_keys",
    "C58_dialogue_ends",
    "C58_transcript",
    "C58_result_of_the_last_run",
    "C58_asked_before_each_run",
    "C58_outcome_is_the_users",
    "C58_nothing_undecided",
    "C58_comments",
    "C58_quit",
    "C58_end_of_input",
    "C58_no_input",
    "C58_unattended",
    "C58_automatic",
    "C58_only_comment_is_kept_as_typed_refuted",
    "C58_comments_survive_a_rerun_refuted",
    "C58_explicit_fail_has_a_comment_refuted",
    "C58_end_of_input_is_handled_refuted",
    "C58_runner_comments_are_kept_refuted",
    "C58_unattended_is_decided_refuted"
   ],
   "note": "Exact reading of commands and keys, termination, faithful transcript, runs, outcome, comments, quitting and the end of the input. Six things one might expect are refuted."
  },
  {
   "property": "C59",
   "status": "proved",
   "theorems": [
    "C59_flags_are_the_words_written",
    "C59_empty_flag",
    "C59_value_is_the_one_written",
    "C59_no_value",
    "C59_value_of_an_instance",
    "C59_untranslated",
    "C59_translated",
    "C59_raw_value",
    "C59_translatable",
    "C59_identifier",
    "C59_qualify",
    "C59_qualify_idempotent",
    "C59_names_of_a_job",
    "C59_category",
    "C59_category_written",
    "C59_dependencies_are_the_words_written",
    "C59_no_dependencies",
    "C59_dependency_fields",
    "C59_flags",
    "C59_environ",
    "C59_plugin",
    "C59_summary",
    "C59_description",
    "C59_untranslated_refuted",
    "C59_summary_of_an_instance_refuted",
    "C59_no_empty_flag_refuted"
   ],
   "note": "Full; false parts are shown false: a two-line value marked for translation keeps its indentation although nothing is translated, parameters are put in twice in the summary of a template instance that has none, a trailing comma makes an empty flag."
  },
  {
   "property": "C60",
   "status": "proved",
   "theorems": [
    "C60_sibling",
    "C60_children",
    "C60_copy_other_fields",
    "C60_copy_no_siblings",
    "C60_copy_provider",
    "C60_copy_identifier",
    "C60_copies_are_new",
    "C60_copy_summary",
    "C60_copy_flags",
    "C60_copy_dependencies",
    "C60_finite",
    "C60_endless_refuted",
    "C60_copies_clash_refuted",
    "C60_dependencies_in_a_comment_refuted",
    "C60_translatable_dependencies_refuted",
    "C60_copy_of_an_instance_refuted"
   ],
   "note": "Full for jobs that are not template instances and whose flags, identifier and dependencies are not marked for translation; where these conditions fail the property is shown false: endless copies, KeyError, clashing identifiers of copies, dependencies lost in a trailing comment, identifiers formatted twice."
  },
  {
   "property": "C61",
   "status": "proved",
   "theorems": [
    "C61_units_without_parameters_can_be_read",
    "C61_a_job_alone_passes_exactly_when_well_formed",
    "C61_a_job_passes_exactly_when_well_formed_and_connected",
    "C61_checking_a_job_raises_nothing",
    "C61_sharing_changes_nothing",
    "C61_the_verdict",
    "C61_jobs_of_a_valid_provider",
    "C61_a_provider_of_good_jobs_is_valid",
    "C61_jobs_that_pass_have_their_dependencies",
    "C61_issues_are_where_the_field_is",
    "C61_templates_that_pass_have_their_resource",
    "C61_instances_that_join",
    "C61_templates_that_make_nothing_pass_refuted",
    "C61_lines_of_marked_fields_refuted",
    "C61_load_problems_once_refuted",
    "C61_what_a_unit_counts_as",
    "C61_a_name_that_is_installed_crashes_refuted",
    "C61_a_name_that_is_installed_hides_duplicates_refuted",
    "C61_odd_dependencies_are_reported_refuted",
    "C61_marked_fields_refuted",
    "C61_checking_an_instance_raises_refuted"
   ],
   "note": "Exact characterisation for jobs alone and in context, cache transparency, verdict of the command, composition with dependency resolution, instances, lines of issues; findings as _refuted theorems. Validators of other unit types are a parameter."
  },
  {
   "property": "C62",
   "status": "proved",
   "theorems": [
    "C62_the_command_is_the_words_given",
    "C62_the_command_is_split_into_the_words_given",
    "C62_the_system_is_ready_while_the_job_runs",
    "C62_what_starts_knows_the_job",
    "C62_a_failed_call_sets_nothing_up",
    "C62_other_jobs_set_nothing_up",
    "C62_what_resuming_does",
    "C62_resuming_can_be_interrupted",
    "C62_a_reboot_in_the_middle",
    "C62_finished_jobs_keep_their_results_refuted",
    "C62_the_respawn_file",
    "C62_the_desktop_entry_is_in_the_home_directory",
    "C62_every_application_has_its_own_entry",
    "C62_every_application_has_its_own_entry_refuted",
    "C62_without_a_home_refuted",
    "C62_which_strategy",
    "C62_any_command_can_be_used_refuted",
    "C62_a_strategy_alone_is_not_enough_refuted",
    "C62_line_breaks_survive_refuted",
    "C62_snaps_keep_the_arguments_refuted",
    "C62_snaps_need_a_command_refuted",
    "C62_snaps_keep_the_words_of_one_part",
    "C62_the_respawn_file_tells_the_command_refuted",
    "C62_the_service_starts_the_same_snap"
   ],
   "note": "Both restart strategies, the command line and the session assistant's use of them, with crash points; findings as _refuted theorems."
  },
  {
   "property": "C63",
   "status": "proved",
   "theorems": [
    "C63_which_units_apply",
    "C63_relations_are_determined",
    "C63_relations_found_are_those_written",
    "C63_what_is_gathered_is_determined",
    "C63_packages_get_the_relations_that_apply",
    "C63_a_file_that_cannot_be_opened",
    "C63_otherwise_nothing_is_written",
    "C63_packages_are_found",
    "C63_running_it_again_refuted",
    "C63_the_release_file_is_read",
    "C63_a_stray_word_refuted",
    "C63_comments_refuted",
    "C63_being_like_several_refuted",
    "C63_the_local_device",
    "C63_cookies_tell_systems_apart",
    "C63_when_there_is_no_device",
    "C63_the_last_resort_refuted"
   ],
   "note": "exact effect of the packaging command for all systems, units and files; refuted parts are listed in DESIGN.md"
  },
  {
   "property": "C64",
   "status": "proved",
   "theorems": [
    "C64_one_view_of_the_units",
    "C64_one_view_of_existing_units",
    "C64_units_of_a_kind",
    "C64_adding_a_unit",
    "C64_new_units_are_never_refused",
    "C64_removing_a_unit",
    "C64_adding_a_provider",
    "C64_the_same_text_in_two_providers_refuted",
    "C64_jobs_the_session_made_refuted",
    "C64_a_clash_is_remembered_refuted",
    "C64_units_of_two_kinds_refuted",
    "C64_made_units_pile_up_refuted",
    "C64_no_identifier_refuted",
    "C64_the_device_has_the_plans_of_the_session",
    "C64_what_a_manager_refuses",
    "C64_a_refusal_changes_nothing"
   ],
   "note": "for all histories of operations, including failing ones; the assumption that units can be told apart is needed, six refuted claims show what happens without"
  },
  {
   "property": "C65",
   "status": "proved",
   "theorems": [
    "C65_sdist",
    "C65_programs_directory_refuted",
    "C65_short_names_refuted",
    "C65_empty_flat_refuted",
    "C65_percent_refuted",
    "C65_install_again_refuted",
    "C65_translations_refuted",
    "C65_ready_made_translations_refuted",
    "C65_description_is_required",
    "C65_signing_refuted",
    "C65_installed_unix",
    "C65_installed_flat",
    "C65_relocatable",
    "C65_installing_destroys_nothing",
    "C65_develop",
    "C65_develop_asks_first",
    "C65_undevelop",
    "C65_validate_verdict"
   ],
   "note": "For all layouts, roots, prefixes, copying orders and file systems with room; ten defects in refuted theorems."
  },
  {
   "property": "C66",
   "status": "proved",
   "theorems": [
    "C66_identifiers",
    "C66_listing",
    "C66_dangling_link_refuted",
    "C66_lookup",
    "C66_new_session",
    "C66_never_shared",
    "C66_no_repository_yet",
    "C66_hidden_title_refuted",
    "C66_one_each",
    "C66_same_second_refuted",
    "C66_deleting",
    "C66_removing",
    "C66_not_removed_refuted",
    "C66_offered_by_run",
    "C66_offered_to_applications",
    "C66_old",
    "C66_cleaning_up",
    "C66_unreadable_refuted",
    "C66_dialogue",
    "C66_erasing",
    "C66_location"
   ],
   "note": "Exact characterisations for all repositories, schedules and answers; five defects in refuted theorems."
  },
  {
   "property": "C67",
   "status": "proved",
   "theorems": [
    "C67_started_and_installed",
    "C67_files",
    "C67_all_files",
    "C67_units",
    "C67_translations_refuted",
    "C67_newline_refuted",
    "C67_names",
    "C67_nothing_is_overwritten",
    "C67_in_the_way",
    "C67_interrupted",
    "C67_new_provider",
    "C67_empty_provider",
    "C67_setup",
    "C67_installable"
   ],
   "note": "Three defects are stated as refutations or findings."
  },
  {
   "property": "C68",
   "status": "proved",
   "theorems": [
    "C68_stored",
    "C68_standard_output_only",
    "C68_after_reading",
    "C68_not_run",
    "C68_last_run_counts",
    "C68_well_formed",
    "C68_printed_records",
    "C68_run",
    "C68_equals",
    "C68_differs",
    "C68_one_of",
    "C68_never_undecidable",
    "C68_requirement",
    "C68_utf8",
    "C68_all_records_refuted",
    "C68_chunked_refuted",
    "C68_nothing_printed_refuted"
   ],
   "note": "All outputs and schedules; ASCII output. Lost records, chunked jobs and empty output are the refuted parts."
  },
  {
   "property": "C69",
   "status": "proved",
   "theorems": [
    "C69_generated_mandatory_refuted",
    "C69_any_job_refuted",
    "C69_overridden_category_refuted",
    "C69_picked_jobs_saved_refuted",
    "C69_the_list_of_a_test_plan",
    "C69_selecting_only_narrows",
    "C69_unknown_names_are_ignored",
    "C69_filtering",
    "C69_removing_the_filters",
    "C69_picked_jobs_refuted",
    "C69_recording_a_result",
    "C69_attempts_are_used",
    "C69_attempts_bound_runs",
    "C69_what_is_left",
    "C69_one_less",
    "C69_running",
    "C69_not_running",
    "C69_tried_too_often_refuted",
    "C69_one_pass_is_enough",
    "C69_summary",
    "C69_bootstrapping_keeps_results",
    "C69_bootstrapping",
    "C69_selecting_a_plan",
    "C69_interrupted_bootstrapping_refuted",
    "C69_resuming",
    "C69_finished_job_overwritten_refuted",
    "C69_mandatory_jobs",
    "C69_finished",
    "C69_not_offered_before_bootstrapping"
   ],
   "note": "Exact lists for all sessions and plans; eight defects in refuted theorems."
  },
  {
   "property": "C70",
   "status": "proved",
   "theorems": [
    "C70_points_at_the_field",
    "C70_line_in_a_field",
    "C70_missing_field",
    "C70_given_position",
    "C70_same_line_for_qualifiers",
    "C70_many_units",
    "C70_offsets_add",
    "C70_shell_accepts",
    "C70_shell_message",
    "C70_shell_words",
    "C70_command_line",
    "C70_translatable_field_refuted",
    "C70_comment_in_a_value_refuted",
    "C70_leading_dot_refuted",
    "C70_empty_field_refuted",
    "C70_every_open_quote_refuted",
    "C70_line_of_the_quote_refuted"
   ],
   "note": "Exact lines for all files; six defects in refuted theorems."
  },
  {
   "property": "C71",
   "status": "proved",
   "theorems": [
    "C71_printed",
    "C71_ascii_is_printed",
    "C71_not_text",
    "C71_every_text_is_printed_refuted",
    "C71_other_encoding",
    "C71_stream_transport",
    "C71_file_transport",
    "C71_file_stopped",
    "C71_old_file_kept_refuted",
    "C71_upload",
    "C71_transport_errors_refuted",
    "C71_sent_means_delivered",
    "C71_bytes_refuted",
    "C71_marked_when_sent",
    "C71_marked_after_sending",
    "C71_run_marks",
    "C71_marked_means_submitted_refuted",
    "C71_run_to_file_refuted",
    "C71_output_file",
    "C71_output_file_kept_refuted",
    "C71_export_to_file",
    "C71_export_to_stream",
    "C71_options",
    "C71_no_options"
   ],
   "note": "Delivery of exported results: printing, files, uploads, marking at every stop, options; false expectations are refuted with exact counterexamples."
  },
  {
   "property": "C72",
   "status": "proved",
   "theorems": [
    "C72_results",
    "C72_every_test_once",
    "C72_totals",
    "C72_attachments_and_resources",
    "C72_when_a_report_is_made",
    "C72_undecodable_log_refuted",
    "C72_unknown_category_refuted",
    "C72_job_named_like_category_refuted",
    "C72_crash_is_a_failure_refuted",
    "C72_local_jobs_do_not_matter_refuted",
    "C72_counters_are_for_one_session_refuted"
   ],
   "note": "Refutations: C72_undecodable_log_refuted, C72_unknown_category_refuted, C72_job_named_like_category_refuted, C72_crash_is_a_failure_refuted, C72_local_jobs_do_not_matter_refuted, C72_counters_are_for_one_session_refuted."
  },
  {
   "property": "C73",
   "status": "proved",
   "theorems": [
    "C73_where_a_job_runs",
    "C73_nothing_is_left",
    "C73_leftovers",
    "C73_return_code",
    "C73_qml_ends",
    "C73_qml_outcome",
    "C73_a_job_can_always_run_refuted",
    "C73_everything_left_is_reported_refuted",
    "C73_exceptions_surface_refuted",
    "C73_permission_error_is_handled_refuted",
    "C73_qml_permission_refuted",
    "C73_qml_always_ends_refuted"
   ],
   "note": "What happens outside is a parameter: every combination of results and exceptions. The refutations are the findings of C73 in DESIGN.md."
  },
  {
   "property": "C74",
   "status": "proved",
   "theorems": [
    "C74_delivered_in_order",
    "C74_complete_without_a_race",
    "C74_stolen_output_is_lost",
    "C74_output_is_delivered_refuted",
    "C74_what_was_read_is_delivered_refuted",
    "C74_return_code",
    "C74_interrupted_jobs_end_refuted",
    "C74_password_errors_surface_refuted"
   ],
   "note": "Transition system over all schedules; the losses are proved possible (refuted theorems) and otherwise excluded."
  },
  {
   "property": "C75",
   "status": "proved",
   "theorems": [
    "C75_who_is_told",
    "C75_members_exist",
    "C75_everyone_is_told",
    "C75_decoded_and_encoded",
    "C75_files",
    "C75_printed",
    "C75_numbers",
    "C75_everyone_is_interrupted_refuted",
    "C75_delegates_are_independent_refuted",
    "C75_chunks_are_written_refuted",
    "C75_every_line_is_printed_refuted"
   ],
   "note": "Exact characterisation of who is told what for every composition, of the output files and of the printed lines; four refutations."
  },
  {
   "property": "C76",
   "status": "proved",
   "theorems": [
    "C76_languages_exist",
    "C76_translations",
    "C76_dry_run",
    "C76_no_domain",
    "C76_dry_run_changes_nothing_refuted",
    "C76_no_build_systems_refuted",
    "C76_any_directory_refuted",
    "C76_negative_scores_refuted",
    "C76_relative_names",
    "C76_best_build_system",
    "C76_guessed_command",
    "C76_go_sources",
    "C76_build",
    "C76_clean"
   ],
   "note": "Exact effects of build, clean and i18n for every location; correctness of relative names; four refutations."
  },
  {
   "property": "C77",
   "status": "proved",
   "theorems": [
    "C77_any_bytes",
    "C77_round_trip",
    "C77_unambiguous",
    "C77_dumpable",
    "C77_what_can_be_dumped",
    "C77_dumpable_is_enough_refuted",
    "C77_truncation_is_noticed_refuted"
   ],
   "note": "All values of the modelled types; equality up to the order of frozensets."
  },
  {
   "property": "C78",
   "status": "proved",
   "theorems": [
    "C78_read",
    "C78_read_fails",
    "C78_read_ends",
    "C78_write",
    "C78_write_ends",
    "C78_receive",
    "C78_messages",
    "C78_all_messages",
    "C78_frame",
    "C78_pipe_waits_refuted",
    "C78_socket_waits",
    "C78_values"
   ],
   "note": "All chunkings and failures; decompress(compress(d)) = d is a hypothesis."
  },
  {
   "property": "C79",
   "status": "proved",
   "theorems": [
    "C79_one_at_a_time",
    "C79_in_order",
    "C79_nothing_forgotten",
    "C79_nobody_raises",
    "C79_never_waits",
    "C79_ends",
    "C79_failure_strands_refuted",
    "C79_failure_reaches_its_call_refuted"
   ],
   "note": "any number of calls and any interleaving; failures of the channel are part of the model"
  },
  {
   "property": "C80",
   "status": "proved",
   "theorems": [
    "C80_available",
    "C80_what_is_kept",
    "C80_released",
    "C80_uses_find_it",
    "C80_nested_uses_find_it_refuted",
    "C80_always_released_refuted"
   ],
   "note": "one object, any history; exact amount that is leaked"
  },
  {
   "property": "C81",
   "status": "proved",
   "theorems": [
    "C81_selects_nothing",
    "C81_selected_twice",
    "C81_bootstrap",
    "C81_raises",
    "C81_silent_means_jobs_refuted",
    "C81_validation_reports_refuted"
   ],
   "note": "equivalences for every line of every field; regular expressions are a parameter"
  },
  {
   "property": "C82",
   "status": "proved",
   "theorems": [
    "C82_offered",
    "C82_map",
    "C82_created",
    "C82_creating",
    "C82_archive",
    "C82_plain",
    "C82_warnings_do_not_hide_refuted",
    "C82_any_json_is_fine_refuted",
    "C82_listed_can_be_created_refuted",
    "C82_unusable_is_ignored_refuted",
    "C82_summary_is_asked_for_refuted",
    "C82_template_stays_inside_refuted"
   ],
   "note": "Exact condition for being offered, for what is listed under which name, for creating one and for collecting all for an archive; several expectations refuted."
  },
  {
   "property": "C83",
   "status": "proved",
   "theorems": [
    "C83_equal",
    "C83_equivalence",
    "C83_files",
    "C83_order",
    "C83_comparable",
    "C83_antisymmetric",
    "C83_moved",
    "C83_narrowed",
    "C83_relative",
    "C83_arguments_in_order_refuted",
    "C83_arguments_comparable_refuted",
    "C83_any_two_comparable_refuted",
    "C83_can_be_moved_refuted",
    "C83_just_line_is_a_line_refuted"
   ],
   "note": "Exact meaning of the operators on files, exact condition for TypeError, order laws; moving."
  },
  {
   "property": "C84",
   "status": "proved",
   "theorems": [
    "C84_named",
    "C84_one_of_a_name",
    "C84_one_thread",
    "C84_settled",
    "C84_order",
    "C84_hash",
    "C84_others",
    "C84_block",
    "C84_block_fine",
    "C84_all_symbols",
    "C84_one_symbol_refuted",
    "C84_no_symbol_lost_refuted",
    "C84_listed_once_refuted"
   ],
   "note": "Uniqueness under every schedule without overlapping creation, stability once settled, order and hash, meaning of blocks; the race is refuted."
  },
  {
   "property": "C85",
   "status": "proved",
   "theorems": [
    "C85_one_at_a_time",
    "C85_own_results",
    "C85_never_blocks",
    "C85_raising_job_is_the_last_refuted",
    "C85_one_at_a_time_refuted",
    "C85_own_results_refuted",
    "C85_finalized_refuted"
   ],
   "note": "Rules for callers: ServiceSpec.one_finish, one_client. The refuted theorems show what happens without them."
  },
  {
   "property": "C86",
   "status": "proved",
   "theorems": [
    "C86_phases",
    "C86_refused",
    "C86_refused_message_refuted",
    "C86_output",
    "C86_monitor",
    "C86_own_output_refuted",
    "C86_conversation",
    "C86_no_password",
    "C86_progress",
    "C86_count",
    "C86_phase_answer",
    "C86_progress_refuted",
    "C86_resumed",
    "C86_plans",
    "C86_plan_without_name_refuted"
   ],
   "note": ""
  },
  {
   "property": "C87",
   "status": "proved",
   "theorems": [
    "C87_arrives",
    "C87_asked_once",
    "C87_brought_back",
    "C87_no_passphrase_refuted",
    "C87_key_serves_once"
   ],
   "note": "keys and encodings are parameters with the laws of a cipher as hypotheses, met together in C87_case_arrives"
  },
  {
   "property": "C88",
   "status": "proved",
   "theorems": [
    "C88_listed",
    "C88_lines",
    "C88_expressions",
    "C88_excluded_alone_refuted",
    "C88_whole_identifier",
    "C88_whole_identifier_refuted",
    "C88_graph",
    "C88_links_apart",
    "C88_links_apart_refuted",
    "C88_all_jobs_drawn_refuted"
   ],
   "note": ""
  },
  {
   "property": "C89",
   "status": "proved",
   "theorems": [
    "C89_fails_refuted",
    "C89_units",
    "C89_others",
    "C89_can_be_read",
    "C89_no_such_group"
   ],
   "note": ""
  },
  {
   "property": "C90",
   "status": "proved",
   "theorems": [
    "C90_guessing",
    "C90_choices_refuted",
    "C90_endings",
    "C90_mistakes",
    "C90_interrupted",
    "C90_debugger_refuted",
    "C90_named",
    "C90_named_otherwise",
    "C90_named_refuted",
    "C90_docstring",
    "C90_pager",
    "C90_pager_empty_refuted"
   ],
   "note": "For all collections, command lines, outcomes, names, docstrings and paths. Refuted: complete choices after a mistake, the class name with the word elsewhere, the debugger for errors of the system, an empty PAGER."
  },
  {
   "property": "C91",
   "status": "proved",
   "theorems": [
    "C91_sendable",
    "C91_no_traceback",
    "C91_only_builtins",
    "C91_custom",
    "C91_there_and_back",
    "C91_classes",
    "C91_stop_refuted",
    "C91_exit_refuted"
   ],
   "note": "For all exceptions, messages, settings and histories. Refuted: the value of StopIteration is kept, only ordinary exceptions can be made here."
  },
  {
   "property": "C92",
   "status": "proved",
   "theorems": [
    "C92_told",
    "C92_kept",
    "C92_late",
    "C92_told_refuted",
    "C92_wait",
    "C92_wait_for_ever",
    "C92_ready",
    "C92_error"
   ],
   "note": "For all histories with one result, all deadlines and all rounds of waiting; telling when no callback raises, the other case refuted."
  },
  {
   "property": "C93",
   "status": "proved",
   "theorems": [
    "C93_interactivity",
    "C93_validation",
    "C93_requirements_refuted"
   ],
   "note": "For all lists of jobs. Refuted: the report of requirements names packages."
  },
  {
   "property": "C94",
   "status": "proved",
   "theorems": [
    "C94_box",
    "C94_narrow",
    "C94_lines",
    "C94_box_refuted"
   ],
   "note": "For all texts, widths, paddings and alignments, given that textwrap returns lines that fit and are not empty. Refuted for lines that are given."
  },
  {
   "property": "C95",
   "status": "proved",
   "theorems": [
    "C95_lines",
    "C95_empty_line_refuted",
    "C95_usage"
   ],
   "note": "The parts are those that the asserts of the code demand."
  },
  {
   "property": "C96",
   "status": "proved",
   "theorems": [
    "C96_colored",
    "C96_different",
    "C96_background_refuted",
    "C96_header",
    "C96_outcome",
    "C96_outcomes_told_apart",
    "C96_enabled"
   ],
   "note": "Labels of outcomes are a parameter; str.upper is that of ASCII."
  },
  {
   "property": "C97",
   "status": "proved",
   "theorems": [
    "C97_every_history",
    "C97_same_answer",
    "C97_directories_first",
    "C97_change_of_domain_refuted",
    "C97_back_to_domain_refuted",
    "C97_late_directory_refuted",
    "C97_contexts"
   ],
   "note": "Catalogues are a parameter that does not change; three refuted expectations are kept beside the theorems."
  },
  {
   "property": "C98",
   "status": "proved",
   "theorems": [
    "C98_console",
    "C98_debugging_asked_for",
    "C98_files",
    "C98_crashes",
    "C98_crash_twice_refuted",
    "C98_between_refuted",
    "C98_level",
    "C98_trace",
    "C98_trace_others",
    "C98_environment_refuted"
   ],
   "note": "Messages of the loggers plainbox and checkbox and those below; the configuration with files, the one without is refuted for crashes."
  },
  {
   "property": "C99",
   "status": "proved",
   "theorems": [
    "C99_check_config",
    "C99_parse",
    "C99_undecodable_refuted",
    "C99_script",
    "C99_leftovers",
    "C99_self_test",
    "C99_self_test_refuted"
   ],
   "note": "Formatting of values and python's repr are parameters."
  },
  {
   "property": "C100",
   "status": "proved",
   "theorems": [
    "C100_reading",
    "C100_reading_changes_nothing",
    "C100_setting",
    "C100_deleting",
    "C100_running",
    "C100_names",
    "C100_pickling",
    "C100_default_is_closed",
    "C100_services_stay",
    "C100_slave_opens_all",
    "C100_exposed_hides_plain",
    "C100_empty_prefix",
    "C100_hooks_bypass_refuted"
   ],
   "note": "Exact characterisation of reading, setting, deleting and running over every configuration; histories under the default configuration and for services."
  },
  {
   "property": "C101",
   "status": "proved",
   "theorems": [
    "C101_alias_given",
    "C101_class_name",
    "C101_class_name_kept",
    "C101_module_is_the_first_found",
    "C101_asked_until_found",
    "C101_in_tells_the_same",
    "C101_tuple_is_dotted"
   ],
   "note": "Names of services; first found answer and exact count of questions over every sequence of lookups."
  },
  {
   "property": "C102",
   "status": "proved",
   "theorems": [
    "C102_callbacks",
    "C102_waiting",
    "C102_once",
    "C102_unsent",
    "C102_taken",
    "C102_each_its_own",
    "C102_other_side",
    "C102_round_trip",
    "C102_planted_answer_refuted",
    "C102_unasked_answers_stay"
   ],
   "note": "For every sequence of requests, answers and clean-ups; unsent requests are never answered and a picked-up answer is not kept"
  },
  {
   "property": "C103",
   "status": "proved",
   "theorems": [
    "C103_told_once",
    "C103_what_is_raised"
   ],
   "note": "Told once, asked at most once, and exactly what is raised, over every sequence of closings."
  },
  {
   "property": "C104",
   "status": "proved",
   "theorems": [
    "C104_runs_what_can_start",
    "C104_skip_iff_dependency_skipped",
    "C104_skip_spreads",
    "C104_described",
    "C104_out_of_attempts_misdescribed"
   ],
   "note": "For every session state; the spreading of skips by induction over chains of any length"
  },
  {
   "property": "C105",
   "status": "proved",
   "theorems": [
    "C105_never_fails",
    "C105_query_is_exact",
    "C105_notices",
    "C105_leaving_is_told_refuted"
   ],
   "note": "For every history of commands; refuted: that each server that leaves is given notice of"
  },
  {
   "property": "C106",
   "status": "proved",
   "theorems": [
    "C106_one_place",
    "C106_one_worker",
    "C106_right_connection",
    "C106_batches",
    "C106_descriptor_zero_refuted",
    "C106_reused_descriptor_refuted"
   ],
   "note": "For every interleaving; refuted for descriptor 0 and for connections that close their socket while being served"
  },
  {
   "property": "C107",
   "status": "proved",
   "theorems": [
    "C107_property",
    "C107_property_after_error_refuted",
    "C107_method",
    "C107_instances_apart",
    "C107_override_is_lost",
    "C107_method_repeats_refuted"
   ],
   "note": "For every history; extension of methods and raising after reading the value above refuted"
  },
  {
   "property": "C108",
   "status": "proved",
   "theorems": [
    "C108_only_authenticated",
    "C108_served_once",
    "C108_no_socket_leaks",
    "C108_unregistered_once",
    "C108_closing_closes_all",
    "C108_closing_closes_all_refuted"
   ],
   "note": "For every interleaving; refuted for clients that are halfway in when closing begins"
  },
  {
   "property": "C109",
   "status": "proved",
   "theorems": [
    "C109_all_elements",
    "C109_chunks_are_bounded",
    "C109_exception",
    "C109_elements_before_exception_refuted",
    "C109_chunk_zero_refuted",
    "C109_view_writes",
    "C109_view_reads",
    "C109_view_secret"
   ],
   "note": "Going through in chunks gives all elements in order (by induction on the rounds); an exception loses fewer than a chunk. Refuted: that elements before an exception are all given, and that a first chunk of 0 gives the elements. Views: values after any history, and non-interference of attributes that are not listed."
  },
  {
   "property": "C110",
   "status": "proved",
   "theorems": [
    "C110_read_back",
    "C110_outcomes",
    "C110_coloured",
    "C110_histories_elsewhere",
    "C110_coloured_outcomes_refuted",
    "C110_lines_refuted"
   ],
   "note": "Reading the report back gives the jobs with results (induction over the run list), hence the report determines the outcomes. Refuted: that the coloured report tells outcomes apart (skipped and not supported) and that summaries of several lines leave it clear."
  },
  {
   "property": "C111",
   "status": "proved",
   "theorems": [
    "C111_the_right_wrapper",
    "C111_one_wrapper",
    "C111_object_is_kept",
    "C111_nothing_is_kept"
   ],
   "note": "Invariant over all histories relating the cache, the live objects and what the program holds; addresses are reused freely once an object is gone."
  }
 ]
}