{"claims": [
{"property": "C01", "status": "proved", "theorems": ["C01_group_restores", "C01_group_restores_static"], "note": ""},
{"property": "C02", "status": "proved", "theorems": ["C02_forwarding", "C02_not_forwarding", "C02_unscoped"], "note": ""},
{"property": "C03", "status": "proved", "theorems": ["C03_pop_restores", "C03_unmatched_pop_raises", "C03_stores_independent"], "note": ""},
{"property": "C04", "status": "proved", "theorems": ["C04_locals_never_stale", "C04_globals_permanent"], "note": ""},
{"property": "C05", "status": "proved", "theorems": ["C05_locals_isolated"], "note": ""},
{"property": "C06", "status": "proved", "theorems": ["C06_locals_leak", "C06_locals_stay"], "note": ""},
{"property": "C07", "status": "proved", "theorems": ["C07_depth_first", "C07_exception_stops"], "note": ""},
{"property": "C08", "status": "proved", "theorems": ["C08_false_suppresses", "C08_raise_suppresses", "C08_true_executes_once"], "note": ""},
{"property": "C09", "status": "proved", "theorems": ["C09_completion", "C09_callbacks_kept", "C09_callbacks"], "note": ""},
{"property": "C10", "status": "proved", "theorems": ["C10_order", "C10_one_at_a_time"], "note": ""},
{"property": "C100", "status": "proved", "theorems": ["C100_level", "C100_output", "C100_service", "C100_reset", "C100_others", "C100_get", "C100_reset_refuted", "C100_output_refuted"], "note": "The levels of python's logging module are part of the model; logging.disable and levels of handlers are not. The names of the root logger itself are left out."},
{"property": "C101", "status": "proved", "theorems": ["C101_where", "C101_inside", "C101_after", "C101_handler", "C101_timer", "C101_after_refuted", "C101_handler_refuted"], "note": "Assumes that functions given by the user do not set the two context variables themselves (tame). The refutations show that a file does not see itself after an include, that arguments are evaluated as in the included file, and that handlers registered by a file cannot use the substitutions. Visits in which the entities of a timer begin are described by C101_timer, not by C101_where."},
{"property": "C102", "status": "proved", "theorems": ["C102_visit", "C102_event", "C102_event_more", "C102_nested", "C102_ends", "C102_plain", "C102_condition_refuted"], "note": "Assumes, except in the first three and the refutation, that functions given by the user and the loading of a file return (functions_return). This is also what justifies the fuel of the model: OutOfFuel stands for a visit that goes deeper than was followed, and for nothing else. The refutation is a finding: a launch file that includes itself under a condition can never be launched (Python gives up with a RecursionError, which the model does not have)."},
{"property": "C103", "status": "proved", "theorems": ["C103_cut", "C103_group", "C103_observed"], "note": "Stated for visits that end (C102). The log of the model records every visit, so the theorem says which observations may differ: only those that say that the visit of a launch description began."},
{"property": "C104", "status": "proved", "theorems": ["C104_open", "C104_group", "C104_event_returns", "C104_event", "C104_outside_refuted"], "note": "The refutation is a finding: groups restore with actions after their bodies, which an exception skips, as C06 shows for the locals of handlers."},
{"property": "C105", "status": "proved", "theorems": ["C105_between", "C105_configurations", "C105_grows", "C105_balanced", "C105_locals", "C105_reset_environment", "C105_same_refuted"], "note": "The refutation is a finding: the period of a timer is evaluated in a task of its own, after the action was executed, and its AnonName substitutions then change the launch configurations of whatever scope is current."},
{"property": "C11", "status": "proved", "theorems": ["C11_received", "C11_exception", "C11_matching"], "note": "the order of the deque is C14_register_position"},
{"property": "C12", "status": "proved", "theorems": ["C12_registered_during", "C12_unregistered_during", "C12_until_unregistered"], "note": ""},
{"property": "C13", "status": "proved", "theorems": ["C13_at_most_once", "C13_first_match"], "note": ""},
{"property": "C14", "status": "proved", "theorems": ["C14_unregister_removes_first", "C14_unregister_raises_iff", "C14_register_unregister", "C14_register_position"], "note": ""},
{"property": "C15", "status": "proved", "theorems": ["C15_target_matching", "C15_io_callback"], "note": ""},
{"property": "C16", "status": "proved", "theorems": ["C16_returns", "C16_all_done"], "note": ""},
{"property": "C17", "status": "proved", "theorems": ["C17_idle", "C17_otherwise"], "note": ""},
{"property": "C18", "status": "proved", "theorems": ["C18_at_most_one", "C18_at_most_two", "C18_refuted", "C18_none_after_user"], "note": "C18_refuted exhibits the race of shutdown() in another thread with SIGINT that yields two events."},
{"property": "C19", "status": "proved", "theorems": ["C19_code", "C19_noticed", "C19_shuts_down", "C19_refuted"], "note": "C19_refuted: a completion future fails while events are queued and the run returns 0."},
{"property": "C20", "status": "proved", "theorems": ["C20_shutdown_nothing", "C20_stay_queued", "C20_refuted"], "note": "C20_refuted: after a cancelled run the left-over task takes an event while the service is not running."},
{"property": "C21", "status": "proved", "theorems": ["C21_rejected"], "note": ""},
{"property": "C22", "status": "proved", "theorems": ["C22_return_marks", "C22_stays_shut_down", "C22_nothing_starts", "C22_later_runs"], "note": ""},
{"property": "C23", "status": "proved", "theorems": ["C23_second_execution", "C23_late_execution"], "note": "The second execution still re-evaluates the options of the action (prepare); the theorem says it starts nothing."},
{"property": "C24", "status": "proved", "theorems": ["C24_life_cycles", "C24_announced", "C24_at_most_one"], "note": "Refinement of the service to an automaton per process action; the process may end before ProcessStarted is emitted."},
{"property": "C25", "status": "proved", "theorems": ["C25_bound", "C25_without_bound", "C25_respawns", "C25_after_delay", "C25_evaluated", "C25_value_stays", "C25_value_known", "C25_false_once"], "note": "A respawn needs the loop of the context to be set (it is, unless a rejected concurrent run cleared it, C21)."},
{"property": "C26", "status": "proved", "theorems": ["C26_no_start", "C26_completes", "C26_exit_completes", "C26_exit_processed", "C26_while_starting_refuted"], "note": "The refuted theorem is the excluded case: a request taken into account while the next process is being started."},
{"property": "C27", "status": "proved", "theorems": ["C27_final", "C27_only_at_the_end", "C27_at_last_exit", "C27_not_started", "C27_timers_cancelled"], "note": ""},
{"property": "C28", "status": "proved", "theorems": ["C28_listens", "C28_escalates", "C28_begins", "C28_can_begin", "C28_arms", "C28_delivers", "C35_not_before", "C35_cancelled_once", "C27_timers_cancelled", "C27_final"], "note": "The escalation is a list of ordinary actions (two timers and an emission): C28_begins says which, C28_arms and C35 say when they fire, C28_delivers that a signal is sent exactly to a process that still runs, C27 that nothing is sent after completion."},
{"property": "C29", "status": "proved", "theorems": ["C29_at_most_once", "C29_ignored"], "note": ""},
{"property": "C30", "status": "proved", "theorems": ["C30_not_lost", "C30_not_lost_process", "C30_taken_up", "C30_own_start", "C30_escalates", "C30_accumulates"], "note": "For ShutdownProcess with the matcher of the action itself."},
{"property": "C31", "status": "proved", "theorems": ["C31_lines_of", "C31_lines_unique", "C31_logged", "C31_chunking", "C31_before_exit", "C31_at_exit"], "note": "From the ProcessIO events the action handles on; text is decoded text (a cut inside a character does show, C87_cut_refuted). Text handled after the closing flush is logged as it comes."},
{"property": "C32", "status": "proved", "theorems": ["C32_complete", "C31_logged"], "note": ""},
{"property": "C33", "status": "proved", "theorems": ["C33_next_number", "C33_counter", "C33_increasing", "C33_different", "C33_announced"], "note": ""},
{"property": "C34", "status": "proved", "theorems": ["C34_environment", "C34_announced"], "note": ""},
{"property": "C35", "status": "proved", "theorems": ["C35_at_most_once", "C35_not_before", "C35_cancelled", "C35_cancelled_once", "C35_completes_at_once", "C35_starts", "C35_waits", "C35_ends", "C35_yields", "C35_handled", "C35_refuted"], "note": "Firing counted against executions, times against the start of the wait; the statement fails (C35_refuted) for a timer that is cancelled while waiting and executed again before its task goes on."},
{"property": "C36", "status": "proved", "theorems": ["C36_shutdown_cancels", "C36_shutdown_prevents", "C35_starts", "C35_ends"], "note": "C35_starts: the handler is registered exactly if cancel_on_shutdown evaluates to true; the handler stays until unregistered; processing Shutdown to the end cancels. With false nothing cancels it and C35_ends applies."},
{"property": "C37", "status": "proved", "theorems": ["C37_condition_expressions", "C37_failing_expressions"], "note": ""},
{"property": "C38", "status": "proved", "theorems": ["C38_and_or", "C38_not", "C38_any_all", "C38_failures", "C38_if_else"], "note": ""},
{"property": "C39", "status": "proved", "theorems": ["C39_equals_not_equals", "C39_symmetric", "C39_reflexive_iff", "C39_reflexive_refuted", "C39_transitive_refuted"], "note": "float() is exact rational arithmetic; rounding of doubles is not modelled"},
{"property": "C40", "status": "proved", "theorems": ["C40_launch_configuration", "C40_environment_variable", "C40_environment_variable_default", "C40_performing_changes_nothing"], "note": ""},
{"property": "C41", "status": "proved", "theorems": ["C41_anon_value", "C41_anon_stable", "C41_anon_stable_perform"], "note": ""},
{"property": "C42", "status": "proved", "theorems": ["C42_concatenation", "C42_regroup", "C42_split_text"], "note": ""},
{"property": "C43", "status": "proved", "theorems": ["C43_set_launch_configuration", "C43_set_environment", "C43_unset_launch_configuration", "C43_unset_environment", "C43_append_environment"], "note": ""},
{"property": "C44", "status": "proved", "theorems": ["C44_reset", "C44_reset_all"], "note": ""},
{"property": "C45", "status": "proved", "theorems": ["C45_declare"], "note": ""},
{"property": "C46", "status": "proved", "theorems": ["C46_include", "C46_missing", "C46_visit", "C46_check_refuted"], "note": ""},
{"property": "C47", "status": "proved", "theorems": ["C47_listing", "C47_listing_order", "C47_handler_refuted"], "note": ""},
{"property": "C48", "status": "proved", "theorems": ["C48_white_space", "C48_coerce_sound", "C48_get_typed_value_sound", "C48_perform_typed_sound", "C48_scalar_unchanged", "C48_list_unchanged", "C48_normalize_scalar", "C48_normalize_list", "C48_number_read", "C48_can_be_str", "C48_can_be_str_bool_refuted", "C48_normalize_refuted", "C48_int", "C48_float", "C48_bool_read"], "note": ""},
{"property": "C49", "status": "proved", "theorems": ["C49_accepted", "C49_children", "C49_decided", "C49_typed", "C49_split", "C49_root_refuted", "C49_choice_refuted"], "note": "for arbitrary parse methods; the root element and the choices of an argument are exceptions"},
{"property": "C50", "status": "proved", "theorems": ["C50_load", "C50_all", "C50_refuted"], "note": ""},
{"property": "C51", "status": "proved", "theorems": ["C51_inverse", "C51_every_text", "C51_plain"], "note": ""},
{"property": "C52", "status": "proved", "theorems": ["C52_arguments", "C52_succeeds", "C52_order", "C52_substitutions", "C52_empty", "C52_words", "C52_every_text", "C52_quoted", "C52_leading_refuted", "C52_quotes_refuted"], "note": ""},
{"property": "C53", "status": "proved", "theorems": ["C53_routed", "C53_lines", "C53_valid", "C53_isolated", "C53_once", "C53_directory", "C53_separate", "C53_again_refuted", "C53_launch_refuted", "C53_format_refuted"], "note": "logging levels and custom handler factories are not modelled"},
{"property": "C54", "status": "proved", "theorems": ["C54_unique", "C54_single", "C54_latest", "C54_where", "C54_race_refuted"], "note": ""},
{"property": "C55", "status": "proved", "theorems": ["C55_restores", "C55_delivery", "C55_external", "C55_exit_refuted", "C55_raise_refuted"], "note": "POSIX, main thread; signals unread when the innermost manager is left, or read together with one whose handler raises, are lost (refuted theorems)"},
{"property": "C56", "status": "proved", "theorems": ["C56_once", "C56_few", "C56_enough", "C56_unlocked", "C56_progress", "C56_zero_refuted"], "note": ""},
{"property": "C57", "status": "proved", "theorems": ["C57_sequence", "C57_assert", "C57_caught", "C57_single", "C57_stderr_refuted", "C57_split_refuted"], "note": "the text of failure messages is not modelled"},
{"property": "C58", "status": "proved", "theorems": ["C58_output", "C58_info", "C58_find"], "note": ""},
{"property": "C59", "status": "proved", "theorems": ["C59_resolve"], "note": "the texts of messages are not modelled"},
{"property": "C60", "status": "proved", "theorems": ["C60_result", "C60_waiting", "C60_awake", "C60_thread", "C60_wake", "C60_evaluations", "C60_event", "C60_gap_refuted", "C60_race_refuted", "C60_missed_refuted"], "note": "one integer clock stands for all clocks"},
{"property": "C61", "status": "proved", "theorems": ["C61_passes", "C61_respawn_refuted"], "note": ""},
{"property": "C62", "status": "proved", "theorems": ["C62_normalize", "C62_build", "C62_sound", "C62_earliest", "C62_texts", "C62_strict_text", "C62_strict_sound", "C62_strict_texts", "C62_lines", "C62_lines_strict", "C62_lines_equal", "C62_arguments", "C62_expect_text", "C62_expect_sound", "C62_expect_lines", "C62_expect_join", "C62_expect_split", "C62_assert", "C62_assert_stream", "C62_assert_build", "C62_filter", "C62_strict_refuted", "C62_twice_refuted", "C62_greedy_refuted", "C62_vacuous_refuted", "C62_inside_refuted", "C62_pattern_refuted"], "note": "patterns, splitlines and the removal of escape sequences are arbitrary functions; patterns are only assumed to report positions within the text; what is not callable as a filter is not modelled"},
{"property": "C63", "status": "proved", "theorems": ["C63_equals", "C63_unset", "C63_fails"], "note": ""},
{"property": "C64", "status": "proved", "theorems": ["C64_joined", "C64_none", "C64_absolute", "C64_plain"], "note": "POSIX paths"},
{"property": "C65", "status": "proved", "theorems": ["C65_end", "C65_records", "C65_deadline", "C65_alert", "C65_wake", "C65_two_refuted", "C65_output", "C65_no_output", "C65_shutdown", "C65_no_shutdown", "C65_startup", "C65_no_startup", "C65_all_refuted", "C65_proxy_shutdown", "C65_proxy_output", "C65_exited_refuted", "C65_locks_refuted", "C65_untracked_refuted"], "note": "the body of python's Condition.wait_for is modelled; what happens under a lock is one step; one integer clock"},
{"property": "C66", "status": "proved", "theorems": ["C66_verdict", "C66_results", "C66_died", "C66_unfinished", "C66_finished", "C66_raises", "C66_shutdown", "C66_exit_zero", "C66_exit_two", "C66_exit_codes", "C66_runs", "C66_report", "C66_suite", "C66_elements", "C66_died_suite", "C66_skipped_suite", "C66_launch_code_refuted", "C66_while_active_refuted", "C66_empty_refuted", "C66_unexpected_refuted", "C66_class_error_refuted"], "note": "python's unittest is modelled by what it reports; names, times and messages of the report are left out; what precedes the start of the launch is one step"},
{"property": "C67", "status": "proved", "theorems": ["C67_arguments", "C67_malformed"], "note": ""},
{"property": "C68", "status": "proved", "theorems": ["C68_total", "C68_grammar", "C68_plain", "C68_escape", "C68_writable", "C68_between", "C68_lookup", "C68_unknown", "C68_values", "C68_mixed", "C68_value", "C68_escaped_backslash_refuted", "C68_last_argument_refuted", "C68_quotes_in_quotes_refuted"], "note": "lark is modelled by recursive descent for this grammar: terminals match greedily at the place where they are expected; text is bytes"},
{"property": "C69", "status": "proved", "theorems": ["C69_permutation", "C69_shutdown_last", "C69_normal", "C69_group", "C69_order", "C69_order_unique"], "note": ""},
{"property": "C70", "status": "proved", "theorems": ["C70_after_end", "C70_second_part", "C70_shutdown", "C70_alive", "C70_once", "C70_waits", "C70_outcomes", "C70_collected", "C70_items", "C70_deselected_refuted", "C70_ready", "C70_ready_new", "C70_ready_several"], "note": "pytest is modelled by the calls of the plugin's hooks; the items run are those of one instance of a fixture; waiting for ReadyToTest before a test is left out"},
{"property": "C71", "status": "proved", "theorems": ["C71_build", "C71_status", "C71_service_code", "C71_left", "C71_none_left", "C71_process_failed", "C71_fixture_died", "C71_all_finished", "C71_ends", "C71_failed_shutdown", "C71_died_shutdown", "C71_side_effect", "C71_side_effect_only", "C71_output_never_fails", "C71_cancelled_refuted"], "note": "C71_output_never_fails and C71_cancelled_refuted are findings; C71_unmatched_refuted is a concrete run of the former."},
{"property": "C72", "status": "proved", "theorems": ["C72_lines", "C72_cuts", "C72_pattern_cuts_refuted", "C72_filter", "C72_patterns_spent", "C72_filter_patterns_refuted", "C72_filter_same_refuted"], "note": "The _refuted theorems and C72_patterns_spent are findings."},
{"property": "C73", "status": "proved", "theorems": ["C73_once", "C73_same", "C73_location", "C73_location_text", "C73_get_loads", "C73_try", "C73_given", "C73_no_description", "C73_retry_refuted"], "note": "C73_no_description and C73_retry_refuted are findings"},
{"property": "C74", "status": "proved", "theorems": ["C74_any", "C74_extension", "C74_untold_refuted", "C74_told", "C74_registry", "C74_registry_order"], "note": "C74_untold_refuted is a finding; how one parser is chosen is C50"},
{"property": "C75", "status": "proved", "theorems": ["C75_text", "C75_one", "C75_writable", "C75_configuration", "C75_any_all_refuted", "C75_eval_modules_refuted"], "note": "C75_any_all_refuted and C75_eval_modules_refuted are findings; the grammar is C68"},
{"property": "C76", "status": "proved", "theorems": ["C76_output", "C76_failure", "C76_runs", "C76_newlines", "C76_other_failures_refuted"], "note": "C76_other_failures_refuted is a finding; not on Windows; what the program does is arbitrary"},
{"property": "C77", "status": "proved", "theorems": ["C77_expression", "C77_only_modules", "C77_import_fails", "C77_dotted_refuted", "C77_hidden_refuted", "C77_find", "C77_content"], "note": "the _refuted theorems are findings; importing, evaluating, searching and reading are arbitrary functions"},
{"property": "C78", "status": "proved", "theorems": ["C78_runs", "C78_plain", "C78_attributes", "C78_above_refuted", "C78_validate", "C78_called", "C78_surplus_refuted", "C78_defaults_refuted", "C78_twice_refuted", "C78_tests", "C78_test_names", "C78_ready", "C78_given"], "note": "the _refuted theorems are findings: a mark above parametrize is lost, surplus values are dropped, arguments with defaults are rejected, parametrize cannot be used twice"},
{"property": "C79", "status": "proved", "theorems": ["C79_calls", "C79_verdict", "C79_success", "C79_since_311", "C79_erased_refuted", "C79_sub_tests_refuted", "C79_plain_class_refuted"], "note": "the statement about the result holds until python 3.10; since 3.11 it needs the condition in C79_verdict, and C79_erased_refuted, C79_sub_tests_refuted and C79_plain_class_refuted are findings"},
{"property": "C80", "status": "proved", "theorems": ["C80_waits_for", "C80_returns", "C80_returns_regular", "C80_shuts_down", "C80_locked_refuted", "C80_unawaited_refuted", "C80_unregistered_refuted"], "note": "the _refuted theorems are findings, the first a deadlock between shutdown() in a thread and the end of the run; nothing is said about how long user code in handlers takes"},
{"property": "C81", "status": "proved", "theorems": ["C81_signal", "C81_shutdown", "C81_shutdown_other", "C81_early_pid_refuted"], "note": "C81_early_pid_refuted is a finding; what happens per process action with the event at hand; that every registered handler gets the event is C11"},
{"property": "C82", "status": "proved", "theorems": ["C82_waits_for_living", "C82_returns", "C82_shuts_down", "C82_stuck", "C82_crashed_refuted", "C82_timer_refuted", "C82_twice_refuted"], "note": "the _refuted theorems are findings: runs that wait for ever for an action whose coroutine is gone"},
{"property": "C83", "status": "proved", "theorems": ["C83_shown", "C83_lines", "C83_empty_refuted", "C83_branch_refuted", "C83_white_refuted"], "note": "the _refuted theorems are findings: an empty description raises IndexError; the last entity of a level is drawn as a branch that goes on if it has children; leading white space of a description is lost"},
{"property": "C84", "status": "proved", "theorems": ["C84_collected", "C84_others", "C84_plugins", "C84_passes", "C84_agrees", "C84_report", "C84_ran", "C84_unnamed_refuted", "C84_arguments"], "note": "C84_unnamed_refuted is a finding: unexpected successes, errors outside of tests and dead runs without tests give failures that name nothing; the texts of the report are not modelled"},
{"property": "C85", "status": "proved", "theorems": ["C85_first", "C85_unknown", "C85_accepted", "C85_rejected", "C85_again_refuted", "C85_loaded", "C85_warned", "C85_reloaded", "C85_half_refuted"], "note": "C85_again_refuted (an action cannot be exposed twice even by the same class) and C85_half_refuted (an extension that fails leaves its first names behind) are findings; the body of a module is its exposures in order, and fails in the same way at every import"},
{"property": "C86", "status": "proved", "theorems": ["C86_closed", "C86_object", "C86_one_parser", "C86_first_fit", "C86_pipe_refuted", "C86_sources", "C86_format_refuted"], "note": "C86_pipe_refuted and C86_format_refuted are findings: a file that cannot be rewound is given to one parser only; the source for XML ignores the parser it is given and accepts YAML"},
{"property": "C87", "status": "proved", "theorems": ["C87_strict", "C87_text", "C87_lines", "C87_count", "C87_chunks", "C87_joined", "C87_cut_refuted", "C87_ready", "C87_ready_raises", "C87_ready_refuted"], "note": "the _refuted theorems are findings; the decoder of CPython is modelled as an automaton; what is done with the decoded text is C31 and C62"},
{"property": "C88", "status": "proved", "theorems": ["C88_sound", "C88_complete", "C88_one", "C88_file", "C88_levels", "C88_keep_refuted"], "note": "C88_keep_refuted is a finding; the constructor of the action is a parameter, as is the parser of substitutions (C51, C52)"},
{"property": "C89", "status": "proved", "theorems": ["C89_same", "C89_files", "C89_integer_refuted", "C89_quoted_refuted"], "note": "the _refuted theorems are findings"},
{"property": "C90", "status": "proved", "theorems": ["C90_executed", "C90_announced", "C90_refused", "C90_prefix_decided", "C90_name_refuted"], "note": "C90_name_refuted is a finding; shlex.split and re.match are parameters of the world (that they do not raise is assumed)"},
{"property": "C91", "status": "proved", "theorems": ["C91_no_timeout", "C91_timed", "C91_stops", "C91_escalates", "C91_signals", "C91_in_time", "C91_respawn_refuted"], "note": "C91_respawn_refuted is a finding; C91_stops is about timers that are not executed a second time while they fire; the constructor argument kill_timeout is not used by the code (a finding without theorem: C91_signals shows which timeouts count)"},
{"property": "C92", "status": "proved", "theorems": ["C92_scope", "C92_accepted", "C92_user", "C92_shared", "C92_one_scope", "C92_own_refuted", "C92_first_only", "C92_blocks", "C92_never_ready"], "note": "C92_own_refuted, C92_first_only, C92_blocks and C92_never_ready are findings; that a service that was shut down starts no processes later is C22 in the model of the service; fixtures of conftest files and SIGTERM during tests are not modelled"},
{"property": "C93", "status": "proved", "theorems": ["C93_listed", "C93_copied", "C93_once", "C93_described_refuted", "C93_action_refuted", "C93_refused"], "note": "C93_once, C93_described_refuted and C93_action_refuted are findings; an empty list given to OnProcessExit and others fails as well (C11 model, HList [])"},
{"property": "C94", "status": "proved", "theorems": ["C94_accepted", "C94_default", "C94_list_refuted", "C94_tuple_refuted", "C94_described"], "note": "C94_list_refuted and C94_tuple_refuted are findings; str() of the choices is a parameter"},
{"property": "C95", "status": "proved", "theorems": ["C95_starts", "C95_cancels", "C95_handler", "C95_leaves", "C95_no_more", "C95_returns_one", "C95_orderly_refuted", "C95_twice_refuted"], "note": "C95_orderly_refuted and C95_twice_refuted are the findings; how and when the coroutine of the user reacts to cancel() is left to the environment (a label of the model)."},
{"property": "C96", "status": "proved", "theorems": ["C96_required", "C96_enough", "C96_marks", "C96_nested_refuted", "C96_default_refuted"], "note": "The two claims one would expect of the listing but that the code does not meet are refuted: C96_nested_refuted (an argument of a group inside a conditional group is listed as unconditional, and an include then insists on it) and C96_default_refuted."},
{"property": "C97", "status": "proved", "theorems": ["C97_reads", "C97_unique", "C97_raises", "C97_breaks_refuted"], "note": "What describe() gives for a substitution and the description text are parameters. C97_breaks_refuted shows why line breaks have to be excluded."},
{"property": "C98", "status": "proved", "theorems": ["C98_check", "C98_timer", "C98_timer_refuses", "C98_timer_waits", "C98_substitutions", "C98_class_refuted", "C98_function", "C98_function_calls", "C98_function_once", "C98_function_names", "C98_coroutine"], "note": "Exact characterisations. C98_class_refuted: a Substitution class given instead of an object passes. C98_function_once: an iterator given as args is used up by the first execution."},
{"property": "C99", "status": "proved", "theorems": ["C99_all", "C99_within", "C99_order", "C99_enough", "C99_forever"], "note": "The main model (Exec.v) has descriptions with fixed lists; this is a model of its own in which they are mutable."}
]}
