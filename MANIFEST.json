{
 "claims": [
  {
   "property": "C01",
   "status": "proved",
   "theorems": [
    "C01_runs_exactly_once",
    "C01_last_in_first_out"
   ],
   "note": ""
  },
  {
   "property": "C02",
   "status": "proved",
   "theorems": [
    "C02_never_twice"
   ],
   "note": ""
  },
  {
   "property": "C03",
   "status": "proved",
   "theorems": [
    "C03_decision_table",
    "C03_excluded_never_run",
    "C03_flags"
   ],
   "note": ""
  },
  {
   "property": "C04",
   "status": "proved",
   "theorems": [
    "C04_closing_ends_normally",
    "C04_the_rest_still_runs",
    "C04_each_exception_recorded_once"
   ],
   "note": "Assumes the before_test_cleanups hook handlers do not raise (a raising handler skips all cleanups of the test scope: see DESIGN findings)."
  },
  {
   "property": "C05",
   "status": "partial",
   "theorems": [
    "C05_critical_run_partial",
    "C05_critical_always_run_refuted",
    "C05_interrupted_cleanup_refuted",
    "C03_flags"
   ],
   "note": "Refuted as stated; holds when no skip/non-Exception escapes a cleanup of that scope."
  },
  {
   "property": "C06",
   "status": "proved",
   "theorems": [
    "C06_goes_to_the_named_scope",
    "C06_runs_only_at_the_end_of_its_scope",
    "C06_every_run_was_registered",
    "C06_implicit"
   ],
   "note": ""
  },
  {
   "property": "C07",
   "status": "partial",
   "theorems": [
    "C07_rejected_partial",
    "C07_incorrect_scope_refuted"
   ],
   "note": "Nothing is registered and an exception is raised in all cases; the class is IndexError if a scope of that name had been open earlier."
  },
  {
   "property": "C08",
   "status": "partial",
   "theorems": [
    "C08_skipped_partial",
    "C08_called_partial",
    "C08_module_refuted",
    "C08_session_refuted",
    "C08_converse_refuted",
    "C08_closing_refuted",
    "C03_excluded_never_run"
   ],
   "note": "Proved: a success_only cleanup of a scope that closes while a test runs is called exactly if nothing bad of that test was recorded before the closing began; of one that closes between tests it is not called if anything bad was recorded at all. Refuted: a module scope that closes when the next test was announced is decided by that test's result, for the session scope it can be a never-started test's result; conversely a module's success_only cleanup is skipped because a test of another module failed; and a success_only cleanup is called after a newer cleanup of the same test failed."
  },
  {
   "property": "C09",
   "status": "proved",
   "theorems": [
    "C09_well_nested",
    "C09_all_closed_once",
    "C09_innermost_first",
    "C09_nesting",
    "C09_test_inside_its_module",
    "C09_module_shared"
   ],
   "note": "For every non-worker session in which no exception escapes the teardown of a module or session scope (escapes from tests' teardowns allowed)."
  },
  {
   "property": "C10",
   "status": "partial",
   "theorems": [
    "C10_partial",
    "C10_refuted"
   ],
   "note": "Proved for exceptions escaping from the teardown of tests' scopes; refuted for a module cleanup raising a skip, which desynchronises the scope manager."
  },
  {
   "property": "C100",
   "status": "partial",
   "theorems": [
    "C100_signals",
    "C100_started",
    "C100_reports",
    "C100_round",
    "C100_ends",
    "C100_checked",
    "C100_clean_partial",
    "C100_interrupted_partial",
    "C100_timeout_partial",
    "C100_clean_refuted",
    "C100_interrupted_refuted",
    "C100_lost_refuted"
   ],
   "note": "Refuted: when the start of a worker fails or is interrupted, the finally clause raises AttributeError on the worker that has no process: the workers already running are not told to end and the servers are not stopped, and the exception is replaced; when the server does not answer session_interrupted no worker is told to end."
  },
  {
   "property": "C101",
   "status": "proved",
   "theorems": [
    "C101_exception",
    "C101_order",
    "C101_user",
    "C101_project",
    "C101_settings_entries",
    "C101_importable",
    "C101_restored",
    "C101_restored_whole",
    "C101_project_name",
    "C101_settings_path_refuted",
    "C101_tilde_refuted",
    "C101_rest"
   ],
   "note": "Proved in full; beside it, refuted for SLASH_SETTINGS: a file named by it is run without its directory on sys.path, and its changes of sys.path stay; a ~ in SLASH_USER_SETTINGS is not expanded."
  },
  {
   "property": "C102",
   "status": "proved",
   "theorems": [
    "C102_value",
    "C102_others",
    "C102_subclass",
    "C102_works",
    "C102_applications",
    "C102_two_kinds",
    "C102_wraps",
    "C102_with_value",
    "C102_unmarked",
    "C102_method_refuted",
    "C102_callable_refuted"
   ],
   "note": "Proved in full. Beside it two further expectations are refuted: a decorated classmethod or staticmethod is not given back (the plain function is), and a callable cannot be the value of a mark."
  },
  {
   "property": "C103",
   "status": "proved",
   "theorems": [
    "C103_arguments",
    "C103_wrong_argument",
    "C103_active",
    "C103_started",
    "C103_starts",
    "C103_configured",
    "C103_only",
    "C103_last_refuted",
    "C103_worker_refuted",
    "C103_later_refuted",
    "C103_failed_refuted"
   ],
   "note": "Proved in full. Beside it four further expectations are refuted: that the last of --with-X and --without-X wins, that a worker without a number of workers has no parent-only plugins, that modes hold for activations after the start, and that a failed start leaves no plugin active against its mode."
  },
  {
   "property": "C104",
   "status": "proved",
   "theorems": [
    "C104_one",
    "C104_place",
    "C104_rest",
    "C104_worker",
    "C104_no_root",
    "C104_last_session",
    "C104_last_session_dir",
    "C104_no_session_log",
    "C104_last_test",
    "C104_last_test_none",
    "C104_last_failed",
    "C104_last_failed_none",
    "C104_worker_dir",
    "C104_dangling_refuted",
    "C104_lost_refuted",
    "C104_file_refuted",
    "C104_raw_refuted",
    "C104_shared_refuted"
   ],
   "note": "Proved in full for links whose places are not those of logs or other links. Beside it five further expectations are refuted: the failed link may dangle, a failing test without a log removes it, a file at the place of a link is deleted, with a raw file beside a compressed log the two test links differ, a test sharing the session's log makes no link."
  },
  {
   "property": "C105",
   "status": "proved",
   "theorems": [
    "C105_session_log",
    "C105_console",
    "C105_terminal",
    "C105_released",
    "C105_warnings",
    "C105_hook",
    "C105_warnings_failed",
    "C105_filter_refuted",
    "C105_silenced_refuted",
    "C105_no_root_refuted",
    "C105_order_refuted",
    "C105_twice_refuted",
    "C105_again_refuted",
    "C105_lost_refuted",
    "C105_logged_refuted",
    "C105_late_filter_refuted",
    "C105_reuse_refuted",
    "C105_no_session"
   ],
   "note": "Proved in full for handlers of users that pass records on. Beside it ten further expectations are refuted: records of the start are neither filtered nor silenced, are lost without a root for logs, are not in order of time, errors of a failing start are on the terminal twice, a failing handler has records written again, a failing start loses the warnings, records of the level of warnings are no warnings of the session, later filters hide earlier warnings, an Application used again repeats the warnings and writes to the old log."
  },
  {
   "property": "C106",
   "status": "proved",
   "theorems": [
    "C106_name",
    "C106_no_index_error",
    "C106_cached",
    "C106_first",
    "C106_not_found",
    "C106_broken",
    "C106_decides",
    "C106_frame",
    "C106_slash",
    "C106_install",
    "C106_native_refuted",
    "C106_package_refuted",
    "C106_left_refuted",
    "C106_place_refuted"
   ],
   "note": "Proved in full. Beside it four further expectations are refuted: an extension failing without a frame of its own, and a module of a package that fails, are reported as missing; an exception other than ImportError leaves the name of a recursive import; a missing extension is taken for a broken one if slash itself lies in a place with a matching name."
  },
  {
   "property": "C107",
   "status": "proved",
   "theorems": [
    "C107_reports",
    "C107_quick",
    "C107_in_time",
    "C107_out",
    "C107_slow",
    "C107_ends",
    "C107_late_refuted",
    "C107_sessions_refuted",
    "C107_masks_refuted",
    "C107_race_refuted",
    "C107_interrupt_refuted"
   ],
   "note": "Proved in full. Beside it five further expectations are refuted: the message may come when the body has ended; message and end may go to different sessions; the end message may mask the exception of the body; a session that ends between the two looks at it kills the thread; after an interrupted wait the message may come after the context was left."
  },
  {
   "property": "C108",
   "status": "proved",
   "theorems": [
    "C108_walk",
    "C108_order",
    "C108_once",
    "C108_wanted",
    "C108_file",
    "C108_file_error",
    "C108_address_error",
    "C108_no_test",
    "C108_test_order",
    "C108_no_path",
    "C108_path",
    "C108_address",
    "C108_gives",
    "C108_list",
    "C108_restored",
    "C108_independent",
    "C108_collected",
    "C108_function_name",
    "C108_hidden_file_refuted",
    "C108_factory_refuted",
    "C108_alias_refuted",
    "C108_function_name_refuted",
    "C108_announced_refuted"
   ],
   "note": "Proved in full. Beside it five further expectations are refuted: hidden files are loaded; a RunnableTestFactory cannot be given to the loader; the name in the module does not decide what is a test; asking for the function name of tests of a class under another name fails; the collection is announced when the imports are over."
  },
  {
   "property": "C109",
   "status": "proved",
   "theorems": [
    "C109_print",
    "C109_coloured",
    "C109_reset",
    "C109_config",
    "C109_below",
    "C109_config_colours",
    "C109_plugins",
    "C109_truth",
    "C109_without",
    "C109_with",
    "C109_filter_refuted",
    "C109_with_refuted",
    "C109_hint_refuted",
    "C109_fails_refuted",
    "C109_error_stream_refuted"
   ],
   "note": "Proved in full; the statements about options and about what will be active for plugins whose names differ when spaces are read as dashes (and, for what becomes active, whose activation does not fail). Beside it five further expectations are refuted: a path shows more than what is below it; the option for an inactive plugin may do nothing; with names that collide the option is about another plugin; list-plugins may fail; the error stream gets colours because of the report stream."
  },
  {
   "property": "C11",
   "status": "partial",
   "theorems": [
    "C11_all_called",
    "C11_raises_the_last",
    "C11_raises_the_first_refuted",
    "C11_others_propagate_at_once"
   ],
   "note": "All callables are called; but the exception raised at the end is the last one, not the first (refuted)."
  },
  {
   "property": "C110",
   "status": "proved",
   "theorems": [
    "C110_locals",
    "C110_globals",
    "C110_attributes",
    "C110_log",
    "C110_added",
    "C110_again",
    "C110_forget_refuted",
    "C110_names_refuted",
    "C110_clash_refuted",
    "C110_text"
   ],
   "note": "Proved in full for local variables with distinct names that do not begin with self and a dot. Beside it three further expectations are refuted: a callback of error_added that raises leaves frames and exception in the error; variables with @ in their name are logged though not remembered; a variable called self.x is overwritten by the attribute."
  },
  {
   "property": "C111",
   "status": "proved",
   "theorems": [
    "C111_sources",
    "C111_previous",
    "C111_handed",
    "C111_shell",
    "C111_durable",
    "C111_saved",
    "C111_last",
    "C111_commit",
    "C111_remote",
    "C111_forgets",
    "C111_resume_refuted",
    "C111_default_refuted",
    "C111_commit_refuted",
    "C111_nothing_refuted",
    "C111_masked_refuted"
   ],
   "note": "Proved in full (what is remembered: if the commits work and the session id is new). Beside it further expectations are refuted: a command that collects nothing makes the next resume without a session id fail; an empty suite file runs the default sources; a saved state can be reported as not saved; a resume that finds no test goes on; the exception of the run is replaced by that of saving."
  },
  {
   "property": "C112",
   "status": "proved",
   "theorems": [
    "C112_signals",
    "C112_waits",
    "C112_never_connected",
    "C112_connected",
    "C112_silent",
    "C112_timeout_refuted",
    "C112_left_refuted",
    "C112_no_window"
   ],
   "note": "Proved in full (the case of all workers connected: while nothing but the signals and one interruption fails). Beside it refuted: a connect timeout ends in ParallelTimeout; no worker outlives a session that ended well."
  },
  {
   "property": "C113",
   "status": "proved",
   "theorems": [
    "C113_servers",
    "C113_number",
    "C113_words",
    "C113_means",
    "C113_which",
    "C113_which_path",
    "C113_goes",
    "C113_again",
    "C113_parent_refuted",
    "C113_verbosity_refuted",
    "C113_words_refuted",
    "C113_stolen_refuted"
   ],
   "note": "Proved in full. Beside it refuted: the parent session cannot be overridden; verbosity reaches the workers; arguments with spaces survive; a tmux session that is not ours is left alone."
  },
  {
   "property": "C114",
   "status": "proved",
   "theorems": [
    "C114_table",
    "C114_rounds",
    "C114_texts",
    "C114_write",
    "C114_connect",
    "C114_stopped",
    "C114_warnings",
    "C114_errors",
    "C114_one_lost_refuted",
    "C114_glued_refuted",
    "C114_no_directory_refuted",
    "C114_local_refuted",
    "C114_log_refuted",
    "C114_fault"
   ],
   "note": "Proved in full. Beside it refuted: one lost sign of life is tolerated; each message is a line of the log; a worker without a directory for errors can report one; a warning is never an exception of the worker that gave it; a failed report of a warning is logged."
  },
  {
   "property": "C115",
   "status": "proved",
   "theorems": [
    "C115_null",
    "C115_fresh",
    "C115_isolated",
    "C115_written",
    "C115_equal",
    "C115_computed",
    "C115_truth",
    "C115_truth_refuted",
    "C115_hash_refuted",
    "C115_session_id_refuted",
    "C115_shared_refuted"
   ],
   "note": "Proved in full. Beside it further expectations are refuted: slash.session is true without a session though it is equal to None; a proxy equal to a text cannot be a key; without a context session_id is an AttributeError; an object both sessions know is not isolated."
  },
  {
   "property": "C116",
   "status": "proved",
   "theorems": [
    "C116_one",
    "C116_marked",
    "C116_failures",
    "C116_times",
    "C116_kept",
    "C116_fatal",
    "C116_fatal_own",
    "C116_not_fatal",
    "C116_once",
    "C116_others",
    "C116_nothing",
    "C116_twice_refuted",
    "C116_both_refuted",
    "C116_late_refuted",
    "C116_shared_refuted",
    "C116_elsewhere_refuted",
    "C116_slots_refuted",
    "C116_skips"
   ],
   "note": "Proved in full. Beside it further expectations are refuted: an exception recorded with add_error() and raised again is recorded twice; one exception can be an error and a failure of one result; a mark as fatal after the capture is lost; an Error is shared by results; a failure handled with its exc_info outside of its except clause is lost; an exception that takes no attributes is recorded as often as it is handled."
  },
  {
   "property": "C117",
   "status": "proved",
   "theorems": [
    "C117_value",
    "C117_info",
    "C117_none",
    "C117_scope",
    "C117_duplicates",
    "C117_twice_refuted",
    "C117_custom_refuted",
    "C117_options_refuted",
    "C117_parameters_refuted",
    "C117_methods_refuted",
    "C117_layers"
   ],
   "note": "Proved in full (a decorator sees a generator unless another decorator is next to it). Beside it further expectations are refuted: a generator decorated twice cannot be used; a decorator below slash.fixture makes the generator the value; options of a second decorator are ignored; parameters with default values and *args are required; methods of one name are not reported."
  },
  {
   "property": "C118",
   "status": "proved",
   "theorems": [
    "C118_components",
    "C118_depth",
    "C118_kept",
    "C118_below",
    "C118_relative",
    "C118_value",
    "C118_home",
    "C118_restored",
    "C118_once",
    "C118_written",
    "C118_colour",
    "C118_fraction_refuted",
    "C118_project_refuted",
    "C118_outside_refuted",
    "C118_empty_refuted",
    "C118_collide_refuted",
    "C118_spec_refuted",
    "C118_no_colour_refuted",
    "C118_unknown"
   ],
   "note": "Proved in full, for values that are normalized (everything but numbers) and numbers without a slash. Beside it further expectations are refuted: a Fraction makes a directory; project_name is used as it is; .. is not changed; an empty first value makes the path absolute; different values may share a file; a field of the context cannot have a specification; a colour None does not take the colour of the level away."
  },
  {
   "property": "C119",
   "status": "proved",
   "theorems": [
    "C119_restored",
    "C119_once",
    "C119_recorded",
    "C119_no_growth",
    "C119_filters_refuted",
    "C119_error_refuted",
    "C119_inner_refuted",
    "C119_overlap_refuted",
    "C119_leave_refuted",
    "C119_subclass",
    "C119_in_front"
   ],
   "note": "The *_refuted theorems are about stronger readings that the code does not satisfy."
  },
  {
   "property": "C12",
   "status": "proved",
   "theorems": [
    "C12_recorded_at_most_once",
    "C12_recorded_by_type",
    "C12_results_are_the_records",
    "C12_global_result_is_the_records"
   ],
   "note": ""
  },
  {
   "property": "C120",
   "status": "proved",
   "theorems": [
    "C120_order",
    "C120_tests_inside",
    "C120_complete",
    "C120_end",
    "C120_end_after",
    "C120_end_refuted",
    "C120_after_refuted",
    "C120_start_refuted",
    "C120_interrupt_refuted"
   ],
   "note": "The *_refuted theorems are about stronger readings that the code does not satisfy."
  },
  {
   "property": "C121",
   "status": "proved",
   "theorems": [
    "C121_asked",
    "C121_runs",
    "C121_skips",
    "C121_avoided",
    "C121_gathered",
    "C121_hidden_refuted",
    "C121_value_refuted",
    "C121_twice_refuted",
    "C121_reason_refuted",
    "C121_truth"
   ],
   "note": "The *_refuted theorems are about stronger readings that the code does not satisfy."
  },
  {
   "property": "C122",
   "status": "proved",
   "theorems": [
    "C122_counts",
    "C122_copy",
    "C122_short",
    "C122_stack",
    "C122_joined",
    "C122_assert_refuted",
    "C122_zero_refuted"
   ],
   "note": "The *_refuted theorems are about stronger readings that the code does not satisfy. Freeing of objects is not modelled."
  },
  {
   "property": "C123",
   "status": "proved",
   "theorems": [
    "C123_same_manager",
    "C123_found",
    "C123_only",
    "C123_values",
    "C123_name",
    "C123_no_underscores",
    "C123_uninstalled",
    "C123_installed",
    "C123_restored",
    "C123_shared_refuted",
    "C123_overwritten_refuted",
    "C123_context_refuted",
    "C123_failed_refuted"
   ],
   "note": "The *_refuted theorems are about stronger readings that the code does not satisfy. Config.extend is confetti's; settings that are dictionaries are left out."
  },
  {
   "property": "C124",
   "status": "proved",
   "theorems": [
    "C124_files",
    "C124_activate",
    "C124_activated",
    "C124_not_started",
    "C124_unknown",
    "C124_saved",
    "C124_unsaved",
    "C124_all",
    "C124_no_data",
    "C124_raised",
    "C124_once_refuted",
    "C124_skipped_refuted",
    "C124_blank_refuted"
   ],
   "note": "The *_refuted theorems are about stronger readings that the code does not satisfy. What the calls of the package do is outside."
  },
  {
   "property": "C125",
   "status": "proved",
   "theorems": [
    "C125_verdict",
    "C125_all_ran",
    "C125_remembered",
    "C125_complete",
    "C125_complete_refuted"
   ],
   "note": "C125_complete_refuted is about the stronger reading that a complete session ran all its tests. What deserialize makes of a reported result is arbitrary."
  },
  {
   "property": "C126",
   "status": "proved",
   "theorems": [
    "C126_by_config",
    "C126_one_group",
    "C126_own_group",
    "C126_by_plugins",
    "C126_title_works",
    "C126_config_title",
    "C126_config_title_refuted"
   ],
   "note": "C126_config_title_refuted is about names with spaces. argparse is outside /repo; its refusal of repeated option strings is modelled."
  },
  {
   "property": "C127",
   "status": "proved",
   "theorems": [
    "C127_bounded",
    "C127_ends",
    "C127_quiet",
    "C127_as_sequential",
    "C127_excluded_refuted",
    "C127_connection_refuted"
   ],
   "note": "The two refutations show that the hypotheses of C127_ends are needed: a test all workers exclude, a hook that raises while a worker connects."
  },
  {
   "property": "C128",
   "status": "proved",
   "theorems": [
    "C128_reported",
    "C128_idle",
    "C128_else",
    "C128_given_up",
    "C128_unheard_refuted",
    "C128_alone_refuted"
   ],
   "note": "The refutations are about the stronger reading that every worker that is down is noticed and reported."
  },
  {
   "property": "C129",
   "status": "proved",
   "theorems": [
    "C129_defined",
    "C129_answers",
    "C129_module",
    "C129_own",
    "C129_name_refuted",
    "C129_builtin_refuted",
    "C129_direct_refuted",
    "C129_none_refuted"
   ],
   "note": "The refutations show that the hypotheses of C129_module are needed, that slash's own hooks can be removed, and that get_hook_by_name does not do what its documentation says."
  },
  {
   "property": "C13",
   "status": "partial",
   "theorems": [
    "C13_swallowed_iff",
    "C13_otherwise_propagates",
    "C13_passthrough_untouched",
    "C13_no_exception_no_effect",
    "C13_swallow_true_never_swallows_partial",
    "C13_documented_refuted"
   ],
   "note": "The exact swallowing rule is proved; the documented clause that SystemExit is never swallowed is refuted when swallow_types contains BaseException/SystemExit."
  },
  {
   "property": "C130",
   "status": "proved",
   "theorems": [
    "C130_unset",
    "C130_link",
    "C130_template",
    "C130_fails",
    "C130_no_logs_refuted",
    "C130_absolute_refuted",
    "C130_empty_refuted"
   ],
   "note": "The refutations are about stronger readings: tests without logs are left alone, links are relative to the archive, an empty variable counts as not set."
  },
  {
   "property": "C131",
   "status": "proved",
   "theorems": [
    "C131_colored",
    "C131_string",
    "C131_percent",
    "C131_write",
    "C131_compound_refuted",
    "C131_newline_refuted",
    "C131_methods_refuted"
   ],
   "note": "The refutations are about stronger readings: sums are coloured by Formatter.write, strings are written alike to terminals and files, sums can be formatted."
  },
  {
   "property": "C132",
   "status": "proved",
   "theorems": [
    "C132_theme",
    "C132_black_refuted"
   ],
   "note": "The refutation: black is lost on a light background."
  },
  {
   "property": "C133",
   "status": "proved",
   "theorems": [
    "C133_logs",
    "C133_duration",
    "C133_listings",
    "C133_repr",
    "C133_numbers",
    "C133_negative_refuted",
    "C133_running_refuted",
    "C133_sum_refuted"
   ],
   "note": "The refutations are about stronger readings of the duration."
  },
  {
   "property": "C134",
   "status": "proved",
   "theorems": [
    "C134_shell",
    "C134_lower",
    "C134_colors",
    "C134_namespace",
    "C134_hidden_refuted",
    "C134_interrupt_refuted"
   ],
   "note": "The refutations are about stronger readings."
  },
  {
   "property": "C135",
   "status": "proved",
   "theorems": [
    "C135_discover",
    "C135_others_refuted"
   ],
   "note": "The refutation: a broken plugin file keeps the others from being loaded."
  },
  {
   "property": "C136",
   "status": "proved",
   "theorems": [
    "C136_ends",
    "C136_row",
    "C136_messages",
    "C136_errors",
    "C136_debugger",
    "C136_notify",
    "C136_lost_refuted",
    "C136_glued_refuted",
    "C136_full_refuted"
   ],
   "note": "The refutations are about stronger readings: the line in progress is drawn again after a message, a message has a row of its own on other terminals, and for lines in progress that fill their row."
  },
  {
   "property": "C137",
   "status": "proved",
   "theorems": [
    "C137_progress",
    "C137_end",
    "C137_narrow_refuted",
    "C137_line_refuted"
   ],
   "note": "The refutations are about narrow terminals and rows in which something stood before."
  },
  {
   "property": "C138",
   "status": "proved",
   "theorems": [
    "C138_duration",
    "C138_no_error",
    "C138_counts",
    "C138_planned",
    "C138_host",
    "C138_again_refuted",
    "C138_interactive_refuted",
    "C138_host_refuted"
   ],
   "note": "The refutations are about sessions started again, the interactive test, and the host name kept by the class."
  },
  {
   "property": "C139",
   "status": "proved",
   "theorems": [
    "C139_dump",
    "C139_equal",
    "C139_hidden_refuted"
   ],
   "note": "The refutation: variations that are not equal can be written alike."
  },
  {
   "property": "C14",
   "status": "proved",
   "theorems": [
    "C14_success_iff",
    "C14_one_bad_result"
   ],
   "note": ""
  },
  {
   "property": "C140",
   "status": "proved",
   "theorems": [
    "C140_value",
    "C140_end",
    "C140_end_at_yield",
    "C140_bad_end",
    "C140_no_value",
    "C140_called",
    "C140_only_two",
    "C140_generated",
    "C140_run",
    "C140_generator_raises",
    "C140_use",
    "C140_cleanup_refuted",
    "C140_masked_refuted",
    "C140_empty_refuted",
    "C140_no_values_refuted"
   ],
   "note": "The refutations: cleanups of a fixture whose generator ends badly are not called; exceptions of cleanups hide that of the fixture; generators without values."
  },
  {
   "property": "C141",
   "status": "proved",
   "theorems": [
    "C141_line",
    "C141_code",
    "C141_no_code",
    "C141_unreadable",
    "C141_in_test",
    "C141_breaks",
    "C141_shown",
    "C141_wrapped_refuted",
    "C141_directory_refuted",
    "C141_form_feed_refuted"
   ],
   "note": "The refutations are about stronger readings: wrappers made with functools.wraps, relative file names after a change of the directory, characters other than newlines that split lines."
  },
  {
   "property": "C142",
   "status": "proved",
   "theorems": [
    "C142_result",
    "C142_numbers",
    "C142_success",
    "C142_failure",
    "C142_failure_refuted",
    "C142_global_refuted"
   ],
   "note": "The refutations are about stronger readings: that every failed session shows an error somewhere, and that errors outside of tests have a section in the summary."
  },
  {
   "property": "C143",
   "status": "proved",
   "theorems": [
    "C143_nothing_left",
    "C143_success",
    "C143_failure",
    "C143_failure_refuted",
    "C143_skipped_refuted",
    "C143_failed_only_refuted"
   ],
   "note": "The refutations are about stronger readings: that a failed session always has something to resume, that a successful one has nothing, that --failed-only runs all tests with errors."
  },
  {
   "property": "C144",
   "status": "proved",
   "theorems": [
    "C144_served",
    "C144_same",
    "C144_never_more",
    "C144_complete",
    "C144_verdict",
    "C144_stopped",
    "C144_outside_refuted",
    "C144_fatal_outside_refuted",
    "C144_complete_refuted"
   ],
   "note": "The refutations are about stronger readings: that both stop on errors outside of tests, that fatal errors outside of tests stop them, that both agree on being complete."
  },
  {
   "property": "C145",
   "status": "proved",
   "theorems": [
    "C145_program",
    "C145_settings",
    "C145_parser",
    "C145_usable",
    "C145_slash_run",
    "C145_again_refuted",
    "C145_callback_refuted",
    "C145_name_refuted",
    "C145_embedded_refuted"
   ],
   "note": "The refutations are about stronger readings: that an application can be used again as it was set up, that a reporter set by app_callback is used by the session, that the usage depends on the arguments of the application, that it can be made without sys.argv."
  },
  {
   "property": "C146",
   "status": "proved",
   "theorems": [
    "C146_summary",
    "C146_tells",
    "C146_succeeded",
    "C146_failed",
    "C146_number",
    "C146_sent",
    "C146_failed_refuted",
    "C146_number_refuted",
    "C146_sum_refuted"
   ],
   "note": "The refutations are about stronger readings: that of a failed session tests are always counted as not successful, that the count is one of tests, that the numbers of the summary add up."
  },
  {
   "property": "C147",
   "status": "proved",
   "theorems": [
    "C147_own",
    "C147_refused",
    "C147_accepted",
    "C147_flags",
    "C147_deep_refuted",
    "C147_args_refuted",
    "C147_kwargs_refuted",
    "C147_shown_refuted"
   ],
   "note": "The refutations are about stronger readings: that arguments are copied deeply, that args and kwargs of the wrong kind are refused, that how an argument is shown does not matter."
  },
  {
   "property": "C148",
   "status": "proved",
   "theorems": [
    "C148_same",
    "C148_when",
    "C148_path",
    "C148_all_refuted"
   ],
   "note": "C148_same: the computation is the one of C26, which does not keep the path. The refutation is about a stronger reading: that every fixture shown is on the cycle."
  },
  {
   "property": "C149",
   "status": "proved",
   "theorems": [
    "C149_never",
    "C149_decorated",
    "C149_swallowed",
    "C149_through",
    "C149_reported",
    "C149_class_refuted",
    "C149_settable_refuted",
    "C149_client_refuted"
   ],
   "note": "For exceptions that accept attributes and a client that does not raise, as the hypotheses of the theorems say. The refutations are about stronger readings: a decorated class, exceptions that do not accept attributes, a client that raises."
  },
  {
   "property": "C15",
   "status": "partial",
   "theorems": [
    "C15_every_test_counted_refuted",
    "C15_counted_once_refuted",
    "C15_counters_partial",
    "C15_numbers_add_up_partial",
    "C15_what_is_counted"
   ],
   "note": "Refuted: interrupted tests are in no counter and a skipped test that did not start is counted twice with the default arguments; exact counter contents proved."
  },
  {
   "property": "C150",
   "status": "proved",
   "theorems": [
    "C150_collected",
    "C150_accepted",
    "C150_later_refuted",
    "C150_reason_refuted",
    "C150_inherited_refuted"
   ],
   "note": "The refutations are about stronger readings: that skip_all has an effect on tests that are already collected, that every skip has a reason, that abstractness is inherited."
  },
  {
   "property": "C151",
   "status": "proved",
   "theorems": [
    "C151_noted",
    "C151_shown",
    "C151_row",
    "C151_returns",
    "C151_plain",
    "C151_glued_refuted",
    "C151_failing_refuted"
   ],
   "note": "The refutations are about stronger readings: that records never share a row with the line in progress, that the line is on the screen again after a record that cannot be formatted. The terminal is that of Terminal.v; that logbook writes the formatted text and a newline is assumed."
  },
  {
   "property": "C152",
   "status": "proved",
   "theorems": [
    "C152_marks",
    "C152_class_refuted"
   ],
   "note": "Over the marks of Marks.v (C51). Corrections are natural numbers. The marks are put on exceptions, not on classes; the refutation shows that marks of a class are those of its exceptions."
  },
  {
   "property": "C153",
   "status": "proved",
   "theorems": [
    "C153_found",
    "C153_called",
    "C153_scope_refuted",
    "C153_none_raised",
    "C153_failed"
   ],
   "note": "Fixtures that are active are taken to be valid (C28 to C30, in FixtureLife, have changes of variations); parameters are left out. The refutation is about the same without a session."
  },
  {
   "property": "C16",
   "status": "proved",
   "theorems": [
    "C16_second_refused",
    "C16_create",
    "C16_one_per_test",
    "C16_results_are_separate",
    "C16_by_number",
    "C16_in_a_session",
    "C16_no_number"
   ],
   "note": ""
  },
  {
   "property": "C17",
   "status": "proved",
   "theorems": [
    "C17_start_end_paired"
   ],
   "note": ""
  },
  {
   "property": "C18",
   "status": "proved",
   "theorems": [
    "C18_summary_matches_result",
    "C18_at_most_one_summary",
    "C18_exactly_one_summary"
   ],
   "note": ""
  },
  {
   "property": "C19",
   "status": "proved",
   "theorems": [
    "C19_executed_tests_form_a_prefix",
    "C19_one_result_per_test"
   ],
   "note": "One result per test when no exception escapes run_tests (and outside parallel workers)."
  },
  {
   "property": "C20",
   "status": "proved",
   "theorems": [
    "C20_no_test_starts_after_stop",
    "C20_otherwise_complete"
   ],
   "note": "After the last test has a fatal error the session is not marked complete although all tests ran (DESIGN findings)."
  },
  {
   "property": "C21",
   "status": "proved",
   "theorems": [
    "C21_context_restored",
    "C21_context_restored_after_all_tests"
   ],
   "note": ""
  },
  {
   "property": "C22",
   "status": "partial",
   "theorems": [
    "C22_files_balanced_refuted",
    "C22_files_balanced_partial"
   ],
   "note": "Refuted: a run stopped at the last test of a file reports its end twice. All other deviations excluded by the partial theorem."
  },
  {
   "property": "C23",
   "status": "proved",
   "theorems": [
    "C23_transparent",
    "C23_next_yields_the_items"
   ],
   "note": ""
  },
  {
   "property": "C24",
   "status": "proved",
   "theorems": [
    "C24_numbered_in_order",
    "C24_no_gaps",
    "C24_second_index_refused"
   ],
   "note": ""
  },
  {
   "property": "C25",
   "status": "proved",
   "theorems": [
    "C25_innermost",
    "C25_by_history",
    "C25_siblings",
    "C25_arguments",
    "C25_unbalanced"
   ],
   "note": ""
  },
  {
   "property": "C26",
   "status": "proved",
   "theorems": [
    "C26_cycles",
    "C26_self",
    "C26_no_self",
    "C26_asking"
   ],
   "note": ""
  },
  {
   "property": "C27",
   "status": "proved",
   "theorems": [
    "C27_scopes",
    "C27_rejected"
   ],
   "note": ""
  },
  {
   "property": "C28",
   "status": "partial",
   "theorems": [
    "C28_cached",
    "C28_computed",
    "C28_same_parameters",
    "C28_after_scope",
    "C28_terminates",
    "C28_live_partial",
    "C28_live_refuted",
    "C28_after_scope_interrupted_refuted"
   ],
   "note": "Caching, recomputation after a relevant parameter change and after a scope end are proved for every history. Refuted: after the end of a scope during an interruption the old value is still used; and a cached value can have been computed from a fixture value that was torn down since."
  },
  {
   "property": "C29",
   "status": "partial",
   "theorems": [
    "C29_scope_end",
    "C29_session_once",
    "C29_session_order",
    "C29_dependents_first_partial",
    "C29_dependents_first_refuted",
    "C29_interrupted_refuted",
    "C29_session_torn",
    "C29_session_within"
   ],
   "note": "Order and completeness of each scope end are proved for every history (finalizers not raising skips or interruptions). That dependents go first is refuted for recomputed fixtures and after interruptions, and proved for all other executions."
  },
  {
   "property": "C30",
   "status": "partial",
   "theorems": [
    "C30_order",
    "C30_all_run_partial",
    "C30_teardown",
    "C30_all_torn_partial",
    "C30_all_run_refuted"
   ],
   "note": "Refuted: a raising finalizer keeps the ones registered before it from running."
  },
  {
   "property": "C31",
   "status": "proved",
   "theorems": [
    "C31_needed",
    "C31_wide_scopes_first",
    "C31_every_combination_once",
    "C31_nothing_parametrized",
    "C31_no_values",
    "C31_cartesian_dicts"
   ],
   "note": ""
  },
  {
   "property": "C32",
   "status": "partial",
   "theorems": [
    "C32_only_excluded",
    "C32_exactly_excluded_partial",
    "C32_all_excluded_refuted",
    "C32_names_as_list_refuted",
    "C32_errors"
   ],
   "note": "Skipped variations always have a matching rule; the converse holds when a function has no two rules for the same names and names are not given as a list; refuted otherwise."
  },
  {
   "property": "C33",
   "status": "proved",
   "theorems": [
    "C33_given_once",
    "C33_given_on_request"
   ],
   "note": "for arbitrary sequences of calls, not only those of well-behaved workers"
  },
  {
   "property": "C34",
   "status": "proved",
   "theorems": [
    "C34_no_test_lost",
    "C34_results"
   ],
   "note": "for every schedule of worker steps, deaths, timeouts, interruptions; workers follow the program of worker.py"
  },
  {
   "property": "C35",
   "status": "proved",
   "theorems": [
    "C35_agreement",
    "C35_refused",
    "C35_accepted"
   ],
   "note": ""
  },
  {
   "property": "C36",
   "status": "partial",
   "theorems": [
    "C36_restrictions",
    "C36_consistent",
    "C36_forced_late_refuted",
    "C36_forced_object_refuted",
    "C36_requests",
    "C36_objects"
   ],
   "note": "Proved for restrictions made before the server is created and given by index. Refuted: force_test called from before_worker_start has no effect; force_test given a test object affects another test if sorting changed the order."
  },
  {
   "property": "C37",
   "status": "partial",
   "theorems": [
    "C37_one_result",
    "C37_late_report_refuted",
    "C37_no_internal_error_partial"
   ],
   "note": "Exactly one result is proved; that a late report causes no internal error is refuted, and proved if workers are reported as failed only once they are gone."
  },
  {
   "property": "C38",
   "status": "partial",
   "theorems": [
    "C38_same_description",
    "C38_same_position_partial",
    "C38_same_position_refuted"
   ],
   "note": "Refuted: descriptions leave out the class name, so methods of the same name in two classes of a file are confused."
  },
  {
   "property": "C39",
   "status": "partial",
   "theorems": [
    "C39_selection",
    "C39_saved_and_read",
    "C39_clean_keeps",
    "C39_resume_partial",
    "C39_resume_refuted",
    "C39_found",
    "C39_once_refuted",
    "C39_last",
    "C39_variation",
    "C39_sessions",
    "C39_all_sessions"
   ],
   "note": "Selection by the switches and the order are proved for every saved state; exactly-the-unsuccessful-tests end to end is proved when tests without a result have distinct addresses; refuted otherwise (tests without result that share an address collapse into one saved row, so one is never resumed), and a repeated test is resumed once per copy."
  },
  {
   "property": "C40",
   "status": "partial",
   "theorems": [
    "C40_status",
    "C40_status_only",
    "C40_rows_sound",
    "C40_rows_complete",
    "C40_one_row_partial",
    "C40_one_row_refuted"
   ],
   "note": "The status of every row is the deserved one; one row per collected test when result-less tests have distinct addresses, refuted otherwise."
  },
  {
   "property": "C41",
   "status": "proved",
   "theorems": [
    "C41_order",
    "C41_number",
    "C41_sorted_and_stable",
    "C41_interactive_first"
   ],
   "note": ""
  },
  {
   "property": "C42",
   "status": "proved",
   "theorems": [
    "C42_parsing_terminates",
    "C42_boolean_semantics",
    "C42_plain_text",
    "C42_characters",
    "C42_filters_are_conjoined",
    "C42_every_expression_has_a_text"
   ],
   "note": ""
  },
  {
   "property": "C43",
   "status": "partial",
   "theorems": [
    "C43_function_tags",
    "C43_method_tags",
    "C43_two_values_conflict_partial",
    "C43_two_values_conflict_method_partial",
    "C43_order_independent_refuted",
    "C43_conflict_has_a_reason"
   ],
   "note": "Exact tag sets proved; a tag without a value next to a tag with a value conflicts in one order only (refuted)."
  },
  {
   "property": "C44",
   "status": "partial",
   "theorems": [
    "C44_filters_are_conjoined",
    "C44_nothing_missing",
    "C44_comments_ignored",
    "C44_repeats_partial",
    "C44_repeats_refuted",
    "C44_self_inclusion_never_ends",
    "C44_malformed_iff",
    "C44_malformed_refused",
    "C44_files",
    "C44_malformed_kind"
   ],
   "note": "Refuted: the repeat count of a line naming another suite file is ignored."
  },
  {
   "property": "C45",
   "status": "partial",
   "theorems": [
    "C45_future_partial",
    "C45_refuted",
    "C45_names"
   ],
   "note": "Proved for plugins whose activate/deactivate succeed and whose names stay distinct when spaces are read as dashes; refuted for two plugins named 'a b' and 'a-b'."
  },
  {
   "property": "C46",
   "status": "partial",
   "theorems": [
    "C46_restored_partial",
    "C46_refuted",
    "C46_object_refuted",
    "C46_failing_refuted"
   ],
   "note": "Proved (installed objects and active set) for well-behaved plugins with distinct command-line names and any body; refuted for colliding names, for a plugin installed over another of the same name, and when deactivate() raises at exit."
  },
  {
   "property": "C47",
   "status": "partial",
   "theorems": [
    "C47_registrations_partial",
    "C47_double_refuted",
    "C47_replaced_refuted",
    "C47_lambda_refuted",
    "C47_noop_refuted"
   ],
   "note": "Proved for all calls that never activate an active plugin, including failing ones; refuted for double activation, replacement under the same name, the token-less session_start lambda and no-op registrations of a refused plugin."
  },
  {
   "property": "C48",
   "status": "partial",
   "theorems": [
    "C48_matches",
    "C48_suppressed_partial",
    "C48_recorded",
    "C48_falsy_refuted",
    "C48_leak_refuted",
    "C48_noargs_refuted",
    "C48_empty"
   ],
   "note": "A filter matches iff every given (truthy) field agrees, and the list in force is that of the enclosing contexts when they are left normally; refuted for falsy fields (line 0, empty text), for contexts left by an exception, and for warning objects without arguments."
  },
  {
   "property": "C49",
   "status": "proved",
   "theorems": [
    "C49_restored",
    "C49_others_untouched",
    "C49_body_kept",
    "C49_applied"
   ],
   "note": "Configuration leaves only; conversion of values (confetti) is an arbitrary partial function; objects mutated in place by the body are not modelled."
  },
  {
   "property": "C50",
   "status": "proved",
   "theorems": [
    "C50_nearest",
    "C50_cache_irrelevant",
    "C50_get_dict"
   ],
   "note": "For a file system that does not change during the run and deterministic imports; within one slashconf directory the last file in os.walk order wins."
  },
  {
   "property": "C51",
   "status": "partial",
   "theorems": [
    "C51_instance",
    "C51_lookup",
    "C51_marked",
    "C51_class_partial",
    "C51_object_partial",
    "C51_class_refuted",
    "C51_object_refuted",
    "C51_lookup_refuted"
   ],
   "note": "Proved for exception instances, and for classes/objects that have marks of their own or inherit none; refuted for a subclass of a marked exception class (the base's dictionary is changed), for slash.marks on instances of marked classes, and for lookups on classes (an empty dictionary is stored and hides another base's marks)."
  },
  {
   "property": "C52",
   "status": "proved",
   "theorems": [
    "C52_null_context_at_the_bottom",
    "C52_pop_at_the_bottom",
    "C52_balanced",
    "C52_writes_touch_the_top_only",
    "C52_last_written",
    "C52_never_written"
   ],
   "note": ""
  },
  {
   "property": "C53",
   "status": "partial",
   "theorems": [
    "C53_bounded",
    "C53_lines",
    "C53_untouched",
    "C53_whole_line_refuted",
    "C53_repr",
    "C53_breaks"
   ],
   "note": "Proved for the message part of the console output and for values in tracebacks; refuted for the whole console line, which the format string's time stamp makes longer."
  },
  {
   "property": "C54",
   "status": "partial",
   "theorems": [
    "C54_kept_partial",
    "C54_cleanup_off",
    "C54_session_log",
    "C54_refuted"
   ],
   "note": "Proved for log files used by one test only (file present with the test's log iff not to be deleted); refuted when a later successful test logs to the same path."
  },
  {
   "property": "C55",
   "status": "proved",
   "theorems": [
    "C55_iteration",
    "C55_one_per_item"
   ],
   "note": ""
  },
  {
   "property": "C56",
   "status": "partial",
   "theorems": [
    "C56_exit_code_refuted",
    "C56_exit_code_partial"
   ],
   "note": "Refuted by sys.exit(0) in a test; holds in all other cases."
  },
  {
   "property": "C57",
   "status": "partial",
   "theorems": [
    "C57_error_reported_refuted",
    "C57_error_reported_partial"
   ],
   "note": "Refuted when the result also has a skip; holds otherwise."
  },
  {
   "property": "C58",
   "status": "proved",
   "theorems": [
    "C58_recorded_where_registered"
   ],
   "note": ""
  },
  {
   "property": "C59",
   "status": "partial",
   "theorems": [
    "C59_interrupted_refuted",
    "C59_interrupted_partial"
   ],
   "note": "Refuted: only test results are looked at, an interruption recorded on the session result is not seen."
  },
  {
   "property": "C60",
   "status": "partial",
   "theorems": [
    "C60_malformed_rejected_refuted",
    "C60_malformed_rejected_partial"
   ],
   "note": "Refuted: text after the longest expression is silently ignored ('x y' is read as 'x'). Only texts with no expression at the start are rejected."
  },
  {
   "property": "C61",
   "status": "partial",
   "theorems": [
    "C61_tagging_is_local_refuted",
    "C61_tagging_is_local_partial",
    "C61_tagged"
   ],
   "note": "Refuted: tagging a subclass changes the tags of its base class."
  },
  {
   "property": "C62",
   "status": "partial",
   "theorems": [
    "C62_extraction_ends",
    "C62_each_file_once_refuted",
    "C62_each_file_once_partial",
    "C62_same_files"
   ],
   "note": "Refuted: files in nested directories are used more than once."
  },
  {
   "property": "C63",
   "status": "proved",
   "theorems": [
    "C63_ids_distinct",
    "C63_ids_distinct_across_workers"
   ],
   "note": ""
  },
  {
   "property": "C64",
   "status": "proved",
   "theorems": [
    "C64_address_selects",
    "C64_no_such_test",
    "C64_whole_file"
   ],
   "note": ""
  },
  {
   "property": "C65",
   "status": "partial",
   "theorems": [
    "C65_after_interruption_partial",
    "C65_after_interruption_refuted"
   ],
   "note": "Refuted: the last worker connecting after the interruption makes the server serve tests again; proved if no worker connects afterwards."
  },
  {
   "property": "C66",
   "status": "proved",
   "theorems": [
    "C66_stops",
    "C66_refused"
   ],
   "note": ""
  },
  {
   "property": "C67",
   "status": "proved",
   "theorems": [
    "C67_all_accounted"
   ],
   "note": ""
  },
  {
   "property": "C68",
   "status": "proved",
   "theorems": [
    "C68_no_more",
    "C68_sent_away"
   ],
   "note": ""
  },
  {
   "property": "C69",
   "status": "partial",
   "theorems": [
    "C69_partial",
    "C69_refuted"
   ],
   "note": "Proved when no exception escapes from the teardown of a module or session scope, for tests that have a module; refuted when a module cleanup raises a skip."
  },
  {
   "property": "C70",
   "status": "partial",
   "theorems": [
    "C70_alternate",
    "C70_started_partial",
    "C70_ended_partial",
    "C70_started_refuted",
    "C70_ended_refuted",
    "C70_skip_refuted",
    "C70_end_without_start_refuted",
    "C70_callbacks",
    "C70_set_up",
    "C70_called"
   ],
   "note": "Alternation (never two starts without an end) proved for all tests; that every test starts and ends every active fixture is proved when test_end callbacks raise ordinary errors only and the fixtures of after can be computed; refuted otherwise: test_start is silently skipped in the following test."
  },
  {
   "property": "C71",
   "status": "partial",
   "theorems": [
    "C71_after_partial",
    "C71_before_failed",
    "C71_order",
    "C71_recorded",
    "C71_outcome_partial",
    "C71_interruption_refuted",
    "C71_after_refuted"
   ],
   "note": "Order, at-most-once and recording proved in general; that after is called needs its fixtures to be computable; an interruption in the method is lost if after raises an ordinary exception (refuted)."
  },
  {
   "property": "C72",
   "status": "partial",
   "theorems": [
    "C72_added",
    "C72_no_leak",
    "C72_fixed",
    "C72_inherited_partial",
    "C72_inherited_refuted",
    "C72_late_refuted"
   ],
   "note": "Inheritance proved for single inheritance with bases decorated first; refuted for several bases and for bases decorated later."
  },
  {
   "property": "C73",
   "status": "partial",
   "theorems": [
    "C73_exact_partial",
    "C73_unexpected_refuted",
    "C73_value_refuted"
   ],
   "note": "Proved when no name that use_fixtures brings in is a substring of an argument's real name or name; refuted otherwise: unexpected keyword arguments, and an alias receiving another fixture."
  },
  {
   "property": "C74",
   "status": "partial",
   "theorems": [
    "C74_considered_partial",
    "C74_only",
    "C74_terminates",
    "C74_considered_refuted",
    "C74_indirect_refuted"
   ],
   "note": "Proved when use_fixtures is not used; refuted for fixtures used with use_fixtures, whose requirements are not considered."
  },
  {
   "property": "C75",
   "status": "partial",
   "theorems": [
    "C75_added",
    "C75_others_partial",
    "C75_others_refuted"
   ],
   "note": "Proved unless two functions were given the same list object; refuted then."
  },
  {
   "property": "C76",
   "status": "partial",
   "theorems": [
    "C76_released_partial",
    "C76_quit_partial",
    "C76_unwind_all",
    "C76_released_refuted",
    "C76_activation_refuted"
   ],
   "note": "Proved when session logs and warnings can be activated and neither the releases, nor the summary and the report raise, and debugging raises ordinary errors only; refuted otherwise: a result_summary handler that raises leaves everything unreleased."
  },
  {
   "property": "C77",
   "status": "partial",
   "theorems": [
    "C77_zero_partial",
    "C77_success",
    "C77_zero_refuted",
    "C77_set_refuted",
    "C77_interrupted_partial",
    "C77_interrupted_refuted",
    "C77_assertion_refuted",
    "C77_exit"
   ],
   "note": "Status 0 only for success is proved when no SystemExit is raised and no exit code set; refuted for SystemExit(None), exit code 256; the interrupted flag is lost when saving the resume state fails."
  },
  {
   "property": "C78",
   "status": "partial",
   "theorems": [
    "C78_restored",
    "C78_not_recorded",
    "C78_expected_not_recorded_partial",
    "C78_recorded_once",
    "C78_others_recorded",
    "C78_assert_raises_partial",
    "C78_allowing_partial",
    "C78_nested_restored",
    "C78_nested_during",
    "C78_old_refuted",
    "C78_leak_refuted"
   ],
   "note": "Proved for handling contexts made inside the block and properly nested blocks; refuted for a handling context object made earlier and for blocks that are not nested (types stay ignored)."
  },
  {
   "property": "C79",
   "status": "partial",
   "theorems": [
    "C79_write_partial",
    "C79_writeln",
    "C79_line_begins",
    "C79_restored",
    "C79_write_refuted"
   ],
   "note": "Exact description of the output of write; the newline at the end of a text is lost (refuted). Only newline is a line boundary in the model."
  },
  {
   "property": "C80",
   "status": "partial",
   "theorems": [
    "C80_layout_partial",
    "C80_layout_refuted",
    "C80_left_refuted"
   ],
   "note": "Proved when every frame shows exactly one of globals and locals; refuted otherwise, as dedent is called once per frame."
  },
  {
   "property": "C81",
   "status": "partial",
   "theorems": [
    "C81_attributes",
    "C81_faithful_partial",
    "C81_no_false_success_partial",
    "C81_not_sent",
    "C81_reports",
    "C81_refuted",
    "C81_facts_refuted",
    "C81_raises"
   ],
   "note": "Proved when all attributes can be pickled and unpickled, and each attribute on its own; refuted in general: errors that cannot be pickled are dropped silently, so that a failed test is a success in the parent; facts are never sent."
  },
  {
   "property": "C82",
   "status": "partial",
   "theorems": [
    "C82_set_partial",
    "C82_append_partial",
    "C82_type_error",
    "C82_callback",
    "C82_alias_refuted",
    "C82_copy_refuted"
   ],
   "note": "Proved for code that does not store its own list objects; refuted otherwise: append changes a list object that was set, and all() shares its lists."
  },
  {
   "property": "C83",
   "status": "partial",
   "theorems": [
    "C83_when",
    "C83_quiet",
    "C83_which_partial",
    "C83_which_refuted",
    "C83_warned"
   ],
   "note": "When a debugger is entered: in full. That exactly one is started is proved for debuggers that do not raise NotImplementedError once started, refuted otherwise."
  },
  {
   "property": "C84",
   "status": "partial",
   "theorems": [
    "C84_cases",
    "C84_details",
    "C84_worker",
    "C84_header_partial",
    "C84_written",
    "C84_missing_refuted",
    "C84_kind_refuted",
    "C84_empty_refuted"
   ],
   "note": "The tests shown: in full. The header agrees if all tests started and the kind of each error is that of its list; refuted otherwise. The report is written iff all reasons of skips and details are of certain types (exact condition), otherwise the file is left empty (refuted)."
  },
  {
   "property": "C85",
   "status": "proved",
   "theorems": [
    "C85_phase_is_the_scope_cleaned_up",
    "C85_is_in_cleanup",
    "C85_not_in_cleanup_after_closing",
    "C85_not_in_cleanup_before_first"
   ],
   "note": "For all sessions and all points at which user code asks."
  },
  {
   "property": "C86",
   "status": "proved",
   "theorems": [
    "C86_each_combination_once",
    "C86_accepted",
    "C86_given_arguments_stay",
    "C86_first_decorator",
    "C86_next_decorator",
    "C86_decorator_raises",
    "C86_toggle",
    "C86_iterate"
   ],
   "note": "For all functions, decorators with distinct names, and values."
  },
  {
   "property": "C87",
   "status": "partial",
   "theorems": [
    "C87_twice_refused_partial",
    "C87_twice_refused_refuted",
    "C87_decorating_is_local_refuted"
   ],
   "note": "Refused only for a single name that is an argument of the function. Refuted otherwise: with several names at once, or a name that is no argument, the second decorator silently replaces the values of the first; decorating a parametrized function changes it in place."
  },
  {
   "property": "C88",
   "status": "partial",
   "theorems": [
    "C88_order",
    "C88_names",
    "C88_printable",
    "C88_addresses",
    "C88_different_values_refuted",
    "C88_labels_partial",
    "C88_labels_refuted"
   ],
   "note": "Exactly when names coincide: when every parameter is shown by the same text. Refuted for different values: 1 and '1', a value shown by name and index and a string equal to that, labels given twice. Labels may end in a newline."
  },
  {
   "property": "C89",
   "status": "partial",
   "theorems": [
    "C89_reach",
    "C89_swallowing",
    "C89_disabled_escapes",
    "C89_handling",
    "C89_handling_refuted",
    "C89_truth"
   ],
   "note": "Exact condition for nests of get_exception_swallowing_context, disable_exception_swallowing and handling contexts that do not swallow. Refuted for handling_exceptions(swallow=True), which ignores noswallow."
  },
  {
   "property": "C90",
   "status": "partial",
   "theorems": [
    "C90_named_partial",
    "C90_ids",
    "C90_distinct_partial",
    "C90_class_partial",
    "C90_inherited_before_refuted",
    "C90_nofixtures_refuted",
    "C90_autouse_refuted",
    "C90_tuple_refuted"
   ],
   "note": "Proved if a name begins at one object only, all parametrized names are arguments and autouse fixtures meet a function not marked nofixtures. Refuted otherwise: before methods of a class and its base class with the same parametrized name, nofixtures with a parametrized autouse fixture, autouse fixtures of the same name; of a tuple of names in a fixture only one has a name."
  },
  {
   "property": "C91",
   "status": "partial",
   "theorems": [
    "C91_listed",
    "C91_duplicates",
    "C91_exit",
    "C91_fixtures",
    "C91_both",
    "C91_no_params",
    "C91_address",
    "C91_override",
    "C91_every_test_refuted",
    "C91_no_params_refuted",
    "C91_unused_refuted"
   ],
   "note": "Exact for addresses, exit codes, overrides and fixtures that are arguments of tests. Refuted: tests with the same address share a line; --no-params cuts paths with parentheses; fixtures needed only by fixtures are marked as unused."
  },
  {
   "property": "C92",
   "status": "partial",
   "theorems": [
    "C92_handled",
    "C92_restored_partial",
    "C92_twice_refuted",
    "C92_replaced_refuted",
    "C92_activated_twice_refuted",
    "C92_foreign_refuted"
   ],
   "note": "First part proved for all sequences; handlers are set back if every signal is set once per activation and all handlers were set from Python. Refuted otherwise: registering again or activating again while active, handlers not set from Python."
  },
  {
   "property": "C93",
   "status": "partial",
   "theorems": [
    "C93_reported_partial",
    "C93_kind",
    "C93_agree_partial",
    "C93_stored_refuted",
    "C93_agree_refuted"
   ],
   "note": "The session with the assertion equals the one without it whenever the last exception handled before a report was new or had been recorded on that test; refuted for a requirement predicate raising one stored exception for two tests. Kinds agree unless interrupted or failure and skip; refuted for a failed test that is skipped afterwards."
  },
  {
   "property": "C94",
   "status": "partial",
   "theorems": [
    "C94_line",
    "C94_tests_of_file",
    "C94_no_attribute_error",
    "C94_verdict_partial",
    "C94_verdict_refuted",
    "C94_session_cleanup_refuted"
   ],
   "note": "Proved when every error and failure is recorded on the test running at that moment (and on the session only when none runs); refuted by a failing cleanup of a module or the session, which blames the file that runs then."
  },
  {
   "property": "C95",
   "status": "partial",
   "theorems": [
    "C95_escaped",
    "C95_session_end",
    "C95_debugger",
    "C95_debugger_off",
    "C95_outcome_partial",
    "C95_ends_partial",
    "C95_addresses",
    "C95_outcome_refuted",
    "C95_title_refuted",
    "C95_endless_refuted",
    "C95_addresses_refuted"
   ],
   "note": "Who is told what is proved for all configurations and all ordinary failures of deliveries. Refuted: a failed delivery makes the session unsuccessful, a failed delivery with the debugger on never ends, a brace in the host name loses every message, the address of the backslash user is added once per message."
  },
  {
   "property": "C96",
   "status": "partial",
   "theorems": [
    "C96_test_log",
    "C96_console",
    "C96_session_log",
    "C96_once_partial",
    "C96_highlights",
    "C96_once_refuted",
    "C96_silenced_refuted",
    "C96_unified_refuted"
   ],
   "note": "Test log, console and session log are proved for all records and configurations. Refuted: records of the core below the core log level reach user handlers and error capture twice and the terminal of main; silenced loggers are written to a unified session log; the unified session log lacks records of other threads and has records below the core log level."
  },
  {
   "property": "C97",
   "status": "partial",
   "theorems": [
    "C97_user_shown",
    "C97_distilled",
    "C97_whole_stack",
    "C97_cause",
    "C97_added",
    "C97_added_result",
    "C97_added_cause_partial",
    "C97_parametrize",
    "C97_added_cause_refuted",
    "C97_correction_refuted",
    "C97_captured_refuted",
    "C97_iterate_refuted",
    "C97_muted"
   ],
   "note": "Exceptions are proved for all stacks. Added errors are proved except for the outermost frame, which is never recorded (refuted). Refuted too: a correction that leaves no frame brings frames of slash back; error logs captured as errors name slash.log; slash.parameters.iterate names a line of slash."
  },
  {
   "property": "C98",
   "status": "partial",
   "theorems": [
    "C98_headers",
    "C98_told_partial",
    "C98_whole",
    "C98_no_exception_partial",
    "C98_code",
    "C98_warnings_partial",
    "C98_told_refuted",
    "C98_no_exception_refuted",
    "C98_warnings_refuted",
    "C98_details",
    "C98_separators"
   ],
   "note": "The headers, numbers, details and code lines are proved for all results. Refuted: without tracebacks the message of an exception is nowhere; with one frame per traceback an error without frames ends the report with an IndexError, a reason of a skip that is no string with a TypeError; warnings of one place with different messages are told as one."
  },
  {
   "property": "C99",
   "status": "partial",
   "theorems": [
    "C99_box_partial",
    "C99_lsep",
    "C99_in_progress",
    "C99_redraw_partial",
    "C99_duration_partial",
    "C99_box_refuted",
    "C99_redraw_refuted",
    "C99_box_redraw_refuted",
    "C99_duration_refuted"
   ],
   "note": "Refuted: of a headline that is too long the beginning is lost, and one more than twice too long breaks the box; a line that fills its row to the last column is neither blanked nor drawn again; a box is not noted, so the old line is drawn again after it; a negative duration."
  }
 ]
}