{"id": "C01", "title": "Cleanups of a scope run exactly once, last-in first-out", "statement": "When a scope (test, module or session) ends without failure or interruption and no cleanup of it lets a skip or interruption exception escape, every cleanup that was registered on that scope with slash.add_cleanup runs exactly once, and they run in reverse registration order; a cleanup registered by a running cleanup on the same scope runs before the cleanups registered earlier.", "quantifier": "every finite tree of cleanup registrations (cleanups registering cleanups to any depth), every mix of normal returns and ordinary exceptions", "why_tests_cant": "the registration tree is unbounded and chosen by user code; tests only show a few fixed trees", "anchors": ["slash/core/cleanup_manager.py: CleanupManager.add_cleanup, call_cleanups, pop_scope"]}
{"id": "C02", "title": "No cleanup ever runs twice", "statement": "Over a whole session, whatever tests, hooks and cleanups do (including raising any kind of exception), a single add_cleanup registration is executed at most once.", "quantifier": "every user program (test bodies, hooks, cleanups), every exception, every sequence of tests", "why_tests_cant": "needs an invariant over unbounded histories of pushes, pops, registrations and aborts", "anchors": ["slash/core/cleanup_manager.py: CleanupManager", "slash/core/scope_manager.py: ScopeManager", "slash/runner.py: run_tests"]}
{"id": "C03", "title": "On interruption exactly the critical cleanups run; success_only cleanups run only after success", "statement": "At scope end: if the current result is interrupted, the cleanups registered with critical=True run and no other; if it is failed but not interrupted, all but the success_only ones run; otherwise all run.", "quantifier": "every list of cleanups with every flag combination, every result state", "why_tests_cant": "decision table times unbounded cleanup lists", "anchors": ["slash/core/cleanup_manager.py: CleanupManager.call_cleanups, pop_scope, _Cleanup"]}
{"id": "C04", "title": "An ordinary exception in a cleanup never prevents the remaining cleanups", "statement": "If cleanups raise only ordinary exceptions (Exception subclasses other than skips), ending the scope runs the very same cleanups in the same order as if none raised, ends normally, and records each exception as exactly one error or failure on a result.", "quantifier": "every list of cleanups, every subset of them raising", "why_tests_cant": "all subsets of raising cleanups cannot be enumerated", "anchors": ["slash/core/cleanup_manager.py: call_cleanups", "slash/exception_handling.py: handling_exceptions"]}
{"id": "C05", "title": "Critical cleanups always run", "statement": "A cleanup registered with critical=True on a scope that is later ended is executed when that scope ends, whatever the other cleanups of the scope do (expected from 'will take place even when tests are interrupted').", "quantifier": "every list of cleanups with every behaviour, including raising SkipTest or being interrupted by KeyboardInterrupt", "why_tests_cant": "needs all behaviours of all other cleanups", "anchors": ["slash/core/cleanup_manager.py: CleanupManager.call_cleanups, pop_scope"]}
{"id": "C06", "title": "Cleanups go to the scope they name and not earlier", "statement": "A cleanup registered with scope='session'/'module'/'test' runs only when the innermost scope of that name that was open at registration time ends; one registered with no scope runs at the end of the innermost open scope, or, if no scope is open, at the end of the first scope opened afterwards.", "quantifier": "every sequence of scope openings, closings and registrations", "why_tests_cant": "unbounded interleavings of pushes, pops and registrations", "anchors": ["slash/core/cleanup_manager.py: add_cleanup, push_scope, pop_scope"]}
{"id": "C07", "title": "Naming a scope that is not open is reported as IncorrectScope", "statement": "add_cleanup(scope=NAME) with no open scope called NAME raises IncorrectScope and registers nothing.", "quantifier": "every history of scopes opened and closed before the call", "why_tests_cant": "depends on the history of all previous scopes, not only on the current state", "anchors": ["slash/core/cleanup_manager.py: add_cleanup, _scopes_by_name"]}
{"id": "C08", "title": "A success_only cleanup of a scope is skipped when a test of that scope failed", "statement": "A success_only cleanup registered on module or session scope does not run if some test inside that scope had an error or failure ('execute this cleanup only if no errors are encountered').", "quantifier": "every sequence of tests and outcomes in the scope", "why_tests_cant": "the verdict used depends on which test happens to be current when the scope ends", "anchors": ["slash/core/cleanup_manager.py: pop_scope", "slash/core/scope_manager.py: begin_test", "slash/core/session.py: initiate_cleanup"]}
{"id": "C09", "title": "Scopes are well nested and all closed", "statement": "For every run in which no exception escapes from scope teardown, the sequence of scope openings and closings is a well-nested word: session contains modules, a module contains its tests, consecutive tests of one module share one module scope, and after the run every opened scope has been closed exactly once, innermost first.", "quantifier": "every sequence of tests with every assignment of tests to modules", "why_tests_cant": "unbounded sequences of tests and module changes", "anchors": ["slash/core/scope_manager.py: ScopeManager.begin_test, end_test, flush_remaining_scopes"]}
{"id": "C10", "title": "Scope bookkeeping survives exceptions from teardown", "statement": "Whatever exception escapes from the teardown of one scope, later tests still start and end their scopes normally and no internal error is reported.", "quantifier": "every exception kind raised by any module- or test-scope cleanup", "why_tests_cant": "needs all crash points inside scope transitions", "anchors": ["slash/core/scope_manager.py: begin_test, _pop_scope", "slash/core/cleanup_manager.py: pop_scope"]}
{"id": "C11", "title": "Teardown of a scope calls both cleanups and fixtures", "statement": "call_all_raise_first calls every function given to it in order even when earlier ones raise ordinary exceptions, and raises an exception iff some function raised; by its name the exception raised is that of the first failing function.", "quantifier": "every list of functions with every outcome", "why_tests_cant": "all lists and all outcome vectors", "anchors": ["slash/utils/python.py: call_all_raise_first", "slash/core/scope_manager.py: _pop_scope, flush_remaining_scopes"]}
{"id": "C12", "title": "Each exception is recorded exactly once", "statement": "An exception that propagates through any number of nested handling_exceptions blocks (and cleanup wrappers) adds exactly one entry to exactly one result, chosen by its type: failure for AssertionError-like, skip for registered skip types, interruption mark for KeyboardInterrupt/TerminatedException, nothing for GeneratorExit, error for everything else.", "quantifier": "every nesting of handling blocks, every exception type, every mark state", "why_tests_cant": "nesting depth and propagation paths are unbounded", "anchors": ["slash/exception_handling.py: handle_exception, _HandlingException", "slash/core/result.py: Result.add_exception"]}
{"id": "C13", "title": "Swallowing rules of handling_exceptions", "statement": "handling_exceptions swallows an exception exactly when it is not a passthrough type, not a skip type, not an interruption, and is an instance of one of swallow_types (Exception when swallow=True); an exception of a passthrough type is neither handled nor swallowed; without exception the block has no effect. As documented, KeyboardInterrupt, SystemExit and SkipTest are never swallowed.", "quantifier": "every exception type (position in the class hierarchy), every swallow_types/passthrough_types tuple, every set of registered skip types", "why_tests_cant": "class hierarchies and tuples are unbounded", "anchors": ["slash/exception_handling.py: handling_exceptions, _HandlingException.__exit__"]}
{"id": "C14", "title": "Session success is exactly success of every part", "statement": "results.is_success(allow_skips) holds iff the global result was started and has no errors, failures, interruption (and no skips unless allowed), no worker error was reported, and every test result is successful under the same rule; consequently one bad test result anywhere makes the session unsuccessful.", "quantifier": "every collection of results in every state", "why_tests_cant": "quantifies over arbitrarily many results", "anchors": ["slash/core/result.py: Result.is_success, GlobalResult.is_success, SessionResults.is_success"]}
{"id": "C15", "title": "Result counters add up", "statement": "The summary numbers are consistent: for finished runs the numbers successful, skipped, failed, erroneous and not run cover every test, and a test is counted in more than one category only if it really carries several kinds of entries.", "quantifier": "every set of results reachable by a run", "why_tests_cant": "needs an inductive argument over all reachable result states", "anchors": ["slash/core/result.py: SessionResults.get_num_*, Result.is_*"]}
{"id": "C16", "title": "One result per test", "statement": "The session's results table has one result per test id: creating a second result for the same test is refused with an internal error and leaves the table unchanged; lookup returns the result created for that very test; results[i] is the i-th created result.", "quantifier": "every sequence of create/lookup operations", "why_tests_cant": "histories of operations are unbounded", "anchors": ["slash/core/result.py: SessionResults.create_result, get_result, __getitem__"]}
{"id": "C17", "title": "test_start and test_end are paired", "statement": "For every test, the test_end hook fires if and only if the test_start hook fired, exactly once and after it, whatever the test body, hooks, fixtures and cleanups raise; at most one test is between its start and end at any moment.", "quantifier": "every user program for test bodies, hooks and cleanups, every exception including interruptions", "why_tests_cant": "all crash points of all user code", "anchors": ["slash/runner.py: _run_single_test, TestStartEndController"]}
{"id": "C18", "title": "Exactly one summary hook per executed test, matching its result", "statement": "For a test that is executed and not interrupted, exactly one of test_success, test_failure, test_skip, test_error fires, namely the one prescribed by the result's state after the test's scope was closed.", "quantifier": "every test behaviour", "why_tests_cant": "all behaviours and result states", "anchors": ["slash/runner.py: _fire_test_summary_hooks, _run_single_test"]}
{"id": "C19", "title": "After a run every test has exactly one result", "statement": "When run_tests returns, the number of results equals the number of tests given; the tests that were executed form a prefix of the given order, and the remaining ones have a result that is marked not-started.", "quantifier": "every list of tests with distinct ids, every stop point", "why_tests_cant": "quantifies over all lists, outcomes and stop points", "anchors": ["slash/runner.py: run_tests, _mark_unrun_tests", "slash/utils/iteration.py: PeekableIterator"]}
{"id": "C20", "title": "Stopping rules", "statement": "After a test whose result has a fatal error, or (with stop_on_error) after the session became unsuccessful, no further test is started; otherwise every test in the list is executed and the session is marked complete.", "quantifier": "every list of tests and outcomes", "why_tests_cant": "all prefixes and outcomes", "anchors": ["slash/runner.py: run_tests"]}
{"id": "C21", "title": "The current-test context is restored", "statement": "After each test, context.test, context.test_id and context.result have the values they had before the test, on normal return as well as when any exception propagates.", "quantifier": "every behaviour of test, hooks and cleanups, every exception", "why_tests_cant": "all exits of nested context managers", "anchors": ["slash/runner.py: _get_test_context, _set_current_test_context, TestStartEndController.end"]}
{"id": "C22", "title": "File start/end reports are balanced", "statement": "During run_tests, the reporter sees report_file_start(f) and report_file_end(f) as a balanced bracket sequence: each start is followed by exactly one end of the same file before the next start.", "quantifier": "every list of tests with every assignment to files and every stop point", "why_tests_cant": "depends on where in the file grouping the run stops", "anchors": ["slash/runner.py: run_tests"]}
{"id": "C23", "title": "PeekableIterator is transparent", "statement": "Iterating a PeekableIterator yields exactly the items of the underlying iterable in order, however peek, peek_or_none and has_next calls are interleaved; peek returns what the following next returns; has_next is true iff next would not raise StopIteration.", "quantifier": "every underlying sequence, every interleaving of calls", "why_tests_cant": "interleavings are unbounded", "anchors": ["slash/utils/iteration.py: PeekableIterator"]}
{"id": "C24", "title": "Test numbering", "statement": "Within a session the tests started by run_tests get indices 0,1,2,... without gaps or repeats, and a test whose index is already set is refused.", "quantifier": "every list of tests, every number of run_tests calls in the session", "why_tests_cant": "unbounded histories", "anchors": ["slash/runner.py: _set_test_metadata", "slash/core/session.py: test_index_counter"]}
{"id": "C25", "title": "Fixture names resolve to the innermost definition", "statement": "A fixture name used in a test resolves to the definition in the innermost enclosing namespace (file before directory configuration before global) and to UnknownFixtures/LookupError exactly when no enclosing namespace defines it; definitions in sibling namespaces never affect it.", "quantifier": "every tree of namespaces and definitions", "why_tests_cant": "unbounded nesting and definition sets", "anchors": ["slash/core/fixtures/namespace.py: Namespace.get_fixture_by_name, add_name", "slash/core/fixtures/fixture_store.py: push_namespace, pop_namespace"]}
{"id": "C26", "title": "Cyclic fixture dependencies are always and only then rejected", "statement": "Collecting the fixtures needed by a test terminates; it raises CyclicFixtureDependency iff some fixture reachable from the test depends on itself through a chain, and otherwise yields exactly the parametrizations reachable from it, each once.", "quantifier": "every finite dependency graph", "why_tests_cant": "graphs are unbounded", "anchors": ["slash/core/fixtures/fixture_store.py: get_all_needed_fixture_ids, _compute_all_needed_parametrization_ids", "slash/core/fixtures/fixture.py: _resolve"]}
{"id": "C27", "title": "A fixture never depends on a narrower scope", "statement": "After successful resolution, every (transitive) dependency of a module- or session-scoped fixture has a scope at least as wide; otherwise InvalidFixtureScope is raised.", "quantifier": "every finite set of fixture definitions with scopes", "why_tests_cant": "unbounded dependency chains", "anchors": ["slash/core/fixtures/fixture.py: Fixture._resolve", "slash/core/fixtures/utils.py: get_scope_by_name"]}
{"id": "C28", "title": "Fixtures are initialised at most once per scope and parametrization", "statement": "While a scope stays open and the variation does not change, every request for a fixture of that scope yields the same value and its function is called once; after the scope ended or a relevant parameter changed it is recomputed.", "quantifier": "every sequence of tests, variations, fixture requests and scope ends", "why_tests_cant": "histories are unbounded", "anchors": ["slash/core/fixtures/fixture_store.py: _compute_fixture_value, _is_active_fixture_valid, pop_scope"]}
{"id": "C29", "title": "Fixture teardown order", "statement": "When a scope ends, its active fixtures are torn down in reverse order of activation, so a fixture is torn down before the fixtures it depends on, each exactly once.", "quantifier": "every dependency graph and activation history", "why_tests_cant": "unbounded graphs and histories", "anchors": ["slash/core/fixtures/fixture_store.py: pop_scope, _call_fixture, _deactivate_fixture", "slash/core/fixtures/active_fixture.py: ActiveFixture"]}
{"id": "C30", "title": "All finalizers of a fixture run", "statement": "Every finalizer registered with this.add_cleanup in a fixture runs when the fixture is torn down, whatever the other finalizers do.", "quantifier": "every list of finalizers and outcomes", "why_tests_cant": "all outcome vectors", "anchors": ["slash/core/fixtures/active_fixture.py: ActiveFixture.do_cleanups"]}
{"id": "C31", "title": "Parametrization produces every combination exactly once", "statement": "The variations of a test are exactly the cartesian product of the value sets of the parametrizations it needs (directly or through fixtures), each combination once, in lexicographic order of the value indices; there is one variation when nothing is parametrized and none when some value set is empty.", "quantifier": "every list of parametrizations with any number of values", "why_tests_cant": "unbounded product", "anchors": ["slash/core/variation_factory.py: VariationFactory.iter_variations", "slash/utils/iteration.py: iter_cartesian_dicts"]}
{"id": "C32", "title": "Exclusion rules remove exactly the excluded combinations", "statement": "A test variation is skipped by slash.exclude iff for some exclude rule the variation's values for all the rule's names equal one of the listed value tuples.", "quantifier": "every set of rules and variations", "why_tests_cant": "unbounded rules and values", "anchors": ["slash/core/exclusions.py: exclude, is_excluded"]}
{"id": "C33", "title": "Each test is handed to at most one worker, once", "statement": "In parallel mode no test is ever given out twice, over all interleavings of worker requests, finishes, failures, disconnects and interruptions.", "quantifier": "every schedule of RPCs from any number of workers", "why_tests_cant": "schedules are unbounded", "anchors": ["slash/parallel/server.py: Server.get_test, finished_test, report_client_failure", "slash/parallel/tests_distributer.py: TestsDistributer"]}
{"id": "C34", "title": "No test is lost by the parallel server", "statement": "At every moment each collected test is in exactly one of: not yet distributed, being executed by exactly one connected worker, or finished.", "quantifier": "every schedule", "why_tests_cant": "schedules are unbounded", "anchors": ["slash/parallel/server.py: Server", "slash/parallel/tests_distributer.py"]}
{"id": "C35", "title": "Tests are served only after all workers agreed on the collection", "statement": "The server hands out the first test only after the configured number of workers connected and every worker still connected validated the same collection; a worker with a different collection is told so.", "quantifier": "every schedule of connects, validations and requests", "why_tests_cant": "schedules are unbounded", "anchors": ["slash/parallel/server.py: connect, validate_collection, get_test"]}
{"id": "C36", "title": "Worker restrictions are honoured", "statement": "A test forced to a worker or excluded from a worker is never given to a worker it may not run on, and among the tests a worker may run the one earliest in collection order is chosen.", "quantifier": "every test list, every force/exclude assignment and schedule", "why_tests_cant": "unbounded", "anchors": ["slash/parallel/tests_distributer.py: get_next_test_for_client, _can_execute_test", "slash/parallel/worker_configuration.py: force_test, exclude_test"]}
{"id": "C37", "title": "A crashed worker's test is accounted for exactly once", "statement": "When a worker dies or times out, the test it was executing gets exactly one (error) result in the parent, and any late report from that worker does not create a second result or an internal error.", "quantifier": "every schedule with crashes at any point", "why_tests_cant": "all crash points and late messages", "anchors": ["slash/parallel/server.py: report_client_failure, finished_test", "slash/parallel/parallel_manager.py: check_worker_timed_out"]}
{"id": "C38", "title": "The test a worker runs is the test it was given", "statement": "The worker maps the description of a distributed test back to exactly the test of its own collection at the same position.", "quantifier": "every collection", "why_tests_cant": "collisions of the descriptions depend on names in user code", "anchors": ["slash/parallel/server.py: get_test", "slash/parallel/worker.py: start_execution"]}
{"id": "C39", "title": "Resume re-runs exactly the tests that did not succeed; rerun runs all", "statement": "After a session is saved, resuming selects exactly the tests that are not successful in the saved state (by the four per-status switches when given) and rerun selects all of them, none twice, sorted as requested (same order as saved by default).", "quantifier": "every set of saved results, every switch combination", "why_tests_cant": "unbounded histories", "anchors": ["slash/resuming.py: save_resume_state, get_tests_locally, _filter_tests, _sort_tests"]}
{"id": "C40", "title": "The saved status of a test reflects its result", "statement": "save_resume_state records for every collected test one row whose status is success/skipped/failed/planned according to its result (planned if it never started).", "quantifier": "every collection and result table", "why_tests_cant": "unbounded", "anchors": ["slash/resuming.py: save_resume_state"]}
{"id": "C41", "title": "Repetition and ordering of collected tests", "statement": "The number of runnables equals the sum over collected tests of repeat_each*marker repeats, times repeat_all; repeats of one test are consecutive within one repeat_all round, and sorting is stable with respect to collection order.", "quantifier": "every list of tests, every repeat configuration and sort keys", "why_tests_cant": "unbounded", "anchors": ["slash/loader.py: get_runnables, _generate_repeats, _sort_loaded_tests"]}
{"id": "C42", "title": "Filter expressions have boolean semantics", "statement": "A -k filter expression with and/or/not/parentheses selects exactly the tests for which the corresponding boolean combination of its atoms (substring of the address, or tag presence/value) holds; several filters are and-ed.", "quantifier": "every expression tree, every test", "why_tests_cant": "expressions are unbounded", "anchors": ["slash/utils/pattern_matching.py: Matcher, Include, And, Or, Exclude", "slash/loader.py: _is_excluded"]}
{"id": "C43", "title": "Tags are collected without losing or changing any", "statement": "The tags of a test are the union of the tags of function, class and fixtures; a tag given two different values is reported as TaggingConflict independently of the order in which the values are met.", "quantifier": "every list of tag sets", "why_tests_cant": "unbounded", "anchors": ["slash/core/tagging.py: Tags, tag_test, _check_conflicting_tags"]}
{"id": "C44", "title": "Suite files select the conjunction of nested filters", "statement": "A test listed through nested suite files is selected with the conjunction of the filters on the path of including lines, repeated as requested by `repeat:` ; comments and blank lines are ignored.", "quantifier": "every tree of suite files", "why_tests_cant": "unbounded nesting", "anchors": ["slash/utils/suite_files.py: iter_suite_file_paths, _iter_suite_file_paths, _parse_path_filter_options"]}
{"id": "C45", "title": "Pending plugin activation equals the announced future set", "statement": "activate_pending_plugins makes active exactly the plugins that get_future_active_plugins announced (active or pending-activate, minus pending-deactivate), and clears the pending sets.", "quantifier": "every sequence of install/activate/activate_later/deactivate_later calls", "why_tests_cant": "unbounded histories", "anchors": ["slash/plugins/plugin_manager.py: activate_later, deactivate_later, get_future_active_plugins, activate_pending_plugins"]}
{"id": "C46", "title": "restoring_state_context restores the plugin sets", "statement": "After restoring_state_context exits, the sets of installed and of active plugins are the ones at entry, whatever was installed, removed, activated or deactivated inside, also when the body raises.", "quantifier": "every sequence of plugin operations in the body", "why_tests_cant": "unbounded histories", "anchors": ["slash/plugins/plugin_manager.py: restoring_state_context, install, uninstall, activate, deactivate"]}
{"id": "C47", "title": "A plugin's hooks are registered exactly while it is active", "statement": "After any sequence of plugin operations, each hook handler of a plugin is registered once if the plugin is active and not at all otherwise.", "quantifier": "every sequence of operations", "why_tests_cant": "unbounded histories", "anchors": ["slash/plugins/plugin_manager.py: activate, deactivate, _get_plugin_registrations"]}
{"id": "C48", "title": "A warning is suppressed iff some active ignore filter matches it on every given field", "statement": "A native warning is recorded unless some filter registered by ignore_warnings matches: all fields given in the filter match; filters of ignored_warnings contexts are in force exactly inside the context.", "quantifier": "every sequence of filters, contexts and warnings", "why_tests_cant": "unbounded histories", "anchors": ["slash/warnings.py: _IgnoredWarning.matches, ignored_warnings, SessionWarnings"]}
{"id": "C49", "title": "Command-line configuration changes are undone", "statement": "After the configuration context built from the command line exits, every configuration value changed by flags or -o overrides has its previous value, in whatever order and however often the same path was overridden, also when parsing aborts half-way or the body raises.", "quantifier": "every list of flags and overrides, every abort point", "why_tests_cant": "unbounded lists and abort points", "anchors": ["slash/utils/cli_utils.py: get_modified_configuration_from_args_context", "slash/utils/conf_utils.py: _Cmdline.update_value"]}
{"id": "C50", "title": "Nearest slashconf wins", "statement": "The configuration variables visible in a directory are those of all slashconf files on the path to the root, the nearest definition winning; caching never changes the outcome.", "quantifier": "every directory tree and every sequence of push_path calls", "why_tests_cant": "unbounded trees and cache histories", "anchors": ["slash/core/local_config.py: LocalConfig._build_config"]}
{"id": "C51", "title": "Exception and object marks stay on the marked object", "statement": "Marking an exception instance never changes the marks of its class or of other instances, and marking a class never changes the marks of its base classes.", "quantifier": "every class hierarchy and sequence of mark operations", "why_tests_cant": "unbounded histories", "anchors": ["slash/utils/exception_mark.py", "slash/utils/marks.py"]}
{"id": "C52", "title": "The context stack is balanced", "statement": "Any sequence of push/pop on the context stack keeps the null context at the bottom: reads are never undefined, pop on the bottom raises RuntimeError and changes nothing, attribute writes affect only the top context.", "quantifier": "every sequence of operations", "why_tests_cant": "unbounded histories", "anchors": ["slash/ctx.py: _ContextStack"]}
{"id": "C53", "title": "Truncated console lines are bounded and keep their beginning", "statement": "With truncation enabled every console line is at most the configured width, short lines are unchanged, and a truncated line starts with the original text.", "quantifier": "every message", "why_tests_cant": "unbounded strings", "anchors": ["slash/log.py: ConsoleHandler.format, _truncate", "slash/utils/traceback_utils.py: _safe_repr"]}
{"id": "C54", "title": "The log of an unsuccessful test is kept", "statement": "A per-test log file is deleted only if unified logging keeps it or the test was a clean success, according to the keep_failed/cleanup settings.", "quantifier": "every result state and configuration", "why_tests_cant": "combination of result states and settings", "anchors": ["slash/log.py: _should_delete_log, _log_file_handler_context"]}
{"id": "C55", "title": "Iteration helpers", "statement": "iteration(xs) yields the items of xs in order with counters 0..n-1, first exactly on the first, last exactly on the last item.", "quantifier": "every sequence", "why_tests_cant": "unbounded", "anchors": ["slash/utils/iteration.py: iteration"]}
{"id": "C56", "title": "The exit code is 0 only for a successful run", "statement": "slash run exits with code 0 iff no exception escaped and the session is successful (skips allowed).", "quantifier": "every session outcome, every escaping exception (including SystemExit with any code)", "why_tests_cant": "all outcomes and exit paths", "anchors": ["slash/frontend/slash_run.py: slash_run", "slash/app.py: Application.__exit__"]}
{"id": "C57", "title": "A test with errors is reported as an error", "statement": "If the result of an executed test carries an error, the summary hook fired for it is test_error.", "quantifier": "every combination of entries in a result", "why_tests_cant": "combinations of entries arise from arbitrary user code", "anchors": ["slash/runner.py: _fire_test_summary_hooks"]}
{"id": "C58", "title": "Cleanup errors are attributed to the result that was current when the cleanup was registered", "statement": "An ordinary exception raised by a cleanup is recorded on the result that was current at the add_cleanup call, even when the cleanup runs much later (module or session end), unless the exception object was recorded before.", "quantifier": "every history between registration and execution", "why_tests_cant": "unbounded histories", "anchors": ["slash/core/cleanup_manager.py: _Cleanup"]}
{"id": "C59", "title": "The session knows when it was interrupted", "statement": "session.results.is_interrupted() is true iff some result of the session (of a test or of the session itself) was marked as interrupted.", "quantifier": "every set of results, including the session-wide result", "why_tests_cant": "interruptions arrive at arbitrary moments, between tests as well as inside them", "anchors": ["slash/core/result.py: SessionResults.is_interrupted, Result.mark_interrupted"]}
{"id": "C60", "title": "A text that is not a filter expression is rejected", "statement": "A -k filter text that is not an expression of the filter language raises an error instead of being read as some other filter.", "quantifier": "every text", "why_tests_cant": "the set of malformed texts is infinite", "anchors": ["slash/utils/pattern_matching.py: Matcher"]}
{"id": "C61", "title": "Tagging an object changes the tags of no other object", "statement": "Applying slash.tag to a function or class changes the tags reported for that object only.", "quantifier": "every sequence of tag applications on every class hierarchy", "why_tests_cant": "sharing of mutable state between objects shows only for particular hierarchies and orders", "anchors": ["slash/core/tagging.py: tag_test, get_tags"]}
{"id": "C62", "title": "Each suite file below a given directory is used once", "statement": "Passing a directory with -f uses every suite file below it exactly once.", "quantifier": "every directory tree", "why_tests_cant": "trees of unbounded depth", "anchors": ["slash/utils/suite_files.py: iter_suite_file_paths, _extract_suite_files"]}
{"id": "C63", "title": "Test ids are unique", "statement": "No two tests of a session have the same id, and neither do tests of different workers of one parallel session.", "quantifier": "every set of loaded tests, every number of workers", "why_tests_cant": "unbounded sets of tests and workers", "anchors": ["slash/core/session.py: Session", "slash/utils/id_space.py: IDSpace", "slash/loader.py: get_runnables"]}
{"id": "C64", "title": "A test address selects exactly the tests it names", "statement": "A path given as file:address yields exactly the not excluded tests of the file whose address is that address or starts with it as a factory name; loading fails iff there is no such test.", "quantifier": "every list of tests in a file, every address", "why_tests_cant": "unbounded", "anchors": ["slash/loader.py: _iter_test_address"]}
{"id": "C65", "title": "No test is handed out after the session was interrupted", "statement": "Once the parent of a parallel session was interrupted, no worker is given another test.", "quantifier": "every schedule of calls, interruption at any moment", "why_tests_cant": "the interruption can fall between any two calls, also before all workers connected", "anchors": ["slash/parallel/server.py: Server.session_interrupted, connect, get_test"]}
{"id": "C66", "title": "Distribution stops after a fatal result or a failed worker", "statement": "After a test reported a fatal error, or a failure with stop_on_error, or a worker failed, no test is handed out any more.", "quantifier": "every schedule of calls", "why_tests_cant": "schedules are unbounded", "anchors": ["slash/parallel/server.py: Server.finished_test, report_client_failure"]}
{"id": "C67", "title": "The parent waits until every test has a result", "statement": "The parent of a parallel session stops waiting for its workers only when every collected test has a result.", "quantifier": "every schedule, including crashes and late reports", "why_tests_cant": "schedules are unbounded", "anchors": ["slash/parallel/server.py: Server.should_wait_for_request, has_more_tests", "slash/parallel/parallel_manager.py: ParallelManager.start"]}
{"id": "C68", "title": "A worker is sent away only if nothing is left for it", "statement": "While tests are served, a worker is told that there are no more tests only if no undistributed test may run on it; and this does not stop the distribution of the remaining tests to other workers.", "quantifier": "every schedule and every force/exclude assignment", "why_tests_cant": "unbounded", "anchors": ["slash/parallel/server.py: Server.get_test", "slash/parallel/tests_distributer.py: get_next_test_for_client"]}
{"id": "C69", "title": "A test reported successful has started", "statement": "The test_success hook fires for a test only after the test_start hook fired for that same execution of the test: a test that never started is never reported as a success.", "quantifier": "every session, test list, hook behaviour and cleanup behaviour", "why_tests_cant": "which exception of which cleanup of which earlier scope hits the begin of a test is unbounded; no test combines a skipping module cleanup with a following module", "anchors": ["slash/runner.py: _run_single_test, _fire_test_summary_hooks", "slash/core/scope_manager.py: ScopeManager.begin_test", "slash/core/result.py: Result.add_exception"]}
{"id": "C70", "title": "Fixtures are told when tests start and end", "statement": "The test_start callbacks of a fixture are called once before the function of each test during which the fixture is active, and its test_end callbacks once after it, before the next test starts; start and end alternate.", "quantifier": "every sequence of tests and class tests, every set of active fixtures and callbacks, every exception raised by callbacks, fixtures, before, the method and after", "why_tests_cant": "the alternation is a property of the whole history of a fixture over all tests; tests check one or two tests with well-behaved callbacks", "anchors": ["slash/core/fixtures/fixture_store.py: call_with_fixtures", "slash/core/fixtures/active_fixture.py: ActiveFixture", "slash/core/test.py: Test.run"]}
{"id": "C71", "title": "after follows a successful before", "statement": "In a class test the method is called at most once, only after before succeeded; after is called exactly once and last whenever before succeeded, whatever the method does; nothing else is called if before fails; an exception of the method is recorded and interrupts the session if it is an interruption.", "quantifier": "every class test, every exception of before, the method, after and of the fixtures of each of them", "why_tests_cant": "combinations of failing fixtures, callbacks and nested handlers; only single failures are tested", "anchors": ["slash/core/test.py: Test.run", "slash/core/fixtures/fixture_store.py: call_with_fixtures", "slash/exception_handling.py: handling_exceptions"]}
{"id": "C72", "title": "Requirements belong to what was decorated", "statement": "Decorating with slash.requires adds the requirement to the decorated function or class, after its earlier ones, and affects nothing but it and its subclasses; a class has all requirements of its bases.", "quantifier": "every class hierarchy and every sequence of decorations", "why_tests_cant": "the mutable lists are shared through attribute inheritance; tests use one base and one derived class", "anchors": ["slash/core/requirements.py: requires, get_requirements"]}
{"id": "C73", "title": "A function receives exactly the fixtures it asks for", "statement": "The keyword arguments given to a function are exactly its arguments that are not `this` or parametrized, each with the fixture of the name the argument stands for, whatever use_fixtures adds.", "quantifier": "every function, namespace, alias and use_fixtures declaration", "why_tests_cant": "depends on coincidences of names (substrings, aliases) among all fixtures reached", "anchors": ["slash/core/fixtures/fixture_store.py: get_fixture_dict, _get_fixtures_set, get_required_fixture_names, call_with_fixtures"]}
{"id": "C74", "title": "Requirements of all fixtures of a test count", "statement": "The requirements of a test include its own, and those of every fixture computed for it: arguments, autouse fixtures, fixtures used with use_fixtures, and the fixtures these depend on; computing them ends for fixtures without cyclic dependencies.", "quantifier": "every test, namespace and dependency graph of fixtures", "why_tests_cant": "unbounded depth and shape of the dependency graph; tests check direct fixtures", "anchors": ["slash/core/runnable_test.py: get_requirements, get_unmet_requirements", "slash/core/fixtures/fixture.py: get_requirements", "slash/core/function_test.py: get_requirements"]}
{"id": "C75", "title": "use_fixtures affects the decorated function only", "statement": "use_fixtures adds the given fixtures to those of the decorated function and changes no other function.", "quantifier": "every sequence of decorations with list objects, shared or not", "why_tests_cant": "aliasing of the list given by the user", "anchors": ["slash/core/fixtures/utils.py: use_fixtures"]}
{"id": "C76", "title": "What the application acquires it releases", "statement": "Whatever happens between entering and leaving an application (slash run), each resource acquired on entering (context, configuration, SIGTERM handler, warning and log handlers) is released exactly once, in reverse order, the previous SIGTERM handler is restored, and app_quit is called once, last.", "quantifier": "every exception raised at any step of entering, running and leaving", "why_tests_cant": "there are dozens of steps that can raise, in combination; tests let one or two of them raise", "anchors": ["slash/app.py: Application.__enter__, __exit__, _emit_exit_code", "slash/frontend/slash_run.py: slash_run"]}
{"id": "C77", "title": "The process status is zero only for success", "statement": "slash run exits with status 0 only if nothing failed and all results are successful, and then it does; the application is marked interrupted exactly if an interruption ended it.", "quantifier": "every exception at every step, every exit code set by the user", "why_tests_cant": "depends on exceptions in any combination of steps and on the encoding of exit codes", "anchors": ["slash/app.py: Application.__exit__, set_exit_code", "slash/frontend/slash_run.py: slash_run", "slash/frontend/main.py: main_entry_point"]}
{"id": "C78", "title": "Expected exceptions are not recorded, unexpected ones are", "statement": "assert_raises succeeds exactly if its body raises an exception of the given types; such an exception is not recorded as an error by any exception handling context inside, while other exceptions are, each once; allowing_exceptions swallows exactly the given types; the set of ignored types is what it was before the block, however it ends.", "quantifier": "every nesting of assert_raises, allowing_exceptions and handling contexts, every exception type hierarchy", "why_tests_cant": "nested contexts with unrelated types and contexts that outlive one another", "anchors": ["slash/assertions.py: assert_raises, allowing_exceptions", "slash/exception_handling.py: handling_exceptions, thread_ignore_exception_context"]}
{"id": "C79", "title": "Indented output", "statement": "The Formatter writes the given text with the current indentation at the beginning of each line and nothing else added or lost; indented blocks restore the indentation however they are left.", "quantifier": "every text, every nesting of indented blocks, every place an exception leaves them", "why_tests_cant": "texts with line ends at arbitrary places; tests write single lines", "anchors": ["slash/utils/formatter.py: Formatter.write, writeln, indented, LineTracker"]}
{"id": "C80", "title": "Detailed tracebacks are laid out evenly", "statement": "In a detailed traceback all frames are at the same depth, and their code lines and variables at fixed depths below.", "quantifier": "every list of frames with any globals and locals", "why_tests_cant": "depends on which frames have globals and locals shown", "anchors": ["slash/core/error.py: Error.get_detailed_traceback_str"]}
{"id": "C81", "title": "The parent gets the results of its workers", "statement": "When a worker has finished a test, its parent's result of that test has the errors, failures, skips, details and state the worker's result had, each of them reported once; a test that failed in a worker is never a success in the parent; what cannot be sent leaves the rest untouched.", "quantifier": "every result, every combination of attributes that can or cannot be pickled or unpickled, reporters that raise", "why_tests_cant": "which attributes survive pickling depends on the objects users put into errors and details; tests send plain results", "anchors": ["slash/core/result.py: Result.serialize, Result.deserialize, Result.add_error, Result.add_failure, Result.add_skip", "slash/parallel/server.py: Server.finished_test"]}
{"id": "C82", "title": "Details and facts keep what was set and appended", "statement": "A detail that is set has the last value set; a detail that is appended to has all values appended, in order; appending to something that is no list raises TypeError and changes nothing; the callback is called once for each change; a copy of the details is a snapshot.", "quantifier": "every sequence of set, append and use of list objects by other code, callbacks that raise", "why_tests_cant": "sharing of list objects between the details and their users", "anchors": ["slash/core/details.py: Details.set, Details.append, Details.all"]}
{"id": "C83", "title": "Entering a debugger", "statement": "A debugger is entered exactly for exceptions that are neither exits nor (unless configured) skips and match all filters, if debugging is on; the one chosen is used if it is available, otherwise the first available one; exactly one debugger is started.", "quantifier": "every configuration, list of debuggers, availability and behaviour of them", "why_tests_cant": "availability of debuggers depends on the machine", "anchors": ["slash/utils/debug.py: debug_if_needed, launch_debugger"]}
{"id": "C84", "title": "The xunit report agrees with the results", "statement": "The xunit report shows each test that ran exactly once with all its errors, failures and skips; the numbers in its header are those of the elements it contains; it is written for each session.", "quantifier": "every list of results, every kind of error, skip reason and detail", "why_tests_cant": "combinations of tests not started, errors of the session and objects that are no strings", "anchors": ["slash/plugins/builtin/xunit.py: Plugin.session_end, Plugin._add_errors, Plugin._detail2xml, Plugin._build_xml", "slash/core/result.py: SessionResults._count"]}
{"id": "C85", "title": "The cleanup phase tells which cleanup is being called", "statement": "At any moment of any session get_current_cleanup_phase() answers the scope a cleanup of which is being called, and None otherwise; is_in_cleanup() is True exactly while a cleanup is called (not in fixture finalizers nor in handlers of before_test_cleanups).", "quantifier": "every session, every test, hook handler, cleanup and finalizer, every point at which they ask", "why_tests_cant": "the answer depends on nested blocks being left on all paths, exceptions and interruptions included", "anchors": ["slash/cleanups.py: get_current_cleanup_phase, is_in_cleanup", "slash/core/cleanup_manager.py: CleanupManager.get_current_scope_name, CleanupManager.call_cleanups, CleanupManager.pop_scope"]}
{"id": "C86", "title": "Parametrized functions are called once with each combination", "statement": "A function decorated with parametrize (one name or several names at once, in any number) and toggle is called exactly once with each combination of one value from each decorator; values for several names are distributed to the names by position; arguments given by the caller stay; decorating refuses exactly the values of wrong shape and names already parametrized.", "quantifier": "every function, every list of decorators with distinct names, every list of values, labelled or not", "why_tests_cant": "the number of combinations is unbounded and depends on how names share values", "anchors": ["slash/core/fixtures/parameters.py: parametrize, toggle, ParameterizationInfo, _normalize_values, _normalize_single_value, Parametrization.get_value_by_index", "slash/core/fixtures/fixture_store.py: iter_parametrization_variations"]}
{"id": "C87", "title": "A name cannot be parametrized twice; decorating leaves other functions alone", "statement": "Parametrizing a name that is parametrized already is refused, and decorating a function does not change functions made earlier.", "quantifier": "every function and every sequence of decorators", "why_tests_cant": "silently replaced values show only as tests that do not exist", "anchors": ["slash/core/fixtures/parameters.py: ParameterizationInfo.add_options, _parametrize_function"]}
{"id": "C88", "title": "Addresses tell tests apart", "statement": "Two tests made from one function have different addresses: their variations have different names. The name does not depend on the order of the bindings. Labels are identifiers of at most 30 characters.", "quantifier": "every two variations of a function, all values and labels", "why_tests_cant": "collisions need particular values", "anchors": ["slash/core/variation.py: Variation._get_safe_repr, _format_parameter_value_safe, _is_printable", "slash/core/metadata.py: Metadata.get_address", "slash/core/fixtures/parameters.py: ParametrizationValue._validate_label"]}
{"id": "C89", "title": "Which exceptions are swallowed", "statement": "An exception leaves any nest of swallowing contexts, functions decorated with disable_exception_swallowing and handling contexts exactly if it is marked noswallow or the innermost swallowing context around the raise is inside a decorated function or absent.", "quantifier": "all programs made of these contexts, all exceptions, classes and marks", "why_tests_cant": "nests are unbounded and marks are kept in the exception object and its classes", "anchors": ["slash/exception_handling.py: get_exception_swallowing_context, noswallow, disable_exception_swallowing, _HandlingException.__exit__", "slash/utils/exception_mark.py: mark_exception, get_exception_mark"]}
{"id": "C90", "title": "Variations of a test have different ids", "statement": "Every parametrization a test needs, itself or through the arguments of fixtures, has a name in the id of its variations, so two variations with the same id give every parametrization the same value.", "quantifier": "all graphs of fixtures (also cyclic ones), all sets of functions of a test, all assignments of values", "why_tests_cant": "the search over fixtures shares one set of visited ids and one dict of names, whatever the graph", "anchors": ["slash/core/variation_factory.py: add_needed_fixtures_from_function, _populate_param_name_bindings", "slash/core/variation.py: Variation.id", "slash/core/test.py: generate_tests"]}
{"id": "C91", "title": "What slash list shows", "statement": "slash list shows a line for every test in order (once per address unless --show-duplicates), marks exactly the fixtures no test uses as unused and those that override another as override, and exits with 0 exactly if tests were loaded without warnings turned into errors, or none were and --allow-empty was given.", "quantifier": "all options, lists of tests, fixtures and namespaces", "why_tests_cant": "the shown address is computed from strings and the visited set; lists are unbounded", "anchors": ["slash/frontend/slash_list.py: slash_list, _report_tests, _convert_address_to_relpath, _report_fixtures", "slash/core/fixtures/fixture.py: Fixture.is_override"]}
{"id": "C92", "title": "Signal handlers are set while the plugin is active and set back", "statement": "While the signal handling plugin is active every registered signal has its registered handler; whenever it is deactivated, all signals have the handlers they had before it was activated.", "quantifier": "all sequences of registrations, activations and deactivations, all handlers", "why_tests_cant": "sequences are unbounded and handlers are process state that tests rarely inspect", "anchors": ["slash/plugins/builtin/signal_handling.py: register_handler, Plugin", "slash/plugins/plugin_manager.py: activate, deactivate"]}
{"id": "C93", "title": "A finished test is reported as what its result is", "statement": "When the loop over the tests tells the reporter that a test ended, the result is a success, a skip, an error, interrupted or a failure, so the assertion in report_test_end holds and the run goes on; the reporter is told the same kind as the plugins.", "quantifier": "all sessions, all tests, requirement predicates and hooks, all results", "why_tests_cant": "needs every way a requirement check can fail, and every combination of entries in a result", "anchors": ["slash/reporting/reporter_interface.py: report_test_end", "slash/runner.py: run_tests, _run_single_test, _fire_test_summary_hooks", "slash/core/result.py: is_success, is_skip, is_error, is_failure"]}
{"id": "C94", "title": "The line of a file on the console says whether its tests failed", "statement": "At the default verbosity the console writes one line for a file: it ends with FAIL if a test of the file has an error or a failure, and with PASS if none has; the reporter never reads an attribute it has not set.", "quantifier": "all sessions, all test lists, all cleanups and hooks; for the last part all verbosities", "why_tests_cant": "needs cleanups that run after the file they belong to has ended", "anchors": ["slash/reporting/console_reporter.py: report_file_start, report_file_end, report_test_error_added, report_test_failure_added", "slash/runner.py: run_tests", "slash/core/result.py: add_error, add_failure"]}
{"id": "C95", "title": "Notifications reach everyone they should, say what happened and change nothing", "statement": "When a session ends (or a debugger is entered) every notifier that is switched on and set up is handed exactly one message, in a fixed order, even if others fail; its title and text say how the session ended or what exception it was, whatever characters that text has; nothing is sent for a short session or a successful one that is of no interest; sending does not change the outcome of the session, comes to an end, and mails every address once.", "quantifier": "all configurations, sessions, texts, deliveries that succeed or fail, sequences of messages", "why_tests_cant": "needs notifiers that fail in every combination and texts with every character", "anchors": ["slash/plugins/builtin/notifications.py: _notify_all, _get_message, session_end, entering_debugger, _escape_format, the notifiers", "slash/exception_handling.py: handling_exceptions, handle_exception", "slash/utils/debug.py: debug_if_needed, launch_debugger"]}
{"id": "C96", "title": "A log record goes once to every place that should have it", "statement": "A record logged in a test goes once to the log of the test and once to the console if its level allows, unless its logger is silenced or it is a record of the core below the core log level; it goes to the log of the session exactly if unified_session_log is set, outside of tests like to a log of a test; errors are captured, user handlers called and warnings recorded once; a silenced logger is written nowhere.", "quantifier": "all records, all configurations of logging, all user handlers that pass records on, all different log paths", "why_tests_cant": "the stack of up to eleven handlers entered twice, each with its level, filter and bubbling", "anchors": ["slash/log.py: _get_file_logging_context, _get_error_logging_context, _log_file_handler_context, _slash_logs_filter, SilencedLoggersHandler, _BubblingWrapper, ErrorHandler", "slash/warnings.py: WarnHandler", "slash/frontend/main.py: _setup_logging_context"]}
{"id": "C97", "title": "An error names the code that caused it", "statement": "The traceback of an error made of an exception is the whole stack at the place of the raise, up to the first frame of slash.assertions and without the muted functions, however deep it is handled; its cause is the code of the user that raised, or called the assertion, or stands as many calls above as the exception is marked with. An error added with add_error (or the method of a result) has as its cause the line that called it, or the one frame_correction calls above. A parameter without a value is reported at the call of slash.parametrize.", "quantifier": "all call stacks, all depths of handling, all frame corrections", "why_tests_cant": "off-by-one arithmetic over call depths, spread over four functions that each add their own frame", "anchors": ["slash/utils/traceback_utils.py: distill_traceback, distill_call_stack, _distill_frames", "slash/exception_handling.py: handling_exceptions, mark_exception_frame_correction", "slash/utils/traceback_proxy.py: create_traceback_proxy", "slash/core/error.py: Error.__init__", "slash/core/result.py: add_error", "slash/utils/__init__.py: add_error", "slash/loader.py: _extract_tb", "slash/log.py: ErrorHandler.emit"]}
{"id": "C98", "title": "The summary of the console tells every error, skip and warning", "statement": "At the end of a session the console shows, in the order of the tests and with their numbers, exactly the tests with errors or failures and (verbose) with skips; what follows the header of a test tells its details and log, every error and failure with its number, kind and message, and the reasons of its skips; the marked line of code is the last one; each warning is told, repeated ones with their number; the report ends without an exception.", "quantifier": "all results, all errors with any frames, all verbosities and traceback levels", "why_tests_cant": "combinations of verbosity, traceback level, errors without frames and reasons of any type", "anchors": ["slash/reporting/console_reporter.py: report_session_end, _iter_reported_results, _get_result_info_generators, _report_result_errors_failures, _report_traceback, _write_frame_code, _report_additional_test_details, _report_result_skip_summary, _report_result_warning_summary"]}
{"id": "C99", "title": "Boxes fit, the line in progress is drawn again, durations add up", "statement": "Every line of a box is as wide as the box and fits the terminal, with the wrapped lines of the message in their order; a left-justified line fills the terminal without exceeding it; the line the reporter has noted is the one in progress on the terminal, however it writes; a log record in between is written over the blanked line and the line is drawn again in a row of its own; hours, minutes and seconds of a duration add up to its whole seconds.", "quantifier": "all texts, all widths of the terminal, all sequences of writes, all durations", "why_tests_cant": "widths of terminals, lines that wrap, texts of any length", "anchors": ["slash/reporting/console_reporter.py: TerminalWriterWrapper.write_box, lsep, write, clear_line_in_progress, restore_line_in_progress, ConsoleReporter._format_duration"]}
{"id": "C100", "title": "The parent of a parallel session starts its workers in order and leaves nothing behind", "statement": "Each worker process is started once, in the order of the numbers; only processes that were started are signalled or waited for; a worker is reported as failed only if it was connected and then silent for too long, and a round of checks forgets nobody; on an interruption the server is told and every worker is told to end; on a timeout every worker is told to end, the errors are logged and the server is told; however the session ends, after that every worker is waited for and both servers are stopped; the loops go on only as long as the server is to be waited for.", "quantifier": "all numbers of workers, all behaviours of processes, servers, hooks and clocks, all interruptions", "why_tests_cant": "needs processes that die, hang or cannot be started at chosen moments, and interruptions between any two steps", "anchors": ["slash/parallel/parallel_manager.py: ParallelManager", "slash/parallel/worker_configuration.py: ProcessWorkerConfiguration"]}
{"id": "C101", "title": "Customization files run in order, with their directories importable", "statement": "A load of the site runs the user's file, the project's file, what SLASH_SETTINGS names and the entry points, in this order, each exactly when it is there; the first exception ends the load and is its exception; the user's and the project's file run with their directory as the first place to import from, and sys.path is as before afterwards, however they end; the project has a name afterwards, the one it was given or that of its directory.", "quantifier": "all files, environments, entry points and everything customization code may do", "why_tests_cant": "customization code may change sys.path, the configuration and the environment, or raise", "anchors": ["slash/site.py"]}
{"id": "C102", "title": "Marks on functions are what was put on them", "statement": "After a marker was applied to a function, class, classmethod or staticmethod, the mark can be read from it: the last value, or for an append marker all values in the order of the applications after the ones before; no other mark and no mark of another object changes, except of those that see the attributes of the marked one; a subclass sees the marks of its class and appending to it leaves the class as it was; a wrapper starts with the marks of the function and has its own from then on; what was never marked gives the default or LookupError.", "quantifier": "all objects, names, values and sequences of applications", "why_tests_cant": "decorators are applied in unbounded nestings, to functions, classes and methods", "anchors": ["slash/utils/function_marker.py: Marker", "slash/core/markers.py", "slash/utils/python.py: wraps"]}
{"id": "C103", "title": "The plugins of a started application", "statement": "When an application has started without an exception, the active plugins are exactly the installed ones that were active, pending or named by --with-X, and neither pending deactivation, named by --without-X, nor marked with a parallel mode that is against the session (disabled in any parallel session, parent-only in a worker, child-only in the parent); configure_from_parsed_args is called once of each of them. The plugin arguments are taken from the command line and must name installed plugins. Also when the start fails no other plugin becomes active or gets registrations.", "quantifier": "all sequences of calls of the manager before the start and from the configure hook, command lines, plugins of which no two share a command-line name, marks, numbers of workers and worker ids", "why_tests_cant": "plugins, marks and command lines combine freely, in parent, worker and plain sessions", "anchors": ["slash/utils/cli_utils.py: add_pending_plugins_from_commandline, configure_plugins_from_args", "slash/plugins/plugin_manager.py: _is_parallel_supported, configure_for_parallel_mode, activate_pending_plugins", "slash/app.py: Application.__enter__", "slash/utils/parallel_utils.py"]}
{"id": "C104", "title": "Links to the logs", "statement": "After a session the configured links lead to the log of the session, its directory, the log of the last test that had one, the log of the last test that failed (unchanged if none failed), and the session's directory has a link to the directory of each worker; making a link never fails the session and changes nothing but the place of the link, where a directory is left alone; a worker makes no links, and a session changes no other path than its logs and the places of its links.", "quantifier": "all file systems, link settings, log paths, sequences of tests and connecting workers, results, cleanup settings, and any calls refused by the operating system", "why_tests_cant": "links replace what earlier sessions left, in any state of the file system", "anchors": ["slash/log.py: _try_create_symlink, _create_last_failed_symlink_if_needed, get_test_logging_context, get_session_logging_context, _log_file_handler_context, create_worker_symlink"]}
{"id": "C105", "title": "Logs and warnings of the start", "statement": "What is logged while the application starts is not lost: once the session has its log file, that file has every record logged before exactly once and in order, after the records logged while the session was activated, which it has as usual; if the start fails before that, the console has every error exactly once and in order; after that nothing is retained. The warnings raised before the session captures them are added to it in order when the start succeeds, except those ignored by then, after its own; a hook raising for one of them makes the start fail; a start that fails adds none.", "quantifier": "all sequences of records, warnings and filters before, during and after the making and activation of the session, all configurations of logging, any handlers and hooks that raise", "why_tests_cant": "records pass through two stacks of handlers and are handed on by code that runs once per process", "anchors": ["slash/app.py: __enter__, _capture_native_warning, _prelude_logging_context, _emit_prelude_warnings, _emit_prelude_logs", "slash/log.py: RetainedLogHandler"]}
{"id": "C106", "title": "Imports of slash.ext", "statement": "An import of a name below slash.ext gives the module of the first choice that can be imported, under both names, and as an attribute of slash.ext if the name has no dot; a module already known is given without doing anything; choices that cannot be imported are tried once each, in order; an ImportError whose traceback has a frame of the module itself ends the search and is passed on, and if no choice is left an ImportError is raised; in both cases nothing is known under the name; installing the importer puts it last, once, and keeps the other finders in order.", "quantifier": "all wrapper names, choices and module names, any contents of sys.modules and sys.meta_path, and any effects and results of importing, including recursive imports", "why_tests_cant": "imports run foreign code that may change what is known about modules", "anchors": ["slash/exthook.py: ExtensionImporter", "slash/ext/__init__.py"]}
{"id": "C107", "title": "The notice about something slow", "statement": "While a context that announces slowness is open, and for any interleaving of its thread with the body: the message is reported at most once, the end message at most once, after it, and only if there is one; nothing is reported if the time does not run out, and it cannot run out once the body has ended and that was signalled; if it does, and there is a session all the time and the reporter does not fail, the message is reported before the context is left; unless the wait itself is interrupted the thread has ended when the context is left, and nothing happens afterwards; the context ends as its body did, or with the failure of the end message; and it always gets there, in at most eight steps besides those of the body.", "quantifier": "all interleavings of body, thread and clock, any sessions pushed and popped meanwhile, failing reporters, with and without an end message", "why_tests_cant": "the outcome depends on a race between a timer thread and the body", "anchors": ["slash/utils/interactive.py: notify_if_slow_context"]}
{"id": "C108", "title": "How the loader finds tests", "statement": "Of a path all files are found that are not below a hidden directory, each once, those of a directory before those below it, otherwise by name; the .py files are imported in that order up to the first that fails, whose error is the error; a file that loads gives exactly the variations of its functions called test_... and of the methods test... of its test classes that are not marked abstract, in the order of the names, made below the namespaces of its local configuration and of itself; an address picks what is named after the colon and not excluded, and is not found only if nothing has that name; lists and filtered sources give what their parts give, each as if loaded alone; whatever goes wrong the namespaces and local configurations are as before; and if anything goes wrong no test is collected.", "quantifier": "all directory trees, modules, addresses, nested lists and tuples of sources, with failing imports, slashconf files, fixtures and parametrizations", "why_tests_cant": "the order of the file system, nesting and the place of a failure vary without bound", "anchors": ["slash/loader.py: Loader", "slash/core/test.py: TestTestFactory", "slash/core/function_test.py: FunctionTestFactory", "slash/core/runnable_test_factory.py: RunnableTestFactory"]}
{"id": "C109", "title": "What list-config and list-plugins print", "statement": "slash list-config shows, by name and each once, exactly the settings whose name has the same first part as one of the paths given (all if none is given), with value and documentation; slash list-plugins shows, by name and each once, the installed plugins that are not internal, as active exactly if they are active once the pending plugins are activated, and the option it prints for an active plugin makes that plugin, and no other, inactive, the one for an inactive plugin makes it active unless it is to be deactivated; it fails only if a plugin to be activated is not installed; colours are written exactly if forced, or enabled on a terminal, they are reset in the same write, and without the escape sequences the text is the same.", "quantifier": "all configurations, paths, states of the plugin manager reached by any calls, flags and terminals", "why_tests_cant": "the settings, plugins and calls of the manager vary without bound, and colours depend on the stream", "anchors": ["slash/frontend/list_config.py: list_config", "slash/frontend/slash_list_plugins.py: slash_list_plugins", "slash/utils/cli_utils.py: Printer"]}
{"id": "C110", "title": "The variables an error remembers", "statement": "Of each frame an error remembers exactly the local variables whose name has no @, the attributes of self that can be read and are not special, methods, functions or classes (unless self is of a blacklisted type), and the global variables its function names that are not functions, methods, modules or classes, each once and as at most 100 characters of its repr, or of a replacement if its type is blacklisted or its repr fails; the attributes of the exception are kept in full, numbers and strings as they are; the log shows the local variables and attributes of self in full, if configured, and the callbacks of error_added get the error with its frames; once it is added it keeps no frame and no exception, and all it remembers.", "quantifier": "all frames, variables, objects, failing reprs and attributes, blacklists and configurations", "why_tests_cant": "the values are arbitrary objects, with reprs and attributes that fail in any way", "anchors": ["slash/utils/traceback_utils.py: DistilledFrame", "slash/utils/traceback_utils.py: iter_distilled_object_attributes", "slash/core/error.py: Error", "slash/core/result.py: Result._add_error"]}
{"id": "C111", "title": "Which tests a command collects, who runs them, what is remembered", "statement": "slash run loads exactly what is named on the command line followed by what the suite files list, or, if that is nothing and no shell is wanted, the default sources, and refuses to run if that is nothing too; resume and rerun load, session by session, exactly the tests whose status is asked for, saved ones or, if none were saved, those of the server with the statuses they mean; all that was loaded is handed over once, to the worker loop, the server or the runner by the role of the session, unless there is an exception; a worker leaves the resume database alone, and every other command, however it ended, leaves its session there as the last one of its folder, with the state of each of its tests, and takes away only what is too old; the commits are tried three times and their failure is not hidden.", "quantifier": "all commands, configurations, databases, loaders, servers, exceptions and outcomes of commits", "why_tests_cant": "histories of commands and failures are unbounded; tests run one command on a fresh database", "anchors": ["slash/frontend/slash_run.py: slash_run", "slash/frontend/slash_run.py: _collect_tests", "slash/resuming.py: get_tests_from_remote", "slash/resuming.py: connecting_to_db", "slash/resuming.py: save_resume_state"]}
{"id": "C112", "title": "Workers in tmux: who is signalled, who is waited for, how the session ends", "statement": "In a parallel session whose workers run in tmux, signals go only to processes that the server has named as a worker's, and are SIGTERM or a question; each worker is waited for at most ten half seconds; if all workers connect, every worker is waited for and then both servers are stopped and joined, and a session that is interrupted or idle too long first sends SIGTERM to every worker and tells the server; if some worker never connects, the session ends in the exception of some call or TypeError, reports nothing to the server, stops no server and signals no worker from that one on.", "quantifier": "all numbers of workers, environments (outcomes of calls, clocks, process tables, tmux) and lengths of executions", "why_tests_cant": "which call fails when is unbounded; no test of the repository makes a worker in tmux fail to connect", "anchors": ["slash/parallel/parallel_manager.py: start", "slash/parallel/worker_configuration.py: TmuxWorkerConfiguration", "slash/utils/tmux_utils.py: create_new_window"]}
{"id": "C113", "title": "The command line of a worker and the start in tmux", "statement": "Whatever the user wrote and the hook before_worker_start changed, a worker is told the two ports and the directory of errors; a hook that only adds leaves it its number and the user's arguments; the text for tmux can be read back word by word if no argument has a space; which gives the first candidate of PATH that can be executed; slash goes on in its process only when a tmux session of the session's name is there, and otherwise becomes a tmux that runs the same command, whose process goes on.", "quantifier": "all command lines, hooks, PATHs, file systems and lists of tmux sessions", "why_tests_cant": "texts and lists are unbounded", "anchors": ["slash/parallel/worker_configuration.py: WorkerConfiguration", "slash/utils/tmux_utils.py: which", "slash/utils/tmux_utils.py: run_slash_in_tmux"]}
{"id": "C114", "title": "What a worker tells its parent", "statement": "The keepalive table holds for every client the time of its last sign and nothing else; a worker sends one sign a round until it is stopped or a call raises; the texts workers write to their error files are logged by the parent under the worker's file, whole and in order, and nothing else is, and it says that there are none exactly when none wrote; a worker that is refused goes on without signs of life and writes why; the parent gets exactly the warnings that can be pickled, sent, read and heard there, in order, the worker keeps these and those that are given up, and each other one is an exception where the code warned; the server knows of an error exactly when it was an error of a worker's session.", "quantifier": "all histories of calls, messages, warnings and errors and outcomes of pickling, files and remote calls", "why_tests_cant": "histories are unbounded", "anchors": ["slash/parallel/worker.py: keep_alive", "slash/parallel/worker.py: warning_added", "slash/parallel/worker.py: write_to_error_file", "slash/parallel/parallel_manager.py: report_worker_error_logs", "slash/parallel/server.py: KeepaliveServer"]}
{"id": "C115", "title": "What slash.g, slash.session and slash.test stand for", "statement": "Without a session the names slash.session, slash.test, slash.g and their like are equal to None, cannot be read from nor written to; a new context starts with no session, no test and empty globals; what is written through one of the names is read back through it and changes nothing else; and whatever an inner session does with contexts, globals and attributes of objects it made, after it ended every name reads as before it began.", "quantifier": "all histories of contexts pushed and popped, attributes written and read, properly nested, that mention only objects that exist, and inside only objects the inner session made", "why_tests_cant": "nesting and histories are unbounded; tests run one session inside another with one attribute", "anchors": ["slash/ctx.py: _ContextStack", "slash/ctx.py: NullContext", "slash/ctx.py: Context", "slash/ctx.py: ContextAttributeProxy", "slash/ctx.py: push_context", "slash/ctx.py: pop_context"]}
{"id": "C116", "title": "Exceptions, Errors and the lists of results", "statement": "An exception has at most one Error captured from it, however often and in whatever results it is recorded; an exception that is handled is recorded exactly once, in the first result that handles it, among its failures or errors by its type, and skips, interruptions and GeneratorExit are recorded as such and not as errors; each add_error() and add_failure() for it adds one more entry; an Error is marked as a failure exactly if its exception is of a failure type or it is in a list of failures; entries are never lost or unmarked; a result is fatal if an exception recorded in it was marked fatal before it was captured, and no result is if nothing was marked; add_error() without message and exception is a RuntimeError that records nothing.", "quantifier": "all histories of add_error, add_failure, handled exceptions and marks, over any number of exceptions and results, for exceptions that take attributes", "why_tests_cant": "histories are unbounded, and the same exception goes through many handlers; tests record one exception once", "anchors": ["slash/core/error.py: Error.capture_exception", "slash/core/error.py: Error.__init__", "slash/core/result.py: Result.add_exception", "slash/core/result.py: Result._add_error", "slash/utils/exception_mark.py: ExceptionMarker", "slash/utils/python.py: safe_set_attribute"]}
{"id": "C117", "title": "What the fixture decorators make of a function", "statement": "Whatever stack of slash.fixture, slash.yield_fixture, slash.parametrize and other decorators is put on a function: it is a fixture if one of the first two is among them, with the name, scope and autouse of the innermost of these and the arguments of the function but self and this; decorating fails exactly if that one asks for an unknown scope; calling it gives the value the function returns, or the first value it yields with a cleanup for the rest, exactly if a generator function got one such decorator that sees it and another function no yield_fixture; and the functions reported as duplicates are exactly those defined on the level of the file after one of the same name.", "quantifier": "all stacks of decorators, functions, parameters and files", "why_tests_cant": "stacks are unbounded and their orders many; tests use one decorator", "anchors": ["slash/core/fixtures/utils.py: fixture", "slash/core/fixtures/utils.py: yield_fixture", "slash/core/fixtures/utils.py: _ensure_fixture_info", "slash/core/fixtures/utils.py: FixtureInfo", "slash/utils/python.py: wraps", "slash/utils/python.py: get_underlying_func", "slash/utils/python.py: get_arguments", "slash/utils/python.py: check_duplicate_functions"]}
{"id": "C118", "title": "Where the log files are and when they are open", "statement": "Whatever the values the context has (test ids with slashes and backslashes, any parameters): the path made of a template whose fields are of the context has exactly the components of the template, each with its fields filled in, so as many directories as slashes in the template, and it is below the root of the logs if the first field is not empty; texts without separators are used unchanged. Whatever blocks with log files are nested and whatever they raise: no file is opened while it is open, no handler is used before it is opened or after it is closed, every block closes what it opened and tells it with the hook, get_active_log_paths gives exactly the files open, and every record is in the file of the block it was written in. The colour of a record is the one last given to its channel and level, otherwise that of its level.", "quantifier": "all templates, contexts, roots, nestings of blocks, exceptions, sequences of calls", "why_tests_cant": "values and nestings are unbounded; tests have a few test names", "anchors": ["slash/log.py: _NormalizedObject", "slash/log.py: _format_log_path", "slash/log.py: _get_log_file_path", "slash/log.py: _log_file_handler_context", "slash/log.py: get_active_log_paths", "slash/log.py: set_log_color", "slash/log.py: get_color"]}
{"id": "C119", "title": "Python's own warnings and sessions", "statement": "Whatever happens while a session captures warnings (sessions inside of it, nested or overlapping, changes of the filters, assignments to warnings.showwarning), what shows warnings after it is what did before; a capturing context is entered at most once. As long as nobody touches the filters or showwarning, a session records exactly the warnings issued in it and not in a session inside of it, in their order, other than import warnings and those told to be ignored, whatever filters there were before. However many sessions there were, at most two filters are added.", "quantifier": "for all sequences of sessions, warnings, filters and assignments; for all classes of warnings", "why_tests_cant": "How sessions nest, which filters were installed before and by whom, and the classes of warnings are unbounded; tests run one session with one warning in a fresh interpreter.", "anchors": ["slash/warnings.py:17-36", "slash/warnings.py:44-54", "slash/utils/warning_capture.py:4-26"]}
{"id": "C120", "title": "The hooks of a session", "statement": "Whatever handlers, tests, fixtures and cleanups do, a session fires before_session_start first; session_start, after_session_start, session_interrupt, session_end and after_session_end follow at most once each and in this order; session_end only if after_session_start was fired, after_session_end only after session_end. Files, tests and hooks of tests are seen only between after_session_start and the next of these. A session that ends without an exception fires all of them but session_interrupt. If after_session_start was fired, session_end is fired if and only if the end of the session's outermost scope let no exception escape, and after that end.", "quantifier": "for all programs of handlers, tests, fixtures and cleanups, all lists of tests", "why_tests_cant": "Every point of the session may raise any exception, in any combination; tests look at one failing handler at a time.", "anchors": ["slash/core/session.py:112-144", "slash/runner.py:22-82"]}
{"id": "C121", "title": "Checking the requirements of a test", "statement": "Before a test is run each of its requirements is asked, in order. If all answer, the functions of all of them were called, once for each time they are listed; the test is run if and only if all are met and it is not excluded. Otherwise one skip is recorded for each unmet requirement, in order, with the message of its answer, else the one it was declared with, else its repr, and test_avoided is fired, with the distinct reasons of all of them; if the requirements are met but the test is excluded it is told so. If one fails (it raises, cannot be called, answers with a tuple that is not a pair), none after it is asked, no skip is recorded, test_avoided is not fired, and its exception is the outcome. Unless marked with nofixtures, a test has each requirement of its own, of its fixtures and of the autouse fixtures once, whatever order sets have.", "quantifier": "for all lists of requirements, all answers (which may change from call to call), all orders of sets", "why_tests_cant": "Answers are arbitrary values of users' functions, sets have arbitrary order; the tests use at most two requirements with constant answers.", "anchors": ["slash/core/requirements.py:47-78", "slash/core/runnable_test.py:47-65", "slash/runner.py:129-156"]}
{"id": "C122", "title": "Proxies of tracebacks", "statement": "Whatever sequence of making proxies of tracebacks and frames, assigning tb_next and tb_frame, reading and giving up references is run, afterwards every object is counted exactly as often as it is referred to. create_traceback_proxy(tb, k) of a traceback with more than k entries gives two proxies: following tb_next from the first one finds the entries (frame, tb_lasti, tb_lineno) of the traceback without its first k, the last at the second proxy; no object that existed is changed; with k or fewer entries it is an AssertionError. Without a traceback it shows the frames of the stack without the k innermost, the outermost first, an IndexError if none is left. The fake traceback of handling_exceptions shows the frames of the stack followed by the entries of the exception's traceback.", "quantifier": "for all heaps with right counts, all tracebacks, stacks and frame corrections, all sequences of assignments", "why_tests_cant": "The code writes reference counts and pointers into the memory of the interpreter; a count that is wrong by one shows as a crash much later or never.", "anchors": ["slash/utils/traceback_proxy.py:69-183", "slash/exception_handling.py:85", "slash/exception_handling.py:126-130"]}
{"id": "C123", "title": "The configuration of plugins", "statement": "With plugins of which no two of different names have the same name in the configuration (spaces become underscores): after any sequence of calls of the plugin manager and assignments to settings, whichever of them raise, every installed plugin that asks for a configuration finds it under its current_config with all settings it asked for, and everything under plugin_config belongs to an installed plugin. A setting has the value that the plugin asked for (get_config() before get_default_config()) when it was last installed, or the last value assigned since. In any state: installing or uninstalling a plugin changes no configuration of another name; a plugin refused for its name changes nothing, an incompatible one has no configuration afterwards; a plugin that is installed and uninstalled leaves the configuration as it was.", "quantifier": "for all sets of plugins, settings, sequences of calls and assignments, all activate() and deactivate() that raise or not", "why_tests_cant": "Tests install one plugin and look; what remains under plugin_config after failures, renamings and repetitions is seen by nobody.", "anchors": ["slash/plugins/plugin_manager.py:46-59", "slash/plugins/plugin_manager.py:137-167", "slash/plugins/plugin_manager.py:184-207", "slash/plugins/plugin_manager.py:258-259", "slash/plugins/plugin_manager.py:276-292", "slash/plugins/interface.py:32-39"]}
{"id": "C124", "title": "The coverage plugin", "statement": "activate() succeeds exactly if the coverage package is there, report_type is a comma separated list of html and xml, and no call of the package raises; then it has made one object for the file .coverage (.coverage.<id> in a worker; no two workers and no worker and the parent share a file), loaded the data if append is set, and started it last. Otherwise it was not started, unless starting itself raised. At the end of the session the measurement is stopped and saved before anything else; if this raises there is no report. A worker, and a session without reports, does nothing more. Otherwise the reports are made in the order of the names, each in the parent of a parallel session after combining the data; a CoverageException about no data gives up that report only; any other exception ends the reports and is raised, and is the only way that one is raised.", "quantifier": "for all configurations, kinds of session, lists of report types, all ways in which each call of the package ends", "why_tests_cant": "The tests run the plugin with one report in one kind of session, with the real package that does not fail.", "anchors": ["slash/plugins/builtin/coverage.py:20-70", "slash/utils/parallel_utils.py:3-12"]}
{"id": "C125", "title": "The verdict of a parallel session", "statement": "In every schedule of the calls of workers and manager, with workers dying at any moment, session.results.is_success() of the parent is true exactly if the parent's own result went well, nobody reported a session error, a failed worker or an interruption, and every result in the session is one that a worker reported and went well. If the parent stopped waiting and the session is a success, every collected test was reported by a worker as one that went well. What was once reported is remembered: later calls never make the session a success. The session is marked complete exactly if the server was stopped and the parent was not interrupted.", "quantifier": "every number of workers, tests, every schedule including deaths, timeouts and interruptions, every reported result", "why_tests_cant": "schedules are unbounded; a test suite sees a handful of interleavings", "anchors": ["slash/parallel/server.py: Server.report_client_failure, session_interrupted, report_session_error, serve", "slash/core/result.py: Result.is_success, GlobalResult.is_success"]}
{"id": "C126", "title": "The options of plugins on the command line", "statement": "The options of the configuration are added to the parser in the order of the leaves, each leaf's flags in the order arg, append, on, off, increase, decrease: those below plugin_config in one group per plugin, the groups in the order in which their plugins first appear, the others directly in the parser. Each installed plugin has a group of its own with exactly the options it added. ArgumentError is raised exactly if an option string would be there twice, and nothing else is raised. The settings of a plugin are in the group of its name in the configuration. The option --with-X that a plugin's title names asks for this plugin and no other; the one the title of the settings names does so if the plugin's name has no spaces.", "quantifier": "all configurations, all sets of installed plugins with distinct names, all sequences of calls of the manager before, all parsers", "why_tests_cant": "The tests have a few plugins with names without spaces.", "anchors": ["slash/utils/cli_utils.py:28-55,61-66", "slash/utils/conf_utils.py:41-75", "slash/plugins/plugin_manager.py:255-259"]}
{"id": "C127", "title": "A parallel session ends, and ends as a sequential one", "statement": "In every schedule, whatever dies or is interrupted, the workers make at most four calls each and two for every test, apart from requests answered with 'wait'. If every worker has a configuration and every test can be run by some worker, no worker dies, no hook raises, all workers collected the same tests and every result is understood, then under every fair schedule the session ends: from some moment on every worker is gone, every test has a result and the parent does not wait. Whatever else happens (deaths, exceptions, interruptions, reports of failures, other collections), under every fair schedule there is again and again a moment when every worker is gone or is told to wait for others to connect or send their collections, and it stays so once only workers act. Whenever the parent stopped waiting and neither a worker failed nor a result stopped the session, the results are those of all tests, each once and as its worker reported it, and (without reported errors or interruptions) the session is a success exactly if running the tests one after another with these results would be.", "quantifier": "every number of workers and tests, every configuration, every schedule (for the end: every infinite fair schedule)", "why_tests_cant": "termination under all fair schedules cannot be observed by running some of them", "anchors": ["slash/parallel/server.py: Server", "slash/parallel/tests_distributer.py: TestsDistributer", "slash/parallel/worker.py: Worker.start_execution"]}
{"id": "C128", "title": "Which workers are noticed to be down", "statement": "A connected worker is reported as failed at a check exactly if a keepalive of it arrived before and the last one did so more than parallel.communication_timeout_secs ago. The session is given up exactly if no keepalive of any worker arrived for more than parallel.no_request_timeout (since the start if there was none). Nothing else is done by these checks, and after giving up nothing is.", "quantifier": "all sequences of keepalives and checks at all times, all sets of connected workers, all timeouts", "why_tests_cant": "depends on times and on the order of keepalives and checks", "anchors": ["slash/parallel/server.py: KeepaliveServer", "slash/parallel/parallel_manager.py: ParallelManager.check_worker_timed_out, check_no_requests_timeout, start"]}
{"id": "C129", "title": "Custom hooks", "statement": "Whatever calls of add_custom_hook, ensure_custom_hook, remove_custom_hook, get_hook_by_name and gossip.define were made, a hook exists exactly if it was made by a call since its last removal or is one of slash's own and was never removed; it is the same object until it is removed, and a new one is an object that was never there. Adding an existing hook raises NameAlreadyUsed, looking up or removing a missing one LookupError, and then nothing changes. A call leaves all other names alone. If nobody uses gossip.define or the names of the module's own functions and imports, the module slash.hooks has exactly the existing hooks, each under its name, and its own functions.", "quantifier": "all sequences of calls, all names, all sets of hooks of slash", "why_tests_cant": "sequences of adding and removing", "anchors": ["slash/hooks.py: _define, add_custom_hook, ensure_custom_hook, remove_custom_hook, get_all_hooks, get_hook_by_name"]}
{"id": "C130", "title": "Links to logs archived by a CI system", "statement": "The detail log_link of a test is set exactly if the environment variable is: with the default configuration to the url without slashes at its end, /artifact/, and the path of the log with slashes, with another template to what the template says with these two; all other details stay. A template with another key raises KeyError, a test without log file AttributeError; then no detail changes.", "quantifier": "all environments, urls, paths, separators, details; all templates of characters and the two keys", "why_tests_cant": "all templates and urls", "anchors": ["slash/plugins/builtin/ci_links.py: Plugin"]}
{"id": "C131", "title": "Coloured strings", "statement": "get_colored of a coloured string, or of strings put together with +, shows every character in its colour, plain ones in none, and leaves the terminal without colour; it raises exactly if a colour does not exist. str and len are those of the characters, + puts them together, ljust and % of a coloured string are those of its string in its colour. Formatter.write writes a string that does not end with a newline as it is, a coloured one in its colour if the stream is a terminal.", "quantifier": "all strings, colours and sums of them, in every grouping", "why_tests_cant": "all ways to put strings together", "anchors": ["slash/utils/color_string.py: ColorString, ColorCompoundString", "slash/utils/formatter.py: Formatter.write"]}
{"id": "C132", "title": "Themes of the console", "statement": "The attributes of a theme are on and no others; on a light background white becomes black and nothing is white.", "quantifier": "all theme strings", "why_tests_cant": "all theme strings", "anchors": ["slash/reporting/console_reporter.py: theme"]}
{"id": "C133", "title": "What results tell", "statement": "Whatever calls were made on a result: its logs are the path set last, if not empty, then the additional ones in order; its directory is that of the path set last; its duration is the time from the last start to the last end, zero without one of them. Its repr says success, error, failure, skip, finished, interrupted exactly if it is, and success only alone or with finished. The listings of errors and failures of a session give each result with any exactly once, with all of them, the global one last, and the numbers in the repr fit them.", "quantifier": "all sequences of calls, all results and sessions", "why_tests_cant": "sequences of calls", "anchors": ["slash/core/result.py: Result, SessionResults"]}
{"id": "C134", "title": "The interactive shell", "statement": "The exceptions raised in the shell are shown, in order, up to the first TerminatedException, with which it ends and which is the only thing that adds the error 'Terminated' to the result, once and last. handle_exception gets exactly those Exceptions that come from code that was called and not from what was typed. A name in the shell is the attribute of slash.g if exposed, else the keyword argument. Its colours are those configured, else those of the background.", "quantifier": "all sequences of statements and exceptions, all namespaces", "why_tests_cant": "sequences of exceptions in an interactive shell", "anchors": ["slash/utils/interactive.py: _interact, _is_exception_in_ipython_eval, start_interactive_shell"]}
{"id": "C135", "title": "Loading plugins from search paths", "statement": "If no file fails, exactly the files whose names end with .py are imported, in order, each once, and install_plugins of each that has it is called after its import. If one fails, all before it is done, nothing after, and the exception is raised.", "quantifier": "all trees of files, all outcomes of imports and install_plugins", "why_tests_cant": "failing imports at every place", "anchors": ["slash/plugins/plugin_manager.py: PluginManager.discover"]}
{"id": "C136", "title": "Messages on the console", "statement": "After a message (or error message, or the notice of the debugger) the cursor is at the beginning of an empty row and the reporter has no line in progress. On a terminal that understands '\\r' a message that fits has a row of its own, from the first column, with only blanks behind it, where the line in progress was, and the rows above stay as they were; several messages stand in their order. If something else is written between the notifications before and after output, the line in progress is shown again. (A line in progress whose length is a multiple of the width is excepted.)", "quantifier": "all screens, widths of the terminal, lines in progress, sequences of messages", "why_tests_cant": "screens and widths", "anchors": ["slash/reporting/console_reporter.py: ConsoleReporter.report_message, report_error_message, report_before_debugger, TerminalWriterWrapper.clear_line_in_progress"]}
{"id": "C137", "title": "The number of collected tests", "statement": "While tests are collected, a terminal wide enough shows the number of tests so far in one row, nothing else changes; at the end exactly one row has been added, with the number of tests collected and nothing left of the numbers before; the same if the output is no terminal.", "quantifier": "all numbers of tests, all screens and widths", "why_tests_cant": "all numbers of tests", "anchors": ["slash/loader.py: Loader._collect", "slash/reporting/console_reporter.py: ConsoleReporter._report_num_collected"]}
{"id": "C138", "title": "What a session tells of itself", "statement": "The duration of a session is zero before its start, the time since the start while it runs, the time from start to end afterwards, whenever it is asked for, and asking never fails. The number of tests is the sum of the numbers given, which for tests loaded without the interactive one is the number of tests to run; the exceptions that skip are SkipTest and those registered, in order; a session is complete exactly if it was marked. The name of the host is what stands before the first dot.", "quantifier": "all sequences of calls, times, collections of tests", "why_tests_cant": "sequences of calls with times", "anchors": ["slash/core/session.py: Session.duration, get_started_context, increment_total_num_tests, register_skip_exception", "slash/loader.py: Loader._collect"]}
{"id": "C139", "title": "How variations are compared and written", "statement": "Two variations are equal exactly if they choose the same values for the same parametrizations. The text of dump_variation_dict, by which the collections of workers are compared, is the same for two variations exactly if they bind the same names to the same indices, whatever the order in which they were bound.", "quantifier": "all variations", "why_tests_cant": "all orders of names, all indices", "anchors": ["slash/core/variation.py: Variation.dump_variation_dict, __eq__"]}
{"id": "C140", "title": "Fixtures that are generators", "statement": "A yield fixture runs the code of its generator up to the first yield when it is needed, and what is yielded is its value; when it is given up, the code up to the end of the generator is run, then the cleanups it added are called, the last one first, each once. A generator that raises or ends before it yields makes the request fail, the cleanups it added until then are called at once, and nothing is left for later. One that raises or yields again afterwards ends with that exception or a RuntimeError, and code after the second yield is never run. slash.generator_fixture makes a fixture with the values yielded, in order, and lets an exception of the generator through. slash.use names the fixture an argument stands for.", "quantifier": "all generators (any code between any number of yields), all added cleanups, any of which may raise", "why_tests_cant": "arbitrary generators, with exceptions at any point", "anchors": ["slash/core/fixtures/utils.py: yield_fixture, generator_fixture, use, get_real_fixture_name_from_argument", "slash/core/fixtures/active_fixture.py: ActiveFixture.add_cleanup, do_cleanups", "slash/core/fixtures/fixture_store.py: FixtureStore._compute_fixture_value, _call_fixture, _deactivate_fixture"]}
{"id": "C141", "title": "The source an error shows", "statement": "code_line of a frame is the line of the file without the white space at its end; code_string is the text of the file from the first line of the function to the end of that line, and None exactly if the file has none of those lines. A frame is one of the test exactly if it runs the code of the function of the current test, below the wrappers of slash. The console shows, with context, the lines of the function up to that of the error as they stand in the file, without only that one, and marks exactly the last; those of the test in the colours of the test.", "quantifier": "all files, functions, lines, wrappers", "why_tests_cant": "all files and line numbers", "anchors": ["slash/utils/traceback_utils.py: DistilledFrame", "slash/utils/python.py: get_underlying_func", "slash/reporting/console_reporter.py: ConsoleReporter._write_frame_code"]}
{"id": "C142", "title": "The verdict, the console and the xunit report agree", "statement": "Whoever asks whether a result is a success (the runner, the server about a worker's result, the console) gets the same answer. The numbers of tests, errors, failures and skips in the xunit report are those of the results of the session. A session that is a success shows no error or failure, neither in the xunit report nor in the summary of the console, whatever the settings. A session that is no success, if every test ran to its end or was skipped and no worker reported an error of its own, counts at least one error or failure in the report, and has a section in the summary unless the error is one outside of the tests.", "quantifier": "all results of all sessions, all settings of the console", "why_tests_cant": "combinations of outcomes over any number of tests and three independent consumers", "anchors": ["slash/core/result.py: Result.is_success, SessionResults._count", "slash/plugins/builtin/xunit.py: Plugin.session_end", "slash/reporting/console_reporter.py: ConsoleReporter.report_session_end"]}
{"id": "C143", "title": "What is left to resume agrees with the verdict", "statement": "slash resume without options has nothing to run exactly if every collected test has a result and every result is that of a test that ran to its end with no error, failure, skip or interruption. After a session that was a success without skips nothing is left; after one that was a success at most skipped tests are. After a session that was no success something is left, unless what went wrong was outside of its tests.", "quantifier": "all results of all sessions, all collected tests, any order of sets", "why_tests_cant": "two subsystems that see the same results at different times", "anchors": ["slash/resuming.py: save_resume_state, _filter_tests", "slash/core/result.py: Result.is_success, is_success_finished, GlobalResult.is_success"]}
{"id": "C144", "title": "Sequential and parallel sessions stop after the same test", "statement": "A session in this process and one with a single worker run the same tests: those up to the first whose result has a fatal error or, with stop_on_error, is no success; and both end with the same verdict, which is no success if tests are left. This needs that nothing goes wrong outside of the tests; in any case the sequential session runs no test that the parallel one would not. The sequential session is complete exactly if none of its tests is a reason to stop.", "quantifier": "all results of all tests, any results the session has before, with and without stop_on_error", "why_tests_cant": "two implementations of the same rule in different processes", "anchors": ["slash/runner.py: run_tests, _mark_unrun_tests", "slash/parallel/server.py: finished_test, get_test, _mark_unrun_tests, serve", "slash/parallel/worker.py: start_execution"]}
{"id": "C145", "title": "What an application is set up with", "statement": "The arguments an application parses are those set last, else those of the process; it reports to the reporter set last, else to a new one on the stream given last (None is not given), else on stderr; its console handler uses the same stream. The name of its parser is the base name of the process and its first argument; its usage lists the metavars given since the application was made or last left, and -i and a description are known only if given since then. It can be set up in any way that does not enable -i twice before it is left. slash_run sets up exactly its own arguments, stream, usage and -i.", "quantifier": "all sequences of calls on an application, all arguments of all processes", "why_tests_cant": "each setting is checked alone in tests, and applications are used once", "anchors": ["slash/app.py: Application.__init__, enable_interactive, _reset_parser, set_argv, _get_argv, set_report_stream, set_reporter, get_reporter", "slash/utils/cli_utils.py: SlashArgumentParser", "slash/frontend/slash_run.py: slash_run"]}
{"id": "C146", "title": "What notifications tell of a session agrees with its results", "statement": "The notification sent at the end of a session says Succeeded in its title exactly if the results are a success (skips allowed) and its text has the numbers of successful, erroneous, failed and skipped results, which can be read back from it. Of a session that succeeded no test is counted as not successful, and none was interrupted; of one that failed at least one is, if everything ran, nothing was interrupted and no worker was lost. The number of tests that did not succeed counts every test with errors or failures once, and one more for errors outside of tests.", "quantifier": "all results of all tests, all configurations and addresses, all providers that fail", "why_tests_cant": "arbitrary results", "anchors": ["slash/plugins/builtin/notifications.py: _get_message, _finished_successfully, session_end", "slash/core/result.py: SessionResults.__repr__, get_num_errors, get_num_failures"]}
{"id": "C147", "title": "A cleanup is called with what it was registered with", "statement": "Whatever a program does with its lists and dictionaries afterwards, its cleanups are registered, refused and called as if each had its own copy of args and kwargs. A registration is accepted exactly if there is a session, nothing but the function is given by position, no keyword is unknown, args can be iterated, kwargs can be copied, a cleanup is not both critical and for success only (and neither flag is given to the function that sets it), and all arguments can be shown; a refused one changes nothing. The flags of a registered cleanup are those asked for.", "quantifier": "all programs that make and change lists and dictionaries, register cleanups with any arguments and call them", "why_tests_cant": "arbitrary sharing between the arguments of arbitrarily many cleanups", "anchors": ["slash/cleanups.py: add_cleanup, add_critical_cleanup, add_success_only_cleanup", "slash/core/cleanup_manager.py: add_cleanup, _Cleanup"]}
{"id": "C148", "title": "The error about a cycle of fixtures shows one", "statement": "In every store that any sequence of definitions, namespaces and resolutions leads to, asking what a fixture needs raises CyclicFixtureDependency exactly if a cycle can be reached from it; the fixtures in the message then begin with the one asked about, each is followed by one of its arguments, only the last one is in it twice, with at least one other between the two places, and all of them have a name to show.", "quantifier": "all sequences of operations on a fixture store, all fixtures", "why_tests_cant": "Tests have one cycle and do not look at the message.", "anchors": ["slash/core/fixtures/fixture_store.py:146-155", "slash/core/fixtures/fixture_store.py:168-195"]}
{"id": "C149", "title": "What is swallowed is ignored and reported, what is marked against it is neither", "statement": "For every program of raised, marked and caught exceptions, decorated functions and nested swallowing contexts: an exception that is marked is never ignored by any context afterwards; one that leaves a function decorated with disable_exception_swallowing goes through all contexts around the call without anything else happening; one without the mark is kept in the log and the program goes on; a context lets only marked exceptions through; if a sentry client is configured exactly the ignored exceptions are reported to it, in their order, unless a context is told not to report.", "quantifier": "all programs, all exceptions, with and without a client", "why_tests_cant": "Tests have single contexts and no sentry client.", "anchors": ["slash/exception_handling.py:178-199", "slash/exception_handling.py:238-265"]}
{"id": "C150", "title": "skip_all skips the tests of a class and of the classes derived from it", "statement": "Whatever classes there are and in whatever order skip_all, abstract_test_class and collecting happen: of a class that was itself declared abstract (not only one of its bases) no test is collected, of any other class all; they are skipped exactly if skip_all was called before for the class or one of its bases, with the last reason given for the nearest of these in the order of inheritance; nothing that happens later changes collected tests; abstract_test_class accepts exactly the classes derived from Test.", "quantifier": "all class hierarchies, all sequences of calls", "why_tests_cant": "There is no test of skip_all; hierarchies and the order of calls are unbounded.", "anchors": ["slash/core/test.py:23-40", "slash/core/test.py:84-92", "slash/core/test.py:147-162"]}
{"id": "C151", "title": "Log records on the console leave the line in progress alone", "statement": "Whatever the reporter writes and whatever is logged to the console, in any order: the reporter's note of the line in progress is what it would be without the records; on a terminal that understands carriage returns, with a console reporter, the screen shows that line after each of them, unless a record comes when the line just fills a row or cannot be formatted; a record that fits in a row has a row of its own; without a session, a reporter that cares or carriage returns the terminal gets the text of the record and nothing else.", "quantifier": "all interleavings of output and records, all texts and widths", "why_tests_cant": "Interleavings and texts are unbounded, and what is on a screen is not seen by tests of streams.", "anchors": ["slash/log.py:115-122", "slash/reporting/console_reporter.py:105-127", "slash/reporting/console_reporter.py:142-146", "slash/reporting/reporter_interface.py:3-7"]}
{"id": "C152", "title": "The marks on exceptions are their own, and corrections add up", "statement": "Whatever exceptions are marked and asked for marks, in whatever order: the frame correction of an exception is the sum of the corrections made on it; it is fatal, inhibits its traceback or has the mark of a marker exactly if that mark was put on itself, not on another exception of its class; asking changes nothing.", "quantifier": "all sequences of marking and asking, all exceptions and classes", "why_tests_cant": "Marks live in dictionaries that objects may share through their classes; tests mark single exceptions.", "anchors": ["slash/exception_handling.py:202-236", "slash/utils/exception_mark.py:5-44"]}
{"id": "C153", "title": "The function of a fixture finds its own fixture and scope", "statement": "Whatever fixtures a fixture needs and whatever their functions do: each function that is called finds its own fixture as context.fixture and, if it has an argument `this`, there; in a session the cleanups it adds without a scope belong to the scope of its fixture, and those it adds to the fixture (as yield fixtures do) to its own; afterwards, also if one of them raises, context.fixture and the default scope are what they were before; a computation that ends well has called the function of a fixture that was not active, and no function that raises; one that fails leaves its fixture inactive.", "quantifier": "all trees of fixtures, all states they are computed in", "why_tests_cant": "Trees of fixtures, and where in them something raises, are unbounded.", "anchors": ["slash/core/fixtures/fixture.py:63-70", "slash/core/fixtures/fixture_store.py:321-349", "slash/core/fixtures/fixture_store.py:369-397", "slash/core/cleanup_manager.py:95-102"]}
