# Formal model of getslash/slash: design

Source: `/repo` (pinned commit), read as text only. Prover: Rocq/Coq 8.16.1. All files are in
`rocq/theories`, logical prefix `Verif`. Properties: `properties.jsonl`. Which theorems
establish which property: `MANIFEST.json`. Log of mutation tests: `seeded/LOG.jsonl`.

## Approach

* Shallow, executable, total Gallina models; exceptions are values, Python objects whose identity
  matters get numeric ids or live on an explicit heap, unbounded loops get fuel and an explicit
  out-of-fuel result that is proved unreachable (`no_fuel` lemmas, `C26`, `C28_terminates`,
  `C42_parsing_terminates`, `C62_extraction_ends`, `C74_terminates`).
* User code (test bodies, hook handlers, cleanups, fixture finalizers) is an arbitrary
  program in a small AST `prog` (register cleanup, raise, add error, nested
  `handling_exceptions`, `try/except`, `try/finally`, activate a fixture, ask for the cleanup phase,
  branch on any function of the whole state). Theorems quantify over all programs and all such functions.
* Runs of the core produce a trace of observable events; the properties are stated on traces and
  final results with small independent specifications (`*Spec.v`, acceptors), not with the
  model's helpers.
* `X.v` is a model (every definition cites the lines it models, or says that it is plumbing of the
  model or a Python operation), `XProps.v` has the property theorems, examples showing that their
  hypotheses are met, and `Print Assumptions`. Other files are proofs.
* Where the faithful model violates the expected property: `*_refuted` theorem with a witness,
  plus the strongest version found to hold, suffixed `_partial`.

## What is modelled

| file | code of /repo/slash | properties |
|------|------|-----|
| Events, Core | exception_handling.py, core/result.py, core/cleanup_manager.py, core/scope_manager.py, core/session.py (start/end), runner.py, utils/python.py (call_all_raise_first), fixture teardown of core/fixtures/fixture_store.py, exit code of slash_run, cleanups.py (get_current_cleanup_phase) | C01–C13, C16–C22, C24, C29 (whole session), C56–C59, C69, C85 |
| Results | core/result.py (SessionResults, predicates, counters) | C14–C16 |
| Iteration | utils/iteration.py | C23, C55 |
| FixtureGraph | core/fixtures/namespace.py, registration, resolution, needed parametrizations in fixture_store.py, fixture.py | C25–C27 |
| FixtureLife | computing, caching, teardown of fixture values in fixture_store.py, active_fixture.py | C28–C30 |
| Variations | core/variation_factory.py, core/variation.py, iter_cartesian_dicts | C31 |
| Exclusions | core/exclusions.py, resolve_name | C32 |
| Parallel | parallel/server.py, tests_distributer.py, protocol of worker.py, the calls of parallel_manager.py, force/exclude of worker_configuration.py | C33–C38, C65–C68 |
| Resume | resuming.py, equality in core/metadata.py, loader `_iter_test_resume` | C39, C40 |
| Loader | loader.py (repeats, order, addresses), utils/id_space.py, clone | C41, C63, C64 |
| Matcher | utils/pattern_matching.py, filters of loader.py, tagging pattern matching | C42, C60 |
| Tags | core/tagging.py and the places that combine tags | C43, C61 |
| Suite | utils/suite_files.py | C44, C62 |
| Plugins | plugins/plugin_manager.py (install, activate, pending, restoring context, registrations) | C45–C47 |
| Warnings | warnings.py | C48 |
| CliConf | utils/cli_utils.py (configuration from arguments), utils/conf_utils.py | C49 |
| LocalConfig | core/local_config.py | C50 |
| Marks | utils/exception_mark.py, utils/marks.py | C51 |
| Ctx | ctx.py | C52 |
| ConsoleLines, LogFiles | log.py (truncation, deletion of logs), `_safe_repr` | C53, C54 |
| TestCall | core/test.py, core/function_test.py, call_with_fixtures, test_start/test_end of active fixtures | C70, C71 |
| Requires | core/requirements.py | C72 |
| FixtureArgs | required names and fixture dictionary of fixture_store.py, use_fixtures, requirements | C73–C75 |
| App | app.py, frontend/slash_run.py, frontend/main.py (exit status) | C76, C77 |
| Expect | assertions.py (assert_raises, allowing_exceptions), ignored exception types | C78 |
| Formatter | utils/formatter.py, layout of core/error.py | C79, C80 |
| Transfer | Result.serialize/deserialize of core/result.py, as parallel/server.py uses them | C81 |
| Details | core/details.py | C82 |
| Debugger | debug_if_needed, launch_debugger of utils/debug.py | C83 |
| XUnit | plugins/builtin/xunit.py (session_end) | C84 |
| Parameters | core/fixtures/parameters.py | C86, C87 |
| Naming | safe_repr of core/variation.py, get_address of core/metadata.py, labels | C88 |
| Swallow | swallowing contexts of exception_handling.py | C89 |
| VarNames | naming of parametrizations in core/variation_factory.py, Variation.id | C90 |
| Listing | frontend/slash_list.py, Fixture.is_override | C91 |
| Signals | plugins/builtin/signal_handling.py | C92 |
| ReportEnd | reporting/reporter_interface.py:36-47 as called by runner.py:60 | C93 |
| Console | reporting/console_reporter.py:369-421 (file lines and test characters), told by runner.py:32-60 and core/result.py:200-220 | C94 |
| Notify | plugins/builtin/notifications.py:54-66, 87-107, 124-246, with exception_handling.py:117-164 and utils/debug.py:57-79 around a notifier | C95 |
| LogRoute | log.py:25-31, 124-127, 151-203, 210-286, 324-374 (which handlers are entered and in what order), warnings.py:76-89, frontend/main.py:58-63; the dispatch of the logbook library | C96 |
| Trace | utils/traceback_utils.py:30-112, 124-127, exception_handling.py:83-90, 125-130, utils/traceback_proxy.py:172-181, core/error.py:40-47, 110-127, core/result.py:205-231, utils/__init__.py:42-64, loader.py:278-281, core/fixtures/parameters.py:218-225, log.py:29-31 (frames only) | C97 |
| Summary | reporting/console_reporter.py:180-367 (pieces written, not colours and times), core/result.py:119-120, 182-187, 282-283, warnings.py:92-102 | C98 |
| Terminal | reporting/console_reporter.py:52-131, 439-444 (a screen with one current row in place of the terminal, exact division) | C99 |
| Manager | parallel/parallel_manager.py:36-137, parallel/worker_configuration.py:25-52, 98-115 (any environment: processes, remote calls, hooks and clock are an oracle over the trace; workers in tmux: TmuxWorkers) | C100 |
| Site | site.py:8-79 (customization code, files, environment, entry points and os.path are oracles) | C101 |
| FuncMarks | utils/function_marker.py:6-48, utils/python.py:36-40, 134-135 (attributes as a function of object and name) | C102 |
| ParPlugins | utils/cli_utils.py:12-26, 57-59, utils/parallel_utils.py:3-18, plugins/plugin_manager.py:77-93, 120-135, app.py:114-127 (on Plugins; parsing of other arguments is two given values, the hook configure a list of calls) | C103 |
| Links | log.py:151-208, 210-221, 255-316, parallel/server.py:127 (file system as a function of paths; refusals of the system as variables; directories made or removed not recorded) | C104 |
| Prelude | app.py:40, 44, 88, 102-138, 167-191, log.py:382-404, warnings.py:38-54 (what happens during the start is any sequence of records, warnings, filters and the steps of the session; stacks of handlers from LogRoute) | C105 |
| Ext | exthook.py:13-105, ext/__init__.py:12-17 (importing the real module is any function on sys.modules; the import protocol of Python not modelled) | C106 |
| Slow | utils/interactive.py:68-90 (the texts and the duration not modelled; threads interleave at the steps listed) | C107 |
| Collect | loader.py:55-58, 94-163, 176-226, 234-276, core/test.py:14-40, 98-102, 147-166, core/function_test.py:24-25, 49-58, core/runnable_test_factory.py:14-60, core/metadata.py:43-47, 115-123 (imports, slashconf files, fixtures and variations given from outside; generators are always run to their end; links and Windows drives not modelled) | C108 |
| Shown | frontend/list_config.py:9-11, 21-59, frontend/slash_list_plugins.py:10-12, 24-47, utils/cli_utils.py:124-166, plugins/plugin_manager.py:77-83 (arguments parsed, settings and documentation given from outside; colorama sequences as constants) | C109 |
| Vars | utils/traceback_utils.py:17-20, 115-122, 129-150, 162-273, core/error.py:57-65, 128-129, core/result.py:224-245 (values described by what the code asks of them; BaseExceptions, source lines and is_in_test_code not modelled) | C110 |
| Gather | frontend/slash_run.py:37-75, 87-94, 102-125, resuming.py:73-171, 219-225 (loader, suite files, start of workers, execution given by what they return or raise; commits given by their outcomes) | C111 |
| TmuxWorkers | parallel/parallel_manager.py:43-137 with parallel/worker_configuration.py:15-23, 46-52, 117-154, utils/tmux_utils.py:33-53 (any environment, as in Manager) | C112 |
| WorkerCommand | parallel/worker_configuration.py:25-32, 46-52, 98-101, 122-128, utils/tmux_utils.py:8-71, frontend/main.py:24-35 (not: what tmux and the shell do with the command) | C113 |
| WorkerReports | parallel/worker.py:30-70, parallel/server.py:30-62, 205-215, parallel/parallel_manager.py:62-72, warnings.py:52-54 (pickling, opening of files and connections given by their outcomes) | C114 |
| Globals | ctx.py:7-144 (objects have a dictionary and no class; names with two underscores left out but for those the proxies define) | C115 |
| Errors | core/error.py:18-50, 70-102, core/result.py:82-117, 205-245, 285-287, utils/exception_mark.py:5-46, utils/python.py:138-145 (exceptions by number and type; hooks, messages and tracebacks left out) | C116 |
| Decorators | core/fixtures/utils.py:12-26, 49-90, 116-146, core/fixtures/parameters.py:17-44, utils/python.py:18-98 (functions by what they do, their fixture information and __wraps__) | C117 |
| LogPaths | log.py:33-73, 146-149, 232-242, 261-283, 289-290, 377-379 (templates as parts, values by their texts, the table of open files, colours) | C118 |
| Implicit | (proofs about Core: which parts of a session run with which scope on top) | C06 |
| Flags | (proofs about Core: what the cleanups and fixtures of a scope's end are told by the scope's result) | C03, C05, C29 |
| WarnCapture | warnings.py:17-36, 44-54, utils/warning_capture.py:4-26 (the filters and showwarning of the warnings module; the actions that remember what was shown are not modelled) | C119 |
| SessionHooks | (proofs about Core: the hooks of get_started_context, core/session.py:112-144) | C120 |
| ReqCheck | core/requirements.py:47-78, core/runnable_test.py:47-53, 61-65, core/function_test.py:39-43, core/test.py:109-113, runner.py:129-156 | C121 |
| TraceProxy | utils/traceback_proxy.py:62-181 | C122 |
| PluginConf | plugins/plugin_manager.py:46-59, 137-167, 184-207, 258-259, 276-292, plugins/interface.py:32-39 | C123 |
| Coverage | plugins/builtin/coverage.py:29-70, utils/parallel_utils.py:3-12 | C124 |
| ParVerdict | parallel/server.py:96-107, 199-203, 213-215, 228-231, core/result.py:182-187, 311-318, 374-379 | C125 |
| PluginOptions | utils/cli_utils.py:28-55, 61-66, utils/conf_utils.py:41-75 | C126 |
| ParTermProps (on Parallel) | parallel/server.py:66-231, parallel/tests_distributer.py:8-34, parallel/worker.py:57-136 | C127 |
| KeepAlive | parallel/server.py:30-61, parallel/parallel_manager.py:88-113, 121-124 | C128 |
| CustomHooks | hooks.py:1-126 (not the handlers; gossip is assumed) | C129 |
| CiLinks | plugins/builtin/ci_links.py:15-44, core/details.py:8-13 | C130 |
| ColorStrings | utils/color_string.py:4-59, utils/formatter.py:27-38, reporting/console_reporter.py:24-28 | C131, C132 |
| ResultInfo | core/result.py:122-150, 158-160, 195-197, 252-259, 291-299, 330-361 | C133 |
| Interactive | utils/interactive.py:17-50, plugins/plugin_manager.py:62-75 | C134, C135 |
| Messages | reporting/console_reporter.py:142-171, 427-437, loader.py:94-104 | C136, C137 |
| SessionInfo | core/session.py:25, 53-65, 105-116, 134, 156-170, loader.py:103, core/variation.py:74-96 | C138, C139 |
| GenFixture | core/fixtures/utils.py:93-181, core/fixtures/active_fixture.py:36-42, core/fixtures/fixture_store.py:339-349, 388-404 | C140 |
| FrameSource | utils/traceback_utils.py:136-159, utils/python.py:52-57, reporting/console_reporter.py:347-367 | C141 |
| VerdictProps (relates Core, Results, Transfer, ParVerdict, Summary, XUnit) | core/result.py:32-49, 182-187, 311-318, 386-421, plugins/builtin/xunit.py:83-124, reporting/console_reporter.py:180-238 | C142 |
| ResumeVerdictProps (relates Resume, Results) | resuming.py:101-133, 186-206, core/result.py:182-190, 311-318 | C143 |
| Stops, StopsProps | runner.py:38-82, 212-216, parallel/server.py:112-118, 143-194, 228-231, parallel/worker.py:98-121 | C144 |
| AppSetup, AppSetupProps | app.py:30-44, 68-100, 122, 163, utils/cli_utils.py:97-121, frontend/slash_run.py:18-31 | C145 |
| Told, ToldProps | plugins/builtin/notifications.py:190-205, core/result.py:333-338 | C146 |
| CleanupArgs, CleanupArgsProps | cleanups.py:7-26, core/cleanup_manager.py:45-68, 149-163, 167-196 | C147 |
| CyclePath, CyclePathProps | core/fixtures/fixture_store.py:146-155, 168-195 | C148 |
| NoSwallow, NoSwallowProps | exception_handling.py:178-199, 238-265 | C149 |
| SkipAll, SkipAllProps | core/test.py:23-40, 84-92, 147-162 | C150 |
| Emit, EmitProps | log.py:115-122; reporting/reporter_interface.py:3-7 | C151 |
| FrameMark, FrameMarkProps | exception_handling.py:202-236, utils/exception_mark.py:33-44 | C152 |
| FixtureCall, FixtureCallProps | core/fixtures/fixture.py:63-70, core/fixtures/fixture_store.py:321-349, 369-397 (contexts and scopes only; active fixtures are valid, no parameters) | C153 |
<!--NEWROWS-->

The header of each model file lists what it simplifies.

## Trusted base

* The Coq kernel (8.16.1) and `coqchk`.
* `Print Assumptions` of every theorem named in `MANIFEST.json` (990 of them) answers "Closed under
  the global context": no axiom is used by any of them.
* `vcheck`/`coqchk -o` list seven axioms of the standard library because the files that declare them
  are loaded, though no theorem uses them: `Coq.ssr.ssrunder.Under_rel.Over_rel`, `Under_rel_from_rel`,
  `over_rel`, `over_rel_done`, `Under_rel`, `Under_relE`, `under_rel_done`.
* The correspondence between the Gallina definitions and the cited Python lines is by reading.
* The meaning of the Python operations and libraries used: dict/list/str operations (Dict.v, Str.v),
  pyparsing (Matcher.v, as documented), confetti's assignment (CliConf.v: an arbitrary partial
  conversion), gossip (one program per hook stands for all its handlers), SimpleXMLRPCServer (one
  request at a time), os.walk/pathlib (given file trees).

## Not modelled

* Asynchronous arrival of KeyboardInterrupt/SIGTERM between two bytecodes: interrupts are raised
  by user code (any point of any test, hook, cleanup or finalizer).
* Logging calls, capture of tracebacks, sentry, terminal output beyond truncation and layout;
  threads other than the calls of the parallel server; time.
* Importing of test files, assertion rewriting (dessert), the interactive shell, tmux itself, backslash
  reporting, documentation and doctest helpers.
* In Core: handlers of the hooks test_interrupt, error_added, interruption_added appear as events only
  (they are not modelled as raising). `e_worker = true` (parallel worker) is faithful for one test
  per call of run_tests only, as worker.py makes it.

## Findings

Each item is either a `*_refuted` theorem (named) or was found by reading while modelling (unnamed).

Cleanups and scopes
* `C05_*_refuted`: a cleanup raising SkipTest, or an interruption, keeps critical cleanups of the
  same scope from running.
* `C07_incorrect_scope_refuted`: naming a scope that was open earlier raises IndexError, not IncorrectScope.
* `C08_*_refuted`: for a module scope, success_only cleanups are decided by the result of the next
  test; for the session scope possibly by a test that never started; a failure in another module
  suppresses them; and (`C08_closing_refuted`) the verdict is that of the moment the scope begins to close, so a success_only
  cleanup is called after a newer cleanup of the same test has failed.
* `C10_refuted`: a module cleanup raising a skip desynchronises the scope manager; later tests run in
  the wrong module scope, and (`C69_refuted`) tests are reported successful that never started.
* `C11_raises_the_first_refuted`: call_all_raise_first raises the last exception.
* success_only test cleanups run although the test_start hook failed; a before_test_cleanups handler
  that raises skips all cleanups of the test.
* An exception from popping the session-global scope skips the session_end hooks; session_start raising
  means no session_end; escaping exceptions leave the remaining tests unmarked and the file report open.

Exceptions and results
* `C13_documented_refuted`: SystemExit is swallowed if swallow_types has BaseException/SystemExit.
* `C15_*_refuted`: interrupted tests are in no counter; a skipped test that did not start is counted twice.
* `C56_exit_code_refuted`: sys.exit(0) in a test ends the run with exit code 0.
* `C57_error_reported_refuted`: a result with an error and a skip is reported as skipped.
* `C59_interrupted_refuted`: an interruption recorded on the session's own result is not seen.
* `C22_files_balanced_refuted`: a run stopped at the last test of a file reports the end of the file twice.
* When the last test is fatal the session is not marked complete although every test ran.
* SystemExit in a test body followed by a test_end handler raising an ordinary exception is replaced
  and swallowed. A requirement predicate raising SkipTest escapes and aborts run_tests.
* `C78_*_refuted`: a handling context created before assert_raises records the expected exception;
  contexts that are not nested leave exception types ignored for the rest of the thread.

Fixtures
* `C28_*_refuted`, `C29_*_refuted`: recomputing a fixture does not recompute its dependents, which then hold
  a value that was torn down; after an interruption values survive the end of their scope.
* `C30_all_run_refuted`: the first raising finalizer stops the others of that fixture.
* `C70_*_refuted`, `C71_*_refuted`: an `after` whose fixtures cannot be computed, or a test_end callback raising
  a skip or interruption, leaves fixtures marked as started: test_start is silently not called in the next
  test. A KeyboardInterrupt in the method followed by a failing `after` is lost.
* `C72_*_refuted`–`C75_others_refuted`: requirements of a second base class are ignored; get_fixture_dict's
  substring test passes unexpected arguments; an alias can receive another fixture; requirements of fixtures
  used with use_fixtures are not checked; use_fixtures changes the list object it was given.
* `C32_*_refuted`: two exclude rules for the same names: only the last counts; names as a list: TypeError.
* Unhashable name lists of parametrize; `except LookupError` that never catches UnknownFixtures; overridden
  autouse fixtures are still activated; a failed resolve removes the fixture from the unresolved set.

Parallel execution
* `C36_*_refuted`: force_test from before_worker_start has no effect; given a test object it uses the index
  before sorting.
* `C37_late_report_refuted`: a report after report_client_failure gives a duplicate entry and an internal error.
* `C38_same_position_refuted`: the description of a test leaves out the class name.
* `C65_after_interruption_refuted`: the last worker connecting after the interruption makes the server serve again.
* A hook raising in get_test leaves the test assigned; tests excluded on all workers, or forced to a worker
  that is gone, never finish.

Loading, resuming, filters, tags
* `C39_*_refuted`, `C40_one_row_refuted`: tests without results that share an address collapse into one row;
  each copy of a repeated failed test is resumed.
* `C60_malformed_rejected_refuted`: text after the longest expression of a filter is ignored; "a andy" is
  read as "a and y"; commas cut filters of suite lines.
* `C43_order_independent_refuted`, `C61_tagging_is_local_refuted`: conflicts depend on the order; tagging a
  subclass changes its base.
* `C44_repeats_refuted`, `C62_each_file_once_refuted`: repeat of a line naming a suite file is ignored; suite
  files in nested directories are used several times. A suite file including itself never ends.
* repeat_all=0 behaves as 1; `_generate_test_sources` given a RunnableTestFactory hits UnboundLocalError
  (loader.py:120-124).

Plugins, warnings, marks, logs
* `C45_refuted`–`C47_*_refuted`: names "a b" and "a-b" collide; double activation registers twice; replacing an
  active plugin leaves its hooks; the session_start lambda survives deactivation; restoring_state_context stops
  at the first raising deactivate.
* `C48_*_refuted`: line 0 and empty texts count as unspecified; ignored_warnings leaks its filter when the body
  raises; a warning object without arguments raises IndexError.
* `C51_*_refuted`: marking a subclass changes the base's marks; a lookup on a class hides another base's marks.
* `C53_whole_line_refuted`, `C54_refuted`: console lines exceed the limit by the time stamp; a later successful
  test logging to the same path deletes the log of a failed one.

Application
* `C76_*_refuted`, `C77_*_refuted`: a result_summary handler that raises leaves the SIGTERM handler and contexts in
  place and app_quit uncalled; SystemExit(None) and exit code 256 give status 0 with failures; the interrupted flag
  is lost when the resume state cannot be saved; AssertionError in slash_run when app_quit raises.
* `C79_write_refuted`, `C80_*_refuted`: the last newline of a text is dropped; indentation of detailed tracebacks
  drifts.
* `C81_refuted`, `C81_facts_refuted`: errors for which pickle raises PicklingError or TypeError are not sent and
  nothing is reported, so a test that failed in a worker is a success in the parent; other exceptions of pickle
  (AttributeError for local classes) leave serialize and end the worker; facts of workers are never sent.
* `C82_alias_refuted`, `C82_copy_refuted`: append changes the list object given to set; all() shares its lists.
* `C83_which_refuted`: a debugger that raises NotImplementedError once started counts as unavailable and the next
  one is started.
* `C84_*_refuted`: the xunit header counts tests that did not start, of which nothing is shown, not even their
  errors; an error added while an AssertionError is handled is counted as error and shown as failure; one skip
  reason or detail that is no string leaves the report of the whole session empty, as the file is opened first.
* `C87_twice_refused_refuted`, `C87_decorating_is_local_refuted`: a second decorator for a name silently replaces the
  values of the first if several names are given at once or the name is no argument; decorating a parametrized
  function changes that function. A list of names (instead of a tuple) raises TypeError.
* `C88_different_values_refuted`, `C88_labels_refuted`: variations with the values 1 and '1' have the same address,
  and so has a value shown as `a0` (name and index) and the string 'a0'; labels may end in a newline.
* `C89_handling_refuted`: handling_exceptions(swallow=True) swallows exceptions marked noswallow.
  `C89_swallowing` holds for every exception: get_exception_swallowing_context swallows KeyboardInterrupt and
  SystemExit as well.
* `C90_inherited_before_refuted`: before methods of a test class and of its base class that parametrize the same name are
  both expanded, but both are called `before:x`; tests that differ in one of them have the same id and
  address, so they cannot be told apart when resuming or in parallel runs.
* `C90_nofixtures_refuted`: a function marked nofixtures is expanded over the values of parametrized autouse
  fixtures, all with the same (empty) id.
* `C90_autouse_refuted`: autouse fixtures of the same name hide each other's parameters.
* `C90_tuple_refuted`: of names parametrized together in a fixture, only the first is bound.
* `C91_unused_refuted`: `slash list` marks a fixture as unused if no test has it as an argument, even if the tests use it
  through other fixtures (or through use_fixtures, before and after).
* `C91_every_test_refuted`, `C91_no_params_refuted`: tests with the same address are listed once; --no-params cuts
  the path of a file at a parenthesis.
* `C92_twice_refuted`, `C92_replaced_refuted`, `C92_activated_twice_refuted`: if a signal is registered again while the signal handling
  plugin is active (e.g. a site's own SIGUSR1 handler), or the plugin is activated again, the handler of before is
  forgotten: after deactivation the plugin's handler stays.
* `C92_foreign_refuted`: if the handler of before was not set from Python, signal.signal returned None, and deactivating raises TypeError and
  leaves the remaining signals as they are.
* `C93_stored_refuted`: a requirement predicate that raises the same exception object for two tests ends the run: the second
  time the exception counts as handled, nothing is recorded, and `assert result.is_failure()` in report_test_end fails; the
  remaining tests do not run.
* `C93_agree_refuted`: a test with a failure that is skipped afterwards fires test_failure for plugins, but the reporter is told
  it was skipped.
* `C94_verdict_refuted`, `C94_session_cleanup_refuted`: a failing cleanup of a module runs when the first test of the next file
  begins, one of the session after the last test. The failure is recorded on the test that added the cleanup, but the console
  blames the file running then: the file with the failed test says PASS, a file all of whose tests passed says FAIL.
* `C95_outcome_refuted`: an exception of a notifier (a server that cannot be reached) is swallowed but recorded on the global
  result: a session all of whose tests passed becomes unsuccessful because a notification could not be sent, and a slack message sent after it is
  coloured as a failure under a title that says "Succeeded".
* `C95_endless_refuted`: with the debugger on, the exception of a notifier enters the debugger, which notifies, which fails
  again: the calls nest until the recursion limit and the debugger the user asked for is never reached.
* `C95_title_refuted`: the title is formatted twice; a brace in the host name makes every notifier fail.
* `C95_addresses_refuted`: the address of the backslash user is appended to the configured list for every message.
* `C96_once_refuted`: a record of the core below `core_log_level` is refused by the log of the test and so falls through to the
  handlers of the session: an error is captured twice, a user handler is called twice, and the record is written to the terminal
  by the handler of `main` although the console refuses it.
* `C96_silenced_refuted`: the silencing handler is entered before the unified session log, the user handlers and the
  capture of errors: a silenced logger is still written to the session log and still fails the test.
* `C96_unified_refuted`: the wrapper that writes to the unified session log is entered for the current thread only and
  without the filter: records of other threads are missing, records below the core log level are there.
* `C97_added_cause_refuted`: an error added in the outermost frame (a script that opens a session itself) records no
  frame: its cause is None and reading `filename`, `lineno` or `func_name` is an AttributeError.
* `C97_correction_refuted`: a `frame_correction` that leaves no frame makes the end of the slice negative: frames of slash
  itself come back and one of them is the cause.
* `C97_captured_refuted`: an error log captured as an error has `slash.log` as its cause, never the code that logged.
* `C97_iterate_refuted`: a parameter without a value given to `slash.parameters.iterate` is reported at a line of slash; the
  correction 4 counts the frames of `slash.parametrize`.
* `C98_told_refuted`: with `console_traceback_level` 0 the message of an exception is nowhere in the summary: it is written
  after the last frame only, and the header has it only without a traceback object, which there always is.
* `C98_no_exception_refuted`: with `console_traceback_level` 1 an error without frames (see C97) ends the report of the
  session with an IndexError; a skip whose reason is no string ends it with a TypeError.
* `C98_warnings_refuted`: warnings are grouped by file and line: different messages of one line are told as one repeated.
* `C99_box_refuted`: `write_box` shortens a headline by `headline[max_headline_length:]`, which keeps the end in place of the
  beginning, and is still too long if the headline is longer than twice the space.
* `C99_redraw_refuted`: the line in progress is blanked and drawn again modulo the width of the terminal: a line that fills
  its row exactly is left standing and overwritten.
* `C99_box_redraw_refuted`: `write_box` and `lsep` write past `_line`: after a box the line before it is drawn again.
* `C99_duration_refuted`: a clock set back by a second during the session gives a duration of 00:59:59.
* `C100_clean_refuted`: if a worker process cannot be started (or its `before_worker_start` hook raises), the `finally` clause of
  `ParallelManager.start` calls `wait_to_finish` of a worker whose `_pid` is None: AttributeError takes the place of the
  exception, the workers after it are not waited for, the running ones are not told to end, the servers are not stopped.
* `C100_interrupted_refuted`: the same for an interruption while the workers are started: it comes out as AttributeError.
* `C100_lost_refuted`: if the call `session_interrupted` fails, no worker is told to end, but all are waited for.
* `C101_settings_path_refuted`: `_load_environment` goes past `_load_file_if_exists`: a file named by SLASH_SETTINGS cannot import its
  neighbours, and what it does to `sys.path` stays.
* `C101_tilde_refuted`: `expanduser` is applied to the configured path only; `SLASH_USER_SETTINGS=~/rc` names no file and is
  passed over without a word.
* `C102_method_refuted`: `Marker.__call__` on a `classmethod` or `staticmethod` object returns the function below it: a method
  decorated with `@slash.exclude(...)` above `@staticmethod` is an ordinary method afterwards.
* `C102_callable_refuted`: `marker(value)` with a value that can be called marks the value instead of making a new marker.
* `C103_last_refuted`: `--without-x --with-x` leaves the plugin inactive: the last argument does not win, deactivation does.
* `C103_worker_refuted`: parallel modes are looked at only if `parallel.num_workers` is not 0; a worker started without the
  number (`--parallel-worker-id` alone) has the `parent-only` plugins.
* `C103_later_refuted`: an activation after the start (from a hook or a test) only warns when the mode is against the session.
* `C103_failed_refuted`: an exception from one plugin's `activate()` ends `activate_pending_plugins` before any pending
  deactivation is done.
* `C104_dangling_refuted`: the link to the last failed test is made before the log is removed: with `log.cleanup.enabled` and
  `keep_failed` off it leads nowhere.
* `C104_lost_refuted`: a failing test without a log (`log.subpath` None) removes the link to the last failed test that an
  earlier session made: `os.symlink(None, ...)` fails after `os.unlink`.
* `C104_file_refuted`: what is at the place of a link is deleted even if it is an ordinary file.
* `C104_raw_refuted`: with `compression.use_rotating_raw_file` the link to the last test leads to the raw file, the link to the
  last failed test and `result.get_log_path()` to the compressed one.
* `C104_shared_refuted`: a test whose log path is that of the session makes no link to the last test.
* `C105_filter_refuted`, `C105_silenced_refuted`: flush_to_handler asks should_handle but not the filter of the handler: records
  of the core below `log.core_log_level`, and those of `log.silence_loggers`, are in the log of the session if they were logged
  during the start.
* `C105_no_root_refuted`: without `log.root` the handler of the session is a NullHandler, and all records of the start are
  handed to it: also errors are on no console (but for the terminal handler of `main`).
* `C105_order_refuted`: records logged while the session is activated stand before those logged earlier.
* `C105_twice_refuted`: in a start that fails early errors are on the terminal twice.
* `C105_again_refuted`: the retained records are dropped after the loop: if the handler fails on one of them, those before are
  written again by the exception handler of `__enter__`, whose second failure then hides the first and skips `__exit__`.
* `C105_lost_refuted`: when the start fails the warnings raised so far are never reported.
* `C105_logged_refuted`: a warning logged (not raised) during the start is no warning of the session.
* `C105_late_filter_refuted`: `slash.ignore_warnings` hides warnings raised earlier during the start, unlike in the session.
* `C105_reuse_refuted`: `_prelude_warning_records` and `session` outlive `__exit__`: an Application entered twice repeats the
  warnings, and a second start failing early writes its errors to the log of the first session.
* `C106_native_refuted`, `C106_package_refuted`: an extension that is installed but fails to import is reported as "No module
  named" when its traceback has no frame of that very module: modules in C, and modules of a package whose `__init__` fails.
* `C106_left_refuted`: only ImportError removes what a recursive import left under the name of slash.ext.
* `C106_place_refuted`: the test by file name is a substring test: with slash installed below `.../slash_x.py38/` the missing
  extension x counts as broken, and further choices are not tried.
* `C107_masks_refuted`: the end message is sent in a `finally` without looking whether there is a session: if it is gone, an
  AttributeError replaces the exception of the body.
* `C107_race_refuted`: the thread looks at `context.session` twice; if it is gone at the second look the thread dies of an
  AttributeError and nothing is reported.
* `C107_late_refuted`, `C107_sessions_refuted`, `C107_interrupt_refuted`: the message may come after the body ended, or after the
  context was left by an interrupt, and to another session than the end message.
* `C108_factory_refuted`: `_generate_test_sources` has no branch for a RunnableTestFactory: `iterator` is unbound there, although the
  last branch tests for it. An object that is nothing of the kind gives an AttributeError of None.
* `C108_function_name_refuted`: `Metadata.function_name` asserts that the address begins with the name of the class; for a class bound
  to another name in the module (`Alias = Cases`) it raises AssertionError, and parallel runs use it for every test.
* `C108_hidden_file_refuted`, `C108_alias_refuted`: `.x.py` is loaded though `.x/` is skipped; a function is a test by its own name,
  whatever it is bound to, and once for every name it is bound to.
* `C108_announced_refuted`: report_collection_start comes when all files have been imported (the list of repetitions is made first).
* `C109_filter_refuted`: `slash list-config log.root` shows everything under `log`: `_parse_filters` adds every prefix of the path to the
  filters, and `_is_included` accepts a name with any prefix among them, so only the first part counts.
* `C109_with_refuted`: for a plugin that a site file has scheduled for deactivation, list-plugins prints
  "inactive (use --with-X to activate)", but the deactivation wins over `--with-X`. The text for active plugins lacks its closing parenthesis.
* `C109_hint_refuted`: with plugins "a b" and "a-b", the option printed for the first acts on the second.
* `C109_fails_refuted`: a plugin uninstalled while pending activation stays pending; list-plugins then ends with KeyError.
* `C109_error_stream_refuted`: Printer asks the report stream whether it is a terminal, also for what goes to the error stream.
* `C110_forget_refuted`: if a callback of error_added raises, the error is in the result with its exc_info and all its frames:
  forget_exc_info is not called (result.py:240-241), so everything reachable from the frames stays alive.
* `C110_names_refuted`: names with "@" (made by assertion rewriting) are left out of the remembered variables, but not of the log.
* `C111_forgets`, `C111_resume_refuted`: the state of a session is saved also when nothing could be collected (slash_run.py:72-74), and
  get_last_resumeable_session_id takes the newest session of the folder: after a mistyped command (`slash resume --failed-only
  --unstarted-only`, a path that does not exist), `slash resume` without a session id is refused with "Could not find backslash
  plugin" although the session before it has failed tests to resume.
* `C111_default_refuted`: a suite file that lists nothing is the same as none: `slash run -f empty` runs the default sources (slash_run.py:105-108).
* `C111_commit_refuted`: connecting_to_db goes on committing after a commit that worked (resuming.py:82-87), and raises if the last of
  the three fails, though everything is saved.
* `C111_nothing_refuted`: resuming or rerunning a session without any test to run is a successful session of no tests, where slash run is refused.
* `C111_masked_refuted`: an exception of saving the state replaces the exception the run ended with.
* `C112_never_connected`, `C112_timeout_refuted`: the process number of a worker in tmux is looked up in the server's table of connected workers
  (worker_configuration.py:130-133); for one that never connected it is None, os.kill raises TypeError, and so do kill_workers and
  wait_to_finish: the connect timeout never ends in ParallelTimeout, the server is not told, the workers' error logs are not
  shown, later workers are not signalled and the servers are not stopped.
* `C112_left_refuted`: in tmux a silent worker only gets its window renamed (worker_configuration.py:135-137), and wait_to_finish gives up after
  five seconds: a session may end well while a worker still runs, even one that was reported down.
* `C113_words_refuted`: the command for tmux is joined with spaces without quoting (worker_configuration.py:124, tmux_utils.py:66): `-k "a b"` and `-k a b` are the same
  for the workers.
* `C113_verbosity_refuted`: `-v` before the command is parsed by main.py and not handed on to the workers.
* `C113_parent_refuted`: the user's arguments come after `--parallel-parent-session-id`, so theirs wins.
* `C113_stolen_refuted`: a tmux session that happens to be called slash_session is renamed and used (tmux_utils.py:56-60).
* `C114_one_lost_refuted`: the keepalive thread ends with the first call that raises (worker.py:30-34): one lost connection and the worker is
  reported as down though it works.
* `C114_glued_refuted`: write_to_error_file writes no end of line: two messages are one line of the parent's log.
* `C114_no_directory_refuted`: workers_error_dir is None by default: os.path.join raises TypeError, which is not caught (worker.py:51-54).
* `C114_local_refuted`: a warning whose category is a local class cannot be pickled (AttributeError, not caught at worker.py:40): in a worker the line that warns
  raises, and since the hook comes before the append (warnings.py:53-54) the warning is lost also there.
* `C114_log_refuted`: the except clause of warning_added uses `warning.message` after `warning` was rebound to bytes (worker.py:38-42): AttributeError.
* `C115_truth_refuted`: the proxies define `__eq__` but neither `__bool__` nor `__len__` (ctx.py:93-130), so `if slash.session:` is always
  taken, also without a session, where `slash.session == None` holds.
* `C115_hash_refuted`: for the same reason (`__eq__` without `__hash__`) they cannot be put in a set or used as a key.
* `C115_session_id_refuted`: NullContext lists the names that are None (ctx.py:53-54) but not session_id: `context.session_id` without a
  session is an AttributeError, whereas it is None in a context without a session.
* `C116_twice_refuted`, `C116_both_refuted`: add_error() and add_failure() in an except clause do not mark the exception as added
  (result.py:224-245), so `except E: slash.add_failure(); raise` records it once more, as an error: two entries for one exception,
  and since capture_exception gives the cached Error, an Error with is_failure() true is in the list of errors.
* `C116_late_refuted`: the fatal mark of an exception is read when its Error is made (error.py:49): `except E as e: slash.add_error();
  raise mark_exception_fatal(e)` does not stop the session, though the exception that ended the test is marked.
* `C116_elsewhere_refuted`: add_exception(exc_info) passes exc_info on for errors and interruptions but not for failures (result.py:94):
  a failure handled after its except clause is a RuntimeError, has been marked as added, and is never recorded; in the except clause of
  another exception that other one is recorded as a failure.
* `C116_shared_refuted`: two results that have the same exception share the Error: mark_fatal() on one makes the other fatal.
* `C117_twice_refuted`: slash.fixture looks through its own wrappers for a generator (utils.py:24), so decorating a generator fixture once more
  (`@slash.fixture` on `@slash.yield_fixture`, or twice) wraps it twice: the outer wrapper calls next() on a value, a TypeError in every test that uses it.
* `C117_custom_refuted`: a decorator written with functools.wraps between slash.fixture and a generator function has no `__wraps__`: the fixture's
  value is the generator object itself and the code after the yield never runs; with slash.parametrize below, `__wraps__` is copied and it works.
* `C117_options_refuted`: the name, scope and autouse of a second decorator are silently ignored, even a scope that does not exist.
* `C117_parameters_refuted`: default values do not count, every parameter is looked up as a fixture (also `*args`, and the cls of a class
  method), and a first parameter called self is dropped also where it is none.
* `C117_methods_refuted`: methods of one class with one name (the first is lost) are not reported as duplicates.
* `C118_fraction_refuted`: _NormalizedObject leaves numbers alone (log.py:39), and fractions.Fraction is a numbers.Number: `1/2` in a
  template makes a directory "1".
* `C118_project_refuted`, `C118_outside_refuted`, `C118_empty_refuted`: project_name and timestamp are not normalized; a value ".." is not
  changed and an empty value before the first slash makes the path absolute: the log is outside of the root.
* `C118_collide_refuted`: "a/b" and "a_b" are the same name: tests told apart only by that write to one file.
* `C118_spec_refuted`: _NormalizedObject has no `__format__`: `{context.session.id:.8}` is a TypeError when the session starts.
* `C119_filters_refuted`: capture_all_warnings puts filters in front and nothing takes them out (warnings.py:17-19): after a session
  what the user's filters ignored is shown.
* `C119_error_refuted`: for the same reason `python -W error` has no effect in a session.
* `C119_inner_refuted`: a session inside of another puts its filters before those the outer one's user set up, also for the rest of it.
* `C119_overlap_refuted`, `C119_leave_refuted`: contexts not left in the opposite order send warnings to a session that is over; leaving
  a context again is not refused (utils/warning_capture.py:23-26 does not reset _entered).
* `C120_end_refuted`, `C120_after_refuted`: an interruption (or a skip) in a cleanup of the session's outermost scope keeps session_end
  and after_session_end from being fired, an exception in session_end keeps after_session_end from being fired (core/session.py:136-143);
  in all these cases the reporter is not told of the end of the session either (core/session.py:144).
* `C120_start_refuted`: if a handler of session_start raises, those called before it never see a session_end.
* `C120_interrupt_refuted`: session_interrupt is fired for sessions that did not start.
* `C121_hidden_refuted`: if a requirement's function raises, the unmet requirements found before it are forgotten: the test has an error
  and no skip (core/runnable_test.py:49-52).
* `C121_value_refuted`: slash.requires accepts values other than bools and functions (0, None); the test then has an error, "not
  callable", instead of being skipped (core/requirements.py:12-13, 64-66).
* `C121_twice_refuted`: a test marked with nofixtures that has the same requirement twice (of its class and of its method) asks it twice
  and has two skips (core/test.py:110-112).
* `C121_reason_refuted`: slash.skipped without a reason records a skip whose reason is None, while test_avoided is told "Skipped"
  (runner.py:140-141).
* `C122_assert_refuted`: the assertions in the setters of tb_next and tb_frame come after the reference count of the old value was
  lowered (utils/traceback_proxy.py:92-96, 110-114): an assignment that is refused leaves an object counted once less than it is referred
  to, which is freed too early later.
* `C122_zero_refuted`: the setter of tb_frame lowers the count of the frame of create_traceback to 0 without freeing it (line 114); the
  frame and, by its variable tb, the new traceback (hence the frames of the user) are kept until the garbage collector runs.
* `C123_shared_refuted`, `C123_overwritten_refuted`: plugins named "a b" and "a_b" are different plugins with one configuration: installing
  the second overwrites the values of the first, uninstalling it removes the configuration of the first, whose current_config then is an
  AttributeError.
* `C123_context_refuted`: restoring_state_context restores which plugins are installed, not their configuration: a plugin that the body
  uninstalls comes back with its default values.
* `C123_failed_refuted`: a plugin whose activate() raises in install(activate=True) stays installed and configured.
* `C124_once_refuted`, `C124_skipped_refuted`: in the parent of a parallel session the data are combined again for every report
  (plugins/builtin/coverage.py:61-67); if combining a second time says that there are no data, the message is swallowed and the second
  report silently not made.
* `C124_blank_refuted`: the names of report types are not stripped: "html, xml" is an unknown report type.
* `C125_complete_refuted`: the parent of a parallel session is marked complete whenever it was not interrupted
  (parallel/server.py:230-231), also if a worker failed and the tests left were never run; in a session without workers
  the same flag says that all the tests were run (runner.py:76-78).
* `C126_config_title_refuted`: a plugin called "my plugin" is asked for with --with-my-plugin, but the title of the group of its settings
  says --with-my_plugin (utils/cli_utils.py:48-52 uses the name in the configuration), which is an unknown plugin. The title also says
  --with- for internal plugins, which the other title (30-32) leaves out for them.
* `C127_excluded_refuted`: a test that every worker excludes (or that is forced on a worker that does not exist) is never handed out; all
  workers leave and the parent goes on waiting (parallel/server.py:217-218) until the timeout for sessions without requests ends it with
  an error.
* `C127_connection_refuted` and `C128_unheard_refuted`: connect adds the worker to the connected ones before it calls the hooks
  (parallel/server.py:125-128). If a hook raises, or the worker dies before its keepalive thread starts, the worker counts as connected
  but its collection never comes and no keepalive of it either: the others are told to wait for ever, check_worker_timed_out skips the
  worker (parallel/parallel_manager.py:92-93), and the keepalives of the others keep check_no_requests_timeout from ending the session.
  The session hangs.
* `C128_alone_refuted`: with the default timeouts (60 seconds for a worker, 20 for no keepalive at all, conf.py:115-117) a worker that is
  alone, or that dies together with all others, is never reported as failed: the session is given up first, the test it was running
  gets no result and the tests left are not marked.
* `C129_name_refuted`: add_custom_hook puts the hook in the module under its name whatever is there (hooks.py:18); a custom hook called
  `config` or `register` replaces what the module uses itself (hooks.py:10, 80), and removing it removes the name.
* `C129_builtin_refuted`: remove_custom_hook removes the hooks of slash too.
* `C129_direct_refuted`: a hook made with gossip.define, as the deprecation messages advise (hooks.py:14), is not in the module:
  ensure_custom_hook returns it but `slash.hooks.<name>` does not exist, and remove_custom_hook raises KeyError after removing it.
* `C129_none_refuted`: get_hook_by_name says it returns None for a missing hook (hooks.py:124); it raises.
* `C130_no_logs_refuted`: with the ci links plugin, BUILD_URL set and no log root, test_end raises AttributeError at the end of every test
  (plugins/builtin/ci_links.py:43).
* `C130_absolute_refuted`: the path in the link is the path of the log as it is, not relative to a workspace: for an absolute log root the
  link contains `/artifact//home/...`. `C130_empty_refuted`: an empty BUILD_URL gives links without server.
* `C131_compound_refuted`: Formatter.write colours a ColorString but not a sum of strings with one in it (utils/formatter.py:28 asks for
  ColorString, not ColorStringBase). `C131_newline_refuted`: a newline at the end of a ColorString is written to a terminal but not to a
  file. `C131_methods_refuted`: sums have no `%` and their `ljust` takes no width.
* `C132_black_refuted`: on a light background `theme` sets black to whether the theme is white (reporting/console_reporter.py:27), so
  the themes that are black, those of the lines of tracebacks and of additional details, lose their colour.
* `C133_negative_refuted`, `C133_running_refuted`: durations are differences of the wall clock and can be negative; a result that has not
  ended (for instance of a test that is running) has the duration zero. `C133_sum_refuted`: a test with an error that is also skipped counts
  twice in the repr of the results.
* `C134_hidden_refuted`: attributes of slash.g hide keyword arguments of start_interactive_shell. `C134_interrupt_refuted`: a
  KeyboardInterrupt or SystemExit raised by code called in the shell is only shown.
* `C135_others_refuted`: one plugin file that cannot be imported keeps all after it from being installed.
* `C136_lost_refuted`: report_message clears the line in progress and calls restore_line_in_progress afterwards, but the message itself
  is written with `write`, which makes it the line in progress (reporting/console_reporter.py:427-431); so nothing is restored, and the
  dots of the next tests stand in a row without the name of their file. Log records, which are not written by the reporter, do not have
  this effect (C99). `C136_glued_refuted`: without markup the message is appended to the line in progress. `C136_full_refuted`: if the
  line in progress fills its row, the message is written over it and its end stays visible.
* `C137_narrow_refuted`: on a terminal narrower than the text every collected test adds rows. `C137_line_refuted`: what stood in the row
  before is overwritten.
* `C138_again_refuted`: starting a session again does not reset end_time (core/session.py:116, 134), so while it runs again its duration
  is the time of the first end less that of the second start, a negative number. `C138_interactive_refuted`: the interactive test is put
  in after the tests were counted (loader.py:58, 63-64); get_total_num_tests is one less than the tests that run.
  `C138_host_refuted`: the fully qualified name of the host is kept in the class; later sessions of the process have the first.
* `C139_hidden_refuted`: dump_variation_dict writes the names bound, not the parametrizations; variations that differ in a
  parametrization hidden by another of the same name (C90) are written alike, and workers take their tests for the same.
* `C140_cleanup_refuted`: a yield fixture that adds a cleanup before its yield and whose code after the yield raises (or yields again): the
  cleanup is never called, since do_cleanups stops at the first exception (core/fixtures/active_fixture.py:39-42) and the fixture is
  no longer active. `C140_masked_refuted`: if a fixture raises and one of its cleanups raises as well, only the exception of the
  cleanup is reported (core/fixtures/fixture_store.py:342-345). `C140_empty_refuted`: a generator function that ends without a
  yield fails with a bare StopIteration. `C140_no_values_refuted`: a generator_fixture whose generator yields nothing has no
  variation, so the tests using it silently do not exist.
* `C141_wrapped_refuted`: get_underlying_func follows only `__wraps__`, which slash's own wraps sets; for a test in a decorator made with
  functools.wraps, is_in_test_code is true of the frame of the wrapper and false of that of the test. `C141_directory_refuted`: the name of
  the file of a frame is made absolute when the error is made; if code has a relative file name and the test changed the directory, the
  error names (and shows lines of) another file. `C141_form_feed_refuted`: the console splits the code with splitlines, so a form
  feed in a line makes the marked line a part of it.
* `C142_failure_refuted`: a session can fail without one error in its xunit report and without a section in the summary of the console: when a
  test was interrupted, when a test was not run, or when a worker reported an error of its own (then only the last line says so).
  `C142_global_refuted`: errors outside of tests are counted and are in the xunit report, but the summary of the console goes over the
  results of tests only (console_reporter.py:220-225), so at its end nothing but the number of erroneous ones shows them.
* `C143_failed_only_refuted`: save_resume_state looks at skips last (resuming.py:119-120), so a test with an error that was also skipped
  (add_error and then skip_test, or a skip in a cleanup) is saved as skipped; `slash resume --failed-only` and `--no-skipped` leave it out though it made the
  session fail. `C143_failure_refuted`: a session that failed by an error outside of its tests has nothing to resume.
  `C143_skipped_refuted`: a session that was a success has its skipped tests left to resume.
* `C144_outside_refuted`: with stop_on_error an error outside of any test (a hook, a session cleanup) stops a sequential session after the test that
  runs at the time (runner.py:66 asks for the results of the session), but not a parallel one (server.py:186 asks for that of the test).
  `C144_fatal_outside_refuted`: a fatal error outside of tests stops neither without stop_on_error.
  `C144_complete_refuted`: after the same tests a sequential session that was stopped is not complete and a parallel one is; a sequential
  session is not complete either if the failing test is its last, so that all its tests ran.
* `C145_again_refuted`: leaving an application replaces its parser (app.py:163), so used again it has no -i (slash_run reads
  app.parsed_args.interactive) and its usage does not mention its tests, while its arguments and reporter are kept.
  `C145_callback_refuted`: app_callback is called when the session exists, so a reporter it sets only gets the message of an error
  that ends the application. `C145_name_refuted`: the usage shows sys.argv[1] whatever it is, not the command of the application.
  `C145_embedded_refuted`: with an empty sys.argv no application can be made (IndexError).
* `C146_failed_refuted`: a notification can say that a session failed and that no test was unsuccessful: interrupted tests and lost workers are not
  counted in non_successful_tests. `C146_number_refuted`: an error outside of tests is counted as a test, so that of one test two may be
  unsuccessful. `C146_sum_refuted`: the numbers of the summary do not add up to the number of tests.
* `C147_args_refuted`: a text given for args (a tuple without its comma) is taken apart into letters, of a dictionary the keys are passed;
  `C147_kwargs_refuted`: a list given for kwargs is accepted, the cleanup then fails when it is called (list has copy()).
  `C147_shown_refuted`: a cleanup, even a critical one, is not registered if the repr of an argument raises (cleanup_manager.py:178).
  `C147_deep_refuted`: lists inside args are shared with the program.
* `C148_all_refuted`: the message of CyclicFixtureDependency begins with fixtures that are not on the cycle.
* `C149_class_refuted`: disable_exception_swallowing on a class of exceptions makes it a function whose instances are not marked.
  `C149_client_refuted`: an error of the sentry client leaves the context that was to swallow another exception.
  By `C149_swallowed` the context swallows exceptions of every type, so KeyboardInterrupt and SystemExit as well.
* `C150_later_refuted`: skip_all called after the collection (in a test, in a hook of the session) skips nothing. `C150_reason_refuted`: without
  a reason tests are skipped with the reason None instead of "Test skipped".
* `C151_failing_refuted`: if a record cannot be formatted, the reporter is told before the output but not after it (no try/finally), so the line in
  progress is blanked and stays so. `C151_glued_refuted`: on a terminal without carriage returns a record is appended to the line in progress.
* `C152_class_refuted`: a class passed to mark_exception_fatal (instead of an exception) makes all exceptions of the class fatal.
* `C153_scope_refuted`: without a session a fixture's function runs under whatever default scope there is, not under its own.
<!--NEWFINDINGS-->

## Mutation tests

`seeded/LOG.jsonl` has one line per seeded change of a model definition: the change, the claim it
breaks, the theorems that failed and the ones tightened because of it. Changes are made in a scratch copy; every
lemma whose proof fails is replaced by `Admitted` there and `Print Assumptions` then tells which property
theorems depend on it. Changes that no theorem noticed led to new theorems (`C29_session_once`,
`C29_session_order`, `C39_last`, `C44_malformed_iff`, `C44_malformed_refused`, `C49_body_kept`, `C66_refused`,
`C68_sent_away`, among others).
