(** The lines the console reporter prints while tests run, and what the runner
    tells it about files and errors.  Only what concerns the lines of the files
    and the characters of the tests is modelled: colours, the summary at the
    end, messages and the collection counter are left out. *)

From Coq Require Import List Bool Arith PeanoNat.
From Verif Require Import Events Core.
Import ListNotations.

(** Calls of the reporter: report_file_start, report_file_end,
    report_test_success, report_test_interrupted, report_test_skip_added,
    report_test_error_added and report_test_failure_added;
    reporting/console_reporter.py:369-421.  The test is None outside tests
    (context.test, core/result.py:209, core/result.py:216); [abort]: the
    exception is one of CLI_ABORT_EXCEPTIONS,
    reporting/console_reporter.py:414 *)
Inductive call :=
| CFileStart (f : nat) | CFileEnd (f : nat)
| CSuccess | CInterrupted
| CSkipAdded (t : option nat)
| CErrorAdded (t : option nat) (abort : bool)
| CFailureAdded (t : option nat) (abort : bool).

(** What is written: a file name with a blank, reporting/console_reporter.py:374-375;
    '.', reporting/console_reporter.py:391; 's', reporting/console_reporter.py:398;
    'I', reporting/console_reporter.py:404; 'E' or 'F', reporting/console_reporter.py:419;
    the ends of file lines, reporting/console_reporter.py:381-387 (PASS in the
    colour of skips or not); a line of its own about a skip, an interruption, an
    error or failure of a test, reporting/console_reporter.py:396, 402, 421; a
    session error, reporting/console_reporter.py:415 *)
Inductive written :=
| WName (f : nat) | WDot | WSkip | WInt | WErr | WFail
| WLineFail | WLinePass (skips : bool)
| WSkipLine | WIntLine | WErrLine (failure : bool) | WSession.

(** _file_failed and _file_has_skips, None while the attribute does not exist,
    reporting/console_reporter.py:371-372; [out] is what was written *)
Record con := mkCon { failed : option bool; skips : option bool; out : list written }.

(** ConsoleReporter.__init__ sets neither attribute, reporting/console_reporter.py:136-140 *)
Definition con0 : con := mkCon None None [].

(** self._terminal.write, self._terminal.line; reporting/console_reporter.py:105-116 *)
Definition put (w : list written) (c : con) : con := mkCon (failed c) (skips c) (out c ++ w).

(** logbook's numbers, used by VERBOSITIES, log.py:355-362 *)
Definition NOTICE := 12.
(** log.py:360 *)
Definition WARNING := 13.

(** _verobsity_allows, reporting/console_reporter.py:255-256 *)
Definition allows (level l : nat) : bool := Nat.leb level l.

(** _report_test_error_failure_added, reporting/console_reporter.py:412-421 *)
Definition error_added (level : nat) (t : option nat) (abort failure : bool) (c : con) : con :=
  match t with
  | None => if abort then c else put [WSession] c
  | Some _ =>
      let c := mkCon (Some true) (skips c) (out c) in
      if allows level NOTICE then put [WErrLine failure] c
      else put [if failure then WFail else WErr] c
  end.

(** One call; None is the AttributeError of an attribute not set yet.
    reporting/console_reporter.py:369-410, with from_verbosity,
    reporting/console_reporter.py:31-39 *)
Definition step (level : nat) (k : call) (c : con) : option con :=
  match k with
  | CFileStart f =>
      if allows level WARNING then
        let c := mkCon (Some false) (Some false) (out c) in
        Some (if allows level NOTICE then c else put [WName f] c)
      else Some c
  | CFileEnd f =>
      if allows level WARNING then
        if allows level NOTICE then Some c
        else match failed c with
             | None => None
             | Some true => Some (put [WLineFail] c)
             | Some false => match skips c with
                             | None => None
                             | Some b => Some (put [WLinePass b] c)
                             end
             end
      else Some c
  | CSuccess => Some (if allows level NOTICE then c else put [WDot] c)
  | CInterrupted => Some (if allows level NOTICE then put [WIntLine] c else put [WInt] c)
  | CSkipAdded _ =>
      let c := mkCon (failed c) (Some true) (out c) in
      Some (if allows level NOTICE then put [WSkipLine] c else put [WSkip] c)
  | CErrorAdded t abort => Some (error_added level t abort false c)
  | CFailureAdded t abort => Some (error_added level t abort true c)
  end.

(** the calls of a session one after the other; reporting/console_reporter.py:369-421 *)
Fixpoint steps (level : nat) (ks : list call) (c : con) : option con :=
  match ks with
  | [] => Some c
  | k :: ks => match step level k c with Some c => steps level ks c | None => None end
  end.

(** What the runner and the results tell the reporter in the course of a trace
    of [Core]: runner.py:45, runner.py:62, runner.py:80, core/result.py:209,
    core/result.py:216, core/result.py:250.  [cur] is context.test, which is set
    for the duration of _run_single_test, runner.py:90-95, between the reports
    of the start and of the end of the test, runner.py:47-60.  Simplified: when
    an exception leaves _run_single_test context.test is reset although no end is
    reported; no file end is reported after that.  The calls that only print a
    character, report_test_success and report_test_interrupted, are left out. *)
Fixpoint told (cur : option nat) (tr : list event) : list call :=
  match tr with
  | [] => []
  | EvFileStart f :: tr => CFileStart f :: told cur tr
  | EvFileEnd f :: tr => CFileEnd f :: told cur tr
  | EvReportStart t :: tr => told (Some t) tr
  | EvReportEnd _ :: tr => told None tr
  | EvRecord _ RKError _ _ :: tr => CErrorAdded cur false :: told cur tr
  | EvRecord _ RKFailure _ _ :: tr => CFailureAdded cur false :: told cur tr
  | EvRecord _ RKSkip _ _ :: tr => CSkipAdded cur :: told cur tr
  | _ :: tr => told cur tr
  end.
