(** What the loop over the tests tells the reporter when a test ends, and the
    assertion inside it, which [Core.run_loop] leaves out. *)

From Coq Require Import List Bool Arith PeanoNat.
From Verif Require Import Events Core.
Import ListNotations.

(** The method called by ReporterInterface.report_test_end: report_test_success,
    report_test_skip, report_test_error, report_test_interrupted,
    report_test_failure; reporting/reporter_interface.py:36-47 *)
Inductive report := RpSuccess | RpSkip | RpError | RpInterrupted | RpFailure.

(** ReporterInterface.report_test_end, reporting/reporter_interface.py:36-47;
    None is the AssertionError, reporting/reporter_interface.py:46 *)
Definition report_test_end (r : result) : option report :=
  if is_success false r then Some RpSuccess
  else if is_skip r then Some RpSkip
  else if is_error r then Some RpError
  else if r_interrupted r then Some RpInterrupted
  else if is_failure r then Some RpFailure
  else None.

(** Which of the four hooks _fire_test_summary_hooks chooses for a result,
    runner.py:190-200 *)
Definition summary_hook (r : result) : hook :=
  if is_just_failure r then HTestFailure
  else if is_skip r then HTestSkip
  else if is_success false r then HTestSuccess
  else HTestError.

Section Env.
Variable E : env.

(** The for loop of run_tests, runner.py:39-70, with the assertion of
    reporting/reporter_interface.py:46 raised where the reporter is called,
    runner.py:60; otherwise as [Core.run_loop] *)
Fixpoint run_loop_reporting (last : option nat) (ts : list test) (s : state)
  : state * outcome * loop_end * option nat :=
  match ts with
  | [] => (s, ONormal, LComplete, last)
  | t :: rest =>
      match set_metadata E (t_id t) s with
      | (s, ONormal) =>
          let s := if file_differs last (t_file t) then emit (EvFileStart (t_file t)) s else s in
          let last := Some (t_file t) in
          let s := emit (EvReportStart (t_id t)) s in
          match run_single E t (nonempty rest) s with
          | (s, ONormal) =>
              let s := emit (EvReportEnd (t_id t)) s in
              match lookup (t_id t) (st_results s) with
              | None => let '(s, o) := raise_new KIndexError false s in (s, o, LExc, last)  (* KeyError; unreachable *)
              | Some r =>
                  match report_test_end r with
                  | None => let '(s, o) := raise_new KAssertion false s in (s, o, LExc, last)
                  | Some _ =>
                      let s := match rest with
                               | [] => emit (EvFileEnd (t_file t)) s
                               | t' :: _ => if Nat.eqb (t_file t') (t_file t) then s
                                            else emit (EvFileEnd (t_file t)) s
                               end in
                      if has_fatal r then (s, ONormal, LBreak rest, last)
                      else if e_stop E && negb (session_success true s) then (s, ONormal, LBreak rest, last)
                      else run_loop_reporting last rest s
                  end
              end
          | (s, o) => (s, o, LExc, last)
          end
      | (s, o) => (s, o, LExc, last)
      end
  end.

(** run_tests around that loop, runner.py:22-82; as [Core.run_tests] *)
Definition run_tests_reporting (ts : list test) : M := fun s =>
  let '(s1, o, e, last) := run_loop_reporting None ts s in
  match o with
  | OFuel => (s1, OFuel)
  | _ =>
    match (if e_worker E then ret else initiate_cleanup E) s1 with
    | (s2, ONormal) =>
        match o with
        | ONormal =>
            if e_worker E then (s2, ONormal)
            else
              (mark_unrun (match e with LBreak r => r | _ => [] end) ;;
               (match e, last with
                | LComplete, _ => upd (emit EvComplete)
                | _, Some f => upd (emit (EvFileEnd f))
                | _, None => ret
                end)) s2
        | _ => (s2, o)
        end
    | r => r
    end
  end.

(** A whole session with that loop, core/session.py:111-144 and
    frontend/slash_run.py:64-70; as [Core.run_session] *)
Definition run_session_reporting (ts : list test) : state * outcome :=
  started_context E (run_tests_reporting ts) state0.

End Env.
