(** After which test a session stops: the loop of the runner (slash/runner.py:38-82) and the
    server of a parallel session with one worker (slash/parallel/server.py:143-194, 228-231,
    slash/parallel/worker.py:98-121).  Of a test only its result matters, and the global
    result when it ends.  Tests that are left get a result without anything
    (runner.py:212-216, server.py:112-118).  Not modelled: exceptions that leave the loop,
    what results lose on their way from the worker (see C81), interruptions, requirements of workers, files. *)

From Coq Require Import List Bool.
From Verif Require Import Core Results.
Import ListNotations.

(** a test, by its result and the global result when it ends; slash/runner.py:57-66 *)
Record outcome := mkOut { o_result : result; o_global : result }.

(** the results of a session without children; slash/core/result.py:321-328 *)
Definition so_far (l : list result) (g : result) : results := mkResults (map (pair 0) l) g false false.

(** run_tests: the results of the tests that were run, and whether the session is complete; [before]: the results there are already;
    slash/runner.py:39-70, 75-78 *)
Fixpoint runner (stop_on_error : bool) (before : list result) (todo : list outcome) : list result * bool :=
  match todo with
  | [] => ([], true)
  | o :: todo =>
      let r := o_result o in
      if has_fatal r then ([r], false)
      else if stop_on_error && negb (results_success true (so_far (before ++ [r]) (o_global o))) then ([r], false)
      else let (l, complete) := runner stop_on_error (before ++ [r]) todo in (r :: l, complete)
  end.

(** get_test and finished_test, for one worker: the results that were reported; slash/parallel/server.py:143-194 *)
Fixpoint served (stop_on_error : bool) (todo : list outcome) : list result :=
  match todo with
  | [] => []
  | o :: todo =>
      let r := o_result o in
      if has_fatal r || (negb (is_success true r) && stop_on_error) then [r] else r :: served stop_on_error todo
  end.

(** whether the session of the parent is complete; slash/parallel/server.py:228-231 *)
Definition served_complete (interrupted : bool) : bool := negb interrupted.

(** all results: those of the tests that were run, and new ones; slash/runner.py:212-216, slash/parallel/server.py:112-118 *)
Definition all_results (todo : list outcome) (run : list result) : list result :=
  run ++ map (fun _ => result0) (skipn (length run) todo).
