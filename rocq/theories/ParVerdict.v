(** Model of how a parallel session ends: parallel/server.py:96-107, 199-203, 213-215, 228-231 and core/result.py:182-187, 311-318,
    374-379, on top of the server of Parallel.v.

    A result is described by whether it has errors, failures, skips, was started and was interrupted.  Simplified: the result a worker
    reported is an arbitrary one (what deserialize, core/result.py, makes of the dictionary); the global result of the parent is
    arbitrary too, except that session_interrupted marks it. *)

From Coq Require Import List Bool Arith.
From Verif Require Import Dict Parallel.
Import ListNotations.

(** a result, core/result.py:32-49 *)
Record res := mkRes { r_errors : bool; r_failures : bool; r_skips : bool; r_started : bool; r_interrupted : bool }.

(** is_success, core/result.py:182-187 *)
Definition success (allow_skips : bool) (r : res) : bool :=
  if r_errors r || r_failures r || r_interrupted r then false
  else if r_skips r then allow_skips
  else r_started r.

(** mark_interrupted, core/result.py:199-200 *)
Definition interrupt (r : res) : res := mkRes (r_errors r) (r_failures r) (r_skips r) (r_started r) true.

(** a result nothing happened to, core/result.py:32-49 *)
Definition fresh : res := mkRes false false false false false.

Section Verdict.
(** what the workers reported of each test, parallel/server.py:184 *)
Variable reported : nat -> res.
(** the parent's own global result, but for the interruption of parallel/server.py:200 *)
Variable own : res.

(** the result of a test in the parent, parallel/server.py:102-103 (interrupted), 115-116 (not run), 183-184 (reported) *)
Definition test_result (e : nat * kind) : res :=
  match snd e with
  | KReported => reported (fst e)
  | KUnrun => fresh
  | KInterrupted => interrupt fresh
  end.

(** the global result, parallel/server.py:200 *)
Definition global (s : server) : res := if sv_interrupted s then interrupt own else own.

(** session.results.is_success, core/result.py:374-379 and 311-318 in a parent *)
Definition session_success (allow_skips : bool) (s : server) : bool :=
  if success allow_skips (global s) then
    if sv_error s then false
    else forallb (fun e => success allow_skips (test_result e)) (sv_results s)
  else false.

(** whether the session is marked complete once the server stopped, parallel/server.py:228-231 *)
Definition complete (s : server) : bool := match sv_state s with StopServe => negb (sv_interrupted s) | _ => false end.
End Verdict.
