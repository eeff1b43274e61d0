(** Model of how the parent of a parallel session notices workers that are down: KeepaliveServer (parallel/server.py:30-61) and the
    checks of ParallelManager (parallel/parallel_manager.py:88-113, in the loop 121-124).

    Times are numbers of seconds, those of time.time() when the code reads the clock; they are arbitrary.  Simplified: what is done
    about a worker that is reported (kill, report_client_failure) and about a session that is given up is in Manager.v; here it is one
    action, and giving up ends the loop. *)

From Coq Require Import List Bool Arith.
From Verif Require Import Dict.
Import ListNotations.

(** KeepaliveServer: clients_last_communication_time and last_request_time, parallel/server.py:33-34 *)
Record keep := mkKeep { k_last : @dict nat; k_request : nat }.

(** KeepaliveServer.__init__ at a time, parallel/server.py:31-37 *)
Definition k_init (now : nat) : keep := mkKeep [] now.

(** keep_alive, parallel/server.py:39-41 *)
Definition keep_alive (c now : nat) (k : keep) : keep := mkKeep (d_set c now (k_last k)) now.

Section Checks.
(** parallel.communication_timeout_secs and parallel.no_request_timeout, parallel/parallel_manager.py:94, 101 *)
Variables communication no_request : nat.

(** the conditions of one worker, looked at at a time, parallel/parallel_manager.py:91-94 *)
Definition is_down (k : keep) (c now : nat) : bool :=
  match d_get c (k_last k) with
  | None => false
  | Some t => Nat.ltb communication (now - t)
  end.

(** the condition of check_no_requests_timeout, parallel/parallel_manager.py:101 *)
Definition nobody (k : keep) (now : nat) : bool := Nat.ltb no_request (now - k_request k).

(** what happens: a worker's keepalive arrives; check_worker_timed_out looks at the connected workers, each at a time;
    check_no_requests_timeout; parallel/server.py:39-41, parallel/parallel_manager.py:88-91, 100-101 *)
Inductive event := Alive (c now : nat) | Look (l : list (nat * nat)) | Idle (now : nat).

(** a worker is reported as failed, parallel/parallel_manager.py:95-98; the session is given up, 102-113 *)
Inductive action := Report (c : nat) | GiveUp.

(** check_worker_timed_out: the times are those of a copy made before the loop, parallel/parallel_manager.py:89-98 *)
Definition look (k : keep) (l : list (nat * nat)) : list action :=
  flat_map (fun cn => if is_down k (fst cn) (snd cn) then [Report (fst cn)] else []) l.

(** the loop, parallel/parallel_manager.py:121-124: the actions until it is left by the exception of handle_error (79), and whether it was *)
Fixpoint watch (l : list event) (k : keep) : list action * bool :=
  match l with
  | [] => ([], false)
  | Alive c now :: l' => watch l' (keep_alive c now k)
  | Look cs :: l' => let (a, b) := watch l' k in (look k cs ++ a, b)
  | Idle now :: l' => if nobody k now then ([GiveUp], true) else watch l' k
  end.
End Checks.
