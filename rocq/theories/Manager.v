(** The parent of a parallel session: ParallelManager.start
    (slash/parallel/parallel_manager.py:43-137) with workers that are processes
    (slash/parallel/worker_configuration.py:25-52, 98-115).

    The model runs in any environment: what a call does to the outside (a process,
    a remote call, a hook) is an effect in a trace, newest first, and the environment
    decides from the whole trace whether it raises, and what the server, the clock and
    the processes look like at that moment.  Not modelled: the server itself
    (Parallel.v), workers in tmux (TmuxWorkers.v), the texts that are logged. *)

From Coq Require Import List Bool Arith.
Import ListNotations.

(** an exception: one of INTERRUPTION_EXCEPTIONS, ParallelTimeout,
    ParallelServerIsDown, AttributeError, any other; slash/parallel/parallel_manager.py:92-135 *)
Inductive exn := Interrupt | Timeout | ServerDown | Attribute | Other (n : nat).

(** the remote calls of the manager; slash/parallel/parallel_manager.py:78, :98, :127 and :134-135 *)
Inductive call := SessionError | ClientFailure (i : nat) | SessionInterrupted | StopServe | StopKeepalive.

(** the effects: the hook before_worker_start, the start of a process, a sleep, the
    log of the errors of workers, SIGTERM to a process, SIGKILL to a process, a
    remote call, the wait for a process, the join of a thread of a server;
    slash/parallel/parallel_manager.py:40-135 *)
Inductive eff :=
| Hook (i : nat) | Popen (i : nat) | Sleep | LogErrors | Term (i : nat) | Kill (i : nat) | Rpc (c : call) | Wait (i : nat) | Join (keepalive : bool).

(** newest first; no code of /repo *)
Definition trace := list eff.

(** what the manager sees at a moment; [fails t e]: the effect [e] raises after [t];
    [up]: both servers have left NOT_INITIALIZED (parallel_manager.py:45);
    [waiting]: state WAIT_FOR_CLIENTS (:82); [late]: the time to connect is over
    (:83); [should_wait]: should_wait_for_request (:121); [connected]:
    get_connected_clients (:90); [silent i]: a last connection time of the worker is
    known and too old (:91-94); [idle]: no request for too long (:101); [active i]:
    poll() is None (worker_configuration.py:112) *)
Record env := mkEnv {
  fails : trace -> eff -> option exn; up : trace -> bool; waiting : trace -> bool; late : trace -> bool;
  should_wait : trace -> bool; connected : trace -> list nat; silent : trace -> nat -> bool; idle : trace -> bool;
  active : trace -> nat -> bool }.

(** the end of a call: it returned, raised, or is still running when the fuel of the
    loops is used up *)
Inductive res := Ok | Exn (e : exn) | Running.

(** a computation; plumbing of the model *)
Definition M := trace -> trace * res.

(** plumbing of the model *)
Definition ret : M := fun t => (t, Ok).
(** plumbing of the model *)
Definition raise (e : exn) : M := fun t => (t, Exn e).
(** plumbing of the model *)
Definition seq (a b : M) : M := fun t => match a t with (t, Ok) => b t | x => x end.
(** plumbing of the model *)
Definition eff_ (E : env) (e : eff) : M := fun t => (e :: t, match fails E t e with Some x => Exn x | None => Ok end).
(** plumbing of the model *)
Fixpoint each {A} (l : list A) (f : A -> M) : M := match l with [] => ret | x :: l => seq (f x) (each l f) end.
(** plumbing of the model *)
Definition when (b : trace -> bool) (m : M) : M := fun t => if b t then m t else ret t.

(** self._pid is not None: the process was started.  A process whose start raised
    has no _pid; slash/parallel/worker_configuration.py:32 and :101 *)
Fixpoint started (E : env) (t : trace) (i : nat) : bool :=
  match t with
  | [] => false
  | Popen j :: t => if Nat.eqb i j then match fails E t (Popen j) with None => true | Some _ => false end else started E t i
  | _ :: t => started E t i
  end.

(** WorkerConfiguration.start; slash/parallel/worker_configuration.py:46-52 and :99-101 *)
Definition worker_start (E : env) (i : nat) : M := seq (eff_ E (Hook i)) (eff_ E (Popen i)).

(** kill; slash/parallel/worker_configuration.py:103-105 *)
Definition worker_kill (E : env) (i : nat) : M := when (fun t => started E t i) (eff_ E (Term i)).

(** is_active and handle_timeout; slash/parallel/worker_configuration.py:107-112 *)
Definition worker_timeout (E : env) (i : nat) : M :=
  fun t => if started E t i then when (fun t => active E t i) (eff_ E (Kill i)) t else raise Attribute t.

(** wait_to_finish; slash/parallel/worker_configuration.py:114-115 *)
Definition worker_wait (E : env) (i : nat) : M :=
  fun t => if started E t i then eff_ E (Wait i) t else raise Attribute t.

(** the workers: numbers 1 to workers_num; slash/parallel/parallel_manager.py:36-41 *)
Definition workers (n : nat) : list nat := List.seq 1 n.

(** kill_workers; slash/parallel/parallel_manager.py:58-60 *)
Definition kill_workers (E : env) (n : nat) : M := each (workers n) (worker_kill E).

(** handle_error; slash/parallel/parallel_manager.py:74-79 *)
Definition handle_error (E : env) (n : nat) : M :=
  seq (kill_workers E n) (seq (eff_ E LogErrors) (seq (eff_ E (Rpc SessionError)) (raise Timeout))).

(** try_connect; slash/parallel/parallel_manager.py:43-48 *)
Fixpoint try_connect (E : env) (retries : nat) : M :=
  match retries with
  | 0 => raise ServerDown
  | S r => fun t => if up E t then ret t else seq (eff_ E Sleep) (try_connect E r) t
  end.

(** wait_all_workers_to_connect; slash/parallel/parallel_manager.py:81-86 *)
Fixpoint wait_connect (E : env) (n fuel : nat) : M :=
  match fuel with
  | 0 => fun t => (t, Running)
  | S f => fun t => if waiting E t then seq (when (late E) (handle_error E n)) (seq (eff_ E Sleep) (wait_connect E n f)) t else ret t
  end.

(** check_worker_timed_out; slash/parallel/parallel_manager.py:88-98 *)
Definition check_timed_out (E : env) : M :=
  fun t => each (connected E t) (fun i => when (fun t => silent E t i)
    (seq (eff_ E LogErrors) (seq (worker_timeout E i) (eff_ E (Rpc (ClientFailure i)))))) t.

(** check_no_requests_timeout; slash/parallel/parallel_manager.py:100-113 *)
Definition check_no_requests (E : env) (n : nat) : M := when (idle E) (handle_error E n).

(** the loop of start; slash/parallel/parallel_manager.py:121-124 *)
Fixpoint main_loop (E : env) (n fuel : nat) : M :=
  match fuel with
  | 0 => fun t => (t, Running)
  | S f => fun t =>
      if should_wait E t then seq (check_timed_out E) (seq (check_no_requests E n) (seq (eff_ E Sleep) (main_loop E n f))) t else ret t
  end.

(** the body of the try; slash/parallel/parallel_manager.py:118-124 *)
Definition body (E : env) (n fuel : nat) : M :=
  seq (each (workers n) (worker_start E)) (seq (wait_connect E n fuel) (main_loop E n fuel)).

(** the except clause; slash/parallel/parallel_manager.py:125-129 *)
Definition interrupted (E : env) (n : nat) : M :=
  seq (eff_ E (Rpc SessionInterrupted)) (seq (kill_workers E n) (raise Interrupt)).

(** the finally clause; slash/parallel/parallel_manager.py:130-137 *)
Definition finish (E : env) (n : nat) : M :=
  seq (each (workers n) (worker_wait E))
  (seq (eff_ E (Rpc StopServe)) (seq (eff_ E (Rpc StopKeepalive)) (seq (eff_ E (Join false)) (eff_ E (Join true))))).

(** try … except INTERRUPTION_EXCEPTIONS … finally: an exception of the finally
    clause takes the place of the one before; Python's, slash/parallel/parallel_manager.py:117-137 *)
Definition protected (E : env) (n fuel : nat) : M :=
  fun t =>
    let (t, r) := match body E n fuel t with (t, Exn Interrupt) => interrupted E n t | x => x end in
    match r with
    | Running => (t, Running)
    | _ => match finish E n t with (t, Ok) => (t, r) | x => x end
    end.

(** start; slash/parallel/parallel_manager.py:115-137; MAX_CONNECTION_RETRIES is 200 (:17) *)
Definition start (E : env) (n fuel : nat) : trace * res := seq (try_connect E 200) (protected E n fuel) [].
