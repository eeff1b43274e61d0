(** The parent of a parallel session whose workers run in tmux: ParallelManager.start
    (slash/parallel/parallel_manager.py:43-137) with TmuxWorkerConfiguration
    (slash/parallel/worker_configuration.py:15-23, 46-52, 117-154) and the windows and
    panes of slash/utils/tmux_utils.py:33-53.

    As in Manager.v the model runs in any environment: what a call does to the outside
    is an effect in a trace, newest first, and the environment decides from the whole
    trace whether it raises and what the server, the clock and tmux look like.
    Simplified: the lookup of the tmux session is part of the environment; not
    modelled: the command of a worker (WorkerCommand.v), the texts that are logged. *)

From Coq Require Import List Bool Arith.
Import ListNotations.

(** an exception: one of INTERRUPTION_EXCEPTIONS, ParallelTimeout, ParallelServerIsDown,
    TmuxSessionNotExist, TypeError, AttributeError, the OSError of a process that does not
    exist, any other; slash/exceptions.py and slash/parallel/worker_configuration.py:18-22 *)
Inductive exn := Interrupt | Timeout | ServerDown | NoTmux | TypeErr | Attribute | Esrch | Other (n : nat).

(** the remote calls of the manager; slash/parallel/parallel_manager.py:78, :98, :127 and :134-135 *)
Inductive call := SessionError | ClientFailure (i : nat) | SessionInterrupted | StopServe | StopKeepalive.

(** the effects: the hook before_worker_start (worker_configuration.py:47), a new window
    (tmux_utils.py:45), a new pane and its command (tmux_utils.py:51-52), the lookup of
    the process of a worker in the table of the server (worker_configuration.py:132), a
    signal to a process (worker_configuration.py:17 and :144; 0 only asks whether it
    exists), a window gets another name (worker_configuration.py:137), half a second of
    sleep (worker_configuration.py:154), a sleep of the manager, the log of the errors of
    workers, a remote call, the join of a thread of a server *)
Inductive eff :=
| Hook (i : nat) | Window (i : nat) | Pane (i : nat) | Keys (i : nat) | Ask (i : nat) | Signal (p s : nat) | Rename (i : nat)
| Nap | Sleep | LogErrors | Rpc (c : call) | Join (keepalive : bool).

(** newest first; no code of /repo *)
Definition trace := list eff.

(** what the manager sees at a moment, as in Manager.v; [panes]: config.root.tmux.use_panes
    (worker_configuration.py:125); [session]: the tmux session is found (tmux_utils.py:42-44);
    [pid t i]: server.worker_to_pid.get(i) (worker_configuration.py:132, set by
    server.py:130 when the worker connects) *)
Record env := mkEnv {
  fails : trace -> eff -> option exn; up : trace -> bool; waiting : trace -> bool; late : trace -> bool;
  should_wait : trace -> bool; connected : trace -> list nat; silent : trace -> nat -> bool; idle : trace -> bool;
  panes : bool; session : trace -> bool; pid : trace -> nat -> option nat }.

(** the end of a call: it returned, raised, or is still running when the fuel of the
    loops is used up; no code of /repo *)
Inductive res := Ok | Exn (e : exn) | Running.

(** a computation; plumbing of the model *)
Definition M := trace -> trace * res.
(** plumbing of the model *)
Definition ret : M := fun t => (t, Ok).
(** plumbing of the model *)
Definition raise (e : exn) : M := fun t => (t, Exn e).
(** plumbing of the model *)
Definition seq (a b : M) : M := fun t => match a t with (t, Ok) => b t | x => x end.
(** plumbing of the model *)
Definition eff_ (E : env) (e : eff) : M := fun t => (e :: t, match fails E t e with Some x => Exn x | None => Ok end).
(** plumbing of the model *)
Fixpoint each {A} (l : list A) (f : A -> M) : M := match l with [] => ret | x :: l => seq (f x) (each l f) end.
(** plumbing of the model *)
Definition when (b : trace -> bool) (m : M) : M := fun t => if b t then m t else ret t.

(** self._window_handle is not None, in the mode of windows: the window was made;
    slash/parallel/worker_configuration.py:120 and :128 *)
Fixpoint opened (E : env) (t : trace) (i : nat) : bool :=
  match t with
  | [] => false
  | Window j :: t => if Nat.eqb i j then match fails E t (Window j) with None => true | Some _ => opened E t i end else opened E t i
  | _ :: t => opened E t i
  end.

(** self._pid: the first process number that was found;
    slash/parallel/worker_configuration.py:32 and :130-133 *)
Fixpoint cached (E : env) (t : trace) (i : nat) : option nat :=
  match t with
  | [] => None
  | Ask j :: t => match cached E t i with Some p => Some p | None => if Nat.eqb i j then pid E t i else None end
  | _ :: t => cached E t i
  end.

(** get_pid, and os.kill of its result: TypeError when it is None;
    slash/parallel/worker_configuration.py:130-133, as used in :17, :140 and :144 *)
Definition with_pid (E : env) (i : nat) (k : nat -> M) : M := fun t =>
  match cached E t i with
  | Some p => k p t
  | None => match pid E t i with Some p => k p (Ask i :: t) | None => raise TypeErr (Ask i :: t) end
  end.

(** start and _start; slash/parallel/worker_configuration.py:46-52 and :122-128,
    slash/utils/tmux_utils.py:41-53 *)
Definition worker_start (E : env) (i : nat) : M :=
  seq (eff_ E (Hook i)) (fun t =>
    if session E t then (if panes E then seq (eff_ E (Pane i)) (eff_ E (Keys i)) else eff_ E (Window i)) t
    else raise NoTmux t).

(** kill: a process that does not exist is no error;
    slash/parallel/worker_configuration.py:142-147 *)
Definition worker_kill (E : env) (i : nat) : M :=
  with_pid E i (fun p t => match eff_ E (Signal p 15) t with (t, Exn Esrch) => (t, Ok) | x => x end).

(** handle_timeout; slash/parallel/worker_configuration.py:135-137 *)
Definition worker_timeout (E : env) (i : nat) : M := fun t =>
  if panes E then ret t else if opened E t i then eff_ E (Rename i) t else raise Attribute t.

(** wait_to_finish, is_active and is_process_running; [k] is how often it still looks;
    slash/parallel/worker_configuration.py:15-23, :139-140 and :149-154 *)
Fixpoint wait_loop (E : env) (i k : nat) : M :=
  match k with
  | 0 => ret
  | S k => with_pid E i (fun p t =>
      match eff_ E (Signal p 0) t with
      | (t, Exn Esrch) => ret t
      | (t, Ok) => seq (eff_ E Nap) (wait_loop E i k) t
      | x => x
      end)
  end.

(** wait_to_finish; slash/parallel/worker_configuration.py:149-154 *)
Definition worker_wait (E : env) (i : nat) : M := wait_loop E i 10.

(** the workers: numbers 1 to workers_num; slash/parallel/parallel_manager.py:36-41 *)
Definition workers (n : nat) : list nat := List.seq 1 n.

(** kill_workers; slash/parallel/parallel_manager.py:58-60 *)
Definition kill_workers (E : env) (n : nat) : M := each (workers n) (worker_kill E).

(** handle_error; slash/parallel/parallel_manager.py:74-79 *)
Definition handle_error (E : env) (n : nat) : M :=
  seq (kill_workers E n) (seq (eff_ E LogErrors) (seq (eff_ E (Rpc SessionError)) (raise Timeout))).

(** try_connect; slash/parallel/parallel_manager.py:43-48 *)
Fixpoint try_connect (E : env) (retries : nat) : M :=
  match retries with
  | 0 => raise ServerDown
  | S r => fun t => if up E t then ret t else seq (eff_ E Sleep) (try_connect E r) t
  end.

(** wait_all_workers_to_connect; slash/parallel/parallel_manager.py:81-86 *)
Fixpoint wait_connect (E : env) (n fuel : nat) : M :=
  match fuel with
  | 0 => fun t => (t, Running)
  | S f => fun t => if waiting E t then seq (when (late E) (handle_error E n)) (seq (eff_ E Sleep) (wait_connect E n f)) t else ret t
  end.

(** check_worker_timed_out; slash/parallel/parallel_manager.py:88-98 *)
Definition check_timed_out (E : env) : M :=
  fun t => each (connected E t) (fun i => when (fun t => silent E t i)
    (seq (eff_ E LogErrors) (seq (worker_timeout E i) (eff_ E (Rpc (ClientFailure i)))))) t.

(** check_no_requests_timeout; slash/parallel/parallel_manager.py:100-113 *)
Definition check_no_requests (E : env) (n : nat) : M := when (idle E) (handle_error E n).

(** the loop of start; slash/parallel/parallel_manager.py:121-124 *)
Fixpoint main_loop (E : env) (n fuel : nat) : M :=
  match fuel with
  | 0 => fun t => (t, Running)
  | S f => fun t =>
      if should_wait E t then seq (check_timed_out E) (seq (check_no_requests E n) (seq (eff_ E Sleep) (main_loop E n f))) t else ret t
  end.

(** the body of the try; slash/parallel/parallel_manager.py:118-124 *)
Definition body (E : env) (n fuel : nat) : M :=
  seq (each (workers n) (worker_start E)) (seq (wait_connect E n fuel) (main_loop E n fuel)).

(** the except clause; slash/parallel/parallel_manager.py:125-129 *)
Definition interrupted (E : env) (n : nat) : M :=
  seq (eff_ E (Rpc SessionInterrupted)) (seq (kill_workers E n) (raise Interrupt)).

(** the finally clause; slash/parallel/parallel_manager.py:130-137 *)
Definition finish (E : env) (n : nat) : M :=
  seq (each (workers n) (worker_wait E))
  (seq (eff_ E (Rpc StopServe)) (seq (eff_ E (Rpc StopKeepalive)) (seq (eff_ E (Join false)) (eff_ E (Join true))))).

(** the except clause, when it is needed; slash/parallel/parallel_manager.py:125-129 *)
Definition handled (E : env) (n : nat) (x : trace * res) : trace * res :=
  match x with (t, Exn Interrupt) => interrupted E n t | x => x end.

(** try … except INTERRUPTION_EXCEPTIONS … finally: an exception of the finally
    clause takes the place of the one before; Python's, slash/parallel/parallel_manager.py:117-137 *)
Definition protected (E : env) (n fuel : nat) : M :=
  fun t =>
    match handled E n (body E n fuel t) with
    | (t, Running) => (t, Running)
    | (t, r) => match finish E n t with (t, Ok) => (t, r) | x => x end
    end.

(** start; slash/parallel/parallel_manager.py:115-137; MAX_CONNECTION_RETRIES is 200 (:17) *)
Definition start (E : env) (n fuel : nat) : trace * res := seq (try_connect E 200) (protected E n fuel) [].
