(** Model of parallel execution: parallel/server.py (Server), parallel/tests_distributer.py,
    parallel/worker.py (the protocol side of start_execution), the parts of
    parallel/parallel_manager.py that call the server, and force_test/exclude_test of
    parallel/worker_configuration.py.
    Workers are numbers (client ids "1".."n" of parallel_manager.py:36-41), tests are
    indices into the collection. SimpleXMLRPCServer handles one request at a time, so
    each call is one atomic step; an exception leaves the changes made so far in place
    and reaches the client as a fault. Not modelled: time (timeouts and crashes may
    happen at any moment), process handling, keepalive, reporting of warnings,
    logging. *)

From Coq Require Import List Bool Arith PeanoNat.
From Verif Require Import Dict.
Import ListNotations.

(** ServerStates, server.py:22-28 *)
Inductive sstate := NotInit | WaitClients | WaitValidation | Serve | StopTests | StopServe.

(** comparison of ServerStates members, server.py:155-161 *)
Definition sstate_eqb (a b : sstate) : bool :=
  match a, b with
  | NotInit, NotInit | WaitClients, WaitClients | WaitValidation, WaitValidation
  | Serve, Serve | StopTests, StopTests | StopServe, StopServe => true
  | _, _ => false
  end.

(** exceptions reaching the client as a fault: KeyError, SlashInternalError, one raised
    by a hook (or by the logging and reporting code called along with it), and the
    IndexError of [self.tests[test_index]]; server.py:96-215 *)
Inductive exn := EKey | EInternal | EHook | EIndex.

(** a test of the collection: file, class (if a method), function name, variation; core/metadata.py:18-57, as read by server.py:80-84 and worker.py:82-85 *)
Record ptest := mkPTest { pt_file : nat; pt_class : option nat; pt_function : nat; pt_variation : nat }.

(** what is sent over the wire for a test: file path, function name without the class
    (metadata.py:115-123) and variation; server.py:80-84, worker.py:82-84 *)
Definition desc : Type := (nat * nat * nat)%type.
(** the tuples of server.py:80-84 and worker.py:82-85 *)
Definition desc_of (t : ptest) : desc := (pt_file t, pt_function t, pt_variation t).

(** [==] on descriptions, server.py:137 *)
Definition desc_eqb (a b : desc) : bool :=
  let '(f, g, v) := a in let '(f', g', v') := b in Nat.eqb f f' && Nat.eqb g g' && Nat.eqb v v'.

(** order of descriptions (of the strings involved), used by [sorted], server.py:85 and worker.py:85 *)
Definition desc_leb (a b : desc) : bool :=
  let '(f, g, v) := a in let '(f', g', v') := b in
  if Nat.eqb f f' then if Nat.eqb g g' then Nat.leb v v' else Nat.leb g g' else Nat.leb f f'.

(** [sorted], server.py:85 and worker.py:85 *)
Fixpoint insert (d : desc) (l : list desc) : list desc :=
  match l with [] => [d] | x :: l' => if desc_leb d x then d :: l else x :: insert d l' end.
(** a Python operation, no code of /repo, used by server.py:80-84 and worker.py:82-85 *)
Definition sorted (l : list desc) : list desc := fold_right insert [] l.

(** [==] on collections, server.py:137 *)
Fixpoint descs_eqb (a b : list desc) : bool :=
  match a, b with [], [] => true | x :: a', y :: b' => desc_eqb x y && descs_eqb a' b' | _, _ => false end.

(** membership in a set, [in]; a Python operation, no code of /repo *)
Definition mem (x : nat) (l : list nat) : bool := existsb (Nat.eqb x) l.
(** [set.add]; a Python operation, no code of /repo *)
Definition add (x : nat) (l : list nat) : list nat := if mem x l then l else x :: l.
(** [list.remove] and [set.remove] of a present element: removes one occurrence; a Python operation, no code of /repo *)
Fixpoint remove1 (x : nat) (l : list nat) : list nat :=
  match l with [] => [] | y :: l' => if Nat.eqb x y then l' else y :: remove1 x l' end.

(** WorkerConfiguration, worker_configuration.py:25-33: forced and excluded tests *)
Record wconf := mkConf { wc_forced : list nat; wc_excluded : list nat }.

(** exclude_test, worker_configuration.py:65-75 (None: RuntimeError) *)
Definition exclude_test (t : nat) (w : wconf) : option wconf :=
  if mem t (wc_forced w) then None else Some (mkConf (wc_forced w) (add t (wc_excluded w))).
(** force_test, worker_configuration.py:77-87 (None: RuntimeError) *)
Definition force_test (t : nat) (w : wconf) : option wconf :=
  if mem t (wc_excluded w) then None else Some (mkConf (add t (wc_forced w)) (wc_excluded w)).

(** how the result of a test came about: created by _mark_unrun_tests, by
    report_client_failure, or by finished_test; server.py:96-118, 177-194 *)
Inductive kind := KUnrun | KInterrupted | KReported.

(** Server and its TestsDistributer: state, _unstarted_tests_indices, executing_tests,
    finished_tests, num_collections_validated, connected_clients, the results created in
    the session (latest first), worker_error_reported, interrupted, the workers'
    configurations, and _forced_tests_dict (a snapshot); server.py:66-85, tests_distributer.py:8-18 *)
Record server := mkServer {
  sv_state : sstate;
  sv_unstarted : list nat;
  sv_exec : @dict (option nat);
  sv_finished : list nat;
  sv_validated : nat;
  sv_connected : list nat;
  sv_results : list (nat * kind);
  sv_error : bool;
  sv_interrupted : bool;
  sv_conf : @dict wconf;
  sv_forced : @dict nat
}.

(** assignments to attributes of the server; assignment, server.py:66-85 *)
Definition set_state x s := mkServer x (sv_unstarted s) (sv_exec s) (sv_finished s) (sv_validated s) (sv_connected s) (sv_results s) (sv_error s) (sv_interrupted s) (sv_conf s) (sv_forced s).
(** assignment, server.py:66-85 *)
Definition set_unstarted x s := mkServer (sv_state s) x (sv_exec s) (sv_finished s) (sv_validated s) (sv_connected s) (sv_results s) (sv_error s) (sv_interrupted s) (sv_conf s) (sv_forced s).
(** assignment, server.py:66-85 *)
Definition set_exec x s := mkServer (sv_state s) (sv_unstarted s) x (sv_finished s) (sv_validated s) (sv_connected s) (sv_results s) (sv_error s) (sv_interrupted s) (sv_conf s) (sv_forced s).
(** assignment, server.py:66-85 *)
Definition set_finished x s := mkServer (sv_state s) (sv_unstarted s) (sv_exec s) x (sv_validated s) (sv_connected s) (sv_results s) (sv_error s) (sv_interrupted s) (sv_conf s) (sv_forced s).
(** assignment, server.py:66-85 *)
Definition set_validated x s := mkServer (sv_state s) (sv_unstarted s) (sv_exec s) (sv_finished s) x (sv_connected s) (sv_results s) (sv_error s) (sv_interrupted s) (sv_conf s) (sv_forced s).
(** assignment, server.py:66-85 *)
Definition set_connected x s := mkServer (sv_state s) (sv_unstarted s) (sv_exec s) (sv_finished s) (sv_validated s) x (sv_results s) (sv_error s) (sv_interrupted s) (sv_conf s) (sv_forced s).
(** assignment, server.py:66-85 *)
Definition set_results x s := mkServer (sv_state s) (sv_unstarted s) (sv_exec s) (sv_finished s) (sv_validated s) (sv_connected s) x (sv_error s) (sv_interrupted s) (sv_conf s) (sv_forced s).
(** assignment, server.py:66-85 *)
Definition set_error x s := mkServer (sv_state s) (sv_unstarted s) (sv_exec s) (sv_finished s) (sv_validated s) (sv_connected s) (sv_results s) x (sv_interrupted s) (sv_conf s) (sv_forced s).
(** assignment, server.py:66-85 *)
Definition set_interrupted x s := mkServer (sv_state s) (sv_unstarted s) (sv_exec s) (sv_finished s) (sv_validated s) (sv_connected s) (sv_results s) (sv_error s) x (sv_conf s) (sv_forced s).
(** assignment, server.py:66-85 *)
Definition set_conf x s := mkServer (sv_state s) (sv_unstarted s) (sv_exec s) (sv_finished s) (sv_validated s) (sv_connected s) (sv_results s) (sv_error s) (sv_interrupted s) x (sv_forced s).

(** answers of the server; server.py:96-215 *)
Inductive reply :=
| RNone | RBool (b : bool) | RProtocol | RWaiting | RNoMore | RTest (d : desc) (t : nat) | RFault (e : exn).

(** calls: the remote calls of workers and of the manager, and force_test/exclude_test
    called by hooks of the parent after the server was created. [hook]: whether a hook
    (or logging) called on the way raises. [stops]: the reported result is fatal, or is
    a failure and run.stop_on_error is set; [broken]: deserializing or reporting raises; server.py:96-215, worker_configuration.py:65-87 *)
Inductive call :=
| CConnect (c : nat) (hook : bool)
| CValidate (c : nat) (l : list desc)
| CDisconnect (c : nat) (failure : bool)
| CGet (c : nat) (hook : bool)
| CFinished (c : nat) (broken stops : bool)
| CFailure (c : nat)
| CInterrupted
| CStop
| CSessionError
| CExclude (c t : nat)
| CForce (c t : nat).

Section Server.
(** configuration: parallel.num_workers and the collected tests *)
Variable num_workers : nat.
Variable tests : list ptest.

(** self.collection, server.py:80-84 *)
Definition collection : list desc := map desc_of tests.

(** _forced_tests_dict, tests_distributer.py:13-17: later workers overwrite earlier ones *)
Definition forced_dict (conf : @dict wconf) : @dict nat :=
  fold_left (fun d (wc : nat * wconf) => fold_left (fun d t => d_set t (fst wc) d) (wc_forced (snd wc)) d) conf [].

(** Server.__init__ and the start of serve, server.py:66-85 and 220-225, with
    TestsDistributer.__init__, tests_distributer.py:8-18. _workers_excluded_tests holds
    the very set objects of the configurations, so later exclusions count. *)
Definition init (conf : @dict wconf) : server :=
  mkServer WaitClients (List.seq 0 (length tests)) [] [] 0 [] [] false false conf (forced_dict conf).

(** _can_execute_test, tests_distributer.py:20-25 (None: KeyError) *)
Definition can_execute (s : server) (t c : nat) : option bool :=
  match d_get t (sv_forced s) with
  | Some w => Some (Nat.eqb w c)
  | None => match d_get c (sv_conf s) with
            | Some w => Some (negb (mem t (wc_excluded w)))
            | None => None
            end
  end.

(** the loop of get_next_test_for_client, tests_distributer.py:27-34 *)
Fixpoint next_test (s : server) (c : nat) (l : list nat) : option nat + exn :=
  match l with
  | [] => inl None
  | t :: l' => match can_execute s t c with
               | Some true => inl (Some t)
               | Some false => next_test s c l'
               | None => inr EKey
               end
  end.

(** entering _get_test_context, runner.py:219-224, creates the result:
    SessionResults.create_result, result.py:433-439 *)
Definition create_result (t : nat) (k : kind) (s : server) : server + exn :=
  if mem t (map fst (sv_results s)) then inr EInternal else inl (set_results ((t, k) :: sv_results s) s).

(** _mark_unrun_tests, server.py:112-118 *)
Fixpoint mark_loop (l : list nat) (s : server) : server * option exn :=
  match l with
  | [] => (set_unstarted [] s, None)
  | t :: l' => match create_result t KUnrun s with
               | inr e => (s, Some e)
               | inl s1 => mark_loop l' (set_finished (sv_finished s1 ++ [t]) s1)
               end
  end.
(** server.py:112-118 *)
Definition mark_unrun_tests (s : server) : server * option exn := mark_loop (sv_unstarted s) s.

(** how a call ends: its answer unless an exception was raised; plumbing of the model, no code of its own *)
Definition answer (r : server * option exn) : server * reply :=
  match r with (s, None) => (s, RNone) | (s, Some e) => (s, RFault e) end.

(** connect, server.py:123-134 *)
Definition connect (c : nat) (hook : bool) (s : server) : server * reply :=
  let s1 := set_connected (add c (sv_connected s)) s in
  if hook then (s1, RFault EHook) else
  let s2 := set_exec (d_set c None (sv_exec s1)) s1 in
  if Nat.leb num_workers (length (sv_connected s2)) then (set_state WaitValidation s2, RNone) else (s2, RNone).

(** validate_collection, server.py:136-145 *)
Definition validate_collection (l : list desc) (s : server) : server * reply :=
  if negb (descs_eqb (sorted collection) l) then (s, RBool false) else
  let s1 := set_validated (S (sv_validated s)) s in
  if Nat.leb num_workers (sv_validated s1) && sstate_eqb (sv_state s1) WaitValidation
  then (set_state Serve s1, RBool true) else (s1, RBool true).

(** disconnect, server.py:147-151 *)
Definition disconnect (c : nat) (failure : bool) (s : server) : server * reply :=
  if mem c (sv_connected s) then
    let s1 := set_connected (remove1 c (sv_connected s)) s in
    ((if failure then set_state StopTests s1 else s1), RNone)
  else (s, RFault EKey).

(** get_test, server.py:153-175 *)
Definition get_test (c : nat) (hook : bool) (s : server) : server * reply :=
  match d_get c (sv_exec s) with
  | None => (s, RFault EKey)
  | Some (Some _) => (s, RProtocol)
  | Some None =>
      match sv_state s with
      | StopTests => (s, RNoMore)
      | WaitClients | WaitValidation => (s, RWaiting)
      | st =>
          if sstate_eqb st Serve && negb (match sv_unstarted s with [] => true | _ => false end) then
            match next_test s c (sv_unstarted s) with
            | inr e => (s, RFault e)
            | inl None => (s, RNoMore)
            | inl (Some t) =>
                let s1 := set_unstarted (remove1 t (sv_unstarted s)) s in
                match nth_error collection t with
                | None => (s1, RFault EIndex)
                | Some d =>
                    let s2 := set_exec (d_set c (Some t) (sv_exec s1)) s1 in
                    (s2, if hook then RFault EHook else RTest d t)
                end
            end
          else (set_state StopTests s, RNoMore)
      end
  end.

(** finished_test, server.py:177-194 *)
Definition finished_test (c : nat) (broken stops : bool) (s : server) : server * reply :=
  match d_get c (sv_exec s) with
  | Some (Some t) =>
      let s1 := set_exec (d_set c None (sv_exec s)) (set_finished (sv_finished s ++ [t]) s) in
      match create_result t KReported s1 with
      | inr e => (s1, RFault e)
      | inl s2 =>
          if broken then (s2, RFault EHook)
          else if stops then answer (mark_unrun_tests (set_state StopTests s2))
          else (s2, RNone)
      end
  | _ => (s, RProtocol)
  end.

(** report_client_failure, server.py:96-107 *)
Definition report_client_failure (c : nat) (s : server) : server * reply :=
  if mem c (sv_connected s) then
    let s1 := set_connected (remove1 c (sv_connected s)) s in
    let rest s := match mark_unrun_tests (set_state StopTests s) with
                  | (s', None) => (set_error true s', RNone)
                  | (s', Some e) => (s', RFault e)
                  end in
    match d_get c (sv_exec s1) with
    | Some (Some t) => match create_result t KInterrupted s1 with
                       | inr e => (s1, RFault e)
                       | inl s2 => rest (set_finished (sv_finished s2 ++ [t]) s2)
                       end
    | _ => rest s1
    end
  else (s, RFault EKey).

(** session_interrupted, server.py:199-203 *)
Definition session_interrupted (s : server) : server :=
  let s1 := set_interrupted true s in
  if sstate_eqb (sv_state s1) StopServe then s1 else set_state StopTests s1.

(** force_test or exclude_test called on a worker's configuration while the server runs; worker_configuration.py:65-87 *)
Definition reconf (f : wconf -> option wconf) (c : nat) (s : server) : server * reply :=
  match d_get c (sv_conf s) with
  | None => (s, RFault EKey)
  | Some w => match f w with Some w' => (set_conf (d_set c w' (sv_conf s)) s, RNone) | None => (s, RFault EHook) end
  end.

(** one call, as dispatched by SimpleXMLRPCServer (server.py:220-236); stop_serve is
    server.py:196-197, report_session_error server.py:213-215 *)
Definition handle (x : call) (s : server) : server * reply :=
  match x with
  | CConnect c hook => connect c hook s
  | CValidate c l => validate_collection l s
  | CDisconnect c f => disconnect c f s
  | CGet c hook => get_test c hook s
  | CFinished c broken stops => finished_test c broken stops s
  | CFailure c => report_client_failure c s
  | CInterrupted => (session_interrupted s, RNone)
  | CStop => (set_state StopServe s, RNone)
  | CSessionError => (set_error true s, RNone)
  | CExclude c t => reconf (exclude_test t) c s
  | CForce c t => reconf (force_test t) c s
  end.

(** the loop of serve, server.py:228-229: calls are handled until the state is
    STOP_SERVE; returns the calls with their answers *)
Fixpoint serve (l : list call) (s : server) : server * list (call * reply) :=
  match l with
  | [] => (s, [])
  | x :: l' =>
      if sstate_eqb (sv_state s) StopServe then (s, []) else
      let (s1, r) := handle x s in let (s2, rs) := serve l' s1 in (s2, (x, r) :: rs)
  end.

(** has_connected_clients, has_more_tests, should_wait_for_request, server.py:87-94 and 217-218 *)
Definition should_wait (s : server) : bool :=
  negb (match sv_connected s with [] => true | _ => false end) || Nat.ltb (length (sv_finished s)) (length tests).

(** ** Workers *)

(** where a worker's program is: not connected yet; connected and about to send its
    collection; told that its collection differs; about to ask for a test; running a
    test; about to disconnect; ended (disconnected, or terminated by an exception); worker.py:57-66, 72-136 *)
Inductive pc := WNew | WJoined | WRefused | WAsking | WRunning (t : nat) | WLeaving | WGone.

(** choices of the environment for one step of a worker: hooks of the server raise, the
    collection the worker found, the result of the test; plumbing of the model, no code of its own *)
Record choice := mkChoice { ch_hook : bool; ch_coll : list desc; ch_broken : bool; ch_stops : bool }.

(** the next call of a worker, worker.py:57-60 (connect), 82-90 (validation), 99
    (get_test), 117 (finished_test), 133 (disconnect); None: no more calls *)
Definition next_call (c : nat) (p : pc) (ch : choice) : option call :=
  match p with
  | WNew => Some (CConnect c (ch_hook ch))
  | WJoined => Some (CValidate c (sorted (ch_coll ch)))
  | WRefused => Some (CDisconnect c true)
  | WAsking => Some (CGet c (ch_hook ch))
  | WRunning _ => Some (CFinished c (ch_broken ch) (ch_stops ch))
  | WLeaving => Some (CDisconnect c false)
  | WGone => None
  end.

(** what the worker does with the answer, worker.py:72-136; a fault is an exception
    which ends the worker without a further call *)
Definition next_pc (p : pc) (r : reply) : pc :=
  match p, r with
  | _, RFault _ => WGone
  | WNew, _ => WJoined
  | WJoined, RBool true => WAsking
  | WJoined, _ => WRefused
  | WAsking, RWaiting => WAsking
  | WAsking, RTest _ t => WRunning t
  | WAsking, _ => WLeaving
  | WRunning _, RProtocol => WLeaving
  | WRunning _, _ => WAsking
  | _, _ => WGone
  end.

(** the whole system: the server and the workers; server.py:65-85, worker.py:20-29 *)
Record system := mkSystem { sy_server : server; sy_workers : @dict pc }.

(** what happens next: a worker makes its next call, a worker dies, the manager reports
    a worker as failed (parallel_manager.py:88-98; also when the worker is merely slow),
    the session is interrupted (125-128), the manager stops the server (134), a session
    error is reported (78), a hook forces or excludes a test *)
Inductive label :=
| LWorker (c : nat) (ch : choice)
| LDie (c : nat)
| LTimeout (c : nat)
| LInterrupt
| LStop
| LSessionError
| LExclude (c t : nat)
| LForce (c t : nat).

(** one step; the calls made by it are recorded with their answers. Calls to a server
    that stopped serving are not answered and end the worker. worker.py:57-66, 72-136, server.py:217-229 *)
Definition step (l : label) (y : system) : system * list (call * reply) :=
  let s := sy_server y in
  let ask x := if sstate_eqb (sv_state s) StopServe then (y, [])
               else let (s1, r) := handle x s in (mkSystem s1 (sy_workers y), [(x, r)]) in
  match l with
  | LWorker c ch =>
      match d_get c (sy_workers y) with
      | None => (y, [])
      | Some p =>
          match next_call c p ch with
          | None => (y, [])
          | Some x =>
              if sstate_eqb (sv_state s) StopServe then (mkSystem s (d_set c WGone (sy_workers y)), [])
              else let (s1, r) := handle x s in (mkSystem s1 (d_set c (next_pc p r) (sy_workers y)), [(x, r)])
          end
      end
  | LDie c => match d_get c (sy_workers y) with
              | None => (y, [])
              | Some _ => (mkSystem s (d_set c WGone (sy_workers y)), [])
              end
  | LTimeout c => ask (CFailure c)
  | LInterrupt => ask CInterrupted
  | LStop => ask CStop
  | LSessionError => ask CSessionError
  | LExclude c t => ask (CExclude c t)
  | LForce c t => ask (CForce c t)
  end.

(** a schedule; plumbing of the model, no code of its own *)
Fixpoint run (l : list label) (y : system) : system * list (call * reply) :=
  match l with
  | [] => (y, [])
  | x :: l' => let (y1, e1) := step x y in let (y2, e2) := run l' y1 in (y2, e1 ++ e2)
  end.

(** ParallelManager.__init__ and _create_workers, parallel_manager.py:24-41: workers
    1..n; [conf] are the configurations at the time the server is created *)
Definition start (conf : @dict wconf) : system :=
  mkSystem (init conf) (map (fun c => (c, WNew)) (List.seq 1 num_workers)).
End Server.

(** ** The worker's own collection *)

(** signatures_dict, worker.py:93-95: for each description the positions of the tests
    having it *)
Definition positions (d : desc) (l : list desc) : list nat :=
  map fst (filter (fun p => desc_eqb (snd p) d) (combine (List.seq 0 (length l)) l)).

(** [signatures_dict[d].pop()], worker.py:111: [pick] chooses which element of the set
    pop takes (None: KeyError on the empty set); [used] are the positions popped so far *)
Definition pop_position (pick : list nat -> nat) (own : list desc) (used : list nat) (d : desc) : option nat :=
  match filter (fun i => negb (mem i used)) (positions d own) with
  | [] => None
  | l => let i := pick l in if mem i l then Some i else hd_error l
  end.

(** the positions a worker runs when it is sent the given descriptions in turn; worker.py:72-133 *)
Fixpoint run_positions (pick : list nat -> nat) (own : list desc) (used : list nat) (l : list desc) : option (list nat) :=
  match l with
  | [] => Some []
  | d :: l' => match pop_position pick own used d with
               | None => None
               | Some i => option_map (cons i) (run_positions pick own (i :: used) l')
               end
  end.

(** ** Test objects and indices *)

(** position of an element in a list; a Python operation, no code of /repo *)
Fixpoint position (x : nat) (l : list nat) : option nat :=
  match l with [] => None | y :: l' => if Nat.eqb x y then Some 0 else option_map S (position x l') end.

(** parallel_index of a test object: its position before sorting, loader.py:66-71 *)
Definition parallel_index (loaded : list nat) (t : nat) : option nat := position t loaded.

(** _test_or_index_to_index and force_test given a test object, worker_configuration.py:60-63 and 77-87 *)
Definition force_test_object (loaded : list nat) (t : nat) (w : wconf) : option wconf :=
  match parallel_index loaded t with Some i => force_test i w | None => None end.
