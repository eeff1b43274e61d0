(** Executable model of slash's execution core: exception handling, results,
    cleanup manager, scope manager, fixture teardown and the test runner.

    Sources (all under /repo/slash): exception_handling.py, core/result.py,
    core/cleanup_manager.py, core/scope_manager.py, core/session.py, runner.py,
    utils/python.py, core/fixtures/fixture_store.py (teardown only),
    frontend/slash_run.py and app.py (exit code only).

    User code is an arbitrary [prog].  Python objects with identity that matter
    (scopes, cleanups, exceptions, fixtures) carry numeric ids. *)

From Coq Require Import List Bool Arith PeanoNat.
From Verif Require Export Events.
Import ListNotations.

(** * Exceptions *)

(** exceptions.py:12 INTERRUPTION_EXCEPTIONS *)
Definition interruption_types : list etype := [TKeyboard; TTerminated].

(** A raised exception: identity, class, and its "fatal" mark
    (exception_handling.py:202-210, 222-223). *)
Record exn := mkExn { x_id : xid; x_kind : ekind; x_fatal : bool }.

(** Result of running a piece of code.  [OFuel] stands for "the model ran out
    of fuel" and is proved unreachable. The ways a statement of core/*.py, runner.py can end *)
Inductive outcome := ONormal | ORaise (x : exn) | OFuel.

(** Options of handling_exceptions, exception_handling.py:72-99. *)
Record hopts := mkH { h_swallow : bool; h_types : list etype; h_pass : list etype }.

(** [handling_exceptions()] and [handling_exceptions(swallow=True)]; the call without options, e.g. runner.py:191 *)
Definition h_plain := mkH false [] [].
(** e.g. runner.py:97, cleanup_manager.py:156 *)
Definition h_swallowing := mkH true [] [].

(** * Names, programs *)

(** The [scope=] argument of add_cleanup: absent, or given (possibly None). cleanup_manager.py:58 *)
Inductive scarg := SDefault | SGiven (s : option sname).

(** User code.  Each constructor is one thing test code, hooks, cleanups or
    finalizers can do through the public API; the last argument is the rest of
    the program.  Simplification: programs without loops; values are not
    represented, a condition may be any function of the whole state (including
    the trace of events so far). The API calls: cleanups.py:6-28 (add_cleanup), utils/__init__.py:42-64 (add_error, add_failure), exception_handling.py:72-99, cleanup_manager.py:95-102, fixture_store.py:386-389, cleanups.py:28-36 (get_current_cleanup_phase). *)
Inductive prog :=
| PDone
| PRaise (k : ekind) (fatal : bool)                 (* raise a fresh exception *)
| PRaiseObj (n : nat)                               (* raise the stored exception object number n *)
| PEmit (n : nat) (p : prog)                        (* any other observable effect *)
| PAdd (sc : scarg) (crit succ : bool) (body : prog) (p : prog)  (* slash.add_cleanup *)
| PErr (fatal : bool) (p : prog)                    (* slash.add_error(msg) *)
| PFail (fatal : bool) (p : prog)                   (* slash.add_failure(msg) *)
| PHandle (h : hopts) (b : prog) (p : prog)         (* with handling_exceptions(...): b *)
| PCatch (ts : list etype) (b : prog) (p : prog)    (* try: b except ts: pass *)
| PDefault (sc : sname) (b : prog) (p : prog)       (* with cleanups.default_scope_override(sc): b *)
| PFixture (l : flevel) (fin : prog) (p : prog)     (* activate a fixture whose finalizer is fin *)
| PFinally (b : prog) (f : prog) (p : prog)         (* try: b finally: f *)
| PIf (c : nat) (a b : prog) (p : prog)             (* if condition number c holds: a else: b *)
| PPhase (p : prog).                                (* slash.get_current_cleanup_phase() *)

(** * State *)

(** One entry of Result._errors/_failures/_skips, core/error.py:24-50;
    source exception object (if any) and fatal flag. *)
Record entry := mkEntry { n_src : option xid; n_fatal : bool }.

(** Result, core/result.py:32-49 (only the fields deciding outcomes). *)
Record result := mkResult {
  r_errors : list entry; r_failures : list entry; r_skips : list entry;
  r_started : bool; r_finished : bool; r_interrupted : bool }.

(** Result.__init__, core/result.py:32-49 *)
Definition result0 := mkResult [] [] [] false false false.

(** _Cleanup, core/cleanup_manager.py:167-178. *)
Record cleanup := mkCleanup {
  c_id : nat; c_crit : bool; c_succ : bool; c_body : prog; c_result : rref }.

(** _Scope, core/cleanup_manager.py:202-207; [sc_cleanups] newest first. *)
Record scope := mkScope { sc_id : nat; sc_name : sname; sc_cleanups : list cleanup }.

(** CleanupManager, core/cleanup_manager.py:22-29.  [cm_stack] innermost first,
    [cm_names] maps a name to scope ids innermost first (key kept when the list
    becomes empty, as in Python), [cm_pending] newest first. *)
Record cman := mkCM {
  cm_stack : list scope; cm_names : list (sname * list nat); cm_pending : list cleanup;
  cm_implicit : bool; cm_default : option sname; cm_current : option nat;
  cm_nsid : nat; cm_ncid : nat }.

(** What the code keeps in objects: Session (core/session.py:26-53), context (ctx.py:11-17), SessionResults (core/result.py:323-328), ScopeManager (scope_manager.py:13-17), FixtureStore (fixture_store.py:26-36), the marks of exceptions (exception_handling.py:167-175, 202-223, core/result.py:24), and the trace of events (ghost). *)
Record state := mkState {
  st_cm : cman;
  st_global : result;
  st_results : list (nat * result);      (* creation order *)
  st_handled : list xid;                 (* exceptions marked "handled" *)
  st_added : list xid;                   (* exceptions marked "added to result" *)
  st_nx : nat;                           (* fresh exception counter *)
  st_fix : list (flevel * list (nat * prog)); (* FixtureStore._active_fixtures_by_scope, oldest first *)
  st_nfix : nat;
  st_scopes : list sname;                (* ScopeManager._scopes, innermost first *)
  st_lastmod : option nat;               (* ScopeManager._last_module *)
  st_lasttest : option nat;              (* ScopeManager._last_test *)
  st_test : option nat;                  (* context.test *)
  st_result : rref;                      (* context.result *)
  st_ctl : bool;                         (* TestStartEndController._started of the current test *)
  st_ss : bool;                          (* session_start_called, core/session.py:119 *)
  st_nidx : nat;                         (* session.test_index_counter *)
  st_idx : list (nat * nat);             (* test id -> test_index0 *)
  st_trace : list event }.

(** Field updates: assignment to Session.cleanups, core/session.py:51 *)
Definition set_cm v s := mkState v (st_global s) (st_results s) (st_handled s) (st_added s) (st_nx s) (st_fix s) (st_nfix s) (st_scopes s) (st_lastmod s) (st_lasttest s) (st_test s) (st_result s) (st_ctl s) (st_ss s) (st_nidx s) (st_idx s) (st_trace s).
(** assignment to SessionResults.global_result, core/result.py:326 *)
Definition set_global v s := mkState (st_cm s) v (st_results s) (st_handled s) (st_added s) (st_nx s) (st_fix s) (st_nfix s) (st_scopes s) (st_lastmod s) (st_lasttest s) (st_test s) (st_result s) (st_ctl s) (st_ss s) (st_nidx s) (st_idx s) (st_trace s).
(** assignment to SessionResults._results_dict, core/result.py:327 *)
Definition set_results v s := mkState (st_cm s) (st_global s) v (st_handled s) (st_added s) (st_nx s) (st_fix s) (st_nfix s) (st_scopes s) (st_lastmod s) (st_lasttest s) (st_test s) (st_result s) (st_ctl s) (st_ss s) (st_nidx s) (st_idx s) (st_trace s).
(** assignment to the mark of exception_handling.py:167-175 *)
Definition set_handled v s := mkState (st_cm s) (st_global s) (st_results s) v (st_added s) (st_nx s) (st_fix s) (st_nfix s) (st_scopes s) (st_lastmod s) (st_lasttest s) (st_test s) (st_result s) (st_ctl s) (st_ss s) (st_nidx s) (st_idx s) (st_trace s).
(** assignment to the mark of core/result.py:24 *)
Definition set_added v s := mkState (st_cm s) (st_global s) (st_results s) (st_handled s) v (st_nx s) (st_fix s) (st_nfix s) (st_scopes s) (st_lastmod s) (st_lasttest s) (st_test s) (st_result s) (st_ctl s) (st_ss s) (st_nidx s) (st_idx s) (st_trace s).
(** counter giving the object identity of exceptions; plumbing of the model, no code of its own *)
Definition set_nx v s := mkState (st_cm s) (st_global s) (st_results s) (st_handled s) (st_added s) v (st_fix s) (st_nfix s) (st_scopes s) (st_lastmod s) (st_lasttest s) (st_test s) (st_result s) (st_ctl s) (st_ss s) (st_nidx s) (st_idx s) (st_trace s).
(** assignment to FixtureStore._active_fixtures_by_scope, fixture_store.py:386-389 *)
Definition set_fix v s := mkState (st_cm s) (st_global s) (st_results s) (st_handled s) (st_added s) (st_nx s) v (st_nfix s) (st_scopes s) (st_lastmod s) (st_lasttest s) (st_test s) (st_result s) (st_ctl s) (st_ss s) (st_nidx s) (st_idx s) (st_trace s).
(** counter giving the object identity of fixtures *)
Definition set_nfix v s := mkState (st_cm s) (st_global s) (st_results s) (st_handled s) (st_added s) (st_nx s) (st_fix s) v (st_scopes s) (st_lastmod s) (st_lasttest s) (st_test s) (st_result s) (st_ctl s) (st_ss s) (st_nidx s) (st_idx s) (st_trace s).
(** assignment to ScopeManager._scopes, scope_manager.py:16 *)
Definition set_scopes v s := mkState (st_cm s) (st_global s) (st_results s) (st_handled s) (st_added s) (st_nx s) (st_fix s) (st_nfix s) v (st_lastmod s) (st_lasttest s) (st_test s) (st_result s) (st_ctl s) (st_ss s) (st_nidx s) (st_idx s) (st_trace s).
(** assignment to ScopeManager._last_module, scope_manager.py:17 *)
Definition set_lastmod v s := mkState (st_cm s) (st_global s) (st_results s) (st_handled s) (st_added s) (st_nx s) (st_fix s) (st_nfix s) (st_scopes s) v (st_lasttest s) (st_test s) (st_result s) (st_ctl s) (st_ss s) (st_nidx s) (st_idx s) (st_trace s).
(** assignment to ScopeManager._last_test, scope_manager.py:17 *)
Definition set_lasttest v s := mkState (st_cm s) (st_global s) (st_results s) (st_handled s) (st_added s) (st_nx s) (st_fix s) (st_nfix s) (st_scopes s) (st_lastmod s) v (st_test s) (st_result s) (st_ctl s) (st_ss s) (st_nidx s) (st_idx s) (st_trace s).
(** assignment to context.test, runner.py:238 *)
Definition set_test v s := mkState (st_cm s) (st_global s) (st_results s) (st_handled s) (st_added s) (st_nx s) (st_fix s) (st_nfix s) (st_scopes s) (st_lastmod s) (st_lasttest s) v (st_result s) (st_ctl s) (st_ss s) (st_nidx s) (st_idx s) (st_trace s).
(** assignment to context.result, runner.py:225 *)
Definition set_result v s := mkState (st_cm s) (st_global s) (st_results s) (st_handled s) (st_added s) (st_nx s) (st_fix s) (st_nfix s) (st_scopes s) (st_lastmod s) (st_lasttest s) (st_test s) v (st_ctl s) (st_ss s) (st_nidx s) (st_idx s) (st_trace s).
(** assignment to TestStartEndController._started, runner.py:164 *)
Definition set_ctl v s := mkState (st_cm s) (st_global s) (st_results s) (st_handled s) (st_added s) (st_nx s) (st_fix s) (st_nfix s) (st_scopes s) (st_lastmod s) (st_lasttest s) (st_test s) (st_result s) v (st_ss s) (st_nidx s) (st_idx s) (st_trace s).
(** assignment to session_start_called, core/session.py:119 *)
Definition set_ss v s := mkState (st_cm s) (st_global s) (st_results s) (st_handled s) (st_added s) (st_nx s) (st_fix s) (st_nfix s) (st_scopes s) (st_lastmod s) (st_lasttest s) (st_test s) (st_result s) (st_ctl s) v (st_nidx s) (st_idx s) (st_trace s).
(** assignment to test_index_counter, core/session.py:34 *)
Definition set_nidx v s := mkState (st_cm s) (st_global s) (st_results s) (st_handled s) (st_added s) (st_nx s) (st_fix s) (st_nfix s) (st_scopes s) (st_lastmod s) (st_lasttest s) (st_test s) (st_result s) (st_ctl s) (st_ss s) v (st_idx s) (st_trace s).
(** assignment to test_index0, runner.py:208 *)
Definition set_idx v s := mkState (st_cm s) (st_global s) (st_results s) (st_handled s) (st_added s) (st_nx s) (st_fix s) (st_nfix s) (st_scopes s) (st_lastmod s) (st_lasttest s) (st_test s) (st_result s) (st_ctl s) (st_ss s) (st_nidx s) v (st_trace s).
(** appends to the ghost trace of events *)
Definition emit e s := mkState (st_cm s) (st_global s) (st_results s) (st_handled s) (st_added s) (st_nx s) (st_fix s) (st_nfix s) (st_scopes s) (st_lastmod s) (st_lasttest s) (st_test s) (st_result s) (st_ctl s) (st_ss s) (st_nidx s) (st_idx s) (st_trace s ++ [e]).

(** State right after Session.activate (core/session.py:74-88): the global
    result is started and current; no scope is open. *)
Definition cman0 := mkCM [] [] [] true None None 0 0.
(** Session.activate, core/session.py:74-88 *)
Definition state0 := mkState cman0 (mkResult [] [] [] true false false) [] [] [] 0 [] 0
  [] None None None RGlobal false false 0 [] [].

(** * Code as state transformers with exceptions *)

(** plumbing: Python code acting on the state above, ending in an [outcome] *)
Definition M := state -> state * outcome.

(** plumbing: the empty statement (pass) *)
Definition ret : M := fun s => (s, ONormal).

(** raise a new exception object (plumbing: the raise statement) *)
Definition raise_new (k : ekind) (fatal : bool) : M := fun s =>
  (set_nx (S (st_nx s)) s, ORaise (mkExn (XFresh (st_nx s)) k fatal)).

(** sequencing; an exception skips the rest (plumbing: consecutive statements) *)
Definition seq (a b : M) : M := fun s =>
  match a s with
  | (s1, ONormal) => b s1
  | (s1, o) => (s1, o)
  end.

Notation "a ;; b" := (seq a b) (at level 61, right associativity).

(** plumbing: a statement that only assigns *)
Definition upd (f : state -> state) : M := fun s => (f s, ONormal).

(** try: a finally: b  -- an exception of b replaces that of a (plumbing: the try statement, e.g. runner.py:110-115) *)
Definition finally (a b : M) : M := fun s =>
  match a s with
  | (s1, OFuel) => (s1, OFuel)
  | (s1, o) =>
      match b s1 with
      | (s2, ONormal) => (s2, o)
      | (s2, o2) => (s2, o2)
      end
  end.

(** try: a except ts: h (h then replaces the outcome) (plumbing: the try statement, e.g. runner.py:107-117) *)
Definition except_ (ts : list etype) (a : M) (h : exn -> M) : M := fun s =>
  match a s with
  | (s1, ORaise x) => if isinstance_any (x_kind x) ts then h x s1 else (s1, ORaise x)
  | r => r
  end.

(** plumbing: the bare raise statement, e.g. cleanup_manager.py:185 *)
Definition reraise (x : exn) : M := fun s => (s, ORaise x).

(** conditional on the current state (plumbing: the if statement) *)
Definition cond (c : state -> bool) (a b : M) : M := fun s => if c s then a s else b s.

(** * Results: core/result.py *)

(** dict.get on SessionResults._results_dict, core/result.py:441-459, and on other dicts *)
Fixpoint lookup {A} (n : nat) (l : list (nat * A)) : option A :=
  match l with
  | [] => None
  | (m, a) :: l' => if Nat.eqb n m then Some a else lookup n l'
  end.

(** dictionary assignment to an existing key; mutation of the object stored under a key; a Python operation *)
Fixpoint update {A} (n : nat) (f : A -> A) (l : list (nat * A)) : list (nat * A) :=
  match l with
  | [] => []
  | (m, a) :: l' => if Nat.eqb n m then (m, f a) :: l' else (m, a) :: update n f l'
  end.

(** Mutates the result object [r] denotes.  A test's result object exists
    whenever it is denoted (invariant [W] in Records.v): the result objects of core/result.py:326-327 *)
Definition on_result (r : rref) (f : result -> result) (s : state) : state :=
  match r with
  | RGlobal => set_global (f (st_global s)) s
  | RTest t => set_results (update t f (st_results s)) s
  end.

(** the object context.result, _Cleanup.result (cleanup_manager.py:177) etc. refer to *)
Definition get_result (r : rref) (s : state) : option result :=
  match r with
  | RGlobal => Some (st_global s)
  | RTest t => lookup t (st_results s)
  end.

(** core/result.py:158-160, 195-197, 199-200 *)
Definition r_mark_started r := mkResult (r_errors r) (r_failures r) (r_skips r) true (r_finished r) (r_interrupted r).
(** mark_finished, core/result.py:195-197 *)
Definition r_mark_finished r := mkResult (r_errors r) (r_failures r) (r_skips r) (r_started r) true (r_interrupted r).
(** mark_interrupted, core/result.py:199-200 *)
Definition r_mark_interrupted r := mkResult (r_errors r) (r_failures r) (r_skips r) (r_started r) (r_finished r) true.
(** core/result.py:205-217, 224-250 (append=True; the error_added hook and the
    reporter calls are not modelled) *)
Definition r_add_error e r := mkResult (r_errors r ++ [e]) (r_failures r) (r_skips r) (r_started r) (r_finished r) (r_interrupted r).
(** add_failure, core/result.py:212-217 *)
Definition r_add_failure e r := mkResult (r_errors r) (r_failures r ++ [e]) (r_skips r) (r_started r) (r_finished r) (r_interrupted r).
(** add_skip, core/result.py:247-250 *)
Definition r_add_skip e r := mkResult (r_errors r) (r_failures r) (r_skips r ++ [e]) (r_started r) (r_finished r) (r_interrupted r).

(** bool() of a list, core/result.py:120 *)
Definition nonempty {A} (l : list A) : bool := match l with [] => false | _ => true end.

(** core/result.py:155-187, 285-287 *)
Definition is_error r := nonempty (r_errors r).
(** is_failure, core/result.py:169-170 *)
Definition is_failure r := nonempty (r_failures r).
(** is_just_failure, core/result.py:172-174 *)
Definition is_just_failure r := is_failure r && negb (is_error r).
(** is_skip, core/result.py:176-177 *)
Definition is_skip r := nonempty (r_skips r).
(** is_not_run, core/result.py:155-156 *)
Definition is_not_run r := negb (r_started r) && negb (is_error r || is_failure r).
(** Result.is_success, core/result.py:182-187 *)
Definition is_success (allow_skips : bool) (r : result) : bool :=
  if is_error r || is_failure r || r_interrupted r then false
  else if is_skip r then allow_skips
  else r_started r.
(** has_fatal_errors, core/result.py:285-287 *)
Definition has_fatal r := existsb n_fatal (r_errors r ++ r_failures r).

(** SessionResults.is_success / GlobalResult.is_success, core/result.py:311-318,
    374-379 (no parallel children in this model). *)
Definition session_success (allow_skips : bool) (s : state) : bool :=
  is_success allow_skips (st_global s) &&
  forallb (fun p => is_success allow_skips (snd p)) (st_results s).

(** [context.result.is_success(allow_skips=True)] through dynamic dispatch;
    a denoted test result exists, see [on_result]. cleanup_manager.py:121 *)
Definition current_success (s : state) : bool :=
  match st_result s with
  | RGlobal => session_success true s
  | RTest t => match lookup t (st_results s) with
               | Some r => is_success true r
               | None => false
               end
  end.

(** context.result.is_interrupted(), cleanup_manager.py:122, fixture_store.py:201 *)
Definition current_interrupted (s : state) : bool :=
  match get_result (st_result s) s with
  | Some r => r_interrupted r
  | None => false
  end.

(** is_exception_marked, exception_handling.py:167-175, 202-223 *)
Definition mem_xid (x : xid) (l : list xid) : bool := existsb (xid_eqb x) l.

Section Env.

(** The environment: handlers of each hook (per test id), class and fatal mark
    of the exception objects user code keeps, registered skip exception types besides SkipTest (core/session.py:53,61-65), stop_on_error,
    whether this is a parallel worker, the index handed to a worker, and the
    conditions user code branches on. *)
Record env := mkEnv {
  e_hook : hook -> nat -> prog;
  e_obj : nat -> ekind * bool;
  e_skips : list etype;
  e_stop : bool;
  e_worker : bool;
  e_pindex : nat;
  e_cond : nat -> state -> bool }.

Variable E : env.

(** Session.get_skip_exception_types, core/session.py:53, 61-65. *)
Definition skip_types : list etype := TSkip :: e_skips E.

(** Result.add_exception, core/result.py:82-117.  The hooks interruption_added,
    test_interrupt and error_added are events only (handlers not modelled). *)
Definition add_exception (r : rref) (x : exn) (s : state) : state :=
  if mem_xid (x_id x) (st_added s) then s
  else
    let s := set_added (x_id x :: st_added s) s in
    let en := mkEntry (Some (x_id x)) (x_fatal x) in
    if isinstance_any (x_kind x) [TAssertion] then
      emit (EvRecord r RKFailure (Some (x_id x)) (x_fatal x)) (on_result r (r_add_failure en) s)
    else if isinstance_any (x_kind x) skip_types then
      emit (EvRecord r RKSkip (Some (x_id x)) (x_fatal x)) (on_result r (r_add_skip en) s)
    else if isinstance_any (x_kind x) interruption_types then
      let s := emit (EvRecord r RKInterrupt (Some (x_id x)) (x_fatal x)) s in
      let interrupted_test := match get_result r s with Some q => r_interrupted q | None => false end in
      let s := match r with
               | RGlobal => s
               | RTest t =>
                   let s := on_result r r_mark_interrupted s in
                   if interrupted_test then s else emit (EvHook HTestInterrupt t) s
               end in
      on_result RGlobal r_mark_interrupted s
    else if isinstance_any (x_kind x) [TGenExit] then
      emit (EvRecord r RKNothing (Some (x_id x)) (x_fatal x)) s
    else
      emit (EvRecord r RKError (Some (x_id x)) (x_fatal x)) (on_result r (r_add_error en) s).

(** update_current_result, exception_handling.py:23-31. *)
Definition update_current_result (x : exn) (s : state) : state :=
  match st_test s with
  | Some t => add_exception (RTest t) x s
  | None => add_exception RGlobal x s
  end.

(** handle_exception, exception_handling.py:141-164 (debugger and its two
    hooks not modelled). *)
Definition handle_exception (x : exn) (s : state) : state :=
  let s := emit (EvHandle (x_id x) (x_kind x) (x_fatal x)   (* observation only *)
                   (match st_test s with Some t => RTest t | None => RGlobal end)) s in
  if mem_xid (x_id x) (st_handled s) then s
  else update_current_result x (set_handled (x_id x :: st_handled s) s).

(** _HandlingException.__exit__ with the types computed by handling_exceptions,
    exception_handling.py:93-99, 117-138 (thread-ignored types not modelled). *)
Definition handling (h : hopts) (a : M) : M := fun s =>
  match a s with
  | (s1, ORaise x) =>
      if isinstance_any (x_kind x) (h_pass h) then (s1, ORaise x)
      else
        let s2 := handle_exception x s1 in
        if isinstance_any (x_kind x) skip_types || isinstance_any (x_kind x) interruption_types
        then (s2, ORaise x)
        else
          let swallow := if h_swallow h then h_types h ++ [TException] else h_types h in
          if isinstance_any (x_kind x) swallow then (s2, ONormal) else (s2, ORaise x)
  | r => r
  end.

(** * Cleanup manager: core/cleanup_manager.py *)

(** lookup in _scopes_by_name, cleanup_manager.py:76-78 *)
Fixpoint name_lookup (n : sname) (l : list (sname * list nat)) : option (list nat) :=
  match l with
  | [] => None
  | (m, v) :: l' => if sname_eqb n m then Some v else name_lookup n l'
  end.

(** setdefault(name, []) followed by an update of the list; cleanup_manager.py:112, 135 *)
Fixpoint name_update (n : sname) (f : list nat -> list nat) (l : list (sname * list nat)) :=
  match l with
  | [] => [(n, f [])]
  | (m, v) :: l' => if sname_eqb n m then (m, f v) :: l' else (m, v) :: name_update n f l'
  end.

(** append to / replace the cleanups of the scope object [sid]; scope.cleanups.append / stack.pop, cleanup_manager.py:84, 114, 151 *)
Definition on_scope (sid : nat) (f : list cleanup -> list cleanup) (l : list scope) : list scope :=
  map (fun sc => if Nat.eqb sid (sc_id sc) then mkScope (sc_id sc) (sc_name sc) (f (sc_cleanups sc)) else sc) l.

(** scope.cleanups, cleanup_manager.py:149 *)
Definition scope_cleanups (sid : nat) (s : state) : list cleanup :=
  match find (fun sc => Nat.eqb sid (sc_id sc)) (cm_stack (st_cm s)) with
  | Some sc => sc_cleanups sc
  | None => []
  end.

(** assignment to _scope_stack, cleanup_manager.py:24 *)
Definition with_stack v c := mkCM v (cm_names c) (cm_pending c) (cm_implicit c) (cm_default c) (cm_current c) (cm_nsid c) (cm_ncid c).
(** assignment to _scopes_by_name, cleanup_manager.py:25 *)
Definition with_names v c := mkCM (cm_stack c) v (cm_pending c) (cm_implicit c) (cm_default c) (cm_current c) (cm_nsid c) (cm_ncid c).
(** assignment to _pending, cleanup_manager.py:26 *)
Definition with_pending v c := mkCM (cm_stack c) (cm_names c) v (cm_implicit c) (cm_default c) (cm_current c) (cm_nsid c) (cm_ncid c).
(** assignment to _allow_implicit_scopes, cleanup_manager.py:27 *)
Definition with_implicit v c := mkCM (cm_stack c) (cm_names c) (cm_pending c) v (cm_default c) (cm_current c) (cm_nsid c) (cm_ncid c).
(** assignment to _default_scope, cleanup_manager.py:28 *)
Definition with_default v c := mkCM (cm_stack c) (cm_names c) (cm_pending c) (cm_implicit c) v (cm_current c) (cm_nsid c) (cm_ncid c).
(** assignment to _current_scope, cleanup_manager.py:29 *)
Definition with_current v c := mkCM (cm_stack c) (cm_names c) (cm_pending c) (cm_implicit c) (cm_default c) v (cm_nsid c) (cm_ncid c).
(** counter giving the object identity of scopes; plumbing of the model, no code of its own *)
Definition with_nsid v c := mkCM (cm_stack c) (cm_names c) (cm_pending c) (cm_implicit c) (cm_default c) (cm_current c) v (cm_ncid c).
(** counter giving the object identity of cleanups; plumbing of the model, no code of its own *)
Definition with_ncid v c := mkCM (cm_stack c) (cm_names c) (cm_pending c) (cm_implicit c) (cm_default c) (cm_current c) (cm_nsid c) v.
(** mutation of the cleanup manager, core/session.py:51 *)
Definition on_cm (f : cman -> cman) (s : state) : state := set_cm (f (st_cm s)) s.

(** appends [c] to scope [tgt], or to the pending list; cleanup_manager.py:80-84 *)
Definition attach (c : cleanup) (req : option sname) (tgt : option nat) (s : state) : state :=
  let s := emit (EvAdd (c_id c) req tgt (c_crit c) (c_succ c) (c_result c)) s in
  match tgt with
  | None => on_cm (fun m => with_pending (c :: cm_pending m) m) s
  | Some sid => on_cm (fun m => with_stack (on_scope sid (cons c) (cm_stack m)) m) s
  end.

(** CleanupManager.add_cleanup, cleanup_manager.py:45-85. *)
Definition add_cleanup (sc : scarg) (crit succ : bool) (body : prog) : M := fun s =>
  let scope_name := match sc with SDefault => cm_default (st_cm s) | SGiven n => n end in
  (* _Cleanup.__init__, line 170 *)
  if succ && crit then raise_new KAssertion false s
  else
    let c := mkCleanup (cm_ncid (st_cm s)) crit succ body (st_result s) in
    let s := on_cm (fun m => with_ncid (S (cm_ncid m)) m) s in
    match scope_name with
    | None =>
        if negb (cm_implicit (st_cm s)) then raise_new KCannotAdd false s
        else (attach c None (match cm_stack (st_cm s) with [] => None | x :: _ => Some (sc_id x) end) s, ONormal)
    | Some n =>
        match name_lookup n (cm_names (st_cm s)) with
        | None => raise_new KIncorrectScope false s
        | Some [] => raise_new KIndexError false s       (* [][-1], line 78 *)
        | Some (sid :: _) => (attach c (Some n) (Some sid) s, ONormal)
        end
    end.

(** Records in the trace that add_cleanup raised (ghost: observation only, no code) *)
Definition tap_add (sc : scarg) (a : M) : M := fun s =>
  match a s with
  | (s1, ORaise x) =>
      (emit (EvReject (match sc with SDefault => cm_default (st_cm s) | SGiven n => n end) (x_kind x)) s1, ORaise x)
  | r => r
  end.

(** default_scope_override, cleanup_manager.py:95-102. *)
Definition default_scope_override (n : sname) (a : M) : M := fun s =>
  let prev := cm_default (st_cm s) in
  finally (upd (on_cm (with_default (Some n))) ;; a)
          (upd (on_cm (with_default prev))) s.

(** forbid_implicit_scoping_context, cleanup_manager.py:36-43. *)
Definition forbid_implicit (a : M) : M := fun s =>
  let prev := cm_implicit (st_cm s) in
  finally (upd (on_cm (with_implicit false)) ;; a)
          (upd (on_cm (with_implicit prev))) s.

(** * Fixture activation: core/fixtures/fixture_store.py *)

(** setdefault/update in _active_fixtures_by_scope, fixture_store.py:386-389, 399-404 *)
Fixpoint fix_update (l : flevel) (f : list (nat * prog) -> list (nat * prog))
         (d : list (flevel * list (nat * prog))) :=
  match d with
  | [] => [(l, f [])]
  | (m, v) :: d' => if flevel_eqb l m then (m, f v) :: d' else (m, v) :: fix_update l f d'
  end.

(** FixtureStore._call_fixture's registration of the active fixture,
    fixture_store.py:386-389; one finalizer program per fixture. *)
Definition activate_fixture (l : flevel) (fin : prog) : M := fun s =>
  let fid := st_nfix s in
  (emit (EvFixUp fid l) (set_nfix (S fid) (set_fix (fix_update l (fun v => v ++ [(fid, fin)]) (st_fix s)) s)), ONormal).

(** * User programs *)

(** slash.add_error, slash.add_failure, add_skip on the current result: utils/__init__.py:42-64, core/result.py:205-217, 247-250 *)
Definition add_entry (k : rkind) (fatal : bool) (s : state) : state :=
  let en := mkEntry None fatal in
  let f := match k with
           | RKError => r_add_error en
           | RKFailure => r_add_failure en
           | _ => r_add_skip en
           end in
  emit (EvRecord (st_result s) k None fatal) (on_result (st_result s) f s).

(** get_current_cleanup_phase and get_current_scope_name, cleanups.py:28-36,
    cleanup_manager.py:31-34; the event tells the scope object, whose name is the answer. *)
Definition observe_phase : M := fun s => (emit (EvPhase (cm_current (st_cm s))) s, ONormal).

(** Runs user code.  PErr/PFail: utils/__init__.py:42-64 (results.current is
    context.result, core/result.py:363-369). *)
Fixpoint exec (p : prog) : M :=
  match p with
  | PDone => ret
  | PRaise k fatal => raise_new k fatal
  | PRaiseObj n => reraise (mkExn (XObj n) (fst (e_obj E n)) (snd (e_obj E n)))
  | PEmit n p => upd (emit (EvUser n)) ;; exec p
  | PAdd sc crit succ body p => tap_add sc (add_cleanup sc crit succ body) ;; exec p
  | PErr fatal p => upd (add_entry RKError fatal) ;; exec p
  | PFail fatal p => upd (add_entry RKFailure fatal) ;; exec p
  | PHandle h b p => handling h (exec b) ;; exec p
  | PCatch ts b p => except_ ts (exec b) (fun _ => ret) ;; exec p
  | PDefault n b p => default_scope_override n (exec b) ;; exec p
  | PFixture l fin p => activate_fixture l fin ;; exec p
  | PFinally b f p => finally (exec b) (exec f) ;; exec p
  | PIf c a b p => cond (e_cond E c) (exec a) (exec b) ;; exec p
  | PPhase p => observe_phase ;; exec p
  end.

(** Firing a hook: all its handlers, as one program. hooks.py:16-75 *)
Definition fire (h : hook) (t : nat) : M :=
  upd (emit (EvHook h t)) ;; exec (e_hook E h t).

(** * Scopes of the cleanup manager *)

(** CleanupManager.push_scope, cleanup_manager.py:108-115. *)
Definition cm_push (n : sname) : M := fun s =>
  let sid := cm_nsid (st_cm s) in
  let s := on_cm (fun m =>
       mkCM (mkScope sid n (cm_pending m) :: cm_stack m)
            (name_update n (cons sid) (cm_names m))
            [] (cm_implicit m) (cm_default m) (cm_current m) (S sid) (cm_ncid m)) s in
  (emit (EvPush sid n) s, ONormal).

(** Records in the trace that an exception left a cleanup (ghost: observation only, no code) *)
Definition tap (cid : nat) (a : M) : M := fun s =>
  match a s with
  | (s1, ORaise x) => (emit (EvRaised cid (x_id x) (x_kind x)) s1, ORaise x)
  | r => r
  end.

(** _Cleanup.__call__ inside the _current_scope block,
    cleanup_manager.py:158-163, 180-185. *)
Definition call_cleanup (sid : nat) (c : cleanup) : M := fun s =>
  let prev := cm_current (st_cm s) in
  finally
    (upd (on_cm (with_current (Some sid))) ;; upd (emit (EvRun (c_id c))) ;;
     except_ [TException] (tap (c_id c) (exec (c_body c)))
       (fun x => upd (add_exception (c_result c) x) ;; reraise x))
    (upd (on_cm (with_current prev))) s.

(** the while loop of call_cleanups, cleanup_manager.py:149-163 *)
Fixpoint cleanup_loop (fuel : nat) (sid : nat) (in_failure in_interruption : bool) : M := fun s =>
  match fuel with
  | 0 => (s, OFuel)
  | S fuel' =>
      match scope_cleanups sid s with
      | [] => (s, ONormal)
      | c :: _ =>
          let s := on_cm (fun m => with_stack (on_scope sid (@tl _) (cm_stack m)) m) s in
          if in_interruption && negb (c_crit c) then cleanup_loop fuel' sid in_failure in_interruption s
          else if (in_failure || in_interruption) && c_succ c then cleanup_loop fuel' sid in_failure in_interruption s
          else (handling h_swallowing (call_cleanup sid c) ;; cleanup_loop fuel' sid in_failure in_interruption) s
      end
  end.

(** size of a program / of everything registered: bound for the loop; proof device, no code: fuel for [cleanup_loop] *)
Fixpoint psize (p : prog) : nat :=
  match p with
  | PDone | PRaise _ _ | PRaiseObj _ => 1
  | PEmit _ p | PErr _ p | PFail _ p => S (psize p)
  | PAdd _ _ _ b p => S (S (psize b + psize p))
  | PHandle _ b p | PCatch _ b p | PDefault _ b p => S (psize b + psize p)
  | PFixture _ _ p | PPhase p => S (psize p)
  | PFinally a b p | PIf _ a b p => S (psize a + psize b + psize p)
  end.

(** proof device, no code *)
Definition csize (c : cleanup) : nat := S (psize (c_body c)).

(** proof device, no code *)
Definition list_sum (l : list nat) : nat := fold_right Nat.add 0 l.

(** proof device, no code: the fuel given to the loop of cleanup_manager.py:150 *)
Definition stack_size (l : list scope) : nat :=
  list_sum (map (fun sc => list_sum (map csize (sc_cleanups sc))) l).

(** CleanupManager.call_cleanups, cleanup_manager.py:137-163. *)
Definition call_cleanups (sid : nat) (nm : sname) (in_failure in_interruption : bool) : M :=
  (if sname_eqb nm STest
   then (fun s => handling h_plain (fire HBeforeTestCleanups
                       (match st_test s with Some t => t | None => 0 end)) s)
   else ret) ;;
  (fun s => cleanup_loop (S (stack_size (cm_stack (st_cm s)))) sid in_failure in_interruption s).

(** CleanupManager.pop_scope, cleanup_manager.py:117-135 (context.result is
    never None inside a session). *)
Definition cm_pop (n : sname) : M := fun s =>
  let in_failure := negb (current_success s) in
  let in_interruption := current_interrupted s in
  match cm_stack (st_cm s) with
  | [] => raise_new KIndexError false s
  | sc :: _ =>
      if negb (sname_eqb (sc_name sc) n) then raise_new KInternal false s
      else
        match call_cleanups (sc_id sc) (sc_name sc) in_failure in_interruption
                (emit (EvPopBegin (sc_id sc) n in_failure in_interruption) s) with
        | (s1, OFuel) => (s1, OFuel)
        | (s1, o) =>
            let s2 := on_cm (fun m => with_names (name_update n (@tl _) (cm_names m))
                                        (with_stack (tl (cm_stack m)) m)) s1 in
            (emit (EvPopEnd (sc_id sc) n (match o with ONormal => true | _ => false end)) s2, o)
        end
  end.

(** * Fixture store scope end: fixture_store.py:200-209, 399-404 *)

(** get_scope_by_name, core/fixtures/utils.py:81-82 *)
Definition flevel_of (n : sname) : flevel :=
  match n with STest => FTest | SModule => FModule | _ => FSession end.

(** _active_fixtures_by_scope[scope].values(), fixture_store.py:204-206 *)
Definition fix_get (l : flevel) (s : state) : list (nat * prog) :=
  match find (fun p => flevel_eqb l (fst p)) (st_fix s) with
  | Some p => snd p
  | None => []
  end.

(** _deactivate_fixture: pops the fixture from its scope's dict and runs its
    finalizer if it was there. fixture_store.py:399-404 *)
Definition deactivate_fixture (l : flevel) (fid : nat) : M := fun s =>
  match lookup fid (fix_get l s) with
  | None => (s, ONormal)
  | Some fin =>
      (upd (fun s => emit (EvFixDown fid) (set_fix (fix_update l (filter (fun p => negb (Nat.eqb fid (fst p)))) (st_fix s)) s)) ;;
       exec fin) s
  end.

(** the inner loop of pop_scope, fixture_store.py:206-208 *)
Fixpoint deactivate_all (l : flevel) (fids : list nat) : M :=
  match fids with
  | [] => ret
  | f :: fs => handling h_swallowing (deactivate_fixture l f) ;; deactivate_all l fs
  end.

(** one iteration of the loop over _active_fixtures_by_scope; fixture_store.py:204-209 *)
Definition fix_pop_level (scope_l l : flevel) : M := fun s =>
  if Nat.leb (flevel_num l) (flevel_num scope_l) then
    (deactivate_all l (rev (map fst (fix_get l s))) ;;
     (fun s => if nonempty (fix_get l s) then raise_new KAssertion false s else (s, ONormal))) s
  else (s, ONormal).

(** the outer loop of pop_scope, fixture_store.py:204 *)
Fixpoint fix_pop_levels (scope_l : flevel) (ls : list flevel) : M :=
  match ls with
  | [] => ret
  | l :: ls => fix_pop_level scope_l l ;; fix_pop_levels scope_l ls
  end.

(** FixtureStore.pop_scope.  Simplification: a finalizer that activates a
    fixture of a scope level never used before would change the dictionary
    during iteration; the iteration here is over the keys at entry. fixture_store.py:200-209 *)
Definition fix_pop (n : sname) : M := fun s =>
  if current_interrupted s then (s, ONormal)
  else fix_pop_levels (flevel_of n) (map fst (st_fix s)) s.

(** * utils/python.py:101-109 call_all_raise_first *)
Fixpoint call_all (saved : option exn) (fs : list M) : M := fun s =>
  match fs with
  | [] => match saved with None => (s, ONormal) | Some x => (s, ORaise x) end
  | f :: fs' =>
      match f s with
      | (s1, ONormal) => call_all saved fs' s1
      | (s1, ORaise x) =>
          if isinstance (x_kind x) TException then call_all (Some x) fs' s1 else (s1, ORaise x)
      | (s1, OFuel) => (s1, OFuel)
      end
  end.

(** * Scope manager: core/scope_manager.py *)

(** _push_scope, scope_manager.py:56-60 *)
Definition sm_push (n : sname) : M :=
  upd (fun s => set_scopes (n :: st_scopes s) s) ;; cm_push n.

(** _pop_scope, scope_manager.py:62-70 *)
Definition sm_pop (n : sname) : M := fun s =>
  match st_scopes s with
  | [] => raise_new KIndexError false s
  | p :: rest =>
      let s := set_scopes rest s in
      if negb (sname_eqb p n) then raise_new KInternal false s
      else
        match call_all None [cm_pop n; fix_pop n] s with
        | (s1, OFuel) => (s1, OFuel)
        | (s1, o) => (emit (EvTeardown n (match o with ONormal => true | _ => false end)) s1, o)
        end
  end.

(** comparison of module names and tests, scope_manager.py:34, 45 *)
Definition opt_eqb (a b : option nat) : bool :=
  match a, b with
  | None, None => true
  | Some x, Some y => Nat.eqb x y
  | _, _ => false
  end.

(** A runnable test as seen by the runner: id, module name (None: no module
    name), file, requirement predicates (user code) with the number of unmet
    requirements, whether an exclusion rule matches, and test.run(). RunnableTest, core/runnable_test.py:4-50 and its metadata, core/metadata.py:8-40 *)
Record test := mkTest {
  t_id : nat; t_module : option nat; t_file : nat;
  t_req : prog; t_unmet : nat; t_excluded : bool; t_body : prog }.

(** begin_test, scope_manager.py:25-42 *)
Definition begin_test (t : test) : M :=
  match t_module t with
  | None => raise_new KInternal false
  | Some m =>
      cond (fun s => opt_eqb (st_lastmod s) None) (sm_push SSession) ret ;;
      cond (fun s => negb (opt_eqb (st_lastmod s) (Some m)))
        (cond (fun s => negb (opt_eqb (st_lastmod s) None)) (sm_pop SModule) ret ;;
         cond (fun s => match st_scopes s with SModule :: _ => true | _ => false end)
              (raise_new KAssertion false) ret ;;
         sm_push SModule)
        ret ;;
      upd (set_lastmod (Some m)) ;;
      sm_push STest ;;
      upd (set_lasttest (Some (t_id t)))
  end.

(** end_test, scope_manager.py:44-48 *)
Definition end_test (t : test) : M :=
  cond (fun s => negb (opt_eqb (st_lasttest s) (Some (t_id t))))
    (raise_new KInternal false)
    (sm_pop STest).

(** flush_remaining_scopes, scope_manager.py:72-75 *)
Definition flush_remaining_scopes : M := fun s =>
  call_all None (map sm_pop (st_scopes s)) s.

(** Session.initiate_cleanup, core/session.py:146-154 *)
Definition initiate_cleanup : M :=
  cond (fun s => nonempty (st_scopes s))
    (finally (handling h_swallowing (fire HBeforeSessionCleanup 0))
             (handling h_swallowing flush_remaining_scopes))
    ret.

(** * Runner: runner.py *)

(** TestStartEndController.start / end, runner.py:169-183 *)
Definition ctl_start (t : nat) : M :=
  cond st_ctl ret
    (upd (set_ctl true) ;; upd (on_result (RTest t) r_mark_started) ;; fire HTestStart t).

(** TestStartEndController.end, runner.py:175-183 *)
Definition ctl_end (t : nat) (prev : rref) : M :=
  cond st_ctl
    (upd (set_ctl false) ;;
     finally
       (forbid_implicit (fire HTestEnd t ;; upd (on_result (RTest t) r_mark_finished)))
       (upd (set_result prev)))
    ret.

(** _fire_test_summary_hooks, runner.py:190-200 *)
Definition fire_summary (t : nat) : M := fun s =>
  handling h_plain
    (fun s =>
      match lookup t (st_results s) with
      | None => (s, ONormal)  (* unreachable: the result exists, see on_result *)
      | Some r =>
          if is_just_failure r then fire HTestFailure t s
          else if is_skip r then fire HTestSkip t s
          else if is_success false r then fire HTestSuccess t s
          else fire HTestError t s
      end) s.

(** SessionResults.create_result, core/result.py:433-439 *)
Definition create_result (t : nat) : M := fun s =>
  match lookup t (st_results s) with
  | Some _ => raise_new KInternal false s
  | None => (set_results (st_results s ++ [(t, result0)]) s, ONormal)
  end.

(** _get_test_context around [body], runner.py:218-251 (logging not modelled;
    context.test_id follows context.test). *)
Definition test_context (t : nat) (body : rref -> M) : M := fun s =>
  let prev_test := st_test s in
  finally
    (upd (set_test (Some t)) ;;
     create_result t ;;
     (fun s =>
        let prev := st_result s in
        finally (upd (set_result (RTest t)) ;; body prev) (upd (set_result prev)) s))
    (upd (set_test prev_test)) s.

(** adds [n] skips to the current result; the loop runner.py:138-145 *)
Fixpoint add_skips (n : nat) : M :=
  match n with
  | 0 => ret
  | S n => upd (add_entry RKSkip false) ;; add_skips n
  end.

(** the value returned by runner.py:129-156 *)
Definition should_run (t : test) : bool := Nat.eqb (t_unmet t) 0 && negb (t_excluded t).

(** _process_requirements_and_exclusions, runner.py:129-156 *)
Definition process_requirements (t : test) : M :=
  exec (t_req t) ;;
  (if negb (Nat.eqb (t_unmet t) 0) then add_skips (t_unmet t) ;; fire HTestAvoided (t_id t)
   else if t_excluded t then add_skips 1 ;; fire HTestAvoided (t_id t)
   else ret).

(** _run_single_test, runner.py:90-127 *)
Definition run_single (t : test) (has_next : bool) : M :=
  test_context (t_id t) (fun prev =>
    handling h_swallowing (
      process_requirements t ;;
      if should_run t then
        upd (on_result (RTest (t_id t)) r_mark_started) ;;
        upd (set_ctl false) ;;       (* new TestStartEndController *)
        finally
          (except_ skip_types
            (except_ skip_types
               (handling h_swallowing
                 (begin_test t ;;
                  finally
                    (ctl_start (t_id t) ;; handling h_swallowing (exec (t_body t)))
                    (end_test t)))
               (fun _ => ret) ;;
             fire_summary (t_id t) ;;
             (if negb has_next && negb (e_worker E) then
                ctl_end (t_id t) prev ;;
                handling h_swallowing initiate_cleanup
              else ret))
            (fun _ => ret))
          (ctl_end (t_id t) prev)
      else ret)).

(** _set_test_metadata, runner.py:203-209 *)
Definition set_metadata (t : nat) : M := fun s =>
  match lookup t (st_idx s) with
  | Some _ => raise_new KInternal false s
  | None =>
      if e_worker E then (set_idx (st_idx s ++ [(t, e_pindex E)]) s, ONormal)
      else (set_nidx (S (st_nidx s)) (set_idx (st_idx s ++ [(t, st_nidx s)]) s), ONormal)
  end.

(** How the for loop of run_tests ended: exhausted, break (with the tests left),
    or exception. runner.py:38-70 *)
Inductive loop_end := LComplete | LBreak (rest : list test) | LExc.

(** runner.py:44 *)
Definition file_differs (last : option nat) (f : nat) : bool := negb (opt_eqb last (Some f)).

(** the for loop of run_tests, runner.py:39-70; returns also last_filename *)
Fixpoint run_loop (last : option nat) (ts : list test) (s : state)
  : state * outcome * loop_end * option nat :=
  match ts with
  | [] => (s, ONormal, LComplete, last)
  | t :: rest =>
      match set_metadata (t_id t) s with
      | (s, ONormal) =>
          let s := if file_differs last (t_file t) then emit (EvFileStart (t_file t)) s else s in
          let last := Some (t_file t) in
          let s := emit (EvReportStart (t_id t)) s in
          match run_single t (nonempty rest) s with
          | (s, ONormal) =>
              let s := emit (EvReportEnd (t_id t)) s in
              let s := match rest with
                       | [] => emit (EvFileEnd (t_file t)) s
                       | t' :: _ => if Nat.eqb (t_file t') (t_file t) then s
                                    else emit (EvFileEnd (t_file t)) s
                       end in
              let fatal := match lookup (t_id t) (st_results s) with
                           | Some r => has_fatal r
                           | None => false (* unreachable *)
                           end in
              if fatal then (s, ONormal, LBreak rest, last)
              else if e_stop E && negb (session_success true s) then (s, ONormal, LBreak rest, last)
              else run_loop last rest s
          | (s, o) => (s, o, LExc, last)
          end
      | (s, o) => (s, o, LExc, last)
      end
  end.

(** _mark_unrun_tests, runner.py:212-216 *)
Fixpoint mark_unrun (ts : list test) : M :=
  match ts with
  | [] => ret
  | t :: ts => test_context (t_id t) (fun _ => ret) ;; mark_unrun ts
  end.

(** run_tests, runner.py:22-82 (the session is started) *)
Definition run_tests (ts : list test) : M := fun s =>
  let '(s1, o, e, last) := run_loop None ts s in
  match o with
  | OFuel => (s1, OFuel)
  | _ =>
    match (if e_worker E then ret else initiate_cleanup) s1 with
    | (s2, ONormal) =>
        match o with
        | ONormal =>
            if e_worker E then (s2, ONormal)
            else
              (mark_unrun (match e with LBreak r => r | _ => [] end) ;;
               (match e, last with
                | LComplete, _ => upd (emit EvComplete)
                | _, Some f => upd (emit (EvFileEnd f))
                | _, None => ret
                end)) s2
        | _ => (s2, o)
        end
    | r => r
    end
  end.

(** Session.get_started_context around [body], core/session.py:111-144 *)
Definition started_context (body : M) : M :=
  cm_push SSessionGlobal ;; upd (set_ss false) ;;
  finally
    (except_ interruption_types
      (handling h_plain
         (fire HBeforeSessionStart 0 ;; fire HSessionStart 0 ;; upd (set_ss true) ;;
          fire HAfterSessionStart 0) ;;
       body)
      (fun x => fire HSessionInterrupt 0 ;; reraise x))
    (handling h_plain (cm_pop SSessionGlobal) ;;
     cond st_ss
       (handling h_plain (fire HSessionEnd 0) ;; handling h_plain (fire HAfterSessionEnd 0))
       ret).

(** A whole `slash run` session after collection, frontend/slash_run.py:64-70 *)
Definition run_session (ts : list test) : state * outcome :=
  started_context (run_tests ts) state0.

(** Exit code, app.py:146-147 (exception escaped from the session) and
    frontend/slash_run.py:76-77. *)
Definition exit_code (r : state * outcome) : nat :=
  match snd r with
  | ONormal => if session_success true (fst r) then 0 else 1
  | ORaise x => match x_kind x with KSysExit c => c | _ => 1 end
  | OFuel => 1
  end.

End Env.
