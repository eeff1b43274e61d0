(** Observable events of a slash session, and the names they mention.  The
    specifications are predicates on lists of these events; they do not depend
    on the model in Core.v. *)

From Coq Require Import List Bool Arith PeanoNat.
Import ListNotations.

(** Identity of an exception object: created at the raise statement
    ([XFresh]) or an object held by user code and raised possibly many times
    ([XObj]). Python object identity, as used by exception_handling.py:167-175 and core/result.py:82-117 *)
Inductive xid := XFresh (n : nat) | XObj (n : nat).

(** a Python operation, no code of /repo *)
Definition xid_eqb (a b : xid) : bool :=
  match a, b with
  | XFresh n, XFresh m => Nat.eqb n m
  | XObj n, XObj m => Nat.eqb n m
  | _, _ => false
  end.

(** Scope names: core/session.py:118, core/scope_manager.py:31-41. *)
Inductive sname := SSessionGlobal | SSession | SModule | STest.

(** a Python operation, no code of /repo *)
Definition sname_eqb (a b : sname) : bool :=
  match a, b with
  | SSessionGlobal, SSessionGlobal | SSession, SSession
  | SModule, SModule | STest, STest => true
  | _, _ => false
  end.

(** Fixture scopes with their numeric order, core/fixtures/utils.py:87-88. *)
Inductive flevel := FTest | FModule | FSession.

(** core/fixtures/utils.py:87-88 *)
Definition flevel_num (l : flevel) : nat :=
  match l with FTest => 0 | FModule => 1 | FSession => 2 end.

(** a Python operation, no code of /repo *)
Definition flevel_eqb (a b : flevel) : bool := Nat.eqb (flevel_num a) (flevel_num b).

(** Which result object: the session's global result or a test's. core/result.py:323-328 *)
Inductive rref := RGlobal | RTest (t : nat).

(** Hooks (hooks.py:21-70) fired by the modelled code. *)
Inductive hook :=
| HBeforeSessionStart | HSessionStart | HAfterSessionStart | HSessionInterrupt
| HSessionEnd | HAfterSessionEnd | HBeforeSessionCleanup
| HTestStart | HTestEnd | HTestSuccess | HTestFailure | HTestSkip | HTestError
| HTestAvoided | HTestInterrupt | HBeforeTestCleanups.

(** What a result can be given, core/result.py:82-117, 205-250: an entry of one
    of three kinds, the interruption mark, or an exception that leaves no trace
    in it (GeneratorExit). *)
Inductive rkind := RKError | RKFailure | RKSkip | RKInterrupt | RKNothing.

(** Classes of raised objects.  exceptions.py:2-142 and Python builtins.
    Simplification: user exception classes form a flat family below Exception. *)
Inductive ekind :=
| KUser (cls : nat)        (* a user-defined subclass of Exception *)
| KAssertion               (* AssertionError / TestFailed, exceptions.py:112-121 *)
| KSkip                    (* SkipTest, exceptions.py:133-142 *)
| KKeyboard                (* KeyboardInterrupt *)
| KTerminated              (* TerminatedException, exceptions.py:9-10 *)
| KSysExit (code : nat)    (* SystemExit with its code *)
| KGenExit                 (* GeneratorExit *)
| KInternal                (* SlashInternalError, exceptions.py:94-109 *)
| KIncorrectScope          (* IncorrectScope, exceptions.py:74-75 *)
| KCannotAdd               (* CannotAddCleanup, exceptions.py:82-83 *)
| KIndexError.             (* builtin IndexError *)

(** Types that can appear in an [isinstance] test / except clause. exceptions.py:2-142 *)
Inductive etype :=
| TBaseException | TException | TUser (cls : nat) | TAssertion | TSkip
| TKeyboard | TTerminated | TSysExit | TGenExit | TSlash | TInternal.

(** Python's isinstance on the classes above (class statements of
    exceptions.py:2-142 and the builtin exception hierarchy). *)
Definition isinstance (k : ekind) (t : etype) : bool :=
  match t with
  | TBaseException => true
  | TException =>
      match k with
      | KKeyboard | KTerminated | KSysExit _ | KGenExit => false
      | _ => true
      end
  | TUser c => match k with KUser c' => Nat.eqb c c' | _ => false end
  | TAssertion => match k with KAssertion => true | _ => false end
  | TSkip => match k with KSkip => true | _ => false end
  | TKeyboard => match k with KKeyboard => true | _ => false end
  | TTerminated => match k with KTerminated => true | _ => false end
  | TSysExit => match k with KSysExit _ => true | _ => false end
  | TGenExit => match k with KGenExit => true | _ => false end
  | TSlash => match k with KSkip | KInternal | KIncorrectScope | KCannotAdd => true | _ => false end
  | TInternal => match k with KInternal => true | _ => false end
  end.

(** isinstance against a tuple of types. a Python operation, no code of /repo *)
Definition isinstance_any (k : ekind) (ts : list etype) : bool :=
  existsb (isinstance k) ts.

(** Observable events. Scope, cleanup and fixture objects are identified by numbers. Events of the specifications; where the code emits them is cited in Core.v. *)
Inductive event :=
| EvUser (n : nat)
| EvPush (sid : nat) (nm : sname)                  (* scope opened *)
| EvAdd (cid : nat) (req : option sname) (tgt : option nat) (crit succ : bool) (r : rref)
    (* cleanup registered: requested scope name, scope it went to (None: kept
       pending), flags, result current at that moment *)
| EvReject (req : option sname) (k : ekind)
    (* add_cleanup (with that scope name) raised an exception of that class *)
| EvPopBegin (sid : nat) (nm : sname) (fail intr : bool)  (* scope end begins *)
| EvRun (cid : nat)                                (* cleanup called *)
| EvRaised (cid : nat) (x : xid) (k : ekind)         (* an exception of that class left that cleanup *)
| EvHandle (x : xid) (k : ekind) (fatal : bool) (r : rref)
    (* an exception reached a handling_exceptions block that does not pass its
       type through; r = result of the current test, or the global result *)
| EvPopEnd (sid : nat) (nm : sname) (ok : bool)    (* scope closed; ok = no exception escaped *)
| EvTeardown (nm : sname) (ok : bool)              (* cleanups and fixtures of a scope done *)
| EvRecord (r : rref) (k : rkind) (src : option xid) (fatal : bool)
    (* a result was given an entry or mark, for that exception if any *)
| EvHook (h : hook) (t : nat)                      (* hook fired; t = test id or 0 *)
| EvFixUp (fid : nat) (l : flevel)                 (* fixture activated *)
| EvFixDown (fid : nat)                            (* fixture finalized *)
| EvPhase (sid : option nat)
    (* get_current_cleanup_phase() answered the name of that scope, or None *)
| EvFileStart (f : nat) | EvFileEnd (f : nat)
| EvReportStart (t : nat) | EvReportEnd (t : nat)
| EvComplete.                                      (* session.mark_complete *)

