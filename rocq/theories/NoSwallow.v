(** What becomes of exceptions that are swallowed: they are ignored and reported to sentry
    (slash/exception_handling.py:178-199, 238-265).  Which exceptions leave a context, with marks of classes and
    with handling_exceptions, is in Swallow.v; here marks are those of exceptions themselves. *)

From Coq Require Import List Bool Arith.
Import ListNotations.

(** what a program does with exceptions, which are numbers: something else, raise, mark, one thing after the other,
    the context (with its report_to_sentry), a call of a function or of what the decorator made of it, raising an
    instance made by a class or by what the decorator made of it, try with except BaseException;
    slash/exception_handling.py:178-199, 238-253 *)
Inductive prog :=
| Do (x : nat)
| Raise (e : nat)
| Noswallow (e : nat)
| Seq (p q : prog)
| Ctx (report : bool) (p : prog)
| Call (decorated : bool) (p : prog)
| RaiseInstance (decorated : bool) (e : nat)
| Try (p q : prog).

(** the world: whether an attribute can be set on an exception (slash/utils/python.py:138-145), whether raven is
    installed and a dsn configured, what captureException raises (None: nothing); slash/exception_handling.py:14-17, 256-265 *)
Record env := mkEnv { settable : nat -> bool; raven : bool; dsn : bool; capture : nat -> option nat }.

(** exceptions marked against swallowing, what was done, what was reported and what was ignored, newest last;
    slash/exception_handling.py:178-199 *)
Record state := mkState { marks : list nat; done : list nat; reported : list nat; ignored : list nat }.
(** nothing yet; slash/exception_handling.py:178-199 *)
Definition state0 := mkState [] [] [] [].

(** noswallow, slash/exception_handling.py:193-199; a mark that cannot be set is lost, slash/utils/exception_mark.py:23-31 *)
Definition noswallow (E : env) (e : nat) (s : state) : state :=
  if settable E e then mkState (e :: marks s) (done s) (reported s) (ignored s) else s.

(** get_exception_mark(e, "swallow", True) is False; slash/exception_handling.py:186 *)
Definition marked (e : nat) (s : state) : bool := existsb (Nat.eqb e) (marks s).

(** capture_sentry_exception and get_sentry_client: the new state, what is raised; slash/exception_handling.py:256-265 *)
Definition capture_sentry (E : env) (e : nat) (s : state) : state * option nat :=
  if raven E && dsn E then
    match capture E e with
    | None => (mkState (marks s) (done s) (reported s ++ [e]) (ignored s), None)
    | Some x => (s, Some x)
    end
  else (s, None).

(** the state afterwards and the exception that leaves, if one does; slash/exception_handling.py:178-199, 238-253 *)
Fixpoint run (E : env) (p : prog) (s : state) : state * option nat :=
  match p with
  | Do x => (mkState (marks s) (done s ++ [x]) (reported s) (ignored s), None)
  | Raise e => (s, Some e)
  | Noswallow e => (noswallow E e s, None)
  | Seq p q => match run E p s with (s, Some e) => (s, Some e) | (s, None) => run E q s end
  | Ctx report p =>
      match run E p s with
      | (s, None) => (s, None)
      | (s, Some e) =>
          if marked e s then (s, Some e)
          else match (if report then capture_sentry E e s else (s, None)) with
               | (s, Some x) => (s, Some x)
               | (s, None) => (mkState (marks s) (done s) (reported s) (ignored s ++ [e]), None)
               end
      end
  | Call false p => run E p s
  | Call true p => match run E p s with (s, Some e) => (noswallow E e s, Some e) | r => r end
  | RaiseInstance _ e => (s, Some e)
  | Try p q => match run E p s with (s, Some _) => run E q s | r => r end
  end.
