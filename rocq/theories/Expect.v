(** Model of assert_raises and allowing_exceptions (assertions.py:15-71), of the
    exception types ignored by a thread (exception_handling.py:50-69) and of the way
    handling_exceptions passes such exceptions on (exception_handling.py:93-138).

    Simplifications: handlers of exceptions are reduced to recording the exception in
    the current result (exception_handling.py:23-31, 42; Core.v models the rest), hooks
    and the debugger do not raise; messages are left out. *)

From Coq Require Import List Bool Arith.
Import ListNotations.

(** an exception: its class, and an identity; ExpectedExceptionNotCaught is raised by
    the context numbered k (assertions.py:46-47) *)
Inductive exn := Ex (id ty : nat) | NotCaught (k : nat).

Section S.
(** [sub a b]: class a is a subclass of b *)
Variable sub : nat -> nat -> bool.
(** the class ExpectedExceptionNotCaught (exceptions.py) *)
Variable not_caught_ty : nat.
(** skip types and interruption exceptions, which are never swallowed
    (exception_handling.py:132-134) *)
Variable never : list nat.

(** type(e); a Python operation, no code of /repo *)
Definition type_of (x : exn) : nat := match x with Ex _ t => t | NotCaught _ => not_caught_ty end.

(** isinstance(e, types); a Python operation, no code of /repo, used by assertions.py:36 *)
Definition inst (x : exn) (types : list nat) : bool := existsb (sub (type_of x)) types.

(** a program of the user:
    - [PHandle old pass swallow p]: with handling_exceptions(passthrough_types=pass,
      swallow_types=swallow): p.  The ignored types are read when handling_exceptions is
      called (exception_handling.py:98); [old] gives them if that was earlier, on
      entering some outer block;
    - [PExpect k types ensure p]: with assert_raises(types): p (ensure) or
      allowing_exceptions(types);
    - [PTry types p q]: try: p except types: q *)
Inductive prog :=
| PDone
| PRaise (x : exn)
| PSeq (p q : prog)
| PHandle (old : option (list nat)) (pass swallow : list nat) (p : prog)
| PExpect (k : nat) (types : list nat) (ensure : bool) (p : prog)
| PTry (types : list nat) (p q : prog).

(** what is observed; the last one: caught.exception is set, assertions.py:37 *)
Inductive event := ERaise (x : exn) | ERecord (x : exn) | ECaught (k : nat) (x : exn).

(** _ignored_state.ignored_exception_types, flattened; exceptions marked as handled
    (exception_handling.py:163); the trace, last event first *)
Record state := mkState { s_ignored : list nat; s_handled : list exn; s_trace : list event }.

(** equality of exception objects; a Python operation, no code of /repo *)
Definition exn_eqb (x y : exn) : bool :=
  match x, y with
  | Ex a t, Ex b u => Nat.eqb a b && Nat.eqb t u
  | NotCaught a, NotCaught b => Nat.eqb a b
  | _, _ => false
  end.

(** something is observed; plumbing of the model, no code of its own *)
Definition emit (v : event) (s : state) : state := mkState (s_ignored s) (s_handled s) (v :: s_trace s).
(** _ignored_state.ignored_exception_types = l; exception_handling.py:50-68 *)
Definition set_ignored (l : list nat) (s : state) : state := mkState l (s_handled s) (s_trace s).

(** handle_exception, exception_handling.py:141-165 *)
Definition handle (x : exn) (s : state) : state :=
  if existsb (exn_eqb x) (s_handled s) then s
  else emit (ERecord x) (mkState (s_ignored s) (x :: s_handled s) (s_trace s)).

(** running a program: the final state and the exception leaving it; the code cited at the constructors of prog *)
Fixpoint exec (p : prog) (s : state) : state * option exn :=
  match p with
  | PDone => (s, None)
  | PRaise x => (emit (ERaise x) s, Some x)
  | PSeq p q => match exec p s with (s', None) => exec q s' | r => r end
  | PHandle old pass swallow p =>
      let ignored := match old with Some l => l | None => s_ignored s end in
      match exec p s with
      | (s', None) => (s', None)
      | (s', Some x) =>
          (* _HandlingException.__exit__, exception_handling.py:117-138 *)
          if inst x (pass ++ ignored) then (s', Some x)
          else let s'' := handle x s' in
               if inst x never then (s'', Some x)
               else if inst x swallow then (s'', None) else (s'', Some x)
      end
  | PExpect k types ensure p =>
      let prev := s_ignored s in
      match exec p (set_ignored (prev ++ types) s) with
      | (s', r) =>
          (* _CaughtContext.__exit__, assertions.py:31-49 *)
          let s' := set_ignored prev s' in
          match r with
          | Some x => if inst x types then (emit (ECaught k x) s', None) else (s', Some x)
          | None => if ensure then (emit (ERaise (NotCaught k)) s', Some (NotCaught k)) else (s', None)
          end
      end
  | PTry types p q =>
      match exec p s with
      | (s', Some x) => if inst x types then exec q s' else (s', Some x)
      | r => r
      end
  end.
End S.

(** * Contexts entered and left in any order (generators, ExitStack) *)

(** entering or leaving the thread_ignore_exception_context numbered c; assertions.py:26-33 *)
Inductive iop := IEnter (c : nat) (types : list nat) | IExit (c : nat).

(** the ignored types, and _prev of each context; exception_handling.py:50-68 *)
Record istate := mkI { i_ignored : list nat; i_prev : list (nat * list nat) }.

(** self._prev; a Python operation, no code of /repo *)
Fixpoint i_get (c : nat) (l : list (nat * list nat)) : list nat :=
  match l with [] => [] | (d, t) :: l' => if Nat.eqb c d then t else i_get c l' end.

(** thread_ignore_exception_context.__enter__ and __exit__, exception_handling.py:63-69;
    _prev of a context that is not entered is None, which no sequence of uses reads *)
Definition istep (s : istate) (o : iop) : istate :=
  match o with
  | IEnter c types => mkI (i_ignored s ++ types) ((c, i_ignored s) :: i_prev s)
  | IExit c => mkI (i_get c (i_prev s)) (i_prev s)
  end.

(** a sequence of uses; plumbing of the model, no code of its own *)
Definition irun (l : list iop) : istate -> istate := fold_left istep l.
