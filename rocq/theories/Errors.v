(** Error objects (slash/core/error.py:24-50, 70-102) and how they get into results: slash.add_error and
    slash.add_failure (slash/utils/__init__.py:42-65, slash/core/result.py:205-217, 224-245) and handled exceptions
    (slash/core/result.py:82-117, slash/utils/exception_mark.py:5-44).

    Exceptions have numbers.  The lists of errors and failures of all results are one list of entries; the list of one
    result is that of its entries, in order.  Not modelled: tracebacks and messages, handlers of hooks (they do not
    raise), Error objects that are made outside and given to add_error, exception classes with marks of their own
    (Marks.v), and that an interruption also marks the result of the session (slash/core/result.py:100-110). *)

From Coq Require Import List Bool Arith.
Import ListNotations.

(** what the type of an exception is: one of FAILURE_EXCEPTION_TYPES, a skip, one of INTERRUPTION_EXCEPTIONS, GeneratorExit,
    any other; slash/core/result.py:93-117 *)
Inductive kind := Failure | Skip | Interruption | GenExit | Ordinary.

(** an Error: the exception it is of, whether it was given a message, _is_failure, _fatal; slash/core/error.py:24-50 *)
Record err := mkErr { e_of : option nat; e_custom : bool; e_failure : bool; e_fatal : bool }.

(** the attributes slash gives to an exception: the marks added_to_result and fatal, and the Error captured of it;
    slash/core/result.py:24, slash/exception_handling.py:209 and slash/core/error.py:18 *)
Record marks := mkMarks { m_added : bool; m_fatal : bool; m_captured : option nat }.

(** an entry: the result, whether it is in the list of failures, the Error; slash/core/result.py:39-40 *)
Record entry := mkEntry { n_result : nat; n_failure : bool; n_err : nat }.

(** everything: the Errors by number, the exceptions, the entries, the skips and the interruptions of results;
    slash/core/result.py:36-44, slash/core/error.py:28-50 *)
Record world := mkWorld { errs : list err; exns : nat -> marks; entries : list entry; skips : list nat; interrupted : list nat }.

(** the start: nothing recorded; slash/core/result.py:36-44 *)
Definition world0 : world := mkWorld [] (fun _ => mkMarks false false None) [] [] [].

Section Errors.

(** the types of the exceptions, and whether attributes can be set on them (slash/utils/python.py:138-145) *)
Variable kind_of : nat -> kind.
Variable settable : nat -> bool.

(** safe_set_attribute on an exception; slash/utils/python.py:138-145 *)
Definition set_marks (e : nat) (f : marks -> marks) (w : world) : world :=
  if settable e then mkWorld (errs w) (fun x => if Nat.eqb x e then f (exns w e) else exns w x) (entries w) (skips w) (interrupted w) else w.

(** isinstance(exception, FAILURE_EXCEPTION_TYPES); slash/core/error.py:50 *)
Definition is_failure (e : nat) : bool := match kind_of e with Failure => true | _ => false end.

(** Error(...) ; slash/core/error.py:24-50 *)
Definition new_error (e : option nat) (custom : bool) (w : world) : world * nat :=
  let x := match e with
           | Some e => mkErr (Some e) custom (is_failure e) (m_fatal (exns w e))
           | None => mkErr None custom false false
           end in
  (mkWorld (errs w ++ [x]) (exns w) (entries w) (skips w) (interrupted w), List.length (errs w)).

(** Error.capture_exception of an exception; slash/core/error.py:90-102 *)
Definition capture (e : nat) (w : world) : world * nat :=
  match m_captured (exns w e) with
  | Some i => (w, i)
  | None => let (w, i) := new_error (Some e) false w in (set_marks e (fun m => mkMarks (m_added m) (m_fatal m) (Some i)) w, i)
  end.

(** mark_as_failure, mark_fatal; slash/core/error.py:70-71 and slash/core/error.py:81-85 *)
Definition change (i : nat) (f : err -> err) (w : world) : world :=
  mkWorld (map (fun p => if Nat.eqb (fst p) i then f (snd p) else snd p) (combine (seq 0 (List.length (errs w))) (errs w))) (exns w) (entries w) (skips w) (interrupted w).

(** what is given to add_error: nothing while an exception is active, a message, a message and an exception, nothing at all; slash/core/result.py:224-231 *)
Inductive source := Active (e : nat) | Message | MessageOf (e : nat) | Nothing.

(** the end of a call; slash/core/result.py:229 *)
Inductive reply := Ok | RuntimeErr.

(** _add_error; slash/core/result.py:224-245 *)
Definition add (r : nat) (failure : bool) (s : source) (w : world) : world * reply :=
  let put wi := let (w, i) := wi : world * nat in
    let w := if failure then change i (fun x => mkErr (e_of x) (e_custom x) true (e_fatal x)) w else w in
    (mkWorld (errs w) (exns w) (entries w ++ [mkEntry r failure i]) (skips w) (interrupted w), Ok) in
  match s with
  | Active e => put (capture e w)
  | Message => put (new_error None true w)
  | MessageOf e => put (new_error (Some e) true w)
  | Nothing => (w, RuntimeErr)
  end.

(** add_exception; [active] is what sys.exc_info() gives, which add_failure uses; slash/core/result.py:82-117 *)
Definition add_exception (r e : nat) (active : option nat) (w : world) : world * reply :=
  if m_added (exns w e) then (w, Ok)
  else
    let w := set_marks e (fun m => mkMarks true (m_fatal m) (m_captured m)) w in
    match kind_of e with
    | Failure => add r true (match active with Some a => Active a | None => Nothing end) w
    | Skip => (mkWorld (errs w) (exns w) (entries w) (skips w ++ [r]) (interrupted w), Ok)
    | Interruption => let w := fst (capture e w) in (mkWorld (errs w) (exns w) (entries w) (skips w) (interrupted w ++ [r]), Ok)
    | GenExit => (w, Ok)
    | Ordinary => add r false (Active e) w
    end.

(** has_fatal_errors of a result; slash/core/result.py:285-287 *)
Definition has_fatal (r : nat) (w : world) : bool :=
  existsb (fun n => Nat.eqb (n_result n) r && match nth_error (errs w) (n_err n) with Some x => e_fatal x | None => false end) (entries w).

(** what code does: add_error or add_failure, an exception is handled, mark_fatal of an Error, mark_exception_fatal; slash/utils/__init__.py:42-65,
    slash/exception_handling.py:23-31 and slash/exception_handling.py:202-210 *)
Inductive op := Add (r : nat) (failure : bool) (s : source) | Handle (r e : nat) (active : option nat) | FatalError (i : nat) | FatalException (e : nat).

(** one of them; no code of /repo *)
Definition step (w : world) (o : op) : world :=
  match o with
  | Add r f s => fst (add r f s w)
  | Handle r e a => fst (add_exception r e a w)
  | FatalError i => change i (fun x => mkErr (e_of x) (e_custom x) (e_failure x) true) w
  | FatalException e => set_marks e (fun m => mkMarks (m_added m) true (m_captured m)) w
  end.

(** plumbing of the model *)
Definition run (w : world) (ops : list op) : world := fold_left step ops w.

End Errors.
