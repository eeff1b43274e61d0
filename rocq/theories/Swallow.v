(** Model of swallowing exceptions: get_exception_swallowing_context, noswallow,
    disable_exception_swallowing and handling_exceptions(swallow=...) of
    exception_handling.py, over the marks of exceptions (Marks.v).  Not modelled here:
    the handlers called by handle_exception, and exceptions raised by sentry. *)

From Coq Require Import List Bool Arith.
From Verif Require Import Dict Marks.
Import ListNotations.

(** the names "handled" and "swallow" of marks, exception_handling.py:168, 175, 186, 198 *)
Definition n_handled := 0.
(** the names "handled" and "swallow" of marks, exception_handling.py:186, 198 *)
Definition n_swallow := 1.
(** False and True; Python values, no code of /repo *)
Definition vfalse := MAtom 0.
(** False and True; Python values, no code of /repo *)
Definition vtrue := MAtom 1.
(** bool(v); a Python operation, no code of /repo *)
Definition truthy (v : mval) : bool :=
  match v with MAtom n => negb (Nat.eqb n 0) | MList l => match l with [] => false | _ :: _ => true end end.

Section Classes.
(** the classes of exceptions, see Marks.v *)
Variable cls : nat -> option nat.
Variable mro : nat -> list nat.
Variable settable : nat -> bool.
(** isinstance(e, Exception) and neither a skip nor an interruption: what
    handling_exceptions(swallow=True) swallows, exception_handling.py:94-95, 132-137; given *)
Variable ordinary : nat -> bool.

(** get_exception_mark(e, name, default), exception_mark.py:13-18 *)
Definition get_mark (e name : nat) (default : mval) (w : world) : world * mval :=
  let (w1, r) := get_exception_mark cls mro settable e name w in
  (w1, match r with Some v => v | None => default end).

(** User code.  [Raise e]: raise; [Mark o n v]: mark_exception on an exception or a class;
    [Swallowing p]: with get_exception_swallowing_context(): p; [Disabled p]: calling
    a function with body p decorated with disable_exception_swallowing; [Handling b p]:
    with handling_exceptions(swallow=b): p; [Catch p q]: try: p except: q.  exception_handling.py:72-103, 179-191, 238-253. *)
Inductive prog :=
| Pass
| Raise (e : nat)
| Mark (o name : nat) (value : mval)
| Seq (p q : prog)
| Catch (p q : prog)
| Swallowing (p : prog)
| Disabled (p : prog)
| Handling (swallow : bool) (p : prog).

(** noswallow, exception_handling.py:193-199 *)
Definition noswallow (e : nat) (w : world) : world := mark_exception cls mro settable e n_swallow vfalse w.

(** get_exception_swallowing_context, exception_handling.py:178-190: what becomes of [e] *)
Definition leave_swallowing (e : nat) (w : world) : world * option nat :=
  let (w1, v) := get_mark e n_swallow vtrue w in
  if negb (truthy v) then (w1, Some e) else (w1, None).

(** handle_exception, exception_handling.py:141-164, without the handlers and the message,
    which reads the mark "fatal" as well (158, 225-226) *)
Definition handle_marks (e : nat) (w : world) : world :=
  let (w1, v) := get_mark e n_handled vfalse w in
  if truthy v then w1 else mark_exception cls mro settable e n_handled vtrue w1.

(** _HandlingException.__exit__, exception_handling.py:117-138, no passthrough types *)
Definition leave_handling (swallow : bool) (e : nat) (w : world) : world * option nat :=
  (handle_marks e w, if swallow && ordinary e then None else Some e).

(** Running user code: the exception that leaves it, if any.  The contexts are those of
    exception_handling.py:178-190 and 117-138, the decorator is 246-253. *)
Fixpoint run (p : prog) (w : world) : world * option nat :=
  match p with
  | Pass => (w, None)
  | Raise e => (w, Some e)
  | Mark o name value => (mark_exception cls mro settable o name value w, None)
  | Seq p q => match run p w with (w1, None) => run q w1 | (w1, Some e) => (w1, Some e) end
  | Catch p q => match run p w with (w1, None) => (w1, None) | (w1, Some _) => run q w1 end
  | Swallowing p => match run p w with (w1, None) => (w1, None) | (w1, Some e) => leave_swallowing e w1 end
  | Disabled p => match run p w with (w1, None) => (w1, None) | (w1, Some e) => (noswallow e w1, Some e) end
  | Handling b p => match run p w with (w1, None) => (w1, None) | (w1, Some e) => leave_handling b e w1 end
  end.

End Classes.
