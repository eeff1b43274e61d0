(** Model of the marks slash puts on exceptions: frame corrections, fatality, inhibited tracebacks
    (slash/exception_handling.py:202-236) and those of ExceptionMarker (slash/utils/exception_mark.py:33-44), over the
    marks of Marks.v.  The names of marks are numbers; True is 1.  Simplified: corrections are not negative (slash uses 1 and 4). *)

From Coq Require Import List Bool Arith.
From Verif Require Import Dict Marks.
Import ListNotations.

(** the names 'frame_correction', "fatal" and "inhibit_console_tb"; slash/exception_handling.py:215, 209, 230 *)
Definition k_frame := 0.
(** slash/exception_handling.py:209, 223 *)
Definition k_fatal := 1.
(** slash/exception_handling.py:230, 235 *)
Definition k_inhibit := 2.
(** the names of ExceptionMarkers are others; slash/utils/exception_mark.py:35-37 *)
Definition k_marker (n : nat) := 3 + n.

Section F.
Variable cls : nat -> option nat.
Variable mro : nat -> list nat.
Variable settable : nat -> bool.

(** bool(get_exception_mark(e, name, False)); slash/exception_handling.py:223, 235, slash/utils/exception_mark.py:43-44 *)
Definition is_marked (k e : nat) (w : world) : world * bool :=
  let (w1, v) := get_exception_mark cls mro settable e k w in
  (w1, match v with None => false | Some (MAtom n) => negb (Nat.eqb n 0) | Some (MList l) => negb (Nat.eqb (List.length l) 0) end).

(** get_exception_frame_correction, as a number to add to (None: a TypeError); slash/exception_handling.py:218-219 *)
Definition frame_correction (e : nat) (w : world) : world * option nat :=
  let (w1, v) := get_exception_mark cls mro settable e k_frame w in
  (w1, match v with None => Some 0 | Some (MAtom n) => Some n | Some (MList _) => None end).

(** mark_exception_frame_correction; slash/exception_handling.py:213-215 *)
Definition correct (e c : nat) (w : world) : world :=
  let (w1, v) := frame_correction e w in
  match v with Some n => mark_exception cls mro settable e k_frame (MAtom (n + c)) w1 | None => w1 end.

(** calls: mark_exception_frame_correction, get_exception_frame_correction (slash/exception_handling.py:213-219),
    mark_exception_fatal, is_exception_fatal (202-210, 222-223), inhibit_unhandled_exception_traceback and its query (226-236),
    ExceptionMarker.mark_exception and is_exception_marked (slash/utils/exception_mark.py:39-44) *)
Inductive call := Correct (e c : nat) | Correction (e : nat) | Fatal (e : nat) | IsFatal (e : nat)
  | Inhibit (e : nat) | Inhibits (e : nat) | Marker (n e : nat) | IsMarked (n e : nat).

(** slash/exception_handling.py:202-236, slash/utils/exception_mark.py:39-44 *)
Definition do_call (w : world) (a : call) : world :=
  match a with
  | Correct e c => correct e c w
  | Correction e => fst (frame_correction e w)
  | Fatal e => mark_exception cls mro settable e k_fatal (MAtom 1) w
  | IsFatal e => fst (is_marked k_fatal e w)
  | Inhibit e => mark_exception cls mro settable e k_inhibit (MAtom 1) w
  | Inhibits e => fst (is_marked k_inhibit e w)
  | Marker n e => mark_exception cls mro settable e (k_marker n) (MAtom 1) w
  | IsMarked n e => fst (is_marked (k_marker n) e w)
  end.
End F.
