(** Model of slash.requires (core/requirements.py:6-44).

    Things that carry requirements are functions and classes, numbered; methods and
    wrapped functions stand for the function they are about
    (utils/python.py:108-117).  The attribute holds the identity of the thing it was
    made for and a list, which lives on a heap because several things may reach the
    same list. *)

From Coq Require Import List Bool Arith.
From Verif Require Import Dict.
Import ListNotations.

(** the things having the attribute themselves, with the (key, list) tuple; the
    lists; the next free reference; core/requirements.py:6-44 *)
Record world := mkWorld { w_attr : list (nat * (nat * nat)); w_heap : list (nat * list nat); w_next : nat }.
(** nothing is decorated yet; plumbing of the model, no code of its own *)
Definition world0 := mkWorld [] [] 0.

Section W.
(** where getattr looks: the class and its bases in resolution order; a function has
    itself only *)
Variable mro : nat -> list nat.

(** getattr(thing, '__slash_requirements__', None), requirements.py:26 *)
Fixpoint first_attr (l : list nat) (a : list (nat * (nat * nat))) : option (nat * nat) :=
  match l with
  | [] => None
  | o :: l' => match d_get o a with Some r => Some r | None => first_attr l' a end
  end.

(** the content of a list object; a Python operation, no code of /repo *)
Definition deref (r : nat) (w : world) : list nat :=
  match d_get r (w_heap w) with Some l => l | None => [] end.

(** _get_requirements_list(thing, create=True) core/requirements.py:23-40: the list object *)
Definition ensure (t : nat) (w : world) : world * nat :=
  match first_attr (mro t) (w_attr w) with
  | Some (k, r) =>
      if Nat.eqb k t then (w, r)
      else (mkWorld (d_set t (t, w_next w) (w_attr w)) (d_set (w_next w) (deref r w) (w_heap w)) (S (w_next w)), w_next w)
  | None =>
      (mkWorld (d_set t (t, w_next w) (w_attr w)) (d_set (w_next w) [] (w_heap w)) (S (w_next w)), w_next w)
  end.

(** the decorator returned by requires, core/requirements.py:17-20 *)
Definition requires (t q : nat) (w : world) : world :=
  let (w1, r) := ensure t w in
  mkWorld (w_attr w1) (d_set r (deref r w1 ++ [q]) (w_heap w1)) (w_next w1).

(** get_requirements core/requirements.py:43-44, with create=False in 23-40 *)
Definition get_requirements (t : nat) (w : world) : list nat :=
  match first_attr (mro t) (w_attr w) with Some (_, r) => deref r w | None => [] end.

(** decorations one after the other; plumbing of the model, no code of its own *)
Definition decorate (h : list (nat * nat)) : world := fold_left (fun w tq => requires (fst tq) (snd tq) w) h world0.
End W.
