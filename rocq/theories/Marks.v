(** Model of slash/utils/exception_mark.py (5-44) and slash/utils/marks.py (4-38),
    with safe_set_attribute (utils/python.py 138-145).

    Objects are numbers.  An object is a class ([cls o = None]) or an instance of
    one; getattr looks at the instance, then along the method resolution order of
    its class (a class: along its own).  Each of the two modules uses one attribute,
    which holds a reference to a dictionary; dictionaries live on a heap because
    several objects may reach the same one. *)

From Coq Require Import List Bool Arith.
From Verif Require Import Dict.
Import ListNotations.

(** a mark's value: a plain value, or the list kept by append=True; utils/marks.py:30-38, utils/exception_mark.py:5-11 *)
Inductive mval := MAtom (n : nat) | MList (l : list nat).
Notation marks := (list (nat * mval)).

(** the objects that have the attribute themselves, the dictionaries, and the next
    free reference; utils/marks.py:23-28, utils/exception_mark.py:23-31 *)
Record world := mkWorld { w_attr : list (nat * nat); w_heap : list (nat * marks); w_next : nat }.
(** no object is marked yet; utils/marks.py:23-28 *)
Definition world0 := mkWorld [] [] 0.

Section W.
(** type(e), None for classes; C.__mro__; whether setattr or the update of __dict__
    succeeds (it does not for classes implemented in C) *)
Variable cls : nat -> option nat.
Variable mro : nat -> list nat.
Variable settable : nat -> bool.

(** a Python operation, no code of /repo *)
Fixpoint first_attr (l : list nat) (a : list (nat * nat)) : option nat :=
  match l with
  | [] => None
  | o :: l' => match d_get o a with Some r => Some r | None => first_attr l' a end
  end.

(** the objects getattr looks at; a Python operation, no code of /repo *)
Definition chain (o : nat) : list nat :=
  match cls o with Some c => o :: mro c | None => mro o end.

(** getattr(o, ATTR, None); a Python operation, no code of /repo, used by utils/marks.py:23-24 and utils/exception_mark.py:13-31 *)
Definition lookup (o : nat) (w : world) : option nat := first_attr (chain o) (w_attr w).

(** a new dictionary, stored on the object if possible: exception_mark.py:26-27, 29-30 *)
Definition fresh (o : nat) (m : marks) (w : world) : world * nat :=
  (mkWorld (if settable o then d_set o (w_next w) (w_attr w) else w_attr w)
           (d_set (w_next w) m (w_heap w)) (S (w_next w)), w_next w).

(** a Python operation, no code of /repo *)
Definition opt_nat_eqb (a b : option nat) : bool :=
  match a, b with Some x, Some y => Nat.eqb x y | None, None => true | _, _ => false end.

(** _ensure_exception_marks utils/exception_mark.py:23-31 *)
Definition ensure (e : nat) (w : world) : world * nat :=
  match lookup e w with
  | None => fresh e [] w
  | Some r =>
      match cls e with
      | Some c =>
          if opt_nat_eqb (lookup c w) (Some r)
          then fresh e (match d_get r (w_heap w) with Some m => m | None => [] end) w
          else (w, r)
      | None => (w, r)
      end
  end.

(** the dictionary a reference points to; a Python operation, no code of /repo *)
Definition deref (r : nat) (w : world) : option marks := d_get r (w_heap w).

(** returned[name] = value; utils/marks.py:30-38, utils/exception_mark.py:10 *)
Definition store (r k : nat) (v : mval) (w : world) : world :=
  match deref r w with
  | Some m => mkWorld (w_attr w) (d_set r (d_set k v m) (w_heap w)) (w_next w)
  | None => w
  end.

(** mark_exception utils/exception_mark.py:5-10 *)
Definition mark_exception (e k : nat) (v : mval) (w : world) : world :=
  let (w1, r) := ensure e w in store r k v w1.

(** get_exception_mark utils/exception_mark.py:13-18 *)
Definition get_exception_mark (e k : nat) (w : world) : world * option mval :=
  let (w1, r) := ensure e w in
  (w1, match deref r w1 with Some m => d_get k m | None => None end).

(** _mark, marks.py:30-38; false: an exception (the attribute cannot be set, or the
    mark appended to is not a list) *)
Definition mark_object (o k n : nat) (append : bool) (w : world) : world * bool :=
  match (match lookup o w with
         | Some r => Some (w, r)
         | None => if settable o then Some (fresh o [] w) else None
         end) with
  | None => (w, false)
  | Some (w1, r) =>
      if append then
        match deref r w1 with
        | Some m =>
            match d_get k m with
            | None => (store r k (MList [n]) w1, true)
            | Some (MList l) => (store r k (MList (l ++ [n])) w1, true)
            | Some (MAtom _) => (w1, false)
            end
        | None => (w1, false)
        end
      else (store r k (MAtom n) w1, true)
  end.

(** what a reader of the attribute finds for a name: try_get_mark, marks.py:15-21,
    and get_exception_mark *)
Definition observe (o k : nat) (w : world) : option mval :=
  match lookup o w with
  | Some r => match deref r w with Some m => d_get k m | None => None end
  | None => None
  end.
End W.

(** operations on exceptions, and on objects; utils/exception_mark.py:5-31 *)
Inductive eop := EMark (e k : nat) (v : mval) | EGet (e k : nat).
(** utils/marks.py:4-7, 30-38 *)
Inductive oop := OMark (o k n : nat) (append : bool).
