(** Model of utils/iteration.py.  The item type is arbitrary; an underlying
    iterator is the list of items it has still to yield (it stays exhausted
    once exhausted, as the iterator protocol demands). *)

From Coq Require Import List Bool Arith.
Import ListNotations.

Section Items.
Variable A : Type.

(** value of a call, or StopIteration; a Python operation, no code of /repo *)
Inductive res (B : Type) := Val (b : B) | Stop.
Arguments Val {B} b.
Arguments Stop {B}.

(** PeekableIterator._peeked: _NOTHING, _END or an item; iteration.py:4-5, 15 *)
Inductive peeked := Nothing | End | Item (a : A).

(** PeekableIterator's fields, iteration.py:12-15 *)
Record pk := mkPk { pk_iter : list A; pk_peeked : peeked }.

(** PeekableIterator.__init__, iteration.py:12-15 *)
Definition pk_new (xs : list A) : pk := mkPk xs Nothing.

(** next(self._iterator); a Python operation, no code of /repo *)
Definition raw_next (l : list A) : list A * res A :=
  match l with [] => ([], Stop) | a :: l' => (l', Val a) end.

(** next / __next__, iteration.py:20-28 *)
Definition pk_next (p : pk) : pk * res A :=
  match pk_peeked p with
  | Nothing => let (l, r) := raw_next (pk_iter p) in (mkPk l Nothing, r)
  | End => (mkPk (pk_iter p) Nothing, Stop)
  | Item a => (mkPk (pk_iter p) Nothing, Val a)
  end.

(** peek, iteration.py:35-40 *)
Definition pk_peek (p : pk) : pk * res A :=
  let p := match pk_peeked p with
           | Nothing => let (l, r) := raw_next (pk_iter p) in
                        mkPk l (match r with Val a => Item a | Stop => End end)
           | _ => p
           end in
  match pk_peeked p with
  | Item a => (p, Val a)
  | _ => (p, Stop)
  end.

(** has_next, iteration.py:42-47 *)
Definition pk_has_next (p : pk) : pk * bool :=
  let (p, r) := pk_peek p in
  (p, match r with Val _ => true | Stop => false end).

(** peek_or_none, iteration.py:30-33; None is the absence of a value here, in
    Python an item that is None looks the same.  The inner peek cannot stop
    after has_next; if it did, the StopIteration would propagate. *)
Definition pk_peek_or_none (p : pk) : pk * res (option A) :=
  let (p, b) := pk_has_next p in
  if b then let (p, r) := pk_peek p in (p, match r with Val a => Val (Some a) | Stop => Stop end)
  else (p, Val None).

(** any interleaving of calls, with the answers of each; iteration.py:20-48 *)
Inductive op := ONext | OPeek | OPeekOrNone | OHasNext.
(** iteration.py:20-48 *)
Inductive answer := ANext (r : res A) | APeek (r : res A) | APeekOrNone (r : res (option A)) | AHasNext (b : bool).

(** iteration.py:20-48 *)
Definition pk_step (p : pk) (o : op) : pk * answer :=
  match o with
  | ONext => let (p, r) := pk_next p in (p, ANext r)
  | OPeek => let (p, r) := pk_peek p in (p, APeek r)
  | OPeekOrNone => let (p, r) := pk_peek_or_none p in (p, APeekOrNone r)
  | OHasNext => let (p, b) := pk_has_next p in (p, AHasNext b)
  end.

(** plumbing of the model, no code of its own *)
Fixpoint pk_run (p : pk) (ops : list op) : list answer :=
  match ops with
  | [] => []
  | o :: ops => let (p, a) := pk_step p o in a :: pk_run p ops
  end.

(** Iteration objects, iteration.py:61-79; [it_last]: None = NotImplementedError *)
Record iter_obj := mkIter {
  it_element : A; it_counter0 : nat; it_counter1 : nat; it_first : bool;
  it_last_counter0 : option nat; it_last_counter1 : option nat }.

(** iteration.py:76-80 *)
Definition it_last (i : iter_obj) : option bool :=
  match it_last_counter0 i with
  | None => None
  | Some n => Some (Nat.eqb (it_counter0 i) n)
  end.

(** the generator loop of iteration, iteration.py:56-58.  [last] is
    len(iterable) - 1; for an empty iterable it is -1, which no element sees,
    so the truncated subtraction is harmless. *)
Fixpoint iter_from (last : option nat) (n : nat) (xs : list A) : list iter_obj :=
  match xs with
  | [] => []
  | a :: xs => mkIter a n (n + 1) (Nat.eqb n 0) last (option_map S last) :: iter_from last (S n) xs
  end.

(** iteration, iteration.py:50-58; [sized]: len() works on the iterable *)
Definition iteration (sized : bool) (xs : list A) : list iter_obj :=
  iter_from (if sized then Some (length xs - 1) else None) 0 xs.

End Items.

Arguments Val {B} b.
Arguments Stop {B}.
