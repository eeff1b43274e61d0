(** Model of Details (core/details.py:1-34), which holds the details and the facts of a
    result; Result.details and Result.facts (core/result.py:43-44, 51-52).

    Values are references to list objects or other values (numbers).  The callback is code of
    the environment: each operation says whether the callback raises.  Keys are numbers. *)

From Coq Require Import List Bool Arith.
Import ListNotations.

(** a value: a list object, or anything else; a Python notion, no code of /repo *)
Inductive value := VNum (n : nat) | VList (ref : nat).

(** the list objects by reference ([h_next]: the next free one); a Python notion, no code of /repo *)
Record heap := mkHeap { h_lists : nat -> list value; h_next : nat }.
(** _details, core/details.py:5 *)
Notation dict := (list (nat * value)).

(** self._details.get(key); a Python operation, used by core/details.py:18, 34 *)
Fixpoint get (k : nat) (d : dict) : option value :=
  match d with [] => None | (k', v) :: d' => if Nat.eqb k k' then Some v else get k d' end.
(** self._details[key] = value; a Python operation, used by core/details.py:13, 18 *)
Fixpoint put (k : nat) (v : value) (d : dict) : dict :=
  match d with
  | [] => [(k, v)]
  | (k', v') :: d' => if Nat.eqb k k' then (k', v) :: d' else (k', v') :: put k v d'
  end.
(** lst.append(value); a Python operation, used by core/details.py:21 *)
Definition extend (r : nat) (v : value) (h : heap) : heap :=
  mkHeap (fun i => if Nat.eqb i r then h_lists h i ++ [v] else h_lists h i) (h_next h).
(** []: a new list object; a Python operation, used by core/details.py:18 *)
Definition alloc (h : heap) : nat * heap :=
  (h_next h, mkHeap (fun i => if Nat.eqb i (h_next h) then [] else h_lists h i) (S (h_next h))).

(** a call of the callback with the key and the value, and whether the key was there at that
    time (for the statements); core/details.py:11-12, 22-23 *)
Inductive event := ECallback (k : nat) (v : value) (known : bool).

(** the heap, the details, the calls of the callback; core/details.py:5-6 *)
Record state := mkState { s_heap : heap; s_dict : dict; s_calls : list event }.

(** outcome of a call: normal, TypeError of core/details.py:20, exception of the callback *)
Inductive outcome := Ok | TypeErr | CallbackErr.

(** code using a Details object with a callback or not; the boolean of set and append:
    the callback raises; [OMutate]: the code appends to a list object it has; core/details.py:8-23 *)
Inductive op :=
| OSet (k : nat) (v : value) (raises : bool)
| OAppend (k : nat) (v : value) (raises : bool)
| OMutate (r : nat) (v : value).

Section S.
(** _set_callback is not None, core/details.py:6 *)
Variable callback : bool.

(** calling the callback, core/details.py:11-12, 22-23 *)
Definition call (k : nat) (v : value) (raises : bool) (s : state) : state * bool :=
  if callback
  then (mkState (s_heap s) (s_dict s) (s_calls s ++ [ECallback k v (match get k (s_dict s) with Some _ => true | None => false end)]), raises)
  else (s, false).

(** set, core/details.py:8-13 *)
Definition set (k : nat) (v : value) (raises : bool) (s : state) : state * outcome :=
  let '(s, x) := call k v raises s in
  if x then (s, CallbackErr) else (mkState (s_heap s) (put k v (s_dict s)) (s_calls s), Ok).

(** append, core/details.py:15-23 *)
Definition append (k : nat) (v : value) (raises : bool) (s : state) : state * outcome :=
  let '(lst, s) :=
    match get k (s_dict s) with
    | Some w => (w, s)
    | None => let '(r, h) := alloc (s_heap s) in (VList r, mkState h (put k (VList r) (s_dict s)) (s_calls s))
    end in
  match lst with
  | VNum _ => (s, TypeErr)
  | VList r =>
      let s := mkState (extend r v (s_heap s)) (s_dict s) (s_calls s) in
      let '(s, x) := call k lst raises s in
      (s, if x then CallbackErr else Ok)
  end.

(** one operation; core/details.py:8-23 *)
Definition step (o : op) (s : state) : state * outcome :=
  match o with
  | OSet k v x => set k v x s
  | OAppend k v x => append k v x s
  | OMutate r v => (mkState (extend r v (s_heap s)) (s_dict s) (s_calls s), Ok)
  end.

(** several, each of whose exceptions is caught; users' code *)
Fixpoint run (l : list op) (s : state) : state :=
  match l with [] => s | o :: l' => run l' (fst (step o s)) end.
End S.

(** all: a shallow copy, core/details.py:25-26; here what the values are when the copy is
    looked at later, in heap [h] *)
Inductive content := CNum (n : nat) | CList (l : list value).
(** what a value shows; a Python operation *)
Definition show (h : heap) (v : value) : content :=
  match v with VNum n => CNum n | VList r => CList (h_lists h r) end.
(** details.all() made with dictionary [d], looked at in heap [h]; core/details.py:25-26 *)
Definition all (h : heap) (d : dict) : list (nat * content) := map (fun x => (fst x, show h (snd x))) d.

(** a new Details in a heap; core/details.py:3-6 *)
Definition state0 (h : heap) : state := mkState h [] [].
