(** Model of ctx.py: contexts (11-40), the null context (43-56) and the context
    stack (59-90).  Contexts are objects, so the stack holds references and the
    same context may be pushed twice.  Attributes are numbers; the underscored
    ones, which __setattr__ stores on the stack object itself (74-75), and
    computed properties are left out. *)

From Coq Require Import List Bool Arith.
Import ListNotations.

Section Ctx.

(** which attributes the null context has (ctx.py:53-56) and the class
    attributes of Context with value None or set in __init__ (12-17) *)
Variable null_has : nat -> bool.
Variable ctx_default : nat -> option nat.

(** elements of _stack, ctx.py:59-63 *)
Inductive ref := RNull | RCtx (n : nat).

(** __dict__ of a context object; ctx.py:11-17 *)
Definition attrs := list (nat * nat).
(** a Python operation, no code of /repo *)
Fixpoint attr_get (a : nat) (l : attrs) : option nat :=
  match l with
  | [] => ctx_default a
  | (b, v) :: l' => if Nat.eqb a b then Some v else attr_get a l'
  end.

(** _ContextStack, ctx.py:59-63 *)
Record stk := mkStk {
  k_stack : list ref;              (* _stack, top first *)
  k_heap : nat -> attrs }.         (* the context objects *)

(** _ContextStack.__init__, ctx.py:61-63 *)
Definition stk0 : stk := mkStk [RNull] (fun _ => []).

(** the ways the calls of ctx.py:65-88 can end *)
Inductive reply :=
| Done | Value (v : option nat)    (* Value None: Python's None of the null context *)
| AttributeErr | RuntimeErr | InternalErr | AssertionErr.

(** __getattr__, ctx.py:65-67 *)
Definition k_get (a : nat) (k : stk) : reply :=
  match k_stack k with
  | [] => AssertionErr
  | RNull :: _ => if null_has a then Value None else AttributeErr
  | RCtx c :: _ => match attr_get a (k_heap k c) with
                   | Some v => Value (Some v)
                   | None => AttributeErr
                   end
  end.

(** __setattr__, ctx.py:73-76 and 45-47; self._stack[-1] on an empty list would be an
    IndexError, given as AssertionErr here (unreachable) *)
Definition k_set (a v : nat) (k : stk) : stk * reply :=
  match k_stack k with
  | [] => (k, AssertionErr)
  | RNull :: _ => (k, AttributeErr)
  | RCtx c :: _ =>
      (mkStk (k_stack k) (fun d => if Nat.eqb d c then (a, v) :: k_heap k c else k_heap k d), Done)
  end.

(** push, ctx.py:78-80: of the context object [c] *)
Definition k_push (c : nat) (k : stk) : stk * reply := (mkStk (RCtx c :: k_stack k) (k_heap k), Done).

(** pop, ctx.py:82-88 *)
Definition k_pop (k : stk) : stk * reply :=
  match k_stack k with
  | [] => (k, InternalErr)
  | [_] => (k, RuntimeErr)
  | _ :: l => (mkStk l (k_heap k), Done)
  end.

(** the calls of ctx.py:65-88 *)
Inductive cop := CGet (a : nat) | CSet (a v : nat) | CPush (c : nat) | CPop.

(** ctx.py:65-88, cited at the functions called *)
Definition k_step (k : stk) (o : cop) : stk * reply :=
  match o with
  | CGet a => (k, k_get a k)
  | CSet a v => k_set a v k
  | CPush c => k_push c k
  | CPop => k_pop k
  end.

(** plumbing of the model, no code of its own *)
Fixpoint k_run (k : stk) (ops : list cop) : stk * list reply :=
  match ops with
  | [] => (k, [])
  | o :: ops => let (k, r) := k_step k o in let (k, rs) := k_run k ops in (k, r :: rs)
  end.

End Ctx.
