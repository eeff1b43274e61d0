(** Model of the hooks of the slash group and of the functions that add and remove custom ones (slash/hooks.py).

    Names are numbers, and so are hooks: every hook object gets a new one.  A hook "slash.<name>" lives in gossip's registry and, under its
    name, in the namespace of the module slash.hooks.  gossip itself is not part of /repo; assumed of it: define raises NameAlreadyUsed for
    a name that is defined, get_hook raises a LookupError for one that is not, undefine takes the hook out of the registry, and in a strict
    group (slash/hooks.py:73) there are no other hooks than the defined ones.  Simplified: names contain no dots (they would name hooks of
    subgroups), the deprecation warnings of vintage and the handlers of hooks are left out. *)

From Coq Require Import List Bool Arith.
From Verif Require Import Dict.
Import ListNotations.

(** what a name of the module is bound to: a hook (slash/hooks.py:18) or something else the module defines or imports, as config,
    register, _define (slash/hooks.py:1-19, 76-126) *)
Inductive value := VHook (h : nat) | VOther (o : nat).

(** gossip's registry of the group slash, the namespace of slash.hooks, and the number of the next hook object, slash/hooks.py:17-18 *)
Record world := mkWorld { w_reg : @dict nat; w_ns : @dict value; w_next : nat }.

(** what a call gives: a hook, nothing, or an exception: NameAlreadyUsed (slash/hooks.py:17), LookupError (slash/hooks.py:96, 105, 126),
    KeyError (slash/hooks.py:106) *)
Inductive answer := Hook (h : nat) | Nothing | NameAlreadyUsed | NoSuchHook | KeyError.

(** gossip.define, as called in slash/hooks.py:17 *)
Definition g_define (n : nat) (w : world) : world * answer :=
  match d_get n (w_reg w) with
  | Some _ => (w, NameAlreadyUsed)
  | None => (mkWorld (d_set n (w_next w) (w_reg w)) (w_ns w) (S (w_next w)), Hook (w_next w))
  end.

(** _define, slash/hooks.py:16-19 *)
Definition define (n : nat) (w : world) : world * answer :=
  match g_define n w with
  | (w', Hook h) => (mkWorld (w_reg w') (d_set n (VHook h) (w_ns w')) (w_next w'), Hook h)
  | (w', e) => (w', e)
  end.

(** gossip.get_hook and get_hook_by_name, slash/hooks.py:121-126 *)
Definition get_hook (n : nat) (w : world) : answer :=
  match d_get n (w_reg w) with Some h => Hook h | None => NoSuchHook end.

(** add_custom_hook, slash/hooks.py:83-88 *)
Definition add_custom_hook (n : nat) (w : world) : world * answer := define n w.

(** ensure_custom_hook, slash/hooks.py:90-98 *)
Definition ensure_custom_hook (n : nat) (w : world) : world * answer :=
  match get_hook n w with
  | NoSuchHook => define n w
  | a => (w, a)
  end.

(** remove_custom_hook, slash/hooks.py:100-106 *)
Definition remove_custom_hook (n : nat) (w : world) : world * answer :=
  match get_hook n w with
  | Hook _ =>
      let w' := mkWorld (d_del n (w_reg w)) (w_ns w) (w_next w) in
      match d_get n (w_ns w') with
      | Some _ => (mkWorld (w_reg w') (d_del n (w_ns w')) (w_next w'), Nothing)
      | None => (w', KeyError)
      end
  | a => (w, a)
  end.

(** get_all_hooks, slash/hooks.py:115-119; in the order of their definition *)
Definition get_all_hooks (w : world) : list (nat * nat) := w_reg w.

(** the calls: those of the module (slash/hooks.py:83-106, 121-126), and gossip.define called directly, as the deprecation advises
    (slash/hooks.py:13-14) *)
Inductive call := Add (n : nat) | Ensure (n : nat) | Remove (n : nat) | Get (n : nat) | Direct (n : nat).

(** one call; slash/hooks.py:83-126 *)
Definition do (c : call) (w : world) : world * answer :=
  match c with
  | Add n => add_custom_hook n w
  | Ensure n => ensure_custom_hook n w
  | Remove n => remove_custom_hook n w
  | Get n => (w, get_hook n w)
  | Direct n => g_define n w
  end.

(** any calls, each after the other, whatever the former ones raised; slash/hooks.py:83-126 *)
Fixpoint run (l : list call) (w : world) : world :=
  match l with
  | [] => w
  | c :: l' => run l' (fst (do c w))
  end.

(** the import of the module: what it defines and imports before (slash/hooks.py:1-19), the hooks of slash (slash/hooks.py:21-70), what it
    defines after them (slash/hooks.py:72-126).  The objects are the names themselves *)
Definition import (before builtin after : list nat) : world :=
  let set l w := fold_left (fun w n => mkWorld (w_reg w) (d_set n (VOther n) (w_ns w)) (w_next w)) l w in
  set after (fold_left (fun w n => fst (define n w)) builtin (set before (mkWorld [] [] 0))).
