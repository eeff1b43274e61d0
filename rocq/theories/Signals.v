(** Model of plugins/builtin/signal_handling.py: the handlers of signals while the plugin
    is activated and deactivated by the plugin manager (plugins/plugin_manager.py:209-222,
    261-274; only what concerns this plugin).

    Handlers are numbers.  signal.signal returns the handler set before, or None if it
    was not set from Python, and does not accept None.  Signals the platform does not
    have are not registered (17-18) and left out.  What the handlers do is not
    modelled. *)

From Coq Require Import List Bool Arith.
From Verif Require Import Dict.
Import ListNotations.

(** _signal_handlers (13), _orig_handlers (51), whether the name of the plugin is in
    manager._active, and the handlers of the process; signal_handling.py:13-71 *)
Record state := mkS { s_reg : dict nat; s_orig : dict (option nat); s_active : bool; s_os : nat -> option nat }.

(** signal.signal(n, h) with a handler; a Python operation, no code of /repo *)
Definition os_set (n : nat) (h : nat) (os : nat -> option nat) : nat -> option nat :=
  fun m => if Nat.eqb m n then Some h else os m.

(** Plugin._set_handler, signal_handling.py:56-60 *)
Definition set_handler (s : state) (n h : nat) : state :=
  mkS (s_reg s) (d_set n (s_os s n) (s_orig s)) (s_active s) (os_set n h (s_os s)).

(** register_handler, signal_handling.py:15-26 *)
Definition register (n h : nat) (s : state) : state :=
  let s1 := mkS (d_set n h (s_reg s)) (s_orig s) (s_active s) (s_os s) in
  if s_active s then set_handler s1 n h else s1.

(** activate, signal_handling.py:62-65, then _active.add, plugin_manager.py:219-222 *)
Definition activate (s : state) : state :=
  let s1 := fold_left (fun s e => set_handler s (fst e) (snd e)) (s_reg s) s in
  mkS (s_reg s1) (s_orig s1) true (s_os s1).

(** the loop of deactivate, signal_handling.py:69-70; the second result tells of a TypeError *)
Fixpoint restore (l : dict (option nat)) (os : nat -> option nat) : (nat -> option nat) * bool :=
  match l with
  | [] => (os, true)
  | (n, Some h) :: l' => restore l' (os_set n h os)
  | (_, None) :: _ => (os, false)
  end.

(** deactivate of the manager, plugin_manager.py:261-274, and of the plugin,
    signal_handling.py:67-71 *)
Definition deactivate (s : state) : state * bool :=
  if s_active s then
    let (os, ok) := restore (s_orig s) (s_os s) in
    (mkS (s_reg s) (if ok then [] else s_orig s) false os, ok)
  else (s, true).

(** what a program does with it; the public functions of the above; plumbing of the model, no code of its own *)
Inductive op := Register (n h : nat) | Activate | Deactivate.

(** running them, stopping at an exception; plumbing of the model, no code of its own *)
Fixpoint run (ops : list op) (s : state) : state * bool :=
  match ops with
  | [] => (s, true)
  | Register n h :: ops' => run ops' (register n h s)
  | Activate :: ops' => run ops' (activate s)
  | Deactivate :: ops' => let (s', ok) := deactivate s in if ok then run ops' s' else (s', false)
  end.
