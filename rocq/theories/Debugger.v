(** Model of entering a debugger: debug_if_needed and launch_debugger (utils/debug.py:57-101)
    and the functions made by _debugger (utils/debug.py:16-35).

    Simplifications: the known debuggers are a list of any length; whether a module can be
    imported and what its function does is given; whether the filter strings match the
    representation of the exception is given for each (Matcher.v is about that); the hook
    entering_debugger is an event (and may raise). *)

From Coq Require Import List Bool Arith.
Import ListNotations.

(** an exception: of a registered skip type, SystemExit or an interruption, any other;
    utils/debug.py:65-68 *)
Inductive exc := XSkip | XExit | XOther.

(** what a debugger function does when it is called: its module cannot be imported; it works
    and returns; it raises NotImplementedError after it was started; it raises another
    exception (bdb.BdbQuit for example); utils/debug.py:18-32 *)
Inductive behaviour := Missing | Works | Unimplemented | Fails.

(** __external_name__ and what it does; utils/debug.py:33-34, 49-54 *)
Record debugger := mkDebugger { d_name : nat; d_does : behaviour }.

(** config.root.debug and the session; utils/debug.py:59, 65, 71, 80 *)
Record conf := mkConf {
  enabled : bool; debug_skips : bool; has_session : bool;
  filters : list bool; (* Matcher(s).matches(exc_repr) for each s of filter_strings *)
  chosen : option nat (* config.root.debug.debugger *) }.

(** what is observed: the hook, the function of a debugger starts (after
    _notify_going_into_debugger), the warnings of utils/debug.py:89, 96 *)
Inductive event := EHook | EStart (name : nat) | EUnknown | EUnavailable.

(** how the call ends: normally, NotImplementedError, another exception; utils/debug.py:91-98 *)
Inductive outcome := Done | NoDebugger | Raised.

(** debuggers.insert(0, debuggers.pop(index)) for the first one of this name, utils/debug.py:84-87;
    None: there is none *)
Fixpoint take (n : nat) (l : list debugger) : option (debugger * list debugger) :=
  match l with
  | [] => None
  | d :: l' =>
      if Nat.eqb n (d_name d) then Some (d, l')
      else match take n l' with Some (x, r) => Some (x, d :: r) | None => None end
  end.

(** the list that is tried and the warning of utils/debug.py:80-89 *)
Definition order (c : option nat) (l : list debugger) : list debugger * list event :=
  match c with
  | None => (l, [])
  | Some n => match take n l with Some (d, r) => (d :: r, []) | None => (l, [EUnknown]) end
  end.

(** the loop of utils/debug.py:91-101 *)
Fixpoint attempt (c : option nat) (l : list debugger) : list event * outcome :=
  match l with
  | [] => ([], NoDebugger)
  | d :: l' =>
      let started := match d_does d with Missing => [] | _ => [EStart (d_name d)] end in
      match d_does d with
      | Works => (started, Done)
      | Fails => (started, Raised)
      | Missing | Unimplemented =>
          let warning := match c with Some n => if Nat.eqb (d_name d) n then [EUnavailable] else [] | None => [] end in
          let '(t, o) := attempt c l' in (started ++ warning ++ t, o)
      end
  end.

(** launch_debugger utils/debug.py:77-101; [hook_raises]: a handler of entering_debugger raises *)
Definition launch (hook_raises : bool) (c : conf) (known : list debugger) : list event * outcome :=
  if hook_raises then ([EHook], Raised)
  else
    let '(l, w) := order (chosen c) known in
    let '(t, o) := attempt (chosen c) l in
    (EHook :: w ++ t, o).

(** debug_if_needed utils/debug.py:57-74; [e] None: no exception *)
Definition debug_if_needed (hook_raises : bool) (c : conf) (known : list debugger) (e : option exc) : list event * outcome :=
  if negb (enabled c) then ([], Done)
  else
    match e with
    | None => ([], Done)
    | Some x =>
        if has_session c && match x with XSkip => true | _ => false end && negb (debug_skips c) then ([], Done)
        else if match x with XExit => true | _ => false end then ([], Done)
        else if match filters c with [] => false | _ => negb (forallb (fun b => b) (filters c)) end then ([], Done)
        else launch hook_raises c known
    end.
