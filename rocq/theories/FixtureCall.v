(** What the function of a fixture finds when it is called: Fixture.get_value (slash/core/fixtures/fixture.py:63-70), called by
    _call_fixture and _compute_fixture_value (slash/core/fixtures/fixture_store.py:321-349, 369-397).

    A fixture is given with the fixtures it needs, so this is a tree; the same fixture may occur in several places (the same
    number).  Scopes are numbers.  Simplified: fixtures that are active are valid (no change of the variation in between), parameters
    are left out, the store is resolved, and what a fixture's own cleanups do when it fails is left out. *)

From Coq Require Import List Bool Arith.
Import ListNotations.

(** what the function of a fixture may do: slash.add_cleanup without a scope (slash/core/cleanup_manager.py:45-85), or
    context.fixture.add_cleanup, as yield fixtures do (slash/core/fixtures/utils.py:134-145) *)
Inductive act := Cleanup | Own.

(** the number, the scope, whether there is an argument "this" (slash/core/fixtures/utils.py:70-75), the fixtures needed
    (slash/core/fixtures/fixture_store.py:378-384), what the function does, and whether it raises in the end *)
Inductive fx := Fx (id scope : nat) (this : bool) (args : list fx) (body : list act) (raises : bool).

(** the function of a fixture is called, with what as "this", context.fixture and default scope; a cleanup is added to a scope; a
    cleanup is added to an active fixture; slash/core/fixtures/fixture.py:70, slash/core/cleanup_manager.py:58-85,
    slash/core/fixtures/active_fixture.py:36-37 *)
Inductive event := Body (id : nat) (this ctx default : option nat) | Added (id : nat) (scope : option nat) | AddedTo (id : nat) (target : option nat).

(** _active_fixtures_by_scope, _computing (slash/core/fixtures/fixture_store.py:31-34), context.fixture, _default_scope
    (slash/core/cleanup_manager.py:28), and what happened *)
Record state := mkState { active : list nat; computing : list nat; ctx : option nat; default : option nat; log : list event }.

(** what the function does; slash/core/cleanup_manager.py:58, slash/core/fixtures/active_fixture.py:36-37 *)
Definition do_act (id : nat) (st : state) (a : act) : state :=
  mkState (active st) (computing st) (ctx st) (default st)
    (log st ++ [match a with Cleanup => Added id (default st) | Own => AddedTo id (ctx st) end]).

(** get_value; slash/core/fixtures/fixture.py:63-70; default_scope_override, slash/core/cleanup_manager.py:95-102 *)
Definition get_value (session : bool) (id scope : nat) (this : bool) (body : list act) (raises : bool) (st : state) : state * bool :=
  let prev := default st in
  let d := if session then Some scope else prev in
  let st := mkState (active st) (computing st) (ctx st) d (log st ++ [Body id (if this then Some id else None) (ctx st) d]) in
  let st := fold_left (do_act id) body st in
  (mkState (active st) (computing st) (ctx st) (if session then prev else default st) (log st), negb raises).

(** _call_fixture after the arguments; slash/core/fixtures/fixture_store.py:386-397 *)
Definition call_body (session : bool) (id scope : nat) (this : bool) (body : list act) (raises : bool) (st : state) : state * bool :=
  if existsb (Nat.eqb id) (active st) then (st, false)
  else
    let prev := ctx st in
    let '(st, ok) := get_value session id scope this body raises (mkState (id :: active st) (computing st) (Some id) (default st) (log st)) in
    (mkState (active st) (computing st) prev (default st) (log st), ok).

(** the end of _compute_fixture_value; slash/core/fixtures/fixture_store.py:342-347 *)
Definition finish (id : nat) (r : state * bool) : state * bool :=
  let '(st, ok) := r in
  (mkState (if ok then active st else remove Nat.eq_dec id (active st)) (remove Nat.eq_dec id (computing st)) (ctx st) (default st) (log st), ok).

(** _compute_fixture_value, with the loop over the arguments in _call_fixture; slash/core/fixtures/fixture_store.py:321-349, 378-384 *)
Fixpoint compute (session : bool) (f : fx) (st : state) : state * bool :=
  match f with
  | Fx id scope this args body raises =>
      if existsb (Nat.eqb id) (computing st) then (st, false)
      else if existsb (Nat.eqb id) (active st) then (st, true)
      else
        finish id
          (let '(st, ok) :=
             (fix all l st := match l with
                              | [] => (st, true)
                              | a :: l => let '(st, ok) := compute session a st in if ok then all l st else (st, false)
                              end) args (mkState (active st) (id :: computing st) (ctx st) (default st) (log st)) in
           if ok then call_body session id scope this body raises st else (st, false))
  end.
