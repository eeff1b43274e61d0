(** Model of the run-time side of fixtures: computing values, caching, and
    tearing down (core/fixtures/fixture_store.py:200-209, 287-292, 321-404;
    active_fixture.py:5-42).  The static side is FixtureGraph.v: here the
    arguments of each fixture, its scope and the parametrizations it needs are
    given.  What a fixture function does is given per call: the finalizers it
    registers with [this.add_cleanup] (or by yielding, utils.py:133-145), how each
    of them will end, and how the call itself ends.
    Simplified: finalizers do not register further finalizers; the current
    variation has an index for every parametrization; fixture functions do not use
    the store themselves; test_start and test_end callbacks are left out. *)

From Coq Require Import List Bool Arith PeanoNat.
From Verif Require Import Dict.
Import ListNotations.

(** how a call ends; [true] marks exceptions that handling_exceptions(swallow=True)
    lets through: skips and interruptions
    (exception_handling.py:116-138) *)
Inductive fout := Fine | Raises (critical : bool).

(** one call of a fixture function: finalizers in order of registration, outcome; fixture_store.py:369-397 *)
Record fcall := mkCall { c_fins : list fout; c_out : fout }.

(** what can be observed.  Calls of fixture functions are numbered; the number also
    stands for the value the call returns.  [ECall f n args]: call [n] is one of
    fixture [f], made with the values [args]; [EDown f n]: the value [n] of [f] is
    given up; [EFin f n i o]: its finalizer [i] (in order of registration) ran and
    ended with [o]; ghost, no code of /repo *)
Inductive ev :=
| ECall (f n : nat) (args : list nat)
| EDown (f n : nat)
| EFin (f n i : nat) (o : fout).

(** ActiveFixture, active_fixture.py:5-15: value and finalizers *)
Record act := mkAct { a_val : nat; a_fins : list fout }.

(** the store, fixture_store.py:32-34: the active fixtures of each scope in order of
    activation, scopes in order of first use; the parameter values the active
    fixtures were computed for; the fixtures being computed; and the current
    variation (variation.py:12-20).  The trace has the latest event first. *)
Record state := mkSt {
  s_active : dict (dict act);
  s_deps : dict (list (nat * nat));
  s_computing : list nat;
  s_var : nat -> nat;
  s_next : nat;
  s_trace : list ev
}.

(** an empty store, fixture_store.py:24-36 *)
Definition state0 : state := mkSt [] [] [] (fun _ => 0) 0 [].

(** assignments to the attributes of the store (fixture_store.py:24-36), to the current
    variation, and recording of events *)
Definition set_active x st := mkSt x (s_deps st) (s_computing st) (s_var st) (s_next st) (s_trace st).
(** assignment, fixture_store.py:327-349 *)
Definition set_deps x st := mkSt (s_active st) x (s_computing st) (s_var st) (s_next st) (s_trace st).
(** assignment, fixture_store.py:321-349 *)
Definition set_computing x st := mkSt (s_active st) (s_deps st) x (s_var st) (s_next st) (s_trace st).
(** bound_parametrizations_context, parameters.py:66-75 *)
Definition set_var x st := mkSt (s_active st) (s_deps st) (s_computing st) x (s_next st) (s_trace st).
(** ghost, no code of /repo *)
Definition set_next x st := mkSt (s_active st) (s_deps st) (s_computing st) (s_var st) x (s_trace st).
(** ghost, no code of /repo *)
Definition emit (l : list ev) st := mkSt (s_active st) (s_deps st) (s_computing st) (s_var st) (s_next st) (l ++ s_trace st).

(** _active_fixtures_by_scope[k], fixture_store.py:33, 39 *)
Definition level (k : nat) (st : state) : dict act := match d_get k (s_active st) with Some d => d | None => [] end.

(** the defaultdict gets a key when it is read, fixture_store.py:33 *)
Definition touch (k : nat) (st : state) : state :=
  match d_get k (s_active st) with Some _ => st | None => set_active (d_set k [] (s_active st)) st end.

(** how a request ends; fixture_store.py:287-292, 321-397 *)
Inductive res := RVal (n : nat) | RExn (critical : bool) | RFuel.

(** do_cleanups, active_fixture.py:39-42: pop from the end, stop when one raises.
    [i] finalizers are left, the list has the next one first *)
Fixpoint do_cleanups (f n : nat) (fins : list fout) : list ev * fout :=
  match fins with
  | [] => ([], Fine)
  | o :: fins' =>
      match o with
      | Raises c => ([EFin f n (length fins') o], o)
      | Fine => let (t, o') := do_cleanups f n fins' in (t ++ [EFin f n (length fins') o], o')
      end
  end.

Section Life.
Variable args_of : nat -> list nat.     (* fixture arguments in order *)
Variable scope_of : nat -> nat.
Variable params_of : nat -> list nat.   (* needed parametrizations *)
Variable call : nat -> fcall.           (* what the n-th call does *)

(** get_active_fixture, core/fixtures/fixture_store.py:38-39 *)
Definition get_active (f : nat) (st : state) : option act := d_get f (level (scope_of f) st).

(** _compute_fixture_dependencies, core/fixtures/fixture_store.py:356-367 *)
Definition fixture_deps (f : nat) (st : state) : list (nat * nat) :=
  map (fun p => (p, s_var st p)) (params_of f).

(** equality of dependency entries, fixture_store.py:354 *)
Definition pair_eqb (a b : nat * nat) : bool := Nat.eqb (fst a) (fst b) && Nat.eqb (snd a) (snd b).

(** _is_active_fixture_valid, core/fixtures/fixture_store.py:351-354 *)
Definition valid (f : nat) (st : state) : bool :=
  match d_get f (s_deps st) with
  | None => false
  | Some old => forallb (fun x => existsb (pair_eqb x) old) (fixture_deps f st)
  end.

(** _deactivate_fixture, core/fixtures/fixture_store.py:399-404 *)
Definition deactivate (f : nat) (st : state) : state * fout :=
  let st0 := touch (scope_of f) st in
  let st1 := set_deps (d_del f (s_deps st))
              (set_active (d_set (scope_of f) (d_del f (level (scope_of f) st)) (s_active st0)) st0) in
  match get_active f st with
  | None => (st1, Fine)
  | Some a =>
      let (t, o) := do_cleanups f (a_val a) (rev (a_fins a)) in
      (emit (t ++ [EDown f (a_val a)]) st1, o)
  end.

(** the loop over the arguments in _call_fixture, core/fixtures/fixture_store.py:378-383 *)
Fixpoint compute_args (rec : nat -> state -> state * res) (l : list nat) (st : state) : state * (list nat + res) :=
  match l with
  | [] => (st, inl [])
  | f :: l' =>
      match rec f st with
      | (st1, RVal v) =>
          match compute_args rec l' st1 with
          | (st2, inl vs) => (st2, inl (v :: vs))
          | (st2, inr r) => (st2, inr r)
          end
      | (st1, r) => (st1, inr r)
      end
  end.

(** _call_fixture, core/fixtures/fixture_store.py:369-397 *)
Definition call_fixture (rec : nat -> state -> state * res) (f : nat) (st : state) : state * res :=
  match compute_args rec (args_of f) st with
  | (st1, inr r) => (st1, r)
  | (st1, inl vals) =>
      let n := s_next st1 in
      let c := call n in
      match get_active f st1 with
      | Some _ => (st1, RExn false)  (* the assertion, 386 *)
      | None =>
          let st2 := touch (scope_of f) st1 in
          let st3 := set_active (d_set (scope_of f) (d_set f (mkAct n (c_fins c)) (level (scope_of f) st2)) (s_active st2)) st2 in
          let st4 := set_deps (d_set f (fixture_deps f st3) (s_deps st3)) st3 in
          let st5 := set_next (S n) (emit [ECall f n vals] st4) in
          (st5, match c_out c with Fine => RVal n | Raises b => RExn b end)
      end
  end.

(** _compute_fixture_value, core/fixtures/fixture_store.py:339-349 *)
Definition fresh (rec : nat -> state -> state * res) (f : nat) (st : state) : state * res :=
  let '(st1, r) := call_fixture rec f (set_computing (f :: s_computing st) st) in
  let discard s := set_computing (remove Nat.eq_dec f (s_computing s)) s in
  match r with
  | RVal v => (discard st1, RVal v)
  | RFuel => (st1, RFuel)
  | RExn c => let (st2, o) := deactivate f st1 in
              (discard st2, match o with Fine => RExn c | Raises c' => RExn c' end)
  end.

(** _compute_fixture_value, core/fixtures/fixture_store.py:321-349; the first argument bounds the depth *)
Fixpoint compute (n : nat) (f : nat) (st : state) : state * res :=
  match n with
  | 0 => (st, RFuel)
  | S n' =>
      if existsb (Nat.eqb f) (s_computing st) then (st, RExn false)
      else
        let st0 := touch (scope_of f) st in
        match get_active f st0 with
        | None => fresh (compute n') f st0
        | Some a =>
            if valid f st0 then (st0, RVal (a_val a))
            else match deactivate f st0 with
                 | (st1, Fine) => fresh (compute n') f st1
                 | (st1, Raises c) => (st1, RExn c)
                 end
        end
  end.

(** pop_scope, core/fixtures/fixture_store.py:206-208: the fixtures of one scope, last activated first *)
Fixpoint down_all (fs : list nat) (st : state) : state * fout :=
  match fs with
  | [] => (st, Fine)
  | f :: fs' =>
      match deactivate f st with
      | (st1, Raises true) => (st1, Raises true)
      | (st1, _) => down_all fs' st1
      end
  end.

(** pop_scope, core/fixtures/fixture_store.py:204-209 *)
Fixpoint pop_levels (s : nat) (ks : list nat) (st : state) : state * fout :=
  match ks with
  | [] => (st, Fine)
  | k :: ks' =>
      if Nat.leb k s
      then match down_all (rev (d_keys (level k st))) st with
           | (st1, Fine) => pop_levels s ks' st1
           | (st1, o) => (st1, o)
           end
      else pop_levels s ks' st
  end.

(** pop_scope, core/fixtures/fixture_store.py:200-209; [interrupted]: the current result is interrupted *)
Definition pop_scope (s : nat) (interrupted : bool) (st : state) : state * fout :=
  if interrupted then (st, Fine) else pop_levels s (d_keys (s_active st)) st.

(** what happens to the store during a session: a test (or an autouse fixture)
    requests a fixture, the next test has another variation, a scope ends; fixture_store.py:200-209, 287-292, parameters.py:66-75 *)
Inductive op := Request (f : nat) | SetVar (v : nat -> nat) | PopScope (s : nat) (interrupted : bool).

(** one such event: request (fixture_store.py:321-349), variation change
    (variation.py:12-20), pop_scope (200-209) *)
Definition step (fuel : nat) (o : op) (st : state) : state :=
  match o with
  | Request f => fst (compute fuel f st)
  | SetVar v => set_var v st
  | PopScope s i => fst (pop_scope s i st)
  end.

(** a whole session of such events; plumbing of the model, no code of its own *)
Definition run (fuel : nat) (ops : list op) (st : state) : state := fold_left (fun s o => step fuel o s) ops st.
End Life.
