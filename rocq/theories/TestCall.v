(** Model of the calling of one test's functions: Test.run (core/test.py:115-131),
    FunctionTest.run (core/function_test.py:27-34), FixtureStore.call_with_fixtures
    (core/fixtures/fixture_store.py:58-80), ActiveFixture.test_start/test_end/
    call_test_start/call_test_end (core/fixtures/active_fixture.py:15-34) and the
    part of handling_exceptions these use (exception_handling.py:105-138, 141-165).

    Simplifications: the callbacks given to test_start/test_end, and the user's
    functions, are described by what they do to the store and by the exception they
    end with; a callback does nothing to the store (changing the dictionaries while
    they are iterated over would raise RuntimeError).  The debugger, hooks and the
    traceback surgery of handling_exceptions are left out, and no exception type is
    ignored by thread_ignore_exception_context. *)

From Coq Require Import List Bool Arith.
Import ListNotations.

(** SkipTest (session.get_skip_exception_types()), KeyboardInterrupt and
    TerminatedException (exceptions.py:12), other exceptions that are no subclass of
    Exception (SystemExit, GeneratorExit), and all the rest: exception_handling.py:130-138 *)
Inductive kind := KError | KSkip | KInterrupt | KExit.

(** an exception object; Python exception objects *)
Record exn := mkExn { x_id : nat; x_kind : kind }.

(** a callback, as the exception it raises if any *)
Notation callback := (option exn).

(** ActiveFixture, active_fixture.py:5-13; the identifier is that of the object *)
Record active := mkActive
  { a_id : nat; a_starts : list callback; a_ends : list callback; a_started : bool }.

(** what can be observed: a test begins to run (start of the run method); a fixture is set up and
    torn down; its test_start (test_end) callbacks are about to be called; the k-th
    of them is called; the test's before, function and after are called; an exception
    is added to the test's result (exception_handling.py:23-32) *)
Inductive event :=
  | EvBegin | EvSetUp (f : nat) | EvTearDown (f : nat)
  | EvStart (f : nat) | EvStartCall (f k : nat) | EvEnd (f : nat) | EvEndCall (f k : nat)
  | EvBefore | EvMethod | EvAfter | EvRecord (x : exn).

(** the active fixtures in the order of iter_active_fixtures (fixture_store.py:53-56),
    the next object identifier, the exceptions marked as handled, and the events so far *)
Record st := mkSt { fx : list active; next : nat; handled : list nat; trace : list event }.
(** a store without active fixtures: fixture_store.py:26-36 *)
Definition st0 := mkSt [] 0 [] [].

(** a piece of Python code: a new state and the exception that leaves it *)
Notation M := (st -> st * option exn).

(** [pass]; plumbing of the model, no code of its own *)
Definition ok : M := fun s => (s, None).
(** statements one after the other; plumbing of the model, no code of its own *)
Definition seq (a b : M) : M := fun s => match a s with (s', None) => b s' | r => r end.
(** try: a finally: b; plumbing of the model, no code of its own *)
Definition try_finally (a b : M) : M := fun s =>
  let (s1, r) := a s in
  match b s1 with (s2, Some x) => (s2, Some x) | (s2, None) => (s2, r) end.
(** raise, or not; plumbing of the model, no code of its own *)
Definition outcome (r : option exn) : M := fun s => (s, r).
(** note an event; plumbing of the model, no code of its own *)
Definition emit (e : event) : M := fun s => (mkSt (fx s) (next s) (handled s) (trace s ++ [e]), None).

(** handle_exception exception_handling.py:141-165 with update_current_result 23-32 *)
Definition handle (x : exn) (s : st) : st :=
  if existsb (Nat.eqb (x_id x)) (handled s) then s
  else mkSt (fx s) (next s) (x_id x :: handled s) (trace s ++ [EvRecord x]).

(** with handling_exceptions(swallow=…): exception_handling.py:72-99, 117-138 *)
Definition handling (swallow : bool) (a : M) : M := fun s =>
  match a s with
  | (s1, None) => (s1, None)
  | (s1, Some x) =>
      (handle x s1,
       match x_kind x with
       | KSkip | KInterrupt => Some x
       | KError => if swallow then None else Some x
       | KExit => Some x
       end)
  end.

(** what user code can do to the store: compute a fixture (it takes some place in the
    iteration order, and registers callbacks; fixture_store.py:368-398), deactivate one
    (fixture_store.py:339-340, 400-405), register one more callback (active_fixture.py:15-19) *)
Inductive fop :=
  | FSetUp (place : nat) (starts ends : list callback)
  | FTearDown (f : nat)
  | FAddStart (f : nat) (c : callback)
  | FAddEnd (f : nat) (c : callback).

(** the active fixture with the given identifier is changed; plumbing of the model, no code of its own *)
Definition upd_fx (f : nat) (g : active -> active) (l : list active) : list active :=
  map (fun a => if Nat.eqb f (a_id a) then g a else a) l.

(** active_fixture.py:15-16 *)
Definition add_start (c : callback) (a : active) : active :=
  mkActive (a_id a) (a_starts a ++ [c]) (a_ends a) (a_started a).
(** active_fixture.py:18-19 *)
Definition add_end (c : callback) (a : active) : active :=
  mkActive (a_id a) (a_starts a) (a_ends a ++ [c]) (a_started a).
(** active_fixture.py:25, 31 *)
Definition set_started (b : bool) (a : active) : active :=
  mkActive (a_id a) (a_starts a) (a_ends a) b.

(** one of these; a torn down fixture object never returns; fixture_store.py:200-209, 369-397, active_fixture.py:15-20 *)
Definition do_fop (o : fop) (s : st) : st :=
  match o with
  | FSetUp n b e =>
      mkSt (firstn n (fx s) ++ mkActive (next s) b e false :: skipn n (fx s)) (S (next s)) (handled s)
           (trace s ++ [EvSetUp (next s)])
  | FTearDown f =>
      if existsb (fun a => Nat.eqb f (a_id a)) (fx s)
      then mkSt (filter (fun a => negb (Nat.eqb f (a_id a))) (fx s)) (next s) (handled s)
                (trace s ++ [EvTearDown f])
      else s
  | FAddStart f c => mkSt (upd_fx f (add_start c) (fx s)) (next s) (handled s) (trace s)
  | FAddEnd f c => mkSt (upd_fx f (add_end c) (fx s)) (next s) (handled s) (trace s)
  end.
(** several of them; plumbing of the model, no code of its own *)
Definition do_fops (l : list fop) : M := fun s => (fold_left (fun s o => do_fop o s) l s, None).

(** for callback in callbacks: callback() — active_fixture.py:27-28, 33-34 *)
Fixpoint call_all (ev : nat -> event) (k : nat) (l : list callback) : M :=
  match l with
  | [] => ok
  | c :: l' => seq (emit (ev k)) (seq (outcome c) (call_all ev (S k) l'))
  end.

(** the active fixture with the given identifier; plumbing of the model, no code of its own *)
Definition find_fx (f : nat) (s : st) : option active := find (fun a => Nat.eqb f (a_id a)) (fx s).

(** self._test_start_called = b; active_fixture.py:21-34 *)
Definition put_started (f : nat) (b : bool) : M := fun s =>
  (mkSt (upd_fx f (set_started b) (fx s)) (next s) (handled s) (trace s), None).

(** call_test_start core/fixtures/active_fixture.py:21-28 *)
Definition call_test_start (f : nat) : M := fun s =>
  match find_fx f s with
  | None => (s, None)
  | Some a =>
      if a_started a then (s, None)
      else seq (put_started f true)
             (seq (emit (EvStart f)) (handling false (call_all (EvStartCall f) 0 (a_starts a)))) s
  end.

(** call_test_end core/fixtures/active_fixture.py:30-34 *)
Definition call_test_end (f : nat) : M := fun s =>
  match find_fx f s with
  | None => (s, None)
  | Some a =>
      seq (put_started f false)
        (seq (emit (EvEnd f)) (handling false (call_all (EvEndCall f) 0 (a_ends a)))) s
  end.

(** for fixture in self.iter_active_fixtures(): …; fixture_store.py:53-80 *)
Fixpoint for_each (l : list nat) (body : nat -> M) : M :=
  match l with [] => ok | f :: l' => seq (body f) (for_each l' body) end.
(** fixture_store.py:71-73 *)
Definition start_all : M := fun s => for_each (map a_id (fx s)) call_test_start s.
(** fixture_store.py:77-80 *)
Definition end_all : M := fun s =>
  for_each (map a_id (fx s)) (fun f => handling true (call_test_end f)) s.

(** a function of the user's: what computing its fixture arguments does and how this
    ends (fixture_store.py:59-68; nothing for a @nofixtures function), what its body
    does and how it ends *)
Record func := mkFunc { f_prep : list fop; f_prep_out : option exn; f_ops : list fop; f_out : option exn }.

(** call_with_fixtures core/fixtures/fixture_store.py:58-80 *)
Definition call_with_fixtures (ev : event) (f : func) (start end_ : bool) : M :=
  seq (do_fops (f_prep f))
  (seq (outcome (f_prep_out f))
       (try_finally
          (seq (if start then start_all else ok)
               (seq (emit ev) (seq (do_fops (f_ops f)) (outcome (f_out f)))))
          (if end_ then end_all else ok))).

(** the InvalidTest raised if the function turns out to be a generator
    (test.py:126-127, function_test.py:33-34), if it does *)
Notation genexn := (option exn).

(** a function, or the before, test and after methods of a class; core/test.py:109-131, core/function_test.py:27-34 *)
Inductive test := TFunc (f : func) (g : genexn) | TClass (before method : func) (g : genexn) (after : func).

(** FunctionTest.run core/function_test.py:27-34, Test.run core/test.py:115-131 *)
Definition run (t : test) : M :=
  match t with
  | TFunc f g => seq (call_with_fixtures EvMethod f true true) (outcome g)
  | TClass b m g a =>
      seq (call_with_fixtures EvBefore b false false)
          (try_finally
             (handling false (seq (call_with_fixtures EvMethod m true false) (outcome g)))
             (handling false (call_with_fixtures EvAfter a false true)))
  end.

(** Several tests, each preceded by fixtures being computed or torn down in between
    (fixture_store.py:200-210, for instance); the exception of a test is dealt with by
    its runner (runner.py:107-127), which is not modelled here. *)
Definition run_one (p : list fop * test) (s : st) : st :=
  fst (run (snd p) (fst (emit EvBegin (fst (do_fops (fst p) s))))).
(** runner.py:45-72 *)
Definition run_tests (l : list (list fop * test)) : st := fold_left (fun s p => run_one p s) l st0.
