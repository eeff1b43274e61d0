(** Fixtures that are generators: slash.yield_fixture (slash/core/fixtures/utils.py:116-146) and slash.generator_fixture (93-113), and
    fixtures used under another name (150-181).

    A generator is what its code does between its yields.  What a yield fixture adds as cleanups of itself
    (slash/core/fixtures/active_fixture.py:36-42) is part of what it does.  Simplified: yielded values and cleanups are numbers; a
    StopIteration raised inside a generator is a RuntimeError of Python like any other exception (PEP 479); whoever closes an
    abandoned generator is not modelled; when fixtures are started and ended is FixtureLife.v. *)

From Coq Require Import List Bool Arith Ascii String.
From Verif Require Import Str.
Import ListNotations.

(** what code does: anything that can be seen, or add_cleanup of its own fixture, slash/core/fixtures/active_fixture.py:36-37 *)
Inductive act := Does (n : nat) | Adds (c : nat).
(** how a piece of code ends; a Python operation, no code of /repo *)
Inductive stop := Yields (v : nat) | Returns | Throws (e : nat).
(** a generator object: the pieces of code from where it is on; without a piece it has ended; a Python operation, no code of /repo *)
Definition gen := list (list act * stop).

(** what next() gives; a Python operation, no code of /repo *)
Inductive given := Value (v : nat) | Stopped | Raised (e : nat).
(** next(g): what was done, what it gives, the generator afterwards; a Python operation, no code of /repo *)
Definition next (g : gen) : list act * given * gen :=
  match g with
  | [] => ([], Stopped, [])
  | (a, Yields v) :: g => (a, Value v, g)
  | (a, Returns) :: _ => (a, Stopped, [])
  | (a, Throws e) :: _ => (a, Raised e, [])
  end.

(** what is seen: something the code does, a cleanup that is called; no code of /repo *)
Inductive ev := Did (n : nat) | Called (c : nat).
(** exceptions: StopIteration (slash/core/fixtures/utils.py:136), the RuntimeError of 144, any other *)
Inductive exn := StopIteration | DidNotStop | Other (e : nat).

(** the events of a piece of code and the cleanups it adds; slash/core/fixtures/active_fixture.py:36-37 *)
Definition seen (l : list act) : list ev := flat_map (fun a => match a with Does n => [Did n] | Adds _ => [] end) l.
(** slash/core/fixtures/active_fixture.py:36-37 *)
Definition added (l : list act) : list nat := flat_map (fun a => match a with Does _ => [] | Adds c => [c] end) l.

(** a cleanup of the active fixture: one that was added, or the rest of the generator, slash/core/fixtures/utils.py:137-144 *)
Inductive cleanup := Own (c : nat) | Rest (g : gen).

(** new_func of yield_fixture, slash/core/fixtures/utils.py:133-145: what is seen, the cleanups of the fixture, oldest first, and
    the value or the exception.  The fixture is active also if it raises (slash/core/fixtures/fixture_store.py:388-395), so its
    cleanups are kept. *)
Definition start (g : gen) : list ev * list cleanup * (nat + exn) :=
  match next g with
  | (a, Value v, g) => (seen a, map Own (added a) ++ [Rest g], inl v)
  | (a, Stopped, _) => (seen a, map Own (added a), inr StopIteration)
  | (a, Raised e, _) => (seen a, map Own (added a), inr (Other e))
  end.

Section Cleanups.
(** which of the added cleanups raise *)
Variable fails : nat -> option nat.

(** the loop of do_cleanups (slash/core/fixtures/active_fixture.py:39-42) over cleanups that were added, the last one first: an exception leaves it;
    what is seen, the exception *)
Fixpoint call_own (l : list nat) : list ev * option exn :=
  match l with
  | [] => ([], None)
  | c :: l => match fails c with
              | Some e => ([Called c], Some (Other e))
              | None => let (t, x) := call_own l in (Called c :: t, x)
              end
  end.

(** cleanup() of yield_fixture, slash/core/fixtures/utils.py:138-144: what was done, the exception *)
Definition finish (g : gen) : list act * option exn :=
  match next g with
  | (a, Stopped, _) => (a, None)
  | (a, Value _, _) => (a, Some DidNotStop)
  | (a, Raised e, _) => (a, Some (Other e))
  end.

(** do_cleanups, slash/core/fixtures/active_fixture.py:39-42; the list has the last cleanup first.  What the rest of the generator adds is called
    next. *)
Fixpoint do_cleanups (l : list cleanup) : list ev * option exn :=
  match l with
  | [] => ([], None)
  | Own c :: l => match fails c with
                  | Some e => ([Called c], Some (Other e))
                  | None => let (t, x) := do_cleanups l in (Called c :: t, x)
                  end
  | Rest g :: l =>
      match finish g with
      | (a, Some x) => (seen a, Some x)
      | (a, None) =>
          match call_own (rev (added a)) with
          | (t, Some x) => (seen a ++ t, Some x)
          | (t, None) => let (u, x) := do_cleanups l in (seen a ++ t ++ u, x)
          end
      end
  end.

(** the fixture is needed: _compute_fixture_value, slash/core/fixtures/fixture_store.py:339-349, with 388-395: if it raises, it is
    given up at once, and an exception of that takes the place of the first; what is seen, the cleanups left for later, the value
    or the exception *)
Definition request (g : gen) : list ev * list cleanup * (nat + exn) :=
  match start g with
  | (t, cs, inl v) => (t, cs, inl v)
  | (t, cs, inr x) => let (u, y) := do_cleanups (rev cs) in (t ++ u, [], inr (match y with Some y => y | None => x end))
  end.

(** the fixture is given up later: _deactivate_fixture, slash/core/fixtures/fixture_store.py:399-404 *)
Definition give_up (cs : list cleanup) : list ev * option exn := do_cleanups (rev cs).
End Cleanups.

(** list(func()), slash/core/fixtures/utils.py:108: what was done, the values or the exception *)
Fixpoint values (g : gen) : list act * (list nat + nat) :=
  match g with
  | [] => ([], inl [])
  | (a, Yields v) :: g => let (b, r) := values g in (a ++ b, match r with inl l => inl (v :: l) | inr e => inr e end)
  | (a, Returns) :: _ => (a, inl [])
  | (a, Throws e) :: _ => (a, inr e)
  end.

(** a parametrized fixture: its name and the values of its parameter; slash/core/fixtures/utils.py:108-113 *)
Record pfixture := mkP { p_name : str; p_values : list nat }.
(** generator_fixture of a function with a name, slash/core/fixtures/utils.py:93-113; [name]: the name given, if any, which may be
    None; the second part: what was done while decorating *)
Definition generator_fixture (func_name : str) (name : option (option str)) (g : gen) : list act * (pfixture + nat) :=
  let (a, r) := values g in
  (a, match r with
      | inr e => inr e
      | inl l => inl (mkP (match name with None => func_name | Some (Some n) => n | Some None => lit "new_func" end) l)
      end).
(** the value in the variation with index i, slash/core/fixtures/parameters.py:147-148 and slash/core/fixtures/utils.py:109-110;
    None: the variation does not exist *)
Definition value_in (p : pfixture) (i : nat) : option nat := nth_error (p_values p) i.

(** an annotation of an argument: none, slash.use of a name, the class slash.use itself, any other object;
    slash/core/fixtures/utils.py:150-176 *)
Inductive annotation := NoAnnotation | Use (name : str) | UseClass | Another (n : nat).
(** use.x, slash/core/fixtures/utils.py:151-154; None: AttributeError *)
Definition use_attr (attr : str) : option annotation := if starts (lit "_") attr then None else Some (Use attr).
(** get_real_fixture_name_from_argument, slash/core/fixtures/utils.py:178-181 *)
Definition real_name (arg : str) (a : annotation) : str := match a with Use n => n | _ => arg end.
