(** Model of core/exclusions.py: slash.exclude and is_excluded, with resolve_name of
    core/fixtures/fixture_store.py:104-124.
    Functions, fixtures, namespaces and parametrizations are numbers, names are strings.
    Parameter values are numbers and equality of values is equality of numbers (in
    Python it is whatever __eq__ of the values says). *)

From Coq Require Import List Bool Arith PeanoNat Ascii.
From Verif Require Import Str Dict.
Import ListNotations.

(** a parametrization bound to a name, parameters.py:111-128: its info.id; the values
    have been passed through the transform already *)
Record param := mkParam { p_id : nat; p_values : list nat }.

(** the two kinds of objects a name can resolve to; core/fixtures/fixture_store.py:104-124 *)
Inductive obj := OParam (p : param) | OFixture (f : nat).

(** exclusions.py:15-21, 47, 52 *)
Inductive exn :=
| EUnknownFixtures      (* exceptions.py:42-46 *)
| EUnhashable           (* TypeError of dict() for a list as key *)
| EInvalidExclude       (* RuntimeError, exclusions.py:16, 21 *)
| EIndex.               (* IndexError of values[index], parameters.py:148 *)

(** the arguments of exclude: one name with a list of values, or several names (a tuple
    or, [islist], a list) with a list of items each of which is a tuple or something else; exclusions.py:15-24 *)
Inductive item := ITuple (l : list nat) | IOther (v : nat).
(** exclusions.py:8-24 *)
Inductive request := One (n : str) (values : list nat) | Many (islist : bool) (l : list str) (values : list item).

(** an entry of the exclude marker of a function: names and value tuples; exclusions.py:24 *)
Record rule := mkRule { r_islist : bool; r_names : list str; r_values : list (list nat) }.

(** all items are tuples; exclusions.py:20 *)
Fixpoint tuples (l : list item) : option (list (list nat)) :=
  match l with
  | [] => Some []
  | ITuple t :: l' => match tuples l' with Some r => Some (t :: r) | None => None end
  | IOther _ :: _ => None
  end.

(** exclude, exclusions.py:8-24, for values given as list or tuple *)
Definition exclude (q : request) : rule + exn :=
  match q with
  | One n values => inl (mkRule false [n] (map (fun v => [v]) values))
  | Many islist l values =>
      match tuples values with Some vs => inl (mkRule islist l vs) | None => inr EInvalidExclude end
  end.

Section Resolve.
(** iter_parametrization_fixtures of a function or fixture, parameters.py:79-86, 122-128 *)
Variable params_of_func : nat -> list (str * param).
Variable func_of : nat -> nat.                        (* fixture.fixture_func *)
(** get_fixture_by_name in a namespace (C25), and the namespace of a fixture *)
Variable lookup : nat -> str -> option nat.
Variable namespace_of : nat -> nat.

(** a dict of a list of pairs: the last one counts; a Python operation, no code of /repo *)
Fixpoint find_param (n : str) (l : list (str * param)) : option param :=
  match l with
  | [] => None
  | (m, p) :: l' => match find_param n l' with
                    | Some q => Some q
                    | None => if str_eqb n m then Some p else None
                    end
  end.

(** resolve_name, fixture_store.py:113-124: [func] is the function of the start point *)
Fixpoint resolve_parts (parts : list str) (func : nat) (ns : nat) (last : obj) : obj + exn :=
  match parts with
  | [] => inl last
  | n :: parts' =>
      match find_param n (params_of_func func) with
      | Some p => match parts' with [] => inl (OParam p) | _ => inr EUnknownFixtures end
      | None =>
          match lookup ns n with
          | None => inr EUnknownFixtures
          | Some f => resolve_parts parts' (func_of f) (namespace_of f) (OFixture f)
          end
      end
  end.

(** resolve_name, fixture_store.py:104-124; str.split never gives an empty list *)
Definition resolve_name (name : str) (func ns : nat) : obj + exn :=
  match split_all "."%char name with
  | [] => inr EUnknownFixtures
  | parts => resolve_parts parts func ns (OFixture func)
  end.

(** the values of one rule's parameters in the variation, exclusions.py:42-55 *)
Fixpoint rule_values (ns func : nat) (indices : @dict nat) (l : list str) : list nat + exn :=
  match l with
  | [] => inl []
  | n :: l' =>
      match resolve_name n func ns with
      | inr e => inr e
      | inl (OFixture _) => inr EUnknownFixtures
      | inl (OParam p) =>
          match d_get (p_id p) indices with
          | None => inr EUnknownFixtures
          | Some i =>
              match nth_error (p_values p) i with
              | None => inr EIndex
              | Some v => match rule_values ns func indices l' with
                          | inl vs => inl (v :: vs)
                          | inr e => inr e
                          end
              end
          end
      end
  end.

(** equality of tuples of strings and of tuples of values; a Python operation, no code of /repo *)
Fixpoint strs_eqb (a b : list str) : bool :=
  match a, b with
  | [], [] => true
  | x :: a', y :: b' => str_eqb x y && strs_eqb a' b'
  | _, _ => false
  end.
(** a Python operation, no code of /repo *)
Fixpoint nats_eqb (a b : list nat) : bool :=
  match a, b with
  | [], [] => true
  | x :: a', y :: b' => Nat.eqb x y && nats_eqb a' b'
  | _, _ => false
  end.

(** d[names] = values in a dict keyed by tuples of names; exclusions.py:39 *)
Fixpoint put_rule (n : list str) (vs : list (list nat)) (d : list (list str * list (list nat))) :=
  match d with
  | [] => [(n, vs)]
  | (m, ws) :: d' => if strs_eqb n m then (m, vs) :: d' else (m, ws) :: put_rule n vs d'
  end.

(** dict(exclusions), exclusions.py:39 *)
Definition rules_dict (l : list rule) : list (list str * list (list nat)) + exn :=
  if existsb r_islist l then inr EUnhashable
  else inl (fold_left (fun d r => put_rule (r_names r) (r_values r) d) l []).

(** the loop over the rules of one function, exclusions.py:40-57 *)
Fixpoint any_rule (ns func : nat) (indices : @dict nat) (d : list (list str * list (list nat))) : bool + exn :=
  match d with
  | [] => inl false
  | (n, sets) :: d' =>
      match rule_values ns func indices n with
      | inr e => inr e
      | inl vs => if existsb (nats_eqb vs) sets then inl true else any_rule ns func indices d'
      end
  end.

(** the loop over the functions, exclusions.py:36-58; [None] as marker value is the
    empty list here *)
Fixpoint any_entity (ns : nat) (indices : @dict nat) (l : list (nat * list rule)) : bool + exn :=
  match l with
  | [] => inl false
  | (func, rules) :: l' =>
      match rules with
      | [] => any_entity ns indices l'
      | _ =>
          match rules_dict rules with
          | inr e => inr e
          | inl d =>
              match any_rule ns func indices d with
              | inl false => any_entity ns indices l'
              | r => r
              end
          end
      end
  end.

(** is_excluded, exclusions.py:27-58: [marks] are the exclude markers of functions,
    [fixtures] the functions of the required fixtures (none if the test is marked with
    nofixtures), in the order of the set, [test] the test function *)
Definition is_excluded (marks : nat -> list rule) (ns : nat) (indices : @dict nat) (fixtures : list nat) (test : nat) : bool + exn :=
  any_entity ns indices (d_update (map (fun f => (f, marks f)) fixtures) [(test, marks test)]).
End Resolve.
