(** Model of how the fixtures of a function are found and handed over:
    get_required_fixture_names and get_required_fixture_objects
    (core/fixtures/fixture_store.py:82-102), _get_fixtures_set and get_fixture_dict
    (fixture_store.py:256-285), the arguments of call_with_fixtures (59-66),
    Fixture.get_requirements (core/fixtures/fixture.py:72-77) and the requirements of
    tests (core/runnable_test.py:47-65, core/test.py:109-113, core/function_test.py:39-43),
    use_fixtures (core/fixtures/utils.py:28-41).

    Names are strings because one of the tests made is a substring test.  A fixture's
    value is represented by the fixture.  Namespaces are represented by what looking up
    a name in them gives (FixtureGraph.v models them in detail).  Not modelled: functions
    marked with nofixtures, skip_names (never given). *)

From Coq Require Import List Bool Arith Ascii String.
From Verif Require Import Str.
Import ListNotations.
Local Open Scope list_scope.

(** a function asking for fixtures: its arguments that are not parametrized, each with
    the name given by slash.use if there is one (utils.py:178-181, fixture_store.py:82-97);
    __extrafixtures__ as set by use_fixtures; its own requirements *)
Record func := mkFunc { fn_args : list (str * str); fn_extra : list str; fn_reqs : list nat }.

(** a fixture: info.id, the function, autouse; core/fixtures/utils.py:49-76, fixture.py:23-28 *)
Record fixture := mkFixture { fi_id : nat; fi_func : func; fi_autouse : bool }.

(** an element of fixture_names: a name, or a tuple (required_name, real_name); fixture_store.py:82-97, 268-285 *)
Inductive element := EName (n : str) | EAlias (required real : str).

(** get_required_fixture_names core/fixtures/fixture_store.py:82-97 *)
Definition required_names (f : func) : list element :=
  map (fun a => if str_eqb (fst a) (snd a) then EName (snd a) else EAlias (fst a) (snd a)) (fn_args f).

(** core/fixtures/fixture_store.py:272-275 *)
Definition el_required (e : element) : str := match e with EName n => n | EAlias r _ => r end.
(** fixture_store.py:275-281 *)
Definition el_real (e : element) : str := match e with EName n => n | EAlias _ r => r end.

(** the way these functions end; the exceptions of fixture_store.py:245-285 *)
Inductive result (A : Type) := Ok (a : A) | UnknownFixture (n : str) | RecursionError.
Arguments Ok {A}. Arguments UnknownFixture {A}. Arguments RecursionError {A}.

(** looking up a name in a namespace, namespace.py:37-48 *)
Notation namespace := (str -> option fixture).

(** element == 'this', core/fixtures/fixture_store.py:278: a tuple is not equal to a string *)
Definition is_this (e : element) : bool := match e with EName n => str_eqb n (lit "this") | _ => false end.

(** OrderedSet.add of a pair (required_name, fixture), core/fixtures/fixture_store.py:281 *)
Definition add_pair (p : str * fixture) (l : list (str * fixture)) : list (str * fixture) :=
  if existsb (fun q => str_eqb (fst p) (fst q) && Nat.eqb (fi_id (snd p)) (fi_id (snd q))) l then l else l ++ [p].

(** _get_fixtures_set core/fixtures/fixture_store.py:268-285; [fuel] is the interpreter's recursion limit *)
Fixpoint fixtures_set (fuel : nat) (ns : namespace) (names : list element) (acc : list (str * fixture))
  : result (list (str * fixture)) :=
  match fuel with
  | 0 => RecursionError
  | S fuel' =>
      (fix loop (names : list element) (acc : list (str * fixture)) : result (list (str * fixture)) :=
         match names with
         | [] => Ok acc
         | e :: names' =>
             if is_this e then loop names' acc
             else match ns (el_real e) with
                  | None => UnknownFixture (el_real e)
                  | Some f =>
                      match fixtures_set fuel' ns (map EName (fn_extra (fi_func f))) (add_pair (el_required e, f) acc) with
                      | Ok acc' => loop names' acc'
                      | r => r
                      end
                  end
         end) names acc
  end.

(** [required_name in fixture_names or [element for element in fixture_names if
    required_name in element]], core/fixtures/fixture_store.py:264: a string equals a name, is a part of a name, or is
    one of the two names of a tuple *)
Definition selected (names : list element) (n : str) : bool :=
  existsb (fun e => match e with EName m => str_eqb n m | EAlias _ _ => false end) names
  || existsb (fun e => match e with EName m => contains n m | EAlias r l => str_eqb n r || str_eqb n l end) names.

(** a dict with string keys; a Python operation, no code of /repo *)
Fixpoint s_get (n : str) (d : list (str * fixture)) : option fixture :=
  match d with [] => None | (m, f) :: d' => if str_eqb n m then Some f else s_get n d' end.
(** a Python operation, no code of /repo *)
Fixpoint s_set (n : str) (f : fixture) (d : list (str * fixture)) : list (str * fixture) :=
  match d with
  | [] => [(n, f)]
  | (m, g) :: d' => if str_eqb n m then (m, f) :: d' else (m, g) :: s_set n f d'
  end.

(** get_fixture_dict core/fixtures/fixture_store.py:256-266 *)
Definition fixture_dict (fuel : nat) (ns : namespace) (names : list element) : result (list (str * fixture)) :=
  match fixtures_set fuel ns names [] with
  | Ok l => Ok (fold_left (fun d p => if selected names (fst p) then s_set (fst p) (snd p) d else d) l [])
  | UnknownFixture n => UnknownFixture n
  | RecursionError => RecursionError
  end.

(** the keyword arguments call_with_fixtures gives to a function, core/fixtures/fixture_store.py:60-61 *)
Definition kwargs (fuel : nat) (ns : namespace) (f : func) : result (list (str * fixture)) :=
  fixture_dict fuel ns (required_names f).

(** the fixtures whose values are computed for the function by call_with_fixtures itself,
    core/fixtures/fixture_store.py:60-66 and 262-263, in this order (fixtures these need are computed first) *)
Definition computed_directly (fuel : nat) (ns : namespace) (f : func) : result (list fixture) :=
  match fixtures_set fuel ns (required_names f) [] with
  | Ok l =>
      (* set(used_fixtures_decorator_names) - set(fixture_names), 64 *)
      let extra := filter (fun n => negb (existsb (fun e => match e with EName m => str_eqb n m | EAlias _ _ => false end)
                                                  (required_names f))) (fn_extra f) in
      match fixtures_set fuel ns (map EName extra) [] with
      | Ok l' => Ok (map snd l ++ map snd l')
      | UnknownFixture n => UnknownFixture n
      | RecursionError => RecursionError
      end
  | UnknownFixture n => UnknownFixture n
  | RecursionError => RecursionError
  end.

(** get_required_fixture_objects core/fixtures/fixture_store.py:99-102; the order of the set is that of the dict *)
Definition required_objects (fuel : nat) (ns : namespace) (f : func) : result (list fixture) :=
  match kwargs fuel ns f with
  | Ok d => Ok (map snd d)
  | UnknownFixture n => UnknownFixture n
  | RecursionError => RecursionError
  end.

Section R.
(** the namespace of each fixture, fixture.py:28 *)
Variable fns : nat -> namespace.
(** recursion limit for the namespaces' functions above *)
Variable limit : nat.

(** run [g] on each element and put the lists together; plumbing of the model, no code of its own *)
Fixpoint collect {A B} (g : A -> result (list B)) (l : list A) : result (list B) :=
  match l with
  | [] => Ok []
  | a :: l' =>
      match g a with
      | Ok x => match collect g l' with
                | Ok y => Ok (x ++ y)
                | UnknownFixture n => UnknownFixture n
                | RecursionError => RecursionError
                end
      | UnknownFixture n => UnknownFixture n
      | RecursionError => RecursionError
      end
  end.

(** Fixture.get_requirements, fixture.py:72-77 *)
Fixpoint fixture_requirements (fuel : nat) (f : fixture) : result (list nat) :=
  match fuel with
  | 0 => RecursionError
  | S fuel' =>
      match required_objects limit (fns (fi_id f)) (fi_func f) with
      | Ok l =>
          match collect (fixture_requirements fuel') l with
          | Ok rs => Ok (fn_reqs (fi_func f) ++ rs)
          | UnknownFixture n => UnknownFixture n
          | RecursionError => RecursionError
          end
      | UnknownFixture n => UnknownFixture n
      | RecursionError => RecursionError
      end
  end.

(** RunnableTest._get_fixtures_requirements 61-65 and get_requirements; [ns] is the
    test's namespace, [autouse] what iter_autouse_fixtures_in_namespace yields
    (fixture_store.py:157-162), [own] the requirements of the function and, for a method,
    of the class.  Duplicates are removed by a set in the code. *)
Definition test_requirements (fuel : nat) (ns : namespace) (autouse : list fixture) (own : list nat) (f : func)
  : result (list nat) :=
  match required_objects limit ns f with
  | Ok l =>
      match collect (fixture_requirements fuel) (l ++ autouse) with
      | Ok rs => Ok (own ++ rs)
      | UnknownFixture n => UnknownFixture n
      | RecursionError => RecursionError
      end
  | UnknownFixture n => UnknownFixture n
  | RecursionError => RecursionError
  end.
End R.

(** use_fixtures, utils.py:28-41: functions and list objects are numbered; an attribute
    refers to the list object given first *)
Record uworld := mkU { u_attr : list (nat * nat); u_list : nat -> list str }.

(** func.__extrafixtures__ as a reference; core/fixtures/utils.py:33-40 *)
Fixpoint u_get (f : nat) (a : list (nat * nat)) : option nat :=
  match a with [] => None | (g, r) :: a' => if Nat.eqb f g then Some r else u_get f a' end.

(** the decorator, applied to function [f] with list object [r]; core/fixtures/utils.py:28-41 *)
Definition use_fixtures (f r : nat) (w : uworld) : uworld :=
  match u_get f (u_attr w) with
  | None => mkU ((f, r) :: u_attr w) (u_list w)
  | Some r0 => mkU (u_attr w) (fun i => if Nat.eqb i r0 then u_list w r0 ++ u_list w r else u_list w i)
  end.

(** the names a function uses; fixture_store.py:82-97 *)
Definition used (f : nat) (w : uworld) : list str :=
  match u_get f (u_attr w) with Some r => u_list w r | None => [] end.
