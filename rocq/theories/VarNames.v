(** Model of the naming of parametrizations: VariationFactory of
    core/variation_factory.py (the functions that add fixtures and bind names), the
    functions a test is made of (core/test.py:42-59, core/function_test.py:57), and the
    id of a Variation (core/variation.py:36-41).

    A name is kept in parts: its root, and the arguments that lead from there to the
    parametrization; the source joins them with dots, which no argument name contains.
    What looking up a fixture gives is given (FixtureGraph.v), and so are the
    keyword_arguments of fixtures. *)

From Coq Require Import List Bool Arith.
From Verif Require Import Dict.
Import ListNotations.

(** a Parametrization or a Fixture with its info.id (fixtures and parametrizations are
    numbered together, fixtures/utils.py:11, 54); the second part tells apart the
    parametrizations of one tuple of names, which share their id (parameters.py:109-120) *)
Inductive obj := OParam (id comp : nat) | OFix (id : nat).

(** info.id, variation_factory.py:87, 93, 95 *)
Definition oid (o : obj) : nat := match o with OParam i _ => i | OFix i => i end.

(** where a name begins: an argument or the name of a fixture (74, 82), an argument of before
    or after (71-72), an autouse fixture (78); variation_factory.py *)
Inductive root := RPlain (n : nat) | RSpace (space n : nat) | RAuto (n : nat).

(** a name, variation_factory.py:88, 96 *)
Notation name := (root * list nat)%type.

(** equality of names; Python's equality of strings, no code of /repo *)
Definition root_eqb (a b : root) : bool :=
  match a, b with
  | RPlain n, RPlain m => Nat.eqb n m
  | RSpace s n, RSpace t m => Nat.eqb s t && Nat.eqb n m
  | RAuto n, RAuto m => Nat.eqb n m
  | _, _ => false
  end.
(** equality of names; Python's equality of strings, no code of /repo *)
Fixpoint path_eqb (a b : list nat) : bool :=
  match a, b with
  | [], [] => true
  | x :: a', y :: b' => Nat.eqb x y && path_eqb a' b'
  | _, _ => false
  end.
(** equality of names; Python's equality of strings, no code of /repo *)
Definition name_eqb (a b : name) : bool := root_eqb (fst a) (fst b) && path_eqb (snd a) (snd b).

(** _param_name_bindings, variation_factory.py:27, 98: assignment to a key of a dict *)
Fixpoint bind (n : name) (o : obj) (l : list (name * obj)) : list (name * obj) :=
  match l with
  | [] => [(n, o)]
  | (m, x) :: l' => if name_eqb m n then (m, o) :: l' else (m, x) :: bind n o l'
  end.

(** membership in a set of ids; a Python operation, no code of /repo *)
Definition mem (x : nat) (l : list nat) : bool := existsb (Nat.eqb x) l.

Section Graph.
(** keyword_arguments of a fixture, fixture.py:79-111 *)
Variable kwargs : nat -> dict obj.

(** the loop over keyword_arguments, variation_factory.py:92-96.  The top of the stack is the
    head of the list. *)
Fixpoint push_all (n : name) (items : dict obj) (visited : list nat) (stack : list (name * obj))
  : list nat * list (name * obj) :=
  match items with
  | [] => (visited, stack)
  | (sub, o) :: items' =>
      if mem (oid o) visited then push_all n items' visited stack
      else push_all n items' (oid o :: visited) (((fst n, snd n ++ [sub]), o) :: stack)
  end.

(** the loop of _populate_param_name_bindings, variation_factory.py:89-100; None if the
    fuel runs out (never: VarNamesProps.v) *)
Fixpoint populate_loop (fuel : nat) (visited : list nat) (stack : list (name * obj)) (acc : list (name * obj))
  : option (list (name * obj)) :=
  match fuel with
  | 0 => None
  | S fuel' =>
      match stack with
      | [] => Some acc
      | (n, OParam p c) :: stack' => populate_loop fuel' visited stack' (bind n (OParam p c) acc)
      | (n, OFix f) :: stack' =>
          let (visited', stack'') := push_all n (kwargs f) visited stack' in
          populate_loop fuel' visited' stack'' acc
      end
  end.

(** _populate_param_name_bindings, variation_factory.py:86-100 *)
Definition populate (fuel : nat) (r : root) (o : obj) (acc : list (name * obj)) : option (list (name * obj)) :=
  populate_loop fuel [oid o] [((r, []), o)] acc.

(** several calls of it, one after the other; the loops variation_factory.py:59-83 *)
Fixpoint populate_all (fuel : nat) (l : list (root * obj)) (acc : list (name * obj)) : option (list (name * obj)) :=
  match l with
  | [] => Some acc
  | (r, o) :: l' => match populate fuel r o acc with None => None | Some acc' => populate_all fuel l' acc' end
  end.
End Graph.

(** a function whose fixtures are needed: the namespace ('before', 'after'; core/test.py:44-46), whether it
    is marked nofixtures, its parametrizations by name, its arguments with the fixtures
    their names give, and the fixtures of use_fixtures; variation_factory.py:39-83.
    Unknown fixtures are not modelled: loading fails then. *)
Record func := mkFunc { fu_space : option nat; fu_nofixtures : bool; fu_params : dict obj; fu_args : list (nat * obj); fu_extra : list (nat * obj) }.

(** the fixture or parametrization of an argument, variation_factory.py:59-63 *)
Definition arg_obj (f : func) (a : nat * obj) : obj :=
  match d_get (fst a) (fu_params f) with Some p => p | None => snd a end.

(** the name of an argument, variation_factory.py:70-72 *)
Definition arg_root (f : func) (n : nat) : root :=
  match fu_space f with None => RPlain n | Some s => RSpace s n end.

(** what is appended to _needed_fixtures, variation_factory.py:57, 68, 83 *)
Definition func_needed (f : func) : list obj :=
  if fu_nofixtures f then []
  else map snd (fu_params f) ++ map (arg_obj f) (fu_args f) ++ map snd (fu_extra f).

(** the calls of _populate_param_name_bindings, variation_factory.py:74, 78, 82; [autouse] gives
    name and object of the autouse fixtures *)
Definition func_roots (autouse : list (nat * obj)) (f : func) : list (root * obj) :=
  if fu_nofixtures f then []
  else map (fun a => (arg_root f (fst a), arg_obj f a)) (fu_args f)
       ++ map (fun a => (RAuto (fst a), snd a)) autouse
       ++ map (fun e => (RPlain (fst e), snd e)) (fu_extra f).

(** _needed_fixtures when the variations are made: variation_factory.py:23-24 and 39-83 for every function *)
Definition needed (autouse : list (nat * obj)) (fs : list func) : list obj :=
  map snd autouse ++ flat_map func_needed fs.

(** _param_name_bindings when the variations are made; fixture_store.py:309-319 *)
Definition name_bindings (kwargs : nat -> dict obj) (fuel : nat) (autouse : list (nat * obj)) (fs : list func)
  : option (list (name * obj)) :=
  populate_all kwargs fuel (flat_map (func_roots autouse) fs) [].

(** Variation.id, variation.py:36-41, as the list of its items; None is a KeyError *)
Fixpoint variation_id (bindings : list (name * obj)) (indices : dict nat) : option (list (name * nat)) :=
  match bindings with
  | [] => Some []
  | (n, o) :: l =>
      match d_get (oid o) indices, variation_id l indices with
      | Some i, Some r => Some ((n, i) :: r)
      | _, _ => None
      end
  end.

(** the functions of a method of a test class, test.py:42-59: the before and after of all
    classes of the mro that have one, and the method *)
Definition class_funcs (before after : nat) (befores afters : list func) (method : func) : list func :=
  map (fun f => mkFunc (Some before) (fu_nofixtures f) (fu_params f) (fu_args f) (fu_extra f)) befores
  ++ map (fun f => mkFunc (Some after) (fu_nofixtures f) (fu_params f) (fu_args f) (fu_extra f)) afters
  ++ [method].
