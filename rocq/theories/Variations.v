(** Model of the variations of a parametrized test: core/variation_factory.py,
    core/variation.py, and iter_cartesian_dicts of utils/iteration.py.
    Fixtures and parametrizations are numbers, as in FixtureGraph.v; which
    parametrizations a fixture needs is the result of get_all_needed_fixture_ids,
    modelled there.  A test has the fixtures and parametrizations it needs as the
    list [needed] below, and the names bound to parametrizations
    (_param_name_bindings) as a dict; names are numbers. *)

From Coq Require Import List Bool Arith PeanoNat.
From Verif Require Import Dict FixtureGraph.
Import ListNotations.

(** itertools.product of lists, as used at variation_factory.py:112 and
    iteration.py:86: the rightmost list varies fastest *)
Fixpoint product {A} (ls : list (list A)) : list (list A) :=
  match ls with
  | [] => [[]]
  | l :: ls' => flat_map (fun x => map (cons x) (product ls')) l
  end.

(** iter_cartesian_dicts, iteration.py:82-87 *)
Definition iter_cartesian_dicts {A} (d : @dict (list A)) : list (@dict A) :=
  map (fun combination => d_update [] (combine (d_keys d) combination)) (product (map snd d)).

(** an element of _needed_fixtures (variation_factory.py:24): info.scope and the result
    of get_all_needed_fixture_ids (fixture_store.py:146-155) *)
Record needed := mkNeeded { n_scope : nat; n_ids : list nat }.

(** list.sort(key=scope, reverse=True), variation_factory.py:104; Python's sort keeps the
    order of elements with equal keys, also with reverse=True.  [insert] puts an
    element behind those with the same or a wider scope. *)
Fixpoint insert (x : needed) (l : list needed) : list needed :=
  match l with
  | [] => [x]
  | y :: l' => if Nat.leb (n_scope x) (n_scope y) then y :: insert x l' else x :: l
  end.
(** variation_factory.py, the sorted() cited at [insert] *)
Definition sort_needed (l : list needed) : list needed := fold_left (fun acc x => insert x acc) l [].

(** iter_variations, variation_factory.py:103-106 *)
Definition needed_ids (l : list needed) : list nat :=
  fold_left (fun acc x => oset_update acc (n_ids x)) (sort_needed l) [].

(** Variation, variation.py:29-40: indices by parametrization and by bound name.  Values,
    labels and tags are functions of the parametrization and the index and left out. *)
Record variation := mkVar { v_indices : @dict nat; v_id : @dict nat }.

(** Variation.__init__, variation.py:35-44: None if a name is bound to a
    parametrization without index (KeyError) *)
Fixpoint bind_names (names : @dict nat) (indices acc : @dict nat) : option (@dict nat) :=
  match names with
  | [] => Some acc
  | (name, p) :: names' =>
      match d_get p indices with
      | None => None
      | Some i => bind_names names' indices (d_set name i acc)
      end
  end.

(** _build_variation, variation_factory.py:115-120 *)
Definition build_variation (names : @dict nat) (ids combination : list nat) : option variation :=
  let indices := d_update [] (combine ids combination) in
  match bind_names names indices [] with
  | Some id => Some (mkVar indices id)
  | None => None
  end.

(** all results, or None if one of them failed: running the generator to its end; plumbing of the model, no code of its own *)
Fixpoint all_some {A} (l : list (option A)) : option (list A) :=
  match l with
  | [] => Some []
  | None :: _ => None
  | Some x :: l' => match all_some l' with Some r => Some (x :: r) | None => None end
  end.

(** iter_variations, variation_factory.py:102-113; [nvals p] is the number of values of
    parametrization [p] *)
Definition iter_variations (nvals : nat -> nat) (names : @dict nat) (l : list needed) : option (list variation) :=
  match needed_ids l with
  | [] => Some [mkVar [] []]
  | ids => all_some (map (build_variation names ids) (product (map (fun p => seq 0 (nvals p)) ids)))
  end.
