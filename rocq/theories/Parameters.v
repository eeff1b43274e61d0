(** Model of slash.parametrize: core/fixtures/parameters.py.  Names of arguments
    are numbers; a value is an atom or a sequence (list or tuple) of atoms.  What
    the variations of a test are is modelled in Variations.v; here: what a function
    declares, and what it is called with in a variation.  Left out: tags of values
    (parameters.py:183-192), the check of labels (194-196), messages. *)

From Coq Require Import List Bool Arith PeanoNat.
From Verif Require Import Dict Variations.
Import ListNotations.

(** values given by the user; Python objects, no code of /repo *)
Inductive value := VAtom (n : nat) | VSeq (l : list nat).

(** an element of the second argument of parametrize: any value, or a
    ParametrizationValue (parameters.py:177-201) with its label and, unless it is
    NOTHING, its value *)
Inductive item := Plain (v : value) | Labelled (label : nat) (v : option value).

(** the label: given, or the index by default (parameters.py:220) *)
Inductive label := LIndex (i : nat) | LGiven (n : nat).

(** ParametrizationValue, parameters.py:177-192 *)
Record pvalue := mkPV { pv_label : label; pv_value : value }.

(** what parametrize raises: ParameterException (parameters.py:99-101), TypeError of
    an unhashable key (99), RuntimeError (209, 211, 222) *)
Inductive error := AlreadyParametrized | Unhashable | NoValue | NotSequence | WrongLength.

(** the first argument of parametrize: a name, a tuple or a list of names, parameters.py:98-107 *)
Inductive pname := One (n : nat) | Tuple (l : list nat) | List_ (l : list nat).

(** names, parameters.py:104-107 *)
Definition names_of (p : pname) : list nat := match p with One n => [n] | Tuple l | List_ l => l end.

(** _normalize_single_value, parameters.py:218-225 *)
Definition normalize_single (default_label : nat) (i : item) : error + pvalue :=
  match i with
  | Plain v => inr (mkPV (LIndex default_label) v)
  | Labelled l (Some v) => inr (mkPV (LGiven l) v)
  | Labelled _ None => inl NoValue
  end.

(** the checks of _normalize_values for tuples of names, parameters.py:208-212 *)
Definition check_value (num_params : nat) (v : value) : option error :=
  if Nat.ltb 1 num_params then
    match v with
    | VAtom _ => Some NotSequence
    | VSeq l => if Nat.eqb (length l) num_params then None else Some WrongLength
    end
  else None.

(** _normalize_values, parameters.py:203-215; [index] is where enumerate stands *)
Fixpoint normalize_values (num_params index : nat) (items : list item) : error + list pvalue :=
  match items with
  | [] => inr []
  | i :: items' =>
      match normalize_single index i with
      | inl e => inl e
      | inr v =>
          match check_value num_params (pv_value v) with
          | Some e => inl e
          | None =>
              match normalize_values num_params (S index) items' with
              | inl e => inl e
              | inr vs => inr (v :: vs)
              end
          end
      end
  end.

(** Parametrization, parameters.py:134-175: info.id, values, and the transform:
    None is the identity, Some k is itemgetter(k) *)
Record param := mkParam { p_id : nat; p_values : list pvalue; p_comp : option nat }.

(** ParameterizationInfo, parameters.py:86-96; [i_next] is the next id of
    FixtureInfo (fixtures/utils.py:11, 54) *)
Record info := mkInfo { i_args : list nat; i_params : dict param; i_extra : dict param; i_next : nat }.

(** membership in a Python set or dict; a Python operation, no code of /repo *)
Definition mem (n : nat) (l : list nat) : bool := existsb (Nat.eqb n) l.

(** the loop of add_options, parameters.py:112-120; [index] is where enumerate stands *)
Fixpoint store_names (p : param) (multi : bool) (index : nat) (names : list nat) (i : info) : info :=
  match names with
  | [] => i
  | n :: names' =>
      let q := mkParam (p_id p) (p_values p) (if multi then Some index else None) in
      let i := if mem n (i_args i)
               then mkInfo (i_args i) (d_set n q (i_params i)) (i_extra i) (i_next i)
               else mkInfo (i_args i) (i_params i) (d_set n q (i_extra i)) (i_next i) in
      store_names p multi (S index) names' i
  end.

(** ParameterizationInfo.add_options, parameters.py:98-120.  No name is a tuple, so
    a tuple is never found in _params (99). *)
Definition add_options (pn : pname) (values : list item) (i : info) : error + info :=
  let checked :=
    match pn with
    | One n => if mem n (d_keys (i_params i)) then Some AlreadyParametrized else None
    | Tuple _ => None
    | List_ _ => Some Unhashable
    end in
  match checked with
  | Some e => inl e
  | None =>
      let names := names_of pn in
      match normalize_values (length names) 0 values with
      | inl e => inl e
      | inr vs =>
          let p := mkParam (i_next i) vs None in
          inr (store_names p (Nat.ltb 1 (length names)) 0 names
                 (mkInfo (i_args i) (i_params i) (i_extra i) (S (i_next i))))
      end
  end.

(** iter_parametrization_fixtures, parameters.py:122-128 *)
Definition iter_params (i : info) : list (nat * param) :=
  flat_map (fun n => match d_get n (i_params i) with Some p => [(n, p)] | None => [] end) (i_args i)
  ++ i_extra i.

(** get_value_by_index, parameters.py:147-148, 153-156: None is an IndexError or TypeError *)
Definition value_by_index (p : param) (index : nat) : option value :=
  match nth_error (p_values p) index with
  | None => None
  | Some v =>
      match p_comp p, pv_value v with
      | None, x => Some x
      | Some k, VSeq l => match nth_error l k with Some n => Some (VAtom n) | None => None end
      | Some _, VAtom _ => None
      end
  end.

(** the loop of new_func, parameters.py:31-37, with FixtureStore.get_value
    (fixture_store.py:294-299): None is an exception.  [indices] is
    variation.param_value_indices. *)
Fixpoint fill (ps : list (nat * param)) (indices : dict nat) (kwargs : dict value) : option (dict value) :=
  match ps with
  | [] => Some kwargs
  | (name, p) :: ps' =>
      match d_get (p_id p) indices with
      | None => None
      | Some index =>
          match value_by_index p index with
          | None => None
          | Some v => fill ps' indices (if mem name (d_keys kwargs) then kwargs else d_set name v kwargs)
          end
      end
  end.

(** what the function is called with: new_func, parameters.py:28-38 *)
Definition called_with (i : info) (v : variation) (kwargs : dict value) : option (dict value) :=
  fill (iter_params i) (v_indices v) kwargs.

(** ** Function objects *)

(** a function: its arguments, and the ParameterizationInfo it holds, if any
    (parameters.py:24, 39), by position in the list of all of them *)
Record func := mkFunc { f_args : list nat; f_ref : option nat }.

(** replacing an element; plumbing of the model, no code of /repo *)
Fixpoint replace {A} (k : nat) (x : A) (l : list A) : list A :=
  match l, k with
  | [], _ => []
  | _ :: l', 0 => x :: l'
  | y :: l', S k' => y :: replace k' x l'
  end.

(** the decorator, parameters.py:22-46: the function returned, all infos, and the next id;
    None only if [f] refers to no info *)
Definition parametrize (pn : pname) (values : list item) (f : func) (infos : list info) (next : nat)
  : option (error + (func * list info * nat)) :=
  match f_ref f with
  | None =>
      match add_options pn values (mkInfo (f_args f) [] [] next) with
      | inl e => Some (inl e)
      | inr i => Some (inr (mkFunc (f_args f) (Some (length infos)), infos ++ [i], i_next i))
      end
  | Some r =>
      match nth_error infos r with
      | None => None
      | Some i =>
          match add_options pn values (mkInfo (i_args i) (i_params i) (i_extra i) next) with
          | inl e => Some (inl e)
          | inr i' => Some (inr (f, replace r i' infos, i_next i'))
          end
      end
  end.

(** several decorators on one function, the one next to it first, parameters.py:22-46 *)
Fixpoint declare (decls : list (pname * list item)) (i : info) : error + info :=
  match decls with
  | [] => inr i
  | (pn, values) :: decls' =>
      match add_options pn values i with
      | inl e => inl e
      | inr i' => declare decls' i'
      end
  end.

(** toggle, parameters.py:56-61; True and False are the atoms 1 and 0 *)
Definition toggle (n : nat) : pname * list item := (One n, [Plain (VAtom 1); Plain (VAtom 0)]).
(** iterate, parameters.py:48-54 *)
Definition iterate (kwargs : list (nat * list item)) : list (pname * list item) :=
  map (fun kv => (One (fst kv), snd kv)) kwargs.

(** ** The variations of a test that needs nothing but its parameters *)

(** _add_needed_fixtures_from_function, variation_factory.py:50-57: each parametrization
    is needed; all have scope test (fixtures/utils.py:60-61, 66) *)
Definition needed_of (i : info) : list needed := map (fun np => mkNeeded 0 [p_id (snd np)]) (iter_params i).
(** _param_name_bindings for the parametrized arguments, variation_factory.py:59-75, 87-100 *)
Definition bindings (i : info) : dict nat :=
  flat_map (fun n => match d_get n (i_params i) with Some p => [(n, p_id p)] | None => [] end) (i_args i).
(** len(p.values), variation_factory.py:112, of the parametrization with that id
    (fixture_store.py:211-213, 253-254) *)
Definition nvals (i : info) (id : nat) : nat :=
  match find (fun np => Nat.eqb (p_id (snd np)) id) (iter_params i) with
  | Some np => length (p_values (snd np))
  | None => 0
  end.
