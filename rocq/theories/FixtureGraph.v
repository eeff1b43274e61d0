(** Model of the static side of fixtures: namespaces
    (core/fixtures/namespace.py:7-54, fixture_store.py:129-144), registration
    (fixture_store.py:215-243), resolution of arguments
    (fixtures/fixture.py:79-111, fixture_store.py:406-409) and the computation
    of the parametrizations a fixture needs (fixture_store.py:146-188).
    Names, ids and parametrizations are numbers.  Not modelled: what the fixture
    functions do (FixtureLife.v), tags and requirements, error messages. *)

From Coq Require Import List Bool Arith PeanoNat.
From Verif Require Import Dict.
Import ListNotations.

(** Namespace, namespace.py:9-14: a reference to the parent and the names *)
Record ns := mkNs { ns_parent : option nat; ns_names : dict nat }.

(** a fixture function with its FixtureInfo (fixtures/utils.py:49-75) and its
    parametrizations (parameters.py:122-128); scopes are numbered as in
    utils.py:87-90: test 0, module 1, session 2 *)
Record fixdef := mkFix {
  fd_id : nat;                       (* info.id *)
  fd_name : nat;                     (* info.name *)
  fd_testlike : bool;                (* is_valid_test_name(info.name) *)
  fd_scope : nat;                    (* info.scope *)
  fd_params : list (nat * nat);      (* parametrized names and parametrization ids *)
  fd_args : list (nat * nat)         (* argument names and real fixture names, utils.py:178-181 *)
}.

(** the objects of keyword_arguments: parametrizations and fixtures; fixtures/fixture.py:79-111 *)
Inductive dep := DParam (p : nat) | DFix (f : nat).

(** a resolved fixture: keyword_arguments and parametrization_ids; fixtures/fixture.py:79-111 *)
Record resolution := mkRes { r_kwargs : dict dep; r_pids : list nat }.

(** FixtureStore, fixture_store.py:26-36.  [fs_nss] are all Namespace objects
    made so far, referred to by position; [fs_stack] is _namespaces, innermost
    first; [fs_fixtures] is _fixtures_by_id, each fixture with its own namespace
    (fixture.py:28); [fs_unresolved] is _unresolved_fixture_ids.
    Simplified: parametrizations are not kept in _fixtures_by_id, since resolving
    one does nothing (parameters.py:169-170). *)
Record store := mkStore {
  fs_nss : list ns;
  fs_stack : list nat;
  fs_fixtures : dict (fixdef * nat);
  fs_unresolved : list nat;
  fs_resolved : dict resolution;
  fs_memo : dict (list nat)          (* _all_needed_parametrization_ids_by_fixture_id *)
}.

(** fixture_store.py:28-31 *)
Definition store0 : store := mkStore [mkNs None []] [0] [] [] [] [].

(** exceptions; exceptions.py:42-60 *)
Inductive exn :=
| UnknownFixtures (name : nat)
| InvalidFixtureScope (f arg : nat)
| CyclicFixtureDependency
| InvalidFixtureName (f : nat)
| AssertionError
| IndexError
| KeyError
| UnresolvedFixtureStore
| NoFuel.

(** get_fixture_by_name, namespace.py:37-48: the loop up the parents; the number
    is a bound on the steps *)
Fixpoint ns_lookup (n : nat) (nss : list ns) (k name : nat) : nat + exn :=
  match n with
  | 0 => inr NoFuel
  | S n' =>
      match nth_error nss k with
      | None => inr IndexError
      | Some x =>
          match d_get name (ns_names x) with
          | Some id => inl id
          | None => match ns_parent x with
                    | None => inr (UnknownFixtures name)
                    | Some p => ns_lookup n' nss p name
                    end
          end
      end
  end.

(** looking a name up from namespace [k]; a parent is older than its children
    (FixtureGraphProps.v), so [k + 1] steps are enough; namespace.py:37-48, fixture_store.py:245-248 *)
Definition get_by_name (st : store) (k name : nat) : nat + exn := ns_lookup (S k) (fs_nss st) k name.

(** get_current_namespace, core/fixtures/fixture_store.py:143-144 *)
Definition current (st : store) : option nat := hd_error (fs_stack st).

(** list.__setitem__; a Python operation, no code of /repo *)
Fixpoint set_nth {A} (k : nat) (x : A) (l : list A) : list A :=
  match l, k with
  | [], _ => []
  | _ :: l', 0 => x :: l'
  | y :: l', S k' => y :: set_nth k' x l'
  end.

(** add_name on namespace [k], namespace.py:50-54 *)
Definition add_name (k name id : nat) (nss : list ns) : option (list ns) :=
  match nth_error nss k with
  | None => None
  | Some x =>
      match d_get name (ns_names x) with
      | Some id' => if Nat.eqb id' id then Some nss else None
      | None => Some (set_nth k (mkNs (ns_parent x) (d_set name id (ns_names x))) nss)
      end
  end.

(** push_namespace, core/fixtures/fixture_store.py:129-130 *)
Definition push_namespace (st : store) : store + exn :=
  match current st with
  | None => inr IndexError
  | Some c => inl (mkStore (fs_nss st ++ [mkNs (Some c) []]) (length (fs_nss st) :: fs_stack st)
                           (fs_fixtures st) (fs_unresolved st) (fs_resolved st) (fs_memo st))
  end.

(** pop_namespace, core/fixtures/fixture_store.py:132-133 *)
Definition pop_namespace (st : store) : store + exn :=
  match fs_stack st with
  | [] => inr IndexError
  | _ :: l => inl (mkStore (fs_nss st) l (fs_fixtures st) (fs_unresolved st) (fs_resolved st) (fs_memo st))
  end.

(** one round of add_fixtures_from_dict, core/fixtures/fixture_store.py:215-223, with add_fixture, 226-237, and
    register_fixture_id, 239-243: a known fixture only gets a name in the current
    namespace; otherwise a Fixture with its own namespace is made *)
Definition define (d : fixdef) (st : store) : store + exn :=
  match current st with
  | None => inr IndexError
  | Some c =>
      match d_get (fd_id d) (fs_fixtures st) with
      | Some _ =>
          match add_name c (fd_name d) (fd_id d) (fs_nss st) with
          | None => inr AssertionError
          | Some nss => inl (mkStore nss (fs_stack st) (fs_fixtures st) (fs_unresolved st) (fs_resolved st) (fs_memo st))
          end
      | None =>
          if fd_testlike d then inr (InvalidFixtureName (fd_id d))
          else
            let own := length (fs_nss st) in
            match add_name c (fd_name d) (fd_id d) (fs_nss st ++ [mkNs (Some c) []]) with
            | None => inr AssertionError
            | Some nss => inl (mkStore nss (fs_stack st) (d_set (fd_id d) (d, own) (fs_fixtures st))
                                       (fs_unresolved st ++ [fd_id d]) (fs_resolved st) (fs_memo st))
            end
      end
  end.

(** _resolve, fixture.py:85-89: the parametrized names *)
Definition param_kwargs (d : fixdef) : dict dep :=
  fold_left (fun kw np => d_set (fst np) (DParam (snd np)) kw) (fd_params d) [].

(** OrderedSet.add, OrderedSet.update (library ordered_set; used at fixture_store.py:170-179) *)
Definition oset_add (s : list nat) (x : nat) : list nat := if existsb (Nat.eqb x) s then s else s ++ [x].
(** the OrderedSet of fixture_store.py:168-188 *)
Definition oset_update (s l : list nat) : list nat := fold_left oset_add l s.

(** _resolve, fixture.py:91-109: the other arguments.  The order of the checks is
    the one of the source: lookup, scope, dependence on itself.  UnknownFixtures is
    no LookupError (exceptions.py:42-55), so 108 is reached for a KeyError only. *)
Fixpoint resolve_args (st : store) (d : fixdef) (own : nat) (args : list (nat * nat)) (kw : dict dep)
  : dict dep + exn :=
  match args with
  | [] => inl kw
  | (a, real) :: args' =>
      if existsb (Nat.eqb a) (map fst (fd_params d)) then resolve_args st d own args' kw
      else
        match get_by_name st own real with
        | inr e => inr e
        | inl g =>
            match d_get g (fs_fixtures st) with
            | None => inr (UnknownFixtures a)
            | Some (dg, _) =>
                if Nat.ltb (fd_scope dg) (fd_scope d) then inr (InvalidFixtureScope (fd_id d) a)
                else if Nat.eqb g (fd_id d) then inr CyclicFixtureDependency
                else resolve_args st d own args' (d_set a (DFix g) kw)
            end
        end
  end.

(** Fixture.resolve, fixture_base.py:14-16 with fixture.py:79-111 *)
Definition resolve_one (f : nat) (st : store) : store + exn :=
  match d_get f (fs_fixtures st) with
  | None => inr KeyError
  | Some (d, own) =>
      match d_get f (fs_resolved st) with
      | Some _ => inl st
      | None =>
          match resolve_args st d own (fd_args d) (param_kwargs d) with
          | inr e => inr e
          | inl kw =>
              inl (mkStore (fs_nss st) (fs_stack st) (fs_fixtures st) (fs_unresolved st)
                           (d_set f (mkRes kw (oset_update [] (map snd (fd_params d)))) (fs_resolved st)) (fs_memo st))
          end
      end
  end.

(** FixtureStore.resolve, core/fixtures/fixture_store.py:406-409.  set.pop takes some element: [order] lists the
    choices *)
Fixpoint resolve_all (order : list nat) (st : store) : store + exn :=
  match order with
  | [] => match fs_unresolved st with [] => inl st | _ :: _ => inr KeyError end
  | f :: order' =>
      if existsb (Nat.eqb f) (fs_unresolved st)
      then match resolve_one f (mkStore (fs_nss st) (fs_stack st) (fs_fixtures st)
                                        (remove Nat.eq_dec f (fs_unresolved st)) (fs_resolved st) (fs_memo st)) with
           | inr e => inr e
           | inl st' => resolve_all order' st'
           end
      else inr KeyError
  end.

(** ** the needed parametrizations *)

(** core/fixtures/fixture_store.py:181-187: the arguments of a fixture are put on the stack; [path] lists the
    elements of [visited] *)
Fixpoint push_deps (deps : list dep) (path : list nat) (stack : list (nat * list nat))
  : option (list (nat * list nat)) :=
  match deps with
  | [] => Some stack
  | DParam _ :: deps' => push_deps deps' path stack
  | DFix g :: deps' =>
      if existsb (Nat.eqb g) path then None else push_deps deps' path ((g, path ++ [g]) :: stack)
  end.

(** _compute_all_needed_parametrization_ids, core/fixtures/fixture_store.py:168-188; [memo] is
    _all_needed_parametrization_ids_by_fixture_id *)
Fixpoint needed_loop (n : nat) (st : store) (memo : dict (list nat)) (stack : list (nat * list nat))
    (returned : list nat) : list nat + exn :=
  match n with
  | 0 => inr NoFuel
  | S n' =>
      match stack with
      | [] => inl returned
      | (f, path) :: rest =>
          match d_get f memo with
          | Some s => needed_loop n' st memo rest (oset_update returned s)
          | None =>
              match d_get f (fs_fixtures st) with
              | None => inr KeyError
              | Some _ =>
                  let r := match d_get f (fs_resolved st) with Some r => r | None => mkRes [] [] end in
                  match push_deps (map snd (r_kwargs r)) path rest with
                  | None => inr CyclicFixtureDependency
                  | Some stack' => needed_loop n' st memo stack' (oset_update returned (r_pids r))
                  end
              end
          end
      end
  end.

(** a number of steps that is always enough (FixtureGraphProps.v): fixtures with
    at most [d] arguments, paths without repetition of length at most [k]; a fuel bound, no code of /repo *)
Fixpoint steps (d k : nat) : nat := match k with 0 => 1 | S k' => 1 + d * steps d k' end.
(** a fuel bound, no code of /repo *)
Definition max_args (st : store) : nat := list_max (map (fun x => length (r_kwargs (snd x))) (fs_resolved st)).
(** a fuel bound, no code of /repo *)
Definition enough (st : store) : nat := 1 + steps (max_args st) (length (fs_fixtures st)).

(** _compute_all_needed_parametrization_ids, core/fixtures/fixture_store.py:168-188, with enough steps *)
Definition compute_needed (st : store) (f : nat) : list nat + exn :=
  needed_loop (enough st) st (fs_memo st) [(f, [f])] [].

(** get_all_needed_fixture_ids of a fixture, core/fixtures/fixture_store.py:146-155 *)
Definition get_all_needed (st : store) (f : nat) : store * (list nat + exn) :=
  match fs_unresolved st with
  | _ :: _ => (st, inr UnresolvedFixtureStore)
  | [] =>
      match d_get f (fs_memo st) with
      | Some s => (st, inl s)
      | None =>
          match compute_needed st f with
          | inr e => (st, inr e)
          | inl s => (mkStore (fs_nss st) (fs_stack st) (fs_fixtures st) (fs_unresolved st) (fs_resolved st)
                              (d_set f s (fs_memo st)), inl s)
          end
      end
  end.

(** what happens to a store while files are loaded; the order of a resolve is a
    choice of the interpreter; OCall is a call of get_all_needed_fixture_ids; fixture_store.py:129-134, 146, 226, 406 *)
Inductive op := OPush | OPop | ODef (d : fixdef) | OResolve (order : list nat) | OCall (f : nat).

(** one of these: push_namespace, pop_namespace, add_fixture, resolve,
    get_all_needed_fixture_ids; fixture_store.py:129-134, 146, 226, 406 *)
Definition step (o : op) (st : store) : store + exn :=
  match o with
  | OPush => push_namespace st
  | OPop => pop_namespace st
  | ODef d => define d st
  | OResolve order => resolve_all order st
  | OCall f => inl (fst (get_all_needed st f))
  end.

(** a sequence of these; the first exception ends it; plumbing of the model, no code of its own *)
Fixpoint run (ops : list op) (st : store) : store + exn :=
  match ops with
  | [] => inl st
  | o :: ops' => match step o st with inr e => inr e | inl st' => run ops' st' end
  end.

