(** Model of how the loader finds tests: slash/loader.py:55-57, :94-163, :176-226, :234-276 and
    the factories slash/core/test.py:14-40, :147-166, slash/core/function_test.py:49-58,
    slash/core/runnable_test_factory.py:14-60.

    What runs foreign code is given from outside: what a file gives when it is imported,
    whether its slashconf files can be imported, whether its fixtures can be added and
    resolved, and the variations of a function.  It is taken to depend on the file only.
    The generators are always run to their end, so they are modelled as what they give
    and the exception they end with.  Not modelled: logging, assertion rewriting, Windows
    drives, links (os.walk does not follow them), factories that give a test twice. *)

From Coq Require Import List Bool Arith Ascii String.
From Verif Require Import Str Naming Loader.
Import ListNotations.
Open Scope list_scope.

(** ** Files *)

(** what there is in the file system, with names in the order of the system; used by
    slash/loader.py:268-276 *)
Inductive node := File | Dir (entries : list (str * node)).

(** os.path.isfile; a Python operation, no code of /repo *)
Definition is_file (n : node) : bool := match n with File => true | Dir _ => false end.

(** sorted() by name; a Python operation, no code of /repo *)
Fixpoint insert_name {A} (x : str * A) (l : list (str * A)) : list (str * A) :=
  match l with
  | [] => [x]
  | y :: l' => if str_leb (fst x) (fst y) then x :: l else y :: insert_name x l'
  end.
(** sorted() by name; a Python operation, no code of /repo *)
Fixpoint sort_names {A} (l : list (str * A)) : list (str * A) :=
  match l with [] => [] | x :: l' => insert_name x (sort_names l') end.

(** dirname.startswith('.'); slash/loader.py:274 *)
Definition hidden (name : str) : bool := starts (lit ".") name.

(** _walk, slash/loader.py:268-276: the files below a path, as lists of names.  The order of the
    recursion is that of os.walk from the top: the files, then one directory after the
    other; here each directory is walked before the directories are sorted, which has no effect *)
Fixpoint walk (n : node) : list (list str) :=
  match n with
  | File => [[]]
  | Dir entries =>
      let subs := map (fun e => let '(name, m) := e in (name, (is_file m, walk m))) entries in
      map (fun e => [fst e]) (sort_names (filter (fun e => fst (snd e)) subs)) ++
      flat_map (fun e => map (cons (fst e)) (snd (snd e)))
        (sort_names (filter (fun e => negb (fst (snd e)) && negb (hidden (fst e))) subs))
  end.

(** a file found below a path given to the loader; slash/loader.py:187-188 *)
Definition file := (str * list str)%type.

(** _is_file_wanted, slash/loader.py:234-235; the end of the joined path is the end of its last name *)
Definition wanted (f : file) : bool := ends (lit ".py") (last (snd f) (fst f)).

(** ** Modules *)

(** what iterating over the variations of a function gives: their ids, and an exception at
    the end; slash/core/test.py:31, slash/core/function_test.py:57 *)
Record gen := mkGen { g_vars : list nat; g_err : option nat }.

(** an attribute of a module: RunnableTestFactory itself; a subclass of Test, with its name,
    whether it is itself marked as abstract, whether it is to be skipped, and dir() of it;
    a function, with its own name; anything else.  slash/loader.py:237-265, slash/core/test.py:14-40, :147-162 *)
Inductive thing :=
| AFactoryClass
| AClass (name : str) (abstract skipped : bool) (attrs : list (str * gen))
| AFunction (name : str) (g : gen)
| AnOther.

(** a module; slash/loader.py:199, :238-239, :248 *)
Record module := mkModule { m_name : str; m_things : list (str * thing) }.

(** what import_file gives; slash/loader.py:194-205 *)
Inductive imported := IModule (m : module) | IException (n : nat) | INotException (n : nat).

(** Namespace objects: those there were before, and those made for a file;
    slash/loader.py:214-219 *)
Inductive ns := NBase (n : nat) | NConf (f : file) | NModule (f : file).

(** a test: its file, module and factory name, its class, method and variation, whether it is
    skipped, the namespaces it was made in, the innermost first; slash/core/runnable_test_factory.py:49-60,
    slash/core/test.py:31-40, slash/core/function_test.py:56-58 *)
Record test := mkTest {
  t_file : file; t_module : str; t_factory : str; t_class : option str; t_method : option str;
  t_var : nat; t_skip : bool; t_ns : list ns }.

(** exceptions; slash/loader.py:120-124, :163, :186, :203-205 *)
Inductive exn :=
| NoPath (p : str) | NotLoaded (f : file) (n : nat) | NotFound (address : str)
| NoAttribute | Unbound | Other (n : nat).

(** what is observed, the newest first: a file is imported, the collection starts, a test is
    collected, the collection ends; slash/loader.py:94-104, :199 *)
Inductive ev := EImport (f : file) | EStart | ECollected (t : test) | EEnd (n : nat).

(** FixtureStore._namespaces and LocalConfig._configs, the newest first, and the trace;
    slash/loader.py:212-225 *)
Record st := mkSt { namespaces : list ns; configs : list file; trace : list ev }.

(** a generator run to its end: what it gives, and the exception; plumbing of the model *)
Definition G := st -> st * (list test * option exn).

(** nothing; plumbing of the model, no code of its own *)
Definition nothing : G := fun s => (s, ([], None)).
(** raise; plumbing of the model *)
Definition fail (e : exn) : G := fun s => (s, ([], Some e)).
(** one after the other; plumbing of the model *)
Definition followed (a b : G) : G := fun s =>
  match a s with
  | (s1, (l, Some e)) => (s1, (l, Some e))
  | (s1, (l, None)) => let '(s2, (l', e)) := b s1 in (s2, (l ++ l', e))
  end.
(** a for loop; plumbing of the model *)
Fixpoint each {A} (l : list A) (f : A -> G) : G :=
  match l with [] => nothing | x :: l' => followed (f x) (each l' f) end.
(** (t for t in iterator if ...); plumbing of the model *)
Definition only (p : test -> bool) (g : G) : G := fun s =>
  let '(s1, (l, e)) := g s in (s1, (filter p l, e)).

(** ** Factories *)

(** the name a factory was given, or that of its class or function; slash/core/runnable_test_factory.py:14-22 *)
Definition factory_name (given : option str) (name : str) : str := match given with Some n => n | None => name end.

(** the tests of one function or method; slash/core/function_test.py:55-58, slash/core/test.py:31-40 *)
Definition variations (make : nat -> list ns -> test) (g : gen) : G := fun s =>
  (s, (map (fun v => make v (namespaces s)) (g_vars g), option_map Other (g_err g))).

(** FunctionTestFactory, slash/core/function_test.py:49-58 *)
Definition function_tests (f : file) (mod_ : str) (given : option str) (name : str) (g : gen) : G :=
  variations (fun v n => mkTest f mod_ (factory_name given name) None None v false n) g.

(** TestTestFactory._generate_tests, slash/core/test.py:23-40; dir() is sorted *)
Definition class_tests (f : file) (mod_ : str) (given : option str) (name : str) (abstract skipped : bool) (attrs : list (str * gen)) : G :=
  if abstract then nothing
  else each (sort_names attrs) (fun a =>
    if starts (lit "test") (fst a)
    then variations (fun v n => mkTest f mod_ (factory_name given name) (Some name) (Some (fst a)) v skipped n) (snd a)
    else nothing).

(** _get_runnable_test_factory, slash/loader.py:256-265, and the tests it gives; None: it returns None *)
Definition factory (f : file) (mod_ : str) (given : option str) (t : thing) : option G :=
  match t with
  | AClass name abstract skipped attrs => Some (class_tests f mod_ given name abstract skipped attrs)
  | AFunction name g => if starts (lit "test_") name then Some (function_tests f mod_ given name g) else None
  | AFactoryClass | AnOther => None
  end.

(** _iter_runnable_tests_in_module, slash/loader.py:237-254 *)
Definition module_tests (f : file) (m : module) : G :=
  each (sort_names (m_things m)) (fun a =>
    match snd a with
    | AFactoryClass => nothing
    | t => match factory f (m_name m) (Some (fst a)) t with Some g => g | None => nothing end
    end).

(** ** Files of a path *)

(** what the world gives: the file system, the modules, the exceptions of pushing the local
    configuration of a file, adding its fixtures, adding those of the module, resolving;
    slash/loader.py:183, :199, :215-222 *)
Record world := mkWorld {
  fs : str -> option node; import_ : file -> imported;
  conf_err : file -> option nat; conf_fixtures_err : file -> option nat;
  module_fixtures_err : file -> option nat; resolve_err : file -> option nat;
  excluded : test -> bool }.

Section Load.
Variable w : world.

(** assignment to the stacks; slash/core/fixtures/fixture_store.py:129-142, slash/core/local_config.py:14-18 *)
Definition push_ns (n : ns) (s : st) : st := mkSt (n :: namespaces s) (configs s) (trace s).
(** slash/core/fixtures/fixture_store.py:132-133 *)
Definition pop_ns (s : st) : st := mkSt (tl (namespaces s)) (configs s) (trace s).
(** slash/core/local_config.py:14-15 *)
Definition push_conf (f : file) (s : st) : st := mkSt (namespaces s) (f :: configs s) (trace s).
(** slash/core/local_config.py:17-18 *)
Definition pop_conf (s : st) : st := mkSt (namespaces s) (tl (configs s)) (trace s).
(** an event; plumbing of the model *)
Definition emit (e : ev) (s : st) : st := mkSt (namespaces s) (configs s) (e :: trace s).

(** new_namespace_context, slash/core/fixtures/fixture_store.py:135-141 *)
Definition in_namespace (n : ns) (g : G) : G := fun s =>
  let '(s1, r) := g (push_ns n s) in (pop_ns s1, r).

(** raise if there is something to raise; plumbing of the model *)
Definition may_fail (e : option nat) : G := match e with Some n => fail (Other n) | None => nothing end.

(** _adding_local_fixtures around what is done inside, slash/loader.py:212-225 *)
Definition adding_local_fixtures (f : file) (g : G) : G :=
  in_namespace (NConf f) (fun s =>
    match conf_err w f with
    | Some n => fail (Other n) s
    | None =>
        let '(s1, r) :=
          followed (may_fail (conf_fixtures_err w f))
            (in_namespace (NModule f)
              (followed (may_fail (module_fixtures_err w f)) (followed (may_fail (resolve_err w f)) g)))
            (push_conf f s) in
        (pop_conf s1, r)
    end).

(** the loop body of _iter_paths, slash/loader.py:188-210; an exception that is not an Exception goes through *)
Definition load_file (f : file) : G := fun s =>
  if wanted f then
    let s1 := emit (EImport f) s in
    match import_ w f with
    | IModule m => adding_local_fixtures f (module_tests f m) s1
    | IException n => fail (NotLoaded f n) s1
    | INotException n => fail (Other n) s1
    end
  else nothing s.

(** _iter_paths of one path, slash/loader.py:176-210 *)
Definition iter_path (p : str) : G :=
  match fs w p with
  | None => fail (NoPath p)
  | Some n => each (walk n) (fun l => load_file (p, l))
  end.

(** address_in_file, slash/core/metadata.py:43-47, slash/core/test.py:98-102, slash/core/function_test.py:24-25 *)
Definition address_in_file (t : test) : str :=
  t_factory t ++ match t_method t with Some m => lit "." ++ m | None => [] end.

(** function_name, slash/core/metadata.py:115-123; None: the assertion fails *)
Definition function_name (t : test) : option str :=
  let cut s := match split1 "("%char s with Some (b, _) => b | None => s end in
  match t_class t with
  | Some (x :: c) => option_map cut (strip_prefix ((x :: c) ++ lit ".") (address_in_file t))
  | _ => Some (cut (address_in_file t))
  end.

(** _address_in_file_matches, slash/loader.py:165-174 *)
Definition matches (a : str) (t : test) : bool := address_matches a (mkFound (t_factory t) (address_in_file t) false).

(** _iter_test_address, slash/loader.py:136-163 *)
Definition iter_test_address (address : str) : G := fun s =>
  let '(p, a) := match split1 ":"%char address with Some (p, a) => (p, Some a) | None => (address, None) end in
  match iter_path p s with
  | (s1, (_, Some e)) => (s1, ([], Some e))
  | (s1, ([], None)) => match a with None => (s1, ([], None)) | Some _ => (s1, ([], Some (NotFound address))) end
  | (s1, (tests, None)) =>
      let l := filter (fun t => match a with Some a => matches a t | None => true end) tests in
      (s1, (filter (fun t => negb (excluded w t)) l, match l with [] => Some (NotFound address) | _ => None end))
  end.

(** _iter_test_resume, slash/loader.py:126-134; [var]: the variation if it is not empty *)
Definition iter_test_resume (p : str) (a : str) (var : option nat) : G :=
  only (fun t => negb (excluded w t) && str_eqb a (address_in_file t) &&
                 match var with Some v => Nat.eqb v (t_var t) | None => true end) (iter_path p).

(** what can be given to the loader; a class or function comes with its own file and module;
    slash/loader.py:106-122 *)
Inductive source :=
| STuple (x : source) (m : test -> bool) | SList (l : list source) | SAddress (a : str) | STest (t : test)
| SResume (p : str) (a : str) (var : option nat) | SThing (f : file) (mod_ : str) (t : thing) | SFactory.

(** _generate_test_sources, slash/loader.py:106-124.  A RunnableTestFactory goes past all branches,
    and [iterator] has no value; an object without a factory gives an AttributeError of None *)
Fixpoint sources (x : source) : G :=
  match x with
  | STuple y m => only m (sources y)
  | SList l => (fix go l : G := match l with [] => nothing | y :: l' => followed (sources y) (go l') end) l
  | SAddress a => iter_test_address a
  | STest t => fun s => (s, ([t], None))
  | SResume p a v => iter_test_resume p a v
  | SThing f mod_ t => match factory f mod_ None t with Some g => g | None => fail NoAttribute end
  | SFactory => fail Unbound
  end.

(** _collect, slash/loader.py:94-104, for a reporter that does not fail *)
Definition collect (l : list test) (s : st) : st :=
  emit (EEnd (List.length l)) (fold_left (fun s t => emit (ECollected t) s) l (emit EStart s)).

(** the beginning of get_runnables, slash/loader.py:55-58, without repetitions (they are in Loader.v) *)
Definition get_runnables (x : source) : G := fun s =>
  match sources x s with
  | (s1, (_, Some e)) => (s1, ([], Some e))
  | (s1, (l, None)) => (collect l s1, (l, None))
  end.
End Load.
