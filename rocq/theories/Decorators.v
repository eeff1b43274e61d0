(** What slash.fixture and slash.yield_fixture make of a function (slash/core/fixtures/utils.py:12-26, 49-90, 116-146), alone, on top
    of each other, of slash.parametrize (slash/core/fixtures/parameters.py:17-44) and of decorators that use functools.wraps; the
    arguments a function is said to have (slash/utils/python.py:36-45, 52-98); functions of one name in one file
    (slash/utils/python.py:18-33).

    A function is what it does, its fixture information and its attribute __wraps__.  Left out: what a generator does after its first
    value (slash/core/fixtures/utils.py:137-145), the values of parameters, fixture ids, PyPy. *)

From Coq Require Import List Bool Arith Ascii String.
From Verif Require Import Str Plugins.
Import ListNotations.
Open Scope list_scope.

(** the scopes of fixtures; slash/core/fixtures/utils.py:87-88 *)
Definition scopes : list str := [lit "test"; lit "module"; lit "session"].

(** FixtureInfo; slash/core/fixtures/utils.py:49-76 *)
Record info := mkInfo { i_name : str; i_scope : str; i_autouse : bool; i_required : list str; i_this : bool }.

(** a parameter: its name, whether it has a default value, whether it is *args or **kwargs; Python's inspect.Parameter *)
Record param := mkParam { p_name : str; p_default : bool; p_star : bool }.

(** what a wrapper is for: slash.yield_fixture, slash.parametrize, other code; slash/core/fixtures/utils.py:133-136, slash/core/fixtures/parameters.py:28-36 *)
Inductive layer := Yields | Parametrizes | Other.

(** a function: written with def (name, is it a generator function, its parameters) or a wrapper of one; its __slash_fixture__, its __wraps__; Python's *)
Inductive fn := Fn (c : code) (i : option info) (w : option fn)
with code := Def (name : str) (generator : bool) (params : list param) | Wrapper (l : layer) (inner : fn).

(** the attributes, and below the same of the other two; slash/core/fixtures/utils.py:133-136 *)
Definition fn_code (f : fn) : code := match f with Fn c _ _ => c end.
Definition fn_info (f : fn) : option info := match f with Fn _ i _ => i end.
Definition fn_wraps (f : fn) : option fn := match f with Fn _ _ w => w end.

(** the function written with def at the bottom; its name is the __name__ and its parameters the signature of all wrappers
    (functools.wraps sets __name__ and __wrapped__); Python's *)
Fixpoint name_of (f : fn) : str := match fn_code f with Def n _ _ => n | Wrapper _ g => name_of g end.
Fixpoint params_of (f : fn) : list param := match fn_code f with Def _ _ ps => ps | Wrapper _ g => params_of g end.

(** get_underlying_func; slash/utils/python.py:52-57 *)
Fixpoint underlying (f : fn) : fn := match f with Fn _ _ None => f | Fn _ _ (Some g) => underlying g end.

(** inspect.isgeneratorfunction; Python's *)
Definition is_generator (f : fn) : bool := match fn_code f with Def _ g _ => g | Wrapper _ _ => false end.

(** wraps, which copies the attributes and sets __wraps__; slash/utils/python.py:36-40 *)
Definition slash_wraps (l : layer) (f : fn) : fn := Fn (Wrapper l f) (fn_info f) (Some f).

(** functools.wraps, which copies the attributes, also __wraps__ if there is one; Python's *)
Definition functools_wraps (f : fn) : fn := Fn (Wrapper Other f) (fn_info f) (fn_wraps f).

(** get_arguments; slash/utils/python.py:71-83 *)
Definition arguments (f : fn) : list str :=
  match map p_name (params_of f) with
  | n :: l => if str_eqb n (lit "self") then l else n :: l
  | [] => []
  end.

(** the options of a decorator: name, scope, autouse; slash/core/fixtures/utils.py:20 *)
Record options := mkOptions { o_name : option str; o_scope : option str; o_autouse : bool }.

(** FixtureInfo(func, ...), None is the KeyError of an unknown scope; slash/core/fixtures/utils.py:51-76 *)
Definition make_info (f : fn) (o : options) : option info :=
  let scope := match o_scope o with Some s => s | None => lit "test" end in
  if s_mem scope scopes then
    Some (mkInfo (match o_name o with Some n => n | None => name_of f end) scope (o_autouse o)
                 (filter (fun n => negb (str_eqb n (lit "this"))) (arguments f)) (s_mem (lit "this") (arguments f)))
  else None.

(** _ensure_fixture_info; slash/core/fixtures/utils.py:15-18 *)
Definition ensure_info (f : fn) (o : options) : option fn :=
  match fn_info f with
  | Some _ => Some f
  | None => match make_info f o with Some i => Some (Fn (fn_code f) (Some i) (fn_wraps f)) | None => None end
  end.

(** yield_fixture; slash/core/fixtures/utils.py:116-146 *)
Definition yield_fixture (f : fn) (o : options) : option fn := match ensure_info f o with Some f => Some (slash_wraps Yields f) | None => None end.

(** fixture; slash/core/fixtures/utils.py:20-26 *)
Definition fixture (f : fn) (o : options) : option fn := if is_generator (underlying f) then yield_fixture f o else ensure_info f o.

(** decorators; slash/core/fixtures/utils.py:20-26, 116-146 and slash/core/fixtures/parameters.py:17-44 (the first of several) *)
Inductive decorator := Fixture (o : options) | YieldFixture (o : options) | Parametrize | Custom.

(** one of them; slash/core/fixtures/utils.py:133-136, slash/core/fixtures/parameters.py:28-36 *)
Definition decorate (f : fn) (d : decorator) : option fn :=
  match d with Fixture o => fixture f o | YieldFixture o => yield_fixture f o | Parametrize => Some (slash_wraps Parametrizes f) | Custom => Some (functools_wraps f) end.

(** a stack of them, the one next to the function first; Python's *)
Fixpoint decorate_all (f : fn) (ds : list decorator) : option fn :=
  match ds with [] => Some f | d :: ds => match decorate f d with Some f => decorate_all f ds | None => None end end.

(** what calling gives: the value of a return, a generator, the value a generator yielded and a cleanup to go on with it, a
    TypeError (next of something that is no iterator); slash/core/fixtures/utils.py:133-145 *)
Inductive value := Returned | Generator | Yielded | TypeErr.

(** a call; slash/core/fixtures/utils.py:134-145 and slash/core/fixtures/parameters.py:29-36 *)
Fixpoint call (f : fn) : value :=
  match fn_code f with
  | Def _ g _ => if g then Generator else Returned
  | Wrapper Yields g => match call g with Generator => Yielded | _ => TypeErr end
  | Wrapper _ g => call g
  end.

(** a statement of a file: a function written with def, anything else (a class, async def, if...) with the functions inside; slash/utils/python.py:24-33 *)
Inductive statement := Function (name : str) (line : nat) | Block (inside : list (str * nat)).

(** check_duplicate_functions; slash/utils/python.py:25-33 *)
Fixpoint duplicates (known : list str) (body : list statement) : list (str * nat) :=
  match body with
  | [] => []
  | Function n l :: body => if s_mem n known then (n, l) :: duplicates known body else duplicates (n :: known) body
  | Block _ :: body => duplicates known body
  end.
