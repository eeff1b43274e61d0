(** What slash.g, slash.session, slash.test and the other names of slash/ctx.py:132-137 stand for: proxies
    (slash/ctx.py:93-130) of attributes of the innermost context (slash/ctx.py:7-56, 59-90, 140-144).

    Objects have a number and a dictionary; a value is None, a number, a text or an object.  Simplified: objects
    have no class, so that reading an attribute that is not in the dictionary is an AttributeError; names of Python's
    own (with two underscores) are left out, but for the ones the proxies define. *)

From Coq Require Import List Bool Arith Ascii String.
From Verif Require Import Str Plugins.
Import ListNotations.
Open Scope list_scope.

(** a value: None, a number, a text, a NullReporter, another object; Python's and slash/reporting/null_reporter.py:4-5 *)
Inductive value := None_ | Int (n : nat) | Text (s : str) | NullReporter | Obj (o : nat).

(** the contexts that were pushed, innermost first, each an object; the dictionaries of the objects; the next new object;
    slash/ctx.py:59-63 *)
Record world := mkWorld { stack : list nat; dicts : nat -> list (str * value); fresh : nat }.

(** the start: no context; slash/ctx.py:61-63 *)
Definition world0 : world := mkWorld [] (fun _ => []) 0.

(** the end of a call: a value, an exception; plumbing of the model, no code of its own *)
Inductive reply := Val (v : value) | AttributeErr | RuntimeErr | TypeErr.

(** the dictionary of an object gets an entry; Python's *)
Definition put (o : nat) (a : str) (v : value) (w : world) : world :=
  mkWorld (stack w) (fun p => if Nat.eqb p o then s_set a v (dicts w o) else dicts w p) (fresh w).

(** getattr and setattr of a value that is no proxy; Python's *)
Definition get_attr (v : value) (a : str) (w : world) : reply :=
  match v with Obj o => match s_get a (dicts w o) with Some x => Val x | None => AttributeErr end | _ => AttributeErr end.

(** setattr, see above; Python's.  What is written to a NullReporter is left out *)
Definition set_attr (v : value) (a : str) (x : value) (w : world) : world * reply :=
  match v with Obj o => (put o a x w, Val None_) | NullReporter => (w, Val None_) | _ => (w, AttributeErr) end.

(** the class attributes of a context that are None; slash/ctx.py:12 *)
Definition class_none : list str := [lit "session"; lit "test"; lit "test_id"; lit "result"; lit "fixture"].

(** the names that are None without a context; slash/ctx.py:53-54 *)
Definition null_none : list str :=
  [lit "session"; lit "test"; lit "test_id"; lit "g"; lit "internal_globals"; lit "test_filename"; lit "test_classname"; lit "test_methodname"; lit "result"; lit "fixture"].

(** an attribute of a context object that is not computed; slash/ctx.py:12-17 *)
Definition plain (c : nat) (w : world) (a : str) : reply :=
  match s_get a (dicts w c) with Some x => Val x | None => if s_mem a class_none then Val None_ else AttributeErr end.

(** an attribute of a context object [c]; test_filename, session_id and reporter are computed from the session and the test; slash/ctx.py:11-40 *)
Definition ctx_get (c : nat) (a : str) (w : world) : reply :=
  if str_eqb a (lit "session_id") then match plain c w (lit "session") with Val None_ => Val None_ | Val s => get_attr s (lit "id") w | r => r end
  else if str_eqb a (lit "reporter") then match plain c w (lit "session") with Val None_ => Val NullReporter | Val s => get_attr s (lit "reporter") w | r => r end
  else if str_eqb a (lit "test_filename") then match plain c w (lit "test") with Val None_ => Val None_ | Val t => match get_attr t (lit "__slash__") w with Val m => get_attr m (lit "file_path") w | r => r end | r => r end
  else plain c w a.

(** the attributes of a context that have no setter; slash/ctx.py:19-34 *)
Definition computed : list str := [lit "session_id"; lit "reporter"; lit "test_filename"].

(** getattr(context, …); slash/ctx.py:65-67 and slash/ctx.py:43-56 *)
Definition context_get (a : str) (w : world) : reply :=
  match stack w with
  | [] => if str_eqb a (lit "reporter") then Val NullReporter else if s_mem a null_none then Val None_ else AttributeErr
  | c :: _ => ctx_get c a w
  end.

(** setattr(context, …) of a name without an underscore; slash/ctx.py:73-76 and slash/ctx.py:45-47 *)
Definition context_set (a : str) (x : value) (w : world) : world * reply :=
  match stack w with
  | [] => (w, AttributeErr)
  | c :: _ => if s_mem a computed then (w, AttributeErr) else (put c a x w, Val None_)
  end.

(** push_context: a new context with two new objects; slash/ctx.py:14-17, slash/ctx.py:78-80 and slash/ctx.py:140-141 *)
Definition push (w : world) : world :=
  let c := fresh w in
  mkWorld (c :: stack w) (fun p => if Nat.eqb p c then [(lit "g", Obj (S c)); (lit "internal_globals", Obj (S (S c)))] else if Nat.ltb c p then [] else dicts w p) (S (S (S c))).

(** pop_context; slash/ctx.py:82-88 and slash/ctx.py:143-144 *)
Definition pop (w : world) : world * reply :=
  match stack w with [] => (w, RuntimeErr) | _ :: s => (mkWorld s (dicts w) (fresh w), Val None_) end.

(** __getattr__ of the proxy of [name]; slash/ctx.py:99-104 *)
Definition proxy_get (name a : str) (w : world) : reply :=
  match context_get name w with Val v => get_attr v a w | r => r end.

(** __setattr__ of the proxy; slash/ctx.py:106-109 (not: the name of the proxy itself, slash/ctx.py:107-108) *)
Definition proxy_set (name a : str) (x : value) (w : world) : world * reply :=
  match context_get name w with Val v => set_attr v a x w | r => (w, r) end.

(** equality of values that are no proxies; Python's, objects by identity *)
Definition value_eqb (x y : value) : bool :=
  match x, y with
  | None_, None_ => true | NullReporter, NullReporter => true | Int n, Int m => Nat.eqb n m | Text s, Text t => str_eqb s t | Obj o, Obj p => Nat.eqb o p | _, _ => false
  end.

(** proxy == x; slash/ctx.py:111-112 *)
Definition proxy_eq (name : str) (x : value) (w : world) : option bool :=
  match context_get name w with Val v => Some (value_eqb v x) | _ => None end.

(** bool(x) of a value that is no proxy (objects are true); Python's *)
Definition truth (v : value) : bool := match v with None_ => false | Int 0 => false | Text [] => false | _ => true end.

(** bool(proxy): the class has neither __bool__ nor __len__, and Python does not look for them with __getattr__; slash/ctx.py:93-130 *)
Definition proxy_truth (name : str) (w : world) : bool := true.

(** hash(proxy): the class has __eq__ but no __hash__; slash/ctx.py:93-130 *)
Definition proxy_hash (name : str) (w : world) : reply := TypeErr.

(** what code does with contexts and proxies, and a new object; slash/ctx.py:65-144 *)
Inductive op := Push | Pop | New | SetContext (a : str) (x : value) | Get (name a : str) | Set_ (name a : str) (x : value).

(** one of them; no code of /repo *)
Definition step (w : world) (o : op) : world * reply :=
  match o with
  | Push => (push w, Val None_)
  | Pop => pop w
  | New => (mkWorld (stack w) (fun p => if Nat.eqb p (fresh w) then [] else dicts w p) (S (fresh w)), Val (Obj (fresh w)))
  | SetContext a x => context_set a x w
  | Get name a => (w, proxy_get name a w)
  | Set_ name a x => proxy_set name a x w
  end.

(** plumbing of the model *)
Definition run (w : world) (ops : list op) : world := fold_left (fun w o => fst (step w o)) ops w.
