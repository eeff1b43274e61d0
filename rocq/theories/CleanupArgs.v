(** What a cleanup is called with: the arguments of slash.add_cleanup, add_critical_cleanup and
    add_success_only_cleanup, what is kept of them and what the cleanup gets
    (slash/cleanups.py:7-26, slash/core/cleanup_manager.py:45-68, :167-196).
    Lists and dictionaries are objects of a heap, so that it shows who shares them.
    Not modelled here: which scope a cleanup goes to and whether it is called at all (Core.v); there is
    one stack, and the programs below call from its top.  The text of a cleanup is not modelled, only
    that making it may raise.  Whether the flags are true is settled when the cleanup is registered (simplified: a list given for
    one of them could be changed until then). *)

From Coq Require Import List Bool Arith Ascii String.
From Verif Require Import Str.
Import ListNotations.
Local Open Scope list_scope.

(** an element of a list or dictionary: a number, a text, or one of the lists and dictionaries the program has made
    (by its number); a Python operation, no code of /repo *)
Inductive obj := ONum (n : nat) | OStr (s : str) | OVar (i : nat).
(** a list or a dictionary; a Python operation, no code of /repo *)
Inductive cell := CList (l : list obj) | CDict (d : list (str * obj)).
(** the value of an argument; [VVar]: a list or dictionary of the program; [VOther]: something that is true and neither iterable
    nor has copy(); a Python operation, no code of /repo *)
Inductive val := VNone | VBool (b : bool) | VStr (s : str) | VTuple (l : list obj) | VVar (i : nat) | VOther.

(** what add_cleanup may raise; slash/cleanups.py:9-10, slash/core/cleanup_manager.py:63-66, :170 *)
Inductive exn := TypeErr | AttrErr | AssertErr | RuntimeErr | ReprErr.

(** one argument or several by position (after the function), and by keyword; slash/core/cleanup_manager.py:45 *)
Record call := mkCall { positional : list val; keywords : list (str * val) }.
(** which of the three functions is called; slash/cleanups.py:7-26 *)
Inductive how := Plain | Critical | SuccessOnly.

(** _Cleanup: the function and the places of its args and kwargs; slash/core/cleanup_manager.py:169-178 *)
Record cleanup := mkCleanup { func : nat; args_at : nat; kwargs_at : nat; critical : bool; success_only : bool }.

(** the heap, what the program's lists and dictionaries are on it, the cleanups (the last one first), whether there is a session;
    slash/core/cleanup_manager.py:22-29, slash/cleanups.py:9 *)
Record state := mkState { heap : list cell; vars : list nat; stack : list cleanup; session : bool }.

(** kwargs.pop(k, d): the value and what is left; a Python operation, no code of /repo *)
Definition pop (k : str) (d : val) (kw : list (str * val)) : val * list (str * val) :=
  (match find (fun p => str_eqb (fst p) k) kw with Some p => snd p | None => d end, filter (fun p => negb (str_eqb (fst p) k)) kw).

(** the list or dictionary of a variable; a Python operation, no code of /repo *)
Definition deref (s : state) (i : nat) : option cell :=
  match nth_error (vars s) i with Some a => nth_error (heap s) a | None => None end.

(** bool(c); a Python operation, no code of /repo *)
Definition cell_truth (c : cell) : bool := match c with CList [] | CDict [] => false | _ => true end.
(** bool(v); a Python operation, no code of /repo *)
Definition truth (s : state) (v : val) : bool :=
  match v with
  | VNone => false | VBool b => b | VStr [] | VTuple [] => false | VStr _ | VTuple _ | VOther => true
  | VVar i => match deref s i with Some c => cell_truth c | None => false end
  end.

(** list(v): a new list; a Python operation, no code of /repo, used in slash/core/cleanup_manager.py:64 *)
Definition to_list (s : state) (v : val) : option (list obj) :=
  match v with
  | VStr t => Some (map (fun c => OStr [c]) t)
  | VTuple l => Some l
  | VVar i => match deref s i with Some (CList l) => Some l | Some (CDict d) => Some (map (fun p => OStr (fst p)) d) | None => None end
  | VNone | VBool _ | VOther => None
  end.
(** v.copy(); a Python operation, no code of /repo, used in slash/core/cleanup_manager.py:63 *)
Definition copied (s : state) (v : val) : option cell := match v with VVar i => deref s i | _ => None end.

Section Program.
(** repr(o) raises; a Python operation, no code of /repo *)
Variable bad_repr : obj -> bool.

(** "({},{})".format(self.args, self.kwargs) raises; slash/core/cleanup_manager.py:196 *)
Definition bad_text (args : list obj) (k : cell) : bool :=
  existsb bad_repr args || match k with CList l => existsb bad_repr l | CDict d => existsb (fun p => bad_repr (snd p)) d end.

(** CleanupManager.add_cleanup up to where the scope is chosen, and _Cleanup.__init__; slash/core/cleanup_manager.py:58-68, :169-178 *)
Definition add (f : nat) (c : call) (s : state) : state * option exn :=
  let kw := snd (pop (lit "scope") VNone (keywords c)) in
  let '(crit, kw) := pop (lit "critical") (VBool false) kw in
  let '(succ, kw) := pop (lit "success_only") (VBool false) kw in
  let '(k, kw) := match find (fun p => str_eqb (fst p) (lit "kwargs")) kw with
                  | Some _ => let '(v, kw) := pop (lit "kwargs") VNone kw in (copied s v, kw)
                  | None => (Some (CDict []), kw) end in
  match k with
  | None => (s, Some AttrErr)
  | Some new_kwargs =>
      let '(a, kw) := pop (lit "args") (VTuple []) kw in
      match to_list s a with
      | None => (s, Some TypeErr)
      | Some new_args =>
          match positional c, kw with
          | [], [] =>
              if truth s succ && truth s crit then (s, Some AssertErr)
              else if bad_text new_args new_kwargs then (s, Some ReprErr)
              else (mkState (heap s ++ [CList new_args; new_kwargs]) (vars s)
                            (mkCleanup f (List.length (heap s)) (S (List.length (heap s))) (truth s crit) (truth s succ) :: stack s) (session s), None)
          | _, _ => (s, Some AssertErr)
          end
      end
  end.

(** slash.add_cleanup; slash/cleanups.py:7-11 *)
Definition add_cleanup (f : nat) (c : call) (s : state) : state * option exn :=
  if session s then add f c s else (s, Some RuntimeErr).

(** [g( *args, k=v, **kw)]: the same keyword twice is a TypeError; a Python operation, no code of /repo, used in slash/cleanups.py:18, :25 *)
Definition with_keyword (k : str) (v : val) (c : call) : option call :=
  if existsb (fun p => str_eqb (fst p) k) (keywords c) then None else Some (mkCall (positional c) ((k, v) :: keywords c)).

(** the three functions; slash/cleanups.py:7-26 *)
Definition register (h : how) (f : nat) (c : call) (s : state) : state * option exn :=
  match h with
  | Plain => add_cleanup f c s
  | Critical => match with_keyword (lit "critical") (VBool true) c with Some c => add_cleanup f c s | None => (s, Some TypeErr) end
  | SuccessOnly => match with_keyword (lit "success_only") (VBool true) c with Some c => add_cleanup f c s | None => (s, Some TypeErr) end
  end.

(** what the function of a cleanup sees of an argument: itself or, of a list or dictionary, what is in it then;
    a Python operation, no code of /repo *)
Inductive seen := Itself (o : obj) | Inside (c : option cell).
(** the above; a Python operation, no code of /repo *)
Definition look (s : state) (o : obj) : seen := match o with OVar i => Inside (deref s i) | _ => Itself o end.

(** what comes of a step of the program; slash/core/cleanup_manager.py:68, :182 *)
Inductive output := Quiet | Refused (e : exn) | Added | Called (f : nat) (args : list seen) (kwargs : list (str * seen)) | NotCalled (f : nat).

(** _Cleanup.__call__: [func( *args, **kwargs)], a TypeError if kwargs is none; slash/core/cleanup_manager.py:180-185 *)
Definition call_cleanup (s : state) (c : cleanup) : output :=
  match nth_error (heap s) (args_at c), nth_error (heap s) (kwargs_at c) with
  | Some (CList a), Some (CDict k) => Called (func c) (map (look s) a) (map (fun p => (fst p, look s (snd p))) k)
  | _, _ => NotCalled (func c)
  end.

(** the steps of a program: make a list or dictionary, change one to what is given (a list to a list), register a cleanup,
    call the last cleanup, start or end the session; slash/cleanups.py:7-26, slash/core/cleanup_manager.py:149-163 *)
Inductive op := New (c : cell) | Change (i : nat) (c : cell) | Register (h : how) (f : nat) (c : call) | CallLast | Session (b : bool).

(** l[i] = x; a Python operation, no code of /repo *)
Fixpoint put {A} (i : nat) (x : A) (l : list A) : list A :=
  match l, i with [], _ => [] | _ :: l, 0 => x :: l | y :: l, S i => y :: put i x l end.

(** both lists or both dictionaries; a Python operation, no code of /repo *)
Definition same_kind (a b : cell) : bool := match a, b with CList _, CList _ | CDict _, CDict _ => true | _, _ => false end.

(** one step; slash/cleanups.py:7-26, slash/core/cleanup_manager.py:45-68, :149-163 *)
Definition step (o : op) (s : state) : state * output :=
  match o with
  | New c => (mkState (heap s ++ [c]) (vars s ++ [List.length (heap s)]) (stack s) (session s), Quiet)
  | Change i c =>
      match nth_error (vars s) i with
      | Some a => match nth_error (heap s) a with
                  | Some c' => if same_kind c c' then (mkState (put a c (heap s)) (vars s) (stack s) (session s), Quiet) else (s, Quiet)
                  | None => (s, Quiet) end
      | None => (s, Quiet)
      end
  | Register h f c => let '(s, r) := register h f c s in (s, match r with None => Added | Some e => Refused e end)
  | CallLast => match stack s with [] => (s, Quiet) | c :: k => (mkState (heap s) (vars s) k (session s), call_cleanup s c) end
  | Session b => (mkState (heap s) (vars s) (stack s) b, Quiet)
  end.

(** one after the other; plumbing of the model, no code of its own *)
Fixpoint run (l : list op) (s : state) : state * list output :=
  match l with
  | [] => (s, [])
  | o :: l => let '(s, r) := step o s in let '(s, rs) := run l s in (s, r :: rs)
  end.

(** nothing made, nothing registered; slash/core/cleanup_manager.py:22-29 *)
Definition start : state := mkState [] [] [] true.
End Program.
