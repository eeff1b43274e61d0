(** Model of the interactive shell (slash/utils/interactive.py:17-50) and of loading plugins from search paths
    (slash/plugins/plugin_manager.py:62-75).  The interactive test (slash/utils/interactive.py:55-62) is in Loader.v.

    IPython is not part of /repo: what its user does is a list of statements, each of which may raise; it calls the handler it was given
    (slash/utils/interactive.py:30) for exceptions of the classes it was given, shows others itself, and ends when exit_now is set, when
    its user leaves it, or when a hook raised before.  Names and values are numbers. *)

From Coq Require Import List Bool Arith Ascii String.
From Verif Require Import Str Dict.
Import ListNotations.

(** an exception: TerminatedException, another Exception, one that is none (KeyboardInterrupt, SystemExit), slash/utils/interactive.py:30 *)
Inductive kind := Terminated | Ordinary | Base.
(** with the file names of the frames of its traceback, the outermost first; slash/utils/interactive.py:34-37 *)
Record exc := mkExc { x_kind : kind; x_first : str; x_rest : list str }.

(** str.lower of ASCII characters; a Python operation, no code of /repo *)
Definition lower (c : ascii) : ascii :=
  let n := nat_of_ascii c in if Nat.leb 65 n && Nat.leb n 90 then ascii_of_nat (n + 32) else c.

(** _is_exception_in_ipython_eval: the innermost frame is one of the input, slash/utils/interactive.py:34-37 *)
Fixpoint innermost (f : str) (l : list str) : str := match l with [] => f | g :: l' => innermost g l' end.
(** slash/utils/interactive.py:37 *)
Definition in_eval (e : exc) : bool := starts (lit "<ipython") (map lower (innermost (x_first e) (x_rest e))).

(** what the shell does: shows a traceback, calls handle_exception, adds the error 'Terminated' to the current result;
    slash/utils/interactive.py:20-25 *)
Inductive act := Shows (e : exc) | Handles (e : exc) | AddsTerminated.

(** _handle_exception; true: the shell ends; slash/utils/interactive.py:18-25 *)
Definition handle (e : exc) : list act * bool :=
  let a := Shows e :: (if in_eval e then [] else [Handles e]) in
  match x_kind e with
  | Terminated => (a ++ [AddsTerminated], true)
  | _ => (a, false)
  end.

(** what the user's statements give, until the shell ends, slash/utils/interactive.py:30-31 *)
Fixpoint shell (l : list (option exc)) : list act :=
  match l with
  | [] => []
  | None :: l' => shell l'
  | Some e :: l' =>
      match x_kind e with
      | Base => Shows e :: shell l'
      | _ => let (a, ends) := handle e in if ends then a else a ++ shell l'
      end
  end.

(** the colours: interactive.colors, or those for the background, slash/utils/interactive.py:27-29 *)
Definition shell_colors (colors : option str) (dark_background : bool) : str :=
  match colors with
  | Some c => c
  | None => if dark_background then lit "Linux" else lit "LightBG"
  end.

(** start_interactive_shell: the namespace of the shell; [g] the attributes of slash.g (None: there is none), [expose] the option
    expose_g_globals; the handlers of before_interactive_shell may change it, slash/utils/interactive.py:39-50 *)
Definition namespace (kw : @dict nat) (g : option (@dict nat)) (expose : bool) (handlers : @dict nat -> @dict nat) : @dict nat :=
  handlers (match g with
            | Some d => if expose then d_update kw d else kw
            | None => kw
            end).

(** ** discover *)

(** a file of a search path: its name, and what importing it gives (slash/plugins/plugin_manager.py:71-72): an exception, a module without
    or with install_plugins, which may raise *)
Inductive load := ImportFails | NoInstall | Installs (raises : bool).
(** a file: the directory, the name, what importing it gives; slash/plugins/plugin_manager.py:67-71 *)
Record file := mkFile { f_dir : nat; f_name : str; f_load : load }.

(** what discover does: imports a file, calls its install_plugins, slash/plugins/plugin_manager.py:71, 75 *)
Inductive found := Imports (f : file) | CallsInstall (f : file).

(** the loop over the files of all search paths in the order of os.walk; true: an exception ends it,
    slash/plugins/plugin_manager.py:66-75 *)
Fixpoint discover (l : list file) : list found * bool :=
  match l with
  | [] => ([], false)
  | f :: l' =>
      if negb (ends (lit ".py") (f_name f)) then discover l'
      else match f_load f with
           | ImportFails => ([Imports f], true)
           | NoInstall => let (a, b) := discover l' in (Imports f :: a, b)
           | Installs true => ([Imports f; CallsInstall f], true)
           | Installs false => let (a, b) := discover l' in (Imports f :: CallsInstall f :: a, b)
           end
  end.
