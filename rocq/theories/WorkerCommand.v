(** The command line of a worker (slash/parallel/worker_configuration.py:25-32, 46-52,
    98-101, 122-128) and the start of slash in tmux (slash/utils/tmux_utils.py:8-71).

    Texts are strings.  The hook before_worker_start may change the argument list
    (worker_config.argv is public), so it is a function on it.  tmux is the list of the
    names of its sessions, or None when no server of tmux runs; what tmux and the
    system do with a command is not modelled. *)

From Coq Require Import List Bool Ascii String.
From Verif Require Import Str Naming.
Import ListNotations.
Open Scope list_scope.

(** what main parsed: the command, the rest of the command line, how often -v was given
    before the command; slash/frontend/main.py:24-35 *)
Record args := mkArgs { a_cmd : str; a_argv : list str; a_verbosity : nat }.

(** WorkerConfiguration.__init__; slash/parallel/worker_configuration.py:26-29 *)
Definition base_argv (executable session_id worker_id : str) (a : args) : list str :=
  [executable; lit "-m"; lit "slash.frontend.main"; a_cmd a; lit "--parallel-parent-session-id"; session_id] ++
  a_argv a ++ [lit "--parallel-worker-id"; worker_id].

(** start, up to _start; slash/parallel/worker_configuration.py:46-51 *)
Definition started_argv (hook : list str -> list str) (port keepalive dir : str) (argv : list str) : list str :=
  hook argv ++ [lit "--parallel-port"; port; lit "--keepalive-port"; keepalive; lit "--workers-error-dir"; dir].

(** what a worker that is a process runs; slash/parallel/worker_configuration.py:26-29, :46-52 and :98-101 *)
Definition process_argv (executable session_id worker_id port keepalive dir : str) (hook : list str -> list str) (a : args) : list str :=
  started_argv hook port keepalive dir (base_argv executable session_id worker_id a).

(** what a worker in tmux runs: one text, for a shell;
    slash/parallel/worker_configuration.py:122-124 *)
Definition tmux_command (argv : list str) : str := join (lit " ") (argv ++ [lit ";$SHELL"]).

(** os.path.join of a directory and a name without a slash; Python's, used by
    slash/utils/tmux_utils.py:25 *)
Definition path_join (dir name : str) : str :=
  match dir with [] => name | _ => if ends (lit "/") dir then dir ++ name else dir ++ lit "/" ++ name end.

(** str.lstrip of quotes; Python's, used by slash/utils/tmux_utils.py:24 *)
Fixpoint lstrip_quotes (s : str) : str := match s with """"%char :: s => lstrip_quotes s | _ => s end.

(** path.strip of quotes; slash/utils/tmux_utils.py:24 *)
Definition strip_quotes (s : str) : str := rev (lstrip_quotes (rev (lstrip_quotes s))).

(** the result of which: a path, None, or the KeyError of a missing PATH; slash/utils/tmux_utils.py:14-28 *)
Inductive which_res := Found (p : str) | NotFound | NoPath.

(** the loop of which; slash/utils/tmux_utils.py:23-28 *)
Fixpoint search (is_exe : str -> bool) (program : str) (dirs : list str) : which_res :=
  match dirs with
  | [] => NotFound
  | d :: dirs => let f := path_join (strip_quotes d) program in if is_exe f then Found f else search is_exe program dirs
  end.

(** which; [path]: the variable PATH; slash/utils/tmux_utils.py:14-28 *)
Definition which (is_exe : str -> bool) (path : option str) (program : str) : which_res :=
  if contains (lit "/") program then (if is_exe program then Found program else NotFound)
  else match path with
       | None => NoPath
       | Some p => search is_exe program (split_all ":"%char p)
       end.

(** slash/utils/tmux_utils.py:8 *)
Definition DEFAULT : str := lit "slash_session".

(** the sessions of tmux; None: no server runs; slash/utils/tmux_utils.py:33-39 *)
Definition tmux := option (list str).

(** get_slash_tmux_session, as a truth value; slash/utils/tmux_utils.py:33-39 *)
Definition has_session (name : str) (t : tmux) : bool := match t with None => false | Some l => existsb (str_eqb name) l end.

(** rename_session of the first session that has the name; libtmux's, used by
    slash/utils/tmux_utils.py:60 *)
Fixpoint rename (old new : str) (l : list str) : list str :=
  match l with [] => [] | x :: l => if str_eqb old x then new :: l else x :: rename old new l end.

(** the end of run_slash_in_tmux: it returns with these sessions, the process is replaced
    by a command with these arguments, TmuxExecutableNotFound, KeyError; slash/utils/tmux_utils.py:55-71 *)
Inductive run_res := Goes (t : tmux) | Exec (program : str) (argv : list str) | NoTmux | KeyErr.

(** run_slash_in_tmux; [inside]: the variable TMUX is set (a path that was found is not the
    empty text, so :63 is about None only); slash/utils/tmux_utils.py:30-31 and :55-71 *)
Definition run_in_tmux (is_exe : str -> bool) (path : option str) (executable session_id : str) (inside : bool) (a : args) (t : tmux) : run_res :=
  if has_session DEFAULT t then Goes (option_map (rename DEFAULT session_id) t)
  else match which is_exe path (lit "tmux") with
       | NotFound => NoTmux
       | NoPath => KeyErr
       | Found p =>
           Exec p ([p; lit "new-session"; lit "-s"; DEFAULT; lit "-n"; lit "master"] ++ (if inside then [lit "-Ad"] else []) ++
                   [join (lit " ") ([executable; lit "-m"; lit "slash.frontend.main"; a_cmd a] ++ a_argv a)])
       end.

(** create_new_window and create_new_pane find a session; slash/utils/tmux_utils.py:41-53 *)
Definition can_open (session_id : str) (t : tmux) : bool := has_session session_id t.
