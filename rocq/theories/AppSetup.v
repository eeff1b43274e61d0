(** What an Application is set up with: its arguments, its reporter, its stream and its
    parser (slash/app.py:30-36, 68-100, 113-122, 150-163; slash/utils/cli_utils.py:97-121),
    and how slash_run sets it up (slash/frontend/slash_run.py:18-31).
    Reporters and streams are numbers.  Not modelled: what argparse does with the arguments
    and with the options of plugins and of the configuration, the levels of handlers. *)

From Coq Require Import List Bool Arith Ascii String.
From Verif Require Import Str.
Import ListNotations.
Local Open Scope list_scope.

(** os.path.basename; a Python operation, no code of /repo *)
Fixpoint basename_from (acc s : str) : str :=
  match s with
  | [] => acc
  | c :: s => if Ascii.eqb c "/" then basename_from [] s else basename_from (acc ++ [c]) s
  end.
(** os.path.basename; a Python operation, no code of /repo *)
Definition basename (s : str) : str := basename_from [] s.

(** SlashArgumentParser._deduce_program_name (None: IndexError); slash/utils/cli_utils.py:107-111 *)
Definition program_name (sys_argv : list str) : option str :=
  match sys_argv with
  | [] => None
  | [p] => Some (basename p)
  | p :: a :: _ => Some (basename p ++ lit " " ++ a)
  end.

(** SlashArgumentParser; whether -i is one of its options; slash/utils/cli_utils.py:97-121, slash/app.py:68-71 *)
Record parser := mkParser { p_prog : str; p_usage : str; p_description : option str; p_interactive : bool }.

(** SlashArgumentParser.__init__; slash/utils/cli_utils.py:99-105 *)
Definition new_parser (sys_argv : list str) : option parser :=
  option_map (fun n => mkParser n (n ++ lit " [options]") None false) (program_name sys_argv).

(** set_positional_metavar; slash/utils/cli_utils.py:113-118 *)
Definition set_metavar (m : str) (plural : bool) (p : parser) : parser :=
  mkParser (p_prog p) (p_usage p ++ (if plural then lit " " ++ m ++ lit " [" ++ m ++ lit " [...]]" else lit " " ++ m))
           (p_description p) (p_interactive p).

(** set_description; slash/utils/cli_utils.py:120-121 *)
Definition set_description (d : str) (p : parser) : parser := mkParser (p_prog p) (p_usage p) (Some d) (p_interactive p).

(** who reports: one that was given, or a new ConsoleReporter on a stream; slash/app.py:93-100 *)
Inductive reporter := Given (r : nat) | ConsoleOn (stream : nat).

(** an Application: _argv, _reporter, _report_stream, the stream of _console_handler, arg_parser, and of its session the reporter and the
    console_stream; slash/app.py:30-44, 84-88, 122 *)
Record application := mkApp { a_argv : option (list str); a_reporter : option nat; a_stream : nat; a_handler : nat; a_parser : parser;
                      a_session : option (reporter * nat) }.

Section Process.
(** sys.argv and sys.stderr when the application is used *)
Variable sys_argv : list str.
Variable stderr : nat.

(** Application.__init__; slash/app.py:30-44 *)
Definition new_app : option application :=
  option_map (fun p => mkApp None None stderr stderr p None) (new_parser sys_argv).

(** _get_argv; slash/app.py:79-82 *)
Definition get_argv (a : application) : list str := match a_argv a with None => tl sys_argv | Some l => l end.

(** get_reporter; slash/app.py:93-100 *)
Definition get_reporter (a : application) : reporter := match a_reporter a with Some r => Given r | None => ConsoleOn (a_stream a) end.

(** what is done with an application; slash/app.py:68-91, 102-165, slash/utils/cli_utils.py:113-121 *)
Inductive op :=
| SetArgv (l : list str)
| SetStream (s : option nat)
| SetReporter (r : option nat)
| Metavar (m : str) (plural : bool)
| Describe (d : str)
| Interactive
| Enter
| Exit.

(** ... and the application afterwards (None: argparse refuses to have -i twice, or sys.argv is empty);
    slash/app.py:68-91, 122, 163, slash/utils/cli_utils.py:113-121 *)
Definition step (o : op) (a : application) : option application :=
  let with_parser p := mkApp (a_argv a) (a_reporter a) (a_stream a) (a_handler a) p (a_session a) in
  match o with
  | SetArgv l => Some (mkApp (Some l) (a_reporter a) (a_stream a) (a_handler a) (a_parser a) (a_session a))
  | SetStream None => Some a
  | SetStream (Some s) => Some (mkApp (a_argv a) (a_reporter a) s s (a_parser a) (a_session a))
  | SetReporter r => Some (mkApp (a_argv a) r (a_stream a) (a_handler a) (a_parser a) (a_session a))
  | Metavar m plural => Some (with_parser (set_metavar m plural (a_parser a)))
  | Describe d => Some (with_parser (set_description d (a_parser a)))
  | Interactive =>
      let p := a_parser a in
      if p_interactive p then None else Some (with_parser (mkParser (p_prog p) (p_usage p) (p_description p) true))
  | Enter => Some (mkApp (a_argv a) (a_reporter a) (a_stream a) (a_handler a) (a_parser a) (Some (get_reporter a, a_stream a)))
  | Exit => option_map with_parser (new_parser sys_argv)
  end.

(** one after the other; plumbing of the model, no code of its own *)
Fixpoint steps (l : list op) (a : application) : option application :=
  match l with
  | [] => Some a
  | o :: l => match step o a with Some a => steps l a | None => None end
  end.

(** an application after [l]; plumbing of the model, no code of its own *)
Definition after (l : list op) : option application := match new_app with Some a => steps l a | None => None end.

(** what slash_run does before it enters its application; slash/frontend/slash_run.py:18-31 *)
Definition slash_run_setup (resume : bool) (argv : list str) (report_stream : option nat) : list op :=
  (if resume
   then [Metavar (lit "SESSION-ID") false;
         Describe (lit "Resumes a previously run session by running only unsuccessful on unfinished tests")]
   else [Metavar (lit "TEST") true])
  ++ [SetArgv argv; SetStream (Some (match report_stream with Some s => s | None => stderr end)); Interactive].
End Process.
