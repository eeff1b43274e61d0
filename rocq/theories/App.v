(** Model of the application around a session: Application.__enter__/__exit__
    (app.py:102-165), the contexts it enters (app.py:170-208, Session.activate and
    deactivate in core/session.py:74-103, get_modified_configuration_from_args_context
    in utils/cli_utils.py), slash_run (frontend/slash_run.py:18-82) and the exit status
    of the process (frontend/main.py:37-50, 66-74).

    Every place where user code runs, or where the interpreter may raise, is a [point];
    an environment says what is raised there.  Each point is passed at most once in a
    run, so this covers all behaviours.  What happens inside the body (collecting and
    running tests) is modelled elsewhere (Core.v); here it may raise anything, set the
    exit code, and leave successful results or not.  Not modelled: logging, the
    argument parser being reset, rewriting of assertions, tmux. *)

From Coq Require Import List Bool ZArith.
Import ListNotations.

(** SystemExit.code, and Application._exit_code: None, an integer, anything else; app.py:43, 147 *)
Inductive code := CNone | CInt (z : Z) | CText.

(** exceptions as the code distinguishes them: Exception, with the mark
    inhibit_console_tb or not (app.py:149-154, exception_handling.py:230-239);
    KeyboardInterrupt and TerminatedException (exceptions.py:9-12); SystemExit; other
    exceptions that are not an Exception *)
Inductive exn := XError (inhibit : bool) | XInterrupt | XExit (c : code) | XBase.

(** resources acquired while the application runs: the handler of prelude logs and the
    warnings callback (app.py:106-107), the SIGTERM handler (app.py:108), the modified
    configuration (app.py:118), the pushed context, the logging context and the warnings
    callback of the session (session.py:77, 84, 87) *)
Inductive resource := RPreludeLogs | RPreludeWarnings | RSigterm | RConfig | RContext | RSessionLogs | RSessionWarnings.

(** places where something can be raised, in the order of the code; app.py:102-165, frontend/slash_run.py:34-82 *)
Inductive point :=
| PEnter (r : resource)  (* acquiring a resource fails *)
| PSite | PParse | PSession | PPlugins (* app.py:109-127 *)
| PEmit | PEmitWarnings (* app.py:131-132 *)
| PEmitFailed (* app.py:136 *)
| PDebug | PReport | PSummary | PQuit (* app.py:143, 150/154, 160, 164 *)
| PLeave (r : resource) (* releasing a resource fails *)
| PBody (* slash_run.py:36-71 *)
| PFinally. (* slash_run.py:72-75 *)

(** what is observed; app.py:102-165 and what the user sees of them *)
Inductive event := EAcquire (r : resource) | ERelease (r : resource) | EBody | ESummary | EQuit.

(** what the world does: exceptions raised; Application.set_exit_code called from the
    body (app.py:53-54); session.results.is_success(allow_skips=True) at slash_run.py:76;
    whether this is a worker (slash_run.py:73) *)
Record env := mkEnv
  { raises : point -> option exn; sets : option code; success : bool; child : bool }.

(** the state: Application._exit_code and _interrupted, the contexts on the ExitStack
    (last entered first), the trace (last event first), the SIGTERM handler installed; app.py:30-44, 103 *)
Record state := mkState
  { a_code : code; a_interrupted : bool; a_stack : list resource; a_trace : list event; a_sigterm : nat }.

(** the number of Slash's own SIGTERM handler, app.py:195-197 *)
Definition slash_handler := 0.

(** before slash_run: app.py:30-44, with handler [h] installed *)
Definition init (h : nat) : state := mkState (CInt 0) false [] [] h.

(** an event is observed; plumbing of the model, no code of its own *)
Definition emit (e : event) (s : state) : state :=
  mkState (a_code s) (a_interrupted s) (a_stack s) (e :: a_trace s) (a_sigterm s).

(** _exit_code = c; app.py:147 *)
Definition set_code (c : code) (s : state) : state :=
  mkState c (a_interrupted s) (a_stack s) (a_trace s) (a_sigterm s).

(** _interrupted = True; app.py:156-157 *)
Definition set_interrupted (s : state) : state :=
  mkState (a_code s) true (a_stack s) (a_trace s) (a_sigterm s).

(** ExitStack.enter_context: the context is on the stack once entered; app.py:103-130 *)
Definition set_stack (l : list resource) (s : state) : state :=
  mkState (a_code s) (a_interrupted s) l (a_trace s) (a_sigterm s).

(** signal.signal(SIGTERM, h); app.py:199, 204 *)
Definition set_sigterm (h : nat) (s : state) : state :=
  mkState (a_code s) (a_interrupted s) (a_stack s) (a_trace s) h.

Section E.
Variable e : env.
(** the handler that was installed before (the prev of app.py:199) *)
Variable prev : nat.

(** the interpreter passes point [p]; plumbing of the model, no code of its own *)
Definition at_point (p : point) (s : state) : state * option exn := (s, raises e p).

(** sequence: nothing follows an exception; plumbing of the model, no code of its own *)
Definition seq (a b : state -> state * option exn) (s : state) : state * option exn :=
  match a s with (s', None) => b s' | r => r end.

(** acquiring a resource; for RSigterm this replaces the handler (app.py:199) *)
Definition acquire (r : resource) (s : state) : state * option exn :=
  match raises e (PEnter r) with
  | Some x => (s, Some x)
  | None => (emit (EAcquire r) (match r with RSigterm => set_sigterm slash_handler s | _ => s end), None)
  end.

(** releasing a resource; RSigterm puts the previous handler back (app.py:200-208);
    a failing release does not *)
Definition release (r : resource) (s : state) : state * option exn :=
  match raises e (PLeave r) with
  | Some x => (s, Some x)
  | None => (emit (ERelease r) (match r with RSigterm => set_sigterm prev s | _ => s end), None)
  end.

(** enter_context(c) for the contexts that are one resource; app.py:106-108 *)
Definition enter_context (r : resource) : state -> state * option exn :=
  seq (acquire r) (fun s => (set_stack (r :: a_stack s) s, None)).

(** enter_context(self.session), Session.activate (session.py:74-88): three resources,
    and only then the session is on the stack (represented by RContext) *)
Definition enter_session : state -> state * option exn :=
  seq (acquire RContext) (seq (acquire RSessionLogs) (seq (acquire RSessionWarnings)
    (fun s => (set_stack (RContext :: a_stack s) s, None)))).

(** the exit of one context of the stack; for the session Session.deactivate
    (session.py:90-103), in which an exception skips the rest *)
Definition exit_context (r : resource) : state -> state * option exn :=
  match r with
  | RContext => seq (release RSessionWarnings) (seq (release RSessionLogs) (release RContext))
  | _ => release r
  end.

(** ExitStack.__exit__: every context is exited, last entered first, also when one of
    them raises; the last exception raised by one of them is raised.  None of the
    contexts swallows an exception. app.py:161 *)
Fixpoint unwind (l : list resource) (pending : option exn) (s : state) : state * option exn :=
  match l with
  | [] => (s, pending)
  | r :: l' => match exit_context r s with
               | (s', Some x) => unwind l' (Some x) s'
               | (s', None) => unwind l' pending s'
               end
  end.

(** app.py:146-157 and the reporting, for an exception *)
Definition note_exception (x : exn) (s : state) : state * option exn :=
  let s := set_code (match x with XExit c => c | _ => CInt 1 end) s in
  match match x with XError _ => raises e PReport | _ => None end with
  | Some y => (s, Some y)
  | None => (match x with XInterrupt => set_interrupted s | _ => s end, None)
  end.

(** Application.__exit__, app.py:140-165; the result is what it raises (it returns True
    otherwise) *)
Definition app_exit (x : option exn) : state -> state * option exn :=
  seq (fun s => match raises e PDebug with
                | Some (XError _) | None => (s, None)
                | r => (s, r) end)
  (seq (fun s => match x with Some x => note_exception x s | None => (s, None) end)
  (seq (fun s => match x with
                 | Some _ => seq (at_point PSummary) (fun s => (emit ESummary s, None)) s
                 | None => (s, None) end)
  (seq (fun s => unwind (a_stack s) None (set_stack [] s))
       (seq (at_point PQuit) (fun s => (emit EQuit s, None)))))).

(** the try block of Application.__enter__, app.py:106-133 *)
Definition enter_steps : state -> state * option exn :=
  seq (enter_context RPreludeLogs) (seq (enter_context RPreludeWarnings)
  (seq (enter_context RSigterm) (seq (at_point PSite) (seq (at_point PParse)
  (seq (enter_context RConfig) (seq (at_point PSession) (seq (at_point PPlugins)
  (seq enter_session (seq (at_point PEmit) (at_point PEmitWarnings)))))))))).

(** Application.__enter__, app.py:102-138 *)
Definition app_enter (s : state) : state * option exn :=
  match enter_steps s with
  | (s', None) => (s', None)
  | (s', Some x) => seq (at_point PEmitFailed) (seq (app_exit (Some x)) (fun s => (s, Some x))) s'
  end.

(** the block of [with app:] in slash_run, slash_run.py:35-77 *)
Definition body (s : state) : state * option exn :=
  let s := emit EBody (match sets e with Some c => set_code c s | None => s end) in
  let pending := raises e PBody in
  match (if child e then None else raises e PFinally) with
  | Some x => (s, Some x)
  | None =>
    match pending with
    | Some x => (s, Some x)
    | None => (match a_code s with
               | CInt 0%Z => if success e then s else set_code (CInt 1) s
               | _ => s end, None)
    end
  end.

(** how slash_run ends: the application is returned, or an exception leaves it;
    the last case is the failing assertion of slash_run.py:80 *)
Inductive ending := Returned | Raised (x : exn) | AssertionFailed.

(** slash_run, slash_run.py:18-82 *)
Definition slash_run (s : state) : state * ending :=
  let r := match app_enter s with
           | (s1, Some x) => (s1, Some x)
           | (s1, None) => let '(s2, x) := body s1 in app_exit x s2
           end in
  match r with
  | (s', None) => (s', Returned)
  | (s', Some (XError _ as x)) =>
      match a_code s' with CInt 0%Z => (s', AssertionFailed) | _ => (s', Returned) end
  | (s', Some x) => (s', Raised x)
  end.
End E.

(** sys.exit(c): the exit status of the process (Python library reference, sys.exit;
    the system keeps the low eight bits); frontend/main.py:66-74 *)
Definition status_of (c : code) : Z :=
  match c with CNone => 0 | CInt z => z mod 256 | CText => 1 end.

(** main_entry_point, main.py:66-74: sys.exit(app.exit_code); an exception leaving main
    ends the process with its own status (1 stands for any status that is not 0) *)
Definition process_status (r : state * ending) : Z :=
  match r with
  | (s, Returned) => status_of (a_code s)
  | (_, Raised (XExit c)) => status_of c
  | (_, Raised _) => 1
  | (_, AssertionFailed) => 1
  end.
