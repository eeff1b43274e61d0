(** Where a log record goes: the stacks of log handlers of a session and of a
    test (slash/log.py:178-203) and how a record runs through them.

    How logbook passes a record along is a property of that library, not of
    slash; [dispatch] is its documented behaviour (the handler entered last is
    asked first; a handler that is not interested or whose filter refuses the
    record is passed over; one that does not bubble ends the journey).
    Not modelled: formatting, colours, what the handlers write, closing and
    deletion of files (LogFiles.v), handlers entered by user code other than
    with add_log_handler. *)

From Coq Require Import List Bool Arith.
Import ListNotations.

(** a log record: its level, its channel, whether the channel is one of
    filtered_channels (slash/log.py:22-23), the entries filter_bypass, highlight and
    capture of its extra dictionary (slash/log.py:125, :215 and :30), whether
    the channel is that of the native warnings (slash/warnings.py:83), and whether
    it is logged by the thread that entered the context *)
Record record := mkRecord {
  level : nat; channel : nat; core : bool; bypass : bool; highlight : bool; capture : bool; native : bool; own_thread : bool }.

(** the levels used; logbook's numbers, no code of /repo *)
Definition WARNING := 13.
(** no code of /repo *)
Definition ERROR := 14.

(** a path of a log file: the formatted template, and whether a suffix for the
    compression is added; slash/log.py:228-237 *)
Definition path := (nat * bool)%type.

(** where a record may end up: a log file, a rotating raw file, the console, the
    native warnings, the terminal in unittest mode, the handler of a user, the
    errors of the current result, the terminal by the handler of main;
    slash/log.py:178-203, slash/frontend/main.py:61-63 *)
Inductive dest :=
| DFile (p : path) | DRaw (p : path) | DConsole | DWarning | DUnittest | DExtra (n : nat) | DError | DStderr.

(** a handler: should_handle, filter, blackhole, bubble, and what it feeds
    ([fun _ => None]: nothing); the constructors of slash/log.py:25-31, :133-146,
    :239-253, :324-329 and :368-374 *)
Record handler := mkHandler {
  interested : record -> bool;
  filter : record -> bool;
  blackhole : bool;
  bubble : bool;
  feeds : record -> option dest
}.

(** a handler of a user: what it is interested in (level and filter), and whether
    it bubbles; slash/log.py:344-348 *)
Record extra := mkExtra { x_id : nat; x_wants : record -> bool; x_bubble : bool }.

(** the configuration; slash/conf.py:18-104.  [silenced]: silence_loggers;
    [compressed]: compression.enabled; [rotating]: compression.use_rotating_raw_file;
    [captures]: run.capture.error_logs_as_errors;
    [terminal]: the level of the handler of main (slash/frontend/main.py:60) *)
Record conf := mkConf {
  has_root : bool; core_level : nat; console_level : nat; silenced : list nat; compressed : bool; rotating : bool;
  unittest : bool; unified : bool; captures : bool; extras : list extra; terminal : nat }.

(** slash/log.py:184 *)
Definition raw_too (c : conf) : bool := compressed c && rotating c.

(** _slash_logs_filter; slash/log.py:124-127 *)
Definition slash_filter (c : conf) (r : record) : bool := bypass r || negb (core r) || (core_level c <=? level r).

(** always; plumbing of the model, no code of its own *)
Definition yes (r : record) : bool := true.

(** logbook.NullHandler(filter=filter); slash/log.py:257-258 *)
Definition null_handler (c : conf) : handler := mkHandler yes (slash_filter c) true false (fun _ => None).

(** the handlers made by _create_log_file_handler; slash/log.py:239-253 *)
Definition file_handler (flt : record -> bool) (bub : bool) (d : dest) : handler :=
  mkHandler yes flt false bub (fun _ => Some d).

(** the console handler; slash/log.py:139 *)
Definition console_handler (c : conf) : handler :=
  mkHandler (fun r => console_level c <=? level r) (slash_filter c) false true (fun _ => Some DConsole).

(** WarnHandler; slash/warnings.py:76-89 *)
Definition warn_handler : handler :=
  mkHandler (fun r => negb (native r) && Nat.eqb (level r) WARNING) yes false true (fun _ => Some DWarning).

(** SilencedLoggersHandler; slash/log.py:324-329 *)
Definition silencer (c : conf) : handler :=
  mkHandler (fun r => existsb (Nat.eqb (channel r)) (silenced c)) yes false false (fun _ => None).

(** the handler of slash/log.py:193-194, entered for the current thread only (logbook:
    a handler used as a context itself, not with applicationbound) *)
Definition unittest_handler : handler := mkHandler own_thread yes false true (fun _ => Some DUnittest).

(** slash/log.py:195-196 and :344-348 *)
Definition extra_handler (x : extra) : handler := mkHandler (x_wants x) yes false (x_bubble x) (fun _ => Some (DExtra (x_id x))).

(** _BubblingWrapper: should_handle and handle of the wrapped handler, a filter of
    its own (none); slash/log.py:365-374; entered for the current thread only;
    slash/log.py:197-198 *)
Definition bubbling (h : handler) : handler := mkHandler (fun r => own_thread r && interested h r) yes false true (feeds h).

(** ErrorHandler; slash/log.py:25-31 *)
Definition error_handler : handler :=
  mkHandler (fun r => ERROR <=? level r) yes false true (fun r => if capture r then Some DError else None).

(** _log_path_to_handler: the handlers of open files; slash/log.py:146, :262-264 and :272 *)
Definition opened := list (path * handler).

(** a Python operation, no code of /repo: equality of paths *)
Definition path_eqb (p q : path) : bool := Nat.eqb (fst p) (fst q) && Bool.eqb (snd p) (snd q).

(** a Python operation, no code of /repo: lookup in a dictionary *)
Fixpoint look (o : opened) (p : path) : option handler :=
  match o with [] => None | (q, h) :: o => if path_eqb q p then Some h else look o p end.

(** _log_file_handler_context; slash/log.py:255-286.  The handler to push (None:
    NoopHandler, nothing is pushed) and the files open inside *)
Definition file_context (c : conf) (o : opened) (sub : option nat) (suffix : bool) (bub : bool) (flt : record -> bool) (raw : bool)
  : option handler * opened :=
  match sub, has_root c with
  | Some n, true =>
      let p := (n, suffix) in
      match look o p with
      | Some h => (Some h, o)
      | None => let h := file_handler flt bub (if raw then DRaw p else DFile p) in (Some h, (p, h) :: o)
      end
  | _, _ => ((if bub then None else Some (null_handler c)), o)
  end.

(** a handler that may be missing; plumbing of the model, no code of its own *)
Definition opt {A} (x : option A) : list A := match x with Some a => [a] | None => [] end.
(** plumbing of the model, no code of its own *)
Definition only_if {A} (b : bool) (l : list A) : list A := if b then l else [].

(** _get_file_logging_context: the handlers pushed, the last one first, the
    handler of the log file and the open files; slash/log.py:178-203, with
    _get_error_logging_context (:210-221) and _get_silenced_logs_context (:223-226).
    [sub], [hi]: the formatted paths of the log and of the highlights;
    [session]: session_log_handler *)
Definition file_logging (c : conf) (o : opened) (sub hi : option nat) (session : option handler)
  : list handler * option handler * opened :=
  let '(h1, o1) := file_context c o sub (compressed c) false (slash_filter c) false in
  let '(h2, o2) := if raw_too c then file_context c o1 sub false true (slash_filter c) true else (None, o1) in
  let '(h3, o3) := file_context c o2 hi false true highlight false in
  (only_if (captures c) [error_handler] ++
   only_if (unified c) (map bubbling (opt session)) ++
   rev (map extra_handler (extras c)) ++
   only_if (unittest c) [unittest_handler] ++
   only_if (negb (match silenced c with [] => true | _ => false end)) [silencer c] ++
   opt h3 ++ [warn_handler; console_handler c] ++ opt h2 ++ opt h1, h1, o3).

(** the handlers of main, below everything: RetainedLogHandler is disabled while
    a session is active (slash/app.py:171 and :185) and bubbles; the terminal; NullHandler;
    slash/frontend/main.py:61-63 *)
Definition below (c : conf) : list handler :=
  [mkHandler (fun r => terminal c <=? level r) yes false false (fun _ => Some DStderr);
   mkHandler yes yes true false (fun _ => None)].

(** how logbook passes a record along: where it ends up, in order.  No code of
    /repo (see the head of this file) *)
Fixpoint dispatch (hs : list handler) (r : record) : list dest :=
  match hs with
  | [] => []
  | h :: hs =>
      if interested h r && filter h r
      then if blackhole h then []
           else opt (feeds h r) ++ (if bubble h then dispatch hs r else [])
      else dispatch hs r
  end.

(** the formatted paths of a session and of a test, log and highlights;
    slash/log.py:153, :169 and :213 *)
Record paths := mkPaths { s_log : option nat; s_high : option nat; t_log : option nat; t_high : option nat }.

(** a record logged outside of the tests, get_session_logging_context; slash/log.py:166-176 *)
Definition in_session (c : conf) (p : paths) (r : record) : list dest :=
  let '(hs, _, _) := file_logging c [] (s_log p) (s_high p) None in
  dispatch (hs ++ below c) r.

(** a record logged in a test, get_test_logging_context inside
    get_session_logging_context; slash/log.py:151-176 *)
Definition in_test (c : conf) (p : paths) (r : record) : list dest :=
  let '(hs, h, o) := file_logging c [] (s_log p) (s_high p) None in
  let '(ht, _, _) := file_logging c o (t_log p) (t_high p) h in
  dispatch (ht ++ hs ++ below c) r.
