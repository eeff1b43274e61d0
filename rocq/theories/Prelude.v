(** What is logged and warned about before the session is active: the handler
    that retains the records (slash/log.py:382-404), the callback that keeps the
    warnings, and where both go when the application has started or failed to
    start (slash/app.py:102-138 and :167-191).

    The stacks of handlers and the way of a record through them are those of
    LogRoute.v.  Not modelled: what is written for a record, warnings without a
    message (Warnings.v), the records of slash.native_warnings made for warnings that
    the session captures (slash/warnings.py:49-50), the rest of the start (App.v).
    The warning that WarnHandler makes of a record (slash/warnings.py:87-89, the place
    DWarning) is a step of its own. *)

From Coq Require Import List Bool Arith.
From Verif Require Import LogRoute.
Import ListNotations.

(** a warning as RecordedWarning keeps it (slash/warnings.py:94-123), by its number *)
Definition warning := nat.

(** what happens while the application starts: a record is logged; a warning is
    raised; ignore_warnings (slash/warnings.py:194-208) with what it matches; the session is
    made (slash/app.py:122); its log handlers are entered, for these
    formatted paths of the log and of the highlights (slash/log.py:167-172, slash/core/session.py:83-84);
    its warnings are captured (slash/core/session.py:86-87) *)
Inductive act :=
| Log (r : record) | Warn (w : warning) | Ignore (f : warning -> bool)
| Make | Bind (sub hi : option nat) | Capture.

(** the retaining handler: _enabled and records (slash/log.py:389-395);
    _prelude_warning_records (slash/app.py:44); _ignored_warnings (slash/warnings.py:191);
    Application.session with its session_log_handler (slash/app.py:40, slash/log.py:142);
    the handlers of the session, last entered first; whether the session captures warnings;
    all that was written, and the warnings of the session (slash/warnings.py:30) *)
Record st := mkSt {
  enabled : bool; kept : list record; kept_w : list warning; ignored : list (warning -> bool);
  session : option (option handler); stack : list handler; captures_w : bool;
  out : list (dest * record); warns : list warning }.

(** a new Application whose prelude contexts were entered; slash/app.py:30-44, :106-107 *)
Definition start : st := mkSt true [] [] [] None [] false [] [].

Section World.
Variable c : conf.
(** emit of the handler feeding the destination raises on the record (a full disk,
    a record that cannot be formatted) *)
Variable raises : dest -> record -> bool.
(** the hook warning_added raises for the warning; slash/warnings.py:53 *)
Variable hook_raises : warning -> bool.

(** whether a record runs through these handlers; as [dispatch], no code of /repo *)
Fixpoint reaches (hs : list handler) (r : record) : bool :=
  match hs with
  | [] => true
  | h :: hs =>
      if interested h r && filter h r then negb (blackhole h) && bubble h && reaches hs r
      else reaches hs r
  end.

(** Handler.handle of logbook reports an exception of emit and goes on; no code of /repo *)
Definition written (l : list dest) (r : record) : list (dest * record) :=
  map (fun d => (d, r)) (List.filter (fun d => negb (raises d r)) l).

(** warning_should_be_filtered; slash/warnings.py:38-42 *)
Definition filtered (s : st) (w : warning) : bool := existsb (fun f => f w) (ignored s).

(** SessionWarnings.add; slash/warnings.py:52-54; false: the hook raised *)
Definition add (w : warning) (s : st) : st * bool :=
  if hook_raises w then (s, false)
  else (mkSt (enabled s) (kept s) (kept_w s) (ignored s) (session s) (stack s) (captures_w s) (out s)
             (warns s ++ [w]), true).

(** one step.  A record meets the handlers of the session, then the retaining
    handler (emit, slash/log.py:393-395; it bubbles, slash/app.py:171), then those of main.  A
    warning goes to the callback set last: slash/warnings.py:44-48 or slash/app.py:167-168.
    What a raising hook does to the code that warned is part of what happens next *)
Definition step (a : act) (s : st) : st :=
  match a with
  | Log r =>
      let low := reaches (stack s) r in
      mkSt (enabled s) (if low && enabled s then kept s ++ [r] else kept s) (kept_w s) (ignored s) (session s)
           (stack s) (captures_w s)
           (out s ++ written (dispatch (stack s) r ++ (if low then dispatch (below c) r else [])) r) (warns s)
  | Warn w =>
      if captures_w s then (if filtered s w then s else fst (add w s))
      else mkSt (enabled s) (kept s) (kept_w s ++ [w]) (ignored s) (session s) (stack s) (captures_w s) (out s) (warns s)
  | Ignore f =>
      mkSt (enabled s) (kept s) (kept_w s) (ignored s ++ [f]) (session s) (stack s) (captures_w s) (out s) (warns s)
  | Make => mkSt (enabled s) (kept s) (kept_w s) (ignored s) (Some None) (stack s) (captures_w s) (out s) []
  | Bind sub hi =>
      let '(hs, h, _) := file_logging c [] sub hi None in
      mkSt (enabled s) (kept s) (kept_w s) (ignored s) (Some h) (hs ++ stack s) (captures_w s) (out s) (warns s)
  | Capture => mkSt (enabled s) (kept s) (kept_w s) (ignored s) (session s) (stack s) true (out s) (warns s)
  end.

(** any number of steps; plumbing of the model, no code of its own *)
Definition steps (l : list act) (s : st) : st := fold_left (fun s a => step a s) l s.

(** _console_handler of the application; slash/app.py:88 *)
Definition app_console : handler := mkHandler (fun r => ERROR <=? level r) yes false true (fun _ => Some DConsole).

(** the loop of flush_to_handler, slash/log.py:397-401: what was emitted, and
    whether the loop ended without an exception *)
Fixpoint flush (h : handler) (l : list record) : list (dest * record) * bool :=
  match l with
  | [] => ([], true)
  | r :: l =>
      if interested h r
      then match feeds h r with
           | Some d => if raises d r then ([], false)
                       else let '(o, ok) := flush h l in ((d, r) :: o, ok)
           | None => flush h l
           end
      else flush h l
  end.

(** _emit_prelude_logs, slash/app.py:184-191, with slash/log.py:397-404; the
    records are dropped only after the loop (:401) *)
Definition emit_logs (s : st) : st * bool :=
  let h := match session s with Some (Some h) => h | _ => app_console end in
  let '(o, ok) := flush h (kept s) in
  (mkSt false (if ok then [] else kept s) (kept_w s) (ignored s) (session s) (stack s) (captures_w s) (out s ++ o) (warns s), ok).

(** the loop of _emit_prelude_warnings; slash/app.py:179-182 *)
Fixpoint add_all (l : list warning) (s : st) : st * bool :=
  match l with
  | [] => (s, true)
  | w :: l => if filtered s w then add_all l s
              else match add w s with (s1, true) => add_all l s1 | r => r end
  end.

(** _emit_prelude_warnings; slash/app.py:178-182 *)
Definition emit_warnings (s : st) : st * bool :=
  match session s with Some _ => add_all (kept_w s) s | None => (s, true) end.

(** __enter__, slash/app.py:102-138: after what happened, either all went well so far
    or something raised ([ok]); the result is whether the application started.
    The exception handler (:135-136) emits the logs again.  What __exit__ (:137)
    does is not part of this model *)
Definition enter (l : list act) (ok : bool) (s : st) : st * bool :=
  let s := steps l s in
  if ok then
    match emit_logs s with
    | (s1, true) => match emit_warnings s1 with
                    | (s2, true) => (s2, true)
                    | (s2, false) => (fst (emit_logs s2), false)
                    end
    | (s1, false) => (fst (emit_logs s1), false)
    end
  else (fst (emit_logs s), false).

(** the prelude contexts entered again for another use of the same Application: a
    new retaining handler, the same records of warnings and the same session, whose contexts
    were left; slash/app.py:106-107, :161, :170-176 *)
Definition reenter (s : st) : st := mkSt true [] (kept_w s) (ignored s) (session s) [] false (out s) (warns s).
End World.
