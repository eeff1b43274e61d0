(** notify_if_slow_context (slash/utils/interactive.py:67-90): a thread that reports
    a message if the body of the context takes long, next to the thread that
    runs the body.

    One step is one access to what the threads share; the steps of the two
    threads come in any order the locks allow, and the time may run out at any
    moment.  Not modelled: the texts, the time it took (slash/utils/interactive.py:64-65, :88-89),
    threads of other contexts. *)

From Coq Require Import List Bool Arith.
Import ListNotations.

(** what the body or the context ends with: an exception of the body, by its number;
    AttributeError of None (slash/utils/interactive.py:90); an exception of the reporter; a
    KeyboardInterrupt while waiting for the thread (:86) *)
Inductive exn := XBody (n : nat) | XAttribute | XReporter | XInterrupt.

(** the thread of the body: in the body; before evt.set(), with the exception of the
    body if any; before thread.join(); before the last report; outside;
    slash/utils/interactive.py:82-90 *)
Inductive main := InBody | BeforeSet (x : option exn) | BeforeJoin (x : option exn) | BeforeEnd (x : option exn) | Out (x : option exn).

(** the notifier: in evt.wait; the wait ended with False; context.session was not None;
    the message was reported; ended; slash/utils/interactive.py:72-76 *)
Inductive notifier := Waiting | TimedOut | Checked | Reported | Ended.

(** what is reported, and to the reporter of which session; slash/utils/interactive.py:75, :90 *)
Inductive report := Message (session : nat) | End (session : nat).

(** the two threads, evt, context.session, should_report_end_msg, and the reports so
    far, the newest first; slash/utils/interactive.py:69-76 *)
Record st := mkSt { s_main : main; s_notifier : notifier; s_evt : bool; s_session : option nat; s_flag : bool; s_reports : list report }.

(** the context was entered while this session was active; slash/utils/interactive.py:69-82 *)
Definition entered (session : option nat) : st := mkSt InBody Waiting false session false [].

(** the steps.  Thread of the body: it changes the context; the body ends; evt.set(); join
    returns, or is interrupted; the end of the context ([ok]: the reporter does not raise).
    Notifier: the time runs out; it wakes up by evt; it looks at context.session; it reports;
    it sets the flag; slash/utils/interactive.py:68-90 *)
Inductive label :=
| LChange (session : option nat) | LBody (x : option nat) | LSet | LJoin | LInterrupt | LEnd (ok : bool)
| LTimeout | LWake | LCheck | LReport (ok : bool) | LFlag.

(** one step; None: it cannot happen now; slash/utils/interactive.py:72-90.  [has_end]: end_message is not None *)
Definition step (has_end : bool) (l : label) (s : st) : option st :=
  let 'mkSt m n evt sess flag reports := s in
  match l, m, n with
  | LChange sess', InBody, _ => Some (mkSt m n evt sess' flag reports)
  | LBody x, InBody, _ => Some (mkSt (BeforeSet (option_map XBody x)) n evt sess flag reports)
  | LSet, BeforeSet x, _ => Some (mkSt (BeforeJoin x) n true sess flag reports)
  | LJoin, BeforeJoin x, Ended => Some (mkSt (BeforeEnd x) n evt sess flag reports)
  | LInterrupt, BeforeJoin _, _ => Some (mkSt (Out (Some XInterrupt)) n evt sess flag reports)
  | LEnd ok, BeforeEnd x, _ =>
      if flag && has_end then
        match sess with
        | None => Some (mkSt (Out (Some XAttribute)) n evt sess flag reports)
        | Some i => Some (mkSt (Out (if ok then x else Some XReporter)) n evt sess flag
                               (if ok then End i :: reports else reports))
        end
      else Some (mkSt (Out x) n evt sess flag reports)
  | LTimeout, _, Waiting => if evt then None else Some (mkSt m TimedOut evt sess flag reports)
  | LWake, _, Waiting => if evt then Some (mkSt m Ended evt sess flag reports) else None
  | LCheck, _, TimedOut => Some (mkSt m (match sess with Some _ => Checked | None => Ended end) evt sess flag reports)
  | LReport ok, _, Checked =>
      match sess with
      | Some i => if ok then Some (mkSt m Reported evt sess flag (Message i :: reports))
                  else Some (mkSt m Ended evt sess flag reports)
      | None => Some (mkSt m Ended evt sess flag reports)
      end
  | LFlag, _, Reported => Some (mkSt m Ended evt sess true reports)
  | _, _, _ => None
  end.

(** any number of steps; plumbing of the model, no code of its own *)
Fixpoint run (has_end : bool) (l : list label) (s : st) : option st :=
  match l with
  | [] => Some s
  | a :: l => match step has_end a s with Some s' => run has_end l s' | None => None end
  end.
