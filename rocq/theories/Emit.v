(** Log records on the console between the pieces of a line in progress: ConsoleHandler.emit (slash/log.py:115-122)
    on the terminal of Terminal.v, with what is simplified there; as in Messages.v the terminal may be one that does
    not understand '\r' (hasmarkup).  A record is the text the handler formats it to, or none if formatting it fails;
    logbook's handler writes the text and a '\n'. *)

From Coq Require Import List Bool Arith Ascii String.
From Verif Require Import Str Loader Terminal Messages.
Import ListNotations.
Local Open Scope list_scope.
Local Open Scope nat_scope.

(** the reporter of a session: one that does nothing on notices (slash/reporting/reporter_interface.py:3-7), or the
    console's (slash/reporting/console_reporter.py:142-146) *)
Inductive reporter := Silent | Console.

(** the reporter that is told; slash/log.py:116 *)
Definition told (session : option (option reporter)) : option reporter :=
  match session with None => None | Some r => r end.

(** slash/log.py:117-118 *)
Definition tell_before (markup : bool) (w : nat) (r : option reporter) (t : term) : term :=
  match r with Some Console => notify_before markup w t | _ => t end.

(** slash/log.py:120-121 *)
Definition tell_after (markup : bool) (w : nat) (r : option reporter) (t : term) : term :=
  match r with Some Console => notify_after markup w t | _ => t end.

(** emit: the terminal afterwards, and whether it returns (or else raises); slash/log.py:115-122 *)
Definition emit (session : option (option reporter)) (markup : bool) (w : nat) (t : term) (record : option str) : term * bool :=
  let r := told session in
  let t := tell_before markup w r t in
  match record with
  | None => (t, false)
  | Some text => (tell_after markup w r (other w t (text ++ [nl])), true)
  end.

(** what happens at the terminal: the reporter writes (slash/reporting/console_reporter.py:105-108), or a record is
    logged (slash/log.py:115-122) *)
Inductive act := Progress (s : str) | Log (record : option str).

(** slash/reporting/console_reporter.py:105-108, slash/log.py:115-122; what emit raises ends in logbook *)
Definition act_on (session : option (option reporter)) (markup : bool) (w : nat) (t : term) (a : act) : term :=
  match a with Progress s => write w t s | Log record => fst (emit session markup w t record) end.
