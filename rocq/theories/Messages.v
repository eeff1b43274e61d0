(** What the console reporter writes between the lines of files: messages, error messages, the notice of the debugger
    (slash/reporting/console_reporter.py:142-152, 427-437) and the number of collected tests (slash/reporting/console_reporter.py:154-171,
    as called by slash/loader.py:94-104).

    On the terminal of Terminal.v, with what is simplified there; here the terminal may also be one that does not
    understand '\r' (hasmarkup), or no terminal (isatty).  str() of exceptions is given. *)

From Coq Require Import List Bool Arith Ascii String.
From Verif Require Import Str Loader Terminal.
Import ListNotations.
Local Open Scope list_scope.
Local Open Scope nat_scope.

(** notify_before_console_output; slash/reporting/console_reporter.py:118-122, 142-143 *)
Definition notify_before (markup : bool) (w : nat) (t : term) : term := if markup then clear w t else t.

(** notify_after_console_output; slash/reporting/console_reporter.py:124-127, 145-146 *)
Definition notify_after (markup : bool) (w : nat) (t : term) : term := if markup then restore w t else t.

(** report_message; slash/reporting/console_reporter.py:427-431 *)
Definition report_message (markup : bool) (w : nat) (t : term) (msg : str) : term :=
  notify_after markup w (write w (write w (notify_before markup w t) msg) [nl]).

(** report_error_message; slash/reporting/console_reporter.py:433-437 *)
Definition report_error_message (markup : bool) (w : nat) (t : term) (msg : str) : term :=
  notify_after markup w (write w (write w (notify_before markup w t) (lit "ERROR: " ++ msg)) [nl]).

(** report_before_debugger; slash/reporting/console_reporter.py:148-152 *)
Definition report_before_debugger (markup : bool) (w : nat) (t : term) (type value : str) : term :=
  notify_after markup w (write w (notify_before markup w t) (lit "Exception caught in debugger: " ++ type ++ lit " " ++ value ++ [nl])).

(** _report_num_collected; slash/reporting/console_reporter.py:163-171 *)
Definition report_num_collected (tty : bool) (w : nat) (t : term) (n : nat) (stillworking : bool) : term :=
  let text := digits n ++ lit " tests collected" ++ (if stillworking then lit "..." else lit "   " ++ [nl]) in
  if tty then write w (write w t [cr]) text
  else if stillworking then t
  else write w t text.

(** the loop of _collect over [n] tests; slash/loader.py:97-100, slash/reporting/console_reporter.py:157-158 *)
Fixpoint collected (tty : bool) (w : nat) (t : term) (n : nat) : term :=
  match n with
  | 0 => report_num_collected tty w t 0 true
  | S m => report_num_collected tty w (collected tty w t m) (S m) true
  end.

(** _collect of [n] tests; slash/loader.py:94-104,
    slash/reporting/console_reporter.py:154-161 *)
Definition collect (tty : bool) (w : nat) (t : term) (n : nat) : term :=
  report_num_collected tty w (collected tty w t n) n false.
