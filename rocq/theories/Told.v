(** The numbers a notification tells of the results of a session
    (slash/plugins/builtin/notifications.py:190-205, slash/core/result.py:333-338).
    Results are those of Results.v, notifications those of Notify.v; the numbers of
    the HTML message are the fields below, its template is not modelled. *)

From Coq Require Import List Bool Arith Ascii String.
From Verif Require Import Str Core Results Loader Notify.
Import ListNotations.
Local Open Scope list_scope.

(** SessionResults.__repr__; slash/core/result.py:333-338 *)
Definition results_repr (R : results) : str :=
  lit "<Results: " ++ digits (get_num_successful R) ++ lit " successful, " ++ digits (get_num_errors R) ++ lit " errors, " ++
  digits (get_num_failures R) ++ lit " failures, " ++ digits (get_num_skipped true R) ++ lit " skips>".

(** the numbers and texts of the message that depend on the results: result, success, results_summary, total_num_tests and
    non_successful_tests; slash/plugins/builtin/notifications.py:193-205 *)
Record told := mkTold { t_result : str; t_success : bool; t_summary : str; t_total : nat; t_bad : nat }.

(** slash/plugins/builtin/notifications.py:193-205 *)
Definition tell (pdb : bool) (R : results) : told :=
  mkTold (if pdb then lit "entered PDB" else if results_success true R then lit "Succeeded" else lit "Failed")
         (results_success true R)
         (replace1 ">" [] (replace1 "<" [] (results_repr R)))
         (get_num_results R)
         (get_num_errors R + get_num_failures R).

(** what the plugin sees of a session with these results; slash/plugins/builtin/notifications.py:195-214 *)
Definition session_of (id host : str) (duration : nat) (others : kwargs) (backslash : option (str * str)) (R : results) : sess :=
  mkSess id host duration (t_summary (tell false R)) others backslash.
