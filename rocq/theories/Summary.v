(** The summary the console reporter writes at the end of a session
    (slash/reporting/console_reporter.py:180-367), as the list of the pieces it
    writes.  Not modelled: themes (colours), the time in the header of an error,
    the values of variables; failing writes, which are swallowed
    (console_reporter.py:42-49). *)

From Coq Require Import List Bool Arith Ascii String.
From Verif Require Import Str.
Import ListNotations.
Local Open Scope list_scope.

(** VERBOSITIES, the numbers of logbook; slash/log.py:355-362 *)
Definition INFO := 11.
(** slash/log.py:360 *)
Definition WARNING := 13.
(** slash/log.py:361 *)
Definition ERROR := 14.

(** a frame of a distilled traceback: file and line, the lines of code from the
    beginning of the function to this line (none if the source is not found);
    slash/utils/traceback_utils.py:136-152.  The code_line is the last of them
    (there without blanks at its end). *)
Record frame := mkFrame { file : str; line : nat; code : list str }.

(** an error: its message, whether it was made of an exception, whether the
    message was given (has_custom_message), the frames of its traceback.  The
    traceback is an object, so it is true even without frames;
    slash/core/error.py:24-47 *)
Record err := mkErr { message : str; of_exception : bool; custom : bool; frames : list frame }.

(** the reason of a skip: None, a string, another object; slash/core/result.py:247-250 *)
Inductive reason := NoReason | Text (s : str) | Object.

(** a result of a test: address, errors, failures, skips, whether it was started,
    the details (keys and the repr of values), the log path;
    slash/core/result.py:32-49 *)
Record result := mkResult {
  address : str; errors : list err; failures : list err; skips : list reason; started : bool;
  interrupted : bool; details : list (str * str); log_path : option str }.

(** a warning: file, line and message; slash/warnings.py:94-106 *)
Record warning := mkWarning { w_file : str; w_line : nat; w_message : str }.

(** the verbosity of the reporter, console_traceback_level and
    show_manual_errors_tb; slash/conf.py:55 and :66 *)
Record conf := mkConf { level : nat; tb : nat; manual_tb : bool }.

(** what is written: the newline that ends a sequence of dots, the title, the
    header of a test, the header of the details and the details, a message
    alone, the header of an error (number, count, kind), a message that was given,
    the separator of frames, a location, the variables of a frame, a line of code
    (marked or not), the kind and message after the last frame, a skip, the
    warnings, the last line; slash/reporting/console_reporter.py:184-213, 227-229,
    246-253, 264-275, 290-303, 316-317, 331, 341-345, 356-366 *)
Inductive piece :=
| Newline | Title | Header (n : nat) (address : str) | DetailsHeader | Detail (k v : str)
| Manual (m : str) | ErrHeader (i n : nat) (failure : bool) | Custom (m : str) | FrameSep | Location (f : str) (l : nat)
| Variables (f : frame) | Code (marked : bool) (text : str) | Final (failure : bool) (m : str)
| Skipped (reasons : list str) | WarnTitle (total : nat) | Warn (f : str) (l : nat) (m : str) (times : nat) | Ended.

(** the exceptions that may leave the reporter; Python's *)
Inductive exn := IndexError | TypeError.

(** what was written before the end or an exception; no code of /repo *)
Definition out := (list piece * option exn)%type.

(** one after the other; plumbing of the model *)
Definition andthen (a b : out) : out :=
  match snd a with Some e => a | None => (fst a ++ fst b, snd b) end.
(** plumbing of the model *)
Fixpoint all (l : list out) : out := match l with [] => ([], None) | a :: l => andthen a (all l) end.
(** plumbing of the model *)
Definition write (l : list piece) : out := (l, None).
(** plumbing of the model *)
Definition write_if (b : bool) (l : list piece) : out := write (if b then l else []).

(** _verobsity_allows; slash/reporting/console_reporter.py:255-256 *)
Definition allows (c : conf) (l : nat) : bool := level c <=? l.

(** [for i, x in iteration(l)]: each element, whether it is the first, whether it
    is the last; slash/utils/iteration.py:50-80 *)
Fixpoint flagged' {A} (first : bool) (l : list A) : list (A * bool * bool) :=
  match l with
  | [] => []
  | x :: l => (x, first, match l with [] => true | _ => false end) :: flagged' false l
  end.
(** slash/utils/iteration.py:50-58 *)
Definition flagged {A} (l : list A) := flagged' true l.

(** _write_frame_code; slash/reporting/console_reporter.py:347-367 *)
Definition write_frame_code (f : frame) (context : bool) : list piece :=
  let lines := if context then code f else match rev (code f) with l :: _ => [l] | [] => [] end in
  map (fun x => Code (snd x) (fst (fst x))) (flagged lines).

(** one round of the loop of _report_traceback; slash/reporting/console_reporter.py:286-303 *)
Definition write_frame (c : conf) (failure : bool) (e : err) (x : frame * bool * bool) : list piece :=
  let '(f, first, last) := x in
  (if 4 <=? tb c then (if first then [] else [FrameSep]) else []) ++
  [Location (file f) (line f)] ++
  (if 4 <=? tb c then [Variables f] else []) ++
  write_frame_code f (3 <=? tb c) ++
  (if last then [Final failure (message e)] else []).

(** _report_traceback; slash/reporting/console_reporter.py:278-303 *)
Definition report_traceback (c : conf) (failure : bool) (e : err) : out :=
  let fs := match tb c with
            | 0 => Some []
            | 1 => match rev (frames e) with f :: _ => Some [f] | [] => None end
            | _ => Some (frames e)
            end in
  match fs with
  | None => ([], Some IndexError)
  | Some fs => write (flat_map (write_frame c failure e) (flagged fs))
  end.

(** one round of the loop of _report_result_errors_failures;
    slash/reporting/console_reporter.py:262-276 *)
Definition report_error (c : conf) (total index : nat) (x : bool * err) : out :=
  let (failure, e) := x in
  if negb (of_exception e) && negb (manual_tb c) then write [Manual (message e)]
  else
    andthen (write (ErrHeader (index + 1) total failure :: if custom e then [Custom (message e)] else []))
            (report_traceback c failure e).

(** enumerate; a Python operation, no code of /repo *)
Fixpoint numbered {A} (n : nat) (l : list A) : list (nat * A) :=
  match l with [] => [] | x :: l => (n, x) :: numbered (S n) l end.

(** _report_result_errors_failures; slash/reporting/console_reporter.py:258-276 *)
Definition report_errors (c : conf) (r : result) : out :=
  let l := map (pair false) (errors r) ++ map (pair true) (failures r) in
  all (map (fun x => report_error c (List.length l) (fst x) (snd x)) (numbered 0 l)).

(** is_success of a result; slash/core/result.py:182-187 *)
Definition is_success (r : result) : bool :=
  match errors r, failures r with
  | [], [] => if interrupted r then false else match skips r with [] => started r | _ => false end
  | _, _ => false
  end.

(** _report_additional_test_details; slash/reporting/console_reporter.py:305-317 *)
Definition report_details (r : result) : out :=
  if is_success r then write []
  else
    let items := details r ++ match log_path r with Some p => [(lit "Log", p)] | None => [] end in
    write (match items with [] => [] | _ => DetailsHeader :: map (fun kv => Detail (fst kv) (snd kv)) items end).

(** the reasons joined: None ones are left out, a reason that is no string is a
    TypeError of [join] (None); slash/reporting/console_reporter.py:326-328 *)
Fixpoint reasons (l : list reason) : option (list str) :=
  match l with
  | [] => Some []
  | NoReason :: l => reasons l
  | Text s :: l => option_map (cons s) (reasons l)
  | Object :: _ => None
  end.

(** _report_result_skip_summary; slash/reporting/console_reporter.py:324-331 *)
Definition report_skips (r : result) : out :=
  match reasons (skips r) with Some l => write [Skipped l] | None => ([], Some TypeError) end.

(** has_errors_or_failures; slash/core/result.py:119-120 *)
Definition has_errors (r : result) : bool := match errors r, failures r with [], [] => false | _, _ => true end.
(** has_skips; slash/core/result.py:282-283 *)
Definition has_skips (r : result) : bool := match skips r with [] => false | _ => true end.

(** _get_result_info_generators; slash/reporting/console_reporter.py:231-238 *)
Definition infos (c : conf) (r : result) : list (result -> out) :=
  (if allows c ERROR && has_errors r then [report_errors c] else []) ++
  (if allows c INFO && has_skips r then [report_skips] else []).

(** _iter_reported_results; slash/reporting/console_reporter.py:220-225 *)
Definition reported (c : conf) (rs : list result) : list (nat * result) :=
  filter (fun x => match infos c (snd x) with [] => false | _ => true end) (numbered 0 rs).

(** one round of the loop of report_session_end; slash/reporting/console_reporter.py:188-194, 227-229 *)
Definition report_test (c : conf) (x : nat * (nat * result)) : out :=
  let '(index, (n, r)) := x in
  all (write_if (Nat.eqb index 0) [Title] :: write [Header (n + 1) (address r)] :: report_details r :: map (fun f => f r) (infos c r)).

(** the keys of two warnings are equal; slash/warnings.py:92 and :102 *)
Definition same_key (a b : warning) : bool := str_eqb (w_file a) (w_file b) && Nat.eqb (w_line a) (w_line b).

(** warnings_by_key.setdefault(warning.key, []).append(warning);
    slash/reporting/console_reporter.py:241-243 *)
Fixpoint add_warning (w : warning) (d : list (list warning)) : list (list warning) :=
  match d with
  | [] => [[w]]
  | g :: d => if match g with x :: _ => same_key x w | [] => false end then (g ++ [w]) :: d else g :: add_warning w d
  end.

(** warnings_by_key; slash/reporting/console_reporter.py:241-243 *)
Definition by_key (ws : list warning) : list (list warning) := fold_left (fun d w => add_warning w d) ws [].

(** _report_result_warning_summary; slash/reporting/console_reporter.py:240-253 *)
Definition report_warnings (ws : list warning) : out :=
  write (match by_key ws with
         | [] => []
         | d => WarnTitle (List.length ws) ::
                flat_map (fun g => match g with w :: _ => [Warn (w_file w) (w_line w) (w_message w) (List.length g)] | [] => [] end) d
         end).

(** report_session_end; slash/reporting/console_reporter.py:180-213 *)
Definition report_session_end (c : conf) (rs : list result) (ws : list warning) : out :=
  all (write_if (negb (allows c WARNING)) [Newline]
       :: map (report_test c) (numbered 0 (reported c rs))
       ++ [if allows c WARNING then report_warnings ws else write []; write [Ended]]).
