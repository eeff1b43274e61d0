(** Model of what a result tells besides its state: paths of logs (slash/core/result.py:122-150), times (158-160, 195-197, 252-259), its
    repr (291-299), and the listings of the results of a session (slash/core/result.py:330-361).

    Times are integers, those of datetime.now() at the call; they are arbitrary.  Simplified: of the details only the number is there. *)

From Coq Require Import List Bool Arith ZArith Ascii String.
From Verif Require Import Str Core Results.
Import ListNotations.

(** _start_time, _end_time, _log_path, _extra_logs, slash/core/result.py:37-38, 48-49 *)
Record info := mkInfo { i_start : option Z; i_end : option Z; i_log : option str; i_extra : list str }.
(** Result.__init__, slash/core/result.py:37-49 *)
Definition info0 : info := mkInfo None None None [].

(** the calls that change it: mark_started and mark_finished at a time, set_log_path, add_extra_log_path, slash/core/result.py:127-130,
    139-142, 158-160, 195-197 *)
Inductive op := MarkStarted (now : Z) | MarkFinished (now : Z) | SetLog (p : option str) | AddExtra (p : str).
(** one of them; slash/core/result.py:127-130, 139-142, 158-160, 195-197 *)
Definition step (o : op) (i : info) : info :=
  match o with
  | MarkStarted t => mkInfo (Some t) (i_end i) (i_log i) (i_extra i)
  | MarkFinished t => mkInfo (i_start i) (Some t) (i_log i) (i_extra i)
  | SetLog p => mkInfo (i_start i) (i_end i) p (i_extra i)
  | AddExtra p => mkInfo (i_start i) (i_end i) (i_log i) (i_extra i ++ [p])
  end.
(** any of them, one after the other; slash/core/result.py:127-197 *)
Definition steps (l : list op) : info := fold_left (fun i o => step o i) l info0.

(** get_log_paths, slash/core/result.py:144-150 *)
Definition get_log_paths (i : info) : list str :=
  let logs := match i_log i with None => [] | Some [] => [] | Some p => [p] end in logs ++ i_extra i.

(** get_log_dir, slash/core/result.py:132-137; os.path.dirname is a parameter *)
Definition get_log_dir (dirname : str -> str) (i : info) : option str :=
  match i_log i with None => None | Some p => Some (dirname p) end.

(** get_duration, slash/core/result.py:252-259 *)
Definition get_duration (i : info) : Z :=
  match i_end i, i_start i with
  | Some e, Some s => (e - s)%Z
  | _, _ => 0%Z
  end.

(** the words of repr, slash/core/result.py:295-297 *)
Definition words (r : result) : list str :=
  map fst (filter snd [(lit "success", is_success false r); (lit "error", is_error r); (lit "failure", is_failure r); (lit "skip", is_skip r);
                       (lit "finished", r_finished r); (lit "interrupted", r_interrupted r)]).

(** iter_all_errors, slash/core/result.py:354-361 *)
Definition iter_all_errors (R : results) : list (result * list entry) :=
  flat_map (fun r => match r_errors r with [] => [] | l => [(r, l)] end) (iter_all_results R).
(** iter_all_failures, slash/core/result.py:345-352 *)
Definition iter_all_failures (R : results) : list (result * list entry) :=
  flat_map (fun r => match r_failures r with [] => [] | l => [(r, l)] end) (iter_all_results R).
(** the numbers in the repr of the results of a session, slash/core/result.py:333-338 *)
Definition numbers (R : results) : nat * nat * nat * nat :=
  (get_num_successful R, get_num_errors R, get_num_failures R, get_num_skipped true R).
(** __len__, slash/core/result.py:330-331 *)
Definition results_len (R : results) : nat := List.length (sr_dict R).
