(** Model of SessionResults and of the result predicates, core/result.py.
    The result record and its mutators are those of Core.v. *)

From Coq Require Import List Bool Arith ZArith.
From Verif Require Import Events Core.
Import ListNotations.

(** Result.is_run_and_skip, is_success_finished: core/result.py:179-180, 189-190 *)
Definition is_run_and_skip (r : result) : bool := r_started r && is_skip r.
(** core/result.py:189-190 *)
Definition is_success_finished (r : result) : bool := is_success false r && r_finished r.

(** SessionResults (core/result.py:321-328): the dictionary of test results in
    insertion order, the global result; from the session: whether it has
    parallel children (core/session.py has_children) and whether a worker error
    was reported to the server. *)
Record results := mkResults {
  sr_dict : list (nat * result);
  sr_global : result;
  sr_children : bool;
  sr_worker_error : bool }.

(** core/result.py:423-431 *)
Definition iter_test_results (R : results) : list result := map snd (sr_dict R).
(** core/result.py:428-431 *)
Definition iter_all_results (R : results) : list result := iter_test_results R ++ [sr_global R].

(** GlobalResult.is_success, core/result.py:311-318 (its _session_results is set),
    called by SessionResults.is_success 374-379 *)
Definition results_success (allow_skips : bool) (R : results) : bool :=
  if negb (is_success allow_skips (sr_global R)) then false
  else if sr_children R && sr_worker_error R then false
  else forallb (is_success allow_skips) (iter_test_results R).

(** core/result.py:381-384 *)
Definition results_interrupted (R : results) : bool := existsb r_interrupted (iter_test_results R).

(** _count, core/result.py:414-421 *)
Definition count (pred : result -> bool) (include_global : bool) (R : results) : nat :=
  length (filter pred (if include_global then iter_all_results R else iter_test_results R)).

(** core/result.py:386-412 *)
Definition get_num_results (R : results) : nat := length (sr_dict R).
(** core/result.py:389-390 *)
Definition get_num_started := count r_started false.
(** core/result.py:392-393 *)
Definition get_num_successful := count is_success_finished false.
(** core/result.py:395-396 *)
Definition get_num_errors := count is_error true.
(** core/result.py:398-399 *)
Definition get_num_failures := count is_just_failure true.
(** core/result.py:401-404 *)
Definition get_num_skipped (include_not_run : bool) :=
  count (if include_not_run then is_skip else is_run_and_skip) true.
(** core/result.py:406-407 *)
Definition get_num_not_run := count is_not_run false.
(** core/result.py:409-412 *)
Definition results_fatal (R : results) : bool := negb (Nat.eqb (count has_fatal true R) 0).

(** create_result, core/result.py:433-439; None = SlashInternalError *)
Definition sr_create (t : nat) (R : results) : option results :=
  match lookup t (sr_dict R) with
  | Some _ => None
  | None => Some (mkResults (sr_dict R ++ [(t, result0)]) (sr_global R) (sr_children R) (sr_worker_error R))
  end.

(** get_result / safe_get_result, core/result.py:441-451 (test.__slash__ set);
    None = KeyError, respectively the value None *)
Definition sr_get (t : nat) (R : results) : option result := lookup t (sr_dict R).

(** __getitem__ with a number, core/result.py:453-458; islice refuses negative
    numbers with ValueError *)
Inductive item_res := GotItem (r : result) | IndexErr | ValueErr.
(** core/result.py:453-459 *)
Definition sr_item (i : Z) (R : results) : item_res :=
  if (i <? 0)%Z then ValueErr
  else match nth_error (map snd (sr_dict R)) (Z.to_nat i) with
       | Some r => GotItem r
       | None => IndexErr
       end.

(** any sequence of create_result calls; refused ones leave everything alone; core/result.py:433-439 *)
Fixpoint sr_creates (ts : list nat) (R : results) : results :=
  match ts with
  | [] => R
  | t :: ts => sr_creates ts (match sr_create t R with Some R' => R' | None => R end)
  end.
