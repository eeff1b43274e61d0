(** Model of resuming.py (statuses 43-47, save_resume_state 101-133,
    clean_old_entries 90-98, get_last_resumeable_session_id 136-144,
    get_tests_locally 173-184, _filter_tests 186-206, _sort_tests 208-217,
    get_tests_from_previous_session 219-225), of the equality of test metadata
    (core/metadata.py:66-87, 139-148), of loader.py _iter_test_resume 126-134 and
    of the part of frontend/slash_run.py (50-57) that collects for resume/rerun.
    Simplified: file names, addresses and parameter names are numbers; the
    database is a list of rows (the commit and its retries, 76-87, always
    succeed unless a session id is inserted twice); the remote server is a
    parameter. *)

From Coq Require Import List Bool Arith.
From Verif Require Import Events Core Results Dict.
Import ListNotations.

(** ResumeTestStatus, resuming.py:43-47 *)
Inductive rstatus := Planned | Success | Failed | Skipped.

(** a Python operation, no code of /repo *)
Definition rstatus_eqb (a b : rstatus) : bool :=
  match a, b with
  | Planned, Planned | Success, Success | Failed, Failed | Skipped, Skipped => true
  | _, _ => false
  end.

(** Variation.id, core/variation.py:37-42: parameter name -> index of its value *)
Notation var_id := (list (nat * nat)).

(** The metadata of a test (core/metadata.py): [m_id] the id allocated by the
    loader (89-92), [m_file] file_path, [m_aif] address_in_file, [m_var] the id
    of its variation ([[]]: falsy variation, core/variation.py:93-96), [m_address]
    the string get_address() returns (66-85: file, address in file and the
    safe_repr of the variation, which distinct variations can share). *)
Record md := mkMd { m_id : nat; m_file : nat; m_aif : nat; m_var : var_id; m_address : nat }.

(** ResumedTestData resuming.py:50-56 / the columns of ResumeState 26-33 *)
Record row := mkRow { w_file : nat; w_aif : nat; w_var : option var_id; w_status : rstatus }.

(** [str(metadata.variation.id) if metadata.variation else None] (resuming.py:111, 127), read
    back by literal_eval (181) *)
Definition saved_var (m : md) : option var_id :=
  match m_var m with [] => None | v => Some v end.

(** resuming.py:112-120 *)
Definition saved_status (r : result) : rstatus :=
  let s := if is_success_finished r then Success
           else if negb (r_started r) then Planned
           else Failed in
  if is_skip r then Skipped else s.

(** resuming.py:110-111, 125-127 *)
Definition row_of (m : md) (s : rstatus) : row := mkRow (m_file m) (m_aif m) (saved_var m) s.

(** SessionResults.safe_get_result (core/result.py:448-451) in a table given with
    the metadata of the tests *)
Definition result_of (m : md) (results : list (md * result)) : option result :=
  option_map snd (find (fun mr => Nat.eqb (m_id (fst mr)) (m_id m)) results).

(** inserting in a Python set: an element equal to a present one is dropped;
    Metadata.__eq__/__hash__ are those of the address, core/metadata.py:139-148 *)
Definition set_insert (acc : list md) (m : md) : list md :=
  if existsb (fun m' => Nat.eqb (m_address m') (m_address m)) acc then acc else acc ++ [m].

(** 122: the set comprehension; resuming.py:122 *)
Definition without_results (results : list (md * result)) (collected : list md) : list md :=
  fold_left set_insert
    (filter (fun m => match result_of m results with None => true | Some _ => false end) collected) [].

Section Order.
(** the order in which a set is iterated *)
Variable set_order : list md -> list md.

(** resuming.py:107-128 *)
Definition saved_rows (results : list (md * result)) (collected : list md) : list row :=
  map (fun mr => row_of (fst mr) (saved_status (snd mr))) results
  ++ map (fun m => row_of m Planned) (set_order (without_results results collected)).
End Order.

(** SessionMetadata resuming.py:36-40 *)
Record smeta := mkSmeta { q_sid : nat; q_folder : nat; q_created : nat }.

(** the two tables, resuming.py:26-40; rows in order of their primary key *)
Record db := mkDb { db_sessions : list smeta; db_rows : list (nat * row) }.

(** resuming.py:102-105, 131-133; None: the session id is already present (primary key) *)
Definition save (sid folder now : nat) (rows : list row) (d : db) : option db :=
  if existsb (fun q => Nat.eqb (q_sid q) sid) (db_sessions d) then None
  else Some (mkDb (db_sessions d ++ [mkSmeta sid folder now]) (db_rows d ++ map (pair sid) rows)).

(** resuming.py:90-98: [limit] = now - retention *)
Definition clean_old_entries (limit : nat) (d : db) : db :=
  let old q := Nat.ltb (q_created q) limit in
  let ids := map q_sid (filter old (db_sessions d)) in
  mkDb (filter (fun q => negb (old q)) (db_sessions d))
       (filter (fun sr => negb (existsb (Nat.eqb (fst sr)) ids)) (db_rows d)).

(** resuming.py:136-144: newest session of the folder; None: CannotResume *)
Fixpoint newest (folder : nat) (best : option smeta) (l : list smeta) : option smeta :=
  match l with
  | [] => best
  | q :: l' =>
      newest folder
        (if Nat.eqb (q_folder q) folder then
           match best with
           | Some b => if Nat.ltb (q_created b) (q_created q) then Some q else Some b
           | None => Some q
           end
         else best) l'
  end.
(** resuming.py:136-144 *)
Definition get_last_resumeable_session_id (folder : nat) (d : db) : option nat :=
  option_map q_sid (newest folder None (db_sessions d)).

(** resuming.py:173-184 *)
Definition get_tests_locally (sid : nat) (d : db) : list row :=
  if existsb (fun q => Nat.eqb (q_sid q) sid) (db_sessions d) then
    map snd (filter (fun sr => Nat.eqb (fst sr) sid) (db_rows d))
  else [].

(** config.root.resume, conf.py:121-130 *)
Record switches := mkSw {
  unstarted_only : bool; failed_only : bool; no_skipped : bool;
  unstarted_first : bool; failed_first : bool }.

(** resuming.py:193-205 (list.remove drops the first occurrence; there is at most one) *)
Definition filtered_status (sw : switches) (get_successful : bool) : list rstatus :=
  let l := (if get_successful then [Success] else [])
           ++ (if unstarted_only sw then [Planned; Skipped]
               else if failed_only sw then [Failed]
               else [Failed; Planned; Skipped]) in
  if no_skipped sw then filter (fun s => negb (rstatus_eqb s Skipped)) l else l.

(** resuming.py:186-206; None: CannotResume *)
Definition filter_tests (sw : switches) (get_successful : bool) (tests : list row) : option (list row) :=
  if unstarted_only sw && failed_only sw then None
  else if no_skipped sw && failed_only sw then None
  else Some (filter (fun t => existsb (rstatus_eqb (w_status t)) (filtered_status sw get_successful)) tests).

(** resuming.py:208-217 ([status in 'planned'] is a substring test; for the four statuses it
    is equality); None: CannotResume *)
Definition sort_tests (sw : switches) (tests : list row) : option (list row) :=
  if unstarted_first sw && failed_first sw then None
  else if failed_first sw || unstarted_first sw then
    let w := if unstarted_first sw then Planned else Failed in
    Some (filter (fun t => rstatus_eqb (w_status t) w) tests
          ++ filter (fun t => negb (rstatus_eqb (w_status t) w)) tests)
  else Some tests.

Section Remote.
(** get_tests_from_remote resuming.py:156-171: what the backslash plugin answers; None:
    CannotResume *)
Variable remote : nat -> bool -> option (list row).

(** resuming.py:219-225 *)
Definition get_tests_from_previous_session (sw : switches) (get_successful : bool) (sid : nat) (d : db)
  : option (list row) :=
  let tests := match get_tests_locally sid d with
               | [] => remote sid get_successful
               | l => Some l
               end in
  match tests with
  | None => None
  | Some tests =>
      match filter_tests sw get_successful tests with
      | None => None
      | Some l => sort_tests sw l
      end
  end.

(** frontend/slash_run.py:50-56: all the given sessions, one after another *)
Fixpoint collect_sessions (sw : switches) (get_successful : bool) (sids : list nat) (d : db)
  : option (list row) :=
  match sids with
  | [] => Some []
  | sid :: sids' =>
      match get_tests_from_previous_session sw get_successful sid d with
      | None => None
      | Some l => option_map (app l) (collect_sessions sw get_successful sids' d)
      end
  end.
End Remote.

(** equality of the dictionaries of two variations; a Python operation, no code of /repo, used by core/metadata.py:136-139 *)
Definition var_eqb (a b : var_id) : bool :=
  Nat.eqb (length a) (length b)
  && forallb (fun kv => match d_get (fst kv) b with Some i => Nat.eqb i (snd kv) | None => false end) a.

(** _iter_test_resume, loader.py:126-134: [load f] are the tests found in file
    [f], [excluded] is _is_excluded *)
Definition iter_test_resume (load : nat -> list md) (excluded : md -> bool) (w : row) : list md :=
  filter (fun m => negb (excluded m)
                   && Nat.eqb (w_aif w) (m_aif m)
                   && match w_var w with
                      | None | Some [] => true
                      | Some v => var_eqb v (m_var m)
                      end)
         (load (w_file w)).
