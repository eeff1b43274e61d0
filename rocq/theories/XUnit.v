(** Model of the xunit report (plugins/builtin/xunit.py:36-131), with the counters of
    SessionResults it uses (core/result.py:386-404, 414-421) and xml.etree as far as it
    refuses attributes that are no strings.

    Simplifications: names, messages, times and tracebacks are left out except for the
    identity of each test and error; text (strings) is a number; is_started(), the errors, the
    failures and the skips of a result are given. *)

From Coq Require Import List Bool Arith.
Import ListNotations.

(** Error: its identity and is_failure(), core/error.py:48-50, 70-71, 87-88 *)
Record error := mkErr { e_id : nat; e_failure : bool }.

(** the reason of a skip: a string, None or another false value, any other object;
    xunit.py:114 *)
Inductive reason := RText (n : nat) | RNone | RObject (n : nat).

(** the value of a detail: a string, a number, a list or tuple ([tuple]), a dictionary (each key: whether it is a
    string, and its number), anything else; xunit.py:52-73 *)
Inductive value :=
| VText (n : nat) | VNumber (n : nat) | VList (tuple : bool) (l : list value) | VDict (l : list (bool * nat * value)) | VObject (n : nat).

(** the value of an attribute of an element, or the name of a detail: a string or something else;
    xunit.py:53, 57, 59, 114 *)
Inductive attr := AText (n : nat) | ABad (n : nat).

(** Result with what the report shows of it; core/result.py:32-49 *)
Record result := mkRes {
  r_id : nat; r_started : bool; r_errors : list error; r_failures : list error;
  r_skips : list reason; r_details : list (attr * value) }.

(** elements; the children of a testcase in their order; xunit.py:36-47, 52-73, 103-124 *)
Inductive tree := TNode (bad_tag : bool) (l : list tree).
(** the children of testsuite and testcase; xunit.py:114, 121, 131 *)
Inductive child :=
| CError (id : nat) | CFailure (id : nat) | CSkipped (type : attr) | CDetail (name : attr) (v : option attr) (t : list tree).
(** testcase, xunit.py:103-124 *)
Record testcase := mkCase { t_id : nat; t_children : list child }.
(** testsuite, xunit.py:83-95 *)
Record suite := mkSuite {
  a_tests : nat; a_errors : nat; a_failures : nat; a_skipped : nat;
  s_errors : list child; s_cases : list testcase }.

(** _add_errors and _add_error, xunit.py:36-41, 129-131 *)
Definition error_children (r : result) : list child :=
  map (fun e => if e_failure e then CFailure (e_id e) else CError (e_id e)) (r_errors r ++ r_failures r).

(** xunit.py:113-114: skip or '' *)
Definition skip_child (s : reason) : child :=
  CSkipped (match s with RText n => AText n | RNone => AText 0 | RObject n => ABad n end).

(** _build_xml, xunit.py:62-73: the elements below; SE(r, k) with a key that is no string
    makes an element whose tag is no string *)
Fixpoint build (v : value) : list tree :=
  match v with
  | VDict l => map (fun x => TNode (negb (fst (fst x))) (build (snd x))) l
  | VList _ l => map (fun x => TNode false (build x)) l
  | _ => []
  end.

(** _detail2xml, xunit.py:52-60 *)
Definition detail_child (name : attr) (v : value) : child :=
  match v with
  | VText n => CDetail name (Some (AText n)) []
  | VNumber n => CDetail name (Some (AText n)) []
  | VObject n => CDetail name (Some (ABad n)) []
  | _ => CDetail name None (build v)
  end.

(** what is not a list is shown as if it were a list of one, xunit.py:117-118 *)
Definition entries (v : value) : list value := match v with VList false l => l | v => [v] end.
(** the details, xunit.py:116-122 *)
Definition detail_children (r : result) : list child :=
  flat_map (fun d => map (detail_child (fst d)) (entries (snd d))) (r_details r).

(** xunit.py:101-124 *)
Definition case_of (r : result) : testcase :=
  mkCase (r_id r) (error_children r ++ map skip_child (r_skips r) ++ detail_children r).

(** _count, core/result.py:414-421 *)
Definition count (p : result -> bool) (l : list result) : nat := length (filter p l).
(** is_error, is_just_failure, is_run_and_skip; core/result.py:162-163, 169-180 *)
Definition is_error (r : result) : bool := match r_errors r with [] => false | _ => true end.
(** is_just_failure, core/result.py:172-174 *)
Definition is_just_failure (r : result) : bool := match r_failures r with [] => false | _ => negb (is_error r) end.
(** is_run_and_skip, core/result.py:179-180 *)
Definition is_run_and_skip (r : result) : bool := r_started r && match r_skips r with [] => false | _ => true end.

(** the document of session_end, xunit.py:83-124; [g] is the global result *)
Definition document (tests : list result) (g : result) : suite :=
  mkSuite (length tests) (count is_error (tests ++ [g])) (count is_just_failure (tests ++ [g])) (count is_run_and_skip (tests ++ [g]))
    (error_children g) (map case_of (filter r_started tests)).

(** xml_to_string works: every attribute and tag is a string; plugins/builtin/xunit.py:127 *)
Fixpoint tree_ok (t : tree) : bool :=
  match t with TNode b l => negb b && forallb tree_ok l end.
(** an element can be written; a part of xml.etree, no code of /repo, used by xunit.py:127 *)
Definition child_ok (c : child) : bool :=
  match c with
  | CError _ | CFailure _ => true
  | CSkipped a => match a with AText _ => true | ABad _ => false end
  | CDetail n a l =>
    match n with ABad _ => false | AText _ => true end && match a with Some (ABad _) => false | _ => true end && forallb tree_ok l
  end.
(** xml_to_string, xunit.py:127 *)
Definition writable (s : suite) : bool := forallb (fun c => forallb child_ok (t_children c)) (s_cases s).

(** the file: what it was before, empty, the document; xunit.py:126-127 *)
Inductive file := Before | Empty | Written (s : suite).
(** session_end, xunit.py:75-127: the file, and whether an exception is raised; the file is
    opened before the document is turned into text *)
Definition session_end (worker : bool) (tests : list result) (g : result) : file * bool :=
  if worker then (Before, false)
  else let d := document tests g in if writable d then (Written d, false) else (Empty, true).
