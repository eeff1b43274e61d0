(** Model of the collection of tests in loader.py (55-104, 136-174), of test ids
    (utils/id_space.py, core/metadata.py:89-92) and sort keys (metadata.py:7, 23,
    94-98), and of clone (runnable_test.py:18-22).  Importing files and finding
    the tests in them is not modelled: the collected tests are given. *)

From Coq Require Import List Bool Arith Ascii String Decimal DecimalString.
From Verif Require Import Str.
Import ListNotations.

(** a collected test: the object, its sort key and its repeat marker
    (core/markers.py:4; 1 if it has none) *)
Record src := mkSrc { s_obj : nat; s_key : nat; s_repeat : nat }.

(** objects: collected ones, clones of collected ones (numbered), and the
    interactive test; loader.py:55-92 *)
Inductive obj := Orig (o : nat) | Clone (o i : nat) | CloneOf (x : obj) (round : nat) | Interactive.

(** a runnable test: its object, the test it is (a copy of), and the fields of
    its metadata: repeat_all_index, sort key, parallel index; core/metadata.py:18-57 *)
Record run := mkRun { r_obj : obj; r_src : option nat; r_round : nat; r_key : nat; r_pindex : nat }.

(** [for i in range(repeat_each * marker): test.clone() if i else test], loader.py:82-84 *)
Definition copies (each : nat) (s : src) : list run :=
  map (fun i => mkRun (match i with 0 => Orig (s_obj s) | _ => Clone (s_obj s) i end)
                      (Some (s_obj s)) 0 (s_key s) 0)
      (seq 0 (each * s_repeat s)).

(** a clone for round [i + 1], loader.py:87-90 *)
Definition reround (i : nat) (r : run) : run :=
  mkRun (CloneOf (r_obj r) (S i)) (r_src r) (S i) (r_key r) (r_pindex r).

(** _generate_repeats, loader.py:79-91 *)
Definition generate_repeats (each all : nat) (tests : list src) : list run :=
  let first := flat_map (copies each) tests in
  first ++ flat_map (fun i => map (reround i) first) (seq 0 (all - 1)).

(** generate_interactive_test: sort key 0 (metadata.py:107-109) *)
Definition interactive_test : run := mkRun Interactive None 0 0 0.

(** loader.py:66-67: enumerate *)
Fixpoint set_pindex (i : nat) (l : list run) : list run :=
  match l with
  | [] => []
  | r :: l' => mkRun (r_obj r) (r_src r) (r_round r) (r_key r) i :: set_pindex (S i) l'
  end.

(** the sort, loader.py:69-71: list.sort is stable *)
Definition run_leb (a b : run) : bool :=
  Nat.ltb (r_round a) (r_round b) || (Nat.eqb (r_round a) (r_round b) && Nat.leb (r_key a) (r_key b)).

(** a Python operation, no code of /repo (a stable sort, used by loader.py:55-77) *)
Fixpoint insert (r : run) (l : list run) : list run :=
  match l with
  | [] => [r]
  | x :: l' => if run_leb r x then r :: l else x :: insert r l'
  end.

(** a Python operation, no code of /repo, used by loader.py:55-77 *)
Definition stable_sort (l : list run) : list run := fold_right insert [] l.

(** a Python operation, no code of /repo *)
Definition obj_eq_dec (a b : obj) : {a = b} + {a <> b}.
Proof. repeat decide equality. Defined.

(** 72-75 with metadata.py:89-92: ids are given in order; the same object twice
    is a SlashInternalError (None) *)
Fixpoint allocate (n : nat) (seen : list obj) (l : list run) : option (list (run * nat)) :=
  match l with
  | [] => Some []
  | r :: l' =>
      if in_dec obj_eq_dec (r_obj r) seen then None
      else match allocate (S n) (r_obj r :: seen) l' with
           | Some rest => Some ((r, n) :: rest)
           | None => None
           end
  end.

(** Loader.get_runnables, loader.py:55-76.  [hook] is what handlers of tests_loaded do to
    the sort key of a test (68). *)
Definition get_runnables (each all : nat) (interactive : bool) (hook : run -> nat) (tests : list src)
  : option (list (run * nat)) :=
  let l := generate_repeats each all tests in
  let l := if interactive then interactive_test :: l else l in
  let l := set_pindex 0 l in
  let l := map (fun r => mkRun (r_obj r) (r_src r) (r_round r) (hook r) (r_pindex r)) l in
  allocate 1 [] (stable_sort l).

(** ** Ids *)

(** str(i); a Python operation, no code of /repo *)
Definition digits (n : nat) : str := lit (NilEmpty.string_of_uint (Nat.to_uint n)).

(** IDSpace, id_space.py:6-12: the [i]-th allocated id (from 1) *)
Definition id_base (base : str) : str := if ends (lit "_") base then base else base ++ lit "_".
(** utils/id_space.py, core/metadata.py:89-92 *)
Definition id_of (base : str) (i : nat) : str := id_base base ++ digits i.

(** Session.id, session.py:29-32: of the parent and of the worker numbered [w] *)
Definition session_id (uuid : str) (w : nat) : str := uuid ++ lit "_" ++ digits w.

(** ** Addresses *)

(** a test found in a file: its factory name, its address in the file, and
    whether the filters exclude it (loader.py:228-232) *)
Record found := mkFound { f_factory : str; f_address : str; f_excluded : bool }.

(** _address_in_file_matches, loader.py:165-174 *)
Definition address_matches (a : str) (t : found) : bool :=
  if str_eqb a (f_factory t) then true
  else if str_eqb a (f_address t) then true
  else match split1 "("%char (f_address t) with
       | Some (before, _) => str_eqb a before
       | None => false
       end.

(** _iter_test_address after loading the file's tests, loader.py:146-163; the flag is
    CannotLoadTests at the end *)
Definition iter_address (a : option str) (tests : list found) : list found * bool :=
  match tests, a with
  | [], None => ([], false)
  | _, _ =>
      let wanted := filter (fun t => match a with Some a => address_matches a t | None => true end) tests in
      (filter (fun t => negb (f_excluded t)) wanted, match wanted with [] => true | _ => false end)
  end.
