(** Model of `slash list`: frontend/slash_list.py, and Fixture.is_override
    (core/fixtures/fixture.py:49-61).  Parsing of the command line, loading of tests
    and os.path are given; styles, documentation and source positions of fixtures are
    left out. *)

From Coq Require Import List Bool Arith ZArith Ascii String.
From Verif Require Import Str Dict.
Import ListNotations.

(** --only-tests and --only-fixtures, slash_list.py:31-32 *)
Inductive only := OAll | OFixtures | OTests.

(** the parsed arguments, slash_list.py:28-45, and whether there are paths or suite
    files to look at, after the default of the configuration (63-67) *)
Record opts := mkOpts {
  o_only : only; o_tags : bool; o_params : bool; o_empty : bool; o_werror : bool; o_rel : bool;
  o_output : bool; o_dups : bool; o_given : bool }.

(** a loaded test: address (metadata.py:66-85), the text of its tags, and the fixtures
    get_required_fixture_objects gives (fixture_store.py:99-102); slash_list.py:71-73, 99-100 *)
Record test := mkT { t_address : str; t_tags : str; t_required : list nat }.

(** a fixture of the store: id, name, info.autouse and is_override(), slash_list.py:121-138 *)
Record fixt := mkF { f_id : nat; f_name : str; f_auto : bool; f_over : bool }.

(** what is added to the name of a fixture, slash_list.py:128-136 *)
Inductive mark := MAuto | MUnused | MNone.

(** what is printed, slash_list.py:94, 108, 120, 138 *)
Inductive line := LTests | LFixtures | LTest (address tags : str) | LFixture (name : str) (m : mark) (over : bool).

(** how slash_list ends, slash_list.py:48-89 *)
Inductive ending := Code (c : Z) | SystemExit | ValueError.

Section List_.
(** os.path.isabs and os.path.relpath, slash_list.py:113-114 *)
Variable isabs : str -> bool.
Variable relpath : str -> str.

(** s.rsplit(c, 1); a Python operation, no code of /repo *)
Definition rsplit1 (c : ascii) (s : str) : option (str * str) :=
  match split1 c (rev s) with Some (b, a) => Some (rev a, rev b) | None => None end.

(** _convert_address_to_relpath, slash_list.py:111-115; None is the ValueError of unpacking one item *)
Definition to_relpath (a : str) : option str :=
  match rsplit1 ":" a with
  | None => None
  | Some (f, r) => Some ((if isabs f then relpath f else f) ++ lit ":" ++ r)
  end.

(** address.split('(')[0], slash_list.py:102 *)
Definition cut_params (a : str) : str := match split1 "(" a with Some (x, _) => x | None => a end.

(** the address shown for a test, slash_list.py:100-104 *)
Definition shown (o : opts) (t : test) : option str :=
  let a := if o_params o then t_address t else cut_params (t_address t) in
  if o_rel o then to_relpath a else Some a.

(** membership in the set visited; a Python operation, no code of /repo *)
Definition seen (a : str) (visited : list str) : bool := existsb (str_eqb a) visited.

(** the loop of _report_tests, slash_list.py:98-108; second result: ValueError *)
Fixpoint report_loop (o : opts) (visited : list str) (ts : list test) : list line * bool :=
  match ts with
  | [] => ([], false)
  | t :: ts' =>
      match shown o t with
      | None => ([], true)
      | Some a =>
          if seen a visited && negb (o_dups o) then report_loop o visited ts'
          else let (l, e) := report_loop o (a :: visited) ts' in
               (LTest a (if o_tags o then t_tags t else []) :: l, e)
      end
  end.

(** _report_tests, slash_list.py:92-108 *)
Definition report_tests (o : opts) (ts : list test) : list line * bool :=
  let (l, e) := report_loop o [] ts in
  ((match o_only o with OAll => [LTests] | _ => [] end) ++ l, e).

(** used_fixtures, slash_list.py:71-73 *)
Definition used_fixtures (ts : list test) : list nat := flat_map t_required ts.

(** the name of one fixture, slash_list.py:128-138 *)
Definition fixture_line (used : list nat) (f : fixt) : line :=
  LFixture (f_name f)
    (if f_auto f then MAuto else if existsb (Nat.eqb (f_id f)) used then MNone else MUnused)
    (f_over f).

(** _report_fixtures, slash_list.py:118-152 *)
Definition report_fixtures (o : opts) (fs : list fixt) (used : list nat) : list line :=
  (match o_only o with OAll => [LFixtures] | _ => [] end) ++ map (fixture_line used) fs.

(** slash_list, slash_list.py:48-89.  [loaded] is None if CannotLoadTests is raised, else
    the runnables, the fixtures of the store and whether the session has warnings. *)
Definition slash_list (o : opts) (loaded : option (list test * list fixt * bool)) : list line * ending :=
  if negb (o_given o) then ([], SystemExit)
  else match loaded with
  | None => ([], Code (-1))
  | Some (ts, fs, warned) =>
      let l1 := match o_only o with OTests => [] | _ => report_fixtures o fs (used_fixtures ts) end in
      let (l2, e) := match o_only o with OFixtures => ([], false) | _ => report_tests o ts end in
      (if o_output o then l1 ++ l2 else [],
       if e then ValueError
       else if warned && o_werror o then Code (-1)
       else match ts with
            | _ :: _ => Code 0
            | [] => Code (if o_empty o then 0 else 1)
            end)
  end.
End List_.

(** get_fixture_by_name with a default, namespace.py:37-48; a namespace is given with its
    parents, innermost first *)
Fixpoint lookup (name : nat) (chain : list (dict nat)) : option nat :=
  match chain with
  | [] => None
  | ns :: chain' => match d_get name ns with Some f => Some f | None => lookup name chain' end
  end.

(** Fixture.is_override, fixture.py:49-61; [parents] are the namespaces above that of the fixture *)
Fixpoint is_override (self name : nat) (parents : list (dict nat)) : bool :=
  match parents with
  | [] => false
  | ns :: parents' =>
      match lookup name (ns :: parents') with
      | None => false
      | Some f => if Nat.eqb f self then is_override self name parents' else true
      end
  end.
