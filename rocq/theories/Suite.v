(** Model of utils/suite_files.py.  The file system and os.path are parameters:
    [content] gives the lines of a file (None: open fails), [isdir] os.path.isdir,
    [resolve f p] is the path a line's path [p] in file [f] stands for (12,
    22-23), [int_of] is int() on text (None: ValueError). *)

From Coq Require Import List Bool Arith ZArith Ascii String.
From Verif Require Import Str Matcher.
Import ListNotations.

(** SuiteEntry, utils/suite_files.py:7 *)
Record entry := mkEntry { e_path : str; e_matcher : option matcher; e_repeat : Z }.

(** what a line can raise; suite_files.py:10-66 *)
Inductive err := ParseErr | ValueErr | OpenErr.

Section Suite.
Variable content : str -> option (list str).
Variable isdir : str -> bool.
Variable resolve : str -> str -> str.
Variable int_of : str -> option Z.

(** the loop over the remainders, utils/suite_files.py:58-65: later ones win; an error stops *)
Fixpoint remainders (l : list str) (m : option matcher) (r : Z) : (option matcher * Z) + err :=
  match l with
  | [] => inl (m, r)
  | x :: l' =>
      let x := strip x in
      match match strip_prefix (lit "filter:") x with
            | Some t => match parse_filter t with Some m' => inl (Some m') | None => inr ParseErr end
            | None => inl m
            end with
      | inr e => inr e
      | inl m =>
          match match strip_prefix (lit "repeat:") x with
                | Some t => match int_of t with Some z => inl z | None => inr ValueErr end
                | None => inl r
                end with
          | inr e => inr e
          | inl r => remainders l' m r
          end
      end
  end.

(** _parse_path_filter_and_repeat, utils/suite_files.py:50-66; remainder.split(':', 1)[1] is what
    follows the prefix, which has one colon, at its end *)
Definition parse_line (line : str) : entry + err :=
  match split1 "#"%char line with
  | None => inl (mkEntry line None 1)
  | Some (path, rest) =>
      match remainders (split_all ","%char rest) None 1 with
      | inl (m, r) => inl (mkEntry (strip path) m r)
      | inr e => inr e
      end
  end.

(** _and_matchers, utils/suite_files.py:42-47 *)
Definition and_matchers (a b : option matcher) : option matcher :=
  match a, b with
  | None, _ => b
  | _, None => a
  | Some x, Some y => Some (AndM [x; y])
  end.

(** the path of an entry names tests or a directory, not another suite file, utils/suite_files.py:25 *)
Definition names_tests (path : str) : bool :=
  ends (lit ".py") path || contains (lit ".py:") path || isdir path.

(** suite_files.py:10-32 *)
Definition item := (str * option matcher)%type.

(** how the generator ends; suite_files.py:10-32 *)
Inductive ending := Finished | Raised (e : err) | NoFuel.

(** [line] is skipped, utils/suite_files.py:15-17 *)
Definition skipped (line : str) : bool :=
  match strip line with [] => true | _ => starts (lit "#") (strip line) end.

(** the lines of one file, utils/suite_files.py:14-31; [nested] lists another suite file.  The
    items yielded before an exception are kept. *)
Fixpoint iter_lines (nested : str -> list item * ending) (f : str) (ls : list str) : list item * ending :=
  match ls with
  | [] => ([], Finished)
  | line :: ls' =>
      if skipped line then iter_lines nested f ls'
      else match parse_line (strip line) with
           | inr e => ([], Raised e)
           | inl e =>
               let path := resolve f (e_path e) in
               let (items, fin) :=
                 if names_tests path
                 then (List.repeat (path, e_matcher e) (Z.to_nat (e_repeat e)), Finished)
                 else let (its, fin) := nested path in
                      (map (fun i => (fst i, and_matchers (e_matcher e) (snd i))) its, fin) in
               match fin with
               | Finished => let (rest, fin) := iter_lines nested f ls' in (items ++ rest, fin)
               | _ => (items, fin)
               end
           end
  end.

(** iter_suite_file_paths of one file that is not a directory, utils/suite_files.py:10-31; fuel
    stands for the recursion, which Python cuts off with RecursionError.  (If
    [path] of a nested line is a directory it is not nested, 25, so the
    recursive call is always on a single file.) *)
Fixpoint iter_file (n : nat) (f : str) : list item * ending :=
  match n with
  | O => ([], NoFuel)
  | S n => match content f with
           | None => ([], Raised OpenErr)
           | Some ls => iter_lines (iter_file n) f ls
           end
  end.

(** the loop over the suite files, utils/suite_files.py:11 *)
Fixpoint iter_files (n : nat) (fs : list str) : list item * ending :=
  match fs with
  | [] => ([], Finished)
  | f :: fs' => match iter_file n f with
                | (its, Finished) => let (rest, fin) := iter_files n fs' in (its ++ rest, fin)
                | r => r
                end
  end.
End Suite.

(** ** Directories of suite files *)

(** a file system entity; the file system as suite_files.py:34-40 sees it *)
Inductive node := File (name : nat) | Dir (name : nat) (sub : list node).

(** an entity and everything below it; suite_files.py:34-40 *)
Fixpoint entity_tree (x : node) : list node :=
  x :: match x with File _ => [] | Dir _ sub => flat_map entity_tree sub end.

(** Path(entity).rglob("*"): everything below a directory, directories included; pathlib, used by suite_files.py:34-40 *)
Definition rglob (sub : list node) : list node := flat_map entity_tree sub.

(** _extract_suite_files, utils/suite_files.py:34-39; the fuel bounds the nesting depth, None is
    exhaustion (excluded in SuiteProps) *)
Fixpoint extract (n : nat) (l : list node) : option (list nat) :=
  match n with
  | O => None
  | S n =>
      (fix go l := match l with
                   | [] => Some []
                   | x :: l' =>
                       match match x with File f => Some [f] | Dir _ sub => extract n (rglob sub) end, go l' with
                       | Some a, Some b => Some (a ++ b)
                       | _, _ => None
                       end
                   end) l
  end.
