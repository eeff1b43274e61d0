(** Model of what a frame of an error says of its source: the file, the line, the code up to it, whether it is code of the test
    (slash/utils/traceback_utils.py:136-159), and how the console reporter shows it (slash/reporting/console_reporter.py:347-367).

    linecache is not part of /repo: it gives the lines of a file as they are read, each with its line break (linecache adds a missing
    one to the last line), the empty string for lines and files there are not.  Code objects are numbers. *)

From Coq Require Import List Bool Arith Ascii String.
From Verif Require Import Str.
Import ListNotations.
Local Open Scope list_scope.
Local Open Scope nat_scope.

Section Source.
(** the lines of the files by their absolute names (None: not readable), slash/utils/traceback_utils.py:151-154 *)
Variable files : str -> option (list str).

(** linecache.getline; no code of /repo, used in slash/utils/traceback_utils.py:151, 153 *)
Definition getline (name : str) (n : nat) : str :=
  match files name, n with
  | Some ls, S m => nth m ls []
  | _, _ => []
  end.

(** s.rstrip(); a Python operation, no code of /repo *)
Definition rstrip (s : str) : str := rev (lstrip (rev s)).

(** code_line, slash/utils/traceback_utils.py:151 *)
Definition code_line (name : str) (lineno : nat) : str := rstrip (getline name lineno).

(** "...".join(...) or None; [first] is co_firstlineno, slash/utils/traceback_utils.py:152-154 *)
Definition code_string (name : str) (first lineno : nat) : option str :=
  match List.concat (map (getline name) (seq first (lineno + 1 - first))) with
  | [] => None
  | s => Some s
  end.
End Source.

(** os.path.abspath(co_filename) when the frame is looked at in directory [cwd], slash/utils/traceback_utils.py:141; simplified: names and
    directories without '.', '..' and double slashes *)
Definition abspath (cwd name : str) : str := if starts (lit "/") name then name else cwd ++ lit "/" ++ name.

(** a function: its code, what functools.wraps (__wrapped__) and slash's own wraps (__wraps__) say it wraps, slash/utils/python.py:36-40 *)
Inductive func := Fn (code : nat) (wrapped wraps : option func).

(** slash/utils/traceback_utils.py:157 *)
Definition f_code (f : func) : nat := let 'Fn c _ _ := f in c.

(** get_underlying_func, slash/utils/python.py:52-57 *)
Fixpoint underlying (f : func) : func := match f with Fn _ _ None => f | Fn _ _ (Some g) => underlying g end.

(** is_in_test_code: [test] the function of the current test, if there is one; slash/utils/traceback_utils.py:155-159 *)
Definition in_test_code (test : option func) (code : nat) : bool :=
  match test with
  | Some f => Nat.eqb code (f_code (underlying f))
  | None => false
  end.

(** the characters str.splitlines breaks lines at; a Python operation (characters up to 255), no code of /repo *)
Definition line_break (c : ascii) : bool :=
  let n := nat_of_ascii c in (Nat.leb 10 n && Nat.leb n 13) || (Nat.leb 28 n && Nat.leb n 30) || Nat.eqb n 133.

(** s.splitlines(), [cur]: the line so far, backwards; a Python operation, no code of /repo *)
Fixpoint splitlines (cur s : str) : list str :=
  match s with
  | [] => match cur with [] => [] | _ => [rev cur] end
  | c :: s' =>
      if line_break c then
        rev cur :: match s' with
                   | d :: s'' => if Ascii.eqb c "013" && Ascii.eqb d "010" then splitlines [] s'' else splitlines [] s'
                   | [] => []
                   end
      else splitlines (c :: cur) s'
  end.

(** the colours of a line, slash/reporting/console_reporter.py:359-364 *)
Inductive theme := TestLine | LineCause | Line.

(** for line_iteration, line in iteration(code_lines): whether the line is marked with '>', its colours, its text;
    slash/reporting/console_reporter.py:353-366 *)
Fixpoint write_lines (in_test : bool) (l : list str) : list (bool * theme * str) :=
  match l with
  | [] => []
  | [x] => [(true, if in_test then TestLine else LineCause, x)]
  | x :: l' => (false, if in_test then TestLine else Line, x) :: write_lines in_test l'
  end.

(** _write_frame_code, slash/reporting/console_reporter.py:347-367 *)
Definition write_frame_code (context in_test : bool) (code_string : option str) (code_line : str) : list (bool * theme * str) :=
  match code_string with
  | None => []
  | Some s => write_lines in_test (if context then splitlines [] s else [code_line])
  end.
