(** Writing to the terminal (slash/reporting/console_reporter.py:52-131): boxes,
    left-justified lines, the line in progress; and the format of a duration
    (console_reporter.py:439-444).

    The screen is the part of a terminal this matters for: the current row, the
    rows above it and the column of the cursor; it is not code of /repo.
    Simplified: a terminal has at least six columns; the division of a duration
    is exact, not that of floats; failing writes (they are swallowed) and colours
    are left out; the terminal understands '\r' (hasmarkup). *)

From Coq Require Import List Bool Arith ZArith QArith Qround Ascii String.
From Verif Require Import Str.
Import ListNotations.
Local Open Scope list_scope.
Local Open Scope nat_scope.

(** ' ' * n, '*' * n; Python operations, no code of /repo *)
Definition blanks (n : nat) : str := repeat " "%char n.
(** no code of /repo *)
Definition stars (n : nat) : str := repeat "*"%char n.
(** '\n'; no code of /repo *)
Definition nl : ascii := "010"%char.
(** '\r'; no code of /repo *)
Definition cr : ascii := "013"%char.

(** lsep; slash/reporting/console_reporter.py:73-77 *)
Definition lsep (fullwidth : nat) (sep msg : str) : str :=
  msg ++ [" "%char] ++ List.concat (repeat sep ((fullwidth - 1 - List.length msg) / List.length sep)) ++ [nl].

Section Box.
(** textwrap.wrap(line, width) *)
Variable wrap : str -> nat -> list str.

(** box_width; slash/reporting/console_reporter.py:80 *)
Definition box_width (fullwidth : nat) : nat := Nat.min fullwidth 60.

(** the headline; slash/reporting/console_reporter.py:83-85 *)
Definition cut_headline (width : nat) (h : str) : str := if width - 6 <? List.length h then skipn (width - 6) h else h.

(** write_line; slash/reporting/console_reporter.py:87-89 *)
Definition box_line (width : nat) (l : str) : str := lit "* " ++ l ++ blanks (width - (List.length l + 3)) ++ lit "*".

(** the lines of the box, each written with a '\n' at its end;
    slash/reporting/console_reporter.py:91-98 *)
Definition box_lines (width : nat) (headline msg : str) : list str :=
  let h := cut_headline width headline in
  [lit "** " ++ h ++ lit " " ++ stars (width - (List.length h + 4))] ++
  flat_map (fun l => match l with [] => [box_line width []] | _ => map (box_line width) (wrap l (width - 4)) end) (split_all nl msg) ++
  [stars width].

(** write_box; slash/reporting/console_reporter.py:79-98 *)
Definition write_box (fullwidth : nat) (headline msg : str) : str :=
  [nl] ++ flat_map (fun l => l ++ [nl]) (box_lines (box_width fullwidth) headline msg) ++ [nl].

End Box.

(** ** The line in progress *)

(** s.rsplit(c, 1)[-1]: what follows the last [c]; a Python operation *)
Fixpoint before (c : ascii) (s : str) : str :=
  match s with [] => [] | x :: s => if Ascii.eqb x c then [] else x :: before c s end.
(** a Python operation, no code of /repo *)
Definition after_last (c : ascii) (s : str) : str := rev (before c (rev s)).

(** _get_line_remainder; slash/reporting/console_reporter.py:110-111 *)
Definition remainder (s : str) : str := after_last nl (after_last cr s).

(** the screen: rows above, the newest first; the current row; the column of the
    cursor; a terminal, no code of /repo *)
Record screen := mkScreen { above : list str; row : str; col : nat }.

(** a character on a screen with rows of [w] columns; a terminal, no code of /repo *)
Definition put (w : nat) (s : screen) (c : ascii) : screen :=
  if Ascii.eqb c cr then mkScreen (above s) (row s) 0
  else if Ascii.eqb c nl then mkScreen (row s :: above s) [] 0
  else if w <=? col s then mkScreen (row s :: above s) [c] 1
  else mkScreen (above s) (firstn (col s) (row s) ++ [c] ++ skipn (S (col s)) (row s)) (S (col s)).

(** _do_write; slash/reporting/console_reporter.py:129-131 *)
Definition do_write (w : nat) (s : screen) (t : str) : screen := fold_left (put w) t s.

(** the screen and the attribute _line; slash/reporting/console_reporter.py:54-60 *)
Record term := mkTerm { scr : screen; line : str }.

(** write; slash/reporting/console_reporter.py:105-108 *)
Definition write (w : nat) (t : term) (s : str) : term := mkTerm (do_write w (scr t) s) (remainder (line t ++ s)).

(** clear_line_in_progress; slash/reporting/console_reporter.py:118-122 *)
Definition clear (w : nat) (t : term) : term :=
  match line t with
  | [] => t
  | l => mkTerm (do_write w (do_write w (do_write w (scr t) [cr]) (blanks (List.length l mod w))) [cr]) l
  end.

(** restore_line_in_progress; slash/reporting/console_reporter.py:124-127 *)
Definition restore (w : nat) (t : term) : term :=
  mkTerm (do_write w (scr t) (skipn (List.length (line t) - List.length (line t) mod w) (line t))) (line t).

(** something else writes to the terminal (a log record): _line does not change; no code of /repo *)
Definition other (w : nat) (t : term) (s : str) : term := mkTerm (do_write w (scr t) s) (line t).

(** ** Durations *)

(** x % 60 of Python; no code of /repo *)
Definition mod60 (x : Q) : Q := (x - 60 * inject_Z (Qfloor (x / 60)))%Q.

(** int(x): towards zero; no code of /repo *)
Definition int (x : Q) : Z := if Qlt_le_dec x 0 then (- Qfloor (- x))%Z else Qfloor x.

(** _format_duration: hours, minutes and seconds; slash/reporting/console_reporter.py:439-444 *)
Definition format_duration (duration : Q) : Z * Z * Z :=
  let seconds := mod60 duration in
  let duration := (duration / 60)%Q in
  let minutes := mod60 duration in
  let hours := (duration / 60)%Q in
  (int hours, int minutes, int seconds).
