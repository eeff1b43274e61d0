(** Model of the indenting writer (utils/formatter.py:8-82) and of the layout of detailed
    tracebacks (core/error.py:131-156).

    Characters are numbers.  Simplifications: newline is the only line boundary
    str.splitlines knows; colours and IOError of the stream are left out. *)

From Coq Require Import List Bool Arith.
Import ListNotations.

(** a text *)
Notation text := (list nat).

(** '\n'; a Python operation, no code of /repo *)
Definition nl : nat := 10.

(** str.splitlines: the lines without their ends; [cur] is the line being read, backwards; a Python operation, no code of /repo, used by formatter.py and core/error.py *)
Fixpoint lines_from (cur : text) (t : text) : list text :=
  match t with
  | [] => match cur with [] => [] | _ => [rev cur] end
  | c :: t' => if Nat.eqb c nl then rev cur :: lines_from [] t' else lines_from (c :: cur) t'
  end.
(** str.splitlines; a Python operation, no code of /repo, used by formatter.py and core/error.py *)
Definition splitlines (t : text) : list text := lines_from [] t.

(** Formatter and its LineTracker: _indentation_list (formatter.py:13), what the stream
    received, _empty_line (formatter.py:74); and for the statements the depth and text of
    each call of write *)
Record fmt := mkFmt { f_indent : list text; f_out : text; f_empty : bool; f_log : list (nat * list text) }.

(** a new Formatter; Formatter.__init__, utils/formatter.py *)
Definition fmt0 : fmt := mkFmt [] [] true [].

(** LineTracker.write, formatter.py:76-79 *)
Definition track (o : text) (f : fmt) : fmt :=
  mkFmt (f_indent f) (f_out f ++ o) (match o with [] => f_empty f | _ => Nat.eqb (last o 0) nl end) (f_log f).

(** _indentation: ''.join(_indentation_list), formatter.py:58 *)
Definition indentation (f : fmt) : text := concat (f_indent f).

(** the loop over the lines of one argument, formatter.py:33-39 *)
Fixpoint write_lines (l : list text) (f : fmt) : fmt :=
  match l with
  | [] => f
  | line :: l' =>
      let f := if f_empty f then track (indentation f) f else f in
      let f := track line f in
      let f := match l' with [] => f | _ => track [nl] f end in
      write_lines l' f
  end.

(** write, formatter.py:24-40 *)
Definition write (args : list text) (ending : text) (f : fmt) : fmt :=
  let f := mkFmt (f_indent f) (f_out f) (f_empty f) (f_log f ++ [(length (f_indent f), args)]) in
  track ending (fold_left (fun f a => write_lines (splitlines a) f) args f).

(** _indent with a positive increment, formatter.py:56-57 *)
Definition deeper (n : nat) (s : text) (f : fmt) : fmt :=
  mkFmt (f_indent f ++ repeat s n) (f_out f) (f_empty f) (f_log f).
(** _indent with a negative increment: del self._indentation_list[increment:],
    formatter.py:54-55; with increment 0 the list is extended by nothing *)
Definition shallower (n : nat) (f : fmt) : fmt :=
  mkFmt (firstn (length (f_indent f) - n) (f_indent f)) (f_out f) (f_empty f) (f_log f).

(** code using a Formatter made with indentation string [unit]; the methods of utils/formatter.py:8-82 *)
Inductive prog :=
| FWrite (args : list text) (ending : text)
| FIndent | FDedent
| FIndented (n : nat) (s : text) (p : prog)
| FSeq (p q : prog)
| FSkip
| FRaise.

(** running it; the boolean tells whether an exception leaves it.  indented:
    formatter.py:60-66 *)
Fixpoint exec (unit : text) (p : prog) (f : fmt) : fmt * bool :=
  match p with
  | FWrite args ending => (write args ending f, false)
  | FIndent => (deeper 1 unit f, false)
  | FDedent => (shallower 1 f, false)
  | FIndented n s p => let '(f', r) := exec unit p (deeper n s f) in (shallower n f', r)
  | FSeq p q => match exec unit p f with (f', false) => exec unit q f' | r => r end
  | FSkip => (f, false)
  | FRaise => (f, true)
  end.

(** a sequence; plumbing of the model, no code of its own *)
Definition seqs (l : list prog) : prog := fold_right FSeq FSkip l.
(** writeln, formatter.py:21-22 *)
Definition writeln (args : list text) : prog := FWrite args [nl].

(** * Detailed tracebacks *)

(** a frame of the traceback: the line naming it, its code line, its globals and locals as
    they are printed (core/error.py:141-145) *)
Record frame := mkFrame { fr_header : text; fr_code : text; fr_globals : list text; fr_locals : list text }.

(** core/error.py:147-152: the variables under one title *)
Definition vars_prog (title : text) (vars : list text) : prog :=
  match vars with
  | [] => FSkip
  | v :: vs => seqs (writeln [title] :: FIndent :: map (fun v => writeln [v]) (v :: vs))
  end.

Section T.
Variable unit : text.
(** 'Traceback (most recent call last):', 'globals', 'locals', '>' *)
Variables first_line globals_title locals_title prompt : text.

(** one frame, core/error.py:139-153 *)
Definition frame_prog (fr : frame) : prog :=
  FSeq (writeln [fr_header fr])
    (FIndented 1 unit
       (FSeq (writeln [prompt; fr_code fr])
          (FIndented 1 unit
             (FSeq (vars_prog globals_title (fr_globals fr))
                (FSeq (vars_prog locals_title (fr_locals fr)) FDedent))))).

(** get_detailed_traceback_str, core/error.py:131-156 *)
Definition traceback_prog (l : list frame) : prog :=
  FSeq (writeln [first_line]) (FIndented 1 unit (seqs (map frame_prog l))).
End T.
