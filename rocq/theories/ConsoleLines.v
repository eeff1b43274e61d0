(** Model of the truncation of console output: ConsoleHandler.format and _truncate,
    slash/log.py:98-113, and of _safe_repr, slash/utils/traceback_utils.py:258-269.
    Characters are the code points below 256. *)

From Coq Require Import List Bool Arith Ascii String.
From Verif Require Import Str.
Import ListNotations.

(** a Python operation, no code of /repo *)
Definition LF : ascii := ascii_of_nat 10.
(** a Python operation, no code of /repo *)
Definition CR : ascii := ascii_of_nat 13.

(** the line boundaries of str.splitlines; a Python operation, no code of /repo *)
Definition is_brk (c : ascii) : bool :=
  existsb (Nat.eqb (nat_of_ascii c)) [10; 11; 12; 13; 28; 29; 30; 133].

(** str.splitlines(): the terminators are dropped, "\r\n" is one; a Python operation, no code of /repo, used by log.py:102 *)
Fixpoint splitlines_from (cur : str) (s : str) : list str :=
  match s with
  | [] => match cur with [] => [] | _ => [cur] end
  | c :: s' =>
      if is_brk c then
        cur :: match s' with
               | d :: s'' => if Ascii.eqb c CR && Ascii.eqb d LF then splitlines_from [] s'' else splitlines_from [] s'
               | [] => []
               end
      else splitlines_from (cur ++ [c]) s'
  end.
(** a Python operation, no code of /repo, used by log.py:102 *)
Definition splitlines (s : str) : list str := splitlines_from [] s.

(** "\n".join; a Python operation, no code of /repo, used by log.py:102 *)
Fixpoint join_lines (l : list str) : str :=
  match l with
  | [] => []
  | [x] => x
  | x :: l' => x ++ LF :: join_lines l'
  end.

(** log.py:83 *)
Definition MAX_LINE := 160.
(** log.py:112 *)
Definition dots : str := lit "..."%string.

(** cutting to a maximum with "..." in the end: _truncate, log.py:110-113; also
    traceback_utils.py:267-268 *)
Definition cut (max : nat) (line : str) : str :=
  if max <? List.length line then firstn (max - 3) line ++ dots else line.

(** the two settings (log.py:90-91) and whether the record is an error or worse *)
Record tconf := mkT { t_lines : bool; t_errors : bool }.

(** the message that is formatted, log.py:99-102 *)
Definition console_message (T : tconf) (is_error : bool) (msg : str) : str :=
  if t_lines T && (MAX_LINE <? List.length msg) && (t_errors T || negb is_error)
  then join_lines (map (cut MAX_LINE) (splitlines msg))
  else msg.

(** format strings with the message in one place (85, and "{record.message}" alone); log.py:81-108 *)
Definition console_output (pre post : str) (T : tconf) (is_error : bool) (msg : str) : str :=
  pre ++ console_message T is_error msg ++ post.

(** traceback_utils.py:17, 258-269: [r] the repr or the replacement for it *)
Definition MAX_REPR := 100.
(** utils/traceback_utils.py:258-273 *)
Definition safe_repr (truncate : bool) (r : str) : str := if truncate then cut MAX_REPR r else r.
