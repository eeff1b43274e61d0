(** Model of coloured strings (slash/utils/color_string.py), of how the indenting writer treats them (slash/utils/formatter.py:24-38) and of
    the themes of the console (slash/reporting/console_reporter.py:24-28).

    What is written is a list of characters and colour codes.  Simplified: the indentation of the writer is in Formatter.v; newline is the
    only line boundary; the strings have no colour codes of their own; colours are names, and which of them colorama.Fore has is a
    parameter. *)

From Coq Require Import List Bool Arith Ascii String.
From Verif Require Import Str.
Import ListNotations.

(** what is written: a character, the code of a colour, colorama.Fore.RESET; slash/utils/color_string.py:41 *)
Inductive token := Chr (c : ascii) | Fore (color : str) | Reset.

(** a str, a ColorString (slash/utils/color_string.py:18-41) or a ColorCompoundString; the latter is only made by + (slash/utils/color_string.py:12-16),
    of two objects (43-59) *)
Inductive obj := Plain (s : str) | Color (s : str) (color : str) | Compound (a b : obj).

(** a + b: str.__add__ of two strings, otherwise __add__ or __radd__, slash/utils/color_string.py:12-16 *)
Definition add (a b : obj) : obj :=
  match a, b with
  | Plain s, Plain t => Plain (s ++ t)
  | _, _ => Compound a b
  end.

(** str(x), slash/utils/color_string.py:37-38, 49-50 *)
Fixpoint to_str (o : obj) : str :=
  match o with
  | Plain s | Color s _ => s
  | Compound a b => to_str a ++ to_str b
  end.

(** len(x), slash/utils/color_string.py:24-25, 52-53 *)
Fixpoint len (o : obj) : nat :=
  match o with
  | Plain s | Color s _ => List.length s
  | Compound a b => len a + len b
  end.

(** s.ljust(n, fill); a Python operation, no code of /repo *)
Definition str_ljust (n : nat) (fill : ascii) (s : str) : str := s ++ repeat fill (n - List.length s).

(** x.ljust(n, fill), slash/utils/color_string.py:27-28; None: TypeError, the method of compound strings takes no arguments (55-56) *)
Definition ljust (n : nat) (fill : ascii) (o : obj) : option obj :=
  match o with
  | Plain s => Some (Plain (str_ljust n fill s))
  | Color s c => Some (Color (str_ljust n fill s) c)
  | Compound _ _ => None
  end.

(** x % values, slash/utils/color_string.py:34-35; what % does with strings is a parameter (None: it raises); None: an exception, also
    TypeError as compound strings have no % (43-59) *)
Definition modulo (percent : str -> option str) (o : obj) : option obj :=
  match o with
  | Plain s => match percent s with Some t => Some (Plain t) | None => None end
  | Color s c => match percent s with Some t => Some (Color t c) | None => None end
  | Compound _ _ => None
  end.

(** the characters of a string; no code of /repo *)
Definition chars (s : str) : list token := map Chr s.

Section Colours.
(** the colours of colorama.Fore, slash/utils/color_string.py:41 *)
Variable known : str -> bool.

(** get_colored, slash/utils/color_string.py:40-41, 58-59; None: AttributeError, there is no such colour *)
Fixpoint get_colored (o : obj) : option (list token) :=
  match o with
  | Plain s => Some (chars s)
  | Color s c => if known c then Some (Fore c :: chars s ++ [Reset]) else None
  | Compound a b =>
      match get_colored a, get_colored b with
      | Some x, Some y => Some (x ++ y)
      | _, _ => None
      end
  end.

(** '\n'; a Python operation, no code of /repo *)
Definition newline (t : token) : bool := match t with Chr c => Ascii.eqb c "010" | _ => false end.

(** str.splitlines, [cur] being the line so far; a Python operation, no code of /repo *)
Fixpoint splitlines (cur : list token) (l : list token) : list (list token) :=
  match l with
  | [] => match cur with [] => [] | _ => [cur] end
  | t :: l' => if newline t then cur :: splitlines [] l' else splitlines (cur ++ [t]) l'
  end.

(** the lines, with newlines between them, slash/utils/formatter.py:34-38 *)
Fixpoint joined (l : list (list token)) : list token :=
  match l with
  | [] => []
  | [x] => x
  | x :: l' => x ++ Chr "010" :: joined l'
  end.

(** what Formatter.write gives of one argument, without indentation, slash/utils/formatter.py:27-38 *)
Definition write (isatty : bool) (o : obj) : option (list token) :=
  let text := match o with
              | Color _ _ => if isatty then get_colored o else Some (chars (to_str o))
              | _ => Some (chars (to_str o))
              end in
  match text with Some t => Some (joined (splitlines [] t)) | None => None end.
End Colours.

(** theme: the keyword arguments of a theme, each with its value; [spec] is the string of the configuration,
    slash/reporting/console_reporter.py:24-28, slash/conf.py:20-45 *)
Fixpoint dict_set (k : str) (v : bool) (d : list (str * bool)) : list (str * bool) :=
  match d with
  | [] => [(k, v)]
  | (k', v') :: d' => if str_eqb k k' then (k', v) :: d' else (k', v') :: dict_set k v d'
  end.
(** d.get(k, False); a Python operation, as in slash/reporting/console_reporter.py:27 *)
Fixpoint dict_get (k : str) (d : list (str * bool)) : bool :=
  match d with
  | [] => false
  | (k', v) :: d' => if str_eqb k k' then v else dict_get k d'
  end.
(** del d[k]; a Python operation, as in slash/reporting/console_reporter.py:27 *)
Fixpoint dict_del (k : str) (d : list (str * bool)) : list (str * bool) :=
  match d with
  | [] => []
  | (k', v) :: d' => if str_eqb k k' then dict_del k d' else (k', v) :: dict_del k d'
  end.
(** theme, slash/reporting/console_reporter.py:24-28 *)
Definition theme (dark_background : bool) (spec : str) : list (str * bool) :=
  let returned := fold_left (fun d x => dict_set x true d) (split_all "/" spec) [] in
  if dark_background then returned
  else dict_set (lit "black") (dict_get (lit "white") returned) (dict_del (lit "white") returned).
