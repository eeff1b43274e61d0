(** Model of the names of variations and the addresses of tests: core/variation.py
    (safe_repr), core/metadata.py (get_address) and the check of labels
    (core/fixtures/parameters.py:193-195).  str() of values and of labels that are
    no strings is given. *)

From Coq Require Import List Bool Arith Ascii String.
From Verif Require Import Str.
Import ListNotations.

(** a label: a string, or another object with its str(); the default label is the
    index, parameters.py:219-220 *)
Inductive label := LText (s : str) | LOther (s : str).

(** a bound parameter of a variation: str(values[name]) and labels[name], variation.py:40-44 *)
Record binding := mkB { b_name : str; b_value : str; b_label : label }.

(** a class of characters; Python's string.ascii_letters and string.digits, no code of /repo *)
Definition letter (c : ascii) : bool :=
  let n := nat_of_ascii c in (Nat.leb 65 n && Nat.leb n 90) || (Nat.leb 97 n && Nat.leb n 122).
(** a class of characters; Python's string.digits, no code of /repo *)
Definition digit (c : ascii) : bool := let n := nat_of_ascii c in Nat.leb 48 n && Nat.leb n 57.

(** _PRINTABLE_CHARS, variation.py:8 *)
Definition printable_char (c : ascii) : bool :=
  letter c || digit c || Ascii.eqb c "-" || Ascii.eqb c "_".

(** _is_printable, variation.py:63-66; it is given the str() of the value (58-59), so the
    test of its type always succeeds *)
Definition is_printable (s : str) : bool := forallb printable_char s.

(** _format_parameter_value_safe, variation.py:53-61 *)
Definition format_safe (b : binding) : str :=
  match b_label b with
  | LText s => s
  | LOther s => if is_printable (b_value b) then b_value b else b_name b ++ s
  end.

(** [<=] on strings; a Python operation, no code of /repo *)
Fixpoint str_leb (a b : str) : bool :=
  match a, b with
  | [], _ => true
  | _ :: _, [] => false
  | x :: a', y :: b' =>
      if Ascii.eqb x y then str_leb a' b' else Nat.leb (nat_of_ascii x) (nat_of_ascii y)
  end.

(** sorted() by key; a Python operation, no code of /repo *)
Fixpoint insert_by (b : binding) (l : list binding) : list binding :=
  match l with
  | [] => [b]
  | c :: l' => if str_leb (b_name b) (b_name c) then b :: l else c :: insert_by b l'
  end.
(** sorted() by key; a Python operation, no code of /repo *)
Fixpoint sort_by (l : list binding) : list binding :=
  match l with [] => [] | b :: l' => insert_by b (sort_by l') end.

(** sep.join(l); a Python operation, no code of /repo *)
Fixpoint join (sep : str) (l : list str) : str :=
  match l with
  | [] => []
  | [x] => x
  | x :: l' => x ++ sep ++ join sep l'
  end.

(** _get_safe_repr, variation.py:47-51 *)
Definition safe_repr (l : list binding) : str :=
  join (lit ",") (map (fun b => b_name b ++ lit "=" ++ format_safe b) (sort_by l)).

(** Metadata, metadata.py:26-46, as far as the address depends on it, and its
    variation: whether it has any parametrization (variation.py:93-94) and its bindings *)
Record metadata := mkM {
  m_override : option str; m_path : str; m_in_file : str; m_varied : bool; m_bindings : list binding }.

(** get_address without raw_params, metadata.py:66-85 *)
Definition get_address (m : metadata) : str :=
  match m_override m with
  | Some s => s
  | None =>
      m_path m ++ lit ":" ++ m_in_file m ++
      (if m_varied m then lit "(" ++ safe_repr (m_bindings m) ++ lit ")" else [])
  end.

(** characters of a label after the first, parameters.py:194 *)
Definition label_char (c : ascii) : bool := digit c || letter c || Ascii.eqb c "_".

(** re.match(r'^[a-zA-Z_][0-9a-zA-Z_]{0,29}$', label), parameters.py:193-195; in
    Python [$] also matches before a newline at the end *)
Definition valid_label (s : str) : bool :=
  match s with
  | [] => false
  | c :: s' =>
      (letter c || Ascii.eqb c "_") &&
      let body := if ends (lit (String "010" "")) s' then firstn (List.length s' - 1) s' else s' in
      forallb label_char body && Nat.leb (List.length body) 29
  end.
