(** Model of the plugin that links tests to logs archived by a CI system (slash/plugins/builtin/ci_links.py).

    Simplified: of Python's % formatting with a dict, %% and %(key)s with keys without parentheses are modelled; everything else a template
    may contain (a conversion without key, other conversions, flags, an unfinished one) gives [Unsupported], which stands for whatever
    Python makes of it.  Of the details of the result (slash/core/details.py:8-13, no callback: slash/core/result.py:43) only those with
    strings as values are there. *)

From Coq Require Import List Bool Arith Ascii String.
From Verif Require Import Str.
Import ListNotations.

(** the exceptions of test_end: the result has no log path (None.split, slash/plugins/builtin/ci_links.py:43); the template has a key
    other than build_url and log_path, or is one that is not modelled (slash/plugins/builtin/ci_links.py:41) *)
Inductive failure := AttributeError | KeyError (k : str) | Unsupported.
(** what formatting gives, slash/plugins/builtin/ci_links.py:41-43 *)
Inductive formatted := Text (s : str) | Fails (e : failure).

(** s.rstrip(c); a Python operation, no code of /repo *)
Fixpoint lstrip_char (c : ascii) (s : str) : str :=
  match s with
  | x :: s' => if Ascii.eqb x c then lstrip_char c s' else s
  | [] => []
  end.
(** s.rstrip(c); a Python operation, no code of /repo *)
Definition rstrip_char (c : ascii) (s : str) : str := rev (lstrip_char c (rev s)).

(** sep.join(l); a Python operation, no code of /repo *)
Fixpoint join (sep : str) (l : list str) : str :=
  match l with
  | [] => []
  | [w] => w
  | w :: l' => w ++ sep ++ join sep l'
  end.

(** where the formatting is: in the text, after a %, in a key, after a key with its value; a Python operation, as in
    slash/plugins/builtin/ci_links.py:41-43 *)
Inductive place := InText | AfterPercent | InKey (k : str) | AfterKey (v : str).

(** template % mapping, character after character; a Python operation, as in slash/plugins/builtin/ci_links.py:41-43 *)
Fixpoint fmt (m : str -> option str) (p : place) (t : str) : formatted :=
  let put s r := match r with Text x => Text (s ++ x) | Fails e => Fails e end in
  match p, t with
  | InText, [] => Text []
  | _, [] => Fails Unsupported
  | InText, c :: t' => if Ascii.eqb c "%" then fmt m AfterPercent t' else put [c] (fmt m InText t')
  | AfterPercent, c :: t' =>
      if Ascii.eqb c "%" then put ["%"%char] (fmt m InText t')
      else if Ascii.eqb c "(" then fmt m (InKey []) t'
      else Fails Unsupported
  | InKey k, c :: t' =>
      if Ascii.eqb c ")" then match m k with None => Fails (KeyError k) | Some v => fmt m (AfterKey v) t' end
      else if Ascii.eqb c "(" then Fails Unsupported
      else fmt m (InKey (k ++ [c])) t'
  | AfterKey v, c :: t' => if Ascii.eqb c "s" then put v (fmt m InText t') else Fails Unsupported
  end.

(** the configuration, slash/plugins/builtin/ci_links.py:15-19 *)
Record conf := mkConf { build_url_environment_variable : str; link_template : str }.
(** get_default_config, slash/plugins/builtin/ci_links.py:15-19 *)
Definition default : conf := mkConf (lit "BUILD_URL") (lit "%(build_url)s/artifact/%(log_path)s").

(** the environment of the process, os.environ, slash/plugins/builtin/ci_links.py:29 *)
Definition environ := str -> option str.

(** _get_build_url, slash/plugins/builtin/ci_links.py:21-33 *)
Definition get_build_url (c : conf) (e : environ) : option str :=
  match e (build_url_environment_variable c) with
  | None => None
  | Some u => Some (rstrip_char "/" u)
  end.

(** the details of a result, slash/core/details.py:5 *)
Definition details := list (str * str).
(** Details.set, slash/core/details.py:8-13 *)
Fixpoint set (k v : str) (d : details) : details :=
  match d with
  | [] => [(k, v)]
  | (k', v') :: d' => if str_eqb k k' then (k', v) :: d' else (k', v') :: set k v d'
  end.

(** the dict given to the template, slash/plugins/builtin/ci_links.py:42-43 *)
Definition mapping (build_url log_path : str) (k : str) : option str :=
  if str_eqb k (lit "build_url") then Some build_url else if str_eqb k (lit "log_path") then Some log_path else None.

(** test_end, for a result with a log path (None: without, slash/core/result.py:48) and details, on a system with a separator of paths;
    slash/plugins/builtin/ci_links.py:35-44 *)
Definition test_end (c : conf) (e : environ) (sep : ascii) (log_path : option str) (d : details) : details * option failure :=
  match get_build_url c e with
  | None => (d, None)
  | Some u =>
      match log_path with
      | None => (d, Some AttributeError)
      | Some p =>
          match fmt (mapping u (join (lit "/") (split_all sep p))) InText (link_template c) with
          | Fails x => (d, Some x)
          | Text s => (set (lit "log_link") s d, None)
          end
      end
  end.
