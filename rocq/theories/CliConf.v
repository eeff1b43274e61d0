(** Model of the configuration changes made from the command line:
    utils/conf_utils.py (callbacks 6-18, update_value 74-88) and
    utils/cli_utils.py get_modified_configuration_from_args_context 68-95.
    The configuration (confetti) is a dictionary from paths to values; assigning
    with deduce_type converts the text by the current value and may refuse it
    ([deduce]), assigning without it (95) stores the value. *)

From Coq Require Import List Bool Arith ZArith Ascii.
From Verif Require Import Str Dict.
Import ListNotations.

(** values of configuration leaves; confetti (outside /repo), as used by cli_utils.py:74-91 *)
Inductive cval := VNone | VBool (b : bool) | VNum (z : Z) | VStr (s : str) | VList (l : list str).

(** Python's == on them (True == 1); a Python operation, no code of /repo, used by cli_utils.py:77 *)
Fixpoint strs_eqb (a b : list str) : bool :=
  match a, b with
  | [], [] => true
  | x :: a', y :: b' => str_eqb x y && strs_eqb a' b'
  | _, _ => false
  end.
(** a Python operation, no code of /repo *)
Definition num_of (v : cval) : option Z :=
  match v with VNum z => Some z | VBool b => Some (if b then 1%Z else 0%Z) | _ => None end.
(** a Python operation, no code of /repo, used by cli_utils.py:77 *)
Definition cval_eqb (a b : cval) : bool :=
  match a, b with
  | VNone, VNone => true
  | VStr x, VStr y => str_eqb x y
  | VList x, VList y => strs_eqb x y
  | _, _ => match num_of a, num_of b with Some x, Some y => Z.eqb x y | _, _ => false end
  end.

(** the callbacks of conf_utils.py:6-18; None: TypeError *)
Inductive callback := SetTrue | SetFalse | Increase | Decrease.
(** the callbacks given to update_value, cli_utils.py:76 *)
Definition call_back (k : callback) (v : cval) : option cval :=
  match k with
  | SetTrue => Some (VBool true)
  | SetFalse => Some (VBool false)
  | Increase => option_map (fun z => VNum (z + 1)%Z) (num_of v)
  | Decrease => option_map (fun z => VNum (z - 1)%Z) (num_of v)
  end.

(** what argparse collected for a leaf with a Cmdline metadata (utils/conf_utils.py:40-72): the value
    of [arg], or the values of [append], and the callbacks in order *)
Record flag := mkFlag { g_path : nat; g_arg : option str; g_append : option (list str); g_calls : list callback }.

(** list(value), utils/conf_utils.py:81 *)
Definition as_list (v : cval) : option (list str) :=
  match v with VList l => Some l | VStr s => Some (map (fun c => [c]) s) | _ => None end.

(** update_value utils/conf_utils.py:74-88; None: TypeError *)
Definition update_value (g : flag) (v : cval) : option cval :=
  let v1 := match g_append g with
            | Some l => option_map (fun old => VList (old ++ l)) (as_list v)
            | None => match g_arg g with Some a => Some (VStr a) | None => Some v end
            end in
  fold_left (fun acc k => match acc with Some v => call_back k v | None => None end) (g_calls g) v1.

(** a -o option: without "=", or path=text; cli_utils.py:83-86 *)
Inductive override := OvBad | Ov (path : nat) (text : str).

Notation cfg := (list (nat * cval)).

(** the configuration, to_restore (newest last), and the paths assigned so far (ghost); cli_utils.py:72 *)
Record cstate := mkCs { cs_cfg : cfg; cs_restore : list (nat * cval); cs_assigned : list nat }.

Section Deduce.
(** conversion of an assigned value by the current one (confetti, deduce_type);
    None: ValueError *)
Variable deduce : cval -> cval -> option cval.

(** config.assign_path(path, value, deduce_type=True); cli_utils.py:79-82, 88-91 *)
Definition assign (path : nat) (old new : cval) (s : cstate) : cstate * bool :=
  match deduce old new with
  | Some v => (mkCs (d_set path v (cs_cfg s)) (cs_restore s) (cs_assigned s ++ [path]), true)
  | None => (s, false)
  end.

(** utils/cli_utils.py:74-82; false: something raised (parser.error raises SystemExit) *)
Fixpoint apply_flags (l : list flag) (s : cstate) : cstate * bool :=
  match l with
  | [] => (s, true)
  | g :: l' =>
      match d_get (g_path g) (cs_cfg s) with
      | None => apply_flags l' s
      | Some old =>
          match update_value g old with
          | None => (s, false)
          | Some new =>
              if cval_eqb new old then apply_flags l' s
              else
                match assign (g_path g) old new
                        (mkCs (cs_cfg s) (cs_restore s ++ [(g_path g, old)]) (cs_assigned s)) with
                | (s1, true) => apply_flags l' s1
                | (s1, false) => (s1, false)
                end
          end
      end
  end.

(** utils/cli_utils.py:83-91; an unknown path: LookupError of get_path *)
Fixpoint apply_overrides (l : list override) (s : cstate) : cstate * bool :=
  match l with
  | [] => (s, true)
  | OvBad :: _ => (s, false)
  | Ov path text :: l' =>
      match d_get path (cs_cfg s) with
      | None => (s, false)
      | Some old =>
          match assign path old (VStr text)
                  (mkCs (cs_cfg s) (cs_restore s ++ [(path, old)]) (cs_assigned s)) with
          | (s1, true) => apply_overrides l' s1
          | (s1, false) => (s1, false)
          end
      end
  end.

(** utils/cli_utils.py:94-95: reversed(to_restore) *)
Definition restore (l : list (nat * cval)) (c : cfg) : cfg :=
  fold_left (fun c e => d_set (fst e) (snd e) c) (rev l) c.

(** the whole context: the state before the body, whether the body was run, and
    the configuration after the context.  The body may change the configuration
    ([body]) and then return or raise: the finally clause is the same. cli_utils.py:68-95 *)
Definition in_context (flags : list flag) (ovs : list override) (body : cfg -> cfg) (c : cfg)
  : cstate * bool * cfg :=
  match apply_flags flags (mkCs c [] []) with
  | (s1, false) => (s1, false, restore (cs_restore s1) (cs_cfg s1))
  | (s1, true) =>
      match apply_overrides ovs s1 with
      | (s2, false) => (s2, false, restore (cs_restore s2) (cs_cfg s2))
      | (s2, true) => (s2, true, restore (cs_restore s2) (body (cs_cfg s2)))
      end
  end.
End Deduce.
