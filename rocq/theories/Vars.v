(** Model of the variables an error remembers and logs:
    slash/utils/traceback_utils.py:115-122, 129-150, 162-255, 258-273, and of what becomes of the
    frames of an error while it is added to a result, slash/core/error.py:57-65, 128-129,
    slash/core/result.py:224-245.
    Simplified: a value is described by its type as far as the code asks for it, by its
    repr (None: repr raises an Exception) and by its attributes (None: reading
    it raises an Exception); the numbers of lines and the id of objects are given as text;
    exceptions that are not Exceptions, and __class__ properties that raise, are left out;
    the source lines and is_in_test_code (151-159) are not modelled here. *)

From Coq Require Import List Bool Arith Ascii String.
From Verif Require Import Str Naming Plugins ConsoleLines.
Import ListNotations.
Open Scope string_scope.
Open Scope list_scope.

(** the types asked for; slash/utils/traceback_utils.py:19-20, 193 *)
Inductive kind := KFunction | KMethod | KModule | KClass | KSimple | KOther.

(** a value: its kind, whether it is of a type in log.repr_blacklisted_types, its
    repr, the name of its type, id() in hexadecimal, and the entries of its
    __dict__ with what getattr gives (no entry if it has none or if it
    cannot be read); slash/utils/traceback_utils.py:233-248, 258-273 *)
Inductive value := Val (k : kind) (black : bool) (rep : option str) (tname id : str) (attrs : list (str * option value)).

(** slash/utils/traceback_utils.py:246 *)
Definition v_kind (v : value) : kind := let 'Val k _ _ _ _ _ := v in k.
(** isinstance(value, blacklisted_types), slash/utils/traceback_utils.py:205, 228, 259 *)
Definition v_black (v : value) : bool := let 'Val _ b _ _ _ _ := v in b.
(** slash/utils/traceback_utils.py:234-243 *)
Definition v_attrs (v : value) : list (str * option value) := let 'Val _ _ _ _ _ a := v in a.

(** repr of the name of a type (no quotes in it); a Python operation, no code of /repo *)
Definition quoted (s : str) : str := lit "'" ++ s ++ lit "'".

(** _safe_repr, slash/utils/traceback_utils.py:258-269, with _format_repr_skip_string 272-273 *)
Definition repr_of (truncate : bool) (v : value) : str :=
  let 'Val _ black rep tname id _ := v in
  safe_repr truncate
    (if black then lit "<" ++ quoted tname ++ lit " object " ++ id ++ lit ">"
     else match rep with
          | Some r => r
          | None => lit "[Unprintable " ++ quoted tname ++ lit " object]"
          end).

(** attr.startswith('__') and attr.endswith('__'), slash/utils/traceback_utils.py:240 *)
Definition dunder (a : str) : bool := starts (lit "__") a && ends (lit "__") a.

(** isinstance(value, _FILTERED_MEMBER_TYPES), slash/utils/traceback_utils.py:19, 246 *)
Definition filtered_member (v : value) : bool :=
  match v_kind v with KMethod | KFunction | KClass => true | _ => false end.

(** iter_distilled_object_attributes, slash/utils/traceback_utils.py:233-248 *)
Definition iter_attributes (o : value) : list (str * value) :=
  flat_map (fun e =>
    if dunder (fst e) then []
    else match snd e with
         | None => []
         | Some v => if filtered_member v then [] else [(fst e, v)]
         end) (v_attrs o).

(** a dict made of pairs, the later ones win; a Python operation, no code of /repo *)
Definition dict_of {A} (l : list (str * A)) : list (str * A) := fold_left (fun d e => s_set (fst e) (snd e) d) l [].

(** 'self'; slash/utils/traceback_utils.py:205 *)
Definition SELF : str := lit "self".

(** _unwrap_local, slash/utils/traceback_utils.py:203-209 *)
Definition unwrap_local (name : str) (v : value) : list (str * value) :=
  (name, v) ::
  (if negb (str_eqb name SELF) || v_black v then []
   else map (fun e => (lit "self." ++ fst e, snd e)) (iter_attributes v)).

(** _capture_locals, slash/utils/traceback_utils.py:197-201 *)
Definition capture_locals (f_locals : list (str * value)) : list (str * str) :=
  dict_of (flat_map (fun e =>
    if contains (lit "@") (fst e) then []
    else map (fun x => (fst x, repr_of true (snd x))) (unwrap_local (fst e) (snd e))) f_locals).

(** _is_global_included, slash/utils/traceback_utils.py:192-195 *)
Definition global_included (v : value) : bool :=
  match v_kind v with KFunction | KMethod | KModule | KClass => false | _ => true end.

(** _capture_globals, slash/utils/traceback_utils.py:186-190 *)
Definition capture_globals (co_names : list str) (f_globals : list (str * value)) : list (str * str) :=
  dict_of (flat_map (fun e =>
    if s_mem (fst e) co_names && global_included (snd e) then [(fst e, repr_of true (snd e))] else []) f_globals).

(** the parts of a Python frame; slash/utils/traceback_utils.py:138-151 *)
Record pframe := mkPf { pf_file : str; pf_line : str; pf_code : str;
                        pf_locals : list (str * value); pf_globals : list (str * value); pf_names : list str }.

(** DistilledFrame, slash/utils/traceback_utils.py:136-151 *)
Record dframe := mkDf { df_python : option pframe; df_file : str; df_line : str; df_code : str;
                        df_locals : list (str * str); df_globals : list (str * str) }.

(** DistilledFrame.__init__, slash/utils/traceback_utils.py:138-151 *)
Definition distill (f : pframe) : dframe :=
  mkDf (Some f) (pf_file f) (pf_line f) (pf_code f) (capture_locals (pf_locals f)) (capture_globals (pf_names f) (pf_globals f)).

(** forget_python_frame, slash/utils/traceback_utils.py:171-172 *)
Definition forget_frame (d : dframe) : dframe :=
  mkDf None (df_file d) (df_line d) (df_code d) (df_locals d) (df_globals d).

(** _unwrap_self_locals, slash/utils/traceback_utils.py:224-230 *)
Definition unwrap_self_locals (l : list (str * value)) : list (str * value) :=
  flat_map (fun e =>
    e :: (if str_eqb (fst e) SELF && negb (v_black (snd e))
          then map (fun x => (lit "self." ++ fst x, snd x)) (iter_attributes (snd e)) else [])) l.

(** "\n" and "\t"; Python operations, no code of /repo *)
Definition LF : str := ["010"%char].
(** "\t"; a Python operation, no code of /repo *)
Definition HT : str := ["009"%char].

(** DistilledFrame.to_string, slash/utils/traceback_utils.py:214-221 *)
Definition frame_string (include_vars : bool) (d : dframe) : str :=
  lit "  " ++ df_file d ++ lit ", line " ++ df_line d ++ lit ":" ++ LF ++ lit "    " ++ df_code d
  ++ match df_python d with
     | Some f =>
         if include_vars then
           flat_map (fun e => LF ++ HT ++ lit "- " ++ fst e ++ lit ": " ++ repr_of false (snd e)) (unwrap_self_locals (pf_locals f)) ++ LF
         else []
     | None => []
     end.

(** DistilledTraceback.to_string, slash/utils/traceback_utils.py:132-133 *)
Definition traceback_string (include_vars : bool) (fs : list dframe) : str :=
  join LF (map (frame_string include_vars) fs).

(** distill_object_attributes, slash/utils/traceback_utils.py:251-255: simple values are
    kept (inl), others become text (inr) *)
Definition object_attributes (truncate : bool) (o : value) : list (str * (value + str)) :=
  dict_of (map (fun e => (fst e, match v_kind (snd e) with
                                 | KSimple => inl (snd e)
                                 | _ => inr (repr_of truncate (snd e))
                                 end)) (iter_attributes o)).

(** an Error: its message, whether it holds an exc_info, its frames; slash/core/error.py:24-47 *)
Record error := mkErr { e_message : str; e_exc_info : bool; e_frames : list dframe }.

(** log_added, slash/core/error.py:63-65 with __repr__ 128-129 *)
Definition log_text (traceback_variables : bool) (e : error) : str :=
  lit "Error added: <Error: " ++ e_message e ++ lit ">" ++ LF ++ traceback_string traceback_variables (e_frames e).

(** forget_exc_info, slash/core/error.py:57-61 *)
Definition forget (e : error) : error := mkErr (e_message e) false (map forget_frame (e_frames e)).

(** what is seen of an error while it is added: the log, the hook error_added;
    slash/core/result.py:235-240 *)
Inductive ev := Logged (s : str) | Hook (e : error).

(** Result._add_error of an Error, slash/core/result.py:235-245: [report]: 239; [hook_fails]: a
    callback of error_added raises; the events, the error, whether it was
    appended, whether it raises *)
Definition add_error (variables append report hook_fails : bool) (e : error) : list ev * error * bool * bool :=
  let l := [Logged (log_text variables e)] in
  if report then
    if hook_fails then (l ++ [Hook e], e, append, true)
    else (l ++ [Hook e], forget e, append, false)
  else (l, forget e, append, false).
