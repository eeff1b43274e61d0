(** Model of where the log files are and when they are open: _NormalizedObject,
    _format_log_path, _get_log_file_path, _log_file_handler_context (the dictionary
    of open files), get_active_log_paths, and the colours of records;
    slash/log.py:33-73, 148-149, 232-242, 261-283, 289-290, 377-379.

    Simplified: the parts of a template are given (str.format finds them, outside
    /repo), its fields are names with attributes, without indices.  Of a value what
    str, repr and format make of it and its attributes are given.  Attributes that
    every Python object has (the names with two underscores) and the name _escape are
    not looked at.  Records go to the innermost open handler only (who gets a
    record: LogRoute.v). *)

From Coq Require Import List Bool Arith Ascii String.
From Verif Require Import Str.
Import ListNotations.
Open Scope string_scope.
Open Scope list_scope.

(** * The name of a file *)

(** a Python value: whether it is a number, str(), repr(), format() with a
    specification ([None]: an exception), attributes; outside /repo *)
Inductive obj := Obj (num : bool) (s r : str) (fmt : str -> option str) (attrs : list (str * obj)).

(** what a field of a template stands for: a value itself, or a _NormalizedObject
    of it, slash/log.py:33-35 *)
Inductive nobj := Raw (o : obj) | Normalized (o : obj).

(** getattr; outside /repo *)
Fixpoint attr (n : str) (l : list (str * obj)) : option obj :=
  match l with
  | [] => None
  | (m, o) :: l' => if str_eqb n m then Some o else attr n l'
  end.

(** _escape, slash/log.py:41-43 *)
Definition escape (s : str) : str :=
  map (fun c => if Ascii.eqb c "092"%char then "_"%char else if Ascii.eqb c "/"%char then "_"%char else c) s.

(** __getattr__, slash/log.py:37-39; the attribute _obj (35) is found before it *)
Definition get_attr (v : nobj) (n : str) : option nobj :=
  match v with
  | Raw (Obj _ _ _ _ l) => match attr n l with Some o => Some (Raw o) | None => None end
  | Normalized (Obj num s r f l) =>
      if str_eqb n (lit "_obj") then Some (Raw (Obj num s r f l))
      else match attr n l with
           | Some (Obj true s' r' f' l') => Some (Raw (Obj true s' r' f' l'))
           | Some o => Some (Normalized o)
           | None => None
           end
  end.

(** the names after the dots of a field; outside /repo *)
Fixpoint get_attrs (v : nobj) (ns : list str) : option nobj :=
  match ns with
  | [] => Some v
  | n :: ns => match get_attr v n with Some w => get_attrs w ns | None => None end
  end.

(** the conversion of a field: none, !s, !r; outside /repo *)
Inductive conv := NoConv | ConvS | ConvR.

(** a part of a template: text, or a field with its name, attributes, conversion and
    specification; outside /repo *)
Inductive part := Text (t : str) | Field (name : str) (attrs : list str) (c : conv) (spec : str).

(** how formatting ends; outside /repo *)
Inductive fres := Done (t : str) | KeyError | AttributeError | TypeError.

Section Format.
(** format() of a str with a specification; outside /repo *)
Variable str_format : str -> str -> option str.

(** __str__, slash/log.py:45-46 *)
Definition to_str (v : nobj) : str :=
  match v with Raw (Obj _ s _ _ _) => s | Normalized (Obj _ s _ _ _) => escape s end.
(** __repr__, slash/log.py:48-49 *)
Definition to_repr (v : nobj) : str :=
  match v with Raw (Obj _ _ r _ _) => r | Normalized (Obj _ _ r _ _) => escape r end.
(** format() of a value: a _NormalizedObject has the __format__ of object, which
    refuses a specification; outside /repo *)
Definition to_format (v : nobj) (spec : str) : option str :=
  match v with
  | Raw (Obj _ _ _ f _) => f spec
  | Normalized _ => match spec with [] => Some (to_str v) | _ => None end
  end.

(** one field; outside /repo *)
Definition field (v : nobj) (c : conv) (spec : str) : option str :=
  match c with
  | NoConv => to_format v spec
  | ConvS => match spec with [] => Some (to_str v) | _ => str_format spec (to_str v) end
  | ConvR => match spec with [] => Some (to_repr v) | _ => str_format spec (to_repr v) end
  end.

(** the arguments of format, slash/log.py:378-379 *)
Definition argument (context timestamp project : obj) (n : str) : option nobj :=
  if str_eqb n (lit "context") then Some (Normalized context)
  else if str_eqb n (lit "timestamp") then Some (Raw timestamp)
  else if str_eqb n (lit "project_name") then Some (Raw project)
  else None.

(** one part, of the format of slash/log.py:378-379; outside /repo *)
Definition format_part (context timestamp project : obj) (p : part) : fres :=
  match p with
  | Text t => Done t
  | Field n ns c spec =>
      match argument context timestamp project n with
      | None => KeyError
      | Some v =>
          match get_attrs v ns with
          | None => AttributeError
          | Some w => match field w c spec with Some t => Done t | None => TypeError end
          end
      end
  end.

(** _format_log_path, slash/log.py:377-379 *)
Fixpoint format_log_path (context timestamp project : obj) (ps : list part) : fres :=
  match ps with
  | [] => Done []
  | p :: ps =>
      match format_part context timestamp project p with
      | Done t => match format_log_path context timestamp project ps with
                  | Done u => Done (t ++ u)
                  | e => e
                  end
      | e => e
      end
  end.

(** os.path.join; outside /repo *)
Definition join (a b : str) : str :=
  if starts (lit "/") b then b
  else match a with
       | [] => b
       | _ => if ends (lit "/") a then a ++ b else a ++ lit "/" ++ b
       end.

(** os.path.expanduser, [home]: the directory of the user named (the empty name: of this one), without a slash at its end;
    outside /repo *)
Definition expanduser (home : str -> option str) (p : str) : str :=
  match p with
  | c :: p' =>
      if Ascii.eqb c "~"%char then
        let '(user, rest) := match split1 "/"%char p' with
                             | Some (u, r) => (u, "/"%char :: r)
                             | None => (p', [])
                             end in
        match home user with
        | Some h => h ++ rest
        | None => p
        end
      else p
  | [] => []
  end.

(** config.root.log.compression, conf.py:75-79 *)
Inductive algorithm := Gzip | Brotli | OtherAlgorithm.
(** how _get_log_file_path ends, slash/log.py:232-242 *)
Inductive pres := Path (t : str) | Failed (e : fres) | InvalidConfiguration.

(** _get_log_file_path, slash/log.py:232-242, 289-290 *)
Definition get_log_file_path (home : str -> option str) (context timestamp project : obj)
    (root : str) (compress : bool) (alg : algorithm) (ps : list part) : pres :=
  match format_log_path context timestamp project ps with
  | Done t =>
      let p := expanduser home (join root t) in
      if compress then
        match alg with
        | Gzip => Path (p ++ lit ".gz")
        | Brotli => Path (p ++ lit ".br")
        | OtherAlgorithm => InvalidConfiguration
        end
      else Path p
  | e => Failed e
  end.
End Format.

(** * Open files *)

(** _log_path_to_handler, slash/log.py:146; handlers are numbers *)
Definition table := list (str * option nat).

(** _log_path_to_handler.get(log_path, None), slash/log.py:267 *)
Fixpoint t_get (p : str) (t : table) : option nat :=
  match t with
  | [] => None
  | (q, h) :: t' => if str_eqb p q then h else t_get p t'
  end.
(** assignment to an item, slash/log.py:276, 282 *)
Fixpoint t_set (p : str) (h : option nat) (t : table) : table :=
  match t with
  | [] => [(p, h)]
  | (q, g) :: t' => if str_eqb p q then (q, h) :: t' else (q, g) :: t_set p h t'
  end.
(** get_active_log_paths, slash/log.py:148-149 *)
Definition active (t : table) : list str :=
  map fst (filter (fun e => match snd e with Some _ => true | None => false end) t).

(** code using the contexts: raising, writing a record, asking for the files, a block with a log file; users of
    slash/log.py:148-149, 255-286 *)
Inductive code :=
| Stop
| Raise
| Write (n : nat) (k : code)
| Ask (k : code)                      (* get_active_log_paths() *)
| With (path : str) (b k : code).

(** what happens to files, slash/log.py:255-286 *)
Inductive event :=
| Opened (path : str) (h : nat)
| Wrote (h : nat) (n : nat)
| Answered (paths : list str)
| Closed (path : str) (h : nat)
| Told (path : str)                   (* the hook log_file_closed *)
| CannotOpen (path : str).

(** the table, the number of handlers made, events oldest first, and whether an exception is under way;
    slash/log.py:146-149 *)
Record world := mkW { w_table : table; w_next : nat; w_events : list event; w_raised : bool }.

Section Files.
(** whether the file can be made, slash/log.py:272-275 (directories, permissions) *)
Variable can_open : str -> bool.

(** _log_file_handler_context around a block, slash/log.py:265-282 (links and the
    removal of files: Links.v, LogFiles.v); [cur] the handler records go to *)
Fixpoint run (cur : option nat) (c : code) (w : world) : world :=
  match c with
  | Stop => w
  | Raise => mkW (w_table w) (w_next w) (w_events w) true
  | Write n k =>
      run cur k (mkW (w_table w) (w_next w)
                     (w_events w ++ match cur with Some h => [Wrote h n] | None => [] end) false)
  | Ask k =>
      run cur k (mkW (w_table w) (w_next w) (w_events w ++ [Answered (active (w_table w))]) false)
  | With p b k =>
      let w1 :=
        match t_get p (w_table w) with
        | Some h => run (Some h) b w
        | None =>
            if can_open p then
              let h := w_next w in
              let w2 := run (Some h) b (mkW (t_set p (Some h) (w_table w)) (S h)
                                            (w_events w ++ [Opened p h]) false) in
              mkW (t_set p None (w_table w2)) (w_next w2)
                  (w_events w2 ++ [Closed p h; Told p]) (w_raised w2)
            else mkW (w_table w) (w_next w) (w_events w ++ [CannotOpen p]) true
        end in
      if w_raised w1 then w1 else run cur k w1
  end.
End Files.

(** before the first log file, slash/log.py:146 *)
Definition world0 := mkW [] 0 [] false.

(** * Colours *)

(** the colours of get_color, slash/log.py:60-71; the names given to set_log_color are numbers *)
Inductive colour := Red | Yellow | White | Black | Custom (n : nat).

(** the levels of logbook used here, slash/log.py:64-68 *)
Definition ERROR := 14.
(** the same, slash/log.py:66 *)
Definition WARNING := 13.
(** the same, slash/log.py:68 *)
Definition NOTICE := 12.

(** _custom_colors, slash/log.py:21; a colour may be None *)
Definition colours := list ((str * nat) * option colour).

(** set_log_color, slash/log.py:52-55 *)
Definition set_log_color (l : colours) (call : (str * nat) * option colour) : colours := call :: l.

(** _custom_colors.get, slash/log.py:60 *)
Fixpoint custom (ch : str) (lv : nat) (l : colours) : option colour :=
  match l with
  | [] => None
  | ((c, v), x) :: l' => if str_eqb ch c && Nat.eqb lv v then x else custom ch lv l'
  end.

(** get_color, slash/log.py:59-73; [None]: the default colour *)
Definition get_color (l : colours) (dark : bool) (ch : str) (lv : nat) : option colour :=
  match custom ch lv l with
  | Some c => Some c
  | None =>
      if Nat.leb ERROR lv then Some Red
      else if Nat.leb WARNING lv then Some Yellow
      else if Nat.leb NOTICE lv then Some (if dark then White else Black)
      else None
  end.
