(** Customization files: slash/site.py.

    The code of a customization (a file, the contents of a URL, an entry point) is
    arbitrary: an oracle from what it can see to what it leaves, with or without an
    exception.  The operating system (files, environment, path functions) is an
    oracle over the part of the world that code can change.  Not modelled: the
    globals a file is run with. *)

From Coq Require Import List Bool Ascii String.
From Verif Require Import Str.
Import ListNotations.
Open Scope string_scope.
Open Scope list_scope.

(** an exception of the code that was run (slash/site.py:56-79): any *)
Definition exn := nat.

(** what is run: a file, a URL, the entry point number [i]; slash/site.py:56-79 *)
Inductive source := File (f : str) | Url (u : str) | Entry (i : nat).

(** on whose behalf: _load_slashrc, _load_local_slashrc, _load_environment,
    _load_entry_points; slash/site.py:20-24 *)
Inductive role := User | Project | Settings | EntryPoint.

Section Site.

(** the rest of the world; no code of /repo *)
Variable W : Type.

(** what customizations can see and change: sys.path, three options of
    config.root.run, the rest; slash/site.py:27, :34, :39-40 and :44-49 *)
Record vis := mkVis { sys_path : list str; user_path : option str; project_path : str; project_name : option str; rest : W }.

(** the code of a customization; slash/site.py:59-60 and :68-79 *)
Variable exec : source -> vis -> vis * option exn.
(** os.path.isfile, os.environ.get, the entry points of slash.site.customize *)
Variable isfile : W -> str -> bool.
Variable environ : W -> str -> option str.
Variable entries : W -> list nat.
(** os.path: expanduser, isabs, join, abspath, dirname, basename *)
Variable expanduser abspath dirname basename : str -> str.
Variable isabs : str -> bool.
Variable join : str -> str -> str.

(** one customization that was run: on whose behalf, what, with which sys.path, and
    the exception it ended with; oldest first; no code of /repo *)
Record event := mkEvent { ev_role : role; ev_source : source; ev_path : list str; ev_exn : option exn }.

(** a computation: what is seen after it, what was run, the exception; plumbing *)
Definition M := vis -> vis * list event * option exn.

(** plumbing of the model *)
Definition seq (a b : M) : M := fun v =>
  match a v with
  | (v1, l1, None) => match b v1 with (v2, l2, r) => (v2, l1 ++ l2, r) end
  | x => x
  end.

(** plumbing of the model *)
Definition ret : M := fun v => (v, [], None).

(** run one customization; plumbing of the model *)
Definition run (o : role) (s : source) : M := fun v =>
  match exec s v with (v', r) => (v', [mkEvent o s (sys_path v) r], r) end.

(** plumbing of the model *)
Definition with_path (p : list str) (v : vis) : vis := mkVis p (user_path v) (project_path v) (project_name v) (rest v).
(** plumbing of the model *)
Definition with_name (n : str) (v : vis) : vis := mkVis (sys_path v) (user_path v) (project_path v) (Some n) (rest v).

(** _load_file_if_exists; slash/site.py:42-49 *)
Definition load_file_if_exists (o : role) (path : option str) : M := fun v =>
  match path with
  | Some p =>
      if isfile (rest v) p
      then let old := sys_path v in
           match run o (File p) (with_path (dirname p :: old) v) with (v', l, r) => (with_path old v', l, r) end
      else ret v
  | None => ret v
  end.

(** _load_slashrc; slash/site.py:26-31 *)
Definition load_slashrc : M := fun v =>
  let path := option_map expanduser (user_path v) in
  load_file_if_exists User (match environ (rest v) (lit "SLASH_USER_SETTINGS") with Some p => Some p | None => path end) v.

(** the path of the project file; slash/site.py:34-37 *)
Definition local_path (wd : option str) (v : vis) : str :=
  let path := expanduser (project_path v) in
  abspath (match wd with Some d => if isabs path then path else join d path | None => path end).

(** _load_local_slashrc; slash/site.py:33-40 *)
Definition load_local_slashrc (wd : option str) : M := fun v =>
  let path := local_path wd v in
  seq (load_file_if_exists Project (Some path))
      (fun v => match project_name v with None => ret (with_name (basename (dirname path)) v) | Some _ => ret v end) v.

(** _load_filename_or_url; slash/site.py:62-66 *)
Definition load_filename_or_url (o : role) (s : str) : M := fun v =>
  run o (if isfile (rest v) s then File s else Url s) v.

(** _load_environment; slash/site.py:51-54 *)
Definition load_environment : M := fun v =>
  match environ (rest v) (lit "SLASH_SETTINGS") with
  | Some (c :: s) => load_filename_or_url Settings (c :: s) v
  | _ => ret v
  end.

(** the loop of _load_entry_points; slash/site.py:58-60 *)
Fixpoint run_entries (l : list nat) : M :=
  match l with [] => ret | i :: l => seq (run EntryPoint (Entry i)) (run_entries l) end.

(** _load_entry_points; slash/site.py:56-60 *)
Definition load_entry_points : M := fun v => run_entries (entries (rest v)) v.

(** load without a thing; slash/site.py:8-24 *)
Definition load_defaults (wd : option str) : M :=
  seq load_slashrc (seq (load_local_slashrc wd) (seq load_environment load_entry_points)).

End Site.
