(** The importer behind slash.ext (slash/exthook.py, installed by slash/ext/__init__.py):
    an import of slash.ext.NAME is redirected to the first of the choices
    (slash_NAME) that can be imported.

    The import of the real module ([imp], __import__) runs code outside of /repo: it
    may change sys.modules in any way, also by importing through the importer again,
    and it returns or raises anything.  Not modelled: Python's own protocol around
    find_module and load_module, and its import locks. *)

From Coq Require Import List Bool Arith Ascii String.
From Verif Require Import Str.
Import ListNotations.
Open Scope list_scope.

(** the characters of slash/exthook.py:21-22, :43, :103 (on a system with "/") *)
Definition dot : ascii := "."%char.
(** os.path.sep; slash/exthook.py:103 *)
Definition sep : ascii := "/"%char.

(** wrapper_module.count('.'); slash/exthook.py:22 *)
Definition count_dots (s : str) : nat := count_occ ascii_dec s dot.

(** s.split('.', n)[n]: what follows the n-th dot; None: IndexError; slash/exthook.py:43 *)
Fixpoint after_dots (n : nat) (s : str) : option str :=
  match n with
  | 0 => Some s
  | S n => match split1 dot s with Some (_, b) => after_dots n b | None => None end
  end.

(** a choice like 'slash_%s': what stands before and after %s; slash/exthook.py:45, slash/ext/__init__.py:14 *)
Definition choice := (str * str)%type.
(** path % modname; slash/exthook.py:45 *)
Definition realname (p : choice) (modname : str) : str := fst p ++ modname ++ snd p.

(** an importer: module_choices and wrapper_module; slash/exthook.py:17-22 *)
Record importer := mkImporter { choices : list choice; wrapper : str }.

(** prefix; slash/exthook.py:21 *)
Definition prefix (i : importer) : str := wrapper i ++ [dot].
(** prefix_cutoff; slash/exthook.py:22 *)
Definition cutoff (i : importer) : nat := S (count_dots (wrapper i)).

(** what is in sys.meta_path: an object of this class and module, or another one,
    by its number; slash/exthook.py:24-31 *)
Inductive finder := Ours (i : importer) | Other (n : nat).

(** ==, on the two attributes compared; slash/exthook.py:27-28 *)
Fixpoint choices_eqb (a b : list choice) : bool :=
  match a, b with
  | [], [] => true
  | x :: a, y :: b => str_eqb (fst x) (fst y) && str_eqb (snd x) (snd y) && choices_eqb a b
  | _, _ => false
  end.
(** __eq__ and __ne__; slash/exthook.py:24-31 *)
Definition same (i : importer) (f : finder) : bool :=
  match f with
  | Ours j => str_eqb (wrapper i) (wrapper j) && choices_eqb (choices i) (choices j)
  | Other _ => false
  end.

(** install; slash/exthook.py:33-34 *)
Definition install (i : importer) (meta_path : list finder) : list finder :=
  filter (fun x => negb (same i x)) meta_path ++ [Ours i].

(** find_module: whether the importer takes the name; slash/exthook.py:36-38 *)
Definition find_module (i : importer) (fullname : str) : bool := starts (prefix i) fullname.

(** a frame of a traceback: the __name__ of its globals, if any, and the absolute
    name of its file; slash/exthook.py:88-102 *)
Record frame := mkFrame { f_name : option str; f_file : str }.

(** sys.modules, from names to modules (objects by their numbers), and the
    attributes set on the wrapper module; slash/exthook.py:41, :68-70 *)
Record st := mkSt { modules : str -> option nat; attrs : list (str * nat) }.

(** sys.modules[n] = m, or sys.modules.pop(n, None); slash/exthook.py:60, :68 *)
Definition put (n : str) (m : option nat) (s : st) : st :=
  mkSt (fun x => if str_eqb x n then m else modules s x) (attrs s).

(** importing a real module: it worked, an ImportError with its traceback, or
    another exception; slash/exthook.py:46-49 *)
Inductive imported := Done | NoImport (tb : list frame) | Raises (n : nat).

(** s.replace('.', os.path.sep); slash/exthook.py:103 *)
Definition replaced (s : str) : str := map (fun a => if Ascii.eqb a dot then sep else a) s.

(** is_important_frame; slash/exthook.py:86-105 *)
Definition important_frame (m : str) (f : frame) : bool :=
  match f_name f with
  | None => false
  | Some n =>
      if str_eqb n m then true
      else let test := sep :: replaced m in
           contains (test ++ lit ".py") (f_file f) || contains (test ++ [sep] ++ lit "__init__.py") (f_file f)
  end.

(** is_important_traceback; slash/exthook.py:74-84 *)
Definition important (m : str) (tb : list frame) : bool := existsb (important_frame m) tb.

(** what load_module does: a module, the ImportError of slash/exthook.py:72, the
    ImportError of the real module (:66), with its traceback without the first frame, another exception of its import, KeyError
    (:68: the import left no entry; :70: no wrapper module), IndexError (:43) *)
Inductive result :=
| Loaded (m : nat) | NotFound | Reraised (tb : list frame) | Raised (n : nat) | KeyError | IndexError.

Section World.
Variable imp : str -> st -> st * imported.
Variable i : importer.

(** the loop of load_module; slash/exthook.py:44-72 *)
Fixpoint try_choices (fullname modname : str) (l : list choice) (s : st) : st * result :=
  match l with
  | [] => (s, NotFound)
  | p :: l =>
      match imp (realname p modname) s with
      | (s1, Raises n) => (s1, Raised n)
      | (s1, NoImport tb) =>
          let s2 := put fullname None s1 in
          if important (realname p modname) tb then (s2, Reraised (tl tb)) else try_choices fullname modname l s2
      | (s1, Done) =>
          match modules s1 (realname p modname) with
          | None => (s1, KeyError)
          | Some m =>
              let s2 := put fullname (Some m) s1 in
              if existsb (Ascii.eqb dot) modname then (s2, Loaded m)
              else match modules s2 (wrapper i) with
                   | None => (s2, KeyError)
                   | Some _ => (mkSt (modules s2) ((modname, m) :: attrs s2), Loaded m)
                   end
          end
      end
  end.

(** load_module; slash/exthook.py:40-72 *)
Definition load_module (fullname : str) (s : st) : st * result :=
  match modules s fullname with
  | Some m => (s, Loaded m)
  | None => match after_dots (cutoff i) fullname with
            | None => (s, IndexError)
            | Some modname => try_choices fullname modname (choices i) s
            end
  end.
End World.

(** the importer of slash.ext; slash/ext/__init__.py:12-17 *)
Definition slash_ext : importer := mkImporter [(lit "slash_", [])] (lit "slash.ext").
