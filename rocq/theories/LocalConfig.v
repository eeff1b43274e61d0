(** Model of slash/core/local_config.py (whole file): the variables of slashconf
    files visible in a directory.

    A directory is the list of its components, the last one first (the root is []);
    the file system does not change while the object is used, and importing a file
    twice gives the same variables. *)

From Coq Require Import List Bool Arith.
From Verif Require Import Dict.
Import ListNotations.

(** variables of a module: name -> value *)
Notation vars := (list (nat * nat)).
Notation dir := (list nat).

(** what a directory holds: a slashconf.py or the .py files of a slashconf directory
    in the order of os.walk (core/local_config.py:23-36), each importable or not (None); or both
    (the assertion of 28) *)
Inductive conf := CNone | CFiles (l : list (option vars)) | CConflict.

(** what a path is (core/local_config.py:61-65) *)
Inductive kind := PMissing | PFile | PDir.

(** the file system as local_config.py:23-62 sees it *)
Record fs := mkFs { f_conf : dir -> conf; f_kind : dir -> kind }.

(** dictionary lookup keyed by directories; a Python operation, no code of /repo *)
Definition dir_eqb (a b : dir) : bool := if list_eq_dec Nat.eq_dec a b then true else false.
(** a Python operation, no code of /repo, local_config.py:38-57 *)
Fixpoint c_get (d : dir) (c : list (dir * vars)) : option vars :=
  match c with
  | [] => None
  | (d', v) :: c' => if dir_eqb d d' then Some v else c_get d c'
  end.

(** core/local_config.py:44-47: the files of one directory merged in order; None: an exception *)
Fixpoint merge_files (l : list (option vars)) (acc : vars) : option vars :=
  match l with
  | [] => Some acc
  | None :: _ => None
  | Some v :: l' => merge_files l' (d_update acc v)
  end.

(** local_config.py:23-57 *)
Definition read_dir (F : fs) (d : dir) : option vars :=
  match f_conf F d with
  | CNone => Some []
  | CConflict => None
  | CFiles l => merge_files l []
  end.

(** _traverse_upwards core/local_config.py:69-75: the directory and its ancestors, nearest first *)
Fixpoint upwards (d : dir) : list dir :=
  d :: match d with [] => [] | _ :: d' => upwards d' end.

(** local_config.py:38-57 *)
Definition vars_empty (v : vars) : bool := match v with [] => true | _ => false end.

(** core/local_config.py:40-51; the cache keeps what was added before an exception *)
Fixpoint collect (F : fs) (ds : list dir) (cache : list (dir * vars)) (stack : list vars)
  : list (dir * vars) * option (list vars) :=
  match ds with
  | [] => (cache, Some stack)
  | d :: ds' =>
      match (match c_get d cache with Some v => Some v | None => read_dir F d end) with
      | None => (cache, None)
      | Some v =>
          if vars_empty v then collect F ds' cache stack
          else collect F ds' ((d, v) :: cache) (stack ++ [v])
      end
  end.

(** core/local_config.py:53-57 *)
Definition merge (stack : list vars) : vars :=
  fold_left (fun acc v => d_update acc v) (rev stack) [].

(** _build_config core/local_config.py:38-57 with 59-65 *)
Definition build_config (F : fs) (p : dir) (cache : list (dir * vars)) : list (dir * vars) * option vars :=
  match f_kind F p with
  | PMissing => (cache, None)
  | k =>
      let d := match k with PFile => tl p | _ => p end in
      match collect F (upwards d) cache [] with
      | (cache', Some stack) => (cache', Some (merge stack))
      | (cache', None) => (cache', None)
      end
  end.

(** the object: core/local_config.py:8-12 *)
Record lconf := mkLc { lc_cache : list (dir * vars); lc_configs : list vars }.
(** LocalConfig.__init__, local_config.py:8-12 *)
Definition lconf0 := mkLc [] [].

(** push_path 14, pop_path 17 (the newest configuration first); false: an exception; local_config.py:14-18 *)
Inductive lop := Push (p : dir) | Pop.
(** local_config.py:14-18 *)
Definition lstep (F : fs) (o : lop) (s : lconf) : lconf * bool :=
  match o with
  | Push p =>
      match build_config F p (lc_cache s) with
      | (c, Some v) => (mkLc c (v :: lc_configs s), true)
      | (c, None) => (mkLc c (lc_configs s), false)
      end
  | Pop =>
      match lc_configs s with
      | [] => (s, false)
      | _ :: l => (mkLc (lc_cache s) l, true)
      end
  end.

(** get_dict 20; local_config.py:20-21 *)
Definition get_dict (s : lconf) : option vars := hd_error (lc_configs s).

(** plumbing of the model, no code of its own *)
Fixpoint lrun (F : fs) (ops : list lop) (s : lconf) : lconf * list bool :=
  match ops with
  | [] => (s, [])
  | o :: ops' => let (s1, b) := lstep F o s in let (s2, l) := lrun F ops' s1 in (s2, b :: l)
  end.
