(** Model of plugins/builtin/coverage.py: what the plugin asks of the coverage package, in order.  The package is outside /repo: a
    list of replies, one for each call, says how its calls end.

    Simplified: strings that are True or False otherwise (config_filename) are passed on and left out.  Not modelled: what the package
    writes. *)

From Coq Require Import List Bool Arith Ascii String.
From Verif Require Import Str.
Import ListNotations.

(** config.root.plugin_config.coverage (plugins/builtin/coverage.py:20-27) and config.root.parallel *)
Record cfg := mkCfg { report_type : str; report : bool; append : bool; sources : list str; num_workers : nat; worker_id : option str }.

(** the reports, plugins/builtin/coverage.py:47-50 *)
Inductive kind := Html | Xml.
(** the calls of the package, plugins/builtin/coverage.py:39-53, 58-67 *)
Inductive call := New (data_file : str) (source : option (list str)) | Load | Start | Stop | Save | Combine | Report (k : kind).
(** how they end: CoverageException with "no data" in it or without, another exception; plugins/builtin/coverage.py:69-71 *)
Inductive reply := Fine | NoData | Coverage | Other.
(** how a method of the plugin ends; plugins/builtin/coverage.py:32-33, 53, 69-71 *)
Inductive outcome := Done | Raised (r : reply) | NotInstalled | UnknownType (name : str).

(** is_child_session and is_parent_session, utils/parallel_utils.py:3-12 *)
Definition is_child (c : cfg) : bool := match worker_id c with Some _ => true | None => false end.
(** utils/parallel_utils.py:3-8 *)
Definition is_parent (c : cfg) : bool := negb (Nat.eqb (num_workers c) 0) && match worker_id c with None => true | Some _ => false end.

(** data_file, plugins/builtin/coverage.py:36-38 *)
Definition data_file (c : cfg) : str :=
  match worker_id c with
  | Some w => (lit ".coverage" ++ lit "." ++ w)%list
  | None => lit ".coverage"
  end.

(** the name of a report, plugins/builtin/coverage.py:47-52 *)
Definition kind_of (n : str) : option kind :=
  if str_eqb n (lit "html") then Some Html else if str_eqb n (lit "xml") then Some Xml else None.
(** the loop over the names, plugins/builtin/coverage.py:45-52 *)
Fixpoint kinds_of (l : list str) : list kind + str :=
  match l with
  | [] => inl []
  | n :: l' => match kind_of n with
               | Some k => match kinds_of l' with inl ks => inl (k :: ks) | inr x => inr x end
               | None => inr n
               end
  end.

Section Env.
(** the reply to the n-th call of the package *)
Variable env : nat -> reply.

(** calls one after the other until one raises; [n]: calls before.  Plumbing of the model, no code of its own *)
Fixpoint calls (n : nat) (l : list call) : list call * outcome :=
  match l with
  | [] => ([], Done)
  | x :: l' => match env n with
               | Fine => let (t, o) := calls (S n) l' in (x :: t, o)
               | r => ([x], Raised r)
               end
  end.

(** activate, plugins/builtin/coverage.py:29-53: the calls it makes, how it ends and _reporters; [found]: the package can be imported *)
Definition activate (found : bool) (c : cfg) (n : nat) : list call * outcome * list kind :=
  if negb found then ([], NotInstalled, [])
  else
    match calls n (New (data_file c) (match sources c with [] => None | l => Some l end) :: if append c then [Load] else []) with
    | (t, Done) =>
        match kinds_of (split_all "," (report_type c)) with
        | inr x => (t, UnknownType x, [])
        | inl ks => let (t', o) := calls (n + List.length t) [Start] in (t ++ t', o, ks)
        end
    | (t, o) => (t, o, [])
    end.

(** the loop over the reporters, plugins/builtin/coverage.py:61-70 *)
Fixpoint reports (c : cfg) (ks : list kind) (n : nat) : list call * outcome :=
  match ks with
  | [] => ([], Done)
  | k :: ks' =>
      if is_child c then reports c ks' n
      else
        let (t, o) := calls n (if is_parent c then [Combine; Report k] else [Report k]) in
        match o with
        | Done | Raised NoData => let (t', o') := reports c ks' (n + List.length t) in (t ++ t', o')
        | _ => (t, o)
        end
  end.

(** session_end, plugins/builtin/coverage.py:56-70 *)
Definition session_end (c : cfg) (ks : list kind) (n : nat) : list call * outcome :=
  match calls n [Stop; Save] with
  | (t, Done) => if report c then let (t', o) := reports c ks (n + List.length t) in (t ++ t', o) else (t, Done)
  | (t, o) => (t, o)
  end.

End Env.
