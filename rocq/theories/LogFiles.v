(** Model of the life of log files: _log_file_handler_context and
    _should_delete_log, slash/log.py:205-208, 255-286, as used by the session's and
    the tests' logging contexts (151-203).

    A context opens its log file and, if highlights_subpath is set, the highlights
    file (210-221), each path formatted when it is entered.  A file is the list of
    the contexts that wrote to it.  os.remove succeeds; removing the directory
    (284-286) touches no file; symlinks, compression and rotation are not modelled
    (they add further paths of the same kind). *)

From Coq Require Import List Bool Arith.
From Verif Require Import Events Core Dict Results.
Import ListNotations.

(** config.root.log.cleanup; conf.py, used by log.py:255-286 *)
Record lconfig := mkLconfig { l_enabled : bool; l_keep_failed : bool }.

(** context.result when the file is opened: a test's result or the global one; the
    value is that at the time the file is closed; log.py:205-208, 255-286 *)
Inductive owner := OTest (r : result) | OSession (R : results).

(** _should_delete_log log.py:205-208 *)
Definition should_delete (K : lconfig) (o : owner) : bool :=
  negb (l_keep_failed K) ||
  match o with OTest r => is_success true r | OSession R => results_success true R end.

(** the files, and the paths with an open handler (_log_path_to_handler); log.py:205-286 *)
Record lstate := mkLs { ls_files : list (nat * list nat); ls_open : list nat }.

(** something is logged while the context [id] is the current one; plumbing of the model, no code of its own *)
Definition content (p : nat) (s : lstate) : list nat :=
  match d_get p (ls_files s) with Some l => l | None => [] end.
(** plumbing of the model, no code of its own *)
Definition write (id p : nat) (s : lstate) : lstate :=
  mkLs (d_set p (content p s ++ [id]) (ls_files s)) (ls_open s).

(** _log_file_handler_context log.py:255-286 around [body] for the paths of one context *)
Fixpoint with_files (K : lconfig) (o : owner) (paths : list nat) (body : lstate -> lstate) (s : lstate) : lstate :=
  match paths with
  | [] => body s
  | p :: ps =>
      if existsb (Nat.eqb p) (ls_open s) then with_files K o ps body s
      else
        let s1 := mkLs (d_set p (content p s) (ls_files s)) (p :: ls_open s) in
        let s2 := with_files K o ps body s1 in
        mkLs (if l_enabled K && should_delete K o then d_del p (ls_files s2) else ls_files s2)
             (filter (fun q => negb (Nat.eqb p q)) (ls_open s2))
  end.

(** a test: its id, the paths of its context, its result; log.py:151-203 *)
Record ltest := mkLtest { lt_id : nat; lt_paths : list nat; lt_result : result }.

(** get_test_logging_context log.py:151-159 *)
Definition run_test (K : lconfig) (t : ltest) (s : lstate) : lstate :=
  with_files K (OTest (lt_result t)) (lt_paths t)
    (fun s => fold_left (fun s p => write (lt_id t) p s) (lt_paths t) s) s.

(** get_session_logging_context log.py:166-176 around the tests *)
Definition run_logs (K : lconfig) (sid : nat) (spaths : list nat) (R : results) (ts : list ltest) (s : lstate) : lstate :=
  with_files K (OSession R) spaths
    (fun s => fold_left (fun s t => run_test K t s) ts
                (fold_left (fun s p => write sid p s) spaths s)) s.
