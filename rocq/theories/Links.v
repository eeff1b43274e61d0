(** Model of the symlinks to log files: _try_create_symlink, create_worker_symlink,
    the links made when a log file is opened and when a test failed;
    slash/log.py:151-203, 210-221, 255-316.

    Simplified: paths are equal if their texts are (no "..", no links on the way);
    directories that are made (ensure_containing_directory) or removed (284-286) are
    not recorded; the directory of a log file can be made and the file can be
    opened.  What the operating system refuses of the calls for a link is given by
    the variables [dirs_ok], [unlink_ok] and [link_ok]. *)

From Coq Require Import List Bool Arith Ascii String.
From Verif Require Import Str Events Core Results.
Import ListNotations.
Open Scope string_scope.
Open Scope list_scope.

(** what is at a path of the file system; outside /repo *)
Inductive node := File | Dir | Link (target : str).
(** the file system; outside /repo *)
Definition fsys := str -> option node.
(** a change at one path; outside /repo *)
Definition put (p : str) (n : option node) (f : fsys) : fsys :=
  fun q => if str_eqb q p then n else f q.

(** config.root.log and config.root.parallel.worker_id, conf.py:57-76, 110 *)
Record lcfg := mkLcfg {
  k_root : option str; k_worker : bool;
  k_test_link : option str; k_failed_link : option str;
  k_session_link : option str; k_dir_link : option str;
  k_cleanup : bool; k_keep_failed : bool }.

(** the file system and the paths with an open handler, log.py:146, 262-279 *)
Record lks := mkLks { k_fs : fsys; k_open : list str }.

Section Links.
(** os.path.expanduser, log.py:289-290 *)
Variable expand : str -> str.
(** os.path.dirname *)
Variable dirname : str -> str.
(** whether ensure_containing_directory, os.unlink and os.symlink succeed *)
Variables dirs_ok unlink_ok link_ok : fsys -> str -> bool.
Variable K : lcfg.

(** os.path.join of two paths, the second relative; outside /repo *)
Definition join (a b : str) : str := if ends (lit "/") a then a ++ b else a ++ lit "/" ++ b.

(** the place of a link, log.py:303-306 *)
Definition place (root l : str) : str :=
  let l := expand l in if starts (lit "/") l then l else join (expand root) l.

(** log.py:308-313; [false]: an exception.  os.path.exists or islink: something is
    there.  A target None is refused by os.symlink. *)
Definition make_link (target : option str) (l : str) (f : fsys) : fsys * bool :=
  let link f := match target with
                | None => (f, false)
                | Some t => if link_ok f l then (put l (Some (Link t)) f, true) else (f, false)
                end in
  if negb (dirs_ok f l) then (f, false)
  else match f l with
       | None => link f
       | Some Dir => (f, false)
       | Some _ => if unlink_ok f l then link (put l None f) else (f, false)
       end.

(** _try_create_symlink, log.py:299-316; exceptions are swallowed 315-316 *)
Definition try_link (target : option str) (symlink : option str) (f : fsys) : fsys :=
  match symlink, k_root K, k_worker K with
  | Some l, Some root, false => fst (make_link target (place root l) f)
  | _, _, _ => f
  end.

(** create_worker_symlink, log.py:292-297 *)
Definition worker_link (session_id name worker_session : str) (f : fsys) : fsys :=
  match k_root K with
  | None => f
  | Some root => try_link (Some (join (expand root) worker_session)) (Some (join session_id name)) f
  end.

(** _should_delete_log for a result that is a success or not, log.py:205-208 *)
Definition should_del (success : bool) : bool := negb (k_keep_failed K) || success.

(** _log_file_handler_context, log.py:255-286, for a path; [symlink] is tested for
    being true (264) *)
Definition with_log (p : str) (symlink : option str) (success : bool) (body : lks -> lks) (s : lks) : lks :=
  if existsb (str_eqb p) (k_open s) then body s
  else
    let f1 := match symlink with
              | Some (c :: l) => try_link (Some p) (Some (c :: l)) (k_fs s)
              | _ => k_fs s
              end in
    let s2 := body (mkLks (put p (Some File) f1) (p :: k_open s)) in
    mkLks (if k_cleanup K && should_del success then put p None (k_fs s2) else k_fs s2)
          (filter (fun q => negb (str_eqb p q)) (k_open s2)).

(** the files of a context: the log (subpath None: no log), the raw file beside a
    compressed one, the highlights file; log.py:179-203, 210-221 *)
Record files := mkFiles { f_log : option (str * option str); f_high : option str }.

(** _get_file_logging_context, log.py:178-203; the body gets the path of the log *)
Definition with_files (x : files) (symlink : option str) (success : bool)
    (body : option str -> lks -> lks) (s : lks) : lks :=
  match k_root K with
  | None => body None s
  | Some _ =>
      let high path s := match f_high x with
                         | Some h => with_log h None success (body path) s
                         | None => body path s
                         end in
      match f_log x with
      | None => high None s
      | Some (p, None) => with_log p symlink success (high (Some p)) s
      | Some (p, Some raw) => with_log p symlink success (with_log raw symlink success (high (Some p))) s
      end
  end.

(** what happens in a session: a test with its files and its result at the end of
    the test (get_test_logging_context, log.py:151-164), a worker that connects
    (parallel/server.py:127) *)
Inductive levent :=
| ETest (x : files) (r : result)
| EWorker (session_id name worker_session : str).

(** get_test_logging_context log.py:151-159 with 161-164 *)
Definition run_event (e : levent) (s : lks) : lks :=
  match e with
  | ETest x r =>
      with_files x (k_test_link K) (is_success true r)
        (fun path s => if is_error r || is_failure r
                       then mkLks (try_link path (k_failed_link K) (k_fs s)) (k_open s) else s) s
  | EWorker i n w => mkLks (worker_link i n w (k_fs s)) (k_open s)
  end.

(** get_session_logging_context, log.py:166-176 *)
Definition run_session (x : files) (R : results) (es : list levent) (s : lks) : lks :=
  with_files x (k_session_link K) (results_success true R)
    (fun path s =>
       let s1 := match k_dir_link K, path with
                 | Some d, Some p => mkLks (try_link (Some (dirname p)) (Some d) (k_fs s)) (k_open s)
                 | _, _ => s
                 end in
       fold_left (fun s e => run_event e s) es s1) s.
End Links.
