(** Model of what the commands run, resume and rerun collect, hand over and remember:
    the block of slash_run around collection and execution (frontend/slash_run.py:37-75),
    _collect_tests and _extend_paths_from_suite_files (frontend/slash_run.py:102-125),
    the roles of a session (87-94), get_tests_from_remote and the statuses of the
    backslash server (resuming.py:146-171), connecting_to_db (resuming.py:73-87), on top
    of the saved state of Resume.v.  The loader (C41, C108), suite files (C44), starting
    workers (C100), connecting (C38), the session's hooks and running tests (Core.v) are
    given: what they return or raise.  Simplified: the exceptions are not
    distinguished further than below; a commit that succeeds makes everything
    durable, whatever an earlier one did. *)

From Coq Require Import String List Bool Arith Ascii.
From Verif Require Import Str Events Core Results Dict Resume Matcher Suite.
Import ListNotations.
Open Scope list_scope.

(** exceptions: InteractiveParallelNotAllowed (slash_run.py:40), the two CannotLoadTests
    (slash_run.py:111, 115), CannotResume (resuming.py:226), OperationalError
    (resuming.py:85), the refusal of a session id that is already there, an
    AttributeError (resuming.py:164), anything else *)
Inductive exn := NotAllowed | NoTestsGiven | NoneCollected | CannotResume | Operational | Duplicate | AttrErr | Other (n : nat).

(** ** The remote server *)

(** ResumedTestData as made in resuming.py:167-170 from a test of the server: file name,
    name, variation, and its status, a text *)
Record rtest := mkRtest { t_file : nat; t_name : nat; t_var : option var_id; t_status : str }.

(** the active plugin named backslash: whether it has both functions (resuming.py:160),
    the sessions that exist, the tests it gives for a session with the given keyword and
    flag (162, 166) *)
Record backslash := mkBackslash {
  b_supports : bool; b_exists : nat -> bool; b_tests : nat -> bool -> bool -> list rtest }.

(** _get_resume_status_from_backslash_status, resuming.py:146-154 *)
Definition remote_status (t : str) : rstatus :=
  if existsb (str_eqb t) [lit "FAILURE"; lit "ERROR"; lit "INTERRUPTED"] then Failed
  else if existsb (str_eqb t) [lit "SUCCESS"] then Success
  else if existsb (str_eqb t) [lit "SKIPPED"] then Skipped
  else Planned.

(** a <= b of two tuples of numbers; a Python operation, no code of /repo, used by resuming.py:165 *)
Fixpoint tuple_leb (a b : list nat) : bool :=
  match a, b with
  | [], _ => true
  | _ :: _, [] => false
  | x :: a', y :: b' => if Nat.eqb x y then tuple_leb a' b' else Nat.ltb x y
  end.

(** get_tests_from_remote, resuming.py:156-171; [plugin]: the active one, [version] the
    numbers of __backslash_version__, None if the package is not installed (then
    resuming.py:164 raises); the flag of b_tests says whether filters_dict is used (165) *)
Definition get_tests_from_remote (plugin : option backslash) (version : option (list nat))
    (sid : nat) (get_successful : bool) : list row + exn :=
  match plugin with
  | None => inr CannotResume
  | Some b =>
      if negb (b_supports b) then inr CannotResume
      else if negb (b_exists b sid) then inr CannotResume
      else match version with
           | None => inr AttrErr
           | Some v =>
               let v2 := firstn 2 v in
               inl (map (fun t => mkRow (t_file t) (t_name t) (t_var t) (remote_status (t_status t)))
                        (b_tests b sid (tuple_leb [2; 38] v2) get_successful))
           end
  end.

(** ** The database *)

(** how a commit ends: normally, with OperationalError, with something else; resuming.py:84-85 *)
Inductive commit := Done | Locked | Broken (x : exn).

(** the loop of connecting_to_db, resuming.py:82-87, from round [i] with [n] to go: there
    is no break after a commit that worked; the answer: did a commit work, what is
    raised, how many were made *)
Fixpoint commits (at_round : nat -> commit) (i n : nat) : bool * option exn * nat :=
  match n with
  | 0 => (false, None, 0)
  | S n' =>
      match at_round i with
      | Done => let '(_, x, k) := commits at_round (S i) n' in (true, x, S k)
      | Locked => if Nat.eqb i 2 then (false, Some Operational, 1)
                  else let '(d, x, k) := commits at_round (S i) n' in (d, x, S k)
      | Broken x => (false, Some x, 1)
      end
  end.

(** max_retries, resuming.py:81 *)
Definition max_retries := 3.

(** with connecting_to_db() around [change], resuming.py:73-87: the database afterwards
    and the exception *)
Definition with_db (at_round : nat -> commit) (change : db -> db + exn) (d : db) : db * option exn :=
  match change d with
  | inr x => (d, Some x)
  | inl d' => let '(done, x, _) := commits at_round 0 max_retries in (if done then d' else d, x)
  end.

(** ** A command *)

(** what the loader is given: a path of the command line or of the configuration, an
    item of a suite file, a test of an earlier session; slash_run.py:56, 113, loader.py:107-124 *)
Inductive source := Path (p : str) | Listed (i : item) | Remembered (w : row).

(** the command and its positional arguments; slash_run.py:49-58 *)
Inductive command := Run (paths : list str) | Resume (sids : list nat) | Rerun (sids : list nat).

(** what the surroundings decide.  Configuration: parallel.num_workers and worker_id,
    tmux.enabled, -i, run.suite_files with what they list (or the exception of reading
    them), run.default_sources, the switches of resume.  Given: the loader, the plugin
    and version above; the exceptions of tmux (slash_run.py:43), ParallelManager (45),
    the connection (48), execution (61-70); the results (74); the session's id, its
    folder and the time (resuming.py:103-105), what is too old (resuming.py:94); the commits *)
Record env := mkEnv {
  workers : nat; worker : option nat; tmux : bool; interactive : bool;
  suite_files : list str; listed : list item + exn; defaults : list str; sw : switches;
  load : list source -> bool -> list md + exn;
  plugin : option backslash; version : option (list nat);
  f_tmux : option exn; f_manager : option exn; f_connect : option exn; f_execute : option exn;
  results : list (md * result); order : list md -> list md;
  sid : nat; folder : nat; now : nat; limit : nat;
  save_commits : nat -> commit; clean_commits : nat -> commit }.

(** what is seen: tmux is entered, workers are prepared, the connection is made, the
    loader is called; the tests are given to the worker loop, to the server, to
    run_tests; slash_run.py:43-70 *)
Inductive event := ETmux | EManager | EConnect | ELoad (l : list source) (i : bool)
| EWork (l : list md) | EServe (l : list md) | ERun (l : list md).

(** is_parallel, slash_run.py:87-88 *)
Definition is_parallel (e : env) : bool := negb (Nat.eqb (workers e) 0).
(** is_child, slash_run.py:90-91 *)
Definition is_child (e : env) : bool := match worker e with Some _ => true | None => false end.
(** is_parent, slash_run.py:93-94 *)
Definition is_parent (e : env) : bool := is_parallel e && negb (is_child e).

(** a sequence of things that are seen, and what is returned or raised; plumbing of the
    model, no code of /repo *)
Definition M (A : Type) := (list event * (A + exn))%type.
(** plumbing of the model, no code of /repo *)
Definition ret {A} (a : A) : M A := ([], inl a).
(** plumbing of the model, no code of /repo *)
Definition fail {A} (x : exn) : M A := ([], inr x).
(** plumbing of the model, no code of /repo *)
Definition bind {A B} (m : M A) (f : A -> M B) : M B :=
  match m with
  | (t, inl a) => let '(t', r) := f a in (t ++ t', r)
  | (t, inr x) => (t, inr x)
  end.
(** something happens, and may raise; plumbing of the model, no code of /repo *)
Definition step (ev : event) (x : option exn) : M unit :=
  ([ev], match x with Some x => inr x | None => inl tt end).

(** _extend_paths_from_suite_files, slash_run.py:119-125 *)
Definition extend_paths (e : env) (paths : list str) : list source + exn :=
  match suite_files e with
  | [] => inl (map Path paths)
  | _ => match listed e with
         | inl l => inl (map Path paths ++ map Listed l)
         | inr x => inr x
         end
  end.

(** _collect_tests, slash_run.py:102-117 *)
Definition collect_tests (e : env) (paths : list str) : M (list md) :=
  match extend_paths e paths with
  | inr x => fail x
  | inl srcs =>
      let srcs := match srcs with
                  | [] => if interactive e then [] else map Path (defaults e)
                  | _ => srcs end in
      match srcs, interactive e with
      | [], false => fail NoTestsGiven
      | _, _ =>
          match load e srcs (interactive e) with
          | inr x => ([ELoad srcs (interactive e)], inr x)
          | inl [] => ([ELoad srcs (interactive e)], inr NoneCollected)
          | inl l => ([ELoad srcs (interactive e)], inl l)
          end
      end
  end.

(** get_tests_from_previous_session, resuming.py:219-225, with the server above *)
Definition previous (e : env) (get_successful : bool) (s : nat) (d : db) : list row + exn :=
  let tests := match get_tests_locally s d with
               | [] => get_tests_from_remote (plugin e) (version e) s get_successful
               | l => inl l
               end in
  match tests with
  | inr x => inr x
  | inl tests =>
      match filter_tests (sw e) get_successful tests with
      | None => inr CannotResume
      | Some l => match sort_tests (sw e) l with
                  | None => inr CannotResume
                  | Some l => inl l
                  end
      end
  end.

(** the comprehension of slash_run.py:54-55 *)
Fixpoint previous_all (e : env) (get_successful : bool) (sids : list nat) (d : db) : list row + exn :=
  match sids with
  | [] => inl []
  | s :: sids' =>
      match previous e get_successful s d with
      | inr x => inr x
      | inl l => match previous_all e get_successful sids' d with
                 | inr x => inr x
                 | inl l' => inl (l ++ l')
                 end
      end
  end.

(** slash_run.py:49-56, for resume (false) and rerun (true) *)
Definition collect_previous (e : env) (get_successful : bool) (sids : list nat) (d : db) : M (list md) :=
  match match sids with
        | [] => option_map (fun s => [s]) (get_last_resumeable_session_id (folder e) d)
        | _ => Some sids
        end with
  | None => fail CannotResume
  | Some sids =>
      match previous_all e get_successful sids d with
      | inr x => fail x
      | inl ws => ([ELoad (map Remembered ws) (interactive e)], load e (map Remembered ws) (interactive e))
      end
  end.

(** slash_run.py:38-58 *)
Definition gather (c : command) (e : env) (d : db) : M (list md) :=
  if is_parallel e && interactive e then fail NotAllowed
  else
    bind (if tmux e && negb (is_child e) then step ETmux (f_tmux e) else ret tt) (fun _ =>
    bind (if is_parent e then step EManager (f_manager e)
          else if is_child e then step EConnect (f_connect e) else ret tt) (fun _ =>
    match c with
    | Run paths => collect_tests e paths
    | Resume sids => collect_previous e false sids d
    | Rerun sids => collect_previous e true sids d
    end)).

(** slash_run.py:61-70 *)
Definition execute (e : env) (l : list md) : M unit :=
  step (if is_child e then EWork l else if is_parent e then EServe l else ERun l) (f_execute e).

(** what [collected] is at slash_run.py:74: the empty list of slash_run.py:32 unless
    something was collected *)
Definition collected (r : list md + exn) : list md := match r with inl l => l | inr _ => [] end.

(** save_resume_state, resuming.py:101-133 *)
Definition save_state (e : env) (l : list md) (d : db) : db * option exn :=
  with_db (save_commits e)
    (fun d => match save (sid e) (folder e) (now e) (saved_rows (order e) (results e) l) d with
              | Some d' => inl d'
              | None => inr Duplicate
              end) d.

(** clean_old_entries, resuming.py:90-98 *)
Definition clean (e : env) (d : db) : db * option exn :=
  with_db (clean_commits e) (fun d => inl (clean_old_entries (limit e) d)) d.

(** the block slash_run.py:37-75: the database, what was seen, the exception *)
Definition run_command (c : command) (e : env) (d : db) : db * list event * option exn :=
  let g := gather c e d in
  let '(t, r) := bind g (execute e) in
  let x := match r with inl _ => None | inr x => Some x end in
  if is_child e then (d, t, x)
  else match save_state e (collected (snd g)) d with
       | (d1, Some y) => (d1, t, Some y)
       | (d1, None) => match clean e d1 with
                       | (d2, Some y) => (d2, t, Some y)
                       | (d2, None) => (d2, t, x)
                       end
       end.
