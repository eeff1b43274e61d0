(** What a worker tells its parent: that it is alive (slash/parallel/worker.py:30-34, 57-70,
    slash/parallel/server.py:30-62), its warnings (worker.py:36-42, server.py:205-211,
    slash/warnings.py:52-54), its errors (worker.py:44-46, server.py:213-215) and, by a file,
    what went wrong (worker.py:48-55, slash/parallel/parallel_manager.py:62-72).

    Files are texts under their names, in one directory; remote calls, pickling and
    opening a file have outcomes given from outside. *)

From Coq Require Import List Bool Arith Ascii String.
From Verif Require Import Str Plugins.
Import ListNotations.
Open Scope list_scope.

(** an exception: OSError (also a connection that is refused), PicklingError, TypeError, AttributeError, the
    Fault of a remote call that raised at the server, any other; Python's *)
Inductive exn := OsErr | Pickling | TypeErr | AttrErr | Fault | Other (n : nat).

(** ** Signs of life *)

(** the table of KeepaliveServer: the times of the clients, and of any request; slash/parallel/server.py:30-37 *)
Record keeper := mkKeeper { k_times : list (str * nat); k_last : nat }.

(** __init__ at the time [now]; slash/parallel/server.py:31-37 *)
Definition new_keeper (now : nat) : keeper := mkKeeper [] now.

(** keep_alive; slash/parallel/server.py:39-42 *)
Definition beat (client : str) (now : nat) (k : keeper) : keeper := mkKeeper (s_set client now (k_times k)) now.

(** the calls that arrive, in order; slash/parallel/server.py:54-55 *)
Definition beats (l : list (str * nat)) (k : keeper) : keeper := fold_left (fun k e => beat (fst e) (snd e) k) l k.

(** how the thread of keep_alive goes: it was stopped, an exception ended it, it still runs; slash/parallel/worker.py:30-34 *)
Inductive thread := Stopped | Died (e : exn) | Alive.

(** keep_alive from round [k] on: [calls k] is what call [k] raises, [stop k]: the event is set when round [k] begins;
    the result is the list of the rounds whose call arrived; slash/parallel/worker.py:30-34 *)
Fixpoint keep_alive (calls : nat -> option exn) (stop : nat -> bool) (fuel k : nat) : list nat * thread :=
  match fuel with
  | 0 => ([], Alive)
  | S fuel =>
      if stop k then ([], Stopped)
      else match calls k with
           | Some e => ([], Died e)
           | None => let (l, r) := keep_alive calls stop fuel (S k) in (k :: l, r)
           end
  end.

(** ** The file of errors *)

(** the result of a call; plumbing of the model, no code of its own *)
Inductive res := Ok | Exn (e : exn).

(** file name; slash/parallel/worker.py:50 *)
Definition error_file (prefix client : str) : str := prefix ++ lit "-" ++ client ++ lit ".log".

(** write_to_error_file: the files, whether the failure was logged, the result; [dir]: workers_error_dir is set; [open_]: what
    opening the file raises; slash/parallel/worker.py:48-55 *)
Definition write_error (prefix : str) (dir : bool) (open_ : option exn) (client msg : str) (files : list (str * str)) : list (str * str) * bool * res :=
  if negb dir then (files, false, Exn TypeErr)
  else match open_ with
       | Some OsErr => (files, true, Ok)
       | Some e => (files, false, Exn e)
       | None => let f := error_file prefix client in
                 (s_set f (match s_get f files with Some c => c | None => [] end ++ msg) files, false, Ok)
       end.

(** the messages of workers, each written; slash/parallel/worker.py:48-55 *)
Definition write_all (prefix : str) (l : list (str * str)) (files : list (str * str)) : list (str * str) :=
  fold_left (fun fs e => fst (fst (write_error prefix true None (fst e) (snd e) fs))) l files.

(** readlines: each line with its end; Python's, used by slash/parallel/parallel_manager.py:68 *)
Fixpoint readlines (s : str) : list str :=
  match s with
  | [] => []
  | c :: s => if Ascii.eqb c "010"%char then [c] :: readlines s
              else match readlines s with [] => [[c]] | l :: ls => (c :: l) :: ls end
  end.

(** what the parent logs: a line of a file, or that there are no files; slash/parallel/parallel_manager.py:70-72 *)
Inductive logged := Line (file line : str) | NoFiles.

(** report_worker_error_logs, given the directory in the order of os.listdir; slash/parallel/parallel_manager.py:62-72 *)
Definition report_logs (prefix : str) (listing : list (str * str)) : list logged :=
  let mine := filter (fun e => starts prefix (fst e)) listing in
  match mine with
  | [] => [NoFiles]
  | _ => flat_map (fun e => map (Line (fst e)) (readlines (snd e))) mine
  end.

(** ** Connecting *)

(** the worker: is there a thread that keeps alive and is its stop event set; slash/parallel/worker.py:27-28 *)
Inductive life := NoThread | Keeping | Ended.

(** connect_to_server: [connect] is what the remote call raises; slash/parallel/worker.py:57-65 *)
Definition connect_to_server (prefix : str) (dir : bool) (open_ : option exn) (client text : str) (connect : option exn) (files : list (str * str)) :
  list (str * str) * life * res :=
  match connect with
  | None => (files, Keeping, Ok)
  | Some OsErr =>
      match write_error prefix dir open_ client (lit "Failed to connect to server, error: " ++ text) files with
      | (files, _, r) => (files, NoThread, r)
      end
  | Some e => (files, NoThread, Exn e)
  end.

(** _stop_keepalive_thread: the life after it, and whether it joined the thread; slash/parallel/worker.py:67-70 *)
Definition stop_keepalive (l : life) : life * bool := match l with Keeping => (Ended, true) | l => (l, false) end.

(** ** Warnings *)

(** a warning: its name, what pickling raises in the worker, what reading it raises at the server, what the handlers of the hook
    warning_added raise in the parent; slash/warnings.py:94-104, slash/utils/python.py:47-50 *)
Record warning := mkW { w_name : nat; w_dumps : option exn; w_loads : option exn; w_parent : option exn }.

(** report_warning of the server: the warnings of the parent's session, and what the call raises;
    slash/parallel/server.py:205-211, slash/warnings.py:52-54 *)
Definition report_warning (w : warning) (parent : list warning) : list warning * res :=
  match w_loads w with
  | Some TypeErr => (parent, Ok)
  | Some e => (parent, Exn e)
  | None => match w_parent w with
            | Some TypeErr => (parent, Ok)
            | Some e => (parent, Exn e)
            | None => (parent ++ [w], Ok)
            end
  end.

(** the remote call: an exception at the server is a Fault for the worker; [up]: what the connection raises; XML-RPC's,
    used by slash/parallel/worker.py:39 *)
Definition remote_warning (up : option exn) (w : warning) (parent : list warning) : list warning * res :=
  match up with
  | Some e => (parent, Exn e)
  | None => match report_warning w parent with (p, Ok) => (p, Ok) | (p, Exn _) => (p, Exn Fault) end
  end.

(** warning_added: the name [warning] is rebound to bytes before the call, so that the except clause raises AttributeError when the
    call raised one of the exceptions it is for; slash/parallel/worker.py:36-42 *)
Definition warning_added (up : option exn) (w : warning) (parent : list warning) : list warning * res :=
  match w_dumps w with
  | Some Pickling | Some TypeErr => (parent, Ok)
  | Some e => (parent, Exn e)
  | None => match remote_warning up w parent with
            | (p, Exn Pickling) | (p, Exn TypeErr) => (p, Exn AttrErr)
            | x => x
            end
  end.

(** SessionWarnings.add in a worker whose only handler is its own: the hook comes first; slash/warnings.py:52-54 *)
Definition add (up : option exn) (w : warning) (s : list warning * list warning) : (list warning * list warning) * res :=
  match warning_added up w (snd s) with
  | (p, Ok) => ((fst s ++ [w], p), Ok)
  | (p, Exn e) => ((fst s, p), Exn e)
  end.

(** the warnings of a worker, one after the other (the code that warns goes on after an exception): the warnings of the worker and of the parent, and
    what the calls raised; slash/warnings.py:52-54 *)
Fixpoint add_all (up : warning -> option exn) (l : list warning) (s : list warning * list warning) : (list warning * list warning) * list exn :=
  match l with
  | [] => (s, [])
  | w :: l => let (s1, r) := add (up w) w s in
              let (s2, rs) := add_all up l s1 in
              (s2, match r with Ok => rs | Exn e => e :: rs end)
  end.

(** ** Errors *)

(** error_added in a worker: [global]: the result is the session's; the text that the server gets; slash/parallel/worker.py:44-46 *)
Definition error_added (client message : str) (global : bool) : list str :=
  if global then [lit "Session error in client id " ++ client ++ lit ": " ++ message] else [].

(** report_session_error: the flag worker_error_reported and the log of the server; slash/parallel/server.py:213-215 *)
Definition report_session_error (m : str) (s : bool * list str) : bool * list str := (true, snd s ++ [m]).

(** the errors of the workers, in order; slash/parallel/worker.py:44-46, slash/parallel/server.py:213-215 *)
Definition errors_added (l : list (str * str * bool)) (s : bool * list str) : bool * list str :=
  fold_left (fun s m => report_session_error m s) (flat_map (fun e => error_added (fst (fst e)) (snd (fst e)) (snd e)) l) s.
