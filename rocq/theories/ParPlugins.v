(** Model of the choice of active plugins when an application starts:
    utils/cli_utils.py:15-26 (--with-X and --without-X), 57-59,
    utils/parallel_utils.py:3-18, plugins/plugin_manager.py:77-93, 120-135 (parallel modes of
    plugins) and the part of app.py:114-127 that uses them, on top of Plugins.v.
    Simplified: the parser of the other arguments and the modified
    configuration (app.py:116-120) give the two values [num_workers] and
    [worker_id]; the hook [configure] (app.py:124) is a list of calls of the
    manager; the warning of plugin_manager.py:217-218 is left out. *)

From Coq Require Import List Bool Arith Ascii String.
From Verif Require Import Str Plugins.
Import ListNotations.
Open Scope string_scope.
Open Scope list_scope.

(** ParallelPluginModes, utils/parallel_utils.py:15-18; parallel_mode
    (plugins/__init__.py:18-25) admits no other value *)
Inductive mode := Disabled | Enabled | ParentOnly | ChildOnly.

(** config.root.parallel, conf.py:109-110 *)
Record pconf := mkPconf { num_workers : nat; worker_id : option str }.

(** is_parallel_session, utils/parallel_utils.py:3-4 *)
Definition is_parallel (c : pconf) : bool := negb (Nat.eqb (num_workers c) 0).
(** is_parent_session, utils/parallel_utils.py:7-8 *)
Definition is_parent (c : pconf) : bool :=
  is_parallel c && match worker_id c with None => true | Some _ => false end.
(** is_child_session, utils/parallel_utils.py:11-12 *)
Definition is_child (c : pconf) : bool := match worker_id c with None => false | Some _ => true end.

Section Par.
Variable order : list str -> list str.
(** the mark parallel_mode of a plugin, plugins/__init__.py:25 *)
Variable mark : plugin -> option mode.

(** _is_parallel_supported, plugins/plugin_manager.py:120-130; true: the plugin
    does not fit *)
Definition misfit (c : pconf) (p : plugin) : bool :=
  if negb (is_parallel c) then false
  else match (match mark p with Some m => m | None => Enabled end) with
       | Enabled => false
       | Disabled => true
       | ParentOnly => is_child c
       | ChildOnly => is_parent c
       end.

(** the loop of configure_for_parallel_mode, plugins/plugin_manager.py:132-135 *)
Fixpoint parallel_loop (c : pconf) (l : list plugin) (s : pm) : pm * option perr :=
  match l with
  | [] => (s, None)
  | p :: l' =>
      if misfit c p then
        match deactivate_later (ByObj p) s with
        | (s1, None) => parallel_loop c l' s1
        | (s1, e) => (s1, e)
        end
      else parallel_loop c l' s
  end.
(** configure_for_parallel_mode, plugins/plugin_manager.py:132-135, with
    get_installed_plugins 77-83 *)
Definition configure_parallel (c : pconf) (s : pm) : pm * option perr :=
  parallel_loop c (map (fun e => fst (snd e)) (installed s)) s.

(** utils/cli_utils.py:12 *)
Definition with_prefix : str := lit "--with-".
(** utils/cli_utils.py:13 *)
Definition without_prefix : str := lit "--without-".

(** add_pending_plugins_from_commandline, utils/cli_utils.py:15-26: the state, the
    arguments left, the exception *)
Fixpoint add_pending (argv : list str) (s : pm) : pm * list str * option perr :=
  match argv with
  | [] => (s, [], None)
  | a :: argv' =>
      match strip_prefix without_prefix a with
      | Some n =>
          match deactivate_later (ByName n) s with
          | (s1, None) => add_pending argv' s1
          | (s1, e) => (s1, [], e)
          end
      | None =>
          match strip_prefix with_prefix a with
          | Some n =>
              match activate_later (ByName n) s with
              | (s1, None) => add_pending argv' s1
              | (s1, e) => (s1, [], e)
              end
          | None =>
              let '(s1, rest, e) := add_pending argv' s in (s1, a :: rest, e)
          end
      end
  end.

(** configure_plugins_from_args, utils/cli_utils.py:57-59 with get_active_plugins
    (plugins/plugin_manager.py:85-93): the plugins configure_from_parsed_args is called of
    (None: the method of None, an active name without a plugin) *)
Definition configured (s : pm) : list (option plugin) :=
  map (fun n => instance_by_name n s) (order (active s)).

(** app.py:114-127; the first result is the state of the manager, then the
    plugins configured, then the exception *)
Definition start (c : pconf) (argv : list str) (hook : list pop) (s : pm)
  : pm * list (option plugin) * option perr :=
  match add_pending argv s with
  | (s1, _, Some e) => (s1, [], Some e)
  | (s1, _, None) =>
      match bind (configure_parallel c (exec_all order hook s1)) (activate_pending order) with
      | (s2, None) => (s2, configured s2, None)
      | (s2, e) => (s2, [], e)
      end
  end.
End Par.
