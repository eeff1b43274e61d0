(** Model of the plugin manager, plugins/plugin_manager.py (35-59, 86-111,
    137-167, 184-274, 294-323, 325-416).  Simplified: a plugin is described by
    its name, its class, the hooks its methods are registered on, whether it
    names an unknown hook, the hooks that get a no-op registration, whether it
    has a session_end and no session_start method, and whether its own
    activate()/deactivate() raise; the configuration of plugins (_configure,
    _unconfigure), toggles, deprecation warnings, the order constraints
    needs/provides and parallel modes are left out, as is user code that calls
    the manager from activate()/deactivate(). *)

From Coq Require Import List Bool Arith Ascii String.
From Verif Require Import Str.
Import ListNotations.

(** Dicts with string keys (no file of /repo) *)
Section SD.
Context {V : Type}.
(** d.get(k); a Python operation, no code of /repo *)
Fixpoint s_get (k : str) (d : list (str * V)) : option V :=
  match d with
  | [] => None
  | (k', v) :: d' => if str_eqb k k' then Some v else s_get k d'
  end.
(** d[k] = v; a Python operation, no code of /repo *)
Fixpoint s_set (k : str) (v : V) (d : list (str * V)) : list (str * V) :=
  match d with
  | [] => [(k, v)]
  | (k', v') :: d' => if str_eqb k k' then (k, v) :: d' else (k', v') :: s_set k v d'
  end.
(** d.pop(k, None); a Python operation, no code of /repo *)
Fixpoint s_del (k : str) (d : list (str * V)) : list (str * V) :=
  match d with
  | [] => []
  | (k', v') :: d' => if str_eqb k k' then s_del k d' else (k', v') :: s_del k d'
  end.
End SD.

(** Sets of strings (no file of /repo): membership, add, discard; a Python operation, no code of /repo *)
Definition s_mem (k : str) (l : list str) : bool := existsb (str_eqb k) l.
(** a Python operation, no code of /repo *)
Definition s_add (k : str) (l : list str) : list str := if s_mem k l then l else l ++ [k].
(** a Python operation, no code of /repo *)
Definition s_discard (k : str) (l : list str) : list str := filter (fun x => negb (str_eqb k x)) l.

(** A plugin object; [p_hooks]: a hook per registration of a method that
    _get_plugin_registrations returns (plugins/plugin_manager.py:325-403), [p_noops] the hooks of
    register_no_op_hooks (410-412), [p_unknown]: some hook is unknown (414-415),
    [p_end_only]: has_session_end and not has_session_start (405-408). *)
Record plugin := mkPlugin {
  p_id : nat; p_name : str; p_class : nat;
  p_hooks : list nat; p_noops : list nat; p_unknown : bool; p_end_only : bool;
  p_act_fails : bool; p_deact_fails : bool }.

(** what a registration calls: a method of the plugin, the lambda of 407, or
    nothing (register_no_op); plugin_manager.py:325-416 *)
Inductive hkind := KMethod | KLambda | KNoOp.

(** a registration in gossip; the token is the name of the plugin (_get_token,
    plugins/plugin_manager.py:294-295, prepends a constant), None for the lambda of 407 *)
Record handler := mkHandler { h_hook : nat; h_plugin : nat; h_kind : hkind; h_token : option str }.

(** PluginManager.__init__ plugins/plugin_manager.py:35-44, and gossip's registrations *)
Record pm := mkPm {
  installed : list (str * (plugin * bool));
  cmd_names : list (str * str);
  pending_act : list str;
  pending_deact : list str;
  active : list str;
  handlers : list handler }.

(** the exceptions: plugins/plugin_manager.py:25-32, what user code raises, KeyError *)
Inductive perr := UnknownPlugin | IncompatiblePlugin | IllegalPluginName | UserError | KeyErr.

(** how a plugin is referred to, plugins/plugin_manager.py:309-320 *)
Inductive ref := ByName (n : str) | ByClass (c : nat) | ByObj (p : plugin).

(** normalize_command_line_name plugins/plugin_manager.py:255-256 *)
Definition normalize (n : str) : str :=
  map (fun c => if Ascii.eqb c " "%char then "-"%char else c) n.

(** [re.search(r'[^A-Za-z0-9_ -]', name)] is None, plugins/plugin_manager.py:145 *)
Definition legal_char (c : ascii) : bool :=
  let n := nat_of_ascii c in
  (Nat.leb 65 n && Nat.leb n 90) || (Nat.leb 97 n && Nat.leb n 122) || (Nat.leb 48 n && Nat.leb n 57)
  || Nat.eqb n 95 || Nat.eqb n 32 || Nat.eqb n 45.

(** _get_installed_plugin_instance_by_name plugins/plugin_manager.py:297-301 *)
Definition instance_by_name (n : str) (s : pm) : option plugin := option_map fst (s_get n (installed s)).

(** _get_installed_plugin plugins/plugin_manager.py:309-323; None: UnknownPlugin *)
Definition get_installed (r : ref) (s : pm) : option plugin :=
  let check p := match instance_by_name (p_name p) s with
                 | Some q => if Nat.eqb (p_id q) (p_id p) then Some q else None
                 | None => None
                 end in
  match r with
  | ByName n => instance_by_name (match s_get n (cmd_names s) with Some m => m | None => n end) s
  | ByClass c => match find (fun e => Nat.eqb (p_class (fst (snd e))) c) (installed s) with
                 | Some e => check (fst (snd e))
                 | None => None
                 end
  | ByObj p => check p
  end.

(** field updates; gossip registry, outside /repo *)
Definition set_handlers h s := mkPm (installed s) (cmd_names s) (pending_act s) (pending_deact s) (active s) h.
(** assignment to _active, plugin_manager.py:35-44 *)
Definition set_active a s := mkPm (installed s) (cmd_names s) (pending_act s) (pending_deact s) a (handlers s).
(** assignment to _pending_activation, plugin_manager.py:35-44 *)
Definition set_pending_act a s := mkPm (installed s) (cmd_names s) a (pending_deact s) (active s) (handlers s).
(** assignment to _pending_deactivation, plugin_manager.py:35-44 *)
Definition set_pending_deact a s := mkPm (installed s) (cmd_names s) (pending_act s) a (active s) (handlers s).

(** the registrations of plugins/plugin_manager.py:325-416, [hook.register] of 220-221; hook 0 stands for
    slash.session_start *)
Definition noop_regs (p : plugin) : list handler :=
  map (fun h => mkHandler h (p_id p) KNoOp (Some (p_name p))) (p_noops p).
(** plugin_manager.py:325-416 *)
Definition method_regs (p : plugin) : list handler :=
  map (fun h => mkHandler h (p_id p) KMethod (Some (p_name p))) (p_hooks p)
  ++ (if p_end_only p then [mkHandler 0 (p_id p) KLambda None] else []).

(** activate plugins/plugin_manager.py:209-222: no-op registrations are made before the unknown hooks are
    reported *)
Definition activate (r : ref) (s : pm) : pm * option perr :=
  match get_installed r s with
  | None => (s, Some UnknownPlugin)
  | Some p =>
      if p_act_fails p then (s, Some UserError)
      else
        let s1 := set_handlers (handlers s ++ noop_regs p) s in
        if p_unknown p then (s1, Some IncompatiblePlugin)
        else (set_active (s_add (p_name p) (active s1))
                (set_handlers (handlers s1 ++ method_regs p) s1), None)
  end.

(** deactivate plugins/plugin_manager.py:261-274 *)
Definition deactivate (r : ref) (s : pm) : pm * option perr :=
  match get_installed r s with
  | None => (s, Some UnknownPlugin)
  | Some p =>
      if s_mem (p_name p) (active s) then
        (set_active (s_discard (p_name p) (active s))
           (set_handlers (filter (fun h => match h_token h with
                                           | Some t => negb (str_eqb (p_name p) t)
                                           | None => true
                                           end) (handlers s)) s),
         if p_deact_fails p then Some UserError else None)
      else (s, None)
  end.

(** activate_later plugins/plugin_manager.py:224-230, deactivate_later 232-239 *)
Definition activate_later (r : ref) (s : pm) : pm * option perr :=
  match get_installed r s with
  | None => (s, Some UnknownPlugin)
  | Some p => (set_pending_act (s_add (p_name p) (pending_act s)) s, None)
  end.
(** plugin_manager.py:232-239 *)
Definition deactivate_later (r : ref) (s : pm) : pm * option perr :=
  match get_installed r s with
  | None => (s, Some UnknownPlugin)
  | Some p => (set_pending_deact (s_add (p_name p) (pending_deact s)) s, None)
  end.

(** uninstall plugins/plugin_manager.py:184-199 *)
Definition uninstall (r : ref) (s : pm) : pm * option perr :=
  match get_installed r s with
  | None => (s, Some UnknownPlugin)
  | Some p =>
      match deactivate (ByObj p) s with
      | (s1, None) | (s1, Some IncompatiblePlugin) =>
          (mkPm (s_del (p_name p) (installed s1)) (s_del (normalize (p_name p)) (cmd_names s1))
                (pending_act s1) (pending_deact s1) (active s1) (handlers s1), None)
      | (s1, e) => (s1, e)
      end
  end.

(** uninstall_all plugins/plugin_manager.py:201-207 (the loop over a copy of the values) *)
Fixpoint uninstall_list (l : list plugin) (s : pm) : pm * option perr :=
  match l with
  | [] => (s, None)
  | p :: l' => match uninstall (ByObj p) s with
               | (s1, None) => uninstall_list l' s1
               | (s1, e) => (s1, e)
               end
  end.
(** plugin_manager.py:201-207 *)
Definition uninstall_all (s : pm) : pm * option perr :=
  uninstall_list (map (fun e => fst (snd e)) (installed s)) s.

(** install plugins/plugin_manager.py:137-167 *)
Definition install (p : plugin) (act later internal : bool) (s : pm) : pm * option perr :=
  if negb (forallb legal_char (p_name p)) then (s, Some IllegalPluginName)
  else
    let s1 := mkPm (s_set (p_name p) (p, internal) (installed s))
                   (s_set (normalize (p_name p)) (p_name p) (cmd_names s))
                   (pending_act s) (pending_deact s) (active s) (handlers s) in
    match (if act then activate (ByName (p_name p)) s1 else (s1, None)) with
    | (s2, None) => if later then activate_later (ByName (p_name p)) s2 else (s2, None)
    | (s2, Some IncompatiblePlugin) =>
        match uninstall (ByObj p) s2 with
        | (s3, None) => (s3, Some IncompatiblePlugin)
        | (s3, e) => (s3, e)
        end
    | (s2, e) => (s2, e)
    end.

(** get_future_active_plugins plugins/plugin_manager.py:95-105 as the names of the returned dictionary;
    None: KeyError of get_plugin (107-111) *)
Definition get_future_active (s : pm) : option (list str) :=
  if forallb (fun n => match s_get n (installed s) with Some _ => true | None => false end) (pending_act s) then
    Some (fold_left (fun l n => s_discard n l) (pending_deact s)
                    (fold_left (fun l n => s_add n l) (pending_act s) (active s)))
  else None.

(** the loops of activate_pending_plugins plugins/plugin_manager.py:241-253; the argument is the order in
    which set.pop() gives the elements *)
Fixpoint pending_loop1 (l : list str) (s : pm) : pm * option perr :=
  match l with
  | [] => (s, None)
  | n :: l' =>
      let s1 := set_pending_act (s_discard n (pending_act s)) s in
      if s_mem n (pending_deact s1) then pending_loop1 l' s1
      else match activate (ByName n) s1 with
           | (s2, None) => pending_loop1 l' s2
           | (s2, e) => (s2, e)
           end
  end.
(** plugin_manager.py:241-253 *)
Fixpoint pending_loop2 (l : list str) (s : pm) : pm * option perr :=
  match l with
  | [] => (s, None)
  | n :: l' =>
      let s1 := set_pending_deact (s_discard n (pending_deact s)) s in
      if s_mem n (active s1) then
        match deactivate (ByName n) s1 with
        | (s2, None) => pending_loop2 l' s2
        | (s2, e) => (s2, e)
        end
      else pending_loop2 l' s1
  end.

Section Order.
(** the order of the elements of a set *)
Variable order : list str -> list str.

(** plugins/plugin_manager.py:241-253 *)
Definition activate_pending (s : pm) : pm * option perr :=
  match pending_loop1 (order (pending_act s)) s with
  | (s1, None) => pending_loop2 (order (pending_deact s1)) s1
  | (s1, e) => (s1, e)
  end.

(** the calls of the manager; plugin_manager.py:137-274 *)
Inductive pop :=
| OInstall (p : plugin) (act later internal : bool)
| OUninstall (r : ref) | OUninstallAll
| OActivate (r : ref) | ODeactivate (r : ref)
| OActivateLater (r : ref) | ODeactivateLater (r : ref)
| OActivatePending.

(** one call; plugin_manager.py:137-274 *)
Definition exec (o : pop) (s : pm) : pm * option perr :=
  match o with
  | OInstall p a l i => install p a l i s
  | OUninstall r => uninstall r s
  | OUninstallAll => uninstall_all s
  | OActivate r => activate r s
  | ODeactivate r => deactivate r s
  | OActivateLater r => activate_later r s
  | ODeactivateLater r => deactivate_later r s
  | OActivatePending => activate_pending s
  end.

(** a program that makes some calls and catches their exceptions; plumbing of the model, no code of its own *)
Definition exec_all (l : list pop) (s : pm) : pm := fold_left (fun s o => fst (exec o s)) l s.

(** restoring_state_context 46-59: what its finally does; a step that raises ends
    it. *)
(** difference of two sets of names, in some order; plugin_manager.py:46-59 *)
Definition sdiff (a b : list str) : list str := order (filter (fun n => negb (s_mem n b)) a).

(** one of the four loops, plugins/plugin_manager.py:52-59 *)
Fixpoint each (f : str -> pm -> pm * option perr) (l : list str) (s : pm) : pm * option perr :=
  match l with
  | [] => (s, None)
  | n :: l' => match f n s with
               | (s1, None) => each f l' s1
               | (s1, e) => (s1, e)
               end
  end.
(** sequence; an exception ends it; plumbing of the model, no code of its own *)
Definition bind (x : pm * option perr) (f : pm -> pm * option perr) : pm * option perr :=
  match x with (s, None) => f s | (s, e) => (s, e) end.

(** plugins/plugin_manager.py:52-59; [s0] is the state at entry (47-48 copy its tables).  KeyErr: 53 looks
    up a name taken from the same table, it cannot happen. *)
Definition restore (s0 s : pm) : pm * option perr :=
  bind (each (fun n s => match s_get n (installed s0) with
                         | Some e => install (fst e) false false false s
                         | None => (s, Some KeyErr)
                         end)
             (sdiff (map fst (installed s0)) (map fst (installed s))) s)
  (fun s => bind (each (fun n => activate (ByName n)) (sdiff (active s0) (active s)) s)
  (fun s => bind (each (fun n => deactivate (ByName n)) (sdiff (active s) (active s0)) s)
  (fun s => each (fun n => uninstall (ByName n)) (sdiff (map fst (installed s)) (map fst (installed s0))) s))).

(** with manager.restoring_state_context(): body; plugin_manager.py:46-59 *)
Definition in_context (body : list pop) (s : pm) : pm * option perr := restore s (exec_all body s).
End Order.
