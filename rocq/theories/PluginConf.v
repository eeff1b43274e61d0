(** Model of the configuration of plugins: plugins/plugin_manager.py:46-59, 137-167, 184-207, 258-259, 276-292 and
    plugins/interface.py:32-39, on top of the plugin manager of Plugins.v.

    A plugin's configuration is a dictionary of settings with values (numbers here; values that are dictionaries are left out).
    Simplified: Config.extend of confetti (outside /repo) adds the settings and overwrites those that are there.  Not modelled:
    get_config() and get_default_config() that raise, settings of a kind confetti refuses, the deprecation warning, metadata. *)

From Coq Require Import List Bool Arith Ascii String.
From Verif Require Import Str Plugins.
Import ListNotations.

(** the configuration of a plugin and config.root.plugin_config; conf.py:141-143 *)
Definition settings := list (str * nat).
(** conf.py:141-143 *)
Definition config := list (str * settings).

(** normalize_config_name, plugins/plugin_manager.py:258-259 *)
Definition config_name (n : str) : str := map (fun c => if Ascii.eqb c " "%char then "_"%char else c) n.

(** Config.extend({k: d}) of confetti, used by plugins/plugin_manager.py:286 *)
Definition extend (k : str) (d : settings) (c : config) : config :=
  s_set k (fold_left (fun s e => s_set (fst e) (snd e) s) d (match s_get k c with Some s => s | None => [] end)) c.

(** the manager and the configuration; plugins/plugin_manager.py:35-44, conf.py:141-143 *)
Record st := mkSt { mgr : pm; conf : config }.

Section Conf.
(** what get_config() and get_default_config() of a plugin return, plugins/interface.py:17-30 *)
Variable get_config get_default_config : nat -> option settings.
(** the order of the elements of a set *)
Variable order : list str -> list str.

(** _configure, plugins/plugin_manager.py:276-286 *)
Definition configure (p : plugin) (c : config) : config :=
  match (match get_config (p_id p) with Some d => Some d | None => get_default_config (p_id p) end) with
  | Some d => extend (config_name (p_name p)) d c
  | None => c
  end.

(** _unconfigure, plugins/plugin_manager.py:288-292 *)
Definition unconfigure (p : plugin) (c : config) : config := s_del (config_name (p_name p)) c.

(** current_config, plugins/interface.py:32-39; None: AttributeError *)
Definition current_config (p : plugin) (c : config) : option settings := s_get (config_name (p_name p)) c.

(** uninstall, plugins/plugin_manager.py:184-199: the configuration goes after deactivate() did not raise *)
Definition uninstall (r : ref) (s : st) : st * option perr :=
  let (m, e) := Plugins.uninstall r (mgr s) in
  (mkSt m (match e, get_installed r (mgr s) with None, Some p => unconfigure p (conf s) | _, _ => conf s end), e).

(** uninstall_all, plugins/plugin_manager.py:201-207 *)
Fixpoint uninstall_list (l : list plugin) (s : st) : st * option perr :=
  match l with
  | [] => (s, None)
  | p :: l' => match uninstall (ByObj p) s with
               | (s1, None) => uninstall_list l' s1
               | (s1, e) => (s1, e)
               end
  end.

(** install, plugins/plugin_manager.py:137-167: the configuration comes after the name was checked, and goes with the uninstall
    of a plugin that is incompatible *)
Definition install (p : plugin) (act later internal : bool) (s : st) : st * option perr :=
  if negb (forallb legal_char (p_name p)) then (s, Some IllegalPluginName)
  else
    let c := configure p (conf s) in
    let (m, e) := Plugins.install p act later internal (mgr s) in
    (mkSt m (match e with Some IncompatiblePlugin => unconfigure p c | _ => c end), e).

(** what is done: a call of the manager, plugins/plugin_manager.py:137-274, or a value assigned to a setting that is there *)
Inductive op := Call (o : pop) | Assign (k leaf : str) (v : nat).

(** one of them; plugins/plugin_manager.py:137-274 *)
Definition step (o : op) (s : st) : st * option perr :=
  match o with
  | Call (OInstall p a l i) => install p a l i s
  | Call (OUninstall r) => uninstall r s
  | Call OUninstallAll => uninstall_list (map (fun e => fst (snd e)) (installed (mgr s))) s
  | Call o => let (m, e) := exec order o (mgr s) in (mkSt m (conf s), e)
  | Assign k leaf v =>
      match s_get k (conf s) with
      | Some d => match s_get leaf d with
                  | Some _ => (mkSt (mgr s) (s_set k (s_set leaf v d) (conf s)), None)
                  | None => (s, Some KeyErr)
                  end
      | None => (s, Some KeyErr)
      end
  end.

(** several, catching their exceptions; plumbing of the model, no code of its own *)
Definition run (l : list op) (s : st) : st := fold_left (fun s o => fst (step o s)) l s.

(** one of the loops of restoring_state_context, plugins/plugin_manager.py:52-59 *)
Fixpoint each (f : str -> st -> st * option perr) (l : list str) (s : st) : st * option perr :=
  match l with
  | [] => (s, None)
  | n :: l' => match f n s with
               | (s1, None) => each f l' s1
               | (s1, e) => (s1, e)
               end
  end.
(** sequence; plumbing of the model, no code of its own *)
Definition bind (x : st * option perr) (f : st -> st * option perr) : st * option perr :=
  match x with (s, None) => f s | (s, e) => (s, e) end.

(** with manager.restoring_state_context(): body; plugins/plugin_manager.py:46-59 *)
Definition in_context (body : list op) (s0 : st) : st * option perr :=
  let s := run body s0 in
  bind (each (fun n s => match s_get n (installed (mgr s0)) with
                         | Some e => install (fst e) false false false s
                         | None => (s, Some KeyErr)
                         end)
             (sdiff order (map fst (installed (mgr s0))) (map fst (installed (mgr s)))) s)
  (fun s => bind (each (fun n => step (Call (OActivate (ByName n)))) (sdiff order (active (mgr s0)) (active (mgr s))) s)
  (fun s => bind (each (fun n => step (Call (ODeactivate (ByName n)))) (sdiff order (active (mgr s)) (active (mgr s0))) s)
  (fun s => each (fun n => uninstall (ByName n)) (sdiff order (map fst (installed (mgr s))) (map fst (installed (mgr s0)))) s))).

End Conf.
