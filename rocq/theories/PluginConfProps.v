(** C123: the configuration of plugins (PluginConf.v; plugins/plugin_manager.py). *)

From Coq Require Import List Bool Arith Ascii String Lia.
From Verif Require Import Str Plugins PluginsProps PluginConf.
Import ListNotations.

(** nothing is installed, nothing is configured *)
Definition st0 : st := mkSt pm0 [].

(** the configuration a plugin asks for *)
Definition asks (get_config get_default_config : nat -> option settings) (p : plugin) (d : settings) : Prop :=
  get_config (p_id p) = Some d \/ (get_config (p_id p) = None /\ get_default_config (p_id p) = Some d).

(** plugins of different names have different names in the configuration *)
Definition apart (U : list plugin) : Prop :=
  forall p q, In p U -> In q U -> config_name (p_name p) = config_name (p_name q) -> p_name p = p_name q.

Definition uses (U : list plugin) (o : op) : Prop := match o with Call (OInstall p _ _ _) => In p U | _ => True end.

(** the last value assigned to a setting *)
Fixpoint assigned (k leaf : str) (l : list op) : option nat :=
  match l with
  | [] => None
  | Assign k' leaf' v :: l' => match assigned k leaf l' with
                               | Some w => Some w
                               | None => if str_eqb k k' && str_eqb leaf leaf' then Some v else None
                               end
  | _ :: l' => assigned k leaf l'
  end.

Section Proofs.
Variable gc gd : nat -> option settings.
Variable order : list str -> list str.

Notation configure := (configure gc gd).
Notation install := (install gc gd).
Notation step := (step gc gd order).
Notation run := (run gc gd order).
Notation asks := (asks gc gd).

(** ** The manager is the one of Plugins.v *)

Lemma install_mgr p a l i s : mgr (fst (install p a l i s)) = fst (Plugins.install p a l i (mgr s)).
Proof.
  unfold PluginConf.install. unfold Plugins.install. destruct (forallb legal_char (p_name p)); [|reflexivity]. cbn [negb].
  match goal with |- context [let (m, e) := ?x in _] => destruct x end. reflexivity.
Qed.

Lemma uninstall_mgr r s : mgr (fst (uninstall r s)) = fst (Plugins.uninstall r (mgr s)) /\ snd (uninstall r s) = snd (Plugins.uninstall r (mgr s)).
Proof. unfold uninstall. destruct (Plugins.uninstall r (mgr s)). split; reflexivity. Qed.

Lemma list_mgr l : forall s, mgr (fst (uninstall_list l s)) = fst (Plugins.uninstall_list l (mgr s)).
Proof.
  induction l as [|p l IH]; intros s; [reflexivity|]. cbn [uninstall_list Plugins.uninstall_list]. destruct (uninstall_mgr (ByObj p) s) as [A B].
  destruct (uninstall (ByObj p) s) as [s1 e], (Plugins.uninstall (ByObj p) (mgr s)) as [m1 e1]. cbn [fst snd] in *. subst. destruct e1; [reflexivity|apply IH].
Qed.

(** the calls do with the manager what they do without the configuration *)
Theorem C123_same_manager o s : mgr (fst (step (Call o) s)) = fst (exec order o (mgr s)).
Proof.
  destruct o; cbn [PluginConf.step exec]; [apply install_mgr|apply uninstall_mgr|apply list_mgr|..];
    match goal with |- context [let (m, e) := ?x in _] => destruct x end; reflexivity.
Qed.

(** ** What is installed *)

Definition named (m : pm) : Prop := forall n p i, s_get n (installed m) = Some (p, i) -> p_name p = n.

Lemma get_named r m p : named m -> get_installed r m = Some p -> exists i, s_get (p_name p) (installed m) = Some (p, i).
Proof.
  intros N G. assert (A : forall n q, instance_by_name n m = Some q -> exists i, s_get (p_name q) (installed m) = Some (q, i)).
  { intros n q H. unfold instance_by_name in H. destruct (s_get n (installed m)) as [[q' i]|] eqn:E; [|discriminate]. injection H as <-. cbn. rewrite (N _ _ _ E). eauto. }
  destruct r as [n|c|q]; simpl in G.
  - eapply A; eauto.
  - destruct (find _ (installed m)) as [e|]; [|discriminate]. destruct (instance_by_name _ m) as [q|] eqn:E; [|discriminate].
    destruct (p_id q =? p_id (fst (snd e))); [|discriminate]. injection G as ->. eapply A; eauto.
  - destruct (instance_by_name (p_name q) m) as [q'|] eqn:E; [|discriminate]. destruct (p_id q' =? p_id q); [|discriminate]. injection G as ->. eapply A; eauto.
Qed.

Lemma uninstall_installed r m x : s_get x (installed (fst (Plugins.uninstall r m))) =
  match snd (Plugins.uninstall r m), get_installed r m with None, Some p => if str_eqb x (p_name p) then None else s_get x (installed m) | _, _ => s_get x (installed m) end.
Proof.
  unfold Plugins.uninstall. destruct (get_installed r m) as [p|]; [|reflexivity]. destruct (deactivate_frame (ByObj p) m) as [F _].
  destruct (deactivate (ByObj p) m) as [m1 [[]|]]; cbn [fst snd] in *; rewrite ?F; try reflexivity; cbn [installed]; rewrite s_get_del, ?F; reflexivity.
Qed.

Lemma later_installed r m : installed (fst (activate_later r m)) = installed m.
Proof. unfold activate_later. destruct (get_installed r m); reflexivity. Qed.
Lemma dlater_installed r m : installed (fst (deactivate_later r m)) = installed m.
Proof. unfold deactivate_later. destruct (get_installed r m); reflexivity. Qed.

Lemma install_installed p a l i m x : forallb legal_char (p_name p) = true ->
  s_get x (installed (fst (Plugins.install p a l i m))) =
  if str_eqb x (p_name p) then (match snd (Plugins.install p a l i m) with Some IncompatiblePlugin => None | _ => Some (p, i) end) else s_get x (installed m).
Proof.
  intros L. unfold Plugins.install. rewrite L. cbn [negb]. cbv zeta.
  set (m1 := mkPm (s_set (p_name p) (p, i) (installed m)) _ _ _ _ _).
  assert (E1 : installed (fst (if a then activate (ByName (p_name p)) m1 else (m1, None))) = installed m1) by (destruct a; [apply activate_frame|reflexivity]).
  assert (X1 : s_get x (installed m1) = if str_eqb x (p_name p) then Some (p, i) else s_get x (installed m)) by (cbn [m1 installed]; apply s_get_set).
  destruct (if a then activate (ByName (p_name p)) m1 else (m1, None)) as [m2 e]. cbn [fst] in E1.
  assert (X2 : s_get x (installed m2) = if str_eqb x (p_name p) then Some (p, i) else s_get x (installed m)) by congruence.
  destruct e as [[]|]; cbn [fst snd]; try exact X2.
  - pose proof (uninstall_installed (ByObj p) m2 x) as Y.
    assert (Gp : get_installed (ByObj p) m2 = Some p) by (apply (resolve_obj _ p i); rewrite E1; cbn [m1 installed]; rewrite s_get_set; destruct (str_eqb_spec (p_name p) (p_name p)); congruence).
    rewrite Gp in Y. assert (Z : snd (Plugins.uninstall (ByObj p) m2) <> Some IncompatiblePlugin).
    { unfold Plugins.uninstall. rewrite Gp. destruct (deactivate (ByObj p) m2) as [m3 [[]|]]; cbn; discriminate. }
    destruct (Plugins.uninstall (ByObj p) m2) as [m3 [e|]]; cbn [fst snd] in *; rewrite Y.
    + rewrite X2. destruct (str_eqb x (p_name p)); [|reflexivity]. destruct e; congruence.
    + destruct (str_eqb x (p_name p)); [reflexivity|exact X2].
  - destruct l; [|exact X2]. rewrite later_installed. rewrite X2. unfold activate_later. destruct (get_installed _ m2); reflexivity.
Qed.

Lemma loop1_installed l : forall m, installed (fst (pending_loop1 l m)) = installed m.
Proof.
  induction l as [|n l IH]; intros m; [reflexivity|]. cbn [pending_loop1]. cbv zeta. destruct (s_mem n _); [rewrite IH; reflexivity|].
  pose proof (activate_frame (ByName n) (set_pending_act (s_discard n (pending_act m)) m)) as [F _]. destruct (activate (ByName n) _) as [m2 [e|]]; cbn [fst] in *; [exact F|rewrite IH; exact F].
Qed.

Lemma loop2_installed l : forall m, installed (fst (pending_loop2 l m)) = installed m.
Proof.
  induction l as [|n l IH]; intros m; [reflexivity|]. cbn [pending_loop2]. cbv zeta. destruct (s_mem n _); [|rewrite IH; reflexivity].
  pose proof (deactivate_frame (ByName n) (set_pending_deact (s_discard n (pending_deact m)) m)) as [F _]. destruct (deactivate (ByName n) _) as [m2 [e|]]; cbn [fst] in *; [exact F|rewrite IH; exact F].
Qed.

(** calls that neither install nor uninstall *)
Definition quiet (o : pop) : Prop := match o with OInstall _ _ _ _ | OUninstall _ | OUninstallAll => False | _ => True end.

Lemma quiet_step o s : quiet o -> installed (mgr (fst (step (Call o) s))) = installed (mgr s) /\ conf (fst (step (Call o) s)) = conf s.
Proof.
  intros Q. split.
  - rewrite C123_same_manager. destruct o; destruct Q; cbn [exec]; [apply activate_frame|apply deactivate_frame|apply later_installed|apply dlater_installed|].
    unfold activate_pending. pose proof (loop1_installed (order (pending_act (mgr s))) (mgr s)) as A. destruct (pending_loop1 _ (mgr s)) as [m1 [e|]]; cbn [fst] in *; [exact A|].
    rewrite loop2_installed. exact A.
  - destruct o; destruct Q; cbn [PluginConf.step]; match goal with |- context [let (m, e) := ?x in _] => destruct x end; reflexivity.
Qed.

(** ** What is configured *)

Lemma fold_get d : NoDup (map fst d) -> forall (s : settings) x, s_get x (fold_left (fun s e => s_set (fst e) (snd e) s) d s) = match s_get x d with Some v => Some v | None => s_get x s end.
Proof.
  induction d as [|[k v] d IH]; intros N s x; [reflexivity|]. inversion N as [|? ? N1 N2]; subst. cbn [fold_left fst snd]. rewrite IH by assumption. cbn [s_get]. rewrite s_get_set.
  destruct (str_eqb_spec x k) as [->|]; [|reflexivity]. assert (E : s_get k d = None); [|rewrite E; reflexivity].
  destruct (s_get k d) eqn:E; [|reflexivity]. exfalso. apply N1. apply s_get_key. congruence.
Qed.

Lemma fold_has d : forall (s : settings) x, In x (map fst d) \/ s_get x s <> None -> s_get x (fold_left (fun s e => s_set (fst e) (snd e) s) d s) <> None.
Proof.
  induction d as [|[k v] d IH]; intros s x H; [destruct H as [[]|H]; exact H|]. cbn [fold_left fst snd]. apply IH. rewrite s_get_set.
  destruct (str_eqb_spec x k) as [->|N]; [right; discriminate|]. destruct H as [[E|H]|H]; [cbn in E; congruence|left; exact H|right; exact H].
Qed.

Lemma asks_configure p d c : asks p d -> configure p c = extend (config_name (p_name p)) d c.
Proof. unfold PluginConf.configure. intros [->|[-> ->]]; reflexivity. Qed.

Lemma configure_cases p c : (exists d, asks p d /\ configure p c = extend (config_name (p_name p)) d c) \/ ((forall d, ~ asks p d) /\ configure p c = c).
Proof.
  unfold PluginConf.configure, PluginConfProps.asks. destruct (gc (p_id p)) as [d|]; [left; exists d; auto|]. destruct (gd (p_id p)) as [d|]; [left; exists d; auto|].
  right. split; [|reflexivity]. intros d [A|[_ A]]; discriminate.
Qed.

Lemma configure_other p c k : k <> config_name (p_name p) -> s_get k (configure p c) = s_get k c.
Proof. intros N. destruct (configure_cases p c) as [(d & _ & ->)|[_ ->]]; [|reflexivity]. unfold extend. rewrite s_get_set. destruct (str_eqb_spec k (config_name (p_name p))); congruence. Qed.

Section Univ.
Variable U : list plugin.
Hypothesis far : apart U.

(** every installed plugin that asks for a configuration has one with all of its settings; every configuration is of an installed plugin *)
Record good (s : st) : Prop := {
  g_named : forall n p i, s_get n (installed (mgr s)) = Some (p, i) -> p_name p = n /\ In p U;
  g_has : forall n p i d, s_get n (installed (mgr s)) = Some (p, i) -> asks p d ->
          exists c, s_get (config_name n) (conf s) = Some c /\ forall x, In x (map fst d) -> s_get x c <> None;
  g_only : forall k, s_get k (conf s) <> None -> exists n p i, s_get n (installed (mgr s)) = Some (p, i) /\ config_name n = k }.

Lemma good_named s : good s -> named (mgr s).
Proof. intros G n p i H. apply (g_named s G n p i H). Qed.

Lemma good_uninstall r s : good s -> good (fst (uninstall r s)).
Proof.
  intros G. unfold uninstall. pose proof (uninstall_installed r (mgr s)) as X. destruct (Plugins.uninstall r (mgr s)) as [m e]. cbn [fst snd] in *.
  destruct e as [e|]; [|destruct (get_installed r (mgr s)) as [p|] eqn:R].
  - destruct G as [A B C]. constructor; cbn [mgr conf]; intros *; rewrite ?X; [apply A|apply B|]. intros H. destruct (C k H) as (n & p & i & D & E). exists n, p, i. rewrite X. auto.
  - destruct (get_named _ _ _ (good_named s G) R) as [j Pj]. destruct (g_named s G _ _ _ Pj) as [_ Up]. constructor; cbn [mgr conf].
    + intros n q i H. rewrite X in H. destruct (str_eqb n (p_name p)); [discriminate|]. apply (g_named s G n q i H).
    + intros n q i d H Q. rewrite X in H. destruct (str_eqb_spec n (p_name p)) as [|N]; [discriminate|]. destruct (g_named s G n q i H) as [E Uq].
      unfold unconfigure. rewrite s_get_del. destruct (str_eqb_spec (config_name n) (config_name (p_name p))) as [F|]; [|apply (g_has s G n q i d H Q)].
      subst n. exfalso. apply N. apply far; assumption.
    + intros k H. unfold unconfigure in H. rewrite s_get_del in H. destruct (str_eqb_spec k (config_name (p_name p))) as [|N]; [congruence|].
      destruct (g_only s G k H) as (n & q & i & D & E). exists n, q, i. rewrite X. split; [|exact E]. destruct (str_eqb_spec n (p_name p)); [congruence|exact D].
  - destruct G as [A B C]. constructor; cbn [mgr conf]; intros *; rewrite ?X; [apply A|apply B|]. intros H. destruct (C k H) as (n & p & i & D & E). exists n, p, i. rewrite X. auto.
Qed.

Lemma good_list l : forall s, good s -> good (fst (uninstall_list l s)).
Proof.
  induction l as [|p l IH]; intros s G; [exact G|]. cbn [uninstall_list]. pose proof (good_uninstall (ByObj p) s G) as H. destruct (uninstall (ByObj p) s) as [s1 [e|]]; cbn [fst] in *; auto.
Qed.

Lemma good_install p a l i s : In p U -> good s -> good (fst (install p a l i s)).
Proof.
  intros Up G. unfold PluginConf.install. destruct (forallb legal_char (p_name p)) eqn:L; [|exact G]. cbn [negb].
  pose proof (fun x => install_installed p a l i (mgr s) x L) as X. destruct (Plugins.install p a l i (mgr s)) as [m e]. cbn [fst snd] in *.
  assert (Dec : e = Some IncompatiblePlugin \/ (e <> Some IncompatiblePlugin /\ match e with Some IncompatiblePlugin => None | _ => Some (p, i) end = Some (p, i) /\
    match e with Some IncompatiblePlugin => unconfigure p (configure p (conf s)) | _ => configure p (conf s) end = configure p (conf s))).
  { destruct e as [[]|]; auto; right; repeat split; discriminate. }
  destruct Dec as [->|(Ne & E1 & E2)].
  - constructor; cbn [mgr conf].
    + intros n q j H. rewrite X in H. destruct (str_eqb n (p_name p)); [discriminate|]. apply (g_named s G n q j H).
    + intros n q j d H Q. rewrite X in H. destruct (str_eqb_spec n (p_name p)) as [|N]; [discriminate|]. destruct (g_named s G n q j H) as [E Uq].
      unfold unconfigure. rewrite s_get_del. destruct (str_eqb_spec (config_name n) (config_name (p_name p))) as [F|F]; [subst n; exfalso; apply N; apply far; assumption|].
      rewrite configure_other by exact F. apply (g_has s G n q j d H Q).
    + intros k H. unfold unconfigure in H. rewrite s_get_del in H. destruct (str_eqb_spec k (config_name (p_name p))) as [|N]; [congruence|]. rewrite configure_other in H by exact N.
      destruct (g_only s G k H) as (n & q & j & D & E). exists n, q, j. rewrite X. split; [|exact E]. destruct (str_eqb_spec n (p_name p)); [congruence|exact D].
  - rewrite E1 in X. rewrite E2. constructor; cbn [mgr conf].
    + intros n q j H. rewrite X in H. destruct (str_eqb_spec n (p_name p)) as [->|]; [injection H as <- <-; auto|]. apply (g_named s G n q j H).
    + intros n q j d H Q. rewrite X in H. destruct (str_eqb_spec n (p_name p)) as [->|N].
      * injection H as <- <-. rewrite (asks_configure p d _ Q). unfold extend. rewrite s_get_set. destruct (str_eqb_spec (config_name (p_name p)) (config_name (p_name p))); [|congruence].
        eexists. split; [reflexivity|]. intros x I. apply fold_has. left. exact I.
      * destruct (g_named s G n q j H) as [E Uq]. rewrite configure_other; [apply (g_has s G n q j d H Q)|]. intros F. subst n. apply N. apply far; assumption.
    + intros k H. destruct (str_eqb_spec k (config_name (p_name p))) as [->|N]; [exists (p_name p), p, i; rewrite X; destruct (str_eqb_spec (p_name p) (p_name p)); [auto|congruence]|].
      rewrite configure_other in H by exact N. destruct (g_only s G k H) as (n & q & j & D & E). destruct (str_eqb_spec n (p_name p)) as [->|M]; [congruence|].
      exists n, q, j. rewrite X. split; [|exact E]. destruct (str_eqb_spec n (p_name p)); [congruence|exact D].
Qed.

Lemma good_step o s : uses U o -> good s -> good (fst (step o s)).
Proof.
  intros Us G. destruct o as [o|k leaf v].
  - assert (D : quiet o \/ ~ quiet o) by (destruct o; cbn; tauto). destruct D as [Q|Q].
    + destruct (quiet_step o s Q) as [A B]. destruct G as [G1 G2 G3]. constructor; rewrite ?A, ?B; assumption.
    + destruct o; try (exfalso; apply Q; exact I); cbn [PluginConf.step]; [apply good_install; assumption|apply good_uninstall; assumption|apply good_list; assumption].
  - cbn [PluginConf.step]. destruct (s_get k (conf s)) as [d|] eqn:K; [|exact G]. destruct (s_get leaf d) as [v0|] eqn:Lf; [|exact G]. cbn [fst]. constructor; cbn [mgr conf].
    + apply (g_named s G).
    + intros n p i d' H Q. destruct (g_has s G n p i d' H Q) as (c & C1 & C2). rewrite s_get_set. destruct (str_eqb_spec (config_name n) k) as [E|]; [|exists c; auto].
      eexists. split; [reflexivity|]. intros x I. rewrite s_get_set. destruct (str_eqb x leaf); [discriminate|]. rewrite E in C1. assert (c = d) by congruence. subst c. apply C2, I.
    + intros j H. rewrite s_get_set in H. destruct (str_eqb_spec j k) as [E|]; [rewrite E; apply (g_only s G); congruence|apply (g_only s G j H)].
Qed.

Lemma good_run l : forall s, Forall (uses U) l -> good s -> good (run l s).
Proof. induction l as [|o l IH]; intros s F G; [exact G|]. inversion F; subst. cbn. apply IH; [assumption|]. apply good_step; assumption. Qed.

Lemma good0 : good st0.
Proof. constructor; cbn; [discriminate|discriminate|congruence]. Qed.

(** ** Theorems *)

(** an installed plugin that asks for a configuration finds it, with everything it asks for *)
Theorem C123_found l n p i d : Forall (uses U) l -> let s := run l st0 in s_get n (installed (mgr s)) = Some (p, i) -> asks p d ->
  exists c, current_config p (conf s) = Some c /\ forall x, In x (map fst d) -> s_get x c <> None.
Proof.
  intros F s H Q. pose proof (good_run l st0 F good0) as G. fold s in G. destruct (g_named s G n p i H) as [E _]. unfold current_config. rewrite E. apply (g_has s G n p i d H Q).
Qed.

(** what is in the configuration is of an installed plugin *)
Theorem C123_only l k : Forall (uses U) l -> let s := run l st0 in s_get k (conf s) <> None ->
  exists p i, s_get (p_name p) (installed (mgr s)) = Some (p, i) /\ config_name (p_name p) = k.
Proof.
  intros F s H. pose proof (good_run l st0 F good0) as G. fold s in G. destruct (g_only s G k H) as (n & p & i & A & B). destruct (g_named s G n p i A) as [E _]. subst n. eauto.
Qed.

(** *** Values *)

Definition reinstalls (k : str) (o : op) : Prop := match o with Call (OInstall p _ _ _) => config_name (p_name p) = k | _ => False end.

Lemma uninstall_keeps r s p i : good s -> s_get (p_name p) (installed (mgr s)) = Some (p, i) ->
  s_get (p_name p) (installed (mgr (fst (uninstall r s)))) = None \/
  (s_get (p_name p) (installed (mgr (fst (uninstall r s)))) = Some (p, i) /\ s_get (config_name (p_name p)) (conf (fst (uninstall r s))) = s_get (config_name (p_name p)) (conf s)).
Proof.
  intros G H. destruct (g_named s G _ _ _ H) as [_ Up]. pose proof (uninstall_installed r (mgr s) (p_name p)) as X. rewrite <- (proj1 (uninstall_mgr r s)) in X. unfold uninstall in *.
  destruct (Plugins.uninstall r (mgr s)) as [m e]. cbn [fst snd mgr conf] in *. rewrite X. destruct e as [e|]; [right; auto|]. destruct (get_installed r (mgr s)) as [q|] eqn:R; [|right; auto].
  destruct (str_eqb_spec (p_name p) (p_name q)) as [|N]; [left; reflexivity|]. right. split; [exact H|]. unfold unconfigure. rewrite s_get_del.
  destruct (str_eqb_spec (config_name (p_name p)) (config_name (p_name q))) as [F|]; [|reflexivity]. exfalso. apply N. apply far; [exact Up| |exact F].
  destruct (get_named _ _ _ (good_named s G) R) as [j Pj]. apply (g_named s G _ _ _ Pj).
Qed.

Lemma list_gone l : forall s n, s_get n (installed (mgr s)) = None -> s_get n (installed (mgr (fst (uninstall_list l s)))) = None.
Proof.
  induction l as [|q l IH]; intros s n H; [exact H|]. cbn [uninstall_list]. pose proof (uninstall_installed (ByObj q) (mgr s) n) as X. rewrite <- (proj1 (uninstall_mgr (ByObj q) s)) in X.
  assert (Y : s_get n (installed (mgr (fst (uninstall (ByObj q) s)))) = None).
  { rewrite X. destruct (snd (Plugins.uninstall (ByObj q) (mgr s))); [exact H|]. destruct (get_installed (ByObj q) (mgr s)) as [a|]; [|exact H]. destruct (str_eqb n (p_name a)); [reflexivity|exact H]. }
  destruct (uninstall (ByObj q) s) as [s1 [e|]]; cbn [fst] in *; [exact Y|apply IH, Y].
Qed.

Lemma list_keeps l : forall s p i, good s -> s_get (p_name p) (installed (mgr s)) = Some (p, i) ->
  s_get (p_name p) (installed (mgr (fst (uninstall_list l s)))) = None \/
  (s_get (p_name p) (installed (mgr (fst (uninstall_list l s)))) = Some (p, i) /\ s_get (config_name (p_name p)) (conf (fst (uninstall_list l s))) = s_get (config_name (p_name p)) (conf s)).
Proof.
  induction l as [|q l IH]; intros s p i G H; [right; auto|]. cbn [uninstall_list]. pose proof (good_uninstall (ByObj q) s G) as G1. pose proof (uninstall_keeps (ByObj q) s p i G H) as K.
  destruct (uninstall (ByObj q) s) as [s1 [e|]]; cbn [fst] in *; [exact K|]. destruct K as [K|[K1 K2]]; [left; apply list_gone, K|]. rewrite <- K2. apply IH; assumption.
Qed.

Lemma gone_step o s n : s_get n (installed (mgr s)) = None -> ~ reinstalls (config_name n) o -> s_get n (installed (mgr (fst (step o s)))) = None.
Proof.
  intros H R. destruct o as [o|k leaf v].
  - assert (D : quiet o \/ ~ quiet o) by (destruct o; cbn; tauto). destruct D as [Q|Q]; [rewrite (proj1 (quiet_step o s Q)); exact H|].
    destruct o; try (exfalso; apply Q; exact I); cbn [PluginConf.step].
    + rewrite install_mgr. destruct (forallb legal_char (p_name p)) eqn:L; [|unfold Plugins.install; rewrite L; exact H]. rewrite install_installed by exact L.
      destruct (str_eqb_spec n (p_name p)) as [->|]; [|exact H]. exfalso. apply R. reflexivity.
    + rewrite (proj1 (uninstall_mgr r s)), uninstall_installed. destruct (snd (Plugins.uninstall r (mgr s))); [exact H|]. destruct (get_installed r (mgr s)) as [a|]; [|exact H]. destruct (str_eqb n (p_name a)); [reflexivity|exact H].
    + apply list_gone, H.
  - cbn [PluginConf.step]. destruct (s_get k (conf s)) as [d|]; [|exact H]. destruct (s_get leaf d); exact H.
Qed.

Lemma gone_run l : forall s n, s_get n (installed (mgr s)) = None -> Forall (fun o => ~ reinstalls (config_name n) o) l -> s_get n (installed (mgr (run l s))) = None.
Proof. induction l as [|o l IH]; intros s n H F; [exact H|]. inversion F; subst. cbn. apply IH; [|assumption]. apply gone_step; assumption. Qed.

Lemma values_run l : forall s p i x v, good s -> Forall (uses U) l -> s_get (p_name p) (installed (mgr s)) = Some (p, i) ->
  let k := config_name (p_name p) in (exists c, s_get k (conf s) = Some c /\ s_get x c = Some v) ->
  Forall (fun o => ~ reinstalls k o) l -> s_get (p_name p) (installed (mgr (run l s))) <> None ->
  exists c, s_get k (conf (run l s)) = Some c /\ s_get x c = Some (match assigned k x l with Some w => w | None => v end).
Proof.
  induction l as [|o l IH]; intros s p i x v G F H k C R E; [exact C|]. inversion F as [|? ? F1 F2]; subst. inversion R as [|? ? R1 R2]; subst. cbn [PluginConf.run fold_left] in *.
  pose proof (good_step o s F1 G) as G1.
  assert (Keep : s_get (p_name p) (installed (mgr (fst (step o s)))) <> None) by (intros N; apply E; apply gone_run; assumption).
  assert (Same : (forall k leaf v, o <> Assign k leaf v) -> s_get (p_name p) (installed (mgr (fst (step o s)))) = Some (p, i) /\ s_get k (conf (fst (step o s))) = s_get k (conf s)).
  { intros NA. destruct o as [o|k' leaf w]; [|exfalso; eapply NA; reflexivity]. assert (D : quiet o \/ ~ quiet o) by (destruct o; cbn; tauto).
    destruct D as [Q|Q]; [destruct (quiet_step o s Q) as [A B]; rewrite A, B; auto|]. destruct o as [q a0 l0 i0|r| | | | | |]; try (exfalso; apply Q; exact I); cbn [PluginConf.step] in *.
    - assert (N : config_name (p_name q) <> k) by exact R1. assert (M : p_name p <> p_name q) by (intros M; apply N; unfold k; rewrite M; reflexivity). split.
      + rewrite install_mgr. destruct (forallb legal_char (p_name q)) eqn:L; [|unfold Plugins.install; rewrite L; exact H]. rewrite install_installed by exact L. destruct (str_eqb_spec (p_name p) (p_name q)); [congruence|exact H].
      + unfold PluginConf.install. destruct (forallb legal_char (p_name q)); [|reflexivity]. cbn [negb]. destruct (Plugins.install q a0 l0 i0 (mgr s)) as [m e]. cbn [fst conf].
        assert (O : s_get k (configure q (conf s)) = s_get k (conf s)) by (apply configure_other; congruence). destruct e as [[]|]; try exact O.
        unfold unconfigure. rewrite s_get_del. destruct (str_eqb_spec k (config_name (p_name q))); [congruence|exact O].
    - destruct (uninstall_keeps r s p i G H) as [K|K]; [congruence|exact K].
    - destruct (list_keeps (map (fun e => fst (snd e)) (installed (mgr s))) s p i G H) as [K|K]; [congruence|exact K]. }
  destruct o as [o|k' leaf w].
  - destruct Same as [S1 S2]; [discriminate|]. cbn [assigned]. apply (IH _ p i x v G1 F2 S1); [fold k; rewrite S2; exact C|exact R2|exact E].
  - clear Same. destruct C as (c & C1 & C2). cbn [assigned]. cbn [PluginConf.step] in *.
    assert (Q : exists c', s_get k (conf (fst (step (Assign k' leaf w) s))) = Some c' /\ s_get x c' = Some (if str_eqb k k' && str_eqb x leaf then w else v)).
    { cbn [PluginConf.step]. destruct (str_eqb_spec k k') as [<-|N].
      - rewrite C1. destruct (str_eqb_spec x leaf) as [<-|M]; cbn [andb].
        + rewrite C2. cbn [fst conf]. rewrite s_get_set. destruct (str_eqb_spec k k); [|congruence]. eexists. split; [reflexivity|]. rewrite s_get_set. destruct (str_eqb_spec x x); congruence.
        + destruct (s_get leaf c); cbn [fst conf]; [|eauto]. rewrite s_get_set. destruct (str_eqb_spec k k); [|congruence]. eexists. split; [reflexivity|]. rewrite s_get_set. destruct (str_eqb_spec x leaf); congruence.
      - cbn [andb]. exists c. split; [|exact C2]. destruct (s_get k' (conf s)) as [d|]; [|exact C1]. destruct (s_get leaf d); [|exact C1]. cbn [fst conf]. rewrite s_get_set. destruct (str_eqb_spec k k'); [congruence|exact C1]. }
    assert (S1 : s_get (p_name p) (installed (mgr (fst (step (Assign k' leaf w) s)))) = Some (p, i)).
    { cbn [PluginConf.step]. destruct (s_get k' (conf s)) as [d|]; [|exact H]. destruct (s_get leaf d); exact H. }
    destruct (IH _ p i x _ G1 F2 S1 Q R2 E) as (c' & D1 & D2). exists c'. split; [exact D1|]. rewrite D2. fold k. destruct (assigned k x l); [reflexivity|]. destruct (str_eqb k k' && str_eqb x leaf); reflexivity.
Qed.

(** a setting has the value the plugin asked for when it was installed, or the last one that was assigned to it since *)
Theorem C123_values l p a lt i l' d x v : Forall (uses U) (l ++ Call (OInstall p a lt i) :: l') -> let k := config_name (p_name p) in
  Forall (fun o => ~ reinstalls k o) l' -> let s := run (l ++ Call (OInstall p a lt i) :: l') st0 in
  s_get (p_name p) (installed (mgr s)) <> None -> forallb legal_char (p_name p) = true -> asks p d -> NoDup (map fst d) -> s_get x d = Some v ->
  exists c, s_get k (conf s) = Some c /\ s_get x c = Some (match assigned k x l' with Some w => w | None => v end).
Proof.
  intros F k R s E L Q N V. apply Forall_app in F. destruct F as [F1 F2]. inversion F2 as [|? ? F3 F4]; subst. pose proof (good_run l st0 F1 good0) as G. unfold s in *. clear s.
  unfold PluginConf.run in *. rewrite fold_left_app in *. cbn [fold_left] in *. fold (run l st0) in *. set (s := run l st0) in *. set (s1 := fst (step (Call (OInstall p a lt i)) s)) in *.
  assert (G1 : good s1) by (apply good_step; assumption). fold (run l' s1) in *.
  assert (H : s_get (p_name p) (installed (mgr s1)) = Some (p, i)).
  { destruct (s_get (p_name p) (installed (mgr s1))) eqn:H; [|exfalso; apply E; apply gone_run; assumption]. unfold s1 in H. cbn [PluginConf.step] in H. rewrite install_mgr, install_installed in H by exact L.
    destruct (str_eqb_spec (p_name p) (p_name p)); [|congruence]. destruct (snd (Plugins.install p a lt i (mgr s))) as [[]|]; congruence. }
  apply (values_run l' s1 p i x v G1 F4 H); [|exact R|exact E]. fold k. unfold s1 in *. cbn [PluginConf.step] in *. unfold PluginConf.install in *. rewrite L in *. cbn [negb] in *.
  pose proof (install_installed p a lt i (mgr s) (p_name p) L) as X. destruct (Plugins.install p a lt i (mgr s)) as [m e]. cbn [fst snd mgr conf] in *. rewrite H in X.
  destruct (str_eqb_spec (p_name p) (p_name p)); [|congruence]. assert (Y : match e with Some IncompatiblePlugin => unconfigure p (configure p (conf s)) | _ => configure p (conf s) end = configure p (conf s)) by (destruct e as [[]|]; congruence).
  rewrite Y, (asks_configure p d _ Q). unfold extend. fold k. rewrite s_get_set. destruct (str_eqb_spec k k); [|congruence]. eexists. split; [reflexivity|]. rewrite fold_get by exact N. rewrite V. reflexivity.
Qed.

End Univ.

(** *** Names *)

(** the name in the configuration is the name with underscores in place of spaces *)
Theorem C123_name n : List.length (config_name n) = List.length n /\
  (forall i, nth_error n i = Some " "%char -> nth_error (config_name n) i = Some "_"%char) /\
  (forall i c, nth_error n i = Some c -> c <> " "%char -> nth_error (config_name n) i = Some c).
Proof.
  unfold config_name. split; [apply map_length|]. split; intros i; [|intros c]; intros H; [|intros N]; rewrite nth_error_map, H; cbn; [reflexivity|].
  destruct (Ascii.eqb_spec c " "%char); congruence.
Qed.

(** plugins without underscores in their names, as the manager asks for, are never in each other's way *)
Theorem C123_no_underscores U : (forall p, In p U -> ~ In "_"%char (p_name p)) -> apart U.
Proof.
  intros H p q P Q. specialize (H p P) as Hp. specialize (H q Q) as Hq. clear H P Q. revert Hp Hq. generalize (p_name p) as a, (p_name q) as b. clear p q.
  induction a as [|x a IH]; intros [|y b] A B E; try discriminate; [reflexivity|]. cbn in E, A, B. injection E as E1 E2. f_equal; [|apply IH; auto].
  destruct (Ascii.eqb_spec x " "), (Ascii.eqb_spec y " "); subst; try congruence; exfalso; [apply B|apply A]; left; congruence.
Qed.

(** *** In any state *)

(** uninstalling a plugin takes its configuration away and leaves every other *)
Theorem C123_uninstalled r s s' p : uninstall r s = (s', None) -> get_installed r (mgr s) = Some p ->
  s_get (config_name (p_name p)) (conf s') = None /\ forall k, k <> config_name (p_name p) -> s_get k (conf s') = s_get k (conf s).
Proof.
  unfold uninstall. destruct (Plugins.uninstall r (mgr s)) as [m e]. intros H G. injection H as <- ->. cbn [conf]. rewrite G. unfold unconfigure.
  split; [|intros k N]; rewrite s_get_del; [destruct (str_eqb_spec (config_name (p_name p)) (config_name (p_name p)))|destruct (str_eqb_spec k (config_name (p_name p)))]; congruence.
Qed.

(** installing a plugin changes no other configuration; a plugin that is refused for its name changes nothing, one that is
    incompatible has no configuration afterwards *)
Theorem C123_installed p a l i s : let (s', e) := install p a l i s in
  (forall k, k <> config_name (p_name p) -> s_get k (conf s') = s_get k (conf s)) /\
  (e = Some IllegalPluginName -> conf s' = conf s) /\ (e = Some IncompatiblePlugin -> s_get (config_name (p_name p)) (conf s') = None) /\
  ((forall d, ~ asks p d) -> e <> Some IncompatiblePlugin -> conf s' = conf s).
Proof.
  unfold PluginConf.install. destruct (forallb legal_char (p_name p)) eqn:L; cbn [negb]; [|cbn; repeat split; auto; discriminate].
  assert (Ni : snd (Plugins.install p a l i (mgr s)) <> Some IllegalPluginName).
  { unfold Plugins.install. rewrite L. cbn [negb]. cbv zeta. set (m1 := mkPm _ _ _ _ _ _).
    assert (A : snd (if a then activate (ByName (p_name p)) m1 else (m1, None)) <> Some IllegalPluginName).
    { destruct a; [|discriminate]. unfold activate. destruct (get_installed _ m1) as [q|]; [|discriminate]. destruct (p_act_fails q); [discriminate|]. destruct (p_unknown q); discriminate. }
    destruct (if a then _ else _) as [m2 [[]|]]; cbn [snd] in *; try congruence.
    - assert (B : snd (Plugins.uninstall (ByObj p) m2) <> Some IllegalPluginName).
      { unfold Plugins.uninstall, deactivate. destruct (get_installed (ByObj p) m2) as [q|]; [|discriminate]. destruct (get_installed (ByObj q) m2) as [q'|]; [|discriminate].
        destruct (s_mem (p_name q') (active m2)); [|discriminate]. destruct (p_deact_fails q'); discriminate. }
      destruct (Plugins.uninstall (ByObj p) m2) as [m3 [e|]]; cbn [snd] in *; congruence.
    - destruct l; [|discriminate]. unfold activate_later. destruct (get_installed _ m2); discriminate. }
  destruct (Plugins.install p a l i (mgr s)) as [m e]. cbn [fst snd conf] in *. split; [|split; [congruence|split]].
  - intros k N. assert (O : s_get k (configure p (conf s)) = s_get k (conf s)) by (apply configure_other, N). destruct e as [[]|]; try exact O. unfold unconfigure. rewrite s_get_del. destruct (str_eqb_spec k (config_name (p_name p))); congruence.
  - intros ->. unfold unconfigure. rewrite s_get_del. destruct (str_eqb_spec (config_name (p_name p)) (config_name (p_name p))); congruence.
  - intros A Ne. destruct (configure_cases p (conf s)) as [(d & D & _)|[_ ->]]; [destruct (A d D)|]. destruct e as [[]|]; congruence.
Qed.

(** a plugin that is installed and uninstalled leaves the configuration as it was *)
Theorem C123_restored p a l i s s1 s2 : s_get (config_name (p_name p)) (conf s) = None -> install p a l i s = (s1, None) -> uninstall (ByObj p) s1 = (s2, None) ->
  forall k, s_get k (conf s2) = s_get k (conf s).
Proof.
  intros N I Un k. assert (L : forallb legal_char (p_name p) = true) by (unfold PluginConf.install in I; destruct (forallb legal_char (p_name p)); [reflexivity|discriminate]).
  assert (G : get_installed (ByObj p) (mgr s1) = Some p).
  { apply (resolve_obj _ p i). pose proof (install_mgr p a l i s) as M. rewrite I in M. cbn [fst] in M. rewrite M, install_installed by exact L. destruct (str_eqb_spec (p_name p) (p_name p)); [|congruence].
    unfold PluginConf.install in I. rewrite L in I. cbn [negb] in I. destruct (Plugins.install p a l i (mgr s)) as [m e0]. injection I as _ ->. reflexivity. }
  destruct (C123_uninstalled (ByObj p) s1 s2 p Un G) as [A B]. destruct (str_eqb_spec k (config_name (p_name p))) as [->|M]; [congruence|]. rewrite (B k M).
  pose proof (C123_installed p a l i s) as C. rewrite I in C. apply C, M.
Qed.

End Proofs.

Print Assumptions C123_same_manager.
Print Assumptions C123_found.
Print Assumptions C123_only.
Print Assumptions C123_values.
Print Assumptions C123_name.
Print Assumptions C123_no_underscores.
Print Assumptions C123_uninstalled.
Print Assumptions C123_installed.
Print Assumptions C123_restored.

(** ** What is not so *)

Local Notation lit := Str.lit.
Definition plug (id : nat) (n : string) : plugin := mkPlugin id (lit n) id [] [] false false false false.
(** what the plugins of the examples ask for: the setting x, 0 for plugin 0 and 1 for plugin 1 *)
Definition ex_default (i : nat) : option settings := if Nat.leb i 1 then Some [(lit "x", i)] else None.
Definition none (i : nat) : option settings := None.
Definition same (l : list str) : list str := l.

(** two plugins whose names differ in a space and an underscore share a configuration: uninstalling one leaves the other, which is
    installed, without *)
Theorem C123_shared_refuted : exists l p i d, asks none ex_default p d /\ let s := run none ex_default same l st0 in
  s_get (p_name p) (installed (mgr s)) = Some (p, i) /\ current_config p (conf s) = None.
Proof.
  exists [Call (OInstall (plug 0 "a b") false false false); Call (OInstall (plug 1 "a_b") false false false); Call (OUninstall (ByObj (plug 1 "a_b")))], (plug 0 "a b"), false, [(lit "x", 0)].
  split; [right; split; reflexivity|]. split; reflexivity.
Qed.

(** ... and installing the second changes the values of the first *)
Theorem C123_overwritten_refuted : exists l p q d, p_name p <> p_name q /\ asks none ex_default p d /\ s_get (lit "x") d = Some 0 /\
  let s := run none ex_default same (l ++ [Call (OInstall p false false false); Call (OInstall q false false false)]) st0 in
  current_config p (conf s) = Some [(lit "x", 1)].
Proof.
  exists [], (plug 0 "a b"), (plug 1 "a_b"), [(lit "x", 0)]. split; [discriminate|]. split; [right; split; reflexivity|]. split; reflexivity.
Qed.

(** restoring_state_context restores the plugins and not their configuration: a value that was assigned is lost *)
Theorem C123_context_refuted : exists s body, let s' := fst (in_context none ex_default same body s) in snd (in_context none ex_default same body s) = None /\
  installed (mgr s') = installed (mgr s) /\ (forall k leaf v, ~ In (Assign k leaf v) body) /\
  s_get (lit "p") (conf s) = Some [(lit "x", 7)] /\ s_get (lit "p") (conf s') = Some [(lit "x", 0)].
Proof.
  exists (run none ex_default same [Call (OInstall (plug 0 "p") false false false); Assign (lit "p") (lit "x") 7] st0), [Call (OUninstall (ByName (lit "p")))].
  split; [reflexivity|]. split; [reflexivity|]. split; [intros k leaf v [H|[]]; discriminate|]. split; reflexivity.
Qed.

(** a plugin whose activate() raises stays installed and configured *)
Theorem C123_failed_refuted : exists p s', install none ex_default p true false false st0 = (s', Some UserError) /\
  s_get (p_name p) (installed (mgr s')) <> None /\ current_config p (conf s') <> None.
Proof.
  exists (mkPlugin 0 (lit "p") 0 [] [] false false true false). eexists. split; [reflexivity|]. split; discriminate.
Qed.

Print Assumptions C123_shared_refuted.
Print Assumptions C123_overwritten_refuted.
Print Assumptions C123_context_refuted.
Print Assumptions C123_failed_refuted.

(** ** Examples *)

Definition ex_U : list plugin := [plug 0 "a b"; plug 1 "c"; plug 2 "d"].

Example ex_apart : apart ex_U.
Proof. intros p q P Q. repeat (destruct P as [<-|P]; [|]); try destruct P; repeat (destruct Q as [<-|Q]; [|]); try destruct Q; cbn; try reflexivity; discriminate. Qed.

Definition ex_l : list op := [Call (OInstall (plug 2 "d") true false false); Call (OInstall (plug 0 "a b") false true false)].
Definition ex_l' : list op := [Call (OInstall (plug 1 "c") false false true); Assign (lit "a_b") (lit "x") 5; Call (OUninstall (ByClass 1)); Call OActivatePending].

Example ex_uses : Forall (uses ex_U) (ex_l ++ ex_l').
Proof. repeat (constructor; [cbn; tauto|]). constructor. Qed.

Example ex_end : let s := run none ex_default same (ex_l ++ ex_l') st0 in
  conf s = [(lit "a_b", [(lit "x", 5)])] /\ s_get (lit "a b") (installed (mgr s)) = Some (plug 0 "a b", false) /\ active (mgr s) = [lit "d"; lit "a b"].
Proof. repeat split. Qed.

Example ex_no_reinstall : Forall (fun o => ~ reinstalls (lit "a_b") o) ex_l'.
Proof. repeat (constructor; [cbn; try discriminate; tauto|]). constructor. Qed.

Example ex_restored : exists s1 s2, install none ex_default (plug 0 "a b") false true false st0 = (s1, None) /\ s_get (lit "a_b") (conf s1) = Some [(lit "x", 0)] /\ uninstall (ByObj (plug 0 "a b")) s1 = (s2, None).
Proof. eexists. eexists. split; [reflexivity|]. split; reflexivity. Qed.

Example ex_incompatible : snd (install none ex_default (mkPlugin 0 (lit "p") 0 [3] [] true false false false) true false false st0) = Some IncompatiblePlugin
  /\ snd (install none ex_default (plug 0 "p!") true false false st0) = Some IllegalPluginName.
Proof. split; reflexivity. Qed.
