(** C103: the plugins that are active when an application has started. *)

From Coq Require Import List Bool Arith Ascii String Permutation Lia.
From Verif Require Import Str Plugins PluginsProps ParPlugins.
Import ListNotations.
Open Scope string_scope.
Open Scope list_scope.

(** ** What the names of the command line stand for *)

Definition full (s : pm) : Prop :=
  forall n, s_get n (installed s) <> None -> s_get (normalize n) (cmd_names s) = Some n.

Lemma full_same s s' : installed s' = installed s -> cmd_names s' = cmd_names s -> full s -> full s'.
Proof. unfold full. intros -> ->. auto. Qed.

Lemma full_activate r s : full s -> full (fst (activate r s)).
Proof. apply full_same; apply activate_frame. Qed.
Lemma full_deactivate r s : full s -> full (fst (deactivate r s)).
Proof. apply full_same; apply deactivate_frame. Qed.
Lemma full_later r s : full s -> full (fst (activate_later r s)).
Proof. unfold activate_later. destruct (get_installed r s); simpl; auto. Qed.
Lemma full_dlater r s : full s -> full (fst (deactivate_later r s)).
Proof. unfold deactivate_later. destruct (get_installed r s); simpl; auto. Qed.

Lemma full_loop1 l s : full s -> full (fst (pending_loop1 l s)).
Proof.
  revert s. induction l as [|n l IH]; intros s V; auto. cbn [pending_loop1]. cbv zeta.
  destruct (s_mem n _); [apply IH; auto|].
  pose proof (full_activate (ByName n) (set_pending_act (s_discard n (pending_act s)) s) V) as V2.
  destruct (activate (ByName n) _) as [s2 [e|]]; simpl in *; auto.
Qed.
Lemma full_loop2 l s : full s -> full (fst (pending_loop2 l s)).
Proof.
  revert s. induction l as [|n l IH]; intros s V; auto. cbn [pending_loop2]. cbv zeta.
  destruct (s_mem n _); [|apply IH; auto].
  pose proof (full_deactivate (ByName n) (set_pending_deact (s_discard n (pending_deact s)) s) V) as V2.
  destruct (deactivate (ByName n) _) as [s2 [e|]]; simpl in *; auto.
Qed.

Section Univ.
Variable U : list plugin.
Hypothesis names : distinct_names U.
Variable order : list str -> list str.
Hypothesis order_perm : forall l, Permutation (order l) l.
Variable mark : plugin -> option mode.

Lemma names_eq s n m p i : inv U s -> s_get n (installed s) = Some (p, i) ->
  (exists q, In q U /\ p_name q = m) -> normalize m = normalize n -> m = n.
Proof.
  intros V G (q & Iq & <-) Q. destruct (i_inst _ _ V _ _ _ G) as (<- & Ip & _).
  rewrite (names q p); auto.
Qed.

Lemma full_uninstall r s : inv U s -> full s -> full (fst (uninstall r s)).
Proof.
  intros V H. unfold uninstall. destruct (get_installed r s) as [p|] eqn:G; auto.
  destruct (get_installed_sound _ _ _ _ V G) as (i & E).
  pose proof (deactivate_frame (ByObj p) s) as (F1 & F2 & _).
  pose proof (full_deactivate (ByObj p) s H) as H1.
  destruct (deactivate (ByObj p) s) as [s1 e]. simpl in *.
  assert (A : full (mkPm (s_del (p_name p) (installed s1)) (s_del (normalize (p_name p)) (cmd_names s1))
                (pending_act s1) (pending_deact s1) (active s1) (handlers s1))).
  { intros n. simpl. rewrite !s_get_del, F1, F2. destruct (str_eqb_spec n (p_name p)) as [->|N]; [congruence|].
    intro I. destruct (str_eqb_spec (normalize n) (normalize (p_name p))) as [Q|_]; [|apply H; auto].
    destruct (s_get n (installed s)) as [[q j]|] eqn:Gn; [|congruence].
    destruct (i_inst _ _ V _ _ _ E) as (_ & Ip & _).
    exfalso. apply N. symmetry. apply (names_eq s n (p_name p) q j); auto. eauto. }
  destruct e as [[]|]; simpl; auto.
Qed.

Lemma full_install p a l i s : In p U -> inv U s -> full s -> full (fst (install p a l i s)).
Proof.
  intros Ip V H. unfold install. destruct (forallb legal_char (p_name p)) eqn:L; simpl; auto.
  fold (installed1 p i s). pose proof (installed1_inv U p i s Ip L V) as V1.
  assert (H1 : full (installed1 p i s)).
  { intros n. simpl. rewrite !s_get_set. destruct (str_eqb_spec n (p_name p)) as [->|N].
    - intros _. destruct (str_eqb_spec (normalize (p_name p)) (normalize (p_name p))); congruence.
    - intro I. destruct (str_eqb_spec (normalize n) (normalize (p_name p))) as [Q|_]; [|apply H; auto].
      destruct (s_get n (installed s)) as [[q j]|] eqn:Gn; [|congruence].
      exfalso. apply N. symmetry. apply (names_eq s n (p_name p) q j); auto. eauto. }
  assert (B : forall b : bool, inv U (fst (if b then activate (ByName (p_name p)) (installed1 p i s) else (installed1 p i s, None)))
     /\ full (fst (if b then activate (ByName (p_name p)) (installed1 p i s) else (installed1 p i s, None)))).
  { intros []; auto. split; [apply activate_inv|apply full_activate]; auto. }
  destruct (B a) as [V2 H2].
  destruct (if a then _ else _) as [s2 [[]|]]; simpl in *; auto.
  - pose proof (full_uninstall (ByObj p) s2 V2 H2) as H3. simpl in H3.
    destruct (uninstall (ByObj p) s2) as [s3 [e|]]; simpl in *; auto.
  - destruct l; auto. apply full_later; auto.
Qed.

Lemma full_uninstall_list l s : inv U s -> full s -> full (fst (uninstall_list l s)).
Proof.
  revert s. induction l as [|p l IH]; intros s V H; simpl; auto.
  pose proof (uninstall_inv _ (ByObj p) s V) as V1. pose proof (full_uninstall (ByObj p) s V H) as H1.
  destruct (uninstall (ByObj p) s) as [s1 [e|]]; simpl in *; auto.
Qed.

Lemma full_exec o s : uses U o -> inv U s -> full s -> full (fst (exec order o s)).
Proof.
  intros Us V H. destruct o; simpl in *.
  - apply full_install; auto.
  - apply full_uninstall; auto.
  - apply full_uninstall_list; auto.
  - apply full_activate; auto.
  - apply full_deactivate; auto.
  - apply full_later; auto.
  - apply full_dlater; auto.
  - unfold activate_pending. pose proof (full_loop1 (order (pending_act s)) s H) as V1.
    destruct (pending_loop1 _ s) as [s1 [e|]]; simpl in *; auto. apply full_loop2; auto.
Qed.

Lemma full_exec_all l s : Forall (uses U) l -> inv U s -> full s -> full (exec_all order l s).
Proof.
  revert s. induction l as [|o l IH]; intros s F V H; simpl; auto.
  inversion F; subst. apply IH; auto; [apply exec_inv|apply full_exec]; auto.
Qed.

(** a name of the command line, [m], stands for the installed plugin called so, or
    called so with dashes for spaces *)
Definition stands (m : str) (p : plugin) : Prop := m = p_name p \/ m = normalize (p_name p).

Lemma by_name s m p : inv U s -> full s ->
  get_installed (ByName m) s = Some p <-> (exists i, s_get (p_name p) (installed s) = Some (p, i)) /\ stands m p.
Proof.
  intros V H. split.
  - intro G. split; [apply (get_installed_sound _ _ _ _ V G)|]. simpl in G. unfold instance_by_name in G.
    destruct (s_get m (cmd_names s)) as [n|] eqn:C.
    + destruct (i_cmd _ _ V _ _ C) as (Q & _). destruct (s_get n (installed s)) as [[q i]|] eqn:E; [|discriminate].
      injection G as ->. destruct (i_inst _ _ V _ _ _ E) as (<- & _). right. auto.
    + destruct (s_get m (installed s)) as [[q i]|] eqn:E; [|discriminate].
      injection G as ->. destruct (i_inst _ _ V _ _ _ E) as (<- & _). left. auto.
  - intros ((i & G) & [->| ->]).
    + apply (resolve_name U names _ _ _ i); auto.
    + simpl. rewrite (H (p_name p)) by congruence. unfold instance_by_name. rewrite G. auto.
Qed.

(** a name that is not installed resolves to nothing *)
Lemma by_own_name s n p : inv U s -> In p U -> p_name p = n ->
  get_installed (ByName n) s = (match s_get n (installed s) with Some e => Some (fst e) | None => None end).
Proof.
  intros V Ip Q. destruct (s_get n (installed s)) as [[q i]|] eqn:G.
  - apply (resolve_name U names _ _ _ i); auto.
  - simpl. unfold instance_by_name. destruct (s_get n (cmd_names s)) as [m|] eqn:C; [|rewrite G; auto].
    destruct (i_cmd _ _ V _ _ C) as (Nm & q & Iq & Qm). assert (q = p); [|subst; rewrite G; auto].
    apply names; auto. rewrite Qm, Q, Nm. rewrite <- Nm at 2. rewrite normalize_idem. auto.
Qed.

(** ** The loops, when they end without an exception *)

Lemma loop1_done l s s' : inv U s -> (forall n, In n l -> exists p, In p U /\ p_name p = n) ->
  pending_loop1 l s = (s', None) ->
  inv U s' /\ installed s' = installed s /\ pending_deact s' = pending_deact s
  /\ (forall x, In x (pending_act s') <-> In x (pending_act s) /\ ~ In x l)
  /\ forall x, In x (active s') <-> In x (active s) \/ (In x l /\ ~ In x (pending_deact s)).
Proof.
  revert s. induction l as [|n l IH]; intros s V I E.
  { injection E as <-. do 3 (split; auto). split; intro x; simpl; tauto. }
  cbn [pending_loop1] in E. cbv zeta in E.
  set (s1 := set_pending_act (s_discard n (pending_act s)) s) in *.
  assert (V1 : inv U s1) by (apply inv_discard; auto).
  assert (I' : forall m, In m l -> exists p, In p U /\ p_name p = m) by (intros; apply I; right; auto).
  destruct (s_mem n (pending_deact s1)) eqn:M.
  - apply s_mem_In in M. destruct (IH s1 V1 I' E) as (V' & F1 & F2 & F3 & F4).
    do 3 (split; auto). split; intro x.
    + rewrite F3. unfold s1. simpl. rewrite s_discard_In. intuition congruence.
    + rewrite F4. unfold s1 in *. simpl in *. intuition (subst; tauto).
  - apply s_mem_false in M. pose proof (activate_inv U (ByName n) s1 V1) as V2.
    pose proof (activate_frame (ByName n) s1) as (A1 & _ & A2 & A3).
    destruct (I n (or_introl eq_refl)) as (p & Ip & Q).
    pose proof (by_own_name s1 n p V1 Ip Q) as R.
    destruct (activate (ByName n) s1) as [s2 [e|]] eqn:A; [discriminate|]. cbn [fst] in *.
    assert (A4 : forall x, In x (active s2) <-> x = n \/ In x (active s)).
    { unfold activate in A. rewrite R in A. unfold s1 in A. cbn [installed set_pending_act] in A.
      destruct (s_get n (installed s)) as [[q i]|] eqn:G; [|discriminate]. cbn [fst] in A.
      destruct (i_inst _ _ V _ _ _ G) as (Qn & _).
      destruct (p_act_fails q); [discriminate|]. destruct (p_unknown q); [discriminate|].
      injection A as <-. intro x. simpl. rewrite s_add_In, Qn. tauto. }
    destruct (IH s2 V2 I' E) as (V' & F1 & F2 & F3 & F4).
    split; auto. split; [rewrite F1, A1; auto|]. split; [rewrite F2, A3; auto|].
    split; intro x.
    + rewrite F3, A2. unfold s1. simpl. rewrite s_discard_In. intuition congruence.
    + rewrite F4, A3, A4. unfold s1 in *. simpl in *. intuition (subst; tauto).
Qed.

Lemma loop2_done l s s' : inv U s -> pending_loop2 l s = (s', None) ->
  inv U s' /\ installed s' = installed s /\ pending_act s' = pending_act s
  /\ (forall x, In x (pending_deact s') <-> In x (pending_deact s) /\ ~ In x l)
  /\ forall x, In x (active s') <-> In x (active s) /\ ~ In x l.
Proof.
  revert s. induction l as [|n l IH]; intros s V E.
  { injection E as <-. do 3 (split; auto). split; intro x; simpl; tauto. }
  cbn [pending_loop2] in E. cbv zeta in E.
  set (s1 := set_pending_deact (s_discard n (pending_deact s)) s) in *.
  assert (V1 : inv U s1).
  { apply inv_pending_deact; auto. apply s_discard_NoDup. destruct V; auto. }
  destruct (s_mem n (active s1)) eqn:M.
  - apply s_mem_In in M. pose proof (deactivate_inv U (ByName n) s1 V1) as V2.
    pose proof (deactivate_frame (ByName n) s1) as (A1 & _ & A2 & A3).
    assert (A4 : forall x, In x (active (fst (deactivate (ByName n) s1))) <-> x <> n /\ In x (active s)).
    { pose proof (i_act _ _ V1 _ M) as G. destruct (s_get n (installed s1)) as [[p i]|] eqn:Gn; [|congruence].
      destruct (i_inst _ _ V1 _ _ _ Gn) as (Q & _).
      pose proof (deactivate_active (ByName n) s1 p (resolve_name U names _ _ _ i V1 Gn)) as D.
      rewrite Q in D. exact D. }
    destruct (deactivate (ByName n) s1) as [s2 [e|]]; [discriminate|]. simpl in *.
    destruct (IH s2 V2 E) as (V' & F1 & F2 & F3 & F4).
    split; auto. split; [rewrite F1, A1; auto|]. split; [rewrite F2, A2; auto|].
    split; intro x.
    + rewrite F3, A3, s_discard_In. intuition congruence.
    + rewrite F4, A4. intuition congruence.
  - apply s_mem_false in M. destruct (IH s1 V1 E) as (V' & F1 & F2 & F3 & F4).
    do 3 (split; auto). split; intro x.
    + rewrite F3. unfold s1. simpl. rewrite s_discard_In. intuition congruence.
    + rewrite F4. unfold s1 in *. simpl in *. intuition (subst; tauto).
Qed.

Lemma pending_done s s' : inv U s -> activate_pending order s = (s', None) ->
  inv U s' /\ installed s' = installed s
  /\ forall x, In x (active s') <-> (In x (active s) \/ In x (pending_act s)) /\ ~ In x (pending_deact s).
Proof.
  intros V E. unfold activate_pending in E. destruct (pending_loop1 _ s) as [s1 [e|]] eqn:E1; [discriminate|].
  assert (B : forall n, In n (order (pending_act s)) -> exists p, In p U /\ p_name p = n).
  { intros n I. rewrite (order_In order order_perm) in I. apply (i_pa _ _ V). auto. }
  destruct (loop1_done _ s s1 V B E1) as (V1 & F1 & F2 & _ & F4).
  destruct (loop2_done _ s1 s' V1 E) as (V2 & G1 & _ & _ & G4).
  split; auto. split; [rewrite G1; auto|]. intro x.
  rewrite G4, F4, !(order_In order order_perm), F2. tauto.
Qed.

(** ** Parallel modes *)

(** the mode of the plugin is against the session *)
Definition kept_out (c : pconf) (p : plugin) : Prop :=
  num_workers c <> 0
  /\ (mark p = Some Disabled
      \/ (mark p = Some ParentOnly /\ worker_id c <> None)
      \/ (mark p = Some ChildOnly /\ worker_id c = None)).

Lemma misfit_iff c p : misfit mark c p = true <-> kept_out c p.
Proof.
  unfold misfit, kept_out, is_parallel, is_parent, is_child, is_parallel.
  destruct (num_workers c) as [|k]; simpl.
  { split; [discriminate|intros [H _]; congruence]. }
  destruct (mark p) as [[]|]; destruct (worker_id c); simpl;
    intuition (try discriminate; try congruence).
Qed.

Lemma parallel_loop_ok c l s : inv U s ->
  (forall p, In p l -> exists i, s_get (p_name p) (installed s) = Some (p, i)) ->
  exists s', parallel_loop mark c l s = (s', None) /\ inv U s'
    /\ installed s' = installed s /\ cmd_names s' = cmd_names s /\ active s' = active s
    /\ pending_act s' = pending_act s /\ handlers s' = handlers s
    /\ forall x, In x (pending_deact s') <->
         In x (pending_deact s) \/ exists p, In p l /\ p_name p = x /\ kept_out c p.
Proof.
  revert s. induction l as [|p l IH]; intros s V I.
  { exists s. simpl. repeat (split; auto). intros [H|(q & [] & _)]; auto. }
  cbn [parallel_loop]. destruct (misfit mark c p) eqn:M.
  - apply misfit_iff in M. destruct (I p (or_introl eq_refl)) as (i & G).
    pose proof (dlater_inv U (ByObj p) s V) as V1.
    unfold deactivate_later in *. rewrite (resolve_obj _ _ _ G) in *. simpl in V1.
    destruct (IH _ V1) as (s' & E & V' & F1 & F2 & F3 & F4 & F5 & F6).
    { intros q J. apply I. right. auto. }
    exists s'. split; auto. do 6 (split; auto). intro x. rewrite F6. simpl. rewrite s_add_In. split.
    + intros [[->|H]|(q & J & Q & K)]; eauto 7.
    + intros [H|(q & [->|J] & Q & K)]; eauto 7.
  - assert (N : ~ kept_out c p) by (rewrite <- misfit_iff; congruence).
    destruct (IH s V) as (s' & E & V' & F1 & F2 & F3 & F4 & F5 & F6).
    { intros q J. apply I. right. auto. }
    exists s'. split; auto. do 6 (split; auto). intro x. rewrite F6. split.
    + intros [H|(q & J & Q & K)]; auto. right. exists q. split; [right; auto|auto].
    + intros [H|(q & [->|J] & Q & K)]; auto; [tauto|eauto].
Qed.

Lemma get_of_In s e : NoDup (map fst (installed s)) -> In e (installed s) ->
  s_get (fst e) (installed s) = Some (snd e).
Proof.
  generalize (installed s). induction l as [|[k v] l IH]; intros N I; [destruct I|].
  inversion N as [|? ? Nk Nl]; subst. simpl. destruct I as [<-|I].
  - simpl. destruct (str_eqb_spec k k); congruence.
  - destruct (str_eqb_spec (fst e) k) as [Q|_]; [|auto]. exfalso. apply Nk. rewrite <- Q.
    apply in_map. auto.
Qed.
Lemma In_of_get n v (d : list (str * (plugin * bool))) : s_get n d = Some v -> In (n, v) d.
Proof.
  induction d as [|[k w] d IH]; simpl; [discriminate|].
  destruct (str_eqb_spec n k) as [->|_]; intro H; [left; congruence|right; auto].
Qed.

Lemma configure_ok c s : inv U s -> NoDup (map fst (installed s)) ->
  exists s', configure_parallel mark c s = (s', None) /\ inv U s'
    /\ installed s' = installed s /\ cmd_names s' = cmd_names s /\ active s' = active s
    /\ pending_act s' = pending_act s /\ handlers s' = handlers s
    /\ forall x, In x (pending_deact s') <->
         In x (pending_deact s) \/ exists p i, s_get x (installed s) = Some (p, i) /\ kept_out c p.
Proof.
  intros V N. unfold configure_parallel.
  destruct (parallel_loop_ok c (map (fun e => fst (snd e)) (installed s)) s V)
    as (s' & E & V' & F1 & F2 & F3 & F4 & F5 & F6).
  { intros p I. apply in_map_iff in I as ([k [q i]] & <- & I). simpl.
    pose proof (get_of_In s _ N I) as G. simpl in G. destruct (i_inst _ _ V _ _ _ G) as (-> & _). eauto. }
  exists s'. split; auto. do 6 (split; auto). intro x. rewrite F6. split.
  - intros [H|(p & I & Q & K)]; auto. right. apply in_map_iff in I as ([k [q i]] & <- & I). simpl in *.
    pose proof (get_of_In s _ N I) as G. simpl in G. destruct (i_inst _ _ V _ _ _ G) as (Qk & _).
    exists q, i. rewrite <- Q, Qk. auto.
  - intros [H|(p & i & G & K)]; auto. right. exists p. destruct (i_inst _ _ V _ _ _ G) as (Q & _).
    split; auto. apply in_map_iff. exists (x, (p, i)). split; auto. apply In_of_get; auto.
Qed.

(** ** The arguments *)

Definition arg_with (m : str) : str := lit "--with-" ++ m.
Definition arg_without (m : str) : str := lit "--without-" ++ m.

Lemma strip_prefix_Some p a m : strip_prefix p a = Some m <-> a = p ++ m.
Proof.
  revert a. induction p as [|c p IH]; intros a; simpl.
  - split; congruence.
  - destruct a as [|d a]; [split; discriminate|].
    destruct (Ascii.eqb_spec c d) as [->|N]; [rewrite IH|]; split; congruence.
Qed.

Lemma not_without m : strip_prefix without_prefix (arg_with m) = None.
Proof. reflexivity. Qed.

(** some plugin argument of the list names the plugin *)
Definition asked (f : str -> str) (argv : list str) (p : plugin) : Prop :=
  exists m, In (f m) argv /\ stands m p.

(** it is installed *)
Definition has (s : pm) (p : plugin) : Prop := exists i, s_get (p_name p) (installed s) = Some (p, i).

Lemma add_pending_spec argv s : inv U s -> full s ->
  let '(s', rest, e) := add_pending argv s in
  inv U s' /\ full s' /\ installed s' = installed s /\ active s' = active s /\ handlers s' = handlers s
  /\ match e with
     | None =>
         rest = filter (fun a => negb (starts with_prefix a) && negb (starts without_prefix a)) argv
         /\ (forall m, In (arg_with m) argv \/ In (arg_without m) argv -> exists p, has s p /\ stands m p)
         /\ (forall x, In x (pending_act s') <->
               In x (pending_act s) \/ exists p, has s p /\ p_name p = x /\ asked arg_with argv p)
         /\ (forall x, In x (pending_deact s') <->
               In x (pending_deact s) \/ exists p, has s p /\ p_name p = x /\ asked arg_without argv p)
     | Some e =>
         e = UnknownPlugin
         /\ exists m, (In (arg_with m) argv \/ In (arg_without m) argv) /\ ~ exists p, has s p /\ stands m p
     end.
Proof.
  revert s. induction argv as [|a argv IH]; intros s V H.
  { simpl. do 5 (split; auto). split; auto. split; [intros m [[]|[]]|].
    split; intro x; (split; [auto|intros [?|(p & _ & _ & m & [] & _)]; auto]). }
  cbn [add_pending].
  assert (Fail : forall m, get_installed (ByName m) s = None -> ~ exists p, has s p /\ stands m p).
  { intros m G (p & P & St). assert (get_installed (ByName m) s = Some p) by (apply by_name; auto). congruence. }
  destruct (strip_prefix without_prefix a) as [n|] eqn:S1; [|destruct (strip_prefix with_prefix a) as [n|] eqn:S2].
  - apply strip_prefix_Some in S1. subst a. change (without_prefix ++ n) with (arg_without n) in *.
    pose proof (dlater_inv U (ByName n) s V) as V1. pose proof (full_dlater (ByName n) s H) as H1.
    unfold deactivate_later in *. destruct (get_installed (ByName n) s) as [p|] eqn:G.
    2: { simpl. do 5 (split; auto). split; auto. exists n. split; [right; left; auto|]. auto. }
    apply by_name in G as [P St]; auto. fold (has s p) in P. simpl in V1, H1.
    specialize (IH _ V1 H1).
    destruct (add_pending argv _) as [[s' rest] e]. destruct IH as (V' & H' & F1 & F2 & F3 & R).
    do 5 (split; auto). destruct e as [e|].
    + destruct R as (-> & m & I & N). split; auto. exists m. split; [|exact N]. simpl. tauto.
    + destruct R as (R1 & R2 & R3 & R4). split; [exact R1|]. split; [|split].
      * intros m [[Q|I]|[Q|I]]; [discriminate Q|apply R2; auto| |apply R2; auto].
        exists p. split; auto. unfold arg_without in Q. apply app_inv_head in Q. subst. auto.
      * intro x. rewrite R3. cbn [pending_act set_pending_deact]. split.
        -- intros [?|(q & Pq & Q & m & I & Sm)]; auto. right. exists q. split; auto. split; auto. exists m. split; auto. right. auto.
        -- intros [?|(q & Pq & Q & m & [I|I] & Sm)]; auto; [discriminate I|]. right. exists q. split; auto. split; auto. exists m; auto.
      * intro x. rewrite R4. cbn [pending_deact set_pending_deact]. rewrite s_add_In. split.
        -- intros [[->|?]|(q & Pq & Q & m & I & Sm)]; auto; right.
           ++ exists p. split; auto. split; auto. exists n. split; auto. left. auto.
           ++ exists q. split; auto. split; auto. exists m. split; auto. right. auto.
        -- intros [?|(q & Pq & Q & m & [I|I] & Sm)]; auto.
           ++ left. left. unfold arg_without in I. apply app_inv_head in I. subst m.
              assert (q = p); [|congruence]. destruct Pq as (i & Gq). destruct P as (j & Gp).
              assert (E1 : get_installed (ByName n) s = Some q) by (apply by_name; auto; split; eauto).
              assert (E2 : get_installed (ByName n) s = Some p) by (apply by_name; auto; split; eauto).
              congruence.
           ++ right. exists q. split; auto. split; auto. exists m; auto.
  - apply strip_prefix_Some in S2. subst a. change (with_prefix ++ n) with (arg_with n) in *.
    pose proof (later_inv U (ByName n) s V) as V1. pose proof (full_later (ByName n) s H) as H1.
    unfold activate_later in *. destruct (get_installed (ByName n) s) as [p|] eqn:G.
    2: { simpl. do 5 (split; auto). split; auto. exists n. split; [left; left; auto|]. auto. }
    apply by_name in G as [P St]; auto. fold (has s p) in P. simpl in V1, H1.
    specialize (IH _ V1 H1).
    destruct (add_pending argv _) as [[s' rest] e]. destruct IH as (V' & H' & F1 & F2 & F3 & R).
    do 5 (split; auto). destruct e as [e|].
    + destruct R as (-> & m & I & N). split; auto. exists m. split; [|exact N]. simpl. tauto.
    + destruct R as (R1 & R2 & R3 & R4). split; [exact R1|]. split; [|split].
      * intros m [[Q|I]|[Q|I]]; [|apply R2; auto|discriminate Q|apply R2; auto].
        exists p. split; auto. unfold arg_with in Q. apply app_inv_head in Q. subst. auto.
      * intro x. rewrite R3. cbn [pending_act set_pending_act]. rewrite s_add_In. split.
        -- intros [[->|?]|(q & Pq & Q & m & I & Sm)]; auto; right.
           ++ exists p. split; auto. split; auto. exists n. split; auto. left. auto.
           ++ exists q. split; auto. split; auto. exists m. split; auto. right. auto.
        -- intros [?|(q & Pq & Q & m & [I|I] & Sm)]; auto.
           ++ left. left. unfold arg_with in I. apply app_inv_head in I. subst m.
              assert (q = p); [|congruence]. destruct Pq as (i & Gq). destruct P as (j & Gp).
              assert (E1 : get_installed (ByName n) s = Some q) by (apply by_name; auto; split; eauto).
              assert (E2 : get_installed (ByName n) s = Some p) by (apply by_name; auto; split; eauto).
              congruence.
           ++ right. exists q. split; auto. split; auto. exists m; auto.
      * intro x. rewrite R4. cbn [pending_deact set_pending_act]. split.
        -- intros [?|(q & Pq & Q & m & I & Sm)]; auto. right. exists q. split; auto. split; auto. exists m. split; auto. right. auto.
        -- intros [?|(q & Pq & Q & m & [I|I] & Sm)]; auto; [discriminate I|]. right. exists q. split; auto. split; auto. exists m; auto.
  - specialize (IH s V H). destruct (add_pending argv s) as [[s' rest] e].
    destruct IH as (V' & H' & F1 & F2 & F3 & R). do 5 (split; auto).
    assert (N1 : forall m, a <> arg_with m) by (intros m Q; apply strip_prefix_Some in Q; fold with_prefix in Q; congruence).
    assert (N2 : forall m, a <> arg_without m) by (intros m Q; apply strip_prefix_Some in Q; fold without_prefix in Q; congruence).
    destruct e as [e|].
    + destruct R as (-> & m & I & N). split; auto. exists m. split; [|exact N]. simpl. tauto.
    + destruct R as (R1 & R2 & R3 & R4). split; [|split; [|split]].
      * simpl. unfold starts at 1 2. rewrite S1, S2. simpl. f_equal. exact R1.
      * intros m [[Q|I]|[Q|I]]; [destruct (N1 _ Q)|apply R2; auto|destruct (N2 _ Q)|apply R2; auto].
      * intro x. rewrite R3. split; (intros [?|(q & Pq & Q & m & I & Sm)]; [left; auto|right; exists q; split; auto; split; auto; exists m; split; auto]).
        -- right. auto.
        -- destruct I as [I|I]; auto. destruct (N1 _ I).
      * intro x. rewrite R4. split; (intros [?|(q & Pq & Q & m & I & Sm)]; [left; auto|right; exists q; split; auto; split; auto; exists m; split; auto]).
        -- right. auto.
        -- destruct I as [I|I]; auto. destruct (N2 _ I).
Qed.

(** ** C103 *)

(** The arguments --with-X and --without-X, after any calls of the manager: they are
    taken from the command line, the rest is kept in its order; each must name an
    installed plugin, by its name or with dashes for the spaces, or UnknownPlugin
    is raised; the named plugins become pending, and nothing is activated yet. *)
Theorem C103_arguments calls argv :
  Forall (uses U) calls ->
  let s := exec_all order calls pm0 in
  let '(s', rest, e) := add_pending argv s in
  active s' = active s /\ handlers s' = handlers s /\ installed s' = installed s
  /\ (e = None <-> forall m, In (arg_with m) argv \/ In (arg_without m) argv -> exists p, has s p /\ stands m p)
  /\ (e = None \/ e = Some UnknownPlugin)
  /\ (e = None ->
      rest = filter (fun a => negb (starts (lit "--with-") a) && negb (starts (lit "--without-") a)) argv
      /\ (forall x, In x (pending_act s') <->
            In x (pending_act s) \/ exists p, has s p /\ p_name p = x /\ asked arg_with argv p)
      /\ (forall x, In x (pending_deact s') <->
            In x (pending_deact s) \/ exists p, has s p /\ p_name p = x /\ asked arg_without argv p)).
Proof.
  intros Us s. assert (V : inv U s) by (apply exec_all_inv; [auto|apply inv0]).
  assert (H : full s) by (apply full_exec_all; [auto|apply inv0|intros n; simpl; congruence]).
  pose proof (add_pending_spec argv s V H) as R. destruct (add_pending argv s) as [[s' rest] e].
  destruct R as (V' & _ & F1 & F2 & F3 & R). do 3 (split; auto). destruct e as [e|].
  - destruct R as (-> & m & I & N). split; [|split; [auto|discriminate]].
    split; [discriminate|]. intro A. destruct (N (A m I)).
  - destruct R as (R1 & R2 & R3 & R4). split; [tauto|]. split; auto.
Qed.

(** An argument that names no installed plugin: UnknownPlugin is raised before any plugin is
    activated, deactivated or configured. *)
Theorem C103_wrong_argument calls argv hook c m :
  Forall (uses U) calls ->
  let s := exec_all order calls pm0 in
  In (arg_with m) argv \/ In (arg_without m) argv ->
  (forall p, has s p -> ~ stands m p) ->
  let '(s', l, e) := start order mark c argv hook s in
  e = Some UnknownPlugin /\ l = [] /\ active s' = active s /\ handlers s' = handlers s /\ installed s' = installed s.
Proof.
  intros Us s I N. pose proof (C103_arguments calls argv Us) as R. cbv zeta in R. fold s in R. unfold start.
  destruct (add_pending argv s) as [[s1 rest] e]. destruct R as (R1 & R2 & R3 & R4 & R5 & _).
  destruct R5 as [->| ->]; [|auto 6].
  destruct (proj1 R4 eq_refl m I) as (p & P & St). destruct (N p P St).
Qed.

(** the state when the pending activations are handled: after the arguments and
    what is done on the hook configure *)
Definition before (argv : list str) (hook : list pop) (s : pm) : pm :=
  exec_all order hook (fst (fst (add_pending argv s))).

Lemma reach_before calls argv hook : Forall (uses U) calls -> Forall (uses U) hook ->
  let s1 := before argv hook (exec_all order calls pm0) in
  inv U s1 /\ full s1 /\ NoDup (map fst (installed s1)).
Proof.
  intros Us Uh s1. set (s := exec_all order calls pm0) in *.
  assert (V : inv U s) by (apply exec_all_inv; [auto|apply inv0]).
  assert (H : full s) by (apply full_exec_all; [auto|apply inv0|intros n; simpl; congruence]).
  pose proof (add_pending_spec argv s V H) as R. unfold s1, before.
  destruct (add_pending argv s) as [[s' rest] e]. destruct R as (V' & H' & F1 & _). cbn [fst].
  split; [apply exec_all_inv; auto|]. split; [apply full_exec_all; auto|].
  apply installed_nodup. rewrite F1. apply installed_nodup. constructor.
Qed.

Lemma start_split c argv hook s s' l : start order mark c argv hook s = (s', l, None) ->
  exists s2, configure_parallel mark c (before argv hook s) = (s2, None)
    /\ activate_pending order s2 = (s', None) /\ l = configured order s'.
Proof.
  unfold start, before. destruct (add_pending argv s) as [[s1 rest] [e|]]; [discriminate|]. cbn [fst].
  destruct (configure_parallel mark c _) as [s2 [e|]]; simpl; [discriminate|].
  destruct (activate_pending order s2) as [s3 [e|]] eqn:E; [discriminate|].
  intro Q. injection Q as <- <-. exists s2. auto.
Qed.

(** When an application has started, exactly those installed plugins are active that
    were active or pending, were not to be deactivated, and whose mode is not
    against the session. *)
Theorem C103_active calls argv hook c s' l :
  Forall (uses U) calls -> Forall (uses U) hook ->
  start order mark c argv hook (exec_all order calls pm0) = (s', l, None) ->
  let s1 := before argv hook (exec_all order calls pm0) in
  installed s' = installed s1
  /\ (forall n, In n (active s') -> exists p, has s1 p /\ p_name p = n)
  /\ forall p, has s1 p ->
     (In (p_name p) (active s') <->
        (In (p_name p) (active s1) \/ In (p_name p) (pending_act s1))
        /\ ~ In (p_name p) (pending_deact s1) /\ ~ kept_out c p).
Proof.
  intros Us Uh E s1. destruct (reach_before calls argv hook Us Uh) as (V & H & N). fold s1 in V, H, N.
  destruct (start_split _ _ _ _ _ _ E) as (s2 & E2 & E3 & _). fold s1 in E2.
  destruct (configure_ok c s1 V N) as (s2' & E2' & V2 & F1 & F2 & F3 & F4 & F5 & F6).
  rewrite E2 in E2'. injection E2' as <-.
  destruct (pending_done s2 s' V2 E3) as (V3 & G1 & G2).
  split; [congruence|]. split.
  - intros n I. pose proof (i_act _ _ V3 _ I) as G. rewrite G1, F1 in G.
    destruct (s_get n (installed s1)) as [[p i]|] eqn:Gn; [|congruence].
    destruct (i_inst _ _ V _ _ _ Gn) as (<- & _). exists p. split; auto. exists i. auto.
  - intros p (i & P). rewrite G2, F3, F4, F6. split.
    + intros (A & B). split; auto. split; [tauto|]. intro K. apply B. right. eauto.
    + intros (A & B & C). split; auto. intros [?|(q & j & G & K)]; auto.
      rewrite P in G. injection G as <- <-. auto.
Qed.

(** Without calls from the hook: in terms of the command line. *)
Theorem C103_started calls argv c s' l :
  Forall (uses U) calls ->
  let s := exec_all order calls pm0 in
  start order mark c argv [] s = (s', l, None) ->
  installed s' = installed s
  /\ (forall n, In n (active s') -> exists p, has s p /\ p_name p = n)
  /\ forall p, has s p ->
     (In (p_name p) (active s') <->
        (In (p_name p) (active s) \/ In (p_name p) (pending_act s) \/ asked arg_with argv p)
        /\ ~ In (p_name p) (pending_deact s) /\ ~ asked arg_without argv p /\ ~ kept_out c p).
Proof.
  intros Us s E. destruct (C103_active calls argv [] c s' l Us (Forall_nil _) E) as (A & B & C).
  pose proof (C103_arguments calls argv Us) as R. cbv zeta in R. fold s in R. unfold before in *. fold s in A, B, C.
  assert (E0 : snd (add_pending argv s) = None).
  { unfold start in E. destruct (add_pending argv s) as [[? ?] [?|]]; [discriminate|auto]. }
  destruct (add_pending argv s) as [[s1 rest] e]. simpl in *. subst e.
  destruct R as (R1 & _ & R2 & _ & _ & R3). destruct (R3 eq_refl) as (_ & R4 & R5).
  assert (Q : forall p, has s1 p <-> has s p) by (intro p; unfold has; rewrite R2; tauto).
  split; [congruence|]. split.
  - intros n I. destruct (B n I) as (p & P & <-). exists p. split; auto. apply Q. auto.
  - intros p P. rewrite (C p) by (apply Q; auto). rewrite R1, R4, R5.
    assert (One : forall f, (exists q, has s q /\ p_name q = p_name p /\ asked f argv q) <-> asked f argv p).
    { intro f. split; [|eauto]. intros (q & (i & Pq) & Qn & K). destruct P as (j & P).
      rewrite Qn, P in Pq. injection Pq as -> _. auto. }
    rewrite !One. tauto.
Qed.

(** It does start, if the plugins are well behaved, the arguments name installed
    plugins, and so do the pending activations. *)
Theorem C103_starts calls argv hook c :
  Forall (uses U) calls -> Forall (uses U) hook -> well_behaved U ->
  let s := exec_all order calls pm0 in
  let s1 := before argv hook s in
  (forall m, In (arg_with m) argv \/ In (arg_without m) argv -> exists p, has s p /\ stands m p) ->
  (forall n, In n (pending_act s1) -> exists p, has s1 p /\ p_name p = n) ->
  exists s' l, start order mark c argv hook s = (s', l, None)
    /\ pending_act s' = [] /\ pending_deact s' = [].
Proof.
  intros Us Uh W s s1 A P. destruct (reach_before calls argv hook Us Uh) as (V & H & N). fold s s1 in V, H, N.
  destruct (configure_ok c s1 V N) as (s2 & E2 & V2 & F1 & F2 & F3 & F4 & F5 & F6).
  destruct (loop1_ok U names W (order (pending_act s2)) s2 V2) as (s3 & E3 & V3 & G1 & G2 & G3 & G4).
  { intros n I. rewrite (order_In order order_perm), F4 in I. destruct (P n I) as (p & (i & Q) & <-). rewrite F1. congruence. }
  destruct (loop2_ok U names W (order (pending_deact s3)) s3 V3) as (s4 & E4 & V4 & K1 & K2 & K3 & K4).
  exists s4, (configured order s4). pose proof (C103_arguments calls argv Us) as R. cbv zeta in R. fold s in R. unfold start.
  unfold s1, before in E2.
  destruct (add_pending argv s) as [[s0 rest] e]. destruct R as (_ & _ & _ & R & _).
  rewrite (proj2 R A). cbn [fst] in E2. rewrite E2. simpl. unfold activate_pending. rewrite E3, E4. split; auto.
  split; apply no_members; intros x I.
  - rewrite K2 in I. apply G3 in I as [I J]. apply J. apply (order_In order order_perm). auto.
  - apply K3 in I as [I J]. apply J. apply (order_In order order_perm). auto.
Qed.

(** configure_from_parsed_args is called once of every active plugin, and of
    nothing else. *)
Theorem C103_configured calls argv hook c s' l :
  Forall (uses U) calls -> Forall (uses U) hook ->
  start order mark c argv hook (exec_all order calls pm0) = (s', l, None) ->
  NoDup l /\ forall o, In o l <-> exists p, o = Some p /\ has s' p /\ In (p_name p) (active s').
Proof.
  intros Us Uh E. destruct (reach_before calls argv hook Us Uh) as (V & H & N).
  destruct (start_split _ _ _ _ _ _ E) as (s2 & E2 & E3 & ->).
  destruct (configure_ok c _ V N) as (s2' & E2' & V2 & F1 & _).
  rewrite E2 in E2'. injection E2' as <-.
  destruct (pending_done s2 s' V2 E3) as (V3 & G1 & G2).
  assert (Z : forall n, In n (order (active s')) -> exists p, instance_by_name n s' = Some p /\ p_name p = n /\ has s' p).
  { intros n I. rewrite (order_In order order_perm) in I. pose proof (i_act _ _ V3 _ I) as G. unfold instance_by_name.
    destruct (s_get n (installed s')) as [[p i]|] eqn:Gn; [|congruence].
    destruct (i_inst _ _ V3 _ _ _ Gn) as (<- & _). exists p. split; auto. split; auto. exists i. auto. }
  unfold configured. split.
  - assert (Nd : NoDup (order (active s'))).
    { eapply Permutation_NoDup; [apply Permutation_sym, order_perm|]. apply (i_nact _ _ V3). }
    clear -Nd Z. induction Nd as [|n l Nl Nd IH]; simpl; constructor.
    + intro I. apply in_map_iff in I as (m & Q & I).
      destruct (Z n (or_introl eq_refl)) as (p & E1 & Q1 & _).
      destruct (Z m (or_intror I)) as (q & E2 & Q2 & _). congruence.
    + apply IH. intros m I. apply Z. right. auto.
  - intro o. rewrite in_map_iff. split.
    + intros (n & <- & I). destruct (Z n I) as (p & -> & Q & P). exists p. split; auto. split; auto.
      rewrite (order_In order order_perm) in I. congruence.
    + intros (p & -> & (i & P) & I). exists (p_name p). unfold instance_by_name. rewrite P. split; auto.
      apply (order_In order order_perm). auto.
Qed.

(** ** Whatever happens *)

(** [q] may be activated from [s] *)
Definition may (s : pm) (l : list str) (d : list str) (q : plugin) : Prop :=
  has s q /\ In (p_name q) l /\ ~ In (p_name q) d.

Lemma loop1_only l s : inv U s -> (forall n, In n l -> exists p, In p U /\ p_name p = n) ->
  let s' := fst (pending_loop1 l s) in
  inv U s' /\ installed s' = installed s
  /\ (forall n, In n (active s') -> In n (active s) \/ exists q, may s l (pending_deact s) q /\ p_name q = n)
  /\ (forall h, In h (handlers s') -> In h (handlers s) \/ exists q, may s l (pending_deact s) q /\ h_plugin h = p_id q).
Proof.
  revert s. induction l as [|n l IH]; intros s V I s'.
  { simpl in s'. subst s'. auto. }
  subst s'. cbn [pending_loop1]. cbv zeta.
  set (s1 := set_pending_act (s_discard n (pending_act s)) s) in *.
  assert (V1 : inv U s1) by (apply inv_discard; auto).
  assert (I' : forall m, In m l -> exists p, In p U /\ p_name p = m) by (intros; apply I; right; auto).
  assert (Mono : forall q, may s l (pending_deact s) q -> may s (n :: l) (pending_deact s) q).
  { intros q (A & B & C). split; auto. split; auto. right. auto. }
  destruct (s_mem n (pending_deact s1)) eqn:M.
  - destruct (IH s1 V1 I') as (W & A & B & C). split; auto. split; auto.
    split; intros x J; [destruct (B x J) as [?|(q & K & Q)]|destruct (C x J) as [?|(q & K & Q)]]; auto;
      right; exists q; split; auto; apply (Mono q K).
  - apply s_mem_false in M. pose proof (activate_inv U (ByName n) s1 V1) as V2.
    pose proof (activate_frame (ByName n) s1) as (A1 & _ & _ & A3).
    destruct (I n (or_introl eq_refl)) as (p & Ip & Q).
    pose proof (by_own_name s1 n p V1 Ip Q) as R.
    assert (A4 : (forall x, In x (active (fst (activate (ByName n) s1))) ->
                    In x (active s) \/ exists q, may s (n :: l) (pending_deact s) q /\ p_name q = x)
              /\ (forall h, In h (handlers (fst (activate (ByName n) s1))) ->
                    In h (handlers s) \/ exists q, may s (n :: l) (pending_deact s) q /\ h_plugin h = p_id q)).
    { unfold activate. rewrite R. change (installed s1) with (installed s).
      destruct (s_get n (installed s)) as [[q i]|] eqn:G; [|split; auto]. cbn [fst].
      destruct (i_inst _ _ V _ _ _ G) as (Qn & _).
      assert (Mq : may s (n :: l) (pending_deact s) q).
      { split; [exists i; rewrite Qn; auto|]. split; [left; auto|]. rewrite Qn. exact M. }
      destruct (p_act_fails q); [split; auto|].
      assert (Hn : forall h, In h (noop_regs q) -> h_plugin h = p_id q).
      { intros h J. apply in_map_iff in J as (k & <- & _). auto. }
      assert (Hm : forall h, In h (method_regs q) -> h_plugin h = p_id q).
      { intros h J. unfold method_regs in J. apply in_app_iff in J as [J|J].
        - apply in_map_iff in J as (k & <- & _). auto.
        - destruct (p_end_only q); [destruct J as [<-|[]]; auto|destruct J]. }
      destruct (p_unknown q); cbn [fst active handlers set_active set_handlers set_pending_act s1].
      - split; auto. intros h J. rewrite in_app_iff in J. destruct J as [J|J]; auto. right. exists q. split; auto.
      - split.
        + intros x J. apply s_add_In in J as [->|J]; auto. right. exists q. auto.
        + intros h J. rewrite !in_app_iff in J. destruct J as [[J|J]|J]; auto; right; exists q; split; auto. }
    destruct A4 as [A4 A5].
    destruct (activate (ByName n) s1) as [s2 [e|]] eqn:E; cbn [fst] in *; [auto|].
    destruct (IH s2 V2 I') as (W & A & B & C). split; auto. split; [rewrite A, A1; auto|].
    assert (Mq : forall q, may s2 l (pending_deact s2) q -> may s (n :: l) (pending_deact s) q).
    { intros q (X & Y & Z). apply Mono. split; [|split; auto].
      - unfold has in *. rewrite A1 in X. auto.
      - rewrite A3 in Z. auto. }
    split; intros x J; [destruct (B x J) as [?|(q & K & Qx)]|destruct (C x J) as [?|(q & K & Qx)]]; auto;
      right; exists q; split; auto.
Qed.

Lemma loop2_only l s :
  let s' := fst (pending_loop2 l s) in
  (forall n, In n (active s') -> In n (active s)) /\ (forall h, In h (handlers s') -> In h (handlers s)).
Proof.
  revert s. induction l as [|n l IH]; intros s s'.
  { simpl in s'. subst s'. auto. }
  subst s'. cbn [pending_loop2]. cbv zeta.
  set (s1 := set_pending_deact (s_discard n (pending_deact s)) s) in *.
  destruct (s_mem n (active s1)); [|apply (IH s1)].
  assert (A : (forall x, In x (active (fst (deactivate (ByName n) s1))) -> In x (active s))
            /\ (forall h, In h (handlers (fst (deactivate (ByName n) s1))) -> In h (handlers s))).
  { unfold deactivate. destruct (get_installed (ByName n) s1) as [p|]; [|split; auto].
    destruct (s_mem (p_name p) (active s1)); [|split; auto]. cbn [fst active handlers set_active set_handlers].
    split; intros x J.
    - apply s_discard_In in J as [_ J]. auto.
    - apply filter_In in J as [J _]. auto. }
  destruct A as [A B]. destruct (deactivate (ByName n) s1) as [s2 [e|]]; cbn [fst] in *; [auto|].
  destruct (IH s2) as [C D]. split; auto.
Qed.

(** Also when the start fails: only pending plugins that are not to be deactivated and
    whose mode is not against the session have become active, and only they have new
    registrations. *)
Theorem C103_only calls argv hook c s' l e :
  Forall (uses U) calls -> Forall (uses U) hook ->
  let s := exec_all order calls pm0 in
  let s1 := before argv hook s in
  start order mark c argv hook s = (s', l, e) ->
  snd (add_pending argv s) = None ->
  (forall n, In n (active s') -> In n (active s1)
     \/ exists q, p_name q = n /\ has s1 q /\ In n (pending_act s1) /\ ~ In n (pending_deact s1) /\ ~ kept_out c q)
  /\ (forall h, In h (handlers s') -> In h (handlers s1)
     \/ exists q, h_plugin h = p_id q /\ has s1 q /\ In (p_name q) (pending_act s1)
                  /\ ~ In (p_name q) (pending_deact s1) /\ ~ kept_out c q).
Proof.
  intros Us Uh s s1 E E0. destruct (reach_before calls argv hook Us Uh) as (V & H & N). fold s s1 in V, H, N.
  destruct (configure_ok c s1 V N) as (s2 & E2 & V2 & F1 & F2 & F3 & F4 & F5 & F6).
  unfold start in E. unfold s1, before in E2.
  assert (Q : fst (fst (start order mark c argv hook s)) = s'
              /\ fst (activate_pending order s2) = s').
  { unfold start. destruct (add_pending argv s) as [[s0 rest] [?|]]; [discriminate|]. cbn [fst] in E2.
    rewrite E2 in *. simpl in *. destruct (activate_pending order s2) as [s3 [?|]]; injection E as <- _ _; auto. }
  destruct Q as [_ Q]. clear E E0 E2.
  assert (B : forall n, In n (order (pending_act s2)) -> exists p, In p U /\ p_name p = n).
  { intros n I. rewrite (order_In order order_perm) in I. apply (i_pa _ _ V2). auto. }
  destruct (loop1_only _ s2 V2 B) as (_ & _ & A1 & A2).
  assert (Mq : forall q, may s2 (order (pending_act s2)) (pending_deact s2) q ->
      has s1 q /\ In (p_name q) (pending_act s1) /\ ~ In (p_name q) (pending_deact s1) /\ ~ kept_out c q).
  { intros q (X & Y & Z). unfold has in X. rewrite F1 in X. rewrite (order_In order order_perm), F4 in Y.
    rewrite F6 in Z. split; [exact X|]. split; auto. split; [tauto|]. intro K. apply Z. right.
    destruct X as (i & X). eauto. }
  assert (P : (forall n, In n (active s') -> In n (active (fst (pending_loop1 (order (pending_act s2)) s2))))
            /\ forall h, In h (handlers s') -> In h (handlers (fst (pending_loop1 (order (pending_act s2)) s2)))).
  { subst s'. unfold activate_pending. destruct (pending_loop1 _ s2) as [s3 [?|]]; cbn [fst]; [auto|].
    apply (loop2_only (order (pending_deact s3)) s3). }
  destruct P as [P1 P2]. split.
  - intros n I. destruct (A1 n (P1 n I)) as [J|(q & K & <-)]; [left; congruence|].
    right. exists q. split; auto.
  - intros h I. destruct (A2 h (P2 h I)) as [J|(q & K & R)]; [left; congruence|].
    right. exists q. split; auto.
Qed.
End Univ.

(** ** Cases *)

Definition pN := plug 3 "notify" [3].
Definition pCi := plug 4 "ci links" [5].
Definition pBad : plugin := mkPlugin 5 (lit "bad") 5 [] [] false false true false.
Definition exmark (p : plugin) : option mode :=
  if Nat.eqb (p_id p) 3 then Some ParentOnly else if Nat.eqb (p_id p) 4 then Some ChildOnly else None.
Definition excalls : list pop :=
  [OInstall pN true false false; OInstall pCi false false false; OInstall pA false false false].
Definition worker1 := mkPconf 2 (Some (lit "1")).
Definition parent2 := mkPconf 2 None.
Definition alone := mkPconf 0 None.
Definition exargv := [lit "--with-ci-links"; lit "x.py"; lit "--with-a-b"; lit "-v"].

Example C103_ex_universe : distinct_names [pN; pCi; pA] /\ well_behaved [pN; pCi; pA] /\ Forall (uses [pN; pCi; pA]) excalls.
Proof.
  split; [|split].
  - intros p q [<-|[<-|[<-|[]]]] [<-|[<-|[<-|[]]]] H; auto; vm_compute in H; discriminate.
  - intros p [<-|[<-|[<-|[]]]]; auto.
  - repeat (apply Forall_cons; [simpl; tauto|]). apply Forall_nil.
Qed.

(** the same command line in a worker, in its parent, and without workers *)
Example C103_ex_sessions :
  let s := exec_all ident excalls pm0 in
  add_pending exargv s = (fst (fst (add_pending exargv s)), [lit "x.py"; lit "-v"], None)
  /\ active (fst (fst (start ident exmark worker1 exargv [] s))) = [lit "ci links"; lit "a b"]
  /\ snd (fst (start ident exmark worker1 exargv [] s)) = [Some pCi; Some pA]
  /\ active (fst (fst (start ident exmark parent2 exargv [] s))) = [lit "notify"; lit "a b"]
  /\ active (fst (fst (start ident exmark alone exargv [] s))) = [lit "notify"; lit "ci links"; lit "a b"].
Proof. vm_compute. auto. Qed.

Example C103_ex_unknown :
  snd (start ident exmark alone [lit "--with-a b"; lit "--without-a-bc"] [] (exec_all ident excalls pm0)) = Some UnknownPlugin
  /\ forall p, has (exec_all ident excalls pm0) p -> ~ stands (lit "a-bc") p.
Proof.
  split; [reflexivity|]. intros p (i & G) St. apply In_of_get in G. vm_compute in G.
  destruct G as [G|[G|[G|[]]]]; injection G as _ <-; destruct St as [St|St]; vm_compute in St; discriminate.
Qed.

(** A later argument does not overrule an earlier one: --without-X wins. *)
Theorem C103_last_refuted :
  exists calls argv m s' l, Forall (uses [pN; pCi; pA]) calls
    /\ argv = [arg_without m; arg_with m]
    /\ start ident exmark alone argv [] (exec_all ident calls pm0) = (s', l, None)
    /\ In (p_name pA) (pending_act (fst (fst (add_pending argv (exec_all ident calls pm0)))))
    /\ stands m pA /\ ~ In (p_name pA) (active s').
Proof.
  exists excalls, [arg_without (lit "a-b"); arg_with (lit "a-b")], (lit "a-b").
  eexists. eexists. split; [apply C103_ex_universe|]. split; [reflexivity|]. split; [vm_compute; reflexivity|].
  split; [left; reflexivity|]. split; [right; reflexivity|]. simpl. intros [H|[]]. discriminate.
Qed.

(** A worker that is not told the number of workers has the parent's plugins. *)
Theorem C103_worker_refuted :
  exists calls c s' l, Forall (uses [pN; pCi; pA]) calls /\ worker_id c <> None
    /\ start ident exmark c [] [] (exec_all ident calls pm0) = (s', l, None)
    /\ exmark pN = Some ParentOnly /\ In (p_name pN) (active s').
Proof.
  exists excalls, (mkPconf 0 (Some (lit "1"))). eexists. eexists. split; [apply C103_ex_universe|].
  split; [discriminate|]. split; [vm_compute; reflexivity|]. split; [reflexivity|]. left. reflexivity.
Qed.

(** After the start a plugin can be activated against its mode. *)
Theorem C103_later_refuted :
  exists calls c s' l s2, Forall (uses [pN; pCi; pA]) calls
    /\ start ident exmark c [] [] (exec_all ident calls pm0) = (s', l, None)
    /\ kept_out exmark c pN /\ activate (ByObj pN) s' = (s2, None) /\ In (p_name pN) (active s2).
Proof.
  exists excalls, worker1. eexists. eexists. eexists. split; [apply C103_ex_universe|].
  split; [vm_compute; reflexivity|]. split.
  { split; [discriminate|]. right. left. split; [reflexivity|discriminate]. }
  split; [vm_compute; reflexivity|]. vm_compute. auto.
Qed.

(** When another plugin fails to activate, a plugin whose mode is against the session
    stays active, if it was. *)
Theorem C103_failed_refuted :
  exists calls c s' l, Forall (uses [pN; pBad]) calls
    /\ start ident exmark c [] [] (exec_all ident calls pm0) = (s', l, Some UserError)
    /\ kept_out exmark c pN /\ In (p_name pN) (active s').
Proof.
  exists [OInstall pN true false false; OInstall pBad false true false], worker1. eexists. eexists.
  split; [repeat (apply Forall_cons; [simpl; tauto|]); apply Forall_nil|].
  split; [vm_compute; reflexivity|]. split.
  { split; [discriminate|]. right. left. split; [reflexivity|discriminate]. }
  vm_compute. auto.
Qed.

Print Assumptions C103_arguments.
Print Assumptions C103_wrong_argument.
Print Assumptions C103_active.
Print Assumptions C103_started.
Print Assumptions C103_starts.
Print Assumptions C103_configured.
Print Assumptions C103_only.
Print Assumptions C103_last_refuted.
Print Assumptions C103_worker_refuted.
Print Assumptions C103_later_refuted.
Print Assumptions C103_failed_refuted.
