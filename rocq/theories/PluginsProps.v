(** C45, C46, C47: pending activation, restoring of state, registrations of
    plugins. *)

From Coq Require Import List Bool Arith Ascii String Permutation Lia.
From Verif Require Import Str Plugins.
Import ListNotations.

(** ** Dicts and sets of strings *)

Section SD.
Context {V : Type}.
Implicit Types d : list (str * V).

Lemma s_get_set k k' v d : s_get k (s_set k' v d) = if str_eqb k k' then Some v else s_get k d.
Proof.
  induction d as [|[j w] d IH]; simpl.
  - destruct (str_eqb_spec k k'); auto.
  - destruct (str_eqb_spec k' j) as [->|N]; simpl.
    + destruct (str_eqb_spec k j); auto.
    + rewrite IH. destruct (str_eqb_spec k j); destruct (str_eqb_spec k k'); subst; auto; congruence.
Qed.

Lemma s_get_del k k' d : s_get k (s_del k' d) = if str_eqb k k' then None else s_get k d.
Proof.
  induction d as [|[j w] d IH]; simpl.
  - destruct (str_eqb k k'); auto.
  - destruct (str_eqb_spec k' j) as [->|N]; simpl.
    + rewrite IH. destruct (str_eqb_spec k j); auto.
    + rewrite IH. destruct (str_eqb_spec k j); destruct (str_eqb_spec k k'); subst; auto; congruence.
Qed.

Lemma s_get_key k d : In k (map fst d) <-> s_get k d <> None.
Proof.
  induction d as [|[j w] d IH]; simpl; [tauto|].
  destruct (str_eqb_spec k j) as [->|N]; split; intro H; auto; try congruence.
  - destruct H as [->|H]; [congruence|apply IH; auto].
  - right. apply IH. auto.
Qed.
End SD.

Lemma s_mem_In k l : s_mem k l = true <-> In k l.
Proof.
  unfold s_mem. rewrite existsb_exists. split.
  - intros (x & I & Q). destruct (str_eqb_spec k x); subst; auto. discriminate.
  - intro I. exists k. split; auto. destruct (str_eqb_spec k k); congruence.
Qed.

Lemma s_mem_false k l : s_mem k l = false <-> ~ In k l.
Proof. rewrite <- s_mem_In. destruct (s_mem k l); split; congruence. Qed.

Lemma s_add_In x k l : In x (s_add k l) <-> x = k \/ In x l.
Proof.
  unfold s_add. destruct (s_mem k l) eqn:E.
  - apply s_mem_In in E. split; auto. intros [->|]; auto.
  - rewrite in_app_iff. simpl. intuition.
Qed.

Lemma s_discard_In x k l : In x (s_discard k l) <-> x <> k /\ In x l.
Proof.
  unfold s_discard. rewrite filter_In, negb_true_iff. split.
  - intros [I Q]. split; auto. intros ->. destruct (str_eqb_spec k k); congruence.
  - intros [N I]. split; auto. destruct (str_eqb_spec k x); congruence.
Qed.

Lemma s_add_NoDup k l : NoDup l -> NoDup (s_add k l).
Proof.
  intro N. unfold s_add. destruct (s_mem k l) eqn:E; auto. apply s_mem_false in E.
  apply (Permutation_NoDup (Permutation_cons_append l k)). constructor; auto.
Qed.

Lemma s_discard_NoDup k l : NoDup l -> NoDup (s_discard k l).
Proof. apply NoDup_filter. Qed.

Lemma normalize_idem n : normalize (normalize n) = normalize n.
Proof.
  unfold normalize. rewrite map_map. apply map_ext. intro c.
  destruct (Ascii.eqb_spec c " "); [reflexivity|]. destruct (Ascii.eqb_spec c " "); congruence.
Qed.

(** ** The invariant, for plugins of which no two share a command-line name *)

Definition pm0 : pm := mkPm [] [] [] [] [] [].

Definition distinct_names (U : list plugin) : Prop :=
  forall p q, In p U -> In q U -> normalize (p_name p) = normalize (p_name q) -> p = q.
Definition well_behaved (U : list plugin) : Prop :=
  forall p, In p U -> p_act_fails p = false /\ p_unknown p = false /\ p_deact_fails p = false.
Definition uses (U : list plugin) (o : pop) : Prop :=
  match o with OInstall p _ _ _ => In p U | _ => True end.

Section Univ.
Variable U : list plugin.
Hypothesis names : distinct_names U.
Variable order : list str -> list str.
Hypothesis order_perm : forall l, Permutation (order l) l.

Record inv (s : pm) : Prop := {
  i_inst : forall n p i, s_get n (installed s) = Some (p, i) ->
           p_name p = n /\ In p U /\ forallb legal_char n = true;
  i_cmd : forall k n, s_get k (cmd_names s) = Some n -> normalize n = k /\ exists p, In p U /\ p_name p = n;
  i_act : forall n, In n (active s) -> s_get n (installed s) <> None;
  i_nact : NoDup (active s);
  i_pa : forall n, In n (pending_act s) -> exists p, In p U /\ p_name p = n;
  i_npa : NoDup (pending_act s);
  i_npd : NoDup (pending_deact s) }.

Lemma inv0 : inv pm0.
Proof. constructor; simpl; try constructor; try discriminate; try tauto. Qed.

Lemma resolve_name s n p i : inv s -> s_get n (installed s) = Some (p, i) -> get_installed (ByName n) s = Some p.
Proof.
  intros V G. simpl. unfold instance_by_name.
  destruct (s_get n (cmd_names s)) as [m|] eqn:C; [|rewrite G; auto].
  destruct (i_cmd _ V _ _ C) as (Nm & q & Iq & Qm). destruct (i_inst _ V _ _ _ G) as (Qn & Ip & _).
  assert (E : q = p).
  { apply names; auto. rewrite Qm, Qn, Nm. rewrite <- Nm at 2. rewrite normalize_idem. auto. }
  subst q. rewrite <- Qm, Qn, G. auto.
Qed.

Lemma get_installed_sound s r p : inv s -> get_installed r s = Some p ->
  exists i, s_get (p_name p) (installed s) = Some (p, i).
Proof.
  intros V G.
  assert (A : forall n q, instance_by_name n s = Some q -> exists i, s_get (p_name q) (installed s) = Some (q, i)).
  { intros n q H. unfold instance_by_name in H. destruct (s_get n (installed s)) as [[q' i]|] eqn:E; [|discriminate].
    injection H as <-. simpl. destruct (i_inst _ V _ _ _ E) as (-> & _). eauto. }
  destruct r as [n|c|q]; simpl in G.
  - eapply A; eauto.
  - destruct (find _ (installed s)) as [e|]; [|discriminate].
    destruct (instance_by_name _ s) as [q|] eqn:E; [|discriminate].
    destruct (p_id q =? p_id (fst (snd e))); [|discriminate]. injection G as ->. eapply A; eauto.
  - destruct (instance_by_name (p_name q) s) as [q'|] eqn:E; [|discriminate].
    destruct (p_id q' =? p_id q); [|discriminate]. injection G as ->. eapply A; eauto.
Qed.

Lemma resolve_obj s p i : s_get (p_name p) (installed s) = Some (p, i) -> get_installed (ByObj p) s = Some p.
Proof. intro G. simpl. unfold instance_by_name. rewrite G. simpl. rewrite Nat.eqb_refl. auto. Qed.

Lemma inv_handlers h s : inv s -> inv (set_handlers h s).
Proof. intros []. constructor; auto. Qed.

Lemma inv_pending_act l s : inv s -> NoDup l ->
  (forall n, In n l -> exists p, In p U /\ p_name p = n) -> inv (set_pending_act l s).
Proof. intros [] N. constructor; auto. Qed.

Lemma inv_discard n s : inv s -> inv (set_pending_act (s_discard n (pending_act s)) s).
Proof.
  intros V. apply inv_pending_act; auto.
  - apply s_discard_NoDup. destruct V; auto.
  - intros m I. apply s_discard_In in I as [_ I]. apply (i_pa _ V). auto.
Qed.

Lemma inv_pending_deact n s : inv s -> NoDup n -> inv (set_pending_deact n s).
Proof. intros [] N. constructor; auto. Qed.

Lemma activate_inv r s : inv s -> inv (fst (activate r s)).
Proof.
  intro V. unfold activate. destruct (get_installed r s) as [p|] eqn:G; auto.
  destruct (get_installed_sound _ _ _ V G) as (i & E).
  destruct (p_act_fails p); auto. destruct (p_unknown p); simpl; [apply inv_handlers; auto|].
  destruct V. constructor; simpl; auto.
  - intros n I. apply s_add_In in I as [->|I]; auto. congruence.
  - apply s_add_NoDup; auto.
Qed.

Lemma deactivate_inv r s : inv s -> inv (fst (deactivate r s)).
Proof.
  intro V. unfold deactivate. destruct (get_installed r s) as [p|] eqn:G; auto.
  destruct (s_mem (p_name p) (active s)); simpl; auto.
  destruct V. constructor; simpl; auto.
  - intros n I. apply s_discard_In in I as [_ I]; auto.
  - apply s_discard_NoDup; auto.
Qed.

Lemma deactivate_frame r s : installed (fst (deactivate r s)) = installed s
  /\ cmd_names (fst (deactivate r s)) = cmd_names s
  /\ pending_act (fst (deactivate r s)) = pending_act s
  /\ pending_deact (fst (deactivate r s)) = pending_deact s.
Proof.
  unfold deactivate. destruct (get_installed r s) as [p|]; auto.
  destruct (s_mem (p_name p) (active s)); simpl; auto.
Qed.

Lemma activate_frame r s : installed (fst (activate r s)) = installed s
  /\ cmd_names (fst (activate r s)) = cmd_names s
  /\ pending_act (fst (activate r s)) = pending_act s
  /\ pending_deact (fst (activate r s)) = pending_deact s.
Proof.
  unfold activate. destruct (get_installed r s) as [p|]; auto.
  destruct (p_act_fails p); auto. destruct (p_unknown p); simpl; auto.
Qed.

(** what deactivation does to the set of active plugins *)
Lemma deactivate_active r s p : get_installed r s = Some p ->
  forall n, In n (active (fst (deactivate r s))) <-> n <> p_name p /\ In n (active s).
Proof.
  intros G n. unfold deactivate. rewrite G. destruct (s_mem (p_name p) (active s)) eqn:M; simpl.
  - apply s_discard_In.
  - apply s_mem_false in M. split; [|tauto]. intro I. split; auto. intros ->. auto.
Qed.

Lemma uninstall_inv r s : inv s -> inv (fst (uninstall r s)).
Proof.
  intro V. unfold uninstall. destruct (get_installed r s) as [p|] eqn:G; auto.
  destruct (get_installed_sound _ _ _ V G) as (i & E).
  pose proof (deactivate_inv (ByObj p) s V) as V1.
  pose proof (deactivate_active (ByObj p) s p (resolve_obj _ _ _ E)) as A.
  destruct (deactivate (ByObj p) s) as [s1 e]. simpl in V1, A.
  assert (V2 : inv (mkPm (s_del (p_name p) (installed s1)) (s_del (normalize (p_name p)) (cmd_names s1))
                (pending_act s1) (pending_deact s1) (active s1) (handlers s1))).
  { destruct V1. constructor; simpl; auto.
    - intros n q j H. rewrite s_get_del in H. destruct (str_eqb n (p_name p)); [discriminate|eauto].
    - intros k n H. rewrite s_get_del in H. destruct (str_eqb k _); [discriminate|eauto].
    - intros n I. rewrite s_get_del. destruct (str_eqb_spec n (p_name p)) as [->|N]; auto.
      apply A in I as [I _]. congruence. }
  destruct e as [[]|]; simpl; auto.
Qed.

Lemma uninstall_list_inv l s : inv s -> inv (fst (uninstall_list l s)).
Proof.
  revert s. induction l as [|p l IH]; intros s V; simpl; auto.
  pose proof (uninstall_inv (ByObj p) s V) as V1. destruct (uninstall (ByObj p) s) as [s1 [e|]]; simpl in *; auto.
Qed.

Lemma later_inv r s : inv s -> inv (fst (activate_later r s)).
Proof.
  intro V. unfold activate_later. destruct (get_installed r s) as [p|] eqn:G; simpl; auto.
  destruct (get_installed_sound _ _ _ V G) as (i & E). destruct (i_inst _ V _ _ _ E) as (_ & Ip & _).
  apply inv_pending_act; auto.
  - apply s_add_NoDup. destruct V; auto.
  - intros n I. apply s_add_In in I as [->|I]; [eauto|]. apply (i_pa _ V). auto.
Qed.

Lemma dlater_inv r s : inv s -> inv (fst (deactivate_later r s)).
Proof.
  intro V. unfold deactivate_later. destruct (get_installed r s); simpl; auto.
  apply inv_pending_deact; auto. apply s_add_NoDup. destruct V; auto.
Qed.

(** the tables after the first part of install *)
Definition installed1 (p : plugin) (internal : bool) (s : pm) : pm :=
  mkPm (s_set (p_name p) (p, internal) (installed s))
       (s_set (normalize (p_name p)) (p_name p) (cmd_names s))
       (pending_act s) (pending_deact s) (active s) (handlers s).

Lemma installed1_inv p i s : In p U -> forallb legal_char (p_name p) = true -> inv s -> inv (installed1 p i s).
Proof.
  intros Ip L []. constructor; simpl; auto.
  - intros n q j H. rewrite s_get_set in H. destruct (str_eqb_spec n (p_name p)) as [->|N]; [|eauto].
    injection H as <- <-. auto.
  - intros k n H. rewrite s_get_set in H. destruct (str_eqb_spec k (normalize (p_name p))) as [->|N]; [|eauto].
    injection H as <-. eauto.
  - intros n I. rewrite s_get_set. destruct (str_eqb n (p_name p)); [discriminate|auto].
Qed.

Lemma install_inv p a l i s : In p U -> inv s -> inv (fst (install p a l i s)).
Proof.
  intros Ip V. unfold install. destruct (forallb legal_char (p_name p)) eqn:L; simpl; auto.
  fold (installed1 p i s). pose proof (installed1_inv p i s Ip L V) as V1.
  assert (V2 : inv (fst (if a then activate (ByName (p_name p)) (installed1 p i s) else (installed1 p i s, None)))).
  { destruct a; auto. apply activate_inv; auto. }
  destruct (if a then _ else _) as [s2 [[]|]]; simpl in *; auto.
  - pose proof (uninstall_inv (ByObj p) s2 V2) as V3. simpl in V3.
    destruct (uninstall (ByObj p) s2) as [s3 [e|]]; simpl in *; auto.
  - destruct l; auto. apply later_inv; auto.
Qed.

Lemma loop1_inv l s : inv s -> inv (fst (pending_loop1 l s)).
Proof.
  revert s. induction l as [|n l IH]; intros s V; auto. cbn [pending_loop1]. cbv zeta.
  assert (V1 : inv (set_pending_act (s_discard n (pending_act s)) s)).
  { apply inv_discard; auto. }
  destruct (s_mem n _); auto.
  pose proof (activate_inv (ByName n) _ V1) as V2. destruct (activate (ByName n) _) as [s2 [e|]]; simpl in *; auto.
Qed.

Lemma loop2_inv l s : inv s -> inv (fst (pending_loop2 l s)).
Proof.
  revert s. induction l as [|n l IH]; intros s V; auto. cbn [pending_loop2]. cbv zeta.
  assert (V1 : inv (set_pending_deact (s_discard n (pending_deact s)) s)).
  { apply inv_pending_deact; auto. apply s_discard_NoDup. destruct V; auto. }
  destruct (s_mem n _); auto.
  pose proof (deactivate_inv (ByName n) _ V1) as V2. destruct (deactivate (ByName n) _) as [s2 [e|]]; simpl in *; auto.
Qed.

Lemma exec_inv o s : uses U o -> inv s -> inv (fst (exec order o s)).
Proof.
  intros Us V. destruct o; simpl in *.
  - apply install_inv; auto.
  - apply uninstall_inv; auto.
  - apply uninstall_list_inv; auto.
  - apply activate_inv; auto.
  - apply deactivate_inv; auto.
  - apply later_inv; auto.
  - apply dlater_inv; auto.
  - unfold activate_pending. pose proof (loop1_inv (order (pending_act s)) s V) as V1.
    destruct (pending_loop1 _ s) as [s1 [e|]]; simpl in *; auto. apply loop2_inv; auto.
Qed.

Lemma exec_all_inv l s : Forall (uses U) l -> inv s -> inv (exec_all order l s).
Proof.
  revert s. induction l as [|o l IH]; intros s F V; simpl; auto.
  inversion F; subst. apply IH; auto. apply exec_inv; auto.
Qed.

(** ** C45 *)

Section Well.
Hypothesis well : well_behaved U.

Lemma activate_ok n s : inv s -> s_get n (installed s) <> None ->
  exists s', activate (ByName n) s = (s', None) /\ inv s'
    /\ installed s' = installed s /\ pending_act s' = pending_act s /\ pending_deact s' = pending_deact s
    /\ forall x, In x (active s') <-> x = n \/ In x (active s).
Proof.
  intros V I. destruct (s_get n (installed s)) as [[p i]|] eqn:G; [|congruence].
  pose proof (resolve_name _ _ _ _ V G) as R. destruct (i_inst _ V _ _ _ G) as (Q & Ip & _).
  pose proof (activate_inv (ByName n) s V) as V1. pose proof (activate_frame (ByName n) s) as F.
  unfold activate in *. rewrite R in *. destruct (well p Ip) as (W1 & W2 & _). rewrite W1, W2 in *.
  eexists. split; [reflexivity|]. split; [exact V1|]. destruct F as (F1 & F2 & F3 & F4).
  do 3 (split; auto). intro x. simpl. rewrite s_add_In, Q. tauto.
Qed.

Lemma deactivate_ok n s : inv s -> s_get n (installed s) <> None ->
  exists s', deactivate (ByName n) s = (s', None) /\ inv s'
    /\ installed s' = installed s /\ pending_act s' = pending_act s /\ pending_deact s' = pending_deact s
    /\ forall x, In x (active s') <-> x <> n /\ In x (active s).
Proof.
  intros V I. destruct (s_get n (installed s)) as [[p i]|] eqn:G; [|congruence].
  pose proof (resolve_name _ _ _ _ V G) as R. destruct (i_inst _ V _ _ _ G) as (Q & Ip & _).
  pose proof (deactivate_inv (ByName n) s V) as V1. pose proof (deactivate_frame (ByName n) s) as F.
  pose proof (deactivate_active (ByName n) s p R) as A.
  assert (E : snd (deactivate (ByName n) s) = None).
  { unfold deactivate. rewrite R. destruct (well p Ip) as (_ & _ & W). rewrite W.
    destruct (s_mem (p_name p) (active s)); auto. }
  destruct (deactivate (ByName n) s) as [s1 e]. simpl in *. subst e. exists s1. split; auto. split; auto.
  destruct F as (F1 & F2 & F3 & F4). do 3 (split; auto). rewrite <- Q. auto.
Qed.

Lemma loop1_ok l s : inv s -> (forall n, In n l -> s_get n (installed s) <> None) ->
  exists s', pending_loop1 l s = (s', None) /\ inv s' /\ installed s' = installed s
    /\ pending_deact s' = pending_deact s
    /\ (forall x, In x (pending_act s') <-> In x (pending_act s) /\ ~ In x l)
    /\ forall x, In x (active s') <-> In x (active s) \/ (In x l /\ ~ In x (pending_deact s)).
Proof.
  revert s. induction l as [|n l IH]; intros s V I.
  { exists s. simpl. do 4 (split; auto). split; intro x; tauto. }
  cbn [pending_loop1]. cbv zeta.
  set (s1 := set_pending_act (s_discard n (pending_act s)) s).
  assert (V1 : inv s1).
  { apply inv_discard; auto. }
  assert (D : forall a b c : Prop, a <-> b -> (a /\ c <-> b /\ c)) by tauto.
  destruct (s_mem n (pending_deact s1)) eqn:M.
  - apply s_mem_In in M. destruct (IH s1 V1) as (s' & E & V' & F1 & F2 & F3 & F4).
    { intros m J. apply I. right. auto. }
    exists s'. do 4 (split; auto). split; intro x.
    + rewrite F3. unfold s1. simpl. rewrite s_discard_In. intuition congruence.
    + rewrite F4. unfold s1 in *. simpl in *. intuition (subst; tauto).
  - apply s_mem_false in M. destruct (activate_ok n s1 V1) as (s2 & E2 & V2 & A1 & A2 & A3 & A4).
    { apply I. left. auto. }
    rewrite E2. destruct (IH s2 V2) as (s' & E & V' & F1 & F2 & F3 & F4).
    { rewrite A1. intros m J. apply I. right. auto. }
    exists s'. split; auto. split; auto. split; [rewrite F1, A1; auto|]. split; [rewrite F2, A3; auto|].
    split; intro x.
    + rewrite F3, A2. unfold s1. simpl. rewrite s_discard_In. intuition congruence.
    + rewrite F4, A3, A4. unfold s1 in *. simpl in *. intuition (subst; tauto).
Qed.

Lemma loop2_ok l s : inv s ->
  exists s', pending_loop2 l s = (s', None) /\ inv s' /\ installed s' = installed s
    /\ pending_act s' = pending_act s
    /\ (forall x, In x (pending_deact s') <-> In x (pending_deact s) /\ ~ In x l)
    /\ forall x, In x (active s') <-> In x (active s) /\ ~ In x l.
Proof.
  revert s. induction l as [|n l IH]; intros s V.
  { exists s. simpl. do 4 (split; auto). split; intro x; tauto. }
  cbn [pending_loop2]. cbv zeta.
  set (s1 := set_pending_deact (s_discard n (pending_deact s)) s).
  assert (V1 : inv s1).
  { apply inv_pending_deact; auto. apply s_discard_NoDup. destruct V; auto. }
  destruct (s_mem n (active s1)) eqn:M.
  - apply s_mem_In in M. destruct (deactivate_ok n s1 V1) as (s2 & E2 & V2 & A1 & A2 & A3 & A4).
    { apply (i_act _ V1). auto. }
    rewrite E2. destruct (IH s2 V2) as (s' & E & V' & F1 & F2 & F3 & F4).
    exists s'. split; auto. split; auto. split; [rewrite F1, A1; auto|]. split; [rewrite F2, A2; auto|].
    split; intro x.
    + rewrite F3, A3. unfold s1. simpl. rewrite s_discard_In. intuition congruence.
    + rewrite F4, A4. unfold s1 in *. simpl in *. intuition congruence.
  - apply s_mem_false in M. destruct (IH s1 V1) as (s' & E & V' & F1 & F2 & F3 & F4).
    exists s'. do 4 (split; auto). split; intro x.
    + rewrite F3. unfold s1. simpl. rewrite s_discard_In. intuition congruence.
    + rewrite F4. unfold s1 in *. simpl in *. intuition (subst; tauto).
Qed.

Lemma fold_add_In x l a : In x (fold_left (fun l n => s_add n l) l a) <-> In x a \/ In x l.
Proof.
  revert a. induction l as [|n l IH]; intro a; simpl; [tauto|]. rewrite IH, s_add_In. intuition.
Qed.
Lemma fold_discard_In x l a : In x (fold_left (fun l n => s_discard n l) l a) <-> In x a /\ ~ In x l.
Proof.
  revert a. induction l as [|n l IH]; intro a; simpl; [tauto|]. rewrite IH, s_discard_In. intuition.
Qed.

Lemma no_members {A} (l : list A) : (forall x, ~ In x l) -> l = [].
Proof. destruct l; auto. intro H. exfalso. apply (H a). left. auto. Qed.

Lemma order_In x l : In x (order l) <-> In x l.
Proof. split; apply Permutation_in; [|apply Permutation_sym]; apply order_perm. Qed.

(** After any calls of the manager, if get_future_active_plugins gives an answer,
    activate_pending_plugins succeeds, makes exactly the announced plugins active
    and leaves nothing pending.  Partial: for plugins whose own
    activate/deactivate and registrations succeed, and whose names stay
    different when spaces are read as dashes; see [C45_refuted]. *)
Theorem C45_future_partial calls l :
  Forall (uses U) calls ->
  let s := exec_all order calls pm0 in
  get_future_active s = Some l ->
  exists s', activate_pending order s = (s', None)
    /\ (forall n, In n (active s') <-> In n l)
    /\ (forall n, In n l <-> (In n (active s) \/ In n (pending_act s)) /\ ~ In n (pending_deact s))
    /\ pending_act s' = [] /\ pending_deact s' = [] /\ installed s' = installed s.
Proof.
  intros Us s F. assert (V : inv s) by (apply exec_all_inv; [auto|apply inv0]).
  unfold get_future_active in F. destruct (forallb _ (pending_act s)) eqn:A; [|discriminate].
  injection F as <-. rewrite forallb_forall in A.
  destruct (loop1_ok (order (pending_act s)) s V) as (s1 & E1 & V1 & F1 & F2 & F3 & F4).
  { intros n I. rewrite order_In in I. specialize (A n I). destruct (s_get n (installed s)); congruence. }
  destruct (loop2_ok (order (pending_deact s1)) s1 V1) as (s2 & E2 & V2 & G1 & G2 & G3 & G4).
  exists s2. unfold activate_pending. rewrite E1. split; auto. split; [|split; [|split; [|split]]].
  - intro n. rewrite G4, F4, order_In, F2, order_In, fold_discard_In, fold_add_In. tauto.
  - intro n. rewrite fold_discard_In, fold_add_In. tauto.
  - apply no_members. intros x I. rewrite G2 in I. apply F3 in I as [I N]. apply N. apply order_In. auto.
  - apply no_members. intros x I. apply G3 in I as [I N]. apply N. apply order_In. auto.
  - rewrite G1. auto.
Qed.

(** ** C46 *)

Lemma install_ok p s : inv s -> In p U -> forallb legal_char (p_name p) = true ->
  install p false false false s = (installed1 p false s, None).
Proof. intros V I L. unfold install. rewrite L. auto. Qed.

Lemma uninstall_ok n s : inv s -> s_get n (installed s) <> None ->
  exists s', uninstall (ByName n) s = (s', None) /\ inv s'
    /\ (forall x, s_get x (installed s') = if str_eqb x n then None else s_get x (installed s))
    /\ forall x, In x (active s') <-> x <> n /\ In x (active s).
Proof.
  intros V I. destruct (s_get n (installed s)) as [[p i]|] eqn:G; [|congruence].
  pose proof (resolve_name _ _ _ _ V G) as R. destruct (i_inst _ V _ _ _ G) as (Q & Ip & _).
  pose proof (uninstall_inv (ByName n) s V) as V1.
  unfold uninstall in *. rewrite R in *.
  assert (G' : s_get (p_name p) (installed s) = Some (p, i)) by (rewrite Q; auto).
  pose proof (deactivate_active (ByObj p) s p (resolve_obj _ _ _ G')) as A.
  pose proof (deactivate_frame (ByObj p) s) as (F1 & _).
  assert (E : snd (deactivate (ByObj p) s) = None).
  { unfold deactivate. rewrite (resolve_obj _ _ _ G'). destruct (well p Ip) as (_ & _ & W). rewrite W.
    destruct (s_mem (p_name p) (active s)); auto. }
  destruct (deactivate (ByObj p) s) as [s1 e]. simpl in *. subst e.
  eexists. split; [reflexivity|]. split; [exact V1|]. simpl. split.
  - intro x. rewrite s_get_del, F1, Q. auto.
  - intro x. rewrite A, Q. tauto.
Qed.

(** every step of a loop succeeds *)
Lemma each_activate l s : inv s -> (forall n, In n l -> s_get n (installed s) <> None) ->
  exists s', each (fun n => activate (ByName n)) l s = (s', None) /\ inv s' /\ installed s' = installed s
    /\ forall x, In x (active s') <-> In x (active s) \/ In x l.
Proof.
  revert s. induction l as [|n l IH]; intros s V I; simpl.
  { exists s. do 3 (split; auto). intro x. tauto. }
  destruct (activate_ok n s V) as (s2 & E2 & V2 & A1 & _ & _ & A4); [apply I; left; auto|].
  simpl in E2. rewrite E2. destruct (IH s2 V2) as (s' & E & V' & F1 & F2).
  { rewrite A1. intros; apply I; right; auto. }
  exists s'. split; auto. split; auto. split; [congruence|]. intro x. rewrite F2, A4. intuition.
Qed.

Lemma each_deactivate l s : inv s -> (forall n, In n l -> s_get n (installed s) <> None) ->
  exists s', each (fun n => deactivate (ByName n)) l s = (s', None) /\ inv s' /\ installed s' = installed s
    /\ forall x, In x (active s') <-> In x (active s) /\ ~ In x l.
Proof.
  revert s. induction l as [|n l IH]; intros s V I; simpl.
  { exists s. do 3 (split; auto). intro x. tauto. }
  destruct (deactivate_ok n s V) as (s2 & E2 & V2 & A1 & _ & _ & A4); [apply I; left; auto|].
  simpl in E2. rewrite E2. destruct (IH s2 V2) as (s' & E & V' & F1 & F2).
  { rewrite A1. intros; apply I; right; auto. }
  exists s'. split; auto. split; auto. split; [congruence|]. intro x. rewrite F2, A4. intuition.
Qed.

Lemma each_uninstall l s : inv s -> NoDup l -> (forall n, In n l -> s_get n (installed s) <> None) ->
  exists s', each (fun n => uninstall (ByName n)) l s = (s', None) /\ inv s'
    /\ (forall x, s_get x (installed s') = if s_mem x l then None else s_get x (installed s))
    /\ forall x, In x (active s') <-> In x (active s) /\ ~ In x l.
Proof.
  revert s. induction l as [|n l IH]; intros s V N I; simpl.
  { exists s. do 3 (split; auto). intro x. tauto. }
  apply NoDup_cons_iff in N as [Nn N].
  destruct (uninstall_ok n s V) as (s2 & E2 & V2 & A1 & A4); [apply I; left; auto|].
  simpl in E2. rewrite E2. destruct (IH s2 V2 N) as (s' & E & V' & F1 & F2).
  { intros m J. rewrite A1. destruct (str_eqb_spec m n) as [->|]; [contradiction|apply I; right; auto]. }
  exists s'. split; auto. split; auto. split; intro x.
  - rewrite F1, A1. destruct (str_eqb x n); simpl; auto. destruct (s_mem x l); auto.
  - rewrite F2, A4. intuition.
Qed.

Lemma each_install s0 l s : inv s0 -> inv s -> (forall n, In n l -> s_get n (installed s0) <> None) ->
  exists s', each (fun n s => match s_get n (installed s0) with
                              | Some e => install (fst e) false false false s
                              | None => (s, Some KeyErr)
                              end) l s = (s', None) /\ inv s' /\ active s' = active s
    /\ (forall x, instance_by_name x s' = if s_mem x l then instance_by_name x s0 else instance_by_name x s).
Proof.
  revert s. induction l as [|n l IH]; intros s V0 V I; simpl.
  { exists s. do 3 (split; auto). }
  destruct (s_get n (installed s0)) as [[p i]|] eqn:G; [|exfalso; apply (I n); auto; left; auto].
  destruct (i_inst _ V0 _ _ _ G) as (Q & Ip & L).
  simpl fst. rewrite install_ok; auto; [|rewrite Q; auto].
  destruct (IH (installed1 p false s)) as (s' & E & V' & F1 & F2); auto.
  { apply installed1_inv; auto. rewrite Q; auto. }
  { intros; apply I; right; auto. }
  exists s'. split; auto. split; auto. split; [rewrite F1; auto|]. intro x. rewrite F2.
  unfold instance_by_name at 2 3. simpl. rewrite s_get_set, Q. destruct (str_eqb_spec x n) as [->|N]; simpl.
  - unfold instance_by_name. rewrite G. destruct (s_mem n l); auto.
  - destruct (s_mem x l); auto.
Qed.

Lemma sdiff_In x a b : In x (sdiff order a b) <-> In x a /\ ~ In x b.
Proof.
  unfold sdiff. rewrite order_In, filter_In, negb_true_iff, s_mem_false. tauto.
Qed.

Lemma instance_key x s : instance_by_name x s <> None <-> In x (map fst (installed s)).
Proof.
  rewrite s_get_key. unfold instance_by_name. destruct (s_get x (installed s)); simpl; split; congruence.
Qed.

(** keys of the table of installed plugins are distinct (it is a dict) *)
Lemma set_keys_nodup {V} k (v : V) d : NoDup (map fst d) -> NoDup (map fst (s_set k v d)).
Proof.
  induction d as [|[j w] d IH]; simpl; intro N; [repeat constructor; auto|].
  apply NoDup_cons_iff in N as [Nj N]. destruct (str_eqb_spec k j) as [->|Nk]; simpl; constructor; auto.
  intro I. apply Nj. apply s_get_key in I. apply s_get_key. rewrite s_get_set in I.
  destruct (str_eqb_spec j k); congruence.
Qed.
Lemma del_keys_nodup {V} k (d : list (str * V)) : NoDup (map fst d) -> NoDup (map fst (s_del k d)).
Proof.
  induction d as [|[j w] d IH]; simpl; intro N; auto.
  apply NoDup_cons_iff in N as [Nj N]. destruct (str_eqb_spec k j) as [->|Nk]; simpl; auto. constructor; auto.
  intro I. apply Nj. apply s_get_key in I. apply s_get_key. rewrite s_get_del in I.
  destruct (str_eqb_spec j k); congruence.
Qed.

Lemma installed_nodup_exec o s :
  NoDup (map fst (installed s)) -> NoDup (map fst (installed (fst (exec order o s)))).
Proof.
  assert (D : forall r s, NoDup (map fst (installed s)) -> NoDup (map fst (installed (fst (deactivate r s))))).
  { intros r s0 N. rewrite (proj1 (deactivate_frame r s0)). auto. }
  assert (A : forall r s, NoDup (map fst (installed s)) -> NoDup (map fst (installed (fst (activate r s))))).
  { intros r s0 N. rewrite (proj1 (activate_frame r s0)). auto. }
  assert (Un : forall r s, NoDup (map fst (installed s)) -> NoDup (map fst (installed (fst (uninstall r s))))).
  { intros r s0 N. unfold uninstall. destruct (get_installed r s0) as [p|]; auto.
    specialize (D (ByObj p) s0 N). destruct (deactivate (ByObj p) s0) as [s1 [[]|]]; simpl in *; auto;
      apply del_keys_nodup; auto. }
  assert (La : forall r s, NoDup (map fst (installed s)) -> NoDup (map fst (installed (fst (activate_later r s))))).
  { intros r s0 N. unfold activate_later. destruct (get_installed r s0) as [p|]; auto. }
  intro N. destruct o; simpl; auto.
  - unfold install. destruct (forallb legal_char (p_name p)); simpl; auto. fold (installed1 p internal s).
    assert (N1 : NoDup (map fst (installed (installed1 p internal s)))) by (apply set_keys_nodup; auto).
    assert (N2 : NoDup (map fst (installed (fst (if act then activate (ByName (p_name p)) (installed1 p internal s)
                                                 else (installed1 p internal s, None)))))).
    { destruct act; auto. }
    destruct (if act then _ else _) as [s2 [[]|]]; simpl in *; auto.
    + specialize (Un (ByObj p) s2 N2). simpl in Un. destruct (uninstall (ByObj p) s2) as [s3 [e|]]; simpl in *; auto.
    + destruct later; auto.
  - unfold uninstall_all. revert N. generalize (map (fun e => fst (snd e)) (installed s)) as l.
    intro l. revert s. induction l as [|p l IH]; intros s N; simpl; auto.
    specialize (Un (ByObj p) s N). destruct (uninstall (ByObj p) s) as [s1 [e|]]; simpl in *; auto.
  - unfold deactivate_later. destruct (get_installed r s); auto.
  - unfold activate_pending.
    assert (L1 : forall l s, NoDup (map fst (installed s)) -> NoDup (map fst (installed (fst (pending_loop1 l s))))).
    { induction l as [|n l IH]; intros s0 N0; auto. cbn [pending_loop1]. cbv zeta.
      destruct (s_mem n _); [apply IH; auto|].
      specialize (A (ByName n) (set_pending_act (s_discard n (pending_act s0)) s0) N0).
      destruct (activate (ByName n) _) as [s2 [e|]]; simpl in *; auto. }
    assert (L2 : forall l s, NoDup (map fst (installed s)) -> NoDup (map fst (installed (fst (pending_loop2 l s))))).
    { induction l as [|n l IH]; intros s0 N0; auto. cbn [pending_loop2]. cbv zeta.
      destruct (s_mem n _); [|apply IH; auto].
      specialize (D (ByName n) (set_pending_deact (s_discard n (pending_deact s0)) s0) N0).
      destruct (deactivate (ByName n) _) as [s2 [e|]]; simpl in *; auto. }
    specialize (L1 (order (pending_act s)) s N). destruct (pending_loop1 _ s) as [s1 [e|]]; simpl in *; auto.
Qed.

Lemma installed_nodup l s :
  NoDup (map fst (installed s)) -> NoDup (map fst (installed (exec_all order l s))).
Proof.
  revert s. induction l as [|o l IH]; intros s N; simpl; auto. apply IH. apply installed_nodup_exec; auto.
Qed.

(** Whatever calls are made in the body, after restoring_state_context the
    installed plugins (name and object) and the set of active plugins are those
    at entry.  Partial: for plugins that are well behaved and whose names stay
    different when spaces are read as dashes; see [C46_refuted] and
    [C46_object_refuted]. *)
Theorem C46_restored_partial calls body :
  Forall (uses U) calls -> Forall (uses U) body ->
  let s := exec_all order calls pm0 in
  exists s', in_context order body s = (s', None)
    /\ (forall n, instance_by_name n s' = instance_by_name n s)
    /\ (forall n, In n (active s') <-> In n (active s)).
Proof.
  intros Uc Ub s0. assert (V0 : inv s0) by (apply exec_all_inv; [auto|apply inv0]).
  set (s := exec_all order body s0). assert (V : inv s) by (apply exec_all_inv; auto).
  assert (ND : NoDup (map fst (installed s))).
  { apply installed_nodup. apply installed_nodup. constructor. }
  assert (Unq : forall x p q a b, inv a -> inv b -> instance_by_name x a = Some p -> instance_by_name x b = Some q -> p = q).
  { intros x p q a b Va Vb Ha Hb. unfold instance_by_name in *.
    destruct (s_get x (installed a)) as [[p' i]|] eqn:Ga; [|discriminate].
    destruct (s_get x (installed b)) as [[q' j]|] eqn:Gb; [|discriminate].
    injection Ha as ->. injection Hb as ->.
    destruct (i_inst _ Va _ _ _ Ga) as (Q1 & I1 & _). destruct (i_inst _ Vb _ _ _ Gb) as (Q2 & I2 & _).
    apply names; auto. rewrite Q1, Q2. auto. }
  unfold in_context, restore. fold s.
  destruct (each_install s0 (sdiff order (map fst (installed s0)) (map fst (installed s))) s V0 V)
    as (s1 & E1 & V1 & A1 & B1).
  { intros n I. apply sdiff_In in I as [I _]. apply s_get_key. auto. }
  rewrite E1. simpl bind.
  assert (K1 : forall x, In x (map fst (installed s1)) <-> In x (map fst (installed s0)) \/ In x (map fst (installed s))).
  { intro x. rewrite <- !instance_key. rewrite B1.
    destruct (s_mem x (sdiff order (map fst (installed s0)) (map fst (installed s)))) eqn:M.
    - apply s_mem_In, sdiff_In in M as [M1 M2]. apply instance_key in M1. rewrite <- instance_key in M2. tauto.
    - apply s_mem_false in M. rewrite sdiff_In in M. rewrite <- !instance_key in M.
      destruct (instance_by_name x s); [|destruct (instance_by_name x s0)]; intuition congruence. }
  destruct (each_activate (sdiff order (active s0) (active s1)) s1 V1) as (s2 & E2 & V2 & B2 & A2).
  { intros n I. apply sdiff_In in I as [I _]. apply s_get_key. apply K1. left. apply s_get_key. apply (i_act _ V0). auto. }
  simpl in E2. rewrite E2. simpl bind.
  destruct (each_deactivate (sdiff order (active s2) (active s0)) s2 V2) as (s3 & E3 & V3 & B3 & A3).
  { intros n I. apply sdiff_In in I as [I _]. apply (i_act _ V2). auto. }
  simpl in E3. rewrite E3. simpl bind.
  assert (ND3 : NoDup (sdiff order (map fst (installed s3)) (map fst (installed s0)))).
  { apply (Permutation_NoDup (Permutation_sym (order_perm _))). apply NoDup_filter. rewrite B3, B2.
    clear - E1 ND.
    assert (G : forall l s s1, NoDup (map fst (installed s)) ->
      each (fun n s => match s_get n (installed s0) with
                              | Some e => install (fst e) false false false s
                              | None => (s, Some KeyErr)
                              end) l s = (s1, None) -> NoDup (map fst (installed s1))).
    { induction l as [|n l IH]; intros t t1 N E; cbn [each] in E; [injection E as <-; auto|].
      destruct (s_get n (installed s0)) as [e|]; [|discriminate].
      pose proof (installed_nodup_exec (OInstall (fst e) false false false) t N) as N1.
      unfold exec in N1. destruct (install (fst e) false false false t) as [t2 [er|]]; [discriminate|].
      eapply IH; eauto. }
    eapply G; eauto. }
  destruct (each_uninstall _ s3 V3 ND3) as (s4 & E4 & V4 & B4 & A4).
  { intros n I. apply sdiff_In in I as [I _]. apply s_get_key. auto. }
  simpl in E4. rewrite E4. exists s4. split; auto. split.
  - intro n.
    assert (H3 : instance_by_name n s3 = instance_by_name n s1) by (unfold instance_by_name; rewrite B3, B2; auto).
    assert (H4 : instance_by_name n s4 = if s_mem n (sdiff order (map fst (installed s3)) (map fst (installed s0)))
                                         then None else instance_by_name n s3).
    { unfold instance_by_name. rewrite B4. destruct (s_mem n _); auto. }
    rewrite H4. destruct (s_mem n _) eqn:M.
    + apply s_mem_In, sdiff_In in M as [_ M]. rewrite <- instance_key in M.
      destruct (instance_by_name n s0); auto. exfalso. apply M. congruence.
    + apply s_mem_false in M. rewrite sdiff_In in M. rewrite <- !instance_key in M. rewrite H3 in *.
      destruct (instance_by_name n s1) as [p|] eqn:P1; destruct (instance_by_name n s0) as [q|] eqn:P0; auto.
      * f_equal. eapply (Unq n p q s1 s0); auto.
      * exfalso. apply M. split; congruence.
      * exfalso. assert (In n (map fst (installed s1))).
        { apply K1. left. apply instance_key. congruence. }
        apply instance_key in H. congruence.
  - intro n. rewrite A4, A3, sdiff_In, sdiff_In, A2, sdiff_In.
    assert (I0 : In n (active s0) -> In n (map fst (installed s0))).
    { intro I. apply s_get_key. apply (i_act _ V0). auto. }
    destruct (in_dec (list_eq_dec ascii_dec) n (active s0)); destruct (in_dec (list_eq_dec ascii_dec) n (active s1)); tauto.
Qed.
End Well.
End Univ.

(** ** C47 *)

Definition hkind_eqb (a b : hkind) : bool :=
  match a, b with KMethod, KMethod | KLambda, KLambda | KNoOp, KNoOp => true | _, _ => false end.

(** how many times a method of plugin [p] is registered on hook [h] *)
Definition registered (h : nat) (p : plugin) (s : pm) : nat :=
  List.length (filter (fun x => Nat.eqb (h_hook x) h && Nat.eqb (h_plugin x) (p_id p)
                           && hkind_eqb (h_kind x) KMethod) (handlers s)).
(** how many registrations on [h] the plugin asks for *)
Definition wanted (h : nat) (p : plugin) : nat := count_occ Nat.eq_dec (p_hooks p) h.

(** the call does not activate a plugin that is active already *)
Definition no_double (o : pop) (s : pm) : Prop :=
  match o with
  | OInstall p true _ _ => ~ In (p_name p) (active s)
  | OActivate r => forall p, get_installed r s = Some p -> ~ In (p_name p) (active s)
  | OActivatePending => forall n, In n (pending_act s) -> ~ In n (active s)
  | _ => True
  end.

Section Reg.
Variable U : list plugin.
Hypothesis names : distinct_names U.
Hypothesis ids : forall p q, In p U -> In q U -> p_id p = p_id q -> p = q.
Variable order : list str -> list str.
Hypothesis order_perm : forall l, Permutation (order l) l.

Fixpoint never_double (l : list pop) (s : pm) : Prop :=
  match l with
  | [] => True
  | o :: l' => no_double o s /\ never_double l' (fst (exec order o s))
  end.

Definition reg_ok (s : pm) : Prop :=
  (forall p h, In p U -> registered h p s = if s_mem (p_name p) (active s) then wanted h p else 0)
  /\ forall x, In x (handlers s) -> h_kind x = KMethod ->
       exists p, In p U /\ h_plugin x = p_id p /\ h_token x = Some (p_name p).

(** the same count on a list of registrations *)
Definition count_regs (h : nat) (p : plugin) (l : list handler) : nat :=
  List.length (filter (fun x => Nat.eqb (h_hook x) h && Nat.eqb (h_plugin x) (p_id p)
                           && hkind_eqb (h_kind x) KMethod) l).

Lemma count_app h p a b : count_regs h p (a ++ b) = count_regs h p a + count_regs h p b.
Proof. unfold count_regs. rewrite filter_app, app_length. auto. Qed.

Lemma count_noop h p q : count_regs h p (noop_regs q) = 0.
Proof.
  unfold count_regs, noop_regs. induction (p_noops q); simpl; auto. rewrite andb_false_r. auto.
Qed.

Lemma count_method h p q : In p U -> In q U ->
  count_regs h p (method_regs q) = if str_eqb (p_name p) (p_name q) then wanted h p else 0.
Proof.
  intros Ip Iq. unfold method_regs. rewrite count_app.
  assert (E0 : count_regs h p (if p_end_only q then [mkHandler 0 (p_id q) KLambda None] else []) = 0).
  { destruct (p_end_only q); auto. unfold count_regs. simpl. rewrite andb_false_r. auto. }
  rewrite E0, Nat.add_0_r. unfold wanted, count_regs.
  destruct (str_eqb_spec (p_name p) (p_name q)) as [E|N].
  - assert (p = q) as -> by (apply names; auto; congruence).
    induction (p_hooks q) as [|k l IH]; simpl; auto. rewrite Nat.eqb_refl, !andb_true_r.
    destruct (Nat.eqb_spec k h); destruct (Nat.eq_dec k h); simpl; try congruence; auto.
  - induction (p_hooks q) as [|k l IH]; simpl; auto.
    destruct (Nat.eqb_spec (p_id q) (p_id p)) as [E|N']; [|rewrite andb_false_r; auto].
    exfalso. apply N. apply ids in E; auto. congruence.
Qed.

Lemma reg_activate r s : inv U s -> (forall p, get_installed r s = Some p -> ~ In (p_name p) (active s)) ->
  reg_ok s -> reg_ok (fst (activate r s)).
Proof.
  intros V ND [R1 R2]. unfold activate. destruct (get_installed r s) as [p|] eqn:G; [|split; auto].
  destruct (get_installed_sound U s r p V G) as (i & E). destruct (i_inst _ _ V _ _ _ E) as (_ & Ip & _).
  specialize (ND p eq_refl).
  destruct (p_act_fails p); [split; auto|]. destruct (p_unknown p); simpl.
  - split; simpl.
    + intros q h Iq. specialize (R1 q h Iq). unfold registered in *. simpl. fold (count_regs h q (handlers s)) in R1.
      fold (count_regs h q (handlers s ++ noop_regs p)). rewrite count_app, count_noop, Nat.add_0_r. auto.
    + intros x I K. apply in_app_or in I as [I|I]; auto.
      unfold noop_regs in I. apply in_map_iff in I as (h & <- & _). discriminate.
  - split; simpl.
    + intros q h Iq. specialize (R1 q h Iq). unfold registered in *. simpl. fold (count_regs h q (handlers s)) in R1.
      fold (count_regs h q ((handlers s ++ noop_regs p) ++ method_regs p)).
      rewrite !count_app, count_noop, Nat.add_0_r, R1, (count_method h q p Iq Ip).
      destruct (str_eqb_spec (p_name q) (p_name p)) as [Q|Q].
      * rewrite Q. apply s_mem_false in ND. rewrite ND.
        assert (s_mem (p_name p) (s_add (p_name p) (active s)) = true) as ->; auto.
        apply s_mem_In. apply s_add_In. auto.
      * rewrite Nat.add_0_r. assert (s_mem (p_name q) (s_add (p_name p) (active s)) = s_mem (p_name q) (active s)) as ->; auto.
        destruct (s_mem (p_name q) (active s)) eqn:M.
        -- apply s_mem_In in M. apply s_mem_In. apply s_add_In. auto.
        -- apply s_mem_false in M. apply s_mem_false. rewrite s_add_In. tauto.
    + intros x I K. apply in_app_or in I as [I|I]; [apply in_app_or in I as [I|I]; auto|].
      * unfold noop_regs in I. apply in_map_iff in I as (h & <- & _). discriminate.
      * unfold method_regs in I. apply in_app_or in I as [I|I].
        -- apply in_map_iff in I as (h & <- & _). exists p. auto.
        -- destruct (p_end_only p); [destruct I as [<-|[]]; discriminate|contradiction].
Qed.

Lemma reg_deactivate r s : inv U s -> reg_ok s -> reg_ok (fst (deactivate r s)).
Proof.
  intros V [R1 R2]. unfold deactivate. destruct (get_installed r s) as [p|] eqn:G; [|split; auto].
  destruct (get_installed_sound U s r p V G) as (i & E). destruct (i_inst _ _ V _ _ _ E) as (_ & Ip & _).
  destruct (s_mem (p_name p) (active s)) eqn:M; [|split; auto]. split; simpl.
  - intros q h Iq. specialize (R1 q h Iq). unfold registered in *. simpl.
    destruct (str_eqb_spec (p_name q) (p_name p)) as [Q|Q].
    + assert (q = p) as -> by (apply names; auto; congruence).
      assert (s_mem (p_name p) (s_discard (p_name p) (active s)) = false) as ->.
      { apply s_mem_false. rewrite s_discard_In. tauto. }
      clear R1. assert (Z : forall l, (forall x, In x l -> h_kind x = KMethod ->
        exists p, In p U /\ h_plugin x = p_id p /\ h_token x = Some (p_name p)) ->
        List.length (filter (fun x => (h_hook x =? h) && (h_plugin x =? p_id p) && hkind_eqb (h_kind x) KMethod)
          (filter (fun x => match h_token x with Some t => negb (str_eqb (p_name p) t) | None => true end) l)) = 0).
      { induction l as [|x l IH]; intro H; simpl; auto.
        specialize (IH (fun y J => H y (or_intror J))).
        destruct (match h_token x with Some t => _ | None => true end) eqn:T; auto. simpl.
        destruct ((h_hook x =? h) && (h_plugin x =? p_id p) && hkind_eqb (h_kind x) KMethod) eqn:B; auto.
        exfalso. apply andb_true_iff in B as [B K]. apply andb_true_iff in B as [_ B]. apply Nat.eqb_eq in B.
        assert (KM : h_kind x = KMethod) by (destruct (h_kind x); auto; discriminate).
        destruct (H x (or_introl eq_refl) KM) as (p' & Ip' & Q1 & Q2). rewrite Q2 in T.
        assert (p' = p) by (apply ids; auto; congruence). subst p'.
        destruct (str_eqb_spec (p_name p) (p_name p)); [discriminate|congruence]. }
      apply Z; auto.
    + assert (s_mem (p_name q) (s_discard (p_name p) (active s)) = s_mem (p_name q) (active s)) as ->.
      { destruct (s_mem (p_name q) (active s)) eqn:M'.
        - apply s_mem_In in M'. apply s_mem_In. apply s_discard_In. auto.
        - apply s_mem_false in M'. apply s_mem_false. rewrite s_discard_In. tauto. }
      rewrite <- R1. clear R1. revert R2. generalize (handlers s) as l.
      induction l as [|x l IH]; intro H; simpl; auto. specialize (IH (fun y J => H y (or_intror J))).
      destruct ((h_hook x =? h) && (h_plugin x =? p_id q) && hkind_eqb (h_kind x) KMethod) eqn:B.
      * apply andb_true_iff in B as [B K]. apply andb_true_iff in B as [B0 B]. apply Nat.eqb_eq in B.
        assert (KM : h_kind x = KMethod) by (destruct (h_kind x); auto; discriminate).
        destruct (H x (or_introl eq_refl) KM) as (p' & Ip' & Q1 & Q2).
        assert (p' = q) by (apply ids; auto; congruence). subst p'. rewrite Q2.
        destruct (str_eqb_spec (p_name p) (p_name q)); [congruence|]. simpl.
        rewrite B0, K, B, Nat.eqb_refl. simpl. f_equal. auto.
      * destruct (match h_token x with Some t => _ | None => true end); simpl; [rewrite B|]; auto.
  - intros x I K. apply filter_In in I as [I _]. auto.
Qed.

Lemma reg_same s s' : handlers s' = handlers s -> active s' = active s -> reg_ok s -> reg_ok s'.
Proof. intros Eh Ea [R1 R2]. split; unfold registered in *; rewrite ?Eh, ?Ea; auto. Qed.

Lemma reg_uninstall r s : inv U s -> reg_ok s -> reg_ok (fst (uninstall r s)).
Proof.
  intros V R. unfold uninstall. destruct (get_installed r s) as [p|]; auto.
  pose proof (reg_deactivate (ByObj p) s V R) as R1.
  destruct (deactivate (ByObj p) s) as [s1 [[]|]]; simpl in *; auto; (eapply reg_same; [| |exact R1]; auto).
Qed.

Lemma reg_exec o s : uses U o -> no_double o s -> inv U s -> reg_ok s -> reg_ok (fst (exec order o s)).
Proof.
  intros Us ND V R. destruct o; simpl in Us.
  - unfold exec, install. destruct (forallb legal_char (p_name p)) eqn:L; simpl; auto.
    fold (installed1 p internal s). pose proof (installed1_inv U p internal s Us L V) as V1.
    assert (R1 : reg_ok (installed1 p internal s)) by (eapply reg_same; [| |exact R]; auto).
    assert (X : let z := (if act then activate (ByName (p_name p)) (installed1 p internal s)
                          else (installed1 p internal s, None)) in
                reg_ok (fst z) /\ inv U (fst z)).
    { cbv zeta. destruct act; [|split; auto]. split; [|apply activate_inv; auto].
      apply reg_activate; auto. intros q G. simpl in ND.
      assert (G' : s_get (p_name p) (installed (installed1 p internal s)) = Some (p, internal)).
      { simpl. rewrite s_get_set. destruct (str_eqb_spec (p_name p) (p_name p)); congruence. }
      rewrite (resolve_name U names _ _ _ _ V1 G') in G. injection G as <-. auto. }
    cbv zeta in X. destruct X as [R2 V2]. destruct (if act then _ else _) as [s2 [[]|]]; simpl fst in R2, V2; auto.
    + pose proof (reg_uninstall (ByObj p) s2 V2 R2) as R3.
      destruct (uninstall (ByObj p) s2) as [s3 [e|]]; simpl in *; auto.
    + destruct later; auto. unfold activate_later. destruct (get_installed _ s2); auto.
  - apply reg_uninstall; auto.
  - simpl. unfold uninstall_all. revert V R. generalize (map (fun e => fst (snd e)) (installed s)) as l.
    clear ND. intro l. revert s. induction l as [|p l IH]; intros s V R; simpl; auto.
    pose proof (reg_uninstall (ByObj p) s V R) as R1. pose proof (uninstall_inv U (ByObj p) s V) as V1.
    destruct (uninstall (ByObj p) s) as [s1 [e|]]; simpl in *; auto.
  - apply reg_activate; auto.
  - apply reg_deactivate; auto.
  - unfold exec, activate_later. destruct (get_installed r s); auto.
  - unfold exec, deactivate_later. destruct (get_installed r s); auto.
  - simpl in *. unfold activate_pending.
    assert (L1 : forall l s, NoDup l -> (forall n, In n l -> ~ In n (active s)) ->
              (forall n, In n l -> exists p, In p U /\ p_name p = n) -> inv U s -> reg_ok s ->
              reg_ok (fst (pending_loop1 l s))).
    { induction l as [|n l IH]; intros t N Hn Hu Vt Rt; auto. cbn [pending_loop1]. cbv zeta.
      apply NoDup_cons_iff in N as [Nn N].
      set (t1 := set_pending_act (s_discard n (pending_act t)) t).
      assert (Vt1 : inv U t1).
      { apply inv_discard; auto. }
      assert (Rt1 : reg_ok t1) by (eapply reg_same; [| |exact Rt]; auto).
      destruct (s_mem n (pending_deact t1)); [apply IH; auto; intros m J; [apply Hn|apply Hu]; right; auto|].
      assert (Res : forall p, get_installed (ByName n) t1 = Some p -> p_name p = n).
      { intros p G. destruct (get_installed_sound U _ _ _ Vt1 G) as (i & E).
        cbv [get_installed] in G. destruct (s_get n (cmd_names t1)) as [m|] eqn:C.
        - destruct (s_get n (installed t1)) as [[q j]|] eqn:Gn.
          + pose proof (resolve_name U names _ _ _ _ Vt1 Gn) as Rn. cbv [get_installed] in Rn. rewrite C in Rn.
            rewrite G in Rn. injection Rn as <-. destruct (i_inst _ _ Vt1 _ _ _ Gn); auto.
          + destruct (i_cmd _ _ Vt1 _ _ C) as (Nm & _).
            destruct (Hu n (or_introl eq_refl)) as (q & Iq & Qn).
            destruct (i_cmd _ _ Vt1 _ _ C) as (_ & q' & Iq' & Qm).
            assert (q = q').
            { apply names; auto. rewrite Qn, Qm, Nm. rewrite <- Nm. apply normalize_idem. }
            subst q'. unfold instance_by_name in G. rewrite <- Qm, Qn, Gn in G. discriminate.
        - unfold instance_by_name in G. destruct (s_get n (installed t1)) as [[q j]|] eqn:Gn; [|discriminate].
          injection G as <-. destruct (i_inst _ _ Vt1 _ _ _ Gn); auto. }
      pose proof (activate_inv U (ByName n) t1 Vt1) as V2.
      assert (R2 : reg_ok (fst (activate (ByName n) t1))).
      { apply reg_activate; auto. intros p G. rewrite (Res p G). apply (Hn n). left. auto. }
      assert (A2 : forall m, In m l -> ~ In m (active (fst (activate (ByName n) t1)))).
      { intros m J I. unfold activate in I. destruct (get_installed (ByName n) t1) as [p|] eqn:G.
        - specialize (Res p eq_refl). assert (Hm : ~ In m (active t1)) by (apply (Hn m); right; auto).
          destruct (p_act_fails p); auto. destruct (p_unknown p); auto.
          simpl in I. apply s_add_In in I as [->|I]; auto. congruence.
        - apply (Hn m); auto. right. auto. }
      destruct (activate (ByName n) t1) as [t2 [e|]]; simpl in *; auto. }
    assert (L2 : forall l s, inv U s -> reg_ok s -> reg_ok (fst (pending_loop2 l s))).
    { induction l as [|n l IH]; intros t Vt Rt; auto. cbn [pending_loop2]. cbv zeta.
      set (t1 := set_pending_deact (s_discard n (pending_deact t)) t).
      assert (Vt1 : inv U t1).
      { apply inv_pending_deact; auto. apply s_discard_NoDup. destruct Vt; auto. }
      assert (Rt1 : reg_ok t1) by (eapply reg_same; [| |exact Rt]; auto).
      destruct (s_mem n (active t1)); auto.
      pose proof (deactivate_inv U (ByName n) t1 Vt1) as V2. pose proof (reg_deactivate (ByName n) t1 Vt1 Rt1) as R2.
      destruct (deactivate (ByName n) t1) as [t2 [e|]]; simpl in *; auto. }
    assert (Np : NoDup (order (pending_act s))).
    { apply (Permutation_NoDup (Permutation_sym (order_perm _))). destruct V; auto. }
    assert (Hp : forall n, In n (order (pending_act s)) -> ~ In n (active s)).
    { intros n I. apply ND. apply (Permutation_in _ (order_perm _)). auto. }
    assert (Hu : forall n, In n (order (pending_act s)) -> exists p, In p U /\ p_name p = n).
    { intros n I. apply (i_pa _ _ V). apply (Permutation_in _ (order_perm _)). auto. }
    pose proof (L1 _ s Np Hp Hu V R) as R1. pose proof (loop1_inv U (order (pending_act s)) s V) as V1.
    destruct (pending_loop1 _ s) as [s1 [e|]]; simpl in *; auto.
Qed.

(** After any calls that never activate an active plugin, each method of a plugin
    is registered on each hook exactly as often as the plugin asks for it if the
    plugin is active, and not at all otherwise -- also after calls that failed.
    Partial: for plugins whose names stay different when spaces are read as
    dashes; see [C47_double_refuted], [C47_replaced_refuted],
    [C47_lambda_refuted], [C47_noop_refuted]. *)
Theorem C47_registrations_partial calls :
  Forall (uses U) calls -> never_double calls pm0 ->
  let s := exec_all order calls pm0 in
  forall p h, In p U -> registered h p s = if s_mem (p_name p) (active s) then wanted h p else 0.
Proof.
  assert (G : forall calls s, Forall (uses U) calls -> never_double calls s -> inv U s -> reg_ok s ->
            reg_ok (exec_all order calls s)).
  { induction calls0 as [|o l IH]; intros s F ND V R; simpl; auto. inversion F; subst. destruct ND as [N1 N2].
    apply IH; auto; [apply exec_inv; auto|apply reg_exec; auto]. }
  intros F ND s. apply G; auto. apply inv0. split; simpl; auto. tauto.
Qed.
End Reg.

(** ** Examples and refutations *)

Ltac uses_tac := repeat (apply Forall_cons; [simpl; tauto|]); apply Forall_nil.

Definition plug (i : nat) (n : string) (hooks : list nat) : plugin :=
  mkPlugin i (lit n) i hooks [] false false false false.
Definition pA := plug 1 "a b"%string [3; 4].
Definition pB := plug 2 "a-b"%string [3].
Definition pC := plug 3 "notify"%string [3; 3].
Definition ident (l : list str) := l.

Example C45_ex_universe : distinct_names [pA; pC] /\ well_behaved [pA; pC].
Proof.
  split.
  - intros p q [<-|[<-|[]]] [<-|[<-|[]]] H; auto; vm_compute in H; discriminate.
  - intros p [<-|[<-|[]]]; auto.
Qed.

Definition ex_calls : list pop :=
  [OInstall pA true false false; OInstall pC false true false; ODeactivateLater (ByName (lit "a-b"%string))].

Example C45_ex_calls :
  Forall (uses [pA; pC]) ex_calls
  /\ get_future_active (exec_all (@rev str) ex_calls pm0) = Some [lit "notify"%string]
  /\ active (exec_all (@rev str) ex_calls pm0) = [lit "a b"%string]
  /\ active (fst (activate_pending (@rev str) (exec_all (@rev str) ex_calls pm0))) = [lit "notify"%string].
Proof.
  split; [uses_tac|]. split; [reflexivity|]. split; reflexivity.
Qed.

(** Two plugins "a b" and "a-b": the second is announced, the first is
    activated. *)
Theorem C45_refuted :
  exists calls l s', well_behaved [pA; pB] /\ Forall (uses [pA; pB]) calls
    /\ get_future_active (exec_all ident calls pm0) = Some l
    /\ activate_pending ident (exec_all ident calls pm0) = (s', None)
    /\ exists n, In n l /\ ~ In n (active s').
Proof.
  exists [OInstall pB false true false; OInstall pA false false false], [lit "a-b"%string].
  eexists. split; [intros p [<-|[<-|[]]]; auto|]. split; [uses_tac|].
  split; [reflexivity|]. split; [reflexivity|].
  exists (lit "a-b"%string). split; [left; auto|]. simpl. intros [H|[]]. discriminate.
Qed.

Example C46_ex :
  let s := exec_all ident ex_calls pm0 in
  let r := in_context (@rev str) [OUninstall (ByObj pA); OInstall (plug 9 "x"%string [7]) true false false;
                                  OActivate (ByClass 3)] s in
  snd r = None /\ active (fst r) = [lit "a b"%string]
  /\ map fst (installed (fst r)) = [lit "notify"%string; lit "a b"%string].
Proof. vm_compute. auto. Qed.

(** The same two plugins: "a-b" is active, it is deactivated in the context, and
    at the end "a b" is activated instead of it (and deactivated again). *)
Theorem C46_refuted :
  exists calls body s', well_behaved [pA; pB] /\ Forall (uses [pA; pB]) (calls ++ body)
    /\ in_context ident body (exec_all ident calls pm0) = (s', None)
    /\ exists n, In n (active (exec_all ident calls pm0)) /\ ~ In n (active s').
Proof.
  exists [OInstall pB true false false; OInstall pA false false false], [ODeactivate (ByObj pB)].
  eexists. split; [intros p [<-|[<-|[]]]; auto|]. split; [uses_tac|].
  split; [reflexivity|]. exists (lit "a-b"%string). split; [left; auto|]. simpl. tauto.
Qed.

(** A plugin installed in the context over one with the same name stays. *)
Theorem C46_object_refuted :
  exists calls body s' n, Forall (uses [pC; plug 8 "notify"%string []]) (calls ++ body)
    /\ in_context ident body (exec_all ident calls pm0) = (s', None)
    /\ instance_by_name n s' <> instance_by_name n (exec_all ident calls pm0).
Proof.
  exists [OInstall pC false false false], [OInstall (plug 8 "notify"%string []) false false false].
  eexists. exists (lit "notify"%string). split; [uses_tac|]. split; [reflexivity|].
  simpl. discriminate.
Qed.

(** A plugin activated in the context whose deactivate() raises: the exit of the
    context ends there, what was installed in the body stays installed. *)
Theorem C46_failing_refuted :
  exists body s' n, in_context ident body pm0 = (s', Some UserError) /\ s_get n (installed s') <> None.
Proof.
  exists [OInstall (mkPlugin 5 (lit "p"%string) 5 [] [] false false false true) true false false;
          OInstall pC false false false].
  eexists. exists (lit "notify"%string). split; [reflexivity|]. discriminate.
Qed.

Example C47_ex_calls :
  never_double ident
    (ex_calls ++ [OActivatePending; OUninstall (ByObj pA); OInstall pA false true false; OActivatePending]) pm0
  /\ (forall p q, In p [pA; pC] -> In q [pA; pC] -> p_id p = p_id q -> p = q)
  /\ registered 3 pC (exec_all ident (ex_calls ++ [OActivatePending]) pm0) = 2
  /\ registered 3 pA (exec_all ident ex_calls pm0) = 1
  /\ registered 3 pA (exec_all ident (ex_calls ++ [OActivatePending]) pm0) = 0.
Proof.
  split; [|split; [|split; [|split]]]; try reflexivity.
  - cbn [app ex_calls never_double].
    repeat (split; [cbn [no_double]; try exact I; vm_compute; intros; intuition (subst; discriminate)|]); exact I.
  - intros p q [<-|[<-|[]]] [<-|[<-|[]]]; simpl; congruence.
Qed.

(** Activating an active plugin registers its methods a second time. *)
Theorem C47_double_refuted :
  exists calls p h, Forall (uses [pA; pC]) calls /\ In p [pA; pC]
    /\ registered h p (exec_all ident calls pm0) = 2 /\ wanted h p = 1.
Proof.
  exists [OInstall pA true false false; OActivateLater (ByObj pA); OActivatePending], pA, 4.
  split; [uses_tac|]. split; [left; auto|]. split; reflexivity.
Qed.

(** Installing another plugin under the name of an active one: the manager takes
    the new one for active, the methods of the old one are registered. *)
Theorem C47_replaced_refuted :
  exists calls p q n, never_double ident calls pm0
    /\ In n (active (exec_all ident calls pm0))
    /\ instance_by_name n (exec_all ident calls pm0) = Some p /\ p_id p <> p_id q
    /\ wanted 5 p = 1 /\ registered 5 p (exec_all ident calls pm0) = 0
    /\ registered 3 q (exec_all ident calls pm0) = 2.
Proof.
  exists [OInstall pC true false false; OInstall (plug 8 "notify"%string [5]) false false false],
    (plug 8 "notify"%string [5]), pC, (lit "notify"%string).
  split; [simpl; tauto|]. split; [left; auto|]. do 2 (split; [first [reflexivity|discriminate]|]).
  do 2 (split; [reflexivity|]). reflexivity.
Qed.

(** A plugin with session_end and without session_start: the lambda registered
    for it on session_start has no token and survives the plugin. *)
Theorem C47_lambda_refuted :
  exists p x, well_behaved [p]
    /\ let s := exec_all ident [OInstall p true false false; OUninstall (ByObj p)] pm0 in
       installed s = [] /\ active s = [] /\ In x (handlers s) /\ h_plugin x = p_id p.
Proof.
  exists (mkPlugin 1 (lit "p"%string) 1 [3] [] false true false false), (mkHandler 0 1 KLambda None).
  split; [intros p [<-|[]]; auto|]. vm_compute. auto.
Qed.

(** A plugin that provides something and names an unknown hook: its activation is
    refused, the no-op registrations made for it stay. *)
Theorem C47_noop_refuted :
  exists p x,
    snd (install p true false false pm0) = Some IncompatiblePlugin
    /\ let s := fst (install p true false false pm0) in
       installed s = [] /\ active s = [] /\ In x (handlers s) /\ h_plugin x = p_id p.
Proof.
  exists (mkPlugin 1 (lit "p"%string) 1 [3] [4] true false false false), (mkHandler 4 1 KNoOp (Some (lit "p"%string))).
  split; [reflexivity|]. vm_compute. auto.
Qed.

Print Assumptions C45_future_partial.
Print Assumptions C45_refuted.
Print Assumptions C46_restored_partial.
Print Assumptions C46_refuted.
Print Assumptions C46_object_refuted.
Print Assumptions C46_failing_refuted.
Print Assumptions C47_registrations_partial.
Print Assumptions C47_double_refuted.
Print Assumptions C47_replaced_refuted.
Print Assumptions C47_lambda_refuted.
Print Assumptions C47_noop_refuted.
