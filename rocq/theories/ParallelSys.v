(** The system of server and workers (Parallel.v): its invariant. *)

From Coq Require Import List Bool Arith PeanoNat Lia Sorting.Sorted.
From Verif Require Import Dict Parallel ParallelBase.
Import ListNotations.

Section Sys.
Variable num : nat.
Variable tests : list ptest.
Notation handle := (handle num tests).
Notation inv := (inv tests).

(** the worker a call is about *)
Definition client (x : call) : option nat :=
  match x with
  | CConnect c _ | CValidate c _ | CDisconnect c _ | CGet c _ | CFinished c _ _ | CFailure c => Some c
  | _ => None
  end.

Lemma mark_frame l : forall s s' o, mark_loop l s = (s', o) -> sv_exec s' = sv_exec s /\ sv_connected s' = sv_connected s
  /\ sv_state s' = sv_state s /\ sv_validated s' = sv_validated s /\ sv_conf s' = sv_conf s /\ sv_forced s' = sv_forced s.
Proof.
  induction l as [|t l IH]; simpl; intros s s' o H; [inversion H; subst; simpl; tauto|].
  unfold create_result in H. destruct (mem t _); [inversion H; subst; tauto|]. apply IH in H. simpl in H. exact H.
Qed.

(** what a call does to the executing tests and connected workers: the general case and
    those that matter *)
Lemma handle_frame x s s' r : handle x s = (s', r) ->
  (forall c, client x <> Some c -> d_get c (sv_exec s') = d_get c (sv_exec s) /\ (In c (sv_connected s') <-> In c (sv_connected s))).
Proof.
  intros H c N. destruct x as [c0 h|c0 l|c0 f|c0 h|c0 b st|c0| | | |c0 t|c0 t]; simpl in H, N.
  - assert (Nc : c <> c0) by congruence. unfold connect in H. destruct h.
    + inversion H; subst. simpl. rewrite add_In. intuition.
    + destruct (Nat.leb _ _); inversion H; subst; simpl; rewrite add_In, d_get_set_other by auto; intuition.
  - unfold validate_collection in H. destruct (negb _); [inversion H; subst; tauto|].
    destruct (_ && _); inversion H; subst; simpl; tauto.
  - assert (Nc : c <> c0) by congruence. unfold disconnect in H. destruct (mem _ _); [|inversion H; subst; tauto].
    destruct f; inversion H; subst; simpl; (split; [auto|]); (split; [apply remove1_In|apply remove1_other; auto]).
  - assert (Nc : c <> c0) by congruence. unfold get_test in H. destruct (d_get c0 (sv_exec s)) as [[t|]|]; try (inversion H; subst; tauto).
    destruct (sv_state s); simpl in H; try (inversion H; subst; simpl; tauto).
    destruct (sv_unstarted s) as [|u us]; simpl in H; [inversion H; subst; simpl; tauto|].
    destruct (can_execute s u c0) as [[|]|]; [|destruct (next_test s c0 us) as [[t|]|]|]; try (inversion H; subst; tauto).
    + destruct (nth_error _ u); inversion H; subst; simpl; [|tauto]. rewrite d_get_set_other by auto. tauto.
    + destruct (nth_error _ t); inversion H; subst; simpl; [|tauto]. rewrite d_get_set_other by auto. tauto.
  - assert (Nc : c <> c0) by congruence. unfold finished_test in H. destruct (d_get c0 (sv_exec s)) as [[t|]|]; try (inversion H; subst; tauto).
    unfold create_result in H. destruct (mem t _); [inversion H; subst; simpl; rewrite d_get_set_other by auto; tauto|].
    destruct b; [inversion H; subst; simpl; rewrite d_get_set_other by auto; tauto|].
    destruct st; [|inversion H; subst; simpl; rewrite d_get_set_other by auto; tauto].
    unfold mark_unrun_tests in H. destruct (mark_loop _ _) as [s1 o] eqn:E. apply mark_frame in E as [E1 [E2 _]].
    assert (s1 = s') by (destruct o; inversion H; auto). subst. rewrite E1, E2. simpl. rewrite d_get_set_other by auto. tauto.
  - assert (Nc : c <> c0) by congruence. unfold report_client_failure in H. destruct (mem c0 _); [|inversion H; subst; tauto].
    simpl in H. unfold create_result, mark_unrun_tests in H. simpl in H.
    assert (Gn : forall l s0, sv_exec s0 = sv_exec s -> sv_connected s0 = remove1 c0 (sv_connected s) ->
      (let (s', o) := mark_loop l s0 in match o with Some e => (s', RFault e) | None => (set_error true s', RNone) end) = (s', r) ->
      d_get c (sv_exec s') = d_get c (sv_exec s) /\ (In c (sv_connected s') <-> In c (sv_connected s))).
    { intros l s0 E1 E2 Q. destruct (mark_loop l s0) as [s1 o] eqn:E. apply mark_frame in E as [E3 [E4 _]].
      assert (sv_exec s' = sv_exec s1 /\ sv_connected s' = sv_connected s1) as [-> ->] by (destruct o; inversion Q; auto).
      rewrite E3, E4, E1, E2. split; auto. split; [apply remove1_In|apply remove1_other; auto]. }
    destruct (d_get c0 (sv_exec s)) as [[t|]|].
    + destruct (mem t _); [inversion H; subst; simpl; split; auto; split; [apply remove1_In|apply remove1_other; auto]|].
      eapply Gn; [| |exact H]; auto.
    + eapply Gn; [| |exact H]; auto.
    + eapply Gn; [| |exact H]; auto.
  - inversion H; subst. unfold session_interrupted. destruct (sstate_eqb _ _); simpl; tauto.
  - inversion H; subst; simpl; tauto.
  - inversion H; subst; simpl; tauto.
  - unfold reconf in H. destruct (d_get c0 (sv_conf s)) as [w|]; [destruct (exclude_test t w)|]; inversion H; subst; simpl; tauto.
  - unfold reconf in H. destruct (d_get c0 (sv_conf s)) as [w|]; [destruct (force_test t w)|]; inversion H; subst; simpl; tauto.
Qed.

Lemma handle_empty x s s' r : handle x s = (s', r) -> sv_unstarted s = [] -> sv_unstarted s' = [].
Proof.
  intros H E. destruct (handle_unstarted num tests x s s' r H) as [_ [Q|[Q|[t [I _]]]]]; [congruence|auto|].
  rewrite E in I. destruct I.
Qed.

(** a report of failure of a connected worker clears the unstarted tests *)
Lemma failure_empty c s s' r : inv s -> handle (CFailure c) s = (s', r) -> In c (sv_connected s) ->
  sv_unstarted s' = [] /\ r = RNone /\ ~ In c (sv_connected s') /\ sv_exec s' = sv_exec s
  /\ (forall t, d_get c (sv_exec s) = Some (Some t) -> ~ In t (map fst (sv_results s)) /\ In (t, KInterrupted) (sv_results s')).
Proof.
  intros Hi H I. simpl in H. unfold report_client_failure in H. pose proof I as Im. apply mem_In in Im. rewrite Im in H. simpl in H.
  destruct Hi as [A B C D E F G R N On K P].
  assert (Du : forall t, In t (sv_unstarted s) -> ~ In t (sv_finished s)) by (intros t Q W; apply (proj2 (E t W) Q)).
  destruct (d_get c (sv_exec s)) as [[t|]|] eqn:Ec.
  - assert (Nf : ~ In t (sv_finished s)) by (intros Q; apply (G c t Q Ec I)). destruct (C c t Ec) as [Ct Cu].
    unfold create_result in H. simpl in H. destruct (mem t (map fst (sv_results s))) eqn:Er; [apply mem_In, R in Er; contradiction|].
    rewrite mark_inv in H.
    + inversion H; subst; simpl. do 2 (split; [auto|]). split; [apply remove1_gone; auto|]. split; auto.
      intros u Q. inversion Q; subst. apply mem_false in Er. split; auto. apply in_app_iff. right. left. auto.
    + exact A.
    + simpl. intros u Q W. apply in_app_iff in W as [W|[<-|[]]]; [apply (Du u Q W)|contradiction].
    + simpl. intros u. rewrite R, in_app_iff. simpl. tauto.
  - rewrite mark_inv in H; auto. inversion H; subst; simpl. do 2 (split; [auto|]). split; [apply remove1_gone; auto|]. split; auto. discriminate.
  - rewrite mark_inv in H; auto. inversion H; subst; simpl. do 2 (split; [auto|]). split; [apply remove1_gone; auto|]. split; auto. discriminate.
Qed.

(** ** The system *)

Definition pc_ok (s : server) (c : nat) (p : option pc) : Prop :=
  match p with
  | None | Some WNew => ~ In c (sv_connected s) /\ d_get c (sv_exec s) = None
  | Some (WRunning t) => d_get c (sv_exec s) = Some (Some t) /\ (In c (sv_connected s) \/ sv_unstarted s = [])
  | Some WGone => True
  | Some _ => d_get c (sv_exec s) = Some None /\ (In c (sv_connected s) \/ sv_unstarted s = [])
  end.

Definition sys_inv (y : system) : Prop :=
  inv (sy_server y) /\ forall c, pc_ok (sy_server y) c (d_get c (sy_workers y)).

Lemma pc_ok_frame s s' c p : d_get c (sv_exec s') = d_get c (sv_exec s) ->
  (In c (sv_connected s') <-> In c (sv_connected s)) \/ ((In c (sv_connected s') -> In c (sv_connected s)) /\ sv_unstarted s' = []) ->
  (sv_unstarted s = [] -> sv_unstarted s' = []) -> pc_ok s c p -> pc_ok s' c p.
Proof.
  intros He Hc Hu. destruct p as [[]|]; simpl; auto; rewrite He; tauto.
Qed.

(** a call that is not made by a worker's program *)
Lemma ask_inv x s W : (match x with CFailure _ | CInterrupted | CStop | CSessionError | CExclude _ _ | CForce _ _ => True | _ => False end) ->
  sys_inv (mkSystem s W) -> sys_inv (mkSystem (fst (handle x s)) W).
Proof.
  intros Hx [Hi Hp]. simpl in *. split; simpl.
  - apply handle_inv; auto. destruct x; simpl; auto; contradiction.
  - intros c. destruct (handle x s) as [s' r] eqn:E. simpl. pose proof (handle_frame x s s' r E c) as Fr.
    destruct (client x) as [c0|] eqn:Ec.
    2:{ destruct Fr as [F1 F2]; [discriminate|]. eapply pc_ok_frame; [exact F1|left; exact F2|intros Q; eapply handle_empty; eauto|apply Hp]. }
    destruct (Nat.eq_dec c c0) as [->|Nc].
    2:{ destruct Fr as [F1 F2]; [congruence|]. eapply pc_ok_frame; [exact F1|left; exact F2|intros Q; eapply handle_empty; eauto|apply Hp]. }
    destruct x; try contradiction; try discriminate. simpl in Ec. inversion Ec; subst.
    destruct (mem c0 (sv_connected s)) eqn:Em.
    + apply mem_In in Em. destruct (failure_empty c0 s s' r Hi E Em) as [E1 [E2 [E3 [E4 E5]]]].
      eapply pc_ok_frame; [rewrite E4; reflexivity|right; split; [intros Q; contradiction|exact E1]|auto|apply Hp].
    + simpl in E. unfold report_client_failure in E. rewrite Em in E. inversion E; subst. apply Hp.
Qed.

(** a call of a worker *)
Lemma worker_inv c p ch x s W : d_get c W = Some p -> next_call c p ch = Some x -> sys_inv (mkSystem s W) ->
  sys_inv (mkSystem (fst (handle x s)) (d_set c (next_pc p (snd (handle x s))) W)).
Proof.
  intros Ep Ex [Hi Hp]. simpl in *. pose proof (Hp c) as Hc. rewrite Ep in Hc. split; simpl.
  - apply handle_inv; auto. destruct p; simpl in Ex; inversion Ex; subst; simpl in *; auto; try (intros u; destruct Hc; congruence); tauto.
  - intros c'. rewrite d_get_set. destruct (handle x s) as [s' r] eqn:E. simpl. pose proof (handle_frame x s s' r E c') as Fr.
    assert (Cx : client x = Some c) by (destruct p; simpl in Ex; inversion Ex; subst; reflexivity).
    destruct (Nat.eqb_spec c' c) as [->|Nc].
    2:{ destruct Fr as [F1 F2]; [congruence|]. eapply pc_ok_frame; [exact F1|left; exact F2|intros Q; eapply handle_empty; eauto|apply Hp]. }
    clear Fr. pose proof (handle_empty x s s' r E) as He.
    destruct p; simpl in Ex; inversion Ex; subst; simpl in Hc, E.
    + destruct Hc as [Hc1 Hc2]. unfold connect in E. destruct (ch_hook ch); [inversion E; subst; simpl; auto|].
      destruct (Nat.leb _ _); inversion E; subst; simpl; rewrite d_get_set_same, add_In; auto.
    + unfold validate_collection in E. destruct (negb _); [inversion E; subst; simpl; auto|].
      destruct (_ && _); inversion E; subst; simpl; auto.
    + unfold disconnect in E. destruct (mem _ _); inversion E; subst; simpl; auto.
    + destruct Hc as [Hc1 Hc2]. unfold get_test in E. rewrite Hc1 in E.
      destruct (sv_state s) eqn:Es; simpl in E; try (inversion E; subst; simpl; auto; fail).
      destruct (sv_unstarted s) as [|u us] eqn:Eu; simpl in E; [inversion E; subst; simpl; auto|].
      assert (Ic : In c (sv_connected s)) by (destruct Hc2; [auto|discriminate]).
      assert (Gt : forall t b, pc_ok (set_exec (d_set c (Some t) (sv_exec s)) (set_unstarted b s)) c (Some (WRunning t))).
      { intros t b. simpl. rewrite d_get_set_same. auto. }
      destruct (can_execute s u c) as [[|]|]; [|destruct (next_test s c us) as [[t|]|]|]; try (inversion E; subst; simpl; auto; fail).
      * destruct (nth_error _ u); inversion E; subst; [|simpl; auto]. destruct (ch_hook ch); [simpl; auto|]. apply Gt.
      * destruct (nth_error _ t); inversion E; subst; [|simpl; auto]. destruct (ch_hook ch); [simpl; auto|]. apply Gt.
    + destruct Hc as [Hc1 Hc2]. unfold finished_test in E. rewrite Hc1 in E. unfold create_result in E.
      simpl in E. destruct (mem t _); [inversion E; subst; simpl; auto|].
      destruct (ch_broken ch); [inversion E; subst; simpl; auto|].
      destruct (ch_stops ch); [|inversion E; subst; simpl; rewrite d_get_set_same; auto].
      unfold mark_unrun_tests in E. destruct (mark_loop _ _) as [s1 o] eqn:Em. apply mark_frame in Em as [E1 [E2 _]]. simpl in E1, E2.
      destruct o; inversion E; subst; simpl; auto. rewrite E1, E2, d_get_set_same. split; auto. tauto.
    + unfold disconnect in E. destruct (mem _ _); inversion E; subst; simpl; auto.
Qed.

Lemma step_inv l y : sys_inv y -> sys_inv (fst (step num tests l y)).
Proof.
  destruct y as [s W]. intros H. unfold step. cbn [sy_server sy_workers].
  assert (Ask : forall x, (match x with CFailure _ | CInterrupted | CStop | CSessionError | CExclude _ _ | CForce _ _ => True | _ => False end) ->
    sys_inv (fst (if sstate_eqb (sv_state s) StopServe then (mkSystem s W, []) else let (s1, r) := handle x s in (mkSystem s1 W, [(x, r)])))).
  { intros x Hx. destruct (sstate_eqb _ _); [exact H|]. pose proof (ask_inv x s W Hx H). destruct (handle x s). exact H0. }
  destruct l as [c ch|c|c| | | |c t|c t]; try (apply Ask; exact I).
  - destruct (d_get c W) as [p|] eqn:Ep; [|exact H]. destruct (next_call c p ch) as [x|] eqn:Ex; [|exact H].
    destruct (sstate_eqb _ _).
    + destruct H as [Hi Hp]. split; auto. intros c'. simpl. rewrite d_get_set. destruct (Nat.eqb_spec c' c); [simpl; auto|apply Hp].
    + pose proof (worker_inv c p ch x s W Ep Ex H). destruct (handle x s). exact H0.
  - destruct (d_get c W) as [p|] eqn:Ep; [|exact H]. destruct H as [Hi Hp]. split; auto.
    intros c'. simpl. rewrite d_get_set. destruct (Nat.eqb_spec c' c); [simpl; auto|apply Hp].
Qed.

Lemma run_inv l : forall y, sys_inv y -> sys_inv (fst (run num tests l y)).
Proof.
  induction l as [|x l IH]; simpl; intros y H; auto. pose proof (step_inv x y H) as H1. destruct (step num tests x y) as [y1 e1]. simpl in H1.
  apply IH in H1. destruct (run num tests l y1). exact H1.
Qed.

Lemma start_inv conf : sys_inv (start num tests conf).
Proof.
  split; [apply init_inv|]. intros c. simpl. generalize 1. induction num as [|n IH]; intros k; simpl; [auto|].
  destruct (Nat.eqb c k); [simpl; auto|]. apply IH.
Qed.
End Sys.
