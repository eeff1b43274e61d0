(** C125: how a parallel session ends. *)

From Coq Require Import List Bool Arith Lia.
From Verif Require Import Dict Parallel ParallelBase ParallelSys ParallelProps ParVerdict.
Import ListNotations.

(** ** What the calls do to the two marks *)

Lemma mark_loop_marks l : forall s s' e, mark_loop l s = (s', e) ->
  sv_error s' = sv_error s /\ sv_interrupted s' = sv_interrupted s.
Proof.
  induction l as [|t l IH]; cbn [mark_loop]; intros s s' e H.
  - injection H as <- <-. auto.
  - unfold create_result in H. destruct (mem t _).
    + injection H as <- <-. auto.
    + apply IH in H as [-> ->]. auto.
Qed.

(** a call that tells of an error: report_session_error, or report_client_failure that did not raise *)
Definition tells (e : call * reply) : Prop := match e with (CSessionError, _) => True | (CFailure _, RNone) => True | _ => False end.
(** the call of an interrupted parent *)
Definition stops (e : call * reply) : Prop := match e with (CInterrupted, _) => True | _ => False end.

Lemma handle_marks num tests x s s' r : handle num tests x s = (s', r) ->
  (sv_error s' = true <-> sv_error s = true \/ tells (x, r)) /\ (sv_interrupted s' = true <-> sv_interrupted s = true \/ stops (x, r)).
Proof.
  assert (Same : forall a b : server, sv_error b = sv_error a -> sv_interrupted b = sv_interrupted a ->
    (sv_error b = true <-> sv_error a = true \/ False) /\ (sv_interrupted b = true <-> sv_interrupted a = true \/ False)).
  { intros a b -> ->. tauto. }
  destruct x as [c h|c l|c f|c h|c b st|c| | | |c t|c t]; cbn [handle tells stops]; intros H.
  - unfold connect in H. destruct h; [injection H as <- <-; apply Same; reflexivity|].
    destruct (Nat.leb _ _); injection H as <- <-; apply Same; reflexivity.
  - unfold validate_collection in H. destruct (negb _); [injection H as <- <-; apply Same; reflexivity|].
    destruct (_ && _); injection H as <- <-; apply Same; reflexivity.
  - unfold disconnect in H. destruct (mem _ _); [|injection H as <- <-; apply Same; reflexivity].
    destruct f; injection H as <- <-; apply Same; reflexivity.
  - unfold get_test in H. destruct (d_get c (sv_exec s)) as [[u|]|]; try (injection H as <- <-; apply Same; reflexivity).
    destruct (sv_state s); try (injection H as <- <-; apply Same; reflexivity).
    destruct (_ && _); [|injection H as <- <-; apply Same; reflexivity].
    destruct (next_test s c (sv_unstarted s)) as [[u|]|u]; try (injection H as <- <-; apply Same; reflexivity).
    destruct (nth_error _ u); injection H as <- <-; apply Same; reflexivity.
  - unfold finished_test in H. destruct (d_get c (sv_exec s)) as [[u|]|]; try (injection H as <- <-; apply Same; reflexivity).
    cbv zeta in H. unfold create_result in H. destruct (mem u _); [injection H as <- <-; apply Same; reflexivity|].
    destruct b; [injection H as <- <-; apply Same; reflexivity|]. destruct st; [|injection H as <- <-; apply Same; reflexivity].
    unfold mark_unrun_tests in H. destruct (mark_loop _ _) as [s2 o] eqn:L. apply mark_loop_marks in L as [L1 L2].
    destruct o; injection H as <- <-; apply Same; [rewrite L1|rewrite L2|rewrite L1|rewrite L2]; reflexivity.
  - assert (R : forall s0, sv_error s0 = sv_error s -> sv_interrupted s0 = sv_interrupted s ->
      (match mark_unrun_tests (set_state StopTests s0) with (s2, None) => (set_error true s2, RNone) | (s2, Some e) => (s2, RFault e) end) = (s', r) ->
      (sv_error s' = true <-> sv_error s = true \/ match r with RNone => True | _ => False end) /\ (sv_interrupted s' = true <-> sv_interrupted s = true \/ False)).
    { intros s0 E1 E2. unfold mark_unrun_tests. destruct (mark_loop _ _) as [s2 o] eqn:L. apply mark_loop_marks in L as [L1 L2].
      cbn [set_state sv_error sv_interrupted] in L1, L2. destruct o as [e|]; intros Q; injection Q as <- <-.
      - apply Same; congruence.
      - cbn [set_error sv_error sv_interrupted]. rewrite L2, E2. tauto. }
    unfold report_client_failure in H. destruct (mem _ _); [|injection H as <- <-; apply Same; reflexivity].
    cbv zeta in H. destruct (d_get c _) as [[u|]|].
    + unfold create_result in H. destruct (mem u _); [injection H as <- <-; apply Same; reflexivity|]. revert H. apply R; reflexivity.
    + revert H. apply R; reflexivity.
    + revert H. apply R; reflexivity.
  - injection H as <- <-. unfold session_interrupted. cbv zeta. destruct (sstate_eqb _ _); cbn [set_state set_interrupted sv_error sv_interrupted]; tauto.
  - injection H as <- <-. apply Same; reflexivity.
  - injection H as <- <-. cbn [set_error sv_error sv_interrupted]. tauto.
  - unfold reconf in H. destruct (d_get c _) as [w|]; [|injection H as <- <-; apply Same; reflexivity].
    destruct (exclude_test t w); injection H as <- <-; apply Same; reflexivity.
  - unfold reconf in H. destruct (d_get c _) as [w|]; [|injection H as <- <-; apply Same; reflexivity].
    destruct (force_test t w); injection H as <- <-; apply Same; reflexivity.
Qed.

Lemma step_trace num tests l y y' tr : step num tests l y = (y', tr) ->
  (tr = [] /\ sy_server y' = sy_server y) \/ exists x r, tr = [(x, r)] /\ handle num tests x (sy_server y) = (sy_server y', r).
Proof.
  assert (A : forall x, (if sstate_eqb (sv_state (sy_server y)) StopServe then (y, [])
     else let (s1, r) := handle num tests x (sy_server y) in (mkSystem s1 (sy_workers y), [(x, r)])) = (y', tr) ->
     (tr = [] /\ sy_server y' = sy_server y) \/ exists x r, tr = [(x, r)] /\ handle num tests x (sy_server y) = (sy_server y', r)).
  { intros x. destruct (sstate_eqb _ _); [intros H; injection H as <- <-; auto|].
    destruct (handle num tests x _) as [s1 r] eqn:E. intros H; injection H as <- <-. right. exists x, r. auto. }
  destruct l; cbn [step]; cbv zeta; try apply A.
  - destruct (d_get c _) as [p|]; [|intros H; injection H as <- <-; auto].
    destruct (next_call c p ch) as [x|]; [|intros H; injection H as <- <-; auto].
    destruct (sstate_eqb _ _); [intros H; injection H as <- <-; auto|].
    destruct (handle num tests x _) as [s1 r] eqn:E. intros H; injection H as <- <-. right. exists x, r. auto.
  - destruct (d_get c _); intros H; injection H as <- <-; auto.
Qed.

Lemma run_marks num tests l : forall y y' tr, run num tests l y = (y', tr) ->
  (sv_error (sy_server y') = true <-> sv_error (sy_server y) = true \/ exists e, In e tr /\ tells e)
  /\ (sv_interrupted (sy_server y') = true <-> sv_interrupted (sy_server y) = true \/ exists e, In e tr /\ stops e).
Proof.
  induction l as [|x l IH]; cbn [run]; intros y y' tr H.
  - injection H as <- <-. split; (split; [auto|intros [Q|[e [[] _]]]; auto]).
  - destruct (step num tests x y) as [y1 e1] eqn:S. destruct (run num tests l y1) as [y2 e2] eqn:R. injection H as <- <-.
    destruct (IH _ _ _ R) as [I1 I2]. rewrite I1, I2. apply step_trace in S as [[-> ->]|(c & r & -> & S)]; [cbn [app]; tauto|].
    apply handle_marks in S as [S1 S2]. rewrite S1, S2. cbn [app]. split; split.
    + intros [[Q|Q]|(e & Q & W)]; [auto|right; exists (c, r); cbn; auto|right; exists e; cbn; auto].
    + intros [Q|(e & [<-|Q] & W)]; [auto|auto|right; exists e; auto].
    + intros [[Q|Q]|(e & Q & W)]; [auto|right; exists (c, r); cbn; auto|right; exists e; cbn; auto].
    + intros [Q|(e & [<-|Q] & W)]; [auto|auto|right; exists e; auto].
Qed.

(** ** C125 *)

(** what a session needs to be successful: nobody told of an error or of an interruption, and what the parent itself did, as well
    as every test, went well *)
Definition went_well (allow_skips : bool) (r : res) : Prop :=
  r_errors r = false /\ r_failures r = false /\ r_interrupted r = false /\ (r_skips r = true -> allow_skips = true) /\ (r_skips r = false -> r_started r = true).

Lemma success_spec a r : success a r = true <-> went_well a r.
Proof.
  unfold success, went_well. destruct r as [[] [] [] [] []], a; cbn; intuition congruence.
Qed.

Theorem C125_verdict : forall reported own num tests conf labels a,
  let (y, tr) := run num tests labels (start num tests conf) in
  let s := sy_server y in
  session_success reported own a s = true <->
    went_well a own
    /\ ~ (exists r, In (CInterrupted, r) tr)
    /\ ~ (exists r, In (CSessionError, r) tr)
    /\ ~ (exists c, In (CFailure c, RNone) tr)
    /\ forall t k, In (t, k) (sv_results s) -> k = KReported /\ went_well a (reported t).
Proof.
  intros reported own num tests conf labels a. destruct (run _ _ _ _) as [y tr] eqn:R. cbv zeta.
  apply run_marks in R as [M1 M2]. cbn [start sy_server init sv_error sv_interrupted] in M1, M2.
  unfold session_success, global.
  assert (NT : sv_error (sy_server y) = false <-> ~ (exists r, In (CSessionError, r) tr) /\ ~ (exists c, In (CFailure c, RNone) tr)).
  { split.
    - intros F. split; intros [w I]; assert (T : sv_error (sy_server y) = true) by (apply M1; right; eexists; split; [exact I|exact Logic.I]); congruence.
    - intros [N1 N2]. destruct (sv_error _); [|reflexivity]. exfalso. destruct M1 as [M1 _]. destruct (M1 eq_refl) as [Q|(e & I & T)]; [discriminate|].
      destruct e as [x r]. destruct x; try destruct T; [|apply N1; eauto]. destruct r; try destruct T. apply N2; eauto. }
  assert (NI : sv_interrupted (sy_server y) = false <-> ~ (exists r, In (CInterrupted, r) tr)).
  { split.
    - intros F [r I]. assert (T : sv_interrupted (sy_server y) = true) by (apply M2; right; eexists; split; [exact I|exact Logic.I]). congruence.
    - intros N. destruct (sv_interrupted _); [|reflexivity]. exfalso. destruct M2 as [M2 _]. destruct (M2 eq_refl) as [Q|(e & I & T)]; [discriminate|].
      destruct e as [x r]. destruct x; try destruct T. apply N; eauto. }
  assert (RS : forallb (fun e => success a (test_result reported e)) (sv_results (sy_server y)) = true <->
     forall t k, In (t, k) (sv_results (sy_server y)) -> k = KReported /\ went_well a (reported t)).
  { rewrite forallb_forall. split.
    - intros F t k I. specialize (F _ I). destruct k; cbn in F; try discriminate. split; [auto|]. apply success_spec. auto.
    - intros F [t k] I. destruct (F _ _ I) as [-> W]. cbn. apply success_spec. auto. }
  rewrite <- RS, <- NI. destruct (sv_interrupted (sy_server y)) eqn:Ei.
  - split; [|intuition discriminate]. unfold success, interrupt. cbn [r_errors r_failures r_interrupted]. rewrite !orb_true_r. discriminate.
  - rewrite <- (success_spec a own). destruct (success a own); [|intuition discriminate].
    destruct (sv_error (sy_server y)) eqn:Ee.
    + split; [discriminate|]. intros (_ & _ & A & B & _). assert (true = false) by (apply NT; auto). discriminate.
    + assert (false = false) as Q by auto. apply NT in Q as [Q1 Q2]. tauto.
Qed.
Print Assumptions C125_verdict.

(** When the parent stopped waiting and the session is successful, every collected test was reported by a worker, as one that went
    well: no test is passed over. *)
Theorem C125_all_ran : forall reported own num tests conf labels a t,
  let s := sy_server (fst (run num tests labels (start num tests conf))) in
  should_wait tests s = false -> session_success reported own a s = true -> t < length tests ->
  In (t, KReported) (sv_results s) /\ went_well a (reported t).
Proof.
  intros reported own num tests conf labels a t. cbv zeta. intros W S L.
  destruct (C67_all_accounted num tests conf labels t W L) as [k I].
  pose proof (C125_verdict reported own num tests conf labels a) as V.
  destruct (run num tests labels (start num tests conf)) as [y tr]. cbn [fst] in *. cbv zeta in V.
  apply V in S as (_ & _ & _ & _ & S). destruct (S _ _ I) as [-> Q]. auto.
Qed.
Print Assumptions C125_all_ran.

(** Once a worker was reported as failed or an error was told, nothing that happens later makes the session successful. *)
Theorem C125_remembered : forall reported own num tests conf labels later a,
  let (y, tr) := run num tests labels (start num tests conf) in
  (exists c, In (CFailure c, RNone) tr) \/ (exists r, In (CSessionError, r) tr) \/ (exists r, In (CInterrupted, r) tr) ->
  session_success reported own a (sy_server (fst (run num tests later y))) = false.
Proof.
  intros reported own num tests conf labels later a. destruct (run _ _ labels _) as [y tr] eqn:R.
  intros T. destruct (run num tests later y) as [y2 tr2] eqn:R2. cbn [fst].
  pose proof (run_marks _ _ _ _ _ _ R) as [M1 M2]. pose proof (run_marks _ _ _ _ _ _ R2) as [N1 N2].
  unfold session_success, global. destruct T as [[w I]|[[w I]|[w I]]].
  - assert (E : sv_error (sy_server y2) = true) by (apply N1; left; apply M1; right; eexists; split; [exact I|exact Logic.I]).
    rewrite E. destruct (success _ _); reflexivity.
  - assert (E : sv_error (sy_server y2) = true) by (apply N1; left; apply M1; right; eexists; split; [exact I|exact Logic.I]).
    rewrite E. destruct (success _ _); reflexivity.
  - assert (E : sv_interrupted (sy_server y2) = true) by (apply N2; left; apply M2; right; eexists; split; [exact I|exact Logic.I]).
    rewrite E. unfold success, interrupt. cbn [r_errors r_failures r_interrupted]. rewrite !orb_true_r. reflexivity.
Qed.
Print Assumptions C125_remembered.

(** the session is marked complete iff the server was stopped and the parent was not interrupted *)
Theorem C125_complete : forall num tests conf labels,
  let (y, tr) := run num tests labels (start num tests conf) in
  complete (sy_server y) = true <-> sv_state (sy_server y) = StopServe /\ ~ (exists r, In (CInterrupted, r) tr).
Proof.
  intros num tests conf labels. destruct (run _ _ _ _) as [y tr] eqn:R. apply run_marks in R as [_ M2].
  cbn [start sy_server init sv_error sv_interrupted] in M2. unfold complete.
  assert (NI : negb (sv_interrupted (sy_server y)) = true <-> ~ (exists r, In (CInterrupted, r) tr)).
  { rewrite negb_true_iff. split.
    - intros F [r I]. assert (T : sv_interrupted (sy_server y) = true) by (apply M2; right; eexists; split; [exact I|exact Logic.I]). congruence.
    - intros N. destruct (sv_interrupted _); [|reflexivity]. exfalso. destruct M2 as [M2 _]. destruct (M2 eq_refl) as [Q|(e & I & T)]; [discriminate|].
      destruct e as [x r]. destruct x; try destruct T. apply N; eauto. }
  rewrite <- NI. destruct (sv_state (sy_server y)); intuition discriminate.
Qed.
Print Assumptions C125_complete.

(** ** Examples *)

Definition passed : res := mkRes false false false true false.

(** all the tests of two workers pass: a successful, complete session, for which nobody waits *)
Example ex_success : let s := sy_server (fst (x_run (all_fine ++ [LStop]))) in
  session_success (fun _ => passed) passed true s = true /\ should_wait x_tests s = false /\ complete s = true /\ List.length (sv_results s) = 3.
Proof. vm_compute. auto. Qed.

(** test 1 fails, or the second worker fails while it runs test 1 *)
Example ex_failure : let s := sy_server (fst (x_run all_fine)) in
  session_success (fun t => mkRes false (Nat.eqb t 1) false true false) passed true s = false.
Proof. vm_compute. auto. Qed.
Example ex_worker_failed : let (y, tr) := x_run [W 1; W 2; W 1; W 2; W 1; W 2; LDie 2; LTimeout 2; W 1; W 1; W 1] in
  In (CFailure 2, RNone) tr /\ session_success (fun _ => passed) passed true (sy_server y) = false /\ should_wait x_tests (sy_server y) = false.
Proof. vm_compute. repeat split. do 6 right. left. reflexivity. Qed.

(** A session is marked complete also when a worker failed and tests did not run. *)
Theorem C125_complete_refuted : exists labels t, let s := sy_server (fst (x_run labels)) in
  should_wait x_tests s = false /\ complete s = true /\ In (t, KUnrun) (sv_results s).
Proof.
  exists [W 1; W 2; W 1; W 2; W 1; W 2; LDie 2; LTimeout 2; W 1; W 1; W 1; LStop], 2.
  vm_compute. repeat split. auto.
Qed.
Print Assumptions C125_complete_refuted.
