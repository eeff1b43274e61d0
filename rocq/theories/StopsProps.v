(** C144: sequential sessions and sessions with one worker stop after the same test. *)

From Coq Require Import List Bool Arith Lia.
From Verif Require Import Core Results Stops.
Import ListNotations.

(** the result of a test after which the session should stop *)
Definition stopper (stop_on_error : bool) (r : result) : Prop :=
  (exists e, In e (r_errors r ++ r_failures r) /\ n_fatal e = true) \/
  (stop_on_error = true /\ (r_errors r <> [] \/ r_failures r <> [] \/ r_interrupted r = true \/ (r_skips r = [] /\ r_started r = false))).

Lemma stopper_spec stop r : has_fatal r || (negb (is_success true r) && stop) = true <-> stopper stop r.
Proof.
  unfold stopper, has_fatal. rewrite orb_true_iff, existsb_exists, andb_true_iff, negb_true_iff.
  assert (S : is_success true r = false <-> r_errors r <> [] \/ r_failures r <> [] \/ r_interrupted r = true \/ (r_skips r = [] /\ r_started r = false)).
  { unfold is_success, is_error, is_failure, is_skip. destruct (r_errors r); cbn; [|split; auto; left; discriminate].
    destruct (r_failures r); cbn; [|split; auto; right; left; discriminate]. destruct (r_interrupted r); cbn; [split; auto|].
    destruct (r_skips r); cbn; [|split; [discriminate|intros [H|[H|[H|[H _]]]]; congruence]].
    destruct (r_started r); split; intros H; try discriminate; auto. destruct H as [H|[H|[H|[_ H]]]]; congruence. }
  rewrite S. tauto.
Qed.

(** [l] are the results of the tests up to the first that stops the session *)
Definition up_to_stopper (stop : bool) (todo : list outcome) (l : list result) : Prop :=
  (exists rest, map o_result todo = l ++ rest /\ (rest <> [] -> exists pre r, l = pre ++ [r] /\ stopper stop r)) /\
  forall pre r post, l = pre ++ r :: post -> post <> [] -> ~ stopper stop r.

Lemma up_to_cons stop o todo l : ~ stopper stop (o_result o) -> up_to_stopper stop todo l -> up_to_stopper stop (o :: todo) (o_result o :: l).
Proof.
  intros N [(rest & E & F) G]. split.
  - exists rest. cbn. rewrite E. split; [reflexivity|]. intros R. destruct (F R) as (pre & r & -> & S). exists (o_result o :: pre), r. auto.
  - intros [|x pre] r post Q P; cbn in Q; injection Q as Q1 Q; [rewrite <- Q1; exact N|apply (G pre r post Q P)].
Qed.

Lemma up_to_one stop o todo : stopper stop (o_result o) -> up_to_stopper stop (o :: todo) [o_result o].
Proof.
  intros S. split.
  - exists (map o_result todo). split; [reflexivity|]. intros _. exists [], (o_result o). auto.
  - intros [|x [|y pre]] r post Q P; cbn in Q; try discriminate. injection Q as _ Q. subst post. destruct P. reflexivity.
Qed.

Lemma up_to_nil stop : up_to_stopper stop [] [].
Proof. split; [exists []; split; [reflexivity|intros H; destruct H; reflexivity]|]. intros [|x pre] r post Q; discriminate. Qed.

(** ** The server hands out tests up to the first whose result is fatal or, with stop_on_error, no success *)
Theorem C144_served stop todo : up_to_stopper stop todo (served stop todo).
Proof.
  induction todo as [|o todo IH]; [apply up_to_nil|]. cbn [served].
  destruct (has_fatal (o_result o) || (negb (is_success true (o_result o)) && stop)) eqn:E.
  - apply up_to_one, stopper_spec, E.
  - apply up_to_cons; [|exact IH]. intros S. apply stopper_spec in S. congruence.
Qed.

Lemma so_far_success before r g : results_success true (so_far (before ++ [r]) g) =
  is_success true g && forallb (is_success true) before && is_success true r.
Proof.
  unfold results_success, so_far, iter_test_results. cbn [sr_global sr_children sr_worker_error sr_dict andb]. rewrite map_map. cbn [snd].
  rewrite map_id, forallb_app. cbn. destruct (is_success true g); cbn; [rewrite andb_true_r|]; reflexivity.
Qed.

(** ** The runner does the same, if what it had before went well and nothing goes wrong outside of the tests *)
Theorem C144_same stop before todo :
  (stop = true -> Forall (fun r => is_success true r = true) before) ->
  (stop = true -> Forall (fun o => is_success true (o_global o) = true) todo) ->
  fst (runner stop before todo) = served stop todo.
Proof.
  revert before. induction todo as [|o todo IH]; intros before B G; [reflexivity|]. cbn [runner served]. rewrite so_far_success.
  destruct (has_fatal (o_result o)); [reflexivity|]. cbn [orb].
  destruct stop.
  - specialize (B eq_refl). specialize (G eq_refl). inversion G as [|? ? G1 G2]; subst. rewrite G1. cbn [andb].
    assert (F : forallb (is_success true) before = true) by (apply forallb_forall; rewrite Forall_forall in B; exact B).
    rewrite F. cbn [andb]. rewrite andb_true_r. destruct (is_success true (o_result o)) eqn:S; cbn [negb]; [|reflexivity].
    specialize (IH (before ++ [o_result o])). destruct (runner true (before ++ [o_result o]) todo) as [l c]. cbn [fst] in *. rewrite IH; auto.
    intros _. apply Forall_app. split; [exact B|constructor; auto].
  - rewrite andb_false_r. cbn [andb]. specialize (IH (before ++ [o_result o])). destruct (runner false (before ++ [o_result o]) todo) as [l c].
    cbn [fst] in *. rewrite IH; auto; discriminate.
Qed.

(** ** Whatever happens outside of the tests, the runner never runs a test that the server would not hand out *)
Theorem C144_never_more stop before todo : exists rest, served stop todo = fst (runner stop before todo) ++ rest.
Proof.
  revert before. induction todo as [|o todo IH]; intros before; [exists []; reflexivity|]. cbn [runner served]. rewrite so_far_success.
  destruct (has_fatal (o_result o)); [exists []; reflexivity|]. cbn [orb].
  destruct (stop && negb (is_success true (o_global o) && forallb (is_success true) before && is_success true (o_result o))) eqn:E; cbn [fst].
  - destruct (negb (is_success true (o_result o)) && stop); [exists []; reflexivity|]. eexists. reflexivity.
  - assert (K : negb (is_success true (o_result o)) && stop = false).
    { destruct stop, (is_success true (o_result o)); try reflexivity. rewrite andb_false_r in E. discriminate. }
    rewrite K. destruct (IH (before ++ [o_result o])) as (rest & Q). destruct (runner stop (before ++ [o_result o]) todo) as [l c]. cbn [fst] in *.
    exists rest. rewrite Q. reflexivity.
Qed.

(** ** The session of the runner is complete exactly if it got to the end of its tests without a reason to stop *)
Theorem C144_complete stop before todo :
  (stop = true -> Forall (fun r => is_success true r = true) before) ->
  (stop = true -> Forall (fun o => is_success true (o_global o) = true) todo) ->
  (snd (runner stop before todo) = true <-> Forall (fun o => ~ stopper stop (o_result o)) todo).
Proof.
  revert before. induction todo as [|o todo IH]; intros before B G; [split; [constructor|reflexivity]|]. cbn [runner]. rewrite so_far_success.
  pose proof (stopper_spec stop (o_result o)) as S.
  assert (E : stop && negb (is_success true (o_global o) && forallb (is_success true) before && is_success true (o_result o)) = negb (is_success true (o_result o)) && stop).
  { destruct stop; [|rewrite andb_false_r; reflexivity]. specialize (B eq_refl). specialize (G eq_refl). inversion G as [|? ? G1 G2]; subst. rewrite G1.
    assert (F : forallb (is_success true) before = true) by (apply forallb_forall; rewrite Forall_forall in B; exact B). rewrite F. cbn. rewrite andb_true_r. reflexivity. }
  rewrite E. destruct (has_fatal (o_result o)) eqn:H.
  - cbn [orb snd] in *. split; [discriminate|]. intros F. inversion F as [|? ? F1 _]; subst. destruct F1. apply S. reflexivity.
  - cbn [orb] in S. destruct (negb (is_success true (o_result o)) && stop) eqn:K.
    + cbn [snd]. split; [discriminate|]. intros F. inversion F as [|? ? F1 _]; subst. destruct F1. apply S. reflexivity.
    + specialize (IH (before ++ [o_result o])). destruct (runner stop (before ++ [o_result o]) todo) as [l c]. cbn [snd] in *.
      assert (P : stop = true -> Forall (fun r => is_success true r = true) (before ++ [o_result o])).
      { intros ->. apply Forall_app. split; [apply B; reflexivity|]. constructor; [|constructor].
        rewrite andb_true_r in K. apply negb_false_iff in K. exact K. }
      assert (Q : stop = true -> Forall (fun o => is_success true (o_global o) = true) todo).
      { intros Z. specialize (G Z). inversion G; assumption. }
      rewrite (IH P Q). split.
      * intros F. constructor; [|exact F]. intros X. apply S in X. discriminate.
      * intros F. inversion F; assumption.
Qed.

(** ** Both leave the same verdict *)
Theorem C144_verdict stop todo g :
  (stop = true -> Forall (fun o => is_success true (o_global o) = true) todo) ->
  results_success true (so_far (all_results todo (fst (runner stop [] todo))) g) =
  results_success true (so_far (all_results todo (served stop todo)) g).
Proof. intros G. rewrite (C144_same stop [] todo); [reflexivity|intros _; constructor|exact G]. Qed.

(** a session that stopped early is no success *)
Theorem C144_stopped stop todo g : length (served stop todo) < length todo ->
  results_success true (so_far (all_results todo (served stop todo)) g) = false.
Proof.
  intros L. unfold all_results. assert (X : exists o l, skipn (length (served stop todo)) todo = o :: l).
  { destruct (skipn (length (served stop todo)) todo) as [|o l] eqn:E; [|eauto]. apply (f_equal (@length _)) in E. rewrite skipn_length in E. cbn in E. lia. }
  destruct X as (o & l & ->). cbn [map]. unfold results_success, so_far, iter_test_results. cbn [sr_global sr_children sr_worker_error sr_dict andb].
  destruct (negb (is_success true g)); [reflexivity|]. rewrite map_map. cbn [snd]. rewrite map_id, forallb_app. cbn. apply andb_false_r.
Qed.

(** ** Where the two differ *)

Definition fine := mkResult [] [] [] true true false.
Definition broken := mkResult [mkEntry None false] [] [] true true false.

(** an error outside of the tests (a hook, a cleanup of the module): with stop_on_error the runner stops, the server does not *)
Theorem C144_outside_refuted : exists todo, Forall (fun o => ~ stopper true (o_result o)) todo /\
  length (fst (runner true [] todo)) = 1 /\ length (served true todo) = 3.
Proof.
  exists [mkOut fine broken; mkOut fine broken; mkOut fine broken]. split; [|split; reflexivity].
  repeat constructor; cbn; intros [(e & [] & _)|(_ & [H|[H|[H|[_ H]]]])]; cbn in H; congruence.
Qed.

(** a fatal error outside of the tests stops neither *)
Theorem C144_fatal_outside_refuted : exists todo, Forall (fun o => has_fatal (o_global o) = true) todo /\
  length (fst (runner false [] todo)) = 2 /\ length (served false todo) = 2.
Proof.
  set (g := mkResult [mkEntry None true] [] [] true true false). exists [mkOut fine g; mkOut fine g]. repeat constructor.
Qed.

(** the same tests are run, but the sequential session is not complete and the parallel one is; also if the one that stops is the last of all *)
Theorem C144_complete_refuted : exists todo, fst (runner true [] todo) = served true todo /\ length (served true todo) = length todo /\
  snd (runner true [] todo) = false /\ served_complete false = true.
Proof. exists [mkOut fine fine; mkOut broken fine]. repeat split. Qed.

(** ** The hypotheses are met *)

Example C144_ex : let todo := [mkOut fine fine; mkOut broken fine; mkOut fine fine] in
  Forall (fun o => is_success true (o_global o) = true) todo /\ fst (runner true [] todo) = [fine; broken] /\ served true todo = [fine; broken] /\
  fst (runner false [] todo) = [fine; broken; fine] /\ snd (runner false [] todo) = true /\
  all_results todo (served true todo) = [fine; broken; result0].
Proof. cbv zeta. repeat split; repeat constructor. Qed.

Print Assumptions C144_served.
Print Assumptions C144_same.
Print Assumptions C144_never_more.
Print Assumptions C144_complete.
Print Assumptions C144_verdict.
Print Assumptions C144_stopped.
Print Assumptions C144_outside_refuted.
Print Assumptions C144_fatal_outside_refuted.
Print Assumptions C144_complete_refuted.
