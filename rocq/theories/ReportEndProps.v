(** C93: the reporter is told about every test that ran, once, as what its
    result is; the assertion in report_test_end. *)

From Coq Require Import List Bool Arith PeanoNat Lia.
From Verif Require Import Events Core CoreSpec CoreBase CleanupSim SessionSim Frame Records RunnerSpec Runner RunLoop RunSession Generic ReportEnd.
Import ListNotations.

(** ** The trace only grows *)

Section P.
Variable E : env.

Definition extends (tr0 : list event) (s : state) : Prop := exists l, st_trace s = tr0 ++ l.

Lemma extends_refl s : extends (st_trace s) s.
Proof. exists []. rewrite app_nil_r. reflexivity. Qed.

Lemma extends_frame tr0 s s' : frame s s' -> extends tr0 s -> extends tr0 s'.
Proof. intros F (l & H). destruct (f_trace _ _ F) as (l' & H' & _). exists (l ++ l'). rewrite H', H, app_assoc. reflexivity. Qed.

Lemma extends_relf tr0 m : relf m -> pres (extends tr0) m.
Proof. intros H s. apply extends_frame. apply H. Qed.

Lemma extends_emit tr0 e s : extends tr0 s -> extends tr0 (emit e s).
Proof. intros (l & H). exists (l ++ [e]). cbn [emit st_trace]. rewrite H, app_assoc. reflexivity. Qed.

Lemma extends_alike tr0 s s' : alike s s' -> extends tr0 s -> extends tr0 s'.
Proof. intros A (l & H). exists l. rewrite (a_trace _ _ A). exact H. Qed.


Lemma extends_loop tr0 ts last s : extends tr0 s -> extends tr0 (fst (fst (fst (run_loop E last ts s)))).
Proof.
  intros H. apply (gen_run_loop E (extends tr0)); auto.
  - apply extends_alike.
  - intros; apply extends_emit; auto.
  - intros; apply extends_relf; auto. apply frame_tap_add, frame_add_cleanup.
  - intros l fin z (x & Hx). unfold activate_fixture. cbn [fst]. apply extends_emit. exists x. exact Hx.
  - intros; apply extends_relf; auto. apply relf_cm_push.
  - intros; apply extends_relf; auto. apply relf_cm_pop.
  - intros; apply extends_relf; auto. apply relf_fix_pop.
  - intros; apply extends_emit; auto.
Qed.

Lemma extends_tests tr0 ts : pres (extends tr0) (run_tests E ts).
Proof.
  apply (gen_run_tests E (extends tr0)).
  - apply extends_alike.
  - intros; apply extends_emit; auto.
  - intros; apply extends_relf; auto. apply frame_tap_add, frame_add_cleanup.
  - intros l fin z (x & Hx). unfold activate_fixture. cbn [fst]. apply extends_emit. exists x. exact Hx.
  - intros; apply extends_relf; auto. apply relf_cm_push.
  - intros; apply extends_relf; auto. apply relf_cm_pop.
  - intros; apply extends_relf; auto. apply relf_fix_pop.
  - intros; apply extends_emit; auto.
Qed.


(** ** When the assertion holds *)

(** An exception handled as the last thing before a test is reported is either
    new or was recorded on that very test *)
Definition orderly (tr : list event) : Prop :=
  forall p x k f t q r c g, tr = p ++ EvHandle x k f (RTest t) :: EvReportEnd t :: q ->
    In (EvRecord r c (Some x) g) p -> r = RTest t /\ c <> RKNothing.

Lemma orderly_prefix a b : orderly (a ++ b) -> orderly a.
Proof.
  intros H p x k f t q r c g -> Hr. apply (H p x k f t (q ++ b) r c g); auto. rewrite <- app_assoc. reflexivity.
Qed.

Definition reportable (t : nat) (s : state) : Prop :=
  exists r w, lookup t (st_results s) = Some r /\ report_test_end r = Some w.

Lemma reportable_result r : r_started r = true \/ r_skips r <> [] \/ r_errors r <> [] \/ r_failures r <> [] \/ r_interrupted r = true ->
  exists w, report_test_end r = Some w.
Proof.
  intros H. unfold report_test_end, is_success, is_skip, is_error, is_failure.
  destruct (r_errors r), (r_failures r), (r_skips r), (r_interrupted r), (r_started r); simpl; eauto;
    decompose [or] H; congruence.
Qed.

Lemma sources_In x tr : In x (sources tr) -> exists r c g, In (EvRecord r c (Some x) g) tr.
Proof.
  intros H. apply in_flat_map in H as (e & H1 & H2). destruct e; try destruct H2.
  destruct src as [y|]; [|destruct H2]. destruct H2 as [H2|[]]. subst. eauto.
Qed.

Lemma record_reportable K t s src c g :
  W E K s -> c <> RKNothing -> In (EvRecord (RTest t) c src g) (st_trace s) -> reportable t s.
Proof.
  intros HW Ho Hin. pose proof (w_known _ _ _ HW _ _ _ _ Hin) as Hk. apply lookup_In in Hk as [r Hr].
  destruct (w_res _ _ _ HW t r Hr) as [[Me Mf Ms] Mi]. exists r.
  assert (X : exists w, report_test_end r = Some w); [|destruct X as [w X]; eauto].
  apply reportable_result. pose proof (proj2 (recorded_In (RTest t) c src g (st_trace s)) Hin) as Hc. destruct c.
  - right. right. left. intros Hz. rewrite Hz in Me. rewrite <- Me in Hc. exact Hc.
  - right. right. right. left. intros Hz. rewrite Hz in Mf. rewrite <- Mf in Hc. exact Hc.
  - right. left. intros Hz. rewrite Hz in Ms. rewrite <- Ms in Hc. exact Hc.
  - right. right. right. right. rewrite Mi. revert Hc. destruct (recorded (RTest t) RKInterrupt (st_trace s)); [intros []|reflexivity].
  - contradiction.
Qed.

(** handling an exception records it on the current test, or it had been recorded before *)
Lemma handle_reportable K t s x :
  W E K s -> st_test s = Some t -> isinstance (x_kind x) TException = true ->
  orderly (st_trace (handle_exception E x s) ++ [EvReportEnd t]) ->
  reportable t (handle_exception E x s).
Proof.
  intros HW Ht Hx Ho.
  assert (HW' : W E K (handle_exception E x s)).
  { assert (X : pres (W E K) (handling E h_swallowing (reraise x))) by (apply presW_handling, pres_reraise).
    specialize (X s HW). unfold handling, reraise in X. cbn [h_pass h_swallowing] in X.
    change (isinstance_any (x_kind x) []) with false in X. cbv iota in X.
    repeat match type of X with context[if ?b then _ else _] => destruct b end; exact X. }
  set (ev := EvHandle (x_id x) (x_kind x) (x_fatal x) (RTest t)).
  assert (D : (st_trace (handle_exception E x s) = st_trace s ++ [ev] /\ In (x_id x) (st_added s)) \/
              exists c g l, c <> RKNothing /\ st_trace (handle_exception E x s) = (st_trace s ++ [ev]) ++ EvRecord (RTest t) c (Some (x_id x)) g :: l).
  { unfold handle_exception. cbv zeta. rewrite Ht. fold ev. change (st_handled (emit ev s)) with (st_handled s).
    destruct (mem_xid (x_id x) (st_handled s)) eqn:Eh.
    { left. split; [reflexivity|]. apply (w_handled _ _ _ HW). apply mem_xid_In. exact Eh. }
    unfold update_current_result. cbn [set_handled emit st_test]. rewrite Ht.
    unfold add_exception. cbn [set_handled emit st_added].
    destruct (mem_xid (x_id x) (st_added s)) eqn:Ea.
    { left. split; [reflexivity|]. apply mem_xid_In. exact Ea. }
    right. cbv zeta.
    destruct (isinstance_any (x_kind x) [TAssertion]); [do 3 eexists; split; [|reflexivity]; discriminate|].
    destruct (isinstance_any (x_kind x) (skip_types E)); [do 3 eexists; split; [|reflexivity]; discriminate|].
    destruct (isinstance_any (x_kind x) interruption_types).
    - match goal with |- context[if ?b then _ else _] => destruct b end.
      + exists RKInterrupt, (x_fatal x), []. split; [discriminate|reflexivity].
      + exists RKInterrupt, (x_fatal x), [EvHook HTestInterrupt t]. split; [discriminate|].
        cbn [on_result emit st_trace set_results set_global set_added set_handled]. rewrite <- !app_assoc. reflexivity.
    - destruct (x_kind x); try discriminate; (do 3 eexists; split; [|reflexivity]; discriminate). }
  destruct D as [[D1 D2]|(c & g & l & D0 & D)].
  - rewrite (w_added _ _ _ HW), <- in_rev in D2. apply sources_In in D2 as (r & c & g & D2).
    destruct (Ho (st_trace s) (x_id x) (x_kind x) (x_fatal x) t [] r c g) as [-> D3]; auto.
    { rewrite D1, <- app_assoc. reflexivity. }
    eapply record_reportable; eauto. rewrite D1. apply in_or_app. left. exact D2.
  - eapply record_reportable; eauto. rewrite D. apply in_or_app. right. left. reflexivity.
Qed.

Lemma single_reported K t hn s s' :
  W E K s -> sum_ok (st_trace s) -> run_single E t hn s = (s', ONormal) ->
  orderly (st_trace s' ++ [EvReportEnd (t_id t)]) -> reportable (t_id t) s'.
Proof.
  intros HW Hs H Hord.
  assert (HW' : W E K s') by (pose proof (presW_run_single E K t hn s HW) as X; rewrite H in X; exact X).
  rewrite run_single_finish in H. unfold test_context in H.
  unfold finally at 1, seq at 1 2, upd at 1, create_result in H.
  change (st_results (set_test (Some (t_id t)) s)) with (st_results s) in H.
  destruct (lookup (t_id t) (st_results s)) as [r0|] eqn:El.
  { unfold raise_new, upd in H. inversion H. }
  pose proof (W_create E K (t_id t) s HW El) as H1. set (s1 := set_results _ _) in *.
  change (set_results (st_results (set_test (Some (t_id t)) s) ++ [(t_id t, result0)]) (set_test (Some (t_id t)) s)) with s1 in H.
  assert (Ek : keys s1 = keys s ++ [t_id t]) by (unfold keys, s1; simpl; rewrite map_app; reflexivity).
  unfold finally, seq, upd in H. change (st_result s1) with (st_result s) in H.
  set (s2 := set_result (RTest (t_id t)) s1) in *.
  assert (Hp : knownK (t_id t :: keys s) (st_result s)).
  { pose proof (w_cur _ _ _ HW) as Hc. destruct (st_result s); simpl in *; auto. }
  assert (H2 : W E (t_id t :: keys s) s2) by (apply W_set_result; [left; auto|exact H1]).
  destruct (handling E h_swallowing (finish E t hn (st_result s)) s2) as [s3 o3] eqn:Eh.
  assert (o3 = ONormal) by (destruct o3; inversion H; auto). subst o3.
  assert (Hs' : s' = set_test (st_test s) (set_result (st_result s) s3)) by (inversion H; auto).
  assert (Q : reportable (t_id t) s3).
  { assert (Hran : forall z, ran (t_id t) z -> reportable (t_id t) z).
    { intros z (r & Hr & Hg). destruct (reportable_result r) as [w Hw]; [tauto|]. exists r, w. auto. }
    unfold handling in Eh. destruct (finish E t hn (st_result s) s2) as [s4 o4] eqn:Ef.
    assert (Ho4 : o4 <> OFuel) by (intros ->; inversion Eh).
    assert (Hin : In (t_id t) (keys s2)) by (change (keys s2) with (keys s1); rewrite Ek; apply in_or_app; right; left; auto).
    destruct (finish_spec E (t_id t :: keys s) t hn (st_result s) s2 s4 o4 H2 Hp Hin Hs eq_refl Ef Ho4) as [_ [R|[Rx Ro]]].
    - apply Hran. destruct o4 as [|x|]; [inversion Eh; subst; exact R| |contradiction].
      repeat match type of Eh with context[if ?b then _ else _] => destruct b end; inversion Eh; subst; auto;
        eapply ran_frame; try exact R; apply frame_handle.
    - destruct o4 as [|x|]; [contradiction| |contradiction].
      pose proof (frame_of _ _ _ _ (relf_exec E _) Rx) as F4. pose proof (f_test _ _ F4) as T4. change (st_test s2) with (Some (t_id t)) in T4.
      cbn [h_pass h_swallowing] in Eh. change (isinstance_any (x_kind x) []) with false in Eh. cbv iota in Eh.
      assert (Hx : s3 = handle_exception E x s4 /\ isinstance (x_kind x) TException = true).
      { destruct (_ || _); [discriminate|]. cbn [h_swallow h_types h_swallowing app] in Eh.
        destruct (isinstance_any (x_kind x) [TException]) eqn:Ei; [|discriminate]. inversion Eh. split; [reflexivity|].
        unfold isinstance_any in Ei. cbn [existsb] in Ei. destruct (isinstance (x_kind x) TException); [reflexivity|discriminate]. }
      destruct Hx as [-> Hx]. eapply handle_reportable; [|exact T4|exact Hx|].
      + pose proof (presW_exec E (t_id t :: keys s) (t_req t) s2 H2) as X. rewrite Rx in X. exact X.
      + rewrite Hs' in Hord. exact Hord. }
  subst s'. exact Q.
Qed.

Lemma sum_ok_single K t hn s s' o :
  W E K s -> sum_ok (st_trace s) -> run_single E t hn s = (s', o) -> o <> OFuel -> sum_ok (st_trace s').
Proof. intros A B C D. apply (g_sum _ _ _ _ (single_spec E K t hn s s' o A B C D)). Qed.

Lemma sum_ok_emit e s : benign e = true -> sum_ok (st_trace s) -> sum_ok (st_trace (emit e s)).
Proof.
  intros He H. cbn [emit st_trace]. apply sum_ok_app; auto. intros h t [Hin|[]]. subst e.
  destruct h; simpl in *; auto; discriminate.
Qed.

Lemma sum_ok_emit' e s : (forall h t, e <> EvHook h t) -> sum_ok (st_trace s) -> sum_ok (st_trace (emit e s)).
Proof.
  intros He H. cbn [emit st_trace]. apply sum_ok_app; auto. intros h t [Hin|[]]. subst e. destruct (He h t eq_refl).
Qed.

Lemma loop_reporting ts : forall last s,
  W E [] s -> sum_ok (st_trace s) -> orderly (st_trace (fst (fst (fst (run_loop E last ts s))))) ->
  run_loop_reporting E last ts s = run_loop E last ts s.
Proof.
  induction ts as [|t rest IH]; intros last s HW HS HO; [reflexivity|].
  cbn [run_loop run_loop_reporting] in *.
  pose proof (presW_metadata E [] (t_id t) s HW) as HW1.
  assert (HS1 : sum_ok (st_trace (fst (set_metadata E (t_id t) s)))).
  { unfold set_metadata. destruct (lookup _ _); [exact HS|]. destruct (e_worker E); exact HS. }
  destruct (set_metadata E (t_id t) s) as [s1 [| x |]]; cbn [fst] in *; auto.
  set (s2 := emit (EvReportStart (t_id t)) (if file_differs last (t_file t) then emit (EvFileStart (t_file t)) s1 else s1)) in *.
  assert (HW2 : W E [] s2).
  { apply W_emit; auto. destruct (file_differs _ _); auto. apply W_emit; auto. }
  assert (HS2 : sum_ok (st_trace s2)).
  { apply sum_ok_emit'; [intros ? ?; discriminate|]. destruct (file_differs _ _); auto. apply sum_ok_emit'; [intros ? ?; discriminate|auto]. }
  pose proof (presW_run_single E [] t (nonempty rest) s2 HW2) as HW3.
  destruct (run_single E t (nonempty rest) s2) as [s3 [| x |]] eqn:Es; cbn [fst] in *; auto.
  assert (HS3 : sum_ok (st_trace s3)) by (apply (sum_ok_single [] _ _ _ _ _ HW2 HS2 Es); discriminate).
  set (s4 := emit (EvReportEnd (t_id t)) s3) in *.
  set (s5 := match rest with [] => emit (EvFileEnd (t_file t)) s4
             | t' :: _ => if Nat.eqb (t_file t') (t_file t) then s4 else emit (EvFileEnd (t_file t)) s4 end) in *.
  assert (X5 : extends (st_trace s4) s5).
  { assert (extends (st_trace s4) s4) by apply extends_refl.
    unfold s5. destruct rest; [apply extends_emit; auto|]. destruct (Nat.eqb _ _); auto. apply extends_emit; auto. }
  assert (R5 : st_results s5 = st_results s3).
  { unfold s5. destruct rest; auto. destruct (Nat.eqb _ _); auto. }
  assert (HO3 : orderly (st_trace s4)).
  { match type of HO with orderly (st_trace (fst (fst (fst ?e)))) => assert (X : extends (st_trace s4) (fst (fst (fst e)))) end.
    { repeat match goal with |- context[if ?b then _ else _] => destruct b end; cbn [fst]; auto. apply extends_loop. auto. }
    destruct X as (l & X). rewrite X in HO. eapply orderly_prefix. exact HO. }
  destruct (single_reported [] t (nonempty rest) s2 s3 HW2 HS2 Es HO3) as (r & w & Hr & Hw).
  change (st_results s4) with (st_results s3). rewrite R5 in *. rewrite Hr in *. rewrite Hw.
  destruct (has_fatal r); auto. destruct (e_stop E && negb (session_success true s5)); auto.
  apply IH; auto.
  - assert (HW4 : W E [] s4) by (apply W_emit; auto).
    unfold s5. destruct rest; [apply W_emit; auto|]. destruct (Nat.eqb _ _); auto. apply W_emit; auto.
  - assert (HS4 : sum_ok (st_trace s4)) by (apply sum_ok_emit'; [intros ? ?; discriminate|auto]).
    unfold s5. destruct rest; [apply sum_ok_emit'; [intros ? ?; discriminate|auto]|]. destruct (Nat.eqb _ _); auto. apply sum_ok_emit'; [intros ? ?; discriminate|auto].
Qed.

Lemma tests_reporting ts s :
  W E [] s -> sum_ok (st_trace s) -> orderly (st_trace (fst (run_tests E ts s))) ->
  run_tests_reporting E ts s = run_tests E ts s.
Proof.
  intros HW HS HO. unfold run_tests_reporting. rewrite loop_reporting; auto.
  unfold run_tests in HO. destruct (run_loop E None ts s) as [[[s1 o] e] last]. cbn [fst].
  match type of HO with orderly (st_trace (fst ?m)) => assert (X : extends (st_trace s1) (fst m)) end.
  { pose proof (extends_refl s1) as X1.
    assert (X2 : pres (extends (st_trace s1)) (if e_worker E then ret else initiate_cleanup E)).
    { destruct (e_worker E); [apply extends_relf, relf_ret|apply extends_relf, relf_initiate]. }
    specialize (X2 s1 X1).
    destruct o; auto; destruct ((if e_worker E then ret else initiate_cleanup E) s1) as [s2 [| x' |]]; cbn [fst] in *; auto.
    destruct (e_worker E); auto. unfold seq.
    destruct (mark_unrun (match e with LBreak r => r | _ => [] end) s2) as [s3 o3] eqn:Em.
    destruct (mark_unrun_spec _ _ _ _ Em) as ((U1 & U2) & _).
    assert (X3 : extends (st_trace s1) s3).
    { destruct X2 as (l & X2). exists l. congruence. }
    destruct o3; cbn [fst]; auto. destruct e, last; cbn [upd fst ret]; auto; apply extends_emit; auto. }
  destruct X as (l & X). rewrite X in HO. eapply orderly_prefix. exact HO.
Qed.


Lemma extends_tail tr0 m : rel tail m -> pres (extends tr0) m.
Proof. intros H s (l & X). destruct (l_trace _ _ (H s)) as (l' & X' & _). exists (l ++ l'). rewrite X', X, app_assoc. reflexivity. Qed.

(** The session with the assertion is the session without it *)
Theorem C93_reported_partial ts :
  orderly (st_trace (fst (run_session E ts))) -> run_session_reporting E ts = run_session E ts.
Proof.
  unfold run_session_reporting, run_session, started_context. fold (preamble E). fold (closing E).
  unfold finally, except_, upd, seq. destruct (cm_push SSessionGlobal state0) as [sa oa] eqn:Ea.
  assert (Wa : W E [] sa) by (pose proof (presW_cm_push E [] SSessionGlobal state0 (W_state0 E)) as X; rewrite Ea in X; exact X).
  assert (Ta : tail state0 sa) by (apply frame_tail; eapply frame_of; [apply relf_cm_push|exact Ea]).
  destruct oa; auto. set (sb := set_ss false sa).
  assert (Tb : tail state0 sb) by (eapply tail_trans; [exact Ta|apply (relt_set_ss false sa)]).
  assert (Wb : W E [] sb).
  { eapply W_wstep; [|exact Wa]. constructor; try reflexivity; [apply incl_refl|exists []; rewrite app_nil_r; auto]. }
  clearbody sb.
  destruct (preamble E sb) as [sd od] eqn:Ep.
  assert (Wd : W E [] sd).
  { assert (X : pres (W E []) (preamble E)).
    { apply presW_handling. repeat first [apply presW_fire | apply pres_seq | apply presW_step; intros; constructor; try reflexivity; [apply incl_refl|exists []; rewrite app_nil_r; auto]]. }
    specialize (X sb Wb). rewrite Ep in X. exact X. }
  assert (Td : tail state0 sd) by (eapply tail_trans; [exact Tb|]; pose proof (relt_preamble E sb) as X; rewrite Ep in X; exact X).
  assert (Sd : sum_ok (st_trace sd)).
  { destruct (l_trace _ _ Td) as (l & L1 & L2). simpl in L1. destruct (calm_benign l L2) as (L3 & _).
    rewrite L1. change l with ([] ++ l). apply sum_ok_app; [intros p h t q X; destruct p; discriminate|].
    intros h t Hin. rewrite forallb_forall in L3. apply L3 in Hin. destruct h; simpl in *; auto; discriminate. }
  destruct od; auto. intros HO. rewrite tests_reporting; auto.
  destruct (run_tests E ts sd) as [se oe]. cbn [fst].
  match type of HO with orderly (st_trace (fst ?m)) => assert (X : extends (st_trace se) (fst m)) end.
  { assert (C : forall z, extends (st_trace se) z -> extends (st_trace se) (fst (closing E z))).
    { intros z. apply extends_tail, relt_closing. }
    assert (F : forall x, extends (st_trace se) (fst ((fire E HSessionInterrupt 0 ;; reraise x) se))).
    { intros x. apply extends_tail; [|apply extends_refl]. apply relt_seq; [apply relt_fire; reflexivity|]. intros z; apply tail_refl. }
    unfold seq in F. pose proof (extends_refl se) as R.
    destruct oe as [|x|]; [specialize (C se R)| |exact R].
    - destruct (closing E se) as [z [| y |]]; auto.
    - destruct (isinstance_any (x_kind x) interruption_types).
      + specialize (F x). match type of F with extends _ (fst ?m) => destruct m as [z oz] end. cbn [fst] in F. specialize (C z F).
        destruct oz; [destruct (closing E z) as [z' [| y |]]; auto|destruct (closing E z) as [z' [| y |]]; auto|exact F].
      + specialize (C se R). destruct (closing E se) as [z [| y |]]; auto. }
  destruct X as (l & X). rewrite X in HO. eapply orderly_prefix. exact HO.
Qed.

End P.

(** ** What is reported *)

(** The five cases and the assertion, for every result *)
Theorem C93_kind r :
  (report_test_end r = Some RpSkip <-> r_skips r <> []) /\
  (report_test_end r = Some RpError <-> r_skips r = [] /\ r_errors r <> []) /\
  (report_test_end r = Some RpInterrupted <-> r_skips r = [] /\ r_errors r = [] /\ r_interrupted r = true) /\
  (report_test_end r = Some RpFailure <-> r_skips r = [] /\ r_errors r = [] /\ r_interrupted r = false /\ r_failures r <> []) /\
  (report_test_end r = Some RpSuccess <->
     r_skips r = [] /\ r_errors r = [] /\ r_interrupted r = false /\ r_failures r = [] /\ r_started r = true) /\
  (report_test_end r = None <->
     r_skips r = [] /\ r_errors r = [] /\ r_interrupted r = false /\ r_failures r = [] /\ r_started r = false).
Proof.
  unfold report_test_end, is_success, is_skip, is_error, is_failure.
  destruct (r_errors r), (r_failures r), (r_skips r), (r_interrupted r), (r_started r); cbn;
    repeat split; intros; try discriminate; try tauto; intuition congruence.
Qed.

(** The method that goes with a summary hook *)
Definition same_kind (h : hook) (w : report) : Prop :=
  match h, w with
  | HTestSuccess, RpSuccess | HTestSkip, RpSkip | HTestError, RpError | HTestFailure, RpFailure => True
  | _, _ => False
  end.

(** Reporter and plugins are told the same, unless the test was interrupted or
    has both failures and skips and no error *)
Theorem C93_agree_partial r :
  r_started r = true -> r_interrupted r = false ->
  (r_failures r = [] \/ r_skips r = [] \/ r_errors r <> []) ->
  exists w, report_test_end r = Some w /\ same_kind (summary_hook r) w.
Proof.
  unfold report_test_end, summary_hook, is_success, is_skip, is_just_failure, is_error, is_failure.
  intros -> ->. destruct (r_errors r), (r_failures r), (r_skips r); cbn; intros [H|[H|H]]; try discriminate; try congruence;
    eexists; (split; [reflexivity|exact I]).
Qed.

(** the hook chosen by [summary_hook] is the one [Core.fire_summary] fires *)
Lemma summary_hook_fired E t s r : lookup t (st_results s) = Some r ->
  fire_summary E t s = handling E h_plain (fun s => fire E (summary_hook r) t s) s.
Proof.
  intros H. unfold fire_summary, handling. rewrite H. unfold summary_hook.
  destruct (is_just_failure r); auto. destruct (is_skip r); auto. destruct (is_success false r); auto.
Qed.

(** ** Examples and refutations *)

Definition rp_env := mkEnv (fun _ _ => PDone) (fun _ => (KUser 0, false)) [] false false 0 (fun _ _ => false).
Definition rp_test i req unmet body := mkTest i (Some 1) 1 req unmet false body.

Definition rp_of (r : state * outcome) (t : nat) : option (option report) := option_map report_test_end (lookup t (st_results (fst r))).

(** A test that runs, one that breaks the requirement check, one with an unmet
    requirement, one that fails and registers a cleanup of the session that
    raises, one that is interrupted later *)
Definition rp_tests := [
  rp_test 1 PDone 0 PDone;
  rp_test 2 (PRaise (KUser 3) false) 0 PDone;
  rp_test 3 PDone 2 PDone;
  rp_test 4 PDone 0 (PAdd (SGiven (Some SSession)) false false (PRaiseObj 7) (PFail false PDone));
  rp_test 5 (PRaiseObj 2) 0 PDone;
  rp_test 6 PDone 0 (PErr false PDone)].

(** a computable form of [orderly] *)
Fixpoint orderlyb (before tr : list event) : bool :=
  match tr with
  | [] => true
  | e :: rest =>
      match e with
      | EvHandle x _ _ (RTest t) =>
          match rest with
          | EvReportEnd t' :: _ =>
              negb (Nat.eqb t' t) ||
              forallb (fun e => match e with
                                | EvRecord r c (Some y) _ => negb (xid_eqb x y) || rref_eqb r (RTest t) && negb (rkind_eqb c RKNothing)
                                | _ => true end) before
          | _ => true
          end
      | _ => true
      end && orderlyb (before ++ [e]) rest
  end.

Lemma orderlyb_ok tr : forall before, orderlyb before tr = true ->
  forall p x k f t q r c g, tr = p ++ EvHandle x k f (RTest t) :: EvReportEnd t :: q ->
    In (EvRecord r c (Some x) g) (before ++ p) -> r = RTest t /\ c <> RKNothing.
Proof.
  induction tr as [|e rest IH]; intros before H.
  { intros p x k f t q r c g Heq. destruct p; discriminate. }
  cbn [orderlyb] in H. apply andb_true_iff in H as [H1 H2]. pose proof (IH _ H2) as B.
  intros p x k f t q r c g Heq Hin. destruct p as [|e' p]; cbn [app] in Heq; injection Heq as -> Heq.
  - rewrite Heq in H1. rewrite Nat.eqb_refl in H1. cbn [negb orb] in H1. rewrite forallb_forall in H1.
    rewrite app_nil_r in Hin. apply H1 in Hin. rewrite (proj2 (xid_eqb_eq x x) eq_refl) in Hin. cbn [negb orb] in Hin.
    apply andb_true_iff in Hin as [Hin Hc]. split; [apply rref_eqb_eq; exact Hin|]. intros ->. discriminate.
  - apply (B p x k f t q r c g Heq). rewrite <- app_assoc. exact Hin.
Qed.

Example C93_reported_met :
  orderly (st_trace (fst (run_session rp_env rp_tests))) /\
  map (rp_of (run_session_reporting rp_env rp_tests)) [1; 2; 3; 4; 5; 6] =
    map (fun w => Some (Some w)) [RpSuccess; RpError; RpSkip; RpError; RpError; RpError] /\
  snd (run_session_reporting rp_env rp_tests) = ONormal /\
  In (EvRecord (RTest 4) RKError (Some (XObj 7)) false) (st_trace (fst (run_session_reporting rp_env rp_tests))).
Proof.
  split; [refine (orderlyb_ok _ [] _); vm_compute; reflexivity|]. split; [vm_compute; reflexivity|].
  split; [vm_compute; reflexivity|]. vm_compute. tauto.
Qed.

(** A requirement predicate that raises one stored exception object for two
    tests: the second time it counts as handled, nothing is recorded, and the
    assertion ends the run before the third test *)
Theorem C93_stored_refuted : exists E ts,
  map t_id ts = [1; 2; 3] /\
  (exists x, snd (run_session_reporting E ts) = ORaise x /\ x_kind x = KAssertion) /\
  snd (run_session E ts) = ONormal /\
  rp_of (run_session_reporting E ts) 2 = Some None /\
  ~ In (EvReportStart 3) (st_trace (fst (run_session_reporting E ts))).
Proof.
  exists rp_env, [rp_test 1 (PRaiseObj 2) 0 PDone; rp_test 2 (PRaiseObj 2) 0 PDone; rp_test 3 PDone 0 PDone].
  split; [reflexivity|]. split; [eexists; split; [vm_compute; reflexivity|reflexivity]|]. split; [vm_compute; reflexivity|].
  split; [vm_compute; reflexivity|]. vm_compute. intuition discriminate.
Qed.

(** A test with a failure that is skipped afterwards: the plugins hear of a
    failure, the reporter of a skip *)
Theorem C93_agree_refuted : exists E ts t,
  In (EvHook HTestFailure t) (st_trace (fst (run_session_reporting E ts))) /\
  ~ In (EvHook HTestSkip t) (st_trace (fst (run_session_reporting E ts))) /\
  rp_of (run_session_reporting E ts) t = Some (Some RpSkip).
Proof.
  exists rp_env, [rp_test 1 PDone 0 (PFail false (PRaise KSkip false))], 1.
  split; [vm_compute; tauto|]. split; [vm_compute; intuition discriminate|]. vm_compute. reflexivity.
Qed.

Example C93_agree_met :
  let r := mkResult [] [mkEntry None false] [] true true false in
  exists w, report_test_end r = Some w /\ same_kind (summary_hook r) w /\ w = RpFailure.
Proof. exists RpFailure. vm_compute. tauto. Qed.

Print Assumptions C93_reported_partial.
Print Assumptions C93_kind.
Print Assumptions C93_agree_partial.
Print Assumptions C93_stored_refuted.
Print Assumptions C93_agree_refuted.
