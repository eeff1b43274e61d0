(** The runner: properties C17-C22, C24, C56, C57 for every session.
    Vocabulary: RunnerSpec.v, CoreSpec.v. *)

From Coq Require Import List Bool Arith PeanoNat Lia.
From Verif Require Import Events Core CoreSpec CoreBase SessionSim Frame Records RunnerSpec Runner RunLoop RunSession CleanupProps.
Import ListNotations.

Lemma final E ts : Fin E ts (fst (run_session E ts)) (snd (run_session E ts)).
Proof. destruct (run_session E ts) as [s o] eqn:H. apply (session_Fin E ts s o H). Qed.

Lemma final_Tr E ts : exists ran rest, ts = ran ++ rest /\ Tr E (map t_id ran) (session_trace E ts).
Proof. destruct (final E ts) as [(ran & rest & A & B & _) _ _]. exists ran, rest. auto. Qed.

Lemma filter_sub {A} (f g : A -> bool) l : (forall x, f x = true -> g x = true) -> filter f l = filter f (filter g l).
Proof.
  intros H. induction l as [|a l IH]; simpl; auto. destruct (g a) eqn:G; simpl; rewrite IH; auto.
  destruct (f a) eqn:F; auto. apply H in F. congruence.
Qed.

Lemma filter_concat {A} (f : A -> bool) ls : filter f (concat ls) = concat (map (filter f) ls).
Proof. induction ls; simpl; auto. rewrite filter_app, IHls. auto. Qed.

(** ** C17 *)

(** All firings of test_start and test_end in a session: start t1, end t1,
    start t2, end t2, ... for distinct tests, each of which was reported as
    started. *)
Theorem C17_start_end_paired : forall E ts, exists l,
  NoDup l /\ (forall t, In t l -> In (EvReportStart t) (session_trace E ts)) /\
  filter is_bound (session_trace E ts) = flat_map (fun t => [EvHook HTestStart t; EvHook HTestEnd t]) l.
Proof.
  intros E ts. destruct (final_Tr E ts) as (ran & rest & _ & [A N (segs & B1 & B2 & B3) _ _ _]).
  set (l := map fst (filter (fun p => nonempty (filter is_bound (snd p))) segs)).
  exists l. split; [|split].
  - unfold l. rewrite <- B1 in N. clear - N. induction segs as [|p segs IH]; simpl in *; [constructor|].
    apply NoDup_cons_iff in N as [N1 N2]. destruct (nonempty _); simpl; auto. constructor; auto.
    intros H. apply N1. apply in_map_iff in H as (q & H1 & H2). apply filter_In in H2 as [H2 _].
    rewrite <- H1. apply in_map; auto.
  - intros t Ht. apply report_starts_In. rewrite A, <- B1. unfold l in Ht. apply in_map_iff in Ht as (q & H1 & H2).
    apply filter_In in H2 as [H2 _]. rewrite <- H1. apply in_map; auto.
  - rewrite (filter_sub is_bound thook) by (intros []; simpl; auto; destruct h; auto).
    rewrite B2, filter_concat. unfold l. clear - B3. induction B3 as [|[t L] segs H _ IH]; simpl; auto.
    cbn [fst snd] in *. rewrite IH.
    assert (X : forall r q, is_bound (EvHook (summ r) q) = false).
    { intros r q. pose proof (summ_summary r). destruct (summ r); auto; discriminate. }
    destruct H; cbn [filter]; rewrite ?X; reflexivity.
Qed.

(** ** C18 *)

(** A summary hook is the one prescribed by what the test's result had been
    given when it fired. *)
Theorem C18_summary_matches_result : forall E ts p h t q,
  session_trace E ts = p ++ EvHook h t :: q -> is_summary h = true -> h = prescribed_summary t p.
Proof. intros E ts. destruct (final_Tr E ts) as (ran & rest & _ & [_ _ _ _ S _]). exact S. Qed.

Lemma shape_one t u L : shape t L -> length (filter (is_summary_of u) L) <= 1 /\ (u <> t -> filter (is_summary_of u) L = []).
Proof.
  intros H. assert (X : forall r, is_summary_of u (EvHook (summ r) t) = Nat.eqb u t).
  { intros r. simpl. rewrite summ_summary. auto. }
  destruct H; cbn [filter]; rewrite ?X; simpl; destruct (Nat.eqb u t) eqn:Eu; simpl; split; auto;
    intros Hn; exfalso; apply Hn; apply Nat.eqb_eq; auto.
Qed.

Lemma is_summary_thook u e : is_summary_of u e = true -> thook e = true.
Proof. destruct e; simpl; try discriminate. intros H. apply andb_true_iff in H as [H _]. destruct h; auto. Qed.

Theorem C18_at_most_one_summary : forall E ts t,
  length (filter (is_summary_of t) (session_trace E ts)) <= 1.
Proof.
  intros E ts t. destruct (final_Tr E ts) as (ran & rest & _ & [A N (segs & B1 & B2 & B3) _ _ _]).
  rewrite (filter_sub _ thook) by apply is_summary_thook. rewrite B2, filter_concat. rewrite <- B1 in N.
  clear - B3 N. induction B3 as [|[u L] segs H HF IH]; simpl; auto. cbn [fst snd map] in *.
  apply NoDup_cons_iff in N as [N1 N2]. specialize (IH N2). destruct (shape_one u t L H) as [C D].
  rewrite app_length. destruct (Nat.eq_dec t u) as [->|Hn]; [|rewrite (D Hn); auto].
  replace (concat (map (filter (is_summary_of u)) (map snd segs))) with (@nil event); [simpl; lia|].
  symmetry. clear - HF N1. induction HF as [|[v L] segs H HF IH]; simpl in *; auto.
  rewrite (proj2 (shape_one v u L H)) by (intros ->; apply N1; auto). apply IH. intros X. apply N1; auto.
Qed.

(** A test that was started and whose execution ended without an interruption
    (or other exception that is not an Exception) gets exactly one. *)
Theorem C18_exactly_one_summary : forall E ts p t m q,
  session_trace E ts = p ++ EvReportStart t :: m ++ EvReportEnd t :: q ->
  In (EvHook HTestStart t) m -> ~ unusual m ->
  length (filter (is_summary_of t) (session_trace E ts)) = 1.
Proof.
  intros E ts p t m q H H1 H2. pose proof (C18_at_most_one_summary E ts t) as L.
  destruct (final_Tr E ts) as (ran & rest & _ & [_ _ _ G _ _]). destruct (G p t m q H H1) as [(h & A & B)|X]; [|contradiction].
  assert (In (EvHook h t) (filter (is_summary_of t) (session_trace E ts))).
  { apply filter_In. split; [|simpl; rewrite A, Nat.eqb_refl; auto]. rewrite H. apply in_or_app. right. right. apply in_or_app; auto. }
  destruct (filter (is_summary_of t) (session_trace E ts)); [contradiction|]. simpl in *. lia.
Qed.

(** ** C57 *)

Definition skip_then_error : test :=
  mkTest 7 (Some 1) 1 PDone 0 false (PAdd SDefault false false (PRaise (KUser 1) false) (PRaise KSkip false)).

(** A test that is skipped and whose cleanup fails has an error, but test_skip is
    the hook that fires. *)
Theorem C57_error_reported_refuted : exists E ts t,
  In (EvRecord (RTest t) RKError (Some (XFresh 1)) false) (session_trace E ts) /\
  filter (is_summary_of t) (session_trace E ts) = [EvHook HTestSkip t].
Proof. exists env0, [skip_then_error], 7. split; [in_dec|vm_compute; reflexivity]. Qed.

(** It holds when the result has no skip. *)
Theorem C57_error_reported_partial : forall E ts p h t q src f,
  session_trace E ts = p ++ EvHook h t :: q -> is_summary h = true ->
  In (EvRecord (RTest t) RKError src f) p ->
  (forall src' f', ~ In (EvRecord (RTest t) RKSkip src' f') p) ->
  h = HTestError.
Proof.
  intros E ts p h t q src f H Hs He Hk. rewrite (C18_summary_matches_result E ts p h t q H Hs).
  unfold prescribed_summary, got. apply recorded_In in He.
  destruct (recorded (RTest t) RKError p); [destruct He|].
  destruct (recorded (RTest t) RKSkip p) as [|[src' f'] lk] eqn:Ek.
  - destruct (recorded (RTest t) RKFailure p); reflexivity.
  - exfalso. apply (Hk src' f'). apply recorded_In. rewrite Ek. left; auto.
Qed.

(** ** C19 *)

Theorem C19_executed_tests_form_a_prefix : forall E ts,
  exists n, report_starts (session_trace E ts) = firstn n (map t_id ts) /\ NoDup (report_starts (session_trace E ts)).
Proof.
  intros E ts. destruct (final_Tr E ts) as (ran & rest & -> & [A N _ _ _ _]). exists (length (map t_id ran)).
  rewrite A, map_app, firstn_app, firstn_all, Nat.sub_diag. simpl. rewrite app_nil_r. auto.
Qed.

(** If no exception escapes, every test has exactly one result; the tests that
    were not executed have one that is not marked started. *)
Theorem C19_one_result_per_test : forall E ts,
  e_worker E = false -> snd (run_session E ts) = ONormal ->
  map fst (st_results (fst (run_session E ts))) = map t_id ts /\ NoDup (map t_id ts) /\
  (forall t, In t ts -> ~ In (EvReportStart (t_id t)) (session_trace E ts) ->
     exists r, In (t_id t, r) (st_results (fst (run_session E ts))) /\ r_started r = false).
Proof.
  intros E ts Hw Ho. destruct (final E ts) as [(ran & rest & A & B & _ & _ & C & _) _ _].
  destruct (C Ho Hw) as (C1 & C2 & _). split; [exact C1|]. split.
  - rewrite <- C1. apply (w_keys _ _ _ (session_records E ts)).
  - intros t Ht Hn. subst ts. apply in_app_or in Ht as [Ht|Ht].
    + exfalso. apply Hn. apply report_starts_In. unfold session_trace. rewrite (t_starts _ _ _ B). apply in_map; auto.
    + destruct (C2 t Ht) as (r & X & Y). exists r. split; auto. apply lookup_split; auto.
Qed.

(** ** C20 *)

(** No test starts after a test that ended with a fatal error, nor with
    stop_on_error after a test that ended in an unsuccessful session. *)
Theorem C20_no_test_starts_after_stop : forall E ts p t q,
  session_trace E ts = p ++ EvReportStart t :: q -> ~ must_stop (e_stop E) p.
Proof. intros E ts. destruct (final_Tr E ts) as (ran & rest & _ & [_ _ _ _ _ S]). exact S. Qed.

(** If no exception escapes and no stop is called for, every test is executed
    and the session is marked complete. *)
Theorem C20_otherwise_complete : forall E ts,
  e_worker E = false -> snd (run_session E ts) = ONormal ->
  (forall p t q, session_trace E ts = p ++ EvReportEnd t :: q ->
     ~ fatal_on t p /\ (e_stop E = true -> ~ unsuccessful p /\ forall x k f r, ~ In (EvHandle x k f r) p)) ->
  report_starts (session_trace E ts) = map t_id ts /\ In EvComplete (session_trace E ts).
Proof.
  intros E ts Hw Ho Hc. destruct (final E ts) as [(ran & rest & A & B & _ & C1 & C & _) _ _].
  assert (Nc : ~ cause E (session_trace E ts)).
  { intros (p & t & q & X & Y). destruct (Hc p t q X) as [Z1 Z2]. destruct Y as [Y|[Y1 Y2]]; [contradiction|].
    destruct (Z2 Y1) as [Z3 Z4]. destruct Y2 as [Y2|(x & k & f & r & Y2)]; [contradiction|]. apply (Z4 x k f r Y2). }
  destruct (C Ho Hw) as (_ & _ & [D|D]); [contradiction|]. split; [|exact D].
  unfold session_trace. rewrite (t_starts _ _ _ B), A. destruct rest; [rewrite app_nil_r; auto|].
  exfalso. apply Nc. apply C1; auto. discriminate.
Qed.

(** ** C21 *)

(** context.test and context.result are restored after each test, whatever is
    raised ([OFuel] never happens in a session, see SessionSim.safe_session). *)
Theorem C21_context_restored : forall E t has_next s,
  snd (run_single E t has_next s) <> OFuel ->
  st_test (fst (run_single E t has_next s)) = st_test s /\
  st_result (fst (run_single E t has_next s)) = st_result s.
Proof.
  intros E t hn s. rewrite run_single_finish. unfold test_context, finally, seq, upd, create_result.
  change (st_results (set_test (Some (t_id t)) s)) with (st_results s).
  destruct (lookup (t_id t) (st_results s)); [intros _; split; reflexivity|].
  set (s1 := set_results _ _). change (st_result s1) with (st_result s).
  destruct (handling E h_swallowing (finish E t hn (st_result s)) (set_result (RTest (t_id t)) s1)) as [s2 [| x |]];
    cbn; intros H; auto; contradiction.
Qed.

Lemma run_loop_restores E ts : forall last s s' o e last',
  run_loop E last ts s = (s', o, e, last') -> o <> OFuel ->
  st_test s' = st_test s /\ st_result s' = st_result s.
Proof.
  induction ts as [|t rest IH]; intros last s s' o e last' H Ho; cbn [run_loop] in H; [inversion H; subst; auto|].
  destruct (set_metadata E (t_id t) s) as [s1 o1] eqn:Em.
  assert (M : st_test s1 = st_test s /\ st_result s1 = st_result s).
  { unfold set_metadata in Em. destruct (lookup _ _); [inversion Em; subst; auto|]. destruct (e_worker E); inversion Em; subst; auto. }
  destruct o1; try (inversion H; subst; auto; fail).
  match type of H with context[run_single E t ?b ?x] => set (s2 := x) in *;
    pose proof (C21_context_restored E t b s2) as R; destruct (run_single E t b s2) as [s3 o3] end.
  assert (S2 : st_test s2 = st_test s /\ st_result s2 = st_result s).
  { unfold s2. destruct (file_differs _ _); cbn; auto. }
  cbn [fst snd] in R.
  destruct o3; try (inversion H; subst; destruct R; try congruence; destruct S2; split; congruence).
  destruct R as [R1 R2]; [discriminate|].
  match type of H with context[match rest with [] => emit ?ev ?s5 | _ => _ end] =>
    set (s6 := match rest with [] => emit ev s5 | t' :: _ => if Nat.eqb (t_file t') (t_file t) then s5 else emit ev s5 end) in * end.
  assert (S6 : st_test s6 = st_test s /\ st_result s6 = st_result s).
  { destruct S2. unfold s6. destruct rest; [cbn; split; congruence|]. destruct (Nat.eqb _ _); cbn; split; congruence. }
  repeat match type of H with context[if ?b then _ else _] => destruct b end; try (inversion H; subst; auto; fail);
    destruct (IH _ _ _ _ _ _ H Ho) as [X Y]; destruct S6; split; congruence.
Qed.

Theorem C21_context_restored_after_all_tests : forall E ts s,
  snd (run_tests E ts s) <> OFuel ->
  st_test (fst (run_tests E ts s)) = st_test s /\ st_result (fst (run_tests E ts s)) = st_result s.
Proof.
  intros E ts s. unfold run_tests. destruct (run_loop E None ts s) as [[[s1 o1] e] last] eqn:El. intros Ho.
  destruct (snd (s1, o1)) eqn:Eo; cbn [snd] in Eo; subst o1.
  3:{ exfalso. apply Ho. reflexivity. }
  all: destruct (run_loop_restores E ts _ _ _ _ _ _ El) as [A B]; [discriminate|];
    pose proof (relf_initiate E s1) as F;
    destruct (e_worker E) eqn:Hw; [cbn in *; auto|];
    destruct (initiate_cleanup E s1) as [s2 [| y |]]; cbn [fst snd] in *;
    rewrite ?(f_test _ _ F), ?(f_result _ _ F); auto.
  unfold seq in *.
  match goal with |- context[mark_unrun ?r s2] => destruct (mark_unrun r s2) as [s3 o3] eqn:Em end.
  destruct (mark_unrun_spec _ _ _ _ Em) as ((_ & _ & _ & U4 & U5 & _) & _ & _).
  pose proof (f_test _ _ F). pose proof (f_result _ _ F).
  destruct o3; cbn [fst]; [|split; congruence|split; congruence].
  destruct e, last; cbn; split; congruence.
Qed.

(** ** C22 *)

Definition fatal_test : test := mkTest 7 (Some 1) 1 PDone 0 false (PErr true PDone).

(** A run that is stopped at the last test of a file reports the end of that
    file twice. *)
Theorem C22_files_balanced_refuted : exists E ts,
  snd (run_session E ts) = ONormal /\ files None (session_trace E ts) = None /\
  filter (fun e => match e with EvFileStart _ | EvFileEnd _ => true | _ => false end) (session_trace E ts) =
    [EvFileStart 1; EvFileEnd 1; EvFileEnd 1].
Proof. exists env0, [fatal_test]. vm_compute. auto. Qed.

(** Otherwise the reports are balanced: the only deviations are a second
    report_file_end for the last file after a run that is stopped ([surplus]),
    and a missing end after an escaping exception. *)
Theorem C22_files_balanced_partial : forall E ts,
  e_worker E = false ->
  let tr := session_trace E ts in
  (In EvComplete tr -> files None tr = Some None) /\
  (snd (run_session E ts) = ONormal -> files None tr = Some None \/ surplus tr) /\
  ((exists open, files None tr = Some open) \/ surplus tr).
Proof.
  intros E ts Hw tr. destruct (final E ts) as [_ F _]. destruct (F Hw) as (A & B & C). auto.
Qed.

(** ** C24 *)

(** The n-th test started has index n. *)
Theorem C24_numbered_in_order : forall E ts n t,
  e_worker E = false ->
  nth_error (report_starts (session_trace E ts)) n = Some t ->
  lookup t (st_idx (fst (run_session E ts))) = Some n.
Proof.
  intros E ts n t Hw Hn. destruct (final E ts) as [(ran & rest & A & B & C & _) _ _]. destruct (C Hw) as [C1 _].
  unfold session_trace in Hn. rewrite (t_starts _ _ _ B) in Hn. pose proof (t_nodup _ _ _ B) as N.
  apply In_lookup.
  - rewrite C1. clear - N. revert N. generalize 0. rewrite <- (map_length t_id ran). generalize (map t_id ran) as l.
    induction l as [|a l IH]; intros k N; simpl; [constructor|]. apply NoDup_cons_iff in N as [N1 N2].
    constructor; [|apply IH; auto]. intros H. apply N1. apply in_map_iff in H as ([x y] & H1 & H2). apply in_combine_l in H2. simpl in H1. subst. auto.
  - rewrite C1, <- (map_length t_id ran). clear - Hn. revert Hn. change n with (0 + n) at 2. generalize 0 as k. revert n.
    generalize (map t_id ran) as l. induction l as [|a l IH]; intros n k Hn; [destruct n; discriminate|].
    destruct n; simpl in *; [inversion Hn; subst; left; f_equal; lia|]. right.
    replace (k + S n) with (S k + n) by lia. apply IH; auto.
Qed.

(** Numbering starts at 0 and has no gaps: the indices given are 0 .. n-1. *)
Theorem C24_no_gaps : forall E ts,
  e_worker E = false ->
  map snd (st_idx (fst (run_session E ts))) = List.seq 0 (length (report_starts (session_trace E ts))).
Proof.
  intros E ts Hw. destruct (final E ts) as [(ran & rest & A & B & C & _) _ _]. destruct (C Hw) as [C1 _].
  unfold session_trace. rewrite (t_starts _ _ _ B), C1, map_length. rewrite <- (map_length t_id ran).
  generalize (List.seq 0 (length (map t_id ran))) (seq_length (length (map t_id ran)) 0). generalize (map t_id ran) as l.
  induction l as [|a l IH]; intros [|b m] H; simpl in *; try discriminate; auto. rewrite IH; auto.
Qed.

(** A test whose index is already set is refused: nothing happens except that
    SlashInternalError is raised. *)
Theorem C24_second_index_refused : forall E t s i,
  lookup t (st_idx s) = Some i ->
  exists x, set_metadata E t s = (set_nx (S (st_nx s)) s, ORaise x) /\ x_kind x = KInternal.
Proof. intros E t s i H. unfold set_metadata. rewrite H. eexists. split; reflexivity. Qed.

(** ** C56 *)

Definition exiting_test : test := mkTest 7 (Some 1) 1 PDone 0 false (PRaise (KSysExit 0) false).

(** sys.exit(0) in a test: the test gets an error, yet the exit code is 0. *)
Theorem C56_exit_code_refuted : exists E ts,
  exit_code (run_session E ts) = 0 /\ unsuccessful (session_trace E ts) /\ snd (run_session E ts) <> ONormal.
Proof.
  exists env0, [exiting_test]. split; [vm_compute; reflexivity|]. split.
  - exists (RTest 7), RKError, (Some (XFresh 0)), false. split; [in_dec|auto].
  - vm_compute. discriminate.
Qed.

(** Otherwise the exit code is 0 iff no exception escaped, no error, failure or
    interruption was recorded and every test was started or skipped. *)
Theorem C56_exit_code_partial : forall E ts,
  (forall x, snd (run_session E ts) = ORaise x -> x_kind x <> KSysExit 0) ->
  (exit_code (run_session E ts) = 0 <->
   snd (run_session E ts) = ONormal /\ ~ unsuccessful (session_trace E ts) /\
   forall t r, In (t, r) (st_results (fst (run_session E ts))) -> r_started r = true \/ r_skips r <> []).
Proof.
  intros E ts Hx. pose proof (session_records E ts) as HW. unfold session_trace.
  destruct (final E ts) as [_ _ Hg]. pose proof (session_Fin E ts _ _ (surjective_pairing _)) as [_ Hf].
  unfold exit_code. destruct (snd (run_session E ts)) as [|x|] eqn:Eo; [| |contradiction].
  - split.
    + destruct (session_success true (fst (run_session E ts))) eqn:Es; [|discriminate]. intros _.
      split; auto. split; [eapply success_no_bad; eauto|]. intros t r Hr. unfold session_success in Es.
      apply andb_true_iff in Es as [_ Es]. rewrite forallb_forall in Es. specialize (Es _ Hr). cbn [snd] in Es.
      unfold is_success, is_skip in Es. destruct (is_error r || is_failure r || r_interrupted r); [discriminate|].
      destruct (r_skips r); [left; exact Es|right; discriminate].
    + intros (_ & Hu & Hr). replace (session_success true (fst (run_session E ts))) with true; auto. symmetry.
      destruct (success_or_bad E [] _ HW Hg) as [X|[X|(t & r & X & Y)]]; auto.
      exfalso. destruct (Hr t r X) as [Z|Z]; destruct Y as [Y1 Y2]; congruence.
  - specialize (Hx x eq_refl). split; [|intros (X & _); discriminate].
    destruct (x_kind x) eqn:Ek; try discriminate. intros ->. contradiction.
Qed.

(** ** Non-vacuity *)

(** three tests in two files: one succeeding, one failing by an assertion, one
    ending with a fatal error; a fourth is not run *)
Definition t_ok : test := mkTest 1 (Some 1) 1 PDone 0 false (PAdd SDefault false false (PEmit 5 PDone) PDone).
Definition t_bad : test := mkTest 2 (Some 1) 1 PDone 0 false (PRaise KAssertion false).
Definition t_fatal : test := mkTest 3 (Some 2) 2 PDone 0 false (PErr true PDone).
Definition t_last : test := mkTest 4 (Some 2) 2 PDone 0 false PDone.
Definition ex_run := [t_ok; t_bad; t_fatal; t_last].

Example ex_run_hooks : filter (fun e => match e with EvHook _ t => negb (Nat.eqb t 0) | _ => false end) (session_trace env0 ex_run) =
  map (fun p => EvHook (fst p) (snd p))
  [(HTestStart, 1); (HBeforeTestCleanups, 1); (HTestSuccess, 1); (HTestEnd, 1);
   (HTestStart, 2); (HBeforeTestCleanups, 2); (HTestFailure, 2); (HTestEnd, 2);
   (HTestStart, 3); (HBeforeTestCleanups, 3); (HTestError, 3); (HTestEnd, 3)].
Proof. vm_compute. reflexivity. Qed.

(** the hypotheses of C18_exactly_one_summary *)
Example C18_hypotheses_met : exists p m q,
  session_trace env0 ex_run = p ++ EvReportStart 2 :: m ++ EvReportEnd 2 :: q /\
  In (EvHook HTestStart 2) m /\ ~ unusual m.
Proof.
  exists (firstn 20 (session_trace env0 ex_run)), (firstn 10 (skipn 21 (session_trace env0 ex_run))), (skipn 32 (session_trace env0 ex_run)).
  split; [vm_compute; reflexivity|]. split; [in_dec|].
  assert (X : forallb (fun e => match e with EvHandle _ k _ _ => isinstance k TException | _ => true end)
                (firstn 10 (skipn 21 (session_trace env0 ex_run))) = true) by (vm_compute; reflexivity).
  rewrite forallb_forall in X. intros (x & k & f & r & H & Hk). apply X in H. congruence.
Qed.

Example C19_hypotheses_met :
  e_worker env0 = false /\ snd (run_session env0 ex_run) = ONormal /\
  ~ In (EvReportStart 4) (session_trace env0 ex_run) /\ report_starts (session_trace env0 ex_run) = [1; 2; 3].
Proof.
  assert (X : report_starts (session_trace env0 ex_run) = [1; 2; 3]) by (vm_compute; reflexivity).
  split; [reflexivity|]. split; [vm_compute; reflexivity|]. split; [|exact X].
  intros H. apply report_starts_In in H. rewrite X in H. simpl in H. intuition discriminate.
Qed.

(** a stop is really called for in this run *)
Example C20_stop_met : must_stop false (session_trace env0 ex_run).
Proof.
  assert (H : exists p q, session_trace env0 ex_run = p ++ EvReportEnd 3 :: q /\ In (EvRecord (RTest 3) RKError None true) p).
  { exists (firstn 48 (session_trace env0 ex_run)), (skipn 49 (session_trace env0 ex_run)). split; [vm_compute; reflexivity|].
    in_dec. }
  destruct H as (p & q & A & B). exists p, 3, q. split; auto. left. exists None. auto.
Qed.

(** and not in this one, where a test is skipped and another fails *)
Example C20_complete_met : let ts := [t_ok; t_bad; t_last] in
  snd (run_session env0 ts) = ONormal /\ In EvComplete (session_trace env0 ts) /\
  (forall p t q, session_trace env0 ts = p ++ EvReportEnd t :: q -> ~ fatal_on t p).
Proof.
  cbv zeta. split; [vm_compute; reflexivity|]. split; [in_dec|].
  intros p t q H (src & Hf).
  assert (X : forallb (fun e => match e with EvRecord _ _ _ true => false | _ => true end) (session_trace env0 [t_ok; t_bad; t_last]) = true)
    by (vm_compute; reflexivity).
  rewrite forallb_forall in X.
  destruct Hf as [Hf|Hf]; (assert (Hi := in_or_app p (EvReportEnd t :: q) _ (or_introl Hf)); rewrite <- H in Hi; apply X in Hi; discriminate).
Qed.

(** C21 with an exception that leaves the test: the body interrupts *)
Definition t_intr : test := mkTest 5 (Some 1) 1 PDone 0 false (PRaise KKeyboard false).
Example C21_hypotheses_met :
  (exists x, snd (run_single env0 t_intr true state0) = ORaise x /\ x_kind x = KKeyboard) /\
  In (EvHook HTestEnd 5) (st_trace (fst (run_single env0 t_intr true state0))).
Proof. split; [|in_dec]. exists (mkExn (XFresh 0) KKeyboard false). split; vm_compute; reflexivity. Qed.

Example C24_hypotheses_met : nth_error (report_starts (session_trace env0 ex_run)) 2 = Some 3.
Proof. vm_compute. reflexivity. Qed.

(** C56: a session with a skipped test exits with 0, one with a failure with 1,
    a SystemExit 3 with 3 *)
Example C56_cases :
  exit_code (run_session env0 [t_ok; mkTest 9 (Some 1) 1 PDone 0 false (PRaise KSkip false)]) = 0 /\
  exit_code (run_session env0 [t_ok; t_bad]) = 1 /\
  exit_code (run_session env0 [mkTest 9 (Some 1) 1 PDone 0 false (PRaise (KSysExit 3) false)]) = 3.
Proof. repeat split; vm_compute; reflexivity. Qed.

Print Assumptions C17_start_end_paired.
Print Assumptions C18_summary_matches_result.
Print Assumptions C18_at_most_one_summary.
Print Assumptions C18_exactly_one_summary.
Print Assumptions C19_executed_tests_form_a_prefix.
Print Assumptions C19_one_result_per_test.
Print Assumptions C20_no_test_starts_after_stop.
Print Assumptions C20_otherwise_complete.
Print Assumptions C21_context_restored.
Print Assumptions C21_context_restored_after_all_tests.
Print Assumptions C22_files_balanced_refuted.
Print Assumptions C22_files_balanced_partial.
Print Assumptions C24_numbered_in_order.
Print Assumptions C24_no_gaps.
Print Assumptions C24_second_index_refused.
Print Assumptions C56_exit_code_refuted.
Print Assumptions C56_exit_code_partial.
Print Assumptions C57_error_reported_refuted.
Print Assumptions C57_error_reported_partial.
