(** The scope/cleanup acceptor accepts the trace of every session, and no
    session runs out of fuel. *)

From Coq Require Import List Bool Arith PeanoNat Lia.
From Verif Require Import Events Core CoreSpec CoreBase CleanupSim.
Import ListNotations.

Section S.
Variable E : env.

Lemma safe_n f : (forall s, nstep s (f s)) -> safe inv0 (upd f).
Proof. intros H. apply safe_upd. intros s. apply inv0_nstep, H. Qed.

Lemma safe_raise0 k f : safe inv0 (raise_new k f).
Proof. apply safe_raise. intros s n. apply inv0_nstep. nfield. Qed.

Lemma safe_handling0 h a : safe inv0 a -> safe inv0 (handling E h a).
Proof. apply safe_handling. intros x s. apply inv0_nstep, nstep_handle. Qed.

Lemma safe_fix_pop n : safe inv0 (fix_pop E n).
Proof.
  assert (D : forall l fid, safe inv0 (deactivate_fixture E l fid)).
  { intros l fid s Hs. unfold deactivate_fixture.
    destruct (lookup fid (fix_get l s)) as [fin|]; [|split; auto; discriminate].
    revert s Hs. apply (safe_seq inv0); [|apply safe_exec]. apply safe_n. intros s.
    constructor; simpl; auto. exists [EvFixDown fid]. split; auto. constructor; auto. intros q; reflexivity. }
  assert (A : forall l fids, safe inv0 (deactivate_all E l fids)).
  { intros l fids. induction fids; simpl; [apply safe_ret|]. apply safe_seq; auto. apply safe_handling0; auto. }
  assert (L : forall sl l, safe inv0 (fix_pop_level E sl l)).
  { intros sl l s Hs. unfold fix_pop_level. destruct (Nat.leb _ _); [|split; auto; discriminate].
    revert Hs. generalize s at 1 3 5. intros s1 Hs1. revert s1 Hs1. apply (safe_seq inv0); auto.
    intros s1 Hs1. destruct (nonempty _); [apply safe_raise0; auto|split; auto; discriminate]. }
  assert (Ls : forall sl ls, safe inv0 (fix_pop_levels E sl ls)).
  { intros sl ls. induction ls; simpl; [apply safe_ret|apply safe_seq; auto]. }
  intros s Hs. unfold fix_pop. destruct (current_interrupted s); [split; auto; discriminate|]. apply Ls; auto.
Qed.

Lemma safe_sm_push n : safe inv0 (sm_push n).
Proof. apply safe_seq; [|apply safe_cm_push]. apply safe_n. intros s; nfield. Qed.

Lemma safe_sm_pop n : safe inv0 (sm_pop E n).
Proof.
  intros s Hs. unfold sm_pop. destruct (st_scopes s) as [|p rest]; [apply safe_raise0; auto|].
  assert (H1 : inv0 (set_scopes rest s)) by (eapply inv0_nstep; [|exact Hs]; nfield).
  destruct (negb (sname_eqb p n)); [apply safe_raise0; auto|].
  assert (H2 : safe inv0 (call_all None [cm_pop E n; fix_pop E n])).
  { apply safe_call_all. intros f [<-|[<-|[]]]; [apply safe_cm_pop|apply safe_fix_pop]. }
  destruct (H2 _ H1) as [H3 H4].
  destruct (call_all None [cm_pop E n; fix_pop E n] (set_scopes rest s)) as [s1 [| x |]]; cbn [fst snd] in *; [| |congruence];
    (split; [|discriminate]); (eapply inv0_nstep; [|exact H3]; apply nstep_emit; intros q; reflexivity).
Qed.

Lemma safe_begin t : safe inv0 (begin_test E t).
Proof.
  unfold begin_test. destruct (t_module t); [|apply safe_raise0].
  repeat first [ apply safe_seq | apply safe_cond | apply safe_ret | apply safe_sm_push
               | apply safe_sm_pop | apply safe_raise0 | apply safe_n; intros s; nfield | apply safe_cm_push ].
Qed.

Lemma safe_end t : safe inv0 (end_test E t).
Proof. apply safe_cond; [apply safe_raise0|apply safe_sm_pop]. Qed.

Lemma safe_flush : safe inv0 (flush_remaining_scopes E).
Proof.
  intros s Hs. unfold flush_remaining_scopes.
  assert (H : safe inv0 (call_all None (map (sm_pop E) (st_scopes s)))).
  { apply safe_call_all. intros f Hf. apply in_map_iff in Hf as [n [<- _]]. apply safe_sm_pop. }
  apply H; auto.
Qed.

Lemma safe_initiate : safe inv0 (initiate_cleanup E).
Proof.
  apply safe_cond; [|apply safe_ret]. apply safe_finally; apply safe_handling0; [apply safe_fire|apply safe_flush].
Qed.

Lemma safe_ctl_start t : safe inv0 (ctl_start E t).
Proof.
  apply safe_cond; [apply safe_ret|].
  apply safe_seq; [apply safe_n; intros s; nfield|].
  apply safe_seq; [apply safe_n; intros s; nfield|]. apply safe_fire.
Qed.

Lemma safe_ctl_end t p : safe inv0 (ctl_end E t p).
Proof.
  apply safe_cond; [|apply safe_ret].
  apply safe_seq; [apply safe_n; intros s; nfield|]. apply safe_finally.
  - apply safe_forbid.
    + intros v s. apply inv0_nstep. nfield.
    + apply safe_seq; [apply safe_fire|apply safe_n; intros s; nfield].
  - apply safe_n; intros s; nfield.
Qed.

Lemma safe_summary t : safe inv0 (fire_summary E t).
Proof.
  apply safe_handling0. intros s Hs.
  destruct (lookup t (st_results s)) as [r|]; [|split; auto; discriminate].
  repeat match goal with |- context[if ?b then _ else _] => destruct b end; apply safe_fire; auto.
Qed.

Lemma safe_test_context t body : (forall p, safe inv0 (body p)) -> safe inv0 (test_context t body).
Proof.
  intros Hb s Hs. unfold test_context.
  set (prev := st_test s). revert s Hs prev. intros s Hs prev.
  assert (F : safe inv0 (finally
    (upd (set_test (Some t)) ;; create_result t ;;
     (fun s0 => finally (upd (set_result (RTest t)) ;; body (st_result s0)) (upd (set_result (st_result s0))) s0))
    (upd (set_test prev)))).
  { apply safe_finally; [|apply safe_n; intros s'; nfield].
    apply safe_seq; [apply safe_n; intros s'; nfield|].
    apply safe_seq.
    - intros s' Hs'. unfold create_result. destruct (lookup t (st_results s')); [apply safe_raise0; auto|].
      split; [|discriminate]. eapply inv0_nstep; [|exact Hs']. nfield.
    - refine (safe_fun inv0 (fun s1 => finally (upd (set_result (RTest t)) ;; body (st_result s1)) (upd (set_result (st_result s1)))) _).
      intros s0. apply safe_finally; [apply safe_seq; auto|]; apply safe_n; intros s'; nfield. }
  apply F; auto.
Qed.

Lemma safe_add_skips n : safe inv0 (add_skips n).
Proof. induction n; simpl; [apply safe_ret|]. apply safe_seq; auto. apply safe_n. intros s; apply nstep_add_entry. Qed.

Lemma safe_requirements t : safe inv0 (process_requirements E t).
Proof.
  apply safe_seq; [apply safe_exec|].
  repeat match goal with |- context[if ?b then _ else _] => destruct b end;
    try apply safe_ret; (apply safe_seq; [apply safe_add_skips|apply safe_fire]).
Qed.

Lemma safe_run_single t hn : safe inv0 (run_single E t hn).
Proof.
  apply safe_test_context. intros prev. apply safe_handling0.
  apply safe_seq; [apply safe_requirements|].
  destruct (should_run t); [|apply safe_ret].
  apply safe_seq; [apply safe_n; intros s; nfield|].
  apply safe_seq; [apply safe_n; intros s; nfield|].
  apply safe_finally; [|apply safe_ctl_end].
  apply safe_except; [|intros x; apply safe_ret].
  apply safe_seq.
  - apply safe_except; [|intros x; apply safe_ret]. apply safe_handling0.
    apply safe_seq; [apply safe_begin|]. apply safe_finally; [|apply safe_end].
    apply safe_seq; [apply safe_ctl_start|]. apply safe_handling0, safe_exec.
  - apply safe_seq; [apply safe_summary|].
    destruct (negb hn && negb (e_worker E)); [|apply safe_ret].
    apply safe_seq; [apply safe_ctl_end|]. apply safe_handling0, safe_initiate.
Qed.

Lemma safe_metadata t : safe inv0 (set_metadata E t).
Proof.
  intros s Hs. unfold set_metadata. destruct (lookup t (st_idx s)); [apply safe_raise0; auto|].
  destruct (e_worker E); (split; [|discriminate]); (eapply inv0_nstep; [|exact Hs]; nfield).
Qed.

Lemma inv0_emit e s : neutral e -> inv0 s -> inv0 (emit e s).
Proof. intros H. apply inv0_nstep, nstep_emit, H. Qed.

Lemma safe_run_loop ts : forall last s, inv0 s ->
  let '(s', o, _, _) := run_loop E last ts s in inv0 s' /\ o <> OFuel.
Proof.
  induction ts as [|t rest IH]; intros last s Hs; cbn [run_loop]; [split; auto; discriminate|].
  destruct (safe_metadata (t_id t) s Hs) as [M1 M2].
  destruct (set_metadata E (t_id t) s) as [s1 [| x |]]; cbn [fst snd] in *; [| |congruence];
    [|split; auto; discriminate].
  set (s2 := emit (EvReportStart (t_id t)) (if file_differs last (t_file t) then emit (EvFileStart (t_file t)) s1 else s1)).
  assert (H2 : inv0 s2).
  { unfold s2. apply inv0_emit; [intros q; reflexivity|]. destruct (file_differs _ _); auto.
    apply inv0_emit; auto. intros q; reflexivity. }
  destruct (safe_run_single t (nonempty rest) s2 H2) as [R1 R2].
  destruct (run_single E t (nonempty rest) s2) as [s3 [| x |]]; cbn [fst snd] in *; [| |congruence];
    [|split; auto; discriminate].
  set (s4 := match rest with [] => _ | _ => _ end).
  assert (H4 : inv0 s4).
  { assert (H3 : inv0 (emit (EvReportEnd (t_id t)) s3)) by (apply inv0_emit; auto; intros q; reflexivity).
    unfold s4. destruct rest as [|t' rest']; [apply inv0_emit; auto; intros q; reflexivity|].
    destruct (Nat.eqb _ _); auto. apply inv0_emit; auto; intros q; reflexivity. }
  destruct (match lookup (t_id t) (st_results s4) with Some r => has_fatal r | None => false end); [split; auto; discriminate|].
  destruct (e_stop E && _); [split; auto; discriminate|].
  apply IH; auto.
Qed.

Lemma safe_mark_unrun ts : safe inv0 (mark_unrun ts).
Proof.
  induction ts; simpl; [apply safe_ret|]. apply safe_seq; auto. apply safe_test_context. intros p; apply safe_ret.
Qed.

Lemma safe_run_tests ts : safe inv0 (run_tests E ts).
Proof.
  intros s Hs. unfold run_tests. pose proof (safe_run_loop ts None s Hs) as H.
  destruct (run_loop E None ts s) as [[[s1 o] e] last]. destruct H as [H1 H2].
  assert (Hi : safe inv0 (if e_worker E then ret else initiate_cleanup E)).
  { destruct (e_worker E); [apply safe_ret|apply safe_initiate]. }
  destruct (Hi s1 H1) as [H3 H4].
  destruct o as [| x |]; [| |congruence];
    destruct ((if e_worker E then ret else initiate_cleanup E) s1) as [s2 [| y |]]; cbn [fst snd] in *;
    try congruence; try (split; auto; discriminate).
  destruct (e_worker E); [split; auto; discriminate|].
  revert s2 H3 H4. assert (G : safe inv0 (mark_unrun (match e with LBreak r => r | _ => [] end) ;;
     match e, last with LComplete, _ => upd (emit EvComplete) | _, Some f => upd (emit (EvFileEnd f)) | _, None => ret end)).
  { apply safe_seq; [apply safe_mark_unrun|].
    destruct e, last; try apply safe_ret; apply safe_n; intros s2; apply nstep_emit; intros q; reflexivity. }
  intros s2 H3 H4. apply G; auto.
Qed.

Lemma safe_session_context body : safe inv0 body -> safe inv0 (started_context E body).
Proof.
  intros Hb. unfold started_context.
  apply safe_seq; [apply safe_cm_push|]. apply safe_seq; [apply safe_n; intros s; nfield|].
  apply safe_finally.
  - apply safe_except.
    + apply safe_seq; auto. apply safe_handling0.
      apply safe_seq; [apply safe_fire|]. apply safe_seq; [apply safe_fire|].
      apply safe_seq; [apply safe_n; intros s; nfield|apply safe_fire].
    + intros x. apply safe_seq; [apply safe_fire|apply safe_reraise].
  - apply safe_seq; [apply safe_handling0, safe_cm_pop|].
    apply safe_cond; [|apply safe_ret]. apply safe_seq; apply safe_handling0, safe_fire.
Qed.

Lemma safe_session ts : inv0 (fst (run_session E ts)) /\ snd (run_session E ts) <> OFuel.
Proof. apply safe_session_context; [apply safe_run_tests|apply inv0_state0]. Qed.

Lemma session_accepted ts : accepted (st_trace (fst (run_session E ts))).
Proof. destruct (safe_session ts) as [[q [Hq _]] _]. exists q; auto. Qed.

End S.
