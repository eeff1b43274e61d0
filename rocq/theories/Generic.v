(** A generic induction over a whole session for invariants that speak about
    the cleanup manager's scopes and the trace only. *)

From Coq Require Import List Bool Arith PeanoNat Lia.
From Verif Require Import Events Core CoreBase.
Import ListNotations.

(** Events that concern neither scopes, nor cleanup registration, nor fixtures. *)
Definition other (e : event) : bool :=
  match e with
  | EvPush _ _ | EvAdd _ _ _ _ _ _ | EvReject _ _ | EvPopBegin _ _ _ _ | EvRun _ | EvPopEnd _ _ _ | EvFixUp _ _ | EvFixDown _
  | EvTeardown _ _ => false
  | _ => true
  end.

(** same scopes, names, pending cleanups, fixtures, counters and trace *)
Record alike (s s' : state) : Prop := mkAlike {
  a_stack : cm_stack (st_cm s') = cm_stack (st_cm s);
  a_names : cm_names (st_cm s') = cm_names (st_cm s);
  a_pend : cm_pending (st_cm s') = cm_pending (st_cm s);
  a_nsid : cm_nsid (st_cm s') = cm_nsid (st_cm s);
  a_ncid : cm_ncid (st_cm s') = cm_ncid (st_cm s);
  a_fix : st_fix s' = st_fix s;
  a_nfix : st_nfix s' = st_nfix s;
  a_trace : st_trace s' = st_trace s }.

Ltac alike := constructor; reflexivity.

Section G.
Variable E : env.
Variable I : state -> Prop.
Hypothesis I_alike : forall s s', alike s s' -> I s -> I s'.
Hypothesis I_emit : forall e s, other e = true -> I s -> I (emit e s).
Hypothesis I_run : forall c s, I s -> I (emit (EvRun c) s).
Hypothesis I_add : forall sc crit succ body, pres I (tap_add sc (add_cleanup sc crit succ body)).
Hypothesis I_up : forall l fin, pres I (activate_fixture l fin).
Hypothesis I_tl : forall sid s, I s -> I (on_cm (fun m => with_stack (on_scope sid (@tl _) (cm_stack m)) m) s).

Lemma gen_upd f : (forall s, alike s (f s)) -> pres I (upd f).
Proof. intros H s Hs. simpl. eapply I_alike; [apply H|auto]. Qed.

Lemma gen_emit e : other e = true -> pres I (upd (emit e)).
Proof. intros H s Hs. simpl. auto. Qed.

Lemma gen_raise k f : pres I (raise_new k f).
Proof. intros s Hs. simpl. eapply I_alike; [|exact Hs]. alike. Qed.

Lemma alike_on_result r f s : alike s (on_result r f s).
Proof. destruct r; alike. Qed.

Lemma gen_on_result r f s : I s -> I (on_result r f s).
Proof. apply I_alike, alike_on_result. Qed.

Lemma gen_add_exception r x s : I s -> I (add_exception E r x s).
Proof.
  intros H. unfold add_exception. destruct (mem_xid (x_id x) (st_added s)); auto. cbv zeta.
  assert (H0 : I (set_added (x_id x :: st_added s) s)) by (eapply I_alike; [|exact H]; alike).
  destruct (isinstance_any (x_kind x) [TAssertion]); [apply I_emit, gen_on_result; auto|].
  destruct (isinstance_any (x_kind x) (skip_types E)); [apply I_emit, gen_on_result; auto|].
  destruct (isinstance_any (x_kind x) interruption_types).
  - apply gen_on_result. destruct r as [|t]; [apply I_emit; auto|].
    match goal with |- I (if ?b then _ else _) => destruct b end.
    + apply gen_on_result, I_emit; auto.
    + apply I_emit; auto. apply gen_on_result, I_emit; auto.
  - destruct (isinstance_any (x_kind x) [TGenExit]); apply I_emit; auto. apply gen_on_result; auto.
Qed.

Lemma gen_handle x s : I s -> I (handle_exception E x s).
Proof.
  intros H. unfold handle_exception. cbv zeta. set (s1 := emit _ s).
  assert (H1 : I s1) by (apply I_emit; auto).
  destruct (mem_xid _ _); auto. unfold update_current_result.
  assert (H2 : I (set_handled (x_id x :: st_handled s1) s1)) by (eapply I_alike; [|exact H1]; alike).
  destruct (st_test _); apply gen_add_exception; auto.
Qed.

Lemma gen_handling h a : pres I a -> pres I (handling E h a).
Proof. apply pres_handling. intros; apply gen_handle; auto. Qed.

Lemma gen_add_entry k f s : I s -> I (add_entry k f s).
Proof. intros H. unfold add_entry. apply I_emit; auto. apply gen_on_result; auto. Qed.

Lemma gen_exec p : pres I (exec E p).
Proof.
  induction p; cbn [exec].
  - apply pres_ret.
  - apply gen_raise.
  - apply pres_reraise.
  - apply pres_seq; auto. apply gen_emit; reflexivity.
  - apply pres_seq; auto.
  - apply pres_seq; auto. apply pres_upd. intros; apply gen_add_entry; auto.
  - apply pres_seq; auto. apply pres_upd. intros; apply gen_add_entry; auto.
  - apply pres_seq; auto. apply gen_handling; auto.
  - apply pres_seq; auto. apply pres_except; auto. intros; apply pres_ret.
  - apply pres_seq; auto. apply pres_default; auto. intros v s H. eapply I_alike; [|exact H]. alike.
  - apply pres_seq; auto.
  - apply pres_seq; auto. apply pres_finally; auto.
  - apply pres_seq; auto. apply pres_cond; auto.
  - apply pres_seq; auto. intros s H. apply I_emit; auto.
Qed.

Lemma gen_fire h t : pres I (fire E h t).
Proof. apply pres_seq; [|apply gen_exec]. apply gen_emit; reflexivity. Qed.

Lemma gen_tap cid a : pres I a -> pres I (tap cid a).
Proof. intros Ha s H. unfold tap. specialize (Ha s H). destruct (a s) as [s1 [| x |]]; cbn [fst] in *; auto. Qed.

Lemma gen_call_cleanup sid c : pres I (call_cleanup E sid c).
Proof.
  intros s H. unfold call_cleanup.
  assert (F : pres I (finally
    (upd (on_cm (with_current (Some sid))) ;; upd (emit (EvRun (c_id c))) ;;
     except_ [TException] (tap (c_id c) (exec E (c_body c)))
       (fun x => upd (add_exception E (c_result c) x) ;; reraise x))
    (upd (on_cm (with_current (cm_current (st_cm s))))))).
  { apply pres_finally; [|apply gen_upd; intros; alike].
    apply pres_seq; [apply gen_upd; intros; alike|]. apply pres_seq; [intros s' H'; simpl; auto|].
    apply pres_except; [apply gen_tap, gen_exec|]. intros x. apply pres_seq; [|apply pres_reraise].
    intros s' H'. simpl. apply gen_add_exception; auto. }
  exact (F s H).
Qed.

Lemma gen_loop fuel sid f i : pres I (cleanup_loop E fuel sid f i).
Proof.
  induction fuel as [|fuel IH]; intros s H; cbn [cleanup_loop]; auto.
  destruct (scope_cleanups sid s) as [|c cl]; auto.
  pose proof (I_tl sid s H) as H0. set (s0 := on_cm _ s) in *.
  destruct (i && negb (c_crit c)); [apply IH; auto|].
  destruct ((f || i) && c_succ c); [apply IH; auto|].
  apply pres_seq; auto. apply gen_handling, gen_call_cleanup.
Qed.

Lemma gen_call_cleanups sid nm f i : pres I (call_cleanups E sid nm f i).
Proof.
  apply pres_seq.
  - destruct (sname_eqb nm STest); [|apply pres_ret].
    intros s H. apply gen_handling; auto. apply gen_fire.
  - intros s H. apply gen_loop; auto.
Qed.

(** ** Above the scopes *)

Hypothesis I_push : forall n, pres I (cm_push n).
Hypothesis I_pop : forall n, pres I (cm_pop E n).

(** one fixture is torn down *)
Definition down (l : flevel) (fid : nat) (s : state) : state :=
  emit (EvFixDown fid) (set_fix (fix_update l (filter (fun p => negb (Nat.eqb fid (fst p)))) (st_fix s)) s).

Lemma gen_fix_pop n : (forall l fid s, I s -> I (down l fid s)) -> pres I (fix_pop E n).
Proof.
  intros I_down.
  assert (D : forall l fid, pres I (deactivate_fixture E l fid)).
  { intros l fid s H. unfold deactivate_fixture. destruct (lookup fid (fix_get l s)) as [fin|]; auto.
    apply pres_seq; [| |exact H]; [|apply gen_exec]. intros s' H'. apply (I_down l fid s' H'). }
  assert (A : forall l fids, pres I (deactivate_all E l fids)).
  { intros l fids. induction fids; simpl; [apply pres_ret|]. apply pres_seq; auto. apply gen_handling, D. }
  assert (L : forall sl l, pres I (fix_pop_level E sl l)).
  { intros sl l s H. unfold fix_pop_level. destruct (Nat.leb _ _); auto.
    apply pres_seq; auto. intros s' H'. destruct (nonempty _); auto. apply gen_raise; auto. }
  assert (Ls : forall sl ls, pres I (fix_pop_levels E sl ls)).
  { intros sl ls. induction ls; simpl; [apply pres_ret|apply pres_seq; auto]. }
  intros s H. unfold fix_pop. destruct (current_interrupted s); auto. apply Ls; auto.
Qed.

Hypothesis I_fix_pop : forall n, pres I (fix_pop E n).
Hypothesis I_teardown : forall n ok s, I s -> I (emit (EvTeardown n ok) s).

Lemma gen_sm_push n : pres I (sm_push n).
Proof. apply pres_seq; [|apply I_push]. apply gen_upd. intros; alike. Qed.

Lemma gen_sm_pop n : pres I (sm_pop E n).
Proof.
  intros s H. unfold sm_pop. destruct (st_scopes s) as [|p rest]; [apply gen_raise; auto|].
  assert (H1 : I (set_scopes rest s)) by (eapply I_alike; [|exact H]; alike).
  destruct (negb _); [apply gen_raise; auto|].
  assert (H2 : pres I (call_all None [cm_pop E n; fix_pop E n])).
  { apply pres_call_all. intros f [<-|[<-|[]]]; [apply I_pop|apply I_fix_pop]. }
  specialize (H2 _ H1).
  destruct (call_all None _ (set_scopes rest s)) as [s1 [| x |]]; cbn [fst] in *; auto.
Qed.

Lemma gen_begin t : pres I (begin_test E t).
Proof.
  unfold begin_test. destruct (t_module t); [|apply gen_raise].
  repeat first [ apply gen_sm_push | apply I_push | apply gen_sm_pop | apply gen_raise
               | apply pres_seq | apply pres_cond | apply pres_ret | apply gen_upd; intros; alike ].
Qed.

Lemma gen_end t : pres I (end_test E t).
Proof. apply pres_cond; [apply gen_raise|apply gen_sm_pop]. Qed.

Lemma gen_flush : pres I (flush_remaining_scopes E).
Proof.
  intros s H. unfold flush_remaining_scopes.
  assert (H1 : pres I (call_all None (map (sm_pop E) (st_scopes s)))).
  { apply pres_call_all. intros f Hf. apply in_map_iff in Hf as [n [<- _]]. apply gen_sm_pop. }
  apply H1; auto.
Qed.

Lemma gen_initiate : pres I (initiate_cleanup E).
Proof.
  apply pres_cond; [|apply pres_ret]. apply pres_finally; apply gen_handling; [|apply gen_flush]. apply gen_fire.
Qed.

Lemma gen_res r f : pres I (upd (on_result r f)).
Proof. apply gen_upd. intros; apply alike_on_result. Qed.

Lemma gen_ctl_start t : pres I (ctl_start E t).
Proof.
  apply pres_cond; [apply pres_ret|]. apply pres_seq; [apply gen_upd; intros; alike|].
  apply pres_seq; [apply gen_res|apply gen_fire].
Qed.

Lemma gen_ctl_end t prev : pres I (ctl_end E t prev).
Proof.
  apply pres_cond; [|apply pres_ret]. apply pres_seq; [apply gen_upd; intros; alike|].
  apply pres_finally; [|apply gen_upd; intros; alike].
  apply pres_forbid; [intros v s H; eapply I_alike; [|exact H]; alike|].
  apply pres_seq; [apply gen_fire|apply gen_res].
Qed.

Lemma gen_summary t : pres I (fire_summary E t).
Proof.
  intros s H. unfold fire_summary. apply gen_handling; auto. intros s' H'.
  destruct (lookup t (st_results s')); auto.
  repeat match goal with |- context[if ?b then _ else _] => destruct b end; apply gen_fire; auto.
Qed.

Lemma gen_test_context t body : (forall p, pres I (body p)) -> pres I (test_context t body).
Proof.
  intros Hb s Hs. unfold test_context.
  assert (F : pres I (finally
    (upd (set_test (Some t)) ;; create_result t ;;
     (fun s0 => finally (upd (set_result (RTest t)) ;; body (st_result s0)) (upd (set_result (st_result s0))) s0))
    (upd (set_test (st_test s))))).
  { apply pres_finally; [|apply gen_upd; intros; alike].
    apply pres_seq; [apply gen_upd; intros; alike|].
    apply pres_seq.
    - intros s' Hs'. unfold create_result. destruct (lookup t (st_results s')); [apply gen_raise; auto|].
      eapply I_alike; [|exact Hs']. alike.
    - refine (pres_fun I (fun s1 => finally (upd (set_result (RTest t)) ;; body (st_result s1)) (upd (set_result (st_result s1)))) _).
      intros s0. apply pres_finally; [apply pres_seq; auto|]; apply gen_upd; intros; alike. }
  apply F; auto.
Qed.

Lemma gen_add_skips n : pres I (add_skips n).
Proof.
  induction n; simpl; [apply pres_ret|]. apply pres_seq; auto. intros s H. simpl. apply gen_add_entry; auto.
Qed.

Lemma gen_process t : pres I (process_requirements E t).
Proof.
  apply pres_seq; [apply gen_exec|].
  destruct (negb _); [apply pres_seq; [apply gen_add_skips|apply gen_fire]|].
  destruct (t_excluded t); [apply pres_seq; [apply (gen_add_skips 1)|apply gen_fire]|apply pres_ret].
Qed.

Lemma gen_run_single t b : pres I (run_single E t b).
Proof.
  apply gen_test_context. intros prev. apply gen_handling.
  apply pres_seq; [apply gen_process|]. destruct (should_run t); [|apply pres_ret].
  apply pres_seq; [apply gen_res|]. apply pres_seq; [apply gen_upd; intros; alike|].
  apply pres_finally; [|apply gen_ctl_end].
  apply pres_except; [|intros; apply pres_ret].
  apply pres_seq; [|apply pres_seq; [apply gen_summary|]].
  - apply pres_except; [|intros; apply pres_ret]. apply gen_handling.
    apply pres_seq; [apply gen_begin|]. apply pres_finally; [|apply gen_end].
    apply pres_seq; [apply gen_ctl_start|]. apply gen_handling, gen_exec.
  - destruct (_ && _); [|apply pres_ret].
    apply pres_seq; [apply gen_ctl_end|]. apply gen_handling, gen_initiate.
Qed.

Lemma gen_run_loop ts : forall last s, I s -> I (fst (fst (fst (run_loop E last ts s)))).
Proof.
  induction ts as [|t ts IH]; intros last s H; cbn [run_loop]; auto.
  assert (H1 : I (fst (set_metadata E (t_id t) s))).
  { unfold set_metadata. destruct (lookup _ _); [apply gen_raise; auto|].
    destruct (e_worker E); (eapply I_alike; [|exact H]; alike). }
  destruct (set_metadata E (t_id t) s) as [s1 [| x |]]; cbn [fst] in *; auto.
  set (s2 := emit (EvReportStart (t_id t)) (if file_differs last (t_file t) then emit (EvFileStart (t_file t)) s1 else s1)).
  assert (H2 : I s2).
  { apply I_emit; auto. destruct (file_differs _ _); auto. }
  pose proof (gen_run_single t (nonempty ts) s2 H2) as H3.
  fold s2. destruct (run_single E t (nonempty ts) s2) as [s3 [| x |]]; cbn [fst] in *; auto.
  match goal with |- context[emit (EvReportEnd _) s3] => set (s4 := emit (EvReportEnd (t_id t)) s3) end.
  assert (H4 : I s4) by (apply I_emit; auto).
  match goal with |- context[match ts with [] => emit ?e s4 | _ => _ end] =>
    set (s5 := match ts with [] => emit e s4 | t' :: _ => if Nat.eqb (t_file t') (t_file t) then s4 else emit e s4 end) end.
  assert (H5 : I s5).
  { unfold s5. destruct ts; [apply I_emit; auto|]. destruct (Nat.eqb _ _); auto. }
  repeat match goal with |- context[if ?b then _ else _] => destruct b end; cbn [fst]; auto.
Qed.

Lemma gen_mark_unrun l : pres I (mark_unrun l).
Proof. induction l; simpl; [apply pres_ret|]. apply pres_seq; auto. apply gen_test_context. intros; apply pres_ret. Qed.

Lemma gen_run_tests ts : pres I (run_tests E ts).
Proof.
  intros s H. unfold run_tests. pose proof (gen_run_loop ts None s H) as H1.
  destruct (run_loop E None ts s) as [[[s1 o] e] last]. cbn [fst] in H1.
  assert (H2 : I (fst ((if e_worker E then ret else initiate_cleanup E) s1))).
  { destruct (e_worker E); auto. apply gen_initiate; auto. }
  destruct o; auto;
    destruct ((if e_worker E then ret else initiate_cleanup E) s1) as [s2 [| x' |]]; cbn [fst] in *; auto.
  destruct (e_worker E); auto.
  match goal with |- I (fst ((?a ;; ?b) s2)) => assert (P : pres I (a ;; b)) end; [|apply P; auto].
  apply pres_seq; [apply gen_mark_unrun|].
  destruct e, last; first [apply pres_ret | apply gen_emit; reflexivity].
Qed.

Lemma gen_session ts : I state0 -> I (fst (run_session E ts)).
Proof.
  assert (P : pres I (started_context E (run_tests E ts))).
  { unfold started_context. apply pres_seq; [apply I_push|]. apply pres_seq; [apply gen_upd; intros; alike|].
    apply pres_finally.
    - apply pres_except; [|intros; apply pres_seq; [apply gen_fire|apply pres_reraise]].
      apply pres_seq; [|apply gen_run_tests]. apply gen_handling.
      repeat first [apply gen_fire | apply pres_seq | apply gen_upd; intros; alike].
    - apply pres_seq; [apply gen_handling, I_pop|].
      apply pres_cond; [|apply pres_ret]. apply pres_seq; apply gen_handling, gen_fire. }
  apply P.
Qed.

End G.
