(** When the closing of a scope is broken off: only by an exception that is not
    an ordinary one (C04). *)

From Coq Require Import List Bool Arith PeanoNat Lia.
From Verif Require Import Events Core CoreSpec CoreBase Frame Records SessionSim CleanupTrace CleanupProps.
Import ListNotations.

(** ** A scope is closed at most once *)

Definition closing (q : sst) (sid : nat) : Prop :=
  In sid (q_sids q) /\ forall x, In x (q_stack q) -> ss_id x = sid -> ss_pop x <> None.

Lemma closing_step q e q' sid : spec_step q e = Some q' -> closing q sid -> closing q' sid.
Proof.
  intros H [Hs Hl].
  destruct e; cbn [spec_step] in H; try (inversion H; subst; split; auto; fail).
  - destruct (memb sid0 (q_sids q)) eqn:Hm; [discriminate|]. apply memb_notIn in Hm.
    destruct (negb _); [discriminate|]. inversion H; subst. split; [right; auto|]. cbn [q_stack].
    intros x [<-|Hx] Hi; [simpl in Hi; congruence|auto].
  - destruct (_ || _); [discriminate|]. destruct (negb _); [discriminate|].
    destruct tgt as [tg|].
    + inversion H; subst. split; auto. cbn [q_stack]. intros x Hx Hi.
      apply add_item_In in Hx as (y & A & B & C & D & _). rewrite D. apply Hl; congruence.
    + destruct req; [discriminate|]. inversion H; subst. split; auto.
  - destruct (q_stack q) as [|[xs xn [p|] xi] rest] eqn:Eq; try discriminate.
    destruct (_ && _); [|discriminate]. inversion H; subst. split; auto. cbn [q_stack].
    intros x [<-|Hx] Hi; [simpl; congruence|]. apply Hl; auto. right; auto.
  - destruct (q_stack q) as [|[xs xn [[f i]|] xi] rest] eqn:Eq; try discriminate.
    destruct (take f i cid xi); [|discriminate]. inversion H; subst. split; auto. cbn [q_stack].
    intros x [<-|Hx] Hi; [simpl; congruence|]. apply Hl; auto. right; auto.
  - destruct (q_stack q) as [|[xs xn [[f i]|] xi] rest] eqn:Eq; try discriminate.
    destruct (_ && _); [|discriminate]. inversion H; subst. split; auto. cbn [q_stack].
    intros x Hx Hi. apply Hl; auto. right; auto.
Qed.

Lemma closing_run tr : forall q q' sid, spec_run q tr = Some q' -> closing q sid -> closing q' sid.
Proof.
  induction tr as [|e tr IH]; intros q q' sid H Ha; simpl in H; [inversion H; subst; auto|].
  destruct (spec_step q e) eqn:Es; [|discriminate]. eapply IH; eauto. eapply closing_step; eauto.
Qed.

Lemma popbegin_once a sid nm f i b nm' f' i' c :
  accepted (a ++ EvPopBegin sid nm f i :: b ++ EvPopBegin sid nm' f' i' :: c) -> False.
Proof.
  intros [q H]. apply spec_run_split in H as [q1 [H1 H2]].
  change (EvPopBegin sid nm f i :: b ++ EvPopBegin sid nm' f' i' :: c)
    with ((EvPopBegin sid nm f i :: b) ++ EvPopBegin sid nm' f' i' :: c) in H2.
  apply spec_run_split in H2 as [q3 [H2 H3]]. cbn [spec_run] in H2, H3.
  destruct (spec_step q1 (EvPopBegin sid nm f i)) as [q2|] eqn:Es; [|discriminate].
  assert (HJ : J a q1) by (apply J_run_all; auto).
  assert (Hc : closing q2 sid).
  { cbn [spec_step] in Es. destruct (q_stack q1) as [|[xs xn [p|] xi] rest] eqn:Eq; try discriminate.
    destruct (Nat.eqb sid xs && sname_eqb nm xn) eqn:Em; [|discriminate]. apply andb_true_iff in Em as [E1 _].
    apply Nat.eqb_eq in E1. subst xs. inversion Es; subst. split.
    - cbn [q_sids]. apply (j_sids _ _ HJ (mkSS sid xn None xi)). rewrite Eq. left; auto.
    - cbn [q_stack]. intros x [<-|Hx] Hi; [simpl; congruence|].
      pose proof (j_nodup _ _ HJ) as Hn. rewrite Eq in Hn. simpl in Hn.
      apply NoDup_cons_iff in Hn as [Hn _]. exfalso. apply Hn. rewrite <- Hi. apply in_map; auto. }
  assert (Hc3 : closing q3 sid) by (eapply closing_run; eauto).
  destruct Hc3 as [_ Hc3].
  cbn [spec_step] in H3. destruct (q_stack q3) as [|[xs xn [p|] xi] rest] eqn:Eq; try discriminate.
  destruct (Nat.eqb sid xs && sname_eqb nm' xn) eqn:Em; [|discriminate]. apply andb_true_iff in Em as [E1 _].
  apply Nat.eqb_eq in E1. subst xs. apply (Hc3 (mkSS sid xn None xi)); [left; auto|auto|auto].
Qed.

(** ** Events below scope closings *)

Definition low (e : event) : bool :=
  match e with
  | EvPush _ _ | EvPopBegin _ _ _ _ | EvPopEnd _ _ _ | EvTeardown _ _
  | EvFileStart _ | EvFileEnd _ | EvReportStart _ | EvReportEnd _ | EvComplete => false
  | _ => true
  end.

Definition lowx (s s' : state) : Prop := exists l, st_trace s' = st_trace s ++ l /\ forallb low l = true.

Lemma lowx_refl s : lowx s s.
Proof. exists []. rewrite app_nil_r; auto. Qed.
Lemma lowx_trans a b c : lowx a b -> lowx b c -> lowx a c.
Proof.
  intros (l & H & Q) (l' & H' & Q'). exists (l ++ l'). rewrite H', H, app_assoc, forallb_app, Q, Q'. auto.
Qed.
Lemma lowx_emit e s : low e = true -> lowx s (emit e s).
Proof. intros H. exists [e]. simpl. rewrite H. auto. Qed.
Lemma lowx_same s s' : st_trace s' = st_trace s -> lowx s s'.
Proof. intros H. exists []. rewrite app_nil_r; auto. Qed.

Ltac lsame := apply lowx_same; reflexivity.

Section L.
Variable E : env.

Lemma lowx_add_exception r x s : lowx s (add_exception E r x s).
Proof.
  destruct (mem_xid (x_id x) (st_added s)) eqn:Em.
  - unfold add_exception. rewrite Em. apply lowx_refl.
  - unfold add_exception. rewrite Em. cbv zeta. destruct r as [|t];
    repeat match goal with |- context[if ?b then _ else _] => destruct b end;
    eexists; (split; [cbn [st_trace emit on_result set_global set_results set_added]; rewrite <- ?app_assoc; reflexivity|reflexivity]).
Qed.

Lemma lowx_handle x s : lowx s (handle_exception E x s).
Proof.
  unfold handle_exception. cbv zeta. eapply lowx_trans; [apply (lowx_emit (EvHandle (x_id x) (x_kind x) (x_fatal x)
    (match st_test s with Some t => RTest t | None => RGlobal end))); reflexivity|].
  set (s1 := emit _ s). destruct (mem_xid _ _); [apply lowx_refl|].
  unfold update_current_result. eapply lowx_trans with (set_handled (x_id x :: st_handled s1) s1); [lsame|].
  destruct (st_test _); apply lowx_add_exception.
Qed.

Definition rell := rel lowx.
Lemma rell_ret : rell ret. Proof. apply rel_ret, lowx_refl. Qed.
Lemma rell_seq a b : rell a -> rell b -> rell (a ;; b). Proof. apply rel_seq, lowx_trans. Qed.
Lemma rell_upd f : (forall s, lowx s (f s)) -> rell (upd f). Proof. apply rel_upd. Qed.
Lemma rell_handling h a : rell a -> rell (handling E h a).
Proof. apply rel_handling; [apply lowx_trans|]. intros; apply lowx_handle. Qed.
Lemma rell_raise k f : rell (raise_new k f). Proof. intros s. lsame. Qed.

Lemma lowx_attach c req tgt s : lowx s (attach c req tgt s).
Proof.
  unfold attach. eapply lowx_trans; [apply (lowx_emit (EvAdd (c_id c) req tgt (c_crit c) (c_succ c) (c_result c))); reflexivity|].
  destruct tgt; lsame.
Qed.

Lemma rell_tap_add sc a : rell a -> rell (tap_add sc a).
Proof.
  intros Ha s. unfold tap_add. specialize (Ha s). destruct (a s) as [s1 [| x |]]; cbn [fst] in *; auto.
  eapply lowx_trans; [exact Ha|]. apply lowx_emit; reflexivity.
Qed.

Lemma rell_exec p : rell (exec E p).
Proof.
  induction p; cbn [exec].
  - apply rell_ret.
  - apply rell_raise.
  - intros s; apply lowx_refl.
  - apply rell_seq; auto. apply rell_upd. intros; apply lowx_emit; reflexivity.
  - apply rell_seq; auto. apply rell_tap_add. intros s. unfold add_cleanup. destruct (succ && crit); [lsame|].
    repeat match goal with |- lowx _ (fst (match ?b with _ => _ end)) => destruct b end; cbn [fst]; try lsame;
      (eapply lowx_trans; [|apply lowx_attach]; lsame).
  - apply rell_seq; auto. apply rell_upd. intros s. unfold add_entry.
    eapply lowx_trans; [|apply lowx_emit; reflexivity]. destruct (st_result s); lsame.
  - apply rell_seq; auto. apply rell_upd. intros s. unfold add_entry.
    eapply lowx_trans; [|apply lowx_emit; reflexivity]. destruct (st_result s); lsame.
  - apply rell_seq; auto. apply rell_handling; auto.
  - apply rell_seq; auto. apply rel_except; auto; [apply lowx_trans|]. intros; apply rell_ret.
  - apply rell_seq; auto. apply rel_default; auto; [apply lowx_trans|]. intros; lsame.
  - apply rell_seq; auto. intros s. unfold activate_fixture. cbn [fst].
    eapply lowx_trans; [|apply lowx_emit; reflexivity]. lsame.
  - apply rell_seq; auto. apply rel_finally; auto. apply lowx_trans.
  - apply rell_seq; auto. apply rel_cond; auto.
  - apply rell_seq; auto. intros s. apply lowx_emit; reflexivity.
Qed.

Lemma rell_fire h t : rell (fire E h t).
Proof. apply rell_seq; [|apply rell_exec]. apply rell_upd. intros; apply lowx_emit; reflexivity. Qed.

(** Not an ordinary exception: an interruption or other non-Exception, or a skip. *)
Definition special (k : ekind) : Prop :=
  isinstance k TException = false \/ isinstance_any k (TSkip :: e_skips E) = true.

(** what a call of a cleanup leaves in the trace *)
Lemma call_cleanup_trace sid c s :
  lowx s (fst (call_cleanup E sid c s)) /\
  forall x, snd (call_cleanup E sid c s) = ORaise x ->
    exists l, st_trace (fst (call_cleanup E sid c s)) = st_trace s ++ l /\ forallb low l = true /\
      In (EvRaised (c_id c) (x_id x) (x_kind x)) l.
Proof.
  unfold call_cleanup, finally, seq, upd, except_, tap.
  set (s1 := emit (EvRun (c_id c)) (on_cm (with_current (Some sid)) s)).
  assert (L1 : lowx s s1) by (exists [EvRun (c_id c)]; auto).
  pose proof (rell_exec (c_body c) s1) as L2.
  destruct (exec E (c_body c) s1) as [s2 [| x |]]; cbn [fst snd] in *.
  - split; [|discriminate]. eapply lowx_trans; [exact L1|]. eapply lowx_trans; [exact L2|lsame].
  - assert (L : lowx s s2) by (eapply lowx_trans; eauto). destruct L as (l & T & Q).
    set (ev := EvRaised (c_id c) (x_id x) (x_kind x)).
    assert (G : forall s3, lowx (emit ev s2) s3 -> exists l', st_trace s3 = st_trace s ++ l' /\ forallb low l' = true /\ In ev l').
    { intros s3 (l3 & T3 & Q3). exists (l ++ ev :: l3). repeat split.
      - rewrite T3. simpl. rewrite T, <- !app_assoc. reflexivity.
      - rewrite forallb_app, Q. simpl. auto.
      - apply in_or_app. right; left; auto. }
    destruct (isinstance_any (x_kind x) [TException]); cbn [fst snd].
    + destruct (G (on_cm (with_current (cm_current (st_cm s))) (add_exception E (c_result c) x (emit ev s2)))) as (l' & A & B & C).
      { eapply lowx_trans; [apply lowx_add_exception|lsame]. }
      split; [exists l'; auto|]. intros y Hy. inversion Hy; subst y. exists l'. auto.
    + destruct (G (on_cm (with_current (cm_current (st_cm s))) (emit ev s2))) as (l' & A & B & C); [lsame|].
      split; [exists l'; auto|]. intros y Hy. inversion Hy; subst y. exists l'. auto.
  - split; [|discriminate]. eapply lowx_trans; eauto.
Qed.

Lemma cleanup_loop_trace fuel sid f i : forall s,
  lowx s (fst (cleanup_loop E fuel sid f i s)) /\
  forall x, snd (cleanup_loop E fuel sid f i s) = ORaise x ->
    exists l cid, st_trace (fst (cleanup_loop E fuel sid f i s)) = st_trace s ++ l /\ forallb low l = true /\
      In (EvRaised cid (x_id x) (x_kind x)) l /\ special (x_kind x).
Proof.
  induction fuel as [|fuel IH]; intros s; cbn [cleanup_loop]; [split; [apply lowx_refl|discriminate]|].
  destruct (scope_cleanups sid s) as [|c cl]; [split; [apply lowx_refl|discriminate]|].
  set (s0 := on_cm _ s).
  change (st_trace s) with (st_trace s0).
  assert (L0 : lowx s s0) by lsame.
  destruct (i && negb (c_crit c)); [destruct (IH s0); split; auto; eapply lowx_trans; eauto|].
  destruct ((f || i) && c_succ c); [destruct (IH s0); split; auto; eapply lowx_trans; eauto|].
  destruct (call_cleanup_trace sid c s0) as [A B].
  unfold seq, handling. destruct (call_cleanup E sid c s0) as [s1 [| x |]]; cbn [fst snd] in *.
  - destruct (IH s1) as [C D]. split; [eapply lowx_trans; [exact L0|]; eapply lowx_trans; eauto|].
    intros y Hy. destruct (D y Hy) as (l & cid & T & Q & I & S). destruct A as (l1 & T1 & Q1).
    exists (l1 ++ l), cid. rewrite T, T1, app_assoc, forallb_app, Q, Q1. repeat split; auto. apply in_or_app; auto.
  - pose proof (lowx_handle x s1) as Hh.
    change (isinstance_any (x_kind x) (h_pass h_swallowing)) with false. cbn [h_swallowing h_swallow h_types app].
    destruct (B x eq_refl) as (l1 & T1 & Q1 & I1).
    assert (G : special (x_kind x) -> forall y, ORaise x = ORaise y ->
       exists l cid, st_trace (handle_exception E x s1) = st_trace s0 ++ l /\ forallb low l = true /\
         In (EvRaised cid (x_id y) (x_kind y)) l /\ special (x_kind y)).
    { intros Sp y Hy. inversion Hy; subst y. destruct Hh as (l2 & T2 & Q2).
      exists (l1 ++ l2), (c_id c). rewrite T2, T1, app_assoc, forallb_app, Q1, Q2. repeat split; auto. apply in_or_app; auto. }
    destruct (isinstance_any (x_kind x) (skip_types E)) eqn:K1; cbn [orb fst snd].
    { split; [eapply lowx_trans; [exact L0|]; eapply lowx_trans; eauto|]. apply G. right; exact K1. }
    destruct (isinstance_any (x_kind x) interruption_types) eqn:K2; cbn [fst snd].
    { split; [eapply lowx_trans; [exact L0|]; eapply lowx_trans; eauto|]. apply G. left.
      destruct (x_kind x); simpl in K2; try discriminate; reflexivity. }
    destruct (isinstance_any (x_kind x) [TException]) eqn:K3; cbn [fst snd].
    + destruct (IH (handle_exception E x s1)) as [C D].
      split; [eapply lowx_trans; [exact L0|]; eapply lowx_trans; [exact A|]; eapply lowx_trans; eauto|].
      intros y Hy. destruct (D y Hy) as (l & cid & T & Q & I & S). destruct Hh as (l2 & T2 & Q2).
      exists (l1 ++ l2 ++ l), cid. rewrite T, T2, T1, !forallb_app, Q, Q1, Q2, !app_assoc. repeat split; auto.
      apply in_or_app; right; auto.
    + split; [eapply lowx_trans; [exact L0|]; eapply lowx_trans; eauto|]. apply G. left.
      unfold isinstance_any in K3. cbn [existsb] in K3. rewrite orb_false_r in K3. auto.
  - split; [exact (lowx_trans _ _ _ L0 A)|discriminate].
Qed.

(** handlers of before_test_cleanups never raise *)
Hypothesis quiet_hook : forall t s, snd (exec E (e_hook E HBeforeTestCleanups t) s) = ONormal.

Lemma call_cleanups_trace sid nm f i s :
  lowx s (fst (call_cleanups E sid nm f i s)) /\
  forall x, snd (call_cleanups E sid nm f i s) = ORaise x ->
    exists l cid, st_trace (fst (call_cleanups E sid nm f i s)) = st_trace s ++ l /\ forallb low l = true /\
      In (EvRaised cid (x_id x) (x_kind x)) l /\ special (x_kind x).
Proof.
  unfold call_cleanups, seq.
  set (h := if sname_eqb nm STest then _ else ret).
  assert (H : lowx s (fst (h s)) /\ snd (h s) = ONormal).
  { unfold h. destruct (sname_eqb nm STest); [|split; [apply lowx_refl|reflexivity]].
    split; [apply rell_handling, rell_fire|]. unfold handling, fire, seq, upd.
    match goal with |- context[exec E ?p ?st] => pose proof (quiet_hook (match st_test s with Some t => t | None => 0 end) st) as Hq;
      destruct (exec E p st) as [s1 o] end. simpl in Hq. subst o. reflexivity. }
  destruct H as [L O]. destruct (h s) as [s1 o]. cbn [fst snd] in *. subst o.
  destruct (cleanup_loop_trace (S (stack_size (cm_stack (st_cm s1)))) sid f i s1) as [A B].
  split; [eapply lowx_trans; eauto|]. intros x Hx. destruct (B x Hx) as (l & cid & T & Q & I & S).
  destruct L as (l1 & T1 & Q1). exists (l1 ++ l), cid. rewrite T, T1, app_assoc, forallb_app, Q, Q1.
  repeat split; auto. apply in_or_app; auto.
Qed.

(** ** The invariant *)

Definition brk_ok (tr : list event) : Prop :=
  forall p sid nm t, tr = p ++ EvPopEnd sid nm false :: t ->
    exists p1 f i m, p = p1 ++ EvPopBegin sid nm f i :: m /\
      exists cid x k, In (EvRaised cid x k) m /\ special k.

Lemma brk_snoc tr e : (forall sid nm, e <> EvPopEnd sid nm false) -> brk_ok tr -> brk_ok (tr ++ [e]).
Proof.
  intros He H p sid nm t Heq. destruct t as [|y t] using rev_ind.
  - apply app_inj_tail in Heq as [_ ->]. exfalso. eapply He; eauto.
  - clear IHt. change (p ++ EvPopEnd sid nm false :: t ++ [y]) with (p ++ (EvPopEnd sid nm false :: t) ++ [y]) in Heq.
    rewrite app_assoc in Heq. apply app_inj_tail in Heq as [Heq _]. eapply H; eauto.
Qed.

Lemma brk_low tr l : forallb low l = true -> brk_ok tr -> brk_ok (tr ++ l).
Proof.
  revert tr. induction l as [|e l IH]; intros tr Hl H; [rewrite app_nil_r; auto|].
  simpl in Hl. apply andb_true_iff in Hl as [H1 H2].
  replace (tr ++ e :: l) with ((tr ++ [e]) ++ l) by (rewrite <- app_assoc; reflexivity).
  apply IH; auto. apply brk_snoc; auto. intros sid nm ->. discriminate.
Qed.

Definition B (s : state) : Prop := brk_ok (st_trace s).

Lemma B_lowx s s' : lowx s s' -> B s -> B s'.
Proof. intros (l & H & Q) HB. unfold B. rewrite H. apply brk_low; auto. Qed.

Lemma B_same s s' : st_trace s' = st_trace s -> B s -> B s'.
Proof. unfold B. intros ->. auto. Qed.

Lemma B_emit e s : (forall sid nm, e <> EvPopEnd sid nm false) -> B s -> B (emit e s).
Proof. intros H. apply brk_snoc; auto. Qed.

Lemma presB_low m : rell m -> pres B m.
Proof. intros H s Hs. eapply B_lowx; [apply H|exact Hs]. Qed.

Lemma presB_same f : (forall s, st_trace (f s) = st_trace s) -> pres B (upd f).
Proof. intros H s Hs. eapply B_same; [apply H|exact Hs]. Qed.

Lemma presB_handling h a : pres B a -> pres B (handling E h a).
Proof. apply pres_handling. intros x s. apply B_lowx, lowx_handle. Qed.

Lemma presB_raise k f : pres B (raise_new k f).
Proof. apply presB_low, rell_raise. Qed.

Lemma presB_cm_push n : pres B (cm_push n).
Proof. intros s H. unfold cm_push. cbn [fst]. apply B_emit; [discriminate|]. eapply B_same; [|exact H]. reflexivity. Qed.

Lemma presB_cm_pop n : pres B (cm_pop E n).
Proof.
  intros s H. unfold cm_pop. destruct (cm_stack (st_cm s)) as [|sc l]; [apply presB_raise; auto|].
  destruct (negb _); [apply presB_raise; auto|].
  set (s1 := emit _ s). assert (H1 : B s1) by (apply B_emit; auto; discriminate).
  destruct (call_cleanups_trace (sc_id sc) (sc_name sc) (negb (current_success s)) (current_interrupted s) s1) as [A C].
  destruct (call_cleanups E _ _ _ _ s1) as [s2 [| x |]]; cbn [fst snd] in *; try (eapply B_lowx; eauto; fail).
  - apply B_emit; [discriminate|]. eapply B_lowx; [|exact H1]. eapply lowx_trans; [exact A|lsame].
  - destruct (C x eq_refl) as (l' & cid & T & Q & I & S).
    unfold B. cbn [emit st_trace on_cm set_cm]. rewrite T. intros p sid nm t Heq.
    destruct t as [|y t] using rev_ind.
    + apply app_inj_tail in Heq as [Heq E2]. inversion E2; subst sid nm p.
      exists (st_trace s), (negb (current_success s)), (current_interrupted s), l'.
      split; [unfold s1; simpl; rewrite <- app_assoc; reflexivity|]. eauto.
    + clear IHt. change (p ++ EvPopEnd sid nm false :: t ++ [y]) with (p ++ (EvPopEnd sid nm false :: t) ++ [y]) in Heq.
      rewrite app_assoc in Heq. apply app_inj_tail in Heq as [Heq _].
      apply (brk_low _ l' Q H1 p sid nm t Heq).
Qed.

Lemma presB_fix_pop n : pres B (fix_pop E n).
Proof.
  assert (D : forall l fid, pres B (deactivate_fixture E l fid)).
  { intros l fid s H. unfold deactivate_fixture. destruct (lookup fid (fix_get l s)) as [fin|]; auto.
    apply pres_seq; [| |exact H]; [|apply presB_low, rell_exec]. apply presB_low, rell_upd.
    intros s'. eapply lowx_trans; [|apply lowx_emit; reflexivity]. lsame. }
  assert (A : forall l fids, pres B (deactivate_all E l fids)).
  { intros l fids. induction fids; simpl; [apply pres_ret|]. apply pres_seq; auto. apply presB_handling, D. }
  assert (L : forall sl l, pres B (fix_pop_level E sl l)).
  { intros sl l s H. unfold fix_pop_level. destruct (Nat.leb _ _); auto.
    apply pres_seq; auto. intros s' H'. destruct (nonempty _); auto. }
  assert (Ls : forall sl ls, pres B (fix_pop_levels E sl ls)).
  { intros sl ls. induction ls; simpl; [apply pres_ret|apply pres_seq; auto]. }
  intros s H. unfold fix_pop. destruct (current_interrupted s); auto. apply Ls; auto.
Qed.

Lemma presB_sm_push n : pres B (sm_push n).
Proof. apply pres_seq; [|apply presB_cm_push]. apply presB_same. reflexivity. Qed.

Lemma presB_sm_pop n : pres B (sm_pop E n).
Proof.
  intros s H. unfold sm_pop. destruct (st_scopes s) as [|p rest]; [apply presB_raise; auto|].
  assert (H1 : B (set_scopes rest s)) by (eapply B_same; [|exact H]; reflexivity).
  destruct (negb _); [apply presB_raise; auto|].
  assert (H2 : pres B (call_all None [cm_pop E n; fix_pop E n])).
  { apply pres_call_all. intros f [<-|[<-|[]]]; [apply presB_cm_pop|apply presB_fix_pop]. }
  specialize (H2 _ H1).
  destruct (call_all None _ (set_scopes rest s)) as [s1 [| x |]]; cbn [fst] in *; auto; (apply B_emit; auto; discriminate).
Qed.

Lemma presB_begin t : pres B (begin_test E t).
Proof.
  unfold begin_test. destruct (t_module t); [|apply presB_raise].
  repeat first [ apply presB_sm_push | apply presB_cm_push | apply presB_sm_pop | apply presB_raise
               | apply pres_seq | apply pres_cond | apply pres_ret | apply presB_same; reflexivity ].
Qed.

Lemma presB_end t : pres B (end_test E t).
Proof. apply pres_cond; [apply presB_raise|apply presB_sm_pop]. Qed.

Lemma presB_flush : pres B (flush_remaining_scopes E).
Proof.
  intros s H. unfold flush_remaining_scopes.
  assert (H1 : pres B (call_all None (map (sm_pop E) (st_scopes s)))).
  { apply pres_call_all. intros f Hf. apply in_map_iff in Hf as [n [<- _]]. apply presB_sm_pop. }
  apply H1; auto.
Qed.

Lemma presB_fire h t : pres B (fire E h t).
Proof. apply presB_low, rell_fire. Qed.

Lemma presB_initiate : pres B (initiate_cleanup E).
Proof.
  apply pres_cond; [|apply pres_ret]. apply pres_finally; apply presB_handling; [|apply presB_flush]. apply presB_fire.
Qed.

Lemma presB_ctl_start t : pres B (ctl_start E t).
Proof.
  apply pres_cond; [apply pres_ret|]. apply pres_seq; [apply presB_same; reflexivity|].
  apply pres_seq; [apply presB_same; reflexivity|apply presB_fire].
Qed.

Lemma presB_ctl_end t prev : pres B (ctl_end E t prev).
Proof.
  apply pres_cond; [|apply pres_ret]. apply pres_seq; [apply presB_same; reflexivity|].
  apply pres_finally; [|apply presB_same; reflexivity].
  apply pres_forbid; [intros v s H; eapply B_same; [|exact H]; reflexivity|].
  apply pres_seq; [apply presB_fire|apply presB_same; reflexivity].
Qed.

Lemma presB_summary t : pres B (fire_summary E t).
Proof.
  intros s H. unfold fire_summary. apply presB_handling; auto. intros s' H'.
  destruct (lookup t (st_results s')); auto.
  repeat match goal with |- context[if ?b then _ else _] => destruct b end; apply presB_fire; auto.
Qed.

Lemma presB_test_context t body : (forall p, pres B (body p)) -> pres B (test_context t body).
Proof.
  intros Hb s Hs. unfold test_context.
  assert (F : pres B (finally
    (upd (set_test (Some t)) ;; create_result t ;;
     (fun s0 => finally (upd (set_result (RTest t)) ;; body (st_result s0)) (upd (set_result (st_result s0))) s0))
    (upd (set_test (st_test s))))).
  { apply pres_finally; [|apply presB_same; reflexivity].
    apply pres_seq; [apply presB_same; reflexivity|].
    apply pres_seq.
    - intros s' Hs'. unfold create_result. destruct (lookup t (st_results s')); [apply presB_raise; auto|].
      eapply B_same; [|exact Hs']. reflexivity.
    - refine (pres_fun B (fun s1 => finally (upd (set_result (RTest t)) ;; body (st_result s1)) (upd (set_result (st_result s1)))) _).
      intros s0. apply pres_finally; [apply pres_seq; auto|]; apply presB_same; reflexivity. }
  apply F; auto.
Qed.

Lemma presB_add_skips n : pres B (add_skips n).
Proof.
  induction n; simpl; [apply pres_ret|]. apply pres_seq; auto. apply presB_low, rell_upd. intros s. unfold add_entry.
  eapply lowx_trans; [|apply lowx_emit; reflexivity]. destruct (st_result s); lsame.
Qed.

Lemma presB_process t : pres B (process_requirements E t).
Proof.
  apply pres_seq; [apply presB_low, rell_exec|].
  destruct (negb _); [apply pres_seq; [apply presB_add_skips|apply presB_fire]|].
  destruct (t_excluded t); [apply pres_seq; [apply (presB_add_skips 1)|apply presB_fire]|apply pres_ret].
Qed.

Lemma presB_run_single t b : pres B (run_single E t b).
Proof.
  apply presB_test_context. intros prev. apply presB_handling.
  apply pres_seq; [apply presB_process|]. destruct (should_run t); [|apply pres_ret].
  apply pres_seq; [apply presB_same; reflexivity|]. apply pres_seq; [apply presB_same; reflexivity|].
  apply pres_finally; [|apply presB_ctl_end].
  apply pres_except; [|intros; apply pres_ret].
  apply pres_seq; [|apply pres_seq; [apply presB_summary|]].
  - apply pres_except; [|intros; apply pres_ret]. apply presB_handling.
    apply pres_seq; [apply presB_begin|]. apply pres_finally; [|apply presB_end].
    apply pres_seq; [apply presB_ctl_start|]. apply presB_handling, presB_low, rell_exec.
  - destruct (_ && _); [|apply pres_ret].
    apply pres_seq; [apply presB_ctl_end|]. apply presB_handling, presB_initiate.
Qed.

Lemma presB_run_loop ts : forall last s, B s -> B (fst (fst (fst (run_loop E last ts s)))).
Proof.
  induction ts as [|t ts IH]; intros last s H; cbn [run_loop]; auto.
  assert (H1 : B (fst (set_metadata E (t_id t) s))).
  { unfold set_metadata. destruct (lookup _ _); [apply presB_raise; auto|].
    destruct (e_worker E); (eapply B_same; [|exact H]; reflexivity). }
  destruct (set_metadata E (t_id t) s) as [s1 [| x |]]; cbn [fst] in *; auto.
  set (s2 := emit (EvReportStart (t_id t)) (if file_differs last (t_file t) then emit (EvFileStart (t_file t)) s1 else s1)).
  assert (H2 : B s2).
  { apply B_emit; [discriminate|]. destruct (file_differs _ _); auto. apply B_emit; auto; discriminate. }
  pose proof (presB_run_single t (nonempty ts) s2 H2) as H3.
  fold s2. destruct (run_single E t (nonempty ts) s2) as [s3 [| x |]]; cbn [fst] in *; auto.
  match goal with |- context[emit (EvReportEnd _) s3] => set (s4 := emit (EvReportEnd (t_id t)) s3) end.
  assert (H4 : B s4) by (apply B_emit; auto; discriminate).
  match goal with |- context[match ts with [] => emit ?e s4 | _ => _ end] =>
    set (s5 := match ts with [] => emit e s4 | t' :: _ => if Nat.eqb (t_file t') (t_file t) then s4 else emit e s4 end) end.
  assert (H5 : B s5).
  { unfold s5. destruct ts; [apply B_emit; auto; discriminate|]. destruct (Nat.eqb _ _); auto. apply B_emit; auto; discriminate. }
  repeat match goal with |- context[if ?b then _ else _] => destruct b end; cbn [fst]; auto.
Qed.

Lemma presB_run_tests ts : pres B (run_tests E ts).
Proof.
  intros s H. unfold run_tests. pose proof (presB_run_loop ts None s H) as H1.
  destruct (run_loop E None ts s) as [[[s1 o] e] last]. cbn [fst] in H1.
  assert (H2 : B (fst ((if e_worker E then ret else initiate_cleanup E) s1))).
  { destruct (e_worker E); auto. apply presB_initiate; auto. }
  destruct o; auto;
    destruct ((if e_worker E then ret else initiate_cleanup E) s1) as [s2 [| x' |]]; cbn [fst] in *; auto.
  destruct (e_worker E); auto.
  match goal with |- B (fst ((?a ;; ?b) s2)) => assert (P : pres B (a ;; b)) end; [|apply P; auto].
  apply pres_seq.
  - assert (U : forall l, pres B (mark_unrun l)).
    { induction l; simpl; [apply pres_ret|]. apply pres_seq; auto. apply presB_test_context. intros; apply pres_ret. }
    apply U.
  - destruct e, last; first [apply pres_ret | intros s3 H3; apply B_emit; auto; discriminate].
Qed.

Lemma session_brk ts : brk_ok (session_trace E ts).
Proof.
  assert (P : pres B (started_context E (run_tests E ts))).
  { unfold started_context. apply pres_seq; [apply presB_cm_push|]. apply pres_seq; [apply presB_same; reflexivity|].
    apply pres_finally.
    - apply pres_except; [|intros; apply pres_seq; [apply presB_fire|apply pres_reraise]].
      apply pres_seq; [|apply presB_run_tests]. apply presB_handling.
      repeat first [apply presB_fire | apply pres_seq | apply presB_same; reflexivity].
    - apply pres_seq; [apply presB_handling, presB_cm_pop|].
      apply pres_cond; [|apply pres_ret]. apply pres_seq; apply presB_handling, presB_fire. }
  apply (P state0). intros p sid nm t H. destruct p; discriminate.
Qed.

End L.
