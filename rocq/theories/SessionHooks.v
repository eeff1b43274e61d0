(** The hooks of a session (lemmas for C120) *)

From Coq Require Import List Bool Arith.
From Verif Require Import Events Core CoreBase Frame WellNested.
Import ListNotations.

(** the hooks fired by get_started_context, core/session.py:123-126, 130, 141-143 *)
Definition sess_hook (h : hook) : bool :=
  match h with
  | HBeforeSessionStart | HSessionStart | HAfterSessionStart | HSessionInterrupt | HSessionEnd | HAfterSessionEnd => true
  | _ => false
  end.

(** the hooks of the session, of those fired; core/session.py:112-144 *)
Definition hooks (tr : list event) : list hook :=
  flat_map (fun e => match e with EvHook h _ => if sess_hook h then [h] else [] | _ => [] end) tr.

(** what running tests is seen by: files and tests reported, the session marked as complete, the hooks of tests
    and before_session_cleanup (runner.py:22-127, core/session.py:146-154) *)
Definition of_tests (e : event) : bool :=
  match e with
  | EvHook h _ => negb (sess_hook h) && match h with HTestInterrupt | HBeforeTestCleanups => false | _ => true end
  | EvFileStart _ | EvFileEnd _ | EvReportStart _ | EvReportEnd _ | EvComplete => true
  | _ => false
  end.

(** nothing of the tests is seen before after_session_start was fired, nor after another hook of the session *)
Definition placed (tr : list event) : Prop :=
  forall p e q, tr = p ++ e :: q -> of_tests e = true -> hooks p = [HBeforeSessionStart; HSessionStart; HAfterSessionStart].

Definition closes (tr : list event) (b : bool) : Prop := exists sid, In (EvPopEnd sid SSessionGlobal b) tr.

(** an event that is none of those *)
Definition mute (e : event) : bool :=
  match e with
  | EvPopEnd _ SSessionGlobal _ => false
  | EvHook h _ => negb (sess_hook h) && negb (of_tests e)
  | _ => negb (of_tests e)
  end.
Definition inner (e : event) : bool :=
  match e with
  | EvPopEnd _ SSessionGlobal _ => false
  | EvHook h _ => negb (sess_hook h)
  | _ => true
  end.

Lemma mute_inner e : mute e = true -> inner e = true.
Proof. destruct e; simpl; auto. destruct (sess_hook h); auto. Qed.

Lemma quiet_mute e : quiet e = true -> calm e = true -> mute e = true.
Proof. destruct e; simpl; auto; try discriminate. destruct h; simpl; auto; discriminate. Qed.

Lemma hooks_app a b : hooks (a ++ b) = hooks a ++ hooks b.
Proof. apply flat_map_app. Qed.
Lemma hooks_inner l : forallb inner l = true -> hooks l = [].
Proof.
  induction l as [|e l IH]; simpl; auto. intros H. apply andb_true_iff in H as [H1 H2]. rewrite IH by auto.
  destruct e; auto. simpl in *. destruct (sess_hook h); auto; discriminate.
Qed.

Lemma split_app {A} (a b p q : list A) e : a ++ b = p ++ e :: q ->
  (exists r, a = p ++ e :: r) \/ (exists r, p = a ++ r /\ b = r ++ e :: q).
Proof.
  revert p. induction a as [|x a IH]; intros p H; simpl in *; [right; exists p; auto|].
  destruct p as [|y p]; simpl in *; inversion H; subst.
  - left. exists a. reflexivity.
  - destruct (IH p H2) as [[r ->]|(r & -> & ->)]; [left; exists r; auto|right; exists r; auto].
Qed.

(** ** Steps that neither fire a hook of the session nor end its outermost scope *)

Definition small (s s' : state) : Prop :=
  st_ss s' = st_ss s /\ st_scopes s' = st_scopes s /\ exists l, st_trace s' = st_trace s ++ l /\ forallb mute l = true.

Lemma both_small s s' : frame s s' -> still s s' -> small s s'.
Proof.
  intros F S. destruct (f_trace _ _ F) as (l & A & B). destruct (sl_trace _ _ S) as (l' & A' & B').
  assert (l' = l) by (rewrite A in A'; apply app_inv_head in A'; auto). subst l'.
  repeat split; [apply (f_ss _ _ F)|apply (sl_scopes _ _ S)|]. exists l. split; auto.
  clear - B B'. induction l as [|e l IH]; simpl in *; auto. apply andb_true_iff in B as [B1 B2], B' as [C1 C2].
  rewrite quiet_mute, IH; auto.
Qed.
Lemma small_refl s : small s s.
Proof. repeat split. exists []. rewrite app_nil_r. auto. Qed.
Lemma small_trans a b c : small a b -> small b c -> small a c.
Proof.
  intros (A & B & l & C & D) (A' & B' & l' & C' & D'). repeat split; try congruence. exists (l ++ l').
  rewrite C', C, app_assoc, forallb_app, D, D'. auto.
Qed.

Definition clean (s : state) : Prop := ~ In SSessionGlobal (st_scopes s).
Definition inn (s s' : state) : Prop :=
  st_ss s' = st_ss s /\
  (clean s -> clean s' /\ exists l, st_trace s' = st_trace s ++ l /\ forallb inner l = true).

Lemma inn_refl s : inn s s.
Proof. split; auto. intros H. split; auto. exists []. rewrite app_nil_r. auto. Qed.
Lemma inn_trans a b c : inn a b -> inn b c -> inn a c.
Proof.
  intros (A & B) (A' & B'). split; [congruence|]. intros H. destruct (B H) as (C & l & D & F).
  destruct (B' C) as (C' & l' & D' & F'). split; auto. exists (l ++ l'). rewrite D', D, app_assoc, forallb_app, F, F'. auto.
Qed.
Lemma small_inn s s' : small s s' -> inn s s'.
Proof.
  intros (A & B & l & C & D). split; auto. intros H. split; [unfold clean; rewrite B; auto|]. exists l. split; auto.
  clear - D. induction l as [|e l IH]; simpl in *; auto. apply andb_true_iff in D as [D1 D2]. rewrite mute_inner, IH; auto.
Qed.
Lemma inn_emit e s : inner e = true -> inn s (emit e s).
Proof. intros H. split; auto. intros C. split; auto. exists [e]. simpl. rewrite H. auto. Qed.
Lemma inn_same s s' : st_ss s' = st_ss s -> st_scopes s' = st_scopes s -> st_trace s' = st_trace s -> inn s s'.
Proof. intros A B C. split; auto. intros H. split; [unfold clean; rewrite B; auto|]. exists []. rewrite app_nil_r, C. auto. Qed.

Section S.
Variable E : env.

Lemma small_handle x s : small s (handle_exception E x s).
Proof. apply both_small; [apply frame_handle|apply still_handle]. Qed.
Lemma small_exec p : rel small (exec E p).
Proof. intros s. apply both_small; [apply relf_exec|apply rs_exec]. Qed.
Lemma small_handling h m : rel small m -> rel small (handling E h m).
Proof. apply rel_handling; [apply small_trans|]. apply small_handle. Qed.

Notation reli := (rel inn).
Lemma i_ret : reli ret. Proof. intros s. apply inn_refl. Qed.
Lemma i_seq a b : reli a -> reli b -> reli (a ;; b). Proof. apply rel_seq, inn_trans. Qed.
Lemma i_finally a b : reli a -> reli b -> reli (finally a b). Proof. apply rel_finally, inn_trans. Qed.
Lemma i_except ts a h : reli a -> (forall x, reli (h x)) -> reli (except_ ts a h). Proof. apply rel_except, inn_trans. Qed.
Lemma i_cond c a b : reli a -> reli b -> reli (cond c a b). Proof. apply rel_cond. Qed.
Lemma i_handling h a : reli a -> reli (handling E h a).
Proof. apply rel_handling; [apply inn_trans|]. intros. apply small_inn, small_handle. Qed.
Lemma i_small m : rel small m -> reli m. Proof. intros H s. apply small_inn, H. Qed.
Lemma i_both m : relf m -> rs m -> reli m. Proof. intros A B s. apply small_inn, both_small; auto. Qed.
Lemma i_exec p : reli (exec E p). Proof. apply i_small, small_exec. Qed.
Lemma i_upd f : (forall s, inn s (f s)) -> reli (upd f). Proof. intros H s. apply H. Qed.
Lemma i_raise k f : reli (raise_new k f). Proof. intros s. apply inn_same; reflexivity. Qed.
Lemma i_fire h t : sess_hook h = false -> reli (fire E h t).
Proof. intros H. apply i_seq; [|apply i_exec]. apply i_upd. intros s. apply inn_emit. simpl. rewrite H. reflexivity. Qed.

Lemma i_cm_push n : reli (cm_push n).
Proof. intros s. eapply inn_trans; [|apply inn_emit; reflexivity]. apply inn_same; reflexivity. Qed.

Lemma i_cm_pop n : n <> SSessionGlobal -> reli (cm_pop E n).
Proof.
  intros Hn s. unfold cm_pop. destruct (cm_stack (st_cm s)) as [|sc l]; [apply i_raise|].
  destruct (negb (sname_eqb (sc_name sc) n)) eqn:X; [apply i_raise|].
  set (s0 := emit _ s).
  assert (H : small s0 (fst (call_cleanups E (sc_id sc) (sc_name sc) (negb (current_success s)) (current_interrupted s) s0))).
  { apply both_small; [apply relf_call_cleanups|apply rs_call_cleanups]. }
  assert (H0 : inn s s0) by (apply inn_emit; reflexivity).
  destruct (call_cleanups E (sc_id sc) (sc_name sc) (negb (current_success s)) (current_interrupted s) s0) as [s1 o]. cbn [fst] in H.
  assert (H1 : inn s s1) by (eapply inn_trans; [exact H0|apply small_inn; exact H]).
  assert (K : forall b, inner (EvPopEnd (sc_id sc) n b) = true) by (destruct n; auto; contradiction).
  destruct o; cbn [fst]; auto; (eapply inn_trans; [exact H1|]; eapply inn_trans; [|apply inn_emit; apply K]; apply inn_same; reflexivity).
Qed.

Lemma i_fix_pop n : reli (fix_pop E n).
Proof. apply i_both; [apply relf_fix_pop|apply rs_fix_pop]. Qed.

Lemma i_sm_push n : n <> SSessionGlobal -> reli (sm_push n).
Proof.
  intros Hn. apply i_seq; [|apply i_cm_push]. apply i_upd. intros s. split; auto. intros H. split.
  - intros [K|K]; [apply Hn; auto|apply H; exact K].
  - exists []. rewrite app_nil_r. auto.
Qed.

Lemma i_sm_pop n : reli (sm_pop E n).
Proof.
  intros s. unfold sm_pop. destruct (st_scopes s) as [|p rest] eqn:Es; [apply i_raise|].
  assert (H0 : inn s (set_scopes rest s)).
  { split; auto. intros H. split; [|exists []; rewrite app_nil_r; auto]. unfold clean in *. rewrite Es in H. simpl in *. auto. }
  destruct (negb (sname_eqb p n)) eqn:X.
  - eapply inn_trans; [exact H0|]. apply i_raise.
  - assert (Hp : p = n) by (destruct p, n; auto; discriminate). subst p.
    assert (D : {n = SSessionGlobal} + {n <> SSessionGlobal}) by (decide equality). destruct D as [D|D].
    + subst n. assert (A : rel (fun a b => st_ss b = st_ss a) (call_all None [cm_pop E SSessionGlobal; fix_pop E SSessionGlobal])).
      { apply rel_call_all; [congruence|congruence|]. intros f [<-|[<-|[]]] z; [apply (f_ss _ _ (relf_cm_pop E SSessionGlobal z))|apply (f_ss _ _ (relf_fix_pop E SSessionGlobal z))]. }
      specialize (A (set_scopes rest s)).
      split.
      * destruct (call_all None [cm_pop E SSessionGlobal; fix_pop E SSessionGlobal] (set_scopes rest s)) as [s1 [| |]]; cbn [fst] in *; exact A.
      * intros H. exfalso. apply H. rewrite Es. left. reflexivity.
    + assert (A : reli (call_all None [cm_pop E n; fix_pop E n])).
      { apply rel_call_all; [apply inn_refl|apply inn_trans|]. intros f [<-|[<-|[]]]; [apply i_cm_pop; auto|apply i_fix_pop]. }
      specialize (A (set_scopes rest s)).
      destruct (call_all None [cm_pop E n; fix_pop E n] (set_scopes rest s)) as [s1 o]; cbn [fst] in *.
      assert (B : inn s s1) by (eapply inn_trans; [exact H0|exact A]).
      destruct o; cbn [fst]; auto; (eapply inn_trans; [exact B|apply inn_emit; reflexivity]).
Qed.

Lemma i_begin t : reli (begin_test E t).
Proof.
  unfold begin_test. destruct (t_module t); [|apply i_raise].
  repeat first [ apply i_sm_push; discriminate | apply i_seq | apply i_cond | apply i_sm_pop | apply i_raise | apply i_ret
               | apply i_upd; intros; apply inn_same; reflexivity ].
Qed.
Lemma i_end t : reli (end_test E t).
Proof. apply i_cond; [apply i_raise|apply i_sm_pop]. Qed.
Lemma i_flush : reli (flush_remaining_scopes E).
Proof.
  intros s. unfold flush_remaining_scopes. apply rel_call_all; [apply inn_refl|apply inn_trans|].
  intros f Hf. apply in_map_iff in Hf as (n & <- & _). apply i_sm_pop.
Qed.
Lemma i_initiate : reli (initiate_cleanup E).
Proof.
  apply i_cond; [|apply i_ret]. apply i_finally; apply i_handling; [apply i_fire; reflexivity|apply i_flush].
Qed.
Lemma inn_res r f s : inn s (on_result r f s).
Proof. destruct r; apply inn_same; reflexivity. Qed.
Lemma i_ctl_start t : reli (ctl_start E t).
Proof.
  apply i_cond; [apply i_ret|]. apply i_seq; [apply i_upd; intros; apply inn_same; reflexivity|].
  apply i_seq; [apply i_upd; intros; apply inn_res|apply i_fire; reflexivity].
Qed.
Lemma i_ctl_end t prev : reli (ctl_end E t prev).
Proof.
  apply i_cond; [|apply i_ret]. apply i_seq; [apply i_upd; intros; apply inn_same; reflexivity|].
  apply i_finally; [|apply i_upd; intros; apply inn_same; reflexivity].
  apply rel_forbid; [apply inn_trans|intros; apply inn_same; reflexivity|].
  apply i_seq; [apply i_fire; reflexivity|apply i_upd; intros; apply inn_res].
Qed.
Lemma i_summary t : reli (fire_summary E t).
Proof.
  intros s. unfold fire_summary. apply i_handling. intros s'. destruct (lookup t (st_results s')); [|apply inn_refl].
  repeat match goal with |- context[if ?b then _ else _] => destruct b end; apply i_fire; reflexivity.
Qed.
Lemma i_test_context t body : (forall p, reli (body p)) -> reli (test_context t body).
Proof.
  intros Hb s. unfold test_context.
  assert (F : reli (finally
    (upd (set_test (Some t)) ;; create_result t ;;
     (fun s0 => finally (upd (set_result (RTest t)) ;; body (st_result s0)) (upd (set_result (st_result s0))) s0))
    (upd (set_test (st_test s))))).
  { apply i_finally; [|apply i_upd; intros; apply inn_same; reflexivity].
    apply i_seq; [apply i_upd; intros; apply inn_same; reflexivity|].
    apply i_seq.
    - intros s'. unfold create_result. destruct (lookup t (st_results s')); [apply i_raise|apply inn_same; reflexivity].
    - refine (rel_fun inn (fun s1 => finally (upd (set_result (RTest t)) ;; body (st_result s1)) (upd (set_result (st_result s1)))) _).
      intros s0. apply i_finally; [apply i_seq; auto|]; apply i_upd; intros; apply inn_same; reflexivity. }
  apply F.
Qed.
Lemma i_add_skips n : reli (add_skips n).
Proof. apply i_both; [apply relf_add_skips|apply rs_add_skips]. Qed.
Lemma i_process t : reli (process_requirements E t).
Proof.
  apply i_seq; [apply i_exec|].
  destruct (negb _); [apply i_seq; [apply i_add_skips|apply i_fire; reflexivity]|].
  destruct (t_excluded t); [apply i_seq; [apply (i_add_skips 1)|apply i_fire; reflexivity]|apply i_ret].
Qed.

Lemma i_run_single t b : reli (run_single E t b).
Proof.
  apply i_test_context. intros prev. apply i_handling.
  apply i_seq; [apply i_process|]. destruct (should_run t); [|apply i_ret].
  apply i_seq; [apply i_upd; intros; apply inn_res|].
  apply i_seq; [apply i_upd; intros; apply inn_same; reflexivity|].
  apply i_finally; [|apply i_ctl_end].
  apply i_except; [|intros; apply i_ret].
  apply i_seq; [|apply i_seq; [apply i_summary|]].
  - apply i_except; [|intros; apply i_ret]. apply i_handling.
    apply i_seq; [apply i_begin|]. apply i_finally; [|apply i_end].
    apply i_seq; [apply i_ctl_start|]. apply i_handling, i_exec.
  - destruct (_ && _); [|apply i_ret]. apply i_seq; [apply i_ctl_end|]. apply i_handling, i_initiate.
Qed.

Lemma i_run_loop ts : forall last s, inn s (fst (fst (fst (run_loop E last ts s)))).
Proof.
  induction ts as [|t ts IH]; intros last s; cbn [run_loop]; [apply inn_refl|].
  assert (H1 : inn s (fst (set_metadata E (t_id t) s))).
  { unfold set_metadata. destruct (lookup _ _); [apply i_raise|]. destruct (e_worker E); apply inn_same; reflexivity. }
  destruct (set_metadata E (t_id t) s) as [s1 [| x |]]; cbn [fst] in *; auto.
  set (s2 := emit (EvReportStart (t_id t)) (if file_differs last (t_file t) then emit (EvFileStart (t_file t)) s1 else s1)).
  assert (H2 : inn s s2).
  { eapply inn_trans; [exact H1|]. eapply inn_trans; [|apply inn_emit; reflexivity].
    destruct (file_differs _ _); [apply inn_emit; reflexivity|apply inn_refl]. }
  pose proof (i_run_single t (nonempty ts) s2) as H3.
  fold s2. destruct (run_single E t (nonempty ts) s2) as [s3 o]; cbn [fst] in H3.
  pose proof (inn_trans _ _ _ H2 H3) as H3'. destruct o as [| x |]; cbn [fst]; auto.
  match goal with |- context[emit (EvReportEnd _) s3] => set (s4 := emit (EvReportEnd (t_id t)) s3) end.
  assert (H4 : inn s s4) by (eapply inn_trans; [exact H3'|apply inn_emit; reflexivity]).
  match goal with |- context[match ts with [] => emit ?e s4 | _ => _ end] =>
    set (s5 := match ts with [] => emit e s4 | t' :: _ => if Nat.eqb (t_file t') (t_file t) then s4 else emit e s4 end) end.
  assert (H5 : inn s s5).
  { unfold s5. eapply inn_trans; [exact H4|].
    destruct ts; [apply inn_emit; reflexivity|]. destruct (Nat.eqb _ _); [apply inn_refl|apply inn_emit; reflexivity]. }
  repeat match goal with |- context[if ?b then _ else _] => destruct b end; cbn [fst]; auto.
  eapply inn_trans; [exact H5|apply IH].
Qed.

Lemma i_mark_unrun l : reli (mark_unrun l).
Proof. induction l; simpl; [apply i_ret|]. apply i_seq; auto. apply i_test_context. intros; apply i_ret. Qed.

Lemma i_run_tests ts : reli (run_tests E ts).
Proof.
  intros s. unfold run_tests. pose proof (i_run_loop ts None s) as H1.
  destruct (run_loop E None ts s) as [[[s1 o] e] last]. cbn [fst] in H1.
  assert (H2 : inn s (fst ((if e_worker E then ret else initiate_cleanup E) s1))).
  { eapply inn_trans; [exact H1|]. destruct (e_worker E); [apply inn_refl|]. apply i_initiate. }
  destruct o; auto;
    destruct ((if e_worker E then ret else initiate_cleanup E) s1) as [s2 [| x' |]]; cbn [fst] in *; auto.
  destruct (e_worker E); auto. eapply inn_trans; [exact H2|].
  match goal with |- inn s2 (fst ((?a ;; ?b) s2)) => assert (P : reli (a ;; b)) end; [|apply P].
  apply i_seq; [apply i_mark_unrun|].
  destruct e, last; first [apply i_ret | intros s3; apply inn_emit; reflexivity].
Qed.

(** ** Around the tests *)

Definition late (tr : list event) : Prop := forall p t q, tr = p ++ EvHook HSessionEnd t :: q -> closes p true.

Record Q (w : list hook) (cl : bool) (s : state) : Prop := mkQ {
  q_hooks : hooks (st_trace s) = w;
  q_placed : placed (st_trace s);
  q_late : late (st_trace s);
  q_closes : closes (st_trace s) true <-> cl = true;
  q_clean : clean s }.

Lemma closes_app a b v : closes (a ++ b) v <-> closes a v \/ closes b v.
Proof.
  split.
  - intros (sid & H). apply in_app_or in H as [H|H]; [left|right]; exists sid; auto.
  - intros [(sid & H)|(sid & H)]; exists sid; apply in_or_app; auto.
Qed.
Lemma closes_inner l v : forallb inner l = true -> ~ closes l v.
Proof. intros H (sid & K). rewrite forallb_forall in H. apply H in K. discriminate. Qed.

Lemma late_ext a l : late a -> (forall t, ~ In (EvHook HSessionEnd t) l) -> late (a ++ l).
Proof.
  intros H Hl p t q X. apply split_app in X as [[r ->]|(r & -> & ->)]; [eapply H; reflexivity|].
  exfalso. apply (Hl t). apply in_or_app. right. left. reflexivity.
Qed.
Lemma late_inner a l : late a -> forallb inner l = true -> late (a ++ l).
Proof. intros H Hl. apply late_ext; auto. intros t K. rewrite forallb_forall in Hl. apply Hl in K. discriminate. Qed.
Lemma placed_ext a l : placed a -> (forall e, In e l -> of_tests e = false) -> placed (a ++ l).
Proof.
  intros H Hl p e q X He. apply split_app in X as [[r ->]|(r & -> & ->)]; [eapply H; [reflexivity|auto]|].
  rewrite Hl in He; [discriminate|]. apply in_or_app. right. left. reflexivity.
Qed.

Lemma Q_small w cl s s' : small s s' -> Q w cl s -> Q w cl s'.
Proof.
  intros S [A B C D F]. pose proof (small_inn _ _ S) as (_ & K). destruct (K F) as (F' & l & L1 & L2).
  destruct S as (S1 & S2 & l' & S3 & S4). assert (l' = l) by (rewrite L1 in S3; apply app_inv_head in S3; auto). subst l'.
  constructor; auto.
  - rewrite L1, hooks_app, (hooks_inner l L2), app_nil_r. exact A.
  - rewrite L1. apply placed_ext; auto. intros e He. rewrite forallb_forall in S4. apply S4 in He.
    destruct e; try destruct nm; simpl in *; auto; try discriminate.
    destruct (sess_hook h); auto. destruct h; auto; discriminate.
  - rewrite L1. apply late_inner; auto.
  - rewrite L1, closes_app. rewrite <- D. split; auto. intros [K'|K']; auto. exfalso. eapply closes_inner; eauto.
Qed.

Lemma Q_inn cl s s' : inn s s' -> Q [HBeforeSessionStart; HSessionStart; HAfterSessionStart] cl s ->
  Q [HBeforeSessionStart; HSessionStart; HAfterSessionStart] cl s'.
Proof.
  intros S [A B C D F]. destruct S as (_ & K). destruct (K F) as (F' & l & L1 & L2).
  constructor; auto.
  - rewrite L1, hooks_app, (hooks_inner l L2), app_nil_r. exact A.
  - rewrite L1. intros p e q X He. apply split_app in X as [[r X]|(r & -> & ->)]; [eapply B; [exact X|auto]|].
    rewrite hooks_app, A, forallb_app in *. apply andb_true_iff in L2 as [L2 _]. rewrite (hooks_inner r L2). reflexivity.
  - rewrite L1. apply late_inner; auto.
  - rewrite L1, closes_app. rewrite <- D. split; auto. intros [K'|K']; auto. exfalso. eapply closes_inner; eauto.
Qed.

Lemma Q_fire h w cl s : sess_hook h = true -> (h = HSessionEnd -> cl = true) -> Q w cl s ->
  Q (w ++ [h]) cl (fst (fire E h 0 s)) /\ st_ss (fst (fire E h 0 s)) = st_ss s.
Proof.
  intros Hh Hc H. unfold fire, seq, upd. split.
  - eapply Q_small; [apply small_exec|]. destruct H as [A B C D F]. constructor; auto; cbn [emit st_trace].
    + rewrite hooks_app, A. simpl. rewrite Hh. reflexivity.
    + apply placed_ext; auto. intros e [<-|[]]. simpl. rewrite Hh. reflexivity.
    + intros p t q X. apply split_app in X as [[r X]|(r & -> & X)]; [eapply C; exact X|].
      destruct r as [|e r]; [|destruct r; discriminate]. inversion X. rewrite app_nil_r. apply D. auto.
    + rewrite closes_app, D. split; auto. intros [K|(sid & [K|[]])]; auto. discriminate.
  - destruct (small_exec (e_hook E h 0) (emit (EvHook h 0) s)) as (K & _). exact K.
Qed.

Lemma handling_small h (a : M) s : exists s1 o, a s = (s1, o) /\ small s1 (fst (handling E h a s)) /\
  (snd (handling E h a s) = ONormal -> h = h_plain -> o = ONormal) /\ (o = ONormal -> handling E h a s = (s1, ONormal)).
Proof.
  destruct (a s) as [s1 o] eqn:Ea. exists s1, o. split; auto. unfold handling. rewrite Ea.
  destruct o as [| x |]; cbn [fst snd]; [split; [apply small_refl|auto]| |split; [apply small_refl|split; auto; discriminate]].
  repeat match goal with |- context[if ?b then _ else _] => destruct b eqn:?; cbn [fst snd] end;
    (split; [first [apply small_refl|apply small_handle]|split; [|discriminate]]); try discriminate;
    intros _ ->; simpl in *; rewrite ?andb_false_r in *; discriminate.
Qed.

Notation BS := HBeforeSessionStart.
Notation SS := HSessionStart.
Notation AS := HAfterSessionStart.
Notation SI := HSessionInterrupt.
Notation SE := HSessionEnd.
Notation AE := HAfterSessionEnd.

Definition begun (w : list hook) (ss : bool) : Prop := ((w = [BS] \/ w = [BS; SS]) /\ ss = false) \/ (w = [BS; SS; AS] /\ ss = true).

Lemma preamble_hooks s : Q [] false s -> st_ss s = false ->
  let r := handling E h_plain (fire E BS 0 ;; fire E SS 0 ;; upd (set_ss true) ;; fire E AS 0) s in
  exists w, Q w false (fst r) /\ begun w (st_ss (fst r)) /\ (snd r = ONormal -> w = [BS; SS; AS]).
Proof.
  intros H Hs. cbv zeta.
  destruct (handling_small h_plain (fire E BS 0 ;; fire E SS 0 ;; upd (set_ss true) ;; fire E AS 0) s) as (s1 & o & A & B & C & _).
  set (r := handling E h_plain _ s) in *. clearbody r. revert A. unfold seq at 1.
  assert (K : forall w, Q w false s1 -> begun w (st_ss s1) -> (o = ONormal -> w = [BS; SS; AS]) ->
    exists w0, Q w0 false (fst r) /\ begun w0 (st_ss (fst r)) /\ (snd r = ONormal -> w0 = [BS; SS; AS])).
  { intros w K1 K2 K3. exists w. split; [eapply Q_small; eauto|]. destruct B as (B & _). rewrite B. auto. }
  destruct (Q_fire BS [] false s eq_refl ltac:(discriminate) H) as (Q1 & R1).
  destruct (fire E BS 0 s) as [a oa]. cbn [fst app] in *.
  destruct oa as [| x |]; [|intros X; inversion X; subst; apply (K [BS]); auto; [left; split; auto; congruence|discriminate]
                           |intros X; inversion X; subst; apply (K [BS]); auto; [left; split; auto; congruence|discriminate]].
  unfold seq at 1. destruct (Q_fire SS [BS] false a eq_refl ltac:(discriminate) Q1) as (Q2 & R2).
  destruct (fire E SS 0 a) as [b ob]. cbn [fst app] in *.
  destruct ob as [| x |]; [|intros X; inversion X; subst; apply (K [BS; SS]); auto; [left; split; auto; congruence|discriminate]
                           |intros X; inversion X; subst; apply (K [BS; SS]); auto; [left; split; auto; congruence|discriminate]].
  unfold seq, upd.
  assert (Q3 : Q [BS; SS] false (set_ss true b)) by (destruct Q2; constructor; auto).
  destruct (Q_fire AS [BS; SS] false (set_ss true b) eq_refl ltac:(discriminate) Q3) as (Q4 & R4). cbn [app] in Q4.
  intros X. rewrite X in Q4, R4. cbn [fst] in *. apply (K [BS; SS; AS]); auto. right. split; auto.
Qed.

Lemma pop_hooks w s : Q w false s ->
  let r := cm_pop E SSessionGlobal s in
  st_ss (fst r) = st_ss s /\ ((snd r = ONormal /\ Q w true (fst r)) \/ (snd r <> ONormal /\ Q w false (fst r))).
Proof.
  intros H. cbv zeta. unfold cm_pop. destruct (cm_stack (st_cm s)) as [|sc l].
  - split; [reflexivity|]. right. split; [discriminate|]. eapply Q_small; [|exact H].
    repeat split. exists []. rewrite app_nil_r. auto.
  - destruct (negb (sname_eqb (sc_name sc) SSessionGlobal)) eqn:X.
    + split; [reflexivity|]. right. split; [discriminate|]. eapply Q_small; [|exact H].
      repeat split. exists []. rewrite app_nil_r. auto.
    + set (s0 := emit _ s).
      assert (Y : small s0 (fst (call_cleanups E (sc_id sc) (sc_name sc) (negb (current_success s)) (current_interrupted s) s0))).
      { apply both_small; [apply relf_call_cleanups|apply rs_call_cleanups]. }
      assert (Y0 : small s s0).
      { repeat split. exists [EvPopBegin (sc_id sc) SSessionGlobal (negb (current_success s)) (current_interrupted s)]. split; auto. }
      pose proof (small_trans _ _ _ Y0 Y) as Y1. clear Y Y0.
      destruct (call_cleanups E (sc_id sc) (sc_name sc) (negb (current_success s)) (current_interrupted s) s0) as [s1 o]. cbn [fst] in Y1.
      pose proof (Q_small _ _ _ _ Y1 H) as H1. destruct Y1 as (Y1 & _).
      assert (G : forall b, Q w b (emit (EvPopEnd (sc_id sc) SSessionGlobal b)
         (on_cm (fun m => with_names (name_update SSessionGlobal (@tl _) (cm_names m)) (with_stack (tl (cm_stack m)) m)) s1))).
      { intros b. destruct H1 as [A B C D F].
        match goal with |- Q _ _ ?z => assert (T : st_trace z = st_trace s1 ++ [EvPopEnd (sc_id sc) SSessionGlobal b]) by reflexivity end.
        constructor; auto; rewrite T.
        - rewrite hooks_app, A. simpl. apply app_nil_r.
        - apply placed_ext; auto. intros e [<-|[]]. reflexivity.
        - apply late_ext; auto. intros t [K|[]]. discriminate.
        - rewrite closes_app, D. split; [intros [K|(sid & [K|[]])]; [discriminate|inversion K; auto]|].
          intros ->. right. exists (sc_id sc). left. reflexivity. }
      destruct o as [| x |]; cbn [fst snd].
      * split; [exact Y1|]. left. split; [reflexivity|apply G].
      * split; [exact Y1|]. right. split; [discriminate|]. apply G.
      * split; [exact Y1|]. right. split; [discriminate|]. exact H1.
Qed.

Lemma closing_hooks w s : Q w false s ->
  let r := (handling E h_plain (cm_pop E SSessionGlobal) ;;
    cond st_ss (handling E h_plain (fire E SE 0) ;; handling E h_plain (fire E AE 0)) ret) s in
  exists w' cl, Q w' cl (fst r) /\
    ((w' = w /\ (st_ss s = true -> cl = false)) \/ (st_ss s = true /\ cl = true /\ (w' = w ++ [SE] \/ w' = w ++ [SE; AE]))) /\
    (snd r = ONormal -> st_ss s = true -> w' = w ++ [SE; AE]).
Proof.
  intros H. cbv zeta. unfold seq, cond.
  destruct (handling_small h_plain (cm_pop E SSessionGlobal) s) as (s1 & o & A & B & C & D).
  pose proof (pop_hooks w s H) as P. cbv zeta in P. rewrite A in P. cbn [fst snd] in P. destruct P as (P1 & P2).
  destruct (handling E h_plain (cm_pop E SSessionGlobal) s) as [s2 o2] eqn:Eh. cbn [fst snd] in *.
  destruct P2 as [(-> & P2)|(P3 & P2)].
  2:{ destruct o2 as [| x |]; [exfalso; apply P3; apply C; auto| |];
        (exists w, false; split; [eapply Q_small; eauto|]; split; [left; split; auto|intros K; discriminate K]). }
  specialize (D eq_refl). inversion D; subst s2 o2. clear B C D A.
  destruct (st_ss s1) eqn:Es.
  2:{ exists w, true. split; [exact P2|]. split; [left; split; auto; intros; congruence|intros _ K; congruence]. }
  destruct (handling_small h_plain (fire E SE 0) s1) as (s3 & o3 & A & B & C & D).
  destruct (Q_fire SE w true s1 eq_refl ltac:(auto) P2) as (Q1 & R1). rewrite A in Q1, R1. cbn [fst] in *.
  destruct (handling E h_plain (fire E SE 0) s1) as [s4 o4]. cbn [fst snd] in *.
  pose proof (Q_small _ _ _ _ B Q1) as Q2.
  destruct o4 as [| x |];
    [|exists (w ++ [SE]), true; split; [exact Q2|]; split; [right; rewrite <- P1; auto|discriminate]
     |exists (w ++ [SE]), true; split; [exact Q2|]; split; [right; rewrite <- P1; auto|discriminate]].
  clear A B C D. destruct (handling_small h_plain (fire E AE 0) s4) as (s5 & o5 & A & B & C & D).
  destruct (Q_fire AE (w ++ [SE]) true s4 eq_refl ltac:(auto) Q2) as (Q3 & R3). rewrite A in Q3. cbn [fst] in *.
  rewrite <- app_assoc in Q3. exists (w ++ [SE; AE]), true. split; [eapply Q_small; [exact B|exact Q3]|].
  split; [right; rewrite <- P1; auto|reflexivity].
Qed.

(** core/session.py:112-144 *)
Definition allowed : list (list hook) :=
  [[BS]; [BS; SI]; [BS; SS]; [BS; SS; SI];
   [BS; SS; AS]; [BS; SS; AS; SI]; [BS; SS; AS; SE]; [BS; SS; AS; SI; SE]; [BS; SS; AS; SE; AE]; [BS; SS; AS; SI; SE; AE]].

Lemma session_hooks ts :
  let r := run_session E ts in
  exists w cl, Q w cl (fst r) /\ In w allowed /\ (In AS w -> (In SE w <-> cl = true)) /\
    (snd r = ONormal -> w = [BS; SS; AS; SE; AE]).
Proof.
  cbv zeta.
  assert (Eq : run_session E ts = finally (except_ interruption_types
      (handling E h_plain (fire E BS 0 ;; fire E SS 0 ;; upd (set_ss true) ;; fire E AS 0) ;; run_tests E ts)
      (fun x => fire E SI 0 ;; reraise x))
    (handling E h_plain (cm_pop E SSessionGlobal) ;;
     cond st_ss (handling E h_plain (fire E SE 0) ;; handling E h_plain (fire E AE 0)) ret)
    (set_ss false (fst (cm_push SSessionGlobal state0)))) by reflexivity.
  rewrite Eq. clear Eq.
  assert (Q0 : Q [] false state0).
  { constructor; simpl; auto.
    - intros p e q X. destruct p; discriminate.
    - intros p e q X. destruct p; discriminate.
    - split; [intros (sid & [])|discriminate].
    - intros []. }
  assert (Q1 : Q [] false (fst (cm_push SSessionGlobal state0))).
  { eapply Q_small; [|exact Q0]. repeat split. exists [EvPush 0 SSessionGlobal]. split; auto. }
  assert (Q2 : Q [] false (set_ss false (fst (cm_push SSessionGlobal state0)))) by (destruct Q1; constructor; auto).
  set (sb := set_ss false (fst (cm_push SSessionGlobal state0))) in *. assert (Sb : st_ss sb = false) by reflexivity. clearbody sb.
  (* after the body of the with statement *)
  assert (M1 : exists s1 o1, except_ interruption_types
      (handling E h_plain (fire E BS 0 ;; fire E SS 0 ;; upd (set_ss true) ;; fire E AS 0) ;; run_tests E ts)
      (fun x => fire E SI 0 ;; reraise x) sb = (s1, o1) /\
      exists w, Q w false s1 /\
        (((w = [BS] \/ w = [BS; SS] \/ w = [BS; SI] \/ w = [BS; SS; SI]) /\ st_ss s1 = false) \/
         ((w = [BS; SS; AS] \/ w = [BS; SS; AS; SI]) /\ st_ss s1 = true)) /\
        (o1 = ONormal -> w = [BS; SS; AS])).
  { unfold except_. unfold seq at 1.
    destruct (preamble_hooks sb Q2 Sb) as (w & W1 & W2 & W3).
    destruct (handling E h_plain (fire E BS 0 ;; fire E SS 0 ;; upd (set_ss true) ;; fire E AS 0) sb) as [sc oc]. cbn [fst snd] in *.
    assert (M2 : exists sd od, (match oc with ONormal => run_tests E ts sc | _ => (sc, oc) end) = (sd, od) /\
       Q w false sd /\ begun w (st_ss sd) /\ (od = ONormal -> w = [BS; SS; AS])).
    { destruct oc as [| x |]; [|exists sc, (ORaise x); split; [reflexivity|split; [exact W1|split; [exact W2|discriminate]]]
                               |exists sc, OFuel; split; [reflexivity|split; [exact W1|split; [exact W2|discriminate]]]].
      specialize (W3 eq_refl). subst w. pose proof (i_run_tests ts sc) as I.
      destruct (run_tests E ts sc) as [sd od]. cbn [fst] in I. exists sd, od. split; [reflexivity|].
      split; [eapply Q_inn; eauto|]. destruct I as (I & _). rewrite I. auto. }
    destruct M2 as (sd & od & M2 & M3 & M4 & M5).
    assert (M6 : (let (s1, o) := (sc, oc) in match o with ONormal => run_tests E ts s1 | _ => (s1, o) end) = (sd, od)) by (destruct oc; exact M2).
    match goal with |- context[match ?m with (_, _) => _ end] => replace m with (sd, od) by (rewrite <- M2; destruct oc; reflexivity) end.
    assert (N : exists s1 o1, (sd, od) = (s1, o1) /\ exists w0, Q w0 false s1 /\
        (((w0 = [BS] \/ w0 = [BS; SS] \/ w0 = [BS; SI] \/ w0 = [BS; SS; SI]) /\ st_ss s1 = false) \/
         ((w0 = [BS; SS; AS] \/ w0 = [BS; SS; AS; SI]) /\ st_ss s1 = true)) /\ (o1 = ONormal -> w0 = [BS; SS; AS])).
    { exists sd, od. split; auto. exists w. split; auto. split; auto. destruct M4 as [([->| ->] & M4)|(-> & M4)]; auto. }
    destruct od as [| x |]; [exact N| |exact N].
    destruct (isinstance_any (x_kind x) interruption_types); [|exact N]. clear N.
    unfold seq. destruct (Q_fire SI w false sd eq_refl ltac:(discriminate) M3) as (F1 & F2).
    destruct (fire E SI 0 sd) as [sf of]. cbn [fst] in *.
    assert (N : exists w0, Q w0 false sf /\
        (((w0 = [BS] \/ w0 = [BS; SS] \/ w0 = [BS; SI] \/ w0 = [BS; SS; SI]) /\ st_ss sf = false) \/
         ((w0 = [BS; SS; AS] \/ w0 = [BS; SS; AS; SI]) /\ st_ss sf = true))).
    { exists (w ++ [SI]). split; auto. rewrite F2. destruct M4 as [([->| ->] & M4)|(-> & M4)]; simpl; auto 8. }
    destruct N as (w0 & N1 & N2). destruct of as [| y |]; unfold reraise.
    - exists sf, (ORaise x). split; auto. exists w0. split; auto. split; auto. discriminate.
    - exists sf, (ORaise y). split; auto. exists w0. split; auto. split; auto. discriminate.
    - exists sf, OFuel. split; auto. exists w0. split; auto. split; auto. discriminate. }
  destruct M1 as (s1 & o1 & M1 & w & W1 & W2 & W3). unfold finally. rewrite M1.
  destruct (closing_hooks w s1 W1) as (w' & cl & C1 & C2 & C3).
  match goal with |- context[match o1 with ONormal => match ?c with _ => _ end | _ => _ end] => set (cc := c) in * end.
  destruct o1 as [| x |].
  3:{ exists w, false. cbn [fst snd]. split; auto. split; [|split; [|discriminate]].
      - destruct W2 as [([->|[->|[->| ->]]] & _)|([->| ->] & _)]; simpl; auto 12.
      - destruct W2 as [([->|[->|[->| ->]]] & _)|([->| ->] & _)]; simpl; intros; split; intros; try discriminate;
          repeat match goal with H : _ \/ _ |- _ => destruct H end; try discriminate; contradiction. }
  all: assert (G : In w' allowed /\ (In AS w' -> (In SE w' <-> cl = true))).
  1,3: destruct C2 as [(-> & C2)|(S & -> & [->| ->])];
       destruct W2 as [([->|[->|[->| ->]]] & W2)|([->| ->] & W2)]; try congruence; simpl;
       (split; [auto 15|]; intros ?; split; intros; try (rewrite C2 in * by auto; discriminate); auto 12;
        repeat match goal with H : _ \/ _ |- _ => destruct H end; try discriminate; try contradiction).
  - destruct G as (G1 & G2). exists w', cl. destruct cc as [s2 o2]. cbn [fst snd] in *.
    destruct o2 as [| y |]; cbn [fst snd]; (split; [exact C1|split; [exact G1|split; [exact G2|]]]); try discriminate.
    intros _. specialize (W3 eq_refl). subst w. destruct W2 as [([W2|[W2|[W2|W2]]] & _)|(_ & W2)]; try discriminate. auto.
  - destruct G as (G1 & G2). exists w', cl. destruct cc as [s2 o2]. cbn [fst snd] in *.
    destruct o2 as [| y |]; cbn [fst snd]; (split; [exact C1|split; [exact G1|split; [exact G2|discriminate]]]).
Qed.

End S.
