(** What the code below the runner (user programs, cleanups, fixtures, scopes)
    leaves alone, and how it may change results. *)

From Coq Require Import List Bool Arith PeanoNat Lia.
From Verif Require Import Events Core CoreBase.
Import ListNotations.

(** ** Relations between the states before and after *)

Definition rel (R : state -> state -> Prop) (m : M) : Prop := forall s, R s (fst (m s)).

Section Pre.
Variable R : state -> state -> Prop.
Hypothesis Rrefl : forall s, R s s.
Hypothesis Rtrans : forall a b c, R a b -> R b c -> R a c.

Lemma rel_ret : rel R ret.
Proof. intros s; apply Rrefl. Qed.
Lemma rel_reraise x : rel R (reraise x).
Proof. intros s; apply Rrefl. Qed.
Lemma rel_upd f : (forall s, R s (f s)) -> rel R (upd f).
Proof. intros H s; apply H. Qed.
Lemma rel_seq a b : rel R a -> rel R b -> rel R (a ;; b).
Proof.
  intros Ha Hb s. unfold seq. specialize (Ha s). destruct (a s) as [s1 [| x |]]; cbn [fst] in *; auto.
  eapply Rtrans; [exact Ha|apply Hb].
Qed.
Lemma rel_finally a b : rel R a -> rel R b -> rel R (finally a b).
Proof.
  intros Ha Hb s. unfold finally. specialize (Ha s).
  destruct (a s) as [s1 [| x |]]; cbn [fst] in *; auto;
    specialize (Hb s1); destruct (b s1) as [s2 [| y |]]; cbn [fst] in *; eauto.
Qed.
Lemma rel_except ts a h : rel R a -> (forall x, rel R (h x)) -> rel R (except_ ts a h).
Proof.
  intros Ha Hh s. unfold except_. specialize (Ha s).
  destruct (a s) as [s1 [| x |]]; cbn [fst] in *; auto.
  destruct (isinstance_any (x_kind x) ts); cbn [fst]; auto. eapply Rtrans; [exact Ha|apply Hh].
Qed.
Lemma rel_cond c a b : rel R a -> rel R b -> rel R (cond c a b).
Proof. intros Ha Hb s. unfold cond. destruct (c s); auto. Qed.
Lemma rel_handling E h a :
  (forall x s, R s (handle_exception E x s)) -> rel R a -> rel R (handling E h a).
Proof.
  intros Hx Ha s. unfold handling. specialize (Ha s).
  destruct (a s) as [s1 [| x |]]; cbn [fst] in *; auto.
  repeat match goal with |- context[if ?b then _ else _] => destruct b; cbn [fst] end; eauto.
Qed.
Lemma rel_call_all fs : (forall f, In f fs -> rel R f) -> forall sv, rel R (call_all sv fs).
Proof.
  induction fs as [|f fs IH]; intros H sv s; simpl.
  - destruct sv; apply Rrefl.
  - pose proof (H f (or_introl eq_refl) s) as H1.
    assert (IH' : forall sv0, rel R (call_all sv0 fs)) by (apply IH; intros g Hg; apply H; right; exact Hg).
    destruct (f s) as [s1 [| x |]]; cbn [fst] in *; auto.
    + eapply Rtrans; [exact H1|apply IH'].
    + destruct (isinstance (x_kind x) TException); cbn [fst]; auto. eapply Rtrans; [exact H1|apply IH'].
Qed.
Lemma rel_fun (f : state -> M) : (forall s0, rel R (f s0)) -> rel R (fun s => f s s).
Proof. intros H s. apply H. Qed.
Lemma rel_default n a :
  (forall v s, R s (on_cm (with_default v) s)) -> rel R a -> rel R (default_scope_override n a).
Proof.
  intros H Ha s. unfold default_scope_override.
  assert (F : rel R (finally (upd (on_cm (with_default (Some n))) ;; a) (upd (on_cm (with_default (cm_default (st_cm s))))))).
  { apply rel_finally; [apply rel_seq; auto|]; apply rel_upd; auto. }
  exact (F s).
Qed.
Lemma rel_forbid a :
  (forall v s, R s (on_cm (with_implicit v) s)) -> rel R a -> rel R (forbid_implicit a).
Proof.
  intros H Ha s. unfold forbid_implicit.
  assert (F : rel R (finally (upd (on_cm (with_implicit false)) ;; a) (upd (on_cm (with_implicit (cm_implicit (st_cm s))))))).
  { apply rel_finally; [apply rel_seq; auto|]; apply rel_upd; auto. }
  exact (F s).
Qed.
End Pre.

(** ** How a result may grow *)

Record grow (r r' : result) : Prop := mkGrow {
  g_err : exists l, r_errors r' = r_errors r ++ l;
  g_fail : exists l, r_failures r' = r_failures r ++ l;
  g_skip : exists l, r_skips r' = r_skips r ++ l;
  g_started : r_started r' = r_started r;
  g_finished : r_finished r' = r_finished r;
  g_intr : r_interrupted r = true -> r_interrupted r' = true }.

Lemma grow_refl r : grow r r.
Proof. constructor; auto; exists []; rewrite app_nil_r; auto. Qed.

Lemma grow_trans a b c : grow a b -> grow b c -> grow a c.
Proof.
  intros [[l1 A1] [l2 A2] [l3 A3] A4 A5 A6] [[m1 B1] [m2 B2] [m3 B3] B4 B5 B6].
  constructor; try congruence; auto.
  - exists (l1 ++ m1). rewrite B1, A1, app_assoc; auto.
  - exists (l2 ++ m2). rewrite B2, A2, app_assoc; auto.
  - exists (l3 ++ m3). rewrite B3, A3, app_assoc; auto.
Qed.

Lemma grow_error e r : grow r (r_add_error e r).
Proof. constructor; simpl; auto; try (exists []; rewrite app_nil_r; auto; fail). exists [e]; auto. Qed.
Lemma grow_failure e r : grow r (r_add_failure e r).
Proof. constructor; simpl; auto; try (exists []; rewrite app_nil_r; auto; fail). exists [e]; auto. Qed.
Lemma grow_skip e r : grow r (r_add_skip e r).
Proof. constructor; simpl; auto; try (exists []; rewrite app_nil_r; auto; fail). exists [e]; auto. Qed.
Lemma grow_mark r : grow r (r_mark_interrupted r).
Proof. constructor; simpl; auto; exists []; rewrite app_nil_r; auto. Qed.

(** ** Tables *)

Lemma lookup_update {A} n f (l : list (nat * A)) m :
  lookup m (update n f l) = if Nat.eqb m n then option_map f (lookup m l) else lookup m l.
Proof.
  induction l as [|[k a] l IH]; simpl.
  - destruct (Nat.eqb m n); auto.
  - destruct (Nat.eqb n k) eqn:E1; simpl.
    + apply Nat.eqb_eq in E1. subst k. destruct (Nat.eqb m n); auto.
    + destruct (Nat.eqb m k) eqn:E2.
      * apply Nat.eqb_eq in E2. subst k. destruct (Nat.eqb m n) eqn:E3; auto.
        apply Nat.eqb_eq in E3. subst. rewrite Nat.eqb_refl in E1. discriminate.
      * apply IH.
Qed.

Lemma update_keys {A} n f (l : list (nat * A)) : map fst (update n f l) = map fst l.
Proof.
  induction l as [|[k a] l IH]; simpl; auto. destruct (Nat.eqb n k); simpl; auto. f_equal; auto.
Qed.

Lemma lookup_In {A} n (l : list (nat * A)) : (exists a, lookup n l = Some a) <-> In n (map fst l).
Proof.
  induction l as [|[k a] l IH]; simpl.
  - split; [intros [a H]; discriminate|tauto].
  - destruct (Nat.eqb n k) eqn:E.
    + apply Nat.eqb_eq in E. subst. split; eauto.
    + rewrite IH. apply Nat.eqb_neq in E. split; [auto|]. intros [H|H]; auto. congruence.
Qed.

Lemma lookup_app {A} n (l l' : list (nat * A)) :
  lookup n (l ++ l') = match lookup n l with Some a => Some a | None => lookup n l' end.
Proof. induction l as [|[k a] l IH]; simpl; auto. destruct (Nat.eqb n k); auto. Qed.

(** ** The frame *)

(** Events produced below the runner.  Hooks there: before_test_cleanups,
    before_session_cleanup and test_interrupt. *)
Definition quiet (e : event) : bool :=
  match e with
  | EvHook h _ => match h with HBeforeTestCleanups | HBeforeSessionCleanup | HTestInterrupt => true | _ => false end
  | EvFileStart _ | EvFileEnd _ | EvReportStart _ | EvReportEnd _ | EvComplete => false
  | _ => true
  end.

Definition res_grow (l l' : list (nat * result)) : Prop :=
  map fst l' = map fst l /\
  forall t r, lookup t l = Some r -> exists r', lookup t l' = Some r' /\ grow r r'.

Lemma res_grow_refl l : res_grow l l.
Proof. split; auto. intros t r H. exists r. split; auto. apply grow_refl. Qed.

Lemma res_grow_trans a b c : res_grow a b -> res_grow b c -> res_grow a c.
Proof.
  intros [A1 A2] [B1 B2]. split; [congruence|]. intros t r H.
  destruct (A2 t r H) as (r1 & H1 & G1). destruct (B2 t r1 H1) as (r2 & H2 & G2).
  exists r2. split; auto. eapply grow_trans; eauto.
Qed.

Lemma res_grow_update n f l : (forall r, grow r (f r)) -> res_grow l (update n f l).
Proof.
  intros Hf. split; [apply update_keys|]. intros t r H. rewrite lookup_update, H.
  destruct (Nat.eqb t n); simpl; eexists; (split; [reflexivity|]); auto. apply grow_refl.
Qed.

Record frame (s s' : state) : Prop := mkFrame {
  f_test : st_test s' = st_test s;
  f_result : st_result s' = st_result s;
  f_ctl : st_ctl s' = st_ctl s;
  f_ss : st_ss s' = st_ss s;
  f_nidx : st_nidx s' = st_nidx s;
  f_idx : st_idx s' = st_idx s;
  f_trace : exists tr, st_trace s' = st_trace s ++ tr /\ forallb quiet tr = true;
  f_res : res_grow (st_results s) (st_results s');
  f_glob : grow (st_global s) (st_global s') }.

Lemma frame_refl s : frame s s.
Proof.
  constructor; auto; [exists []; rewrite app_nil_r; auto|apply res_grow_refl|apply grow_refl].
Qed.

Lemma frame_trans a b c : frame a b -> frame b c -> frame a c.
Proof.
  intros [] []. constructor; try congruence.
  - destruct f_trace0 as (t1 & H1 & Q1), f_trace1 as (t2 & H2 & Q2). exists (t1 ++ t2).
    rewrite H2, H1, app_assoc, forallb_app, Q1, Q2. auto.
  - eapply res_grow_trans; eauto.
  - eapply grow_trans; eauto.
Qed.

(** a step that touches neither trace, results nor the runner's own fields *)
Ltac fplain := intros; constructor; try reflexivity;
  [exists []; rewrite app_nil_r; auto | apply res_grow_refl | apply grow_refl].

Lemma frame_emit e s : quiet e = true -> frame s (emit e s).
Proof.
  intros H. constructor; try reflexivity; [|apply res_grow_refl|apply grow_refl].
  exists [e]. simpl. rewrite H. auto.
Qed.

Lemma frame_on_result r f s : (forall q, grow q (f q)) -> frame s (on_result r f s).
Proof.
  intros H. destruct r as [|t]; constructor; try reflexivity; simpl;
    try (exists []; rewrite app_nil_r; auto; fail); auto using res_grow_refl, grow_refl, res_grow_update.
Qed.

Lemma frame_add_exception E r x s : frame s (add_exception E r x s).
Proof.
  unfold add_exception. destruct (mem_xid (x_id x) (st_added s)); [apply frame_refl|].
  assert (H0 : frame s (set_added (x_id x :: st_added s) s)) by fplain.
  cbv zeta.
  repeat match goal with
  | |- frame _ (if ?b then _ else _) => destruct b
  end.
  - eapply frame_trans; [|apply frame_emit; reflexivity].
    eapply frame_trans; [exact H0|apply frame_on_result, grow_failure].
  - eapply frame_trans; [|apply frame_emit; reflexivity].
    eapply frame_trans; [exact H0|apply frame_on_result, grow_skip].
  - eapply frame_trans; [|apply frame_on_result, grow_mark].
    assert (H1 : frame s (emit (EvRecord r RKInterrupt (Some (x_id x)) (x_fatal x)) (set_added (x_id x :: st_added s) s))).
    { eapply frame_trans; [exact H0|apply frame_emit; reflexivity]. }
    destruct r as [|t]; auto.
    match goal with |- frame _ (if ?b then _ else _) => destruct b end.
    + eapply frame_trans; [exact H1|apply frame_on_result, grow_mark].
    + eapply frame_trans; [|apply frame_emit; reflexivity].
      eapply frame_trans; [exact H1|apply frame_on_result, grow_mark].
  - eapply frame_trans; [exact H0|apply frame_emit; reflexivity].
  - eapply frame_trans; [|apply frame_emit; reflexivity].
    eapply frame_trans; [exact H0|apply frame_on_result, grow_error].
Qed.

Lemma frame_handle E x s : frame s (handle_exception E x s).
Proof.
  unfold handle_exception. cbv zeta.
  eapply frame_trans; [apply (frame_emit (EvHandle (x_id x) (x_kind x) (x_fatal x)
    (match st_test s with Some t => RTest t | None => RGlobal end))); reflexivity|].
  set (s1 := emit _ s). destruct (mem_xid _ _); [apply frame_refl|].
  eapply frame_trans with (set_handled (x_id x :: st_handled s1) s1); [fplain|].
  unfold update_current_result. destruct (st_test _); apply frame_add_exception.
Qed.

Lemma frame_add_entry k fatal s : frame s (add_entry k fatal s).
Proof.
  unfold add_entry. eapply frame_trans; [|apply frame_emit; reflexivity].
  apply frame_on_result. destruct k; intros q; auto using grow_error, grow_failure, grow_skip.
Qed.

Definition relf := rel frame.

Lemma relf_ret : relf ret. Proof. apply rel_ret, frame_refl. Qed.
Lemma relf_reraise x : relf (reraise x). Proof. apply rel_reraise, frame_refl. Qed.
Lemma relf_upd f : (forall s, frame s (f s)) -> relf (upd f). Proof. apply rel_upd. Qed.
Lemma relf_seq a b : relf a -> relf b -> relf (a ;; b). Proof. apply rel_seq, frame_trans. Qed.
Lemma relf_finally a b : relf a -> relf b -> relf (finally a b). Proof. apply rel_finally, frame_trans. Qed.
Lemma relf_except ts a h : relf a -> (forall x, relf (h x)) -> relf (except_ ts a h). Proof. apply rel_except, frame_trans. Qed.
Lemma relf_cond c a b : relf a -> relf b -> relf (cond c a b). Proof. apply rel_cond. Qed.
Lemma relf_handling E h a : relf a -> relf (handling E h a).
Proof. apply rel_handling; [apply frame_trans|]. intros; apply frame_handle. Qed.
Lemma relf_call_all fs : (forall f, In f fs -> relf f) -> forall sv, relf (call_all sv fs).
Proof. apply rel_call_all; [apply frame_refl|apply frame_trans]. Qed.
Lemma relf_raise k f : relf (raise_new k f).
Proof. intros s. simpl. fplain. Qed.

Section F.
Variable E : env.

Lemma frame_attach c req tgt s : frame s (attach c req tgt s).
Proof.
  unfold attach. eapply frame_trans; [apply (frame_emit (EvAdd (c_id c) req tgt (c_crit c) (c_succ c) (c_result c))); reflexivity|].
  destruct tgt; fplain.
Qed.

Lemma frame_add_cleanup sc crit succ body : relf (add_cleanup sc crit succ body).
Proof.
  intros s. unfold add_cleanup. destruct (succ && crit); [apply relf_raise|].
  assert (H : forall k, frame s (fst (raise_new k false (on_cm (fun m => with_ncid (S (cm_ncid m)) m) s)))) by fplain.
  assert (H' : forall c req tgt, frame s (attach c req tgt (on_cm (fun m => with_ncid (S (cm_ncid m)) m) s))).
  { intros. eapply frame_trans; [|apply frame_attach]. fplain. }
  repeat match goal with |- frame _ (fst (match ?b with _ => _ end)) => destruct b end; cbn [fst]; auto.
Qed.

Lemma frame_tap_add sc a : relf a -> relf (tap_add sc a).
Proof.
  intros Ha s. unfold tap_add. specialize (Ha s). destruct (a s) as [s1 [| x |]]; cbn [fst] in *; auto.
  eapply frame_trans; [exact Ha|]. apply frame_emit; reflexivity.
Qed.

Lemma relf_exec p : relf (exec E p).
Proof.
  induction p; cbn [exec].
  - apply relf_ret.
  - apply relf_raise.
  - apply relf_reraise.
  - apply relf_seq; auto. apply relf_upd. intros; apply frame_emit; reflexivity.
  - apply relf_seq; auto. apply frame_tap_add, frame_add_cleanup.
  - apply relf_seq; auto. apply relf_upd. intros; apply frame_add_entry.
  - apply relf_seq; auto. apply relf_upd. intros; apply frame_add_entry.
  - apply relf_seq; auto. apply relf_handling; auto.
  - apply relf_seq; auto. apply relf_except; auto. intros; apply relf_ret.
  - apply relf_seq; auto. apply rel_default; auto; [apply frame_trans|]. fplain.
  - apply relf_seq; auto. intros s. unfold activate_fixture. cbn [fst].
    eapply frame_trans; [|apply frame_emit; reflexivity]. fplain.
  - apply relf_seq; auto. apply relf_finally; auto.
  - apply relf_seq; auto. apply relf_cond; auto.
  - apply relf_seq; auto. intros s. apply frame_emit; reflexivity.
Qed.

Lemma relf_fire h t : quiet (EvHook h t) = true -> relf (fire E h t).
Proof. intros H. apply relf_seq; [|apply relf_exec]. apply relf_upd. intros; apply frame_emit; auto. Qed.

Lemma relf_cm_push n : relf (cm_push n).
Proof. intros s. unfold cm_push. cbn [fst]. eapply frame_trans; [|apply frame_emit; reflexivity]. fplain. Qed.

Lemma relf_tap cid a : relf a -> relf (tap cid a).
Proof.
  intros Ha s. unfold tap. specialize (Ha s). destruct (a s) as [s1 [| x |]]; cbn [fst] in *; auto.
  eapply frame_trans; [exact Ha|apply frame_emit; reflexivity].
Qed.

Lemma relf_call_cleanup sid c : relf (call_cleanup E sid c).
Proof.
  intros s. unfold call_cleanup.
  assert (F : relf (finally
    (upd (on_cm (with_current (Some sid))) ;; upd (emit (EvRun (c_id c))) ;;
     except_ [TException] (tap (c_id c) (exec E (c_body c))) (fun x => upd (add_exception E (c_result c) x) ;; reraise x))
    (upd (on_cm (with_current (cm_current (st_cm s))))))).
  { apply relf_finally; [|apply relf_upd; fplain].
    apply relf_seq; [apply relf_upd; fplain|].
    apply relf_seq; [apply relf_upd; intros; apply frame_emit; reflexivity|].
    apply relf_except; [apply relf_tap, relf_exec|].
    intros x. apply relf_seq; [apply relf_upd; intros; apply frame_add_exception|apply relf_reraise]. }
  exact (F s).
Qed.

Lemma relf_cleanup_loop fuel sid f i : relf (cleanup_loop E fuel sid f i).
Proof.
  induction fuel as [|fuel IH]; intros s; cbn [cleanup_loop]; [apply frame_refl|].
  destruct (scope_cleanups sid s) as [|c cl]; [apply frame_refl|].
  set (s0 := on_cm _ s). assert (H0 : frame s s0) by fplain.
  destruct (_ && _); [eapply frame_trans; [exact H0|apply IH]|].
  destruct (_ && _); [eapply frame_trans; [exact H0|apply IH]|].
  eapply frame_trans; [exact H0|].
  apply (relf_seq _ _ (relf_handling E _ _ (relf_call_cleanup sid c)) IH).
Qed.

Lemma relf_call_cleanups sid nm f i : relf (call_cleanups E sid nm f i).
Proof.
  apply relf_seq.
  - destruct (sname_eqb nm STest); [|apply relf_ret]. intros s. apply relf_handling, relf_fire. reflexivity.
  - intros s. apply relf_cleanup_loop.
Qed.

Lemma relf_cm_pop n : relf (cm_pop E n).
Proof.
  intros s. unfold cm_pop. destruct (cm_stack (st_cm s)) as [|sc l]; [apply relf_raise|].
  destruct (negb _); [apply relf_raise|].
  set (s1 := emit _ s). assert (H1 : frame s s1) by (apply frame_emit; reflexivity).
  pose proof (relf_call_cleanups (sc_id sc) (sc_name sc) (negb (current_success s)) (current_interrupted s) s1) as H2.
  destruct (call_cleanups _ _ _ _ _ s1) as [s2 [| x |]]; cbn [fst] in *; try (eapply frame_trans; eauto; fail);
    (eapply frame_trans; [|apply frame_emit; reflexivity]; eapply frame_trans; [exact H1|]; eapply frame_trans; [exact H2|]; fplain).
Qed.

Lemma relf_deactivate l fid : relf (deactivate_fixture E l fid).
Proof.
  intros s. unfold deactivate_fixture. destruct (lookup fid (fix_get l s)) as [fin|]; [|apply frame_refl].
  apply relf_seq; [|apply relf_exec]. apply relf_upd. intros s'. eapply frame_trans; [|apply frame_emit; reflexivity]. fplain.
Qed.

Lemma relf_fix_pop n : relf (fix_pop E n).
Proof.
  assert (A : forall l fids, relf (deactivate_all E l fids)).
  { intros l fids. induction fids; simpl; [apply relf_ret|]. apply relf_seq; auto. apply relf_handling, relf_deactivate. }
  assert (L : forall sl l, relf (fix_pop_level E sl l)).
  { intros sl l s. unfold fix_pop_level. destruct (Nat.leb _ _); [|apply frame_refl].
    apply relf_seq; auto. intros s'. destruct (nonempty _); [apply relf_raise|apply frame_refl]. }
  assert (Ls : forall sl ls, relf (fix_pop_levels E sl ls)).
  { intros sl ls. induction ls; simpl; [apply relf_ret|apply relf_seq; auto]. }
  intros s. unfold fix_pop. destruct (current_interrupted s); [apply frame_refl|apply Ls].
Qed.

Lemma relf_sm_push n : relf (sm_push n).
Proof. apply relf_seq; [|apply relf_cm_push]. apply relf_upd. fplain. Qed.

Lemma relf_sm_pop n : relf (sm_pop E n).
Proof.
  intros s. unfold sm_pop. destruct (st_scopes s) as [|p rest]; [apply relf_raise|].
  assert (H1 : frame s (set_scopes rest s)) by fplain.
  destruct (negb _); [eapply frame_trans; [exact H1|apply relf_raise]|].
  assert (H2 : relf (call_all None [cm_pop E n; fix_pop E n])).
  { apply relf_call_all. intros f [<-|[<-|[]]]; [apply relf_cm_pop|apply relf_fix_pop]. }
  specialize (H2 (set_scopes rest s)).
  destruct (call_all None _ (set_scopes rest s)) as [s1 [| x |]]; cbn [fst] in *;
    try (eapply frame_trans; eauto; fail);
    (eapply frame_trans; [|apply frame_emit; reflexivity]; eapply frame_trans; eauto).
Qed.

Lemma relf_begin t : relf (begin_test E t).
Proof.
  unfold begin_test. destruct (t_module t); [|apply relf_raise].
  repeat first [ apply relf_sm_push | apply relf_cm_push | apply relf_sm_pop | apply relf_raise
               | apply relf_seq | apply relf_cond | apply relf_ret | apply relf_upd; fplain ].
Qed.

Lemma relf_end t : relf (end_test E t).
Proof. apply relf_cond; [apply relf_raise|apply relf_sm_pop]. Qed.

Lemma relf_flush : relf (flush_remaining_scopes E).
Proof.
  intros s. unfold flush_remaining_scopes.
  assert (H : relf (call_all None (map (sm_pop E) (st_scopes s)))).
  { apply relf_call_all. intros f Hf. apply in_map_iff in Hf as [n [<- _]]. apply relf_sm_pop. }
  apply H.
Qed.

Lemma relf_initiate : relf (initiate_cleanup E).
Proof.
  apply relf_cond; [|apply relf_ret]. apply relf_finally; apply relf_handling; [|apply relf_flush].
  apply relf_fire. reflexivity.
Qed.

Lemma relf_add_skips n : relf (add_skips n).
Proof. induction n; simpl; [apply relf_ret|]. apply relf_seq; auto. apply relf_upd. intros; apply frame_add_entry. Qed.

End F.
