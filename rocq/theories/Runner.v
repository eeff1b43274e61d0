(** What one test run by the runner adds to the trace and leaves of the state. *)

From Coq Require Import List Bool Arith PeanoNat Lia.
From Verif Require Import Events Core CoreSpec CoreBase Frame Records RunnerSpec.
Import ListNotations.

Definition loud (e : event) : bool := negb (quiet e).

Lemma filter_quiet l : forallb quiet l = true -> filter loud l = [].
Proof.
  induction l as [|e l IH]; simpl; auto. intros H. apply andb_true_iff in H as [H1 H2].
  unfold loud. rewrite H1. simpl. auto.
Qed.

Lemma app_split {A} (l k p q : list A) e :
  l ++ k = p ++ e :: q ->
  (exists x, l = p ++ e :: x /\ q = x ++ k) \/ (exists x, p = l ++ x /\ k = x ++ e :: q).
Proof.
  revert p. induction l as [|a l IH]; intros p H; simpl in H.
  - right. exists p. auto.
  - destruct p as [|b p]; simpl in H; inversion H; subst.
    + left. exists l. auto.
    + destruct (IH p H2) as [(x & -> & ->)|(x & -> & ->)]; [left|right]; exists x; auto.
Qed.

(** ** Steps of the runner: [L] are the loud events added *)

Record step (L : list event) (s s' : state) : Prop := mkStep {
  p_test : st_test s' = st_test s;
  p_ss : st_ss s' = st_ss s;
  p_nidx : st_nidx s' = st_nidx s;
  p_idx : st_idx s' = st_idx s;
  p_keys : keys s' = keys s;
  p_started : forall t r, lookup t (st_results s) = Some r ->
      exists r', lookup t (st_results s') = Some r' /\ (r_started r = true -> r_started r' = true) /\
        (r_skips r <> [] -> r_skips r' <> []);
  p_gstarted : r_started (st_global s') = r_started (st_global s);
  p_trace : exists l, st_trace s' = st_trace s ++ l /\ filter loud l = L }.

Lemma step_refl s : step [] s s.
Proof. constructor; auto; eauto. exists []. rewrite app_nil_r. auto. Qed.

Lemma step_trans L1 L2 a b c : step L1 a b -> step L2 b c -> step (L1 ++ L2) a c.
Proof.
  intros [] []. constructor; try congruence.
  - intros t r H. destruct (p_started0 t r H) as (r1 & H1 & S1 & S1').
    destruct (p_started1 t r1 H1) as (r2 & H2 & S2 & S2'). exists r2. auto.
  - destruct p_trace0 as (l1 & H1 & Q1), p_trace1 as (l2 & H2 & Q2). exists (l1 ++ l2).
    rewrite H2, H1, app_assoc, filter_app, Q1, Q2. auto.
Qed.

Lemma frame_step s s' : frame s s' -> step [] s s'.
Proof.
  intros []. constructor; auto.
  - apply f_res.
  - intros t r H. destruct f_res as [_ F]. destruct (F t r H) as (r' & H' & G). exists r'. split; auto.
    split; [intros S; rewrite (g_started _ _ G); auto|].
    destruct (g_skip _ _ G) as [l ->]. destruct (r_skips r); simpl; congruence.
  - apply (g_started _ _ f_glob).
  - destruct f_trace as (l & H & Q). exists l. split; auto. apply filter_quiet; auto.
Qed.

Lemma step_frame_l L a b c : frame a b -> step L b c -> step L a c.
Proof. intros H1 H2. apply frame_step in H1. exact (step_trans _ _ _ _ _ H1 H2). Qed.
Lemma step_frame_r L a b c : step L a b -> frame b c -> step L a c.
Proof. intros H1 H2. apply frame_step in H2. rewrite <- (app_nil_r L). exact (step_trans _ _ _ _ _ H1 H2). Qed.

Lemma step_emit e s : loud e = true -> step [e] s (emit e s).
Proof. intros H. constructor; auto; eauto. exists [e]. simpl. rewrite H. auto. Qed.

(** a change of fields the relation does not mention *)
Ltac plain_step := intros; constructor; try reflexivity; [eauto|exists []; rewrite app_nil_r; auto].

Lemma step_mark t f s :
  (forall r, (r_started r = true -> r_started (f r) = true) /\ r_skips (f r) = r_skips r) -> step [] s (on_result (RTest t) f s).
Proof.
  intros Hf. constructor; try reflexivity.
  - unfold keys. simpl. apply update_keys.
  - intros u r H. simpl. rewrite lookup_update, H. destruct (Nat.eqb u t); simpl; eexists; (split; [reflexivity|]); auto.
    destruct (Hf r) as [A B]. rewrite B. auto.
  - exists []. rewrite app_nil_r. auto.
Qed.

Section R.
Variable E : env.

Lemma fire_step h t s :
  loud (EvHook h t) = true ->
  step [EvHook h t] s (fst (fire E h t s)) /\
  st_ctl (fst (fire E h t s)) = st_ctl s /\ st_result (fst (fire E h t s)) = st_result s.
Proof.
  intros H. unfold fire, seq, upd. pose proof (relf_exec E (e_hook E h t) (emit (EvHook h t) s)) as F.
  split; [|split; [apply (f_ctl _ _ F)|apply (f_result _ _ F)]].
  eapply step_frame_r; [apply step_emit; auto|exact F].
Qed.

(** the frame lemma for a run of [m] given as an equation *)
Lemma frame_of m s s' o : relf m -> m s = (s', o) -> frame s s'.
Proof. intros H Hm. specialize (H s). rewrite Hm in H. exact H. Qed.

(** an exception leaving handling_exceptions(swallow=True) is a skip or not an
    Exception; in the latter case its handling is in the trace *)
Lemma handling_raise L a s s1 x :
  (forall s1 o, a s = (s1, o) -> exists L', step L' s s1) ->
  handling E h_swallowing a s = (s1, ORaise x) ->
  step L s s1 ->
  isinstance_any (x_kind x) (skip_types E) = true \/
  (isinstance (x_kind x) TException = false /\
   exists l f r, st_trace s1 = st_trace s ++ l /\ In (EvHandle (x_id x) (x_kind x) f r) l).
Proof.
  intros Ha H S. unfold handling in H. destruct (a s) as [s0 [| y |]] eqn:Ea; try discriminate.
  cbn [h_pass h_swallowing] in H.
  replace (isinstance_any (x_kind y) []) with false in H by reflexivity.
  assert (Hh : forall z, z = handle_exception E y s0 ->
    exists l f r, st_trace z = st_trace s ++ l /\ In (EvHandle (x_id y) (x_kind y) f r) l).
  { intros z ->. destruct (Ha _ _ eq_refl) as [L' [ ? ? ? ? ? ? ? (l & Hl & _)]].
    unfold handle_exception. cbv zeta. set (rr := match st_test s0 with Some t => RTest t | None => RGlobal end).
    set (s2 := emit _ s0).
    assert (F : frame s2 (if mem_xid (x_id y) (st_handled s2) then s2
                 else update_current_result E y (set_handled (x_id y :: st_handled s2) s2))).
    { destruct (mem_xid _ _); [apply frame_refl|].
      eapply frame_trans with (set_handled (x_id y :: st_handled s2) s2); [fplain|].
      unfold update_current_result. destruct (st_test _); apply frame_add_exception. }
    destruct (f_trace _ _ F) as (l2 & H2 & _). exists (l ++ [EvHandle (x_id y) (x_kind y) (x_fatal y) rr] ++ l2), (x_fatal y), rr.
    split; [|apply in_or_app; right; left; auto].
    rewrite H2. unfold s2, emit. cbn [st_trace]. rewrite Hl, <- !app_assoc. reflexivity. }
  set (z := handle_exception E y s0) in *.
  destruct (isinstance_any (x_kind y) (skip_types E)) eqn:K1; cbn [orb] in H.
  - inversion H; subst. auto.
  - destruct (isinstance_any (x_kind y) interruption_types) eqn:K2.
    + inversion H; subst. right. split; [|apply Hh; auto]. destruct (x_kind x); try discriminate; reflexivity.
    + cbn [h_swallow h_swallowing h_types app] in H. unfold isinstance_any in H. cbn [existsb] in H.
      rewrite orb_false_r in H. destruct (isinstance (x_kind y) TException) eqn:K3; [discriminate|].
      inversion H; subst. right. split; auto.
Qed.

Lemma handling_frame_or h a s s1 o L :
  (forall s0 o0, a s = (s0, o0) -> step L s s0) -> handling E h a s = (s1, o) -> step L s s1.
Proof.
  intros Ha H. unfold handling in H. destruct (a s) as [s0 [| y |]] eqn:Ea; pose proof (Ha _ _ eq_refl) as S;
    try (inversion H; subst; auto; fail).
  repeat match type of H with context[if ?b then _ else _] => destruct b end; inversion H; subst; auto;
    (eapply step_frame_r; [exact S|apply frame_handle]).
Qed.

Lemma handling_fields h a s s1 o (P : state -> Prop) :
  (forall s0 s0', frame s0 s0' -> P s0 -> P s0') ->
  (forall s0 o0, a s = (s0, o0) -> P s0) -> handling E h a s = (s1, o) -> P s1.
Proof.
  intros HP Ha H. unfold handling in H. destruct (a s) as [s0 [| y |]] eqn:Ea; pose proof (Ha _ _ eq_refl) as S;
    try (inversion H; subst; auto; fail).
  repeat match type of H with context[if ?b then _ else _] => destruct b end; inversion H; subst; auto;
    (eapply HP; [|exact S]; apply frame_handle).
Qed.

(** ** Pieces of a single test *)

Definition S_ (t : nat) := EvHook HTestStart t.
Definition E_ (t : nat) := EvHook HTestEnd t.

(** with the controller not started / started with the start event added *)
Definition phase (t : nat) (s s' : state) : Prop :=
  (step [] s s' /\ st_ctl s' = false) \/ (step [S_ t] s s' /\ st_ctl s' = true).

Lemma phase_frame t s a b : phase t s a -> frame a b -> phase t s b.
Proof.
  intros [[H1 H2]|[H1 H2]] F; [left|right]; (split; [eapply step_frame_r; eauto|rewrite (f_ctl _ _ F); auto]).
Qed.

Lemma ctl_start_phase t s s' o :
  st_ctl s = false -> ctl_start E t s = (s', o) -> phase t s s' /\ st_result s' = st_result s.
Proof.
  intros Hc H. unfold ctl_start, cond in H. rewrite Hc in H. unfold seq at 1 2, upd in H.
  set (s1 := on_result (RTest t) r_mark_started (set_ctl true s)) in *.
  destruct (fire_step HTestStart t s1 eq_refl) as (F1 & F2 & F3). rewrite H in *. cbn [fst] in *.
  split; [|rewrite F3; reflexivity]. right. split; [|rewrite F2; reflexivity].
  assert (S0 : step [] s s1).
  { assert (A : step [] s (set_ctl true s)) by plain_step.
    apply (step_trans [] [] _ _ _ A). apply step_mark. auto. }
  exact (step_trans _ _ _ _ _ S0 F1).
Qed.

(** begin_test .. end_test with the test body inside *)
Definition inner (t : test) : M :=
  handling E h_swallowing
    (begin_test E t ;; finally (ctl_start E (t_id t) ;; handling E h_swallowing (exec E (t_body t))) (end_test E t)).

Lemma inner_phase0 t s s' o :
  st_ctl s = false ->
  (begin_test E t ;; finally (ctl_start E (t_id t) ;; handling E h_swallowing (exec E (t_body t))) (end_test E t)) s = (s', o) ->
  phase (t_id t) s s' /\ st_result s' = st_result s.
Proof.
  intros Hc H. unfold seq at 1 in H. destruct (begin_test E t s) as [s1 o1] eqn:Eb.
  pose proof (frame_of _ _ _ _ (relf_begin E t) Eb) as F1.
  assert (N1 : phase (t_id t) s s1 /\ st_result s1 = st_result s).
  { split; [|apply (f_result _ _ F1)]. left. split; [apply frame_step; auto|rewrite (f_ctl _ _ F1); auto]. }
  destruct o1; [|inversion H; subst; auto|inversion H; subst; auto].
  unfold finally, seq in H. destruct (ctl_start E (t_id t) s1) as [s2 o2] eqn:Ec.
  destruct (ctl_start_phase _ _ _ _ (eq_trans (f_ctl _ _ F1) Hc) Ec) as [P2 R2].
  assert (N2 : phase (t_id t) s s2 /\ st_result s2 = st_result s).
  { split; [|rewrite R2; apply (f_result _ _ F1)].
    destruct P2 as [[A B]|[A B]]; [left|right]; (split; auto; eapply step_frame_l; eauto). }
  assert (N : forall s3, frame s2 s3 -> phase (t_id t) s s3 /\ st_result s3 = st_result s).
  { intros s3 F. destruct N2 as [A B]. split; [eapply phase_frame; eauto|rewrite (f_result _ _ F); auto]. }
  pose proof (relf_handling E h_swallowing _ (relf_exec E (t_body t)) s2) as Fb.
  assert (G : forall s3 s4 o4, frame s2 s3 -> end_test E t s3 = (s4, o4) -> phase (t_id t) s s4 /\ st_result s4 = st_result s).
  { intros s3 s4 o4 F He. apply N. eapply frame_trans; [exact F|]. eapply frame_of; [apply relf_end|exact He]. }
  destruct o2.
  - destruct (handling E h_swallowing (exec E (t_body t)) s2) as [s3 [| y |]] eqn:Eh; cbn [fst] in Fb;
      try (inversion H; subst; auto; fail);
      destruct (end_test E t s3) as [s4 [| z |]] eqn:Ee; inversion H; subst; eauto.
  - destruct (end_test E t s2) as [s4 [| z |]] eqn:Ee; inversion H; subst; eauto using frame_refl.
  - inversion H; subst; auto.
Qed.

Lemma phase_step t s s' : phase t s s' -> exists L, step L s s'.
Proof. intros [[A _]|[A _]]; eauto. Qed.

Lemma inner_phase t s s' o :
  st_ctl s = false -> inner t s = (s', o) ->
  phase (t_id t) s s' /\ st_result s' = st_result s /\
  (forall x, o = ORaise x ->
     isinstance_any (x_kind x) (skip_types E) = true \/
     (isinstance (x_kind x) TException = false /\
      exists l f r, st_trace s' = st_trace s ++ l /\ In (EvHandle (x_id x) (x_kind x) f r) l)).
Proof.
  intros Hc H.
  assert (P : phase (t_id t) s s' /\ st_result s' = st_result s).
  { revert H. apply (handling_fields _ _ _ _ _ (fun s0 => phase (t_id t) s s0 /\ st_result s0 = st_result s)).
    - intros a b F [A B]. split; [eapply phase_frame; eauto|rewrite (f_result _ _ F); auto].
    - intros s0 o0. apply inner_phase0; auto. }
  destruct P as [P1 P2]. split; [|split]; auto. intros x ->. destruct (phase_step _ _ _ P1) as [L S].
  eapply handling_raise; [|exact H|exact S].
  intros s1 o Ho. destruct (inner_phase0 _ _ _ _ Hc Ho) as [A _]. apply (phase_step _ _ _ A).
Qed.

(** summary hooks *)
Definition summ (r : result) : hook :=
  if is_just_failure r then HTestFailure else if is_skip r then HTestSkip
  else if is_success false r then HTestSuccess else HTestError.

Lemma summary_step t s r s' o :
  lookup t (st_results s) = Some r -> fire_summary E t s = (s', o) ->
  step [EvHook (summ r) t] s s' /\ st_ctl s' = st_ctl s /\ st_result s' = st_result s /\
  exists l, st_trace s' = (st_trace s ++ [EvHook (summ r) t]) ++ l /\ forallb quiet l = true.
Proof.
  intros Hr H. unfold fire_summary in H.
  assert (Hf : forall s0 o0, fire E (summ r) t s = (s0, o0) -> frame (emit (EvHook (summ r) t) s) s0).
  { intros s0 o0 Hx. unfold fire, seq, upd in Hx. eapply frame_of; [apply relf_exec|exact Hx]. }
  assert (Hg : frame (emit (EvHook (summ r) t) s) s').
  { revert H. apply (handling_fields _ _ _ _ _ (fun s0 => frame (emit (EvHook (summ r) t) s) s0)).
    - intros a b F A. eapply frame_trans; eauto.
    - intros s0 o0. rewrite Hr. intros Hx. apply (Hf s0 o0). unfold summ.
      repeat match type of Hx with context[if ?b then _ else _] => destruct b end; exact Hx. }
  split; [|split; [|split]].
  - eapply step_frame_r; [apply step_emit|exact Hg].
    unfold summ, loud. repeat match goal with |- context[if ?b then _ else _] => destruct b end; reflexivity.
  - apply (f_ctl _ _ Hg).
  - apply (f_result _ _ Hg).
  - destruct (f_trace _ _ Hg) as (l & Hl & Q). exists l. split; auto.
Qed.

Lemma ctl_end_step t prev s s' o :
  o <> OFuel -> ctl_end E t prev s = (s', o) ->
  st_ctl s' = false /\
  ((st_ctl s = true /\ step [E_ t] s s' /\ st_result s' = prev) \/
   (st_ctl s = false /\ s' = s /\ o = ONormal)).
Proof.
  intros Ho H. unfold ctl_end, cond in H. destruct (st_ctl s) eqn:Hc.
  2:{ inversion H; subst. auto. }
  unfold seq at 1, upd at 1 in H. unfold finally at 1 in H.
  set (s1 := set_ctl false s) in *.
  assert (A : forall s2 o2, forbid_implicit (fire E HTestEnd t;; upd (on_result (RTest t) r_mark_finished)) s1 = (s2, o2) ->
    step [E_ t] s s2 /\ st_ctl s2 = false).
  { intros s2 o2 H2. unfold forbid_implicit, finally, seq, upd in H2.
    set (s3 := on_cm (with_implicit false) s1) in *.
    destruct (fire_step HTestEnd t s3 eq_refl) as (F1 & F2 & F3).
    assert (S3 : step [] s s3) by plain_step.
    destruct (fire E HTestEnd t s3) as [s4 [| y |]]; cbn [fst] in *; inversion H2; subst.
    - split; [|exact F2]. pose proof (step_trans _ _ _ _ _ S3 F1) as A.
      assert (B : step [] s4 (on_result (RTest t) r_mark_finished s4)) by (apply step_mark; auto).
      pose proof (step_trans _ _ _ _ _ A B) as C. cbn [app] in C.
      eapply step_trans with (L2 := []) in C; [exact C|plain_step].
    - split; [|exact F2]. pose proof (step_trans _ _ _ _ _ S3 F1) as A. cbn [app] in A.
      eapply step_trans with (L2 := []) in A; [exact A|plain_step].
    - split; [|exact F2]. exact (step_trans _ _ _ _ _ S3 F1). }
  destruct (forbid_implicit _ s1) as [s2 o2]. specialize (A _ _ eq_refl) as [A1 A2].
  unfold upd in H. destruct o2; inversion H; subst; try contradiction; (split; [exact A2|]); left; (split; [auto|]);
    (split; [|reflexivity]); (eapply step_trans with (L2 := []) in A1; [exact A1|plain_step]).
Qed.

(** ** A single test *)

(** the loud events of one executed test *)
Inductive shape (t : nat) : list event -> Prop :=
| sh_none : shape t []
| sh_avoided : shape t [EvHook HTestAvoided t]
| sh_unstarted r : shape t [EvHook (summ r) t]
| sh_broken : shape t [S_ t; E_ t]
| sh_full r : shape t [S_ t; EvHook (summ r) t; E_ t].

(** what is known of every summary hook of a trace *)
Definition sum_ok (tr : list event) : Prop := forall p h t q,
  tr = p ++ EvHook h t :: q -> is_summary h = true -> h = prescribed_summary t p.

Lemma sum_ok_app tr l :
  sum_ok tr -> (forall h t, In (EvHook h t) l -> is_summary h = false) -> sum_ok (tr ++ l).
Proof.
  intros H Hl p h t q Heq Hs. apply app_split in Heq. destruct Heq as [(x & A & B)|(x & A & B)].
  - eapply H; eauto.
  - exfalso. subst l. rewrite (Hl h t) in Hs; [discriminate|]. apply in_or_app. right. left. auto.
Qed.

Lemma sum_ok_step L s s' :
  step L s s' -> (forall h t, In (EvHook h t) L -> is_summary h = false) -> sum_ok (st_trace s) -> sum_ok (st_trace s').
Proof.
  intros [? ? ? ? ? ? ? (l & Hl & HL)] Hs H. rewrite Hl. apply sum_ok_app; auto.
  intros h t Hin. destruct (is_summary h) eqn:Es; auto. exfalso.
  rewrite (Hs h t) in Es; [discriminate|]. subst L. apply filter_In. split; auto.
  unfold loud. destruct h; try discriminate; reflexivity.
Qed.

Lemma nonempty_recorded {A B} (f : A -> B) l m : map f l = m -> nonempty l = nonempty m.
Proof. intros <-. destruct l; reflexivity. Qed.

Lemma summ_prescribed K s t r :
  W E K s -> lookup t (st_results s) = Some r -> r_started r = true -> summ r = prescribed_summary t (st_trace s).
Proof.
  intros HW Hr Hs. destruct (w_res _ _ _ HW t r Hr) as [[Me Mf Ms] Mi].
  unfold summ, prescribed_summary, is_just_failure, is_failure, is_error, is_skip, is_success, is_error, is_failure, is_skip, got.
  rewrite (nonempty_recorded _ _ _ Me), (nonempty_recorded _ _ _ Mf), (nonempty_recorded _ _ _ Ms), Mi, Hs.
  destruct (recorded (RTest t) RKError _), (recorded (RTest t) RKFailure _), (recorded (RTest t) RKSkip _),
    (recorded (RTest t) RKInterrupt _); reflexivity.
Qed.

Definition summarised (t : nat) (l : list event) : Prop :=
  exists h, is_summary h = true /\ In (EvHook h t) l.

Lemma summ_summary r : is_summary (summ r) = true.
Proof. unfold summ. repeat match goal with |- context[if ?b then _ else _] => destruct b end; reflexivity. Qed.

(** the part of _run_single_test inside the controller's try block *)
Definition attempt (t : test) (has_next : bool) (prev : rref) : M :=
  except_ (skip_types E)
    (except_ (skip_types E) (inner t) (fun _ => ret) ;;
     fire_summary E (t_id t) ;;
     (if negb has_next && negb (e_worker E) then
        ctl_end E (t_id t) prev ;; handling E h_swallowing (initiate_cleanup E)
      else ret))
    (fun _ => ret).

(** the loud events of an attempt, and whether test_end is still to come *)
Inductive att (t : nat) : list event -> bool -> Prop :=
| at_none : att t [] false
| at_start : att t [S_ t] true
| at_unst r : att t [EvHook (summ r) t] false
| at_sum r : att t [S_ t; EvHook (summ r) t] true
| at_full r : att t [S_ t; EvHook (summ r) t; E_ t] false.

Definition att_post (t : nat) (s s' : state) (o : outcome) : Prop :=
  exists L, step L s s' /\ att t L (st_ctl s') /\ sum_ok (st_trace s') /\
    (summarised t L \/ exists l, st_trace s' = st_trace s ++ l /\ unusual l).

Lemma att_post_frame t s a b o o' : att_post t s a o -> frame a b -> att_post t s b o'.
Proof.
  intros (L & A & B & C & D) F. exists L. split; [|split; [|split]].
  - eapply step_frame_r; eauto.
  - rewrite (f_ctl _ _ F). auto.
  - eapply sum_ok_step; [apply frame_step; exact F| |auto]. intros h u [].
  - destruct D as [D|(l & Hl & D)]; auto. right. destruct (f_trace _ _ F) as (l2 & H2 & _). exists (l ++ l2).
    split; [rewrite H2, Hl, app_assoc; auto|]. destruct D as (x & k & f & r & D1 & D2). exists x, k, f, r.
    split; auto. apply in_or_app; auto.
Qed.

Lemma attempt_spec K t hn prev s s' o :
  st_ctl s = false -> W E K s -> knownK K prev -> sum_ok (st_trace s) ->
  (exists r, lookup (t_id t) (st_results s) = Some r /\ r_started r = true) ->
  attempt t hn prev s = (s', o) -> o <> OFuel ->
  att_post (t_id t) s s' o /\ (st_result s' = st_result s \/ st_result s' = prev).
Proof.
  intros Hc HW Hk Hs Hst H Ho. unfold attempt, except_ at 1 in H. unfold seq at 1 in H. unfold except_ at 1 in H.
  destruct (inner t s) as [s1 o1] eqn:Ei.
  destruct (inner_phase t s s1 o1 Hc Ei) as (P & R & X).
  assert (HW1 : W E K s1).
  { assert (Hw : pres (W E K) (inner t)).
    { apply presW_handling. apply pres_seq; [apply presW_begin|]. apply pres_finally; [|apply presW_end].
      apply pres_seq; [apply presW_ctl_start|]. apply presW_handling, presW_exec. }
    specialize (Hw s HW). rewrite Ei in Hw. exact Hw. }
  assert (Hs1 : sum_ok (st_trace s1)).
  { destruct P as [[P _]|[P _]]; (eapply sum_ok_step; [exact P| |auto]); intros h u Hin; simpl in Hin; [tauto|].
    destruct Hin as [Hin|[]]. inversion Hin; subst. reflexivity. }
  assert (Go : forall s2 o2, (fire_summary E (t_id t) ;;
     (if negb hn && negb (e_worker E) then
        ctl_end E (t_id t) prev ;; handling E h_swallowing (initiate_cleanup E)
      else ret)) s1 = (s2, o2) -> o2 <> OFuel ->
     att_post (t_id t) s s2 o2 /\ (st_result s2 = st_result s \/ st_result s2 = prev)).
  { intros s2 o2 Hgo Ho2. unfold seq at 1 in Hgo. destruct (fire_summary E (t_id t) s1) as [s3 o3] eqn:Ef.
    assert (Hr1 : exists r1, lookup (t_id t) (st_results s1) = Some r1 /\ r_started r1 = true).
    { destruct Hst as (r & Hr & Hrs). destruct (phase_step _ _ _ P) as [L S]. destruct (p_started _ _ _ S _ _ Hr) as (r' & A & B & _). eauto. }
    destruct Hr1 as (r1 & Hr1 & Hrs1).
    destruct (summary_step _ _ _ _ _ Hr1 Ef) as (A1 & A2 & A3 & (lq & A4 & A5)).
    assert (Hs3 : sum_ok (st_trace s3)).
    { rewrite A4. apply sum_ok_app.
      - intros p h u q Heq Hh. apply app_split in Heq as [(x & B1 & B2)|(x & B1 & B2)].
        + eapply Hs1; eauto.
        + destruct x as [|y x]; [|destruct x; discriminate]. inversion B2; subst. rewrite app_nil_r.
          eapply summ_prescribed; eauto.
      - intros h u Hin. rewrite forallb_forall in A5. apply A5 in Hin. destruct h; try discriminate; reflexivity. }
    assert (N3 : att_post (t_id t) s s3 o2).
    { destruct P as [[P1 P2]|[P1 P2]].
      - exists [EvHook (summ r1) (t_id t)]. split; [exact (step_trans _ _ _ _ _ P1 A1)|]. split; [rewrite A2, P2; constructor|].
        split; auto. left. eexists. split; [apply (summ_summary r1)|left; reflexivity].
      - exists [S_ (t_id t); EvHook (summ r1) (t_id t)]. split; [exact (step_trans _ _ _ _ _ P1 A1)|]. split; [rewrite A2, P2; constructor|].
        split; auto. left. eexists. split; [apply (summ_summary r1)|right; left; reflexivity]. }
    assert (R3 : st_result s3 = st_result s) by congruence.
    assert (Q : o3 <> ONormal -> att_post (t_id t) s s2 o2 /\ (st_result s2 = st_result s \/ st_result s2 = prev)).
    { intros Hn. destruct o3; [contradiction| |]; inversion Hgo; subst; auto. }
    destruct o3; try (apply Q; discriminate). clear Q.
    destruct (negb hn && negb (e_worker E)); [|inversion Hgo; subst; auto].
    unfold seq in Hgo. destruct (ctl_end E (t_id t) prev s3) as [s4 o4] eqn:Ec.
    assert (N4 : o4 <> OFuel -> att_post (t_id t) s s4 o2 /\ (st_result s4 = st_result s \/ st_result s4 = prev)).
    { intros Hof. destruct (ctl_end_step _ _ _ _ _ Hof Ec) as (C1 & [(C2 & C3 & C4)|(C2 & C3 & C4)]).
      - split; auto. destruct N3 as (L & D1 & D2 & D3 & D4).
        exists (L ++ [E_ (t_id t)]). split; [exact (step_trans _ _ _ _ _ D1 C3)|].
        assert (Hsh : att (t_id t) (L ++ [E_ (t_id t)]) false).
        { destruct P as [[P1 P2]|[P1 P2]]; [rewrite A2, P2 in C2; discriminate|].
          assert (step [S_ (t_id t); EvHook (summ r1) (t_id t)] s s3) as S' by exact (step_trans _ _ _ _ _ P1 A1).
          assert (L = [S_ (t_id t); EvHook (summ r1) (t_id t)]) as ->.
          { destruct D1 as [? ? ? ? ? ? ? (l1 & E1 & F1)], S' as [? ? ? ? ? ? ? (l2 & E2 & F2)].
            rewrite E1 in E2. apply app_inv_head in E2. congruence. }
          apply at_full. }
        rewrite C1. split; auto. split.
        + eapply sum_ok_step; [exact C3| |auto]. intros h u [Hin|[]]. inversion Hin; subst. reflexivity.
        + destruct D4 as [(h & G1 & G2)|(l & G1 & G2)].
          * left. exists h. split; auto. apply in_or_app; auto.
          * right. destruct (p_trace _ _ _ C3) as (l2 & H2 & _). exists (l ++ l2).
            split; [rewrite H2, G1, app_assoc; auto|]. destruct G2 as (x & k & f & r & G2 & G3). exists x, k, f, r.
            split; auto. apply in_or_app; auto.
      - subst. auto. }
    destruct o4.
    - destruct N4 as [N4 R4]; [discriminate|].
      pose proof (frame_of _ _ _ _ (relf_handling E h_swallowing _ (relf_initiate E)) Hgo) as F.
      split; [eapply att_post_frame; eauto|rewrite (f_result _ _ F); auto].
    - inversion Hgo; subst. apply N4; discriminate.
    - inversion Hgo; subst; contradiction. }
  assert (Go' : forall s2 o2, (fire_summary E (t_id t) ;;
     (if negb hn && negb (e_worker E) then
        ctl_end E (t_id t) prev ;; handling E h_swallowing (initiate_cleanup E)
      else ret)) s1 = (s2, o2) ->
      (match o2 with ORaise x => if isinstance_any (x_kind x) (skip_types E) then ret s2 else (s2, ORaise x) | _ => (s2, o2) end) = (s', o) ->
      att_post (t_id t) s s' o /\ (st_result s' = st_result s \/ st_result s' = prev)).
  { intros s2 o2 Hgo Hx. destruct o2.
    - inversion Hx; subst. eapply Go; eauto.
    - destruct (Go _ _ Hgo) as [A B]; [discriminate|].
      destruct (isinstance_any (x_kind x) (skip_types E)); inversion Hx; subst; (split; auto);
      (eapply att_post_frame; [exact A|apply frame_refl]).
    - inversion Hx; subst. contradiction. }
  destruct o1.
  - destruct ((fire_summary E (t_id t) ;; _) s1) as [s2 o2] eqn:Eg. eapply Go'; [reflexivity|]. destruct o2; auto.
  - destruct (isinstance_any (x_kind x) (skip_types E)) eqn:Ex.
    + unfold ret at 1 in H. destruct ((fire_summary E (t_id t) ;; _) s1) as [s2 o2] eqn:Eg. eapply Go'; [reflexivity|]. destruct o2; auto.
    + rewrite Ex in H. inversion H; subst. split; auto.
      destruct (X _ eq_refl) as [X1|(X1 & l & f & r & X2 & X3)]; [congruence|].
      destruct P as [[P1 P2]|[P1 P2]].
      * exists []. rewrite P2. split; auto. split; [constructor|]. split; auto. right. exists l. split; auto. do 4 eexists; eauto.
      * exists [S_ (t_id t)]. rewrite P2. split; auto. split; [constructor|]. split; auto. right. exists l. split; auto. do 4 eexists; eauto.
  - inversion H; subst. contradiction.
Qed.


(** ** The whole of a single test *)

Definition finish (t : test) (hn : bool) (prev : rref) : M :=
  process_requirements E t ;;
  if should_run t then
    upd (on_result (RTest (t_id t)) r_mark_started) ;;
    upd (set_ctl false) ;;
    finally (attempt t hn prev) (ctl_end E (t_id t) prev)
  else ret.

Lemma run_single_finish t hn :
  run_single E t hn = test_context (t_id t) (fun prev => handling E h_swallowing (finish t hn prev)).
Proof. reflexivity. Qed.

(** how the result of a finished test cannot look: not started, no skip and no
    exception handled *)
Definition ran (t : nat) (s : state) : Prop :=
  exists r, lookup t (st_results s) = Some r /\ (r_started r = true \/ r_skips r <> []).

Lemma ran_frame t s s' : frame s s' -> ran t s -> ran t s'.
Proof.
  intros F (r & H & G). destruct (f_res _ _ F) as [_ R]. destruct (R _ _ H) as (r' & H' & [? ? (l & Hl) Hs ? ?]).
  exists r'. split; auto. rewrite Hs, Hl. destruct G; auto. right. destruct (r_skips r); simpl; congruence.
Qed.

Lemma add_skips_ran n t s : st_result s = RTest t -> In t (keys s) -> n <> 0 -> ran t (fst (add_skips n s)).
Proof.
  intros Hc Hk Hn. destruct n as [|n]; [contradiction|]. cbn [add_skips]. unfold seq, upd.
  eapply ran_frame; [apply (relf_add_skips n)|]. unfold add_entry. rewrite Hc.
  apply lookup_In in Hk as [r Hr]. exists (r_add_skip (mkEntry None false) r).
  cbn [emit st_results on_result set_results]. rewrite lookup_update, Nat.eqb_refl, Hr. split; [reflexivity|].
  right. simpl. destruct (r_skips r); discriminate.
Qed.

Lemma process_step t s s' o :
  process_requirements E t s = (s', o) ->
  exists L, step L s s' /\ (L = [] \/ L = [EvHook HTestAvoided (t_id t)]) /\ st_result s' = st_result s /\
    (should_run t = true -> L = []) /\
    (should_run t = false -> o = ONormal -> st_result s = RTest (t_id t) -> In (t_id t) (keys s) -> ran (t_id t) s') /\
    (st_result s = RTest (t_id t) -> In (t_id t) (keys s) ->
       (should_run t = true /\ o = ONormal) \/ ran (t_id t) s' \/ exec E (t_req t) s = (s', o) /\ o <> ONormal).
Proof.
  intros H. unfold process_requirements in H. unfold seq at 1 in H.
  destruct (exec E (t_req t) s) as [s1 o1] eqn:Ex. pose proof (frame_of _ _ _ _ (relf_exec E _) Ex) as F1.
  assert (D : forall z oz n, (add_skips n ;; fire E HTestAvoided (t_id t)) s1 = (z, oz) ->
     step [EvHook HTestAvoided (t_id t)] s z /\ st_result z = st_result s /\
     (n <> 0 -> st_result s = RTest (t_id t) -> In (t_id t) (keys s) -> ran (t_id t) z)).
  { intros z oz n Hz. unfold seq at 1 in Hz.
    assert (An : forall n s0, snd (add_skips n s0) = ONormal) by (clear; induction n; intros; simpl; auto; apply IHn).
    specialize (An n s1). pose proof (relf_add_skips n s1) as F2.
    assert (Hr : n <> 0 -> st_result s = RTest (t_id t) -> In (t_id t) (keys s) -> ran (t_id t) (fst (add_skips n s1))).
    { intros Hn Hc Hk. apply add_skips_ran; auto; [rewrite (f_result _ _ F1); auto|]. unfold keys. rewrite (proj1 (f_res _ _ F1)). auto. }
    destruct (add_skips n s1) as [s2 o2]. cbn [fst snd] in *. subst o2.
    destruct (fire_step HTestAvoided (t_id t) s2 eq_refl) as (A & _ & B). rewrite Hz in *. cbn [fst] in *.
    split; [eapply step_frame_l; [exact F1|]; eapply step_frame_l; eauto|].
    split; [rewrite B, (f_result _ _ F2); apply (f_result _ _ F1)|].
    intros Hn Hc Hk. specialize (Hr Hn Hc Hk). unfold fire, seq, upd in Hz.
    pose proof (frame_of _ _ _ _ (relf_exec E _) Hz) as F3. eapply ran_frame; [exact F3|]. exact Hr. }
  destruct o1; try (inversion H; subst; exists []; split; [apply frame_step; auto|]; split; auto; split; [apply (f_result _ _ F1)|split; [auto|split; [intros; discriminate|intros; right; right; split; [reflexivity|discriminate]]]]; fail).
  unfold should_run. destruct (Nat.eqb (t_unmet t) 0) eqn:Eu; cbn [negb andb] in *.
  - destruct (t_excluded t); cbn [negb].
    + destruct (D _ _ _ H) as (A & B & C). eexists. split; [exact A|]. split; auto. split; auto. split; [discriminate|].
      split; intros; [|right; left]; apply C; auto.
    + inversion H; subst. exists []. split; [apply frame_step; auto|]. split; auto. split; [apply (f_result _ _ F1)|split; [auto|]].
      split; [discriminate|auto].
  - destruct (D _ _ _ H) as (A & B & C). eexists. split; [exact A|]. split; auto. split; auto. split; [discriminate|].
    assert (Hz : t_unmet t <> 0) by (intros Hz; rewrite Hz in Eu; discriminate).
    split; intros; [|right; left]; apply C; auto.
Qed.

Definition trouble (l : list event) : Prop := exists x k f r, In (EvHandle x k f r) l.

Definition fin_post (t : test) (s s' : state) (o : outcome) : Prop :=
  exists L l, step L s s' /\ st_trace s' = st_trace s ++ l /\ filter loud l = L /\ shape (t_id t) L /\
    sum_ok (st_trace s') /\ (In (S_ (t_id t)) L -> summarised (t_id t) L \/ unusual l) /\
    (ran (t_id t) s' \/ trouble l \/ exists x, o = ORaise x).

Lemma shape_att t L b : att t L b -> shape t (if b then L ++ [E_ t] else L).
Proof.
  intros []; cbn.
  - apply sh_none.
  - apply sh_broken.
  - apply sh_unstarted.
  - apply sh_full.
  - apply sh_full.
Qed.

Lemma finish_spec K t hn prev s s' o :
  W E K s -> knownK K prev -> In (t_id t) (keys s) -> sum_ok (st_trace s) ->
  st_result s = RTest (t_id t) ->
  finish t hn prev s = (s', o) -> o <> OFuel ->
  fin_post t s s' o /\ (ran (t_id t) s' \/ exec E (t_req t) s = (s', o) /\ o <> ONormal).
Proof.
  intros HW Hk Hkey Hs Hcur H Ho. unfold finish in H. unfold seq at 1 in H.
  destruct (process_requirements E t s) as [s1 o1] eqn:Ep.
  destruct (process_step _ _ _ _ Ep) as (L1 & S1 & HL1 & R1 & N1 & Ra & Rb). specialize (Rb Hcur Hkey).
  assert (Hs1 : sum_ok (st_trace s1)).
  { eapply sum_ok_step; [exact S1| |auto]. intros h u Hin. destruct HL1 as [-> | ->]; [destruct Hin|].
    destruct Hin as [Hin|[]]. inversion Hin; subst. reflexivity. }
  assert (Q : (o = ONormal -> ran (t_id t) s1) -> fin_post t s s1 o).
  { intros Hran. destruct (p_trace _ _ _ S1) as (l & A & B). exists L1, l. split; auto. split; auto. split; auto. split.
    { destruct HL1 as [-> | ->]; constructor. }
    split; auto. split.
    - intros Hin. destruct HL1 as [-> | ->]; [destruct Hin|]. destruct Hin as [Hin|[]]. discriminate.
    - destruct o; [left; auto|right; right; eauto|contradiction]. }
  destruct o1; try (inversion H; subst; split; [apply Q; discriminate|destruct Rb as [[_ Rb]|Rb]; [discriminate|exact Rb]]).
  destruct (should_run t); [|inversion H; subst; split; [auto|left; auto]].
  specialize (N1 eq_refl). subst L1. unfold seq, upd in H.
  set (s2 := set_ctl false (on_result (RTest (t_id t)) r_mark_started s1)) in *.
  assert (S2 : step [] s s2).
  { eapply step_trans with (L1 := []) (L2 := []); [exact S1|].
    eapply step_trans with (L1 := []) (L2 := []); [apply (step_mark (t_id t) r_mark_started); auto|plain_step]. }
  assert (HW2 : W E K s2).
  { assert (Hp : W E K s1).
    { pose proof (presW_process E K t s HW) as A. rewrite Ep in A. exact A. }
    pose proof (presW_mark_started E K (t_id t) s1 Hp) as B. cbn [upd fst] in B.
    eapply W_wstep; [|exact B]. unfold s2. constructor; try reflexivity; [apply incl_refl|exists []; rewrite app_nil_r; auto]. }
  assert (Hst : exists r, lookup (t_id t) (st_results s2) = Some r /\ r_started r = true).
  { unfold s2. cbn [set_ctl st_results on_result set_results]. rewrite lookup_update, Nat.eqb_refl.
    assert (In (t_id t) (keys s1)) as Hin by (rewrite (p_keys _ _ _ S1); auto).
    apply lookup_In in Hin as [r Hr]. rewrite Hr. eexists. split; reflexivity. }
  assert (Hs2 : sum_ok (st_trace s2)) by exact Hs1.
  unfold finally in H. destruct (attempt t hn prev s2) as [s3 o3] eqn:Ea.
  assert (Ho3 : o3 <> OFuel) by (intros ->; inversion H; subst; contradiction).
  destruct (attempt_spec K t hn prev s2 s3 o3 eq_refl HW2 Hk Hs2 Hst Ea Ho3) as ((L & A1 & A2 & A3 & A4) & A5).
  destruct (ctl_end E (t_id t) prev s3) as [s4 o4] eqn:Ec.
  assert (Ho4 : o4 <> OFuel) by (intros ->; destruct o3; inversion H; subst; contradiction).
  assert (s' = s4) by (destruct o3, o4; inversion H; subst; auto; contradiction). subst s4.
  destruct (ctl_end_step _ _ _ _ _ Ho4 Ec) as (C1 & C2).
  pose proof (step_trans _ _ _ _ _ S2 A1) as S3. cbn [app] in S3.
  assert (T2 : st_trace s2 = st_trace s1) by reflexivity.
  assert (G : exists L', step L' s s' /\ shape (t_id t) L' /\ sum_ok (st_trace s') /\ (forall e, In e L -> In e L') /\
              (exists l, st_trace s' = st_trace s3 ++ l)).
  { pose proof (shape_att _ _ _ A2) as Sh. destruct C2 as [(D1 & D2 & D3)|(D1 & D2 & D3)].
    - exists (L ++ [E_ (t_id t)]). split; [exact (step_trans _ _ _ _ _ S3 D2)|]. rewrite D1 in Sh. split; auto. split.
      + eapply sum_ok_step; [exact D2| |auto]. intros h u [Hin|[]]. inversion Hin; subst. reflexivity.
      + split; [intros; apply in_or_app; auto|]. destruct (p_trace _ _ _ D2) as (l & Hl & _). eauto.
    - subst s'. exists L. rewrite D1 in Sh.
      do 4 (split; auto). exists []. rewrite app_nil_r. auto. }
  destruct G as (L' & G1 & G2 & G3 & G4 & l4 & G5).
  destruct (p_trace _ _ _ G1) as (l & Hl & HL).
  assert (Hran : ran (t_id t) s').
  { assert (S4 : exists L4, step L4 s2 s').
    { destruct C2 as [(D1 & D2 & D3)|(D1 & D2 & D3)]; [|subst s'; eauto]. eexists. exact (step_trans _ _ _ _ _ A1 D2). }
    destruct S4 as [L4 S4]. destruct Hst as (r & Hr & Hrs). destruct (p_started _ _ _ S4 _ _ Hr) as (r' & X1 & X2 & _).
    exists r'. auto. }
  split; [|left; exact Hran].
  exists L', l. split; auto. split; auto. split; auto. split; auto. split; auto.
  split; [|left; exact Hran].
  intros _. destruct A4 as [(h & B1 & B2)|(l3 & B1 & B2)].
  - left. exists h. auto.
  - right. destruct (p_trace _ _ _ S2) as (l2 & H2 & _).
    rewrite G5, B1, H2, <- !app_assoc in Hl. apply app_inv_head in Hl. subst l.
    destruct B2 as (x & k & f & r & B2 & B3). exists x, k, f, r. split; auto. apply in_or_app. right. apply in_or_app. auto.
Qed.

Lemma fin_post_frame t s a b o : fin_post t s a o -> frame a b -> fin_post t s b o.
Proof.
  intros (L & l & A & B & C & D & F & G & G') H. destruct (f_trace _ _ H) as (l2 & H2 & Q2). exists L, (l ++ l2).
  split; [eapply step_frame_r; eauto|]. split; [rewrite H2, B, app_assoc; auto|].
  split; [rewrite filter_app, C, (filter_quiet l2) by auto; apply app_nil_r|]. split; auto. split.
  - eapply sum_ok_step; [apply frame_step; exact H| |auto]. intros h u [].
  - split.
    + intros Hin. destruct (G Hin) as [G1|(x & k & f & r & G1 & G2)]; auto. right. exists x, k, f, r. split; auto. apply in_or_app; auto.
    + destruct G' as [G1|[(x & k & f & r & G1)|G1]]; auto.
      * left. eapply ran_frame; eauto.
      * right. left. exists x, k, f, r. apply in_or_app; auto.
Qed.

Lemma handle_trace x s : exists l, st_trace (handle_exception E x s) = st_trace s ++ l /\ trouble l.
Proof.
  pose proof (f_trace _ _ (frame_handle E x s)) as (l & Hl & _). exists l. split; auto.
  unfold handle_exception in Hl. cbv zeta in Hl. set (e := EvHandle _ _ _ _) in Hl.
  assert (G : frame (emit e s) (if mem_xid (x_id x) (st_handled (emit e s)) then emit e s
                 else update_current_result E x (set_handled (x_id x :: st_handled (emit e s)) (emit e s)))).
  { destruct (mem_xid _ _); [apply frame_refl|].
    eapply frame_trans with (set_handled (x_id x :: st_handled (emit e s)) (emit e s)); [fplain|].
    unfold update_current_result. destruct (st_test _); apply frame_add_exception. }
  destruct (f_trace _ _ G) as (l2 & H2 & _). rewrite Hl in H2. cbn [emit st_trace] in H2. rewrite <- app_assoc in H2.
  apply app_inv_head in H2. subst l. do 4 eexists. left. unfold e. reflexivity.
Qed.

Lemma fin_post_handle t s a x o o' : fin_post t s a o -> fin_post t s (handle_exception E x a) o'.
Proof.
  intros H. pose proof (fin_post_frame _ _ _ _ _ H (frame_handle E x a)) as (L & l & A & B & C & D & F & G & G').
  exists L, l. do 6 (split; auto). right. left.
  destruct H as (_ & l0 & _ & B0 & _). destruct (handle_trace x a) as (l2 & H2 & H3).
  rewrite B0, <- app_assoc, B in H2. apply app_inv_head in H2. subst l.
  destruct H3 as (y & k & f & r & H3). exists y, k, f, r. apply in_or_app; auto.
Qed.

(** the outcome of running a single test *)
(** results keep their marks *)
Record single (t : test) (s s' : state) (o : outcome) : Prop := mkSingle {
  g_test : st_test s' = st_test s;
  g_result : st_result s' = st_result s;
  g_ss : st_ss s' = st_ss s;
  g_nidx : st_nidx s' = st_nidx s;
  g_idx : st_idx s' = st_idx s;
  g_gstarted : r_started (st_global s') = r_started (st_global s);
  g_keys : keys s' = keys s ++ [t_id t] \/ (keys s' = keys s /\ In (t_id t) (keys s) /\ o <> ONormal);
  g_sum : sum_ok (st_trace s');
  g_trace : exists L l, st_trace s' = st_trace s ++ l /\ filter loud l = L /\ shape (t_id t) L /\
      (In (S_ (t_id t)) L -> summarised (t_id t) L \/ unusual l) /\
      (ran (t_id t) s' \/ trouble l \/ o <> ONormal);
  g_old : forall u, ran u s -> ran u s' }.

Lemma single_spec K t hn s s' o :
  W E K s -> sum_ok (st_trace s) -> run_single E t hn s = (s', o) -> o <> OFuel -> single t s s' o.
Proof.
  intros HW Hs H Ho. rewrite run_single_finish in H. unfold test_context in H.
  unfold finally at 1, seq at 1 2, upd at 1, create_result in H.
  change (st_results (set_test (Some (t_id t)) s)) with (st_results s) in H.
  destruct (lookup (t_id t) (st_results s)) as [r0|] eqn:El.
  - unfold raise_new, upd in H. inversion H; subst. clear H. constructor; try reflexivity; auto.
    + right. split; [reflexivity|]. split; [|discriminate]. apply lookup_In. eauto.
    + exists [], []. rewrite app_nil_r. split; [reflexivity|]. split; [reflexivity|]. split; [constructor|].
      split; [intros []|]. right. right. discriminate.
  - pose proof (W_create E K (t_id t) s HW El) as H1. set (s1 := set_results _ _) in *.
    change (set_results (st_results (set_test (Some (t_id t)) s) ++ [(t_id t, result0)]) (set_test (Some (t_id t)) s)) with s1 in H.
    assert (Ek : keys s1 = keys s ++ [t_id t]) by (unfold keys, s1; simpl; rewrite map_app; reflexivity).
    unfold finally, seq, upd in H. change (st_result s1) with (st_result s) in H.
    set (s2 := set_result (RTest (t_id t)) s1) in *.
    assert (Hp : knownK (t_id t :: keys s) (st_result s)).
    { pose proof (w_cur _ _ _ HW) as Hc. destruct (st_result s); simpl in *; auto. }
    assert (H2 : W E (t_id t :: keys s) s2) by (apply W_set_result; [left; auto|exact H1]).
    destruct (handling E h_swallowing (finish t hn (st_result s)) s2) as [s3 o3] eqn:Eh.
    assert (Ho3 : o3 <> OFuel) by (intros ->; inversion H; subst; contradiction).
    assert (F3 : fin_post t s2 s3 o3).
    { clear H. unfold handling in Eh.
      destruct (finish t hn (st_result s) s2) as [s4 o4] eqn:Ef.
      assert (Ho4 : o4 <> OFuel) by (intros ->; inversion Eh; subst; contradiction).
      assert (F4 : fin_post t s2 s4 o4).
      { eapply (finish_spec (t_id t :: keys s)); eauto. change (keys s2) with (keys s1). rewrite Ek. apply in_or_app; right; left; auto. }
      destruct o4.
      - inversion Eh; subst; auto.
      - cbn [h_pass h_swallowing] in Eh; change (isinstance_any (x_kind x) []) with false in Eh; cbv iota in Eh;
          repeat match type of Eh with context[if ?b then _ else _] => destruct b end; inversion Eh; subst; auto;
          try discriminate; eapply fin_post_handle; eauto.
      - contradiction. }
    destruct F3 as (L & l & A & B & C & D & F & G & G').
    assert (s' = set_test (st_test s) (set_result (st_result s) s3)) as ->.
    { destruct o3; inversion H; subst; auto. contradiction. }
    constructor; try reflexivity.
    + apply (p_ss _ _ _ A).
    + apply (p_nidx _ _ _ A).
    + apply (p_idx _ _ _ A).
    + apply (p_gstarted _ _ _ A).
    + left. change (keys s3 = keys s ++ [t_id t]). rewrite (p_keys _ _ _ A). exact Ek.
    + exact F.
    + exists L, l. do 4 (split; auto). destruct G' as [G1|[G1|(x & G1)]]; auto.
      right. right. intros ->. destruct o3; inversion H. subst; discriminate.
    + intros u (r & Hr & Hg).
      assert (H2' : lookup u (st_results s2) = Some r).
      { change (lookup u (st_results s ++ [(t_id t, result0)]) = Some r). rewrite lookup_app, Hr. auto. }
      destruct (p_started _ _ _ A _ _ H2') as (r' & X1 & X2 & X3). exists r'. split; auto. destruct Hg; auto.
Qed.

End R.
