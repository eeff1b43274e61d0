(** The scopes opened and closed in a session form a well-nested word, unless an
    exception escapes from the teardown of a scope (lemmas for C09, C10). *)

From Coq Require Import List Bool Arith PeanoNat Lia.
From Verif Require Import Events Core CoreBase Frame Generic SessionSim CleanupProps ScopeSpec.
Import ListNotations.

(** an exception left the teardown of a scope other than a test's *)
Definition bad (s : state) : Prop := exists nm, nm <> STest /\ In (EvTeardown nm false) (st_trace s).

(** ** What does not matter *)

Definition calm (e : event) : bool :=
  match e with
  | EvPush _ _ | EvPopEnd _ _ _ | EvReportStart _ | EvHook HBeforeSessionCleanup _ | EvHook HTestStart _ | EvHook HTestSuccess _ => false
  | _ => true
  end.

Record still (s s' : state) : Prop := mkStill {
  sl_stack : map (fun c => (sc_id c, sc_name c)) (cm_stack (st_cm s')) = map (fun c => (sc_id c, sc_name c)) (cm_stack (st_cm s));
  sl_scopes : st_scopes s' = st_scopes s;
  sl_lastmod : st_lastmod s' = st_lastmod s;
  sl_lasttest : st_lasttest s' = st_lasttest s;
  sl_trace : exists l, st_trace s' = st_trace s ++ l /\ forallb calm l = true }.

Lemma still_refl s : still s s.
Proof. constructor; auto. exists []. rewrite app_nil_r. auto. Qed.
Lemma still_trans a b c : still a b -> still b c -> still a c.
Proof.
  intros [A1 A2 A3 A4 (l & A5 & A6)] [B1 B2 B3 B4 (m & B5 & B6)]. constructor; try congruence.
  exists (l ++ m). rewrite B5, A5, app_assoc, forallb_app, A6, B6. auto.
Qed.

Ltac splain := intros; constructor; try reflexivity; exists []; rewrite app_nil_r; auto.

Lemma still_emit e s : calm e = true -> still s (emit e s).
Proof. intro H. constructor; try reflexivity. exists [e]. simpl. rewrite H. auto. Qed.
Lemma still_on_result r f s : still s (on_result r f s).
Proof. destruct r; splain. Qed.

Lemma still_add_exception E r x s : still s (add_exception E r x s).
Proof.
  unfold add_exception. destruct (mem_xid (x_id x) (st_added s)); [apply still_refl|].
  assert (H0 : still s (set_added (x_id x :: st_added s) s)) by splain.
  cbv zeta.
  repeat match goal with |- still _ (if ?b then _ else _) => destruct b end.
  - eapply still_trans; [|apply still_emit; reflexivity].
    eapply still_trans; [exact H0|apply still_on_result].
  - eapply still_trans; [|apply still_emit; reflexivity].
    eapply still_trans; [exact H0|apply still_on_result].
  - eapply still_trans; [|apply still_on_result].
    assert (H1 : still s (emit (EvRecord r RKInterrupt (Some (x_id x)) (x_fatal x)) (set_added (x_id x :: st_added s) s))).
    { eapply still_trans; [exact H0|apply still_emit; reflexivity]. }
    destruct r as [|t]; auto.
    match goal with |- still _ (if ?b then _ else _) => destruct b end.
    + eapply still_trans; [exact H1|apply still_on_result].
    + eapply still_trans; [|apply still_emit; reflexivity].
      eapply still_trans; [exact H1|apply still_on_result].
  - eapply still_trans; [exact H0|apply still_emit; reflexivity].
  - eapply still_trans; [|apply still_emit; reflexivity].
    eapply still_trans; [exact H0|apply still_on_result].
Qed.

Lemma still_handle E x s : still s (handle_exception E x s).
Proof.
  unfold handle_exception. cbv zeta.
  eapply still_trans; [apply (still_emit (EvHandle (x_id x) (x_kind x) (x_fatal x)
    (match st_test s with Some t => RTest t | None => RGlobal end))); reflexivity|].
  set (s1 := emit _ s). destruct (mem_xid _ _); [apply still_refl|].
  eapply still_trans with (set_handled (x_id x :: st_handled s1) s1); [splain|].
  unfold update_current_result. destruct (st_test _); apply still_add_exception.
Qed.

Lemma still_add_entry k fatal s : still s (add_entry k fatal s).
Proof. unfold add_entry. eapply still_trans; [|apply still_emit; reflexivity]. apply still_on_result. Qed.

Definition rs := rel still.
Lemma rs_ret : rs ret. Proof. apply rel_ret, still_refl. Qed.
Lemma rs_reraise x : rs (reraise x). Proof. apply rel_reraise, still_refl. Qed.
Lemma rs_upd f : (forall s, still s (f s)) -> rs (upd f). Proof. apply rel_upd. Qed.
Lemma rs_seq a b : rs a -> rs b -> rs (a ;; b). Proof. apply rel_seq, still_trans. Qed.
Lemma rs_finally a b : rs a -> rs b -> rs (finally a b). Proof. apply rel_finally, still_trans. Qed.
Lemma rs_except ts a h : rs a -> (forall x, rs (h x)) -> rs (except_ ts a h). Proof. apply rel_except, still_trans. Qed.
Lemma rs_cond c a b : rs a -> rs b -> rs (cond c a b). Proof. apply rel_cond. Qed.
Lemma rs_handling E h a : rs a -> rs (handling E h a).
Proof. apply rel_handling; [apply still_trans|]. intros; apply still_handle. Qed.
Lemma rs_raise k f : rs (raise_new k f). Proof. intros s. simpl. splain. Qed.

Lemma on_scope_same sid f l : map (fun c => (sc_id c, sc_name c)) (on_scope sid f l) = map (fun c => (sc_id c, sc_name c)) l.
Proof.
  unfold on_scope. rewrite map_map. apply map_ext. intros sc. destruct (Nat.eqb sid (sc_id sc)); auto.
Qed.

Section F.
Variable E : env.

Lemma still_attach c req tgt s : still s (attach c req tgt s).
Proof.
  unfold attach. eapply still_trans; [apply (still_emit (EvAdd (c_id c) req tgt (c_crit c) (c_succ c) (c_result c))); reflexivity|].
  destruct tgt; [|splain]. constructor; try reflexivity; [simpl; apply on_scope_same|exists []; rewrite app_nil_r; auto].
Qed.

Lemma rs_add sc crit succ body : rs (tap_add sc (add_cleanup sc crit succ body)).
Proof.
  assert (A : rs (add_cleanup sc crit succ body)).
  { intros s. unfold add_cleanup. destruct (succ && crit); [apply rs_raise|].
    assert (H : forall k, still s (fst (raise_new k false (on_cm (fun m => with_ncid (S (cm_ncid m)) m) s)))) by splain.
    assert (H' : forall c req tgt, still s (attach c req tgt (on_cm (fun m => with_ncid (S (cm_ncid m)) m) s))).
    { intros. eapply still_trans; [|apply still_attach]. splain. }
    repeat match goal with |- still _ (fst (match ?b with _ => _ end)) => destruct b end; cbn [fst]; auto. }
  intros s. unfold tap_add. specialize (A s). destruct (add_cleanup sc crit succ body s) as [s1 [| x |]]; cbn [fst] in *; auto.
  eapply still_trans; [exact A|]. apply still_emit; reflexivity.
Qed.

Lemma rs_exec p : rs (exec E p).
Proof.
  induction p; cbn [exec].
  - apply rs_ret.
  - apply rs_raise.
  - apply rs_reraise.
  - apply rs_seq; auto. apply rs_upd. intros; apply still_emit; reflexivity.
  - apply rs_seq; auto. apply rs_add.
  - apply rs_seq; auto. apply rs_upd. intros; apply still_add_entry.
  - apply rs_seq; auto. apply rs_upd. intros; apply still_add_entry.
  - apply rs_seq; auto. apply rs_handling; auto.
  - apply rs_seq; auto. apply rs_except; auto. intros; apply rs_ret.
  - apply rs_seq; auto. apply rel_default; auto; [apply still_trans|]. splain.
  - apply rs_seq; auto. intros s. unfold activate_fixture. cbn [fst].
    eapply still_trans; [|apply still_emit; reflexivity]. splain.
  - apply rs_seq; auto. apply rs_finally; auto.
  - apply rs_seq; auto. apply rs_cond; auto.
  - apply rs_seq; auto. intros s. apply still_emit; reflexivity.
Qed.

Lemma rs_fire h t : calm (EvHook h t) = true -> rs (fire E h t).
Proof. intros H. apply rs_seq; [|apply rs_exec]. apply rs_upd. intros; apply still_emit; auto. Qed.

Lemma rs_tap cid a : rs a -> rs (tap cid a).
Proof.
  intros Ha s. unfold tap. specialize (Ha s). destruct (a s) as [s1 [| x |]]; cbn [fst] in *; auto.
  eapply still_trans; [exact Ha|apply still_emit; reflexivity].
Qed.

Lemma rs_call_cleanup sid c : rs (call_cleanup E sid c).
Proof.
  intros s. unfold call_cleanup.
  assert (F : rs (finally
    (upd (on_cm (with_current (Some sid))) ;; upd (emit (EvRun (c_id c))) ;;
     except_ [TException] (tap (c_id c) (exec E (c_body c))) (fun x => upd (add_exception E (c_result c) x) ;; reraise x))
    (upd (on_cm (with_current (cm_current (st_cm s))))))).
  { apply rs_finally; [|apply rs_upd; splain].
    apply rs_seq; [apply rs_upd; splain|].
    apply rs_seq; [apply rs_upd; intros; apply still_emit; reflexivity|].
    apply rs_except; [apply rs_tap, rs_exec|].
    intros x. apply rs_seq; [apply rs_upd; intros; apply still_add_exception|apply rs_reraise]. }
  exact (F s).
Qed.

Lemma rs_loop fuel sid f i : rs (cleanup_loop E fuel sid f i).
Proof.
  induction fuel as [|fuel IH]; intros s; cbn [cleanup_loop]; [apply still_refl|].
  destruct (scope_cleanups sid s) as [|c cl]; [apply still_refl|].
  set (s0 := on_cm _ s). assert (H0 : still s s0).
  { constructor; try reflexivity; [simpl; apply on_scope_same|exists []; rewrite app_nil_r; auto]. }
  destruct (_ && _); [eapply still_trans; [exact H0|apply IH]|].
  destruct (_ && _); [eapply still_trans; [exact H0|apply IH]|].
  eapply still_trans; [exact H0|].
  apply (rs_seq _ _ (rs_handling E _ _ (rs_call_cleanup sid c)) IH).
Qed.

Lemma rs_call_cleanups sid nm f i : rs (call_cleanups E sid nm f i).
Proof.
  apply rs_seq.
  - destruct (sname_eqb nm STest); [|apply rs_ret]. intros s. apply rs_handling, rs_fire. reflexivity.
  - intros s. apply rs_loop.
Qed.

Lemma rs_fix_pop n : rs (fix_pop E n).
Proof.
  assert (D : forall l fid, rs (deactivate_fixture E l fid)).
  { intros l fid s. unfold deactivate_fixture. destruct (lookup fid (fix_get l s)) as [fin|]; [|apply still_refl].
    apply rs_seq; [|apply rs_exec]. apply rs_upd. intros s'. eapply still_trans; [|apply still_emit; reflexivity]. splain. }
  assert (A : forall l fids, rs (deactivate_all E l fids)).
  { intros l fids. induction fids; simpl; [apply rs_ret|]. apply rs_seq; auto. apply rs_handling, D. }
  assert (L : forall sl l, rs (fix_pop_level E sl l)).
  { intros sl l s. unfold fix_pop_level. destruct (Nat.leb _ _); [|apply still_refl].
    apply rs_seq; auto. intros s'. destruct (nonempty _); [apply rs_raise|apply still_refl]. }
  assert (Ls : forall sl ls, rs (fix_pop_levels E sl ls)).
  { intros sl ls. induction ls; simpl; [apply rs_ret|apply rs_seq; auto]. }
  intros s. unfold fix_pop. destruct (current_interrupted s); [apply still_refl|apply Ls].
Qed.

Lemma rs_ctl_end t prev : rs (ctl_end E t prev).
Proof.
  apply rs_cond; [|apply rs_ret]. apply rs_seq; [apply rs_upd; splain|].
  apply rs_finally; [|apply rs_upd; splain].
  apply rel_forbid; [apply still_trans|splain|].
  apply rs_seq; [apply rs_fire; reflexivity|apply rs_upd; intros; apply still_on_result].
Qed.

Lemma rs_add_skips n : rs (add_skips n).
Proof. induction n; simpl; [apply rs_ret|]. apply rs_seq; auto. apply rs_upd. intros; apply still_add_entry. Qed.

Lemma rs_process t : rs (process_requirements E t).
Proof.
  apply rs_seq; [apply rs_exec|].
  destruct (negb _); [apply rs_seq; [apply rs_add_skips|apply rs_fire; reflexivity]|].
  destruct (t_excluded t); [apply rs_seq; [apply (rs_add_skips 1)|apply rs_fire; reflexivity]|apply rs_ret].
Qed.

Lemma rs_create t : rs (create_result t).
Proof. intros s. unfold create_result. destruct (lookup t (st_results s)); [apply rs_raise|splain]. Qed.

Lemma rs_mark_unrun l : rs (mark_unrun l).
Proof.
  induction l as [|t l IH]; simpl; [apply rs_ret|]. apply rs_seq; auto.
  intros s. unfold test_context.
  assert (F : rs (finally
    (upd (set_test (Some (t_id t))) ;; create_result (t_id t) ;;
     (fun s0 => finally (upd (set_result (RTest (t_id t))) ;; ret) (upd (set_result (st_result s0))) s0))
    (upd (set_test (st_test s))))).
  { apply rs_finally; [|apply rs_upd; splain]. apply rs_seq; [apply rs_upd; splain|].
    apply rs_seq; [apply rs_create|].
    intros s0. apply (rs_finally (upd (set_result (RTest (t_id t))) ;; ret) (upd (set_result (st_result s0)))).
    - apply rs_seq; [apply rs_upd; splain|apply rs_ret].
    - apply rs_upd; splain. }
  apply F.
Qed.

(** ** [bad] stays *)

Lemma bad_ext s s' : (exists l, st_trace s' = st_trace s ++ l) -> bad s -> bad s'.
Proof. intros [l E1] (nm & N & H). exists nm. rewrite E1. split; auto. apply in_or_app. auto. Qed.

Lemma frame_bad s s' : frame s s' -> bad s -> bad s'.
Proof. intro H. apply bad_ext. destruct (f_trace _ _ H) as (l & Q & _). eauto. Qed.

Lemma relf_bad m : relf m -> pres bad m.
Proof. intros H s. apply frame_bad, H. Qed.

Lemma rs_bad m : rs m -> pres bad m.
Proof. intros H s B. eapply bad_ext; [|exact B]. destruct (sl_trace _ _ (H s)) as (l & Q & _). eauto. Qed.

Lemma bad_alike s s' : alike s s' -> bad s -> bad s'.
Proof. intros H (nm & N & I). exists nm. rewrite (a_trace _ _ H). auto. Qed.
Lemma bad_emit e s : bad s -> bad (emit e s).
Proof. apply bad_ext. exists [e]. auto. Qed.
Lemma bad_add sc crit succ body : pres bad (tap_add sc (add_cleanup sc crit succ body)).
Proof. apply rs_bad, rs_add. Qed.
Lemma bad_up l fin : pres bad (activate_fixture l fin).
Proof. intros s H. eapply bad_ext; [|exact H]. eexists; reflexivity. Qed.
Lemma bad_initiate : pres bad (initiate_cleanup E).
Proof. apply relf_bad, relf_initiate. Qed.
Lemma bad_run_single t b : pres bad (run_single E t b).
Proof.
  apply (gen_run_single E bad bad_alike (fun e s _ => bad_emit e s) bad_add bad_up
    (fun n => relf_bad _ (relf_cm_push n)) (fun n => relf_bad _ (relf_cm_pop E n))
    (fun n => relf_bad _ (relf_fix_pop E n)) (fun n ok s => bad_emit _ s)).
Qed.
Lemma bad_run_loop ts last s : bad s -> bad (fst (fst (fst (run_loop E last ts s)))).
Proof.
  apply (gen_run_loop E bad bad_alike (fun e s _ => bad_emit e s) bad_add bad_up
    (fun n => relf_bad _ (relf_cm_push n)) (fun n => relf_bad _ (relf_cm_pop E n))
    (fun n => relf_bad _ (relf_fix_pop E n)) (fun n ok s => bad_emit _ s)).
Qed.
Lemma bad_run_tests ts : pres bad (run_tests E ts).
Proof.
  apply (gen_run_tests E bad bad_alike (fun e s _ => bad_emit e s) bad_add bad_up
    (fun n => relf_bad _ (relf_cm_push n)) (fun n => relf_bad _ (relf_cm_pop E n))
    (fun n => relf_bad _ (relf_fix_pop E n)) (fun n ok s => bad_emit _ s)).
Qed.

(** ** Triples *)

Definition tri (P : state -> Prop) (m : M) (Q : outcome -> state -> Prop) : Prop :=
  forall s, P s -> bad (fst (m s)) \/ snd (m s) = OFuel \/ Q (snd (m s)) (fst (m s)).

Lemma tri_rs (P : state -> Prop) m : rs m -> (forall s s', still s s' -> P s -> P s') -> tri P m (fun _ => P).
Proof. intros H K s HP. right. right. eapply K; [apply H|auto]. Qed.

Lemma tri_seq P a Q b R :
  tri P a Q -> pres bad b -> tri (Q ONormal) b R -> (forall x s, Q (ORaise x) s -> R (ORaise x) s) -> tri P (a ;; b) R.
Proof.
  intros Ha Hb Hq Hr s HP. unfold seq. specialize (Ha s HP). destruct (a s) as [s1 [| x |]]; cbn [fst snd] in *.
  - destruct Ha as [B|[F|HQ]]; [|discriminate|auto]. left. apply Hb; auto.
  - destruct Ha as [B|[F|HQ]]; auto.
  - auto.
Qed.

Lemma tri_finally P a Q b (R : outcome -> state -> Prop) :
  tri P a Q -> pres bad b ->
  (forall o, o <> OFuel -> tri (Q o) b (fun o' s => R (match o' with ONormal => o | _ => o' end) s)) ->
  tri P (finally a b) R.
Proof.
  intros Ha Hb Hq s HP. unfold finally. specialize (Ha s HP).
  destruct (a s) as [s1 o]; cbn [fst snd] in *.
  destruct Ha as [B|[F|HQ]].
  - left. destruct o; auto; specialize (Hb s1 B); destruct (b s1) as [s2 [| y |]]; auto.
  - subst. auto.
  - destruct o as [|x|]; [| |auto].
    + specialize (Hq ONormal ltac:(discriminate) s1 HQ). destruct (b s1) as [s2 [| y |]]; cbn [fst snd] in *; intuition discriminate.
    + specialize (Hq (ORaise x) ltac:(discriminate) s1 HQ). destruct (b s1) as [s2 [| y |]]; cbn [fst snd] in *; intuition discriminate.
Qed.

Lemma tri_except ts P a (Q : state -> Prop) (h : exn -> M) :
  tri P a (fun _ => Q) -> (forall x, pres bad (h x)) -> (forall x, tri Q (h x) (fun _ => Q)) -> tri P (except_ ts a h) (fun _ => Q).
Proof.
  intros Ha Hb Hh s HP. unfold except_. specialize (Ha s HP). destruct (a s) as [s1 [| x |]]; cbn [fst snd] in *; auto.
  destruct (isinstance_any (x_kind x) ts); auto. destruct Ha as [B|[F|HQ]]; [left; apply Hb; auto|discriminate|apply Hh; auto].
Qed.

Lemma tri_handling h P a (Q : state -> Prop) :
  (forall s s', still s s' -> Q s -> Q s') -> tri P a (fun _ => Q) -> tri P (handling E h a) (fun _ => Q).
Proof.
  intros K Ha s HP. unfold handling. specialize (Ha s HP). destruct (a s) as [s1 [| x |]]; cbn [fst snd] in *; auto.
  assert (X : bad (handle_exception E x s1) \/ Q (handle_exception E x s1)).
  { destruct Ha as [B|[F|HQ]]; [left|discriminate|right].
    - eapply frame_bad; [apply frame_handle|auto].
    - eapply K; [apply still_handle|auto]. }
  repeat match goal with |- context[if ?b then _ else _] => destruct b; cbn [fst snd] end; tauto.
Qed.

Lemma tri_imp (P P' : state -> Prop) m (Q Q' : outcome -> state -> Prop) :
  (forall s, P' s -> P s) -> (forall o s, Q o s -> Q' o s) -> tri P m Q -> tri P' m Q'.
Proof. intros H1 H2 H s HP. destruct (H s (H1 s HP)) as [B|[F|HQ]]; auto. Qed.

Lemma tri_ret P : tri P ret (fun o s => o = ONormal /\ P s).
Proof. intros s H. simpl. auto. Qed.

Lemma tri_any' P a (Q R : outcome -> state -> Prop) : tri P a R -> (forall o s, R o s -> Q o s) -> tri P a Q.
Proof. intros H K. eapply tri_imp; [intros s X; exact X|exact K|exact H]. Qed.

(** ** The assertions *)

Variable modof : nat -> option nat.

Record At2 (names scopes : list sname) (lm lt cur tag : option nat) (fl : bool) (sd : option (nat * bool)) (s : state) : Prop := mkAt2 {
  at_run : wrun modof (st_trace s) w0 = Some (mkW (map (fun c => (sc_id c, sc_name c)) (cm_stack (st_cm s))) cur tag fl sd);
  at_names : map sc_name (cm_stack (st_cm s)) = names;
  at_scopes : st_scopes s = scopes;
  at_lm : st_lastmod s = lm;
  at_lt : st_lasttest s = lt }.

Lemma wrun_calm l q : forallb calm l = true -> wrun modof l q = Some q.
Proof.
  induction l as [|e l IH]; simpl; auto. intro H. apply andb_true_iff in H as [H1 H2].
  assert (X : wstep modof e q = Some q) by (destruct e; simpl in *; try discriminate; auto; destruct h; auto; discriminate).
  rewrite X. auto.
Qed.

Lemma names_of (l : list scope) : map sc_name l = map snd (map (fun c => (sc_id c, sc_name c)) l).
Proof. rewrite map_map. auto. Qed.

Lemma still_At2 names scopes lm lt cur tag fl sd s s' :
  still s s' -> At2 names scopes lm lt cur tag fl sd s -> At2 names scopes lm lt cur tag fl sd s'.
Proof.
  intros [S1 S2 S3 S4 (l & S5 & S6)] [A1 A2 A3 A4 A5]. constructor; try congruence.
  - rewrite S5, wrun_app, A1, wrun_calm by auto. congruence.
  - rewrite names_of, S1, <- names_of. auto.
Qed.

Definition closable (n : sname) (cur tag : option nat) (fl : bool) : Prop := n = SModule -> tag <> cur \/ fl = true.

Lemma cm_pop_tri n names scopes lm lt cur tag fl sd :
  closable n cur tag fl ->
  tri (At2 (n :: names) scopes lm lt cur tag fl sd) (cm_pop E n) (fun _ => At2 names scopes lm lt cur tag fl sd).
Proof.
  intros HC s A. unfold cm_pop.
  destruct (cm_stack (st_cm s)) as [|sc l] eqn:ES; [destruct A as [_ A2 _ _ _]; rewrite ES in A2; discriminate|].
  assert (EN : sc_name sc = n) by (destruct A as [_ A2 _ _ _]; rewrite ES in A2; simpl in A2; congruence).
  rewrite EN, sname_eqb_refl. simpl negb. cbv iota.
  set (s1 := emit (EvPopBegin (sc_id sc) n (negb (current_success s)) (current_interrupted s)) s).
  assert (A1 : still s s1) by (apply still_emit; reflexivity).
  pose proof (rs_call_cleanups (sc_id sc) n (negb (current_success s)) (current_interrupted s) s1) as R.
  destruct (call_cleanups E (sc_id sc) n (negb (current_success s)) (current_interrupted s) s1) as [s2 o].
  cbn [fst] in R. pose proof (still_trans _ _ _ A1 R) as S2.
  assert (X : forall b, At2 names scopes lm lt cur tag fl sd
     (emit (EvPopEnd (sc_id sc) n b) (on_cm (fun m => with_names (name_update n (@tl _) (cm_names m))
                                        (with_stack (tl (cm_stack m)) m)) s2))).
  { intro b. pose proof (still_At2 _ _ _ _ _ _ _ _ _ _ S2 A) as [B1 B2 B3 B4 B5].
    pose proof (sl_stack _ _ S2) as Q. rewrite ES in Q.
    destruct (cm_stack (st_cm s2)) as [|sc2 l2] eqn:E2; [discriminate|].
    simpl in Q. injection Q as Q1 Q2 Q3.
    constructor; simpl; auto.
    - rewrite wrun_app, B1. simpl. rewrite E2. simpl. rewrite Q1, Nat.eqb_refl, Q2, EN, sname_eqb_refl. simpl.
      assert (G : negb (sname_eqb n SModule) || negb (opt_beq tag cur) || fl = true).
      { destruct (sname_eqb n SModule) eqn:EM; auto. apply sname_eqb_eq in EM. destruct (HC EM) as [D| ->]; [|rewrite orb_true_r; auto].
        destruct (opt_beq tag cur) eqn:EO; auto. apply opt_beq_eq in EO. contradiction. }
      rewrite G. auto.
    - rewrite E2. simpl in *. congruence. }
  destruct o; cbn [fst snd]; auto.
Qed.

Lemma call_two_tri P a (Q : state -> Prop) b :
  tri P a (fun _ => Q) -> pres bad b -> (forall s, Q s -> Q (fst (b s))) ->
  tri P (call_all None [a; b]) (fun _ => Q).
Proof.
  intros Ha Hb Hq s HP. specialize (Ha s HP). simpl. destruct (a s) as [s1 o1]. cbn [fst snd] in Ha.
  assert (X : o1 <> OFuel -> bad (fst (b s1)) \/ Q (fst (b s1))).
  { intro NF. destruct Ha as [B|[F|H]]; [left; apply Hb; auto|contradiction|right; auto]. }
  destruct o1 as [|x|].
  - specialize (X ltac:(discriminate)). destruct (b s1) as [s2 [| y |]]; cbn [fst snd] in *; try tauto.
    destruct (isinstance (x_kind y) TException); cbn [fst snd]; tauto.
  - destruct (isinstance (x_kind x) TException).
    + specialize (X ltac:(discriminate)). destruct (b s1) as [s2 [| y |]]; cbn [fst snd] in *; try tauto.
      destruct (isinstance (x_kind y) TException); cbn [fst snd]; tauto.
    + cbn [fst snd]. intuition discriminate.
  - auto.
Qed.

Lemma sm_pop_tri n names scopes lm lt cur tag fl sd :
  closable n cur tag fl ->
  tri (At2 (n :: names) (n :: scopes) lm lt cur tag fl sd) (sm_pop E n)
      (fun o s => (n <> STest -> o = ONormal) /\ At2 names scopes lm lt cur tag fl sd s).
Proof.
  intros HC s A. unfold sm_pop. rewrite (at_scopes _ _ _ _ _ _ _ _ _ A), sname_eqb_refl. simpl negb. cbv iota.
  assert (A1 : At2 (n :: names) scopes lm lt cur tag fl sd (set_scopes scopes s)).
  { destruct A as [B1 B2 B3 B4 B5]. constructor; auto. }
  pose proof (call_two_tri _ _ _ (fix_pop E n) (cm_pop_tri n names scopes lm lt cur tag fl sd HC)
    (rs_bad _ (rs_fix_pop n)) (fun s H => still_At2 _ _ _ _ _ _ _ _ _ _ (rs_fix_pop n s) H) _ A1) as T.
  destruct (call_all None [cm_pop E n; fix_pop E n] (set_scopes scopes s)) as [s1 [| x |]]; cbn [fst snd] in *.
  - destruct T as [B|[F|H]]; [left; apply bad_emit; auto|discriminate|].
    right; right. split; auto. eapply still_At2; [|exact H]. apply still_emit. reflexivity.
  - destruct T as [B|[F|H]]; [left; apply bad_emit; auto|discriminate|].
    destruct (sname_eqb n STest) eqn:EN.
    + right; right. split; [intro N; apply sname_eqb_eq in EN; contradiction|].
      eapply still_At2; [|exact H]. apply still_emit. reflexivity.
    + left. exists n. split; [intros ->; discriminate|]. simpl. apply in_or_app. right. left. auto.
  - auto.
Qed.

Lemma sm_push_tri n names scopes lm lt cur tag fl sd tag' :
  (forall sid l, map snd l = names -> wstep modof (EvPush sid n) (mkW l cur tag fl sd) = Some (mkW ((sid, n) :: l) cur tag' fl sd)) ->
  tri (At2 names scopes lm lt cur tag fl sd) (sm_push n)
      (fun o s => o = ONormal /\ At2 (n :: names) (n :: scopes) lm lt cur tag' fl sd s).
Proof.
  intros H s [A1 A2 A3 A4 A5]. right; right. unfold sm_push, seq, upd, cm_push. cbn [fst snd]. split; auto.
  constructor; simpl; auto; try congruence.
  rewrite wrun_app, A1. cbn [wrun]. rewrite H; [reflexivity|]. rewrite <- names_of. auto.
Qed.

(** between two tests *)
Definition base (scopes : list sname) (lm tag : option nat) : Prop :=
  (scopes = [] /\ lm = None) \/ (scopes = [SModule; SSession] /\ lm <> None /\ tag = lm).
Definition Ready (cur : option nat) (sd : option (nat * bool)) (s : state) : Prop :=
  exists scopes lm lt tag, base scopes lm tag /\ At2 (scopes ++ [SSessionGlobal]) scopes lm lt cur tag false sd s.
(** after the session's cleanup *)
Definition Done (s : state) : Prop :=
  exists lm lt cur tag fl sd, At2 [SSessionGlobal] [] lm lt cur tag fl sd s.

Lemma Ready_still cur sd s s' : still s s' -> Ready cur sd s -> Ready cur sd s'.
Proof. intros H (a & b & c & d & B & A). exists a, b, c, d. split; auto. eapply still_At2; eauto. Qed.
Lemma Done_still s s' : still s s' -> Done s -> Done s'.
Proof. intros H (a & b & c & d & f & g & A). exists a, b, c, d, f, g. eapply still_At2; eauto. Qed.

Lemma tri_cond P c a b Q : tri (fun s => P s /\ c s = true) a Q -> tri (fun s => P s /\ c s = false) b Q -> tri P (cond c a b) Q.
Proof. intros Ha Hb s HP. unfold cond. destruct (c s) eqn:Ec; [apply Ha|apply Hb]; auto. Qed.

(** the scopes while a test runs *)
Definition InTest (t m : nat) (sd : option (nat * bool)) (s : state) : Prop :=
  At2 [STest; SModule; SSession; SSessionGlobal] [STest; SModule; SSession] (Some m) (Some t) (Some m) (Some m) false sd s.

Lemma opt_eqb_eq' a b : opt_eqb a b = true <-> a = b.
Proof. apply opt_beq_eq. Qed.

Lemma begin_tri t m sd : t_module t = Some m ->
  tri (Ready (Some m) sd) (begin_test E t) (fun o s => o = ONormal /\ InTest (t_id t) m sd s).
Proof.
  intros Hm s (scopes & lm & lt & tag & B & A). revert s A.
  change (tri (At2 (scopes ++ [SSessionGlobal]) scopes lm lt (Some m) tag false sd) (begin_test E t)
    (fun o s => o = ONormal /\ InTest (t_id t) m sd s)).
  unfold begin_test. rewrite Hm.
  assert (PB : forall n, pres bad (sm_pop E n)) by (intro; apply relf_bad, relf_sm_pop).
  assert (PP : forall n, pres bad (sm_push n)) by (intro; apply relf_bad, relf_sm_push).
  set (tail := upd (set_lastmod (Some m)) ;; sm_push STest ;; upd (set_lasttest (Some (t_id t)))).
  assert (TB : pres bad tail).
  { unfold tail. apply relf_bad. repeat first [apply relf_sm_push | apply relf_seq | apply relf_upd; fplain]. }
  assert (TT : forall lm0 lt0, tri (At2 [SModule; SSession; SSessionGlobal] [SModule; SSession] lm0 lt0 (Some m) (Some m) false sd) tail
      (fun o s => o = ONormal /\ InTest (t_id t) m sd s)).
  { intros lm0 lt0. unfold tail.
    eapply (tri_seq _ _ (fun o s => o = ONormal /\ At2 [SModule; SSession; SSessionGlobal] [SModule; SSession] (Some m) lt0 (Some m) (Some m) false sd s)).
    - intros s [A1 A2 A3 A4 A5]. right; right. simpl. split; auto. constructor; auto.
    - apply relf_bad. apply relf_seq; [apply relf_sm_push|apply relf_upd; fplain].
    - eapply tri_imp; [|intros o s H; exact H|].
      { intros s [_ H]. exact H. }
      eapply (tri_seq _ _ (fun o s => o = ONormal /\
         At2 [STest; SModule; SSession; SSessionGlobal] [STest; SModule; SSession] (Some m) lt0 (Some m) (Some m) false sd s)).
      + apply sm_push_tri. intros sid l Hl. simpl. rewrite Hl. simpl. rewrite Nat.eqb_refl. auto.
      + apply relf_bad, relf_upd. fplain.
      + intros s [_ [A1 A2 A3 A4 A5]]. right; right. simpl. split; auto. constructor; auto.
      + intros x s [Q _]. discriminate.
    - intros x s [Q _]. discriminate. }
  destruct B as [[-> ->]|(-> & Hlm & ->)].
  - (* first test *)
    eapply (tri_seq _ _ (fun o s => o = ONormal /\ At2 [SSession; SSessionGlobal] [SSession] None lt (Some m) tag false sd s)).
    + apply tri_cond.
      * eapply tri_imp; [intros s [H _]; exact H|intros o s H; exact H|].
        apply sm_push_tri. intros sid l Hl. simpl. rewrite Hl. auto.
      * intros s [A Hc]. rewrite (at_lm _ _ _ _ _ _ _ _ _ A) in Hc. discriminate.
    + apply relf_bad. repeat first [ apply relf_sm_push | apply relf_sm_pop | apply relf_raise
               | apply relf_seq | apply relf_cond | apply relf_ret | apply relf_upd; fplain ].
    + eapply tri_imp; [intros s [_ H]; exact H|intros o s H; exact H|].
      eapply (tri_seq _ _ (fun o s => o = ONormal /\ At2 [SModule; SSession; SSessionGlobal] [SModule; SSession] None lt (Some m) (Some m) false sd s)).
      * apply tri_cond.
        2: { intros s [A Hc]. rewrite (at_lm _ _ _ _ _ _ _ _ _ A) in Hc. discriminate. }
        eapply tri_imp; [intros s [H _]; exact H|intros o s H; exact H|].
        eapply (tri_seq _ _ (fun o s => o = ONormal /\ At2 [SSession; SSessionGlobal] [SSession] None lt (Some m) tag false sd s)).
        -- apply tri_cond.
           ++ intros s [A Hc]. rewrite (at_lm _ _ _ _ _ _ _ _ _ A) in Hc. discriminate.
           ++ intros s [A Hc]. right; right. simpl. auto.
        -- apply relf_bad. repeat first [ apply relf_sm_push | apply relf_raise | apply relf_seq | apply relf_cond | apply relf_ret ].
        -- eapply tri_imp; [intros s [_ H]; exact H|intros o s H; exact H|].
           eapply (tri_seq _ _ (fun o s => o = ONormal /\ At2 [SSession; SSessionGlobal] [SSession] None lt (Some m) tag false sd s)).
           ++ apply tri_cond.
              ** intros s [A Hc]. rewrite (at_scopes _ _ _ _ _ _ _ _ _ A) in Hc. discriminate.
              ** intros s [A Hc]. right; right. simpl. auto.
           ++ apply PP.
           ++ eapply tri_imp; [intros s [_ H]; exact H|intros o s H; exact H|].
              apply sm_push_tri. intros sid l Hl. simpl. rewrite Hl. auto.
           ++ intros x s [Q _]. discriminate.
        -- intros x s [Q _]. discriminate.
      * exact TB.
      * eapply tri_imp; [intros s [_ H]; exact H|intros o s H; exact H|]. apply TT.
      * intros x s [Q _]. discriminate.
    + intros x s [Q _]. discriminate.
  - (* later tests *)
    destruct lm as [m0|]; [|congruence].
    eapply (tri_seq _ _ (fun o s => o = ONormal /\ At2 [SModule; SSession; SSessionGlobal] [SModule; SSession] (Some m0) lt (Some m) (Some m0) false sd s)).
    + apply tri_cond.
      * intros s [A Hc]. rewrite (at_lm _ _ _ _ _ _ _ _ _ A) in Hc. discriminate.
      * intros s [A Hc]. right; right. simpl. auto.
    + apply relf_bad. repeat first [ apply relf_sm_push | apply relf_sm_pop | apply relf_raise
               | apply relf_seq | apply relf_cond | apply relf_ret | apply relf_upd; fplain ].
    + eapply tri_imp; [intros s [_ H]; exact H|intros o s H; exact H|].
      eapply (tri_seq _ _ (fun o s => o = ONormal /\ exists lm1, At2 [SModule; SSession; SSessionGlobal] [SModule; SSession] lm1 lt (Some m) (Some m) false sd s)).
      * apply tri_cond.
        2: { intros s [A Hc]. rewrite (at_lm _ _ _ _ _ _ _ _ _ A) in Hc. apply negb_false_iff, opt_eqb_eq' in Hc.
             injection Hc as ->. right; right. simpl. eauto. }
        intros s [A Hc]. rewrite (at_lm _ _ _ _ _ _ _ _ _ A) in Hc. apply negb_true_iff in Hc.
        assert (D : Some m0 <> Some m).
        { intro Q. rewrite Q in Hc. pose proof (proj2 (opt_eqb_eq' (Some m) (Some m)) eq_refl). congruence. }
        revert s A Hc.
        enough (X : tri (At2 [SModule; SSession; SSessionGlobal] [SModule; SSession] (Some m0) lt (Some m) (Some m0) false sd)
          (cond (fun s => negb (opt_eqb (st_lastmod s) None)) (sm_pop E SModule) ret ;;
           cond (fun s => match st_scopes s with SModule :: _ => true | _ => false end) (raise_new KAssertion false) ret ;;
           sm_push SModule)
          (fun o s => o = ONormal /\ exists lm1, At2 [SModule; SSession; SSessionGlobal] [SModule; SSession] lm1 lt (Some m) (Some m) false sd s)).
        { intros s A _. exact (X s A). }
        eapply (tri_seq _ _ (fun o s => o = ONormal /\ At2 [SSession; SSessionGlobal] [SSession] (Some m0) lt (Some m) (Some m0) false sd s)).
        -- apply tri_cond.
           ++ eapply tri_imp; [intros s [H _]; exact H|intros o s H; exact H|].
              eapply tri_any'; [apply sm_pop_tri; intros _; left; auto|]. intros o s [H1 H2]. split; auto. apply H1. discriminate.
           ++ intros s [A Hc]. rewrite (at_lm _ _ _ _ _ _ _ _ _ A) in Hc. discriminate.
        -- apply relf_bad. repeat first [ apply relf_sm_push | apply relf_raise | apply relf_seq | apply relf_cond | apply relf_ret ].
        -- eapply tri_imp; [intros s [_ H]; exact H|intros o s H; exact H|].
           eapply (tri_seq _ _ (fun o s => o = ONormal /\ At2 [SSession; SSessionGlobal] [SSession] (Some m0) lt (Some m) (Some m0) false sd s)).
           ++ apply tri_cond.
              ** intros s [A Hc]. rewrite (at_scopes _ _ _ _ _ _ _ _ _ A) in Hc. discriminate.
              ** intros s [A Hc]. right; right. simpl. auto.
           ++ apply PP.
           ++ eapply tri_imp; [intros s [_ H]; exact H| |].
              2: { apply sm_push_tri with (tag' := Some m). intros sid l Hl. simpl. rewrite Hl. auto. }
              intros o s [-> H]. eauto.
           ++ intros x s [Q _]. discriminate.
        -- intros x s [Q _]. discriminate.
      * exact TB.
      * intros s [_ [lm1 A]]. apply (TT lm1 lt). exact A.
      * intros x s [Q _]. discriminate.
    + intros x s [Q _]. discriminate.
Qed.

Lemma end_tri t m sd : tri (InTest (t_id t) m sd) (end_test E t) (fun _ s => Ready (Some m) sd s).
Proof.
  unfold end_test. apply tri_cond.
  - intros s [A Hc]. rewrite (at_lt _ _ _ _ _ _ _ _ _ A) in Hc. apply negb_true_iff in Hc.
    pose proof (proj2 (opt_eqb_eq' (Some (t_id t)) (Some (t_id t))) eq_refl). congruence.
  - eapply tri_imp; [intros s [H _]; exact H| |apply sm_pop_tri; intro; discriminate].
    intros o s [_ A].
    exists [SModule; SSession], (Some m), (Some (t_id t)), (Some m). split; auto.
    right. repeat split; auto. discriminate.
Qed.

Lemma InTest_still t m sd s s' : still s s' -> InTest t m sd s -> InTest t m sd s'.
Proof. apply still_At2. Qed.

Lemma tri_any P a (Q : state -> Prop) R : tri P a R -> (forall o s, R o s -> Q s) -> tri P a (fun _ => Q).
Proof. intros H K. eapply tri_imp; [intros s X; exact X| |exact H]. intros o s. apply K. Qed.

Lemma bad_seq a b : pres bad a -> pres bad b -> pres bad (a ;; b).
Proof. intros Ha Hb s B. unfold seq. specialize (Ha s B). destruct (a s) as [s1 [| x |]]; cbn [fst] in *; auto. Qed.
Lemma bad_handling h a : pres bad a -> pres bad (handling E h a).
Proof.
  intros Ha s B. unfold handling. specialize (Ha s B). destruct (a s) as [s1 [| x |]]; cbn [fst] in *; auto.
  assert (Y : bad (handle_exception E x s1)) by (eapply frame_bad; [apply frame_handle|auto]).
  repeat match goal with |- context[if ?b then _ else _] => destruct b end; auto.
Qed.
Lemma bad_finally a b : pres bad a -> pres bad b -> pres bad (finally a b).
Proof.
  intros Ha Hb s B. unfold finally. specialize (Ha s B). destruct (a s) as [s1 [| x |]]; cbn [fst] in *; auto;
  specialize (Hb s1 Ha); destruct (b s1) as [s2 [| y |]]; auto.
Qed.
Lemma bad_except ts a h : pres bad a -> (forall x, pres bad (h x)) -> pres bad (except_ ts a h).
Proof.
  intros Ha Hh s B. unfold except_. specialize (Ha s B). destruct (a s) as [s1 [| x |]]; cbn [fst] in *; auto.
  destruct (isinstance_any (x_kind x) ts); auto. apply Hh; auto.
Qed.

Lemma bad_ctl_start t : pres bad (ctl_start E t).
Proof.
  unfold ctl_start. intros s B. unfold cond. destruct (st_ctl s); [exact B|].
  apply (bad_seq (upd (set_ctl true)) (upd (on_result (RTest t) r_mark_started) ;; fire E HTestStart t)); auto; [apply rs_bad, rs_upd; splain|].
  apply bad_seq; [apply rs_bad, rs_upd; intros; apply still_on_result|].
  unfold fire. apply bad_seq; [intros s1 B1; apply bad_emit; auto|apply rs_bad, rs_exec].
Qed.

Lemma ctl_start_tri t m i b : tri (fun s => InTest t m (Some (i, b)) s /\ st_ctl s = false) (ctl_start E i) (fun _ => InTest t m (Some (i, true))).
Proof.
  intros s [A HC]. right; right. unfold ctl_start, cond. rewrite HC.
  unfold fire. cbv beta iota delta [seq upd].
  eapply InTest_still; [apply rs_exec|].
  assert (B : InTest t m (Some (i, b)) (on_result (RTest i) r_mark_started (set_ctl true s))).
  { eapply InTest_still; [|exact A]. eapply still_trans; [|apply still_on_result]. splain. }
  destruct B as [B1 B2 B3 B4 B5]. constructor; auto.
  match goal with |- wrun modof (st_trace (emit ?e ?x)) w0 = _ => change (st_trace (emit e x)) with (st_trace x ++ [e]);
    change (st_cm (emit e x)) with (st_cm x) end.
  rewrite wrun_app, B1. cbn [wrun wstep w_open w_tag w_cur w_end].
  rewrite <- names_of, B2. unfold reported. simpl. rewrite !Nat.eqb_refl. reflexivity.
Qed.

(** the test has started, or has no module *)
Definition ran (t : test) (s : state) : Prop := exists b, Ready (t_module t) (Some (t_id t, b)) s /\ (b = true \/ t_module t = None).
Lemma ran_still t s s' : still s s' -> ran t s -> ran t s'.
Proof. intros H (sd & R & Q). exists sd. split; auto. eapply Ready_still; eauto. Qed.

Lemma test_tri t b :
  tri (fun s => Ready (t_module t) (Some (t_id t, b)) s /\ st_ctl s = false)
    (begin_test E t ;; finally (ctl_start E (t_id t) ;; handling E h_swallowing (exec E (t_body t))) (end_test E t))
    (fun _ => ran t).
Proof.
  assert (PB : pres bad (finally (ctl_start E (t_id t) ;; handling E h_swallowing (exec E (t_body t))) (end_test E t))).
  { apply bad_finally; [|apply relf_bad, relf_end]. apply bad_seq; [apply bad_ctl_start|apply rs_bad, rs_handling, rs_exec]. }
  destruct (t_module t) as [m|] eqn:Hm.
  - assert (TB : tri (fun s => Ready (Some m) (Some (t_id t, b)) s /\ st_ctl s = false) (begin_test E t)
       (fun o s => o = ONormal /\ InTest (t_id t) m (Some (t_id t, b)) s /\ st_ctl s = false)).
    { intros s [HR HC]. pose proof (f_ctl _ _ (relf_begin E t s)) as FC.
      destruct (begin_tri t m (Some (t_id t, b)) Hm s HR) as [B|[F|[Q A]]]; auto. right; right. split; auto. split; auto. congruence. }
    eapply tri_seq; [exact TB|exact PB| |intros x s [Q _]; discriminate].
    eapply tri_imp; [intros s [_ H]; exact H|intros o s H; exact H|].
    eapply (tri_finally _ _ (fun _ => InTest (t_id t) m (Some (t_id t, true)))).
    + eapply (tri_seq _ _ (fun _ => InTest (t_id t) m (Some (t_id t, true)))); [apply ctl_start_tri|apply rs_bad, rs_handling, rs_exec| |auto].
      apply tri_rs; [apply rs_handling, rs_exec|intros s s'; apply InTest_still].
    + apply relf_bad, relf_end.
    + intros o _. eapply tri_any'; [apply end_tri|]. intros o' s H. exists true. rewrite Hm. auto.
  - intros s [HR _]. unfold begin_test. rewrite Hm. unfold seq. right; right. cbn [fst snd raise_new].
    exists b. rewrite Hm. split; auto. eapply Ready_still; [|exact HR]. splain.
Qed.

Lemma summary_tri t : tri (ran t) (fire_summary E (t_id t)) (fun _ => ran t).
Proof.
  assert (KR := ran_still t).
  intros s H. unfold fire_summary. revert s H.
  match goal with |- forall s, ran t s -> bad (fst (?m s)) \/ _ => change (tri (ran t) m (fun _ => ran t)) end.
  apply tri_handling; auto. intros s H.
  destruct (lookup (t_id t) (st_results s)); [|right; right; exact H].
  assert (C : forall h, calm (EvHook h (t_id t)) = true -> bad (fst (fire E h (t_id t) s)) \/ snd (fire E h (t_id t) s) = OFuel \/ ran t (fst (fire E h (t_id t) s))).
  { intros h Hh. right; right. eapply KR; [|exact H]. apply rs_fire; auto. }
  destruct (is_just_failure r); [apply C; reflexivity|]. destruct (is_skip r); [apply C; reflexivity|].
  destruct (is_success false r); [|apply C; reflexivity].
  right; right. unfold fire. cbv beta iota delta [seq upd]. eapply KR; [apply rs_exec|].
  destruct H as (sd & (a & b & c & d & B & [A1 A2 A3 A4 A5]) & Q). exists sd. split; auto. exists a, b, c, d. split; auto.
  constructor; auto.
  match goal with |- wrun modof (st_trace (emit ?e ?x)) w0 = _ => change (st_trace (emit e x)) with (st_trace x ++ [e]);
    change (st_cm (emit e x)) with (st_cm x) end.
  rewrite wrun_app, A1. cbn [wrun wstep w_started w_cur]. unfold reported, running. cbn [w_started w_cur]. rewrite Nat.eqb_refl.
  destruct Q as [-> | ->]; [reflexivity|]. simpl. rewrite orb_true_r. reflexivity.
Qed.

Lemma bad_summary t : pres bad (fire_summary E t).
Proof.
  unfold fire_summary. intros s B. apply bad_handling; auto. intros s1 B1.
  assert (C : forall h, bad (fst (fire E h t s1))).
  { intro h. unfold fire. apply bad_seq; [intros s2 B2; apply bad_emit; auto|apply rs_bad, rs_exec|auto]. }
  destruct (lookup t (st_results s1)); auto.
  destruct (is_just_failure r); auto. destruct (is_skip r); auto. destruct (is_success false r); auto.
Qed.

Lemma bad_call_all l f : Forall (pres bad) l -> pres bad (call_all f l).
Proof.
  intros Hl. revert f. induction Hl as [|a l Ha Hl IH]; intros f s B; simpl.
  - destruct f; auto.
  - specialize (Ha s B). destruct (a s) as [s1 [| x |]]; cbn [fst] in *; auto; [apply IH; auto|].
    destruct (isinstance (x_kind x) TException); auto. apply IH; auto.
Qed.

Lemma flush_tri scopes lm lt cur tag sd : ~ In STest scopes ->
  tri (At2 (scopes ++ [SSessionGlobal]) scopes lm lt cur tag true sd) (flush_remaining_scopes E) (fun _ => Done).
Proof.
  intros NT s A. unfold flush_remaining_scopes. rewrite (at_scopes _ _ _ _ _ _ _ _ _ A). revert s A.
  induction scopes as [|n scopes IH]; intros s A.
  - right; right. simpl. exists lm, lt, cur, tag, true, sd. exact A.
  - simpl. pose proof (sm_pop_tri n (scopes ++ [SSessionGlobal]) scopes lm lt cur tag true sd (fun _ => or_intror eq_refl) s A) as H.
    destruct (sm_pop E n s) as [s1 o1]. cbn [fst snd] in H.
    assert (PB : forall f, pres bad (call_all f (map (sm_pop E) scopes))).
    { intro f. apply bad_call_all. apply Forall_forall. intros m Hm. apply in_map_iff in Hm as (n' & <- & _).
      apply relf_bad, relf_sm_pop. }
    assert (NT' : n <> STest /\ ~ In STest scopes) by (simpl in NT; tauto). destruct NT' as [NT1 NT2].
    destruct H as [B|[-> |[HO H]]].
    + left. destruct o1 as [|x|]; [apply PB; auto| |auto]. destruct (isinstance (x_kind x) TException); [apply PB; auto|auto].
    + auto.
    + rewrite (HO NT1). exact (IH NT2 s1 H).
Qed.

Lemma fire_cleanup_tri names scopes lm lt cur tag fl sd :
  tri (At2 names scopes lm lt cur tag fl sd) (fire E HBeforeSessionCleanup 0) (fun _ => At2 names scopes lm lt cur tag true sd).
Proof.
  intros s [A1 A2 A3 A4 A5]. right; right. unfold fire, seq, upd.
  eapply still_At2; [apply rs_exec|]. constructor; auto. simpl. rewrite wrun_app, A1. auto.
Qed.

Lemma initiate_tri cur sd : tri (fun s => Ready cur sd s \/ Done s) (initiate_cleanup E) (fun _ => Done).
Proof.
  intros s [(scopes & lm & lt & tag & B & A)|D].
  2: { unfold initiate_cleanup, cond. destruct D as (lm & lt & c & tag & fl & sd' & A). rewrite (at_scopes _ _ _ _ _ _ _ _ _ A).
       right; right. simpl. exists lm, lt, c, tag, fl, sd'. exact A. }
  unfold initiate_cleanup, cond. rewrite (at_scopes _ _ _ _ _ _ _ _ _ A).
  destruct (nonempty scopes) eqn:NE.
  - revert s A.
    change (tri (At2 (scopes ++ [SSessionGlobal]) scopes lm lt cur tag false sd)
      (finally (handling E h_swallowing (fire E HBeforeSessionCleanup 0)) (handling E h_swallowing (flush_remaining_scopes E)))
      (fun _ => Done)).
    eapply tri_finally.
    + apply tri_handling; [intros s s'; apply still_At2|]. apply fire_cleanup_tri.
    + intros s Bd. unfold handling. pose proof (bad_call_all (map (sm_pop E) (st_scopes s)) None) as PB.
      unfold flush_remaining_scopes.
      assert (X : bad (fst (call_all None (map (sm_pop E) (st_scopes s)) s))).
      { apply PB; auto. apply Forall_forall. intros m Hm. apply in_map_iff in Hm as (n' & <- & _). apply relf_bad, relf_sm_pop. }
      destruct (call_all None (map (sm_pop E) (st_scopes s)) s) as [s1 [| x |]]; cbn [fst] in *; auto.
      assert (Y : bad (handle_exception E x s1)) by (eapply frame_bad; [apply frame_handle|auto]).
      repeat match goal with |- context[if ?b then _ else _] => destruct b end; auto.
    + intros o _. apply tri_handling; [intros s s'; apply Done_still|]. apply flush_tri.
      destruct B as [[-> _]|(-> & _)]; simpl; intuition discriminate.
  - assert (scopes = []) as -> by (destruct scopes; auto; discriminate).
    right; right. simpl. exists lm, lt, cur, tag, false, sd. exact A.
Qed.

Definition Rdy (cur : option nat) (s : state) : Prop := exists sd, Ready cur sd s.
Lemma Rdy_still cur s s' : still s s' -> Rdy cur s -> Rdy cur s'.
Proof. intros H [sd R]. exists sd. eapply Ready_still; eauto. Qed.
Lemma initiate_tri' cur : tri (fun s => Rdy cur s \/ Done s) (initiate_cleanup E) (fun _ => Done).
Proof. intros s [[sd H]|H]; [apply (initiate_tri cur sd); auto|apply (initiate_tri cur None); auto]. Qed.
Definition RdyT (t : test) (s : state) : Prop := exists b, Ready (t_module t) (Some (t_id t, b)) s.
Lemma RdyT_still t s s' : still s s' -> RdyT t s -> RdyT t s'.
Proof. intros H [sd R]. exists sd. eapply Ready_still; eauto. Qed.
Lemma RdyT_Rdy t s : RdyT t s -> Rdy (t_module t) s.
Proof. intros [b R]. exists (Some (t_id t, b)). auto. Qed.
Lemma ran_Rdy t s : ran t s -> Rdy (t_module t) s.
Proof. intros (b & H & _). exists (Some (t_id t, b)). auto. Qed.

Definition After (cur : option nat) (has_next : bool) (s : state) : Prop := Rdy cur s \/ (has_next = false /\ Done s).

Lemma After_still cur b s s' : still s s' -> After cur b s -> After cur b s'.
Proof. intros H [R|[Q D]]; [left; eapply Rdy_still; eauto|right; split; auto; eapply Done_still; eauto]. Qed.

Hypothesis HW : e_worker E = false.

Lemma single_body_tri t (b : bool) prev :
  tri (RdyT t)
   (handling E h_swallowing (
      process_requirements E t ;;
      if should_run t then
        upd (on_result (RTest (t_id t)) r_mark_started) ;;
        upd (set_ctl false) ;;
        finally
          (except_ (skip_types E)
            (except_ (skip_types E)
               (handling E h_swallowing
                 (begin_test E t ;;
                  finally
                    (ctl_start E (t_id t) ;; handling E h_swallowing (exec E (t_body t)))
                    (end_test E t)))
               (fun _ => ret) ;;
             fire_summary E (t_id t) ;;
             (if negb b && negb (e_worker E) then
                ctl_end E (t_id t) prev ;;
                handling E h_swallowing (initiate_cleanup E)
              else ret))
            (fun _ => ret))
          (ctl_end E (t_id t) prev)
      else ret))
   (fun _ => After (t_module t) b).
Proof.
  set (cur := t_module t).
  assert (KA := After_still cur b).
  assert (KR := RdyT_still t). assert (KR' := Rdy_still cur). assert (KI := RdyT_Rdy t).
  assert (BR : pres bad ret) by (apply rs_bad, rs_ret).
  apply tri_handling; auto.
  eapply (tri_seq _ _ (fun _ => RdyT t)).
  - apply tri_rs; auto. apply rs_process.
  - destruct (should_run t); [|apply BR].
    apply bad_seq; [apply rs_bad, rs_upd; intros; apply still_on_result|].
    apply bad_seq; [apply rs_bad, rs_upd; splain|]. apply bad_finally; [|apply rs_bad, rs_ctl_end].
    apply bad_except; [|intro; exact BR]. apply bad_seq.
    + apply bad_except; [|intro; exact BR]. apply bad_handling, bad_seq; [apply relf_bad, relf_begin|].
      apply bad_finally; [|apply relf_bad, relf_end]. apply bad_seq; [apply bad_ctl_start|apply rs_bad, rs_handling, rs_exec].
    + apply bad_seq; [apply bad_summary|]. destruct (_ && _); [|exact BR].
      apply bad_seq; [apply rs_bad, rs_ctl_end|apply bad_handling, relf_bad, relf_initiate].
  - destruct (should_run t).
    2: { eapply tri_any; [apply tri_ret|]. intros o s [_ H]. left. apply KI. exact H. }
    set (tail := if negb b && negb (e_worker E) then ctl_end E (t_id t) prev ;; handling E h_swallowing (initiate_cleanup E) else ret).
    assert (BT : pres bad tail).
    { unfold tail. destruct (_ && _); [|apply BR].
      apply bad_seq; [apply rs_bad, rs_ctl_end|apply bad_handling, relf_bad, relf_initiate]. }
    set (main := except_ (skip_types E) (except_ (skip_types E) (handling E h_swallowing
                 (begin_test E t ;; finally (ctl_start E (t_id t) ;; handling E h_swallowing (exec E (t_body t))) (end_test E t)))
               (fun _ => ret) ;; fire_summary E (t_id t) ;; tail) (fun _ => ret)).
    assert (BM : pres bad main).
    { unfold main. apply bad_except; [|intro; apply BR]. apply bad_seq.
      - apply bad_except; [|intro; apply BR]. apply bad_handling, bad_seq; [apply relf_bad, relf_begin|].
        apply bad_finally; [|apply relf_bad, relf_end]. apply bad_seq; [apply bad_ctl_start|apply rs_bad, rs_handling, rs_exec].
      - apply bad_seq; [apply bad_summary|exact BT]. }
    assert (TM : tri (fun s => RdyT t s /\ st_ctl s = false) main (fun _ => After cur b)).
    { unfold main. apply tri_except; [|intro; apply BR|intro; apply (tri_rs (After cur b)); [apply rs_ret|auto]].
      assert (RK := ran_still t).
      eapply (tri_seq _ _ (fun _ => ran t)).
      - apply tri_except; [|intro; apply BR|intro; apply (tri_rs (ran t)); [apply rs_ret|auto]].
        apply tri_handling; auto. intros s [[sd H] HC]. apply (test_tri t sd). auto.
      - apply bad_seq; [apply bad_summary|exact BT].
      - eapply (tri_seq _ _ (fun _ => Rdy cur)).
        + eapply tri_any'; [apply summary_tri|]. intros o s. apply ran_Rdy.
        + exact BT.
        + unfold tail. rewrite HW. destruct b; simpl.
          * eapply tri_any; [apply tri_ret|]. intros o s [_ H]. left. exact H.
          * eapply (tri_seq _ _ (fun _ => Rdy cur)).
            -- apply tri_rs; auto. apply rs_ctl_end.
            -- apply bad_handling, relf_bad, relf_initiate.
            -- apply tri_handling; auto. intros s H0.
               destruct (initiate_tri' cur s (or_introl H0)) as [B|[F|D]]; auto. right; right; right; auto.
            -- intros x s H. left. exact H.
        + intros x s H. left. exact H.
      - intros x s H. left. apply ran_Rdy. exact H. }
    eapply (tri_seq _ _ (fun _ => RdyT t)).
    + apply tri_rs; auto. apply rs_upd. intros; apply still_on_result.
    + apply bad_seq; [apply rs_bad, rs_upd; splain|]. apply bad_finally; [exact BM|apply rs_bad, rs_ctl_end].
    + eapply (tri_seq _ _ (fun o s => o = ONormal /\ RdyT t s /\ st_ctl s = false)).
      * intros s HR. right; right. simpl. split; auto. split; auto. eapply KR; [|exact HR]. splain.
      * apply bad_finally; [exact BM|apply rs_bad, rs_ctl_end].
      * eapply tri_imp; [intros s [_ H]; exact H|intros o s H; exact H|].
        eapply tri_finally; [exact TM|apply rs_bad, rs_ctl_end|].
        intros o _. apply (tri_rs (After cur b)); auto. apply rs_ctl_end.
      * intros x s [Q _]. discriminate.
    + intros x s H. left. apply KI. exact H.
  - intros x s H. left. apply KI. exact H.
Qed.

Lemma bad_single_body t (b : bool) prev s0 : bad s0 ->
  bad (fst ((handling E h_swallowing (
      process_requirements E t ;;
      if should_run t then
        upd (on_result (RTest (t_id t)) r_mark_started) ;;
        upd (set_ctl false) ;;
        finally
          (except_ (skip_types E)
            (except_ (skip_types E)
               (handling E h_swallowing
                 (begin_test E t ;;
                  finally
                    (ctl_start E (t_id t) ;; handling E h_swallowing (exec E (t_body t)))
                    (end_test E t)))
               (fun _ => ret) ;;
             fire_summary E (t_id t) ;;
             (if negb b && negb (e_worker E) then
                ctl_end E (t_id t) prev ;;
                handling E h_swallowing (initiate_cleanup E)
              else ret))
            (fun _ => ret))
          (ctl_end E (t_id t) prev)
      else ret)) s0)).
Proof.
  revert s0.
  assert (BR : pres bad ret) by (apply rs_bad, rs_ret).
  apply bad_handling, bad_seq; [apply rs_bad, rs_process|]. destruct (should_run t); [|exact BR].
  apply bad_seq; [apply rs_bad, rs_upd; intros; apply still_on_result|].
  apply bad_seq; [apply rs_bad, rs_upd; splain|]. apply bad_finally; [|apply rs_bad, rs_ctl_end].
  apply bad_except; [|intro; exact BR]. apply bad_seq.
  - apply bad_except; [|intro; exact BR]. apply bad_handling, bad_seq; [apply relf_bad, relf_begin|].
    apply bad_finally; [|apply relf_bad, relf_end]. apply bad_seq; [apply bad_ctl_start|apply rs_bad, rs_handling, rs_exec].
  - apply bad_seq; [apply bad_summary|]. destruct (_ && _); [|exact BR].
    apply bad_seq; [apply rs_bad, rs_ctl_end|apply bad_handling, relf_bad, relf_initiate].
Qed.

Lemma run_single_tri t b : tri (RdyT t) (run_single E t b) (fun _ => After (t_module t) b).
Proof.
  intros s HR. unfold run_single, test_context. revert s HR.
  set (cur := t_module t). assert (KA := After_still cur b). assert (KR := RdyT_still t). assert (KI := RdyT_Rdy t).
  intros s HR.
  match goal with |- bad (fst (finally ?a ?c s)) \/ _ => enough (X : tri (RdyT t) (finally a c) (fun _ => After cur b)); [exact (X s HR)|] end.
  eapply tri_finally with (Q := fun _ => After cur b).
  - eapply (tri_seq _ _ (fun _ => RdyT t)).
    + apply tri_rs; auto. apply rs_upd. splain.
    + intros s0 B. apply bad_seq; auto; [apply rs_bad, rs_create|].
      intros s1 B1. apply bad_finally; auto; [|apply rs_bad, rs_upd; splain].
      apply bad_seq; [apply rs_bad, rs_upd; splain|]. intros s2 B2. apply bad_single_body; auto.
    + eapply (tri_seq _ _ (fun _ => RdyT t)).
      * apply tri_rs; auto. apply rs_create.
      * intros s1 B1. apply bad_finally; auto; [|apply rs_bad, rs_upd; splain].
        apply bad_seq; [apply rs_bad, rs_upd; splain|]. intros s2 B2. apply bad_single_body; auto.
      * intros s1 H1. 
        match goal with |- bad (fst (finally ?a ?c s1)) \/ _ =>
          enough (X : tri (RdyT t) (finally a c) (fun _ => After cur b)); [exact (X s1 H1)|] end.
        eapply tri_finally with (Q := fun _ => After cur b).
        -- eapply (tri_seq _ _ (fun _ => RdyT t)).
           ++ apply tri_rs; auto. apply rs_upd. splain.
           ++ intros s2 B2. apply bad_single_body; auto.
           ++ apply single_body_tri.
           ++ intros x s2 H. left. apply KI. exact H.
        -- apply rs_bad, rs_upd. splain.
        -- intros o _. apply (tri_rs (After cur b)); auto. apply rs_upd. splain.
      * intros x s2 H. left. apply KI. exact H.
    + intros x s2 H. left. apply KI. exact H.
  - apply rs_bad, rs_upd. splain.
  - intros o _. apply (tri_rs (After cur b)); auto. apply rs_upd. splain.
Qed.

Lemma run_loop_tri ts : (forall t, In t ts -> modof (t_id t) = t_module t) ->
  forall last cur s, Rdy cur s ->
  let '(s', o, _, _) := run_loop E last ts s in bad s' \/ o = OFuel \/ exists cur', Rdy cur' s' \/ Done s'.
Proof.
  induction ts as [|t ts IH]; intros HM last cur s HR; cbn [run_loop].
  - right; right. eauto.
  - assert (RM : rs (set_metadata E (t_id t))).
    { intros s0. unfold set_metadata. destruct (lookup (t_id t) (st_idx s0)); [apply rs_raise|]. destruct (e_worker E); splain. }
    pose proof (Rdy_still cur _ _ (RM s) HR) as H1.
    destruct (set_metadata E (t_id t) s) as [s1 [| x |]]; cbn [fst] in H1; [|right; right; eauto|auto].
    cbv zeta.
    set (s2 := if file_differs last (t_file t) then emit (EvFileStart (t_file t)) s1 else s1).
    assert (H2 : Rdy cur s2).
    { unfold s2. destruct (file_differs _ _); auto. eapply Rdy_still; [apply still_emit; reflexivity|auto]. }
    assert (H3 : RdyT t (emit (EvReportStart (t_id t)) s2)).
    { destruct H2 as (sd & a & b & c & d & B & [A1 A2 A3 A4 A5]). exists false, a, b, c, d. split; auto. constructor; auto.
      simpl. rewrite wrun_app, A1. simpl. rewrite HM by (left; auto). auto. }
    pose proof (run_single_tri t (nonempty ts) _ H3) as T.
    destruct (run_single E t (nonempty ts) (emit (EvReportStart (t_id t)) s2)) as [s4 o4]. cbn [fst snd] in T.
    destruct o4 as [|x|]; [| |auto].
    2: { destruct T as [B|[F|[H|[_ H]]]]; [auto|discriminate|right; right; eauto|right; right; exists cur; auto]. }
    set (s5 := match ts with [] => emit (EvFileEnd (t_file t)) (emit (EvReportEnd (t_id t)) s4)
       | t' :: _ => if Nat.eqb (t_file t') (t_file t) then emit (EvReportEnd (t_id t)) s4
                    else emit (EvFileEnd (t_file t)) (emit (EvReportEnd (t_id t)) s4) end).
    assert (S5 : still s4 s5).
    { unfold s5. destruct ts as [|t' ts']; [|destruct (Nat.eqb _ _)];
        repeat first [apply still_emit; reflexivity | eapply still_trans; [|apply still_emit; reflexivity]]; apply still_emit; reflexivity. }
    assert (T5 : bad s5 \/ After (t_module t) (nonempty ts) s5).
    { destruct T as [B|[F|H]]; [left|discriminate|right; eapply After_still; eauto].
      eapply bad_ext; [|exact B]. destruct (sl_trace _ _ S5) as (l & Q & _). eauto. }
    assert (E5 : bad s5 \/ ONormal = OFuel \/ exists cur', Rdy cur' s5 \/ Done s5).
    { destruct T5 as [B|[H|[_ H]]]; [auto|right; right; eauto|right; right; exists cur; auto]. }
    match goal with |- context [if ?b then (_, ONormal, LBreak ts, _) else _] => destruct b; [exact E5|] end.
    match goal with |- context [if ?b then (_, ONormal, LBreak ts, _) else _] => destruct b; [exact E5|] end.
    destruct T5 as [B|[H|[Q H]]].
    + pose proof (bad_run_loop ts (Some (t_file t)) s5 B) as X.
      destruct (run_loop E (Some (t_file t)) ts s5) as [[[s6 o6] e6] l6]. left. exact X.
    + apply IH with (cur := t_module t); auto. intros t' Ht'. apply HM. right; auto.
    + destruct ts; [|discriminate]. cbn [run_loop]. right; right. exists cur. auto.
Qed.

Lemma run_tests_tri ts : (forall t, In t ts -> modof (t_id t) = t_module t) ->
  tri (Rdy None) (run_tests E ts) (fun _ => Done).
Proof.
  intros HM s HR. unfold run_tests.
  pose proof (run_loop_tri ts HM None None s HR) as T.
  destruct (run_loop E None ts s) as [[[s1 o] e] last]. rewrite HW.
  assert (X : o <> OFuel -> bad (fst (initiate_cleanup E s1)) \/ snd (initiate_cleanup E s1) = OFuel \/ Done (fst (initiate_cleanup E s1))).
  { intro NF. destruct T as [B|[F|[cur H]]]; [left; apply bad_initiate; auto|contradiction|].
    apply (initiate_tri' cur s1). tauto. }
  assert (G : o <> OFuel -> forall (m : M), rs m ->
     let r := match initiate_cleanup E s1 with
              | (s2, ONormal) => m s2
              | r => r end in bad (fst r) \/ snd r = OFuel \/ Done (fst r)).
  { intros NF m Hm. specialize (X NF). destruct (initiate_cleanup E s1) as [s2 [| x |]]; cbn [fst snd] in *; auto.
    destruct X as [B|[F|D]]; [left; apply rs_bad; auto|discriminate|right; right; eapply Done_still; eauto]. }
  destruct o as [|x|]; [| |auto].
  - apply (G ltac:(discriminate) (mark_unrun (match e with LBreak r => r | _ => [] end) ;;
               (match e, last with
                | LComplete, _ => upd (emit EvComplete)
                | _, Some f => upd (emit (EvFileEnd f))
                | _, None => ret
                end))).
    apply rs_seq; [apply rs_mark_unrun|].
    destruct e; [apply rs_upd; intros; apply still_emit; reflexivity| |];
      (destruct last; [apply rs_upd; intros; apply still_emit; reflexivity|apply rs_ret]).
  - apply (G ltac:(discriminate) (fun s2 => (s2, ORaise x))). intros s2. apply still_refl.
Qed.

Lemma session_tri ts : (forall t, In t ts -> modof (t_id t) = t_module t) ->
  bad (fst (run_session E ts)) \/
  exists cur tag fl sd, wrun modof (session_trace E ts) w0 = Some (mkW [] cur tag fl sd).
Proof.
  intros HM. unfold session_trace.
  set (Fin := fun s => exists lm lt cur tag fl sd, At2 [] [] lm lt cur tag fl sd s).
  assert (KF : forall s s', still s s' -> Fin s -> Fin s').
  { intros s s' H (a & b & c & d & f & g & A). exists a, b, c, d, f, g. eapply still_At2; eauto. }
  set (P0 := At2 [SSessionGlobal] [] None None None None false None).
  assert (KR : forall s s', still s s' -> P0 s -> P0 s') by (intros s s'; apply still_At2).
  assert (KD := Done_still).
  enough (X : tri (fun s => s = state0) (started_context E (run_tests E ts)) (fun _ => Fin)).
  { destruct (X state0 eq_refl) as [B|[F|(a & b & c & d & f & g & [A1 A2 _ _ _])]].
    - left. exact B.
    - pose proof (safe_session E ts) as NF. exfalso. apply NF. exact F.
    - right. exists c, d, f, g. fold (run_session E ts) in *. rewrite A1.
      destruct (cm_stack _); [reflexivity|discriminate]. }
  unfold started_context.
  assert (BT := bad_run_tests ts).
  set (fin := handling E h_plain (cm_pop E SSessionGlobal) ;;
     cond st_ss (handling E h_plain (fire E HSessionEnd 0) ;; handling E h_plain (fire E HAfterSessionEnd 0)) ret).
  set (tl := cond st_ss (handling E h_plain (fire E HSessionEnd 0) ;; handling E h_plain (fire E HAfterSessionEnd 0)) ret) in *.
  assert (RT : rs tl).
  { apply rs_cond; [|apply rs_ret]. apply rs_seq; apply rs_handling, rs_fire; reflexivity. }
  set (start := handling E h_plain (fire E HBeforeSessionStart 0 ;; fire E HSessionStart 0 ;; upd (set_ss true) ;; fire E HAfterSessionStart 0)).
  assert (RS : rs start).
  { apply rs_handling. apply rs_seq; [apply rs_fire; reflexivity|]. apply rs_seq; [apply rs_fire; reflexivity|].
    apply rs_seq; [apply rs_upd; splain|apply rs_fire; reflexivity]. }
  assert (RI : forall x, rs (fire E HSessionInterrupt 0 ;; reraise x)).
  { intro x. apply rs_seq; [apply rs_fire; reflexivity|apply rs_reraise]. }
  assert (BF : pres bad fin).
  { apply bad_seq; [apply bad_handling, relf_bad, relf_cm_pop|apply rs_bad; exact RT]. }
  assert (BB : pres bad (except_ interruption_types (start ;; run_tests E ts) (fun x => fire E HSessionInterrupt 0 ;; reraise x))).
  { apply bad_except; [|intro; apply rs_bad, RI]. apply bad_seq; [apply rs_bad; exact RS|exact BT]. }
  eapply (tri_seq _ _ (fun o s => o = ONormal /\ P0 s)).
  - intros s ->. right; right. split; auto. constructor; reflexivity.
  - apply bad_seq; [apply rs_bad, rs_upd; splain|]. apply bad_finally; auto.
  - eapply tri_imp; [intros s [_ H]; exact H|intros o s H; exact H|].
    eapply (tri_seq _ _ (fun o s => o = ONormal /\ P0 s)).
    + intros s A. right; right. split; auto. apply (KR s); auto. splain.
    + apply bad_finally; auto.
    + eapply tri_imp; [intros s [_ H]; exact H|intros o s H; exact H|].
      eapply (tri_finally _ _ (fun _ => Done)).
      * apply tri_except; [|intro; apply rs_bad, RI|intro; apply tri_rs; [apply RI|auto]].
        eapply (tri_seq _ _ (fun _ => P0)).
        -- apply tri_rs; auto.
        -- exact BT.
        -- eapply tri_imp; [|intros o s H; exact H|apply run_tests_tri; auto].
           intros s A. exists None, [], None, None, None. split; [left; auto|exact A].
        -- intros x s A. exists None, None, None, None, false, None. exact A.
      * exact BF.
      * intros o _. eapply (tri_seq _ _ (fun _ => Fin)).
        -- apply tri_handling; auto. intros s (a & b & c & d & f & g & A).
           destruct (cm_pop_tri SSessionGlobal [] [] a b c d f g ltac:(intro; discriminate) s A) as [B|[F|H]]; auto.
           right; right. exists a, b, c, d, f, g. exact H.
        -- apply rs_bad; exact RT.
        -- apply tri_rs; auto.
        -- intros x s H. exact H.
    + intros x s [Q _]. discriminate.
  - intros x s [Q _]. discriminate.
Qed.
End F.
