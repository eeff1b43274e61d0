(** The cleanup phase that user code observes (EvPhase) along a whole session: proofs behind C85. *)

From Coq Require Import List Bool Arith PeanoNat Lia.
From Verif Require Import Events Core CoreBase Generic SessionSim.
Import ListNotations.

(** ** Invariants of code that does not run out of fuel *)

Definition kept (I : state -> Prop) (m : M) : Prop := forall s, I s -> snd (m s) <> OFuel -> I (fst (m s)).

Lemma kept_pres I m : pres I m -> kept I m.
Proof. intros H s Hs _. auto. Qed.
Lemma kept_seq I a b : kept I a -> kept I b -> kept I (a ;; b).
Proof.
  intros A B s H. unfold seq. specialize (A s H). destruct (a s) as [s1 [| x |]]; cbn [fst snd] in *; auto.
  - apply B. apply A. discriminate.
Qed.
Lemma kept_finally I a b : kept I a -> kept I b -> kept I (finally a b).
Proof.
  intros A B s H. unfold finally. specialize (A s H). destruct (a s) as [s1 [| x |]]; cbn [fst snd] in *; auto.
  - specialize (B s1 (A ltac:(discriminate))). destruct (b s1) as [s2 [| y |]]; cbn [fst snd] in *; auto.
  - specialize (B s1 (A ltac:(discriminate))). destruct (b s1) as [s2 [| y |]]; cbn [fst snd] in *; auto.
    intros _. apply B. discriminate.
Qed.
Lemma kept_except I ts a h : kept I a -> (forall x, kept I (h x)) -> kept I (except_ ts a h).
Proof.
  intros A B s H. unfold except_. specialize (A s H). destruct (a s) as [s1 [| x |]]; cbn [fst snd] in *; auto.
  destruct (isinstance_any _ _); cbn [fst snd]; auto. apply B. apply A. discriminate.
Qed.
Lemma kept_cond I c a b : kept I a -> kept I b -> kept I (cond c a b).
Proof. intros A B s H. unfold cond. destruct (c s); auto. Qed.
Lemma kept_ret I : kept I ret. Proof. apply kept_pres, pres_ret. Qed.
Lemma kept_reraise I x : kept I (reraise x). Proof. apply kept_pres, pres_reraise. Qed.
Lemma kept_handling (I : state -> Prop) E h a : (forall x s, I s -> I (handle_exception E x s)) -> kept I a -> kept I (handling E h a).
Proof.
  intros Hh A s H. unfold handling. specialize (A s H). destruct (a s) as [s1 [| x |]]; cbn [fst snd] in *; auto.
  assert (N : ORaise x <> OFuel) by discriminate.
  repeat match goal with |- context[if ?b then _ else _] => destruct b end; cbn [fst snd]; auto.
Qed.
Lemma kept_call_all I fs : (forall f, In f fs -> kept I f) -> forall sv, kept I (call_all sv fs).
Proof.
  induction fs as [|f fs IH]; intros A sv s H; cbn [call_all]; [destruct sv; auto|].
  specialize (A f (or_introl eq_refl)) as A1. specialize (A1 s H).
  assert (IH' : forall sv, kept I (call_all sv fs)) by (apply IH; intros; apply A; simpl; auto).
  destruct (f s) as [s1 [| x |]]; cbn [fst snd] in *; auto.
  - apply IH'. apply A1. discriminate.
  - destruct (isinstance _ _); cbn [fst snd]; auto. apply IH'. apply A1. discriminate.
Qed.
Lemma kept_fun I (f : state -> M) : (forall s0, kept I (f s0)) -> kept I (fun s => f s s).
Proof. intros H s Hs. apply (H s s Hs). Qed.

(** ** What the trace says about the phase *)

(** the scope being closed, and the scope of the cleanup that runs *)
Definition scan1 (q : option nat * option nat) (e : event) : option nat * option nat :=
  match e with
  | EvPopBegin sid _ _ _ => (Some sid, None)
  | EvRun _ => (fst q, fst q)
  | EvPopEnd _ _ _ => (None, None)
  | _ => q
  end.
Definition scan (t : list event) : option nat * option nat := fold_left scan1 t (None, None).

Definition truthful (t : list event) : Prop := forall a p b, t = a ++ EvPhase p :: b -> p = snd (scan a).

(** events that do not matter here *)
Definition indifferent (e : event) : bool :=
  match e with EvPopBegin _ _ _ _ | EvRun _ | EvPopEnd _ _ _ | EvPhase _ => false | _ => true end.

Lemma scan_snoc t e : scan (t ++ [e]) = scan1 (scan t) e.
Proof. unfold scan. rewrite fold_left_app. auto. Qed.

Lemma truthful_nil : truthful [].
Proof. intros a p b H. destruct a; discriminate. Qed.

Lemma truthful_snoc t e : truthful t -> (forall p, e = EvPhase p -> p = snd (scan t)) -> truthful (t ++ [e]).
Proof.
  intros T N a p b H.
  assert (C : (b = [] /\ a = t /\ e = EvPhase p) \/ exists b', b = b' ++ [e] /\ t = a ++ EvPhase p :: b').
  { destruct b as [|x b] using rev_ind.
    - apply app_inj_tail in H. destruct H as [-> ->]. auto.
    - rewrite app_comm_cons, app_assoc in H. apply app_inj_tail in H. destruct H as [-> ->]. eauto. }
  destruct C as [(-> & -> & ->)|(b' & -> & E)]; auto. apply (T a p b' E).
Qed.

(** only the trace and the current scope matter *)
Definition akin (s s' : state) : Prop := st_trace s' = st_trace s /\ cm_current (st_cm s') = cm_current (st_cm s).

Section P.
Variable E : env.

Section Exec.
Variable I : state -> Prop.
Hypothesis I_akin : forall s s', akin s s' -> I s -> I s'.
Hypothesis I_emit : forall e s, indifferent e = true -> I s -> I (emit e s).

Ltac akin := split; reflexivity.

Lemma h_upd f : (forall s, akin s (f s)) -> pres I (upd f).
Proof. intros H s Hs. eapply I_akin; [apply H|auto]. Qed.
Lemma h_emit e : indifferent e = true -> pres I (upd (emit e)).
Proof. intros H s Hs. simpl. auto. Qed.
Lemma h_raise k f : pres I (raise_new k f).
Proof. intros s Hs. eapply I_akin; [|exact Hs]. akin. Qed.
Lemma h_on_result r f s : I s -> I (on_result r f s).
Proof. apply I_akin. destruct r; akin. Qed.
Lemma h_add_exception r x s : I s -> I (add_exception E r x s).
Proof.
  intros H. unfold add_exception. destruct (mem_xid (x_id x) (st_added s)); auto. cbv zeta.
  assert (H0 : I (set_added (x_id x :: st_added s) s)) by (eapply I_akin; [|exact H]; akin).
  destruct (isinstance_any (x_kind x) [TAssertion]); [apply I_emit, h_on_result; auto|].
  destruct (isinstance_any (x_kind x) (skip_types E)); [apply I_emit, h_on_result; auto|].
  destruct (isinstance_any (x_kind x) interruption_types).
  - apply h_on_result. destruct r as [|t]; [apply I_emit; auto|].
    match goal with |- I (if ?b then _ else _) => destruct b end.
    + apply h_on_result, I_emit; auto.
    + apply I_emit; auto. apply h_on_result, I_emit; auto.
  - destruct (isinstance_any (x_kind x) [TGenExit]); apply I_emit; auto. apply h_on_result; auto.
Qed.
Lemma h_handle x s : I s -> I (handle_exception E x s).
Proof.
  intros H. unfold handle_exception. cbv zeta. set (s1 := emit _ s).
  assert (H1 : I s1) by (apply I_emit; auto).
  destruct (mem_xid _ _); auto. unfold update_current_result.
  assert (H2 : I (set_handled (x_id x :: st_handled s1) s1)) by (eapply I_akin; [|exact H1]; akin).
  destruct (st_test _); apply h_add_exception; auto.
Qed.
Lemma h_handling h a : pres I a -> pres I (handling E h a).
Proof. apply pres_handling. intros; apply h_handle; auto. Qed.
Lemma h_add_entry k f s : I s -> I (add_entry k f s).
Proof. intros H. unfold add_entry. apply I_emit; auto. apply h_on_result; auto. Qed.
Lemma h_add sc crit succ body : pres I (tap_add sc (add_cleanup sc crit succ body)).
Proof.
  apply pres_tap_add; [intros; apply I_emit; auto|]. intros s H. unfold add_cleanup.
  destruct (succ && crit); [apply h_raise; auto|]. cbv zeta.
  assert (H1 : I (on_cm (fun m => with_ncid (S (cm_ncid m)) m) s)) by (eapply I_akin; [|exact H]; akin).
  assert (A : forall c req tgt s', I s' -> I (attach c req tgt s')).
  { intros c req tgt s' H'. unfold attach. 
    assert (H2 : forall e, indifferent e = true -> I (emit e s')) by auto.
    destruct tgt as [k|]; cbv zeta.
    - apply (I_akin (emit (EvAdd (c_id c) req (Some k) (c_crit c) (c_succ c) (c_result c)) s')); [akin|auto].
    - apply (I_akin (emit (EvAdd (c_id c) req None (c_crit c) (c_succ c) (c_result c)) s')); [akin|auto]. }
  repeat match goal with |- I (fst (match ?b with _ => _ end)) => destruct b end; cbn [fst]; try (apply h_raise; auto); auto.
Qed.

Hypothesis I_phase : forall s, I s -> I (emit (EvPhase (cm_current (st_cm s))) s).

Lemma h_exec p : pres I (exec E p).
Proof.
  induction p; cbn [exec].
  - apply pres_ret.
  - apply h_raise.
  - apply pres_reraise.
  - apply pres_seq; auto. apply h_emit; reflexivity.
  - apply pres_seq; auto. apply h_add.
  - apply pres_seq; auto. apply pres_upd. intros; apply h_add_entry; auto.
  - apply pres_seq; auto. apply pres_upd. intros; apply h_add_entry; auto.
  - apply pres_seq; auto. apply h_handling; auto.
  - apply pres_seq; auto. apply pres_except; auto. intros; apply pres_ret.
  - apply pres_seq; auto. apply pres_default; auto. intros v s H. eapply I_akin; [|exact H]. akin.
  - apply pres_seq; auto. intros s H. unfold activate_fixture. cbn [fst]. apply I_emit; auto. eapply I_akin; [|exact H]. akin.
  - apply pres_seq; auto. apply pres_finally; auto.
  - apply pres_seq; auto. apply pres_cond; auto.
  - apply pres_seq; [|exact IHp]. intros s H. apply I_phase; auto.
Qed.

Lemma h_fire h t : pres I (fire E h t).
Proof. apply pres_seq; [|apply h_exec]. apply h_emit; reflexivity. Qed.
Lemma h_tap cid a : pres I a -> pres I (tap cid a).
Proof. intros Ha s H. unfold tap. specialize (Ha s H). destruct (a s) as [s1 [| x |]]; cbn [fst] in *; auto. Qed.
End Exec.

(** in step: what the trace says is what the manager says *)
Definition J (pp c : option nat) (s : state) : Prop :=
  truthful (st_trace s) /\ scan (st_trace s) = (pp, c) /\ cm_current (st_cm s) = c.
(** between two cleanups of scope [sid] *)
Definition L (sid : nat) (s : state) : Prop :=
  truthful (st_trace s) /\ fst (scan (st_trace s)) = Some sid /\ cm_current (st_cm s) = None.

Lemma scan1_ind q e : indifferent e = true -> scan1 q e = q.
Proof. destruct e; simpl; auto; discriminate. Qed.

Lemma J_akin pp c s s' : akin s s' -> J pp c s -> J pp c s'.
Proof. intros [A B] (X & Y & Z). unfold J. rewrite A, B. auto. Qed.
Lemma J_emit pp c e s : indifferent e = true -> J pp c s -> J pp c (emit e s).
Proof.
  intros H (X & Y & Z). unfold J. cbn [emit st_trace st_cm]. rewrite scan_snoc, scan1_ind by auto. repeat split; auto.
  apply truthful_snoc; auto. intros p ->. discriminate.
Qed.
Lemma J_phase pp c s : J pp c s -> J pp c (emit (EvPhase (cm_current (st_cm s))) s).
Proof.
  intros (X & Y & Z). unfold J. cbn [emit st_trace st_cm]. rewrite scan_snoc. repeat split; auto.
  apply truthful_snoc; auto. intros p H. injection H as <-. rewrite Y. auto.
Qed.
Lemma L_akin sid s s' : akin s s' -> L sid s -> L sid s'.
Proof. intros [A B] (X & Y & Z). unfold L. rewrite A, B. auto. Qed.
Lemma L_emit sid e s : indifferent e = true -> L sid s -> L sid (emit e s).
Proof.
  intros H (X & Y & Z). unfold L. cbn [emit st_trace st_cm]. rewrite scan_snoc, scan1_ind by auto. repeat split; auto.
  apply truthful_snoc; auto. intros p ->. discriminate.
Qed.

Lemma h_call_cleanup sid c : pres (L sid) (call_cleanup E sid c).
Proof.
  intros s (T & S & C). unfold call_cleanup. rewrite C.
  set (s1 := emit (EvRun (c_id c)) (on_cm (with_current (Some sid)) s)).
  assert (H1 : J (Some sid) (Some sid) s1).
  { unfold J, s1. cbn [emit st_trace st_cm on_cm set_cm with_current cm_current]. rewrite scan_snoc. cbn [scan1]. rewrite S.
    repeat split; auto. apply truthful_snoc; auto. discriminate. }
  assert (P : pres (J (Some sid) (Some sid)) (except_ [TException] (tap (c_id c) (exec E (c_body c)))
       (fun x => upd (add_exception E (c_result c) x) ;; reraise x))).
  { apply pres_except.
    - apply h_tap; [apply J_emit|]. apply h_exec; [apply J_akin|apply J_emit|apply J_phase].
    - intros x. apply pres_seq; [|apply pres_reraise]. apply pres_upd. intros; apply h_add_exception; auto; [apply J_akin|apply J_emit]. }
  specialize (P s1 H1). unfold finally, seq, upd. fold s1.
  assert (R : forall s', J (Some sid) (Some sid) s' -> L sid (on_cm (with_current None) s')).
  { intros s' (X & Y & Z). unfold L. cbn [st_trace st_cm on_cm set_cm with_current cm_current]. rewrite Y. auto. }
  destruct (except_ _ _ _ s1) as [s2 [| x |]] eqn:Ex; cbn [fst] in *; auto.
  exfalso. assert (N : nofuel (except_ [TException] (tap (c_id c) (exec E (c_body c)))
       (fun x => upd (add_exception E (c_result c) x) ;; reraise x))).
  { apply nofuel_except.
    - intros s'. unfold tap. pose proof (nofuel_exec E (c_body c) s') as N. destruct (exec E (c_body c) s') as [? [| ? |]]; cbn [snd] in *; congruence.
    - intros x. apply nofuel_seq; [apply nofuel_upd|apply nofuel_reraise]. }
  apply (N s1). rewrite Ex. auto.
Qed.

Lemma h_loop sid f i fuel : pres (L sid) (cleanup_loop E fuel sid f i).
Proof.
  induction fuel as [|fuel IH]; intros s H; cbn [cleanup_loop]; auto.
  destruct (scope_cleanups sid s) as [|c cl]; auto.
  assert (H0 : L sid (on_cm (fun m => with_stack (on_scope sid (@tl _) (cm_stack m)) m) s)).
  { eapply L_akin; [|exact H]. split; reflexivity. }
  set (s0 := on_cm _ s) in *.
  destruct (i && negb (c_crit c)); [apply IH; auto|].
  destruct ((f || i) && c_succ c); [apply IH; auto|].
  apply pres_seq; auto. apply h_handling; [apply L_akin|apply L_emit|]. apply h_call_cleanup.
Qed.

Notation K := (J None None).

Lemma h_cm_pop n : kept K (cm_pop E n).
Proof.
  intros s H. unfold cm_pop. destruct (cm_stack (st_cm s)) as [|sc rest]; [intros _; apply h_raise; auto; apply J_akin|].
  destruct (negb _); [intros _; apply h_raise; auto; apply J_akin|].
  set (s1 := emit _ s).
  assert (H1 : J (Some (sc_id sc)) None s1).
  { destruct H as (T & S & C). unfold J, s1. cbn [emit st_trace st_cm]. rewrite scan_snoc. cbn [scan1]. repeat split; auto.
    apply truthful_snoc; auto. discriminate. }
  assert (P : L (sc_id sc) (fst (call_cleanups E (sc_id sc) (sc_name sc) (negb (current_success s)) (current_interrupted s) s1))).
  { unfold call_cleanups, seq.
    assert (Q : pres (J (Some (sc_id sc)) None) (if sname_eqb (sc_name sc) STest
       then (fun s => handling E h_plain (fire E HBeforeTestCleanups (match st_test s with Some t => t | None => 0 end)) s) else ret)).
    { destruct (sname_eqb _ _); [|apply pres_ret].
      apply (pres_fun _ (fun s0 => handling E h_plain (fire E HBeforeTestCleanups (match st_test s0 with Some t => t | None => 0 end)))).
      intros s0. apply h_handling; [apply J_akin|apply J_emit|]. apply h_fire; [apply J_akin|apply J_emit|apply J_phase]. }
    specialize (Q s1 H1).
    assert (JL : forall s', J (Some (sc_id sc)) None s' -> L (sc_id sc) s').
    { intros s' (X & Y & Z). unfold L. rewrite Y. auto. }
    match goal with |- context[match ?m s1 with _ => _ end] => destruct (m s1) as [s2 [| x |]] end; cbn [fst] in *; auto.
    apply h_loop. auto. }
  destruct (call_cleanups _ _ _ _ _ s1) as [s2 o]. cbn [fst] in P.
  assert (Z : forall ok, K (emit (EvPopEnd (sc_id sc) n ok) (on_cm (fun m => with_names (name_update n (@tl _) (cm_names m)) (with_stack (tl (cm_stack m)) m)) s2))).
  { intros ok. destruct P as (T & S & C). unfold J. cbn [emit st_trace st_cm on_cm set_cm]. rewrite scan_snoc. repeat split; auto.
    apply truthful_snoc; auto. discriminate. }
  destruct o; cbn [fst snd]; auto. intros N; contradiction.
Qed.

Ltac kakin := split; reflexivity.

Lemma k_upd f : (forall s, akin s (f s)) -> kept K (upd f).
Proof. intros H. apply kept_pres, h_upd; auto. apply J_akin. Qed.
Lemma k_emit e : indifferent e = true -> kept K (upd (emit e)).
Proof. intros H. apply kept_pres, h_emit; auto. apply J_emit. Qed.
Lemma k_raise k f : kept K (raise_new k f).
Proof. apply kept_pres, h_raise, J_akin. Qed.
Lemma k_exec p : kept K (exec E p).
Proof. apply kept_pres, h_exec; [apply J_akin|apply J_emit|apply J_phase]. Qed.
Lemma k_fire h t : kept K (fire E h t).
Proof. apply kept_pres, h_fire; [apply J_akin|apply J_emit|apply J_phase]. Qed.
Lemma k_handling h a : kept K a -> kept K (handling E h a).
Proof. apply kept_handling. intros; apply h_handle; auto; [apply J_akin|apply J_emit]. Qed.
Lemma k_res r f : kept K (upd (on_result r f)).
Proof. apply k_upd. intros s. destruct r; kakin. Qed.
Lemma k_push n : kept K (cm_push n).
Proof. intros s H _. unfold cm_push. cbn [fst]. apply J_emit; [reflexivity|]. eapply J_akin; [|exact H]. kakin. Qed.

Lemma k_fix_pop n : kept K (fix_pop E n).
Proof.
  assert (D : forall l fid, kept K (deactivate_fixture E l fid)).
  { intros l fid s H. unfold deactivate_fixture. destruct (lookup fid (fix_get l s)) as [fin|]; auto.
    apply kept_seq; [| |exact H]; [|apply k_exec]. intros s' H' _. apply J_emit; [reflexivity|]. eapply J_akin; [|exact H']. kakin. }
  assert (A : forall l fids, kept K (deactivate_all E l fids)).
  { intros l fids. induction fids; simpl; [apply kept_ret|]. apply kept_seq; auto. apply k_handling, D. }
  assert (Lv : forall sl l, kept K (fix_pop_level E sl l)).
  { intros sl l s H. unfold fix_pop_level. destruct (Nat.leb _ _); auto.
    apply kept_seq; auto. intros s' H'. destruct (nonempty _); auto; apply k_raise; auto. }
  assert (Ls : forall sl ls, kept K (fix_pop_levels E sl ls)).
  { intros sl ls. induction ls; simpl; [apply kept_ret|apply kept_seq; auto]. }
  intros s H. unfold fix_pop. destruct (current_interrupted s); auto. apply Ls; auto.
Qed.

Lemma k_sm_push n : kept K (sm_push n).
Proof. apply kept_seq; [|apply k_push]. apply k_upd. intros; kakin. Qed.

Lemma k_sm_pop n : kept K (sm_pop E n).
Proof.
  intros s H. unfold sm_pop. destruct (st_scopes s) as [|p rest]; [apply k_raise; auto|].
  assert (H1 : K (set_scopes rest s)) by (eapply J_akin; [|exact H]; kakin).
  destruct (negb _); [apply k_raise; auto|].
  assert (H2 : kept K (call_all None [cm_pop E n; fix_pop E n])).
  { apply kept_call_all. intros f [<-|[<-|[]]]; [apply h_cm_pop|apply k_fix_pop]. }
  specialize (H2 _ H1).
  destruct (call_all None _ (set_scopes rest s)) as [s1 [| x |]]; cbn [fst snd] in *; auto.
  - intros N. apply J_emit; auto.
  - intros N. apply J_emit; auto.
Qed.

Lemma k_begin t : kept K (begin_test E t).
Proof.
  unfold begin_test. destruct (t_module t); [|apply k_raise].
  repeat first [ apply k_sm_push | apply k_push | apply k_sm_pop | apply k_raise
               | apply kept_seq | apply kept_cond | apply kept_ret | apply k_upd; intros; kakin ].
Qed.

Lemma k_end t : kept K (end_test E t).
Proof. apply kept_cond; [apply k_raise|apply k_sm_pop]. Qed.

Lemma k_flush : kept K (flush_remaining_scopes E).
Proof.
  apply (kept_fun _ (fun s => call_all None (map (sm_pop E) (st_scopes s)))). intros s.
  apply kept_call_all. intros f Hf. apply in_map_iff in Hf as [n [<- _]]. apply k_sm_pop.
Qed.

Lemma k_initiate : kept K (initiate_cleanup E).
Proof.
  apply kept_cond; [|apply kept_ret]. apply kept_finally; apply k_handling; [|apply k_flush]. apply k_fire.
Qed.

Lemma k_ctl_start t : kept K (ctl_start E t).
Proof.
  apply kept_cond; [apply kept_ret|]. apply kept_seq; [apply k_upd; intros; kakin|].
  apply kept_seq; [apply k_res|apply k_fire].
Qed.

Lemma k_ctl_end t prev : kept K (ctl_end E t prev).
Proof.
  apply kept_cond; [|apply kept_ret]. apply kept_seq; [apply k_upd; intros; kakin|].
  apply kept_finally; [|apply k_upd; intros; kakin].
  apply (kept_fun _ (fun s => finally (upd (on_cm (with_implicit false)) ;; fire E HTestEnd t ;; upd (on_result (RTest t) r_mark_finished))
          (upd (on_cm (with_implicit (cm_implicit (st_cm s))))))).
  intros s. apply kept_finally; [|apply k_upd; intros; kakin].
  apply kept_seq; [apply k_upd; intros; kakin|]. apply kept_seq; [apply k_fire|apply k_res].
Qed.

Lemma k_summary t : kept K (fire_summary E t).
Proof.
  intros s H. unfold fire_summary. apply k_handling; auto. intros s' H'.
  destruct (lookup t (st_results s')); auto.
  repeat match goal with |- context[if ?b then _ else _] => destruct b end; apply k_fire; auto.
Qed.

Lemma k_test_context t body : (forall p, kept K (body p)) -> kept K (test_context t body).
Proof.
  intros Hb. apply (kept_fun _ (fun s => finally
    (upd (set_test (Some t)) ;; create_result t ;;
     (fun s0 => finally (upd (set_result (RTest t)) ;; body (st_result s0)) (upd (set_result (st_result s0))) s0))
    (upd (set_test (st_test s))))). intros s.
  apply kept_finally; [|apply k_upd; intros; kakin].
  apply kept_seq; [apply k_upd; intros; kakin|].
  apply kept_seq.
  - intros s' Hs'. unfold create_result. destruct (lookup t (st_results s')); [apply k_raise; auto|].
    intros _. eapply J_akin; [|exact Hs']. kakin.
  - refine (kept_fun K (fun s1 => finally (upd (set_result (RTest t)) ;; body (st_result s1)) (upd (set_result (st_result s1)))) _).
    intros s0. apply kept_finally; [apply kept_seq; auto|]; apply k_upd; intros; kakin.
Qed.

Lemma k_add_skips n : kept K (add_skips n).
Proof.
  induction n; simpl; [apply kept_ret|]. apply kept_seq; auto. intros s H _. simpl. apply h_add_entry; auto; [apply J_akin|apply J_emit].
Qed.

Lemma k_process t : kept K (process_requirements E t).
Proof.
  apply kept_seq; [apply k_exec|].
  destruct (negb _); [apply kept_seq; [apply k_add_skips|apply k_fire]|].
  destruct (t_excluded t); [apply kept_seq; [apply (k_add_skips 1)|apply k_fire]|apply kept_ret].
Qed.

Lemma k_run_single t b : kept K (run_single E t b).
Proof.
  apply k_test_context. intros prev. apply k_handling.
  apply kept_seq; [apply k_process|]. destruct (should_run t); [|apply kept_ret].
  apply kept_seq; [apply k_res|]. apply kept_seq; [apply k_upd; intros; kakin|].
  apply kept_finally; [|apply k_ctl_end].
  apply kept_except; [|intros; apply kept_ret].
  apply kept_seq; [|apply kept_seq; [apply k_summary|]].
  - apply kept_except; [|intros; apply kept_ret]. apply k_handling.
    apply kept_seq; [apply k_begin|]. apply kept_finally; [|apply k_end].
    apply kept_seq; [apply k_ctl_start|]. apply k_handling, k_exec.
  - destruct (_ && _); [|apply kept_ret].
    apply kept_seq; [apply k_ctl_end|]. apply k_handling, k_initiate.
Qed.

Lemma k_run_loop ts : forall last s, K s -> snd (fst (fst (run_loop E last ts s))) <> OFuel -> K (fst (fst (fst (run_loop E last ts s)))).
Proof.
  induction ts as [|t ts IH]; intros last s H; cbn [run_loop]; auto.
  assert (H1 : K (fst (set_metadata E (t_id t) s))).
  { unfold set_metadata. destruct (lookup _ _); [apply h_raise; auto; apply J_akin|].
    destruct (e_worker E); (eapply J_akin; [|exact H]; kakin). }
  destruct (set_metadata E (t_id t) s) as [s1 [| x |]]; cbn [fst] in *; auto.
  set (s2 := emit (EvReportStart (t_id t)) (if file_differs last (t_file t) then emit (EvFileStart (t_file t)) s1 else s1)).
  assert (H2 : K s2).
  { apply J_emit; auto. destruct (file_differs _ _); auto. apply J_emit; auto. }
  pose proof (k_run_single t (nonempty ts) s2 H2) as H3.
  fold s2. destruct (run_single E t (nonempty ts) s2) as [s3 [| x |]]; cbn [fst snd] in *; auto.
  specialize (H3 ltac:(discriminate)).
  match goal with |- context[emit (EvReportEnd _) s3] => set (s4 := emit (EvReportEnd (t_id t)) s3) end.
  assert (H4 : K s4) by (apply J_emit; auto).
  match goal with |- context[match ts with [] => emit ?e s4 | _ => _ end] =>
    set (s5 := match ts with [] => emit e s4 | t' :: _ => if Nat.eqb (t_file t') (t_file t) then s4 else emit e s4 end) end.
  assert (H5 : K s5).
  { unfold s5. destruct ts; [apply J_emit; auto|]. destruct (Nat.eqb _ _); auto. apply J_emit; auto. }
  repeat match goal with |- context[if ?b then _ else _] => destruct b end; cbn [fst]; auto.
Qed.

Lemma k_mark_unrun l : kept K (mark_unrun l).
Proof. induction l; simpl; [apply kept_ret|]. apply kept_seq; auto. apply k_test_context. intros; apply kept_ret. Qed.

Lemma k_run_tests ts : kept K (run_tests E ts).
Proof.
  intros s H. unfold run_tests. pose proof (k_run_loop ts None s H) as H1.
  destruct (run_loop E None ts s) as [[[s1 o] e] last]. cbn [fst snd] in H1.
  assert (H2 : o <> OFuel -> snd ((if e_worker E then ret else initiate_cleanup E) s1) <> OFuel ->
    K (fst ((if e_worker E then ret else initiate_cleanup E) s1))).
  { intros N. destruct (e_worker E); [intros; apply H1; auto|]. apply k_initiate; auto. }
  destruct o as [| y |]; [| |intros N; contradiction];
    destruct ((if e_worker E then ret else initiate_cleanup E) s1) as [s2 [| x' |]]; cbn [fst snd] in *;
    try (intros N; apply H2; auto; discriminate).
  specialize (H2 ltac:(discriminate) ltac:(discriminate)). destruct (e_worker E); auto.
  match goal with |- snd ((?a ;; ?b) s2) <> _ -> _ => assert (P : kept K (a ;; b)) end; [|apply P; auto].
  apply kept_seq; [apply k_mark_unrun|].
  destruct e, last; first [apply kept_ret | apply k_emit; reflexivity].
Qed.

Lemma phase_session ts : truthful (st_trace (fst (run_session E ts))).
Proof.
  assert (P : kept K (started_context E (run_tests E ts))).
  { unfold started_context. apply kept_seq; [apply k_push|]. apply kept_seq; [apply k_upd; intros; kakin|].
    apply kept_finally.
    - apply kept_except; [|intros; apply kept_seq; [apply k_fire|apply kept_reraise]].
      apply kept_seq; [|apply k_run_tests]. apply k_handling.
      repeat first [apply k_fire | apply kept_seq | apply k_upd; intros; kakin].
    - apply kept_seq; [apply k_handling, h_cm_pop|].
      apply kept_cond; [|apply kept_ret]. apply kept_seq; apply k_handling, k_fire. }
  apply (P state0).
  - split; [apply truthful_nil|auto].
  - apply safe_session.
Qed.

End P.
