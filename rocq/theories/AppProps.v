(** Properties of the application (App.v): C76, C77. *)

From Coq Require Import List Bool ZArith Lia.
From Verif Require Import App.
Import ListNotations.

(** * C76: everything acquired is released *)

(** resources are released in the reverse order of their acquisition, each once: reading
    the trace with a stack of what is held *)
Definition res_eqb (a b : resource) : bool :=
  match a, b with
  | RPreludeLogs, RPreludeLogs | RPreludeWarnings, RPreludeWarnings | RSigterm, RSigterm
  | RConfig, RConfig | RContext, RContext | RSessionLogs, RSessionLogs
  | RSessionWarnings, RSessionWarnings => true
  | _, _ => false
  end.

Definition hold (st : option (list resource)) (v : event) : option (list resource) :=
  match st with
  | None => None
  | Some h => match v with
              | EAcquire r => Some (r :: h)
              | ERelease r => match h with
                              | r' :: h' => if res_eqb r r' then Some h' else None
                              | [] => None
                              end
              | _ => Some h
              end
  end.

(** what is held after a trace; None if something was released that was not the last
    thing acquired *)
Definition held (t : list event) : option (list resource) := fold_left hold t (Some []).

(** the trace of a run, in the order of time *)
Definition trace_of (r : state * ending) : list event := rev (a_trace (fst r)).

Lemma res_eqb_refl r : res_eqb r r = true.
Proof. destruct r; auto. Qed.

Lemma held_snoc t v : held (t ++ [v]) = hold (held t) v.
Proof. unfold held. rewrite fold_left_app. auto. Qed.

Section P.
Variable e : env.
Variable prev : nat.

(** what a context on the stack holds *)
Definition holds (r : resource) : list resource :=
  match r with RContext => [RSessionWarnings; RSessionLogs; RContext] | _ => [r] end.

(** the stack of contexts accounts for all that is held, and for the SIGTERM handler *)
Definition Inv (l : list resource) (s : state) : Prop :=
  held (rev (a_trace s)) = Some (flat_map holds l) /\ (In RSigterm l \/ a_sigterm s = prev).

Lemma Inv_emit l s v : (forall r, v <> EAcquire r) -> (forall r, v <> ERelease r) -> Inv l s -> Inv l (emit v s).
Proof.
  intros A B [H G]. split; auto. simpl. rewrite held_snoc, H. destruct v; simpl; auto; [destruct (A r)|destruct (B r)]; auto.
Qed.

Lemma Inv_enter r s s' x : r <> RContext -> Inv (a_stack s) s -> enter_context e r s = (s', x) -> Inv (a_stack s') s'.
Proof.
  intros NR [H G]. unfold enter_context, seq, acquire. destruct (raises e (PEnter r)); intros E; inversion E; subst; [split; auto|].
  split.
  - destruct r; simpl; rewrite ?held_snoc, ?H; simpl; auto. contradiction.
  - destruct r; simpl; auto; destruct G; auto.
Qed.

Hypothesis logs_ok : raises e (PEnter RSessionLogs) = None.
Hypothesis warnings_ok : raises e (PEnter RSessionWarnings) = None.

Lemma Inv_session s s' x : Inv (a_stack s) s -> enter_session e s = (s', x) -> Inv (a_stack s') s'.
Proof.
  intros [H G]. unfold enter_session, seq, acquire. rewrite logs_ok, warnings_ok.
  destruct (raises e (PEnter RContext)); intros E; inversion E; subst; [split; auto|].
  split; simpl; [rewrite !held_snoc, H; auto|destruct G; auto].
Qed.

Lemma seq_ok a b s s' x (P : state -> Prop) :
  (forall s1 x1, a s = (s1, x1) -> P s1) ->
  (forall s1 s2 x2, P s1 -> b s1 = (s2, x2) -> P s2) ->
  seq a b s = (s', x) -> P s'.
Proof.
  intros A B. unfold seq. destruct (a s) as [s1 [x1|]] eqn:E; intros F.
  - inversion F; subst. eapply A; eauto.
  - eapply B; eauto.
Qed.

Lemma Inv_steps s s' x : Inv (a_stack s) s -> enter_steps e s = (s', x) -> Inv (a_stack s') s'.
Proof.
  intros I H. unfold enter_steps in H.
  repeat (revert H; apply (seq_ok _ _ _ _ _ (fun s => Inv (a_stack s) s));
    [intros s1 x1; first [intros E; eapply Inv_enter; [|exact I|exact E]; discriminate
                         |intros E; eapply Inv_session; [exact I|exact E]
                         |unfold at_point; intros E; inversion E; subst; exact I]|];
    clear dependent s; clear s' x; intros s s' x I H).
  unfold at_point in H. inversion H; subst. auto.
Qed.

Hypothesis leave_ok : forall r, raises e (PLeave r) = None.

Lemma Inv_exit r l s : Inv (r :: l) s -> exists s', exit_context e prev r s = (s', None) /\ Inv l s'
  /\ a_code s' = a_code s /\ a_interrupted s' = a_interrupted s /\ a_stack s' = a_stack s
  /\ (forall v, (forall q, v <> ERelease q) -> In v (a_trace s') -> In v (a_trace s)).
Proof.
  intros [H G]. destruct r; unfold exit_context, seq, release; rewrite ?leave_ok; eexists; (split; [reflexivity|]);
    (split; [split; [cbn [emit a_trace set_sigterm rev]; rewrite ?held_snoc, H; cbn; auto|]|split; [reflexivity|split; [reflexivity|split; [reflexivity|]]]]);
    simpl; try (destruct G as [[F|G]|G]; [try discriminate|auto|auto]); auto;
    intros v N I; intuition subst; exfalso; eapply N; eauto.
Qed.

Lemma Inv_unwind l : forall s, Inv l s -> exists s', unwind e prev l None s = (s', None) /\ Inv [] s'
  /\ a_code s' = a_code s /\ a_interrupted s' = a_interrupted s /\ a_stack s' = a_stack s
  /\ (forall v, (forall q, v <> ERelease q) -> In v (a_trace s') -> In v (a_trace s)).
Proof.
  induction l as [|r l IH]; intros s I; simpl.
  - exists s. repeat (split; auto).
  - destruct (Inv_exit r l s I) as (s1 & -> & I1 & A & B & C & D).
    destruct (IH s1 I1) as (s2 & -> & I2 & A2 & B2 & C2 & D2). exists s2.
    split; auto. split; auto. split; [congruence|]. split; [congruence|]. split; [congruence|auto].
Qed.

Hypothesis summary_ok : raises e PSummary = None.
Hypothesis report_ok : raises e PReport = None.
Hypothesis debug_ok : forall x, raises e PDebug = Some x -> exists b, x = XError b.

Lemma Inv_app_exit x s : Inv (a_stack s) s -> exists s' y, app_exit e prev x s = (s', y) /\ Inv [] s'
  /\ (raises e PQuit = None -> y = None /\ (~ In EQuit (a_trace s) -> exists t, a_trace s' = EQuit :: t /\ ~ In EQuit t)).
Proof.
  intros I. unfold app_exit.
  assert (D : (match raises e PDebug with Some (XError _) | None => (s, None) | r => (s, r) end) = (s, @None exn)).
  { destruct (raises e PDebug) as [y|] eqn:E; auto. destruct (debug_ok y eq_refl) as [b ->]. auto. }
  unfold seq at 1. rewrite D.
  set (s1 := match x with Some x => fst (note_exception e x s) | None => s end).
  assert (N : (match x with Some x => note_exception e x s | None => (s, None) end) = (s1, None)).
  { destruct x as [x|]; [|reflexivity]. unfold s1, note_exception. rewrite report_ok. destruct x; reflexivity. }
  unfold seq at 1. rewrite N.
  set (s2 := match x with Some _ => emit ESummary s1 | None => s1 end).
  assert (M : (match x with Some _ => seq (at_point e PSummary) (fun s => (emit ESummary s, None)) s1 | None => (s1, None) end) = (s2, None)).
  { destruct x; [|reflexivity]. unfold s2, seq, at_point. rewrite summary_ok. reflexivity. }
  unfold seq at 1. rewrite M.
  assert (I1 : Inv (a_stack s1) s1 /\ a_trace s1 = a_trace s).
  { destruct x as [x|]; [|auto]. unfold s1, note_exception. rewrite report_ok. destruct x; simpl; split; auto. }
  destruct I1 as [I1 T1].
  assert (I2 : Inv (a_stack s2) s2).
  { unfold s2. destruct x; auto. apply Inv_emit; auto; discriminate. }
  assert (I3 : Inv (a_stack s2) (set_stack [] s2)) by exact I2.
  destruct (Inv_unwind _ _ I3) as (s3 & U & I4 & _ & _ & _ & T3).
  unfold seq at 1. rewrite U. unfold seq, at_point. destruct (raises e PQuit) eqn:Q.
  - eexists _, _. split; [reflexivity|]. split; auto. intros; discriminate.
  - eexists _, _. split; [reflexivity|]. split; [apply Inv_emit; auto; discriminate|].
    intros _. split; auto. intros NQ. exists (a_trace s3). split; auto. intros J.
    apply T3 in J; [|discriminate]. simpl in J. unfold s2 in J. destruct x; simpl in J; rewrite ?T1 in J; intuition discriminate.
Qed.

Hypothesis emit_ok : raises e PEmitFailed = None.

Lemma Inv_body s s' x : Inv (a_stack s) s -> body e s = (s', x) -> Inv (a_stack s') s'.
Proof.
  intros I. unfold body.
  assert (J : Inv (a_stack s) (emit EBody (match sets e with Some c => set_code c s | None => s end))).
  { apply Inv_emit; try discriminate. destruct (sets e); auto. }
  remember (emit EBody (match sets e with Some c => set_code c s | None => s end)) as s1 eqn:E1.
  assert (A : a_stack s1 = a_stack s) by (subst s1; destruct (sets e); auto).
  destruct (if child e then None else raises e PFinally); [intros E; inversion E; subst; rewrite A; auto|].
  destruct (raises e PBody); [intros E; inversion E; subst; rewrite A; auto|].
  intros E; inversion E. destruct (a_code s1) as [|[| |]|]; try (rewrite A; exact J).
  destruct (success e); simpl; rewrite A; exact J.
Qed.

(** ** All that is acquired is released, in reverse order, and the SIGTERM handler is
    put back, however far the run comes *)
Theorem C76_released_partial :
  let r := slash_run e prev (init prev) in
  held (trace_of r) = Some [] /\ a_sigterm (fst r) = prev.
Proof.
  cbv zeta. unfold slash_run, app_enter.
  assert (I : Inv (a_stack (init prev)) (init prev)) by (split; simpl; auto).
  assert (K : forall s' : state, Inv [] s' -> held (rev (a_trace s')) = Some [] /\ a_sigterm s' = prev)
    by (intros s' [A [B|B]]; [destruct B|auto]).
  assert (W : forall s' y, Inv [] s' ->
     let r := match (s', y) with
              | (s', None) => (s', Returned)
              | (s', Some (XError _ as x)) => match a_code s' with CInt 0%Z => (s', AssertionFailed) | _ => (s', Returned) end
              | (s', Some x) => (s', Raised x) end in
     held (trace_of r) = Some [] /\ a_sigterm (fst r) = prev).
  { intros s' y J. apply K in J. unfold trace_of. destruct y as [[]|]; simpl; auto.
    destruct (a_code s') as [|[]|]; simpl; auto. }
  destruct (enter_steps e (init prev)) as [s1 x] eqn:E. apply (Inv_steps _ _ _ I) in E.
  destruct x as [x|].
  - unfold seq at 1, at_point. rewrite emit_ok. destruct (Inv_app_exit (Some x) s1 E) as (s2 & y & F & J & _).
    unfold seq. rewrite F. destruct y as [y|]; [exact (W s2 (Some y) J)|exact (W s2 (Some x) J)].
  - destruct (body e s1) as [s2 x] eqn:B. apply (Inv_body _ _ _ E) in B.
    destruct (Inv_app_exit x s2 B) as (s3 & y & -> & J & _). exact (W s3 y J).
Qed.

(** the trace of __enter__ and of the body has no EQuit *)
Lemma steps_quit s s' x : ~ In EQuit (a_trace s) -> enter_steps e s = (s', x) -> ~ In EQuit (a_trace s').
Proof.
  intros I H. unfold enter_steps in H.
  assert (A : forall r t t' y, ~ In EQuit (a_trace t) -> acquire e r t = (t', y) -> ~ In EQuit (a_trace t')).
  { intros r t t' y N. unfold acquire. destruct (raises e (PEnter r)); intros E; inversion E; subst; auto.
    destruct r; simpl; intuition discriminate. }
  repeat (revert H; apply (seq_ok _ _ _ _ _ (fun s => ~ In EQuit (a_trace s)));
    [intros s1 x1;
     first [ unfold at_point; intros E; inversion E; subst; exact I
           | unfold enter_context, enter_session, seq at 1; intros E;
             repeat match type of E with context [seq] => unfold seq at 1 in E end;
             destruct (acquire e _ s) as [t1 [|]] eqn:A1; apply (A _ _ _ _ I) in A1; [inversion E; subst; auto|];
             try (destruct (acquire e _ t1) as [t2 [|]] eqn:A2; apply (A _ _ _ _ A1) in A2; [inversion E; subst; auto|];
                  destruct (acquire e _ t2) as [t3 [|]] eqn:A3; apply (A _ _ _ _ A2) in A3; [inversion E; subst; auto|]);
             inversion E; subst; auto ]|];
    clear dependent s; clear s' x; intros s s' x I H).
  unfold at_point in H. inversion H; subst. auto.
Qed.

(** ** The app_quit hook is called once, at the very end *)
Theorem C76_quit_partial :
  raises e PQuit = None ->
  exists t, trace_of (slash_run e prev (init prev)) = t ++ [EQuit] /\ ~ In EQuit t.
Proof.
  intros Q. unfold slash_run, app_enter.
  assert (I : Inv (a_stack (init prev)) (init prev)) by (split; simpl; auto).
  assert (W : forall s' y t, a_trace s' = EQuit :: t -> ~ In EQuit t ->
     let r := match (s', y) with
              | (s', None) => (s', Returned)
              | (s', Some (XError _ as x)) => match a_code s' with CInt 0%Z => (s', AssertionFailed) | _ => (s', Returned) end
              | (s', Some x) => (s', Raised x) end in
     exists t, trace_of r = t ++ [EQuit] /\ ~ In EQuit t).
  { intros s' y t A B. exists (rev t). split; [|rewrite <- in_rev; auto]. unfold trace_of.
    replace (t ++ [EQuit]) with (t ++ [EQuit]) by auto.
    destruct y as [[]|]; simpl; rewrite ?A; simpl; auto. destruct (a_code s') as [|[]|]; simpl; rewrite A; auto. }
  destruct (enter_steps e (init prev)) as [s1 x] eqn:E. assert (E' := E). apply (Inv_steps _ _ _ I) in E.
  apply steps_quit in E'; [|simpl; tauto].
  destruct x as [x|].
  - unfold seq at 1, at_point. rewrite emit_ok. destruct (Inv_app_exit (Some x) s1 E) as (s2 & y & F & J & G).
    destruct (G Q) as [-> G']. destruct (G' E') as (t & T1 & T2). unfold seq. rewrite F. exact (W s2 (Some x) t T1 T2).
  - destruct (body e s1) as [s2 x] eqn:B. assert (B' := B). apply (Inv_body _ _ _ E) in B.
    destruct (Inv_app_exit x s2 B) as (s3 & y & -> & J & G).
    destruct (G Q) as [-> G']. destruct G' as (t & T1 & T2); [|exact (W s3 None t T1 T2)].
    clear - B' E'. unfold body in B'.
    remember (emit EBody (match sets e with Some c => set_code c s1 | None => s1 end)) as s eqn:Es.
    assert (N : ~ In EQuit (a_trace s)) by (subst s; destruct (sets e); simpl; intuition discriminate).
    destruct (if child e then None else raises e PFinally); [inversion B'; subst; auto|].
    destruct (raises e PBody); [inversion B'; subst; auto|].
    inversion B'. destruct (a_code s) as [|[]|]; auto. destruct (success e); auto.
Qed.
End P.

(** the result_summary hook raises when an exception left the tests: nothing is released,
    and SIGTERM remains with a handler of a session that is over *)
Definition e_summary : env :=
  mkEnv (fun p => match p with PBody => Some XInterrupt | PSummary => Some (XError false) | _ => None end) None true false.

Theorem C76_released_refuted : exists e prev,
  (forall r, raises e (PLeave r) = None) /\ (forall r, raises e (PEnter r) = None) /\
  let r := slash_run e prev (init prev) in
  held (trace_of r) <> Some [] /\ a_sigterm (fst r) <> prev /\ ~ In EQuit (trace_of r).
Proof.
  exists e_summary, 5. split; [auto|]. split; [auto|]. vm_compute. split; [discriminate|]. split; [discriminate|].
  intuition discriminate.
Qed.

(** the log file of the session cannot be opened: the context pushed for the session is
    never popped *)
Theorem C76_activation_refuted : exists e prev,
  (forall p x, raises e p = Some x -> p = PEnter RSessionLogs) /\
  let t := trace_of (slash_run e prev (init prev)) in
  In (EAcquire RContext) t /\ ~ In (ERelease RContext) t.
Proof.
  exists (mkEnv (fun p => match p with PEnter RSessionLogs => Some (XError false) | _ => None end) None true false), 5.
  split; [|vm_compute; intuition discriminate].
  intros p x. destruct p as [r| | | | | | | | | | | |r| |]; simpl; try discriminate. destruct r; simpl; try discriminate; auto.
Qed.

(** ** When releasing some resource fails, the contexts entered before it are exited all
    the same *)
Lemma emit_mono v s w : In w (a_trace s) -> In w (a_trace (emit v s)).
Proof. simpl; auto. Qed.

Lemma release_trace e prev r s s' x v : release e prev r s = (s', x) -> In v (a_trace s) -> In v (a_trace s').
Proof.
  unfold release. destruct (raises e (PLeave r)); intros E; inversion E; subst; auto. destruct r; simpl; auto.
Qed.

Lemma exit_trace e prev r s s' x v : exit_context e prev r s = (s', x) -> In v (a_trace s) -> In v (a_trace s').
Proof.
  intros H I. destruct r; try (eapply release_trace; eassumption).
  unfold exit_context, seq in H.
  destruct (release e prev RSessionWarnings s) as [s1 [|]] eqn:A; apply (fun H => release_trace _ _ _ _ _ _ v H I) in A;
    [inversion H; subst; auto|].
  destruct (release e prev RSessionLogs s1) as [s2 [|]] eqn:B; apply (fun H => release_trace _ _ _ _ _ _ v H A) in B;
    [inversion H; subst; auto|].
  eapply release_trace; eassumption.
Qed.

Lemma unwind_trace e prev l : forall p s s' x v, unwind e prev l p s = (s', x) -> In v (a_trace s) -> In v (a_trace s').
Proof.
  induction l as [|r l IH]; simpl; intros p s s' x v H I; [inversion H; subst; auto|].
  destruct (exit_context e prev r s) as [s1 [y|]] eqn:E; apply (fun H => exit_trace _ _ _ _ _ _ v H I) in E; eauto.
Qed.

Theorem C76_unwind_all e prev : forall l p s s' x r,
  unwind e prev l p s = (s', x) -> In r l -> (forall q, In q (holds r) -> raises e (PLeave q) = None) ->
  forall q, In q (holds r) -> In (ERelease q) (a_trace s').
Proof.
  induction l as [|r0 l IH]; simpl; intros p s s' x r H I L q J; [destruct I|].
  destruct (exit_context e prev r0 s) as [s1 y] eqn:E.
  assert (H' : exists p', unwind e prev l p' s1 = (s', x)) by (destruct y; eauto). destruct H' as [p' H'].
  destruct I as [->|I]; [|eapply IH; eauto]. eapply unwind_trace; [exact H'|].
  destruct r; simpl in *; unfold seq, release in E;
    repeat match goal with K : forall _, _ -> raises e _ = None |- _ =>
      first [rewrite (K RSessionWarnings) in E by auto; rewrite (K RSessionLogs) in E by auto; rewrite (K RContext) in E by auto
            |rewrite (K _ (or_introl eq_refl)) in E]; clear K end;
    inversion E; subst; simpl; intuition (subst; auto).
Qed.

(** a run in which loading the tests fails: the hypotheses of C76 are met *)
Example C76_ex :
  let e := mkEnv (fun p => match p with PBody => Some (XError true) | PDebug => Some (XError false) | _ => None end) None true false in
  raises e (PEnter RSessionLogs) = None /\ (forall r, raises e (PLeave r) = None) /\ raises e PSummary = None
  /\ (forall x, raises e PDebug = Some x -> exists b, x = XError b)
  /\ trace_of (slash_run e 5 (init 5)) =
     [EAcquire RPreludeLogs; EAcquire RPreludeWarnings; EAcquire RSigterm; EAcquire RConfig; EAcquire RContext;
      EAcquire RSessionLogs; EAcquire RSessionWarnings; EBody; ESummary; ERelease RSessionWarnings;
      ERelease RSessionLogs; ERelease RContext; ERelease RConfig; ERelease RSigterm; ERelease RPreludeWarnings;
      ERelease RPreludeLogs; EQuit].
Proof.
  cbv zeta. split; [reflexivity|]. split; [reflexivity|]. split; [reflexivity|]. split; [|reflexivity].
  simpl. intros x E. inversion E. eauto.
Qed.

(** * C77: the exit status of the process *)

(** points that are passed even by a run in which nothing goes wrong *)
Definition always_passed (e : env) (p : point) : Prop :=
  match p with
  | PEmitFailed | PDebug | PReport | PSummary => False
  | PFinally => child e = false
  | _ => True
  end.

Section Q.
Variable e : env.
Variable prev : nat.
Hypothesis no_exit : forall p c, raises e p <> Some (XExit c).
Hypothesis codes : forall c, sets e = Some c -> status_of c = 0%Z -> c = CInt 0.

Definition nonzero (c : code) : Prop := status_of c <> 0%Z.

Lemma seq_cases a b s s' x : seq a b s = (s', x) -> (a s = (s', x) /\ x <> None) \/ exists s1, a s = (s1, None) /\ b s1 = (s', x).
Proof.
  unfold seq. destruct (a s) as [s1 [y|]]; intros E; [left; inversion E; subst; split; auto; discriminate|right; eauto].
Qed.

(** the exit code after __exit__ for an exception that is no SystemExit *)
Lemma app_exit_code x s s' y : app_exit e prev (Some x) s = (s', y) -> (forall c, x <> XExit c) ->
  a_code s' = CInt 1 \/ exists z, y = Some z /\ (forall c, z <> XExit c) /\ (forall b, z <> XError b).
Proof.
  intros H N. unfold app_exit in H.
  assert (R : forall r t t' w, release e prev r t = (t', w) -> a_code t' = a_code t).
  { intros r t t' w. unfold release. destruct (raises e (PLeave r)); intros E; inversion E; subst; auto. destruct r; auto. }
  assert (X : forall r t t' w, exit_context e prev r t = (t', w) -> a_code t' = a_code t).
  { intros r t t' w E. destruct r; try (eapply R; eassumption). unfold exit_context in E.
    apply seq_cases in E as [[E _]|(t1 & E1 & E)]; [eauto|].
    apply seq_cases in E as [[E _]|(t2 & E2 & E)]; [rewrite (R _ _ _ _ E); eauto|].
    rewrite (R _ _ _ _ E), (R _ _ _ _ E2); eauto. }
  assert (U : forall l p t t' w, unwind e prev l p t = (t', w) -> a_code t' = a_code t).
  { induction l as [|r l IH]; simpl; intros p t t' w E; [inversion E; auto|].
    destruct (exit_context e prev r t) as [t1 [z|]] eqn:F; apply X in F; rewrite (IH _ _ _ _ E); auto. }
  apply seq_cases in H as [[H F]|(s1 & H1 & H)].
  - right. destruct (raises e PDebug) as [z|] eqn:D; [|inversion H; subst; destruct F; auto].
    destruct z; inversion H; subst; try (destruct F; auto; fail).
    + exists XInterrupt. repeat split; discriminate.
    + destruct (no_exit PDebug c); auto.
    + exists XBase. repeat split; discriminate.
  - clear H1. 
    apply seq_cases in H as [[H F]|(s2 & H2 & H)].
    + unfold note_exception in H. destruct x; try (inversion H; subst; destruct F; auto; fail).
      destruct (raises e PReport) as [z|]; inversion H; subst; auto.
    + assert (C2 : a_code s2 = CInt 1).
      { unfold note_exception in H2. destruct x; try (inversion H2; subst; auto; fail).
        - destruct (raises e PReport); inversion H2; subst; auto.
        - destruct (N c); auto. }
      clear H2. left.
      apply seq_cases in H as [[H F]|(s3 & H3 & H)].
      * unfold at_point in H. apply seq_cases in H as [[H G]|(t & H & G)]; inversion H; subst; [auto|inversion G; subst; auto].
      * assert (C3 : a_code s3 = CInt 1).
        { apply seq_cases in H3 as [[H3 G]|(t & H3 & G)]; inversion H3; subst; [auto|inversion G; subst; auto]. }
        apply seq_cases in H as [[H F]|(s4 & H4 & H)].
        -- apply U in H. rewrite H. auto.
        -- apply U in H4. apply seq_cases in H as [[H F]|(s5 & H5 & H)].
           ++ inversion H; subst. simpl in H4. congruence.
           ++ inversion H5; subst. inversion H; subst. simpl in *. congruence.
Qed.

(** only what is raised at a point comes out of __exit__ *)
Lemma app_exit_raises x s s' y : app_exit e prev x s = (s', Some y) -> exists p, raises e p = Some y.
Proof.
  intros H. unfold app_exit in H.
  assert (R : forall r t t' w, release e prev r t = (t', Some w) -> exists p, raises e p = Some w).
  { intros r t t' w. unfold release. destruct (raises e (PLeave r)) eqn:D; intros E; inversion E; subst; eauto. }
  assert (X : forall r t t' w, exit_context e prev r t = (t', Some w) -> exists p, raises e p = Some w).
  { intros r t t' w E. destruct r; try (eapply R; eassumption). unfold exit_context in E.
    apply seq_cases in E as [[E _]|(t1 & E1 & E)]; [eauto|].
    apply seq_cases in E as [[E _]|(t2 & E2 & E)]; eauto. }
  assert (U : forall l p t t' w, unwind e prev l p t = (t', Some w) -> p = Some w \/ exists q, raises e q = Some w).
  { induction l as [|r l IH]; simpl; intros p t t' w E; [inversion E; auto|].
    destruct (exit_context e prev r t) as [t1 [z|]] eqn:F.
    - destruct (IH _ _ _ _ E) as [Q|Q]; auto. inversion Q; subst. right. eauto.
    - eauto. }
  apply seq_cases in H as [[H _]|(s1 & _ & H)].
  - destruct (raises e PDebug) as [z|] eqn:D; [|inversion H]. destruct z; inversion H; subst; eauto.
  - apply seq_cases in H as [[H _]|(s2 & _ & H)].
    + destruct x as [x|]; [|inversion H]. unfold note_exception in H. destruct x; try (inversion H; fail).
      destruct (raises e PReport) eqn:D; inversion H; subst; eauto.
    + apply seq_cases in H as [[H _]|(s3 & _ & H)].
      * destruct x; [|inversion H]. apply seq_cases in H as [[H _]|(t & H & G)]; [unfold at_point in H; inversion H; eauto|inversion G].
      * apply seq_cases in H as [[H _]|(s4 & _ & H)].
        -- apply U in H as [H|H]; [discriminate|auto].
        -- apply seq_cases in H as [[H _]|(s5 & _ & H)]; [unfold at_point in H; inversion H; eauto|inversion H].
Qed.

(** and without an exception all points on the way are passed *)
Lemma unwind_none l : forall p s s', unwind e prev l p s = (s', None) ->
  p = None /\ forall r q, In r l -> In q (holds r) -> raises e (PLeave q) = None.
Proof.
  induction l as [|r l IH]; simpl; intros p s s' H; [inversion H; subst; split; auto; contradiction|].
  destruct (exit_context e prev r s) as [s1 y] eqn:E.
  destruct y as [y|]; apply IH in H as [A B]; [discriminate|]. split; auto.
  intros r' q [<-|I] J; [|eauto]. clear - E J.
  destruct r; simpl in *; unfold seq, release in E;
    repeat match type of E with context [raises e ?p] => let D := fresh in destruct (raises e p) eqn:D; [inversion E; fail|] end;
    intuition subst; auto.
Qed.

Lemma app_exit_ok s s' : app_exit e prev None s = (s', None) ->
  a_code s' = a_code s /\ raises e PQuit = None /\
  forall r q, In r (a_stack s) -> In q (holds r) -> raises e (PLeave q) = None.
Proof.
  assert (R : forall r t t' w, release e prev r t = (t', w) -> a_code t' = a_code t).
  { intros r t t' w. unfold release. destruct (raises e (PLeave r)); intros E; inversion E; subst; auto. destruct r; auto. }
  assert (X : forall r t t' w, exit_context e prev r t = (t', w) -> a_code t' = a_code t).
  { intros r t t' w E. destruct r; try (eapply R; eassumption). unfold exit_context in E.
    apply seq_cases in E as [[E _]|(t1 & E1 & E)]; [eauto|].
    apply seq_cases in E as [[E _]|(t2 & E2 & E)]; [rewrite (R _ _ _ _ E); eauto|].
    rewrite (R _ _ _ _ E), (R _ _ _ _ E2); eauto. }
  assert (U : forall l p t t' w, unwind e prev l p t = (t', w) -> a_code t' = a_code t).
  { induction l as [|r l IH]; simpl; intros p t t' w E; [inversion E; auto|].
    destruct (exit_context e prev r t) as [t1 [z|]] eqn:F; apply X in F; rewrite (IH _ _ _ _ E); auto. }
  intros H. unfold app_exit in H.
  apply seq_cases in H as [[_ F]|(s1 & H1 & H)]; [destruct F; auto|].
  assert (s1 = s) by (destruct (raises e PDebug) as [[]|]; inversion H1; auto). subst s1.
  apply seq_cases in H as [[_ F]|(s2 & H2 & H)]; [destruct F; auto|]. inversion H2; subst s2.
  apply seq_cases in H as [[_ F]|(s3 & H3 & H)]; [destruct F; auto|]. inversion H3; subst s3.
  apply seq_cases in H as [[_ F]|(s4 & H4 & H)]; [destruct F; auto|].
  apply seq_cases in H as [[_ F]|(s5 & H5 & H)]; [destruct F; auto|].
  unfold at_point in H5. injection H5 as E5 Q5. subst s5. inversion H; subst s'. clear H.
  split; [exact (U _ _ _ _ _ H4)|]. split; auto. intros r q J J2. exact (proj2 (unwind_none _ _ _ _ H4) r q J J2).
Qed.

(** what __enter__ does when nothing is raised *)
Lemma enter_ok s1 : enter_steps e (init prev) = (s1, None) ->
  a_stack s1 = [RContext; RConfig; RSigterm; RPreludeWarnings; RPreludeLogs] /\ a_code s1 = CInt 0
  /\ a_interrupted s1 = false
  /\ (forall r, raises e (PEnter r) = None) /\ raises e PSite = None /\ raises e PParse = None /\ raises e PSession = None
  /\ raises e PPlugins = None /\ raises e PEmit = None /\ raises e PEmitWarnings = None.
Proof.
  unfold enter_steps, enter_context, enter_session, acquire, seq, at_point. intros E.
  repeat match type of E with context [raises e ?p] => let D := fresh in destruct (raises e p) eqn:D; [inversion E; fail|] end.
  inversion E; subst. simpl. repeat split; auto. intros []; auto.
Qed.

Lemma enter_fails s1 x : enter_steps e (init prev) = (s1, Some x) ->
  a_code s1 = CInt 0 /\ a_interrupted s1 = false /\ exists p, raises e p = Some x /\ always_passed e p.
Proof.
  unfold enter_steps, enter_context, enter_session, acquire, seq, at_point. intros E.
  repeat match type of E with context [raises e ?p] => let D := fresh in destruct (raises e p) eqn:D;
    [inversion E; subst; split; [reflexivity|split; [reflexivity|]]; eexists; split; [eassumption|exact Logic.I]|] end.
  inversion E.
Qed.

(** the last lines of slash_run *)
Lemma ending_zero s' y : process_status (match (s', y) with
              | (s', None) => (s', Returned)
              | (s', Some (XError _ as x)) => match a_code s' with CInt 0%Z => (s', AssertionFailed) | _ => (s', Returned) end
              | (s', Some x) => (s', Raised x) end) = 0%Z ->
     (forall c, y <> Some (XExit c)) ->
     status_of (a_code s') = 0%Z /\ (y = None \/ a_code s' <> CInt 0).
Proof.
  intros H N. destruct y as [[| | |]|]; simpl in H; try discriminate; auto.
  - destruct (a_code s') as [|[|z|z]|] eqn:A; simpl in H; try discriminate; rewrite ?A in H;
      (split; [exact H|right; discriminate]).
  - exfalso. eapply N. reflexivity.
Qed.

(** ** Every status 0 is that of a run in which nothing was raised and the results are a
    success *)
Theorem C77_zero_partial :
  process_status (slash_run e prev (init prev)) = 0%Z ->
  success e = true /\ (forall p, always_passed e p -> raises e p = None).
Proof.
  unfold slash_run, app_enter.
  assert (Z1 : status_of (CInt 1) <> 0%Z) by (vm_compute; discriminate).
  assert (NO : forall p y, raises e p = Some y -> forall c, Some y <> Some (XExit c)).
  { intros p y R c Q. inversion Q; subst. eapply no_exit; eauto. }
  destruct (enter_steps e (init prev)) as [s1 x] eqn:E.
  destruct x as [x|].
  - (* __enter__ fails *)
    intros H. exfalso. destruct (enter_fails _ _ E) as (C1 & _ & px & Rx & _).
    assert (NX : forall c, x <> XExit c) by (intros c ->; eapply no_exit; eauto).
    destruct (seq (at_point e PEmitFailed) (seq (app_exit e prev (Some x)) (fun s => (s, Some x))) s1) as [s2 y] eqn:F.
    apply seq_cases in F as [[F NN]|(t & F1 & F)].
    + unfold at_point in F. inversion F; subst s2. destruct y as [y|]; [|destruct NN; auto].
      destruct (ending_zero s1 (Some y) H) as [_ [A|A]]; try congruence; eauto.
    + unfold at_point in F1. inversion F1; subst t.
      apply seq_cases in F as [[F NN]|(t & F2 & F)].
      * destruct y as [y|]; [|destruct NN; auto]. destruct (app_exit_raises _ _ _ _ F) as [py Ry].
        destruct (ending_zero s2 (Some y) H) as [A' [?|B]]; try discriminate; eauto.
        destruct (app_exit_code x s1 s2 _ F NX) as [A|(z & Q & B' & C)]; [rewrite A in A'; auto|].
        inversion Q; subst z. destruct y; simpl in H; try discriminate; [destruct (C inhibit); auto|destruct (B' c); auto].
      * inversion F; subst s2 y. destruct (app_exit_code x s1 t None F2 NX) as [A|(z & B & _)]; [|discriminate].
        destruct (ending_zero t (Some x) H) as [A' _]; eauto. rewrite A in A'. auto.
  - (* the body *)
    destruct (enter_ok _ E) as (ST & C1 & _ & R1 & R2 & R3 & R4 & R5 & R6 & R7).
    destruct (body e s1) as [s2 x] eqn:B. destruct (app_exit e prev x s2) as [s3 y] eqn:F. intros H.
    assert (NY : forall c, y <> Some (XExit c)).
    { destruct y as [y|]; [|discriminate]. destruct (app_exit_raises _ _ _ _ F) as [py Ry]. eauto. }
    destruct x as [x|].
    + exfalso.
      assert (NX : forall c, x <> XExit c).
      { intros c ->. unfold body in B. destruct (if child e then None else raises e PFinally) as [z|] eqn:D.
        - destruct (child e); [discriminate|]. inversion B; subst. eapply no_exit; eauto.
        - destruct (raises e PBody) eqn:D'; inversion B; subst. eapply no_exit; eauto. }
      destruct (app_exit_code x s2 s3 _ F NX) as [A|(z & -> & B' & C)].
      * destruct (ending_zero s3 y H NY) as [A' _]. rewrite A in A'. auto.
      * destruct z; simpl in H; try discriminate; [destruct (C inhibit); auto|destruct (B' c); auto].
    + (* the body ends normally *)
      destruct (ending_zero s3 y H NY) as [ZC FC].
      assert (BD : raises e PBody = None /\ (child e = false -> raises e PFinally = None) /\ a_stack s2 = a_stack s1
                   /\ (status_of (a_code s2) = 0%Z -> success e = true /\ a_code s2 = CInt 0)).
      { unfold body in B. destruct (if child e then None else raises e PFinally) as [z|] eqn:D; [inversion B|].
        destruct (raises e PBody) eqn:D'; [inversion B|].
        split; auto. split; [intros Q; rewrite Q in D; auto|].
        set (s0 := emit EBody (match sets e with Some c => set_code c s1 | None => s1 end)) in *.
        assert (S0 : a_stack s0 = a_stack s1) by (unfold s0; destruct (sets e); auto).
        assert (C0 : status_of (a_code s0) = 0%Z -> a_code s0 = CInt 0).
        { unfold s0. destruct (sets e) as [c|] eqn:SC; simpl; [intros Q; exact (codes c eq_refl Q)|auto]. }
        clearbody s0. split.
        - inversion B. destruct (a_code s0) as [|[]|]; auto. destruct (success e); auto.
        - inversion B as [B0]. destruct (a_code s0) as [|[|z|z]|] eqn:AC; simpl; intros Q.
          + rewrite AC in Q. specialize (C0 Q). discriminate.
          + destruct (success e) eqn:SU; auto. simpl in Q. discriminate.
          + rewrite AC in Q. specialize (C0 Q). discriminate.
          + rewrite AC in Q. specialize (C0 Q). discriminate.
          + rewrite AC in Q. discriminate. }
      destruct BD as (B1 & B2 & B3 & B4).
      assert (CE : a_code s3 = a_code s2).
      { clear - F.
        assert (R : forall r t t' w, release e prev r t = (t', w) -> a_code t' = a_code t).
        { intros r t t' w. unfold release. destruct (raises e (PLeave r)); intros E; inversion E; subst; auto. destruct r; auto. }
        assert (X : forall r t t' w, exit_context e prev r t = (t', w) -> a_code t' = a_code t).
        { intros r t t' w E. destruct r; try (eapply R; eassumption). unfold exit_context in E.
          apply seq_cases in E as [[E _]|(t1 & E1 & E)]; [eauto|].
          apply seq_cases in E as [[E _]|(t2 & E2 & E)]; [rewrite (R _ _ _ _ E); eauto|].
          rewrite (R _ _ _ _ E), (R _ _ _ _ E2); eauto. }
        assert (U : forall l p t t' w, unwind e prev l p t = (t', w) -> a_code t' = a_code t).
        { induction l as [|r l IH]; simpl; intros p t t' w E; [inversion E; auto|].
          destruct (exit_context e prev r t) as [t1 [z|]] eqn:F0; apply X in F0; rewrite (IH _ _ _ _ E); auto. }
        unfold app_exit in F.
        apply seq_cases in F as [[F _]|(t1 & F1 & F)]; [destruct (raises e PDebug) as [[]|]; inversion F; auto|].
        assert (t1 = s2) by (destruct (raises e PDebug) as [[]|]; inversion F1; auto). subst t1.
        apply seq_cases in F as [[F G]|(t2 & F2 & F)]; [inversion F; auto|]. inversion F2; subst t2.
        apply seq_cases in F as [[F G]|(t3 & F3 & F)]; [inversion F; auto|]. inversion F3; subst t3.
        apply seq_cases in F as [[F G]|(t4 & F4 & F)]; [exact (U _ _ _ _ _ F)|]. apply U in F4. simpl in F4.
        apply seq_cases in F as [[F G]|(t5 & F5 & F)]; [inversion F; subst; auto|].
        inversion F5; subst. inversion F; subst. auto. }
      rewrite CE in ZC, FC. destruct (B4 ZC) as [SU C0]. split; auto.
      destruct y as [y|]; [destruct FC; [discriminate|congruence]|].
      destruct (app_exit_ok _ _ F) as (_ & Q1 & Q2). rewrite B3, ST in Q2.
      intros p P. destruct p; simpl in P; try contradiction; auto.
      destruct r; [eapply (Q2 RPreludeLogs)|eapply (Q2 RPreludeWarnings)|eapply (Q2 RSigterm)|eapply (Q2 RConfig)
        |eapply (Q2 RContext)|eapply (Q2 RContext)|eapply (Q2 RContext)]; simpl; auto 8.
Qed.
End Q.

(** and such a run has status 0 *)
Theorem C77_success e prev : (forall p, always_passed e p -> raises e p = None) -> raises e PDebug = None ->
  success e = true -> sets e = None ->
  process_status (slash_run e prev (init prev)) = 0%Z /\ a_interrupted (fst (slash_run e prev (init prev))) = false.
Proof.
  intros R D S N.
  assert (E : exists s1, enter_steps e (init prev) = (s1, None)
     /\ a_stack s1 = [RContext; RConfig; RSigterm; RPreludeWarnings; RPreludeLogs] /\ a_code s1 = CInt 0 /\ a_interrupted s1 = false).
  { eexists. split; [|split; [|split]].
    - unfold enter_steps, enter_context, enter_session, acquire, seq, at_point.
      repeat match goal with |- context [raises e ?p] => rewrite (R p Logic.I) end. reflexivity.
    - reflexivity.
    - reflexivity.
    - reflexivity. }
  destruct E as (s1 & E & ST & C & I). unfold slash_run, app_enter. rewrite E.
  unfold body. rewrite N, S, (R PBody Logic.I).
  assert (F : (if child e then None else raises e PFinally) = None) by (destruct (child e) eqn:K; auto; apply R; auto).
  rewrite F. simpl. rewrite C. unfold app_exit, seq. rewrite D. simpl. rewrite ST.
  unfold unwind, exit_context, seq, release, at_point.
  repeat match goal with |- context [raises e ?p] => rewrite (R p Logic.I) end. simpl.
  rewrite C. auto.
Qed.

(** A SystemExit that leaves the body, when nothing else is raised, decides the status of the process, whatever the results and set_exit_code:
    0 without a code, 1 for a message, and a number up to a multiple of 256 *)
Theorem C77_exit e prev c : raises e PBody = Some (XExit c) -> (forall p, p <> PBody -> raises e p = None) ->
  (c = CNone -> process_status (slash_run e prev (init prev)) = 0%Z) /\
  (c = CText -> process_status (slash_run e prev (init prev)) = 1%Z) /\
  (forall z, c = CInt z -> (0 <= process_status (slash_run e prev (init prev)) < 256)%Z /\
     exists k, z = (process_status (slash_run e prev (init prev)) + 256 * k)%Z) /\
  a_interrupted (fst (slash_run e prev (init prev))) = false.
Proof.
  intros B R.
  assert (E : exists s1, enter_steps e (init prev) = (s1, None)
     /\ a_stack s1 = [RContext; RConfig; RSigterm; RPreludeWarnings; RPreludeLogs] /\ a_interrupted s1 = false).
  { eexists. split; [|split].
    - unfold enter_steps, enter_context, enter_session, acquire, seq, at_point.
      repeat match goal with |- context [raises e ?p] => rewrite (R p) by discriminate end. reflexivity.
    - reflexivity.
    - reflexivity. }
  destruct E as (s1 & E & ST & I).
  assert (P : exists s2, slash_run e prev (init prev) = (s2, Returned) /\ a_code s2 = c /\ a_interrupted s2 = false).
  { unfold slash_run, app_enter. rewrite E. unfold body. rewrite B, (R PFinally) by discriminate.
    assert (F : (if child e then @None exn else None) = None) by (destruct (child e); reflexivity). rewrite F.
    set (s3 := emit EBody (match sets e with Some c0 => set_code c0 s1 | None => s1 end)).
    assert (ST3 : a_stack s3 = a_stack s1) by (unfold s3; destruct (sets e); reflexivity).
    assert (I3 : a_interrupted s3 = false) by (unfold s3; destruct (sets e); exact I).
    clearbody s3. unfold app_exit, seq, note_exception. rewrite (R PDebug) by discriminate. cbn [set_code a_stack at_point].
    unfold at_point. rewrite (R PSummary) by discriminate. cbn [emit a_stack set_code]. rewrite ST3, ST.
    unfold unwind, exit_context, seq, release, at_point.
    repeat match goal with |- context [raises e ?p] => rewrite (R p) by discriminate end. cbn. eexists. split; [reflexivity|]. auto. }
  destruct P as (s2 & -> & C & I2). cbn [process_status fst]. rewrite C. repeat split; auto.
  - intros ->. reflexivity.
  - intros ->. reflexivity.
  - rewrite H. apply Z.mod_pos_bound. reflexivity.
  - rewrite H. apply Z.mod_pos_bound. reflexivity.
  - exists (z / 256)%Z. rewrite H. cbn [status_of]. rewrite Z.add_comm. apply Z.div_mod. discriminate.
Qed.

Example C77_exit_ex : let e := mkEnv (fun p => match p with PBody => Some (XExit (CInt 259)) | _ => None end) (Some (CInt 9)) false false in
  (forall p, p <> PBody -> raises e p = None) /\ process_status (slash_run e 5 (init 5)) = 3%Z.
Proof. split; [|reflexivity]. intros p N. destruct p; auto. destruct N; auto. Qed.

(** A SystemExit (of a hook, a site file, or a test) decides the status alone: results
    that are no success, and the status 0 *)
Theorem C77_zero_refuted : exists e prev,
  process_status (slash_run e prev (init prev)) = 0%Z /\ success e = false /\ raises e PBody = Some (XExit CNone)
  /\ sets e = None /\ forall p, p <> PBody -> raises e p = None.
Proof.
  exists (mkEnv (fun p => match p with PBody => Some (XExit CNone) | _ => None end) None false false), 5.
  split; [reflexivity|]. split; [reflexivity|]. split; [reflexivity|]. split; [reflexivity|].
  intros p N. destruct p; auto. destruct N; auto.
Qed.

(** so does an exit code set by a plugin, of which only eight bits survive *)
Theorem C77_set_refuted : exists e prev,
  process_status (slash_run e prev (init prev)) = 0%Z /\ success e = false /\ sets e = Some (CInt 256)
  /\ forall p, raises e p = None.
Proof.
  exists (mkEnv (fun _ => None) (Some (CInt 256)) false false), 5. auto.
Qed.

(** ** app.interrupted *)
Theorem C77_interrupted_partial e prev :
  (forall r, raises e (PEnter r) = None) -> raises e PSite = None -> raises e PParse = None ->
  raises e PSession = None -> raises e PPlugins = None -> raises e PEmit = None -> raises e PEmitWarnings = None ->
  raises e PFinally = None -> raises e PDebug = None ->
  (a_interrupted (fst (slash_run e prev (init prev))) = true <-> raises e PBody = Some XInterrupt).
Proof.
  intros A1 A2 A3 A4 A5 A6 A7 FI D.
  assert (E : exists s1, enter_steps e (init prev) = (s1, None) /\ a_interrupted s1 = false).
  { eexists. split; [|].
    - unfold enter_steps, enter_context, enter_session, acquire, seq, at_point.
      rewrite ?A1, A2, A3, A4, A5, A6, A7. rewrite ?A1. reflexivity.
    - reflexivity. }
  destruct E as (s1 & E & I). unfold slash_run, app_enter. rewrite E.
  assert (R : forall r t t' w, release e prev r t = (t', w) -> a_interrupted t' = a_interrupted t).
  { intros r t t' w. unfold release. destruct (raises e (PLeave r)); intros Q; inversion Q; subst; auto. destruct r; auto. }
  assert (X : forall r t t' w, exit_context e prev r t = (t', w) -> a_interrupted t' = a_interrupted t).
  { intros r t t' w Q. destruct r; try (eapply R; eassumption). unfold exit_context in Q.
    apply seq_cases in Q as [[Q _]|(t1 & Q1 & Q)]; [eauto|].
    apply seq_cases in Q as [[Q _]|(t2 & Q2 & Q)]; [rewrite (R _ _ _ _ Q); eauto|].
    rewrite (R _ _ _ _ Q), (R _ _ _ _ Q2); eauto. }
  assert (U : forall l p t t' w, unwind e prev l p t = (t', w) -> a_interrupted t' = a_interrupted t).
  { induction l as [|r l IH]; simpl; intros p t t' w Q; [inversion Q; auto|].
    destruct (exit_context e prev r t) as [t1 [z|]] eqn:F; apply X in F; rewrite (IH _ _ _ _ Q); auto. }
  destruct (body e s1) as [s2 x] eqn:B.
  assert (B' : x = raises e PBody /\ a_interrupted s2 = false).
  { unfold body in B. replace (if child e then None else raises e PFinally) with (@None exn) in B by (destruct (child e); auto).
    set (s0 := emit EBody (match sets e with Some c => set_code c s1 | None => s1 end)) in *.
    assert (I0 : a_interrupted s0 = false) by (unfold s0; destruct (sets e); auto). clearbody s0.
    destruct (raises e PBody); inversion B; subst; auto. split; auto.
    destruct (a_code s0) as [|[]|]; auto. destruct (success e); auto. }
  destruct B' as [-> I2]. destruct (app_exit e prev (raises e PBody) s2) as [s3 y] eqn:F.
  assert (G : a_interrupted s3 = true <-> raises e PBody = Some XInterrupt).
  { unfold app_exit in F.
    apply seq_cases in F as [[F W]|(t1 & F1 & F)]; [rewrite D in F; inversion F; subst; destruct W; auto|].
    rewrite D in F1. inversion F1; subst t1. clear F1.
    assert (N : forall t w, (match raises e PBody with Some x => note_exception e x s2 | None => (s2, None) end) = (t, w) ->
       (a_interrupted t = true <-> raises e PBody = Some XInterrupt)).
    { intros t w Q. destruct (raises e PBody) as [x|].
      - unfold note_exception in Q. destruct x; try (inversion Q; subst; simpl; rewrite ?I2; split; intros; congruence).
        destruct (raises e PReport); inversion Q; subst; simpl; rewrite ?I2; split; intros; congruence.
      - inversion Q; subst. rewrite I2. split; discriminate. }
    apply seq_cases in F as [[F W]|(t2 & F2 & F)]; [eauto|]. apply N in F2. rewrite <- F2. clear F2 N.
    enough (a_interrupted s3 = a_interrupted t2) by (rewrite H; tauto).
    apply seq_cases in F as [[F W]|(t3 & F3 & F)].
    { destruct (raises e PBody); [|inversion F; auto]. 
      apply seq_cases in F as [[F _]|(t & F & G)]; unfold at_point in F; inversion F; subst; auto. inversion G; subst; auto. }
    assert (K3 : a_interrupted t3 = a_interrupted t2).
    { destruct (raises e PBody); [|inversion F3; auto]. 
      apply seq_cases in F3 as [[F3 _]|(t & F3 & G)]; unfold at_point in F3; inversion F3; subst; auto. inversion G; subst; auto. }
    apply seq_cases in F as [[F W]|(t4 & F4 & F)]; [apply U in F; simpl in F; congruence|].
    apply U in F4. simpl in F4.
    apply seq_cases in F as [[F W]|(t5 & F5 & F)]; [inversion F; subst; congruence|].
    inversion F5; subst. inversion F; subst. simpl. congruence. }
  destruct y as [[]|]; simpl; auto. destruct (a_code s3) as [|[]|]; simpl; auto.
Qed.

(** saving the state for resuming fails after an interruption: not known as interrupted *)
Theorem C77_interrupted_refuted : exists e prev,
  raises e PBody = Some XInterrupt /\ (forall p, p <> PBody -> p <> PFinally -> raises e p = None)
  /\ a_interrupted (fst (slash_run e prev (init prev))) = false.
Proof.
  exists (mkEnv (fun p => match p with PBody => Some XInterrupt | PFinally => Some (XError false) | _ => None end) None true false), 5.
  split; [reflexivity|]. split; [|reflexivity]. intros p A B. destruct p; auto; contradiction.
Qed.

(** an app_quit hook that raises after a successful run makes an assertion fail in
    slash_run *)
Theorem C77_assertion_refuted : exists e prev,
  (forall p x, raises e p = Some x -> p = PQuit) /\ success e = true
  /\ snd (slash_run e prev (init prev)) = AssertionFailed.
Proof.
  exists (mkEnv (fun p => match p with PQuit => Some (XError false) | _ => None end) None true false), 5.
  split; [|auto]. intros p x H. destruct p; simpl in H; try discriminate; auto.
Qed.

(** the hypotheses of C77 are met by a worker that fails, whose status is then 1 *)
Example C77_ex :
  let e := mkEnv (fun p => match p with PBody => Some (XError false) | PLeave RConfig => Some XInterrupt | _ => None end)
                 (Some (CInt 7)) true true in
  (forall p c, raises e p <> Some (XExit c)) /\ (forall c, sets e = Some c -> status_of c = 0%Z -> c = CInt 0)
  /\ process_status (slash_run e 5 (init 5)) = 1%Z.
Proof.
  cbv zeta. split; [|split; [|reflexivity]].
  - intros p c. destruct p as [[]| | | | | | | | | | | |[]| |]; simpl; discriminate.
  - intros c H. inversion H. vm_compute. discriminate.
Qed.

Print Assumptions C76_released_partial.
Print Assumptions C76_quit_partial.
Print Assumptions C76_unwind_all.
Print Assumptions C76_released_refuted.
Print Assumptions C76_activation_refuted.
Print Assumptions C77_zero_partial.
Print Assumptions C77_success.
Print Assumptions C77_exit.
Print Assumptions C77_zero_refuted.
Print Assumptions C77_set_refuted.
Print Assumptions C77_interrupted_partial.
Print Assumptions C77_interrupted_refuted.
Print Assumptions C77_assertion_refuted.
