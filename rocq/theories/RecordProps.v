(** Properties C12, C13, C58: how exceptions become results. *)

From Coq Require Import List Bool Arith PeanoNat Lia.
From Verif Require Import Events Core CoreSpec CoreBase Frame Records CleanupProps.
Import ListNotations.

(** ** C12 *)

(** No exception object is given to results more than once in a session,
    whatever handling blocks and cleanup wrappers it passes through. *)
Theorem C12_recorded_at_most_once : forall E ts, NoDup (sources (session_trace E ts)).
Proof. intros E ts. apply (w_nodup _ _ _ (session_records E ts)). Qed.

(** An exception that reaches a handling block (not passing its type through)
    has already been recorded, or is recorded right there: on the current
    result, as the kind its class prescribes. *)
Theorem C12_recorded_by_type : forall E ts p x k f r t,
  session_trace E ts = p ++ EvHandle x k f r :: t ->
  In x (sources p) \/ exists t', t = EvRecord r (prescribed (e_skips E) k) (Some x) f :: t'.
Proof. intros E ts p x k f r t H. apply (w_mark _ _ _ (session_records E ts) _ _ _ H). Qed.

(** The entries of a test's result are exactly the records made on it, in
    order; it is marked interrupted iff an interruption was recorded on it. *)
Theorem C12_results_are_the_records : forall E ts t r,
  lookup t (st_results (fst (run_session E ts))) = Some r ->
  map (fun e => (n_src e, n_fatal e)) (r_errors r) = recorded (RTest t) RKError (session_trace E ts) /\
  map (fun e => (n_src e, n_fatal e)) (r_failures r) = recorded (RTest t) RKFailure (session_trace E ts) /\
  map (fun e => (n_src e, n_fatal e)) (r_skips r) = recorded (RTest t) RKSkip (session_trace E ts) /\
  (r_interrupted r = true <-> recorded (RTest t) RKInterrupt (session_trace E ts) <> []).
Proof.
  intros E ts t r H. destruct (w_res _ _ _ (session_records E ts) t r H) as [[A B C] I].
  repeat split; auto; unfold session_trace; rewrite I;
    destruct (recorded (RTest t) RKInterrupt (st_trace (fst (run_session E ts)))); simpl; congruence.
Qed.

(** Same for the global result; an interruption recorded on any result also
    marks the global one. *)
Theorem C12_global_result_is_the_records : forall E ts,
  let g := st_global (fst (run_session E ts)) in
  map (fun e => (n_src e, n_fatal e)) (r_errors g) = recorded RGlobal RKError (session_trace E ts) /\
  map (fun e => (n_src e, n_fatal e)) (r_failures g) = recorded RGlobal RKFailure (session_trace E ts) /\
  map (fun e => (n_src e, n_fatal e)) (r_skips g) = recorded RGlobal RKSkip (session_trace E ts) /\
  (r_interrupted g = true <-> exists r src f, In (EvRecord r RKInterrupt src f) (session_trace E ts)).
Proof.
  intros E ts g. destruct (w_glob _ _ _ (session_records E ts)) as [A B C].
  repeat split; auto; apply (w_gintr _ _ _ (session_records E ts)).
Qed.

(** A body raising a stored exception object through three nested handling
    blocks, caught, then raised again from a cleanup. *)
Definition ex12_test : test :=
  mkTest 3 (Some 1) 1 PDone 0 false
    (PAdd SDefault false false (PRaiseObj 4)
    (PCatch [TException] (PHandle h_plain (PHandle (mkH false [] [TAssertion]) (PHandle h_plain (PRaiseObj 4) PDone) PDone) PDone)
    (PRaise KAssertion true))).

Example C12_hypotheses_met :
  sources (session_trace env0 [ex12_test]) = [XObj 4; XFresh 0] /\
  length (filter (fun e => match e with EvHandle (XObj 4) _ _ _ => true | _ => false end) (session_trace env0 [ex12_test])) = 4 /\
  recorded (RTest 3) RKFailure (session_trace env0 [ex12_test]) = [(Some (XFresh 0), true)] /\
  recorded (RTest 3) RKError (session_trace env0 [ex12_test]) = [(Some (XObj 4), false)].
Proof. vm_compute. auto. Qed.

(** ** C13 *)

(** The swallowing rule. [a] is any block, [s] any state it is entered in. *)
Theorem C13_swallowed_iff : forall E h a s s1 x,
  a s = (s1, ORaise x) ->
  (snd (handling E h a s) = ONormal <->
   (forall t, In t (h_pass h) -> isinstance (x_kind x) t = false) /\
   isinstance (x_kind x) TSkip = false /\
   (forall t, In t (e_skips E) -> isinstance (x_kind x) t = false) /\
   x_kind x <> KKeyboard /\ x_kind x <> KTerminated /\
   ((exists t, In t (h_types h) /\ isinstance (x_kind x) t = true) \/
    (h_swallow h = true /\ isinstance (x_kind x) TException = true))).
Proof.
  intros E h a s s1 x Ha. unfold handling. rewrite Ha.
  assert (Hany : forall l, isinstance_any (x_kind x) l = false <-> forall t, In t l -> isinstance (x_kind x) t = false).
  { intros l. unfold isinstance_any. rewrite <- not_true_iff_false, existsb_exists. split.
    - intros H t Ht. apply not_true_iff_false. intros H'. apply H. eauto.
    - intros H [t [H1 H2]]. rewrite H in H2; auto. discriminate. }
  destruct (isinstance_any (x_kind x) (h_pass h)) eqn:Ep.
  { cbn [snd]. split; [discriminate|]. intros (Hp & _). apply Hany in Hp. congruence. }
  assert (Hp := proj1 (Hany _) Ep).
  unfold skip_types. change (isinstance_any (x_kind x) (TSkip :: e_skips E))
    with (isinstance (x_kind x) TSkip || isinstance_any (x_kind x) (e_skips E)).
  destruct (isinstance (x_kind x) TSkip) eqn:Es; cbn [orb snd].
  { split; [discriminate|]. intros (_ & H & _). discriminate. }
  destruct (isinstance_any (x_kind x) (e_skips E)) eqn:Er; cbn [orb snd].
  { split; [discriminate|]. intros (_ & _ & H & _). apply Hany in H. congruence. }
  assert (Hr := proj1 (Hany _) Er).
  destruct (isinstance_any (x_kind x) interruption_types) eqn:Ei; cbn [snd].
  { split; [discriminate|]. intros (_ & _ & _ & H1 & H2 & _). exfalso. destruct (x_kind x); simpl in Ei; try discriminate; auto. }
  set (sw := if h_swallow h then h_types h ++ [TException] else h_types h).
  assert (Hsw : isinstance_any (x_kind x) sw = true <->
     ((exists t, In t (h_types h) /\ isinstance (x_kind x) t = true) \/
      (h_swallow h = true /\ isinstance (x_kind x) TException = true))).
  { unfold isinstance_any. rewrite existsb_exists. unfold sw. destruct (h_swallow h).
    - split.
      + intros [t [H1 H2]]. apply in_app_or in H1 as [H1|[<-|[]]]; eauto.
      + intros [[t [H1 H2]]|[_ H]]; [exists t|exists TException]; split; auto; apply in_or_app; simpl; auto.
    - split; [eauto|]. intros [H|[H _]]; auto. discriminate. }
  destruct (isinstance_any (x_kind x) sw) eqn:Ew; cbn [snd].
  - split; auto. intros _. repeat split; auto; try (intros Hk; rewrite Hk in Ei; discriminate). apply Hsw; auto.
  - split; [discriminate|]. intros (_ & _ & _ & _ & _ & H). apply Hsw in H. discriminate.
Qed.

(** When not swallowed the same exception goes on; a passthrough type is not
    handled at all; without an exception the block does nothing. *)
Theorem C13_otherwise_propagates : forall E h a s s1 x,
  a s = (s1, ORaise x) -> snd (handling E h a s) <> ONormal -> snd (handling E h a s) = ORaise x.
Proof.
  intros E h a s s1 x Ha. unfold handling. rewrite Ha.
  repeat match goal with |- context[if ?b then _ else _] => destruct b end; cbn [snd]; auto; congruence.
Qed.

Theorem C13_passthrough_untouched : forall E h a s s1 x t,
  a s = (s1, ORaise x) -> In t (h_pass h) -> isinstance (x_kind x) t = true ->
  handling E h a s = (s1, ORaise x).
Proof.
  intros E h a s s1 x t Ha Ht Hi. unfold handling. rewrite Ha.
  replace (isinstance_any (x_kind x) (h_pass h)) with true; auto.
  symmetry. apply existsb_exists. eauto.
Qed.

Theorem C13_no_exception_no_effect : forall E h a s s1, a s = (s1, ONormal) -> handling E h a s = (s1, ONormal).
Proof. intros E h a s s1 H. unfold handling. rewrite H. reflexivity. Qed.

(** handling_exceptions(swallow=True) without further types lets
    KeyboardInterrupt, SystemExit and SkipTest through. *)
Theorem C13_swallow_true_never_swallows_partial : forall E h a s s1 x,
  h_types h = [] -> a s = (s1, ORaise x) ->
  x_kind x = KKeyboard \/ (exists c, x_kind x = KSysExit c) \/ x_kind x = KSkip ->
  snd (handling E h a s) = ORaise x.
Proof.
  intros E h a s s1 x Hh Ha Hk. apply (C13_otherwise_propagates E h a s s1 x Ha).
  rewrite (C13_swallowed_iff E h a s s1 x Ha), Hh. intros (_ & H1 & _ & H2 & _ & H3).
  destruct Hk as [Hk|[[c Hk]|Hk]]; rewrite Hk in *; simpl in *; [congruence| |discriminate].
  destruct H3 as [[t [[] _]]|[_ H]]. discriminate.
Qed.

(** The documented claim without that restriction is false: with
    swallow_types=(BaseException,) a SystemExit is swallowed. *)
Theorem C13_documented_refuted : exists E h a s s1 x,
  a s = (s1, ORaise x) /\ (exists c, x_kind x = KSysExit c) /\ snd (handling E h a s) = ONormal.
Proof.
  exists env0, (mkH false [TBaseException] []), (raise_new (KSysExit 3) false), state0.
  do 2 eexists. split; [reflexivity|]. split; [eexists; reflexivity|]. vm_compute. reflexivity.
Qed.

Example C13_hypotheses_met :
  raise_new (KSysExit 2) false state0 = (set_nx 1 state0, ORaise (mkExn (XFresh 0) (KSysExit 2) false)) /\
  snd (handling env0 h_swallowing (raise_new (KSysExit 2) false) state0) = ORaise (mkExn (XFresh 0) (KSysExit 2) false) /\
  snd (handling env0 h_swallowing (raise_new (KUser 2) false) state0) = ONormal /\
  handling env0 (mkH true [] [TUser 2]) (raise_new (KUser 2) false) state0
    = (set_nx 1 state0, ORaise (mkExn (XFresh 0) (KUser 2) false)).
Proof. vm_compute. auto. Qed.

(** ** C58 *)

(** An Exception leaving a cleanup had been recorded before, or is recorded
    right there on the result that was current when the cleanup was added. *)
Theorem C58_recorded_where_registered : forall E ts p cid x k t,
  session_trace E ts = p ++ EvRaised cid x k :: t ->
  isinstance k TException = true ->
  exists req tgt crit succ r, In (EvAdd cid req tgt crit succ r) p /\
    (In x (sources p) \/ exists f t', t = EvRecord r (prescribed (e_skips E) k) (Some x) f :: t').
Proof. intros E ts p cid x k t H Hk. apply (w_mark _ _ _ (session_records E ts) _ _ _ H Hk). Qed.

(** Two tests; the first registers a session cleanup that raises when the
    session ends, during the second test. *)
Definition ex58 : list test :=
  [mkTest 1 (Some 1) 1 PDone 0 false (PAdd (SGiven (Some SSession)) false false (PRaise (KUser 3) false) PDone);
   mkTest 2 (Some 2) 2 PDone 0 false PDone].

Example C58_hypotheses_met :
  exists p t, session_trace env0 ex58 = p ++ EvRaised 0 (XFresh 0) (KUser 3) :: t /\
    In (EvAdd 0 (Some SSession) (Some 1) false false (RTest 1)) p /\
    t <> [] /\ In (EvReportStart 2) p.
Proof.
  exists (firstn 39 (session_trace env0 ex58)), (skipn 40 (session_trace env0 ex58)).
  vm_compute. repeat split; try discriminate; repeat (first [left; reflexivity | right]).
Qed.

Print Assumptions C12_recorded_at_most_once.
Print Assumptions C12_recorded_by_type.
Print Assumptions C12_results_are_the_records.
Print Assumptions C12_global_result_is_the_records.
Print Assumptions C13_swallowed_iff.
Print Assumptions C13_otherwise_propagates.
Print Assumptions C13_passthrough_untouched.
Print Assumptions C13_no_exception_no_effect.
Print Assumptions C13_swallow_true_never_swallows_partial.
Print Assumptions C13_documented_refuted.
Print Assumptions C58_recorded_where_registered.
