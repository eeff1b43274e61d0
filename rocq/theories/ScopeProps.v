(** Scope endings: properties C04, C05, C07. *)

From Coq Require Import List Bool Arith PeanoNat Lia.
From Verif Require Import Events Core CoreSpec CoreBase Records SessionSim CleanupTrace CleanupProps RecordProps Broken Reject.
Import ListNotations.

(** The handlers of before_test_cleanups (slash fires it before the cleanups of
    a test scope) do not raise. *)
Definition quiet_before_test_cleanups (E : env) : Prop :=
  forall t s, snd (exec E (e_hook E HBeforeTestCleanups t) s) = ONormal.

(** An ordinary exception: an Exception that is not a skip. *)
Definition ordinary (E : env) (k : ekind) : Prop :=
  isinstance k TException = true /\ forall t, In t (TSkip :: e_skips E) -> isinstance k t = false.

(** ** C04 *)

(** While scope [sid] is being closed (events [m]) cleanups raise only ordinary
    exceptions.  Then the closing ends normally, ... *)
Theorem C04_closing_ends_normally : forall E ts p sid nm f i m nm' ok t,
  quiet_before_test_cleanups E ->
  session_trace E ts = p ++ EvPopBegin sid nm f i :: m ++ EvPopEnd sid nm' ok :: t ->
  (forall cid x k, In (EvRaised cid x k) m -> ordinary E k) ->
  ok = true.
Proof.
  intros E ts p sid nm f i m nm' ok t Hq Htr Hord. destruct ok; auto. exfalso.
  pose proof (session_brk E Hq ts) as HB.
  destruct (HB (p ++ EvPopBegin sid nm f i :: m) sid nm' t) as (p1 & f1 & i1 & m1 & Heq & cid & x & k & Hin & Hsp).
  { rewrite Htr, <- app_assoc. reflexivity. }
  assert (Hm : m1 = m).
  { pose proof (session_accepted E ts) as Hacc. fold (session_trace E ts) in Hacc. rewrite Htr in Hacc.
    assert (Hacc' : accepted (p ++ EvPopBegin sid nm f i :: m)).
    { apply (accepted_app _ (EvPopEnd sid nm' false :: t)). rewrite <- app_assoc. exact Hacc. }
    destruct (lt_eq_lt_dec (length p) (length p1)) as [[Hl|Hl]|Hl].
    - exfalso. (* second begin inside m *)
      assert (exists b, p1 = p ++ EvPopBegin sid nm f i :: b) as [b Hb].
      { clear - Heq Hl. revert p1 Heq Hl. induction p as [|a p IH]; intros p1 Heq Hl; destruct p1 as [|a1 p1]; simpl in *; try lia.
        - inversion Heq; subst. eexists; reflexivity.
        - inversion Heq; subst. destruct (IH p1) as [b ->]; auto; [lia|]. eexists; reflexivity. }
      rewrite Hb, <- app_assoc in Heq. rewrite Heq in Hacc'. eapply popbegin_once. exact Hacc'.
    - assert (p = p1 /\ EvPopBegin sid nm f i :: m = EvPopBegin sid nm' f1 i1 :: m1) as [_ K].
      { clear - Heq Hl. revert p1 Heq Hl. induction p as [|a p IH]; intros p1 Heq Hl; destruct p1 as [|a1 p1]; simpl in *; try lia; auto.
        injection Heq as -> Heq. destruct (IH p1) as [-> ->]; auto. }
      congruence.
    - exfalso.
      assert (exists b, p = p1 ++ EvPopBegin sid nm' f1 i1 :: b) as [b Hb].
      { clear - Heq Hl. revert p1 Heq Hl. induction p as [|a p IH]; intros p1 Heq Hl; destruct p1 as [|a1 p1]; simpl in *; try lia.
        - inversion Heq; subst. eexists; reflexivity.
        - inversion Heq; subst. destruct (IH p1) as [b ->]; auto; [lia|]. eexists; reflexivity. }
      rewrite Hb, <- app_assoc in Hacc'. eapply popbegin_once. exact Hacc'. }
  subst m1. destruct (Hord cid x k Hin) as [O1 O2]. destruct Hsp as [Hsp|Hsp]; [congruence|].
  apply existsb_exists in Hsp as [t' [T1 T2]]. rewrite O2 in T2; [discriminate|auto].
Qed.

(** ... every cleanup of the scope that the decision table of C03 selects runs,
    exactly as if none had raised, ... *)
Theorem C04_the_rest_still_runs : forall E ts p sid nm f i m nm' ok t cid req tgt crit succ r,
  quiet_before_test_cleanups E ->
  session_trace E ts = p ++ EvPopBegin sid nm f i :: m ++ EvPopEnd sid nm' ok :: t ->
  (forall c x k, In (EvRaised c x k) m -> ordinary E k) ->
  In (EvAdd cid req tgt crit succ r) (session_trace E ts) ->
  belongs cid sid (session_trace E ts) ->
  (In (EvRun cid) (session_trace E ts) <->
   (if i then crit = true else if f then succ = false else True)).
Proof.
  intros E ts p sid nm f i m nm' ok t cid req tgt crit succ r Hq Htr Hord Ha Hb.
  assert (ok = true) by (eapply C04_closing_ends_normally; eauto). subst ok.
  eapply (C03_decision_table E ts cid req tgt crit succ r sid nm f i nm'); auto; rewrite Htr.
  - apply in_or_app. right. left. reflexivity.
  - apply in_or_app. right. right. apply in_or_app. right. left. reflexivity.
Qed.

(** ... and each exception object raised is recorded exactly once; if it had not
    been recorded before, as an error or failure on the result that was current
    when the raising cleanup was registered. *)
Theorem C04_each_exception_recorded_once : forall E ts p1 cid x k t1,
  session_trace E ts = p1 ++ EvRaised cid x k :: t1 ->
  ordinary E k ->
  (exists a r kd f b, session_trace E ts = a ++ EvRecord r kd (Some x) f :: b /\ ~ In x (sources a) /\ ~ In x (sources b)) /\
  (~ In x (sources p1) ->
   exists req tgt crit succ r kd f t2,
     In (EvAdd cid req tgt crit succ r) p1 /\
     t1 = EvRecord r kd (Some x) f :: t2 /\ (kd = RKError \/ kd = RKFailure)).
Proof.
  intros E ts p1 cid x k t1 Htr [O1 O2].
  destruct (C58_recorded_where_registered E ts p1 cid x k t1 Htr O1) as (req & tgt & crit & succ & r & Ha & Hor).
  pose proof (C12_recorded_at_most_once E ts) as Hnd.
  split.
  - assert (Hin : In x (sources (session_trace E ts))).
    { rewrite Htr. unfold sources. rewrite flat_map_app. apply in_or_app. destruct Hor as [H|(f & t' & ->)]; [left; exact H|right].
      simpl. left; reflexivity. }
    clear - Hin Hnd. unfold sources in Hin. apply in_flat_map in Hin as [e [He Hx]].
    destruct e; try (destruct Hx; fail). destruct src as [y|]; [|destruct Hx]. destruct Hx as [->|[]].
    apply in_split in He as (a & b & Hab). exists a, r, k, fatal, b. split; auto.
    rewrite Hab in Hnd. unfold sources in Hnd. rewrite flat_map_app in Hnd. simpl in Hnd. apply NoDup_remove_2 in Hnd.
    split; intros H; apply Hnd; apply in_or_app; auto.
  - intros Hni. destruct Hor as [H|(f & t' & Ht)]; [contradiction|].
    exists req, tgt, crit, succ, r, (prescribed (e_skips E) k), f, t'. split; auto. split; auto.
    assert (Hs : isinstance_any k (TSkip :: e_skips E) = false).
    { apply not_true_iff_false. intros H. apply existsb_exists in H as [t0 [T1 T2]]. rewrite O2 in T2; auto; discriminate. }
    unfold prescribed. rewrite Hs. destruct k; auto; discriminate.
Qed.

(** (used by the examples) *)
Definition ordinaryb (E : env) (k : ekind) : bool :=
  isinstance k TException && negb (isinstance_any k (TSkip :: e_skips E)).

Lemma ordinary_check E m :
  forallb (fun e => match e with EvRaised _ _ k => ordinaryb E k | _ => true end) m = true ->
  forall cid x k, In (EvRaised cid x k) m -> ordinary E k.
Proof.
  intros H cid x k Hin. rewrite forallb_forall in H. specialize (H _ Hin). simpl in H.
  unfold ordinaryb in H. apply andb_true_iff in H as [H1 H2]. split; auto. intros t Ht.
  apply negb_true_iff in H2. apply not_true_iff_false. intros H3. rewrite <- not_true_iff_false in H2. apply H2.
  apply existsb_exists. eauto.
Qed.

(** Three test cleanups: the newest two raise; all three run. *)
Definition ex04 : test :=
  mkTest 7 (Some 1) 1 PDone 0 false
    (PAdd SDefault false false (PEmit 10 PDone)
    (PAdd SDefault false false (PRaise KAssertion false)
    (PAdd SDefault true false (PRaise (KUser 5) true) PDone))).

Example C04_hypotheses_met :
  quiet_before_test_cleanups env0 /\ runs (session_trace env0 [ex04]) = [2; 1; 0] /\
  exists p m t, session_trace env0 [ex04] = p ++ EvPopBegin 3 STest false false :: m ++ EvPopEnd 3 STest true :: t /\
    (forall cid x k, In (EvRaised cid x k) m -> ordinary env0 k) /\
    In (EvRaised 2 (XFresh 0) (KUser 5)) m /\ In (EvRaised 1 (XFresh 1) KAssertion) m.
Proof.
  split; [intros t s; reflexivity|]. split; [vm_compute; reflexivity|].
  exists (firstn 13 (session_trace env0 [ex04])), (firstn 11 (skipn 14 (session_trace env0 [ex04]))), (skipn 26 (session_trace env0 [ex04])).
  split; [vm_compute; reflexivity|]. split; [|split; in_dec].
  apply ordinary_check. vm_compute. reflexivity.
Qed.

(** ** C05 *)

(** Full statement: forall E ts cid req tgt succ r sid nm nm' ok,
      In (EvAdd cid req tgt true succ r) tr -> belongs cid sid tr ->
      In (EvPopBegin sid nm f i) tr -> In (EvPopEnd sid nm' ok) tr -> In (EvRun cid) tr.
    It is false: a newer cleanup of the scope raising SkipTest breaks the
    closing off. *)
Definition ex05 (k : ekind) : test :=
  mkTest 7 (Some 1) 1 PDone 0 false
    (PAdd SDefault true false (PEmit 10 PDone)
    (PAdd SDefault false false (PRaise k false) PDone)).

Theorem C05_critical_always_run_refuted : exists E ts cid req tgt succ r sid nm f i ok,
  In (EvAdd cid req tgt true succ r) (session_trace E ts) /\ belongs cid sid (session_trace E ts) /\
  In (EvPopBegin sid nm f i) (session_trace E ts) /\ In (EvPopEnd sid nm ok) (session_trace E ts) /\
  ~ In (EvRun cid) (session_trace E ts).
Proof.
  exists env0, [ex05 KSkip]. do 10 eexists. split; [|split; [|split; [|split]]].
  - in_dec.
  - left. do 4 eexists. in_dec.
  - in_dec.
  - in_dec.
  - vm_compute. intros H. repeat (destruct H as [H|H]; [discriminate H|]). destruct H.
Qed.

(** Same with a KeyboardInterrupt hitting the newer cleanup. *)
Theorem C05_interrupted_cleanup_refuted : exists E ts cid req tgt succ r sid nm f i ok,
  In (EvAdd cid req tgt true succ r) (session_trace E ts) /\ belongs cid sid (session_trace E ts) /\
  In (EvPopBegin sid nm f i) (session_trace E ts) /\ In (EvPopEnd sid nm ok) (session_trace E ts) /\
  ~ In (EvRun cid) (session_trace E ts).
Proof.
  exists env0, [ex05 KKeyboard]. do 10 eexists. split; [|split; [|split; [|split]]].
  - in_dec.
  - left. do 4 eexists. in_dec.
  - in_dec.
  - in_dec.
  - vm_compute. intros H. repeat (destruct H as [H|H]; [discriminate H|]). destruct H.
Qed.

(** What holds: critical cleanups run, whatever the state of the test, if no
    cleanup called at that scope end lets a skip or a non-Exception escape.
    Missing: closings broken off by such exceptions (see the refutations). *)
Theorem C05_critical_run_partial : forall E ts p sid nm f i m nm' ok t cid req tgt succ r,
  quiet_before_test_cleanups E ->
  session_trace E ts = p ++ EvPopBegin sid nm f i :: m ++ EvPopEnd sid nm' ok :: t ->
  (forall c x k, In (EvRaised c x k) m -> ordinary E k) ->
  In (EvAdd cid req tgt true succ r) (session_trace E ts) ->
  belongs cid sid (session_trace E ts) ->
  In (EvRun cid) (session_trace E ts).
Proof.
  intros E ts p sid nm f i m nm' ok t cid req tgt succ r Hq Htr Hord Ha Hb.
  apply (C04_the_rest_still_runs E ts p sid nm f i m nm' ok t cid req tgt true succ r); auto.
  destruct i; auto. destruct f; auto.
  (* critical and success_only exclude each other *)
  destruct succ; auto. exfalso. pose proof (session_accepted E ts) as Hacc. fold (session_trace E ts) in Hacc.
  apply in_split in Ha as (a & b & Hab). rewrite Hab in Hacc. destruct Hacc as [q Hacc].
  apply spec_run_split in Hacc as (q1 & _ & Hacc). cbn [spec_run spec_step andb] in Hacc. rewrite orb_true_r in Hacc. discriminate.
Qed.

(** An interrupted test: of its two cleanups only the critical one runs. *)
Definition ex05b : test :=
  mkTest 7 (Some 1) 1 PDone 0 false
    (PAdd SDefault true false (PEmit 10 PDone)
    (PAdd SDefault false false (PEmit 11 PDone) (PRaise KKeyboard false))).

Example C05_hypotheses_met :
  runs (session_trace env0 [ex05b]) = [0] /\
  exists p m t, session_trace env0 [ex05b] = p ++ EvPopBegin 3 STest true true :: m ++ EvPopEnd 3 STest true :: t /\
    (forall cid x k, In (EvRaised cid x k) m -> ordinary env0 k) /\ In (EvRun 0) m.
Proof.
  split; [vm_compute; reflexivity|].
  exists (firstn 15 (session_trace env0 [ex05b])), (firstn 3 (skipn 16 (session_trace env0 [ex05b]))), (skipn 20 (session_trace env0 [ex05b])).
  split; [vm_compute; reflexivity|]. split; [|in_dec].
  apply ordinary_check. vm_compute. reflexivity.
Qed.

(** ** C07 *)

(** add_cleanup with a scope name that no open scope has: it raises (and by
    C06 registers nothing, since a registration always goes to an open scope of
    that name): IncorrectScope if no scope of that name was ever opened in the
    session, IndexError otherwise.  Missing for the property: IncorrectScope in
    both cases.  (AssertionError is the refusal of critical together with
    success_only.) *)
Theorem C07_rejected_partial : forall E ts p n k t,
  session_trace E ts = p ++ EvReject (Some n) k :: t ->
  k <> KAssertion ->
  (forall sid, ~ In (sid, n) (open_scopes p)) /\
  ((forall sid, ~ In (EvPush sid n) p) -> k = KIncorrectScope) /\
  ((exists sid, In (EvPush sid n) p) -> k = KIndexError).
Proof.
  intros E ts p n k t Htr Hk. destruct (session_rej E ts _ _ _ _ Htr) as [H|[H1 H2]]; [contradiction|].
  split; [|split].
  - intros sid Hin. unfold innermost in H1. destruct (find _ (open_scopes p)) as [q|] eqn:Ef; [discriminate|].
    eapply find_none in Ef; [|exact Hin]. simpl in Ef. rewrite sname_eqb_refl in Ef. discriminate.
  - intros H. destruct (pushed n p) eqn:Ep; auto. apply pushed_In in Ep as [sid Hs]. exfalso; eapply H; eauto.
  - intros H. apply pushed_In in H. rewrite H in H2. auto.
Qed.

(** A session cleanup naming scope 'test' runs after the test scope is closed:
    IndexError instead of IncorrectScope. *)
Definition ex07 : test :=
  mkTest 7 (Some 1) 1 PDone 0 false
    (PAdd (SGiven (Some SSession)) false false (PAdd (SGiven (Some STest)) false false PDone PDone) PDone).

Theorem C07_incorrect_scope_refuted : exists E ts p n k t,
  session_trace E ts = p ++ EvReject (Some n) k :: t /\
  (forall sid, ~ In (sid, n) (open_scopes p)) /\ k <> KIncorrectScope /\ k <> KAssertion.
Proof.
  exists env0, [ex07], (firstn 23 (session_trace env0 [ex07])), STest, KIndexError, (skipn 24 (session_trace env0 [ex07])).
  split; [vm_compute; reflexivity|]. split; [|split; discriminate].
  vm_compute. intros sid H. repeat (destruct H as [H|H]; [discriminate H|]). destruct H.
Qed.

(** A hook running before any test names scope 'module'. *)
Definition env07 : env :=
  mkEnv (fun h _ => match h with HSessionStart => PCatch [TSlash] (PAdd (SGiven (Some SModule)) false false PDone PDone) PDone | _ => PDone end)
    (fun n => (KUser n, false)) [] false false 0 (fun _ _ => false).

Example C07_hypotheses_met :
  exists p t, session_trace env07 [ex07] = p ++ EvReject (Some SModule) KIncorrectScope :: t /\ open_scopes p = [(0, SSessionGlobal)].
Proof. exists (firstn 3 (session_trace env07 [ex07])), (skipn 4 (session_trace env07 [ex07])). vm_compute. auto. Qed.

Print Assumptions C04_closing_ends_normally.
Print Assumptions C04_the_rest_still_runs.
Print Assumptions C04_each_exception_recorded_once.
Print Assumptions C05_critical_run_partial.
Print Assumptions C05_critical_always_run_refuted.
Print Assumptions C05_interrupted_cleanup_refuted.
Print Assumptions C07_rejected_partial.
Print Assumptions C07_incorrect_scope_refuted.
