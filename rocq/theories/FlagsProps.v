(** C03, C05: what a closing scope takes for a failure and for an interruption; C29: which fixtures it takes down
    (core/cleanup_manager.py:114-140, runner.py:90-127, 218-251, core/result.py:182-187, 311-318, 374-379,
    core/scope_manager.py:57-70, core/fixtures/fixture_store.py:200-209). *)

From Coq Require Import List Bool Arith.
From Verif Require Import Events Core CleanupProps FixOrder Flags.
Import ListNotations.

(** A scope that closes between a test's test_start and its test_end is told of a failure exactly if an error, a failure
    or an interruption of that very test has been recorded, and of an interruption exactly if one of the test has been.
    Between tests it is told about the whole session: of a failure whenever anything bad has been recorded on any result,
    and otherwise only if some test has not reached its test_start; of an interruption exactly if any was recorded.
    With a test that has not reached its test_start it is told one or the other. *)
Theorem C03_flags : forall E ts p sid nm f i t,
  session_trace E ts = p ++ EvPopBegin sid nm f i :: t ->
  match place_of p with
  | Running u => test_flags u p f i
  | Pending u => test_flags u p f i \/ session_flags (map t_id ts) p f i
  | Idle => session_flags (map t_id ts) p f i
  end.
Proof.
  intros E ts p sid nm f i t H.
  exact (proj2 (proj1 (G_session E (map t_id ts) ts (incl_refl _)) p _ t H)).
Qed.
Print Assumptions C03_flags.

(** A failing test and a passing one of the same module: the first test's scope is told, the second's is not, and the module
    and the session, which close after them, are. *)
Definition exf1 : test := mkTest 7 (Some 1) 1 PDone 0 false (PRaise KAssertion false).
Definition exf2 : test := mkTest 8 (Some 1) 1 PDone 0 false (PEmit 1 PDone).

Definition pops (tr : list event) : list (sname * bool * bool * place) :=
  snd (fold_left (fun a e => (fst a ++ [e], match e with EvPopBegin _ n f i => snd a ++ [(n, f, i, place_of (fst a))] | _ => snd a end))
         tr ([], [])).

Example C03_flags_case :
  pops (session_trace env0 [exf1; exf2]) =
  [(STest, true, false, Running 7); (STest, false, false, Running 8);
   (SModule, true, false, Idle); (SSession, true, false, Idle); (SSessionGlobal, true, false, Idle)].
Proof. vm_compute. reflexivity. Qed.

(** An interrupted test, then nothing more: everything that closes is told of the interruption. *)
Definition exf3 : test := mkTest 7 (Some 1) 1 PDone 0 false (PRaise KKeyboard false).
Example C03_flags_interrupted :
  pops (session_trace env0 [exf3; exf2]) =
  [(STest, true, true, Running 7); (SModule, true, true, Idle); (SSession, true, true, Idle); (SSessionGlobal, true, true, Idle)].
Proof. vm_compute. reflexivity. Qed.

(** a test of which the requirements are interrupted never starts: the session is asked *)
Definition exf4 : test := mkTest 8 (Some 1) 1 (PRaise KKeyboard false) 0 false PDone.
Example C03_flags_pending :
  pops (session_trace env0 [exf1; exf4]) =
  [(STest, true, false, Running 7); (SModule, true, true, Pending 8); (SSession, true, true, Pending 8);
   (SSessionGlobal, true, true, Pending 8)].
Proof. vm_compute. reflexivity. Qed.

(** ** Fixtures end with their scope *)

(** When a scope has been torn down without an exception, and what is going on has not been interrupted (the running
    test, or between tests any), every fixture of a level that ends with that scope and that was activated before the
    scope's cleanups were done is down. *)
Theorem C29_session_torn : forall E ts p0 sid m b p1 n t,
  session_trace E ts = (p0 ++ EvPopEnd sid m b :: p1) ++ EvTeardown n true :: t ->
  (forall sid' m' b', ~ In (EvPopEnd sid' m' b') p1) ->
  calm (p0 ++ EvPopEnd sid m b :: p1) ->
  m = n /\ forall fid l, In (EvFixUp fid l) p0 -> covers n l -> In (EvFixDown fid) (p0 ++ EvPopEnd sid m b :: p1).
Proof.
  intros E ts p0 sid m b p1 n t H N C.
  destruct (proj1 (G_session E (map t_id ts) ts (incl_refl _)) _ _ t H) as [_ Q].
  exact (Q eq_refl C p0 sid m b p1 eq_refl N).
Qed.
Print Assumptions C29_session_torn.

Lemma split_teardown t : (exists t0 n ok t1, t = t0 ++ EvTeardown n ok :: t1 /\ forall n ok, ~ In (EvTeardown n ok) t0)
  \/ forall n ok, ~ In (EvTeardown n ok) t.
Proof.
  induction t as [|e t IH]; [right; intros n ok []|].
  assert (Q : (exists n ok, e = EvTeardown n ok) \/ forall n ok, e <> EvTeardown n ok).
  { destruct e; ((right; discriminate) || (left; eauto; fail)). }
  destruct Q as [(n & ok & ->)|Q].
  { left. exists [], n, ok, t. split; auto. }
  destruct IH as [(t0 & n & ok & t1 & -> & N)|IH].
  - left. exists (e :: t0), n, ok, t1. split; auto. intros n' ok' [X|X]; [exact (Q _ _ X)|exact (N _ _ X)].
  - right. intros n ok [X|X]; [exact (Q _ _ X)|exact (IH _ _ X)].
Qed.
Lemma downs_keep fid t0 : (forall n ok, ~ In (EvTeardown n ok) t0) -> forall p, In fid (downs p) -> In fid (downs (p ++ t0)).
Proof.
  intros N. induction t0 as [|e t0 IH]; intros p H; [rewrite app_nil_r; auto|].
  change (e :: t0) with ([e] ++ t0). rewrite app_assoc. apply IH.
  - intros n ok X. apply (N n ok). right; auto.
  - rewrite downs_snoc. destruct e; cbn; auto. exfalso. eapply N. left; reflexivity.
Qed.

(** And a fixture is taken down only while such a scope is: after the scope's cleanups, with nothing opened, closed or
    cleaned up until the scope's fixtures are done. *)
Theorem C29_session_within : forall E ts p fid t l,
  session_trace E ts = p ++ EvFixDown fid :: t -> In (EvFixUp fid l) p ->
  exists t0 n ok t1, t = t0 ++ EvTeardown n ok :: t1 /\ covers n l /\
    forall e, In e t0 -> match e with
                         | EvPush _ _ | EvPopBegin _ _ _ _ | EvRun _ | EvPopEnd _ _ _ | EvTeardown _ _ => False
                         | _ => True
                         end.
Proof.
  intros E ts p fid t l H Hu. pose proof (G_session E (map t_id ts) ts (incl_refl _)) as [HG [_ HD]].
  pose proof (F_session E ts) as HF. fold (session_trace E ts) in HG, HD.
  assert (D0 : In fid (downs (p ++ [EvFixDown fid]))) by (rewrite downs_snoc; left; auto).
  destruct (split_teardown t) as [(t0 & n & ok & t1 & -> & N)|N].
  - exists t0, n, ok, t1. split; auto. split.
    + destruct (HG ((p ++ [EvFixDown fid]) ++ t0) (EvTeardown n ok) t1) as [Q _].
      { rewrite H, <- !app_assoc. reflexivity. }
      destruct (Q fid (downs_keep fid t0 N _ D0)) as (k & A & B).
      assert (Ek : k = l); [|subst; auto].
      assert (A' : In (EvFixUp fid k) (session_trace E ts)).
      { rewrite H. change (EvFixDown fid :: t0 ++ EvTeardown n ok :: t1) with ([EvFixDown fid] ++ t0 ++ EvTeardown n ok :: t1).
        rewrite !app_assoc. rewrite <- (app_assoc _ t0). apply in_app_iff in A as [A|A]; rewrite ?in_app_iff in *; tauto. }
      assert (U' : In (EvFixUp fid l) (session_trace E ts)) by (rewrite H; apply in_app_iff; auto).
      apply In_nth_error in A' as [i Hi]. apply In_nth_error in U' as [j Hj].
      exact (proj2 (F_unique _ HF i j fid k l Hi Hj)).
    + intros e He. apply in_split in He as (u & v & ->).
      assert (Nu : forall n ok, ~ In (EvTeardown n ok) u) by (intros n' ok' X; apply (N n' ok'), in_app_iff; auto).
      assert (K : downs ((p ++ [EvFixDown fid]) ++ u) <> []).
      { intros X. pose proof (downs_keep fid u Nu _ D0) as Y. rewrite X in Y. destruct Y. }
      pose proof (HG ((p ++ [EvFixDown fid]) ++ u) e (v ++ EvTeardown n ok :: t1)) as Q.
      specialize (Q ltac:(rewrite H, <- !app_assoc; reflexivity)).
      destruct e; cbn in Q; auto.
      * apply K, Q.
      * apply (N nm ok0), in_app_iff. right. left. auto.
  - exfalso. pose proof (downs_keep fid t N _ D0) as X. rewrite <- app_assoc in X. cbn [app] in X. rewrite <- H, HD in X. destruct X.
Qed.
Print Assumptions C29_session_within.

(** A test with a fixture of each level, and a finalizer of the test's that fails: the test takes its own down, the module
    its own, the session the last one, each after its cleanups. *)
Definition exf5 : test := mkTest 7 (Some 1) 1 PDone 0 false
  (PFixture FTest (PRaise KAssertion false) (PFixture FModule PDone (PFixture FSession PDone
    (PAdd (SGiven (Some SModule)) false false (PEmit 5 PDone) PDone)))).
Example C29_session_case :
  filter (fun e => match e with EvFixUp _ _ | EvFixDown _ | EvPopEnd _ _ _ | EvTeardown _ _ | EvRun _ => true | _ => false end)
    (session_trace env0 [exf5]) =
  [EvFixUp 0 FTest; EvFixUp 1 FModule; EvFixUp 2 FSession;
   EvPopEnd 3 STest true; EvFixDown 0; EvTeardown STest true;
   EvRun 0; EvPopEnd 2 SModule true; EvFixDown 1; EvTeardown SModule true;
   EvPopEnd 1 SSession true; EvFixDown 2; EvTeardown SSession true; EvPopEnd 0 SSessionGlobal true].
Proof. vm_compute. reflexivity. Qed.
(** and nothing of it was interrupted *)
Example C29_session_calm : Forall (fun e => match e with EvRecord _ RKInterrupt _ _ => False | _ => True end) (session_trace env0 [exf5]).
Proof. vm_compute. repeat constructor. Qed.
(** Interrupted, the fixtures of the test and of everything around it are left alone. *)
Example C29_session_spared :
  filter (fun e => match e with EvFixDown _ => true | _ => false end)
    (session_trace env0 [mkTest 7 (Some 1) 1 PDone 0 false (PFixture FTest PDone (PRaise KKeyboard false))]) = [].
Proof. vm_compute. reflexivity. Qed.
