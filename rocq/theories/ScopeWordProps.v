(** Scopes of a session: properties C08, C09, C10.  Vocabulary: CoreSpec.v and
    ScopeSpec.v; [session_trace E ts] is the sequence of observable events of a
    whole session running the tests [ts]. *)

From Coq Require Import List Bool Arith PeanoNat Permutation Lia.
From Verif Require Import Events Core CoreSpec SessionSim CleanupTrace CleanupProps ScopeSpec WellNested.
Import ListNotations.

Lemma accepted_opened tr : forall q, spec_run sst0 tr = Some q -> NoDup (opened tr) /\ forall x, In x (opened tr) -> In x (q_sids q).
Proof.
  induction tr as [|e tr IH] using rev_ind; intros q H.
  - injection H as <-. simpl. split; [constructor|tauto].
  - apply spec_run_split in H as (q1 & H1 & H2). destruct (IH _ H1) as [A B]. clear IH H1.
    rewrite opened_app. cbn [spec_run] in H2. destruct (spec_step q1 e) as [q2|] eqn:Es; [|discriminate]. injection H2 as ->.
    destruct e; simpl; rewrite ?app_nil_r;
      try (injection Es as <-; auto; fail).
    + simpl in Es. destruct (memb sid (q_sids q1) || negb (top_idle (q_stack q1))) eqn:Em; [discriminate|].
      injection Es as <-. apply orb_false_iff in Em as [Em _]. apply memb_notIn in Em. split.
      * apply NoDup_rev in A. rewrite <- (rev_involutive (opened tr ++ [sid])). apply NoDup_rev. rewrite rev_app_distr. simpl.
        constructor; auto. intro Q. apply in_rev in Q. auto.
      * intros x Hx. simpl. apply in_app_iff in Hx as [Hx|[Hx|[]]]; auto.
    + simpl in Es. destruct (memb cid (q_cids q1) || crit && succ); [discriminate|].
      destruct (negb _); [discriminate|]. destruct tgt; [injection Es as <-; auto|]. destruct req; [discriminate|]. injection Es as <-; auto.
    + simpl in Es. destruct (q_stack q1) as [|[a b [c|] d] l]; try discriminate. destruct (_ && _); [|discriminate]. injection Es as <-; auto.
    + simpl in Es. destruct (q_stack q1) as [|[a b [[c c']|] d] l]; try discriminate. destruct (take _ _ _ _); [|discriminate]. injection Es as <-; auto.
    + simpl in Es. destruct (q_stack q1) as [|[a b [[c c']|] d] l]; try discriminate. destruct (_ && _); [|discriminate]. injection Es as <-; auto.
Qed.

Lemma session_opened E ts : NoDup (opened (session_trace E ts)).
Proof. destruct (session_accepted E ts) as [q H]. apply (accepted_opened _ q H). Qed.

(** ** C09 *)

(** The run is not that of a parallel worker, [modof] gives the module of each
    test, and no exception escapes from the teardown of a module or session
    scope.  (An exception escaping from the teardown of a test's scope is
    allowed: more than C09 asks for.) *)
Record undisturbed (E : env) (ts : list test) (modof : nat -> option nat) : Prop := mkUnd {
  u_worker : e_worker E = false;
  u_mod : forall t, In t ts -> modof (t_id t) = t_module t;
  u_quiet : forall nm, nm <> STest -> ~ In (EvTeardown nm false) (session_trace E ts) }.

Theorem C09_well_nested : forall E ts modof,
  undisturbed E ts modof -> well_nested modof (session_trace E ts).
Proof.
  intros E ts modof [HW HM HQ]. destruct (session_tri E modof HW ts HM) as [(nm & N & B)|H]; [|exact H].
  exfalso. exact (HQ nm N B).
Qed.

(** What well-nestedness means, property by property.  Every opened scope is
    closed, exactly once. *)
Theorem C09_all_closed_once : forall E ts modof,
  undisturbed E ts modof ->
  NoDup (opened (session_trace E ts)) /\ Permutation (opened (session_trace E ts)) (closed (session_trace E ts)).
Proof.
  intros E ts modof H. split; [apply session_opened|].
  apply (wn_all_closed modof); [apply C09_well_nested; auto|apply session_opened].
Qed.

Lemma wn_ex modof tr : well_nested modof tr -> exists q, wrun modof tr w0 = Some q.
Proof. intros (a & b & c & d & H). eauto. Qed.

(** Innermost first. *)
Theorem C09_innermost_first : forall E ts modof p sid nm ok t,
  undisturbed E ts modof ->
  session_trace E ts = p ++ EvPopEnd sid nm ok :: t ->
  hd_error (open_scopes p) = Some (sid, nm).
Proof.
  intros E ts modof p sid nm ok t H Htr. pose proof (wn_ex _ _ (C09_well_nested _ _ _ H)) as W.
  pose proof (session_opened E ts) as ND. rewrite Htr in W, ND. eapply wn_innermost; eauto.
Qed.

(** The session contains modules, a module contains tests. *)
Theorem C09_nesting : forall E ts modof p sid nm t,
  undisturbed E ts modof ->
  session_trace E ts = p ++ EvPush sid nm :: t ->
  map snd (open_scopes p) = enclosing nm.
Proof.
  intros E ts modof p sid nm t H Htr. pose proof (wn_ex _ _ (C09_well_nested _ _ _ H)) as W.
  pose proof (session_opened E ts) as ND. rewrite Htr in W, ND. eapply wn_nesting; eauto.
Qed.

(** A test's scope is opened only inside a module scope opened for its own
    module ... *)
Theorem C09_test_inside_its_module : forall E ts modof p sm m st r,
  undisturbed E ts modof ->
  session_trace E ts = p ++ EvPush sm SModule :: m ++ EvPush st STest :: r ->
  In (sm, SModule) (open_scopes (p ++ EvPush sm SModule :: m)) ->
  current_module modof (p ++ EvPush sm SModule :: m) = current_module modof p.
Proof.
  intros E ts modof p sm m st r H Htr HI. pose proof (wn_ex _ _ (C09_well_nested _ _ _ H)) as W.
  pose proof (session_opened E ts) as ND. rewrite Htr in W, ND.
  destruct (wn_tag modof p sm m r _ W ND HI) as (q & q' & A1 & A2 & A3 & A4 & A5).
  apply wpush_names in A2. destruct A2 as (_ & _ & _ & T & _). rewrite <- A3, <- A4. symmetry. auto.
Qed.

(** ... and a module scope is closed only when a test of another module comes,
    or at the session's cleanup: consecutive tests of one module share one
    module scope. *)
Theorem C09_module_shared : forall E ts modof p sm m nm ok r,
  undisturbed E ts modof ->
  session_trace E ts = p ++ EvPush sm SModule :: m ++ EvPopEnd sm nm ok :: r ->
  cleanup_begun (p ++ EvPush sm SModule :: m) \/
  current_module modof (p ++ EvPush sm SModule :: m) <> current_module modof p.
Proof.
  intros E ts modof p sm m nm ok r H Htr. pose proof (wn_ex _ _ (C09_well_nested _ _ _ H)) as W.
  pose proof (session_opened E ts) as ND. rewrite Htr in W, ND.
  assert (HI : In (sm, SModule) (open_scopes (p ++ EvPush sm SModule :: m)) /\ nm = SModule).
  { assert (Htr' : session_trace E ts = (p ++ EvPush sm SModule :: m) ++ EvPopEnd sm nm ok :: r) by (rewrite Htr, <- app_assoc; reflexivity).
    pose proof (C09_innermost_first _ _ _ _ _ _ _ _ H Htr') as Hd.
    destruct (open_scopes (p ++ EvPush sm SModule :: m)) as [|x l] eqn:Eo; [discriminate|]. injection Hd as ->.
    enough (nm = SModule) as -> by (split; simpl; auto).
    (* the name of an open scope is the one it was opened with *)
    assert (K : forall tr acc, ~ In sm (opened tr) -> In (sm, nm) (open_after acc tr) -> In (sm, nm) acc).
    { clear. induction tr as [|e tr IH]; simpl; intros acc NI I; auto.
      destruct e; simpl in NI; auto.
      - apply IH in I; [|tauto]. destruct I as [I|I]; auto. injection I as -> _. exfalso. tauto.
      - apply IH in I; [|tauto]. apply filter_In in I. tauto. }
    unfold open_scopes in Eo. rewrite open_after_app in Eo. cbn [open_after] in Eo. fold (open_scopes p) in Eo.
    rewrite opened_app in ND. simpl in ND. apply NoDup_remove_2 in ND. rewrite opened_app in ND.
    destruct (K m ((sm, SModule) :: open_scopes p)) as [I|I].
    - intro Q. apply ND. apply in_or_app. right. apply in_or_app. auto.
    - rewrite Eo. left; auto.
    - injection I as <-. auto.
    - exfalso. apply ND. apply in_or_app. left.
      clear - I. unfold open_scopes in I.
      assert (G : forall tr acc, In (sm, nm) (open_after acc tr) -> In (sm, nm) acc \/ In sm (opened tr)).
      { induction tr as [|e tr IH]; simpl; intros acc J; auto. destruct e; simpl; auto.
        - apply IH in J as [[J|J]|J]; auto. injection J as -> _; auto.
        - apply IH in J as [J|J]; auto. apply filter_In in J. tauto. }
      apply G in I as [[]|I]; auto. }
  destruct HI as [HI ->].
  destruct (wn_tag modof p sm m r _ W ND HI) as (q & q' & A1 & A2 & A3 & A4 & A5).
  apply wpop_inv in A2 as (_ & _ & _ & _ & C). destruct (C eq_refl) as [D|D].
  - right. rewrite <- A3, <- A4. auto.
  - left. apply A5. auto.
Qed.

(** three tests: two of module 1 (the second registers module and session
    cleanups), one of module 2 whose cleanup is interrupted *)
Definition ex_ts : list test :=
  [ mkTest 1 (Some 1) 1 PDone 0 false PDone;
    mkTest 2 (Some 1) 1 PDone 0 false
      (PAdd (SGiven (Some SModule)) false false (PEmit 10 PDone)
      (PAdd (SGiven (Some SSession)) false false (PEmit 11 PDone) (PRaise (KUser 3) false)));
    mkTest 3 (Some 2) 2 PDone 0 false (PAdd SDefault true false (PRaise KKeyboard false) PDone) ].
Definition ex_modof (t : nat) : option nat := match t with 1 | 2 => Some 1 | 3 => Some 2 | _ => None end.

Definition no_teardown_escape (tr : list event) : bool :=
  forallb (fun e => match e with EvTeardown STest _ => true | EvTeardown _ ok => ok | _ => true end) tr.
Lemma no_escape_spec tr : no_teardown_escape tr = true -> forall nm, nm <> STest -> ~ In (EvTeardown nm false) tr.
Proof.
  intros H nm N I. unfold no_teardown_escape in H. rewrite forallb_forall in H. apply H in I.
  destruct nm; try discriminate. contradiction.
Qed.

Example C09_met : undisturbed env0 ex_ts ex_modof.
Proof.
  constructor.
  - reflexivity.
  - intros t [<-|[<-|[<-|[]]]]; reflexivity.
  - apply no_escape_spec. vm_compute. reflexivity.
Qed.
(** here: the session-global and session scopes, two module scopes, three test
    scopes, and the teardown of the last test's scope raises *)
Example C09_ex_word :
  opened (session_trace env0 ex_ts) = [0; 1; 2; 3; 4; 5; 6] /\ closed (session_trace env0 ex_ts) = [3; 4; 2; 6; 5; 1; 0].
Proof. vm_compute. auto. Qed.
Example C09_ex_escape : In (EvTeardown STest false) (session_trace env0 ex_ts).
Proof. in_dec. Qed.

(** ** C10 *)

(** The full statement: whatever escapes from the teardown of a scope, later
    tests start and end their scopes normally and no internal error is reported.
    It is false: a module cleanup that raises a skip desynchronises the scope
    manager, so that starting the test after the next reports an internal error
    although no user code raised one; neither of the two later tests starts. *)
Definition ex_desync : list test :=
  [ mkTest 1 (Some 1) 1 PDone 0 false (PAdd (SGiven (Some SModule)) false false (PRaise KSkip false) PDone);
    mkTest 2 (Some 2) 2 PDone 0 false (PEmit 1 PDone);
    mkTest 3 (Some 3) 3 PDone 0 false (PEmit 2 PDone) ].

Theorem C10_refuted : exists E ts x f r,
  In (EvHandle x KInternal f r) (session_trace E ts) /\
  (forall cid y k, In (EvRaised cid y k) (session_trace E ts) -> k = KSkip) /\
  ~ In (EvHook HTestStart 2) (session_trace E ts) /\ ~ In (EvHook HTestStart 3) (session_trace E ts).
Proof.
  exists env0, ex_desync.
  enough (X : exists x f r, In (EvHandle x KInternal f r) (session_trace env0 ex_desync) /\
    forallb (fun e => match e with EvRaised _ _ KSkip => true | EvRaised _ _ _ => false
       | EvHook HTestStart 2 => false | EvHook HTestStart 3 => false | _ => true end) (session_trace env0 ex_desync) = true).
  { destruct X as (x & f & r & X1 & X2). exists x, f, r. rewrite forallb_forall in X2. split; [exact X1|]. split; [|split].
    - intros cid y k I. apply X2 in I. clear - I. destruct k; try reflexivity; discriminate I.
    - intro I. apply X2 in I. discriminate I.
    - intro I. apply X2 in I. discriminate I. }
  do 3 eexists. split; [in_dec|vm_compute; reflexivity].
Qed.

(** What holds: exceptions escaping from the teardown of tests' scopes - of any
    kind - do no harm: scopes remain well nested, and every test that starts
    does so inside its own test scope in the scope of its module.  (Missing:
    escapes from the teardown of module scopes, see [C10_refuted].) *)
Theorem C10_partial : forall E ts modof,
  undisturbed E ts modof ->
  well_nested modof (session_trace E ts) /\
  (forall p i t, session_trace E ts = p ++ EvHook HTestStart i :: t ->
     map snd (open_scopes p) = [STest; SModule; SSession; SSessionGlobal] /\
     exists a m, p = a ++ EvReportStart i :: m /\ forall t', ~ In (EvReportStart t') m).
Proof.
  intros E ts modof H. split; [apply C09_well_nested; auto|].
  intros p i t Htr. pose proof (wn_ex _ _ (C09_well_nested _ _ _ H)) as W.
  pose proof (session_opened E ts) as ND. rewrite Htr in W, ND. split; [eapply wn_start; eauto|].
  exact (wn_start_in modof p i t W ND).
Qed.

(** ** C08 *)

(** Test [t] has an error or failure recorded while scope [sid] is open, yet the
    success_only cleanup [cid] of scope [sid] runs.  Scope and kind of witness: *)
Definition C08_violated (nm : sname) (tr : list event) : Prop :=
  exists sid cid r t k x fatal ok,
    In (EvAdd cid (Some nm) (Some sid) false true r) tr /\
    before (EvPush sid nm) (EvRecord (RTest t) k x fatal) tr /\
    before (EvRecord (RTest t) k x fatal) (EvPopEnd sid nm ok) tr /\
    (k = RKError \/ k = RKFailure) /\
    In (EvRun cid) tr.

Lemma nth_before tr i j a b : nth_error tr i = Some a -> nth_error tr j = Some b -> i < j -> before a b tr.
Proof.
  intros Hi Hj L. apply nth_error_split in Hi as (p & t & -> & Hp).
  rewrite nth_error_app2 in Hj by lia. destruct (j - length p) as [|k] eqn:Ek; [lia|]. simpl in Hj.
  apply nth_error_split in Hj as (q & r & -> & _). exists p, q, r. reflexivity.
Qed.

Definition ex_module_success : list test :=
  [ mkTest 1 (Some 1) 1 PDone 0 false
      (PAdd (SGiven (Some SModule)) false true (PEmit 1 PDone) (PRaise KAssertion false));
    mkTest 2 (Some 2) 2 PDone 0 false PDone ].

(** The full statement of C08 is false.  For a module scope: the module is closed
    when the first test of the next module begins, and that test's (empty) result
    decides. *)
Theorem C08_module_refuted : exists E ts, C08_violated SModule (session_trace E ts).
Proof.
  exists env0, ex_module_success. exists 2, 0, (RTest 1), 1, RKFailure, (Some (XFresh 0)), false, true.
  split; [in_dec|]. split; [|split; [|split]].
  - apply (nth_before _ 7 12); [vm_compute; reflexivity|vm_compute; reflexivity|lia].
  - apply (nth_before _ 12 26); [vm_compute; reflexivity|vm_compute; reflexivity|lia].
  - auto.
  - in_dec.
Qed.

(** For the session scope: a module cleanup raises a skip while the last test
    begins; that test is skipped, never started, and its result (success when
    skips are allowed) is still current when the session scope is closed. *)
Definition ex_session_success : list test :=
  [ mkTest 1 (Some 1) 1 PDone 0 false
      (PAdd (SGiven (Some SSession)) false true (PEmit 1 PDone)
      (PAdd (SGiven (Some SModule)) false false (PRaise KSkip false)
      (PRaise KAssertion false)));
    mkTest 2 (Some 2) 2 PDone 0 false PDone ].

Theorem C08_session_refuted : exists E ts, C08_violated SSession (session_trace E ts).
Proof.
  exists env0, ex_session_success. exists 1, 0, (RTest 1), 1, RKFailure, (Some (XFresh 0)), false, true.
  split; [in_dec|]. split; [|split; [|split]].
  - apply (nth_before _ 6 13); [vm_compute; reflexivity|vm_compute; reflexivity|lia].
  - apply (nth_before _ 13 37); [vm_compute; reflexivity|vm_compute; reflexivity|lia].
  - auto.
  - in_dec.
Qed.

(** The converse fails too: all tests of module 4 passed, no test of it failed,
    yet its success_only cleanup does not run, because a test of another module
    failed. *)
Definition ex_success_not_run : list test :=
  [ mkTest 1 (Some 1) 1 PDone 0 false (PRaise KAssertion false);
    mkTest 2 (Some 2) 2 PDone 0 false (PAdd (SGiven (Some SModule)) false true (PEmit 1 PDone) PDone) ].
Theorem C08_converse_refuted : exists E ts sid,
  In (EvAdd 0 (Some SModule) (Some sid) false true (RTest 2)) (session_trace E ts) /\
  In (EvPopEnd sid SModule true) (session_trace E ts) /\
  In (EvHook HTestSuccess 2) (session_trace E ts) /\
  ~ In (EvRun 0) (session_trace E ts).
Proof.
  exists env0, ex_success_not_run, 4. split; [in_dec|]. split; [in_dec|]. split; [in_dec|].
  rewrite <- runs_In. vm_compute. tauto.
Qed.

(** ** C69 *)

(** The full statement: test_success fires for a test only after test_start fired
    for it.  It is false: when a module cleanup raises a skip, the first test of
    the next module is never started - nor is anything recorded on its result -
    and yet reported as successful; the session exits with code 0. *)
Definition ex_false_success : list test :=
  [ mkTest 1 (Some 1) 1 PDone 0 false (PAdd (SGiven (Some SModule)) false false (PRaise KSkip false) PDone);
    mkTest 2 (Some 2) 2 PDone 0 false (PRaise KAssertion false) ].
Theorem C69_refuted : exists E ts t,
  In t ts /\ t_body t = PRaise KAssertion false /\ should_run t = true /\
  In (EvHook HTestSuccess (t_id t)) (session_trace E ts) /\
  ~ In (EvHook HTestStart (t_id t)) (session_trace E ts) /\
  exit_code (run_session E ts) = 0.
Proof.
  exists env0, ex_false_success, (mkTest 2 (Some 2) 2 PDone 0 false (PRaise KAssertion false)).
  split; [right; left; reflexivity|]. split; [reflexivity|]. split; [reflexivity|]. split; [in_dec|]. split.
  - intro I.
    assert (X : forallb (fun e => match e with EvHook HTestStart 2 => false | _ => true end) (session_trace env0 ex_false_success) = true)
      by (vm_compute; reflexivity).
    rewrite forallb_forall in X. apply X in I. discriminate I.
  - vm_compute. reflexivity.
Qed.

(** What holds: when no exception escapes from the teardown of a module or the
    session, test_success fires only if test_start fired since the test was
    reported (for tests that have a module).  (Missing: see [C69_refuted].) *)
Theorem C69_partial : forall E ts modof p i t,
  undisturbed E ts modof ->
  session_trace E ts = p ++ EvHook HTestSuccess i :: t ->
  modof i <> None ->
  exists a m, p = a ++ EvReportStart i :: m /\ In (EvHook HTestStart i) m.
Proof.
  intros E ts modof p i t H Htr HC. pose proof (wn_ex _ _ (C09_well_nested _ _ _ H)) as W.
  pose proof (session_opened E ts) as ND. rewrite Htr in W, ND. destruct (wn_success modof p i t W ND HC) as (a & m & A & B & _).
  exists a, m. auto.
Qed.

Print Assumptions C08_module_refuted.
Print Assumptions C08_session_refuted.
Print Assumptions C08_converse_refuted.
Print Assumptions C09_well_nested.
Print Assumptions C09_all_closed_once.
Print Assumptions C09_innermost_first.
Print Assumptions C09_nesting.
Print Assumptions C09_test_inside_its_module.
Print Assumptions C09_module_shared.
Print Assumptions C10_refuted.
Print Assumptions C10_partial.
Print Assumptions C69_refuted.
Print Assumptions C69_partial.
