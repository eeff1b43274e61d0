(** C107: the notice about something slow. *)

From Coq Require Import List Bool Arith Lia.
From Verif Require Import Slow.
Import ListNotations.

(** ** Statements *)

Definition is_message (r : report) : bool := match r with Message _ => true | End _ => false end.

(** the reports, the oldest first *)
Definition reports (s : st) : list report := rev (s_reports s).

Section Slow.
Variable has_end : bool.
Notation step := (step has_end).
Notation run := (run has_end).

(** ** Proofs *)

Lemma run_app a b s : run (a ++ b) s = match run a s with Some s' => run b s' | None => None end.
Proof. revert s. induction a as [|x a IH]; intros s; [reflexivity|]. cbn [app Slow.run]. destruct (step x s); [apply IH|reflexivity]. Qed.

(** the states that occur *)
Definition inv (s : st) : Prop :=
  let 'mkSt m n evt sess flag reports := s in
  (evt = match m with InBody | BeforeSet _ => false | _ => true end) /\
  (match m with BeforeEnd _ => n = Ended | Out (Some XInterrupt) => True | Out _ => n = Ended | _ => True end) /\
  (match n with
   | Waiting | TimedOut | Checked => flag = false /\ reports = []
   | Reported => flag = false /\ exists i, reports = [Message i]
   | Ended => if flag then exists i, reports = [Message i] \/
                                     (exists j x, m = Out x /\ reports = [End j; Message i])
              else reports = []
   end) /\
  (match m with
   | InBody => True
   | BeforeSet x | BeforeJoin x | BeforeEnd x => match x with None | Some (XBody _) => True | _ => False end
   | Out x => True
   end).

Ltac crush := repeat match goal with
  | H : Some _ = Some _ |- _ => injection H as <-
  | H : None = Some _ |- _ => discriminate
  | H : _ /\ _ |- _ => destruct H
  | H : exists _, _ |- _ => destruct H
  | H : _ \/ _ |- _ => destruct H
  end.

Lemma inv_step l s s' : inv s -> step l s = Some s' -> inv s'.
Proof.
  destruct s as [m n evt sess flag rs]. intros I E. cbn [inv] in I. destruct I as (I1 & I2 & I3 & I4).
  destruct l as [se|x| | | |ok| | | |ok|]; destruct m as [|x'|x'|x'|x']; cbn [Slow.step] in E; try discriminate;
    try (destruct n; try discriminate); crush; subst; cbn [inv];
    repeat match goal with
    | H : (if ?b then _ else _) = Some _ |- _ => destruct b eqn:?; crush; try discriminate
    | H : match ?b with Some _ => _ | None => _ end = Some _ |- _ => destruct b eqn:?; crush; try discriminate
    end; crush; subst; cbn [inv]; try (repeat split; auto; fail); try congruence.
  all: try (destruct x); try (destruct flag); try (destruct ok); try (destruct x' as [[| | |]|]); crush; subst; try discriminate; try contradiction;
    repeat split; eauto 10; try discriminate; try congruence.
  all: destruct sess; auto.
Qed.

Lemma inv_run l s s' : inv s -> run l s = Some s' -> inv s'.
Proof.
  revert s. induction l as [|a l IH]; intros s I E; [injection E as <-; exact I|]. cbn [Slow.run] in E.
  destruct (step a s) as [s1|] eqn:X; [|discriminate]. exact (IH s1 (inv_step _ _ _ I X) E).
Qed.

Lemma inv_entered x : inv (entered x).
Proof. cbn. auto. Qed.

Ltac step_cases := cbn [Slow.step] in *; try discriminate;
    repeat match goal with
    | H : (if ?b then _ else _) = Some _ |- _ => destruct b eqn:?; try discriminate
    | H : match ?b with Some _ => _ | None => _ end = Some _ |- _ => destruct b eqn:?; try discriminate
    end; crush.

(** ** Theorems *)

(** nothing, the message, or the message and then the end: each at most once, and the
    end only if there is one *)
Theorem C107_reports l s0 s : run l (entered s0) = Some s ->
  reports s = [] \/ (exists i, reports s = [Message i]) \/ (exists i j, reports s = [Message i; End j] /\ has_end = true).
Proof.
  intros E. pose proof (inv_run _ _ _ (inv_entered s0) E) as I.
  assert (H : (exists i j, reports s = [Message i; End j]) -> has_end = true).
  { clear I. intros (i & j & R). assert (HH : has_end = true \/ has_end = false) by (destruct has_end; auto). destruct HH as [H|H]; [exact H|exfalso].
    assert (G : forall l s s', run l s = Some s' -> (forall j, ~ In (End j) (s_reports s)) -> forall j, ~ In (End j) (s_reports s')).
    { clear - H. intros l. induction l as [|a l IH]; intros s s' E N; [injection E as <-; exact N|]. cbn [Slow.run] in E.
      destruct (step a s) as [s1|] eqn:X; [|discriminate]. apply (IH s1 s' E). intros j.
      destruct s as [m n evt sess flag rs]. cbn [s_reports] in N.
      destruct a as [se|x| | | |ok| | | |ok|]; destruct m as [|x'|x'|x'|x']; cbn [Slow.step] in X; try discriminate;
        try (destruct n; try discriminate); rewrite ?H, ?andb_false_r in X; step_cases; cbn [s_reports]; try apply N;
        intros [F|F]; try discriminate; exact (N _ F). }
    specialize (G _ _ _ E (fun _ F => F) j). apply G. rewrite <- (rev_involutive (s_reports s)). fold (reports s). rewrite R. cbn. auto. }
  destruct s as [m n evt sess flag rs]. unfold reports in *. cbn [s_reports] in *. cbn [inv] in I. destruct I as (_ & _ & I & _).
  destruct n; try destruct flag; crush; subst; cbn [rev app] in *; eauto 10.
Qed.

(** quick: if the time does not run out nothing is reported *)
Theorem C107_quick l s0 s : run l (entered s0) = Some s -> ~ In LTimeout l -> reports s = [].
Proof.
  assert (G : forall l s s', run l s = Some s' -> ~ In LTimeout l -> (s_notifier s = Waiting \/ s_notifier s = Ended) -> s_flag s = false ->
              s_reports s = [] -> s_reports s' = []).
  { clear. intros l. induction l as [|a l IH]; intros s s' E N W F R; [injection E as <-; exact R|]. cbn [Slow.run] in E.
    destruct (step a s) as [s1|] eqn:X; [|discriminate].
    assert (K : (s_notifier s1 = Waiting \/ s_notifier s1 = Ended) /\ s_flag s1 = false /\ s_reports s1 = []).
    { destruct s as [m n evt sess flag rs]. cbn in W, F, R. subst flag rs.
      destruct W as [->| ->]; destruct a as [se|x| | | |ok| | | |ok|]; try (exfalso; apply N; left; reflexivity);
      destruct m as [|x'|x'|x'|x']; cbn [Slow.step] in X; try discriminate;
        try (destruct n; try discriminate); step_cases; cbn in *; auto. }
    destruct K as (K1 & K2 & K3). apply (IH s1 s' E); auto. intros I. apply N. right. exact I. }
  intros E N. unfold reports. rewrite (G l _ _ E N); auto.
Qed.

(** the time does not run out any more once evt is set *)
Theorem C107_in_time l1 l2 s0 s : run (l1 ++ LSet :: l2) (entered s0) = Some s -> ~ In LTimeout l2.
Proof.
  intros E T. rewrite run_app in E. destruct (run l1 (entered s0)) as [s1|]; [|discriminate]. cbn [Slow.run] in E.
  destruct (step LSet s1) as [s2|] eqn:X; [|discriminate].
  assert (V : s_evt s2 = true).
  { destruct s1 as [m n evt sess flag rs]. destruct m; cbn [Slow.step] in X; try discriminate. injection X as <-. reflexivity. }
  clear X s1. revert s2 V E. induction l2 as [|a l2 IH]; intros s2 V E; [destruct T|]. cbn [Slow.run] in E.
  destruct (step a s2) as [s3|] eqn:X; [|discriminate]. destruct s2 as [m n evt sess flag rs]. cbn [s_evt] in V. subst evt.
  destruct T as [->|T].
  - destruct m, n; cbn [Slow.step] in X; discriminate.
  - apply (IH T s3); [|exact E].
    destruct a as [se|x| | | |ok| | | |ok|]; destruct m as [|x'|x'|x'|x']; cbn [Slow.step] in X; try discriminate;
        try (destruct n; try discriminate); step_cases; reflexivity.
Qed.

(** the body ended with this *)
Definition ended (l : list label) (x : option exn) : Prop := exists b, In (LBody b) l /\ x = option_map XBody b.

Lemma body_kept l s0 s : run l (entered s0) = Some s ->
  match s_main s with InBody => True | BeforeSet x | BeforeJoin x | BeforeEnd x => ended l x | Out x => True end.
Proof.
  revert s. induction l as [|a l IH] using rev_ind; intros s E.
  - injection E as <-. exact I.
  - rewrite run_app in E. destruct (run l (entered s0)) as [s1|] eqn:X; [|discriminate]. specialize (IH s1 eq_refl). cbn [Slow.run] in E.
    destruct (step a s1) as [s2|] eqn:Y; [|discriminate]. injection E as <-.
    assert (M : forall x, ended l x -> ended (l ++ [a]) x) by (intros x (b & B1 & B2); exists b; split; [apply in_app_iff; auto|exact B2]).
    destruct s1 as [m n evt sess flag rs]. cbn [s_main] in IH.
    destruct a as [se|x| | | |ok| | | |ok|]; destruct m as [|x'|x'|x'|x']; cbn [Slow.step] in Y; try discriminate;
      try (destruct n; try discriminate); step_cases; cbn [s_main]; auto; exists x; split; auto; apply in_app_iff; right; left; reflexivity.
Qed.

(** outside, unless the waiting itself was interrupted: the thread has ended and
    nothing more can happen.  Without a message, or without an end to report, the
    context ends as the body did; with both, the end was reported and the context
    ends as the body did, or reporting it failed and that is what the context ends with *)
Theorem C107_out l s0 s x : run l (entered s0) = Some s -> s_main s = Out x -> ~ In LInterrupt l ->
  s_notifier s = Ended /\ (forall a, step a s = None) /\
  ((reports s = [] /\ ended l x) \/
   exists i, (has_end = false /\ reports s = [Message i] /\ ended l x) \/
     (has_end = true /\ exists j, s_session s = Some j /\ reports s = [Message i; End j] /\ ended l x) \/
     (has_end = true /\ reports s = [Message i] /\ ((s_session s = None /\ x = Some XAttribute) \/ (s_session s <> None /\ x = Some XReporter)))).
Proof.
  revert s. induction l as [|a l IH] using rev_ind; intros s E O N.
  - injection E as <-. discriminate.
  - rewrite run_app in E. destruct (run l (entered s0)) as [s1|] eqn:X; [|discriminate]. cbn [Slow.run] in E.
    destruct (step a s1) as [s2|] eqn:Y; [|discriminate]. injection E as <-.
    assert (N' : ~ In LInterrupt l) by (intros I; apply N, in_app_iff; auto).
    assert (M : forall x, ended l x -> ended (l ++ [a]) x) by (intros y (b & B1 & B2); exists b; split; [apply in_app_iff; auto|exact B2]).
    pose proof (inv_run _ _ _ (inv_entered s0) X) as I. pose proof (body_kept l s0 s1 X) as B.
    assert (OUT : forall y, s_main s1 = Out y -> False).
    { intros y Q. destruct (IH s1 eq_refl) as (_ & Z & _).
      - destruct s1 as [m n evt sess flag rs]. cbn [s_main] in Q. subst m.
        destruct a as [se|z| | | |ok| | | |ok|]; cbn [Slow.step] in Y; try discriminate;
        try (destruct n; try discriminate); step_cases; cbn [s_main] in *; exact O.
      - exact N'.
      - rewrite Z in Y. discriminate. }
    destruct s1 as [m n evt sess flag rs]. cbn [s_main] in OUT, B. cbn [inv] in I. destruct I as (_ & I2 & I3 & _).
    destruct a as [se|z| | | |ok| | | |ok|]; destruct m as [|x'|x'|x'|x']; try (exfalso; exact (OUT _ eq_refl)); cbn [Slow.step] in Y; try discriminate;
      try (destruct n; try discriminate); step_cases; cbn [s_main] in O; try discriminate;
      try (exfalso; apply N, in_app_iff; right; left; reflexivity).
    + (* the end is reported *)
      subst. injection O as <-. split; [reflexivity|]. split; [intros [| | | | |[]| | | |[]|]; reflexivity|].
      apply andb_true_iff in Heqb as [-> HE]. destruct I3 as (i & [->|(j & y & F & _)]); [|discriminate].
      right. exists i. destruct ok.
      * right. left. split; [exact HE|]. eexists. unfold reports. cbn. auto.
      * right. right. split; [exact HE|]. split; [reflexivity|]. right. split; [discriminate|reflexivity].
    + subst. injection O as <-. split; [reflexivity|]. split; [intros [| | | | |[]| | | |[]|]; reflexivity|].
      apply andb_true_iff in Heqb as [-> HE]. destruct I3 as (i & [->|(j & y & F & _)]); [|discriminate].
      right. exists i. right. right. split; [exact HE|]. split; [reflexivity|]. left. auto.
    + subst. injection O as <-. split; [reflexivity|]. split; [intros [| | | | |[]| | | |[]|]; reflexivity|].
      destruct flag; [|left; subst; auto]. cbn in Heqb. destruct I3 as (i & [->|(j & y & F & _)]); [|discriminate].
      right. exists i. left. auto.
Qed.

(** slow: if the time runs out, and there is a session all the time, and the reporter
    does not fail on the message, the message is reported before the context is left *)
Theorem C107_slow l i s x : run l (entered (Some i)) = Some s -> s_main s = Out x -> In LTimeout l ->
  ~ In LInterrupt l -> ~ In (LChange None) l -> ~ In (LReport false) l ->
  exists k rest, reports s = Message k :: rest /\ (k = i \/ In (LChange (Some k)) l).
Proof.
  intros E O T NI NC NR.
  assert (SE : forall l s, run l (entered (Some i)) = Some s -> ~ In (LChange None) l ->
             exists k, s_session s = Some k /\ (k = i \/ In (LChange (Some k)) l)).
  { clear. induction l as [|a l IH] using rev_ind; intros s E N.
    - injection E as <-. exists i. auto.
    - rewrite run_app in E. destruct (run l (entered (Some i))) as [s1|] eqn:X; [|discriminate]. cbn [Slow.run] in E.
      destruct (step a s1) as [s2|] eqn:Y; [|discriminate]. injection E as <-.
      destruct (IH s1 eq_refl) as (k & K1 & K2); [intros I; apply N, in_app_iff; auto|].
      assert (K3 : k = i \/ In (LChange (Some k)) (l ++ [a])) by (destruct K2; [auto|right; apply in_app_iff; auto]). clear K2.
      destruct s1 as [m n evt sess flag rs]. cbn [s_session] in K1. subst sess.
      destruct a as [se|z| | | |ok| | | |ok|].
      2-11: exists k; destruct m as [|x'|x'|x'|x']; cbn [Slow.step] in Y; try discriminate;
        try (destruct n; try discriminate); step_cases; cbn [s_session]; auto.
      destruct m; cbn [Slow.step] in Y; try discriminate. injection Y as <-. cbn [s_session].
      destruct se as [k'|]; [|exfalso; apply N, in_app_iff; right; left; reflexivity].
      exists k'. split; [reflexivity|]. right. apply in_app_iff. right. left. reflexivity. }
  assert (G : forall l s, run l (entered (Some i)) = Some s -> ~ In (LChange None) l -> ~ In (LReport false) l -> ~ In LInterrupt l -> In LTimeout l ->
     match s_notifier s with
     | TimedOut | Checked => True
     | Waiting => False
     | Reported | Ended => exists k rest, reports s = Message k :: rest /\ (k = i \/ In (LChange (Some k)) l)
     end).
  { clear - SE. induction l as [|a l IH] using rev_ind; intros s E NC NR NI T; [destruct T|].
    rewrite run_app in E. destruct (run l (entered (Some i))) as [s1|] eqn:X; [|discriminate]. cbn [Slow.run] in E.
    destruct (step a s1) as [s2|] eqn:Y; [|discriminate]. injection E as <-.
    assert (NC' : ~ In (LChange None) l) by (intros I; apply NC, in_app_iff; auto).
    assert (NR' : ~ In (LReport false) l) by (intros I; apply NR, in_app_iff; auto).
    assert (NI' : ~ In LInterrupt l) by (intros I; apply NI, in_app_iff; auto).
    assert (UP : (exists k rest, reports s1 = Message k :: rest /\ (k = i \/ In (LChange (Some k)) l)) ->
                 exists k rest, reports s1 = Message k :: rest /\ (k = i \/ In (LChange (Some k)) (l ++ [a]))).
    { intros (k & r & K1 & K2). exists k, r. split; [exact K1|]. destruct K2; [auto|right; apply in_app_iff; auto]. }
    destruct (SE l s1 X NC') as (k & K1 & K2).
    assert (K3 : forall rs, [Message k] = rs -> exists k rest, rs = Message k :: rest /\ (k = i \/ In (LChange (Some k)) (l ++ [a]))).
    { intros ? <-. exists k, []. split; [reflexivity|]. destruct K2; [auto|right; apply in_app_iff; auto]. }
    clear K2. specialize (IH s1 eq_refl NC' NR' NI').
    apply in_app_iff in T. destruct T as [T|[->|[]]].
    - specialize (IH T). pose proof (inv_run _ _ _ (inv_entered (Some i)) X) as IV.
      destruct s1 as [m n evt sess flag rs]. cbn [s_session] in K1. subst sess. cbn [s_notifier] in IH. unfold reports in *. cbn [s_reports] in *.
      assert (UP' : match n with Reported | Ended => True | _ => False end ->
                    exists k rest, rev rs = Message k :: rest /\ (k = i \/ In (LChange (Some k)) (l ++ [a]))).
      { intros N. apply UP. destruct n; auto; destruct N. }
      destruct n; [destruct IH| | | |]; clear IH; destruct a as [se|z| | | |[]| | | |[]|]; try (exfalso; apply NR, in_app_iff; right; left; reflexivity);
        destruct m as [|x'|x'|x'|x']; cbn [Slow.step] in Y; try discriminate; step_cases; cbn [s_notifier s_reports]; auto;
        try (apply UP'; exact I).
      all: try (cbn [inv] in IV; destruct IV as (_ & _ & [_ ->] & _); apply K3; reflexivity).
      all: destruct (UP' I) as (k' & r & R1 & R2); exists k'; cbn [rev]; rewrite R1; eexists; split; [reflexivity|exact R2].
    - destruct s1 as [m n evt sess flag rs]. destruct m, n; cbn [Slow.step] in Y; try discriminate; step_cases; exact I. }
  specialize (G l s E NC NR NI T). destruct (C107_out l _ s x E O NI) as (N & _). rewrite N in G. exact G.
Qed.

(** steps that are not the body's own *)
Definition change (a : label) : bool := match a with LChange _ => true | _ => false end.

Definition left_main (m : main) : nat := match m with InBody => 4 | BeforeSet _ => 3 | BeforeJoin _ => 2 | BeforeEnd _ => 1 | Out _ => 0 end.
Definition left_notifier (n : notifier) : nat := match n with Waiting => 4 | TimedOut => 3 | Checked => 2 | Reported => 1 | Ended => 0 end.

(** it ends: every run has at most eight steps besides those of the body, and as long as
    the context was not left there is a next step, without an interrupt *)
Theorem C107_ends l s0 s : run l (entered s0) = Some s ->
  length (filter (fun a => negb (change a)) l) <= 8 /\
  ((forall x, s_main s <> Out x) -> exists a s', change a = false /\ a <> LInterrupt /\ step a s = Some s').
Proof.
  intros E. split.
  - assert (G : forall l s s', run l s = Some s' ->
      length (filter (fun a => negb (change a)) l) + left_main (s_main s') + left_notifier (s_notifier s') <= left_main (s_main s) + left_notifier (s_notifier s)).
    { clear. intros l. induction l as [|a l IH]; intros s s' E; [injection E as <-; cbn; lia|]. cbn [Slow.run] in E.
      destruct (step a s) as [s1|] eqn:X; [|discriminate]. specialize (IH s1 s' E).
      assert (K : (if negb (change a) then 1 else 0) + left_main (s_main s1) + left_notifier (s_notifier s1) <= left_main (s_main s) + left_notifier (s_notifier s)).
      { clear - X. destruct s as [m n evt sess flag rs].
        destruct a as [se|z| | | |ok| | | |ok|]; destruct m as [|x'|x'|x'|x']; cbn [Slow.step] in X; try discriminate;
          try (destruct n; try discriminate); step_cases; cbn; try lia; destruct sess; cbn; lia. }
      cbn [filter]. destruct (negb (change a)); cbn [length]; lia. }
    specialize (G _ _ _ E). cbn in G. lia.
  - pose proof (inv_run _ _ _ (inv_entered s0) E) as I. destruct s as [m n evt sess flag rs]. cbn [s_main inv] in *. destruct I as (I1 & _).
    intros NO. destruct m as [|x|x|x|x].
    + exists (LBody None). eexists. repeat split. discriminate.
    + exists LSet. eexists. repeat split. discriminate.
    + subst evt. destruct n.
      * exists LWake. eexists. repeat split. discriminate.
      * exists LCheck. eexists. repeat split. discriminate.
      * exists (LReport true). destruct sess; eexists; repeat split; discriminate.
      * exists LFlag. eexists. repeat split. discriminate.
      * exists LJoin. eexists. repeat split. discriminate.
    + exists (LEnd true). cbn [Slow.step]. destruct (flag && has_end); [destruct sess|]; eexists; repeat split; discriminate.
    + exfalso. exact (NO x eq_refl).
Qed.
End Slow.

(** ** Concrete cases and refuted expectations *)

Definition slow_run : list label := [LTimeout; LCheck; LReport true; LFlag; LBody (Some 5); LSet; LJoin; LEnd true].

Example C107_case : run true slow_run (entered (Some 1)) = Some (mkSt (Out (Some (XBody 5))) Ended true (Some 1) true [End 1; Message 1]).
Proof. reflexivity. Qed.

Example C107_case_quick : run true [LBody None; LSet; LWake; LJoin; LEnd true] (entered (Some 1)) = Some (mkSt (Out None) Ended true (Some 1) false []).
Proof. reflexivity. Qed.

(** the message may be reported when the body has ended already *)
Theorem C107_late_refuted : exists l s, run true (LBody None :: l) (entered (Some 1)) = Some s /\ In (Message 1) (reports s) /\ s_main s = Out None.
Proof. exists [LTimeout; LSet; LCheck; LReport true; LFlag; LJoin; LEnd true]. eexists. split; [reflexivity|]. cbn. auto. Qed.

(** the two reports may go to different sessions *)
Theorem C107_sessions_refuted : exists l s i j, run true l (entered (Some 1)) = Some s /\ reports s = [Message i; End j] /\ i <> j.
Proof.
  exists [LTimeout; LCheck; LReport true; LFlag; LChange (Some 2); LBody None; LSet; LJoin; LEnd true]. eexists. exists 1, 2.
  split; [reflexivity|]. split; [reflexivity|discriminate].
Qed.

(** if the session is gone when the context is left, an AttributeError takes the
    place of the exception of the body *)
Theorem C107_masks_refuted : exists l s, In (LBody (Some 5)) l /\ run true l (entered (Some 1)) = Some s /\ s_main s = Out (Some XAttribute).
Proof.
  exists [LTimeout; LCheck; LReport true; LFlag; LChange None; LBody (Some 5); LSet; LJoin; LEnd true]. eexists.
  split; [cbn; auto 10|]. split; reflexivity.
Qed.

(** if the session ends between the two looks at it the thread dies, and nothing is
    reported though it is slow and there was a session *)
Theorem C107_race_refuted : exists l s, In LTimeout l /\ ~ In (LReport false) l /\ run true l (entered (Some 1)) = Some s /\ s_main s = Out None /\
  reports s = [] /\ s_session s = Some 2.
Proof.
  exists [LTimeout; LCheck; LChange None; LReport true; LChange (Some 2); LBody None; LSet; LJoin; LEnd true]. eexists.
  split; [cbn; auto|]. split; [cbn; intuition discriminate|]. split; [reflexivity|]. auto.
Qed.

(** interrupted while waiting for the thread, the message may come after the context
    was left, and the exception of the body is lost *)
Theorem C107_interrupt_refuted : exists l s s', In (LBody (Some 5)) l /\ run true l (entered (Some 1)) = Some s /\ s_main s = Out (Some XInterrupt) /\
  reports s = [] /\ step true (LReport true) s = Some s' /\ reports s' = [Message 1].
Proof.
  exists [LTimeout; LCheck; LBody (Some 5); LSet; LInterrupt]. eexists. eexists. split; [cbn; auto 10|]. split; [reflexivity|]. repeat split.
Qed.

Print Assumptions C107_reports.
Print Assumptions C107_quick.
Print Assumptions C107_in_time.
Print Assumptions C107_out.
Print Assumptions C107_slow.
Print Assumptions C107_ends.

Print Assumptions C107_late_refuted.
Print Assumptions C107_sessions_refuted.
Print Assumptions C107_masks_refuted.
Print Assumptions C107_race_refuted.
Print Assumptions C107_interrupt_refuted.
