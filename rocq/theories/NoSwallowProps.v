(** C149: exceptions that are ignored are reported, those marked against it are neither. *)

From Coq Require Import List Bool Arith Lia.
From Verif Require Import NoSwallow.
Import ListNotations.

Lemma marked_iff e s : marked e s = true <-> In e (marks s).
Proof.
  unfold marked. rewrite existsb_exists. split; [intros (x & I & E); apply Nat.eqb_eq in E as ->; exact I|intros I; exists e; split; [exact I|apply Nat.eqb_refl]].
Qed.

(** what happens in a program only adds to what happened before *)
Definition later (s s' : state) : Prop :=
  (forall e, In e (marks s) -> In e (marks s')) /\
  (exists l, done s' = done s ++ l) /\ (exists l, reported s' = reported s ++ l) /\
  (exists l, ignored s' = ignored s ++ l /\ forall e, In e (marks s) -> ~ In e l).

Lemma later_refl s : later s s.
Proof. split; [auto|]. split; [exists []; symmetry; apply app_nil_r|]. split; [exists []; symmetry; apply app_nil_r|]. exists []. split; [symmetry; apply app_nil_r|]. intros e _ []. Qed.

Lemma later_trans a b c : later a b -> later b c -> later a c.
Proof.
  intros (M1 & [d1 D1] & [r1 R1] & i1 & I1 & N1) (M2 & [d2 D2] & [r2 R2] & i2 & I2 & N2).
  split; [auto|]. split; [exists (d1 ++ d2); rewrite D2, D1, app_assoc; reflexivity|]. split; [exists (r1 ++ r2); rewrite R2, R1, app_assoc; reflexivity|].
  exists (i1 ++ i2). split; [rewrite I2, I1, app_assoc; reflexivity|]. intros e H J. apply in_app_iff in J as [J|J]; [exact (N1 e H J)|exact (N2 e (M1 e H) J)].
Qed.

Lemma later_noswallow E e s : later s (noswallow E e s).
Proof.
  unfold noswallow. destruct (settable E e); [|apply later_refl]. split; [intros x H; right; exact H|]. cbn. split; [exists []; symmetry; apply app_nil_r|].
  split; [exists []; symmetry; apply app_nil_r|]. exists []. split; [symmetry; apply app_nil_r|]. intros x _ [].
Qed.

Lemma run_later E p : forall s, later s (fst (run E p s)).
Proof.
  induction p; intros s; cbn [run].
  - cbn. split; [auto|]. cbn. split; [eauto|]. split; [exists []; symmetry; apply app_nil_r|]. exists []. split; [symmetry; apply app_nil_r|]. intros e _ [].
  - apply later_refl.
  - apply later_noswallow.
  - specialize (IHp1 s). destruct (run E p1 s) as [s1 [e|]]; [exact IHp1|]. eapply later_trans; [exact IHp1|apply IHp2].
  - specialize (IHp s). destruct (run E p s) as [s1 [e|]]; [|exact IHp]. cbn [fst] in IHp. destruct (marked e s1) eqn:M; [exact IHp|].
    assert (NM : ~ In e (marks s1)) by (intros H; apply marked_iff in H; congruence).
    assert (G : forall s2, marks s2 = marks s1 -> done s2 = done s1 -> (exists l, reported s2 = reported s1 ++ l) -> ignored s2 = ignored s1 ->
                later s (mkState (marks s2) (done s2) (reported s2) (ignored s2 ++ [e]))).
    { intros s2 M2 D2 R2 I2. eapply later_trans; [exact IHp|]. unfold later. cbn. rewrite M2, D2, I2. split; [auto|]. split; [exists []; symmetry; apply app_nil_r|]. split; [exact R2|].
      exists [e]. split; [reflexivity|]. intros x H [<-|[]]. exact (NM H). }
    destruct report; cbn [fst].
    + unfold capture_sentry. destruct (raven E && dsn E); [destruct (capture E e); [exact IHp|]|]; cbn [fst]; apply G; try reflexivity; cbn; [eauto|exists []; symmetry; apply app_nil_r].
    + apply G; try reflexivity. exists []. symmetry. apply app_nil_r.
  - destruct decorated; [|apply IHp]. specialize (IHp s). destruct (run E p s) as [s1 [e|]]; [|exact IHp]. eapply later_trans; [exact IHp|apply later_noswallow].
  - apply later_refl.
  - specialize (IHp1 s). destruct (run E p1 s) as [s1 [e|]]; [|exact IHp1]. eapply later_trans; [exact IHp1|apply IHp2].
Qed.

(** ** Once an exception is marked no context ignores it any more, whatever the program does *)
Theorem C149_never E p s : exists l, ignored (fst (run E p s)) = ignored s ++ l /\ forall e, In e (marks s) -> ~ In e l /\ In e (marks (fst (run E p s))).
Proof. destruct (run_later E p s) as (M & _ & _ & l & I & N). exists l. split; [exact I|]. intros e H. split; [apply N, H|apply M, H]. Qed.

(** ** From a decorated function an exception goes through all contexts around the call, and nothing else happens on its way *)
Fixpoint around (layers : list (bool * prog)) (p : prog) : prog :=
  match layers with
  | [] => p
  | (report, q) :: layers => around layers (Seq (Ctx report p) q)
  end.

Theorem C149_decorated E layers p s s' e : run E p s = (s', Some e) -> settable E e = true ->
  run E (around layers (Call true p)) s = (mkState (e :: marks s') (done s') (reported s') (ignored s'), Some e).
Proof.
  intros R S. set (t := mkState (e :: marks s') (done s') (reported s') (ignored s')).
  assert (B : run E (Call true p) s = (t, Some e)) by (cbn [run]; rewrite R; unfold noswallow; rewrite S; reflexivity).
  revert B. generalize (Call true p). induction layers as [|[report q] layers IH]; intros c B; [exact B|]. cbn [around]. apply IH. cbn [run]. rewrite B.
  replace (marked e t) with true by (symmetry; apply marked_iff; left; reflexivity). reflexivity.
Qed.

(** ** Of an exception without the mark, of whatever type it is, the context only keeps that it was there; then the program goes on *)
Theorem C149_swallowed E report p q s s' e : run E p s = (s', Some e) -> ~ In e (marks s') -> (forall x, capture E x = None) ->
  run E (Seq (Ctx report p) q) s =
  run E q (mkState (marks s') (done s') (if report && raven E && dsn E then reported s' ++ [e] else reported s') (ignored s' ++ [e])).
Proof.
  intros R N C. cbn [run]. rewrite R. destruct (marked e s') eqn:M; [apply marked_iff in M; contradiction|]. unfold capture_sentry. rewrite C.
  destruct report, (raven E), (dsn E); reflexivity.
Qed.

(** without an exception the context does nothing; what it lets through is marked *)
Theorem C149_through E report p s : 
  (forall s', run E p s = (s', None) -> run E (Ctx report p) s = (s', None)) /\
  (forall s' e, (forall x, capture E x = None) -> run E (Ctx report p) s = (s', Some e) -> In e (marks s') /\ run E p s = (s', Some e)).
Proof.
  split; intros s'; cbn [run]; [intros ->; reflexivity|]. intros e C H. destruct (run E p s) as [s1 [x|]]; [|discriminate].
  destruct (marked x s1) eqn:M; [injection H as <- <-; apply marked_iff in M; auto|]. unfold capture_sentry in H. rewrite C in H. destruct report, (raven E && dsn E); discriminate H.
Qed.

(** ** With a client every ignored exception is reported, and only those, in this order, if no context is told not to report *)
Fixpoint all_report (p : prog) : Prop :=
  match p with
  | Ctx report p => report = true /\ all_report p
  | Seq p q | Try p q => all_report p /\ all_report q
  | Call _ p => all_report p
  | _ => True
  end.

Theorem C149_reported E p : (forall x, capture E x = None) -> all_report p ->
  reported (fst (run E p state0)) = if raven E && dsn E then ignored (fst (run E p state0)) else [].
Proof.
  intros C A.
  assert (G : forall s, (if raven E && dsn E then reported s = ignored s else reported s = []) ->
              if raven E && dsn E then reported (fst (run E p s)) = ignored (fst (run E p s)) else reported (fst (run E p s)) = []).
  { induction p; intros s H; cbn [run all_report] in *.
    - exact H.
    - exact H.
    - unfold noswallow. destruct (settable E e); exact H.
    - destruct A as [A1 A2]. specialize (IHp1 A1 s H). destruct (run E p1 s) as [s1 [e|]]; [exact IHp1|apply (IHp2 A2), IHp1].
    - destruct A as [-> A]. specialize (IHp A s H). destruct (run E p s) as [s1 [e|]]; [|exact IHp]. destruct (marked e s1); [exact IHp|].
      cbv iota. unfold capture_sentry. rewrite C. destruct (raven E && dsn E); cbn in *; [rewrite IHp; reflexivity|exact IHp].
    - specialize (IHp A s H). destruct decorated; [|exact IHp]. destruct (run E p s) as [s1 [e|]]; [|exact IHp]. unfold noswallow. destruct (settable E e); exact IHp.
    - exact H.
    - destruct A as [A1 A2]. specialize (IHp1 A1 s H). destruct (run E p1 s) as [s1 [e|]]; [apply (IHp2 A2), IHp1|exact IHp1]. }
  specialize (G state0). destruct (raven E && dsn E); apply G; reflexivity.
Qed.

Definition plain : env := mkEnv (fun _ => true) true true (fun _ => None).

Example C149_ex : run plain (Seq (Ctx true (Seq (Do 1) (Raise 7))) (Ctx true (Seq (Ctx false (Raise 8)) (Ctx true (Seq (Call true (Seq (Do 2) (Raise 9))) (Do 3)))))) state0
  = (mkState [9] [1; 2] [7] [7; 8], Some 9).
Proof. reflexivity. Qed.

(** *** Stronger expectations that fail *)

(** a decorated class of exceptions becomes a function whose instances have no mark: they are swallowed *)
Theorem C149_class_refuted : exists e, settable plain e = true /\ run plain (Ctx true (RaiseInstance true e)) state0 = (mkState [] [] [e] [e], None).
Proof. exists 7. split; reflexivity. Qed.

(** a mark that cannot be set is lost, so the exception is swallowed although its function is decorated *)
Theorem C149_settable_refuted : exists E e, run E (Ctx false (Call true (Raise e))) state0 = (mkState [] [] [] [e], None).
Proof. exists (mkEnv (fun _ => false) false false (fun _ => None)), 7. reflexivity. Qed.

(** an error of the client leaves the context, instead of the exception that was to be swallowed *)
Theorem C149_client_refuted : exists E e x, e <> x /\ run E (Ctx true (Raise e)) state0 = (state0, Some x).
Proof. exists (mkEnv (fun _ => true) true true (fun _ => Some 8)), 7, 8. split; [discriminate|reflexivity]. Qed.

Print Assumptions C149_never.
Print Assumptions C149_decorated.
Print Assumptions C149_swallowed.
Print Assumptions C149_through.
Print Assumptions C149_reported.
Print Assumptions C149_class_refuted.
Print Assumptions C149_settable_refuted.
Print Assumptions C149_client_refuted.
