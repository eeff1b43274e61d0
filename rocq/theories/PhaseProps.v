(** C85: slash.get_current_cleanup_phase() and slash.is_in_cleanup() tell the
    truth, in every session: what they answer is determined by which cleanup is
    being called at that moment. *)

From Coq Require Import List Bool Arith PeanoNat Lia.
From Verif Require Import Events Core CleanupProps Phase.
Import ListNotations.

(** opening or ending the closing of a scope (specification, no code of /repo) *)
Definition closing (e : event) : bool :=
  match e with EvPopBegin _ _ _ _ | EvPopEnd _ _ _ => true | _ => false end.

(** After the events [a], a cleanup of the scope [sid] named [n] is being
    called: closing of that scope has begun, since then no closing has begun
    or ended, and a cleanup has been called since.
    (specification, no code of /repo) *)
Definition in_cleanup_of (sid : nat) (n : sname) (a : list event) : Prop :=
  exists a1 f i a2 cid a3, a = a1 ++ EvPopBegin sid n f i :: a2 ++ EvRun cid :: a3 /\
    (forall e, In e a2 -> closing e = false) /\ (forall e, In e a3 -> closing e = false).

Lemma scan_quiet l q : (forall e, In e l -> closing e = false) -> fst (fold_left scan1 l q) = fst q.
Proof.
  revert q. induction l as [|e l IH]; intros q H; auto. cbn [fold_left]. rewrite IH by (intros; apply H; simpl; auto).
  specialize (H e (or_introl eq_refl)). destruct e; auto; discriminate.
Qed.
Lemma scan_quiet' l c : (forall e, In e l -> closing e = false) -> fold_left scan1 l (Some c, Some c) = (Some c, Some c).
Proof.
  induction l as [|e l IH]; intros H; auto. cbn [fold_left].
  replace (scan1 (Some c, Some c) e) with (Some c, Some c); [apply IH; intros; apply H; simpl; auto|].
  specialize (H e (or_introl eq_refl)). destruct e; auto; discriminate.
Qed.

Lemma scan_fst a sid : fst (scan a) = Some sid ->
  exists a1 n f i a2, a = a1 ++ EvPopBegin sid n f i :: a2 /\ (forall e, In e a2 -> closing e = false).
Proof.
  induction a as [|e a IH] using rev_ind; [discriminate|]. rewrite scan_snoc. intros H.
  assert (G : closing e = false -> fst (scan a) = Some sid -> exists a1 n f i a2, a ++ [e] = a1 ++ EvPopBegin sid n f i :: a2 /\ (forall e, In e a2 -> closing e = false)).
  { intros C Q. destruct (IH Q) as (a1 & n & f & i & a2 & -> & F). exists a1, n, f, i, (a2 ++ [e]).
    rewrite <- app_assoc. split; auto. intros e' I. apply in_app_or in I as [I|[<-|[]]]; auto. }
  destruct e; cbn [scan1 fst] in H; try (apply G; auto; fail); try discriminate.
  injection H as ->. repeat eexists. intros e [].  
Qed.

Lemma scan_snd a sid : snd (scan a) = Some sid -> exists n, in_cleanup_of sid n a.
Proof.
  induction a as [|e a IH] using rev_ind; [discriminate|]. rewrite scan_snoc. intros H.
  assert (G : closing e = false -> snd (scan a) = Some sid -> exists n, in_cleanup_of sid n (a ++ [e])).
  { intros C Q. destruct (IH Q) as (n & a1 & f & i & a2 & cid & a3 & -> & F2 & F3). exists n, a1, f, i, a2, cid, (a3 ++ [e]).
    rewrite <- app_assoc. simpl. rewrite <- app_assoc. repeat split; auto. intros e' I. apply in_app_or in I as [I|[<-|[]]]; auto. }
  destruct e; cbn [scan1 snd] in H; try (apply G; auto; fail); try discriminate.
  apply scan_fst in H. destruct H as (a1 & n & f & i & a2 & -> & F). exists n, a1, f, i, a2, cid, [].
  rewrite <- app_assoc. repeat split; auto. intros e [].
Qed.

Lemma in_cleanup_scan a sid n : in_cleanup_of sid n a -> snd (scan a) = Some sid.
Proof.
  intros (a1 & f & i & a2 & cid & a3 & -> & F2 & F3). unfold scan.
  rewrite fold_left_app. cbn [fold_left scan1]. rewrite fold_left_app. cbn [fold_left scan1].
  rewrite scan_quiet by auto. cbn [fst]. rewrite scan_quiet' by auto. auto.
Qed.

(** Whoever asks - a test, a cleanup, a hook handler, a fixture finalizer, at
    any point of any session - is answered with a scope exactly when a cleanup
    of that scope is being called at that moment. *)
Theorem C85_phase_is_the_scope_cleaned_up : forall E ts a p b,
  session_trace E ts = a ++ EvPhase p :: b ->
  forall sid, p = Some sid <-> exists n, in_cleanup_of sid n a.
Proof.
  intros E ts a p b H sid. rewrite (phase_session E ts a p b H). split.
  - apply scan_snd.
  - intros (n & I). eapply in_cleanup_scan; eauto.
Qed.

(** is_in_cleanup() is True exactly while a cleanup is being called. *)
Theorem C85_is_in_cleanup : forall E ts a p b,
  session_trace E ts = a ++ EvPhase p :: b ->
  p <> None <-> exists sid n, in_cleanup_of sid n a.
Proof.
  intros E ts a p b H. split.
  - destruct p as [sid|]; [|contradiction]. intros _. exists sid. apply (C85_phase_is_the_scope_cleaned_up E ts a _ b H). auto.
  - intros (sid & n & I). assert (p = Some sid) by (apply (C85_phase_is_the_scope_cleaned_up E ts a _ b H); eauto). congruence.
Qed.

(** When the closing of a scope has ended, nobody is told that a cleanup is in
    progress until the next closing begins - in particular fixture finalizers,
    which run after the cleanups of their scope, are not. *)
Theorem C85_not_in_cleanup_after_closing : forall E ts a1 sid n ok a2 p b,
  session_trace E ts = (a1 ++ EvPopEnd sid n ok :: a2) ++ EvPhase p :: b ->
  (forall e, In e a2 -> closing e = false) -> p = None.
Proof.
  intros E ts a1 sid n ok a2 p b H F. rewrite (phase_session E ts _ p b H). unfold scan.
  rewrite fold_left_app. cbn [fold_left scan1].
  clear H. induction a2 as [|e a2 IH]; auto. cbn [fold_left].
  replace (scan1 (None, None) e) with (@None nat, @None nat); [apply IH; intros; apply F; simpl; auto|].
  specialize (F e (or_introl eq_refl)). destruct e; auto; discriminate.
Qed.

(** Nor is anybody before the first cleanup of the scope is called - in
    particular handlers of before_test_cleanups. *)
Theorem C85_not_in_cleanup_before_first : forall E ts a1 sid n f i a2 p b,
  session_trace E ts = (a1 ++ EvPopBegin sid n f i :: a2) ++ EvPhase p :: b ->
  (forall e, In e a2 -> closing e = false /\ forall cid, e <> EvRun cid) -> p = None.
Proof.
  intros E ts a1 sid n f i a2 p b H F. rewrite (phase_session E ts _ p b H). unfold scan.
  rewrite fold_left_app. cbn [fold_left scan1].
  clear H. induction a2 as [|e a2 IH]; auto. cbn [fold_left].
  replace (scan1 (Some sid, None) e) with (Some sid, @None nat); [apply IH; intros; apply F; simpl; auto|].
  destruct (F e (or_introl eq_refl)) as [C R]. destruct e; auto; try discriminate. exfalso; eapply R; eauto.
Qed.

(** ** Non-vacuity *)

(** handlers of every hook ask for the phase; cleanups too, one of them while
    it handles an exception, one registered by another; so does the finalizer
    of a fixture and, in its finally block, the test *)
Definition ph_env : env := mkEnv (fun _ _ => PPhase PDone) (fun n => (KUser n, false)) [] false false 0 (fun _ _ => false).
Definition ph_test : test :=
  mkTest 7 (Some 1) 1 PDone 0 false
    (PFixture FTest (PPhase PDone)
    (PAdd SDefault false false (PPhase (PAdd SDefault false false (PPhase PDone) PDone))
    (PAdd (SGiven (Some SSession)) true false (PCatch [TException] (PRaise (KUser 3) false) (PPhase PDone))
    (PFinally (PRaise KAssertion false) (PPhase PDone) PDone)))).

Definition phases (t : list event) : list (option nat) :=
  flat_map (fun e => match e with EvPhase p => [p] | _ => [] end) t.

Example C85_hypotheses_met :
  phases (session_trace ph_env [ph_test]) =
    [None; None; None; None; None; None; Some 3; Some 3; None; None; None; None; Some 1; None; None].
Proof. vm_compute. reflexivity. Qed.

Print Assumptions C85_phase_is_the_scope_cleaned_up.
Print Assumptions C85_is_in_cleanup.
Print Assumptions C85_not_in_cleanup_after_closing.
Print Assumptions C85_not_in_cleanup_before_first.
