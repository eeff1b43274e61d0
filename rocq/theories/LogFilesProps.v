(** C54: the log of an unsuccessful test is kept. *)

From Coq Require Import List Bool Arith Lia.
From Verif Require Import Events Core Dict Results ResultsProps LogFiles.
Import ListNotations.

Definition has (p id : nat) (s : lstate) : Prop := exists l, d_get p (ls_files s) = Some l /\ In id l.

Lemma existsb_In p l : existsb (Nat.eqb p) l = true <-> In p l.
Proof.
  rewrite existsb_exists. split.
  - intros (x & I & E). apply Nat.eqb_eq in E. subst. auto.
  - intro I. exists p. split; auto. apply Nat.eqb_refl.
Qed.

Lemma filter_ne_id p l : ~ In p l -> filter (fun q => negb (Nat.eqb p q)) l = l.
Proof.
  induction l as [|q l IH]; simpl; intro N; auto.
  destruct (Nat.eqb_spec p q) as [->|]; [tauto|]. simpl. rewrite IH; tauto.
Qed.

(** a body that leaves the set of open files as it is *)
Definition keeps_open (body : lstate -> lstate) : Prop := forall s, ls_open (body s) = ls_open s.

Lemma with_files_open K o ps body : keeps_open body -> keeps_open (with_files K o ps body).
Proof.
  intro B. induction ps as [|p ps IH]; intro s; simpl; [apply B|].
  destruct (existsb (Nat.eqb p) (ls_open s)) eqn:E; [apply IH|]. simpl. rewrite IH. simpl. rewrite Nat.eqb_refl. simpl.
  apply filter_ne_id. intro I. apply existsb_In in I. congruence.
Qed.

(** files outside the paths are touched by the body only *)
Lemma with_files_other K o ps body p (P : option (list nat) -> Prop) s :
  ~ In p ps ->
  (forall s', d_get p (ls_files s') = d_get p (ls_files s) ->
     (forall q, In q (ls_open s) -> In q (ls_open s')) -> P (d_get p (ls_files (body s')))) ->
  P (d_get p (ls_files (with_files K o ps body s))).
Proof.
  revert s. induction ps as [|q ps IH]; intros s N H; simpl.
  - apply H; auto.
  - simpl in N. destruct (existsb (Nat.eqb q) (ls_open s)); [apply IH; auto|]. simpl.
    assert (X : P (d_get p (ls_files (with_files K o ps body
              (mkLs (d_set q (content q s) (ls_files s)) (q :: ls_open s)))))).
    { apply IH; [tauto|]. simpl. intros s' E1 E2. apply H; auto.
      rewrite E1. apply d_get_set_other. intro; subst; tauto. }
    destruct (l_enabled K && should_delete K o); auto.
    rewrite d_get_del. destruct (Nat.eqb_spec p q); [subst; tauto|auto].
Qed.

(** an unopened path of the context: the body runs with the file open, and the file
    is kept or deleted in the end *)
Lemma with_files_own K o ps body p (P : option (list nat) -> Prop) s :
  In p ps -> ~ In p (ls_open s) ->
  (forall s', In p (ls_open s') -> P (d_get p (ls_files (body s')))) ->
  if l_enabled K && should_delete K o
  then d_get p (ls_files (with_files K o ps body s)) = None
  else P (d_get p (ls_files (with_files K o ps body s))).
Proof.
  revert s. induction ps as [|q ps IH]; intros s I N H; [destruct I|]. simpl.
  assert (Y : forall s, In p (ls_open s) -> P (d_get p (ls_files (with_files K o ps body s)))).
  { clear - H. induction ps as [|q ps IH]; intros s I; simpl; [auto|].
    destruct (existsb (Nat.eqb q) (ls_open s)) eqn:E; [auto|]. simpl.
    assert (X : P (d_get p (ls_files (with_files K o ps body
              (mkLs (d_set q (content q s) (ls_files s)) (q :: ls_open s)))))).
    { apply IH. simpl. auto. }
    destruct (l_enabled K && should_delete K o); auto. rewrite d_get_del.
    destruct (Nat.eqb_spec p q); [|auto]. subst. exfalso. apply existsb_In in I. congruence. }
  destruct (existsb (Nat.eqb q) (ls_open s)) eqn:E.
  - apply IH; auto. destruct I as [->|]; auto. apply existsb_In in E. tauto.
  - simpl. destruct (Nat.eq_dec q p) as [->|D].
    + set (s1 := mkLs (d_set p (content p s) (ls_files s)) (p :: ls_open s)).
      assert (X : P (d_get p (ls_files (with_files K o ps body s1)))) by (apply Y; simpl; auto).
      destruct (l_enabled K && should_delete K o); auto. rewrite d_get_del, Nat.eqb_refl. auto.
    + destruct I as [->|I]; [tauto|].
      specialize (IH (mkLs (d_set q (content q s) (ls_files s)) (q :: ls_open s)) I).
      simpl in IH. specialize (IH ltac:(intros [Q|Q]; [auto|tauto]) H).
      destruct (l_enabled K && should_delete K o); auto. rewrite d_get_del.
      destruct (Nat.eqb_spec p q); auto.
Qed.

Lemma writes_open id ps : keeps_open (fun s => fold_left (fun s p => write id p s) ps s).
Proof.
  unfold keeps_open. induction ps as [|p ps IH]; intro s; simpl; auto. rewrite IH. auto.
Qed.

Lemma writes_other id ps p s : ~ In p ps ->
  d_get p (ls_files (fold_left (fun s p => write id p s) ps s)) = d_get p (ls_files s).
Proof.
  revert s. induction ps as [|q ps IH]; intros s N; simpl; auto. simpl in N.
  rewrite IH by tauto. unfold write. simpl. apply d_get_set_other. intro; subst; tauto.
Qed.

Lemma writes_keep id ps p s x : has p x s -> has p x (fold_left (fun s p => write id p s) ps s).
Proof.
  revert s. induction ps as [|q ps IH]; intros s H; simpl; auto. apply IH.
  destruct H as (l & G & I). unfold has, write, content. simpl. rewrite d_get_set.
  destruct (Nat.eqb_spec p q) as [->|]; [|eauto]. rewrite G. eexists. split; [reflexivity|]. apply in_or_app. auto.
Qed.

Lemma writes_own id ps p s : In p ps -> has p id (fold_left (fun s p => write id p s) ps s).
Proof.
  revert s. induction ps as [|q ps IH]; intros s I; [destruct I|]. simpl.
  destruct (in_dec Nat.eq_dec p ps) as [J|J]; [auto|]. destruct I as [->|I]; [|tauto].
  apply writes_keep. unfold has, write. simpl. rewrite d_get_set_same. eexists. split; [reflexivity|].
  apply in_or_app. right. left. auto.
Qed.

Lemma test_open K t : keeps_open (run_test K t).
Proof. apply with_files_open. apply writes_open. Qed.

Lemma tests_open K ts : keeps_open (fun s => fold_left (fun s t => run_test K t s) ts s).
Proof.
  unfold keeps_open. induction ts as [|t ts IH]; intro s; simpl; auto. rewrite IH. apply test_open.
Qed.

Lemma test_other K t p s : ~ In p (lt_paths t) ->
  d_get p (ls_files (run_test K t s)) = d_get p (ls_files s).
Proof.
  intro N. unfold run_test.
  apply (with_files_other K _ _ _ p (fun g => g = d_get p (ls_files s))); auto.
  intros s' E _. rewrite writes_other; auto.
Qed.

Lemma tests_other K ts p s : (forall t, In t ts -> ~ In p (lt_paths t)) ->
  d_get p (ls_files (fold_left (fun s t => run_test K t s) ts s)) = d_get p (ls_files s).
Proof.
  revert s. induction ts as [|t ts IH]; intros s H; simpl; auto.
  rewrite IH; [|intros; apply H; simpl; auto]. apply test_other. apply H. simpl. auto.
Qed.

Definition deleted (K : lconfig) (r : result) : Prop :=
  l_enabled K = true /\ (l_keep_failed K = false \/ good true r).

Lemma should_delete_iff K r : l_enabled K && should_delete K (OTest r) = true <-> deleted K r.
Proof.
  unfold deleted, should_delete. rewrite andb_true_iff, orb_true_iff, negb_true_iff, is_success_good. tauto.
Qed.

(** A log file that belongs to one test only, after the session: it is gone if
    cleanup is on and (failed logs are not to be kept or the test was a success,
    skips included); otherwise it exists and has what the test logged. *)
Theorem C54_kept_partial K sid spaths R ts1 t ts2 s p :
  ls_open s = [] ->
  In p (lt_paths t) -> ~ In p spaths ->
  (forall t', In t' (ts1 ++ ts2) -> ~ In p (lt_paths t')) ->
  let final := run_logs K sid spaths R (ts1 ++ t :: ts2) s in
  (deleted K (lt_result t) -> d_get p (ls_files final) = None)
  /\ (~ deleted K (lt_result t) -> has p (lt_id t) final).
Proof.
  intros O I NS NO. cbv zeta. unfold run_logs.
  set (Q := fun g : option (list nat) =>
       (deleted K (lt_result t) -> g = None)
       /\ (~ deleted K (lt_result t) -> exists l, g = Some l /\ In (lt_id t) l)).
  enough (X : Q (d_get p (ls_files (with_files K (OSession R) spaths
    (fun s => fold_left (fun s t => run_test K t s) (ts1 ++ t :: ts2)
                (fold_left (fun s p => write sid p s) spaths s)) s)))) by exact X.
  (* the paths open while the tests run are those of the session *)
  assert (G : forall ps body s0, keeps_open body -> ~ In p ps -> ~ In p (ls_open s0) ->
    (forall s', ~ In p (ls_open s') -> Q (d_get p (ls_files (body s')))) ->
    Q (d_get p (ls_files (with_files K (OSession R) ps body s0)))).
  { induction ps as [|q ps IH]; intros body s0 KB N1 N2 H; simpl; [auto|]. simpl in N1.
    destruct (existsb (Nat.eqb q) (ls_open s0)); [apply IH; auto|]. simpl.
    assert (X : Q (d_get p (ls_files (with_files K (OSession R) ps body
              (mkLs (d_set q (content q s0) (ls_files s0)) (q :: ls_open s0)))))).
    { apply IH; auto. simpl. tauto. }
    destruct (l_enabled K && should_delete K (OSession R)); auto.
    rewrite d_get_del. destruct (Nat.eqb_spec p q); [subst; tauto|auto]. }
  apply G; auto.
  - intro s'. rewrite (tests_open K (ts1 ++ t :: ts2)). apply writes_open.
  - rewrite O. auto.
  - clear G. intros s' N. rewrite fold_left_app. simpl.
    rewrite tests_other by (intros t' J; apply NO; apply in_or_app; auto).
    match goal with |- Q (d_get p (ls_files (run_test K t ?x))) => set (s2 := x) end.
    assert (N2 : ~ In p (ls_open s2)).
    { subst s2. rewrite (tests_open K ts1). rewrite (writes_open sid spaths). auto. }
    clearbody s2. unfold run_test.
    pose proof (with_files_own K (OTest (lt_result t)) (lt_paths t)
       (fun s => fold_left (fun s p => write (lt_id t) p s) (lt_paths t) s) p
       (fun g => exists l, g = Some l /\ In (lt_id t) l) s2 I N2) as W.
    specialize (W (fun s' _ => writes_own (lt_id t) (lt_paths t) p s' I)).
    unfold Q. destruct (l_enabled K && should_delete K (OTest (lt_result t))) eqn:D.
    + apply should_delete_iff in D. split; auto. tauto.
    + split; auto. intro X. apply should_delete_iff in X. congruence.
Qed.

(** With cleanup off no file is ever removed. *)
Theorem C54_cleanup_off K sid spaths R ts s t p :
  l_enabled K = false -> In t ts -> In p (lt_paths t) ->
  has p (lt_id t) (run_logs K sid spaths R ts s).
Proof.
  intros E I J. unfold run_logs.
  assert (W : forall o ps body s0, (forall s', has p (lt_id t) (body s')) -> has p (lt_id t) (with_files K o ps body s0)).
  { intros o ps body. induction ps as [|q ps IH]; intros s0 H; simpl; auto.
    destruct (existsb (Nat.eqb q) (ls_open s0)); auto.
    rewrite E. simpl. unfold has. simpl. apply (IH (mkLs (d_set q (content q s0) (ls_files s0)) (q :: ls_open s0)) H). }
  assert (PR : forall o ps body s0, has p (lt_id t) s0 -> (forall s', has p (lt_id t) s' -> has p (lt_id t) (body s')) ->
     has p (lt_id t) (with_files K o ps body s0)).
  { intros o ps body. induction ps as [|q ps IH]; intros s0 H0 H; simpl; auto.
    destruct (existsb (Nat.eqb q) (ls_open s0)); auto.
    rewrite E. simpl. unfold has. simpl.
    apply (IH (mkLs (d_set q (content q s0) (ls_files s0)) (q :: ls_open s0))); auto.
    destruct H0 as (l & G & L). unfold has. simpl. rewrite d_get_set. destruct (Nat.eqb_spec p q) as [->|]; [|eauto].
    unfold content. rewrite G. eauto. }
  apply W. intro s'. generalize (fold_left (fun s p => write sid p s) spaths s'). clear s'.
  apply in_split in I as (t1 & t2 & ->). intro s'. rewrite fold_left_app. simpl.
  assert (X : has p (lt_id t) (run_test K t (fold_left (fun s t => run_test K t s) t1 s'))).
  { apply W. intro. apply writes_own. auto. }
  revert X. generalize (run_test K t (fold_left (fun s t => run_test K t s) t1 s')).
  induction t2 as [|u t2 IH]; intros s2 X; simpl; auto. apply IH.
  apply PR; auto. intros s3 H. apply writes_keep. auto.
Qed.

(** Two tests logging to one path: the success of the second deletes the log of the
    failure of the first. *)
Definition ex_ok := mkResult [] [] [] true true false.
Definition ex_failed := mkResult [] [mkEntry None false] [] true true false.
Definition ex_results := mkResults [(1, ex_failed); (2, ex_ok)] (mkResult [] [] [] true true false) false false.

Theorem C54_refuted :
  exists K sid spaths R ts s t p,
    l_keep_failed K = true /\ ls_open s = [] /\ In t ts /\ In p (lt_paths t) /\ ~ In p spaths
    /\ r_failures (lt_result t) <> []
    /\ d_get p (ls_files (run_logs K sid spaths R ts s)) = None.
Proof.
  exists (mkLconfig true true), 0, [100], ex_results,
    [mkLtest 1 [7] ex_failed; mkLtest 2 [7] ex_ok], (mkLs [] []), (mkLtest 1 [7] ex_failed), 7.
  split; [auto|]. split; [auto|]. split; [simpl; auto|]. split; [simpl; auto|].
  split; [simpl; intuition discriminate|]. split; [discriminate|reflexivity].
Qed.

(** The log of the session (every file its own context opens), whatever the tests
    write to it: it is deleted if clean-up is on and either failed logs are not
    kept or nothing went wrong in the session, and otherwise stays with what the
    session logged *)
Definition nothing_wrong (R : results) : Prop :=
  good true (sr_global R) /\ ~ (sr_children R = true /\ sr_worker_error R = true) /\
  forall t r, In (t, r) (sr_dict R) -> good true r.

Theorem C54_session_log K sid spaths R ts s p :
  ls_open s = [] -> In p spaths ->
  let final := run_logs K sid spaths R ts s in
  (l_enabled K = true -> l_keep_failed K = false \/ nothing_wrong R -> d_get p (ls_files final) = None) /\
  (l_enabled K = false \/ (l_keep_failed K = true /\ ~ nothing_wrong R) -> has p sid final).
Proof.
  intros O I. cbv zeta. unfold run_logs.
  set (body := fun s => fold_left (fun s t => run_test K t s) ts (fold_left (fun s p => write sid p s) spaths s)).
  assert (HB : forall s', In p (ls_open s') -> exists l, d_get p (ls_files (body s')) = Some l /\ In sid l).
  { intros s' Hs'. unfold body.
    assert (W : forall id l s0, has p sid s0 -> has p sid (fold_left (fun s p => write id p s) l s0)).
    { intros id l. induction l as [|q l IH]; intros s0 H; [exact H|]. cbn [fold_left]. apply IH.
      destruct H as (x & H1 & H2). unfold has, write. cbn [ls_files]. rewrite d_get_set.
      destruct (Nat.eqb_spec p q) as [->|]; [|eauto]. unfold content. rewrite H1. eexists. split; [reflexivity|]. apply in_or_app. auto. }
    assert (W1 : forall id l s0, ls_open (fold_left (fun s p => write id p s) l s0) = ls_open s0).
    { intros id l. induction l as [|q l IH]; intros s0; [reflexivity|]. cbn [fold_left]. rewrite IH. reflexivity. }
    assert (W2 : forall l s0, In p l -> has p sid (fold_left (fun s p => write sid p s) l s0)).
    { induction l as [|q l IH]; intros s0 Hl; [destruct Hl|]. cbn [fold_left]. destruct Hl as [->|Hl]; [|apply IH, Hl].
      apply W. unfold has, write. cbn [ls_files]. rewrite d_get_set, Nat.eqb_refl. eexists. split; [reflexivity|]. apply in_or_app. right. left. reflexivity. }
    assert (T : forall o ps (b : lstate -> lstate), (forall s0, has p sid s0 -> has p sid (b s0)) ->
      forall s0, In p (ls_open s0) -> has p sid s0 -> has p sid (with_files K o ps b s0)).
    { intros o ps b Hb. induction ps as [|q ps IH]; intros s0 H1 H2; [apply Hb, H2|]. cbn [with_files].
      destruct (existsb (Nat.eqb q) (ls_open s0)) eqn:Eq; [apply IH; auto|].
      assert (Ne : p <> q) by (intros ->; apply existsb_In in H1; congruence).
      assert (H3 : has p sid (with_files K o ps b (mkLs (d_set q (content q s0) (ls_files s0)) (q :: ls_open s0)))).
      { apply IH; [right; exact H1|]. destruct H2 as (l & X & Y). exists l. split; [|exact Y]. cbn [ls_files]. rewrite d_get_set.
        destruct (Nat.eqb_spec p q); [contradiction|exact X]. }
      destruct H3 as (l & X & Y). unfold has. cbn [ls_files]. destruct (l_enabled K && should_delete K o); [|eauto].
      rewrite d_get_del. destruct (Nat.eqb_spec p q); [contradiction|eauto]. }
    assert (T1 : forall t, keeps_open (run_test K t)).
    { intros t. apply with_files_open. intros s0. apply W1. }
    specialize (W2 spaths s' I). assert (Ho : In p (ls_open (fold_left (fun s p => write sid p s) spaths s'))) by (rewrite W1; exact Hs').
    revert W2 Ho. generalize (fold_left (fun s p => write sid p s) spaths s') as s0. clear - T T1 W.
    induction ts as [|t ts IH]; intros s0 H1 H2; [exact H1|]. cbn [fold_left]. apply IH.
    - apply T; [intros s1 H; apply W, H|exact H2|exact H1].
    - rewrite T1. exact H2. }
  pose proof (with_files_own K (OSession R) spaths body p (fun g => exists l, g = Some l /\ In sid l) s I) as X.
  rewrite O in X. specialize (X (fun f => f) HB).
  assert (D : should_delete K (OSession R) = true <-> l_keep_failed K = false \/ nothing_wrong R).
  { unfold should_delete. rewrite orb_true_iff, negb_true_iff. unfold nothing_wrong. rewrite <- C14_success_iff. tauto. }
  split.
  - intros He Hd. apply D in Hd. rewrite He, Hd in X. exact X.
  - intros Hk. assert (E : l_enabled K && should_delete K (OSession R) = false).
    { destruct Hk as [->|[H1 H2]]; [reflexivity|]. apply andb_false_iff. right. destruct (should_delete K (OSession R)) eqn:Es; [|reflexivity].
      destruct (proj1 D eq_refl) as [Q|Q]; [congruence|contradiction]. }
    rewrite E in X. exact X.
Qed.

(** separate paths; the third test's highlights go to its own log *)
Example C54_ex :
  run_logs (mkLconfig true true) 0 [100] ex_results
    [mkLtest 1 [11] ex_failed; mkLtest 2 [12] ex_ok; mkLtest 3 [13; 13] ex_failed] (mkLs [] [])
  = mkLs [(100, [0]); (11, [1]); (13, [3; 3])] [].
Proof. reflexivity. Qed.

(** the session log above (path 100) is kept because of the failed tests *)
Example C54_session_ex : ls_open (mkLs [] []) = [] /\ In 100 [100] /\ l_keep_failed (mkLconfig true true) = true /\
  ~ nothing_wrong (mkResults [(1, ex_failed)] result0 false false).
Proof.
  split; [reflexivity|]. split; [left; reflexivity|]. split; [reflexivity|].
  intros (_ & _ & H). destruct (H 1 ex_failed (or_introl eq_refl)) as [_ Q _ _ _]. discriminate.
Qed.

Example C54_ex_deleted : deleted (mkLconfig true true) ex_ok /\ ~ deleted (mkLconfig true true) ex_failed.
Proof.
  split.
  - split; auto. right. constructor; auto; intros; discriminate.
  - intros [_ [Q|[_ Q _ _ _]]]; discriminate.
Qed.

Print Assumptions C54_kept_partial.
Print Assumptions C54_cleanup_off.
Print Assumptions C54_refuted.
Print Assumptions C54_session_log.
