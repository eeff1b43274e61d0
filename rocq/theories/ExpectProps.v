(** Properties of assert_raises (Expect.v): C78. *)

From Coq Require Import List Bool Arith Lia.
From Verif Require Import Expect.
Import ListNotations.

Section P.
Variable sub : nat -> nat -> bool.
Variable nct : nat.
Variable never : list nat.

Notation exec := (exec sub nct never).
Notation inst := (inst sub nct).

Lemma inst_app x a b : inst x (a ++ b) = inst x a || inst x b.
Proof. unfold Expect.inst. apply existsb_app. Qed.

(** handling contexts are created where they are entered *)
Fixpoint fresh (p : prog) : Prop :=
  match p with
  | PDone | PRaise _ => True
  | PSeq p q | PTry _ p q => fresh p /\ fresh q
  | PHandle old _ _ p => old = None /\ fresh p
  | PExpect _ _ _ p => fresh p
  end.

(** no try blocks, and no further expectations *)
Fixpoint plain (p : prog) : Prop :=
  match p with
  | PDone | PRaise _ => True
  | PSeq p q => plain p /\ plain q
  | PHandle _ _ _ p => plain p
  | PExpect _ _ _ _ | PTry _ _ _ => False
  end.

(** ** The ignored types are as before after every program *)
Theorem C78_restored p : forall s, s_ignored (fst (exec p s)) = s_ignored s.
Proof.
  induction p as [|x|p IHp q IHq|old pass sw p IHp|k types ensure p IHp|types p IHp q IHq]; intros s; simpl; auto.
  - specialize (IHp s). destruct (exec p s) as [s' [x|]]; simpl in *; auto. rewrite IHq; auto.
  - specialize (IHp s). destruct (exec p s) as [s' [x|]]; simpl in *; auto.
    destruct (inst x _); simpl; auto.
    assert (H : s_ignored (handle x s') = s_ignored s') by (unfold handle; destruct (existsb _ _); auto).
    destruct (inst x never); simpl; [congruence|]. destruct (inst x sw); simpl; congruence.
  - destruct (exec p _) as [s' [x|]]; simpl; auto.
    + destruct (inst x types); auto.
    + destruct ensure; auto.
  - specialize (IHp s). destruct (exec p s) as [s' [x|]]; simpl in *; auto.
    destruct (inst x types); auto. rewrite IHq; auto.
Qed.

(** what a program adds to the trace *)
Lemma exec_trace p : forall s, exists t, s_trace (fst (exec p s)) = t ++ s_trace s.
Proof.
  induction p as [|x|p IHp q IHq|old pass sw p IHp|k types ensure p IHp|types p IHp q IHq]; intros s; simpl.
  - exists []; auto.
  - exists [ERaise x]; auto.
  - destruct (IHp s) as [t H]. destruct (exec p s) as [s' [x|]]; simpl in *; [eauto|].
    destruct (IHq s') as [t' H']. exists (t' ++ t). rewrite H', H. apply app_assoc.
  - destruct (IHp s) as [t H]. destruct (exec p s) as [s' [x|]]; simpl in *; [|eauto].
    destruct (inst x _); simpl; [eauto|].
    assert (K : exists t', s_trace (handle x s') = t' ++ s_trace s).
    { unfold handle. destruct (existsb _ _); simpl; [eauto|]. exists (ERecord x :: t). rewrite H. auto. }
    destruct (inst x never); simpl; [auto|]. destruct (inst x sw); simpl; auto.
  - destruct (IHp (set_ignored (s_ignored s ++ types) s)) as [t H]. destruct (exec p _) as [s' [x|]]; simpl in *.
    + destruct (inst x types); simpl; [|eauto]. exists (ECaught k x :: t). rewrite H. auto.
    + destruct ensure; simpl; [|eauto]. exists (ERaise (NotCaught k) :: t). rewrite H. auto.
  - destruct (IHp s) as [t H]. destruct (exec p s) as [s' [x|]]; simpl in *; [|eauto].
    destruct (inst x types); simpl; [|eauto].
    destruct (IHq s') as [t' H']. exists (t' ++ t). rewrite H', H. apply app_assoc.
Qed.

(** ** No exception that the thread ignores is recorded *)
Theorem C78_not_recorded p : fresh p -> forall s x,
  In (ERecord x) (s_trace (fst (exec p s))) -> inst x (s_ignored s) = true -> In (ERecord x) (s_trace s).
Proof.
  induction p as [|y|p IHp q IHq|old pass sw p IHp|k types ensure p IHp|types p IHp q IHq]; simpl; intros F s x I J; auto.
  - destruct I as [I|I]; [discriminate|auto].
  - assert (R := C78_restored p s). destruct F as [F1 F2]. specialize (IHp F1 s x).
    destruct (exec p s) as [s' [y|]]; simpl in *; auto. apply IHp; auto. apply (IHq F2 s' x I). congruence.
  - assert (R := C78_restored p s). destruct F as [-> F]. specialize (IHp F s x).
    destruct (exec p s) as [s' [y|]]; simpl in *; auto.
    destruct (inst y (pass ++ s_ignored s)) eqn:Y; simpl in *; auto.
    rewrite inst_app in Y. apply orb_false_iff in Y as [_ Y].
    assert (K : In (ERecord x) (s_trace (handle y s')) -> In (ERecord x) (s_trace s)).
    { unfold handle. destruct (existsb _ _); simpl; auto. intros [E|E]; auto. inversion E; congruence. }
    destruct (inst y never); simpl in *; auto. destruct (inst y sw); simpl in *; auto.
  - specialize (IHp F (set_ignored (s_ignored s ++ types) s) x). simpl in IHp. rewrite inst_app in IHp.
    destruct (exec p _) as [s' [y|]]; simpl in *.
    + assert (K : In (ERecord x) (s_trace s') -> In (ERecord x) (s_trace s)) by (intros; apply IHp; auto; rewrite J; auto).
      destruct (inst y types); simpl in *; auto. destruct I as [I|I]; [discriminate|auto].
    + assert (K : In (ERecord x) (s_trace s') -> In (ERecord x) (s_trace s)) by (intros; apply IHp; auto; rewrite J; auto).
      destruct ensure; simpl in *; auto. destruct I as [I|I]; [discriminate|auto].
  - assert (R := C78_restored p s). destruct F as [F1 F2]. specialize (IHp F1 s x).
    destruct (exec p s) as [s' [y|]]; simpl in *; auto.
    destruct (inst y types); simpl in *; auto. apply IHp; auto. apply (IHq F2 s' x I). congruence.
Qed.

(** ** An expected exception is not recorded, whatever handles it on its way *)
Theorem C78_expected_not_recorded_partial k types ensure p s x :
  fresh p -> inst x types = true ->
  In (ERecord x) (s_trace (fst (exec (PExpect k types ensure p) s))) -> In (ERecord x) (s_trace s).
Proof.
  intros F T I. simpl in I.
  assert (H := C78_not_recorded p F (set_ignored (s_ignored s ++ types) s) x). simpl in H. rewrite inst_app, T, orb_true_r in H.
  destruct (exec p _) as [s' [y|]]; simpl in *.
  - destruct (inst y types); simpl in *; auto. destruct I as [I|I]; [discriminate|auto].
  - destruct ensure; simpl in *; auto. destruct I as [I|I]; [discriminate|auto].
Qed.

(** ** Every exception is recorded at most once, and any other exception that leaves a handling context is *)

(** the exceptions recorded in a trace *)
Definition recorded (t : list event) : list exn := flat_map (fun e => match e with ERecord x => [x] | _ => [] end) t.

Lemma exn_eqb_eq x y : exn_eqb x y = true <-> x = y.
Proof.
  destruct x as [a t|a], y as [b u|b]; simpl; try (split; [discriminate|intros; discriminate]).
  - rewrite andb_true_iff, !Nat.eqb_eq. split; [intros [-> ->]; reflexivity|intros E; inversion E; auto].
  - rewrite Nat.eqb_eq. split; [intros ->; reflexivity|intros E; inversion E; auto].
Qed.

Definition consistent (s : state) : Prop := recorded (s_trace s) = s_handled s /\ NoDup (s_handled s).

Lemma handle_consistent x s : consistent s -> consistent (handle x s) /\ In x (s_handled (handle x s)).
Proof.
  intros [A B]. unfold handle. destruct (existsb (exn_eqb x) (s_handled s)) eqn:Q.
  - split; [split; assumption|]. apply existsb_exists in Q as (y & I & E). apply exn_eqb_eq in E as ->. exact I.
  - split; [|left; reflexivity]. split; simpl; [rewrite A; reflexivity|]. constructor; [|exact B]. intros I.
    assert (T : existsb (exn_eqb x) (s_handled s) = true) by (apply existsb_exists; exists x; split; [exact I|apply exn_eqb_eq; reflexivity]). congruence.
Qed.

Lemma exec_consistent p : forall s, consistent s -> consistent (fst (exec p s)).
Proof.
  induction p as [|y|p IHp q IHq|old pass sw p IHp|k types ensure p IHp|types p IHp q IHq]; simpl; intros s H; auto.
  - specialize (IHp s H). destruct (exec p s) as [s' [y|]]; simpl in *; auto.
  - specialize (IHp s H). destruct (exec p s) as [s' [y|]]; simpl in *; auto.
    destruct (inst y _); simpl; auto. pose proof (proj1 (handle_consistent y s' IHp)). destruct (inst y never); simpl; auto. destruct (inst y sw); auto.
  - specialize (IHp (set_ignored (s_ignored s ++ types) s) H). destruct (exec p _) as [s' [y|]]; simpl in *; [destruct (inst y types)|destruct ensure]; exact IHp.
  - specialize (IHp s H). destruct (exec p s) as [s' [y|]]; simpl in *; auto. destruct (inst y types); simpl; auto.
Qed.

Theorem C78_recorded_once p s : s_handled s = [] -> recorded (s_trace s) = [] -> NoDup (recorded (s_trace (fst (exec p s)))).
Proof.
  intros A B. assert (C : consistent s) by (split; [congruence|rewrite A; constructor]). apply (exec_consistent p) in C. destruct C as [C D]. rewrite C. exact D.
Qed.

Theorem C78_others_recorded before pass swallow p s s1 x s' : s_handled s = [] -> recorded (s_trace s) = [] -> fst (exec before s) = s1 ->
  exec (PHandle None pass swallow p) s1 = (s', Some x) ->
  inst x (pass ++ s_ignored s1) = false -> In (ERecord x) (s_trace s').
Proof.
  intros A B <-. assert (C : consistent s) by (split; [congruence|rewrite A; constructor]). apply (exec_consistent before) in C. set (s1 := fst (exec before s)) in *.
  simpl. pose proof (exec_consistent p s1 C) as D. destruct (exec p s1) as [s2 [y|]]; intros H N; [|discriminate].
  destruct (inst y (pass ++ s_ignored s1)) eqn:Y; [inversion H; subst; congruence|].
  assert (E : s' = handle y s2 /\ x = y).
  { destruct (inst y never); [inversion H; auto|]. destruct (inst y swallow); inversion H; auto. }
  destruct E as [-> ->]. destruct (handle_consistent y s2 D) as [[R _] I]. rewrite <- R in I. unfold recorded in I.
  apply in_flat_map in I as (e & I & J). destruct e; try destruct J as [<-|[]]; try contradiction. exact I.
Qed.

(** in a plain program an ignored exception that is raised leaves it *)
Lemma plain_reaches p : plain p -> fresh p -> forall s s' r t,
  exec p s = (s', r) -> s_trace s' = t ++ s_trace s ->
  forall x, In (ERaise x) t -> inst x (s_ignored s) = true -> r = Some x.
Proof.
  induction p as [|y|p IHp q IHq|old pass sw p IHp|k types ensure p IHp|types p IHp q IHq]; simpl; intros P F s s' r t E T x I J;
    try contradiction.
  - inversion E; subst. assert (t = []) by (apply (app_inv_tail (s_trace s')); auto). subst t. destruct I.
  - inversion E; subst. simpl in T. assert (t = [ERaise y]) by (apply (app_inv_tail (s_trace s)); auto). subst t.
    destruct I as [I|[]]. inversion I; auto.
  - destruct P as [P1 P2]. destruct F as [F1 F2]. assert (R := C78_restored p s). destruct (exec_trace p s) as [t1 T1].
    destruct (exec p s) as [s1 [y|]] eqn:E1; simpl in *.
    + inversion E; subst. exact (IHp P1 F1 _ _ _ _ E1 T x I J).
    + destruct (exec_trace q s1) as [t2 T2]. rewrite E in T2. simpl in T2. rewrite T1 in T2. 
      assert (t = t2 ++ t1) by (apply (app_inv_tail (s_trace s)); rewrite <- app_assoc; congruence). subst t.
      apply in_app_or in I as [I|I].
      * rewrite <- R in J. refine (IHq P2 F2 _ _ _ t2 E _ x I J). rewrite T1. auto.
      * discriminate (IHp P1 F1 _ _ _ _ E1 T1 x I J).
  - destruct F as [-> F]. destruct (exec_trace p s) as [t1 T1].
    destruct (exec p s) as [s1 [y|]] eqn:E1; simpl in *.
    + assert (K : In (ERaise x) t1 -> inst y (pass ++ s_ignored s) = true /\ y = x).
      { intros I1. assert (Z := IHp P F _ _ _ _ E1 T1 x I1 J). inversion Z; subst. rewrite inst_app, J, orb_true_r. auto. }
      destruct (inst y (pass ++ s_ignored s)) eqn:Y.
      * inversion E; subst. assert (t = t1) by (apply (app_inv_tail (s_trace s)); congruence). subst t.
        destruct (K I) as [_ ->]. auto.
      * exfalso. assert (I1 : In (ERaise x) t1).
        { assert (H : s_trace s' = t1 ++ s_trace s \/ s_trace s' = ERecord y :: t1 ++ s_trace s).
          { assert (Q : s_trace s' = s_trace (handle y s1)).
            { destruct (inst y never); [inversion E; auto|]. destruct (inst y sw); inversion E; auto. }
            rewrite Q. unfold handle. destruct (existsb _ _); simpl; rewrite T1; auto. }
          rewrite T in H. destruct H as [H|H].
          - apply app_inv_tail in H. subst; auto.
          - change (ERecord y :: t1 ++ s_trace s) with ((ERecord y :: t1) ++ s_trace s) in H. apply app_inv_tail in H. subst t.
            destruct I as [I|I]; [discriminate|auto]. }
        destruct (K I1). congruence.
    + inversion E; subst. assert (t = t1) by (apply (app_inv_tail (s_trace s)); congruence). subst t.
      discriminate (IHp P F _ _ _ _ E1 T1 x I J).
Qed.

(** what leaves a program was raised in it *)
Lemma leaves_raised p : forall s s' x t, exec p s = (s', Some x) -> s_trace s' = t ++ s_trace s -> In (ERaise x) t.
Proof.
  induction p as [|y|p IHp q IHq|old pass sw p IHp|k types ensure p IHp|types p IHp q IHq]; simpl; intros s s' x t E T.
  - discriminate.
  - inversion E; subst. simpl in T. assert (t = [ERaise x]) by (apply (app_inv_tail (s_trace s)); auto). subst t. simpl; auto.
  - destruct (exec_trace p s) as [t1 T1]. destruct (exec p s) as [s1 [y|]] eqn:E1; simpl in *.
    + inversion E; subst. eauto.
    + destruct (exec_trace q s1) as [t2 T2]. rewrite E in T2. simpl in T2. 
      assert (t = t2 ++ t1) by (apply (app_inv_tail (s_trace s)); rewrite <- app_assoc; congruence). subst t.
      apply in_or_app. left. eauto.
  - destruct (exec_trace p s) as [t1 T1]. destruct (exec p s) as [s1 [y|]] eqn:E1; simpl in *; [|discriminate].
    assert (Q : x = y /\ (s_trace s' = s_trace s1 \/ s_trace s' = ERecord y :: s_trace s1)).
    { assert (H : s_trace (handle y s1) = s_trace s1 \/ s_trace (handle y s1) = ERecord y :: s_trace s1)
        by (unfold handle; destruct (existsb _ _); auto).
      destruct (inst y (pass ++ match old with Some l => l | None => s_ignored s end)); [inversion E; subst; auto|].
      destruct (inst y never); [inversion E; subst; auto|]. destruct (inst y sw); inversion E; subst; auto. }
    destruct Q as [-> Q]. assert (I : In (ERaise y) t1) by eauto.
    rewrite T, T1 in Q. destruct Q as [Q|Q].
    + apply app_inv_tail in Q. subst; auto.
    + change (ERecord y :: t1 ++ s_trace s) with ((ERecord y :: t1) ++ s_trace s) in Q. apply app_inv_tail in Q. subst t. right; auto.
  - destruct (exec_trace p (set_ignored (s_ignored s ++ types) s)) as [t1 T1].
    destruct (exec p _) as [s1 [y|]] eqn:E1; simpl in *.
    + destruct (inst y types); inversion E; subst. simpl in T. rewrite T1 in T. apply app_inv_tail in T. subst t1.
      exact (IHp _ _ _ _ E1 T1).
    + destruct ensure; inversion E; subst. simpl in T. rewrite T1 in T.
      change (ERaise (NotCaught k) :: t1 ++ s_trace s) with ((ERaise (NotCaught k) :: t1) ++ s_trace s) in T.
      apply app_inv_tail in T. subst t. simpl; auto.
  - destruct (exec_trace p s) as [t1 T1]. destruct (exec p s) as [s1 [y|]] eqn:E1; simpl in *; [|discriminate].
    destruct (inst y types).
    + destruct (exec_trace q s1) as [t2 T2]. rewrite E in T2. simpl in T2. 
      assert (t = t2 ++ t1) by (apply (app_inv_tail (s_trace s)); rewrite <- app_assoc; congruence). subst t.
      apply in_or_app. left. eauto.
    + inversion E; subst. eauto.
Qed.

(** ** assert_raises passes exactly if an expected exception was raised inside it; then it
    is the one caught.  Otherwise what was raised goes on, or the expectation fails. *)
Theorem C78_assert_raises_partial k types p s s' r t :
  plain p -> fresh p -> exec p (set_ignored (s_ignored s ++ types) s) = (s', r) -> s_trace s' = t ++ s_trace s ->
  let '(s2, r2) := exec (PExpect k types true p) s in
  (r2 = None <-> exists x, In (ERaise x) t /\ inst x types = true)
  /\ (forall x, In (ERaise x) t -> inst x types = true -> s_trace s2 = ECaught k x :: t ++ s_trace s)
  /\ (forall x, r2 = Some x -> x = NotCaught k \/ (In (ERaise x) t /\ inst x types = false)).
Proof.
  intros P F E T. simpl. rewrite E.
  assert (A : forall x, In (ERaise x) t -> inst x types = true -> r = Some x).
  { intros x I J. eapply (plain_reaches p P F _ _ _ t E); eauto. simpl. rewrite inst_app, J, orb_true_r. auto. }
  destruct r as [y|].
  - assert (I := leaves_raised p _ _ _ _ E T). destruct (inst y types) eqn:J.
    + split; [split; eauto|]. split; [|intros; discriminate].
      intros x I' J'. specialize (A x I' J'). inversion A; subst. simpl. rewrite T. auto.
    + split; [split; [discriminate|]|split].
      * intros (x & I' & J'). specialize (A x I' J'). inversion A; subst. congruence.
      * intros x I' J'. specialize (A x I' J'). inversion A; subst. congruence.
      * intros x Q. inversion Q; subst. right; auto.
  - split; [split; [discriminate|]|split].
    + intros (x & I' & J'). specialize (A x I' J'). discriminate.
    + intros x I' J'. specialize (A x I' J'). discriminate.
    + intros x Q. inversion Q; auto.
Qed.

(** and for allowing_exceptions nothing at all may be raised *)
Theorem C78_allowing_partial k types p s s' r t :
  plain p -> fresh p -> exec p (set_ignored (s_ignored s ++ types) s) = (s', r) -> s_trace s' = t ++ s_trace s ->
  let '(s2, r2) := exec (PExpect k types false p) s in
  (forall x, In (ERaise x) t -> inst x types = true -> r2 = None)
  /\ (forall x, r2 = Some x -> In (ERaise x) t /\ inst x types = false).
Proof.
  intros P F E T. simpl. rewrite E.
  assert (A : forall x, In (ERaise x) t -> inst x types = true -> r = Some x).
  { intros x I J. eapply (plain_reaches p P F _ _ _ t E); eauto. simpl. rewrite inst_app, J, orb_true_r. auto. }
  destruct r as [y|].
  - assert (I := leaves_raised p _ _ _ _ E T). destruct (inst y types) eqn:J; split; try discriminate; auto.
    + intros x I' J'. specialize (A x I' J'). inversion A; subst. congruence.
    + intros x Q. inversion Q; subst; auto.
  - split; auto. discriminate.
Qed.
End P.

(** classes 1 < 0, 2 < 0: two classes below Exception *)
Definition ex_sub (a b : nat) : bool := Nat.eqb a b || Nat.eqb b 0.
Definition s0 : state := mkState [] [] [].

(** A handling context made before assert_raises records an expected exception, and may
    swallow it, so that the expectation fails *)
Theorem C78_old_refuted : exists sub nct never k types p x s,
  sub 1 1 = true /\ inst sub nct x types = true /\
  let '(s', r) := exec sub nct never (PExpect k types true p) s in
  In (ERecord x) (s_trace s') /\ ~ In (ERecord x) (s_trace s) /\ In (ERaise x) (s_trace s') /\ r = Some (NotCaught k).
Proof.
  exists ex_sub, 3, [], 1, [1], (PHandle (Some []) [] [0] (PRaise (Ex 7 1))), (Ex 7 1), s0.
  vm_compute. intuition discriminate.
Qed.

(** Contexts that are not nested (two yield fixtures of different scopes) leave types
    ignored for ever *)
Theorem C78_leak_refuted : exists l s,
  i_ignored s = [] /\ l = [IEnter 1 [4]; IEnter 2 [5]; IExit 1; IExit 2] /\ i_ignored (irun l s) = [4].
Proof. exists [IEnter 1 [4]; IEnter 2 [5]; IExit 1; IExit 2], (mkI [] []). vm_compute. auto. Qed.

(** well-nested uses of different contexts restore the ignored types *)
Inductive nested : list iop -> Prop :=
| nested_nil : nested []
| nested_in c types l l' : nested l -> nested l' -> ~ In (IEnter c types) l -> (forall t, ~ In (IEnter c t) l) ->
    nested (IEnter c types :: l ++ IExit c :: l').

Lemma irun_app a b s : irun (a ++ b) s = irun b (irun a s).
Proof. apply fold_left_app. Qed.

Theorem C78_nested_restored l : nested l -> forall s, i_ignored (irun l s) = i_ignored s
  /\ forall c, (forall t, ~ In (IEnter c t) l) -> i_get c (i_prev (irun l s)) = i_get c (i_prev s).
Proof.
  induction 1 as [|c types l l' N1 IH1 N2 IH2 _ NI]; intros s; [simpl; auto|].
  change (IEnter c types :: l ++ IExit c :: l') with ([IEnter c types] ++ l ++ [IExit c] ++ l').
  rewrite !irun_app. set (s1 := irun [IEnter c types] s).
  destruct (IH1 s1) as [A1 B1]. set (s2 := irun l s1) in *.
  destruct (IH2 (irun [IExit c] s2)) as [A2 B2]. split.
  - rewrite A2. simpl. rewrite (B1 c NI). simpl. rewrite Nat.eqb_refl. auto.
  - intros d D. rewrite B2.
    + simpl. rewrite B1.
      * simpl. destruct (Nat.eqb_spec d c) as [->|]; auto. exfalso. apply (D types). simpl; auto.
      * intros t I. apply (D t). simpl. right. apply in_or_app; auto.
    + intros t I. apply (D t). simpl. right. apply in_or_app. right. right. auto.
Qed.

Example C78_nested_ex : nested [IEnter 1 [4]; IEnter 2 [5]; IExit 2; IExit 1; IEnter 1 [6]; IExit 1].
Proof.
  apply (nested_in 1 [4] [IEnter 2 [5]; IExit 2] [IEnter 1 [6]; IExit 1]).
  - apply (nested_in 2 [5] [] []); try constructor; simpl; auto.
  - apply (nested_in 1 [6] [] []); try constructor; simpl; auto.
  - simpl; intuition discriminate.
  - simpl; intuition discriminate.
Qed.

(** ** Inside several open contexts the ignored types are those of before and those of every
    open context, whatever finished contexts were used in between *)
Fixpoint opened (l : list (list iop * (nat * list nat))) : list iop :=
  match l with
  | [] => []
  | (done, (c, types)) :: l' => done ++ IEnter c types :: opened l'
  end.

Theorem C78_nested_during l : Forall (fun x => nested (fst x)) l -> forall rest s, nested rest ->
  i_ignored (irun (opened l ++ rest) s) = i_ignored s ++ flat_map (fun x => snd (snd x)) l.
Proof.
  induction 1 as [|[done [c types]] l N _ IH]; intros rest s R; cbn [opened flat_map fst snd].
  - simpl. rewrite app_nil_r. apply C78_nested_restored. auto.
  - rewrite <- app_assoc, <- app_comm_cons, irun_app.
    change (irun (IEnter c types :: opened l ++ rest)) with (fun s => irun (opened l ++ rest) (istep s (IEnter c types))).
    cbv beta. rewrite IH by auto. cbn [istep i_ignored].
    rewrite <- app_assoc. f_equal. apply C78_nested_restored. auto.
Qed.

Example C78_nested_during_ex :
  Forall (fun x => nested (fst x)) [([IEnter 1 [4]; IExit 1], (2, [5])); ([], (3, [6; 7]))] /\
  opened [([IEnter 1 [4]; IExit 1], (2, [5])); ([], (3, [6; 7]))] = [IEnter 1 [4]; IExit 1; IEnter 2 [5]; IEnter 3 [6; 7]] /\
  i_ignored (irun [IEnter 1 [4]; IExit 1; IEnter 2 [5]; IEnter 3 [6; 7]] (mkI [9] [])) = [9; 5; 6; 7].
Proof.
  split; [|split; reflexivity]. repeat constructor.
  apply (nested_in 1 [4] [] []); try constructor; simpl; auto.
Qed.

(** an expected exception raised below two handling contexts that would swallow it, after
    another exception was recorded and swallowed *)
Example C78_ex :
  let p := PSeq (PHandle None [] [0] (PRaise (Ex 5 2))) (PHandle None [] [0] (PHandle None [] [0] (PRaise (Ex 7 1)))) in
  plain p /\ fresh p /\
  exec ex_sub 3 [] (PExpect 1 [1] true p) s0 =
    (mkState [] [Ex 5 2] [ECaught 1 (Ex 7 1); ERaise (Ex 7 1); ERecord (Ex 5 2); ERaise (Ex 5 2)], None).
Proof. vm_compute. tauto. Qed.

Print Assumptions C78_restored.
Print Assumptions C78_not_recorded.
Print Assumptions C78_expected_not_recorded_partial.
Print Assumptions C78_recorded_once.
Print Assumptions C78_others_recorded.
Print Assumptions C78_assert_raises_partial.
Print Assumptions C78_allowing_partial.
Print Assumptions C78_old_refuted.
Print Assumptions C78_leak_refuted.
Print Assumptions C78_nested_restored.
Print Assumptions C78_nested_during.
