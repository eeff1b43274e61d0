(** Specification of scope words (C09, C10): which sequences of scope openings
    and closings are well nested.  Independent of the model (imports only the
    event type and the trace vocabulary). *)

From Coq Require Import List Bool Arith PeanoNat Permutation.
From Verif Require Import Events CoreSpec.
Import ListNotations.

(** ** The language of scope words *)

(** open scopes (innermost first), module of the test reported last, module of the
    test for which the open module scope was opened, whether the session's cleanup
    has begun, the test reported last and whether it has started *)
Record wst := mkW { w_open : list (nat * sname); w_cur : option nat; w_tag : option nat; w_end : bool; w_started : option (nat * bool) }.
Definition w0 := mkW [] None None false None.

Definition opt_beq (a b : option nat) : bool :=
  match a, b with None, None => true | Some x, Some y => Nat.eqb x y | _, _ => false end.

Definition reported (i : nat) (q : wst) : bool := match w_started q with Some (j, _) => Nat.eqb i j | None => false end.
Definition running (q : wst) : bool := match w_started q with Some (_, b) => b | None => false end.

(** [modof]: the module of a test *)
Definition wstep (modof : nat -> option nat) (e : event) (q : wst) : option wst :=
  match e with
  | EvReportStart t => Some (mkW (w_open q) (modof t) (w_tag q) (w_end q) (Some (t, false)))
  | EvHook HBeforeSessionCleanup _ => Some (mkW (w_open q) (w_cur q) (w_tag q) true (w_started q))
  | EvHook HTestStart i =>
      match map snd (w_open q) with
      | [STest; SModule; SSession; SSessionGlobal] =>
          if opt_beq (w_tag q) (w_cur q) && reported i q then Some (mkW (w_open q) (w_cur q) (w_tag q) (w_end q) (Some (i, true))) else None
      | _ => None
      end
  | EvHook HTestSuccess i => if reported i q && (running q || opt_beq (w_cur q) None) then Some q else None
  | EvPush sid nm =>
      match nm, map snd (w_open q) with
      | SSessionGlobal, [] => Some (mkW [(sid, nm)] (w_cur q) (w_tag q) (w_end q) (w_started q))
      | SSession, [SSessionGlobal] => Some (mkW ((sid, nm) :: w_open q) (w_cur q) (w_tag q) (w_end q) (w_started q))
      | SModule, [SSession; SSessionGlobal] => Some (mkW ((sid, nm) :: w_open q) (w_cur q) (w_cur q) (w_end q) (w_started q))
      | STest, [SModule; SSession; SSessionGlobal] =>
          if opt_beq (w_tag q) (w_cur q) then Some (mkW ((sid, nm) :: w_open q) (w_cur q) (w_tag q) (w_end q) (w_started q)) else None
      | _, _ => None
      end
  | EvPopEnd sid nm _ =>
      match w_open q with
      | [] => None
      | (sid', nm') :: rest =>
          if Nat.eqb sid sid' && sname_eqb nm nm'
             && (negb (sname_eqb nm SModule) || negb (opt_beq (w_tag q) (w_cur q)) || w_end q)
          then Some (mkW rest (w_cur q) (w_tag q) (w_end q) (w_started q)) else None
      end
  | _ => Some q
  end.

Fixpoint wrun (modof : nat -> option nat) (tr : list event) (q : wst) : option wst :=
  match tr with
  | [] => Some q
  | e :: tr' => match wstep modof e q with Some q' => wrun modof tr' q' | None => None end
  end.


(** ** Reading an accepted word *)

(** the test reported last *)
Definition current_test (tr : list event) : option nat :=
  fold_left (fun acc e => match e with EvReportStart t => Some t | _ => acc end) tr None.

Definition current_module (modof : nat -> option nat) (tr : list event) : option nat :=
  match current_test tr with Some t => modof t | None => None end.

(** has the cleanup of the session begun? *)
Definition cleanup_begun (tr : list event) : Prop := exists t, In (EvHook HBeforeSessionCleanup t) tr.

(** scopes opened and closed, in order *)
Definition opened (tr : list event) : list nat :=
  flat_map (fun e => match e with EvPush sid _ => [sid] | _ => [] end) tr.
Definition closed (tr : list event) : list nat :=
  flat_map (fun e => match e with EvPopEnd sid _ _ => [sid] | _ => [] end) tr.

(** what is open when a scope is opened *)
Definition enclosing (nm : sname) : list sname :=
  match nm with
  | SSessionGlobal => []
  | SSession => [SSessionGlobal]
  | SModule => [SSession; SSessionGlobal]
  | STest => [SModule; SSession; SSessionGlobal]
  end.

Lemma wrun_app modof tr1 tr2 q :
  wrun modof (tr1 ++ tr2) q = match wrun modof tr1 q with Some q' => wrun modof tr2 q' | None => None end.
Proof. revert q. induction tr1 as [|e tr IH]; intro q; simpl; auto. destruct (wstep modof e q); auto. Qed.

Lemma opt_beq_eq a b : opt_beq a b = true <-> a = b.
Proof.
  destruct a, b; simpl; split; intro H; try discriminate; auto.
  - apply Nat.eqb_eq in H. congruence.
  - injection H as ->. apply Nat.eqb_refl.
Qed.

Lemma open_after_app a b acc : open_after acc (a ++ b) = open_after (open_after acc a) b.
Proof. revert acc. induction a as [|e a IH]; intro acc; simpl; auto. destruct e; auto. Qed.

Section W.
Variable modof : nat -> option nat.

Lemma wpush_names sid nm q q' : wstep modof (EvPush sid nm) q = Some q' ->
  map snd (w_open q) = enclosing nm /\ w_open q' = (sid, nm) :: w_open q /\
  w_tag q' = (match nm with SModule => w_cur q | _ => w_tag q end) /\
  (nm = STest -> w_tag q = w_cur q) /\ w_cur q' = w_cur q /\ w_end q' = w_end q.
Proof.
  simpl. destruct q as [o c t e st]. cbn [w_open w_cur w_tag w_end]. intro H.
  destruct nm, (map snd o) as [|[] [|[] [|[] [|? ?]]]] eqn:Eo; try discriminate;
    try (destruct (opt_beq t c) eqn:Et; [apply opt_beq_eq in Et|discriminate]);
    injection H as <-; simpl; try (destruct o; [|discriminate]); repeat split; auto; discriminate.
Qed.

Lemma wpop_inv sid nm ok q q' : wstep modof (EvPopEnd sid nm ok) q = Some q' ->
  w_open q = (sid, nm) :: w_open q' /\ w_tag q' = w_tag q /\ w_cur q' = w_cur q /\ w_end q' = w_end q /\
  (nm = SModule -> w_tag q <> w_cur q \/ w_end q = true).
Proof.
  simpl. destruct q as [[|[sid' nm'] o] c t e st]; cbn [w_open w_cur w_tag w_end]; [discriminate|].
  destruct (Nat.eqb sid sid') eqn:E1; [|discriminate]. destruct (sname_eqb nm nm') eqn:E2; [|discriminate]. simpl.
  apply Nat.eqb_eq in E1. assert (nm = nm') by (destruct nm, nm'; auto; discriminate). subst.
  destruct (negb (sname_eqb nm' SModule) || negb (opt_beq t c) || e) eqn:E3; [|discriminate].
  intro H; injection H as <-. simpl. repeat split; auto. intros ->. simpl in E3.
  destruct e; auto. left. intro Q. apply opt_beq_eq in Q. rewrite Q in E3. discriminate.
Qed.

Lemma wstart_inv t q q' : wstep modof (EvHook HTestStart t) q = Some q' ->
  w_open q' = w_open q /\ w_cur q' = w_cur q /\ w_tag q' = w_tag q /\ w_end q' = w_end q /\ w_started q' = Some (t, true) /\ reported t q = true /\ map snd (w_open q) = [STest; SModule; SSession; SSessionGlobal] /\ w_tag q = w_cur q.
Proof.
  simpl. destruct (map snd (w_open q)) as [|[] [|[] [|[] [|[] [|]]]]]; try discriminate.
  destruct (opt_beq (w_tag q) (w_cur q)) eqn:E; [|discriminate]. apply opt_beq_eq in E.
  destruct (reported t q); [|discriminate]. simpl. intro H; injection H as <-. simpl. auto 9.
Qed.

Definition plain_ev (e : event) : bool :=
  match e with EvPush _ _ | EvPopEnd _ _ _ | EvReportStart _ | EvHook HBeforeSessionCleanup _ | EvHook HTestStart _ | EvHook HTestSuccess _ => false | _ => true end.
Lemma wstep_plain e q : plain_ev e = true -> wstep modof e q = Some q.
Proof. destruct e; simpl; intro H; try discriminate; auto. destruct h; auto; discriminate. Qed.

Lemma wrun_snoc tr e q q2 : wrun modof (tr ++ [e]) q = Some q2 ->
  exists q1, wrun modof tr q = Some q1 /\ wstep modof e q1 = Some q2.
Proof.
  rewrite wrun_app. destruct (wrun modof tr q) as [q1|]; [|discriminate]. simpl.
  destruct (wstep modof e q1) eqn:E1; [|discriminate]. intro H; injection H as <-. eauto.
Qed.

Lemma current_snoc tr e : current_test (tr ++ [e]) = match e with EvReportStart t => Some t | _ => current_test tr end.
Proof. unfold current_test. rewrite fold_left_app. reflexivity. Qed.

(** the components of the automaton's state, read off the trace *)
Lemma wrun_state tr : forall q, wrun modof tr w0 = Some q -> NoDup (opened tr) ->
  w_open q = open_scopes tr /\ NoDup (map fst (w_open q)) /\
  Permutation (opened tr) (map fst (w_open q) ++ closed tr) /\
  w_cur q = current_module modof tr /\ (w_end q = true <-> cleanup_begun tr).
Proof.
  induction tr as [|e tr IH] using rev_ind; intros q H ND.
  - injection H as <-. simpl. repeat split; auto; try constructor; [discriminate|intros [t []]].
  - apply wrun_snoc in H as (q1 & H1 & H2).
    unfold opened in ND. rewrite flat_map_app in ND. fold (opened tr) in ND.
    assert (ND1 : NoDup (opened tr)).
    { clear - ND. revert ND. generalize (flat_map (fun e => match e with EvPush sid _ => [sid] | _ => [] end) [e]). intros l ND.
      induction (opened tr) as [|x l0 IH]; [constructor|]. simpl in ND. inversion ND; subst. constructor; auto.
      intro Q. apply H1. apply in_or_app. auto. }
    destruct (IH q1 H1 ND1) as (A1 & A2 & A3 & A4 & A5).
    assert (CB : forall h t, e = EvHook h t -> (cleanup_begun (tr ++ [e]) <-> cleanup_begun tr \/ h = HBeforeSessionCleanup)).
    { intros h t ->. unfold cleanup_begun. split.
      - intros [t' I]. apply in_app_iff in I as [I|[I|[]]]; [left; eauto|]. injection I as <- _. auto.
      - intros [[t' I]| ->]; [exists t'; apply in_app_iff; auto|exists t; apply in_app_iff; simpl; auto]. }
    assert (CN : (forall h t, e <> EvHook h t) -> (cleanup_begun (tr ++ [e]) <-> cleanup_begun tr)).
    { intros N. unfold cleanup_begun. split; intros [t I].
      - apply in_app_iff in I as [I|[I|[]]]; [eauto|]. exfalso. eapply N. exact I.
      - exists t. apply in_app_iff. auto. }
    unfold open_scopes, opened, closed, current_module.
    rewrite open_after_app, !flat_map_app, current_snoc. fold (open_scopes tr) (opened tr) (closed tr). rewrite <- A1.
    destruct (plain_ev e) eqn:EP.
    + rewrite (wstep_plain e q1 EP) in H2. injection H2 as <-.
      assert (X : open_after (w_open q1) [e] = w_open q1) by (destruct e; auto; discriminate). rewrite X.
      assert (Y1 : flat_map (fun e => match e with EvPush sid _ => [sid] | _ => [] end) [e] = []) by (destruct e; auto; discriminate).
      assert (Y2 : flat_map (fun e => match e with EvPopEnd sid _ _ => [sid] | _ => [] end) [e] = []) by (destruct e; auto; discriminate).
      rewrite Y1, Y2, !app_nil_r.
      repeat split; auto.
      * rewrite A4. destruct e; auto; discriminate.
      * intro Q. apply A5 in Q. destruct Q as [t I]. exists t. apply in_app_iff. auto.
      * intro Q. apply A5. destruct Q as [t I]. apply in_app_iff in I as [I|[I|[]]]; [exists t; auto|]. subst e. discriminate.
    + destruct e; try discriminate EP.
      * (* push *)
        apply wpush_names in H2 as (B1 & B2 & B3 & B4 & B5 & B6). simpl. rewrite B2.
        assert (NI : ~ In sid (opened tr)).
        { simpl in ND. apply NoDup_remove_2 in ND. rewrite app_nil_r in ND. auto. }
        repeat split; auto.
        -- simpl. constructor; auto. intro Q. apply NI. eapply Permutation_in; [apply Permutation_sym; exact A3|]. apply in_or_app; auto.
        -- simpl. rewrite app_nil_r. eapply Permutation_trans; [apply Permutation_sym, Permutation_cons_append|]. constructor. auto.
        -- rewrite B5, A4. reflexivity.
        -- rewrite B6, CN by discriminate. tauto.
        -- rewrite B6, CN by discriminate. tauto.
      * (* pop end *)
        apply wpop_inv in H2 as (B1 & B2 & B3 & B4 & B5). simpl.
        rewrite B1 in A2, A3 |- *. simpl in A2, A3 |- *. inversion A2; subst.
        repeat split; auto.
        -- rewrite Nat.eqb_refl. simpl. symmetry. clear - H1 H2. induction (w_open q) as [|[a b] l IH]; simpl; auto.
           simpl in H2. destruct (Nat.eqb_spec sid a) as [->|]; [exfalso; auto|]. simpl. rewrite IH; auto.
        -- rewrite app_nil_r. eapply Permutation_trans; [exact A3|]. rewrite app_assoc. apply Permutation_cons_append.
        -- rewrite B3, A4. reflexivity.
        -- rewrite B4, CN by discriminate. tauto.
        -- rewrite B4, CN by discriminate. tauto.
      * (* hook *)
        destruct h; try discriminate EP.
        -- injection H2 as <-. simpl. rewrite !app_nil_r. repeat split; auto.
           intros _. exists t. apply in_app_iff. simpl. auto.
        -- apply wstart_inv in H2 as (B1 & B2 & B3 & B4 & _). simpl. rewrite !app_nil_r, B1, B2, B4.
           repeat split; auto; rewrite (CB _ _ eq_refl); [tauto|intros [Q|Q]; [tauto|discriminate]].
        -- simpl in H2. destruct (_ && _); [|discriminate]. injection H2 as <-. simpl. rewrite !app_nil_r.
           repeat split; auto; rewrite (CB _ _ eq_refl); [tauto|intros [Q|Q]; [tauto|discriminate]].
      * (* report *)
        injection H2 as <-. simpl. rewrite !app_nil_r. repeat split; auto.
        -- rewrite CN by discriminate. tauto.
        -- rewrite CN by discriminate. tauto.
Qed.

(** while a module scope stays open, the module it was opened for does not change *)
Lemma wtag_kept sid m : forall q0 q1, wrun modof m q0 = Some q1 -> ~ In sid (opened m) ->
  In (sid, SModule) (w_open q0) -> In (sid, SModule) (w_open q1) -> w_tag q1 = w_tag q0.
Proof.
  induction m as [|e m IH] using rev_ind; intros q0 q2 H NI I0 I2.
  - injection H as <-. auto.
  - apply wrun_snoc in H as (q1 & H1 & H2).
    unfold opened in NI. rewrite flat_map_app in NI. fold (opened m) in NI.
    assert (NI1 : ~ In sid (opened m)) by (intro Q; apply NI, in_or_app; auto).
    assert (X : In (sid, SModule) (w_open q1) /\ w_tag q2 = w_tag q1).
    { destruct (plain_ev e) eqn:EP; [rewrite (wstep_plain e q1 EP) in H2; injection H2 as <-; auto|].
      destruct e; try discriminate EP.
      - apply wpush_names in H2 as (B1 & B2 & B3 & _). rewrite B2 in I2.
        assert (I1 : In (sid, SModule) (w_open q1)).
        { destruct I2 as [Q|Q]; auto. injection Q as -> ->. exfalso. apply NI, in_or_app. right. simpl. auto. }
        split; auto. rewrite B3. destruct nm; auto. exfalso.
        apply (in_map snd) in I1. rewrite B1 in I1. simpl in I1. destruct I1 as [Q|[Q|[]]]; discriminate.
      - apply wpop_inv in H2 as (B1 & B2 & _). rewrite B1. split; auto. right; auto.
      - destruct h; try discriminate EP; [injection H2 as <-; auto| |].
        + apply wstart_inv in H2 as (B1 & B2 & B3 & _). rewrite <- B1. auto.
        + simpl in H2. destruct (_ && _); [|discriminate]. injection H2 as <-; auto.
      - injection H2 as <-. auto. }
    destruct X as [I1 X]. rewrite X. eauto.
Qed.

Lemma nodup_app_l (a b : list nat) : NoDup (a ++ b) -> NoDup a.
Proof. induction a; intro H; [constructor|]. inversion H; subst. constructor; auto. intro; apply H2, in_or_app; auto. Qed.

Lemma opened_app a b : opened (a ++ b) = opened a ++ opened b.
Proof. apply flat_map_app. Qed.

(** A word is well nested: accepted, with every scope closed at the end. *)
Definition well_nested (tr : list event) : Prop := exists c t e d, wrun modof tr w0 = Some (mkW [] c t e d).

Lemma wn_prefix p e t : (exists q, wrun modof (p ++ e :: t) w0 = Some q) -> NoDup (opened (p ++ e :: t)) ->
  exists q1 q2, wrun modof p w0 = Some q1 /\ wstep modof e q1 = Some q2 /\ (exists q, wrun modof t q2 = Some q) /\ NoDup (opened p).
Proof.
  intros [q H] ND. rewrite wrun_app in H. destruct (wrun modof p w0) as [q1|]; [|discriminate]. simpl in H.
  destruct (wstep modof e q1) as [q2|] eqn:E2; [|discriminate]. exists q1, q2. repeat split; eauto.
  rewrite opened_app in ND. apply nodup_app_l in ND. auto.
Qed.

Lemma wn_all_closed tr : well_nested tr -> NoDup (opened tr) -> Permutation (opened tr) (closed tr).
Proof. intros (c & t & e & d & H) ND. destruct (wrun_state tr _ H ND) as (_ & _ & P & _). exact P. Qed.

Lemma wn_nesting p sid nm t : (exists q, wrun modof (p ++ EvPush sid nm :: t) w0 = Some q) -> NoDup (opened (p ++ EvPush sid nm :: t)) ->
  map snd (open_scopes p) = enclosing nm.
Proof.
  intros H ND. destruct (wn_prefix _ _ _ H ND) as (q1 & q2 & H1 & H2 & _ & NDp).
  destruct (wrun_state p _ H1 NDp) as (A & _). rewrite <- A. apply wpush_names in H2. tauto.
Qed.

Lemma wn_innermost p sid nm ok t : (exists q, wrun modof (p ++ EvPopEnd sid nm ok :: t) w0 = Some q) -> NoDup (opened (p ++ EvPopEnd sid nm ok :: t)) ->
  hd_error (open_scopes p) = Some (sid, nm).
Proof.
  intros H ND. destruct (wn_prefix _ _ _ H ND) as (q1 & q2 & H1 & H2 & _ & NDp).
  destruct (wrun_state p _ H1 NDp) as (A & _). rewrite <- A. apply wpop_inv in H2 as [-> _]. reflexivity.
Qed.

Lemma wn_start p i t : (exists q, wrun modof (p ++ EvHook HTestStart i :: t) w0 = Some q) -> NoDup (opened (p ++ EvHook HTestStart i :: t)) ->
  map snd (open_scopes p) = [STest; SModule; SSession; SSessionGlobal].
Proof.
  intros H ND. destruct (wn_prefix _ _ _ H ND) as (q1 & q2 & H1 & H2 & _ & NDp).
  destruct (wrun_state p _ H1 NDp) as (A & _). rewrite <- A. apply wstart_inv in H2. tauto.
Qed.

(** test [i] was reported last *)
Definition reported_last (i : nat) (tr : list event) : Prop :=
  exists p m, tr = p ++ EvReportStart i :: m /\ forall t', ~ In (EvReportStart t') m.
(** ... and has started since *)
Definition started (i : nat) (tr : list event) : Prop :=
  exists p m, tr = p ++ EvReportStart i :: m /\ In (EvHook HTestStart i) m /\ forall t', ~ In (EvReportStart t') m.

Lemma wrun_started tr : forall q i b, wrun modof tr w0 = Some q -> w_started q = Some (i, b) ->
  reported_last i tr /\ (b = true -> started i tr).
Proof.
  induction tr as [|e tr IH] using rev_ind; intros q i b H Hs; [injection H as <-; discriminate|].
  apply wrun_snoc in H as (q1 & H1 & H2).
  assert (K : forall i, (forall t, e <> EvReportStart t) -> started i tr -> started i (tr ++ [e])).
  { intros i0 N (p & m & -> & A & B). exists p, (m ++ [e]). rewrite <- app_assoc. split; [reflexivity|].
    split; [apply in_app_iff; auto|]. intros t' Q. apply in_app_iff in Q as [Q|[Q|[]]]; [eapply B; eauto|eapply N; eauto]. }
  assert (K' : forall i, (forall t, e <> EvReportStart t) -> reported_last i tr -> reported_last i (tr ++ [e])).
  { intros i0 N (p & m & -> & B). exists p, (m ++ [e]). rewrite <- app_assoc. split; [reflexivity|].
    intros t' Q. apply in_app_iff in Q as [Q|[Q|[]]]; [eapply B; eauto|eapply N; eauto]. }
  assert (S1 : (forall t, e <> EvReportStart t) -> w_started q1 = Some (i, b) -> reported_last i (tr ++ [e]) /\ (b = true -> started i (tr ++ [e]))).
  { intros N W1. destruct (IH _ _ _ H1 W1) as [A B]. split; auto. }
  destruct (plain_ev e) eqn:EP.
  { rewrite (wstep_plain e q1 EP) in H2. injection H2 as <-. apply S1; auto. intros t ->; discriminate. }
  destruct e; try discriminate EP.
  - apply S1; [discriminate|]. rewrite <- Hs. clear - H2. simpl in H2. destruct nm, (map snd (w_open q1)) as [|[] [|[] [|[] [|? ?]]]]; try discriminate;
        try (destruct (opt_beq _ _); [|discriminate]); injection H2 as <-; auto.
  - apply S1; [discriminate|]. rewrite <- Hs. clear - H2. simpl in H2. destruct (w_open q1) as [|[x y] l]; [discriminate|].
    destruct (_ && _ && _); [|discriminate]. injection H2 as <-; auto.
  - assert (N : forall t', EvHook h t <> EvReportStart t') by discriminate.
    destruct h; try discriminate EP.
    + injection H2 as <-. apply S1; auto.
    + apply wstart_inv in H2 as (_ & _ & _ & _ & B5 & B6 & _). rewrite B5 in Hs. injection Hs as -> <-.
      unfold reported in B6. destruct (w_started q1) as [[j c]|] eqn:W1; [|discriminate]. apply Nat.eqb_eq in B6. subst j.
      destruct (IH _ _ _ H1 W1) as [(p & m & Q1 & Q2) _]. split; [apply K'; auto; exists p, m; auto|]. intros _.
      exists p, (m ++ [EvHook HTestStart i]). rewrite Q1, <- app_assoc. split; [reflexivity|].
      split; [apply in_app_iff; simpl; auto|]. intros t' J. apply in_app_iff in J as [J|[J|[]]]; [eapply Q2; eauto|discriminate].
    + simpl in H2. destruct (_ && _); [|discriminate]. injection H2 as <-. apply S1; auto.
  - injection H2 as <-. simpl in Hs. injection Hs as <- <-. split; [|discriminate]. exists tr, []. split; auto.
Qed.

Lemma wn_success p i t : (exists q, wrun modof (p ++ EvHook HTestSuccess i :: t) w0 = Some q) -> NoDup (opened (p ++ EvHook HTestSuccess i :: t)) ->
  modof i <> None -> started i p.
Proof.
  intros H ND HC. destruct (wn_prefix _ _ _ H ND) as (q1 & q2 & H1 & H2 & _ & NDp).
  destruct (wrun_state p _ H1 NDp) as (_ & _ & _ & A & _). simpl in H2. unfold reported, running in H2.
  destruct (w_started q1) as [[j b]|] eqn:W1; [|discriminate].
  destruct (Nat.eqb i j) eqn:Eij; [|discriminate]. apply Nat.eqb_eq in Eij. subst j. simpl in H2.
  destruct (wrun_started _ _ _ _ H1 W1) as [(a & m & Q1 & Q2) B].
  destruct b; [auto|]. exfalso. simpl in H2. rewrite A in H2. unfold current_module in H2.
  replace (current_test p) with (Some i) in H2; [destruct (modof i); [discriminate|congruence]|].
  symmetry. rewrite Q1. clear - Q2. induction m as [|e m IH] using rev_ind.
  - rewrite current_snoc. reflexivity.
  - rewrite app_comm_cons, app_assoc, current_snoc. rewrite IH.
    + destruct e; auto. exfalso. eapply Q2. apply in_app_iff. right. left. reflexivity.
    + intros t' I. eapply Q2. apply in_app_iff. left. exact I.
Qed.

Lemma wn_start_in p i t : (exists q, wrun modof (p ++ EvHook HTestStart i :: t) w0 = Some q) -> NoDup (opened (p ++ EvHook HTestStart i :: t)) ->
  reported_last i p.
Proof.
  intros H ND. destruct (wn_prefix _ _ _ H ND) as (q1 & q2 & H1 & H2 & _ & NDp).
  apply wstart_inv in H2 as (_ & _ & _ & _ & _ & B & _). unfold reported in B.
  destruct (w_started q1) as [[j b]|] eqn:W1; [|discriminate]. apply Nat.eqb_eq in B. subst j.
  apply (wrun_started _ _ _ _ H1 W1).
Qed.

(** the module scope [sid], opened after [p], is still open after [m] *)
Lemma wn_tag p sid m r e : (exists q, wrun modof (p ++ EvPush sid SModule :: m ++ e :: r) w0 = Some q) ->
  NoDup (opened (p ++ EvPush sid SModule :: m ++ e :: r)) ->
  In (sid, SModule) (open_scopes (p ++ EvPush sid SModule :: m)) ->
  exists q q', wrun modof (p ++ EvPush sid SModule :: m) w0 = Some q /\ wstep modof e q = Some q' /\
    w_tag q = current_module modof p /\ w_cur q = current_module modof (p ++ EvPush sid SModule :: m) /\
    (w_end q = true <-> cleanup_begun (p ++ EvPush sid SModule :: m)).
Proof.
  intros H ND HI.
  replace (p ++ EvPush sid SModule :: m ++ e :: r) with ((p ++ EvPush sid SModule :: m) ++ e :: r) in * by (rewrite <- app_assoc; reflexivity).
  destruct (wn_prefix _ _ _ H ND) as (q1 & q2 & H1 & H2 & _ & NDp).
  exists q1, q2. repeat split; auto.
  - destruct (wn_prefix p (EvPush sid SModule) m (ex_intro _ q1 H1) NDp) as (qa & qb & Ha & Hb & _ & NDa).
    destruct (wrun_state p _ Ha NDa) as (_ & _ & _ & C & _). rewrite <- C.
    pose proof H1 as H1'. rewrite wrun_app, Ha in H1'. cbn [wrun] in H1'. rewrite Hb in H1'.
    apply wpush_names in Hb as (B1 & B2 & B3 & _). rewrite <- B3.
    apply (wtag_kept sid m qb q1 H1').
    + rewrite opened_app in NDp. simpl in NDp. apply NoDup_remove_2 in NDp. intro Q. apply NDp, in_or_app; auto.
    + rewrite B2. left; auto.
    + destruct (wrun_state _ _ H1 NDp) as (-> & _). exact HI.
  - destruct (wrun_state _ _ H1 NDp) as (_ & _ & _ & C & _). exact C.
  - apply (wrun_state _ _ H1 NDp).
  - apply (wrun_state _ _ H1 NDp).
Qed.
End W.
