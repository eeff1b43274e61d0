(** Which exceptions are swallowed. *)

From Coq Require Import List Bool Arith Lia.
From Verif Require Import Dict Marks MarksProps Swallow.
Import ListNotations.

(** the exceptions a piece of code can raise *)
Fixpoint raises (p : prog) (e : nat) : Prop :=
  match p with
  | Pass | Mark _ _ _ => False
  | Raise e' => e = e'
  | Seq p q | Catch p q => raises p e \/ raises q e
  | Swallowing p | Disabled p | Handling _ p => raises p e
  end.

(** what surrounds a piece of code, innermost first *)
Inductive frame := FSwallow | FDisable | FThen (q : prog) | FHandle.
Fixpoint within (p : prog) (fs : list frame) : prog :=
  match fs with
  | [] => p
  | FSwallow :: fs' => within (Swallowing p) fs'
  | FDisable :: fs' => within (Disabled p) fs'
  | FThen q :: fs' => within (Seq p q) fs'
  | FHandle :: fs' => within (Handling false p) fs'
  end.

(** the first frame that is a swallowing context or a decorated function, if any *)
Inductive innermost : list frame -> option frame -> Prop :=
| in_none fs : (forall f, In f fs -> f <> FSwallow /\ f <> FDisable) -> innermost fs None
| in_some fs f fs' : (forall g, In g fs -> g <> FSwallow /\ g <> FDisable) -> f = FSwallow \/ f = FDisable -> innermost (fs ++ f :: fs') (Some f).

Section P.
Variable cls : nat -> option nat.
Variable mro : nat -> list nat.
Variable settable : nat -> bool.
Variable ordinary : nat -> bool.
Hypothesis C : classes cls mro.

Notation run := (run cls mro settable ordinary).
Notation ereach := (ereach cls mro settable).
Notation observe := (observe cls mro).

(** an exception: an object that is no class; attributes of it can be set *)
Definition exception (e : nat) : Prop := (exists c, cls e = Some c) /\ settable e = true.

Lemma reach_mark w e k v : ereach w -> ereach (mark_exception cls mro settable e k v w).
Proof. intros R. apply (er_step cls mro settable w (EMark e k v) R). Qed.

Lemma reach_get w e k d : ereach w -> ereach (fst (get_mark cls mro settable e k d w)).
Proof.
  intros R. unfold get_mark. pose proof (er_step cls mro settable w (EGet e k) R) as G. simpl in G.
  destruct (get_exception_mark cls mro settable e k w). auto.
Qed.

Lemma get_spec w e k d : ereach w -> exception e ->
  snd (get_mark cls mro settable e k d w) = match observe e k w with Some v => v | None => d end /\
  forall o j, observe o j (fst (get_mark cls mro settable e k d w)) = observe o j w.
Proof.
  intros R [[c Hc] _]. unfold get_mark. pose proof (fun o j => C51_lookup cls mro settable C w e c k o j R Hc) as L.
  destruct (get_exception_mark cls mro settable e k w) as [w1 r]. simpl in *. split.
  - destruct (L e k) as [_ ->]. auto.
  - intros o j. apply L.
Qed.

Theorem C89_reach : forall p w, ereach w -> ereach (fst (run p w)).
Proof.
  induction p; intros w R; cbn [Swallow.run]; auto.
  - apply reach_mark. auto.
  - specialize (IHp1 w R). destruct (run p1 w) as [w1 [e|]]; auto.
  - specialize (IHp1 w R). destruct (run p1 w) as [w1 [e|]]; auto.
  - specialize (IHp w R). destruct (run p w) as [w1 [e|]]; auto. unfold leave_swallowing.
    pose proof (reach_get w1 e n_swallow vtrue IHp) as G. destruct (get_mark cls mro settable e n_swallow vtrue w1) as [w2 v]. destruct (negb (truthy v)); exact G.
  - specialize (IHp w R). destruct (run p w) as [w1 [e|]]; auto. apply reach_mark. auto.
  - specialize (IHp w R). destruct (run p w) as [w1 [e|]]; auto. unfold leave_handling, handle_marks.
    pose proof (reach_get w1 e n_handled vfalse IHp) as G. destruct (get_mark cls mro settable e n_handled vfalse w1) as [w2 v].
    cbn [fst] in *. destruct (truthy v); auto. apply reach_mark. auto.
Qed.

(** the exception is marked noswallow *)
Definition kept (w : world) (e : nat) : Prop := exists v, observe e n_swallow w = Some v /\ truthy v = false.

Lemma kept_dec w e : kept w e \/ ~ kept w e.
Proof.
  unfold kept. destruct (observe e n_swallow w) as [v|]; [|right; intros (v & Q & _); discriminate].
  case_eq (truthy v); [right; intros (v' & Q & ?); congruence|left; eauto].
Qed.

Lemma handle_kept w e : ereach w -> exception e -> (kept (handle_marks cls mro settable e w) e <-> kept w e).
Proof.
  intros R X. unfold handle_marks. pose proof (get_spec w e n_handled vfalse R X) as [_ G]. pose proof (reach_get w e n_handled vfalse R) as R2.
  destruct (get_mark cls mro settable e n_handled vfalse w) as [w2 v]. cbn [fst] in *. unfold kept. destruct (truthy v).
  - rewrite G. tauto.
  - destruct X as [[c Hc] Hs]. rewrite (C51_marked cls mro settable w2 e c n_handled vtrue n_swallow R2 Hc Hs), G. simpl. tauto.
Qed.

Lemma swallow_cases w e : ereach w -> exception e ->
  snd (leave_swallowing cls mro settable e w) = (if truthy (match observe e n_swallow w with Some v => v | None => vtrue end) then None else Some e) /\
  (forall o j, observe o j (fst (leave_swallowing cls mro settable e w)) = observe o j w).
Proof.
  intros R X. unfold leave_swallowing. destruct (get_spec w e n_swallow vtrue R X) as [Gv G].
  destruct (get_mark cls mro settable e n_swallow vtrue w) as [w2 v]. cbn [fst snd] in *. rewrite <- Gv. destruct (truthy v); split; auto.
Qed.

Lemma raised p : forall w w1 e, run p w = (w1, Some e) -> raises p e.
Proof.
  induction p; intros w w1 x; cbn [Swallow.run raises]; try discriminate.
  - congruence.
  - destruct (run p1 w) as [w2 [y|]] eqn:E; intros Q; [injection Q as <- <-|]; eauto.
  - destruct (run p1 w) as [w2 [y|]] eqn:E; intros Q; [|discriminate]; eauto.
  - destruct (run p w) as [w2 [y|]] eqn:E; [|discriminate]. unfold leave_swallowing.
    destruct (get_mark cls mro settable y n_swallow vtrue w2) as [w3 v]. destruct (negb (truthy v)); [|discriminate]. intros Q; injection Q as <- <-. eauto.
  - destruct (run p w) as [w2 [y|]] eqn:E; [|discriminate]. intros Q; injection Q as <- <-. eauto.
  - destruct (run p w) as [w2 [y|]] eqn:E; [|discriminate]. unfold leave_handling. destruct (swallow && ordinary y); [discriminate|]. intros Q; injection Q as <- <-. eauto.
Qed.

Lemma kept_escapes fs : forall p w w1 e, exception e -> run p w = (w1, Some e) -> ereach w1 -> kept w1 e ->
  exists w2, run (within p fs) w = (w2, Some e).
Proof.
  induction fs as [|f fs IH]; intros p w w1 e X R O K; [simpl; eauto|]. destruct f; cbn [within].
  - destruct (swallow_cases w1 e O X) as [S G].
    assert (E : run (Swallowing p) w = leave_swallowing cls mro settable e w1) by (cbn [Swallow.run]; rewrite R; auto).
    destruct K as (v & Hv & Tv). rewrite Hv, Tv in S.
    pose proof (C89_reach (Swallowing p) w) as RR. rewrite E in RR.
    assert (O2 : ereach (fst (leave_swallowing cls mro settable e w1))).
    { unfold leave_swallowing. pose proof (reach_get w1 e n_swallow vtrue O) as Gr. destruct (get_mark cls mro settable e n_swallow vtrue w1) as [w2 v2]. destruct (negb (truthy v2)); exact Gr. }
    destruct (leave_swallowing cls mro settable e w1) as [w2 o] eqn:Q. cbn [fst snd] in *. subst o. eapply IH; eauto. exists v. rewrite G. auto.
  - eapply (IH _ w (noswallow cls mro settable e w1)); eauto.
    + cbn [Swallow.run]. rewrite R. auto.
    + apply reach_mark. auto.
    + exists vfalse. split; auto. destruct X as [[c Hc] Hs]. unfold noswallow. rewrite (C51_marked cls mro settable w1 e c n_swallow vfalse n_swallow O Hc Hs). auto.
  - eapply IH; eauto. cbn [Swallow.run]. rewrite R. auto.
  - eapply (IH _ w (handle_marks cls mro settable e w1)); eauto.
    + cbn [Swallow.run]. rewrite R. auto.
    + unfold handle_marks. pose proof (reach_get w1 e n_handled vfalse O) as G. destruct (get_mark cls mro settable e n_handled vfalse w1) as [w2 v].
      cbn [fst] in *. destruct (truthy v); auto. apply reach_mark. auto.
    + apply handle_kept; auto.
Qed.

Lemma none_stays fs : (forall q, In (FThen q) fs -> forall e, ~ raises q e) -> forall p w w1, run p w = (w1, None) -> exists w2, run (within p fs) w = (w2, None).
Proof.
  induction fs as [|f fs IH]; intros N p w w1 R; [simpl; eauto|].
  assert (N' : forall q, In (FThen q) fs -> forall e, ~ raises q e) by (intros; eapply N; right; eauto).
  destruct f; cbn [within].
  - apply (IH N' _ w w1). cbn [Swallow.run]. rewrite R. auto.
  - apply (IH N' _ w w1). cbn [Swallow.run]. rewrite R. auto.
  - case_eq (run q w1). intros w2 o E. destruct o as [e|].
    + exfalso. eapply (N q); [left; auto|]. eapply raised; eauto.
    + apply (IH N' _ w w2). cbn [Swallow.run]. rewrite R. auto.
  - apply (IH N' _ w w1). cbn [Swallow.run]. rewrite R. auto.
Qed.

Lemma innermost_nil f : innermost [] f -> f = None.
Proof. intros I. remember [] as fs eqn:E. destruct I as [|[|? ?] ? ?]; auto; discriminate. Qed.

Lemma innermost_cons g fs f : innermost (g :: fs) f ->
  ((g = FSwallow \/ g = FDisable) /\ f = Some g) \/ (g <> FSwallow /\ g <> FDisable /\ innermost fs f).
Proof.
  intros I. remember (g :: fs) as gs eqn:E. destruct I as [gs H|pre x post H Hx].
  - subst gs. right. split; [apply (H g); simpl; auto|]. split; [apply (H g); simpl; auto|]. constructor. intros; apply H; simpl; auto.
  - destruct pre as [|y pre]; simpl in E; injection E as E1 E2; subst.
    + left. auto.
    + right. split; [apply (H g); simpl; auto|]. split; [apply (H g); simpl; auto|]. constructor; auto. intros; apply H; simpl; auto.
Qed.

(** Whatever surrounds the code that raises [e] (followed by code that raises nothing):
    the exception gets out exactly if it is marked noswallow or if the innermost of
    the swallowing contexts and decorated functions around it is no swallowing context. *)
Theorem C89_swallowing : forall fs p w w1 e f, ereach w -> exception e -> run p w = (w1, Some e) -> innermost fs f ->
  (forall q, In (FThen q) fs -> forall x, ~ raises q x) ->
  exists w2 o, run (within p fs) w = (w2, o) /\
  (o = Some e \/ o = None) /\
  (o = Some e <-> (exists v, observe e n_swallow w1 = Some v /\ truthy v = false) \/ f <> Some FSwallow).
Proof.
  intros fs p w w1 e f R0 X R I NT. assert (O : ereach w1) by (pose proof (C89_reach p w R0) as Q; rewrite R in Q; exact Q).
  change (exists v, observe e n_swallow w1 = Some v /\ truthy v = false) with (kept w1 e).
  destruct (kept_dec w1 e) as [K|K].
  - destruct (kept_escapes fs p w w1 e X R O K) as [w2 E]. exists w2, (Some e). split; auto. split; auto. tauto.
  - assert (G : exists w2, run (within p fs) w = (w2, match f with Some FSwallow => None | _ => Some e end)).
    { clear R0. revert p w w1 R O K NT. induction fs as [|g fs IH]; intros p w w1 R O K NT.
      - rewrite (innermost_nil f I). simpl. eauto.
      - assert (NT' : forall q, In (FThen q) fs -> forall x, ~ raises q x) by (intros; eapply NT; right; eauto).
        apply innermost_cons in I. destruct I as [[[->| ->] ->]|(G1 & G2 & I)]; [| |destruct g; try congruence]; cbn [within].
        + destruct (swallow_cases w1 e O X) as [S G].
          assert (E : run (Swallowing p) w = leave_swallowing cls mro settable e w1) by (cbn [Swallow.run]; rewrite R; auto).
          assert (S' : snd (leave_swallowing cls mro settable e w1) = None).
          { rewrite S. unfold kept in K. destruct (observe e n_swallow w1) as [v|]; auto. destruct (truthy v) eqn:T; auto. destruct K. eauto. }
          destruct (leave_swallowing cls mro settable e w1) as [w2 o]. cbn [snd] in S'. subst o. eapply none_stays; eauto.
        + apply (kept_escapes fs (Disabled p) w (noswallow cls mro settable e w1)); auto.
          * cbn [Swallow.run]. rewrite R. auto.
          * apply reach_mark. auto.
          * exists vfalse. split; auto. destruct X as [[c Hc] Hs]. unfold noswallow. rewrite (C51_marked cls mro settable w1 e c n_swallow vfalse n_swallow O Hc Hs). auto.
        + eapply IH; eauto. cbn [Swallow.run]. rewrite R. auto.
        + apply (IH I (Handling false p) w (handle_marks cls mro settable e w1)); auto.
          * cbn [Swallow.run]. rewrite R. auto.
          * unfold handle_marks. pose proof (reach_get w1 e n_handled vfalse O) as Gr. destruct (get_mark cls mro settable e n_handled vfalse w1) as [w2 v].
            cbn [fst] in *. destruct (truthy v); auto. apply reach_mark. auto.
          * rewrite handle_kept; auto. }
    destruct G as [w2 E]. eexists w2, _. split; [exact E|]. destruct f as [[]|]; split; auto; split; intros Q; auto; try discriminate;
      try (right; discriminate). destruct Q as [Q|Q]; [tauto|congruence].
Qed.

(** An exception that leaves a decorated function gets out of everything around it,
    handling_exceptions(swallow=True) excepted. *)
Theorem C89_disabled_escapes : forall fs p w w1 e, ereach w -> exception e -> run p w = (w1, Some e) ->
  exists w2, run (within (Disabled p) fs) w = (w2, Some e).
Proof.
  intros fs p w w1 e R0 X R. assert (O : ereach w1) by (pose proof (C89_reach p w R0) as Q; rewrite R in Q; exact Q).
  apply (kept_escapes fs (Disabled p) w (noswallow cls mro settable e w1)); auto.
  - cbn [Swallow.run]. rewrite R. auto.
  - apply reach_mark. auto.
  - exists vfalse. split; auto. destruct X as [[c Hc] Hs]. unfold noswallow. rewrite (C51_marked cls mro settable w1 e c n_swallow vfalse n_swallow O Hc Hs). auto.
Qed.

(** handling_exceptions(swallow=True) swallows the ordinary exceptions, marked or not. *)
Theorem C89_handling : forall p w w1 e, run p w = (w1, Some e) ->
  snd (run (Handling true p) w) = if ordinary e then None else Some e.
Proof. intros p w w1 e R. cbn [Swallow.run]. rewrite R. auto. Qed.

End P.

(** ** What is not true *)

(** "disable_exception_swallowing prevents swallowing": not in handling_exceptions(swallow=True). *)
Theorem C89_handling_refuted : exists cls mro settable ordinary e w, classes cls mro /\ exception cls settable e /\
  run cls mro settable ordinary (Handling true (Disabled (Raise e))) world0 = (w, None).
Proof.
  exists (fun o => if Nat.eqb o 7 then Some 0 else None), (fun c => if Nat.eqb c 7 then [] else [c]), (fun _ => true), (fun _ => true), 7. eexists. split; [|split].
  - split.
    + intros c. destruct (Nat.eqb c 7); [discriminate|eauto].
    + intros c o. destruct (Nat.eqb_spec c 7); simpl; [tauto|]. intros [<-|[]]. apply Nat.eqb_neq in n. rewrite n. auto.
    + intros e c. destruct (Nat.eqb e 7); [|discriminate]. intros Q. injection Q as <-. auto.
  - split; [eexists; reflexivity|auto].
  - reflexivity.
Qed.

(** ** Non-vacuity: exceptions 10, 12, … of class 0 and 11, 13, … of class 1; class 1 is
    marked noswallow *)
Definition ex_cls (o : nat) : option nat := if Nat.leb 10 o then Some (o mod 2) else None.
Definition ex_mro (c : nat) : list nat := if Nat.leb 10 c then [] else match c with 0 => [0; 9] | 1 => [1; 9] | _ => [c] end.
Definition ex_run := run ex_cls ex_mro (fun _ => true) (fun _ => true).

Example C89_hypotheses_met : classes ex_cls ex_mro /\ exception ex_cls (fun _ => true) 13 /\
  innermost [FHandle; FDisable; FThen Pass; FSwallow] (Some FDisable) /\
  snd (ex_run (Swallowing (Seq (Mark 1 n_swallow vfalse) (Raise 13))) world0) = Some 13 /\
  snd (ex_run (Swallowing (Seq (Mark 1 n_swallow vfalse) (Raise 12))) world0) = None /\
  snd (ex_run (Swallowing (Swallowing (Disabled (Raise 12)))) world0) = Some 12 /\
  snd (ex_run (Disabled (Swallowing (Raise 12))) world0) = None.
Proof.
  split.
  { unfold ex_cls, ex_mro. split; cbv beta.
    - intros c. destruct (Nat.leb 10 c) eqn:L; [discriminate|]. destruct c as [|[|c]]; eauto.
    - intros c o. destruct (Nat.leb_spec 10 c); [simpl; tauto|]. intros I.
      assert (o < 10) by (destruct c as [|[|c]]; simpl in I; intuition lia). destruct (Nat.leb_spec 10 o); [lia|auto].
    - intros e c. destruct (Nat.leb 10 e); [|discriminate]. intros Q. injection Q as <-.
      destruct (snd (Nat.divmod e 1 0 1)); auto. }
  split; [split; [eexists; reflexivity|auto]|]. split.
  - apply (in_some [FHandle]); auto. intros g [<-|[]]; split; discriminate.
  - repeat split; reflexivity.
Qed.

Print Assumptions C89_reach.
Print Assumptions C89_swallowing.
Print Assumptions C89_disabled_escapes.
Print Assumptions C89_handling.
Print Assumptions C89_handling_refuted.
