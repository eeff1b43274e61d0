(** C48: which warnings are suppressed. *)

From Coq Require Import List Bool Arith Ascii String Lia.
From Verif Require Import Str Warnings.
Import ListNotations.

Section W.
Variable subclass : nat -> nat -> bool.
Variable re_match : nat -> str -> bool.

(** ** Specification *)

(** every given field of the filter agrees with the warning *)
Definition agrees (p : option pat) (s : str) : Prop :=
  forall q, p = Some q -> match q with PStr t => t = s | PRe r => re_match r s = true end.
Definition suppresses (f : wfilter) (w : warning) (msg : str) : Prop :=
  (forall c, f_category f = Some c -> subclass (v_category w) c = true)
  /\ agrees (f_filename f) (v_filename w)
  /\ (forall n, f_lineno f = Some n -> v_lineno w = n)
  /\ agrees (f_message f) msg.

(** no field is given as an empty string or as line 0 *)
Definition plain (f : wfilter) : Prop :=
  f_filename f <> Some (PStr []) /\ f_message f <> Some (PStr []) /\ f_lineno f <> Some 0.

(** filter [f] was registered, and since then neither its context was left nor
    the filters were cleared *)
Definition in_force (tr : list wev) (id : nat) (f : wfilter) : Prop :=
  exists a b, tr = a ++ EReg id f :: b /\ ~ In EClear b /\ forall r, ~ In (EExit id r) b.

Fixpoint all_plain (p : wprog) : Prop :=
  match p with
  | WDone | WRaise => True
  | WIgnore f k => plain f /\ all_plain k
  | WClear k | WWarn _ k => all_plain k
  | WWith f b k => plain f /\ all_plain b /\ all_plain k
  | WTry b k => all_plain b /\ all_plain k
  end.

Definition s0 : wst := mkWst [] [] 0 [].

(** ** Matching *)

Lemma pattern_agrees p s : match p with Some (PStr []) => False | _ => True end ->
  (match p with Some p => truthy p && negb (pattern_matches re_match p s) | None => false end = false <-> agrees p s).
Proof.
  unfold agrees. destruct p as [[[|c t]|r]|]; simpl; intro H; try contradiction.
  - split; intro Q.
    + intros q E. injection E as <-. apply negb_false_iff in Q. apply (proj1 (str_eqb_eq (c :: t) s)) in Q. auto.
    + specialize (Q _ eq_refl). simpl in Q. apply negb_false_iff. apply (proj2 (str_eqb_eq (c :: t) s)). auto.
  - rewrite negb_false_iff. split; intro Q; [intros q E; injection E as <-; auto|apply (Q _ eq_refl)].
  - split; auto. intros _ q E. discriminate.
Qed.

Theorem C48_matches f w msg : plain f -> matches subclass re_match f w msg = true <-> suppresses f w msg.
Proof.
  intros (P1 & P2 & P3). unfold matches, suppresses.
  assert (H1 : match f_filename f with Some (PStr []) => False | _ => True end).
  { destruct (f_filename f) as [[[|]|]|]; auto. }
  assert (H2 : match f_message f with Some (PStr []) => False | _ => True end).
  { destruct (f_message f) as [[[|]|]|]; auto. }
  rewrite <- (pattern_agrees (f_filename f) (v_filename w) H1), <- (pattern_agrees (f_message f) msg H2).
  clear H1 H2.
  assert (C : match f_category f with Some c => negb (subclass (v_category w) c) | None => false end = false
              <-> forall c, f_category f = Some c -> subclass (v_category w) c = true).
  { destruct (f_category f) as [c|].
    - rewrite negb_false_iff. split; intro Q; [intros c' E; congruence|auto].
    - split; auto. intros _ c E. discriminate. }
  assert (L : match f_lineno f with Some n => negb (Nat.eqb n 0) && negb (Nat.eqb (v_lineno w) n) | None => false end = false
              <-> forall n, f_lineno f = Some n -> v_lineno w = n).
  { destruct (f_lineno f) as [n|].
    - destruct (Nat.eqb_spec n 0) as [->|N]; [congruence|]. simpl. rewrite negb_false_iff, Nat.eqb_eq.
      split; intro Q; [intros n' E; congruence|auto].
    - split; auto. intros _ n E. discriminate. }
  rewrite <- C, <- L.
  destruct (match f_category f with Some c => _ | None => false end);
  destruct (match f_filename f with Some p => _ | None => false end);
  destruct (match f_lineno f with Some n => _ | None => false end);
  destruct (match f_message f with Some p => _ | None => false end); intuition congruence.
Qed.

(** ** Filters in force *)

Definition ids_below (n : nat) (tr : list wev) : Prop :=
  forall e, In e tr -> match e with EReg id _ | EExit id _ => id < n | _ => True end.

Lemma force_snoc tr e id f : in_force (tr ++ [e]) id f <->
  (in_force tr id f /\ e <> EClear /\ forall r, e <> EExit id r) \/ e = EReg id f.
Proof.
  unfold in_force. split.
  - intros (a & b & E & C & X). destruct b as [|x b] using rev_ind.
    + apply app_inj_tail in E as [-> ->]. auto.
    + clear IHb. left. rewrite app_comm_cons, app_assoc in E. apply app_inj_tail in E as [-> ->].
      split; [|split].
      * exists a, b. split; auto. split; [intro I; apply C; apply in_or_app; auto|].
        intros r I. apply (X r). apply in_or_app; auto.
      * intros ->. apply C. apply in_or_app. right. left. auto.
      * intros r ->. apply (X r). apply in_or_app. right. left. auto.
  - intros [((a & b & E & C & X) & N & R)| ->].
    + exists a, (b ++ [e]). rewrite E, <- app_assoc. split; auto. split.
      * intro I. apply in_app_or in I as [I|[I|[]]]; auto.
      * intros r I. apply in_app_or in I as [I|[I|[]]]; [apply (X r); auto|apply (R r); auto].
    + exists tr, []. auto.
Qed.

(** the list of the program is the list of the filters in force *)
Record good (s : wst) : Prop := {
  g_force : forall id f, In (id, f) (ignored s) <-> in_force (wtrace s) id f;
  g_plain : forall id f, In (id, f) (ignored s) -> plain f;
  g_fresh : ids_below (fresh s) (wtrace s);
  g_warn : forall pre w msg b post, wtrace s = pre ++ EWarn w msg b :: post ->
           (b = false <-> exists id f, in_force pre id f /\ suppresses f w msg) }.

Definition no_raise (tr : list wev) : Prop := forall id, ~ In (EExit id true) tr.

Lemma snoc_split {A} (l : list A) e pre x post : l ++ [e] = pre ++ x :: post ->
  (exists post', l = pre ++ x :: post') \/ (pre = l /\ x = e).
Proof.
  intro E. destruct post as [|y post] using rev_ind.
  - apply app_inj_tail in E as [-> ->]. auto.
  - rewrite app_comm_cons, app_assoc in E. apply app_inj_tail in E as [-> _]. eauto.
Qed.

Lemma good_snoc s e l r n : good s ->
  match e with EWarn _ _ _ => False | _ => True end ->
  (forall id f, In (id, f) l <-> in_force (wtrace s ++ [e]) id f) ->
  (forall id f, In (id, f) l -> plain f) ->
  fresh s <= n -> match e with EReg id _ | EExit id _ => id < n | _ => True end ->
  good (mkWst l r n (wtrace s ++ [e])).
Proof.
  intros G Ne F P Le Lt. constructor; simpl; auto.
  - intros x I. apply in_app_or in I as [I|[<-|[]]]; auto.
    pose proof (g_fresh _ G x I) as H. destruct x; auto; lia.
  - intros pre w msg b post E. apply snoc_split in E as [(post' & E)|[_ Q]].
    + eapply (g_warn _ G); eauto.
    + subst e. contradiction.
Qed.

Lemma ignore_good f s : plain f -> good s -> good (ignore f s).
Proof.
  intros P G. unfold ignore. apply good_snoc; simpl; auto.
  - intros id g. rewrite force_snoc, in_app_iff, (g_force _ G). simpl. split.
    + intros [H|[H|[]]].
      * left. split; auto. split; [discriminate|]. intros r. discriminate.
      * injection H as <- <-. auto.
    + intros [[H _]|H]; auto. injection H as <- <-. auto.
  - intros id g I. apply in_app_or in I as [I|[I|[]]]; [eapply (g_plain _ G); eauto|].
    injection I as <- <-. auto.
Qed.

Lemma clear_good s : good s -> good (clear s).
Proof.
  intro G. unfold clear. apply good_snoc; simpl; auto; [|intros ? ? []].
  intros id g. rewrite force_snoc. split; [contradiction|]. intros [(_ & H & _)|H]; congruence.
Qed.

Lemma capture_good w s : good s -> good (fst (capture subclass re_match w s)).
Proof.
  intro G. unfold capture. destruct (v_message w) as [msg|]; simpl.
  2: { apply good_snoc; simpl; auto; [|apply (g_plain _ G)].
       intros id f. rewrite force_snoc, (g_force _ G). split; [|intros [[H _]|H]; [auto|discriminate]].
       intro H. left. split; auto. split; [discriminate|intros r; discriminate]. }
  assert (B : forall b r, (b = false <-> exists id f, in_force (wtrace s) id f /\ suppresses f w msg) ->
            good (mkWst (ignored s) r (fresh s) (wtrace s ++ [EWarn w msg b]))).
  { intros b r H. constructor; simpl.
    - intros id f. rewrite force_snoc, (g_force _ G). split; [|intros [[J _]|J]; [auto|discriminate]].
      intro J. left. split; auto. split; [discriminate|intros r'; discriminate].
    - apply (g_plain _ G).
    - intros x I. apply in_app_or in I as [I|[<-|[]]]; auto. apply (g_fresh _ G); auto.
    - intros pre w' msg' b' post E. apply snoc_split in E as [(post' & E)|[-> Q]].
      + eapply (g_warn _ G); eauto.
      + injection Q as <- <- <-. auto. }
  destruct (existsb _ (ignored s)) eqn:E; simpl; apply B.
  - split; auto. intros _. apply existsb_exists in E as ([id f] & I & M). simpl in M.
    exists id, f. split; [apply (g_force _ G); auto|]. apply C48_matches; auto. eapply (g_plain _ G); eauto.
  - split; [discriminate|]. intros (id & f & F & S). exfalso. apply (g_force _ G) in F.
    assert (existsb (fun e => matches subclass re_match (snd e) w msg) (ignored s) = true); [|congruence].
    apply existsb_exists. exists (id, f). split; auto. simpl. apply C48_matches; auto. eapply (g_plain _ G); eauto.
Qed.

Lemma capture_grows w s : exists b, wtrace (fst (capture subclass re_match w s)) = wtrace s ++ b
  /\ fresh s <= fresh (fst (capture subclass re_match w s)).
Proof.
  unfold capture. destruct (v_message w); [destruct (existsb _ _)|]; simpl; eexists; split; auto.
Qed.

Lemma run_grows p s : exists b, wtrace (fst (run subclass re_match p s)) = wtrace s ++ b
  /\ fresh s <= fresh (fst (run subclass re_match p s)).
Proof.
  revert s. induction p; intro s; cbn [run].
  - exists []. rewrite app_nil_r. auto.
  - destruct (IHp (ignore f s)) as (b & E & L). simpl in E, L. exists (EReg (fresh s) f :: b).
    rewrite E, <- app_assoc. split; auto; lia.
  - destruct (IHp (clear s)) as (b & E & L). simpl in E, L. exists (EClear :: b).
    rewrite E, <- app_assoc. split; auto; lia.
  - destruct (capture_grows w s) as (b & E & L). destruct (capture subclass re_match w s) as [s1 []]; simpl in *.
    + eauto.
    + destruct (IHp s1) as (b2 & E2 & L2). exists (b ++ b2). rewrite E2, E, app_assoc. split; auto; lia.
  - destruct (IHp1 (ignore f s)) as (b & E & L). simpl in E, L.
    destruct (run subclass re_match p1 (ignore f s)) as [s1 []]; simpl in *.
    + exists (EReg (fresh s) f :: b ++ [EExit (fresh s) true]). rewrite E, <- !app_assoc. split; auto; lia.
    + destruct (IHp2 (mkWst (unignore (fresh s) (ignored s1)) (recorded s1) (fresh s1)
                            (wtrace s1 ++ [EExit (fresh s) false]))) as (b2 & E2 & L2). simpl in E2, L2.
      exists (EReg (fresh s) f :: b ++ EExit (fresh s) false :: b2). split; [|lia].
      rewrite E2, E. repeat (rewrite <- app_assoc; simpl). reflexivity.
  - destruct (IHp1 s) as (b & E & L). destruct (IHp2 (fst (run subclass re_match p1 s))) as (b2 & E2 & L2).
    exists (b ++ b2). rewrite E2, E, app_assoc. split; auto; lia.
  - exists []. rewrite app_nil_r. auto.
Qed.

Lemma no_raise_app a b : no_raise (a ++ b) -> no_raise a.
Proof. intros H id I. apply (H id). apply in_or_app. auto. Qed.

Lemma run_good p s : all_plain p -> good s -> no_raise (wtrace (fst (run subclass re_match p s))) ->
  good (fst (run subclass re_match p s)).
Proof.
  revert s. induction p; intros s A G N; cbn [run] in *; auto.
  - destruct A. apply IHp; auto. apply ignore_good; auto.
  - apply IHp; auto. apply clear_good; auto.
  - pose proof (capture_good w s G) as G1. destruct (capture subclass re_match w s) as [s1 []]; simpl in *; auto.
  - destruct A as (P & A1 & A2).
    pose proof (IHp1 (ignore f s) A1 (ignore_good f s P G)) as G1.
    pose proof (run_grows p1 (ignore f s)) as (b1 & E1 & L1).
    destruct (run subclass re_match p1 (ignore f s)) as [s1 []]; simpl in *.
    { exfalso. apply (N (fresh s)). apply in_or_app. right. left. auto. }
    set (s2 := mkWst (unignore (fresh s) (ignored s1)) (recorded s1) (fresh s1) (wtrace s1 ++ [EExit (fresh s) false])) in *.
    assert (N1 : no_raise (wtrace s1)).
    { destruct (run_grows p2 s2) as (b2 & E2 & _). rewrite E2 in N. simpl in N.
      apply no_raise_app in N. apply no_raise_app in N. auto. }
    specialize (G1 N1). apply IHp2; auto. unfold s2. apply good_snoc; auto.
    + intros id g. rewrite force_snoc. unfold unignore. rewrite filter_In, (g_force _ G1). simpl.
      rewrite negb_true_iff, Nat.eqb_neq. split.
      * intros [H Q]. left. split; auto. split; [discriminate|]. intros r R. injection R as E _. congruence.
      * intros [(H & _ & R)|H]; [|discriminate]. split; auto. intros ->. apply (R false). auto.
    + intros id g I. unfold unignore in I. apply filter_In in I as [I _]. eapply (g_plain _ G1); eauto.
  - destruct A as (A1 & A2). destruct (run_grows p2 (fst (run subclass re_match p1 s))) as (b2 & E2 & _).
    rewrite E2 in N. apply IHp2; auto; [apply IHp1; auto|]. 2: rewrite E2; auto.
    apply no_raise_app in N. auto.
Qed.

Lemma good0 : good s0.
Proof.
  constructor; simpl.
  - intros id f. split; [contradiction|]. intros (a & b & E & _). destruct a; discriminate.
  - contradiction.
  - intros e [].
  - intros pre w msg b post E. destruct pre; discriminate.
Qed.

(** In every program, a warning is suppressed exactly if some filter that is in
    force agrees with it on every given field; a filter of a context is in force
    from the entry of the context to its exit.  Partial: no field is given as an
    empty string or as line 0, see [C48_falsy_refuted]; no exception leaves an
    ignored_warnings context, see [C48_leak_refuted]. *)
Theorem C48_suppressed_partial p pre w msg b post :
  all_plain p ->
  let tr := wtrace (fst (run subclass re_match p s0)) in
  no_raise tr -> tr = pre ++ EWarn w msg b :: post ->
  (b = false <-> exists id f, in_force pre id f /\ suppresses f w msg).
Proof.
  intros A tr N E. eapply (g_warn _ (run_good p s0 A good0 N)). exact E.
Qed.

(** A warning that is not suppressed is recorded, once and in order. *)
Definition passed (tr : list wev) : list warning :=
  flat_map (fun e => match e with EWarn w _ true => [w] | _ => [] end) tr.

Lemma run_recorded p s : recorded s = passed (wtrace s) ->
  recorded (fst (run subclass re_match p s)) = passed (wtrace (fst (run subclass re_match p s))).
Proof.
  assert (Pa : forall tr e, passed (tr ++ [e]) = passed tr ++ passed [e]).
  { intros. unfold passed. apply flat_map_app. }
  revert s. induction p; intros s R; cbn [run] in *; auto.
  - apply IHp. simpl. rewrite Pa, R. simpl. rewrite app_nil_r. auto.
  - apply IHp. simpl. rewrite Pa, R. simpl. rewrite app_nil_r. auto.
  - assert (R1 : recorded (fst (capture subclass re_match w s)) = passed (wtrace (fst (capture subclass re_match w s)))).
    { unfold capture. destruct (v_message w); [destruct (existsb _ _)|]; simpl; rewrite Pa, R; simpl; rewrite ?app_nil_r; auto. }
    destruct (capture subclass re_match w s) as [s1 []]; simpl in *; auto.
  - assert (R1 := IHp1 (ignore f s)). simpl in R1. rewrite Pa, R in R1. simpl in R1. rewrite app_nil_r in R1.
    specialize (R1 eq_refl). destruct (run subclass re_match p1 (ignore f s)) as [s1 []]; simpl in *.
    + rewrite Pa, R1. simpl. rewrite app_nil_r. auto.
    + apply IHp2. simpl. rewrite Pa, R1. simpl. rewrite app_nil_r. auto.
Qed.

Theorem C48_recorded p :
  let s := fst (run subclass re_match p s0) in recorded s = passed (wtrace s).
Proof. apply run_recorded. reflexivity. Qed.
End W.

(** ** Examples and refutations *)

Definition sub0 (a b : nat) := Nat.leb b a.
Definition re0 (r : nat) (s : str) := Nat.eqb (List.length s) r.
Definition w1 := mkWarning 3 (lit "f.py"%string) 7 (Some (lit "hello"%string)).
Definition fl1 := mkFilter (Some 2) None (Some 7) (Some (PRe 5)).
Definition fl2 := mkFilter None (Some (PStr (lit "g.py"%string))) None None.

Definition ex_prog : wprog :=
  WIgnore fl2 (WWarn w1 (WWith fl1 (WWarn w1 (WTry WRaise WDone)) (WWarn w1 (WClear (WWarn w1 WDone))))).

Example C48_ex :
  all_plain ex_prog
  /\ no_raise (wtrace (fst (run sub0 re0 ex_prog s0)))
  /\ wtrace (fst (run sub0 re0 ex_prog s0))
     = [EReg 0 fl2; EWarn w1 (lit "hello"%string) true; EReg 1 fl1; EWarn w1 (lit "hello"%string) false;
        EExit 1 false; EWarn w1 (lit "hello"%string) true; EClear; EWarn w1 (lit "hello"%string) true].
Proof.
  assert (E : wtrace (fst (run sub0 re0 ex_prog s0))
     = [EReg 0 fl2; EWarn w1 (lit "hello"%string) true; EReg 1 fl1; EWarn w1 (lit "hello"%string) false;
        EExit 1 false; EWarn w1 (lit "hello"%string) true; EClear; EWarn w1 (lit "hello"%string) true]) by reflexivity.
  split; [|split; auto].
  - simpl. unfold plain. simpl. repeat split; discriminate.
  - rewrite E. intros id I. simpl in I. intuition discriminate.
Qed.

(** A filter for line 0 (or for an empty file name or message) suppresses
    warnings that do not agree with it. *)
Theorem C48_falsy_refuted :
  exists f w msg, matches sub0 re0 f w msg = true /\ ~ suppresses sub0 re0 f w msg.
Proof.
  exists (mkFilter None None (Some 0) None), w1, (lit "hello"%string). split; [reflexivity|].
  intros (_ & _ & L & _). specialize (L 0 eq_refl). discriminate.
Qed.

(** A context left by an exception keeps its filter in force: the warning after
    it is suppressed although no filter is in force any more. *)
Theorem C48_leak_refuted :
  exists p pre w msg post, all_plain p
    /\ wtrace (fst (run sub0 re0 p s0)) = pre ++ EWarn w msg false :: post
    /\ forall id f, ~ in_force pre id f.
Proof.
  exists (WTry (WWith fl1 WRaise WDone) (WWarn w1 WDone)), [EReg 0 fl1; EExit 0 true], w1, (lit "hello"%string), [].
  split; [simpl; unfold plain; simpl; repeat split; discriminate|]. split; [reflexivity|].
  intros id f H. change [EReg 0 fl1; EExit 0 true] with ([EReg 0 fl1] ++ [EExit 0 true]) in H.
  apply force_snoc in H as [(H & _ & X)|H]; [|discriminate].
  apply (force_snoc []) in H as [(H & _)|H].
  - destruct H as (a & b & E & _). destruct a; discriminate.
  - injection H as <- <-. apply (X true). auto.
Qed.

(** Raising a warning object without arguments makes the capture raise: the
    warning is neither recorded nor suppressed by a filter, an exception reaches
    the program. *)
Theorem C48_noargs_refuted :
  exists w, run sub0 re0 (WWarn w WDone) s0 = (mkWst [] [] 0 [EBad w], true).
Proof. exists (mkWarning 3 (lit "f.py"%string) 7 None). reflexivity. Qed.

Print Assumptions C48_matches.
Print Assumptions C48_suppressed_partial.
Print Assumptions C48_recorded.
Print Assumptions C48_falsy_refuted.
Print Assumptions C48_leak_refuted.
Print Assumptions C48_noargs_refuted.
