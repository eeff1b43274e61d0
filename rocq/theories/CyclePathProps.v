(** C148: the error about a cycle of fixtures shows one. *)

From Coq Require Import List Bool Arith Lia.
From Verif Require Import Dict FixtureGraph FixtureGraphProps CyclePath.
Import ListNotations.

(** ** It is the same computation *)
Lemma push_same deps path stack :
  push_deps deps path stack = match push_or_path deps path stack with inl s => Some s | inr _ => None end.
Proof.
  revert stack. induction deps as [|[p|g] deps IH]; intros stack; cbn; auto. destruct (existsb (Nat.eqb g) path); auto.
Qed.

Lemma walk_same n st : forall stack ret,
  needed_loop n st (fs_memo st) stack ret =
  match walk n st stack ret with Needed l => inl l | Cycle _ => inr CyclicFixtureDependency | Failed e => inr e end.
Proof.
  induction n as [|n IH]; intros stack ret; [reflexivity|]. cbn [needed_loop walk]. destruct stack as [|[f path] rest]; [reflexivity|].
  destruct (d_get f (fs_memo st)); [apply IH|]. destruct (d_get f (fs_fixtures st)); [|reflexivity]. rewrite push_same.
  destruct (push_or_path _ path rest); [apply IH|reflexivity].
Qed.

Theorem C148_same st f :
  snd (get_all_needed st f) = match ask st f with Needed l => inl l | Cycle _ => inr CyclicFixtureDependency | Failed e => inr e end.
Proof.
  unfold get_all_needed, ask. destruct (fs_unresolved st); [|reflexivity]. destruct (d_get f (fs_memo st)); [reflexivity|].
  unfold compute_needed. rewrite walk_same. destruct (walk (enough st) st [(f, [f])] []); reflexivity.
Qed.

(** ** An error is raised exactly if there is a cycle *)
Theorem C148_when ops st f : run ops store0 = inl st -> fs_unresolved st = [] -> known st f ->
  ((exists path, ask st f = Cycle path) <-> cyclic_from st f).
Proof.
  intros R U K. destruct (C26_cycles ops st f R U K) as [C _]. rewrite C148_same in C. rewrite <- C.
  destruct (ask st f) as [l|p|e] eqn:A; split; intros H; try discriminate H; eauto; try (destruct H as [? H]; discriminate H).
  exfalso. injection H as ->. destruct (C26_cycles ops st f R U K) as (C1 & C2 & _). rewrite C148_same, A in C1, C2.
  pose proof A as A'. unfold ask in A'. rewrite U in A'. destruct (d_get f (fs_memo st)); [discriminate|].
  assert (N : forall n stack ret, walk n st stack ret <> Failed CyclicFixtureDependency).
  { clear. induction n as [|n IH]; intros stack ret; cbn [walk]; [discriminate|]. destruct stack as [|[f path] rest]; [discriminate|].
    destruct (d_get f (fs_memo st)); [apply IH|]. destruct (d_get f (fs_fixtures st)); [|discriminate]. destruct (push_or_path _ path rest); [apply IH|discriminate]. }
  exact (N _ _ _ A').
Qed.

(** a way from one fixture to another along arguments *)
Inductive way (st : store) (f : nat) : nat -> list nat -> Prop :=
| way_start : way st f f [f]
| way_step g h p : way st f g p -> depends st g h -> way st f h (p ++ [h]).

Lemma way_first st f g p : way st f g p -> exists rest, p = f :: rest.
Proof. induction 1 as [|g h p W [rest ->] D]; [exists []; reflexivity|]. exists (rest ++ [h]). reflexivity. Qed.

Lemma way_last st f g p : way st f g p -> exists pre, p = pre ++ [g].
Proof. destruct 1 as [|g h p W D]; [exists []; reflexivity|exists p; reflexivity]. Qed.

Lemma way_steps st f g p : way st f g p -> forall pre x y post, p = pre ++ x :: y :: post -> depends st x y.
Proof.
  induction 1 as [|g h p W IH D]; intros pre x y post E.
  - destruct pre as [|a [|b pre]]; discriminate E.
  - destruct post as [|z post _] using rev_ind.
    + replace (pre ++ [x; y]) with ((pre ++ [x]) ++ [y]) in E by (rewrite <- app_assoc; reflexivity).
      apply app_inj_tail in E as [E ->]. destruct (way_last _ _ _ _ W) as [q Q]. rewrite Q in E. apply app_inj_tail in E as [_ ->]. exact D.
    + replace (pre ++ x :: y :: post ++ [z]) with ((pre ++ x :: y :: post) ++ [z]) in E by (rewrite <- app_assoc; reflexivity).
      apply app_inj_tail in E as [E _]. eapply IH. exact E.
Qed.

Section Walk.
Variables (st : store) (f0 : nat).

Definition good (x : nat * list nat) : Prop := way st f0 (fst x) (snd x) /\ NoDup (snd x).

(** a path that comes back to one of its fixtures *)
Definition comes_back (path : list nat) : Prop :=
  exists q g h, path = q ++ [g] /\ way st f0 h q /\ NoDup q /\ depends st h g /\ In g q.

Lemma push_good deps f path stack : (forall g, In (DFix g) deps -> depends st f g) -> good (f, path) -> (forall x, In x stack -> good x) ->
  match push_or_path deps path stack with
  | inl s => forall x, In x s -> good x
  | inr p => comes_back p
  end.
Proof.
  intros D [W N]. cbn in W, N. revert stack. induction deps as [|[p|g] deps IH]; intros stack S; cbn [push_or_path]; [exact S| |].
  - apply IH; [intros g I; apply D; right; exact I|exact S].
  - destruct (existsb (Nat.eqb g) path) eqn:E.
    + apply existsb_exists in E as (y & I & Y). apply Nat.eqb_eq in Y as <-. exists path, g, f. repeat split; auto. apply D. left. reflexivity.
    + apply IH; [intros h I; apply D; right; exact I|]. intros x [<-|I]; [|apply S, I]. split; cbn [fst snd].
      * eapply way_step; [exact W|]. apply D. left. reflexivity.
      * apply (NoDup_Add (a := g) (l := path)); [rewrite <- (app_nil_r path) at 1; apply Add_app|]. split; [exact N|]. intros I.
        assert (existsb (Nat.eqb g) path = true) by (apply existsb_exists; exists g; split; [exact I|apply Nat.eqb_refl]). congruence.
Qed.

Lemma walk_good n : forall stack ret, (forall x, In x stack -> good x) -> forall path, walk n st stack ret = Cycle path -> comes_back path.
Proof.
  induction n as [|n IH]; intros stack ret S path H; [discriminate|]. cbn [walk] in H. destruct stack as [|[f p] rest]; [discriminate|].
  assert (S' : forall x, In x rest -> good x) by (intros x I; apply S; right; exact I).
  destruct (d_get f (fs_memo st)); [apply (IH _ _ S' _ H)|]. destruct (d_get f (fs_fixtures st)); [|discriminate].
  destruct (d_get f (fs_resolved st)) as [r|] eqn:R.
  - pose proof (push_good (map snd (r_kwargs r)) f p rest (fun g I => ex_intro _ r (conj R I)) (S _ (or_introl eq_refl)) S') as P.
    destruct (push_or_path (map snd (r_kwargs r)) p rest); [apply (IH _ _ P _ H)|]. injection H as <-. exact P.
  - cbn [r_kwargs map push_or_path] in H. apply (IH _ _ S' _ H).
Qed.
End Walk.

Lemma way_known st f : d_get f (fs_fixtures st) <> None -> ok st -> forall g p, way st f g p -> forall x, In x p -> d_get x (fs_fixtures st) <> None.
Proof.
  intros K O g p W. induction W as [|a b p W IH D]; intros x I.
  - destruct I as [<-|[]]. exact K.
  - apply in_app_iff in I as [I|[<-|[]]]; [apply IH, I|]. destruct D as [r [H I]]. destruct (ok_res _ O _ _ H) as [d [own [_ [_ D]]]].
    destruct (D _ I) as [_ [dg [og [E _]]]]. congruence.
Qed.

(** ** What the error shows begins with the fixture that was asked about, goes from each fixture to one of its arguments and ends with the
    only fixture that is on it twice, so with a cycle of at least two fixtures; all of them have names to show *)
Theorem C148_path ops st f path : run ops store0 = inl st -> ask st f = Cycle path ->
  (exists rest, path = f :: rest) /\
  (forall pre x y post, path = pre ++ x :: y :: post -> depends st x y) /\
  (exists pre g mid, path = pre ++ g :: mid ++ [g] /\ mid <> [] /\ NoDup (pre ++ g :: mid)) /\
  (exists names, shown st path = Some names /\ length names = length path /\
     forall i x, nth_error path i = Some x -> exists d own, d_get x (fs_fixtures st) = Some (d, own) /\ nth_error names i = Some (fd_name d)).
Proof.
  intros R A. unfold ask in A. destruct (fs_unresolved st); [|discriminate]. destruct (d_get f (fs_memo st)); [discriminate|].
  assert (K : d_get f (fs_fixtures st) <> None).
  { intros Q. destruct (enough st) as [|n]; [discriminate|]. cbn [walk] in A. destruct (d_get f (fs_memo st)) eqn:M; [|rewrite Q in A; discriminate].
    destruct (run_ok _ _ _ ok0 R) as [O _]. destruct n; cbn in A; discriminate. }
  apply (walk_good st f) in A.
  2:{ intros x [<-|[]]. split; [constructor|]. constructor; [intros []|constructor]. }
  destruct A as (q & g & h & -> & W & N & D & I).
  assert (W' : way st f g (q ++ [g])) by (econstructor; eauto). split; [exact (way_first _ _ _ _ W')|]. split; [exact (way_steps _ _ _ _ W')|]. split.
  - apply in_split in I as (pre & mid & ->). exists pre, g, mid. split; [rewrite <- app_assoc; reflexivity|]. split; [|exact N]. intros ->.
    destruct (way_last _ _ _ _ W) as [x X]. apply app_inj_tail in X as [_ ->]. exact (C26_no_self ops st h R D).
  - destruct (run_ok _ _ _ ok0 R) as [O _].
    assert (KN : forall x, In x (q ++ [g]) -> d_get x (fs_fixtures st) <> None).
    { intros x J. exact (way_known st f K O _ _ W' x J). }
    revert KN. generalize (q ++ [g]). clear. intros p. induction p as [|x p IH]; intros KN.
    + exists []. split; [reflexivity|]. split; [reflexivity|]. intros [|i] x H; discriminate H.
    + destruct IH as (names & S & L & P); [intros y I; apply KN; right; exact I|]. cbn [shown]. rewrite S.
      destruct (d_get x (fs_fixtures st)) as [[d own]|] eqn:E; [|destruct (KN x (or_introl eq_refl) E)].
      exists (fd_name d :: names). split; [reflexivity|]. split; [cbn; congruence|]. intros [|i] y H; cbn in H |- *; [|apply P, H].
      injection H as <-. eauto.
Qed.

Example C148_ex : match run ex_circle store0 with
                  | inl st => ask st 13 = Cycle [13; 10; 11; 12; 10] /\ shown st [13; 10; 11; 12; 10] = Some [4; 1; 2; 3; 1] /\ ask st 10 = Cycle [10; 11; 12; 10]
                  | inr _ => False end.
Proof. vm_compute. auto. Qed.

(** ** Not so: that every fixture shown is on the cycle *)
Theorem C148_all_refuted : exists ops st f path x, run ops store0 = inl st /\ ask st f = Cycle path /\ In x path /\ ~ reaches1 st x x.
Proof.
  destruct (run ex_circle store0) as [st|e] eqn:R; [|vm_compute in R; discriminate]. exists ex_circle, st, 13, [13; 10; 11; 12; 10], 13.
  split; [exact R|]. vm_compute in R. injection R as <-. split; [vm_compute; reflexivity|]. split; [left; reflexivity|].
  intros T. assert (L : forall st a b, reaches1 st a b -> exists c, depends st c b).
  { clear. intros st a b T. induction T as [a b D|a b c D T IH]; eauto. }
  apply L in T as [c [r [H I]]]. cbn in H.
  repeat match type of H with context [if ?b then _ else _] => destruct b; [injection H as <-; cbn in I; firstorder discriminate|] end. discriminate.
Qed.

Print Assumptions C148_same.
Print Assumptions C148_when.
Print Assumptions C148_path.
Print Assumptions C148_all_refuted.
