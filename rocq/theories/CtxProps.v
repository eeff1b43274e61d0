(** C52: the context stack. *)

From Coq Require Import List Bool Arith PeanoNat Lia.
From Verif Require Import Ctx.
Import ListNotations.

Section P.
Variable null_has : nat -> bool.
Variable ctx_default : nat -> option nat.
Notation run := (k_run null_has ctx_default).

(** the null context is at the bottom and nowhere else *)
Definition bottom (k : stk) : Prop := exists cs, k_stack k = map RCtx cs ++ [RNull].

Lemma step_bottom k o : bottom k -> bottom (fst (k_step null_has ctx_default k o)).
Proof.
  intros (cs & H). destruct o; simpl.
  - exists cs; auto.
  - unfold k_set. rewrite H. destruct cs; simpl; [exists []; auto|eexists (_ :: cs); simpl; eauto].
  - exists (c :: cs). simpl. rewrite H. auto.
  - unfold k_pop. rewrite H. destruct cs as [|c [|d cs]]; simpl; [exists []; auto|exists []; auto|exists (d :: cs); auto].
Qed.

Lemma run_bottom ops : forall k, bottom k -> bottom (fst (run k ops)).
Proof.
  induction ops as [|o ops IH]; intros k H; simpl; auto. pose proof (step_bottom k o H) as H1.
  destruct (k_step _ _ k o) as [k1 r]. simpl in H1. specialize (IH k1 H1). destruct (run k1 ops); auto.
Qed.

(** Whatever is done, the null context stays at the bottom: the assertion never
    fails and the internal error of pop never occurs. *)
Theorem C52_null_context_at_the_bottom : forall ops,
  bottom (fst (run stk0 ops)) /\ ~ In AssertionErr (snd (run stk0 ops)) /\ ~ In InternalErr (snd (run stk0 ops)).
Proof.
  intros ops. assert (B : bottom stk0) by (exists []; auto). split; [apply run_bottom; auto|].
  revert B. generalize stk0. induction ops as [|o ops IH]; intros k B; simpl; [tauto|].
  pose proof (step_bottom k o B) as B1.
  assert (R : snd (k_step null_has ctx_default k o) <> AssertionErr /\ snd (k_step null_has ctx_default k o) <> InternalErr).
  { destruct B as (cs & H). destruct o; simpl; unfold k_get, k_set, k_pop; try rewrite H; try (split; discriminate);
      destruct cs as [|c [|d cs]]; simpl; try (split; discriminate); try (destruct (null_has _); split; discriminate);
      destruct (attr_get _ _ _); split; discriminate. }
  destruct (k_step _ _ k o) as [k1 r]. simpl in *. specialize (IH k1 B1). destruct (run k1 ops) as [k2 rs]. simpl in *.
  destruct R. split; intros [X|X]; tauto.
Qed.

(** Popping the last context is refused with RuntimeError and changes nothing. *)
Theorem C52_pop_at_the_bottom : forall k, k_stack k = [RNull] -> k_pop k = (k, RuntimeErr).
Proof. intros k H. unfold k_pop. rewrite H. auto. Qed.

(** pop undoes push, whatever balanced sequence happens in between. *)
Inductive balanced : list cop -> Prop :=
| bal_nil : balanced []
| bal_get a l : balanced l -> balanced (CGet a :: l)
| bal_set a v l : balanced l -> balanced (CSet a v :: l)
| bal_push c l m : balanced l -> balanced m -> balanced (CPush c :: l ++ CPop :: m).

Lemma run_app a : forall k b, fst (run k (a ++ b)) = fst (run (fst (run k a)) b).
Proof.
  induction a as [|o a IH]; intros k b; simpl; auto. destruct (k_step _ _ k o) as [k1 r]. specialize (IH k1 b).
  destruct (run k1 (a ++ b)), (run k1 a). simpl in *. auto.
Qed.

Theorem C52_balanced : forall ops k, balanced ops -> k_stack k <> [] -> k_stack (fst (run k ops)) = k_stack k.
Proof.
  intros ops k H. revert k. induction H as [|a l H IH|a v l H IH|c l m H1 IH1 H2 IH2]; intros k Hk; simpl; auto.
  - specialize (IH k Hk). destruct (run k l); auto.
  - unfold k_set. destruct (k_stack k) as [|[|c] st] eqn:E; [congruence| |].
    + specialize (IH k). rewrite E in IH. destruct (run k l); auto.
    + match goal with |- context[run ?x l] => specialize (IH x); destruct (run x l) end. simpl in *. rewrite IH; auto.
  - match goal with |- context[run ?x (l ++ CPop :: m)] => set (k1 := x); pose proof (run_app l k1 (CPop :: m)) as A;
      destruct (run k1 (l ++ CPop :: m)) as [kf rs]; cbn [fst] in * end.
    subst kf. assert (E1 : k_stack (fst (run k1 l)) = RCtx c :: k_stack k) by (apply IH1; discriminate).
    set (k2 := fst (run k1 l)) in *. cbn [k_run k_step]. unfold k_pop. rewrite E1. destruct (k_stack k) as [|t st] eqn:E; [congruence|].
    match goal with |- context[run ?x m] => specialize (IH2 x); destruct (run x m) end. simpl in *. apply IH2. discriminate.
Qed.

(** Writing an attribute changes that attribute of the top context only; on the
    null context it is refused. *)
Theorem C52_writes_touch_the_top_only : forall k a v k' r,
  bottom k -> k_set a v k = (k', r) ->
  k_stack k' = k_stack k /\
  match k_stack k with
  | RCtx c :: _ => r = Done /\ k_get null_has ctx_default a k' = Value (Some v) /\
      (forall b, b <> a -> k_get null_has ctx_default b k' = k_get null_has ctx_default b k) /\
      (forall d, d <> c -> k_heap k' d = k_heap k d)
  | _ => r = AttributeErr /\ k' = k
  end.
Proof.
  intros k a v k' r (cs & H) Hs. unfold k_set in Hs. rewrite H in *. destruct cs as [|c cs]; simpl in *; inversion Hs; subst; simpl.
  - split; auto.
  - split; auto. unfold k_get. simpl. rewrite H. simpl. rewrite !Nat.eqb_refl. simpl. rewrite Nat.eqb_refl.
    repeat split; auto.
    + intros b Hb. apply Nat.eqb_neq in Hb. rewrite Hb. auto.
    + intros d Hd. apply Nat.eqb_neq in Hd. rewrite Hd. auto.
Qed.

(** ** What is read *)

(** the contexts pushed and not popped again, top first; popping the null
    context is refused *)
Fixpoint pushed (st : list nat) (ops : list cop) : list nat :=
  match ops with
  | [] => st
  | CPush c :: ops => pushed (c :: st) ops
  | CPop :: ops => pushed (tl st) ops
  | _ :: ops => pushed st ops
  end.
Definition top (ops : list cop) : option nat := hd_error (pushed [] ops).

Lemma pushed_app a : forall st b, pushed st (a ++ b) = pushed (pushed st a) b.
Proof. induction a as [|o a IH]; intros st b; [reflexivity|]. destruct o; simpl; auto. Qed.

Lemma run_snoc ops o k : fst (run k (ops ++ [o])) = fst (k_step null_has ctx_default (fst (run k ops)) o).
Proof. rewrite run_app. simpl. destruct (k_step _ _ _ o). reflexivity. Qed.

Lemma run_pushed ops : k_stack (fst (run stk0 ops)) = map RCtx (pushed [] ops) ++ [RNull].
Proof.
  induction ops as [|o ops IH] using rev_ind; [reflexivity|]. rewrite run_snoc, pushed_app.
  destruct o; simpl; auto.
  - unfold k_set. destruct (pushed [] ops) as [|c cs]; rewrite IH; simpl; auto.
  - rewrite IH. reflexivity.
  - unfold k_pop. destruct (pushed [] ops) as [|c [|d cs]]; rewrite IH; simpl; auto.
Qed.

(** one more operation changes an attribute of a context only if it sets it while
    the context is on top *)
Lemma heap_snoc ops o c a :
  attr_get ctx_default a (k_heap (fst (run stk0 (ops ++ [o]))) c) =
  match o, top ops with
  | CSet b v, Some d => if Nat.eqb a b && Nat.eqb c d then Some v else attr_get ctx_default a (k_heap (fst (run stk0 ops)) c)
  | _, _ => attr_get ctx_default a (k_heap (fst (run stk0 ops)) c)
  end.
Proof.
  rewrite run_snoc. pose proof (run_pushed ops) as H. unfold top. destruct o; simpl; auto.
  - unfold k_set. rewrite H. destruct (pushed [] ops) as [|d cs]; simpl; auto.
    destruct (Nat.eqb_spec c d) as [->|Ne]; [|rewrite andb_false_r; reflexivity]. rewrite andb_true_r. simpl. reflexivity.
  - unfold k_pop. destruct (pushed [] ops) as [|d [|e cs]]; rewrite H; reflexivity.
Qed.

(** An attribute read is the value written last while the same context was on
    top, however often it was pushed, popped or covered since *)
Theorem C52_last_written : forall p a v q c,
  top p = Some c -> top (p ++ CSet a v :: q) = Some c ->
  (forall q1 w q2, q = q1 ++ CSet a w :: q2 -> top (p ++ CSet a v :: q1) <> Some c) ->
  k_get null_has ctx_default a (fst (run stk0 (p ++ CSet a v :: q))) = Value (Some v).
Proof.
  intros p a v q c H1 H2 H3. unfold k_get. rewrite run_pushed. unfold top in H2. destruct (pushed [] (p ++ _)) as [|d cs] eqn:E; [discriminate|].
  inversion H2; subst d. cbn [map app].
  assert (X : attr_get ctx_default a (k_heap (fst (run stk0 (p ++ CSet a v :: q))) c) = Some v); [|rewrite X; reflexivity].
  clear H2 E cs. induction q as [|o q IH] using rev_ind.
  - rewrite heap_snoc, H1, !Nat.eqb_refl. reflexivity.
  - replace (p ++ CSet a v :: q ++ [o]) with ((p ++ CSet a v :: q) ++ [o]) by (rewrite <- app_assoc; reflexivity).
    rewrite heap_snoc, IH.
    + destruct o as [|b w| |]; auto. destruct (top (p ++ CSet a v :: q)) as [d|] eqn:Et; auto.
      destruct (Nat.eqb_spec a b) as [<-|]; [|reflexivity]. destruct (Nat.eqb_spec c d) as [<-|]; [|reflexivity].
      exfalso. apply (H3 q w []); [reflexivity|exact Et].
    + intros q1 w q2 ->. apply (H3 q1 w (q2 ++ [o])). rewrite <- app_assoc. reflexivity.
Qed.

(** An attribute never written while the context was on top has the default of
    the class, or does not exist; with no context pushed the null context
    answers *)
Theorem C52_never_written : forall ops a,
  (forall p w q, ops = p ++ CSet a w :: q -> top p = None \/ top p <> top ops) ->
  k_get null_has ctx_default a (fst (run stk0 ops)) =
  match top ops with
  | None => if null_has a then Value None else AttributeErr
  | Some _ => match ctx_default a with Some v => Value (Some v) | None => AttributeErr end
  end.
Proof.
  intros ops a H. unfold k_get. rewrite run_pushed. destruct (top ops) as [c|] eqn:Et; unfold top in Et; destruct (pushed [] ops) as [|d cs]; try discriminate; [|reflexivity].
  inversion Et; subst d. cbn [map app].
  assert (X : attr_get ctx_default a (k_heap (fst (run stk0 ops)) c) = ctx_default a); [|rewrite X; reflexivity].
  clear Et cs. induction ops as [|o ops IH] using rev_ind; [reflexivity|]. rewrite heap_snoc, IH.
  - destruct o as [|b w| |]; auto. destruct (top ops) as [d|] eqn:Et; auto.
    destruct (Nat.eqb_spec a b) as [<-|]; [|reflexivity]. destruct (Nat.eqb_spec c d) as [<-|]; [|reflexivity].
    exfalso. destruct (H ops w [] eq_refl) as [X|X]; congruence.
  - intros p w q ->. apply (H p w (q ++ [o])). rewrite <- app_assoc. reflexivity.
Qed.

End P.

Example C52_case : balanced [CPush 1; CSet 3 4; CPush 2; CSet 3 5; CPop; CGet 3; CPop] /\
  snd (k_run (fun _ => true) (fun _ => None) stk0 [CPush 1; CSet 3 4; CPush 2; CSet 3 5; CPop; CGet 3; CPop; CPop; CGet 3; CSet 3 1]) =
  [Done; Done; Done; Done; Done; Value (Some 4); Done; RuntimeErr; Value None; AttributeErr].
Proof.
  split; [|reflexivity]. apply (bal_push 1 [CSet 3 4; CPush 2; CSet 3 5; CPop; CGet 3] []); [|constructor].
  constructor. apply (bal_push 2 [CSet 3 5] [CGet 3]); repeat constructor.
Qed.

(** attribute 3 of context 1 is written, the context covered by another, popped
    and pushed again *)
Example C52_written_case :
  let p := [CPush 1] in let q := [CPush 2; CSet 3 5; CPop; CPop; CPush 1; CSet 4 6] in
  top p = Some 1 /\ top (p ++ CSet 3 4 :: q) = Some 1 /\
  (forall q1 w q2, q = q1 ++ CSet 3 w :: q2 -> top (p ++ CSet 3 4 :: q1) <> Some 1) /\
  k_get (fun _ => true) (fun _ => None) 3 (fst (k_run (fun _ => true) (fun _ => None) stk0 (p ++ CSet 3 4 :: q))) = Value (Some 4) /\
  k_get (fun _ => true) (fun _ => None) 8 (fst (k_run (fun _ => true) (fun _ => None) stk0 (p ++ CSet 3 4 :: q))) = AttributeErr.
Proof.
  cbv zeta. split; [reflexivity|]. split; [reflexivity|]. split; [|split; reflexivity].
  intros q1 w q2 H. do 6 (destruct q1 as [|x q1]; cbn [app] in H; [try discriminate; inversion H; discriminate|inversion H; subst x; clear H; rename H2 into H]).
  destruct q1; discriminate.
Qed.

Print Assumptions C52_null_context_at_the_bottom.
Print Assumptions C52_pop_at_the_bottom.
Print Assumptions C52_balanced.
Print Assumptions C52_writes_touch_the_top_only.
Print Assumptions C52_last_written.
Print Assumptions C52_never_written.
