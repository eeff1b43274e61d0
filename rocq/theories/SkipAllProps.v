(** C150: skip_all skips the tests of a class and of the classes derived from it. *)

From Coq Require Import List Bool Arith Lia.
From Verif Require Import Dict SkipAll.
Import ListNotations.

Section P.
Variable mro : nat -> list nat.
Notation exec := (exec mro).

(** the last skip_all of a class had this reason *)
Definition last_skip (ops : list op) (c : nat) (r : option nat) : Prop :=
  exists a b, ops = a ++ SkipAll c r :: b /\ forall r', ~ In (SkipAll c r') b.
Definition never_skipped (ops : list op) (c : nat) : Prop := forall r, ~ In (SkipAll c r) ops.

(** the nearest class with a skip_all gives the reason *)
Definition skipped_by (ops : list op) (c : nat) (r : option nat) : Prop :=
  exists near b far, mro c = near ++ b :: far /\ (forall x, In x near -> never_skipped ops x) /\ last_skip ops b r.

Lemma exec_snoc ops o : exec (ops ++ [o]) = step mro (exec ops) o.
Proof. unfold SkipAll.exec. rewrite fold_left_app. reflexivity. Qed.

Lemma own_spec ops : forall c,
  match d_get c (own (exec ops)) with Some r => last_skip ops c r | None => never_skipped ops c end.
Proof.
  induction ops as [|o ops IH] using rev_ind; intros c; [intros r []|]. rewrite exec_snoc.
  assert (K : own (step mro (exec ops) o) = own (exec ops) -> (forall r, o <> SkipAll c r) ->
              match d_get c (own (step mro (exec ops) o)) with Some r => last_skip (ops ++ [o]) c r | None => never_skipped (ops ++ [o]) c end).
  { intros -> N. specialize (IH c). destruct (d_get c (own (exec ops))) as [r|].
    - destruct IH as (a & b & -> & B). exists a, (b ++ [o]). split; [rewrite <- app_assoc; reflexivity|]. intros r' I.
      apply in_app_iff in I as [I|[I|[]]]; [exact (B _ I)|exact (N _ I)].
    - intros r I. apply in_app_iff in I as [I|[I|[]]]; [exact (IH _ I)|exact (N _ I)]. }
  destruct o as [x r|x|x ms]; cbn [step].
  - cbn [own]. destruct (Nat.eq_dec x c) as [->|NE].
    + rewrite d_get_set_same. exists ops, []. split; [reflexivity|]. intros r' [].
    + rewrite d_get_set_other by congruence. specialize (IH c). destruct (d_get c (own (exec ops))) as [r0|].
      * destruct IH as (a & b & -> & B). exists a, (b ++ [SkipAll x r]). split; [rewrite <- app_assoc; reflexivity|]. intros r' I.
        apply in_app_iff in I as [I|[I|[]]]; [exact (B _ I)|congruence].
      * intros r' I. apply in_app_iff in I as [I|[I|[]]]; [exact (IH _ I)|congruence].
  - apply K; [cbn [step]; destruct (existsb _ _); reflexivity|discriminate].
  - apply K; [cbn [step]; destruct (existsb _ _); reflexivity|discriminate].
Qed.

Lemma skipped_spec ops c :
  match skipped (mro c) (own (exec ops)) with
  | Some r => skipped_by ops c r
  | None => forall b, In b (mro c) -> never_skipped ops b
  end.
Proof.
  unfold skipped_by. induction (mro c) as [|x l IH]; cbn [skipped]; [intros b []|]. pose proof (own_spec ops x) as X.
  destruct (d_get x (own (exec ops))) as [r|].
  - exists [], x, l. split; [reflexivity|]. split; [intros y []|exact X].
  - destruct (skipped l (own (exec ops))) as [r|].
    + destruct IH as (near & b & far & -> & N & L). exists (x :: near), b, far. split; [reflexivity|]. split; [|exact L]. intros y [<-|I]; auto.
    + intros b [<-|I]; auto.
Qed.

Lemma abstract_spec ops c : In c (abstract (exec ops)) <-> In (Abstract c) ops /\ In 0 (mro c).
Proof.
  induction ops as [|o ops IH] using rev_ind; [cbn; tauto|]. rewrite exec_snoc, in_app_iff.
  assert (Z : forall x, existsb (Nat.eqb 0) (mro x) = true <-> In 0 (mro x)).
  { intros x. rewrite existsb_exists. split; [intros (y & I & E); apply Nat.eqb_eq in E as <-; exact I|intros I; exists 0; auto]. }
  destruct o as [x r|x|x ms]; cbn [step].
  - cbn [abstract In]. rewrite IH. intuition discriminate.
  - destruct (existsb (Nat.eqb 0) (mro x)) eqn:E; cbn [abstract In].
    + apply Z in E. split; [intros [->|I]; [auto|tauto]|]. intros [[I|[I|[]]] M]; [right; tauto|left; congruence].
    + rewrite IH. split; [tauto|]. intros [[I|[I|[]]] M]; [tauto|]. injection I as ->. apply Z in M. congruence.
  - destruct (existsb _ _); cbn [abstract In]; rewrite IH; intuition discriminate.
Qed.

Lemma collected_grows ops post : exists l, collected (exec (ops ++ post)) = collected (exec ops) ++ l.
Proof.
  induction post as [|o post [l IH]] using rev_ind; [exists []; rewrite !app_nil_r; reflexivity|]. rewrite app_assoc, exec_snoc.
  destruct o as [x r|x|x ms]; cbn [step].
  - exists l. exact IH.
  - exists l. destruct (existsb _ _); exact IH.
  - destruct (existsb _ _); [exists l; exact IH|]. cbn [collected]. rewrite IH, <- app_assoc. eauto.
Qed.

(** ** What is collected for a class: nothing if the class itself, not only one of its bases, was declared abstract; otherwise all its methods,
    skipped exactly if skip_all was called before for the class or one of its bases, with the last reason given for the nearest of them;
    and what happens later changes nothing of this *)
Theorem C150_collected ops c ms post : exists l rest,
  collected (exec (ops ++ Collect c ms :: post)) = collected (exec ops) ++ l ++ rest /\
  (In (Abstract c) ops /\ In 0 (mro c) -> l = []) /\
  (~ (In (Abstract c) ops /\ In 0 (mro c)) -> map t_method l = ms /\ forall t, In t l -> t_class t = c /\
     (forall r, t_run t = Throws r -> skipped_by ops c r) /\ (t_run t = Runs <-> forall b, In b (mro c) -> never_skipped ops b)).
Proof.
  replace (ops ++ Collect c ms :: post) with ((ops ++ [Collect c ms]) ++ post) by (rewrite <- app_assoc; reflexivity).
  destruct (collected_grows (ops ++ [Collect c ms]) post) as [rest ->]. rewrite exec_snoc. cbn [step].
  pose proof (abstract_spec ops c) as A. pose proof (skipped_spec ops c) as S.
  assert (E : existsb (Nat.eqb c) (abstract (exec ops)) = true <-> In c (abstract (exec ops))).
  { rewrite existsb_exists. split; [intros (y & I & Q); apply Nat.eqb_eq in Q as <-; exact I|intros I; exists c; split; [exact I|apply Nat.eqb_refl]]. }
  destruct (existsb (Nat.eqb c) (abstract (exec ops))).
  - exists [], rest. split; [reflexivity|]. split; [reflexivity|]. intros N. exfalso. apply N, A, E. reflexivity.
  - cbn [collected]. exists (map (fun m => mkTest c m (match skipped (mro c) (own (exec ops)) with Some r => Throws r | None => Runs end)) ms), rest.
    split; [rewrite <- app_assoc; reflexivity|]. split; [intros N; apply A, E in N; discriminate|]. intros _.
    split; [rewrite map_map; cbn [t_method]; apply map_id|]. intros t I. apply in_map_iff in I as (m & <- & _). cbn [t_class t_run]. split; [reflexivity|].
    destruct (skipped (mro c) (own (exec ops))) as [r0|].
    + split; [intros r Q; injection Q as <-; exact S|]. split; [discriminate|]. intros N. destruct S as (near & b & far & M & _ & (x & y & -> & _)).
      exfalso. apply (N b) with (r := r0); [rewrite M; apply in_app_iff; right; left; reflexivity|apply in_app_iff; right; left; reflexivity].
    + split; [discriminate|]. split; [intros _; exact S|reflexivity].
Qed.

(** abstract_test_class accepts exactly the classes derived from Test *)
Theorem C150_accepted ops c : accepted (exec (ops ++ [Abstract c])) = accepted (exec ops) ++ [existsb (Nat.eqb 0) (mro c)] /\
  (existsb (Nat.eqb 0) (mro c) = true <-> In 0 (mro c)).
Proof.
  rewrite exec_snoc. cbn [step]. split; [destruct (existsb _ _); reflexivity|]. rewrite existsb_exists.
  split; [intros (y & I & E); apply Nat.eqb_eq in E as <-; exact I|intros I; exists 0; auto].
Qed.
End P.

(** Test, a base class, a class derived from it, another one derived from both *)
Definition ex_mro (c : nat) : list nat :=
  match c with 0 => [0] | 1 => [1; 0] | 2 => [2; 1; 0] | 3 => [3; 0] | 4 => [4; 3; 2; 1; 0] | _ => [c] end.

Example C150_ex :
  let s := exec ex_mro [Collect 2 [9]; SkipAll 1 (Some 5); Abstract 1; Abstract 7; Collect 1 [8]; Collect 2 [8; 9]; Collect 3 [6]; SkipAll 3 None; Collect 4 [6]; SkipAll 4 (Some 7)] in
  collected s = [mkTest 2 9 Runs; mkTest 2 8 (Throws (Some 5)); mkTest 2 9 (Throws (Some 5)); mkTest 3 6 Runs; mkTest 4 6 (Throws None)] /\ accepted s = [true; false].
Proof. split; reflexivity. Qed.

(** *** Stronger expectations that fail *)

(** skip_all after the tests were collected, for instance in a test or a hook of the session, skips nothing *)
Theorem C150_later_refuted : exists mro ops c r t, In (SkipAll c r) ops /\ In t (collected (exec mro ops)) /\ t_class t = c /\ t_run t = Runs.
Proof. exists ex_mro, [Collect 1 [8]; SkipAll 1 None], 1, None, (mkTest 1 8 Runs). cbn. auto. Qed.

(** without a reason tests are skipped with None, not with the reason SkipTest has without one *)
Theorem C150_reason_refuted : exists mro ops t, In t (collected (exec mro ops)) /\ t_run t = Throws None.
Proof. exists ex_mro, [SkipAll 1 None; Collect 1 [8]], (mkTest 1 8 (Throws None)). cbn. auto. Qed.

(** a class derived from an abstract one is not abstract, but one derived from a skipped one is skipped: another skip_all only changes the reason *)
Theorem C150_inherited_refuted : exists mro ops, In (Abstract 1) ops /\ In 1 (mro 2) /\ collected (exec mro ops) = [mkTest 2 8 Runs].
Proof. exists ex_mro, [Abstract 1; Collect 1 [8]; Collect 2 [8]]. cbn. auto. Qed.

Print Assumptions C150_collected.
Print Assumptions C150_accepted.
Print Assumptions C150_later_refuted.
Print Assumptions C150_reason_refuted.
Print Assumptions C150_inherited_refuted.
