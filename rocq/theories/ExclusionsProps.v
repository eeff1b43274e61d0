(** Properties of exclusions (model: Exclusions.v): C32. *)

From Coq Require Import List Bool Arith PeanoNat Ascii String.
From Verif Require Import Str Dict Exclusions.
Import ListNotations.

Lemma str_eqb_eq a : forall b, str_eqb a b = true <-> a = b.
Proof.
  induction a as [|x a IH]; intros [|y b]; simpl; try (split; congruence).
  rewrite andb_true_iff, IH, Ascii.eqb_eq. split; [intros [-> ->]; auto|intros H; inversion H; auto].
Qed.
Lemma strs_eqb_eq a : forall b, strs_eqb a b = true <-> a = b.
Proof.
  induction a as [|x a IH]; intros [|y b]; simpl; try (split; congruence).
  rewrite andb_true_iff, IH, str_eqb_eq. split; [intros [-> ->]; auto|intros H; inversion H; auto].
Qed.
Lemma nats_eqb_eq a : forall b, nats_eqb a b = true <-> a = b.
Proof.
  induction a as [|x a IH]; intros [|y b]; simpl; try (split; congruence).
  rewrite andb_true_iff, IH, Nat.eqb_eq. split; [intros [-> ->]; auto|intros H; inversion H; auto].
Qed.

Section Excl.
Variable params_of_func : nat -> list (str * param).
Variable func_of : nat -> nat.
Variable lookup : nat -> str -> option nat.
Variable namespace_of : nat -> nat.
Notation resolve_name := (resolve_name params_of_func func_of lookup namespace_of).
Notation rule_values := (rule_values params_of_func func_of lookup namespace_of).
Notation any_rule := (any_rule params_of_func func_of lookup namespace_of).
Notation any_entity := (any_entity params_of_func func_of lookup namespace_of).
Notation is_excluded := (is_excluded params_of_func func_of lookup namespace_of).

(** the value of the parameter called [n] from function [func] in a variation *)
Definition value_is (ns func : nat) (indices : @dict nat) (n : str) (v : nat) : Prop :=
  exists p i, resolve_name n func ns = inl (OParam p) /\ d_get (p_id p) indices = Some i /\ nth_error (p_values p) i = Some v.

(** a rule attached to [func] applies to a variation: the values of all its names,
    together, are one of the listed tuples *)
Definition applies (ns func : nat) (indices : @dict nat) (r : rule) : Prop :=
  exists vs, In vs (r_values r) /\ Forall2 (value_is ns func indices) (r_names r) vs.

Lemma rule_values_iff ns func indices l : forall vs, rule_values ns func indices l = inl vs <-> Forall2 (value_is ns func indices) l vs.
Proof.
  induction l as [|n l IH]; simpl; intros vs.
  - split; intros H; inversion H; subst; [constructor|auto].
  - unfold value_is at 1. destruct (resolve_name n func ns) as [[p|f]|e] eqn:E.
    + destruct (d_get (p_id p) indices) as [i|] eqn:Ei.
      * destruct (nth_error (p_values p) i) as [v|] eqn:Ev.
        { destruct (rule_values ns func indices l) as [ws|e].
          - split; intros H.
            + inversion H; subst. constructor; [exists p, i; auto|]. apply IH. auto.
            + inversion H; subst. destruct H2 as [p' [i' [A [B C]]]]. assert (p' = p) by congruence. subst.
              assert (i' = i) by congruence. subst. apply IH in H4. congruence.
          - split; intros H; [discriminate|]. inversion H; subst. apply IH in H4. discriminate. }
        { split; intros H; [discriminate|]. inversion H; subst. destruct H2 as [p' [i' [A [B C]]]]. congruence. }
      * split; intros H; [discriminate|]. inversion H; subst. destruct H2 as [p' [i' [A [B C]]]]. congruence.
    + split; intros H; [discriminate|]. inversion H; subst. destruct H2 as [p' [i' [A [B C]]]]. congruence.
    + split; intros H; [discriminate|]. inversion H; subst. destruct H2 as [p' [i' [A [B C]]]]. congruence.
Qed.

Lemma put_rule_In n vs d m ws : In (m, ws) (put_rule n vs d) -> (m, ws) = (n, vs) \/ In (m, ws) d.
Proof.
  induction d as [|[a b] d IH]; simpl; [intuition|]. destruct (strs_eqb n a) eqn:E; simpl.
  - apply strs_eqb_eq in E. subst. intuition.
  - intuition.
Qed.
Lemma rules_In l : forall d m ws, In (m, ws) (fold_left (fun d r => put_rule (r_names r) (r_values r) d) l d) ->
  In (m, ws) d \/ exists r, In r l /\ r_names r = m /\ r_values r = ws.
Proof.
  induction l as [|r l IH]; simpl; intros d m ws H; auto. apply IH in H as [H|[r' [I E]]]; [|right; eauto].
  apply put_rule_In in H as [H|H]; auto. inversion H; subst. right. eauto.
Qed.
Lemma any_rule_true ns func indices d : any_rule ns func indices d = inl true ->
  exists n sets vs, In (n, sets) d /\ rule_values ns func indices n = inl vs /\ In vs sets.
Proof.
  induction d as [|[n sets] d IH]; simpl; intros H; [discriminate|].
  destruct (rule_values ns func indices n) as [vs|e] eqn:E; [|discriminate]. destruct (existsb (nats_eqb vs) sets) eqn:Ex.
  - apply existsb_exists in Ex as [ws [I Q]]. apply nats_eqb_eq in Q. subst. exists n, sets, ws. simpl. auto.
  - destruct (IH H) as [n' [s' [vs' [A B]]]]. exists n', s', vs'. simpl. auto.
Qed.

Lemma entity_In (marks : nat -> list rule) fixtures test func rules :
  In (func, rules) (d_update (map (fun f => (f, marks f)) fixtures) [(test, marks test)]) -> rules = marks func /\ (func = test \/ In func fixtures).
Proof.
  unfold d_update. simpl. induction fixtures as [|f fs IH]; simpl.
  - intros [H|[]]. inversion H; auto.
  - destruct (Nat.eqb_spec test f) as [->|N]; simpl.
    + intros [H|H]; [inversion H; auto|]. apply in_map_iff in H as [g [H I]]. inversion H; subst. auto.
    + intros [H|H]; [inversion H; auto|]. destruct (IH H) as [A [B|B]]; auto.
Qed.
Lemma entity_all (marks : nat -> list rule) fixtures test func : func = test \/ In func fixtures ->
  In (func, marks func) (d_update (map (fun f => (f, marks f)) fixtures) [(test, marks test)]).
Proof.
  unfold d_update. simpl. induction fixtures as [|f fs IH]; simpl.
  - intros [->|[]]; auto.
  - intros H. destruct (Nat.eqb_spec test f) as [->|N]; simpl.
    + destruct H as [->|[->|H]]; auto. right. apply in_map_iff. eauto.
    + destruct H as [->|[->|H]]; auto.
Qed.

Lemma any_entity_true ns indices l : any_entity ns indices l = inl true ->
  exists func rules d, In (func, rules) l /\ rules_dict rules = inl d /\ any_rule ns func indices d = inl true.
Proof.
  induction l as [|[func rules] l IH]; simpl; intros H; [discriminate|].
  destruct rules as [|r rules].
  - destruct (IH H) as [f [rs [d [A B]]]]. exists f, rs, d. auto.
  - destruct (rules_dict (r :: rules)) as [d|e] eqn:Ed; [|discriminate].
    destruct (any_rule ns func indices d) as [[|]|e] eqn:Ea; [|destruct (IH H) as [f [rs [d' [A B]]]]; exists f, rs, d'; auto|discriminate].
    exists func, (r :: rules), d. auto.
Qed.

(** C32, one half: a test is never skipped without an exclude rule that applies to it *)
Theorem C32_only_excluded : forall marks ns indices fixtures test,
  is_excluded marks ns indices fixtures test = inl true ->
  exists func r, (func = test \/ In func fixtures) /\ In r (marks func) /\ applies ns func indices r.
Proof.
  intros marks ns indices fixtures test H. apply any_entity_true in H as [func [rules [d [I [E A]]]]].
  apply entity_In in I as [-> F]. unfold rules_dict in E. destruct (existsb r_islist (marks func)); [discriminate|].
  inversion E; subst. apply any_rule_true in A as [n [sets [vs [J [V W]]]]].
  apply rules_In in J as [[]|[r [Ir [Er Es]]]]. subst. exists func, r. do 2 (split; auto). exists vs. split; auto.
  apply rule_values_iff. auto.
Qed.

(** C32, the other half fails: of two rules of a function for the same names only the
    one added last counts *)
End Excl.
Print Assumptions C32_only_excluded.

(** a test with parameters a and b, values 10, 20 and 5, 6 *)
Definition a_name : str := lit "a"%string.
Definition b_name : str := lit "b"%string.
Definition x_params (f : nat) : list (str * param) :=
  match f with 0 => [(a_name, mkParam 1 [10; 20]); (b_name, mkParam 2 [5; 6])] | 7 => [(lit "c"%string, mkParam 3 [8; 9])] | _ => [] end.
(** the fixture "fix" has function 7 and a parameter c *)
Definition x_lookup (ns : nat) (n : str) : option nat := if str_eqb n (lit "fix"%string) then Some 4 else None.
Definition x_func (f : nat) : nat := match f with 4 => 7 | _ => 0 end.
Definition x_excluded := is_excluded x_params x_func x_lookup (fun _ => 0).
Definition x_applies := applies x_params x_func x_lookup (fun _ => 0).
Definition x_rule (q : request) : list rule := match exclude q with inl r => [r] | inr _ => [] end.

Theorem C32_all_excluded_refuted : exists marks r,
  In r (marks 0) /\ x_applies 0 0 [(1, 0); (2, 0)] r /\ x_excluded marks 0 [(1, 0); (2, 0)] [] 0 = inl false.
Proof.
  exists (fun f => match f with 0 => x_rule (One a_name [10]) ++ x_rule (One a_name [20]) | _ => [] end), (mkRule false [a_name] [[10]]).
  split; [left; reflexivity|]. split; [|vm_compute; reflexivity].
  exists [10]. split; [left; reflexivity|]. constructor; [|constructor].
  exists (mkParam 1 [10; 20]), 0. split; [vm_compute; reflexivity|]. split; vm_compute; reflexivity.
Qed.
Print Assumptions C32_all_excluded_refuted.

(** and a rule whose names are given as a list makes is_excluded fail *)
Theorem C32_names_as_list_refuted : exists marks r, exclude (Many true [a_name; b_name] [ITuple [10; 5]]) = inl r
  /\ marks 0 = [r] /\ x_applies 0 0 [(1, 0); (2, 0)] r /\ x_excluded marks 0 [(1, 0); (2, 0)] [] 0 = inr EUnhashable.
Proof.
  exists (fun _ => [mkRule true [a_name; b_name] [[10; 5]]]), (mkRule true [a_name; b_name] [[10; 5]]).
  split; [reflexivity|]. split; [reflexivity|]. split; [|vm_compute; reflexivity].
  exists [10; 5]. split; [left; reflexivity|]. constructor; [|constructor; [|constructor]].
  - exists (mkParam 1 [10; 20]), 0. split; [vm_compute; reflexivity|]. split; vm_compute; reflexivity.
  - exists (mkParam 2 [5; 6]), 0. split; [vm_compute; reflexivity|]. split; vm_compute; reflexivity.
Qed.
Print Assumptions C32_names_as_list_refuted.

Section Excl2.
Variable params_of_func : nat -> list (str * param).
Variable func_of : nat -> nat.
Variable lookup : nat -> str -> option nat.
Variable namespace_of : nat -> nat.
Notation value_is := (value_is params_of_func func_of lookup namespace_of).
Notation applies := (applies params_of_func func_of lookup namespace_of).
Notation is_excluded := (is_excluded params_of_func func_of lookup namespace_of).
Notation any_rule := (any_rule params_of_func func_of lookup namespace_of).
Notation any_entity := (any_entity params_of_func func_of lookup namespace_of).

(** rules as they should be: names as tuples, no two rules of a function for the same
    names, and all names are those of parameters of the test *)
Definition proper (ns func : nat) (indices : @dict nat) (rules : list rule) : Prop :=
  NoDup (map r_names rules)
  /\ forall r, In r rules -> r_islist r = false /\ forall n, In n (r_names r) -> exists v, value_is ns func indices n v.

Lemma put_rule_new n vs d : ~ In n (map fst d) -> put_rule n vs d = d ++ [(n, vs)].
Proof.
  induction d as [|[m ws] d IH]; simpl; intros N; auto. destruct (strs_eqb n m) eqn:E; [|f_equal; apply IH; auto].
  apply strs_eqb_eq in E. subst. destruct N; auto.
Qed.
Lemma rules_dict_proper rules : (forall r, In r rules -> r_islist r = false) -> NoDup (map r_names rules) ->
  rules_dict rules = inl (map (fun r => (r_names r, r_values r)) rules).
Proof.
  intros L Nd. unfold rules_dict. destruct (existsb r_islist rules) eqn:E.
  { apply existsb_exists in E as [r [I E]]. rewrite L in E; [discriminate|auto]. }
  f_equal. clear E L. assert (G : forall d, NoDup (map r_names rules) -> (forall r, In r rules -> ~ In (r_names r) (map fst d)) ->
    fold_left (fun d r => put_rule (r_names r) (r_values r) d) rules d = d ++ map (fun r => (r_names r, r_values r)) rules).
  { clear Nd. induction rules as [|r rules IH]; simpl; intros d Nd D; [rewrite app_nil_r; auto|].
    apply NoDup_cons_iff in Nd as [Nr Nd]. rewrite put_rule_new by (apply D; auto). rewrite IH; auto.
    - rewrite <- app_assoc. auto.
    - intros r' I. rewrite map_app, in_app_iff. simpl. intros [J|[J|[]]]; [apply (D r'); auto|].
      apply Nr. rewrite J. apply in_map. auto. }
  rewrite G; auto.
Qed.

Lemma any_rule_proper ns func indices rules :
  (forall r, In r rules -> forall n, In n (r_names r) -> exists v, value_is ns func indices n v) ->
  exists b, any_rule ns func indices (map (fun r => (r_names r, r_values r)) rules) = inl b
    /\ (b = true <-> exists r, In r rules /\ applies ns func indices r).
Proof.
  induction rules as [|r rules IH]; intros H; simpl.
  - exists false. split; auto. split; [discriminate|]. intros [r [[] _]].
  - assert (Hn : exists vs, Forall2 (value_is ns func indices) (r_names r) vs).
    { specialize (H r (or_introl eq_refl)). clear - H. induction (r_names r) as [|n l IH]; [exists []; constructor|].
      destruct (H n (or_introl eq_refl)) as [v V]. destruct IH as [vs F]; [intros m I; apply H; right; auto|].
      exists (v :: vs). constructor; auto. }
    destruct Hn as [vs F]. pose proof (proj2 (rule_values_iff _ _ _ _ _ _ _ _ _) F) as E. rewrite E.
    destruct (IH (fun r' I => H r' (or_intror I))) as [b [Eb Hb]].
    destruct (existsb (nats_eqb vs) (r_values r)) eqn:Ex.
    + exists true. split; auto. split; auto. intros _. exists r. split; [left; auto|]. exists vs. split; auto.
      apply existsb_exists in Ex as [ws [I Q]]. apply nats_eqb_eq in Q. subst; auto.
    + exists b. split; auto. rewrite Hb. split; [intros [r' [I A]]; exists r'; auto|].
      intros [r' [[<-|I] A]]; [|eauto]. destruct A as [ws [I F']]. apply rule_values_iff in F'. rewrite E in F'.
      inversion F'; subst. rewrite <- not_true_iff_false in Ex. destruct Ex. apply existsb_exists. exists ws. split; auto.
      apply nats_eqb_eq. auto.
Qed.

(** C32 for proper rules: a variation is skipped iff some rule applies *)
Theorem C32_exactly_excluded_partial : forall marks ns indices fixtures test,
  (forall func, func = test \/ In func fixtures -> proper ns func indices (marks func)) ->
  exists b, is_excluded marks ns indices fixtures test = inl b
    /\ (b = true <-> exists func r, (func = test \/ In func fixtures) /\ In r (marks func) /\ applies ns func indices r).
Proof.
  intros marks ns indices fixtures test H. unfold Exclusions.is_excluded.
  set (l := d_update (map (fun f => (f, marks f)) fixtures) [(test, marks test)]).
  assert (L1 : forall func rules, In (func, rules) l -> rules = marks func /\ (func = test \/ In func fixtures)) by (intros; apply entity_In; auto).
  assert (L2 : forall func, func = test \/ In func fixtures -> In (func, marks func) l) by (intros; apply entity_all; auto).
  assert (G : forall l0, (forall func rules, In (func, rules) l0 -> proper ns func indices rules) ->
    exists b, any_entity ns indices l0 = inl b
     /\ (b = true <-> exists func rules r, In (func, rules) l0 /\ In r rules /\ applies ns func indices r)).
  { clear. induction l0 as [|[func rules] l0 IH]; intros Pr; simpl.
    - exists false. split; auto. split; [discriminate|]. intros [f [rs [r [[] _]]]].
    - destruct (IH (fun f rs I => Pr f rs (or_intror I))) as [b [Eb Hb]].
      destruct (Pr func rules (or_introl eq_refl)) as [Nd Pn].
      assert (Hs : forall b1, any_rule ns func indices (map (fun r => (r_names r, r_values r)) rules) = inl b1 ->
        (b1 = true <-> exists r, In r rules /\ applies ns func indices r) ->
        exists b0, (if b1 then inl true else any_entity ns indices l0) = inl b0
        /\ (b0 = true <-> exists f rs r, ((func, rules) = (f, rs) \/ In (f, rs) l0) /\ In r rs /\ applies ns f indices r)).
      { intros b1 E1 H1. destruct b1.
        - exists true. split; auto. split; auto. intros _. destruct (proj1 H1 eq_refl) as [r [I A]]. exists func, rules, r. auto.
        - exists b. split; auto. rewrite Hb. split.
          + intros [f [rs [r [I A]]]]. exists f, rs, r. auto.
          + intros [f [rs [r [[I|I] A]]]]; [|exists f, rs, r; auto]. inversion I; subst.
            assert (false = true) by (apply H1; exists r; auto). discriminate. }
      destruct (any_rule_proper ns func indices rules (fun r I => proj2 (Pn r I))) as [b1 [E1 H1]].
      destruct (Hs b1 E1 H1) as [b0 [E0 H0]]. exists b0. split; auto.
      destruct rules as [|r rules].
      + simpl in E1. inversion E1; subst. auto.
      + rewrite (rules_dict_proper (r :: rules) (fun r' I => proj1 (Pn r' I)) Nd), E1. destruct b1; auto. }
  destruct (G l) as [b [E Hb]].
  { intros func rules I. apply L1 in I as [-> F]. auto. }
  exists b. split; auto. rewrite Hb. split.
  - intros [f [rs [r [I A]]]]. apply L1 in I as [-> F]. exists f, r. auto.
  - intros [f [r [F A]]]. exists f, (marks f), r. auto.
Qed.

(** why a rule of a function cannot be evaluated *)
Definition bad_rule (ns func : nat) (indices : @dict nat) (r : rule) (e : exn) : Prop :=
  match e with
  | EUnhashable => r_islist r = true
  | EUnknownFixtures => exists n, In n (r_names r) /\
      forall p i, resolve_name params_of_func func_of lookup namespace_of n func ns = inl (OParam p) -> d_get (p_id p) indices = Some i -> False
  | EIndex => exists n p i, In n (r_names r) /\ resolve_name params_of_func func_of lookup namespace_of n func ns = inl (OParam p) /\
      d_get (p_id p) indices = Some i /\ nth_error (p_values p) i = None
  | EInvalidExclude => False
  end.

Lemma resolve_error n func ns e : resolve_name params_of_func func_of lookup namespace_of n func ns = inr e -> e = EUnknownFixtures.
Proof.
  unfold resolve_name. destruct (split_all "."%char n) as [|x l]; [congruence|]. generalize (x :: l), func, ns, (OFixture func). clear.
  intros l. induction l as [|n l IH]; intros func ns o; cbn [resolve_parts]; [discriminate|].
  destruct (find_param n (params_of_func func)); [destruct l; [discriminate|congruence]|]. destruct (lookup ns n); [apply IH|congruence].
Qed.

Lemma rule_error ns func indices names e : rule_values params_of_func func_of lookup namespace_of ns func indices names = inr e ->
  forall r, (forall n, In n names -> In n (r_names r)) -> bad_rule ns func indices r e.
Proof.
  induction names as [|n names IH]; cbn [rule_values]; [discriminate|]. intros H r R.
  assert (I : In n (r_names r)) by (apply R; left; reflexivity).
  destruct (resolve_name params_of_func func_of lookup namespace_of n func ns) as [[p|f]|x] eqn:E.
  - destruct (d_get (p_id p) indices) as [i|] eqn:Ei.
    + destruct (nth_error (p_values p) i) eqn:Ev.
      * destruct (rule_values params_of_func func_of lookup namespace_of ns func indices names); [discriminate|]. apply (IH H r). intros m J. apply R. right. exact J.
      * injection H as <-. exists n, p, i. auto.
    + injection H as <-. exists n. split; [exact I|]. intros q j Q J. congruence.
  - injection H as <-. exists n. split; [exact I|]. intros q j Q J. congruence.
  - injection H as <-. rewrite (resolve_error _ _ _ _ E). exists n. split; [exact I|]. intros q j Q J. congruence.
Qed.

(** every exception has its reason in a rule of the test or of one of its fixtures *)
Theorem C32_errors : forall marks ns indices fixtures test e, is_excluded marks ns indices fixtures test = inr e ->
  exists func r, (func = test \/ In func fixtures) /\ In r (marks func) /\ bad_rule ns func indices r e.
Proof.
  intros marks ns indices fixtures test e H. unfold Exclusions.is_excluded in H.
  assert (L : forall func rules, In (func, rules) (d_update (map (fun f => (f, marks f)) fixtures) [(test, marks test)]) -> rules = marks func /\ (func = test \/ In func fixtures))
    by (intros; apply entity_In; auto).
  revert H L. generalize (d_update (map (fun f => (f, marks f)) fixtures) [(test, marks test)]).
  intros l. induction l as [|[func rules] l IH]; intros H L; cbn [Exclusions.any_entity] in H; [discriminate|].
  assert (L' : forall func rules, In (func, rules) l -> rules = marks func /\ (func = test \/ In func fixtures)) by (intros; apply L; right; auto).
  destruct (L func rules (or_introl eq_refl)) as [-> F]. destruct (marks func) as [|r0 rs] eqn:M; [exact (IH H L')|]. rewrite <- M in H.
  destruct (rules_dict (marks func)) as [d|x] eqn:D.
  - destruct (any_rule ns func indices d) as [[|]|x] eqn:A; [discriminate|exact (IH H L')|]. injection H as ->.
    assert (G : exists n sets, In (n, sets) d /\ rule_values params_of_func func_of lookup namespace_of ns func indices n = inr e).
    { clear - A. induction d as [|[n sets] d IH]; cbn [Exclusions.any_rule] in A; [discriminate|].
      destruct (rule_values params_of_func func_of lookup namespace_of ns func indices n) as [vs|x] eqn:R.
      - destruct (existsb (nats_eqb vs) sets); [discriminate|]. destruct (IH A) as (m & ss & I & Q). exists m, ss. split; [right; exact I|exact Q].
      - exists n, sets. split; [left; reflexivity|congruence]. }
    destruct G as (n & sets & I & R). unfold rules_dict in D. destruct (existsb r_islist (marks func)); [discriminate|]. injection D as <-.
    apply rules_In in I as [[]|(r & J & N & _)]. exists func, r. split; [exact F|]. split; [exact J|]. apply (rule_error _ _ _ _ _ R). rewrite N. auto.
  - injection H as ->. unfold rules_dict in D. destruct (existsb r_islist (marks func)) eqn:Q; [|discriminate]. injection D as <-.
    apply existsb_exists in Q as (r & J & Q). exists func, r. auto.
Qed.
End Excl2.
Print Assumptions C32_exactly_excluded_partial.

(** two rules: one on the test (a and b), one on the fixture's function (its parameter c) *)
Definition x_marks (f : nat) : list rule :=
  match f with 0 => x_rule (Many false [a_name; b_name] [ITuple [10; 6]; ITuple [20; 5]]) ++ x_rule (One (lit "fix.c"%string) [8])
             | 7 => x_rule (One (lit "c"%string) [9]) | _ => [] end.

Example ex_excluded :
  map (fun i => x_excluded x_marks 0 i [7] 0)
      [[(1, 0); (2, 0); (3, 0)]; [(1, 0); (2, 1); (3, 0)]; [(1, 1); (2, 0); (3, 1)]; [(1, 1); (2, 1); (3, 1)]; [(1, 1); (2, 1); (3, 0)]]
  = [inl true; inl true; inl true; inl true; inl true]
  /\ map (fun i => x_excluded (fun f => match f with 0 => [mkRule false [a_name; b_name] [[10; 6]; [20; 5]]] | _ => [] end) 0 i [7] 0)
      [[(1, 0); (2, 0); (3, 0)]; [(1, 0); (2, 1); (3, 0)]; [(1, 1); (2, 0); (3, 1)]; [(1, 1); (2, 1); (3, 1)]]
  = [inl false; inl true; inl true; inl false].
Proof. split; vm_compute; reflexivity. Qed.

Example ex_proper : forall func, func = 0 \/ In func [7] ->
  proper x_params x_func x_lookup (fun _ => 0) 0 func [(1, 0); (2, 1); (3, 0)] (x_marks func).
Proof.
  intros func [->|[<-|[]]]; (split; [vm_compute; repeat constructor; simpl; intuition discriminate|]);
  intros r H; vm_compute in H;
  repeat (destruct H as [<-|H]; [split; [reflexivity|]; intros n I; simpl in I;
    repeat (destruct I as [<-|I]; [eexists _, _, _; vm_compute; split; [reflexivity|split; reflexivity]|]); destruct I|]); destruct H.
Qed.
Print Assumptions C32_errors.

(** a list of names; a parameter that is in no fixture; an index past the values *)
Example ex_errors :
  map (fun r => x_excluded (fun f => match f with 7 => [r] | _ => [] end) 0 [(1, 0); (2, 2)] [7] 0)
      [mkRule true [a_name] [[10]]; mkRule false [lit "fix.d"%string] [[8]]; mkRule false [lit "c"%string] [[9]]] = [inr EUnhashable; inr EUnknownFixtures; inr EUnknownFixtures]
  /\ x_excluded (fun f => match f with 0 => x_rule (One b_name [5]) | _ => [] end) 0 [(1, 0); (2, 2)] [7] 0 = inr EIndex.
Proof. split; vm_compute; reflexivity. Qed.
