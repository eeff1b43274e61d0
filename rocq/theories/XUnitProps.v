(** Properties of the xunit report (XUnit.v): C84. *)

From Coq Require Import List Bool Arith Lia.
From Verif Require Import XUnit.
Import ListNotations.

(** * C84 *)

Definition has_error (l : list child) : bool := existsb (fun c => match c with CError _ => true | _ => false end) l.
Definition has_failure (l : list child) : bool := existsb (fun c => match c with CFailure _ => true | _ => false end) l.
Definition has_skip (l : list child) : bool := existsb (fun c => match c with CSkipped _ => true | _ => false end) l.
Definition shown (p : list child -> bool) (s : suite) : nat := length (filter (fun c => p (t_children c)) (s_cases s)).

Lemma f_err l : filter (fun c => match c with CError _ | CFailure _ => true | _ => false end)
  (map (fun e => if e_failure e then CFailure (e_id e) else CError (e_id e)) l) =
  map (fun e => if e_failure e then CFailure (e_id e) else CError (e_id e)) l.
Proof. induction l as [|[i []] l IH]; simpl; congruence. Qed.
Lemma f_err' l : filter (fun c => match c with CSkipped _ => true | _ => false end)
  (map (fun e => if e_failure e then CFailure (e_id e) else CError (e_id e)) l) = [].
Proof. induction l as [|[i []] l IH]; simpl; congruence. Qed.
Lemma f_skip l : filter (fun c => match c with CError _ | CFailure _ => true | _ => false end) (map skip_child l) = [].
Proof. induction l as [|x l IH]; simpl; congruence. Qed.
Lemma f_skip' l : filter (fun c => match c with CSkipped _ => true | _ => false end) (map skip_child l) = map skip_child l.
Proof. induction l as [|x l IH]; simpl; congruence. Qed.
Lemma f_detail p r : (forall n v t, p (CDetail n v t) = false) -> filter p (detail_children r) = [].
Proof.
  intros P. assert (Q : forall n w, p (detail_child n w) = false) by (intros n w; destruct w; apply P).
  unfold detail_children. induction (r_details r) as [|[n v] l IH]; auto.
  cbn [flat_map fst snd]. rewrite filter_app, IH, app_nil_r. generalize (entries v). intros k.
  induction k as [|w k IHk]; auto. cbn [map filter]. rewrite Q. auto.
Qed.

(** ** Exactly the tests that started are shown, each once and in their order, with all their
    errors, failures and skips *)
Theorem C84_cases tests g :
  let d := document tests g in
  map t_id (s_cases d) = map r_id (filter r_started tests) /\
  forall r, In r tests -> r_started r = true -> exists c, In c (s_cases d) /\ t_id c = r_id r /\
    (forall e, In e (r_errors r) \/ In e (r_failures r) ->
       In (if e_failure e then CFailure (e_id e) else CError (e_id e)) (t_children c)) /\
    (forall n, In (RText n) (r_skips r) -> In (CSkipped (AText n)) (t_children c)) /\
    length (filter (fun c => match c with CError _ | CFailure _ => true | _ => false end) (t_children c))
      = length (r_errors r) + length (r_failures r) /\
    length (filter (fun c => match c with CSkipped _ => true | _ => false end) (t_children c)) = length (r_skips r).
Proof.
  cbv zeta. split.
  - unfold document. cbn [s_cases]. rewrite map_map. apply map_ext. auto.
  - intros r I S. exists (case_of r). split; [|split; [auto|split; [|split; [|split]]]].
    + unfold document. cbn [s_cases]. apply in_map. apply filter_In. auto.
    + intros e E. cbn [case_of t_children]. apply in_or_app. left. unfold error_children.
      apply in_map_iff. exists e. split; auto. apply in_or_app. auto.
    + intros n N. cbn [case_of t_children]. apply in_or_app. right. apply in_or_app. left.
      apply in_map_iff. exists (RText n). auto.
    + cbn [case_of t_children]. unfold error_children. rewrite !filter_app, !app_length, f_err, f_skip, f_detail by auto.
      rewrite map_length, app_length. simpl. lia.
    + cbn [case_of t_children]. unfold error_children. rewrite !filter_app, !app_length, f_err', f_skip', f_detail by auto.
      rewrite map_length. simpl. lia.
Qed.

Lemma x_detail p r : (forall n v t, p (CDetail n v t) = false) -> existsb p (detail_children r) = false.
Proof.
  intros P. pose proof (f_detail p r P) as F. induction (detail_children r) as [|c l IH]; auto. simpl in *.
  destruct (p c); [discriminate|]. auto.
Qed.

Lemma has_error_case r : Forall (fun e => e_failure e = false) (r_errors r) -> Forall (fun e => e_failure e = true) (r_failures r) ->
  has_error (t_children (case_of r)) = is_error r /\
  (has_failure (t_children (case_of r)) && negb (has_error (t_children (case_of r)))) = is_just_failure r.
Proof.
  intros FE FF. cbn [case_of t_children]. unfold has_error, has_failure. rewrite !existsb_app.
  assert (B : forall l, existsb (fun c => match c with CError _ => true | _ => false end) (map skip_child l) = false /\
                existsb (fun c => match c with CFailure _ => true | _ => false end) (map skip_child l) = false).
  { induction l as [|s l IH]; simpl; tauto. }
  pose proof (fun p => x_detail p r) as C.
  destruct (B (r_skips r)) as [-> ->]. rewrite !C by auto. rewrite !orb_false_r.
  unfold error_children. rewrite map_app, !existsb_app.
  assert (E1 : existsb (fun c => match c with CError _ => true | _ => false end)
     (map (fun e => if e_failure e then CFailure (e_id e) else CError (e_id e)) (r_errors r)) = is_error r).
  { unfold is_error. destruct FE as [|e l E F]; auto. simpl. rewrite E. auto. }
  assert (E2 : existsb (fun c => match c with CError _ => true | _ => false end)
     (map (fun e => if e_failure e then CFailure (e_id e) else CError (e_id e)) (r_failures r)) = false).
  { clear - FF. induction FF as [|e l E F IH]; auto. simpl. rewrite E. auto. }
  assert (E3 : existsb (fun c => match c with CFailure _ => true | _ => false end)
     (map (fun e => if e_failure e then CFailure (e_id e) else CError (e_id e)) (r_errors r)) = false).
  { clear - FE. induction FE as [|e l E F IH]; auto. simpl. rewrite E. auto. }
  assert (E4 : existsb (fun c => match c with CFailure _ => true | _ => false end)
     (map (fun e => if e_failure e then CFailure (e_id e) else CError (e_id e)) (r_failures r)) = match r_failures r with [] => false | _ => true end).
  { destruct FF as [|e l E F]; auto. simpl. rewrite E. auto. }
  rewrite E1, E2, E3, E4, orb_false_r. split; auto. unfold is_just_failure. simpl. destruct (r_failures r); auto.
Qed.

Lemma has_skip_case r : has_skip (t_children (case_of r)) = match r_skips r with [] => false | _ => true end.
Proof.
  cbn [case_of t_children]. unfold has_skip. rewrite !existsb_app.
  assert (A : existsb (fun c => match c with CSkipped _ => true | _ => false end) (error_children r) = false).
  { unfold error_children. induction (r_errors r ++ r_failures r) as [|[i []] l IH]; simpl; auto. }
  pose proof (x_detail (fun c => match c with CSkipped _ => true | _ => false end) r) as C.
  rewrite A, C, orb_false_r by auto. destruct (r_skips r); auto.
Qed.

(** the lists and the marks of the errors agree *)
Definition proper (r : result) : Prop :=
  Forall (fun e => e_failure e = false) (r_errors r) /\ Forall (fun e => e_failure e = true) (r_failures r).

Definition one (b : bool) : nat := if b then 1 else 0.

(** ** The numbers in the header are those of the tests shown, if all tests started; those of
    errors, failures and skips count the session too *)
Theorem C84_header_partial tests g :
  Forall (fun r => r_started r = true) tests -> Forall proper (g :: tests) ->
  let d := document tests g in
  a_tests d = length (s_cases d) /\
  a_errors d = shown has_error d + one (has_error (s_errors d)) /\
  a_failures d = shown (fun l => has_failure l && negb (has_error l)) d + one (has_failure (s_errors d) && negb (has_error (s_errors d))) /\
  a_skipped d = shown has_skip d + one (is_run_and_skip g).
Proof.
  intros ST PR. inversion PR as [|? ? PG PT]; subst.
  assert (F : filter r_started tests = tests).
  { clear - ST. induction ST as [|r l R _ IH]; simpl; auto. rewrite R, IH. auto. }
  cbv zeta. unfold document, shown, count. cbn [a_tests a_errors a_failures a_skipped s_cases s_errors]. rewrite F, map_length.
  assert (M : forall p, length (filter (fun c => p (t_children c)) (map case_of tests)) = length (filter (fun r => p (t_children (case_of r))) tests)).
  { intros p. clear. induction tests as [|r l IH]; simpl; auto. destruct (p _); simpl; auto. }
  rewrite !M, (M (fun l => has_failure l && negb (has_error l))), !filter_app, !app_length.
  assert (X : forall p q, (forall r, In r tests -> p r = q r) -> length (filter p tests) = length (filter q tests)).
  { intros p q PQ. f_equal. apply filter_ext_in. auto. }
  rewrite Forall_forall in PT, ST.
  assert (G : error_children g = error_children g /\ has_error (error_children g) = is_error g /\
    (has_failure (error_children g) && negb (has_error (error_children g))) = is_just_failure g).
  { split; auto. destruct PG as [P1 P2].
    destruct (has_error_case (mkRes 0 true (r_errors g) (r_failures g) [] []) P1 P2) as [H1 H2].
    cbn [case_of t_children map r_skips detail_children r_details flat_map] in H1, H2. rewrite !app_nil_r in H1, H2.
    split; auto. }
  destruct G as (_ & G1 & G2). rewrite G1 in *. split; [auto|]. split; [|split].
  - rewrite (X is_error (fun r => has_error (t_children (case_of r)))).
    + simpl. destruct (is_error g); simpl; auto.
    + intros r I. symmetry. apply has_error_case; apply PT; auto.
  - rewrite G2. rewrite (X is_just_failure (fun r => has_failure (t_children (case_of r)) && negb (has_error (t_children (case_of r))))).
    + simpl. destruct (is_just_failure g); auto.
    + intros r I. symmetry. apply has_error_case; apply PT; auto.
  - rewrite (X is_run_and_skip (fun r => has_skip (t_children (case_of r)))).
    + simpl. destruct (is_run_and_skip g); auto.
    + intros r I. rewrite has_skip_case. unfold is_run_and_skip. rewrite ST by auto. auto.
Qed.

(** ** A test that did not start but has an error is counted, but nothing is shown of it *)
Theorem C84_missing_refuted : exists tests g,
  Forall proper (g :: tests) /\ r_errors g = [] /\
  let d := document tests g in a_errors d = 1 /\ a_tests d = 1 /\ s_cases d = [] /\ s_errors d = [].
Proof.
  exists [mkRes 1 false [mkErr 7 false] [] [] []], (mkRes 0 true [] [] [] []). split; [|vm_compute; auto].
  repeat constructor.
Qed.

(** ** An error added while an AssertionError is handled is counted as an error, but shown as
    a failure *)
Theorem C84_kind_refuted : exists tests g,
  Forall (fun r => r_started r = true) tests /\
  let d := document tests g in a_errors d = 1 /\ a_failures d = 0 /\ shown has_error d = 0 /\ shown has_failure d = 1 /\ s_errors d = [].
Proof.
  exists [mkRes 1 true [mkErr 7 true] [] [] []], (mkRes 0 true [] [] [] []). split; [repeat constructor|vm_compute; auto].
Qed.

(** the value of a detail that can be written, xunit.py:52-73 *)
Fixpoint plain (v : value) : bool :=
  match v with
  | VList _ l => forallb plain l
  | VDict l => forallb (fun x => fst (fst x) && plain (snd x)) l
  | VText _ | VNumber _ | VObject _ => true
  end.

Section Ind.
Variable P : value -> Prop.
Hypothesis H1 : forall n, P (VText n).
Hypothesis H2 : forall n, P (VNumber n).
Hypothesis H3 : forall b l, Forall P l -> P (VList b l).
Hypothesis H4 : forall l, Forall (fun x => P (snd x)) l -> P (VDict l).
Hypothesis H5 : forall n, P (VObject n).
Fixpoint value_induction (v : value) : P v :=
  match v with
  | VText n => H1 n
  | VNumber n => H2 n
  | VList b l => H3 b l ((fix go l := match l return Forall P l with [] => Forall_nil _ | x :: l' => Forall_cons _ (value_induction x) (go l') end) l)
  | VDict l => H4 l ((fix go l := match l return Forall (fun x => P (snd x)) l with [] => Forall_nil _ | x :: l' => Forall_cons _ (value_induction (snd x)) (go l') end) l)
  | VObject n => H5 n
  end.
End Ind.

Lemma build_ok v : forallb tree_ok (build v) = plain v.
Proof.
  induction v as [| |b l IH|l IH|] using value_induction; auto.
  - cbn [build plain]. induction IH as [|x l X _ IH]; auto. cbn [map forallb tree_ok negb andb]. rewrite X, IH. auto.
  - cbn [build plain]. induction IH as [|[[b n] x] l X _ IH]; auto. cbn [map forallb tree_ok fst snd] in *. rewrite X, IH.
    destruct b; auto.
Qed.

(** ** The report is written iff the reason of every skip is a string (or false) and every
    detail of a test that ran is a string, a number or made of lists and dictionaries with
    strings as keys; otherwise the file is left empty *)
Definition detail_fine (v : value) : Prop :=
  match v with VObject _ => False | v => plain v = true end.
Definition is_text (a : attr) : Prop := exists n, a = AText n.
Definition fine (r : result) : Prop :=
  (forall s, In s (r_skips r) -> match s with RObject _ => False | _ => True end) /\
  (forall n v, In (n, v) (r_details r) -> match v with
   | VList false l => forall w, In w l -> is_text n /\ detail_fine w
   | v => is_text n /\ detail_fine v
   end).

Lemma detail_child_ok n v : child_ok (detail_child (AText n) v) = true <-> detail_fine v.
Proof.
  destruct v; cbn [detail_child child_ok detail_fine]; try (simpl; tauto); try (split; [discriminate|contradiction]).
  - rewrite build_ok. simpl. tauto.
  - rewrite build_ok. simpl. tauto.
Qed.

Theorem C84_written tests g :
  (Forall fine (filter r_started tests) <-> session_end false tests g = (Written (document tests g), false)) /\
  (~ Forall fine (filter r_started tests) <-> session_end false tests g = (Empty, true)).
Proof.
  assert (K : writable (document tests g) = true <-> Forall fine (filter r_started tests)).
  { unfold writable, document. cbn [s_cases]. rewrite forallb_forall, Forall_forall. split.
    - intros H r I. specialize (H (case_of r) (in_map _ _ _ I)). cbn [case_of t_children] in H.
      rewrite !forallb_app, !andb_true_iff in H. destruct H as (_ & HS & HD). split.
      + intros s S. rewrite forallb_forall in HS. specialize (HS (skip_child s) (in_map _ _ _ S)). destruct s; auto. discriminate.
      + intros n v V. rewrite forallb_forall in HD.
        assert (D : forall w, In w (entries v) -> is_text n /\ detail_fine w).
        { intros w W.
          assert (X : child_ok (detail_child n w) = true).
          { apply HD. unfold detail_children. apply in_flat_map. exists (n, v). split; auto. apply in_map. auto. }
          destruct n as [n|n].
          - split; [exists n; auto|]. apply (detail_child_ok n). auto.
          - destruct w; discriminate. }
        destruct v as [| |[] l| |]; try (apply D; simpl; auto; fail); auto.
    - intros H c I. apply in_map_iff in I. destruct I as (r & <- & I). destruct (H r I) as [S D].
      cbn [case_of t_children]. rewrite !forallb_app, !andb_true_iff. split; [|split].
      + unfold error_children. apply forallb_forall. intros c C. apply in_map_iff in C. destruct C as (e & <- & _). destruct (e_failure e); auto.
      + apply forallb_forall. intros c C. apply in_map_iff in C. destruct C as (s & <- & C). specialize (S s C). destruct s; auto; contradiction.
      + apply forallb_forall. intros c C. unfold detail_children in C. apply in_flat_map in C. destruct C as ([n v] & V & C).
        cbn [fst snd] in C. apply in_map_iff in C. destruct C as (w & <- & W). specialize (D n v V).
        assert (Y : is_text n /\ detail_fine w).
        { destruct v as [| |[] l| |]; try (destruct W as [<-|[]]; auto). auto. }
        destruct Y as [[m ->] Y]. apply detail_child_ok. auto. }
  unfold session_end. destruct (writable (document tests g)) eqn:W.
  - assert (F : Forall fine (filter r_started tests)) by tauto. split; split; auto; try tauto; discriminate.
  - assert (F : ~ Forall fine (filter r_started tests)). { intros F. apply K in F. discriminate. }
    split; split; auto; try tauto; discriminate.
Qed.

(** ** One skip whose reason is an object loses the report of the whole session *)
Theorem C84_empty_refuted : exists tests g, session_end false tests g = (Empty, true) /\ length tests = 2 /\ proper g.
Proof.
  exists [mkRes 1 true [mkErr 7 false] [] [] []; mkRes 2 true [] [] [RObject 5] []], (mkRes 0 true [] [] [] []).
  split; [reflexivity|]. split; auto. repeat constructor.
Qed.

Example C84_ex :
  let tests := [mkRes 1 true [mkErr 7 false] [mkErr 8 true] [] [(AText 3, VList false [VText 1; VDict [(true, 4, VNumber 2)]])];
                mkRes 2 true [] [mkErr 9 true] [RText 4; RNone] []] in
  let g := mkRes 0 true [mkErr 10 false] [] [] [] in
  Forall (fun r => r_started r = true) tests /\ Forall proper (g :: tests) /\ Forall fine (filter r_started tests) /\
  session_end false tests g = (Written (mkSuite 2 2 1 1 [CError 10]
    [mkCase 1 [CError 7; CFailure 8; CDetail (AText 3) (Some (AText 1)) []; CDetail (AText 3) None [TNode false []]];
     mkCase 2 [CFailure 9; CSkipped (AText 4); CSkipped (AText 0)]]), false).
Proof.
  cbv zeta. split; [repeat constructor|]. split; [repeat constructor|]. split; [|reflexivity].
  apply C84_written with (g := mkRes 0 true [] [] [] []). reflexivity.
Qed.

(** ** Workers write nothing *)
Theorem C84_worker tests g : session_end true tests g = (Before, false).
Proof. reflexivity. Qed.

(** ** Each detail of a test is shown, a list once for each of its elements *)
Theorem C84_details tests g r c : In r tests -> r_started r = true -> In c (s_cases (document tests g)) -> t_id c = r_id r ->
  (forall r', In r' tests -> r_id r' = r_id r -> r' = r) ->
  flat_map (fun c => match c with CDetail n v _ => [(n, v)] | _ => [] end) (t_children c) =
  flat_map (fun d => map (fun v => (fst d, match v with VText n | VNumber n => Some (AText n) | VObject n => Some (ABad n) | _ => None end))
                       (match snd d with VList false l => l | v => [v] end)) (r_details r).
Proof.
  intros I S C E U. unfold document in C. cbn [s_cases] in C. apply in_map_iff in C. destruct C as (r' & <- & C).
  apply filter_In in C. destruct C as [C _]. cbn [case_of t_id] in E. rewrite (U r' C E) in *. clear r' C E.
  cbn [case_of t_children]. rewrite !flat_map_app.
  assert (A : forall l, flat_map (fun c => match c with CDetail n v _ => [(n, v)] | _ => [] end)
     (map (fun e => if e_failure e then CFailure (e_id e) else CError (e_id e)) l) = []).
  { induction l as [|[i []] l IH]; simpl; auto. }
  assert (B : forall l, flat_map (fun c => match c with CDetail n v _ => [(n, v)] | _ => [] end) (map skip_child l) = []).
  { induction l as [|x l IH]; simpl; auto. }
  unfold error_children. rewrite A, B. cbn [app]. unfold detail_children.
  induction (r_details r) as [|[n v] l IH]; auto. cbn [flat_map fst snd]. rewrite flat_map_app. f_equal; auto.
  assert (K : forall l, flat_map (fun c => match c with CDetail n v _ => [(n, v)] | _ => [] end) (map (detail_child n) l) =
    map (fun v => (n, match v with VText n | VNumber n => Some (AText n) | VObject n => Some (ABad n) | _ => None end)) l).
  { induction l0 as [|w l0 IH0]; auto. cbn [map flat_map]. rewrite IH0. destruct w; auto. }
  rewrite K. f_equal. unfold entries. destruct v as [| |[] | |]; auto.
Qed.

Example C84_details_ex :
  let r := mkRes 1 true [] [] [] [(AText 3, VList false [VText 1; VObject 2]); (AText 4, VList true [VText 1])] in
  exists c, In c (s_cases (document [r; mkRes 2 true [] [] [] []] (mkRes 0 true [] [] [] []))) /\ t_id c = 1 /\
    (forall r', In r' [r; mkRes 2 true [] [] [] []] -> r_id r' = 1 -> r' = r) /\
    t_children c = [CDetail (AText 3) (Some (AText 1)) []; CDetail (AText 3) (Some (ABad 2)) []; CDetail (AText 4) None [TNode false []]].
Proof.
  cbv zeta. eexists. split; [left; reflexivity|]. split; auto. split; auto. intros r' [<-|[<-|[]]]; auto. discriminate.
Qed.

Print Assumptions C84_cases.
Print Assumptions C84_worker.
Print Assumptions C84_details.
Print Assumptions C84_header_partial.
Print Assumptions C84_missing_refuted.
Print Assumptions C84_kind_refuted.
Print Assumptions C84_written.
Print Assumptions C84_empty_refuted.
