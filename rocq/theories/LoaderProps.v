(** Collection: C41 (repeats and order), C63 (ids), C64 (addresses). *)

From Coq Require Import List Bool Arith PeanoNat Lia Sorting.Permutation Sorting.Sorted Ascii String.
From Coq Require Import Decimal DecimalString DecimalNat.
From Verif Require Import Str Loader.
Import ListNotations.

(** ** Sorting *)

Lemma run_leb_total a b : run_leb a b = true \/ run_leb b a = true.
Proof.
  unfold run_leb. rewrite !orb_true_iff, !andb_true_iff, !Nat.ltb_lt, !Nat.eqb_eq, !Nat.leb_le. lia.
Qed.

Lemma run_leb_trans a b c : run_leb a b = true -> run_leb b c = true -> run_leb a c = true.
Proof.
  unfold run_leb. rewrite !orb_true_iff, !andb_true_iff, !Nat.ltb_lt, !Nat.eqb_eq, !Nat.leb_le. lia.
Qed.

Definition le_run (a b : run) : Prop := run_leb a b = true.

Lemma insert_perm r l : Permutation (r :: l) (insert r l).
Proof.
  induction l as [|x l IH]; simpl; auto. destruct (run_leb r x); auto.
  rewrite perm_swap. constructor. auto.
Qed.

Lemma sort_perm l : Permutation l (stable_sort l).
Proof.
  induction l as [|r l IH]; simpl; auto. rewrite <- insert_perm. auto.
Qed.

Lemma insert_sorted r l : StronglySorted le_run l -> StronglySorted le_run (insert r l).
Proof.
  induction 1 as [|x l S IH F]; simpl.
  - repeat constructor.
  - destruct (run_leb r x) eqn:E.
    + constructor; [constructor; auto|]. constructor; auto.
      eapply Forall_impl; [|exact F]. intros a Ha. eapply run_leb_trans; eauto.
    + constructor; auto. rewrite <- insert_perm. constructor; auto.
      destruct (run_leb_total r x); [congruence|auto].
Qed.

Lemma sort_sorted l : StronglySorted le_run (stable_sort l).
Proof. induction l as [|r l IH]; simpl; [constructor|]. apply insert_sorted, IH. Qed.

Lemma sort_id l : StronglySorted le_run l -> stable_sort l = l.
Proof.
  induction 1 as [|r l S IH F]; simpl; auto. rewrite IH. destruct l as [|x l]; simpl; auto.
  apply Forall_inv in F. unfold le_run in F. rewrite F. auto.
Qed.

(** stability: elements of equal rank keep their order *)
Lemma insert_filter (p : run -> bool) r l :
  (forall x, p r = true -> p x = true -> run_leb r x = true) ->
  filter p (insert r l) = if p r then r :: filter p l else filter p l.
Proof.
  intros H. induction l as [|x l IH]; simpl.
  - destruct (p r); auto.
  - destruct (run_leb r x) eqn:E; simpl; [destruct (p r); auto|].
    rewrite IH. destruct (p r) eqn:Pr; destruct (p x) eqn:Px; auto.
    rewrite H in E; auto. discriminate.
Qed.

Lemma sort_stable (p : run -> bool) l :
  (forall x y, p x = true -> p y = true -> run_leb x y = true) ->
  filter p (stable_sort l) = filter p l.
Proof.
  intros H. induction l as [|r l IH]; simpl; auto.
  rewrite insert_filter by auto. rewrite IH. destruct (p r); auto.
Qed.

(** ** Allocation *)

Lemma allocate_ok l : forall n seen, NoDup (map r_obj l) -> (forall r, In r l -> ~ In (r_obj r) seen) ->
  allocate n seen l = Some (combine l (seq n (List.length l))).
Proof.
  induction l as [|r l IH]; intros n seen N D; simpl; auto.
  destruct (in_dec obj_eq_dec (r_obj r) seen) as [i|i]; [destruct (D r); simpl; auto|].
  simpl in N. apply NoDup_cons_iff in N as [N1 N2]. rewrite IH; auto.
  intros r' Hr' [Q|Q].
  - apply N1. rewrite Q. apply in_map. auto.
  - apply (D r'); simpl; auto.
Qed.

Lemma allocate_some l : forall n seen res, allocate n seen l = Some res ->
  map fst res = l /\ map snd res = seq n (List.length l) /\ NoDup (map r_obj l)
  /\ forall r, In r l -> ~ In (r_obj r) seen.
Proof.
  induction l as [|r l IH]; intros n seen res H; simpl in H.
  - inversion H; subst. simpl. repeat split; auto. constructor.
  - destruct (in_dec obj_eq_dec (r_obj r) seen) as [i|i]; [discriminate|].
    destruct (allocate (S n) (r_obj r :: seen) l) as [rest|] eqn:E; [|discriminate]. inversion H; subst.
    destruct (IH _ _ _ E) as (A & B & C & D). simpl. rewrite A, B. repeat split; auto.
    + constructor; auto. intros Hi. apply in_map_iff in Hi as (r' & Q & Hr). apply (D r' Hr). simpl; auto.
    + intros r' [<-|Hr]; auto. intros Hs. apply (D r' Hr). simpl; auto.
Qed.

(** ** Generated repeats *)

Lemma set_pindex_map {A} (f : run -> A) l :
  (forall r i, f (mkRun (r_obj r) (r_src r) (r_round r) (r_key r) i) = f r) ->
  forall n, map f (set_pindex n l) = map f l.
Proof. intros H. induction l as [|r l IH]; intros n; simpl; auto. rewrite H, IH. auto. Qed.

Lemma map_const_repeat {A B} (b : B) (l : list A) : map (fun _ => b) l = repeat b (List.length l).
Proof. induction l; simpl; congruence. Qed.

Lemma copies_shape each s :
  map (fun r => (r_round r, r_src r)) (copies each s) = repeat (0, Some (s_obj s)) (each * s_repeat s).
Proof.
  unfold copies. rewrite map_map. simpl. rewrite map_const_repeat, seq_length. auto.
Qed.

Definition expected_round (each : nat) (tests : list src) (i : nat) : list (nat * option nat) :=
  flat_map (fun s => repeat (i, Some (s_obj s)) (each * s_repeat s)) tests.

Lemma first_shape each tests :
  map (fun r => (r_round r, r_src r)) (flat_map (copies each) tests) = expected_round each tests 0.
Proof.
  unfold expected_round. induction tests as [|s tests IH]; simpl; auto.
  rewrite map_app, IH, copies_shape. auto.
Qed.

Lemma reround_shape i l :
  map (fun r => (r_round r, r_src r)) (map (reround i) l)
  = map (fun p => (S i, snd p)) (map (fun r => (r_round r, r_src r)) l).
Proof. rewrite !map_map. apply map_ext. auto. Qed.

Lemma round_shape each tests i :
  map (fun p : nat * option nat => (S i, snd p)) (expected_round each tests 0) = expected_round each tests (S i).
Proof.
  unfold expected_round. induction tests as [|s tests IH]; simpl; auto.
  rewrite map_app, IH. f_equal. generalize (each * s_repeat s). induction n as [|n IHn]; simpl; auto. rewrite IHn; auto.
Qed.

Lemma generate_shape each all tests :
  map (fun r => (r_round r, r_src r)) (generate_repeats each all tests)
  = flat_map (expected_round each tests) (seq 0 (Nat.max 1 all)).
Proof.
  unfold generate_repeats. rewrite map_app, first_shape.
  replace (Nat.max 1 all) with (S (all - 1)) by lia. simpl. f_equal.
  rewrite <- (seq_shift (all - 1) 0).
  induction (seq 0 (all - 1)) as [|i l IH]; simpl; auto.
  rewrite map_app, IH, reround_shape, first_shape, round_shape. auto.
Qed.

(** ** C41 *)

(** The order of execution, with the sort keys collection gives the tests
    (increasing): round after round, in each round the tests in the order in
    which they were collected, the repeats of a test following each other. *)
Definition wanted_order (each all : nat) (tests : list src) : list (nat * option nat) :=
  flat_map (fun i => flat_map (fun s => repeat (i, Some (s_obj s)) (each * s_repeat s)) tests)
           (seq 0 (Nat.max 1 all)).

Lemma sorted_app l l' : StronglySorted le_run l -> StronglySorted le_run l' ->
  (forall a b, In a l -> In b l' -> le_run a b) -> StronglySorted le_run (l ++ l').
Proof.
  induction 1 as [|x l S IH F]; simpl; intros S' H; auto.
  constructor; auto. apply Forall_app. split; auto. apply Forall_forall. auto.
Qed.

Lemma same_rank_sorted l r k : (forall a, In a l -> r_round a = r /\ r_key a = k) -> StronglySorted le_run l.
Proof.
  induction l as [|x l IH]; intros H; constructor.
  - apply IH. intros; apply H; simpl; auto.
  - apply Forall_forall. intros y Hy. unfold le_run, run_leb.
    destruct (H x) as [-> ->]; [simpl; auto|]. destruct (H y) as [-> ->]; [simpl; auto|].
    rewrite Nat.eqb_refl, Nat.leb_refl, orb_true_r. auto.
Qed.

Lemma first_keys each tests r : In r (flat_map (copies each) tests) ->
  r_round r = 0 /\ exists s, In s tests /\ r_key r = s_key s.
Proof.
  intros H. apply in_flat_map in H as (s & Hs & H). apply in_map_iff in H as (i & <- & _). simpl. eauto.
Qed.

Lemma first_sorted each tests : StronglySorted (fun a b => s_key a <= s_key b) tests ->
  StronglySorted le_run (flat_map (copies each) tests).
Proof.
  induction 1 as [|s tests S IH F]; simpl; [constructor|].
  apply sorted_app; auto.
  - apply (same_rank_sorted _ 0 (s_key s)). intros a Ha. apply in_map_iff in Ha as (i & <- & _). auto.
  - intros a b Ha Hb. apply in_map_iff in Ha as (i & <- & _). apply first_keys in Hb as (Rb & s' & Hs' & Kb).
    unfold le_run, run_leb. simpl. rewrite Rb, Kb. rewrite Forall_forall in F. specialize (F _ Hs').
    simpl. apply Nat.leb_le in F. auto.
Qed.

Lemma reround_sorted i l : (forall r, In r l -> r_round r = 0) -> StronglySorted le_run l ->
  StronglySorted le_run (map (reround i) l).
Proof.
  intros Z. induction 1 as [|x l S IH F]; simpl; constructor.
  - apply IH. intros; apply Z; simpl; auto.
  - apply Forall_forall. intros y Hy. apply in_map_iff in Hy as (y' & <- & Hy').
    rewrite Forall_forall in F. specialize (F _ Hy'). unfold le_run, run_leb in *.
    rewrite (Z x), (Z y') in F by (simpl; auto). simpl in *. rewrite Nat.eqb_refl, F, orb_true_r. auto.
Qed.

Lemma rounds_sorted l : (forall r, In r l -> r_round r = 0) -> StronglySorted le_run l ->
  forall n i, StronglySorted le_run (flat_map (fun i => map (reround i) l) (seq i n)).
Proof.
  intros Z St n. induction n as [|n IH]; intros i; simpl; [constructor|].
  apply sorted_app; auto using reround_sorted.
  intros a b Ha Hb. apply in_map_iff in Ha as (a' & <- & Ha). apply in_flat_map in Hb as (j & Hj & Hb).
  apply in_map_iff in Hb as (b' & <- & Hb). apply in_seq in Hj. unfold le_run, run_leb. simpl.
  assert (Nat.ltb (S i) (S j) = true) as -> by (apply Nat.ltb_lt; lia). auto.
Qed.

Lemma generate_sorted each all tests : StronglySorted (fun a b => s_key a <= s_key b) tests ->
  StronglySorted le_run (generate_repeats each all tests).
Proof.
  intros S. unfold generate_repeats. apply sorted_app.
  - apply first_sorted; auto.
  - apply rounds_sorted; [|apply first_sorted; auto]. intros r Hr. apply (first_keys _ _ _ Hr).
  - intros a b Ha Hb. apply first_keys in Ha as (Ra & _).
    apply in_flat_map in Hb as (j & Hj & Hb). apply in_map_iff in Hb as (b' & <- & Hb).
    unfold le_run, run_leb. rewrite Ra. simpl. auto.
Qed.

Lemma set_pindex_sorted l : forall n, StronglySorted le_run l -> StronglySorted le_run (set_pindex n l).
Proof.
  intros n H. revert n. induction H as [|x l S IH F]; intros n; simpl; constructor; auto.
  apply Forall_forall. intros y Hy.
  assert (exists z, In z l /\ r_round y = r_round z /\ r_key y = r_key z) as (z & Hz & R & K).
  { revert Hy. clear. generalize (S n). induction l as [|w l IH]; intros m; simpl; [intros []|].
    intros [<-|Hy]; [exists w; auto|]. destruct (IH _ Hy) as (z & Hz & Q). exists z; auto. }
  rewrite Forall_forall in F. specialize (F _ Hz). unfold le_run, run_leb in *. simpl. rewrite R, K. exact F.
Qed.

Lemma rekey_id l : map (fun r => mkRun (r_obj r) (r_src r) (r_round r) (r_key r) (r_pindex r)) l = l.
Proof. rewrite <- (map_id l) at 2. apply map_ext. intros []; auto. Qed.

(** distinct objects *)
Lemma copies_obj each s r : In r (copies each s) ->
  r_obj r = Orig (s_obj s) \/ exists i, r_obj r = Clone (s_obj s) i.
Proof. intros H. apply in_map_iff in H as ([|i] & <- & _); simpl; eauto. Qed.

Lemma NoDup_app_intro {A} (l l' : list A) : NoDup l -> NoDup l' -> (forall x, In x l -> ~ In x l') -> NoDup (l ++ l').
Proof.
  induction 1 as [|x l N H IH]; simpl; intros N' D; auto. constructor.
  - rewrite in_app_iff. intros [Q|Q]; auto. apply (D x); auto.
  - apply IH; auto.
Qed.

Lemma copies_nodup each s : NoDup (map r_obj (copies each s)).
Proof.
  unfold copies. rewrite map_map. simpl.
  apply FinFun.Injective_map_NoDup; [|apply seq_NoDup].
  intros [|i] [|j] H; congruence.
Qed.

Lemma first_nodup each tests : NoDup (map s_obj tests) -> NoDup (map r_obj (flat_map (copies each) tests)).
Proof.
  induction tests as [|s tests IH]; simpl; intros N; [constructor|].
  apply NoDup_cons_iff in N as [N1 N2]. rewrite map_app. apply NoDup_app_intro; auto using copies_nodup.
  intros x Hx Hy. apply in_map_iff in Hx as (r & <- & Hr). apply in_map_iff in Hy as (r' & Q & Hr').
  apply in_flat_map in Hr' as (s' & Hs' & Hr').
  apply copies_obj in Hr, Hr'. apply N1. apply in_map_iff. exists s'. split; auto.
  destruct Hr as [Hr|[i Hr]], Hr' as [Hr'|[j Hr']]; rewrite Hr, Hr' in Q; congruence.
Qed.

Lemma generate_nodup each all tests : NoDup (map s_obj tests) -> NoDup (map r_obj (generate_repeats each all tests)).
Proof.
  intros N. unfold generate_repeats. rewrite map_app. pose proof (first_nodup each tests N) as F.
  apply NoDup_app_intro; auto.
  - assert (forall n a, NoDup (map r_obj (flat_map (fun i => map (reround i) (flat_map (copies each) tests)) (seq a n)))) as G; [|apply G].
    induction n as [|n IH]; intros a; simpl; [constructor|].
    rewrite map_app. apply NoDup_app_intro; auto.
    + rewrite map_map. simpl. rewrite <- (map_map r_obj (fun o => CloneOf o (S a))).
      apply FinFun.Injective_map_NoDup; auto. intros x y Q; congruence.
    + intros x Hx Hy. apply in_map_iff in Hx as (r & <- & Hr). apply in_map_iff in Hr as (r0 & <- & _).
      apply in_map_iff in Hy as (r & Q & Hr). apply in_flat_map in Hr as (j & Hj & Hr).
      apply in_map_iff in Hr as (r1 & <- & _). simpl in Q. inversion Q. apply in_seq in Hj. lia.
  - intros x Hx Hy. apply in_map_iff in Hx as (r & <- & Hr). apply in_map_iff in Hy as (r' & Q & Hr').
    apply in_flat_map in Hr' as (j & Hj & Hr'). apply in_map_iff in Hr' as (r1 & <- & _).
    apply in_flat_map in Hr as (s & _ & Hr). apply copies_obj in Hr as [Hr|[i Hr]]; rewrite Hr in Q; discriminate.
Qed.

Theorem C41_order : forall each all tests,
  NoDup (map s_obj tests) -> StronglySorted (fun a b => s_key a < s_key b) tests ->
  exists res, get_runnables each all false r_key tests = Some res
    /\ map (fun r => (r_round (fst r), r_src (fst r))) res = wanted_order each all tests.
Proof.
  intros each all tests N S.
  assert (StronglySorted (fun a b => s_key a <= s_key b) tests) as S'.
  { clear N. induction S as [|s l Sl IH F]; constructor; auto.
    eapply Forall_impl; [|exact F]. intros a Ha. simpl in Ha. lia. }
  unfold get_runnables. rewrite rekey_id.
  rewrite sort_id by (apply set_pindex_sorted, generate_sorted; auto).
  rewrite allocate_ok.
  - eexists. split; [reflexivity|].
    rewrite <- (map_map fst (fun r => (r_round r, r_src r))).
    assert (forall (l : list run) n, map fst (combine l (seq n (List.length l))) = l) as ->.
    { clear. induction l as [|r l IH]; intros n; simpl; auto. rewrite IH; auto. }
    rewrite set_pindex_map by auto. apply generate_shape.
  - rewrite set_pindex_map by auto. apply generate_nodup; auto.
  - intros r _ [].
Qed.

(** The number of tests to run. *)
Theorem C41_number : forall each all hook tests res,
  get_runnables each all false hook tests = Some res ->
  List.length res = Nat.max 1 all * list_sum (map (fun s => each * s_repeat s) tests).
Proof.
  unfold get_runnables. intros each all hook tests res H.
  apply allocate_some in H as (A & _ & _ & _).
  rewrite <- (map_length fst), A, <- (Permutation_length (sort_perm _)), map_length.
  rewrite <- (map_length (fun r => (r_round r, r_src r))), set_pindex_map, generate_shape by auto.
  assert (forall i, List.length (expected_round each tests i) = list_sum (map (fun s => each * s_repeat s) tests)) as E.
  { intros i. unfold expected_round. clear. induction tests as [|s tests IH]; simpl; auto.
    rewrite app_length, repeat_length, IH. auto. }
  rewrite <- (seq_length (Nat.max 1 all) 0) at 2. induction (seq 0 (Nat.max 1 all)) as [|i l IH]; simpl; auto.
  rewrite app_length, IH, E. auto.
Qed.

(** Whatever sort keys the tests_loaded handlers set: nothing is lost or added,
    the tests run in order of (round, key), and tests of equal rank keep the
    order in which they were collected (which is the order of their parallel
    indices). *)
Definition ranked (hook : run -> nat) (l : list run) : list run :=
  map (fun r => mkRun (r_obj r) (r_src r) (r_round r) (hook r) (r_pindex r)) (set_pindex 0 l).

Theorem C41_sorted_and_stable : forall each all hook tests res,
  get_runnables each all false hook tests = Some res ->
  let run_order := map fst res in
  let collected := ranked hook (generate_repeats each all tests) in
  Permutation run_order collected
  /\ StronglySorted (fun a b => r_round a < r_round b \/ (r_round a = r_round b /\ r_key a <= r_key b)) run_order
  /\ (forall i k, filter (fun r => Nat.eqb (r_round r) i && Nat.eqb (r_key r) k) run_order
                  = filter (fun r => Nat.eqb (r_round r) i && Nat.eqb (r_key r) k) collected)
  /\ map r_pindex collected = seq 0 (List.length collected).
Proof.
  intros each all hook tests res H run_order collected.
  apply allocate_some in H as (A & _ & _ & _). fold (ranked hook (generate_repeats each all tests)) in A.
  fold collected in A. fold run_order in A. rewrite A. split; [symmetry; apply sort_perm|]. split; [|split].
  - clear A. generalize (sort_sorted collected). induction 1 as [|x l S IH F]; constructor; auto.
    eapply Forall_impl; [|exact F]. intros a Ha. unfold le_run, run_leb in Ha.
    rewrite orb_true_iff, andb_true_iff, Nat.ltb_lt, Nat.eqb_eq, Nat.leb_le in Ha. auto.
  - intros i k. apply sort_stable. intros x y Hx Hy.
    apply andb_true_iff in Hx as [X1 X2]. apply andb_true_iff in Hy as [Y1 Y2].
    apply Nat.eqb_eq in X1, X2, Y1, Y2. unfold run_leb. rewrite X1, Y1, X2, Y2, Nat.eqb_refl, Nat.leb_refl, orb_true_r. auto.
  - unfold collected, ranked. rewrite map_map, map_length. simpl.
    assert (forall l n, map r_pindex (set_pindex n l) = seq n (List.length (set_pindex n l))) as G; [|apply G].
    induction l as [|r l IH]; intros n; simpl; auto. rewrite IH. auto.
Qed.

(** The interactive session, if asked for, comes first. *)
Theorem C41_interactive_first : forall each all tests res,
  (forall s, In s tests -> 0 < s_key s) ->
  get_runnables each all true r_key tests = Some res ->
  exists r i rest, res = (r, i) :: rest /\ r_obj r = Interactive.
Proof.
  unfold get_runnables. intros each all tests res K H. rewrite rekey_id in H. cbn [set_pindex] in H.
  remember (set_pindex 1 (generate_repeats each all tests)) as l.
  assert (forall r, In r l -> r_round r = 0 -> 0 < r_key r) as G.
  { assert (forall r, In r (generate_repeats each all tests) -> 0 < r_key r) as G0.
    { intros r Hr. unfold generate_repeats in Hr. apply in_app_iff in Hr as [Hr|Hr].
      - apply first_keys in Hr as (_ & s & Hs & ->). auto.
      - apply in_flat_map in Hr as (j & _ & Hr). apply in_map_iff in Hr as (r0 & <- & Hr). simpl.
        apply first_keys in Hr as (_ & s & Hs & ->). auto. }
    subst l. clear H K. revert G0. generalize 1. induction (generate_repeats each all tests) as [|x l IH]; intros n G0 r Hr _; simpl in *; [destruct Hr|].
    destruct Hr as [<-|Hr]; [simpl; auto|]. destruct (r_round r) eqn:R.
    - eapply (IH (S n)); eauto.
    - clear R. revert Hr. assert (forall r, In r l -> 0 < r_key r) as G1 by auto. clear -G1. generalize (S n).
      induction l as [|y l IH]; intros m; simpl; [intros []|]. intros [<-|Hr]; [simpl; apply G1; simpl; auto|].
      eapply IH; eauto. intros; apply G1; simpl; auto. }
  cbn [stable_sort fold_right] in H. fold (stable_sort l) in H.
  assert (exists r rest, insert (mkRun (r_obj interactive_test) (r_src interactive_test) (r_round interactive_test) (r_key interactive_test) 0) (stable_sort l) = r :: rest /\ r_obj r = Interactive) as (r & rest & E & O).
  { destruct (stable_sort l) as [|x l'] eqn:E; simpl; [eexists _, _; split; reflexivity|].
    assert (In x l) as Hx by (eapply Permutation_in; [symmetry; apply sort_perm|rewrite E; simpl; auto]).
    assert (run_leb (mkRun Interactive None 0 0 0) x = true) as ->; [|eexists _, _; split; reflexivity].
    unfold run_leb; simpl. destruct (r_round x); auto. }
  rewrite E in H. simpl in H.
  destruct (allocate 2 [r_obj r] rest); [|discriminate]. inversion H; subst. eauto.
Qed.

Definition ex_tests : list src := [mkSrc 7 1 1; mkSrc 8 2 2; mkSrc 9 3 0].

Example ex_order : exists res, get_runnables 2 2 false r_key ex_tests = Some res
  /\ map (fun r => (r_round (fst r), r_src (fst r), snd r)) res
     = [(0, Some 7, 1); (0, Some 7, 2); (0, Some 8, 3); (0, Some 8, 4); (0, Some 8, 5); (0, Some 8, 6);
        (1, Some 7, 7); (1, Some 7, 8); (1, Some 8, 9); (1, Some 8, 10); (1, Some 8, 11); (1, Some 8, 12)].
Proof. eexists. split; vm_compute; reflexivity. Qed.

Example ex_reversed : exists res,
  get_runnables 1 1 false (fun r => match r_src r with Some 7 => 5 | _ => 4 end) ex_tests = Some res
  /\ map (fun r => (r_src (fst r), r_pindex (fst r))) res = [(Some 8, 1); (Some 8, 2); (Some 7, 0)].
Proof. eexists. split; vm_compute; reflexivity. Qed.

(** ** C63: ids *)

Lemma digits_inj a b : digits a = digits b -> a = b.
Proof.
  unfold digits, lit. intros H.
  assert (NilEmpty.string_of_uint (Nat.to_uint a) = NilEmpty.string_of_uint (Nat.to_uint b)) as Q.
  { rewrite <- (string_of_list_ascii_of_string (NilEmpty.string_of_uint (Nat.to_uint a))), H.
    apply string_of_list_ascii_of_string. }
  assert (Some (Nat.to_uint a) = Some (Nat.to_uint b)) as R.
  { rewrite <- !NilEmpty.usu, Q. auto. }
  apply Unsigned.to_uint_inj. congruence.
Qed.

Lemma digits_no_separator n : ~ In "_"%char (digits n).
Proof.
  unfold digits, lit. generalize (Nat.to_uint n). induction u; simpl; intuition discriminate.
Qed.

Lemma digits_nonempty n : digits n <> [].
Proof.
  unfold digits, lit. destruct (Nat.to_uint n) as [|u|u|u|u|u|u|u|u|u|u] eqn:E; simpl; try discriminate.
  destruct n; [discriminate|].
  pose proof (Unsigned.of_to (S n)) as Q. rewrite E in Q. discriminate.
Qed.

(** Within a session all tests have different ids. *)
Theorem C63_ids_distinct : forall base each all interactive hook tests res,
  get_runnables each all interactive hook tests = Some res ->
  NoDup (map (fun r => id_of base (snd r)) res).
Proof.
  unfold get_runnables. intros base each all interactive hook tests res H.
  apply allocate_some in H as (_ & B & _ & _).
  rewrite <- (map_map snd (id_of base)), B.
  apply FinFun.Injective_map_NoDup; [|apply seq_NoDup].
  intros a b Q. unfold id_of in Q. apply app_inv_head in Q. apply digits_inj, Q.
Qed.

(** The ids of a parallel session's parent (worker number 0) and workers do not
    collide either. *)
Theorem C63_ids_distinct_across_workers : forall uuid w w' i i',
  id_of (session_id uuid w) i = id_of (session_id uuid w') i' -> w = w' /\ i = i'.
Proof.
  intros uuid w w' i i' H.
  assert (forall w, id_base (session_id uuid w) = uuid ++ lit "_" ++ digits w ++ lit "_") as B.
  { intros v. unfold id_base, session_id. destruct (ends (lit "_") _) eqn:E.
    - exfalso. apply ends_spec in E as [a Q]. destruct (exists_last (digits_nonempty v)) as (d & c & D).
      rewrite D, !app_assoc in Q. apply app_inj_tail in Q as [_ ->].
      apply (digits_no_separator v). rewrite D. apply in_or_app; simpl; auto.
    - rewrite <- !app_assoc. auto. }
  unfold id_of in H. rewrite !B, <- !app_assoc in H. apply app_inv_head, app_inv_head in H.
  assert (forall a b c d, ~ In "_"%char a -> ~ In "_"%char c -> a ++ "_"%char :: b = c ++ "_"%char :: d -> a = c /\ b = d) as U.
  { clear. induction a as [|x a IH]; intros b [|y c] d Ha Hc E; simpl in *; inversion E; subst; try tauto.
    destruct (IH b c d) as [-> ->]; auto. }
  change (lit "_") with ["_"%char] in H. simpl in H.
  apply U in H as [H1 H2]; auto using digits_no_separator. apply digits_inj in H1, H2. auto.
Qed.

Example ex_ids : id_of (session_id (lit "u") 3) 12 = lit "u_3_12" /\ id_of (lit "u_") 1 = lit "u_1".
Proof. split; reflexivity. Qed.

(** ** C64: addresses *)

(** [a] names the test: it is the factory's name, the address in the file, or
    the address up to the first parenthesis *)
Definition names (a : str) (t : found) : Prop :=
  a = f_factory t \/ a = f_address t
  \/ exists r, f_address t = a ++ "("%char :: r /\ ~ In "("%char a.

Lemma address_matches_spec a t : address_matches a t = true <-> names a t.
Proof.
  unfold address_matches, names. destruct (str_eqb_spec a (f_factory t)) as [->|N1]; [tauto|].
  destruct (str_eqb_spec a (f_address t)) as [->|N2]; [tauto|].
  destruct (split1 "(" (f_address t)) as [[b r]|] eqn:S.
  - apply split1_spec in S as [E NI]. rewrite str_eqb_eq. split.
    + intros ->. right; right. eauto.
    + intros [Q|[Q|(r' & Q & NI')]]; try contradiction.
      assert (Some (b, r) = Some (a, r')) as K; [|congruence].
      rewrite <- (proj2 (split1_spec "(" (f_address t) b r)) by auto. apply split1_spec. auto.
  - apply split1_none in S. split; [discriminate|].
    intros [Q|[Q|(r' & Q & NI')]]; try contradiction. destruct S. rewrite Q. apply in_or_app; simpl; auto.
Qed.

(** Loading an address yields exactly the tests of the file it names that the
    filters leave, in order; it fails iff it names none. *)
Theorem C64_address_selects : forall a tests t,
  In t (fst (iter_address (Some a) tests)) <-> In t tests /\ names a t /\ f_excluded t = false.
Proof.
  intros a tests t. assert (fst (iter_address (Some a) tests) = filter (fun t => negb (f_excluded t)) (filter (address_matches a) tests)) as ->.
  { destruct tests; auto. }
  rewrite !filter_In, address_matches_spec, negb_true_iff. tauto.
Qed.

Theorem C64_no_such_test : forall a tests,
  snd (iter_address (Some a) tests) = true <-> forall t, In t tests -> ~ names a t.
Proof.
  intros a tests. assert (snd (iter_address (Some a) tests) = match filter (address_matches a) tests with [] => true | _ => false end) as ->.
  { destruct tests; auto. }
  destruct (filter (address_matches a) tests) as [|x l] eqn:E.
  - split; auto. intros _ t Ht Q. apply address_matches_spec in Q.
    assert (In t (filter (address_matches a) tests)) as K by (apply filter_In; auto). rewrite E in K. destruct K.
  - split; [discriminate|]. intros H. exfalso.
    assert (In x (filter (address_matches a) tests)) as K by (rewrite E; simpl; auto).
    apply filter_In in K as [K1 K2]. apply address_matches_spec in K2. exact (H x K1 K2).
Qed.

Theorem C64_whole_file : forall tests,
  iter_address None tests = (filter (fun t => negb (f_excluded t)) tests, false).
Proof.
  intros tests. destruct tests as [|t tests]; auto. unfold iter_address.
  assert (forall l : list found, filter (fun _ => true) l = l) as E by (induction l; simpl; congruence).
  rewrite E. auto.
Qed.

Example ex_address :
  iter_address (Some (lit "T.test_a")) [mkFound (lit "T") (lit "T.test_a(x=1)") false; mkFound (lit "T") (lit "T.test_a(x=2)") true; mkFound (lit "f") (lit "f") false]
  = ([mkFound (lit "T") (lit "T.test_a(x=1)") false], false)
  /\ snd (iter_address (Some (lit "g")) [mkFound (lit "f") (lit "f") false]) = true.
Proof. split; reflexivity. Qed.

Print Assumptions C41_order.
Print Assumptions C41_number.
Print Assumptions C41_sorted_and_stable.
Print Assumptions C41_interactive_first.
Print Assumptions C63_ids_distinct.
Print Assumptions C63_ids_distinct_across_workers.
Print Assumptions C64_address_selects.
Print Assumptions C64_no_such_test.
Print Assumptions C64_whole_file.
