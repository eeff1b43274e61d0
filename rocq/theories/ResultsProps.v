(** Session results: C14, C15, C16, C59. *)

From Coq Require Import List Bool Arith PeanoNat Lia ZArith.
From Verif Require Import Events Core CoreSpec Frame Records RunLoop CleanupProps Results.
Import ListNotations.

(** ** C14 *)

(** When a result counts as successful. *)
Record good (allow_skips : bool) (r : result) : Prop := mkGood {
  gd_err : r_errors r = []; gd_fail : r_failures r = []; gd_intr : r_interrupted r = false;
  gd_skip : r_skips r <> [] -> allow_skips = true;
  gd_run : r_skips r = [] -> r_started r = true }.

Lemma is_success_good a r : is_success a r = true <-> good a r.
Proof.
  unfold is_success, is_error, is_failure, is_skip. split.
  - destruct (r_errors r) eqn:E1, (r_failures r) eqn:E2, (r_interrupted r) eqn:E3; simpl; try discriminate.
    destruct (r_skips r) eqn:E4; simpl; intros H; constructor; auto; try congruence; intros; congruence.
  - intros [-> -> -> H1 H2]. simpl. destruct (r_skips r); simpl; auto. apply H1. discriminate.
Qed.

Theorem C14_success_iff : forall allow_skips R,
  results_success allow_skips R = true <->
  good allow_skips (sr_global R) /\ ~ (sr_children R = true /\ sr_worker_error R = true) /\
  forall t r, In (t, r) (sr_dict R) -> good allow_skips r.
Proof.
  intros a R. unfold results_success, iter_test_results.
  destruct (is_success a (sr_global R)) eqn:Eg; simpl.
  - rewrite is_success_good in Eg.
    assert (F : forallb (is_success a) (map snd (sr_dict R)) = true <-> forall t r, In (t, r) (sr_dict R) -> good a r).
    { rewrite forallb_forall. split.
      - intros H t r Hi. apply is_success_good, H. apply in_map_iff. exists (t, r). auto.
      - intros H r Hi. apply in_map_iff in Hi as ([t r'] & <- & Hi). apply is_success_good. eapply H; eauto. }
    destruct (sr_children R), (sr_worker_error R); simpl; rewrite ?F; intuition discriminate.
  - split; [discriminate|]. intros (H & _). apply is_success_good in H. congruence.
Qed.

(** One bad test result anywhere makes the session unsuccessful. *)
Theorem C14_one_bad_result : forall allow_skips R t r,
  In (t, r) (sr_dict R) ->
  (r_errors r <> [] \/ r_failures r <> [] \/ r_interrupted r = true \/ (r_started r = false /\ r_skips r = [])) ->
  results_success allow_skips R = false.
Proof.
  intros a R t r Hi Hb. destruct (results_success a R) eqn:E; auto. exfalso.
  apply C14_success_iff in E as (_ & _ & H). destruct (H t r Hi) as [H1 H2 H3 H4 H5]. intuition; congruence.
Qed.

(** The session model of Core.v uses this very predicate. *)
Lemma core_success_is_results_success a s :
  session_success a s = results_success a (mkResults (st_results s) (st_global s) false false).
Proof.
  unfold session_success, results_success, iter_test_results. simpl. destruct (is_success a (st_global s)); simpl; auto.
  induction (st_results s); simpl; auto. rewrite IHl. auto.
Qed.

(** ** C15 *)

Definition one (b : bool) : nat := if b then 1 else 0.

(** how many kinds of entries a result carries *)
Definition kinds (r : result) : nat :=
  one (nonempty (r_errors r)) + one (nonempty (r_failures r)) + one (nonempty (r_skips r)).

(** The categories printed at the end of a run (console_reporter.py:201-204). *)
Definition total (R : results) : nat :=
  get_num_successful R + get_num_skipped false R + get_num_failures R + get_num_errors R + get_num_not_run R.

Definition categories (r : result) : nat :=
  one (is_success_finished r) + one (is_run_and_skip r) + one (is_just_failure r) + one (is_error r) + one (is_not_run r).

(** An interrupted test is in none of the categories. *)
Definition t_interrupted : test := mkTest 5 (Some 1) 1 PDone 0 false (PRaise KKeyboard false).

Theorem C15_every_test_counted_refuted : exists E ts,
  let s := fst (run_session E ts) in
  let R := mkResults (st_results s) (st_global s) false false in
  get_num_results R = 1 /\ get_num_started R = 1 /\ total R = 0.
Proof. exists env0, [t_interrupted]. vm_compute. auto. Qed.

(** With the default arguments of get_num_skipped, a test avoided because of its
    requirements is counted both as skipped and as not run, though it carries
    one kind of entry only. *)
Definition t_avoided : test := mkTest 5 (Some 1) 1 PDone 1 false PDone.

Theorem C15_counted_once_refuted : exists E ts,
  let s := fst (run_session E ts) in
  let R := mkResults (st_results s) (st_global s) false false in
  get_num_results R = 1 /\ map kinds (iter_test_results R) = [1] /\
  get_num_skipped true R = 1 /\ get_num_not_run R = 1.
Proof. exists env0, [t_avoided]. vm_compute. auto. Qed.

Lemma categories_range r :
  r_interrupted r = false -> (r_started r = true -> r_finished r = true \/ kinds r <> 0) ->
  1 <= categories r <= Nat.max 1 (kinds r).
Proof.
  unfold categories, kinds, is_success_finished, is_success, is_run_and_skip, is_just_failure, is_not_run, is_error, is_failure, is_skip.
  intros -> H. destruct (r_errors r), (r_failures r), (r_skips r), (r_started r), (r_finished r); simpl in *; try lia;
    destruct H; auto; discriminate.
Qed.

Lemma count_sum p (l : list result) : length (filter p l) = list_sum (map (fun r => one (p r)) l).
Proof. induction l as [|r l IH]; simpl; auto. destruct (p r); simpl; rewrite <- IH; auto. Qed.

Lemma total_split R : total R = list_sum (map categories (iter_test_results R)) +
  one (is_run_and_skip (sr_global R)) + one (is_just_failure (sr_global R)) + one (is_error (sr_global R)).
Proof.
  unfold total, get_num_successful, get_num_skipped, get_num_failures, get_num_errors, get_num_not_run, count, iter_all_results.
  rewrite !filter_app, !app_length, !count_sum. cbn [map].
  assert (H : forall n, list_sum [n] = n) by (intros; simpl; lia).
  rewrite !H. generalize (iter_test_results R) as l. intros l.
  assert (S : list_sum (map categories l) =
    list_sum (map (fun r => one (is_success_finished r)) l) + list_sum (map (fun r => one (is_run_and_skip r)) l) +
    list_sum (map (fun r => one (is_just_failure r)) l) + list_sum (map (fun r => one (is_error r)) l) +
    list_sum (map (fun r => one (is_not_run r)) l)).
  { induction l as [|r l IH]; simpl; auto. rewrite IH. unfold categories. lia. }
  rewrite S. lia.
Qed.

(** Leaving interrupted tests aside (and tests still running), every test is
    counted, and in more than one category only if it carries several kinds of
    entries. *)
Theorem C15_counters_partial : forall r,
  r_interrupted r = false -> (r_started r = true -> r_finished r = true \/ kinds r <> 0) ->
  1 <= categories r /\ (categories r <= kinds r \/ categories r = 1).
Proof. intros r H1 H2. pose proof (categories_range r H1 H2). lia. Qed.

(** Hence the numbers cover all tests; and if no test carries several kinds of
    entries and there is none outside tests, they add up to their number. *)
Theorem C15_numbers_add_up_partial : forall R,
  (forall t r, In (t, r) (sr_dict R) -> r_interrupted r = false /\ (r_started r = true -> r_finished r = true \/ kinds r <> 0)) ->
  get_num_results R <= total R /\
  ((forall t r, In (t, r) (sr_dict R) -> kinds r <= 1) -> kinds (sr_global R) = 0 -> total R = get_num_results R).
Proof.
  intros R H. rewrite total_split. unfold get_num_results, iter_test_results.
  assert (L : length (sr_dict R) <= list_sum (map categories (map snd (sr_dict R))) /\
    ((forall t r, In (t, r) (sr_dict R) -> kinds r <= 1) -> list_sum (map categories (map snd (sr_dict R))) = length (sr_dict R))).
  { induction (sr_dict R) as [|[t r] l IH]; [split; auto|].
    cbn [map snd length list_sum fold_right]. fold (list_sum (map categories (map snd l))).
    destruct (H t r (or_introl eq_refl)) as [H1 H2]. pose proof (categories_range r H1 H2) as C.
    destruct IH as [I1 I2]; [intros; eapply H; right; eauto|]. split; [lia|].
    intros K. rewrite I2 by (intros; eapply K; right; eauto). pose proof (K t r (or_introl eq_refl)). lia. }
  destruct L as [L1 L2]. split; [lia|]. intros K G. rewrite (L2 K). unfold kinds in G.
  unfold is_run_and_skip, is_just_failure, is_error, is_failure, is_skip.
  destruct (r_errors _), (r_failures _), (r_skips _); simpl in *; try lia. destruct (r_started _); simpl; lia.
Qed.

(** how many results of a list are of some kind *)
Inductive counted (P : result -> Prop) : list result -> nat -> Prop :=
| cnt_nil : counted P [] 0
| cnt_in r l n : P r -> counted P l n -> counted P (r :: l) (S n)
| cnt_out r l n : ~ P r -> counted P l n -> counted P (r :: l) n.

Lemma counted_filter P p l : (forall r, p r = true <-> P r) -> counted P l (length (filter p l)).
Proof.
  intros H. induction l as [|r l IH]; simpl; [constructor|]. destruct (p r) eqn:E; simpl.
  - constructor; auto. apply H, E.
  - constructor; auto. rewrite <- H. congruence.
Qed.

(** What each number counts: errors, failures and skips outside tests are
    included, and only they *)
Theorem C15_what_is_counted : forall R,
  let tests := map snd (sr_dict R) in
  let all := tests ++ [sr_global R] in
  counted (fun _ => True) tests (get_num_results R) /\
  counted (fun r => r_started r = true) tests (get_num_started R) /\
  counted (fun r => r_started r = true /\ r_finished r = true /\ r_interrupted r = false /\
             r_errors r = [] /\ r_failures r = [] /\ r_skips r = []) tests (get_num_successful R) /\
  counted (fun r => r_errors r <> []) all (get_num_errors R) /\
  counted (fun r => r_failures r <> [] /\ r_errors r = []) all (get_num_failures R) /\
  counted (fun r => r_skips r <> []) all (get_num_skipped true R) /\
  counted (fun r => r_skips r <> [] /\ r_started r = true) all (get_num_skipped false R) /\
  counted (fun r => r_started r = false /\ r_errors r = [] /\ r_failures r = []) tests (get_num_not_run R) /\
  (results_fatal R = true <-> exists r n, In r all /\ In n (r_errors r ++ r_failures r) /\ n_fatal n = true).
Proof.
  intros R tests all.
  assert (NE : forall A (l : list A), nonempty l = true <-> l <> []) by (intros A [|x l]; simpl; split; congruence).
  refine (conj _ (conj _ (conj _ (conj _ (conj _ (conj _ (conj _ (conj _ _)))))))).
  - unfold get_num_results. fold tests. rewrite <- (map_length snd (sr_dict R)). fold tests.
    generalize tests as l. induction l; simpl; constructor; auto.
  - apply counted_filter. tauto.
  - apply counted_filter. intros r. unfold is_success_finished, is_success, is_error, is_failure, is_skip.
    destruct (r_errors r), (r_failures r), (r_skips r), (r_interrupted r), (r_started r), (r_finished r); simpl; intuition congruence.
  - apply counted_filter. intros r. apply NE.
  - apply counted_filter. intros r. unfold is_just_failure, is_failure, is_error.
    destruct (r_errors r), (r_failures r); simpl; intuition congruence.
  - apply counted_filter. intros r. apply NE.
  - apply counted_filter. intros r. unfold is_run_and_skip, is_skip. destruct (r_started r), (r_skips r); simpl; intuition congruence.
  - apply counted_filter. intros r. unfold is_not_run, is_error, is_failure.
    destruct (r_started r), (r_errors r), (r_failures r); simpl; intuition congruence.
  - unfold results_fatal, count, iter_all_results, iter_test_results. fold tests. fold all. rewrite negb_true_iff, Nat.eqb_neq. split.
    + intros H. destruct (filter has_fatal all) as [|r l] eqn:E; [contradiction|].
      assert (I : In r (filter has_fatal all)) by (rewrite E; left; reflexivity). apply filter_In in I as [I1 I2].
      apply existsb_exists in I2 as (n & I2 & I3). exists r, n. auto.
    + intros (r & n & I1 & I2 & I3) H. assert (I : In r (filter has_fatal all)).
      { apply filter_In. split; [exact I1|]. apply existsb_exists. exists n. auto. }
      destruct (filter has_fatal all); [destruct I|discriminate].
Qed.

(** ** C16 *)

(** A second result for a test is refused, and leaves the table as it is. *)
Theorem C16_second_refused : forall t R, (exists r, In (t, r) (sr_dict R)) <-> sr_create t R = None.
Proof.
  intros t R. unfold sr_create. destruct (lookup t (sr_dict R)) as [q|] eqn:El.
  - split; auto. intros _. exists q. apply lookup_split; auto.
  - split; [|discriminate]. intros (r & Hr). exfalso. revert El Hr. induction (sr_dict R) as [|[u b] l IH]; simpl; auto.
    destruct (Nat.eqb t u) eqn:Eu; [discriminate|]. intros H [H1|H1]; auto. inversion H1; subst. rewrite Nat.eqb_refl in Eu. discriminate.
Qed.

(** A new result is empty, found under its test, last in order; the others stay. *)
Theorem C16_create : forall t R R', sr_create t R = Some R' ->
  sr_get t R' = Some result0 /\ (forall u, u <> t -> sr_get u R' = sr_get u R) /\
  sr_dict R' = sr_dict R ++ [(t, result0)].
Proof.
  intros t R R' H. unfold sr_create, sr_get in *. destruct (lookup t (sr_dict R)) eqn:El; [discriminate|].
  inversion H; subst. simpl. clear H. split; [|split; auto].
  - induction (sr_dict R) as [|[u b] l IH]; simpl in *; [rewrite Nat.eqb_refl; auto|]. destruct (Nat.eqb t u); [discriminate|auto].
  - intros v Hv. clear El. induction (sr_dict R) as [|[u b] l IH]; simpl in *.
    + destruct (Nat.eqb v t) eqn:E; auto. apply Nat.eqb_eq in E. contradiction.
    + destruct (Nat.eqb v u); auto.
Qed.

(** However many results are requested, there is one per test, in the order of
    the first requests; results[i] is the i-th. *)
Definition no_results := mkResults [] result0 false false.

Fixpoint firsts (seen ts : list nat) : list nat :=
  match ts with
  | [] => []
  | t :: ts => if in_dec Nat.eq_dec t seen then firsts seen ts else t :: firsts (t :: seen) ts
  end.

Lemma creates_keys ts : forall R seen, (forall t, In t seen <-> In t (map fst (sr_dict R))) ->
  map fst (sr_dict (sr_creates ts R)) = map fst (sr_dict R) ++ firsts seen ts.
Proof.
  induction ts as [|t ts IH]; intros R seen Hs; simpl; [rewrite app_nil_r; auto|].
  destruct (in_dec Nat.eq_dec t seen) as [i|n].
  - assert (X : sr_create t R = None).
    { apply C16_second_refused. apply Hs in i. apply in_map_iff in i as ([u r] & <- & i). exists r. auto. }
    rewrite X. apply IH; auto.
  - destruct (sr_create t R) as [R'|] eqn:E.
    + destruct (C16_create t R R' E) as (_ & _ & D). rewrite (IH R' (t :: seen)).
      * rewrite D, map_app. simpl. rewrite <- app_assoc. auto.
      * intros u. rewrite D, map_app, in_app_iff. simpl. rewrite Hs. intuition.
    + exfalso. apply n. apply Hs. apply C16_second_refused in E as (r & Hr). apply in_map_iff. exists (t, r). auto.
Qed.

Theorem C16_one_per_test : forall ts,
  map fst (sr_dict (sr_creates ts no_results)) = firsts [] ts /\ NoDup (firsts [] ts) /\
  (forall t, In t (firsts [] ts) <-> In t ts).
Proof.
  intros ts. split; [rewrite (creates_keys ts no_results []); [auto|simpl; tauto]|].
  assert (G : forall seen, NoDup (firsts seen ts) /\ forall t, In t (firsts seen ts) <-> In t ts /\ ~ In t seen).
  { induction ts as [|t ts IH]; intros seen; simpl; [split; [constructor|tauto]|].
    destruct (in_dec Nat.eq_dec t seen) as [i|n].
    - destruct (IH seen) as [A B]. split; auto. intros u. rewrite B. split; [tauto|]. intros [[->|H] H2]; tauto.
    - destruct (IH (t :: seen)) as [A B]. split.
      + constructor; auto. rewrite B. simpl. tauto.
      + intros u. simpl. rewrite B. simpl. destruct (Nat.eq_dec t u); [subst|]; tauto. }
  destruct (G []) as [A B]. split; auto. intros t. rewrite B. simpl. tauto.
Qed.

(** Changing one test's result (adding entries, marking it) changes what is
    found under that test only. *)
Theorem C16_results_are_separate : forall t u f R,
  lookup u (update t f (sr_dict R)) = (if Nat.eqb u t then option_map f (sr_get u R) else sr_get u R) /\
  map fst (update t f (sr_dict R)) = map fst (sr_dict R).
Proof.
  intros t u f R. unfold sr_get. induction (sr_dict R) as [|[v b] l [IH1 IH2]]; simpl; [destruct (Nat.eqb u t); auto|].
  destruct (Nat.eqb t v) eqn:E1; simpl; (split; [|rewrite ?IH2; auto]).
  - apply Nat.eqb_eq in E1. subst v. destruct (Nat.eqb u t); auto.
  - destruct (Nat.eqb u v) eqn:E2; [|apply IH1]. apply Nat.eqb_eq in E2. subst v. rewrite Nat.eqb_sym, E1. auto.
Qed.

(** results[i] with a number that is none of a result: negative ones are a ValueError (they do not count from the end), others an IndexError *)
Theorem C16_no_number : forall R i,
  (sr_item i R = ValueErr <-> (i < 0)%Z) /\ (sr_item i R = IndexErr <-> (Z.of_nat (length (sr_dict R)) <= i)%Z).
Proof.
  intros R i. unfold sr_item. destruct (Z.ltb_spec i 0).
  - split; split; intros H0; try discriminate; try reflexivity; lia.
  - assert (L : nth_error (map snd (sr_dict R)) (Z.to_nat i) = None <-> (Z.of_nat (length (sr_dict R)) <= i)%Z).
    { rewrite nth_error_None, map_length. lia. }
    destruct (nth_error (map snd (sr_dict R)) (Z.to_nat i)); split; split; intros H0; try discriminate; try lia; try reflexivity.
    + apply L in H0. discriminate.
    + apply L. reflexivity.
Qed.

Theorem C16_by_number : forall R i r,
  (i >= 0)%Z -> (sr_item i R = GotItem r <-> exists t, nth_error (sr_dict R) (Z.to_nat i) = Some (t, r)).
Proof.
  intros R i r Hi. unfold sr_item. destruct (i <? 0)%Z eqn:E; [apply Z.ltb_lt in E; lia|]. rewrite nth_error_map.
  destruct (nth_error (sr_dict R) (Z.to_nat i)) as [[t q]|]; simpl.
  - split; [intros H; inversion H; subst; eauto|intros (u & H); inversion H; subst; auto].
  - split; [discriminate|intros (u & H); discriminate].
Qed.

(** In a whole session no test has two results. *)
Theorem C16_in_a_session : forall E ts, NoDup (map fst (st_results (fst (run_session E ts)))).
Proof. intros E ts. apply (w_keys _ _ _ (session_records E ts)). Qed.

(** ** C59 *)

(** results.is_interrupted() looks at the tests' results only: an interruption
    between tests (here in a session_start hook) marks the session's global
    result, but is_interrupted() is false. *)
Definition env_intr : env :=
  mkEnv (fun h _ => match h with HSessionStart => PRaise KKeyboard false | _ => PDone end) (fun n => (KUser n, false)) [] false false 0 (fun _ _ => false).

Theorem C59_interrupted_refuted : exists E ts,
  let s := fst (run_session E ts) in
  In (EvRecord RGlobal RKInterrupt (Some (XFresh 0)) false) (session_trace E ts) /\
  r_interrupted (st_global s) = true /\
  results_interrupted (mkResults (st_results s) (st_global s) false false) = false.
Proof. exists env_intr, []. split; [in_dec|]. split; vm_compute; reflexivity. Qed.

(** It is true iff some test's result was given an interruption. *)
Theorem C59_interrupted_partial : forall E ts,
  let s := fst (run_session E ts) in
  results_interrupted (mkResults (st_results s) (st_global s) false false) = true <->
  exists t src f, In (EvRecord (RTest t) RKInterrupt src f) (session_trace E ts).
Proof.
  intros E ts s. pose proof (session_records E ts) as HW. unfold results_interrupted, iter_test_results. simpl.
  rewrite existsb_exists. split.
  - intros (r & Hr & Hi). apply in_map_iff in Hr as ([t r'] & Heq & Hr). simpl in Heq. subst r'.
    assert (Hl : lookup t (st_results s) = Some r) by (apply In_lookup; auto; apply (w_keys _ _ _ HW)).
    destruct (w_res _ _ _ HW t r Hl) as [_ Mi]. rewrite Hi in Mi.
    destruct (recorded (RTest t) RKInterrupt (st_trace (fst (run_session E ts)))) as [|[src f] l] eqn:E4; [discriminate|].
    exists t, src, f. apply recorded_In. unfold session_trace. rewrite E4. left. auto.
  - intros (t & src & f & H). pose proof (w_known _ _ _ HW _ _ _ _ H) as Hk. apply lookup_In in Hk as [r Hr].
    exists r. split; [apply in_map_iff; exists (t, r); split; auto; apply lookup_split; auto|].
    destruct (w_res _ _ _ HW t r Hr) as [_ ->]. apply recorded_In in H. unfold session_trace in H.
    destruct (recorded _ _ _); [destruct H|reflexivity].
Qed.

(** ** Non-vacuity *)

Definition r_ok := mkResult [] [] [] true true false.
Definition r_two := mkResult [mkEntry None false] [mkEntry None false] [mkEntry None false] true true false.
Definition ex_results := mkResults [(1, r_ok); (2, r_two)] (mkResult [] [] [] true false false) false false.

Example C14_case : results_success true (mkResults [(1, r_ok)] (mkResult [] [] [] true false false) true false) = true
  /\ results_success true (mkResults [(1, r_ok)] (mkResult [] [] [] true false false) true true) = false
  /\ results_success true ex_results = false.
Proof. repeat split. Qed.

Example C15_case : (forall t r, In (t, r) (sr_dict ex_results) -> r_interrupted r = false /\ (r_started r = true -> r_finished r = true \/ kinds r <> 0))
  /\ total ex_results = 3 /\ get_num_results ex_results = 2.
Proof. split; [|split; reflexivity]. intros t r [H|[H|[]]]; inversion H; subst; simpl; auto. Qed.

Example C16_case : map fst (sr_dict (sr_creates [4; 2; 4; 9; 2] no_results)) = [4; 2; 9] /\
  sr_item 2 (sr_creates [4; 2; 4; 9; 2] no_results) = GotItem result0.
Proof. split; reflexivity. Qed.

Example C59_case : exists t src f, In (EvRecord (RTest t) RKInterrupt src f) (session_trace env0 [t_interrupted]).
Proof. exists 5, (Some (XFresh 0)), false. in_dec. Qed.

Print Assumptions C14_success_iff.
Print Assumptions C14_one_bad_result.
Print Assumptions C15_every_test_counted_refuted.
Print Assumptions C15_counted_once_refuted.
Print Assumptions C15_counters_partial.
Print Assumptions C15_numbers_add_up_partial.
Print Assumptions C15_what_is_counted.
Print Assumptions C16_second_refused.
Print Assumptions C16_create.
Print Assumptions C16_one_per_test.
Print Assumptions C16_results_are_separate.
Print Assumptions C16_by_number.
Print Assumptions C16_in_a_session.
Print Assumptions C59_interrupted_refuted.
Print Assumptions C59_interrupted_partial.
Print Assumptions C16_no_number.
