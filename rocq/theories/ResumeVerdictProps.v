(** C143: what is left to resume after a session, and its verdict.

    The rows that a session saves (Resume.v) and the results of the session
    (Results.v) taken together. *)

From Coq Require Import List Bool Arith Lia Permutation.
From Verif Require Import Events Core Results Resume.
Import ListNotations.

(** slash resume without options; slash/conf.py:121-130 *)
Definition no_switches : switches := mkSw false false false false false.

(** a test went well: it ran to its end, and nothing was recorded *)
Definition went_well (r : result) : Prop :=
  r_errors r = [] /\ r_failures r = [] /\ r_skips r = [] /\ r_interrupted r = false /\ r_started r = true /\ r_finished r = true.

Lemma saved_success r : saved_status r = Success <-> went_well r.
Proof.
  unfold saved_status, is_success_finished, is_success, is_error, is_failure, is_skip, went_well.
  destruct (r_errors r), (r_failures r), (r_skips r), (r_interrupted r), (r_started r), (r_finished r); cbn; split; intros H;
    try discriminate; try (repeat split; reflexivity); repeat (destruct H as [? H]; try discriminate); reflexivity.
Qed.

(** a row that slash resume takes *)
Lemma taken_spec l : filter_tests no_switches false l = Some (filter (fun t => negb (rstatus_eqb (w_status t) Success)) l).
Proof.
  unfold filter_tests. cbn. f_equal. apply filter_ext. intros t. destruct (w_status t); reflexivity.
Qed.

Lemma filter_nil {A} (p : A -> bool) l : filter p l = [] <-> forall x, In x l -> p x = false.
Proof.
  split.
  - intros H x I. destruct (p x) eqn:E; [|reflexivity]. assert (J : In x (filter p l)) by (apply filter_In; auto). rewrite H in J. destruct J.
  - induction l as [|y l IH]; [reflexivity|]. intros H. cbn. rewrite (H y (or_introl eq_refl)). apply IH. intros x I. apply H. right. exact I.
Qed.

Lemma set_nil acc l : fold_left set_insert l acc = [] <-> acc = [] /\ l = [].
Proof.
  revert acc. induction l as [|m l IH]; intros acc; cbn.
  - tauto.
  - rewrite IH. split; [|intros [_ H]; discriminate]. intros [H _]. unfold set_insert in H.
    destruct acc; cbn in H; [discriminate|]. destruct (_ || _) in H; discriminate.
Qed.

Lemma known_spec m results : result_of m results = None <-> forall m' r, In (m', r) results -> m_id m' <> m_id m.
Proof.
  unfold result_of. destruct (find _ results) as [[m' r]|] eqn:F; cbn.
  - apply find_some in F as [I E]. cbn in E. apply Nat.eqb_eq in E. split; [discriminate|]. intros H. destruct (H _ _ I E).
  - split; [|reflexivity]. intros _ m' r I E. pose proof (find_none _ _ F _ I) as Q. cbn in Q. rewrite E, Nat.eqb_refl in Q. discriminate.
Qed.

(** ** Nothing is left to resume exactly if every test has a result and every result went well *)
Theorem C143_nothing_left set_order results collected :
  (forall l, Permutation (set_order l) l) ->
  filter_tests no_switches false (saved_rows set_order results collected) = Some [] <->
  (forall m r, In (m, r) results -> went_well r) /\
  (forall m, In m collected -> exists m' r, In (m', r) results /\ m_id m' = m_id m).
Proof.
  intros P. rewrite taken_spec.
  assert (E : Some (filter (fun t => negb (rstatus_eqb (w_status t) Success)) (saved_rows set_order results collected)) = Some [] <->
              filter (fun t => negb (rstatus_eqb (w_status t) Success)) (saved_rows set_order results collected) = []) by (split; congruence).
  rewrite E, filter_nil. clear E. unfold saved_rows. split.
  - intros H. split.
    + intros m r I. specialize (H (row_of m (saved_status r))). cbn in H. apply saved_success.
      assert (J : negb (rstatus_eqb (saved_status r) Success) = false).
      { apply H. apply in_app_iff. left. apply in_map_iff. exists (m, r). auto. }
      destruct (saved_status r); try discriminate; reflexivity.
    + intros m I. destruct (result_of m results) as [r|] eqn:Q.
      * unfold result_of in Q. destruct (find _ results) as [[m' r']|] eqn:F; [|discriminate]. apply find_some in F as [J E]. cbn in E.
        apply Nat.eqb_eq in E. exists m', r'. auto.
      * exfalso. assert (W : without_results results collected <> []).
        { unfold without_results. intros Z. apply set_nil in Z as [_ Z].
          assert (J : In m (filter (fun m => match result_of m results with None => true | Some _ => false end) collected)) by (apply filter_In; rewrite Q; auto).
          rewrite Z in J. destruct J. }
        assert (W' : set_order (without_results results collected) <> []).
        { intros Z. specialize (P (without_results results collected)). rewrite Z in P. apply Permutation_nil in P. auto. }
        destruct (set_order (without_results results collected)) as [|x l] eqn:S; [congruence|].
        specialize (H (row_of x Planned)). cbn in H. assert (C : true = false); [|discriminate]. apply H.
        apply in_app_iff. right. left. reflexivity.
  - intros [A B] t I. apply in_app_iff in I as [I|I].
    + apply in_map_iff in I as ([m r] & <- & I). cbn. apply A, saved_success in I. rewrite I. reflexivity.
    + exfalso. assert (Z : without_results results collected = []).
      { unfold without_results. replace (filter _ collected) with (@nil md); [reflexivity|]. symmetry. apply filter_nil.
        intros m J. destruct (B m J) as (m' & r & K & Q). destruct (result_of m results) eqn:R; [reflexivity|].
        exfalso. apply (proj1 (known_spec m results) R m' r K Q). }
      rewrite Z in I. specialize (P []). apply Permutation_sym, Permutation_nil in P. rewrite P in I. destruct I.
Qed.

(** the results of the session are those of its tests *)
Definition session_of (R : results) (rs : list (md * result)) : Prop := sr_dict R = map (fun mr => (m_id (fst mr), snd mr)) rs.

(** ** After a session that was a success without skips there is nothing to resume; after one that was a success there are only skipped tests *)
Theorem C143_success set_order R rs collected :
  (forall l, Permutation (set_order l) l) -> session_of R rs ->
  (forall m r, In (m, r) rs -> r_finished r = true) ->
  (forall m, In m collected -> exists m' r, In (m', r) rs /\ m_id m' = m_id m) ->
  (results_success false R = true -> filter_tests no_switches false (saved_rows set_order rs collected) = Some []) /\
  (results_success true R = true -> exists l, filter_tests no_switches false (saved_rows set_order rs collected) = Some l /\
     Forall (fun t => w_status t = Skipped) l).
Proof.
  intros P S F C.
  assert (ALL : forall k, results_success k R = true -> forall m r, In (m, r) rs -> is_success k r = true).
  { intros k Q m r I. unfold results_success in Q. destruct (is_success k (sr_global R)); [|discriminate]. cbn in Q.
    destruct (sr_children R && sr_worker_error R); [discriminate|]. rewrite forallb_forall in Q. apply Q.
    unfold iter_test_results. rewrite S, map_map. apply in_map_iff. exists (m, r). auto. }
  split; intros Q.
  - apply C143_nothing_left; [exact P|]. split; [|exact C]. intros m r I. specialize (ALL false Q m r I). specialize (F m r I).
    unfold is_success, is_error, is_failure, is_skip in ALL. unfold went_well.
    destruct (r_errors r), (r_failures r), (r_interrupted r), (r_skips r), (r_started r); try discriminate; auto 6.
  - rewrite taken_spec. eexists. split; [reflexivity|]. apply Forall_forall. intros t I. apply filter_In in I as [I N].
    unfold saved_rows in I. apply in_app_iff in I as [I|I].
    + apply in_map_iff in I as ([m r] & <- & I). cbn in *. specialize (ALL true Q m r I). specialize (F m r I).
      unfold saved_status, is_success_finished, is_success, is_error, is_failure, is_skip in *. rewrite F in *.
      destruct (r_errors r), (r_failures r), (r_interrupted r), (r_skips r), (r_started r); cbn in *; try discriminate; reflexivity.
    + exfalso. assert (Z : without_results rs collected = []).
      { unfold without_results. replace (filter _ collected) with (@nil md); [reflexivity|]. symmetry. apply filter_nil.
        intros m J. destruct (C m J) as (m' & r & K & E). destruct (result_of m rs) eqn:X; [reflexivity|].
        exfalso. apply (proj1 (known_spec m rs) X m' r K E). }
      rewrite Z in I. specialize (P []). apply Permutation_sym, Permutation_nil in P. rewrite P in I. destruct I.
Qed.

(** ** After a session that was no success there is something to resume, unless what went wrong was outside of its tests *)
Theorem C143_failure set_order R rs collected :
  (forall l, Permutation (set_order l) l) -> session_of R rs -> results_success true R = false ->
  is_success true (sr_global R) = true -> sr_children R && sr_worker_error R = false ->
  exists t l, filter_tests no_switches false (saved_rows set_order rs collected) = Some (t :: l).
Proof.
  intros P S Q G W. rewrite taken_spec.
  assert (exists m r, In (m, r) rs /\ is_success true r = false) as (m & r & I & X).
  { unfold results_success in Q. rewrite G, W in Q. cbn in Q. unfold iter_test_results in Q. rewrite S, map_map in Q. clear - Q.
    induction rs as [|[m r] rs IH]; [discriminate|]. cbn in Q. destruct (is_success true r) eqn:E.
    - destruct (IH Q) as (m' & r' & I & X). exists m', r'. split; [right|]; auto.
    - exists m, r. split; [left; reflexivity|exact E]. }
  assert (J : In (row_of m (saved_status r)) (filter (fun t => negb (rstatus_eqb (w_status t) Success)) (saved_rows set_order rs collected))).
  { apply filter_In. split; [apply in_app_iff; left; apply in_map_iff; exists (m, r); auto|]. cbn.
    destruct (saved_status r) eqn:E; try reflexivity. exfalso. apply saved_success in E as (A & B & C & D & K & L).
    unfold is_success, is_error, is_failure, is_skip in X. rewrite A, B, C, D, K in X. discriminate. }
  destruct (filter _ _) as [|t l]; [destruct J|]. exists t, l. reflexivity.
Qed.

(** the metadata of an example *)
Definition ex_md := mkMd 1 10 20 [] 100.

(** an error outside of the tests fails the session, but then nothing can be resumed *)
Theorem C143_failure_refuted : exists R rs collected, session_of R rs /\ results_success true R = false /\ collected = map fst rs /\ rs <> [] /\
  filter_tests no_switches false (saved_rows (fun l => l) rs collected) = Some [].
Proof.
  exists (mkResults [(1, mkResult [] [] [] true true false)] (mkResult [mkEntry None false] [] [] true true false) false false),
    [(ex_md, mkResult [] [] [] true true false)], [ex_md]. repeat split; try reflexivity. discriminate.
Qed.

(** a session that was a success (exit code 0) has tests to resume: the skipped ones *)
Theorem C143_skipped_refuted : exists R rs collected t l, session_of R rs /\ results_success true R = true /\ collected = map fst rs /\
  filter_tests no_switches false (saved_rows (fun l => l) rs collected) = Some (t :: l).
Proof.
  exists (mkResults [(1, mkResult [] [] [mkEntry None false] true true false)] (mkResult [] [] [] true true false) false false),
    [(ex_md, mkResult [] [] [mkEntry None false] true true false)], [ex_md]. do 2 eexists. repeat split; reflexivity.
Qed.

(** a test with an error that was also skipped is saved as skipped: --failed-only does not run it again, nor does --no-skipped *)
Theorem C143_failed_only_refuted : exists R rs collected, session_of R rs /\ results_success true R = false /\ collected = map fst rs /\
  (exists m r, In (m, r) rs /\ r_errors r <> []) /\
  filter_tests (mkSw false true false false false) false (saved_rows (fun l => l) rs collected) = Some [] /\
  filter_tests (mkSw false false true false false) false (saved_rows (fun l => l) rs collected) = Some [].
Proof.
  exists (mkResults [(1, mkResult [mkEntry None false] [] [mkEntry None false] true true false)] (mkResult [] [] [] true true false) false false),
    [(ex_md, mkResult [mkEntry None false] [] [mkEntry None false] true true false)], [ex_md]. repeat split; try reflexivity.
  do 2 eexists. split; [left; reflexivity|discriminate].
Qed.

(** ** The hypotheses are met *)

Example C143_ex :
  let good := mkResult [] [] [] true true false in
  let bad := mkResult [] [mkEntry None false] [] true true false in
  let other := mkMd 2 10 21 [(5, 1)] 101 in
  session_of (mkResults [(1, good); (2, bad)] good false false) [(ex_md, good); (other, bad)] /\
  results_success true (mkResults [(1, good); (2, bad)] good false false) = false /\
  session_of (mkResults [(1, good); (2, good)] good false false) [(ex_md, good); (other, good)] /\
  results_success false (mkResults [(1, good); (2, good)] good false false) = true /\
  filter_tests no_switches false (saved_rows (fun l => l) [(ex_md, good); (other, bad)] [ex_md; other]) =
    Some [mkRow 10 21 (Some [(5, 1)]) Failed].
Proof. repeat split. Qed.

Print Assumptions C143_nothing_left.
Print Assumptions C143_success.
Print Assumptions C143_failure.
Print Assumptions C143_failure_refuted.
Print Assumptions C143_skipped_refuted.
Print Assumptions C143_failed_only_refuted.
