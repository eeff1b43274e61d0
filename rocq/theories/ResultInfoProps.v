(** C133: what results tell: logs, durations, errors, their repr. *)

From Coq Require Import List Bool Arith ZArith Ascii String Lia.
From Verif Require Import Str Events Core Results ResultInfo.
Import ListNotations.

(** the last of the calls for which [f] gives something gave [v] *)
Definition last_of {A} (f : op -> option A) (l : list op) (v : A) : Prop :=
  exists l1 o l2, l = l1 ++ o :: l2 /\ f o = Some v /\ forall o', In o' l2 -> f o' = None.
Definition never {A} (f : op -> option A) (l : list op) : Prop := forall o, In o l -> f o = None.

Definition started_at (o : op) : option Z := match o with MarkStarted t => Some t | _ => None end.
Definition finished_at (o : op) : option Z := match o with MarkFinished t => Some t | _ => None end.
Definition log_set (o : op) : option (option str) := match o with SetLog p => Some p | _ => None end.
Definition extra (o : op) : list str := match o with AddExtra p => [p] | _ => [] end.

Lemma steps_snoc l o : steps (l ++ [o]) = step o (steps l).
Proof. unfold steps. rewrite fold_left_app. reflexivity. Qed.

Lemma last_snoc {A} (f : op -> option A) l o v :
  last_of f (l ++ [o]) v <-> match f o with Some w => v = w | None => last_of f l v end.
Proof.
  split.
  - intros (l1 & x & l2 & E & F & N). destruct l2 as [|y l2 _] using rev_ind.
    + apply app_inj_tail in E as [_ ->]. rewrite F. reflexivity.
    + rewrite app_comm_cons, app_assoc in E. apply app_inj_tail in E as [-> ->]. rewrite (N y) by (apply in_app_iff; cbn; auto).
      exists l1, x, l2. split; [reflexivity|]. split; [exact F|]. intros o' J. apply N, in_app_iff. auto.
  - destruct (f o) as [w|] eqn:F.
    + intros ->. exists l, o, []. repeat split; [exact F|]. intros o' [].
    + intros (l1 & x & l2 & -> & G & N). exists l1, x, (l2 ++ [o]). split; [rewrite <- app_assoc; reflexivity|]. split; [exact G|].
      intros o' J. apply in_app_iff in J as [J|[<-|[]]]; auto.
Qed.

Lemma never_snoc {A} (f : op -> option A) l o : never f (l ++ [o]) <-> f o = None /\ never f l.
Proof.
  unfold never. split.
  - intros H. split; [apply H, in_app_iff; cbn; auto|]. intros x J. apply H, in_app_iff. auto.
  - intros [H1 H2] x J. apply in_app_iff in J as [J|[<-|[]]]; auto.
Qed.

Lemma last_nil {A} (f : op -> option A) v : ~ last_of f [] v.
Proof. intros (l1 & o & l2 & E & _). destruct l1; discriminate. Qed.

(** a field that only some calls set *)
Lemma field {A} (get : info -> option A) (f : op -> option A) :
  get info0 = None -> (forall o i, get (step o i) = match f o with Some v => Some v | None => get i end) ->
  forall l, (forall v, get (steps l) = Some v <-> last_of f l v) /\ (get (steps l) = None <-> never f l).
Proof.
  intros Z0 S l. induction l as [|o l [IH1 IH2]] using rev_ind.
  - split; [intros v; cbn; rewrite Z0; split; [discriminate|intros H; destruct (last_nil _ _ H)]|].
    split; [intros _ o []|intros _; exact Z0].
  - rewrite steps_snoc, S. split.
    + intros v. rewrite last_snoc. destruct (f o); [split; congruence|apply IH1].
    + rewrite never_snoc. destruct (f o); [split; [discriminate|intros [? _]; discriminate]|]. rewrite IH2. intuition.
Qed.

(** *** C133 *)

(** whatever calls were made: the logs are the path set last, if it is not empty, then the additional ones in the order they were added;
    the directory is that of the path set last, and None if there is none *)
Theorem C133_logs dirname l :
  (forall p, last_of log_set l (Some p) ->
     get_log_paths (steps l) = (if str_eqb p [] then [] else [p]) ++ flat_map extra l /\ get_log_dir dirname (steps l) = Some (dirname p)) /\
  (never log_set l \/ last_of log_set l None ->
     get_log_paths (steps l) = flat_map extra l /\ get_log_dir dirname (steps l) = None).
Proof.
  assert (X : i_extra (steps l) = flat_map extra l).
  { induction l as [|o l IH] using rev_ind; [reflexivity|]. rewrite steps_snoc, flat_map_app. cbn [flat_map]. rewrite app_nil_r, <- IH.
    destruct o; cbn; rewrite ?app_nil_r; reflexivity. }
  assert (L : forall v, last_of log_set l v -> i_log (steps l) = v).
  { clear X. induction l as [|o l IH] using rev_ind; intros v H; [destruct (last_nil _ _ H)|]. apply last_snoc in H. rewrite steps_snoc.
    destruct o as [t|t|p|p]; cbn in *; try (apply IH; assumption). congruence. }
  assert (N : never log_set l -> i_log (steps l) = None).
  { clear. induction l as [|o l IH] using rev_ind; intros H; [reflexivity|]. apply never_snoc in H as [H1 H2]. rewrite steps_snoc.
    destruct o; cbn in *; try (apply IH; assumption). discriminate. }
  split.
  - intros p H. apply L in H. unfold get_log_paths, get_log_dir. rewrite H, X. split; [|reflexivity]. destruct p; reflexivity.
  - intros H. assert (E : i_log (steps l) = None) by (destruct H; auto). unfold get_log_paths, get_log_dir. rewrite E, X. auto.
Qed.
Print Assumptions C133_logs.

(** the duration is the time from the last start to the last end, and nothing if there was no start or no end *)
Theorem C133_duration l :
  (forall s e, last_of started_at l s -> last_of finished_at l e -> get_duration (steps l) = (e - s)%Z) /\
  (never started_at l \/ never finished_at l -> get_duration (steps l) = 0%Z).
Proof.
  destruct (field i_start started_at eq_refl (fun o i => ltac:(destruct o; reflexivity)) l) as [S1 S2].
  destruct (field i_end finished_at eq_refl (fun o i => ltac:(destruct o; reflexivity)) l) as [E1 E2].
  unfold get_duration. split.
  - intros s e Hs He. apply S1 in Hs. apply E1 in He. rewrite Hs, He. reflexivity.
  - intros [H|H]; [apply S2 in H; rewrite H; destruct (i_end (steps l)); reflexivity|]. apply E2 in H. rewrite H. reflexivity.
Qed.
Print Assumptions C133_duration.

(** the listings of errors and failures give each result that has any, once, in order, the global one last, with all of them; their
    numbers in the repr are those of these results, except that failures of results with errors are not counted as failures *)
Theorem C133_listings R :
  map fst (iter_all_errors R) = filter is_error (map snd (sr_dict R) ++ [sr_global R]) /\
  (forall r l, In (r, l) (iter_all_errors R) -> l = r_errors r) /\
  map fst (iter_all_failures R) = filter is_failure (map snd (sr_dict R) ++ [sr_global R]) /\
  (forall r l, In (r, l) (iter_all_failures R) -> l = r_failures r) /\
  (let '(_, e, f, _) := numbers R in e = List.length (iter_all_errors R) /\
     f + List.length (filter (fun r => is_error (fst r)) (iter_all_failures R)) = List.length (iter_all_failures R)).
Proof.
  assert (G : forall (get : result -> list entry) rs,
    map fst (flat_map (fun r => match get r with [] => [] | l => [(r, l)] end) rs) = filter (fun r => nonempty (get r)) rs /\
    forall r l, In (r, l) (flat_map (fun r => match get r with [] => [] | l => [(r, l)] end) rs) -> l = get r).
  { intros get rs. split.
    - induction rs as [|r rs IH]; [reflexivity|]. cbn [flat_map filter]. rewrite map_app, IH. destruct (get r); reflexivity.
    - intros r l J. apply in_flat_map in J as (x & _ & J). destruct (get x) eqn:E; [destruct J|]. destruct J as [J|[]]. inversion J; subst. auto. }
  unfold iter_all_errors, iter_all_failures, numbers, get_num_errors, get_num_failures, count, iter_all_results, iter_test_results.
  set (rs := map snd (sr_dict R) ++ [sr_global R]).
  destruct (G r_errors rs) as [G1 G2]. destruct (G r_failures rs) as [G3 G4].
  split; [exact G1|]. split; [exact G2|]. split; [exact G3|]. split; [exact G4|]. split.
  - change (filter is_error rs) with (filter (fun r => nonempty (r_errors r)) rs). rewrite <- G1. apply map_length.
  - clear. induction rs as [|r rs IH]; [reflexivity|]. cbn [filter flat_map]. rewrite filter_app, !app_length, <- IH. unfold is_just_failure, is_failure.
    destruct (r_failures r); cbn [nonempty andb app filter List.length fst]; [reflexivity|]. destruct (is_error r); cbn [negb List.length]; lia.
Qed.
Print Assumptions C133_listings.

(** the repr of a result: 'success' never stands beside 'error', 'failure', 'skip' or 'interrupted', and every word says what it means *)
Theorem C133_repr r :
  NoDup (words r) /\
  (In (lit "success") (words r) <-> is_success false r = true) /\ (In (lit "error") (words r) <-> r_errors r <> []) /\
  (In (lit "failure") (words r) <-> r_failures r <> []) /\ (In (lit "skip") (words r) <-> r_skips r <> []) /\
  (In (lit "finished") (words r) <-> r_finished r = true) /\ (In (lit "interrupted") (words r) <-> r_interrupted r = true) /\
  (In (lit "success") (words r) -> forall w, In w (words r) -> w = lit "success" \/ w = lit "finished").
Proof.
  destruct r as [e f s st fi i]. unfold words, is_success, is_error, is_failure, is_skip. cbn [r_errors r_failures r_skips r_started r_finished r_interrupted].
  destruct e as [|e0 e], f as [|f0 f], s as [|s0 s], st, fi, i; cbn;
    (split; [repeat constructor; cbn; intuition discriminate|]);
    repeat split; try congruence; try (intros; intuition (try discriminate; subst; auto; try congruence)).
Qed.
Print Assumptions C133_repr.

(** *** Cases *)

Definition calls : list op :=
  [AddExtra (lit "a"); MarkStarted 10; SetLog (Some (lit "x")); AddExtra (lit "b"); SetLog (Some (lit "logs/1")); MarkFinished 14].

Example ex_logs :
  last_of log_set calls (Some (lit "logs/1")) /\ last_of started_at calls 10%Z /\ last_of finished_at calls 14%Z /\
  get_log_paths (steps calls) = [lit "logs/1"; lit "a"; lit "b"] /\ get_duration (steps calls) = 4%Z.
Proof.
  split; [exists [AddExtra (lit "a"); MarkStarted 10; SetLog (Some (lit "x")); AddExtra (lit "b")], (SetLog (Some (lit "logs/1"))), [MarkFinished 14]
         |split; [exists [AddExtra (lit "a")], (MarkStarted 10), [SetLog (Some (lit "x")); AddExtra (lit "b"); SetLog (Some (lit "logs/1")); MarkFinished 14]
         |split; [exists [AddExtra (lit "a"); MarkStarted 10; SetLog (Some (lit "x")); AddExtra (lit "b"); SetLog (Some (lit "logs/1"))], (MarkFinished 14), []
         |split; reflexivity]]];
    (split; [reflexivity|]; split; [reflexivity|]; cbn; intros o' H; intuition (subst; auto)).
Qed.

(** *** Stronger expectations that fail *)

(** a duration can be negative: the times are those of the wall clock, which can be set back *)
Theorem C133_negative_refuted : exists s e, (get_duration (steps [MarkStarted s; MarkFinished e]) < 0)%Z.
Proof. exists 10%Z, 7%Z. reflexivity. Qed.
Print Assumptions C133_negative_refuted.

(** a result that ran for some time but did not end has no duration *)
Theorem C133_running_refuted : exists s p, get_duration (steps [MarkStarted s; SetLog p]) = 0%Z /\ i_start (steps [MarkStarted s; SetLog p]) = Some s.
Proof. exists 10%Z, None. split; reflexivity. Qed.
Print Assumptions C133_running_refuted.

(** The numbers in the repr against the length: no result is counted for two of successful, errors and failures, none is successful and skipped;
    only the global result is not part of the length *)
Theorem C133_numbers R :
  let '(s, e, f, k) := numbers R in
  s <= results_len R /\ s + e + f <= S (results_len R) /\ s + k <= S (results_len R).
Proof.
  unfold numbers, get_num_successful, get_num_errors, get_num_failures, get_num_skipped, count, results_len, iter_all_results, iter_test_results.
  rewrite <- (map_length snd (sr_dict R)). generalize (map snd (sr_dict R)) as rs. intros rs.
  assert (A : List.length (filter is_success_finished rs) + List.length (filter is_error rs) + List.length (filter is_just_failure rs) <= List.length rs /\
              List.length (filter is_success_finished rs) + List.length (filter is_skip rs) <= List.length rs).
  { clear. induction rs as [|r rs [IH1 IH2]]; [cbn; lia|]. cbn [filter List.length]. unfold is_success_finished, is_success, is_just_failure in *.
    destruct (is_error r), (is_failure r), (is_skip r), (r_interrupted r), (r_started r), (r_finished r); cbn [andb orb negb List.length]; lia. }
  assert (B : List.length (filter is_error [sr_global R]) + List.length (filter is_just_failure [sr_global R]) <= 1 /\ List.length (filter is_skip [sr_global R]) <= 1).
  { clear. cbn [filter]. unfold is_just_failure. destruct (is_error _), (is_failure _), (is_skip _); cbn; lia. }
  assert (Q : forall p, List.length (filter p (rs ++ [sr_global R])) = List.length (filter p rs) + List.length (filter p [sr_global R])).
  { intros p. rewrite filter_app, app_length. reflexivity. }
  cbv iota. rewrite !Q. lia.
Qed.
Print Assumptions C133_numbers.

(** a test that is skipped after an error counts twice, so the four numbers can be more than there are results *)
Theorem C133_sum_refuted : exists R, let '(s, e, f, k) := numbers R in s + e + f + k > S (results_len R).
Proof.
  exists (mkResults [(1, mkResult [mkEntry None true] [] [mkEntry None true] true true false); (2, mkResult [mkEntry None true] [] [mkEntry None true] true true false)] result0 false false).
  vm_compute. lia.
Qed.
Print Assumptions C133_sum_refuted.
