(** C146: what notifications tell of a session agrees with its results. *)

From Coq Require Import List Bool Arith Lia Ascii String.
From Verif Require Import Str Core Results Loader LoaderProps Notify NotifyProps Told.
Import ListNotations.
Local Open Scope list_scope.

Lemma digits_digits n c : In c (digits n) -> 48 <= nat_of_ascii c <= 57.
Proof.
  unfold digits, lit. generalize (Nat.to_uint n). induction u; cbn [DecimalString.NilEmpty.string_of_uint list_ascii_of_string In]; intros H;
    try contradiction; (destruct H as [<-|H]; [cbn; lia|auto]).
Qed.

(** ** The summary is the text of the results without the angle brackets *)
Theorem C146_summary pdb R :
  t_summary (tell pdb R) =
  lit "Results: " ++ digits (get_num_successful R) ++ lit " successful, " ++ digits (get_num_errors R) ++ lit " errors, " ++
  digits (get_num_failures R) ++ lit " failures, " ++ digits (get_num_skipped true R) ++ lit " skips".
Proof.
  cbn [tell t_summary]. unfold results_repr.
  generalize (get_num_successful R), (get_num_errors R), (get_num_failures R), (get_num_skipped true R). intros a b c d.
  assert (K : forall k l x, ~ In k l -> replace1 k [] (l ++ x) = l ++ replace1 k [] x).
  { intros k l x N. unfold replace1. rewrite flat_map_app. f_equal. induction l as [|p l IH]; [reflexivity|]. cbn.
    destruct (Ascii.eqb_spec p k) as [->|_]; [destruct N; left; reflexivity|]. cbn. f_equal. apply IH. intros I. apply N. right. exact I. }
  assert (A : forall n, ~ In "<"%char (digits n)) by (intros n I; apply digits_digits in I; cbn in I; lia).
  assert (B : forall n, ~ In ">"%char (digits n)) by (intros n I; apply digits_digits in I; cbn in I; lia).
  assert (L : forall x, replace1 "<" [] (lit "<Results: " ++ x) = lit "Results: " ++ replace1 "<" [] x) by reflexivity.
  rewrite L. do 7 (rewrite (K "<"%char) by (apply A || (cbn; intuition discriminate))).
  change (replace1 "<" [] (lit " skips>")) with (lit " skips>").
  do 8 (rewrite (K ">"%char) by (apply B || (cbn; intuition discriminate))). reflexivity.
Qed.

Lemma digits_then n m x y : digits n ++ " "%char :: x = digits m ++ " "%char :: y -> n = m /\ x = y.
Proof.
  intros H. assert (K : forall a b, ~ In " "%char a -> ~ In " "%char b -> a ++ " "%char :: x = b ++ " "%char :: y -> a = b /\ x = y).
  { clear. induction a as [|p a IH]; destruct b as [|q b]; cbn; intros A B E.
    - injection E as E. auto.
    - injection E as <- _. destruct B. left. reflexivity.
    - injection E as -> _. destruct A. left. reflexivity.
    - injection E as -> E. apply IH in E as [-> ->]; auto. }
  apply K in H as [D ->]; [split; [apply digits_inj, D|reflexivity]| |]; intros I; apply digits_digits in I; cbn in I; lia.
Qed.

(** ... so it tells the four numbers: sessions of which the same is told have the same *)
Theorem C146_tells p q R R' : t_summary (tell p R) = t_summary (tell q R') ->
  get_num_successful R = get_num_successful R' /\ get_num_errors R = get_num_errors R' /\
  get_num_failures R = get_num_failures R' /\ get_num_skipped true R = get_num_skipped true R'.
Proof.
  rewrite !C146_summary. intros H. apply app_inv_head in H.
  apply digits_then in H as [A H]. injection H as H.
  apply digits_then in H as [B H]. injection H as H.
  apply digits_then in H as [C H]. injection H as H.
  apply digits_then in H as [D _]. auto.
Qed.

Lemma count_zero pred g R : Results.count pred g R = 0 <-> forall r, In r (if g then iter_all_results R else iter_test_results R) -> pred r = false.
Proof.
  unfold Results.count. generalize (if g then iter_all_results R else iter_test_results R). intros l. split.
  - intros H r I. destruct (pred r) eqn:P; [|reflexivity]. assert (K : In r (filter pred l)) by (apply filter_In; auto).
    destruct (filter pred l); [destruct K|discriminate].
  - intros H. induction l as [|a l IH]; [reflexivity|]. cbn. rewrite (H a (or_introl eq_refl)). apply IH. intros r I. apply H. right. exact I.
Qed.

Lemma bad_zero R : t_bad (tell false R) = 0 <-> forall r, In r (iter_all_results R) -> r_errors r = [] /\ r_failures r = [].
Proof.
  cbn [tell t_bad]. split.
  - intros H r I. assert (A : get_num_errors R = 0) by lia. assert (B : get_num_failures R = 0) by lia.
    pose proof (proj1 (count_zero is_error true R) A r I) as E. pose proof (proj1 (count_zero is_just_failure true R) B r I) as F.
    unfold is_just_failure, is_error, is_failure in *. destruct (r_errors r); [|discriminate]. destruct (r_failures r); [auto|discriminate].
  - intros H. assert (A : get_num_errors R = 0). { apply (proj2 (count_zero is_error true R)). intros r I. unfold is_error. rewrite (proj1 (H r I)). reflexivity. }
    assert (B : get_num_failures R = 0). { apply (proj2 (count_zero is_just_failure true R)). intros r I. unfold is_just_failure, is_failure. rewrite (proj2 (H r I)). reflexivity. }
    lia.
Qed.

Lemma success_all k R : results_success k R = true -> forall r, In r (iter_all_results R) -> is_success k r = true.
Proof.
  unfold results_success, iter_all_results. destruct (is_success k (sr_global R)) eqn:G; [|discriminate]. cbn.
  destruct (sr_children R && sr_worker_error R); [discriminate|]. intros F r I. apply in_app_or in I as [I|[<-|[]]]; [|exact G].
  revert r I. apply forallb_forall. exact F.
Qed.

(** ** Who is told that a session succeeded is told of no tests that did not, no errors and no failures; the
    field for success says the same as the text, except when a debugger is entered *)
Theorem C146_succeeded R :
  (t_result (tell false R) = lit "Succeeded" <-> t_success (tell false R) = true) /\
  (t_result (tell false R) = lit "Failed" <-> t_success (tell false R) = false) /\
  (t_success (tell false R) = true -> t_bad (tell false R) = 0 /\ get_num_errors R = 0 /\ get_num_failures R = 0 /\
     forall r, In r (iter_all_results R) -> r_interrupted r = false).
Proof.
  split; [|split].
  - cbn [tell t_result t_success]. destruct (results_success true R); [tauto|]. split; discriminate.
  - cbn [tell t_result t_success]. destruct (results_success true R); [|tauto]. split; discriminate.
  - cbn [t_success tell]. intros H. pose proof (success_all _ _ H) as S. assert (Z : t_bad (tell false R) = 0).
    { apply bad_zero. intros r I. specialize (S r I). unfold is_success, is_error, is_failure in S.
      destruct (r_errors r), (r_failures r); cbn in S; auto; discriminate. }
    split; [exact Z|]. cbn [tell t_bad] in Z. split; [lia|]. split; [lia|]. intros r I. specialize (S r I). unfold is_success in S.
    destruct (r_interrupted r); [|reflexivity]. rewrite orb_true_r in S. discriminate.
Qed.

(** ** ... and who is told of a failure is told of tests that did not succeed if everything ran, nothing was interrupted and no worker got lost *)
Theorem C146_failed R :
  (forall r, In r (iter_all_results R) -> r_started r = true /\ r_interrupted r = false) -> sr_worker_error R = false ->
  t_result (tell false R) = lit "Failed" -> 0 < t_bad (tell false R).
Proof.
  intros RAN W F. destruct (t_bad (tell false R)) eqn:Z; [|lia]. exfalso. pose proof (proj1 (bad_zero R) Z) as Z'. clear Z. rename Z' into Z.
  assert (K : forall r, In r (iter_all_results R) -> is_success true r = true).
  { intros r I. destruct (RAN r I) as [A B], (Z r I) as [C D]. unfold is_success, is_error, is_failure. rewrite A, B, C, D. cbn. destruct (is_skip r); reflexivity. }
  assert (S : results_success true R = true).
  { unfold results_success. rewrite (K (sr_global R)) by (apply in_or_app; right; left; reflexivity). rewrite W, andb_false_r. cbn.
    apply forallb_forall. intros r I. apply K. apply in_or_app. left. exact I. }
  cbn [tell t_result] in F. rewrite S in F. discriminate.
Qed.

Lemma split_count l : List.length (filter is_error l) + List.length (filter is_just_failure l) = List.length (filter (fun r => is_error r || is_failure r) l).
Proof.
  induction l as [|r l IH]; [reflexivity|]. cbn. unfold is_just_failure at 1. destruct (is_error r), (is_failure r); cbn; lia.
Qed.

(** ** The number of tests that did not succeed: every test with errors or failures once, however many it has of both,
    and one more if something went wrong outside of the tests *)
Theorem C146_number R :
  let troubled r := negb (Nat.eqb (List.length (r_errors r) + List.length (r_failures r)) 0) in
  t_bad (tell false R) = List.length (filter troubled (map snd (sr_dict R))) + (if troubled (sr_global R) then 1 else 0) /\
  t_bad (tell false R) <= S (t_total (tell false R)) /\
  (r_errors (sr_global R) = [] -> r_failures (sr_global R) = [] -> t_bad (tell false R) <= t_total (tell false R)).
Proof.
  cbv zeta. set (troubled := fun r => negb (Nat.eqb (List.length (r_errors r) + List.length (r_failures r)) 0)).
  assert (E : t_bad (tell false R) = List.length (filter troubled (map snd (sr_dict R))) + (if troubled (sr_global R) then 1 else 0)).
  { cbn [tell t_bad]. unfold get_num_errors, get_num_failures, Results.count. rewrite split_count. unfold iter_all_results, iter_test_results.
    rewrite (filter_ext _ troubled).
    - rewrite filter_app, app_length. f_equal. cbn. destruct (troubled (sr_global R)); reflexivity.
    - intros r. unfold troubled, is_error, is_failure. destruct (r_errors r), (r_failures r); reflexivity. }
  assert (L : List.length (filter troubled (map snd (sr_dict R))) <= t_total (tell false R)).
  { cbn [tell t_total]. unfold get_num_results. rewrite <- (map_length snd (sr_dict R)). clear. induction (map snd (sr_dict R)) as [|a l IH]; [cbn; lia|].
    cbn. destruct (troubled a); cbn; lia. }
  split; [exact E|]. rewrite E. split; [destruct (troubled (sr_global R)); lia|]. intros A B.
  assert (T : troubled (sr_global R) = false) by (unfold troubled; rewrite A, B; reflexivity). rewrite T. lia.
Qed.

(** ** What reaches the providers at the end of a session: the title says Succeeded or Failed as the results do, the text
    has the numbers of the results *)
Theorem C146_sent deliver render c id h dur others b depth R to_list :
  orderly deliver -> debugs c = false -> (forall m, render m <> None) -> plain h ->
  let z := session_of id h dur others b R in
  let s := mkState (results_success true R) 0 to_list [] in
  forall d, In d (sent (fst (session_end deliver render (fun m => m) depth c z s))) ->
    d_title d = lit "Slash Session on " ++ h ++ lit " has " ++ t_result (tell false R) /\
    (d_to d <> Email -> d_text d =
       (lit "Results: " ++ digits (get_num_successful R) ++ lit " successful, " ++ digits (get_num_errors R) ++ lit " errors, " ++
        digits (get_num_failures R) ++ lit " failures, " ++ digits (get_num_skipped true R) ++ lit " skips") ++ nl :: nl :: where_found z).
Proof.
  intros O D N P z s d I. destruct (C95_session_end deliver render c z depth s O D N P) as (new & E & _ & _ & F).
  rewrite E in I. cbn in I. destruct (F d I) as (T & B & _). split.
  - rewrite T. cbn [s ok bad tell t_result Nat.eqb]. rewrite andb_true_r. reflexivity.
  - intros X. rewrite (B X). f_equal. cbn [z session_of Notify.summary]. apply C146_summary.
Qed.

Definition ok_result : result := mkResult [] [] [] true true false.
Definition bad_result : result := mkResult [mkEntry None true; mkEntry None true] [mkEntry None true] [] true true false.
Definition skipped_result : result := mkResult [] [] [mkEntry None true] true true false.
Definition cut_result : result := mkResult [] [] [] true true true.

(** three tests, one of them with two errors and a failure; an error outside of tests *)
Definition ex_results : results := mkResults [(1, ok_result); (2, bad_result); (3, skipped_result)] bad_result false false.

Example ex_told : tell false ex_results = mkTold (lit "Failed") false (lit "Results: 1 successful, 2 errors, 0 failures, 1 skips") 3 2.
Proof. vm_compute. reflexivity. Qed.

Example ex_told_failed :
  (forall r, In r (iter_all_results ex_results) -> r_started r = true /\ r_interrupted r = false) /\ sr_worker_error ex_results = false /\
  t_result (tell false ex_results) = lit "Failed" /\ t_bad (tell false ex_results) = 2.
Proof.
  split; [|repeat split; vm_compute; reflexivity]. intros r I. cbn in I. repeat destruct I as [<-|I]; try contradiction; split; reflexivity.
Qed.

Example ex_told_succeeded : t_result (tell false (mkResults [(1, ok_result); (3, skipped_result)] ok_result false false)) = lit "Succeeded".
Proof. vm_compute. reflexivity. Qed.

Example ex_told_sent :
  let z := session_of (lit "id_0") (lit "h") 10 [] None ex_results in
  let s := mkState (results_success true ex_results) 0 [lit "qa@example.com"] [] in
  map (fun d => (d_to d, d_title d, match d_to d with Email => true | _ => str_eqb (d_text d) (lit "Results: 1 successful, 2 errors, 0 failures, 1 skips" ++ nl :: nl :: lit "Session ID: id_0") end))
      (sent (fst (session_end ex_deliver ex_render (fun m => m) 1 (ex_conf false) z s)))
  = map (fun n => (n, lit "Slash Session on h has Failed", true)) [Prowl; Email; Slack].
Proof. vm_compute. reflexivity. Qed.

(** ** Not so: that the number of tests that did not succeed is the number of tests that are no success (a test that was
    interrupted is none, and "0" may be told of a failed session) ... *)
Theorem C146_failed_refuted : exists R,
  t_result (tell false R) = lit "Failed" /\ t_bad (tell false R) = 0 /\ t_total (tell false R) = 2 /\
  List.length (filter (is_success true) (map snd (sr_dict R))) = 1.
Proof. exists (mkResults [(1, ok_result); (2, cut_result)] ok_result false false). vm_compute. auto. Qed.

(** ... that it is a number of tests: of a single test, which failed, two are told *)
Theorem C146_number_refuted : exists R, t_total (tell false R) = 1 /\ t_bad (tell false R) = 2.
Proof. exists (mkResults [(1, bad_result)] bad_result false false). vm_compute. auto. Qed.

(** ... that the numbers of the summary add up to that of the tests: a test that is skipped after an error is counted twice, one that
    was interrupted not at all *)
Theorem C146_sum_refuted : exists R R',
  get_num_successful R + get_num_errors R + get_num_failures R + get_num_skipped true R = S (get_num_results R) /\
  S (get_num_successful R' + get_num_errors R' + get_num_failures R' + get_num_skipped true R') = get_num_results R'.
Proof.
  exists (mkResults [(1, mkResult [mkEntry None true] [] [mkEntry None true] true true false)] ok_result false false),
         (mkResults [(1, ok_result); (2, cut_result)] ok_result false false). vm_compute. auto.
Qed.

Print Assumptions C146_summary.
Print Assumptions C146_tells.
Print Assumptions C146_succeeded.
Print Assumptions C146_failed.
Print Assumptions C146_number.
Print Assumptions C146_sent.
Print Assumptions C146_failed_refuted.
Print Assumptions C146_number_refuted.
Print Assumptions C146_sum_refuted.
