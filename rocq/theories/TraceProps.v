(** C97: an error names the code that caused it. *)

From Coq Require Import List Bool Arith ZArith Ascii String Lia.
From Verif Require Import Str Trace.
Import ListNotations.
Local Open Scope list_scope.

(** code of the user: of a module outside of the package slash, or of no module *)
Definition of_user (f : frame) : Prop := forall m, f_module f = Some m -> starts (lit "slash.") m = false.

(** not of slash.assertions, and not a function that is left out *)
Definition visible (f : frame) : Prop := and_below_muted f = false /\ is_muted f = false.

Lemma str_eqb_true a b : str_eqb a b = true -> a = b.
Proof.
  revert b. induction a as [|x a IH]; intros [|y b]; cbn [str_eqb]; intros H; try discriminate; [reflexivity|].
  apply andb_true_iff in H as [H1 H2]. apply Ascii.eqb_eq in H1. rewrite H1, (IH b H2). reflexivity.
Qed.

(** Code of the user is always shown, whatever its functions are called. *)
Theorem C97_user_shown f : of_user f -> visible f.
Proof.
  intros U. unfold visible, and_below_muted, is_muted, of_user in *. destruct (f_module f) as [m|]; [|split; reflexivity].
  specialize (U m eq_refl). split.
  - destruct (str_eqb m _) eqn:E; [|reflexivity]. apply str_eqb_true in E. subst m. discriminate U.
  - destruct (existsb _ _) eqn:E; [|reflexivity]. apply existsb_exists in E as (l & I & E). apply andb_true_iff in E as [E _].
    apply str_eqb_true in E. exfalso. assert (A : forallb (fun l => starts (lit "slash.") (fst l)) muted_locations = true) by reflexivity.
    rewrite forallb_forall in A. specialize (A l I). rewrite E in A. congruence.
Qed.

Lemma distill_app a b : (forall f, In f a -> and_below_muted f = false) -> distill_frames (a ++ b) = distill_frames a ++ distill_frames b.
Proof.
  induction a as [|x a IH]; intros H; [reflexivity|]. cbn [app distill_frames]. rewrite (H x (or_introl eq_refl)).
  rewrite IH by (intros f I; apply H; right; exact I). destruct (is_muted x); reflexivity.
Qed.

(** The frames of a distilled traceback are those up to the first one of
    slash.assertions, without the muted ones, in their order. *)
Theorem C97_distilled a b :
  (forall f, In f a -> and_below_muted f = false) -> (b = [] \/ exists x b', b = x :: b' /\ and_below_muted x = true) ->
  distill_frames (a ++ b) = filter (fun f => negb (is_muted f)) a.
Proof.
  intros H B. rewrite distill_app by exact H. assert (E : distill_frames b = []).
  { destruct B as [->|(x & b' & -> & X)]; [reflexivity|]. cbn [distill_frames]. rewrite X. reflexivity. }
  rewrite E, app_nil_r. clear B E. induction a as [|x a IH]; [reflexivity|]. cbn [distill_frames filter]. rewrite (H x (or_introl eq_refl)).
  rewrite IH by (intros f I; apply H; right; exact I). destruct (is_muted x); reflexivity.
Qed.

Lemma cause_app fs f : cause (fs ++ [f]) = Some f.
Proof. unfold cause. rewrite rev_app_distr. reflexivity. Qed.

Lemma distill_last a u : visible u -> (forall f, In f a -> and_below_muted f = false) -> cause (distill_frames (a ++ [u])) = Some u.
Proof.
  intros [V1 V2] H. rewrite distill_app by exact H. cbn [distill_frames]. rewrite V1, V2. apply cause_app.
Qed.

(** ** Exceptions *)

(** However deep the handling is, the traceback that is recorded for an exception
    is the whole stack at the place where it was raised: [outer] called the
    function [w], in which handling_exceptions stands, and [inner] are the calls
    from there on. *)
Theorem C97_whole_stack outer w inner : handled_traceback (outer ++ [w]) (w :: inner) = outer ++ w :: inner.
Proof.
  unfold handled_traceback, fake_tbs, create_traceback_proxy. rewrite !app_length. cbn [List.length].
  replace (List.length outer + 1 + 1 + 1 - (2 + 1)) with (List.length outer) by lia.
  rewrite <- !app_assoc, firstn_app, Nat.sub_diag, firstn_all. cbn [firstn]. rewrite app_nil_r.
  destruct outer; reflexivity.
Qed.

Lemma slice_front {A} (a b : list A) : slice_to (a ++ b) (Z.of_nat (List.length (a ++ b)) - Z.of_nat (List.length b)) = a.
Proof.
  unfold slice_to. rewrite app_length. replace (Z.of_nat (List.length a + List.length b) - Z.of_nat (List.length b))%Z with (Z.of_nat (List.length a)) by lia.
  destruct (Z.ltb_spec (Z.of_nat (List.length a)) 0); [lia|]. rewrite Nat2Z.id, firstn_app, Nat.sub_diag, firstn_all. cbn [firstn]. apply app_nil_r.
Qed.

(** The cause of an exception is the code of the user at the end of the stack: the
    innermost frame, or the frame that called an assertion of slash, or the frame
    so many calls above as the exception is marked with. *)
Theorem C97_cause outer w inner a u b correction :
  outer ++ w :: inner = a ++ u :: b -> of_user u -> (forall f, In f a -> and_below_muted f = false) ->
  List.length b = correction \/ (correction = 0 /\ exists x l, b = x :: l /\ and_below_muted x = true) ->
  cause (exception_frames (outer ++ [w]) (w :: inner) correction) = Some u.
Proof.
  intros E U H B. pose proof (C97_user_shown u U) as V. unfold exception_frames. rewrite C97_whole_stack, E. unfold distill_traceback.
  assert (G : distill_frames (a ++ [u]) = distill_frames a ++ [u]).
  { rewrite distill_app by exact H. cbn [distill_frames]. destruct V as [-> ->]. reflexivity. }
  destruct B as [B|(-> & x & l & -> & X)].
  - destruct correction as [|k]; cbn [Nat.eqb].
    + destruct b; [|discriminate]. rewrite G. apply cause_app.
    + rewrite <- B. replace (a ++ u :: b) with ((a ++ [u]) ++ b) by (rewrite <- app_assoc; reflexivity).
      rewrite slice_front, G. apply cause_app.
  - cbn [Nat.eqb]. replace (a ++ u :: x :: l) with ((a ++ [u]) ++ x :: l) by (rewrite <- app_assoc; reflexivity).
    rewrite distill_app.
    + cbn [distill_frames]. rewrite X, app_nil_r, G. apply cause_app.
    + intros f I. apply in_app_iff in I as [I|[<-|[]]]; [apply H; exact I|apply V].
Qed.

(** ** Errors that are added *)

Lemma error_stack st fs correction : st <> [] -> List.length fs = correction ->
  distill_call_stack (st ++ fs) (S (S (S correction))) = distill_frames (tl st).
Proof.
  intros N L. unfold distill_call_stack, get_sys_trace_frames. destruct st as [|x st]; [contradiction|]. cbn [app tl Nat.eqb].
  rewrite <- !app_assoc. cbn [app].
  set (g := own "slash.utils.traceback_utils" "distill_call_stack"). set (h := own "slash.utils.traceback_utils" "_get_sys_trace_frames").
  f_equal. etransitivity; [|apply (slice_front st (fs ++ [g; h]))]. apply (f_equal (slice_to _)).
  rewrite !app_length. cbn [List.length]. lia.
Qed.

(** An error added with slash.add_error records the frames of the code that called
    it: [st] is the stack there, and with a correction the frames so many calls
    above are the last ones.  The outermost frame is never recorded. *)
Theorem C97_added st fs : st <> [] -> add_error (st ++ fs) (List.length fs) = distill_frames (tl st).
Proof.
  intros N. unfold add_error, result_add_error, result_add_error', error_init. rewrite <- !app_assoc. cbn [app].
  replace (List.length fs + 1 + 1 + 1 + 4) with (S (S (S (List.length fs + 4)))) by lia. apply error_stack; [exact N|].
  rewrite app_length. reflexivity.
Qed.

(** so does one added with the method of a result *)
Theorem C97_added_result st fs : st <> [] -> result_add_error (st ++ fs) (List.length fs) = distill_frames (tl st).
Proof.
  intros N. unfold result_add_error, result_add_error', error_init. rewrite <- !app_assoc. cbn [app].
  replace (List.length fs + 1 + 1 + 4) with (S (S (S (List.length fs + 3)))) by lia. apply error_stack; [exact N|].
  rewrite app_length. reflexivity.
Qed.

Lemma added_cause x a u fs : visible u -> (forall f, In f a -> and_below_muted f = false) ->
  cause (add_error ((x :: a ++ [u]) ++ fs) (List.length fs)) = Some u /\
  cause (result_add_error ((x :: a ++ [u]) ++ fs) (List.length fs)) = Some u.
Proof.
  intros V H. rewrite C97_added, C97_added_result by discriminate. cbn [tl]. split; apply distill_last; assumption.
Qed.

(** Its cause is the line that called slash.add_error, if that is not the
    outermost frame. *)
Theorem C97_added_cause_partial x a u fs : of_user u -> (forall f, In f a -> and_below_muted f = false) ->
  cause (add_error ((x :: a ++ [u]) ++ fs) (List.length fs)) = Some u /\
  cause (result_add_error ((x :: a ++ [u]) ++ fs) (List.length fs)) = Some u.
Proof. intros U. apply added_cause. apply C97_user_shown. exact U. Qed.

(** ** Errors of parameters *)

(** A parameter without a value is reported at the line of the test file that
    calls slash.parametrize, in the message of the loader and in the error. *)
Theorem C97_parametrize outer w m u : of_user u -> (forall f, In f (outer ++ w :: m) -> and_below_muted f = false) ->
  extract_tb (w :: m ++ u :: parametrize_frames) no_value_correction = Some u /\
  cause (exception_frames (outer ++ [w]) (w :: m ++ u :: parametrize_frames) no_value_correction) = Some u.
Proof.
  intros V H. split.
  - unfold extract_tb, no_value_correction. change (w :: m ++ u :: parametrize_frames) with ((w :: m) ++ u :: parametrize_frames).
    rewrite rev_app_distr. cbn [rev parametrize_frames app]. reflexivity.
  - apply (C97_cause outer w (m ++ u :: parametrize_frames) (outer ++ w :: m) u parametrize_frames); auto.
    rewrite <- app_assoc. reflexivity.
Qed.

(** ** What does not hold *)

(** code of a user, at a line *)
Definition code (n : nat) : frame := mkFrame (Some (lit "test_file")) (lit "f") n.

Lemma code_of_user n : of_user (code n).
Proof. intros m E. injection E as <-. reflexivity. Qed.

(** An error added in the outermost frame (a script that opens a session itself)
    records no frame; reading its line is an AttributeError. *)
Theorem C97_added_cause_refuted : exists u, of_user u /\ cause (add_error [u] 0) = None /\ lineno (add_error [u] 0) = None.
Proof. exists (code 1). split; [apply code_of_user|]. split; vm_compute; reflexivity. Qed.

(** A correction that leaves no frame (here 2 of 2) does not leave out
    more frames but fewer: the frames of slash come back. *)
Theorem C97_correction_refuted : exists u v k, of_user u /\ of_user v /\ 2 <= k /\
  cause (add_error [u; v] k) = Some (own "slash.utils.traceback_utils" "distill_call_stack") /\
  add_error [u; v] 1 = [].
Proof. exists (code 1), (code 2), 2. split; [apply code_of_user|]. split; [apply code_of_user|]. split; [lia|]. split; vm_compute; reflexivity. Qed.

(** An error log that is captured as an error has its cause in slash, whatever
    code logged it. *)
Theorem C97_captured_refuted st library : (forall f, In f (st ++ library) -> and_below_muted f = false) -> st <> [] ->
  cause (emit st library) = Some (own "slash.log" "emit").
Proof.
  intros H N. unfold emit. destruct st as [|x st]; [contradiction|].
  pose proof (added_cause x (st ++ library) (own "slash.log" "emit") []) as G. cbn [List.length] in G. rewrite app_nil_r in G.
  cbn [app]. rewrite app_assoc. apply G; [split; vm_compute; reflexivity|]. intros f I. apply H. cbn [app]. right. exact I.
Qed.

(** With slash.parameters.iterate the line is one of slash. *)
Theorem C97_iterate_refuted w m u :
  extract_tb (w :: m ++ u :: iterate_frames) no_value_correction = Some (own "slash.core.fixtures.parameters" "decorator").
Proof.
  unfold extract_tb, no_value_correction. change (w :: m ++ u :: iterate_frames) with ((w :: m) ++ u :: iterate_frames).
  rewrite rev_app_distr. cbn [rev iterate_frames parametrize_frames app]. reflexivity.
Qed.

(** a test calls a function that asserts with slash.assert_equal: main and run are
    left out, the cause is the call of the assertion *)
Example C97_ex :
  let st := [code 1; own "slash.frontend.main" "main"; own "slash.runner" "run_tests"; own "slash.core.function_test" "run"] in
  let tb := [own "slash.core.function_test" "run"; code 10; code 20; mkFrame (Some (lit "slash.assertions")) (lit "assert_equal") 5; code 30] in
  exception_frames st tb 0 = [code 1; code 10; code 20] /\
  of_user (code 20) /\
  cause (exception_frames st tb 0) = Some (code 20) /\
  add_error (st ++ [code 10; code 20]) 0 = [code 10; code 20] /\
  add_error (st ++ [code 10; code 20]) 1 = [code 10].
Proof. repeat split; try (apply code_of_user); vm_compute; reflexivity. Qed.

Print Assumptions C97_user_shown.
Print Assumptions C97_distilled.
Print Assumptions C97_whole_stack.
Print Assumptions C97_cause.
Print Assumptions C97_added.
Print Assumptions C97_added_result.
Print Assumptions C97_added_cause_partial.
Print Assumptions C97_parametrize.
Print Assumptions C97_added_cause_refuted.
Print Assumptions C97_correction_refuted.
Print Assumptions C97_captured_refuted.
Print Assumptions C97_iterate_refuted.
