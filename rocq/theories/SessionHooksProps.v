(** C120: the hooks of a session (core/session.py:112-144; the runner between them, runner.py:22-82). *)

From Coq Require Import List Bool Arith.
From Verif Require Import Events Core CleanupProps SessionHooks.
Import ListNotations.

Local Ltac ends E ts := destruct (session_hooks E ts) as (w & cl & [QH QP QL QC _] & QA & QE & QN).

(** The hooks a session fires about itself, whatever their handlers, the tests, fixtures and cleanups do: they
    begin with before_session_start; each is fired at most once and only after the ones before it;
    session_end and after_session_end only if after_session_start was reached. *)
Theorem C120_order : forall E ts, In (hooks (session_trace E ts))
  [[HBeforeSessionStart]; [HBeforeSessionStart; HSessionInterrupt];
   [HBeforeSessionStart; HSessionStart]; [HBeforeSessionStart; HSessionStart; HSessionInterrupt];
   [HBeforeSessionStart; HSessionStart; HAfterSessionStart];
   [HBeforeSessionStart; HSessionStart; HAfterSessionStart; HSessionInterrupt];
   [HBeforeSessionStart; HSessionStart; HAfterSessionStart; HSessionEnd];
   [HBeforeSessionStart; HSessionStart; HAfterSessionStart; HSessionInterrupt; HSessionEnd];
   [HBeforeSessionStart; HSessionStart; HAfterSessionStart; HSessionEnd; HAfterSessionEnd];
   [HBeforeSessionStart; HSessionStart; HAfterSessionStart; HSessionInterrupt; HSessionEnd; HAfterSessionEnd]].
Proof. intros E ts. ends E ts. unfold session_trace. rewrite QH. exact QA. Qed.
Print Assumptions C120_order.

(** Files, tests and their hooks are seen only after after_session_start and before the other hooks of the session. *)
Theorem C120_tests_inside : forall E ts p e q, session_trace E ts = p ++ e :: q -> of_tests e = true ->
  hooks p = [HBeforeSessionStart; HSessionStart; HAfterSessionStart].
Proof. intros E ts. ends E ts. exact QP. Qed.
Print Assumptions C120_tests_inside.

(** A session that ends without an exception fired all of them, and session_interrupt not. *)
Theorem C120_complete : forall E ts, snd (run_session E ts) = ONormal ->
  hooks (session_trace E ts) = [HBeforeSessionStart; HSessionStart; HAfterSessionStart; HSessionEnd; HAfterSessionEnd].
Proof. intros E ts H. ends E ts. unfold session_trace. rewrite QH. auto. Qed.
Print Assumptions C120_complete.

(** Once after_session_start was fired, session_end is fired if and only if the end of the session's outermost
    scope let no exception escape; it is fired after that end. *)
Theorem C120_end : forall E ts, In HAfterSessionStart (hooks (session_trace E ts)) ->
  (In HSessionEnd (hooks (session_trace E ts)) <-> exists sid, In (EvPopEnd sid SSessionGlobal true) (session_trace E ts)).
Proof.
  intros E ts H. ends E ts. unfold session_trace in *. rewrite QH in *. rewrite (QE H). rewrite <- QC. reflexivity.
Qed.
Print Assumptions C120_end.

Theorem C120_end_after : forall E ts p t q, session_trace E ts = p ++ EvHook HSessionEnd t :: q ->
  exists sid, In (EvPopEnd sid SSessionGlobal true) p.
Proof. intros E ts. ends E ts. exact QL. Qed.
Print Assumptions C120_end_after.

(** ** Cases *)

(** an environment whose hook [h] does [p] *)
Definition exh_env (h : hook) (p : prog) : env :=
  mkEnv (fun k _ => match k, h with
                    | HBeforeSessionStart, HBeforeSessionStart | HSessionStart, HSessionStart
                    | HAfterSessionStart, HAfterSessionStart | HSessionEnd, HSessionEnd => p
                    | _, _ => PDone end) (fun n => (KUser n, false)) [] false false 0 (fun _ _ => false).
Definition exh_test (p : prog) : test := mkTest 7 (Some 1) 1 PDone 0 false p.

(** every word is some session's *)
Example C120_order_cases :
  hooks (session_trace (exh_env HBeforeSessionStart (PRaise (KUser 1) false)) [exh_test PDone]) = [HBeforeSessionStart] /\
  hooks (session_trace (exh_env HBeforeSessionStart (PRaise KKeyboard false)) [exh_test PDone]) =
    [HBeforeSessionStart; HSessionInterrupt] /\
  hooks (session_trace (exh_env HSessionStart (PRaise (KUser 1) false)) [exh_test PDone]) = [HBeforeSessionStart; HSessionStart] /\
  hooks (session_trace (exh_env HSessionStart (PRaise KKeyboard false)) [exh_test PDone]) =
    [HBeforeSessionStart; HSessionStart; HSessionInterrupt] /\
  hooks (session_trace (exh_env HAfterSessionStart (PRaise KKeyboard false)) [exh_test PDone]) =
    [HBeforeSessionStart; HSessionStart; HAfterSessionStart; HSessionInterrupt; HSessionEnd; HAfterSessionEnd] /\
  hooks (session_trace (exh_env HTestStart PDone) [exh_test (PRaise KKeyboard false)]) =
    [HBeforeSessionStart; HSessionStart; HAfterSessionStart; HSessionInterrupt; HSessionEnd; HAfterSessionEnd] /\
  hooks (session_trace (exh_env HSessionEnd (PRaise (KUser 1) false)) [exh_test (PRaise KKeyboard false)]) =
    [HBeforeSessionStart; HSessionStart; HAfterSessionStart; HSessionInterrupt; HSessionEnd].
Proof. repeat split; vm_compute; reflexivity. Qed.

(** a session of a test that fails *)
Example C120_complete_case :
  snd (run_session (exh_env HTestStart PDone) [exh_test (PRaise (KUser 1) false)]) = ONormal /\
  In (EvReportStart 7) (session_trace (exh_env HTestStart PDone) [exh_test (PRaise (KUser 1) false)]) /\
  In HAfterSessionStart (hooks (session_trace (exh_env HTestStart PDone) [exh_test (PRaise (KUser 1) false)])).
Proof. vm_compute. repeat split; auto 40. Qed.

(** ** Not so *)

(** A plugin told of the session's start need not be told of its end: a cleanup of the session registered by a handler
    of session_start that is interrupted (or skips) keeps session_end from being fired (core/session.py:136-143). *)
Theorem C120_end_refuted : exists E ts,
  In HAfterSessionStart (hooks (session_trace E ts)) /\ ~ In HSessionEnd (hooks (session_trace E ts)).
Proof.
  exists (exh_env HSessionStart (PAdd SDefault false false (PRaise KKeyboard false) PDone)), [exh_test PDone].
  vm_compute. split; [auto|]. intros [H|[H|[H|[]]]]; discriminate.
Qed.
Print Assumptions C120_end_refuted.

(** So does an exception of a handler of session_end with after_session_end. *)
Theorem C120_after_refuted : exists E ts,
  In HSessionEnd (hooks (session_trace E ts)) /\ ~ In HAfterSessionEnd (hooks (session_trace E ts)).
Proof.
  exists (exh_env HSessionEnd (PRaise (KUser 1) false)), [exh_test PDone].
  vm_compute. split; [auto 10|]. intros [H|[H|[H|[H|[]]]]]; discriminate.
Qed.
Print Assumptions C120_after_refuted.

(** session_start may have been fired without session_end ever being: an exception of one handler means the other
    handlers, called already, are not told of an end (core/session.py:124-125, 139). *)
Theorem C120_start_refuted : exists E ts,
  In HSessionStart (hooks (session_trace E ts)) /\ ~ In HSessionEnd (hooks (session_trace E ts)) /\
  exists sid, In (EvPopEnd sid SSessionGlobal true) (session_trace E ts).
Proof.
  exists (exh_env HSessionStart (PRaise (KUser 1) false)), [exh_test PDone].
  vm_compute. split; [auto|]. split; [intros [H|[H|[]]]; discriminate|]. exists 0. auto 20.
Qed.
Print Assumptions C120_start_refuted.

(** session_interrupt is fired for sessions whose session_start was not. *)
Theorem C120_interrupt_refuted : exists E ts,
  In HSessionInterrupt (hooks (session_trace E ts)) /\ ~ In HSessionStart (hooks (session_trace E ts)).
Proof.
  exists (exh_env HBeforeSessionStart (PRaise KKeyboard false)), [exh_test PDone].
  vm_compute. split; [auto|]. intros [H|[H|[]]]; discriminate.
Qed.
Print Assumptions C120_interrupt_refuted.
