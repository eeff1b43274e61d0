(** C06: where a cleanup registered without a scope is accepted, and where it is refused
    (core/cleanup_manager.py:36-43, 45-75; the handlers of test_end run inside
    forbid_implicit_scoping_context, runner.py:178-182). *)

From Coq Require Import List Bool Arith.
From Verif Require Import Events Core CleanupProps Implicit.
Import ListNotations.

(** Along every session, a registration without a scope is accepted only while the handlers of test_end are not
    running; it is refused only while they run, or because it is both critical and success_only. *)
Theorem C06_implicit : forall E ts p t,
  (forall cid tgt c s r, session_trace E ts = p ++ EvAdd cid None tgt c s r :: t -> in_test_end p = false) /\
  (forall k, session_trace E ts = p ++ EvReject None k :: t ->
     k = KAssertion \/ (k = KCannotAdd /\ in_test_end p = true)).
Proof.
  intros E ts p t. destruct (R_session E ts) as [G _].
  split; intros; exact (G p _ t H).
Qed.
Print Assumptions C06_implicit.

(** A test registers a cleanup, and so does a handler of test_end, which catches the refusal. *)
Definition exi_env : env :=
  mkEnv (fun h _ => match h with
                    | HTestEnd => PCatch [TException] (PEmit 5 (PAdd SDefault false false PDone PDone)) PDone
                    | _ => PDone end) (fun n => (KUser n, false)) [] false false 0 (fun _ _ => false).
Definition exi_test : test := mkTest 7 (Some 1) 1 PDone 0 false (PAdd SDefault false false (PEmit 10 PDone) PDone).

Example C06_implicit_case :
  exists p t q u,
    session_trace exi_env [exi_test] = p ++ EvAdd 0 None (Some 3) false false (RTest 7) :: t /\ in_test_end p = false /\
    session_trace exi_env [exi_test] = q ++ EvReject None KCannotAdd :: u /\ in_test_end q = true.
Proof.
  exists (firstn 10 (session_trace exi_env [exi_test])), (skipn 11 (session_trace exi_env [exi_test])),
    (firstn 20 (session_trace exi_env [exi_test])), (skipn 21 (session_trace exi_env [exi_test])).
  vm_compute. repeat split.
Qed.
