(** Cleanups: properties C01, C02, C03, C06 for every session.

    [session_trace E ts] is the sequence of observable events of a whole
    session running the tests [ts]; [E] holds the hook handlers, the registered
    skip types and the options.  Vocabulary: CoreSpec.v. *)

From Coq Require Import List Bool Arith PeanoNat.
From Verif Require Import Events Core CoreSpec SessionSim CleanupTrace.
Import ListNotations.

Definition session_trace (E : env) (ts : list test) : list event := st_trace (fst (run_session E ts)).

Lemma count_one (l : list nat) c : NoDup l -> In c l -> count_occ Nat.eq_dec l c = 1.
Proof. intros Hn Hi. apply (proj1 (NoDup_count_occ' Nat.eq_dec l)); auto. Qed.

(** ** C01 *)

(** A registration of a scope that is closed without failure or interruption
    (and whose closing no exception broke off) runs exactly once. *)
Theorem C01_runs_exactly_once : forall E ts cid req tgt crit succ r sid nm nm',
  In (EvAdd cid req tgt crit succ r) (session_trace E ts) ->
  belongs cid sid (session_trace E ts) ->
  In (EvPopBegin sid nm false false) (session_trace E ts) ->
  In (EvPopEnd sid nm' true) (session_trace E ts) ->
  count_occ Nat.eq_dec (runs (session_trace E ts)) cid = 1.
Proof.
  intros E ts cid req tgt crit succ r sid nm nm' Ha Hb Hp He.
  apply count_one; [apply acc_nodup, session_accepted|].
  apply (proj2 (acc_must _ _ _ _ _ _ _ _ _ _ _ _ (session_accepted E ts) Ha Hb Hp He)). reflexivity.
Qed.

(** Last in, first out, including cleanups registered by running cleanups: if
    [b] is registered after [a] on the same scope and before [a] runs, then [b]
    runs before [a]. *)
Theorem C01_last_in_first_out : forall E ts a b sid ra ta ca sa xa rb tb cb sb xb,
  belongs a sid (session_trace E ts) -> belongs b sid (session_trace E ts) ->
  before (EvAdd a ra ta ca sa xa) (EvAdd b rb tb cb sb xb) (session_trace E ts) ->
  before (EvAdd b rb tb cb sb xb) (EvRun a) (session_trace E ts) ->
  In (EvRun b) (session_trace E ts) ->
  before (EvRun b) (EvRun a) (session_trace E ts).
Proof. intros E ts. intros. eapply acc_lifo; eauto. apply session_accepted. Qed.

(** ** C02 *)
Theorem C02_never_twice : forall E ts, NoDup (runs (session_trace E ts)).
Proof. intros. apply acc_nodup, session_accepted. Qed.

(** ** C03 *)

(** Exactly the cleanups prescribed by the table run at the end of a scope
    (unless an exception broke off its closing); [must_run] is the table. *)
Theorem C03_decision_table : forall E ts cid req tgt crit succ r sid nm fail intr nm',
  In (EvAdd cid req tgt crit succ r) (session_trace E ts) ->
  belongs cid sid (session_trace E ts) ->
  In (EvPopBegin sid nm fail intr) (session_trace E ts) ->
  In (EvPopEnd sid nm' true) (session_trace E ts) ->
  (In (EvRun cid) (session_trace E ts) <->
   (if intr then crit = true else if fail then succ = false else True)).
Proof.
  intros E ts cid req tgt crit succ r sid nm fail intr nm' Ha Hb Hp He.
  rewrite <- runs_In, (acc_must _ _ _ _ _ _ _ _ _ _ _ _ (session_accepted E ts) Ha Hb Hp He).
  unfold must_run. destruct intr, fail, crit, succ; simpl; split; auto; discriminate.
Qed.

(** Even when an exception broke off the closing of the scope, a cleanup that
    the table excludes does not run. *)
Theorem C03_excluded_never_run : forall E ts cid req tgt crit succ r sid nm fail intr,
  In (EvAdd cid req tgt crit succ r) (session_trace E ts) ->
  belongs cid sid (session_trace E ts) ->
  In (EvPopBegin sid nm fail intr) (session_trace E ts) ->
  In (EvRun cid) (session_trace E ts) ->
  (if intr then crit = true else if fail then succ = false else True).
Proof.
  intros E ts cid req tgt crit succ r sid nm fail intr Ha Hb Hp Hr.
  pose proof (acc_excluded _ _ _ _ _ _ _ _ _ _ _ (session_accepted E ts) Ha Hb Hp Hr) as H.
  unfold must_run in H. destruct intr, fail, crit, succ; auto; discriminate.
Qed.

(** ** C06 *)

(** Where a registration goes: the innermost open scope of the given name;
    without a name the innermost open scope, or none if no scope is open. *)
Theorem C06_goes_to_the_named_scope : forall E ts p cid req tgt crit succ r t,
  session_trace E ts = p ++ EvAdd cid req tgt crit succ r :: t ->
  match req with
  | None => tgt = option_map fst (hd_error (open_scopes p))
  | Some n => tgt = innermost n (open_scopes p) /\ tgt <> None
  end.
Proof.
  intros E ts p cid req tgt crit succ r t H. eapply acc_target. unfold session_trace in H. rewrite <- H. apply session_accepted.
Qed.

(** A cleanup runs only while the scope it belongs to is being closed. *)
Theorem C06_runs_only_at_the_end_of_its_scope : forall E ts p cid t sid,
  session_trace E ts = p ++ EvRun cid :: t ->
  belongs cid sid (session_trace E ts) ->
  (exists nm f i, In (EvPopBegin sid nm f i) p) /\ (forall nm ok, ~ In (EvPopEnd sid nm ok) p).
Proof.
  intros E ts p cid t sid H Hb. pose proof (session_accepted E ts) as Ha. unfold session_trace in *.
  rewrite H in Ha, Hb. apply (acc_run_when p cid t sid Ha Hb).
Qed.

(** Every cleanup that runs was registered and belongs to a scope. *)
Theorem C06_every_run_was_registered : forall E ts cid,
  In (EvRun cid) (session_trace E ts) ->
  (exists req tgt crit succ r, In (EvAdd cid req tgt crit succ r) (session_trace E ts)) /\
  exists sid, belongs cid sid (session_trace E ts).
Proof. intros E ts cid H. apply acc_registered; auto. apply session_accepted. Qed.

(** ** Non-vacuity *)

(** an environment without hook handlers *)
Definition env0 : env := mkEnv (fun _ _ => PDone) (fun n => (KUser n, false)) [] false false 0 (fun _ _ => false).

(** one test: cleanup 0 (plain), 1 (registers 2 while running; raises), a
    session cleanup 3 *)
Definition ex_test : test :=
  mkTest 7 (Some 1) 1 PDone 0 false
    (PAdd SDefault false false (PEmit 10 PDone)
    (PAdd SDefault false false (PAdd SDefault false true (PEmit 12 PDone) (PRaise (KUser 5) false))
    (PAdd (SGiven (Some SSession)) true false (PEmit 13 PDone) PDone))).

Example ex_trace : runs (session_trace env0 [ex_test]) = [1; 3; 0; 2].
Proof. vm_compute. reflexivity. Qed.

Ltac in_dec := vm_compute; repeat (first [left; reflexivity | right]).

Example C01_hypotheses_met :
  (exists req tgt crit succ r, In (EvAdd 3 req tgt crit succ r) (session_trace env0 [ex_test])) /\
  belongs 3 3 (session_trace env0 [ex_test]) /\
  In (EvPopBegin 3 STest false false) (session_trace env0 [ex_test]) /\
  In (EvPopEnd 3 STest true) (session_trace env0 [ex_test]).
Proof.
  split; [|split; [|split]].
  - do 5 eexists. in_dec.
  - left. do 4 eexists. in_dec.
  - in_dec.
  - in_dec.
Qed.

Print Assumptions C01_runs_exactly_once.
Print Assumptions C01_last_in_first_out.
Print Assumptions C02_never_twice.
Print Assumptions C03_decision_table.
Print Assumptions C03_excluded_never_run.
Print Assumptions C06_goes_to_the_named_scope.
Print Assumptions C06_runs_only_at_the_end_of_its_scope.
Print Assumptions C06_every_run_was_registered.
