(** C08: success_only cleanups and the verdict of their scope (core/cleanup_manager.py:117-163). *)

From Coq Require Import List Bool Arith Lia.
From Verif Require Import Events Core CoreSpec SessionSim CleanupTrace CleanupProps ScopeWordProps Flags FlagsProps.
Import ListNotations.

(** ** C08 *)

(** A success_only cleanup of a scope that closes while a test runs is not called if an error, a failure or an interruption of that
    test was recorded before; of one that closes between tests, if any of any result was.  (What is missing: scopes that close
    after a test was announced and before its test_start, C08_module_refuted, and what is recorded while the scope closes,
    C08_closing_refuted.) *)
Theorem C08_skipped_partial : forall E ts p sid nm f i t cid req tgt crit r,
  session_trace E ts = p ++ EvPopBegin sid nm f i :: t ->
  In (EvAdd cid req tgt crit true r) (session_trace E ts) -> belongs cid sid (session_trace E ts) ->
  match place_of p with Running u => bad_on (RTest u) p | Idle => exists r, bad_on r p | Pending _ => False end ->
  ~ In (EvRun cid) (session_trace E ts).
Proof.
  intros E ts p sid nm f i t cid req tgt crit r Htr Ha Hb Hbad Hrun.
  pose proof (C03_flags E ts p sid nm f i t Htr) as F.
  assert (f = true) as -> by (destruct (place_of p); [apply (proj1 F Hbad)|contradiction|apply (proj2 (proj1 F) Hbad)]).
  assert (Hp : In (EvPopBegin sid nm true i) (session_trace E ts)) by (rewrite Htr; apply in_app_iff; right; left; reflexivity).
  pose proof (C03_excluded_never_run E ts cid req tgt crit true r sid nm true i Ha Hb Hp Hrun) as X.
  destruct i; [|discriminate]. subst crit.
  pose proof (session_accepted E ts) as Hacc. fold (session_trace E ts) in Hacc.
  apply in_split in Ha as (a & b & Hab). rewrite Hab in Hacc. destruct Hacc as [q Hacc].
  apply spec_run_split in Hacc as (q1 & _ & Hacc). cbn [spec_run spec_step andb] in Hacc. rewrite orb_true_r in Hacc. discriminate.
Qed.

(** and it is called if the test that runs has none, nor is interrupted, and the closing is not broken off *)
Theorem C08_called_partial : forall E ts p sid nm f i t cid req tgt crit r nm' u,
  session_trace E ts = p ++ EvPopBegin sid nm f i :: t -> In (EvPopEnd sid nm' true) (session_trace E ts) ->
  In (EvAdd cid req tgt crit true r) (session_trace E ts) -> belongs cid sid (session_trace E ts) ->
  place_of p = Running u -> ~ bad_on (RTest u) p -> In (EvRun cid) (session_trace E ts).
Proof.
  intros E ts p sid nm f i t cid req tgt crit r nm' u Htr He Ha Hb Hpl Hn.
  pose proof (C03_flags E ts p sid nm f i t Htr) as F. rewrite Hpl in F. destruct F as [F1 F2].
  assert (f = false) as -> by (destruct f; [exfalso; apply Hn, F1; reflexivity|reflexivity]).
  assert (i = false) as ->.
  { destruct i; [|reflexivity]. exfalso. destruct (proj1 F2 eq_refl) as (src & fa & I). apply Hn. exists RKInterrupt, src, fa. auto. }
  assert (Hp : In (EvPopBegin sid nm false false) (session_trace E ts)) by (rewrite Htr; apply in_app_iff; right; left; reflexivity).
  apply (C03_decision_table E ts cid req tgt crit true r sid nm false false nm' Ha Hb Hp He). exact Logic.I.
Qed.

(** The verdict is that of the moment at which the scope begins to close: a success_only cleanup is called after a newer cleanup
    of the same test has failed, and the test has an error. *)
Definition ex_closing : list test :=
  [ mkTest 1 (Some 1) 1 PDone 0 false
      (PAdd (SGiven (Some STest)) false true (PEmit 1 PDone) (PAdd SDefault false false (PRaise KAssertion false) PDone)) ].

Theorem C08_closing_refuted : exists E ts, C08_violated STest (session_trace E ts).
Proof.
  exists env0, ex_closing. exists 3, 0, (RTest 1), 1, RKFailure, (Some (XFresh 0)), false, true.
  split; [in_dec|]. split; [|split; [|split]].
  - apply (nth_before _ 8 16); [vm_compute; reflexivity|vm_compute; reflexivity|lia].
  - apply (nth_before _ 16 20); [vm_compute; reflexivity|vm_compute; reflexivity|lia].
  - auto.
  - in_dec.
Qed.

(** A failing test with a success_only cleanup, and a passing one: the first cleanup is not called, the second is. *)
Definition ex_verdict : list test :=
  [ mkTest 1 (Some 1) 1 PDone 0 false (PAdd (SGiven (Some STest)) false true (PEmit 1 PDone) (PRaise KAssertion false));
    mkTest 2 (Some 1) 1 PDone 0 false (PAdd (SGiven (Some STest)) false true (PEmit 2 PDone) PDone) ].
Example C08_case :
  (exists p t f i, session_trace env0 ex_verdict = p ++ EvPopBegin 3 STest f i :: t /\ place_of p = Running 1 /\ bad_on (RTest 1) p) /\
  (exists p t f i, session_trace env0 ex_verdict = p ++ EvPopBegin 4 STest f i :: t /\ place_of p = Running 2 /\ ~ bad_on (RTest 2) p) /\
  belongs 0 3 (session_trace env0 ex_verdict) /\ belongs 1 4 (session_trace env0 ex_verdict) /\
  ~ In (EvRun 0) (session_trace env0 ex_verdict) /\ In (EvRun 1) (session_trace env0 ex_verdict).
Proof.
  split; [|split; [|split; [|split; [|split]]]].
  - exists (firstn 13 (session_trace env0 ex_verdict)). do 3 eexists. split; [vm_compute; reflexivity|]. split; [vm_compute; reflexivity|].
    do 3 eexists. split; [in_dec|]. auto.
  - eexists (firstn 24 (session_trace env0 ex_verdict)). do 3 eexists. split; [vm_compute; reflexivity|]. split; [vm_compute; reflexivity|].
    enough (X : forall k src fa, In (EvRecord (RTest 2) k src fa) (firstn 24 (session_trace env0 ex_verdict)) -> False) by (intros (k & src & fa & I0 & _); exact (X k src fa I0)).
    vm_compute. intros k src fa I0. repeat (destruct I0 as [I0|I0]; [discriminate I0|]). exact I0.
  - left. do 4 eexists. in_dec.
  - left. do 4 eexists. in_dec.
  - vm_compute. intros I0. repeat (destruct I0 as [I0|I0]; [discriminate I0|]). exact I0.
  - in_dec.
Qed.

Print Assumptions C08_skipped_partial.
Print Assumptions C08_called_partial.
Print Assumptions C08_closing_refuted.
