(** Vocabulary for the runner's properties.  Independent of the model. *)

From Coq Require Import List Bool Arith PeanoNat.
From Verif Require Import Events CoreSpec.
Import ListNotations.

(** the hooks announcing the outcome of an executed test *)
Definition is_summary (h : hook) : bool :=
  match h with HTestSuccess | HTestFailure | HTestSkip | HTestError => true | _ => false end.

(** was the result of test [t] given something of kind [k]? *)
Definition got (t : nat) (k : rkind) (p : list event) : bool :=
  match recorded (RTest t) k p with [] => false | _ => true end.

(** the hook that has to fire for a started test, from what its result was given *)
Definition prescribed_summary (t : nat) (p : list event) : hook :=
  if got t RKFailure p && negb (got t RKError p) then HTestFailure
  else if got t RKSkip p then HTestSkip
  else if got t RKError p || got t RKInterrupt p then HTestError
  else HTestSuccess.

(** tests reported as started, in order *)
Definition report_starts (tr : list event) : list nat :=
  flat_map (fun e => match e with EvReportStart t => [t] | _ => [] end) tr.

(** test_start / test_end firings *)
Definition is_bound (e : event) : bool :=
  match e with EvHook HTestStart _ | EvHook HTestEnd _ => true | _ => false end.

(** summary hook firings for test [t] *)
Definition is_summary_of (t : nat) (e : event) : bool :=
  match e with EvHook h u => is_summary h && Nat.eqb t u | _ => false end.

(** an exception that is not an Exception (interruption, exit) was handled *)
Definition unusual (l : list event) : Prop :=
  exists x k f r, In (EvHandle x k f r) l /\ isinstance k TException = false.

(** the result of [t] was given a fatal error or failure *)
Definition fatal_on (t : nat) (p : list event) : Prop :=
  exists src, In (EvRecord (RTest t) RKError src true) p \/ In (EvRecord (RTest t) RKFailure src true) p.

(** some result was given an error, a failure or an interruption *)
Definition unsuccessful (p : list event) : Prop :=
  exists r k src f, In (EvRecord r k src f) p /\ (k = RKError \/ k = RKFailure \/ k = RKInterrupt).

(** a test ended after which no further test may start *)
Definition must_stop (stop : bool) (tr : list event) : Prop :=
  exists p t q, tr = p ++ EvReportEnd t :: q /\ (fatal_on t p \/ (stop = true /\ unsuccessful p)).

(** File reports as brackets: the open file after a word, [None] if the word is
    not a prefix of a balanced sequence. *)
Fixpoint files (open : option nat) (tr : list event) : option (option nat) :=
  match tr with
  | [] => Some open
  | EvFileStart f :: tr => match open with None => files (Some f) tr | Some _ => None end
  | EvFileEnd f :: tr => match open with
                         | Some g => if Nat.eqb f g then files None tr else None
                         | None => None end
  | _ :: tr => files open tr
  end.
