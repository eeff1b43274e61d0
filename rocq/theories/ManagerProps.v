(** C100: the parent of a parallel session leaves nothing behind. *)

From Coq Require Import List Bool Arith Lia.
From Verif Require Import Manager.
Import ListNotations.

(** ** Traces grow, and an effect that raises is the last *)

Section Env.
Variable E : env.

(** what a computation adds to the trace: effects of which [P] holds (the trace
    before it is given), and if one raises it is the last one and the exception is
    the result; an interruption comes from an effect *)
Definition does (P : trace -> eff -> Prop) (m : M) : Prop :=
  forall t t' r, m t = (t', r) -> exists d, t' = d ++ t /\
    (forall a e b, d = a ++ e :: b -> P (b ++ t) e /\ forall x, fails E (b ++ t) e = Some x -> a = [] /\ r = Exn x) /\
    (r = Exn Interrupt -> exists e b, d = e :: b /\ fails E (b ++ t) e = Some Interrupt).

Lemma does_ret P : does P ret.
Proof.
  intros t t' r H. injection H as <- <-. exists []. split; [reflexivity|]. split; [intros [|? ?] ? ? ?; discriminate|discriminate].
Qed.

Lemma does_raise P x : x <> Interrupt -> does P (raise x).
Proof.
  intros N t t' r H. injection H as <- <-. exists []. split; [reflexivity|]. split; [intros [|? ?] ? ? ?; discriminate|intros H; injection H as H; contradiction].
Qed.

Lemma app_split {A} (d2 d1 a b : list A) e : d2 ++ d1 = a ++ e :: b ->
  (exists b', d2 = a ++ e :: b' /\ b = b' ++ d1) \/ (exists a', a = d2 ++ a' /\ d1 = a' ++ e :: b).
Proof.
  revert a. induction d2 as [|x d2 IH]; intros a H; cbn [app] in H.
  - right. exists a. split; [reflexivity|exact H].
  - destruct a as [|y a]; cbn [app] in H.
    + injection H as -> <-. left. exists d2. split; reflexivity.
    + injection H as -> H. destruct (IH a H) as [(b' & -> & ->)|(a' & -> & ->)]; [left; exists b'; split; reflexivity|right; exists a'; split; reflexivity].
Qed.

Lemma does_seq P a b : does P a -> does P b -> does P (seq a b).
Proof.
  intros A B t t' r H. unfold seq in H. destruct (a t) as [t1 r1] eqn:E1. destruct (A _ _ _ E1) as (d1 & -> & A1 & A2).
  destruct r1 as [|x|].
  - destruct (B _ _ _ H) as (d2 & -> & B1 & B2). exists (d2 ++ d1). split; [apply app_assoc|]. split.
    + intros u e v S. apply app_split in S as [(v' & S & ->)|(u' & -> & S)].
      * rewrite <- app_assoc. apply (B1 u e v' S).
      * destruct (A1 u' e v S) as [A3 A4]. split; [exact A3|]. intros x F. destruct (A4 x F) as [_ C]. discriminate.
    + intros R. destruct (B2 R) as (e & v & -> & F). exists e, (v ++ d1). split; [reflexivity|]. rewrite <- app_assoc. exact F.
  - injection H as <- <-. exists d1. split; [reflexivity|]. split; assumption.
  - injection H as <- <-. exists d1. split; [reflexivity|]. split; assumption.
Qed.

Lemma does_eff (P : trace -> eff -> Prop) e : (forall t, P t e) -> does P (eff_ E e).
Proof.
  intros Q t t' r H. unfold eff_ in H. injection H as <- <-. exists [e]. split; [reflexivity|]. split.
  - intros [|? [|? ?]] e' b S; try discriminate. injection S as <- <-. split; [apply Q|]. intros x F. cbn [app] in F. rewrite F. split; reflexivity.
  - intros R. exists e, []. split; [reflexivity|]. cbn [app]. destruct (fails E t e); [injection R as ->; reflexivity|discriminate].
Qed.

Lemma does_each {A} P (l : list A) f : (forall x, In x l -> does P (f x)) -> does P (each l f).
Proof.
  induction l as [|x l IH]; intros H; [apply does_ret|]. cbn [each]. apply does_seq; [apply H; left; reflexivity|].
  apply IH. intros y I. apply H. right. exact I.
Qed.

Lemma does_if P (f : trace -> bool) a b : does P a -> does P b -> does P (fun t => if f t then a t else b t).
Proof. intros A B t t' r H. destruct (f t); [apply (A _ _ _ H)|apply (B _ _ _ H)]. Qed.

Lemma does_when P f m : does P m -> does P (when f m).
Proof. intros A. apply (does_if P f m ret); [exact A|apply does_ret]. Qed.

(** an effect done only when something can be seen *)
Lemma does_eff_when (P : trace -> eff -> Prop) f e b : (forall t, f t = true -> P t e) -> does P b -> does P (fun t => if f t then eff_ E e t else b t).
Proof.
  intros Q B t t' r H. destruct (f t) eqn:F; [|apply (B _ _ _ H)]. unfold eff_ in H. injection H as <- <-. exists [e]. split; [reflexivity|]. split.
  - intros [|? [|? ?]] e' v S; try discriminate. injection S as <- <-. split; [apply Q; exact F|]. intros x G. cbn [app] in G. rewrite G. split; reflexivity.
  - intros R. exists e, []. split; [reflexivity|]. cbn [app]. destruct (fails E t e); [injection R as ->; reflexivity|discriminate].
Qed.

Lemma does_running P : does P (fun t => (t, Running)).
Proof. intros t t' r H. injection H as <- <-. exists []. split; [reflexivity|]. split; [intros [|? ?] ? ? ?; discriminate|discriminate]. Qed.

Lemma does_weaken (P Q : trace -> eff -> Prop) m : (forall t e, P t e -> Q t e) -> does P m -> does Q m.
Proof.
  intros H D t t' r X. destruct (D _ _ _ X) as (d & -> & A & B). exists d. split; [reflexivity|]. split; [|exact B].
  intros a e b S. destruct (A a e b S). split; [apply H|]; assumption.
Qed.

(** the process was started before: an independent view of [started] *)
Definition ran (t : trace) (i : nat) : Prop := exists a b, t = a ++ Popen i :: b /\ fails E b (Popen i) = None.

Lemma started_ran t i : started E t i = true -> ran t i.
Proof.
  induction t as [|e t IH]; [discriminate|]. cbn [started].
  assert (G : started E t i = true -> ran (e :: t) i) by (intros H; destruct (IH H) as (a & b & -> & F); exists (e :: a), b; split; [reflexivity|exact F]).
  destruct e as [j|j| | |j|j|c|j|b]; try exact G. destruct (Nat.eqb_spec i j) as [->|N]; [|exact G].
  destruct (fails E t (Popen j)) eqn:F; [discriminate|]. intros _. exists [], t. split; [reflexivity|exact F].
Qed.

(** ** Signals go only to processes that were started *)

Definition fine (t : trace) (e : eff) : Prop := match e with Term i | Kill i | Wait i => ran t i | _ => True end.

Lemma fine_kill_workers n : does fine (kill_workers E n).
Proof.
  apply does_each. intros i _. unfold worker_kill, when. apply (does_eff_when fine (fun t => started E t i) (Term i) ret); [|apply does_ret].
  intros t H. apply started_ran. exact H.
Qed.

Lemma fine_handle_error n : does fine (handle_error E n).
Proof.
  apply does_seq; [apply fine_kill_workers|]. apply does_seq; [apply does_eff; exact (fun _ => I)|].
  apply does_seq; [apply does_eff; exact (fun _ => I)|]. apply does_raise. discriminate.
Qed.

Lemma fine_timeout i : does fine (worker_timeout E i).
Proof.
  intros t t' r H. unfold worker_timeout in H. destruct (started E t i) eqn:S; [|apply (does_raise fine Attribute ltac:(discriminate) _ _ _ H)].
  unfold when in H. destruct (active E t i); [|apply (does_ret fine _ _ _ H)].
  pose proof (does_eff_when fine (fun t => started E t i) (Kill i) ret) as D. apply (D ltac:(intros u G; apply started_ran; exact G) (does_ret _) t).
  rewrite S. exact H.
Qed.

Lemma fine_check : does fine (check_timed_out E).
Proof.
  intros t. unfold check_timed_out. generalize (connected E t). intros l. apply does_each. intros i _. apply does_when.
  apply does_seq; [apply does_eff; exact (fun _ => I)|]. apply does_seq; [apply fine_timeout|]. apply does_eff. exact (fun _ => I).
Qed.

Lemma fine_body n fuel : does fine (body E n fuel).
Proof.
  apply does_seq; [apply does_each; intros i _; apply does_seq; apply does_eff; exact (fun _ => I)|]. apply does_seq.
  - induction fuel as [|f IH]; [apply does_running|]. cbn [wait_connect]. apply does_if; [|apply does_ret].
    apply does_seq; [apply does_when; apply fine_handle_error|]. apply does_seq; [apply does_eff; exact (fun _ => I)|exact IH].
  - induction fuel as [|f IH]; [apply does_running|]. cbn [main_loop]. apply does_if; [|apply does_ret].
    apply does_seq; [apply fine_check|]. apply does_seq; [apply does_when; apply fine_handle_error|].
    apply does_seq; [apply does_eff; exact (fun _ => I)|exact IH].
Qed.

Lemma fine_finish n : does fine (finish E n).
Proof.
  apply does_seq; [|repeat (apply does_seq; [apply does_eff; exact (fun _ => I)|]); apply does_eff; exact (fun _ => I)].
  apply does_each. intros i _. unfold worker_wait. apply does_eff_when; [intros t H; apply started_ran; exact H|apply does_raise; discriminate].
Qed.

Lemma fine_connect k : does fine (try_connect E k).
Proof.
  induction k as [|k IH]; [apply does_raise; discriminate|]. cbn [try_connect]. apply does_if; [apply does_ret|].
  apply does_seq; [apply does_eff; exact (fun _ => I)|exact IH].
Qed.

(** every effect of a trace *)
Definition all_of (P : trace -> eff -> Prop) (t : trace) : Prop := forall a e b, t = a ++ e :: b -> P b e.

Lemma all_of_app (P : trace -> eff -> Prop) (d t : trace) : (forall a e b, d = a ++ e :: b -> P (b ++ t) e) -> all_of P t -> all_of P (d ++ t).
Proof.
  intros D T a e b S. apply app_split in S as [(b' & -> & ->)|(a' & -> & S)]; [apply (D a e b' eq_refl)|apply (T a' e b S)].
Qed.

Lemma does_all (P : trace -> eff -> Prop) m t t' r : does P m -> m t = (t', r) -> all_of P t -> all_of P t'.
Proof.
  intros D H A. destruct (D _ _ _ H) as (d & -> & B & _). apply all_of_app; [|exact A]. intros a e b S. apply (B a e b S).
Qed.


(** ** The shape of a whole run *)

(** the except clause *)
Definition handled n (t2 : trace) (r2 : res) : trace * res := match r2 with Exn Interrupt => interrupted E n t2 | _ => (t2, r2) end.

Lemma start_cases n fuel t r : start E n fuel = (t, r) ->
  (exists x, try_connect E 200 [] = (t, x) /\ x = r /\ r <> Ok) \/
  exists t1 t2 r2 t3 r3, try_connect E 200 [] = (t1, Ok) /\ body E n fuel t1 = (t2, r2) /\ handled n t2 r2 = (t3, r3) /\
    ((r3 = Running /\ t = t3 /\ r = Running) \/
     (r3 <> Running /\ exists r4, finish E n t3 = (t, r4) /\ r = match r4 with Ok => r3 | _ => r4 end)).
Proof.
  unfold start, seq. destruct (try_connect E 200 []) as [t1 r1]. destruct r1; intros H;
    [right|left; exists (Exn e); injection H as <- <-; split; [reflexivity|split; [reflexivity|discriminate]]|
     left; exists Running; injection H as <- <-; split; [reflexivity|split; [reflexivity|discriminate]]].
  unfold protected in H. destruct (body E n fuel t1) as [t2 r2] eqn:E2.
  assert (H' : (let (t, r) := handled n t2 r2 in match r with Running => (t, Running) | _ => match finish E n t with (t, Ok) => (t, r) | x => x end end) = (t, r)).
  { unfold handled. destruct r2 as [|[]|]; exact H. }
  clear H. destruct (handled n t2 r2) as [t3 r3] eqn:E3. exists t1, t2, r2, t3, r3. split; [reflexivity|]. split; [exact E2|]. split; [exact E3|].
  destruct (finish E n t3) as [t4 r4]. destruct r3 as [|x|].
  - right. split; [discriminate|]. exists r4. destruct r4; injection H' as <- <-; split; reflexivity.
  - right. split; [discriminate|]. exists r4. destruct r4; injection H' as <- <-; split; reflexivity.
  - left. injection H' as <- <-. split; [reflexivity|split; reflexivity].
Qed.

Lemma fine_handled n t2 r2 t3 r3 : handled n t2 r2 = (t3, r3) -> all_of fine t2 -> all_of fine t3.
Proof.
  intros H A. destruct r2 as [|[]|]; try (injection H as <- _; exact A). cbn [handled] in H. unfold interrupted in H. unfold seq in H.
  destruct (eff_ E (Rpc SessionInterrupted) t2) as [t4 r4] eqn:E4.
  assert (A4 : all_of fine t4) by (apply (does_all fine (eff_ E (Rpc SessionInterrupted)) _ _ _ (does_eff fine (Rpc SessionInterrupted) (fun _ => I)) E4 A)).
  destruct r4; [|injection H as <- _; exact A4|injection H as <- _; exact A4].
  destruct (kill_workers E n t4) as [t5 r5] eqn:E5. pose proof (does_all fine (kill_workers E n) _ _ _ (fine_kill_workers n) E5 A4) as A5.
  destruct r5; injection H as <- _; exact A5.
Qed.

(** a signal is sent to, and a wait is done for, only a process whose start returned *)
Theorem C100_signals n fuel t r : start E n fuel = (t, r) ->
  forall a e b i, t = a ++ e :: b -> In e [Term i; Kill i; Wait i] -> exists c d, b = c ++ Popen i :: d /\ fails E d (Popen i) = None.
Proof.
  intros H. enough (A : all_of fine t).
  { intros a e b i S [<-|[<-|[<-|[]]]]; apply (A a _ b S). }
  assert (A0 : all_of fine []) by (intros [|? ?] ? ? ?; discriminate).
  destruct (start_cases _ _ _ _ H) as [(x & E1 & _)|(t1 & t2 & r2 & t3 & r3 & E1 & E2 & E3 & [(_ & -> & _)|(_ & r4 & E4 & _)])].
  - apply (does_all fine _ _ _ _ (fine_connect 200) E1 A0).
  - apply (fine_handled _ _ _ _ _ E3), (does_all fine _ _ _ _ (fine_body n fuel) E2), (does_all fine _ _ _ _ (fine_connect 200) E1 A0).
  - apply (does_all fine _ _ _ _ (fine_finish n) E4).
    apply (fine_handled _ _ _ _ _ E3), (does_all fine _ _ _ _ (fine_body n fuel) E2), (does_all fine _ _ _ _ (fine_connect 200) E1 A0).
Qed.

(** ** The processes: started once, in order, before anything else *)

Definition is_start (e : eff) : bool := match e with Popen _ => true | _ => false end.

Definition no_start (t : trace) (e : eff) : Prop := is_start e = false.

Lemma filter_none (d : trace) : (forall a e b, d = a ++ e :: b -> is_start e = false) -> filter is_start d = [].
Proof.
  induction d as [|e d IH]; intros H; [reflexivity|]. cbn [filter]. rewrite (H [] e d eq_refl). apply IH.
  intros a x b S. apply (H (e :: a) x b). rewrite S. reflexivity.
Qed.

Lemma no_start_filter m t t' r : does no_start m -> m t = (t', r) -> filter is_start t' = filter is_start t.
Proof.
  intros D H. destruct (D _ _ _ H) as (d & -> & A & _). rewrite filter_app, (filter_none d); [reflexivity|].
  intros a e b S. apply (A a e b S).
Qed.

Lemma ns_kill_workers n : does no_start (kill_workers E n).
Proof. apply does_each. intros i _. apply does_when, does_eff. reflexivity. Qed.

Lemma ns_handle_error n : does no_start (handle_error E n).
Proof.
  apply does_seq; [apply ns_kill_workers|]. do 2 (apply does_seq; [apply does_eff; reflexivity|]). apply does_raise. discriminate.
Qed.

Lemma ns_check : does no_start (check_timed_out E).
Proof.
  intros t. unfold check_timed_out. generalize (connected E t). intros l. apply does_each. intros i _. apply does_when.
  apply does_seq; [apply does_eff; reflexivity|]. apply does_seq; [|apply does_eff; reflexivity].
  apply does_if; [apply does_when, does_eff; reflexivity|apply does_raise; discriminate].
Qed.

Lemma ns_wait_connect n fuel : does no_start (wait_connect E n fuel).
Proof.
  induction fuel as [|f IH]; [apply does_running|]. cbn [wait_connect]. apply does_if; [|apply does_ret].
  apply does_seq; [apply does_when; apply ns_handle_error|]. apply does_seq; [apply does_eff; reflexivity|exact IH].
Qed.

Lemma ns_main_loop n fuel : does no_start (main_loop E n fuel).
Proof.
  induction fuel as [|f IH]; [apply does_running|]. cbn [main_loop]. apply does_if; [|apply does_ret].
  apply does_seq; [apply ns_check|]. apply does_seq; [apply does_when; apply ns_handle_error|].
  apply does_seq; [apply does_eff; reflexivity|exact IH].
Qed.

Lemma ns_finish n : does no_start (finish E n).
Proof.
  apply does_seq; [|repeat (apply does_seq; [apply does_eff; reflexivity|]); apply does_eff; reflexivity].
  apply does_each. intros i _. apply does_if; [apply does_eff; reflexivity|apply does_raise; discriminate].
Qed.

Lemma ns_connect k : does no_start (try_connect E k).
Proof.
  induction k as [|k IH]; [apply does_raise; discriminate|]. cbn [try_connect]. apply does_if; [apply does_ret|].
  apply does_seq; [apply does_eff; reflexivity|exact IH].
Qed.

Lemma ns_interrupted n : forall t t' r, interrupted E n t = (t', r) -> filter is_start t' = filter is_start t.
Proof.
  intros t t' r H. unfold interrupted, seq at 1 in H. destruct (eff_ E (Rpc SessionInterrupted) t) as [t4 r4] eqn:E4.
  assert (A4 : filter is_start t4 = filter is_start t) by (injection E4 as <- _; reflexivity).
  destruct r4; [|injection H as <- _; exact A4|injection H as <- _; exact A4].
  unfold seq in H. destruct (kill_workers E n t4) as [t5 r5] eqn:E5. rewrite <- A4.
  rewrite <- (no_start_filter _ _ _ _ (ns_kill_workers n) E5). destruct r5; injection H as <- _; reflexivity.
Qed.

(** the workers from number [k] on *)
Lemma starts_some m k t t' r : each (List.seq k m) (worker_start E) t = (t', r) ->
  exists j, j <= m /\ filter is_start t' = rev (map Popen (List.seq k j)) ++ filter is_start t /\ (r = Ok -> j = m).
Proof.
  revert k t. induction m as [|m IH]; intros k t H.
  - injection H as <- <-. exists 0. split; [lia|]. split; reflexivity.
  - cbn [List.seq each] in H. unfold seq at 1 in H. unfold worker_start at 1 in H. unfold seq at 1 in H. unfold eff_ at 1 in H.
    destruct (fails E t (Hook k)) as [x|].
    { injection H as <- <-. exists 0. split; [lia|]. split; [reflexivity|discriminate]. }
    unfold eff_ at 1 in H. destruct (fails E (Hook k :: t) (Popen k)) as [x|].
    { injection H as <- <-. exists 1. split; [lia|]. split; [reflexivity|discriminate]. }
    destruct (IH _ _ H) as (j & L & F & O). exists (S j). split; [lia|]. split; [|intros R; rewrite (O R); reflexivity].
    rewrite F. cbn [filter is_start List.seq map rev]. rewrite <- app_assoc. reflexivity.
Qed.

Lemma starts_body n fuel t t' r : body E n fuel t = (t', r) ->
  exists j, j <= n /\ filter is_start t' = rev (map Popen (List.seq 1 j)) ++ filter is_start t /\ (r = Ok -> j = n).
Proof.
  intros H. unfold body, seq at 1 in H. destruct (each (workers n) (worker_start E) t) as [t1 r1] eqn:E1.
  destruct (starts_some n 1 _ _ _ E1) as (j & L & F & O). exists j. split; [exact L|].
  destruct r1; [|injection H as <- <-; split; assumption|injection H as <- <-; split; assumption].
  split; [|intros _; apply O; reflexivity]. rewrite <- F. apply (no_start_filter (seq (wait_connect E n fuel) (main_loop E n fuel)) _ _ r); [|exact H].
  apply does_seq; [apply ns_wait_connect|apply ns_main_loop].
Qed.

(** the processes are started once each and in the order of their numbers *)
Theorem C100_started n fuel t r : start E n fuel = (t, r) ->
  exists j, j <= n /\ filter is_start t = rev (map Popen (List.seq 1 j)) /\ (r = Ok -> j = n).
Proof.
  intros H. destruct (start_cases _ _ _ _ H) as [(x & E1 & -> & N)|(t1 & t2 & r2 & t3 & r3 & E1 & E2 & E3 & H4)].
  - exists 0. split; [lia|]. split; [rewrite (no_start_filter _ _ _ _ (ns_connect 200) E1); reflexivity|]. intros R. contradiction.
  - destruct (starts_body _ _ _ _ _ E2) as (j & L & F & O). rewrite (no_start_filter _ _ _ _ (ns_connect 200) E1), app_nil_r in F.
    assert (F3 : filter is_start t3 = filter is_start t2) by (destruct r2 as [|[]|]; try (injection E3 as <- _; reflexivity); exact (ns_interrupted _ _ _ _ E3)).
    assert (O3 : r3 = Ok -> r2 = Ok).
    { intros ->. destruct r2 as [|[]|]; try discriminate; [reflexivity|]. cbn [handled] in E3. unfold interrupted, seq in E3.
      destruct (eff_ E (Rpc SessionInterrupted) t2) as [? []]; try discriminate. destruct (kill_workers E n t0) as [? []]; discriminate. }
    exists j. split; [exact L|]. destruct H4 as [(-> & -> & ->)|(N & r4 & E4 & ->)].
    + split; [rewrite F3; exact F|discriminate].
    + rewrite (no_start_filter _ _ _ _ (ns_finish n) E4), F3. split; [exact F|]. destruct r4; [intros R; apply O, O3; exact R|discriminate|discriminate].
Qed.

(** ** Reports of a worker that is down *)

(** [u] is an earlier moment of [t] *)
Definition before (u t : trace) : Prop := exists d, t = d ++ u.

Lemma before_trans a b c : before a b -> before b c -> before a c.
Proof. intros [d ->] [d' ->]. exists (d' ++ d). apply app_assoc. Qed.

Definition reported (t : trace) (e : eff) : Prop :=
  match e with Rpc (ClientFailure i) => exists u v, before u t /\ before v u /\ In i (connected E v) /\ silent E u i = true | _ => True end.

(** what is done from a given moment on *)
Definition does_from (P : trace -> eff -> Prop) (t0 : trace) (m : M) : Prop :=
  forall t t' r, before t0 t -> m t = (t', r) -> exists d, t' = d ++ t /\ forall a e b, d = a ++ e :: b -> P (b ++ t) e.

Lemma from_seq P t0 a b : does_from P t0 a -> does_from P t0 b -> does_from P t0 (seq a b).
Proof.
  intros A B t t' r T H. unfold seq in H. destruct (a t) as [t1 r1] eqn:E1. destruct (A _ _ _ T E1) as (d1 & -> & A1).
  destruct r1 as [|x|]; [|injection H as <- <-; exists d1; split; [reflexivity|exact A1]..].
  destruct (B _ _ _ (before_trans _ _ _ T (ex_intro _ d1 eq_refl)) H) as (d2 & -> & B1).
  exists (d2 ++ d1). split; [apply app_assoc|]. intros u e v S. apply app_split in S as [(v' & S & ->)|(u' & -> & S)].
  - rewrite <- app_assoc. apply (B1 u e v' S).
  - apply (A1 u' e v S).
Qed.

Lemma from_each {A} P t0 (l : list A) f : (forall x, In x l -> does_from P t0 (f x)) -> does_from P t0 (each l f).
Proof.
  induction l as [|x l IH]; intros H.
  - intros t t' r _ X. injection X as <- <-. exists []. split; [reflexivity|]. intros [|? ?] ? ? ?; discriminate.
  - cbn [each]. apply from_seq; [apply H; left; reflexivity|]. apply IH. intros y I. apply H. right. exact I.
Qed.

Lemma from_does P t0 m : does P m -> does_from P t0 m.
Proof. intros D t t' r _ H. destruct (D _ _ _ H) as (d & -> & A & _). exists d. split; [reflexivity|]. intros a e b S. apply (A a e b S). Qed.

Lemma rep_timeout i : does reported (worker_timeout E i).
Proof. apply does_if; [apply does_when, does_eff; exact (fun _ => I)|apply does_raise; discriminate]. Qed.

Lemma rep_check t t' r : check_timed_out E t = (t', r) -> exists d, t' = d ++ t /\ forall a e b, d = a ++ e :: b -> reported (b ++ t) e.
Proof.
  intros H. unfold check_timed_out in H. revert H. apply (from_each reported t); [|exists []; reflexivity].
  intros i I t0 t1 r1 B X. unfold when in X. destruct (silent E t0 i) eqn:S.
  - revert X. apply (from_seq reported t0); [|apply from_seq|exists []; reflexivity].
    + apply from_does, does_eff. exact (fun _ => Logic.I).
    + apply from_does, rep_timeout.
    + intros t2 t3 r3 B2 X. injection X as <- <-. exists [Rpc (ClientFailure i)]. split; [reflexivity|].
      intros [|y1 [|y2 y3]] e v S2; try discriminate. injection S2 as <- <-. exists t0, t. split; [exact B2|]. split; [exact B|]. split; [exact I|exact S].
  - injection X as <- <-. exists []. split; [reflexivity|]. intros [|? ?] ? ? ?; discriminate.
Qed.

Lemma rep_kill_workers n : does reported (kill_workers E n).
Proof. apply does_each. intros i _. apply does_when, does_eff. exact (fun _ => I). Qed.

Lemma rep_handle_error n : does reported (handle_error E n).
Proof.
  apply does_seq; [apply rep_kill_workers|]. do 2 (apply does_seq; [apply does_eff; exact (fun _ => I)|]). apply does_raise. discriminate.
Qed.

Lemma rep_body n fuel t : does_from reported t (body E n fuel).
Proof.
  apply from_seq; [apply from_does, does_each; intros i _; apply does_seq; apply does_eff; exact (fun _ => I)|]. apply from_seq.
  - apply from_does. induction fuel as [|f IH]; [apply does_running|]. cbn [wait_connect]. apply does_if; [|apply does_ret].
    apply does_seq; [apply does_when; apply rep_handle_error|]. apply does_seq; [apply does_eff; exact (fun _ => I)|exact IH].
  - induction fuel as [|f IH]; [apply from_does, does_running|]. cbn [main_loop]. intros t1 t2 r2 B X. destruct (should_wait E t1).
    + revert B X. apply from_seq; [intros u u' w _ Y; apply (rep_check _ _ _ Y)|]. apply from_seq; [apply from_does, does_when, rep_handle_error|].
      apply from_seq; [apply from_does, does_eff; exact (fun _ => I)|exact IH].
    + apply (from_does _ t _ (does_ret reported) _ _ _ B X).
Qed.

Lemma rep_finish n : does reported (finish E n).
Proof.
  apply does_seq; [|repeat (apply does_seq; [apply does_eff; exact (fun _ => I)|]); apply does_eff; exact (fun _ => I)].
  apply does_each. intros i _. apply does_if; [apply does_eff; exact (fun _ => I)|apply does_raise; discriminate].
Qed.

Lemma rep_connect k : does reported (try_connect E k).
Proof.
  induction k as [|k IH]; [apply does_raise; discriminate|]. cbn [try_connect]. apply does_if; [apply does_ret|].
  apply does_seq; [apply does_eff; exact (fun _ => I)|exact IH].
Qed.

Lemma all_from P t0 m t t' r : does_from P t0 m -> before t0 t -> m t = (t', r) -> all_of P t -> all_of P t'.
Proof. intros D B H A. destruct (D _ _ _ B H) as (d & -> & X). apply all_of_app; assumption. Qed.

Lemma rep_handled n t2 r2 t3 r3 : handled n t2 r2 = (t3, r3) -> all_of reported t2 -> all_of reported t3.
Proof.
  intros H A. destruct r2 as [|[]|]; try (injection H as <- _; exact A). cbn [handled] in H. unfold interrupted in H. unfold seq in H.
  destruct (eff_ E (Rpc SessionInterrupted) t2) as [t4 r4] eqn:E4.
  assert (A4 : all_of reported t4) by (apply (does_all reported (eff_ E (Rpc SessionInterrupted)) _ _ _ (does_eff reported (Rpc SessionInterrupted) (fun _ => I)) E4 A)).
  destruct r4; [|injection H as <- _; exact A4|injection H as <- _; exact A4].
  destruct (kill_workers E n t4) as [t5 r5] eqn:E5. pose proof (does_all reported (kill_workers E n) _ _ _ (rep_kill_workers n) E5 A4) as A5.
  destruct r5; injection H as <- _; exact A5.
Qed.

(** a worker is reported as failed only when it was connected at one moment and had
    been silent for too long at a later one, both before the report *)
Theorem C100_reports n fuel t r : start E n fuel = (t, r) ->
  forall a i b, t = a ++ Rpc (ClientFailure i) :: b ->
  exists c d v, b = c ++ d ++ v /\ In i (connected E v) /\ silent E (d ++ v) i = true.
Proof.
  intros H. enough (A : all_of reported t).
  { intros a i b S. destruct (A a _ b S) as (u & v & [c ->] & [d ->] & X & Y). exists c, d, v. split; [reflexivity|]. split; assumption. }
  assert (A0 : all_of reported []) by (intros [|? ?] ? ? ?; discriminate).
  destruct (start_cases _ _ _ _ H) as [(x & E1 & _)|(t1 & t2 & r2 & t3 & r3 & E1 & E2 & E3 & H4)].
  - apply (does_all reported _ _ _ _ (rep_connect 200) E1 A0).
  - assert (A3 : all_of reported t3).
    { apply (rep_handled _ _ _ _ _ E3), (all_from _ t1 _ _ _ _ (rep_body n fuel t1) ltac:(exists []; reflexivity) E2), (does_all reported _ _ _ _ (rep_connect 200) E1 A0). }
    destruct H4 as [(_ & -> & _)|(_ & r4 & E4 & _)]; [exact A3|]. apply (does_all reported _ _ _ _ (rep_finish n) E4 A3).
Qed.

(** and in a round of checks that ends nobody is forgotten: for every worker that was
    connected there is a moment of the round at which it was looked at, and if it was
    silent then it was reported after it *)
Theorem C100_round t t' : check_timed_out E t = (t', Ok) ->
  forall i, In i (connected E t) -> exists c u d, t' = c ++ u /\ u = d ++ t /\ (silent E u i = true -> In (Rpc (ClientFailure i)) c).
Proof.
  unfold check_timed_out. intros H i. revert H. generalize (connected E t) as l. intros l. revert t. induction l as [|j l IH]; intros t H; [intros []|].
  cbn [each] in H. unfold seq at 1 in H.
  destruct (when (fun t => silent E t j) (seq (eff_ E LogErrors) (seq (worker_timeout E j) (eff_ E (Rpc (ClientFailure j))))) t) as [t1 r1] eqn:E1.
  destruct r1; try discriminate.
  assert (G : exists d, t' = d ++ t1).
  { assert (D : does (fun _ _ => True) (each l (fun i => when (fun t => silent E t i) (seq (eff_ E LogErrors) (seq (worker_timeout E i) (eff_ E (Rpc (ClientFailure i)))))))).
    { apply does_each. intros k _. apply does_when. apply does_seq; [apply does_eff; exact (fun _ => I)|]. apply does_seq; [|apply does_eff; exact (fun _ => I)].
      apply does_if; [apply does_when, does_eff; exact (fun _ => I)|apply does_raise; discriminate]. }
    destruct (D _ _ _ H) as (d & -> & _). exists d. reflexivity. }
  assert (F : exists d, t1 = d ++ t /\ (silent E t j = true -> In (Rpc (ClientFailure j)) d)).
  { unfold when at 1 in E1. destruct (silent E t j).
    - unfold seq at 1 in E1. unfold eff_ at 1 in E1. destruct (fails E t LogErrors); [discriminate|]. unfold seq in E1.
      destruct (worker_timeout E j (LogErrors :: t)) as [t2 r2] eqn:E2. destruct r2; try discriminate.
      assert (D : does (fun _ _ => True) (worker_timeout E j)) by (apply does_if; [apply does_when, does_eff; exact (fun _ => I)|apply does_raise; discriminate]).
      destruct (D _ _ _ E2) as (d & -> & _). injection E1 as <- _. exists (Rpc (ClientFailure j) :: d ++ [LogErrors]).
      split; [cbn [app]; rewrite <- app_assoc; reflexivity|]. intros _. left. reflexivity.
    - injection E1 as <-. exists []. split; [reflexivity|discriminate]. }
  destruct F as (d1 & -> & F). destruct G as (d2 & G). intros [->|I].
  - exists (d2 ++ d1), t, []. split; [rewrite G; apply app_assoc|]. split; [reflexivity|]. intros S. apply in_app_iff. right. apply F. exact S.
  - destruct (IH _ H I) as (c & u & d & X & -> & Y). exists c, (d ++ d1 ++ t), (d ++ d1). split; [exact X|]. split; [apply app_assoc|exact Y].
Qed.

(** ** Nothing is left behind *)

(** an effect of the finally clause *)
Definition of_finally (e : eff) : bool := match e with Wait _ | Rpc StopServe | Rpc StopKeepalive | Join _ => true | _ => false end.

(** what the finally clause does when every process was started: newest first *)
Definition ending (n : nat) : trace := Join true :: Join false :: Rpc StopKeepalive :: Rpc StopServe :: rev (map Wait (List.seq 1 n)).

(** the servers come up after [k] checks, and no start of a worker fails *)
Definition begins : Prop :=
  (exists k, k < 200 /\ up E (repeat Sleep k) = true /\ forall j, j < k -> fails E (repeat Sleep j) Sleep = None) /\
  (forall t i, fails E t (Hook i) = None /\ fails E t (Popen i) = None).

Lemma repeat_snoc j (l : trace) : repeat Sleep j ++ Sleep :: l = Sleep :: repeat Sleep j ++ l.
Proof. induction j as [|j IH]; [reflexivity|]. cbn [repeat app]. rewrite IH. reflexivity. Qed.

Lemma connects : begins -> exists k, try_connect E 200 [] = (repeat Sleep k, Ok) /\ forall j, j < k -> fails E (repeat Sleep j) Sleep = None.
Proof.
  intros [(k & L & U & F) _].
  assert (G : forall m j, j <= k -> k < m + j -> exists k', try_connect E m (repeat Sleep j) = (repeat Sleep k', Ok) /\ k' <= k).
  { induction m as [|m IH]; intros j L1 L2; [lia|]. cbn [try_connect]. destruct (up E (repeat Sleep j)) eqn:U2; [exists j; split; [reflexivity|exact L1]|].
    destruct (Nat.eq_dec j k) as [->|N]; [rewrite U in U2; discriminate|]. unfold seq, eff_. rewrite F by lia.
    apply (IH (S j)); lia. }
  destruct (G 200 0 ltac:(lia) ltac:(lia)) as (k' & X & L'). exists k'. split; [exact X|]. intros j J. apply F. lia.
Qed.

Lemma started_suffix d t i : (forall a e b, d = a ++ e :: b -> no_start (b ++ t) e) -> started E (d ++ t) i = started E t i.
Proof.
  induction d as [|e d IH]; intros H; [reflexivity|]. cbn [app started]. pose proof (H [] e d eq_refl) as X. unfold no_start in X.
  rewrite IH by (intros a x b S; apply (H (e :: a) x b); rewrite S; reflexivity). destruct e; try reflexivity. discriminate.
Qed.

Lemma all_started m k t : (forall t i, fails E t (Hook i) = None /\ fails E t (Popen i) = None) ->
  exists d, each (List.seq k m) (worker_start E) t = (d ++ t, Ok) /\ (forall i, In i (List.seq k m) -> started E (d ++ t) i = true) /\
    (forall i, started E t i = true -> started E (d ++ t) i = true) /\ forall e, In e d -> of_finally e = false.
Proof.
  intros F. revert k t. induction m as [|m IH]; intros k t.
  - exists []. split; [reflexivity|]. split; [intros i []|]. split; [intros i H; exact H|intros e []].
  - cbn [List.seq each]. unfold seq at 1. unfold worker_start at 1. unfold seq at 1, eff_ at 1. destruct (F t k) as [-> _]. unfold eff_ at 1.
    destruct (F (Hook k :: t) k) as [_ ->]. destruct (IH (S k) (Popen k :: Hook k :: t)) as (d & X & S & K & N).
    exists (d ++ [Popen k; Hook k]). rewrite <- app_assoc. split; [exact X|].
    assert (Me : started E (d ++ [Popen k; Hook k] ++ t) k = true).
    { apply K. cbn [started]. rewrite Nat.eqb_refl. destruct (F (Hook k :: t) k) as [_ ->]. reflexivity. }
    split; [intros i [<-|I]; [exact Me|apply S; exact I]|]. split.
    + intros i H. destruct (Nat.eq_dec i k) as [->|Ne]; [exact Me|]. apply K. cbn [started]. destruct (Nat.eqb_spec i k); [contradiction|exact H].
    + intros e I. apply in_app_iff in I as [I|[<-|[<-|[]]]]; [apply N; exact I|reflexivity|reflexivity].
Qed.

Definition calm (t : trace) (e : eff) : Prop := is_start e = false /\ of_finally e = false.

Lemma calm_handle_error n : does calm (handle_error E n).
Proof.
  apply does_seq; [apply does_each; intros i _; apply does_when, does_eff; split; reflexivity|].
  do 2 (apply does_seq; [apply does_eff; split; reflexivity|]). apply does_raise. discriminate.
Qed.

Lemma calm_check : does calm (check_timed_out E).
Proof.
  intros t. unfold check_timed_out. generalize (connected E t). intros l. apply does_each. intros i _. apply does_when.
  apply does_seq; [apply does_eff; split; reflexivity|]. apply does_seq; [|apply does_eff; split; reflexivity].
  apply does_if; [apply does_when, does_eff; split; reflexivity|apply does_raise; discriminate].
Qed.

Lemma calm_loops n fuel : does calm (seq (wait_connect E n fuel) (main_loop E n fuel)).
Proof.
  apply does_seq.
  - induction fuel as [|f IH]; [apply does_running|]. cbn [wait_connect]. apply does_if; [|apply does_ret].
    apply does_seq; [apply does_when; apply calm_handle_error|]. apply does_seq; [apply does_eff; split; reflexivity|exact IH].
  - induction fuel as [|f IH]; [apply does_running|]. cbn [main_loop]. apply does_if; [|apply does_ret].
    apply does_seq; [apply calm_check|]. apply does_seq; [apply does_when; apply calm_handle_error|].
    apply does_seq; [apply does_eff; split; reflexivity|exact IH].
Qed.

(** nothing of the finally clause fails *)
Definition ends : Prop := forall t e, of_finally e = true -> fails E t e = None.

Lemma waits l t : ends -> (forall i, In i l -> started E t i = true) -> each l (worker_wait E) t = (rev (map Wait l) ++ t, Ok).
Proof.
  intros F. revert t. induction l as [|i l IH]; intros t S; [reflexivity|]. cbn [each]. unfold seq, worker_wait at 1.
  rewrite (S i (or_introl eq_refl)). unfold eff_. rewrite (F t (Wait i) eq_refl). rewrite IH by (intros j J; apply S; right; exact J).
  cbn [map rev]. rewrite <- app_assoc. reflexivity.
Qed.

Lemma finishes n t : ends -> (forall i, In i (workers n) -> started E t i = true) -> finish E n t = (ending n ++ t, Ok).
Proof.
  intros F S. unfold finish, seq at 1. rewrite (waits _ _ F S). unfold seq, eff_. rewrite !F by reflexivity. reflexivity.
Qed.

Lemma kills l t : (forall t i, fails E t (Term i) = None) -> (forall i, In i l -> started E t i = true) ->
  each l (worker_kill E) t = (rev (map Term l) ++ t, Ok).
Proof.
  intros F. revert t. induction l as [|i l IH]; intros t S; [reflexivity|]. cbn [each]. unfold seq, worker_kill at 1, when at 1.
  rewrite (S i (or_introl eq_refl)). unfold eff_. rewrite F. rewrite IH by (intros j J; apply S; right; exact J).
  cbn [map rev]. rewrite <- app_assoc. reflexivity.
Qed.

(** the body, when every worker starts *)
Lemma body_shape n fuel t : (forall t i, fails E t (Hook i) = None /\ fails E t (Popen i) = None) ->
  exists d d' r, body E n fuel t = (d' ++ d ++ t, r) /\ (forall i, In i (workers n) -> started E (d' ++ d ++ t) i = true) /\
    (forall e, In e (d' ++ d) -> of_finally e = false) /\ each (workers n) (worker_start E) t = (d ++ t, Ok) /\
    seq (wait_connect E n fuel) (main_loop E n fuel) (d ++ t) = (d' ++ d ++ t, r).
Proof.
  intros F. destruct (all_started n 1 t F) as (d & X & S & _ & N). unfold body, seq at 1, workers. rewrite X.
  destruct (seq (wait_connect E n fuel) (main_loop E n fuel) (d ++ t)) as [t2 r2] eqn:E2.
  destruct (calm_loops n fuel _ _ _ E2) as (d2 & -> & A & _). exists d, d2, r2. split; [reflexivity|]. split; [|split; [|split; [reflexivity|exact E2]]].
  - intros i I. rewrite started_suffix; [apply S; exact I|]. intros a e b Y. apply (A a e b Y).
  - intros e I. apply in_app_iff in I as [I|I]; [|apply N; exact I]. apply in_split in I as (a & b & Y). apply (A a e b Y).
Qed.

Lemma repeat_none k e : In e (repeat Sleep k) -> of_finally e = false.
Proof. intros I. apply repeat_spec in I. subst e. reflexivity. Qed.

(** when the servers come up, no start of a worker fails and nothing of the finally
    clause fails, then however the session ends every process is waited for and both
    servers are stopped, as the last things done and not before *)
Theorem C100_clean_partial n fuel t r : begins -> ends -> start E n fuel = (t, r) -> r <> Running ->
  exists t', t = ending n ++ t' /\ forall e, In e t' -> of_finally e = false.
Proof.
  intros B F H N. destruct (connects B) as (k & C & _). destruct B as [_ B].
  destruct (start_cases _ _ _ _ H) as [(x & E1 & <- & X)|(t1 & t2 & r2 & t3 & r3 & E1 & E2 & E3 & H4)].
  { rewrite C in E1. injection E1 as _ <-. contradiction. }
  rewrite C in E1. injection E1 as <-. destruct (body_shape n fuel (repeat Sleep k) B) as (d & d' & r' & Y & S & Z & _).
  rewrite Y in E2. injection E2 as <- <-.
  assert (G : exists d3, t3 = d3 ++ d' ++ d ++ repeat Sleep k /\ (forall i, In i (workers n) -> started E t3 i = true) /\ forall e, In e d3 -> of_finally e = false).
  { destruct r' as [|[]|]; try (injection E3 as <- _; exists []; split; [reflexivity|]; split; [exact S|intros e []]).
    cbn [handled] in E3. assert (D : exists d3, t3 = d3 ++ d' ++ d ++ repeat Sleep k /\ forall a e b, d3 = a ++ e :: b -> calm (b ++ d' ++ d ++ repeat Sleep k) e).
    { unfold interrupted in E3. unfold seq at 1 in E3. unfold eff_ in E3. set (t4 := Rpc SessionInterrupted :: d' ++ d ++ repeat Sleep k) in *.
      assert (T4 : forall a e b, [Rpc SessionInterrupted] = a ++ e :: b -> calm (b ++ d' ++ d ++ repeat Sleep k) e).
      { intros [|y1 [|y2 y3]] e b W; try discriminate. injection W as <- <-. split; reflexivity. }
      destruct (fails E (d' ++ d ++ repeat Sleep k) (Rpc SessionInterrupted)); [injection E3 as <- _; exists [Rpc SessionInterrupted]; split; [reflexivity|exact T4]|].
      assert (Dk : does calm (kill_workers E n)) by (apply does_each; intros i _; apply does_when, does_eff; split; reflexivity).
      unfold seq in E3. destruct (kill_workers E n t4) as [t5 r5] eqn:E5. destruct (Dk _ _ _ E5) as (d5 & -> & A5 & _).
      exists (d5 ++ [Rpc SessionInterrupted]). split; [rewrite <- app_assoc; destruct r5; injection E3 as <- _; reflexivity|].
      intros a e b W. apply app_split in W as [(b' & -> & ->)|(a' & -> & W)]; [rewrite <- app_assoc; apply (A5 a e b' eq_refl)|apply (T4 a' e b W)]. }
    destruct D as (d3 & -> & A3). exists d3. split; [reflexivity|]. split.
    - intros i I. rewrite started_suffix; [apply S; exact I|]. intros a e b W. apply (A3 a e b W).
    - intros e I. apply in_split in I as (a & b & W). apply (A3 a e b W). }
  destruct G as (d3 & -> & S3 & Z3). destruct H4 as [(_ & _ & ->)|(N3 & r4 & E4 & _)]; [contradiction|].
  rewrite (finishes n _ F S3) in E4. injection E4 as <- _. exists (d3 ++ d' ++ d ++ repeat Sleep k). split; [reflexivity|].
  intros e I. apply in_app_iff in I as [I|I]; [apply Z3; exact I|]. rewrite app_assoc in I. apply in_app_iff in I as [I|I]; [apply Z; exact I|].
  apply repeat_none in I. exact I.
Qed.

(** ** Interruptions *)


Lemma sleeps_split k a e b : repeat Sleep k = a ++ e :: b -> e = Sleep /\ exists j, j < k /\ b = repeat Sleep j.
Proof.
  revert a. induction k as [|k IH]; intros [|x a] H; try discriminate; cbn [repeat app] in H.
  - injection H as <- <-. split; [reflexivity|]. exists k. split; [lia|reflexivity].
  - injection H as _ H. destruct (IH a H) as (-> & j & L & ->). split; [reflexivity|]. exists j. split; [lia|reflexivity].
Qed.

Lemma does_body n fuel : does (fun _ _ => True) (body E n fuel).
Proof. apply (does_weaken fine); [exact (fun _ _ _ => I)|apply fine_body]. Qed.

(** the result is an interruption exactly when an effect was interrupted; then the
    server is told, every process is told to end, and after that come the waits and
    the end of the servers *)
Theorem C100_interrupted_partial n fuel t r : begins -> ends ->
  (forall t i, fails E t (Term i) = None) -> (forall t, fails E t (Rpc SessionInterrupted) = None) ->
  start E n fuel = (t, r) ->
  (r = Exn Interrupt <-> exists a e b, t = a ++ e :: b /\ fails E b e = Some Interrupt) /\
  (r = Exn Interrupt -> exists e b, fails E b e = Some Interrupt /\ t = ending n ++ rev (map Term (List.seq 1 n)) ++ Rpc SessionInterrupted :: e :: b).
Proof.
  intros B F K SI H. destruct (connects B) as (k & C & Q). destruct B as [_ B].
  destruct (start_cases _ _ _ _ H) as [(x & E1 & <- & X)|(t1 & t2 & r2 & t3 & r3 & E1 & E2 & E3 & H4)].
  { rewrite C in E1. injection E1 as _ <-. contradiction. }
  rewrite C in E1. injection E1 as <-. pose proof (does_body n fuel _ _ _ E2) as (d0 & T2 & A2 & A3).
  destruct (body_shape n fuel (repeat Sleep k) B) as (d & d' & r' & Y & S & Z & _). rewrite Y in E2. injection E2 as E2 R2. subst r'. rewrite E2 in S. clear Y E2 d d' Z.
  (* an interrupted effect of the whole body *)
  assert (G : (exists a e b, t2 = a ++ e :: b /\ fails E b e = Some Interrupt) -> r2 = Exn Interrupt).
  { intros (a & e & b & W & X). rewrite T2 in W. apply app_split in W as [(b' & -> & ->)|(a' & -> & W)].
    - destruct (A2 a e b' eq_refl) as [_ V]. apply V in X. apply X.
    - apply sleeps_split in W as (-> & j & J & ->). rewrite (Q j J) in X. discriminate. }
  destruct (match r2 with Exn Interrupt => true | _ => false end) eqn:R.
  - assert (R2 : r2 = Exn Interrupt) by (destruct r2 as [|[]|]; try discriminate; reflexivity). subst r2.
    cbn [handled] in E3. unfold interrupted in E3. unfold seq at 1 in E3. unfold eff_ in E3. rewrite SI in E3. unfold seq in E3. unfold kill_workers in E3.
    rewrite (kills _ _ K) in E3 by (intros i I; cbn [started]; apply S; exact I). injection E3 as <- <-.
    destruct H4 as [(X & _)|(_ & r4 & E4 & ->)]; [discriminate|]. rewrite finishes in E4; [|exact F|].
    + injection E4 as <- <-. destruct (A3 eq_refl) as (e & b & -> & X). split; [split|].
      * intros _. exists (ending n ++ rev (map Term (workers n)) ++ [Rpc SessionInterrupted]), e, (b ++ repeat Sleep k).
        split; [|exact X]. rewrite T2. rewrite <- !app_assoc. reflexivity.
      * intros _. reflexivity.
      * intros _. exists e, (b ++ repeat Sleep k). split; [exact X|]. rewrite T2. reflexivity.
    + intros i I. rewrite (started_suffix (rev (map Term (workers n)))); [cbn [started]; apply S; exact I|].
      intros a e b W. assert (J : In e (rev (map Term (workers n)))) by (rewrite W; apply in_app_iff; right; left; reflexivity).
      apply in_rev, in_map_iff in J as (j & <- & _). reflexivity.
  - assert (N : r2 <> Exn Interrupt) by (intros ->; discriminate).
    assert (X : (t3, r3) = (t2, r2)) by (rewrite <- E3; destruct r2 as [|[]|]; try reflexivity; contradiction). injection X as -> ->.
    destruct H4 as [(-> & -> & ->)|(_ & r4 & E4 & ->)].
    + split; [|discriminate]. split; [discriminate|]. intros W. specialize (G W). discriminate.
    + rewrite (finishes n _ F S) in E4. injection E4 as <- <-. split; [|intros W; contradiction]. split; [intros W; contradiction|].
      intros (a & e & b & W & V). apply (app_split (ending n)) in W as [(b' & W & ->)|(a' & -> & W)]; [|apply G; exists a', e, b; split; assumption].
      assert (J : In e (ending n)) by (rewrite W; apply in_app_iff; right; left; reflexivity). rewrite F in V; [discriminate|].
      destruct J as [<-|[<-|[<-|[<-|J]]]]; try reflexivity. apply in_rev, in_map_iff in J as (j & <- & _). reflexivity.
Qed.

(** ** Timeouts *)

(** where a timeout of the body comes from *)
Definition times_out n (m : M) : Prop := forall t t' , m t = (t', Exn Timeout) -> (forall i, In i (workers n) -> started E t i = true) ->
  exists d, t' = Rpc SessionError :: LogErrors :: rev (map Term (workers n)) ++ d ++ t.

Lemma to_eff n e : (forall t e, fails E t e <> Some Timeout) -> times_out n (eff_ E e).
Proof. intros N t t' H. unfold eff_ in H. destruct (fails E t e) as [x|] eqn:F; [injection H as _ ->; destruct (N t e F)|discriminate]. Qed.

Lemma to_seq n a b : does no_start a -> times_out n a -> times_out n b -> times_out n (seq a b).
Proof.
  intros D A B t t' H S. unfold seq in H. destruct (a t) as [t1 r1] eqn:E1. destruct r1; [|injection H as -> ->; apply (A _ _ E1 S)|discriminate].
  destruct (D _ _ _ E1) as (d1 & -> & X & _). destruct (B _ _ H) as (d & ->).
  - intros i I. rewrite started_suffix; [apply S; exact I|]. intros u e v W. apply (X u e v W).
  - exists (d ++ d1). rewrite <- !app_assoc. reflexivity.
Qed.

Lemma to_if n (f : trace -> bool) a b : times_out n a -> times_out n b -> times_out n (fun t => if f t then a t else b t).
Proof. intros A B t t' H. destruct (f t); [apply (A _ _ H)|apply (B _ _ H)]. Qed.

Lemma to_no n m : (forall t t' r, m t = (t', r) -> r <> Exn Timeout) -> times_out n m.
Proof. intros H t t' X. destruct (H _ _ _ X eq_refl). Qed.

Lemma to_ret n : times_out n ret.
Proof. intros t t' H. discriminate. Qed.

Lemma to_handle_error n : (forall t i, fails E t (Term i) = None) -> (forall t e, fails E t e <> Some Timeout) -> times_out n (handle_error E n).
Proof.
  intros K N t t' H S. unfold handle_error in H. unfold seq at 1 in H. unfold kill_workers in H. rewrite (kills _ _ K S) in H.
  unfold seq at 1 in H. unfold eff_ at 1 in H. destruct (fails E _ LogErrors) as [x|] eqn:F; [injection H as _ ->; destruct (N _ _ F)|].
  unfold seq, eff_ in H. destruct (fails E _ (Rpc SessionError)) as [x|] eqn:F2; [injection H as _ ->; destruct (N _ _ F2)|].
  injection H as <-. exists []. reflexivity.
Qed.

Lemma to_check n : (forall t e, fails E t e <> Some Timeout) -> times_out n (check_timed_out E).
Proof.
  intros N t. unfold check_timed_out. generalize (connected E t). intros l. revert t.
  assert (A : times_out n (each l (fun i => when (fun t => silent E t i) (seq (eff_ E LogErrors) (seq (worker_timeout E i) (eff_ E (Rpc (ClientFailure i)))))))).
  { induction l as [|i l IH]; [apply to_ret|]. cbn [each].
    assert (D : does no_start (worker_timeout E i)) by (apply does_if; [apply does_when, does_eff; reflexivity|apply does_raise; discriminate]).
    apply to_seq; [apply does_when; apply does_seq; [apply does_eff; reflexivity|apply does_seq; [exact D|apply does_eff; reflexivity]]| |exact IH].
    apply to_if; [|apply to_ret]. apply to_seq; [apply does_eff; reflexivity|apply to_eff; exact N|]. apply to_seq; [exact D| |apply to_eff; exact N].
    apply to_if; [apply to_if; [apply to_eff; exact N|apply to_ret]|]. intros t t' H. discriminate. }
  intros t t' H. apply (A t t' H).
Qed.

Lemma to_loops n fuel : (forall t i, fails E t (Term i) = None) -> (forall t e, fails E t e <> Some Timeout) ->
  times_out n (seq (wait_connect E n fuel) (main_loop E n fuel)).
Proof.
  intros K N. apply to_seq; [apply ns_wait_connect| |].
  - induction fuel as [|f IH]; [intros t t' H; discriminate|]. cbn [wait_connect]. apply to_if; [|apply to_ret].
    apply to_seq; [apply does_when, ns_handle_error|apply to_if; [apply to_handle_error; assumption|apply to_ret]|].
    apply to_seq; [apply does_eff; reflexivity|apply to_eff; exact N|exact IH].
  - induction fuel as [|f IH]; [intros t t' H; discriminate|]. cbn [main_loop]. apply to_if; [|apply to_ret].
    apply to_seq; [apply ns_check|apply to_check; exact N|].
    apply to_seq; [apply does_when, ns_handle_error|apply to_if; [apply to_handle_error; assumption|apply to_ret]|].
    apply to_seq; [apply does_eff; reflexivity|apply to_eff; exact N|exact IH].
Qed.

(** the server is told of an error only by a timeout *)
Definition quiet (t : trace) (e : eff) : Prop := is_start e = false /\ e <> Rpc SessionError.

(** if the body has told the server of an error, it has timed out *)
Definition only_timeout (m : M) : Prop := forall t t' r, m t = (t', r) -> exists d, t' = d ++ t /\
  (forall a b, d = a ++ Rpc SessionError :: b -> fails E (b ++ t) (Rpc SessionError) = None -> r = Exn Timeout).

Lemma ot_quiet m : does quiet m -> only_timeout m.
Proof.
  intros D t t' r H. destruct (D _ _ _ H) as (d & -> & A & _). exists d. split; [reflexivity|]. intros a b S _.
  destruct (A _ _ _ S) as [[_ X] _]. contradiction.
Qed.

Lemma ot_seq a b : only_timeout a -> only_timeout b -> only_timeout (seq a b).
Proof.
  intros A B t t' r H. unfold seq in H. destruct (a t) as [t1 r1] eqn:E1. destruct (A _ _ _ E1) as (d1 & -> & X).
  destruct r1; [|injection H as <- <-; exists d1; split; [reflexivity|exact X]..].
  destruct (B _ _ _ H) as (d2 & -> & Y). exists (d2 ++ d1). split; [apply app_assoc|]. intros u v S F.
  apply app_split in S as [(v' & -> & ->)|(u' & -> & S)]; [rewrite <- app_assoc in F; apply (Y u v' eq_refl F)|discriminate (X _ _ S F)].
Qed.

Lemma ot_if (f : trace -> bool) a b : only_timeout a -> only_timeout b -> only_timeout (fun t => if f t then a t else b t).
Proof. intros A B t t' r H. destruct (f t); [apply (A _ _ _ H)|apply (B _ _ _ H)]. Qed.

Lemma ot_handle_error n : only_timeout (handle_error E n).
Proof.
  intros t t' r H. unfold handle_error in H.
  assert (D : does quiet (seq (kill_workers E n) (eff_ E LogErrors))).
  { apply does_seq; [apply does_each; intros i _; apply does_when, does_eff|apply does_eff]; split; discriminate || reflexivity. }
  unfold seq in H, D. specialize (D t). cbv beta in D. destruct (kill_workers E n t) as [t1 r1]. destruct r1.
  - destruct (eff_ E LogErrors t1) as [t2 r2]. destruct (D _ _ eq_refl) as (d & -> & A & _).
    assert (N : forall a b, d = a ++ Rpc SessionError :: b -> False) by (intros a b S; destruct (A _ _ _ S) as [[_ X] _]; contradiction).
    destruct r2; [|injection H as <- <-; exists d; split; [reflexivity|intros a b S; destruct (N _ _ S)]..].
    unfold eff_ in H. destruct (fails E (d ++ t) (Rpc SessionError)) as [x|] eqn:F.
    + injection H as <- <-. exists (Rpc SessionError :: d). split; [reflexivity|]. intros [|y a] b S F2.
      * injection S as <-. rewrite F in F2. discriminate.
      * injection S as _ S. destruct (N _ _ S).
    + injection H as <- <-. exists (Rpc SessionError :: d). split; reflexivity.
  - destruct (D _ _ eq_refl) as (d & -> & A & _). injection H as <- <-. exists d. split; [reflexivity|]. intros a b S. destruct (A _ _ _ S) as [[_ X] _]. contradiction.
  - destruct (D _ _ eq_refl) as (d & -> & A & _). injection H as <- <-. exists d. split; [reflexivity|]. intros a b S. destruct (A _ _ _ S) as [[_ X] _]. contradiction.
Qed.

Lemma quiet_check : does quiet (check_timed_out E).
Proof.
  intros t. unfold check_timed_out. generalize (connected E t). intros l. apply does_each. intros i _. apply does_when.
  apply does_seq; [apply does_eff; split; [reflexivity|discriminate]|]. apply does_seq; [|apply does_eff; split; [reflexivity|discriminate]].
  apply does_if; [apply does_when, does_eff; split; [reflexivity|discriminate]|apply does_raise; discriminate].
Qed.

Lemma quiet_ot_eff e : is_start e = false -> e <> Rpc SessionError -> only_timeout (eff_ E e).
Proof. intros A B. apply ot_quiet, does_eff. split; assumption. Qed.

Lemma ot_loops n fuel : only_timeout (seq (wait_connect E n fuel) (main_loop E n fuel)).
Proof.
  assert (R : only_timeout ret) by (apply ot_quiet, does_ret).
  apply ot_seq.
  - induction fuel as [|f IH]; [apply ot_quiet, does_running|]. cbn [wait_connect]. apply ot_if; [|exact R].
    apply ot_seq; [apply ot_if; [apply ot_handle_error|exact R]|]. apply ot_seq; [apply quiet_ot_eff; [reflexivity|discriminate]|exact IH].
  - induction fuel as [|f IH]; [apply ot_quiet, does_running|]. cbn [main_loop]. apply ot_if; [|exact R].
    apply ot_seq; [apply ot_quiet, quiet_check|]. apply ot_seq; [apply ot_if; [apply ot_handle_error|exact R]|].
    apply ot_seq; [apply quiet_ot_eff; [reflexivity|discriminate]|exact IH].
Qed.

Lemma starts_no_error m k t t' r e : each (List.seq k m) (worker_start E) t = (t', r) -> In e t' -> In e t \/ (exists i, e = Hook i) \/ exists i, e = Popen i.
Proof.
  revert k t. induction m as [|m IH]; intros k t H I; [injection H as <- _; left; exact I|].
  cbn [List.seq each] in H. unfold seq at 1 in H. unfold worker_start at 1 in H. unfold seq at 1 in H. unfold eff_ at 1 in H.
  destruct (fails E t (Hook k)) as [x|].
  { injection H as <- _. destruct I as [<-|I]; [right; left; exists k; reflexivity|left; exact I]. }
  unfold eff_ at 1 in H. destruct (fails E (Hook k :: t) (Popen k)) as [x|].
  { injection H as <- _. destruct I as [<-|[<-|I]]; [right; right; exists k; reflexivity|right; left; exists k; reflexivity|left; exact I]. }
  destruct (IH _ _ H I) as [[<-|[<-|J]]|J]; [right; right; exists k; reflexivity|right; left; exists k; reflexivity|left; exact J|right; exact J].
Qed.

Lemma not_error_end n e : In e (ending n) -> e <> Rpc SessionError.
Proof.
  intros [<-|[<-|[<-|[<-|I]]]]; try discriminate. apply in_rev, in_map_iff in I as (j & <- & _). discriminate.
Qed.

(** a session times out exactly when the server is told of an error; it has then told
    every process to end and logged the errors of the workers, before the waits *)
Theorem C100_timeout_partial n fuel t r : begins -> ends -> (forall t i, fails E t (Term i) = None) -> (forall t e, fails E t e <> Some Timeout) ->
  (forall t, fails E t (Rpc SessionError) = None) ->
  start E n fuel = (t, r) ->
  (r = Exn Timeout <-> In (Rpc SessionError) t) /\
  (r = Exn Timeout -> exists t', t = ending n ++ Rpc SessionError :: LogErrors :: rev (map Term (List.seq 1 n)) ++ t').
Proof.
  intros B F K N NE H. destruct (connects B) as (k & C & Q). destruct B as [_ B].
  destruct (start_cases _ _ _ _ H) as [(x & E1 & -> & X)|(t1 & t2 & r2 & t3 & r3 & E1 & E2 & E3 & H4)].
  { rewrite C in E1. injection E1 as _ <-. contradiction. }
  rewrite C in E1. injection E1 as <-. destruct (body_shape n fuel (repeat Sleep k) B) as (d & d' & r' & Y & S & Z & Y1 & Y2).
  rewrite Y in E2. injection E2 as <- <-.
  assert (OT : In (Rpc SessionError) (d' ++ d ++ repeat Sleep k) -> r' = Exn Timeout).
  { intros I. destruct (ot_loops n fuel _ _ _ Y2) as (d2 & W & V). apply app_inv_tail in W. subst d2.
    apply in_app_iff in I as [I|I]; [apply in_split in I as (a & b & I); apply (V a b I); apply NE|].
    destruct (starts_no_error _ _ _ _ _ _ Y1 I) as [J|[(i & J)|(i & J)]]; try discriminate. apply repeat_spec in J. discriminate. }
  assert (Z4 : forall t, (forall i, In i (workers n) -> started E t i = true) -> finish E n t = (ending n ++ t, Ok)) by (intros u; apply finishes; exact F).
  destruct (match r' with Exn Interrupt => true | _ => false end) eqn:I.
  - assert (r' = Exn Interrupt) as -> by (destruct r' as [|[]|]; try discriminate; reflexivity). cbn [handled] in E3.
    assert (NO : ~ In (Rpc SessionError) (d' ++ d ++ repeat Sleep k)) by (intros J; discriminate (OT J)).
    enough (G : r <> Exn Timeout /\ ~ In (Rpc SessionError) t) by (destruct G as [G1 G2]; split; [split; intros J; contradiction|intros J; contradiction]).
    unfold interrupted in E3. unfold seq at 1 in E3. unfold eff_ in E3. set (t4 := Rpc SessionInterrupted :: d' ++ d ++ repeat Sleep k) in *.
    assert (N4 : ~ In (Rpc SessionError) t4) by (intros [J|J]; [discriminate|exact (NO J)]).
    assert (S4 : forall i, In i (workers n) -> started E t4 i = true) by (intros i J; cbn [started t4]; apply S; exact J). clearbody t4.
    destruct (fails E (d' ++ d ++ repeat Sleep k) (Rpc SessionInterrupted)) as [x|] eqn:F1.
    + injection E3 as <- <-. destruct H4 as [(J & _)|(_ & r4 & E4 & ->)]; [discriminate|]. rewrite (Z4 _ S4) in E4. injection E4 as <- <-.
      split; [intros J; injection J as ->; apply (N _ _ F1)|]. intros J. apply (in_app_iff (ending n)) in J as [J|J]; [apply not_error_end in J; contradiction|exact (N4 J)].
    + unfold seq, kill_workers in E3. rewrite (kills _ _ K S4) in E3. injection E3 as <- <-.
      destruct H4 as [(J & _)|(_ & r4 & E4 & ->)]; [discriminate|]. rewrite Z4 in E4.
      * injection E4 as <- <-. split; [discriminate|]. intros J. apply (in_app_iff (ending n)) in J as [J|J]; [apply not_error_end in J; contradiction|].
        apply in_app_iff in J as [J|J]; [|exact (N4 J)]. apply in_rev, in_map_iff in J as (j & J & _). discriminate.
      * intros i J. rewrite started_suffix; [apply S4; exact J|].
        intros a e b W. assert (V : In e (rev (map Term (workers n)))) by (rewrite W; apply in_app_iff; right; left; reflexivity).
        apply in_rev, in_map_iff in V as (j & <- & _). reflexivity.
  - assert (X : (t3, r3) = (d' ++ d ++ repeat Sleep k, r')) by (rewrite <- E3; destruct r' as [|[]|]; try reflexivity; discriminate).
    injection X as -> ->. destruct H4 as [(-> & -> & ->)|(_ & r4 & E4 & ->)].
    + split; [|discriminate]. split; [discriminate|]. exact OT.
    + rewrite (Z4 _ S) in E4. injection E4 as <- <-. assert (TO : r' = Exn Timeout -> exists t', d' ++ d ++ repeat Sleep k = Rpc SessionError :: LogErrors :: rev (map Term (List.seq 1 n)) ++ t').
      { intros ->. destruct (all_started n 1 (repeat Sleep k) B) as (d2 & W1 & W2 & _).
        unfold workers in Y1. rewrite Y1 in W1. injection W1 as W1. rewrite <- W1 in W2.
        destruct (to_loops n fuel K N _ _ Y2) as (d3 & W3); [exact W2|]. exists (d3 ++ d ++ repeat Sleep k). exact W3. }
      split; [split|].
      * intros R. destruct (TO R) as (t' & ->). apply (in_app_iff (ending n)). right. left. reflexivity.
      * intros J. apply (in_app_iff (ending n)) in J as [J|J]; [apply not_error_end in J; contradiction|exact (OT J)].
      * intros R. destruct (TO R) as (t' & ->). exists t'. reflexivity.
Qed.

(** ** Every round has passed its check *)

Definition napless (t : trace) (e : eff) : Prop := e <> Sleep.

Lemma napless_handle_error n : does napless (handle_error E n).
Proof.
  apply does_seq; [apply does_each; intros i _; apply does_when, does_eff; discriminate|].
  do 2 (apply does_seq; [apply does_eff; discriminate|]). apply does_raise. discriminate.
Qed.

Lemma napless_check : does napless (check_timed_out E).
Proof.
  intros t. unfold check_timed_out. generalize (connected E t). intros l. apply does_each. intros i _. apply does_when.
  apply does_seq; [apply does_eff; discriminate|]. apply does_seq; [|apply does_eff; discriminate].
  apply does_if; [apply does_when, does_eff; discriminate|apply does_raise; discriminate].
Qed.

Lemma napless_passed m : does napless m -> does (fun t e => e = Sleep -> (waiting E t = true /\ late E t = false) \/ idle E t = false) m.
Proof. apply does_weaken. intros t e N X. contradiction. Qed.

(** the error is handled, so what comes after it in a sequence is not done *)
Lemma handled_never_ok n t t' r : handle_error E n t = (t', r) -> r <> Ok.
Proof.
  unfold handle_error, seq. destruct (kill_workers E n t) as [t1 []]; [|intros H; injection H as _ <-; discriminate..].
  destruct (eff_ E LogErrors t1) as [t2 []]; [|intros H; injection H as _ <-; discriminate..].
  destruct (eff_ E (Rpc SessionError) t2) as [t3 []]; intros H; injection H as _ <-; discriminate.
Qed.

Definition checked_eff (t : trace) (e : eff) : Prop := e = Sleep -> (waiting E t = true /\ late E t = false) \/ idle E t = false.

Lemma guard_sleep (P : trace -> eff -> Prop) (g : trace -> bool) n m :
  does P (handle_error E n) -> (forall t, g t = false -> P t Sleep) -> does P m ->
  does P (seq (when g (handle_error E n)) (seq (eff_ E Sleep) m)).
Proof.
  intros A G B t t' r H. unfold seq at 1 in H. unfold when in H. destruct (g t) eqn:X.
  - destruct (handle_error E n t) as [t1 r1] eqn:E1. pose proof (handled_never_ok _ _ _ _ E1) as N. destruct r1; [contradiction|..];
      injection H as <- <-; apply (A _ _ _ E1).
  - cbn [ret] in H. unfold seq in H. unfold eff_ in H. destruct (fails E t Sleep) as [x|] eqn:F.
    + injection H as <- <-. exists [Sleep]. split; [reflexivity|]. split.
      * intros [|y1 [|y2 y3]] e b S; try discriminate. injection S as <- <-. split; [apply G; exact X|]. intros z F2. cbn [app] in F2. rewrite F in F2. injection F2 as ->. split; reflexivity.
      * intros R. injection R as ->. exists Sleep, []. split; [reflexivity|exact F].
    + destruct (B _ _ _ H) as (d & -> & A1 & A2). exists (d ++ [Sleep]). split; [rewrite <- app_assoc; reflexivity|]. split.
      * intros a e b S. apply app_split in S as [(b' & -> & ->)|(a' & -> & S)]; [rewrite <- app_assoc; apply (A1 a e b' eq_refl)|].
        destruct a' as [|? [|? ?]]; try discriminate. injection S as <- <-. split; [apply G; exact X|]. intros z F2. cbn [app] in F2. rewrite F in F2. discriminate.
      * intros R. destruct (A2 R) as (e & b & -> & F2). exists e, (b ++ [Sleep]). split; [reflexivity|]. rewrite <- app_assoc. exact F2.
Qed.

Lemma checked_wait n fuel : does checked_eff (wait_connect E n fuel).
Proof.
  induction fuel as [|f IH]; [apply does_running|]. cbn [wait_connect]. intros t t' r H. destruct (waiting E t) eqn:W; [|apply (does_ret checked_eff _ _ _ H)].
  unfold seq at 1 in H. unfold when in H. destruct (late E t) eqn:L.
  - destruct (handle_error E n t) as [t1 r1] eqn:E1. pose proof (handled_never_ok _ _ _ _ E1) as N. destruct r1; [contradiction|..];
      injection H as <- <-; apply (napless_passed _ (napless_handle_error n) _ _ _ E1).
  - change (ret t) with (t, Ok) in H. unfold seq in H. unfold eff_ in H.
    assert (P0 : checked_eff t Sleep) by (intros _; left; split; [exact W|exact L]).
    destruct (fails E t Sleep) as [x|] eqn:F.
    + injection H as <- <-. exists [Sleep]. split; [reflexivity|]. split.
      * intros [|y1 [|y2 y3]] e b S; try discriminate. injection S as <- <-. split; [exact P0|]. intros z F2. cbn [app] in F2. rewrite F in F2. injection F2 as ->. split; reflexivity.
      * intros R. injection R as ->. exists Sleep, []. split; [reflexivity|exact F].
    + destruct (IH _ _ _ H) as (d & -> & A1 & A2). exists (d ++ [Sleep]). split; [rewrite <- app_assoc; reflexivity|]. split.
      * intros a e b S. apply app_split in S as [(b' & -> & ->)|(a' & -> & S)]; [rewrite <- app_assoc; apply (A1 a e b' eq_refl)|].
        destruct a' as [|? [|? ?]]; try discriminate. injection S as <- <-. split; [exact P0|]. intros z F2. cbn [app] in F2. rewrite F in F2. discriminate.
      * intros R. destruct (A2 R) as (e & b & -> & F2). exists e, (b ++ [Sleep]). split; [reflexivity|]. rewrite <- app_assoc. exact F2.
Qed.

Lemma checked_loop n fuel : does checked_eff (main_loop E n fuel).
Proof.
  induction fuel as [|f IH]; [apply does_running|]. cbn [main_loop]. apply does_if; [|apply does_ret].
  apply does_seq; [apply napless_passed, napless_check|]. apply (guard_sleep checked_eff (idle E)); [apply napless_passed, napless_handle_error| |exact IH].
  intros t X _. right. exact X.
Qed.

Lemma only_sleeps k t t' r : try_connect E k t = (t', r) -> exists d, t' = d ++ t /\ forall e, In e d -> e = Sleep.
Proof.
  revert t. induction k as [|k IH]; intros t H; cbn [try_connect] in H.
  - injection H as <- _. exists []. split; [reflexivity|intros e []].
  - destruct (up E t); [injection H as <- _; exists []; split; [reflexivity|intros e []]|]. unfold seq, eff_ in H. destruct (fails E t Sleep) as [x|].
    + injection H as <- _. exists [Sleep]. split; [reflexivity|]. intros e [<-|[]]. reflexivity.
    + destruct (IH _ H) as (d & -> & A). exists (d ++ [Sleep]). split; [rewrite <- app_assoc; reflexivity|]. intros e I. apply in_app_iff in I as [I|[<-|[]]]; [apply A; exact I|reflexivity].
Qed.

(** after a worker was started, the manager sleeps only when it has seen that the time
    to connect is not over, or that a request came not too long ago *)
Theorem C100_checked n fuel t r : start E n fuel = (t, r) ->
  forall a u i, t = a ++ Sleep :: u -> In (Popen i) u -> (waiting E u = true /\ late E u = false) \/ idle E u = false.
Proof.
  intros H. enough (A : all_of (fun u e => e = Sleep -> forall i, In (Popen i) u -> (waiting E u = true /\ late E u = false) \/ idle E u = false) t).
  { intros a u i S I. apply (A a Sleep u S eq_refl i I). }
  set (P := fun u e => e = Sleep -> forall i, In (Popen i) u -> (waiting E u = true /\ late E u = false) \/ idle E u = false).
  assert (NP : forall m, does napless m -> does P m) by (intros m; apply does_weaken; intros u e N X; contradiction).
  assert (CP : forall m, does checked_eff m -> does P m) by (intros m; apply does_weaken; intros u e N X i _; apply N; exact X).
  assert (A1 : forall t1 r1, try_connect E 200 [] = (t1, r1) -> all_of P t1).
  { intros t1 r1 E1. destruct (only_sleeps _ _ _ _ E1) as (d & -> & A). rewrite app_nil_r. intros a e b S _ i I.
    discriminate (A (Popen i)). rewrite S. apply in_app_iff. right. right. exact I. }
  destruct (start_cases _ _ _ _ H) as [(x & E1 & _)|(t1 & t2 & r2 & t3 & r3 & E1 & E2 & E3 & H4)]; [apply (A1 _ _ E1)|].
  assert (A2 : all_of P t2).
  { refine (does_all P (body E n fuel) _ _ _ _ E2 (A1 _ _ E1)). apply does_seq; [apply NP, does_each; intros i _; apply does_seq; apply does_eff; discriminate|].
    apply does_seq; apply CP; [apply checked_wait|apply checked_loop]. }
  assert (A3 : all_of P t3).
  { destruct r2 as [|[]|]; try (injection E3 as <- _; exact A2). cbn [handled] in E3. unfold interrupted in E3. unfold seq at 1 in E3.
    destruct (eff_ E (Rpc SessionInterrupted) t2) as [t4 r4] eqn:E4.
    assert (A4 : all_of P t4) by (refine (does_all P (eff_ E (Rpc SessionInterrupted)) _ _ _ _ E4 A2); apply NP, does_eff; discriminate).
    destruct r4; [|injection E3 as <- _; exact A4..]. unfold seq in E3. destruct (kill_workers E n t4) as [t5 r5] eqn:E5.
    assert (A5 : all_of P t5) by (refine (does_all P (kill_workers E n) _ _ _ _ E5 A4); apply NP, does_each; intros i _; apply does_when, does_eff; discriminate).
    destruct r5; injection E3 as <- _; exact A5. }
  destruct H4 as [(_ & -> & _)|(_ & r4 & E4 & _)]; [exact A3|]. refine (does_all P (finish E n) _ _ _ _ E4 A3). apply NP.
  apply does_seq; [|repeat (apply does_seq; [apply does_eff; discriminate|]); apply does_eff; discriminate].
  apply does_each. intros i _. apply does_if; [apply does_eff; discriminate|apply does_raise; discriminate].
Qed.

(** ** The loops: a session goes on only as long as it is told to *)

Definition sleeps (t : trace) : nat := List.length (filter (fun e => match e with Sleep => true | _ => false end) t).

Lemma sleeps_app d t : sleeps (d ++ t) = sleeps d + sleeps t.
Proof. unfold sleeps. rewrite filter_app. apply app_length. Qed.

(** it comes to an end from a moment with at least [k] sleeps on *)
Definition stops (k : nat) (m : M) : Prop := forall t t' r, k <= sleeps t -> m t = (t', r) -> r <> Running /\ sleeps t <= sleeps t'.

Lemma stops_ret k : stops k ret.
Proof. intros t t' r L H. injection H as <- <-. split; [discriminate|lia]. Qed.

Lemma stops_raise k x : stops k (raise x).
Proof. intros t t' r L H. injection H as <- <-. split; [discriminate|lia]. Qed.

Lemma stops_eff k e : stops k (eff_ E e).
Proof. intros t t' r L H. injection H as <- <-. split; [destruct (fails E t e); discriminate|]. change (e :: t) with ([e] ++ t). rewrite sleeps_app. lia. Qed.

Lemma stops_seq k a b : stops k a -> stops k b -> stops k (seq a b).
Proof.
  intros A B t t' r L H. unfold seq in H. destruct (a t) as [t1 r1] eqn:E1. destruct (A _ _ _ L E1) as [N L1].
  destruct r1; [destruct (B t1 t' r ltac:(lia) H); split; [assumption|lia]|injection H as <- <-; split; [discriminate|exact L1]|contradiction].
Qed.

Lemma stops_if k (f : trace -> bool) a b : stops k a -> stops k b -> stops k (fun t => if f t then a t else b t).
Proof. intros A B t t' r L H. destruct (f t); [apply (A _ _ _ L H)|apply (B _ _ _ L H)]. Qed.

Lemma stops_each {A} k (l : list A) f : (forall x, stops k (f x)) -> stops k (each l f).
Proof. intros H. induction l as [|x l IH]; [apply stops_ret|]. cbn [each]. apply stops_seq; [apply H|exact IH]. Qed.

Lemma stops_handle_error k n : stops k (handle_error E n).
Proof.
  apply stops_seq; [apply stops_each; intros i; apply stops_if; [apply stops_eff|apply stops_ret]|].
  apply stops_seq; [apply stops_eff|]. apply stops_seq; [apply stops_eff|apply stops_raise].
Qed.

Lemma stops_check k : stops k (check_timed_out E).
Proof.
  intros t. unfold check_timed_out. generalize (connected E t). intros l.
  apply (stops_each k l). intros i. apply stops_if; [|apply stops_ret]. apply stops_seq; [apply stops_eff|]. apply stops_seq; [|apply stops_eff].
  apply stops_if; [apply stops_if; [apply stops_eff|apply stops_ret]|apply stops_raise].
Qed.

Lemma stops_sleep_seq k m : stops (S k) m -> stops k (seq (eff_ E Sleep) m).
Proof.
  intros A t t' r L H. unfold seq, eff_ in H. destruct (fails E t Sleep).
  - injection H as <- <-. split; [discriminate|]. change (Sleep :: t) with ([Sleep] ++ t). rewrite sleeps_app. lia.
  - assert (X : sleeps (Sleep :: t) = S (sleeps t)) by reflexivity. destruct (A (Sleep :: t) t' r ltac:(lia) H). split; [assumption|lia].
Qed.

Lemma stops_wait n j : (forall t, j <= sleeps t -> waiting E t = false) -> forall f k, j <= k + f -> stops k (wait_connect E n (S f)).
Proof.
  intros W. induction f as [|f IH]; intros k J t t' r L H; cbn [wait_connect] in H.
  - rewrite W in H by lia. apply (stops_ret k _ _ _ L H).
  - destruct (waiting E t); [|apply (stops_ret k _ _ _ L H)]. revert L H.
    apply stops_seq; [apply stops_if; [apply stops_handle_error|apply stops_ret]|]. apply stops_sleep_seq. apply IH. lia.
Qed.

Lemma stops_loop n j : (forall t, j <= sleeps t -> should_wait E t = false) -> forall f k, j <= k + f -> stops k (main_loop E n (S f)).
Proof.
  intros W. induction f as [|f IH]; intros k J t t' r L H; cbn [main_loop] in H.
  - rewrite W in H by lia. apply (stops_ret k _ _ _ L H).
  - destruct (should_wait E t); [|apply (stops_ret k _ _ _ L H)]. revert L H.
    apply stops_seq; [apply stops_check|]. apply stops_seq; [apply stops_if; [apply stops_handle_error|apply stops_ret]|].
    apply stops_sleep_seq. apply IH. lia.
Qed.

Lemma stops_finish k n : stops k (finish E n).
Proof.
  apply stops_seq; [apply stops_each; intros i; apply stops_if; [apply stops_eff|apply stops_raise]|].
  apply stops_seq; [apply stops_eff|]. apply stops_seq; [apply stops_eff|]. apply stops_seq; apply stops_eff.
Qed.

Lemma stops_connect k m : stops k (try_connect E m).
Proof.
  induction m as [|m IH]; [apply stops_raise|]. cbn [try_connect]. apply stops_if; [apply stops_ret|].
  apply stops_seq; [apply stops_eff|exact IH].
Qed.

(** if from the sleep number [j] on nobody is waited for, the session comes to an end:
    more fuel than [j] is enough *)
Theorem C100_ends n j fuel t r : (forall u, j <= sleeps u -> waiting E u = false /\ should_wait E u = false) -> j < fuel ->
  start E n fuel = (t, r) -> r <> Running.
Proof.
  intros W L H. destruct fuel as [|f]; [lia|].
  destruct (start_cases _ _ _ _ H) as [(x & E1 & <- & X)|(t1 & t2 & r2 & t3 & r3 & E1 & E2 & E3 & H4)].
  - apply (stops_connect 0 200 _ _ _ ltac:(cbn; lia) E1).
  - assert (N2 : r2 <> Running).
    { revert E2. enough (S2 : stops 0 (body E n (S f))) by (intros E2; apply (S2 _ _ _ ltac:(lia) E2)).
      apply stops_seq; [apply stops_each; intros i; apply stops_seq; apply stops_eff|].
      apply stops_seq; [apply (stops_wait n j); [intros u U; apply W; exact U|lia]|apply (stops_loop n j); [intros u U; apply W; exact U|lia]]. }
    assert (N3 : r3 <> Running).
    { destruct r2 as [|[]|]; try (injection E3 as _ <-; discriminate); [|contradiction]. cbn [handled] in E3.
      enough (S3 : stops 0 (interrupted E n)) by (apply (S3 _ _ _ ltac:(lia) E3)).
      apply stops_seq; [apply stops_eff|]. apply stops_seq; [apply stops_each; intros i; apply stops_if; [apply stops_eff|apply stops_ret]|apply stops_raise]. }
    destruct H4 as [(X & _)|(_ & r4 & E4 & ->)]; [contradiction|].
    destruct (stops_finish 0 n _ _ _ ltac:(lia) E4) as [N4 _]. destruct r4; [exact N3|discriminate|contradiction].
Qed.

End Env.

(** ** Refuted: however a session ends, nothing is left behind *)

(** an environment in which the sleep number [k] (from the end of the trace) is
    interrupted and the effects of [bad] raise; the servers are up at once, the
    workers connect at once, nobody is silent *)
Definition env_with (bad : eff -> option exn) (active_rounds : nat) : env :=
  mkEnv (fun _ e => bad e) (fun _ => true) (fun _ => false) (fun _ => false) (fun t => Nat.ltb (List.length (filter (fun e => match e with Sleep => true | _ => false end) t)) active_rounds)
    (fun _ => []) (fun _ _ => false) (fun _ => false) (fun _ _ => true).

(** the start of the process of worker 2 fails *)
Definition second_fails : env := env_with (fun e => match e with Popen 2 => Some (Other 7) | _ => None end) 2.

(** worker 1 runs already: nobody tells it to end, nobody stops the servers, and the
    exception seen is not the one of the start *)
Theorem C100_clean_refuted : exists E n t r, start E n 5 = (t, r) /\ (forall e, In e [Rpc StopServe; Rpc StopKeepalive; Term 1; Kill 1; Rpc SessionError] -> ~ In e t) /\
  In (Popen 1) t /\ fails E [Hook 1] (Popen 1) = None /\ fails E [] (Popen 2) = Some (Other 7) /\ r = Exn Attribute.
Proof.
  exists second_fails, 3, [Wait 1; Popen 2; Hook 2; Popen 1; Hook 1], (Exn Attribute). split; [reflexivity|]. split; [|repeat split; cbn; tauto].
  intros e I J. cbn [In] in I, J. repeat (destruct I as [<-|I]; [repeat (destruct J as [J|J]; [discriminate|]); exact J|]). exact I.
Qed.

(** the hook of worker 2 is interrupted *)
Definition second_interrupted : env := env_with (fun e => match e with Hook 2 => Some Interrupt | _ => None end) 2.

(** an interruption while the workers start is an AttributeError in the end, and the
    servers are not stopped *)
Theorem C100_interrupted_refuted : exists E n t r, start E n 5 = (t, r) /\ (exists e b, In e t /\ fails E b e = Some Interrupt) /\
  r = Exn Attribute /\ ~ In (Rpc StopServe) t.
Proof.
  exists second_interrupted, 2, [Wait 1; Term 1; Rpc SessionInterrupted; Hook 2; Popen 1; Hook 1], (Exn Attribute). split; [reflexivity|].
  split; [exists (Hook 2), []; split; [cbn; tauto|reflexivity]|]. split; [reflexivity|]. cbn [In]. intros H. repeat (destruct H as [H|H]; [discriminate|]). exact H.
Qed.

(** the server does not answer the call that tells it of an interruption *)
Definition server_lost : env := env_with (fun e => match e with Sleep => Some Interrupt | Rpc SessionInterrupted => Some (Other 9) | _ => None end) 2.

(** then no process is told to end, though all of them are waited for *)
Theorem C100_lost_refuted : exists E n t r, start E n 5 = (t, r) /\ begins E /\ ends E /\ (exists b, t = b ++ [Sleep; Popen 2; Hook 2; Popen 1; Hook 1] /\ In (Wait 1) b /\ In (Wait 2) b) /\
  (forall i, ~ In (Term i) t) /\ r = Exn (Other 9).
Proof.
  exists server_lost, 2, (ending 2 ++ [Rpc SessionInterrupted; Sleep; Popen 2; Hook 2; Popen 1; Hook 1]), (Exn (Other 9)). split; [reflexivity|].
  split; [split; [exists 0; split; [lia|]; split; [reflexivity|]; intros j J; lia|intros t i; split; reflexivity]|].
  split; [intros t [] X; try discriminate; try reflexivity; destruct c; try discriminate; reflexivity|].
  split; [exists (ending 2 ++ [Rpc SessionInterrupted]); split; [reflexivity|]; cbn; tauto|].
  split; [|reflexivity]. intros i H. cbn in H. repeat (destruct H as [H|H]; [discriminate|]). exact H.
Qed.

(** ** A case of every theorem *)

(** two workers; worker 2 is silent after the first round, is active, is killed and
    reported; then the session is interrupted in its second sleep *)
Definition env_ex : env :=
  mkEnv (fun t e => match e with Sleep => if Nat.leb 9 (List.length t) then Some Interrupt else None | _ => None end) (fun t => Nat.ltb 0 (List.length t)) (fun _ => false) (fun _ => false)
    (fun _ => true) (fun _ => [1; 2]) (fun t i => Nat.eqb i 2 && Nat.eqb (List.length t) 6) (fun _ => false) (fun _ _ => true).

Example C100_ex :
  start env_ex 2 5 =
    (ending 2 ++ [Term 2; Term 1; Rpc SessionInterrupted; Sleep; Rpc (ClientFailure 2); Kill 2; LogErrors; Sleep; Popen 2; Hook 2; Popen 1; Hook 1; Sleep], Exn Interrupt) /\
  begins env_ex /\ ends env_ex /\ (forall t i, fails env_ex t (Term i) = None) /\ (forall t, fails env_ex t (Rpc SessionInterrupted) = None).
Proof.
  split; [reflexivity|]. split; [|split; [|split; reflexivity]].
  - split; [|intros t i; split; reflexivity]. exists 1. split; [lia|]. split; [reflexivity|]. intros j J. assert (j = 0) as -> by lia. reflexivity.
  - intros t [] X; try discriminate; reflexivity.
Qed.

(** nobody connects in time *)
Example C100_ex_timeout :
  let E := mkEnv (fun _ _ => None) (fun _ => true) (fun _ => true) (fun t => Nat.ltb 5 (List.length t)) (fun _ => true) (fun _ => []) (fun _ _ => false) (fun _ => false) (fun _ _ => true) in
  start E 2 9 = (ending 2 ++ [Rpc SessionError; LogErrors; Term 2; Term 1; Sleep; Sleep; Popen 2; Hook 2; Popen 1; Hook 1], Exn Timeout) /\ begins E /\ ends E.
Proof.
  cbv zeta. split; [reflexivity|]. split; [|intros t e X; reflexivity].
  split; [|intros t i; split; reflexivity]. exists 0. split; [lia|]. split; [reflexivity|]. intros j J. lia.
Qed.

(** a session that is not waited for after two sleeps *)
Example C100_ex_ends :
  (forall u, 2 <= sleeps u -> waiting (env_with (fun _ => None) 2) u = false /\ should_wait (env_with (fun _ => None) 2) u = false) /\
  start (env_with (fun _ => None) 2) 1 3 = (ending 1 ++ [Sleep; Sleep; Popen 1; Hook 1], Ok).
Proof. split; [|reflexivity]. intros u L. split; [reflexivity|]. apply Nat.ltb_ge. exact L. Qed.

Print Assumptions C100_signals.
Print Assumptions C100_started.
Print Assumptions C100_reports.
Print Assumptions C100_round.
Print Assumptions C100_ends.
Print Assumptions C100_checked.
Print Assumptions C100_clean_partial.
Print Assumptions C100_interrupted_partial.
Print Assumptions C100_timeout_partial.
Print Assumptions C100_clean_refuted.
Print Assumptions C100_interrupted_refuted.
Print Assumptions C100_lost_refuted.
