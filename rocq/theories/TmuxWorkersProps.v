(** C112: workers in tmux: who is signalled, who is waited for, and what a worker that
    never connects does to the session. *)

From Coq Require Import List Bool Arith Lia.
From Verif Require Import TmuxWorkers.
Import ListNotations.

Section Env.
Variable E : env.

(** ** What a computation adds to the trace *)

Definition at_ (P : trace -> eff -> Prop) (m : M) (t : trace) : Prop :=
  forall t' r, m t = (t', r) -> exists d, t' = d ++ t /\ forall a e b, d = a ++ e :: b -> P (b ++ t) e.

Definition adds (P : trace -> eff -> Prop) (m : M) : Prop := forall t, at_ P m t.

Lemma app_split {A} (d2 d1 a b : list A) e : d2 ++ d1 = a ++ e :: b ->
  (exists b', d2 = a ++ e :: b' /\ b = b' ++ d1) \/ (exists a', a = d2 ++ a' /\ d1 = a' ++ e :: b).
Proof.
  revert a. induction d2 as [|x d2 IH]; intros a H; cbn [app] in H.
  - right. exists a. split; [reflexivity|exact H].
  - destruct a as [|y a]; cbn [app] in H.
    + injection H as -> <-. left. exists d2. split; reflexivity.
    + injection H as -> H. destruct (IH a H) as [(b' & -> & ->)|(a' & -> & ->)]; [left; exists b'; split; reflexivity|right; exists a'; split; reflexivity].
Qed.

Lemma adds_none (P : trace -> eff -> Prop) t a e b : [] = a ++ e :: b -> P (b ++ t) e.
Proof. destruct a; discriminate. Qed.

Lemma adds_value P (r : res) : adds P (fun t => (t, r)).
Proof. intros t t' r' H. injection H as <- _. exists []. split; [reflexivity|]. intros a e b. apply adds_none. Qed.

Lemma at_eff (P : trace -> eff -> Prop) e t : P t e -> at_ P (eff_ E e) t.
Proof.
  intros Q t' r H. unfold eff_ in H. injection H as <- _. exists [e]. split; [reflexivity|].
  intros [|? [|? ?]] e' b S; try discriminate. injection S as <- <-. exact Q.
Qed.

Lemma adds_eff (P : trace -> eff -> Prop) e : (forall t, P t e) -> adds P (eff_ E e).
Proof. intros Q t. apply at_eff, Q. Qed.

(** one step, then the rest *)
Lemma at_cons (P : trace -> eff -> Prop) e (m : M) t : P t e -> at_ P m (e :: t) -> forall t' r, m (e :: t) = (t', r) ->
  exists d, t' = d ++ t /\ forall a e b, d = a ++ e :: b -> P (b ++ t) e.
Proof.
  intros Q D t' r H. destruct (D _ _ H) as (d & -> & A). exists (d ++ [e]). split; [rewrite <- app_assoc; reflexivity|].
  intros a x b S. apply app_split in S as [(b' & -> & ->)|(a' & -> & S)].
  - rewrite <- app_assoc. apply (A a x b' eq_refl).
  - destruct a' as [|y [|z a']]; try discriminate. injection S as <- <-. exact Q.
Qed.

Lemma at_seq P a b t : at_ P a t -> (forall t', a t = (t', Ok) -> at_ P b t') -> at_ P (seq a b) t.
Proof.
  intros A B t' r H. unfold seq in H. destruct (a t) as [t1 r1] eqn:E1. destruct (A _ _ E1) as (d1 & -> & A1).
  destruct r1 as [|x|]; [|injection H as <- _; exists d1; split; [reflexivity|exact A1]|injection H as <- _; exists d1; split; [reflexivity|exact A1]].
  destruct (B _ eq_refl _ _ H) as (d2 & -> & B1). exists (d2 ++ d1). split; [apply app_assoc|].
  intros u e v S. apply app_split in S as [(v' & -> & ->)|(u' & -> & S)]; [rewrite <- app_assoc; apply (B1 u e v' eq_refl)|apply (A1 u' e v S)].
Qed.

Lemma adds_seq P a b : adds P a -> adds P b -> adds P (seq a b).
Proof. intros A B t. apply at_seq; [apply A|intros t' _; apply B]. Qed.

Lemma adds_each {A} P (l : list A) f : (forall x, In x l -> adds P (f x)) -> adds P (each l f).
Proof.
  induction l as [|x l IH]; intros H; [apply adds_value|]. cbn [each]. apply adds_seq; [apply H; left; reflexivity|].
  apply IH. intros y I. apply H. right. exact I.
Qed.

Lemma adds_if P (f : trace -> bool) a b : adds P a -> adds P b -> adds P (fun t => if f t then a t else b t).
Proof. intros A B t t' r H. destruct (f t); [apply (A _ _ _ H)|apply (B _ _ _ H)]. Qed.

Lemma adds_when P f m : adds P m -> adds P (when f m).
Proof. intros A. apply (adds_if P f m ret); [exact A|apply adds_value]. Qed.

(** every effect of a trace *)
Definition all_of (P : trace -> eff -> Prop) (t : trace) : Prop := forall a e b, t = a ++ e :: b -> P b e.

Lemma adds_all (P : trace -> eff -> Prop) m t t' r : at_ P m t -> m t = (t', r) -> all_of P t -> all_of P t'.
Proof.
  intros D H T. destruct (D _ _ H) as (d & -> & B). intros a e b S.
  apply app_split in S as [(b' & -> & ->)|(a' & -> & S)]; [apply (B a e b' eq_refl)|apply (T a' e b S)].
Qed.

(** ** The process of a worker *)

(** the server has told the process number [p] of worker [i] *)
Definition told (t : trace) (i p : nat) : Prop := exists a b, t = a ++ b /\ pid E b i = Some p.

Lemma told_more d t i p : told t i p -> told (d ++ t) i p.
Proof. intros (a & b & -> & H). exists (d ++ a), b. split; [apply app_assoc|exact H]. Qed.

Lemma cached_told t i p : cached E t i = Some p -> told t i p.
Proof.
  induction t as [|e t IH]; [discriminate|]. cbn [cached].
  assert (G : cached E t i = Some p -> told (e :: t) i p) by (intros H; apply (told_more [e]), IH, H).
  destruct e; try exact G. destruct (cached E t i) eqn:C; [exact G|]. destruct (Nat.eqb_spec i i0); [|discriminate].
  intros H. apply (told_more [_]). exists [], t. split; [reflexivity|exact H].
Qed.

Lemma at_pid (P : trace -> eff -> Prop) i k t : (forall t, P t (Ask i)) -> (forall p d, told (d ++ t) i p -> at_ P (k p) (d ++ t)) -> at_ P (with_pid E i k) t.
Proof.
  intros A K t' r H. unfold with_pid in H. destruct (cached E t i) as [p|] eqn:C.
  - apply (K p [] (cached_told _ _ _ C) _ _ H).
  - destruct (pid E t i) as [p|] eqn:Q.
    + apply (at_cons P (Ask i) (k p) t (A t)) in H; [exact H|]. apply (K p [Ask i]). apply (told_more [Ask i]). exists [], t. split; [reflexivity|exact Q].
    + apply (at_cons P (Ask i) (raise TypeErr) t (A t)) in H; [exact H|]. apply adds_value.
Qed.

Lemma at_kill (P : trace -> eff -> Prop) i t : (forall t, P t (Ask i)) -> (forall p d, told (d ++ t) i p -> P (d ++ t) (Signal p 15)) -> at_ P (worker_kill E i) t.
Proof.
  intros A S. apply at_pid; [exact A|]. intros p d T t' r H. destruct (eff_ E (Signal p 15) (d ++ t)) as [t1 r1] eqn:E1.
  assert (t' = t1) as -> by (destruct r1 as [|[]|]; injection H as <- _; reflexivity).
  apply (at_eff P _ _ (S p d T) _ _ E1).
Qed.

Lemma at_wait (P : trace -> eff -> Prop) i k t : (forall t, P t (Ask i)) -> (forall t, P t Nap) -> (forall p d, told (d ++ t) i p -> P (d ++ t) (Signal p 0)) -> at_ P (wait_loop E i k) t.
Proof.
  intros A N. revert t. induction k as [|k IH]; intros t S; [apply adds_value|]. cbn [wait_loop]. apply at_pid; [exact A|].
  intros p d T t' r H. unfold eff_ at 1 in H.
  assert (D : forall m : M, at_ P m (Signal p 0 :: d ++ t) -> m (Signal p 0 :: d ++ t) = (t', r) ->
    exists d0, t' = d0 ++ d ++ t /\ forall a e b, d0 = a ++ e :: b -> P (b ++ d ++ t) e) by (intros m D X; apply (at_cons P (Signal p 0) m (d ++ t) (S p d T) D _ _ X)).
  assert (D0 : at_ P (seq (eff_ E Nap) (wait_loop E i k)) (Signal p 0 :: d ++ t)).
  { apply at_seq; [apply at_eff, N|]. intros t1 X. unfold eff_ in X. injection X as <- _. apply IH. intros p' d' T'.
    change (d' ++ Nap :: Signal p 0 :: d ++ t) with (d' ++ ([Nap; Signal p 0] ++ d) ++ t). rewrite app_assoc. apply S. rewrite <- app_assoc. exact T'. }
  destruct (fails E (d ++ t) (Signal p 0)) as [x|]; [|apply (D _ D0 H)].
  destruct x; first [apply (D ret (adds_value P Ok _) H) | refine (D (fun t => (t, _)) (adds_value P _ _) H)].
Qed.

(** ** The shape of a whole run *)

Lemma start_cases n fuel t r : start E n fuel = (t, r) ->
  (exists x, try_connect E 200 [] = (t, x) /\ x = r /\ r <> Ok) \/
  exists t1 t2 r2 t3 r3, try_connect E 200 [] = (t1, Ok) /\ body E n fuel t1 = (t2, r2) /\ handled E n (t2, r2) = (t3, r3) /\
    ((r3 = Running /\ t = t3 /\ r = Running) \/
     (r3 <> Running /\ exists r4, finish E n t3 = (t, r4) /\ r = match r4 with Ok => r3 | _ => r4 end)).
Proof.
  unfold start, seq. destruct (try_connect E 200 []) as [t1 r1]. destruct r1; intros H;
    [right|left; exists (Exn e); injection H as <- <-; split; [reflexivity|split; [reflexivity|discriminate]]|
     left; exists Running; injection H as <- <-; split; [reflexivity|split; [reflexivity|discriminate]]].
  unfold protected in H. destruct (body E n fuel t1) as [t2 r2] eqn:E2. destruct (handled E n (t2, r2)) as [t3 r3] eqn:E3.
  exists t1, t2, r2, t3, r3. split; [reflexivity|]. split; [exact E2|]. split; [exact E3|].
  destruct (finish E n t3) as [t4 r4]. destruct r3 as [|x|].
  - right. split; [discriminate|]. exists r4. destruct r4; injection H as <- <-; split; reflexivity.
  - right. split; [discriminate|]. exists r4. destruct r4; injection H as <- <-; split; reflexivity.
  - left. injection H as <- <-. split; [reflexivity|split; reflexivity].
Qed.

Section Whole.
Variable P : trace -> eff -> Prop.
Variable n : nat.
Hypothesis P_hook : forall t i, P t (Hook i).
Hypothesis P_window : forall t i, P t (Window i).
Hypothesis P_pane : forall t i, P t (Pane i).
Hypothesis P_keys : forall t i, P t (Keys i).
Hypothesis P_rename : forall t i, P t (Rename i).
Hypothesis P_sleep : forall t, P t Sleep.
Hypothesis P_log : forall t, P t LogErrors.
Hypothesis P_failure : forall t i, P t (Rpc (ClientFailure i)).
Hypothesis P_int : forall t, P t (Rpc SessionInterrupted).
Hypothesis P_kills : adds P (kill_workers E n).
Hypothesis P_error : adds P (handle_error E n).
Hypothesis P_finish : adds P (finish E n).

Lemma whole_start i : adds P (worker_start E i).
Proof.
  apply adds_seq; [apply adds_eff; intros; apply P_hook|]. intros t. destruct (session E t) eqn:S; intros t' r H; rewrite S in H; [|apply (adds_value P _ _ _ _ H)].
  destruct (panes E); [|apply (adds_eff P (Window i) (fun t => P_window t i) _ _ _ H)].
  apply (adds_seq P _ _ (adds_eff P (Pane i) (fun t => P_pane t i)) (adds_eff P (Keys i) (fun t => P_keys t i)) _ _ _ H).
Qed.

Lemma whole_check : adds P (check_timed_out E).
Proof.
  intros t. unfold check_timed_out. generalize (connected E t). intros l. apply adds_each. intros i _. apply adds_when.
  apply adds_seq; [apply adds_eff, P_log|]. apply adds_seq; [|apply adds_eff; intros; apply P_failure].
  intros u t' r H. unfold worker_timeout in H. destruct (panes E); [apply (adds_value P _ _ _ _ H)|].
  destruct (opened E u i); [apply (adds_eff P (Rename i) (fun t => P_rename t i) _ _ _ H)|apply (adds_value P _ _ _ _ H)].
Qed.

Lemma whole_connect k : adds P (try_connect E k).
Proof.
  induction k as [|k IH]; [apply adds_value|]. cbn [try_connect]. apply adds_if; [apply adds_value|].
  apply adds_seq; [apply adds_eff, P_sleep|exact IH].
Qed.

Lemma whole_body fuel : adds P (body E n fuel).
Proof.
  apply adds_seq; [apply adds_each; intros i _; apply whole_start|]. apply adds_seq.
  - induction fuel as [|f IH]; [apply adds_value|]. cbn [wait_connect]. apply adds_if; [|apply adds_value].
    apply adds_seq; [apply adds_when, P_error|]. apply adds_seq; [apply adds_eff, P_sleep|exact IH].
  - induction fuel as [|f IH]; [apply adds_value|]. cbn [main_loop]. apply adds_if; [|apply adds_value].
    apply adds_seq; [apply whole_check|]. apply adds_seq; [apply adds_when, P_error|]. apply adds_seq; [apply adds_eff, P_sleep|exact IH].
Qed.

Lemma whole_handled t2 r2 t3 r3 : handled E n (t2, r2) = (t3, r3) -> all_of P t2 -> all_of P t3.
Proof.
  assert (I : adds P (interrupted E n)) by (apply adds_seq; [apply adds_eff, P_int|]; apply adds_seq; [exact P_kills|apply adds_value]).
  intros H A. destruct r2 as [|[]|]; try (injection H as <- _; exact A). apply (adds_all P _ _ _ _ (I t2) H A).
Qed.

Lemma whole fuel t r : start E n fuel = (t, r) -> all_of P t.
Proof.
  intros H. assert (A0 : all_of P []) by (intros [|? ?] ? ? ?; discriminate).
  destruct (start_cases _ _ _ _ H) as [(x & E1 & _)|(t1 & t2 & r2 & t3 & r3 & E1 & E2 & E3 & [(_ & -> & _)|(_ & r4 & E4 & _)])].
  - apply (adds_all P _ _ _ _ (whole_connect 200 []) E1 A0).
  - apply (whole_handled _ _ _ _ E3), (adds_all P _ _ _ _ (whole_body fuel t1) E2), (adds_all P _ _ _ _ (whole_connect 200 []) E1 A0).
  - apply (adds_all P _ _ _ _ (P_finish t3) E4), (whole_handled _ _ _ _ E3), (adds_all P _ _ _ _ (whole_body fuel t1) E2),
      (adds_all P _ _ _ _ (whole_connect 200 []) E1 A0).
Qed.

End Whole.

(** ** Signals *)

Definition proper n (t : trace) (e : eff) : Prop :=
  match e with Signal p s => (s = 0 \/ s = 15) /\ exists i, 1 <= i <= n /\ told t i p | _ => True end.

Lemma in_workers n i : In i (workers n) <-> 1 <= i <= n.
Proof. unfold workers. rewrite in_seq. lia. Qed.

Lemma proper_kills n : adds (proper n) (kill_workers E n).
Proof.
  apply adds_each. intros i I t. apply at_kill; [exact (fun _ => Logic.I)|]. intros p d T. split; [right; reflexivity|].
  exists i. split; [apply in_workers; exact I|exact T].
Qed.

Lemma adds_handle_error (P : trace -> eff -> Prop) n : adds P (kill_workers E n) -> (forall t, P t LogErrors) -> (forall t, P t (Rpc SessionError)) -> adds P (handle_error E n).
Proof.
  intros K L S. apply adds_seq; [exact K|]. apply adds_seq; [apply adds_eff, L|]. apply adds_seq; [apply adds_eff, S|apply adds_value].
Qed.

Lemma proper_finish n : adds (proper n) (finish E n).
Proof.
  apply adds_seq; [|repeat (apply adds_seq; [apply adds_eff; exact (fun _ => I)|]); apply adds_eff; exact (fun _ => I)].
  apply adds_each. intros i I t. apply at_wait; try exact (fun _ => Logic.I). intros p d T. split; [left; reflexivity|].
  exists i. split; [apply in_workers; exact I|exact T].
Qed.

(** a signal goes only to a process that the server has told to be a worker's, and it
    is SIGTERM or asks whether the process exists: no worker is ever killed *)
Theorem C112_signals n fuel t r : start E n fuel = (t, r) ->
  forall a b p s, t = a ++ Signal p s :: b -> (s = 0 \/ s = 15) /\ exists i c d, 1 <= i <= n /\ b = c ++ d /\ pid E d i = Some p.
Proof.
  intros H. pose proof (whole (proper n) n (fun _ _ => I) (fun _ _ => I) (fun _ _ => I) (fun _ _ => I) (fun _ _ => I) (fun _ => I) (fun _ => I)
    (fun _ _ => I) (fun _ => I) (proper_kills n) (adds_handle_error _ n (proper_kills n) (fun _ => I) (fun _ => I)) (proper_finish n) fuel t r H) as W.
  intros a b p s S. destruct (W a _ b S) as [X (i & I & c & d & D & Q)]. split; [exact X|]. exists i, c, d. split; [exact I|]. split; [exact D|exact Q].
Qed.

(** ** How long the end waits *)

Definition is_nap (e : eff) : bool := match e with Nap => true | _ => false end.
Definition naps (t : trace) : nat := List.length (filter is_nap t).

Definition napping (b : nat) (m : M) : Prop := forall t t' r, m t = (t', r) -> naps t' <= naps t + b.

Lemma napping_eff e : is_nap e = false -> napping 0 (eff_ E e).
Proof. intros N t t' r H. injection H as <- _. unfold naps. cbn [filter]. rewrite N. lia. Qed.

Lemma napping_seq a b x y : napping a x -> napping b y -> napping (a + b) (seq x y).
Proof.
  intros X Y t t' r H. unfold seq in H. destruct (x t) as [t1 [|e|]] eqn:E1; pose proof (X _ _ _ E1); [pose proof (Y _ _ _ H); lia| |]; injection H as <- _; lia.
Qed.

Lemma napping_none m : adds (fun _ e => is_nap e = false) m -> napping 0 m.
Proof.
  intros A t t' r H. destruct (A _ _ _ H) as (d & -> & D). unfold naps. rewrite filter_app.
  assert (F : filter is_nap d = []).
  { clear -D. assert (G : forall e, In e d -> is_nap e = false) by (intros e I; apply in_split in I as (a & b & S); apply (D a e b S)).
    clear D. induction d as [|e d IH]; [reflexivity|]. cbn [filter]. rewrite (G e (or_introl eq_refl)). apply IH. intros x I. apply G. right. exact I. }
  rewrite F. cbn [app]. lia.
Qed.

Lemma napping_pid i b k : (forall p, napping b (k p)) -> napping b (with_pid E i k).
Proof.
  intros K t t' r H. unfold with_pid in H. destruct (cached E t i); [apply (K _ _ _ _ H)|].
  destruct (pid E t i); [pose proof (K _ _ _ _ H) as X; exact X|]. injection H as <- _. unfold naps. cbn [filter is_nap]. lia.
Qed.

Lemma napping_wait i k : napping k (wait_loop E i k).
Proof.
  induction k as [|k IH]; [intros t t' r H; injection H as <- _; lia|]. cbn [wait_loop]. apply napping_pid. intros p t t' r H.
  unfold eff_ at 1 in H. destruct (fails E t (Signal p 0)) as [x|] eqn:F.
  - assert (t' = Signal p 0 :: t) as -> by (destruct x; injection H as <- _; reflexivity). unfold naps. cbn [filter is_nap]. lia.
  - unfold seq, eff_ in H. destruct (fails E (Signal p 0 :: t) Nap) as [x|] eqn:G.
    + injection H as <- _. unfold naps. cbn [filter is_nap List.length]. lia.
    + pose proof (IH _ _ _ H) as X. unfold naps in *. cbn [filter is_nap List.length] in X. lia.
Qed.

Lemma napping_each (l : list nat) : napping (10 * List.length l) (each l (worker_wait E)).
Proof.
  induction l as [|i l IH]; [intros t t' r H; injection H as <- _; cbn; lia|]. cbn [each List.length].
  replace (10 * S (List.length l)) with (10 + 10 * List.length l) by lia. apply napping_seq; [apply napping_wait|exact IH].
Qed.

(** the session waits at most five seconds (ten naps) for a worker *)
Theorem C112_waits n fuel t r : start E n fuel = (t, r) -> List.length (filter is_nap t) <= 10 * n.
Proof.
  intros H. set (Q := fun (_ : trace) e => is_nap e = false).
  assert (K : adds Q (kill_workers E n)) by (apply adds_each; intros i _ u; apply at_kill; intros; reflexivity).
  assert (HE : adds Q (handle_error E n)) by (apply adds_handle_error; [exact K|reflexivity|reflexivity]).
  assert (C : napping 0 (try_connect E 200)) by (apply napping_none, whole_connect; intros; reflexivity).
  assert (B : napping 0 (body E n fuel)) by (apply napping_none, whole_body; try (intros; reflexivity); exact HE).
  assert (I : napping 0 (interrupted E n)).
  { apply napping_none. apply adds_seq; [apply adds_eff; reflexivity|]. apply adds_seq; [exact K|apply adds_value]. }
  assert (D : forall t2 r2 t3 r3, handled E n (t2, r2) = (t3, r3) -> naps t3 <= naps t2).
  { intros t2 r2 t3 r3 X. destruct r2 as [|[]|]; try (injection X as <- _; lia). pose proof (I _ _ _ X). lia. }
  assert (F : napping (10 * n) (finish E n)).
  { unfold finish. replace (10 * n) with (10 * List.length (workers n) + 0) by (unfold workers; rewrite seq_length; lia). apply napping_seq; [apply napping_each|].
    apply (napping_seq 0 0); [apply napping_eff; reflexivity|]. apply (napping_seq 0 0); [apply napping_eff; reflexivity|].
    apply (napping_seq 0 0); [apply napping_eff; reflexivity|]. apply napping_eff. reflexivity. }
  change (naps t <= 10 * n).
  destruct (start_cases _ _ _ _ H) as [(x & E1 & _)|(t1 & t2 & r2 & t3 & r3 & E1 & E2 & E3 & [(_ & -> & _)|(_ & r4 & E4 & _)])];
    pose proof (C _ _ _ E1) as C1; change (naps []) with 0 in C1; [lia| |];
    pose proof (B _ _ _ E2); pose proof (D _ _ _ _ E3); [lia|]. pose proof (F _ _ _ E4). lia.
Qed.

(** ** A worker that never connects *)

Definition raised (x : exn) : Prop := exists b e, fails E b e = Some x.

(** what a computation may raise *)
Definition only (m : M) : Prop := forall t t' r, m t = (t', r) -> r = Ok \/ exists x, r = Exn x /\ (x = TypeErr \/ raised x).

Lemma only_eff e : only (eff_ E e).
Proof. intros t t' r H. injection H as _ <-. destruct (fails E t e) as [x|] eqn:F; [right; exists x; split; [reflexivity|]; right; exists t, e; exact F|left; reflexivity]. Qed.

Lemma only_seq a b : only a -> only b -> only (seq a b).
Proof.
  intros A B t t' r H. unfold seq in H. destruct (a t) as [t1 r1] eqn:E1. destruct (A _ _ _ E1) as [->|(x & -> & X)]; [apply (B _ _ _ H)|].
  injection H as _ <-. right. exists x. split; [reflexivity|exact X].
Qed.

Lemma only_pid i k : (forall p, only (k p)) -> only (with_pid E i k).
Proof.
  intros K t t' r H. unfold with_pid in H. destruct (cached E t i); [apply (K _ _ _ _ H)|]. destruct (pid E t i); [apply (K _ _ _ _ H)|].
  injection H as _ <-. right. exists TypeErr. split; [reflexivity|left; reflexivity].
Qed.

Lemma only_kill i : only (worker_kill E i).
Proof.
  apply only_pid. intros p t t' r H. destruct (eff_ E (Signal p 15) t) as [t1 r1] eqn:E1. destruct (only_eff _ _ _ _ E1) as [->|(x & -> & X)].
  - injection H as _ <-. left. reflexivity.
  - destruct x; injection H as _ <-; first [left; reflexivity|right; eexists; split; [reflexivity|exact X]].
Qed.

Lemma only_wait i k : only (wait_loop E i k).
Proof.
  induction k as [|k IH]; [intros t t' r H; injection H as _ <-; left; reflexivity|]. cbn [wait_loop]. apply only_pid. intros p t t' r H.
  destruct (eff_ E (Signal p 0) t) as [t1 r1] eqn:E1. destruct (only_eff _ _ _ _ E1) as [->|(x & -> & X)].
  - apply (only_seq _ _ (only_eff Nap) IH _ _ _ H).
  - destruct x; injection H as _ <-; first [left; reflexivity|right; eexists; split; [reflexivity|exact X]].
Qed.

Lemma each_app {A} (l1 l2 : list A) f t : each (l1 ++ l2) f t = seq (each l1 f) (each l2 f) t.
Proof.
  revert t. induction l1 as [|x l1 IH]; intros t; [reflexivity|]. cbn [app each]. unfold seq at 1 2. unfold seq at 1.
  destruct (f x t) as [t1 []]; [|reflexivity|reflexivity]. rewrite IH. reflexivity.
Qed.

Lemma only_each (l : list nat) f : (forall x, In x l -> only (f x)) -> only (each l f).
Proof.
  induction l as [|x l IH]; intros H; [intros t t' r X; injection X as _ <-; left; reflexivity|]. cbn [each]. apply only_seq; [apply H; left; reflexivity|].
  apply IH. intros y I. apply H. right. exact I.
Qed.

Lemma workers_split n i : 1 <= i <= n -> exists l2, workers n = workers (i - 1) ++ i :: l2.
Proof.
  intros I. exists (List.seq (S i) (n - i)). unfold workers. replace n with ((i - 1) + S (n - i)) at 1 by lia. rewrite seq_app. f_equal.
  replace (1 + (i - 1)) with i by lia. reflexivity.
Qed.

Section Never.
Variables (n i : nat).
Hypothesis I : 1 <= i <= n.
Hypothesis N : forall t, pid E t i = None.

Lemma never_cached t : cached E t i = None.
Proof.
  induction t as [|e t IH]; [reflexivity|]. cbn [cached]. destruct e; try exact IH. rewrite IH. destruct (Nat.eqb i i0); [apply N|reflexivity].
Qed.

Lemma never_kill t : worker_kill E i t = (Ask i :: t, Exn TypeErr).
Proof. unfold worker_kill, with_pid. rewrite never_cached, N. reflexivity. Qed.

Lemma never_wait t : worker_wait E i t = (Ask i :: t, Exn TypeErr).
Proof. unfold worker_wait. cbn [wait_loop]. unfold with_pid. rewrite never_cached, N. reflexivity. Qed.

(** nothing but what is about the workers before [i] *)
Definition before (t : trace) (e : eff) : Prop :=
  match e with
  | Signal p s => exists j, 1 <= j < i /\ told t j p
  | Rpc SessionError | Rpc StopServe | Rpc StopKeepalive | Join _ => False
  | _ => True
  end.

Lemma blocked (f : nat -> M) m : (forall t, f i t = (Ask i :: t, Exn TypeErr)) -> (forall j, 1 <= j < i -> adds before (f j) /\ only (f j)) ->
  adds before (seq (each (workers n) f) m) /\
  forall t t' r, seq (each (workers n) f) m t = (t', r) -> exists x, r = Exn x /\ (x = TypeErr \/ raised x).
Proof.
  intros B F. destruct (workers_split n i I) as (l2 & W). rewrite W.
  assert (A1 : adds before (each (workers (i - 1)) f)) by (apply adds_each; intros j J; apply F; apply in_workers in J; lia).
  assert (O1 : only (each (workers (i - 1)) f)) by (apply only_each; intros j J; apply F; apply in_workers in J; lia).
  assert (X : forall t, seq (each (workers (i - 1) ++ i :: l2) f) m t =
    match each (workers (i - 1)) f t with (t1, Ok) => (Ask i :: t1, Exn TypeErr) | x => x end).
  { intros t. unfold seq at 1. rewrite each_app. unfold seq. destruct (each (workers (i - 1)) f t) as [t1 []]; [|reflexivity|reflexivity].
    cbn [each]. unfold seq. rewrite B. reflexivity. }
  split.
  - intros t t' r H. rewrite X in H. destruct (each (workers (i - 1)) f t) as [t1 r1] eqn:E1. destruct (A1 _ _ _ E1) as (d & -> & D).
    destruct r1; [|injection H as <- _; exists d; split; [reflexivity|exact D]|injection H as <- _; exists d; split; [reflexivity|exact D]].
    injection H as <- _. exists (Ask i :: d). split; [reflexivity|]. intros [|y a] e b S; injection S as <- S; [exact Logic.I|apply (D a e b S)].
  - intros t t' r H. rewrite X in H. destruct (each (workers (i - 1)) f t) as [t1 r1] eqn:E1. destruct (O1 _ _ _ E1) as [->|(x & -> & Y)].
    + injection H as _ <-. exists TypeErr. split; [reflexivity|left; reflexivity].
    + injection H as _ <-. exists x. split; [reflexivity|exact Y].
Qed.

Lemma blocked_kills m : adds before (seq (kill_workers E n) m) /\
  forall t t' r, seq (kill_workers E n) m t = (t', r) -> exists x, r = Exn x /\ (x = TypeErr \/ raised x).
Proof.
  apply blocked; [exact never_kill|]. intros j J. split; [|apply only_kill]. intros t. apply at_kill; [exact (fun _ => Logic.I)|].
  intros p d T. exists j. split; [exact J|exact T].
Qed.

Lemma blocked_waits m : adds before (seq (each (workers n) (worker_wait E)) m) /\
  forall t t' r, seq (each (workers n) (worker_wait E)) m t = (t', r) -> exists x, r = Exn x /\ (x = TypeErr \/ raised x).
Proof.
  apply blocked; [exact never_wait|]. intros j J. split; [|apply only_wait]. intros t. apply at_wait; try exact (fun _ => Logic.I).
  intros p d T. exists j. split; [exact J|exact T].
Qed.

Lemma seq_ret m t : seq m ret t = m t.
Proof. unfold seq, ret. destruct (m t) as [t1 []]; reflexivity. Qed.

Lemma never_all fuel t r : start E n fuel = (t, r) -> all_of before t.
Proof.
  apply whole; try (intros; exact Logic.I).
  - intros u t' r' H. rewrite <- seq_ret in H. apply (proj1 (blocked_kills ret) u t' r' H).
  - apply blocked_kills.
  - apply blocked_waits.
Qed.

Lemma connect_only k t t' r : try_connect E k t = (t', r) -> r = Ok \/ r = Exn ServerDown \/ exists x, r = Exn x /\ raised x.
Proof.
  revert t. induction k as [|k IH]; intros t H; [injection H as _ <-; right; left; reflexivity|]. cbn [try_connect] in H.
  destruct (up E t); [injection H as _ <-; left; reflexivity|]. unfold seq in H. destruct (eff_ E Sleep t) as [t1 r1] eqn:E1.
  injection E1 as <- <-. destruct (fails E t Sleep) as [x|] eqn:F; [injection H as _ <-; right; right; exists x; split; [reflexivity|]; exists t, Sleep; exact F|].
  apply (IH _ H).
Qed.

(** if a worker never connects, the session ends with a TypeError (or what some call
    raised) and never with ParallelTimeout; the error is never reported to the server,
    the servers are not stopped, and no worker from this one on is signalled *)
Theorem C112_never_connected fuel t r : start E n fuel = (t, r) -> r <> Running ->
  (exists x, r = Exn x /\ (x = TypeErr \/ x = ServerDown \/ exists b e, fails E b e = Some x)) /\
  (forall e, In e t -> e <> Rpc SessionError /\ e <> Rpc StopServe /\ e <> Rpc StopKeepalive /\ forall k, e <> Join k) /\
  (forall p s, In (Signal p s) t -> exists j b, 1 <= j < i /\ pid E b j = Some p).
Proof.
  intros H R. pose proof (never_all _ _ _ H) as A. split; [|split].
  - destruct (start_cases _ _ _ _ H) as [(x & E1 & <- & X)|(t1 & t2 & r2 & t3 & r3 & E1 & E2 & E3 & [(_ & _ & ->)|(_ & r4 & E4 & ->)])]; [|contradiction|].
    + destruct (connect_only _ _ _ _ E1) as [->|[->|(y & -> & Y)]]; [contradiction| |]; eexists; split; try reflexivity; [right; left; reflexivity|right; right; exact Y].
    + destruct (proj2 (blocked_waits _) _ _ _ E4) as (x & -> & X). exists x. split; [reflexivity|]. destruct X; [left|right; right]; assumption.
  - intros e J. apply in_split in J as (a & b & S). pose proof (A a e b S) as B. split; [|split; [|split; [|intros k]]]; intros ->; exact B.
  - intros p s J. apply in_split in J as (a & b & S). destruct (A a _ b S) as (j & J & c & d & _ & Q). exists j, d. split; [exact J|exact Q].
Qed.

End Never.

(** ** When all workers connect *)

Section All.
Variable n : nat.

(** every worker has its window or its pane *)
Definition ready (b : trace) : Prop := forall i, 1 <= i <= n -> In (Window i) b \/ In (Keys i) b.

(** once the server does not wait for workers any more, it knows their processes; it
    knows no others *)
Hypothesis K : forall a b i, ready b -> waiting E b = false -> 1 <= i <= n -> pid E (a ++ b) i <> None.
Hypothesis C : forall t i, In i (connected E t) -> 1 <= i <= n.
(** tmux has the session, the time to connect is not over *)
Hypothesis S0 : forall t, session E t = true.
Hypothesis L : forall t, late E t = false.
(** nothing raises, except that a process may be gone, and that the sleep of the loop may be
    interrupted when the workers have connected *)
Hypothesis F : forall t e, fails E t e = None \/ (exists p s, e = Signal p s /\ fails E t e = Some Esrch) \/
  (e = Sleep /\ fails E t e = Some Interrupt /\ exists a b, t = a ++ b /\ ready b /\ waiting E b = false).

Definition known (t : trace) : Prop := forall a i, 1 <= i <= n -> pid E (a ++ t) i <> None.

Lemma known_more d t : known t -> known (d ++ t).
Proof. intros H a i I. rewrite app_assoc. apply H. exact I. Qed.

Lemma known_of a b : ready b -> waiting E b = false -> known (a ++ b).
Proof. intros R W c i I. rewrite app_assoc. apply K; assumption. Qed.

Lemma quiet e : (forall p s, e <> Signal p s) -> e <> Sleep -> forall t, eff_ E e t = (e :: t, Ok).
Proof.
  intros A B t. unfold eff_. destruct (F t e) as [->|[(p & s & X & _)|(X & _)]]; [reflexivity|destruct (A p s X)|contradiction].
Qed.

(** the process number is there *)
Lemma has_pid t i k : known t -> 1 <= i <= n -> exists p d, with_pid E i k t = k p (d ++ t) /\ cached E (d ++ t) i = Some p /\ (d = [] \/ d = [Ask i]).
Proof.
  intros H I. unfold with_pid. destruct (cached E t i) as [p|] eqn:X; [exists p, []; split; [reflexivity|]; split; [exact X|left; reflexivity]|].
  pose proof (H [] i I) as Q. cbn [app] in Q. destruct (pid E t i) as [p|] eqn:Y; [|contradiction].
  exists p, [Ask i]. split; [reflexivity|]. split; [|right; reflexivity]. cbn [app cached]. rewrite X, Nat.eqb_refl. exact Y.
Qed.

Lemma kill_one t i : known t -> 1 <= i <= n -> exists p d, worker_kill E i t = (Signal p 15 :: d ++ t, Ok) /\ told (d ++ t) i p.
Proof.
  intros H I. unfold worker_kill. destruct (has_pid t i (fun p t => match eff_ E (Signal p 15) t with (t, Exn Esrch) => (t, Ok) | x => x end) H I) as (p & d & -> & X & _).
  exists p, d. split; [|apply cached_told; exact X]. unfold eff_.
  destruct (F (d ++ t) (Signal p 15)) as [->|[(p' & s & _ & ->)|(Y & _)]]; [reflexivity|reflexivity|discriminate].
Qed.

(** a worker was sent the signal *)
Definition signalled (t : trace) (i : nat) : Prop := exists a b p, t = a ++ Signal p 15 :: b /\ told b i p.

Lemma signalled_more d t i : signalled t i -> signalled (d ++ t) i.
Proof. intros (a & b & p & -> & T). exists (d ++ a), b, p. split; [apply app_assoc|exact T]. Qed.

Lemma kill_each l t : known t -> (forall i, In i l -> 1 <= i <= n) -> exists d, each l (worker_kill E) t = (d ++ t, Ok) /\ forall i, In i l -> signalled (d ++ t) i.
Proof.
  revert t. induction l as [|i l IH]; intros t H I; [exists []; split; [reflexivity|intros i []]|]. cbn [each]. unfold seq.
  destruct (kill_one t i H (I i (or_introl eq_refl))) as (p & d & -> & T).
  change (Signal p 15 :: d ++ t) with ((Signal p 15 :: d) ++ t).
  destruct (IH ((Signal p 15 :: d) ++ t) (known_more _ _ H) (fun j J => I j (or_intror J))) as (d' & -> & S). exists (d' ++ Signal p 15 :: d).
  split; [rewrite <- app_assoc; reflexivity|]. intros j [<-|J].
  - exists d', (d ++ t), p. split; [rewrite <- app_assoc; reflexivity|exact T].
  - rewrite <- app_assoc. apply S. exact J.
Qed.

(** a worker was waited for: it was seen to be gone, or it was seen running ten times,
    with a nap after each *)
Definition waited (t : trace) (i : nat) : Prop := exists a b p, told b i p /\
  ((t = a ++ Signal p 0 :: b /\ fails E b (Signal p 0) = Some Esrch) \/ t = a ++ concat (repeat [Nap; Signal p 0] 10) ++ b).

Lemma waited_more d t i : waited t i -> waited (d ++ t) i.
Proof.
  intros (a & b & p & T & [[-> X]|X]); exists (d ++ a), b, p; (split; [exact T|]); [left; split; [apply app_assoc|exact X]|right]. rewrite X. apply app_assoc.
Qed.

Lemma concat_end {A} (u : list A) j t : concat (repeat u (S j)) ++ t = concat (repeat u j) ++ u ++ t.
Proof.
  induction j as [|j IH]; [cbn; rewrite app_nil_r; reflexivity|].
  change (concat (repeat u (S (S j)))) with (u ++ concat (repeat u (S j))). rewrite <- app_assoc, IH.
  change (concat (repeat u (S j))) with (u ++ concat (repeat u j)). rewrite <- app_assoc. reflexivity.
Qed.

Lemma wait_more i p k t : cached E t i = Some p ->
  (exists d b, wait_loop E i k t = (Signal p 0 :: b, Ok) /\ b = d ++ t /\ fails E b (Signal p 0) = Some Esrch) \/
  wait_loop E i k t = (concat (repeat [Nap; Signal p 0] k) ++ t, Ok).
Proof.
  revert t. induction k as [|k IH]; intros t X; [right; reflexivity|]. cbn [wait_loop]. unfold with_pid. rewrite X. unfold eff_ at 1 3.
  destruct (F t (Signal p 0)) as [G|[(p' & s & _ & G)|(Y & _)]]; [| |discriminate]; rewrite G.
  - unfold seq. rewrite (quiet Nap) by discriminate.
    destruct (IH (Nap :: Signal p 0 :: t) X) as [(d & b & -> & -> & Y)|Y].
    + left. exists (d ++ [Nap; Signal p 0]), (d ++ Nap :: Signal p 0 :: t). split; [reflexivity|]. split; [rewrite <- app_assoc; reflexivity|exact Y].
    + right. rewrite Y. rewrite concat_end. reflexivity.
  - left. exists [], t. split; [reflexivity|]. split; [reflexivity|exact G].
Qed.

Lemma wait_one t i : known t -> 1 <= i <= n -> exists d, worker_wait E i t = (d ++ t, Ok) /\ waited (d ++ t) i.
Proof.
  intros H I. unfold worker_wait.
  assert (W : exists p d, wait_loop E i 10 t = wait_loop E i 10 (d ++ t) /\ cached E (d ++ t) i = Some p).
  { cbn [wait_loop]. destruct (has_pid t i (fun p t => match eff_ E (Signal p 0) t with (t, Exn Esrch) => ret t | (t, Ok) => seq (eff_ E Nap) (wait_loop E i 9) t | x => x end) H I)
      as (p & d & X & Y & _). exists p, d. split; [|exact Y]. etransitivity; [exact X|]. unfold with_pid at 1. rewrite Y. reflexivity. }
  destruct W as (p & d & -> & X). pose proof (cached_told _ _ _ X) as T. destruct (wait_more i p 10 (d ++ t) X) as [(d' & b & -> & -> & Y)| ->].
  - exists (Signal p 0 :: d' ++ d). cbn [app]. rewrite <- app_assoc. split; [reflexivity|].
    exists [], (d' ++ d ++ t), p. split; [apply told_more; exact T|]. left. split; [reflexivity|exact Y].
  - exists (concat (repeat [Nap; Signal p 0] 10) ++ d). rewrite <- app_assoc. split; [reflexivity|]. exists [], (d ++ t), p. split; [exact T|]. right. reflexivity.
Qed.

Lemma wait_each l t : known t -> (forall i, In i l -> 1 <= i <= n) -> exists d, each l (worker_wait E) t = (d ++ t, Ok) /\ forall i, In i l -> waited (d ++ t) i.
Proof.
  revert t. induction l as [|i l IH]; intros t H I; [exists []; split; [reflexivity|intros i []]|]. cbn [each]. unfold seq.
  destruct (wait_one t i H (I i (or_introl eq_refl))) as (d & -> & T).
  destruct (IH (d ++ t) (known_more _ _ H) (fun j J => I j (or_intror J))) as (d' & -> & S). exists (d' ++ d).
  split; [rewrite <- app_assoc; reflexivity|]. intros j [<-|J]; rewrite <- app_assoc; [apply waited_more; exact T|apply S; exact J].
Qed.

Definition ending : trace := [Join true; Join false; Rpc StopKeepalive; Rpc StopServe].

Lemma finishes t : known t -> exists d, finish E n t = (ending ++ d ++ t, Ok) /\ forall i, 1 <= i <= n -> waited (ending ++ d ++ t) i.
Proof.
  intros H. destruct (wait_each (workers n) t H) as (d & X & W); [intros i I; apply in_workers; exact I|]. exists d. unfold finish, seq at 1. rewrite X.
  unfold seq. rewrite !quiet by discriminate. split; [reflexivity|]. intros i I. apply waited_more, W, in_workers, I.
Qed.

(** *** The body *)

Lemma opened_more d t i : opened E t i = true -> opened E (d ++ t) i = true.
Proof.
  intros H. induction d as [|e d IH]; [exact H|]. cbn [app opened]. destruct e; try exact IH. rewrite IH. destruct (Nat.eqb i i0); [|reflexivity].
  destruct (fails E (d ++ t) (Window i0)); reflexivity.
Qed.

Definition open_all (t : trace) : Prop := panes E = true \/ forall i, 1 <= i <= n -> opened E t i = true.

Lemma open_more d t : open_all t -> open_all (d ++ t).
Proof. intros [H|H]; [left; exact H|right; intros i I; apply opened_more, H, I]. Qed.

Lemma ready_more d t : ready t -> ready (d ++ t).
Proof. intros H i I. destruct (H i I); [left|right]; apply in_app_iff; right; assumption. Qed.

Lemma starts l t : exists d, each l (worker_start E) t = (d ++ t, Ok) /\ (forall i, In i l -> In (Window i) d \/ In (Keys i) d) /\
  (panes E = true \/ forall i, In i l -> opened E (d ++ t) i = true).
Proof.
  revert t. induction l as [|i l IH]; intros t.
  { exists []. split; [reflexivity|]. split; [intros i []|right; intros i []]. }
  cbn [each]. unfold seq at 1. unfold worker_start at 1, seq at 1. rewrite (quiet (Hook i)) by discriminate. rewrite S0.
  destruct (panes E) eqn:P.
  - unfold seq at 1. rewrite !quiet by discriminate. destruct (IH (Keys i :: Pane i :: Hook i :: t)) as (d & -> & D & _).
    exists (d ++ [Keys i; Pane i; Hook i]). split; [rewrite <- app_assoc; reflexivity|]. split; [|left; reflexivity].
    intros j [<-|J]; [right; apply in_app_iff; right; left; reflexivity|]. destruct (D j J); [left|right]; apply in_app_iff; left; assumption.
  - rewrite quiet by discriminate. destruct (IH (Window i :: Hook i :: t)) as (d & -> & D & [X|D2]); [discriminate|].
    exists (d ++ [Window i; Hook i]). rewrite <- app_assoc. split; [reflexivity|]. split; [|right].
    + intros j [<-|J]; [left; apply in_app_iff; right; left; reflexivity|]. destruct (D j J); [left|right]; apply in_app_iff; left; assumption.
    + intros j [<-|J]; [|apply D2; exact J]. apply opened_more. cbn [app opened]. rewrite Nat.eqb_refl.
      destruct (F (Hook i :: t) (Window i)) as [->|[(p & s & Y & _)|(Y & _)]]; [reflexivity|discriminate|discriminate].
Qed.

Lemma sleeps t : eff_ E Sleep t = (Sleep :: t, Ok) \/ (eff_ E Sleep t = (Sleep :: t, Exn Interrupt) /\ known t).
Proof.
  unfold eff_. destruct (F t Sleep) as [->|[(p & s & Y & _)|(_ & -> & a & b & -> & R & W)]]; [left; reflexivity|discriminate|right].
  split; [reflexivity|]. apply known_of; assumption.
Qed.

Lemma connects fuel t : ready t -> exists d r, wait_connect E n fuel t = (d ++ t, r) /\
  (r = Running \/ (known (d ++ t) /\ (r = Ok \/ r = Exn Interrupt))).
Proof.
  revert t. induction fuel as [|f IH]; intros t R; [exists [], Running; split; [reflexivity|left; reflexivity]|]. cbn [wait_connect].
  destruct (waiting E t) eqn:W; [|exists [], Ok; split; [reflexivity|right; split; [apply (known_of [] t R W)|left; reflexivity]]].
  unfold seq at 1. unfold when. rewrite L. unfold ret at 1. unfold seq. destruct (sleeps t) as [->|[-> Kn]].
  - destruct (IH (Sleep :: t)) as (d & r & -> & X); [apply (ready_more [Sleep]); exact R|]. exists (d ++ [Sleep]), r. rewrite <- app_assoc. split; [reflexivity|exact X].
  - exists [Sleep], (Exn Interrupt). split; [reflexivity|]. right. split; [apply known_more; exact Kn|right; reflexivity].
Qed.

Lemma checks t : open_all t -> exists d, check_timed_out E t = (d ++ t, Ok).
Proof.
  unfold check_timed_out. pose proof (C t) as I. revert I. generalize (connected E t). intros l. intros I O. revert t O.
  induction l as [|i l IH]; intros t O; [exists []; reflexivity|]. cbn [each]. unfold seq at 1. unfold when at 1.
  assert (I' : forall j, In j l -> 1 <= j <= n) by (intros j J; apply I; right; exact J).
  destruct (silent E t i); [|apply (IH I' t O)]. unfold seq at 1. rewrite quiet by discriminate. unfold seq at 1, worker_timeout at 1.
  destruct (panes E) eqn:P.
  - unfold ret at 1. rewrite quiet by discriminate. destruct (IH I' (Rpc (ClientFailure i) :: LogErrors :: t)) as (d & X); [left; exact P|].
    rewrite X. exists (d ++ [Rpc (ClientFailure i); LogErrors]). rewrite <- app_assoc. reflexivity.
  - destruct O as [O|O]; [rewrite P in O; discriminate|]. pose proof (opened_more [LogErrors] t i (O i (I i (or_introl eq_refl)))) as O1. cbn [app] in O1. rewrite O1.
    rewrite !quiet by discriminate. destruct (IH I' (Rpc (ClientFailure i) :: Rename i :: LogErrors :: t)) as (d & X).
    { right. intros j J. apply (opened_more [Rpc (ClientFailure i); Rename i; LogErrors]), O, J. }
    rewrite X. exists (d ++ [Rpc (ClientFailure i); Rename i; LogErrors]). rewrite <- app_assoc. reflexivity.
Qed.

Lemma loops fuel t : known t -> open_all t -> exists d r, main_loop E n fuel t = (d ++ t, r) /\
  (r = Running \/ r = Ok \/ r = Exn Interrupt \/
   (r = Exn Timeout /\ In (Rpc SessionError) d /\ forall i, 1 <= i <= n -> signalled (d ++ t) i)).
Proof.
  revert t. induction fuel as [|f IH]; intros t Kn O; [exists [], Running; split; [reflexivity|left; reflexivity]|]. cbn [main_loop].
  destruct (should_wait E t); [|exists [], Ok; split; [reflexivity|right; left; reflexivity]].
  unfold seq at 1. destruct (checks t O) as (d1 & ->). unfold seq at 1. unfold check_no_requests, when. destruct (idle E (d1 ++ t)).
  - unfold handle_error, seq at 1. unfold kill_workers. destruct (kill_each (workers n) (d1 ++ t) (known_more _ _ Kn)) as (d2 & -> & S); [intros i I; apply in_workers; exact I|].
    unfold seq. rewrite !quiet by discriminate. exists (Rpc SessionError :: LogErrors :: d2 ++ d1), (Exn Timeout). split; [cbn [app]; rewrite <- app_assoc; reflexivity|].
    right. right. right. split; [reflexivity|]. split; [left; reflexivity|]. intros i I. cbn [app]. rewrite <- app_assoc.
    apply (signalled_more [Rpc SessionError; LogErrors]), S, in_workers, I.
  - unfold ret at 1. unfold seq. destruct (sleeps (d1 ++ t)) as [->|[-> _]].
    + destruct (IH (Sleep :: d1 ++ t)) as (d & r & -> & X); [apply (known_more (Sleep :: d1)); exact Kn|apply (open_more (Sleep :: d1)); exact O|].
      exists (d ++ Sleep :: d1), r. rewrite <- app_assoc. split; [reflexivity|]. destruct X as [X|[X|[X|(X & Y & Z)]]]; [tauto|tauto|tauto|].
      right. right. right. split; [exact X|]. split; [apply in_app_iff; left; exact Y|exact Z].
    + exists (Sleep :: d1), (Exn Interrupt). split; [reflexivity|]. tauto.
Qed.

Lemma body_shape fuel t : exists d r, body E n fuel t = (d ++ t, r) /\
  (r = Running \/ (known (d ++ t) /\ (r = Ok \/ r = Exn Interrupt \/
   (r = Exn Timeout /\ In (Rpc SessionError) d /\ forall i, 1 <= i <= n -> signalled (d ++ t) i)))).
Proof.
  unfold body, seq at 1. destruct (starts (workers n) t) as (d1 & -> & D & O).
  assert (R : ready (d1 ++ t)) by (intros i I; destruct (D i (proj2 (in_workers n i) I)); [left|right]; apply in_app_iff; left; assumption).
  assert (Op : open_all (d1 ++ t)) by (destruct O as [O|O]; [left; exact O|right; intros i I; apply O, in_workers, I]).
  unfold seq. destruct (connects fuel (d1 ++ t) R) as (d2 & r2 & -> & X).
  destruct X as [->|(Kn & [->| ->])].
  - exists (d2 ++ d1), Running. rewrite <- app_assoc. split; [reflexivity|left; reflexivity].
  - destruct (loops fuel (d2 ++ d1 ++ t) Kn (open_more _ _ Op)) as (d3 & r3 & -> & X). exists (d3 ++ d2 ++ d1), r3. rewrite <- !app_assoc. split; [reflexivity|].
    destruct X as [X|X]; [left; exact X|right]. split; [apply known_more; exact Kn|]. destruct X as [X|[X|(X & Y & Z)]]; [tauto|tauto|].
    right. right. split; [exact X|]. split; [apply in_app_iff; left; exact Y|exact Z].
  - exists (d2 ++ d1), (Exn Interrupt). rewrite <- app_assoc. split; [reflexivity|]. right. split; [exact Kn|tauto].
Qed.

(** when all workers connect and nothing else fails: every worker is waited for, then
    both servers are stopped and joined; a session that is interrupted or hears nothing
    for too long first sends SIGTERM to every worker, and tells the server *)
Theorem C112_connected fuel t r : (exists k, k < 200 /\ up E (repeat Sleep k) = true /\ forall j, j < k -> up E (repeat Sleep j) = false /\ fails E (repeat Sleep j) Sleep = None) ->
  start E n fuel = (t, r) -> r <> Running ->
  (exists t', t = [Join true; Join false; Rpc StopKeepalive; Rpc StopServe] ++ t') /\
  (forall i, 1 <= i <= n -> exists a b p, (exists c d, b = c ++ d /\ pid E d i = Some p) /\
     ((t = a ++ Signal p 0 :: b /\ fails E b (Signal p 0) = Some Esrch) \/ t = a ++ concat (repeat [Nap; Signal p 0] 10) ++ b)) /\
  (r = Ok \/
   ((r = Exn Interrupt /\ In (Rpc SessionInterrupted) t \/ r = Exn Timeout /\ In (Rpc SessionError) t) /\
    forall i, 1 <= i <= n -> exists a b p, t = a ++ Signal p 15 :: b /\ exists c d, b = c ++ d /\ pid E d i = Some p)).
Proof.
  intros (k & K1 & K2 & K3) H N.
  assert (U : forall j m, j + m = k -> try_connect E (200 - j) (repeat Sleep j) = (repeat Sleep k, Ok)).
  { intros j m. revert j. induction m as [|m IH]; intros j J.
    - assert (j = k) as -> by lia. destruct (200 - k) eqn:X; [lia|]. cbn [try_connect]. rewrite K2. reflexivity.
    - destruct (200 - j) eqn:X; [lia|]. cbn [try_connect]. destruct (K3 j ltac:(lia)) as [-> Q]. unfold seq, eff_. rewrite Q.
      replace n0 with (200 - S j) by lia. change (Sleep :: repeat Sleep j) with (repeat Sleep (S j)). apply IH. lia. }
  pose proof (U 0 k eq_refl) as U0. change (200 - 0) with 200 in U0. cbn [repeat] in U0.
  destruct (start_cases _ _ _ _ H) as [(x & E1 & <- & X)|(t1 & t2 & r2 & t3 & r3 & E1 & E2 & E3 & H4)].
  { rewrite U0 in E1. injection E1 as _ <-. contradiction. }
  destruct (body_shape fuel t1) as (d & r' & Y & B). rewrite Y in E2. injection E2 as <- <-.
  assert (G : r3 = Running \/ (known t3 /\ (r3 = Ok \/ ((r3 = Exn Interrupt /\ In (Rpc SessionInterrupted) t3 \/ r3 = Exn Timeout /\ In (Rpc SessionError) t3) /\
    forall i, 1 <= i <= n -> signalled t3 i)))).
  { destruct B as [->|(Kn & [->|[->|(-> & B1 & B2)]])].
    - injection E3 as _ <-. left. reflexivity.
    - injection E3 as <- <-. right. split; [exact Kn|left; reflexivity].
    - cbn [handled] in E3. unfold interrupted, seq in E3. rewrite quiet in E3 by discriminate. unfold kill_workers in E3.
      destruct (kill_each (workers n) (Rpc SessionInterrupted :: d ++ t1) (known_more [_] _ Kn)) as (d2 & X & S); [intros i I; apply in_workers; exact I|].
      rewrite X in E3. injection E3 as <- <-. right. split; [apply (known_more d2), (known_more [_]); exact Kn|]. right. split.
      + left. split; [reflexivity|]. apply in_app_iff. right. left. reflexivity.
      + intros i I. apply S, in_workers, I.
    - injection E3 as <- <-. right. split; [exact Kn|]. right. split; [|exact B2]. right. split; [reflexivity|]. apply in_app_iff. left. exact B1. }
  destruct H4 as [(_ & _ & ->)|(N3 & r4 & E4 & ->)]; [contradiction|]. destruct G as [G|(Kn & G)]; [contradiction|].
  destruct (finishes t3 Kn) as (d4 & X & W). rewrite X in E4. injection E4 as <- <-. split; [exists (d4 ++ t3); reflexivity|]. split.
  - intros i I. destruct (W i I) as (a & b & p & T & D). exists a, b, p. split; [exact T|exact D].
  - destruct G as [G|(G & S)]; [left; exact G|right]. split.
    + destruct G as [(G & J)|(G & J)]; [left|right]; (split; [exact G|]); do 4 right; apply in_app_iff; right; exact J.
    + intros i I. destruct (signalled_more (ending ++ d4) _ _ (S i I)) as (a & b & p & Z & T). exists a, b, p. split; [exact Z|exact T].
Qed.

End All.

(** a round that finds silent workers signals nobody *)
Theorem C112_silent t t' r : check_timed_out E t = (t', r) -> exists d, t' = d ++ t /\ forall e, In e d -> e = LogErrors \/ exists i, (e = Rename i /\ panes E = false) \/ e = Rpc (ClientFailure i).
Proof.
  intros H. set (P := fun (_ : trace) e => e = LogErrors \/ exists i, (e = Rename i /\ panes E = false) \/ e = Rpc (ClientFailure i)).
  assert (A : at_ P (check_timed_out E) t).
  { unfold check_timed_out. generalize (connected E t). intros l. apply adds_each. intros i _. apply adds_when.
    apply adds_seq; [apply adds_eff; intros; left; reflexivity|]. apply adds_seq; [|apply adds_eff; intros; right; exists i; right; reflexivity].
    intros u t1 r1 X. unfold worker_timeout in X. destruct (panes E) eqn:Pn; [apply (adds_value P _ _ _ _ X)|].
    destruct (opened E u i); [|apply (adds_value P _ _ _ _ X)].
    assert (D : adds P (eff_ E (Rename i))) by (apply adds_eff; intros; right; exists i; left; split; reflexivity). apply (D _ _ _ X). }
  destruct (A _ _ H) as (d & -> & D). exists d. split; [reflexivity|]. intros e I. apply in_split in I as (a & b & S). apply (D a e b S).
Qed.

End Env.

(** ** What one would expect, and is not so *)

(** two workers in windows; worker 1 connects (its process is 11), worker 2 never does; the
    time to connect is over after two sleeps *)
Definition one_connects : env :=
  mkEnv (fun _ _ => None) (fun _ => true) (fun _ => true) (fun t => Nat.ltb 5 (List.length t)) (fun _ => true) (fun _ => [1]) (fun _ _ => false) (fun _ => false)
    false (fun _ => true) (fun _ i => if Nat.eqb i 1 then Some 11 else None).

(** a session whose workers do not all connect in time does not end with ParallelTimeout, the
    server is not told, the errors of the workers are not logged and the servers are not stopped *)
Theorem C112_timeout_refuted : exists E t, start E 2 9 = (t, Exn TypeErr) /\ (exists u, waiting E u = true /\ late E u = true) /\
  (forall u e, fails E u e = None) /\ forall e, In e [LogErrors; Rpc SessionError; Rpc StopServe; Rpc StopKeepalive; Join false; Join true] -> ~ In e t.
Proof.
  exists one_connects, (Ask 2 :: concat (repeat [Nap; Signal 11 0] 10) ++ [Ask 2; Signal 11 15; Ask 1; Sleep; Sleep; Window 2; Hook 2; Window 1; Hook 1]). split; [reflexivity|].
  split; [exists (repeat Sleep 6); split; reflexivity|]. split; [reflexivity|]. intros e J K.
  cbn [In repeat concat app] in J, K. repeat (destruct J as [<-|J]; [repeat (destruct K as [K|K]; [discriminate|]); exact K|]). exact J.
Qed.

(** one worker; the server never waits for more than its connection; [alive]: is the process 11 there *)
Definition stays (panes_ : bool) (silent_ : trace -> nat -> bool) : env :=
  mkEnv (fun _ _ => None) (fun _ => true) (fun _ => false) (fun _ => false) (fun t => negb (existsb (fun e => match e with Sleep => true | _ => false end) t)) (fun _ => [1])
    silent_ (fun _ => false) panes_ (fun _ => true) (fun _ i => Some 11).

(** a session may end well while a worker is still running that nobody told to end, even one that
    was reported to be down *)
Theorem C112_left_refuted : exists E t, start E 1 9 = (t, Ok) /\ In (Rpc (ClientFailure 1)) t /\ fails E t (Signal 11 0) = None /\ (forall p s, In (Signal p s) t -> p = 11 /\ s = 0).
Proof.
  exists (stays false (fun _ _ => true)),
    (ending ++ concat (repeat [Nap; Signal 11 0] 10) ++ [Ask 1; Sleep; Rpc (ClientFailure 1); Rename 1; LogErrors; Window 1; Hook 1]). split; [reflexivity|].
  split; [cbn; tauto|]. split; [reflexivity|]. intros p s J. cbn [In ending repeat concat app] in J.
  repeat (destruct J as [J|J]; [first [discriminate|injection J as <- <-; split; reflexivity]|]). destruct J.
Qed.

(** ** Cases of the theorems *)

Example C112_ex_never : (forall t, pid one_connects t 2 = None) /\ (exists t, start one_connects 2 9 = (t, Exn TypeErr) /\ In (Signal 11 15) t).
Proof. split; [reflexivity|]. eexists. split; [reflexivity|]. cbn; tauto. Qed.

(** two workers in panes that connect in the first sleep; the process of worker 2 ends when it is
    signalled; the loop is interrupted in its second sleep *)
Definition both : env :=
  mkEnv (fun t e => match e with
           | Sleep => match t with [Sleep; Sleep; Keys 2; Pane 2; Hook 2; Keys 1; Pane 1; Hook 1] => Some Interrupt | _ => None end
           | Signal 12 0 => if existsb (fun e => match e with Signal 12 15 => true | _ => false end) t then Some Esrch else None
           | _ => None end)
    (fun _ => true) (fun t => Nat.ltb (List.length t) 7) (fun _ => false) (fun _ => true) (fun _ => [1; 2]) (fun _ _ => false) (fun _ => false)
    true (fun _ => true) (fun t i => if Nat.ltb (List.length t) 7 then None else Some (10 + i)).

Definition before_int : trace := [Sleep; Sleep; Keys 2; Pane 2; Hook 2; Keys 1; Pane 1; Hook 1].

Example C112_ex_connected :
  (forall a b i, ready 2 b -> waiting both b = false -> 1 <= i <= 2 -> pid both (a ++ b) i <> None) /\
  (forall t i, In i (connected both t) -> 1 <= i <= 2) /\
  (forall t e, fails both t e = None \/ (exists p s, e = Signal p s /\ fails both t e = Some Esrch) \/
    (e = Sleep /\ fails both t e = Some Interrupt /\ exists a b, t = a ++ b /\ ready 2 b /\ waiting both b = false)) /\
  start both 2 9 = (ending ++ [Signal 12 0] ++ concat (repeat [Nap; Signal 11 0] 10) ++ [Signal 12 15; Ask 2; Signal 11 15; Ask 1; Rpc SessionInterrupted; Sleep] ++ before_int, Exn Interrupt).
Proof.
  split; [|split; [|split; [|reflexivity]]].
  - intros a b i R W I. cbn [waiting pid both] in *. rewrite app_length. apply Nat.ltb_ge in W. destruct (Nat.ltb_spec (List.length a + List.length b) 7); [lia|discriminate].
  - intros t i [<-|[<-|[]]]; lia.
  - intros t e. assert (D : t = before_int \/ fails both t Sleep = None).
    { cbn [fails both]. unfold before_int. repeat match goal with |- _ \/ match ?x with _ => _ end = None => destruct x; try (right; reflexivity) end. left. reflexivity. }
    destruct e; try (left; reflexivity).
    + cbn [fails both]. destruct s as [|s]; [|left; do 13 (destruct p as [|p]; try reflexivity)].
      do 12 (destruct p as [|p]; [left; reflexivity|]). destruct p as [|p]; [|left; reflexivity].
      destruct (existsb (fun e => match e with Signal 12 15 => true | _ => false end) t); [right; left; exists 12, 0; split; reflexivity|left; reflexivity].
    + destruct D as [->|D]; [|left; exact D]. right. right. split; [reflexivity|]. split; [reflexivity|]. exists [], before_int. split; [reflexivity|].
      split; [|reflexivity]. intros i I. right. assert (i = 1 \/ i = 2) as [-> | ->] by lia; cbn; tauto.
Qed.

Print Assumptions C112_signals.
Print Assumptions C112_waits.
Print Assumptions C112_silent.
Print Assumptions C112_never_connected.
Print Assumptions C112_connected.
Print Assumptions C112_timeout_refuted.
Print Assumptions C112_left_refuted.
