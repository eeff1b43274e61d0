(** C128: which workers are noticed to be down. *)

From Coq Require Import List Bool Arith Lia.
From Verif Require Import Dict KeepAlive.
Import ListNotations.

(** the last keepalive of a worker was at [t] *)
Definition heard (h : list event) (c t : nat) : Prop := exists h1 h2, h = h1 ++ Alive c t :: h2 /\ forall t', ~ In (Alive c t') h2.
(** the last keepalive of any worker was at [t]; the server was started at [boot] *)
Definition last_heard (boot : nat) (h : list event) (t : nat) : Prop :=
  (t = boot /\ forall c t', ~ In (Alive c t') h) \/ exists c h1 h2, h = h1 ++ Alive c t :: h2 /\ forall c' t', ~ In (Alive c' t') h2.

(** the state after the events *)
Definition after (boot : nat) (h : list event) : keep :=
  fold_left (fun k e => match e with Alive c now => keep_alive c now k | _ => k end) h (k_init boot).

Lemma after_snoc boot h e : after boot (h ++ [e]) = match e with Alive c now => keep_alive c now (after boot h) | _ => after boot h end.
Proof. unfold after. rewrite fold_left_app. destruct e; reflexivity. Qed.

Lemma heard_snoc h e c t : heard (h ++ [e]) c t <-> match e with Alive c' t' => if Nat.eqb c c' then t = t' else heard h c t | _ => heard h c t end.
Proof.
  assert (Other : (forall t', e <> Alive c t') -> (heard (h ++ [e]) c t <-> heard h c t)).
  { intros N. split.
    - intros (h1 & h2 & E & F). destruct h2 as [|x h2] using rev_ind.
      + apply app_inj_tail in E as [_ E]. destruct (N t E).
      + clear IHh2. rewrite app_comm_cons, app_assoc in E. apply app_inj_tail in E as [E ->]. exists h1, h2. split; [exact E|].
        intros t' I. apply (F t'). apply in_app_iff. auto.
    - intros (h1 & h2 & -> & F). exists h1, (h2 ++ [e]). split; [rewrite <- app_assoc; reflexivity|].
      intros t' I. apply in_app_iff in I as [I|[I|[]]]; [exact (F t' I)|exact (N t' I)]. }
  destruct e as [c' t'|l|n]; try (apply Other; discriminate). destruct (Nat.eqb_spec c c') as [<-|N]; [|apply Other; congruence].
  split.
  - intros (h1 & h2 & E & F). destruct h2 as [|x h2] using rev_ind.
    + apply app_inj_tail in E as [_ E]. congruence.
    + rewrite app_comm_cons, app_assoc in E. apply app_inj_tail in E as [_ <-]. destruct (F t'). apply in_app_iff. cbn. auto.
  - intros ->. exists h, []. auto.
Qed.

Lemma after_last boot h : forall c t, d_get c (k_last (after boot h)) = Some t <-> heard h c t.
Proof.
  induction h as [|e h IH] using rev_ind; intros c t.
  - cbn. split; [discriminate|]. intros (h1 & h2 & E & _). destruct h1; discriminate.
  - rewrite after_snoc, heard_snoc. destruct e as [c' t'|l|n]; auto. cbn [keep_alive k_last]. rewrite d_get_set.
    destruct (Nat.eqb c c'); [split; congruence|apply IH].
Qed.

Lemma last_snoc boot h e t : last_heard boot (h ++ [e]) t <-> match e with Alive _ t' => t = t' | _ => last_heard boot h t end.
Proof.
  assert (Other : (forall c' t', e <> Alive c' t') -> (last_heard boot (h ++ [e]) t <-> last_heard boot h t)).
  { intros N. split.
    - intros [[E F]|(c & h1 & h2 & E & F)].
      + left. split; [exact E|]. intros c' t' I. apply (F c' t'). apply in_app_iff. auto.
      + destruct h2 as [|x h2] using rev_ind; [apply app_inj_tail in E as [_ E]; destruct (N _ _ E)|]. clear IHh2.
        rewrite app_comm_cons, app_assoc in E. apply app_inj_tail in E as [E ->]. right. exists c, h1, h2. split; [exact E|].
        intros c' t' I. apply (F c' t'). apply in_app_iff. auto.
    - intros [[E F]|(c & h1 & h2 & -> & F)].
      + left. split; [exact E|]. intros c' t' I. apply in_app_iff in I as [I|[I|[]]]; [exact (F _ _ I)|exact (N _ _ I)].
      + right. exists c, h1, (h2 ++ [e]). split; [rewrite <- app_assoc; reflexivity|].
        intros c' t' I. apply in_app_iff in I as [I|[I|[]]]; [exact (F _ _ I)|exact (N _ _ I)]. }
  destruct e as [c' t'|l|n]; try (apply Other; discriminate). split.
  - intros [[E F]|(c & h1 & h2 & E & F)].
    + destruct (F c' t'). apply in_app_iff. cbn. auto.
    + destruct h2 as [|x h2] using rev_ind; [apply app_inj_tail in E as [_ E]; congruence|].
      rewrite app_comm_cons, app_assoc in E. apply app_inj_tail in E as [_ <-]. destruct (F c' t'). apply in_app_iff. cbn. auto.
  - intros ->. right. exists c', h, []. auto.
Qed.

Lemma after_request boot h : forall t, k_request (after boot h) = t <-> last_heard boot h t.
Proof.
  induction h as [|e h IH] using rev_ind; intros t.
  - cbn. split; [intros <-; left; auto|]. intros [[-> _]|(c & h1 & h2 & E & _)]; [reflexivity|destruct h1; discriminate].
  - rewrite after_snoc, last_snoc. destruct e; auto. cbn. split; congruence.
Qed.

(** the events so far did not make the parent give up *)
Definition goes_on (comm req boot : nat) (h : list event) : Prop := snd (watch comm req h (k_init boot)) = false.
(** what is done at an event *)
Definition done_at (comm req boot : nat) (h : list event) (e : event) (a : action) : Prop :=
  exists l, fst (watch comm req (h ++ [e]) (k_init boot)) = fst (watch comm req h (k_init boot)) ++ l /\ In a l.

Lemma watch_app comm req h : forall k l, snd (watch comm req h k) = false ->
  watch comm req (h ++ l) k = (fst (watch comm req h k) ++ fst (watch comm req l (fold_left (fun k e => match e with Alive c now => keep_alive c now k | _ => k end) h k)),
    snd (watch comm req l (fold_left (fun k e => match e with Alive c now => keep_alive c now k | _ => k end) h k))).
Proof.
  induction h as [|e h IH]; cbn [watch app fold_left]; intros k l H.
  - cbn. destruct (watch comm req l k); reflexivity.
  - destruct e as [c t|cs|t].
    + apply IH. exact H.
    + destruct (watch comm req h k) as [a b] eqn:E. cbn [snd] in H. subst b. specialize (IH k l). rewrite E in IH. cbn [fst snd] in IH.
      rewrite (IH eq_refl). cbn [fst snd]. rewrite app_assoc. reflexivity.
    + destruct (nobody req k t); [discriminate|]. apply IH. exact H.
Qed.

(** a session that was given up stays so *)
Theorem C128_given_up : forall comm req boot h l, ~ goes_on comm req boot h ->
  watch comm req (h ++ l) (k_init boot) = watch comm req h (k_init boot).
Proof.
  intros comm req boot h l. unfold goes_on. generalize (k_init boot). induction h as [|e h IH]; cbn [watch app]; intros k H; [cbn in H; congruence|].
  destruct e as [c t|cs|t].
  - apply IH. exact H.
  - destruct (watch comm req h k) as [a b] eqn:E. cbn [snd] in H. rewrite IH; [rewrite E; reflexivity|rewrite E; exact H].
  - destruct (nobody req k t); [reflexivity|]. apply IH. exact H.
Qed.
Print Assumptions C128_given_up.

(** A worker is reported exactly if it is connected, was heard of, and not for longer than the timeout. *)
Theorem C128_reported : forall comm req boot h l c, goes_on comm req boot h ->
  (done_at comm req boot h (Look l) (Report c) <-> exists now t, In (c, now) l /\ heard h c t /\ comm < now - t).
Proof.
  intros comm req boot h l c G. unfold done_at. rewrite watch_app by exact G. fold (after boot h). cbn [fst snd watch].
  rewrite app_nil_r. split.
  - intros (l' & E & I). apply app_inv_head in E. subst l'. unfold look in I. apply in_flat_map in I as ([c' now] & I & Q). cbn [fst snd] in Q.
    unfold is_down in Q. destruct (d_get c' (k_last (after boot h))) as [t|] eqn:D; [|destruct Q].
    destruct (Nat.ltb_spec comm (now - t)) as [L|L]; [|destruct Q]. destruct Q as [Q|[]]. injection Q as ->.
    exists now, t. split; [exact I|]. split; [apply (after_last boot); exact D|exact L].
  - intros (now & t & I & Hd & L). eexists. split; [reflexivity|]. unfold look. apply in_flat_map. exists (c, now). split; [exact I|].
    cbn [fst snd]. unfold is_down. apply (after_last boot) in Hd. rewrite Hd. apply Nat.ltb_lt in L. rewrite L. cbn. auto.
Qed.
Print Assumptions C128_reported.

(** The session is given up exactly if no worker at all was heard of for longer than the timeout. *)
Theorem C128_idle : forall comm req boot h now, goes_on comm req boot h ->
  (done_at comm req boot h (Idle now) GiveUp <-> exists t, last_heard boot h t /\ req < now - t)
  /\ (goes_on comm req boot (h ++ [Idle now]) <-> ~ done_at comm req boot h (Idle now) GiveUp).
Proof.
  intros comm req boot h now G. unfold goes_on, done_at. rewrite watch_app by exact G. fold (after boot h). cbn [fst snd watch].
  unfold nobody. pose proof (after_request boot h (k_request (after boot h))) as R. destruct R as [R _]. specialize (R eq_refl).
  destruct (Nat.ltb_spec req (now - k_request (after boot h))) as [L|L]; cbn [fst snd].
  - assert (D : exists l, fst (watch comm req h (k_init boot)) ++ [GiveUp] = fst (watch comm req h (k_init boot)) ++ l /\ In GiveUp l) by (eexists; split; [reflexivity|cbn; auto]).
    split; [split; [intros _; eauto|auto]|]. split; [discriminate|intros N; contradiction].
  - assert (D : ~ exists l, fst (watch comm req h (k_init boot)) ++ [] = fst (watch comm req h (k_init boot)) ++ l /\ In GiveUp l).
    { intros (l & E & I). apply app_inv_head in E. subst l. destruct I. }
    split; [split; [intros Q; contradiction|]|tauto]. intros (t & Q & L'). apply after_request in Q. subst t. lia.
Qed.
Print Assumptions C128_idle.

(** nothing is done when a keepalive arrives, and looking never gives up *)
Theorem C128_else : forall comm req boot h e a, goes_on comm req boot h -> done_at comm req boot h e a ->
  match e, a with Look l, Report c => In c (map fst l) | Idle _, GiveUp => True | _, _ => False end.
Proof.
  intros comm req boot h e a G. unfold done_at. rewrite watch_app by exact G. cbn [fst]. intros (l & E & I). apply app_inv_head in E. subst l.
  destruct e as [c t|cs|t]; cbn [watch] in I.
  - destruct I.
  - cbn [fst] in I. rewrite app_nil_r in I. unfold look in I. apply in_flat_map in I as ([c n] & I & Q). cbn [fst snd] in Q.
    destruct (is_down _ _ _ _); [|destruct Q]. destruct Q as [<-|[]]. apply (in_map fst) in I. exact I.
  - destruct (nobody _ _ _); [|destruct I]. destruct I as [<-|[]]. exact Logic.I.
Qed.
Print Assumptions C128_else.

(** ** Examples *)

(** worker 1 is heard of until second 3, worker 2 all the time *)
Example ex_down : let h := [Alive 1 1; Alive 2 1; Alive 1 3; Alive 2 40; Look [(1, 41); (2, 41)]; Idle 41; Alive 2 63] in
  goes_on 60 20 0 h /\ heard h 1 3 /\ last_heard 0 h 63
  /\ watch 60 20 (h ++ [Look [(2, 64); (1, 64)]; Idle 64; Alive 2 65; Idle 90; Alive 1 91]) (k_init 0) = ([Report 1; GiveUp], true).
Proof.
  cbv zeta. split; [reflexivity|]. split; [|split; [|vm_compute; reflexivity]].
  - exists [Alive 1 1; Alive 2 1], [Alive 2 40; Look [(1, 41); (2, 41)]; Idle 41; Alive 2 63]. split; [reflexivity|].
    intros t' I. cbn in I. repeat (destruct I as [I|I]; [discriminate|]). exact I.
  - right. exists 2, [Alive 1 1; Alive 2 1; Alive 1 3; Alive 2 40; Look [(1, 41); (2, 41)]; Idle 41], []. split; [reflexivity|]. auto.
Qed.

(** ** What does not hold *)

(** A connected worker that was never heard of (it died, or a hook raised, before its keepalive thread was started) is not noticed, as long
    as another worker is heard of: whatever the timeouts, the parent goes on looking for ever. *)
Definition one_silent (n : nat) : list event := flat_map (fun i => [Alive 2 i; Look [(1, i); (2, i)]; Idle i]) (seq 0 n).
Theorem C128_unheard_refuted : exists h : nat -> list event,
  (forall n, In (Look [(1, n); (2, n)]) (h (S n)) /\ In (Idle n) (h (S n)) /\ forall t, ~ In (Alive 1 t) (h n))
  /\ forall comm req n, watch comm req (h n) (k_init 0) = ([], false).
Proof.
  exists one_silent. split.
  { intros n. unfold one_silent. split; [|split].
    - apply in_flat_map. exists n. split; [apply in_seq; lia|cbn; auto].
    - apply in_flat_map. exists n. split; [apply in_seq; lia|cbn; auto].
    - intros t I. apply in_flat_map in I as (i & _ & [I|[I|[I|[]]]]); discriminate. }
  intros comm req n.
  assert (A : forall n, after 0 (one_silent n) = mkKeep (match n with 0 => [] | S m => [(2, m)] end) (pred n)
     /\ watch comm req (one_silent n) (k_init 0) = ([], false)).
  { clear n. unfold one_silent. induction n as [|n [I1 I2]]; [auto|]. rewrite seq_S, flat_map_app. cbn [Nat.add flat_map app].
    assert (St : after 0 (flat_map (fun i => [Alive 2 i; Look [(1, i); (2, i)]; Idle i]) (seq 0 n) ++ [Alive 2 n; Look [(1, n); (2, n)]; Idle n]) = mkKeep [(2, n)] n).
    { unfold after in *. rewrite fold_left_app, I1. cbn. destruct n; reflexivity. }
    split; [exact St|]. rewrite watch_app by (rewrite I2; reflexivity). fold (after 0 (flat_map (fun i => [Alive 2 i; Look [(1, i); (2, i)]; Idle i]) (seq 0 n))).
    rewrite I1, I2. cbn [fst snd watch app].
    assert (D : keep_alive 2 n (mkKeep (match n with 0 => [] | S m => [(2, m)] end) (pred n)) = mkKeep [(2, n)] n) by (destruct n; reflexivity). rewrite D.
    unfold look, is_down, nobody. cbn [flat_map fst snd d_get k_last k_request Nat.eqb app]. rewrite Nat.sub_diag.
    destruct (Nat.ltb_spec comm 0) as [L|_]; [lia|]. destruct (Nat.ltb_spec req 0) as [L|_]; [lia|]. reflexivity. }
  apply A.
Qed.
Print Assumptions C128_unheard_refuted.

(** With the timeouts of the configuration (60 and 20 seconds, conf.py:115-117) and a check every two seconds, a worker that is alone, or
    that dies with all the others, is never reported as failed: the session is given up before, and the test it was running gets no
    result. *)
Definition alone (n : nat) : list event := Alive 1 0 :: flat_map (fun i => [Look [(1, 2 * i)]; Idle (2 * i)]) (seq 0 n).
Theorem C128_alone_refuted : exists h : nat -> list event,
  (forall n c t, In (Alive c t) (h n) -> t = 0) /\ (forall n, In (Look [(1, 2 * n)]) (h (S n)))
  /\ forall n, 11 < n -> watch 60 20 (h n) (k_init 0) = ([GiveUp], true).
Proof.
  exists alone. split; [|split].
  { intros n c t [I|I]; [congruence|]. apply in_flat_map in I as (i & _ & [I|[I|[]]]); discriminate. }
  { intros n. right. apply in_flat_map. exists n. split; [apply in_seq; lia|cbn; auto]. }
  intros n L. unfold alone. replace n with (12 + (n - 12)) by lia. rewrite seq_app, flat_map_app, app_comm_cons.
  rewrite C128_given_up; [vm_compute; reflexivity|]. vm_compute. discriminate.
Qed.
Print Assumptions C128_alone_refuted.
