(** Handlers of signals: set while the plugin is active, and set back afterwards. *)

From Coq Require Import List Bool Arith Lia.
From Verif Require Import Dict Signals.
Import ListNotations.

Definition setall (l : list (nat * nat)) (s : state) : state := fold_left (fun s e => set_handler s (fst e) (snd e)) l s.

Lemma setall_spec : forall l s, d_ok l ->
  s_reg (setall l s) = s_reg s /\ s_active (setall l s) = s_active s /\
  (forall n, s_os (setall l s) n = match d_get n l with Some h => Some h | None => s_os s n end) /\
  (forall n, d_get n (s_orig (setall l s)) = match d_get n l with Some _ => Some (s_os s n) | None => d_get n (s_orig s) end) /\
  (d_ok (s_orig s) -> d_ok (s_orig (setall l s))).
Proof.
  induction l as [|[k v] l IH]; intros s Ok; [simpl; auto|].
  inversion Ok as [|? ? Nk Ok']; subst. change (setall ((k, v) :: l) s) with (setall l (set_handler s k v)).
  destruct (IH (set_handler s k v) Ok') as (A & B & C & D & E). clear IH. split; [rewrite A; auto|]. split; [rewrite B; auto|].
  assert (G : d_get k l = None) by (destruct (d_get k l) eqn:G; auto; exfalso; apply Nk; apply d_get_In; congruence).
  split; [|split].
  - intros n. rewrite C. simpl. unfold os_set. destruct (Nat.eqb_spec n k) as [->|N]; auto. rewrite G. auto.
  - intros n. rewrite D. simpl. unfold os_set. rewrite d_get_set. destruct (Nat.eqb_spec n k) as [->|N]; auto. rewrite G. auto.
  - intros Os. apply E. apply d_set_ok. auto.
Qed.

Lemma restore_ok : forall l os, d_ok l -> (forall n o, d_get n l = Some o -> o <> None) ->
  snd (restore l os) = true /\ forall n, fst (restore l os) n = match d_get n l with Some h => h | None => os n end.
Proof.
  induction l as [|[k [v|]] l IH]; intros os Ok Some_; simpl; auto.
  - inversion Ok as [|? ? Nk Ok']; subst. assert (G : d_get k l = None) by (destruct (d_get k l) eqn:G; auto; exfalso; apply Nk; apply d_get_In; congruence).
    destruct (IH (os_set k v os) Ok') as [A B].
    + intros n o E. apply (Some_ n). simpl. destruct (Nat.eqb_spec n k) as [->|]; auto; congruence.
    + split; auto. intros n. rewrite B. unfold os_set. destruct (Nat.eqb_spec n k) as [->|]; auto. rewrite G. auto.
  - exfalso. apply (Some_ k None); auto. simpl. rewrite Nat.eqb_refl. auto.
Qed.

Lemma run_app ops1 ops2 s : snd (run ops1 s) = true -> run (ops1 ++ ops2) s = run ops2 (fst (run ops1 s)).
Proof.
  revert s. induction ops1 as [|[n h| |] ops1 IH]; intros s; simpl; auto.
  destruct (deactivate s) as [s' [|]]; auto. simpl. discriminate.
Qed.

(** While the plugin is active, every registered signal has its registered handler,
    however it was registered and however often the plugin was (de)activated. *)
Theorem C92_handled : forall ops s, d_ok (s_reg s) -> s_active s = false ->
  let s' := fst (run ops s) in s_active s' = true -> forall n h, d_get n (s_reg s') = Some h -> s_os s' n = Some h.
Proof.
  intros ops s Ok Na s'. cut (d_ok (s_reg s') /\ (s_active s' = true -> forall n h, d_get n (s_reg s') = Some h -> s_os s' n = Some h)); [tauto|].
  subst s'. assert (I : s_active s = true -> forall n h, d_get n (s_reg s) = Some h -> s_os s n = Some h) by congruence. clear Na.
  revert s Ok I. induction ops as [|[n h| |] ops IH]; intros s Ok I; cbn [run]; auto.
  - apply IH; unfold register; destruct (s_active s) eqn:A; simpl; auto using d_set_ok; try discriminate.
    intros _ m k. rewrite d_get_set. unfold os_set. destruct (Nat.eqb m n); auto.
  - unfold activate. destruct (setall_spec (s_reg s) s Ok) as (A & B & C & D & E). apply IH; simpl; fold (setall (s_reg s) s).
    + rewrite A. auto.
    + intros _ m k. rewrite A. intros G. rewrite C, G. auto.
  - unfold deactivate. destruct (s_active s) eqn:A; [|apply IH; auto; congruence].
    destruct (restore (s_orig s) (s_os s)) as [os [|]]; [apply IH; simpl; auto; discriminate|simpl; split; auto; discriminate].
Qed.

(** Programs that set every signal at most once while the plugin is active: signals are
    not registered again and the plugin is not activated again. *)
Fixpoint proper (known : list nat) (active : bool) (ops : list op) : Prop :=
  match ops with
  | [] => True
  | Register n h :: ops' => (active = true -> ~ In n known) /\ proper (n :: known) active ops'
  | Activate :: ops' => active = false /\ proper known true ops'
  | Deactivate :: ops' => proper known false ops'
  end.

Lemma proper_ext : forall ops known known' a, (forall n, In n known' -> In n known) -> proper known a ops -> proper known' a ops.
Proof.
  induction ops as [|[n h| |] ops IH]; simpl; auto; intros known known' a K P.
  - destruct P as [P1 P2]. split; [intros A I; apply (P1 A); auto|]. eapply IH; [|eauto]. simpl. intros m [|]; auto.
  - destruct P. split; eauto.
  - eauto.
Qed.

Definition inv (os0 : nat -> option nat) (s : state) : Prop :=
  d_ok (s_reg s) /\ d_ok (s_orig s) /\
  if s_active s
  then (forall n, d_get n (s_orig s) <> None -> d_get n (s_reg s) <> None) /\ forall n, match d_get n (s_orig s) with Some o => o = os0 n | None => s_os s n = os0 n end
  else s_orig s = [] /\ forall n, s_os s n = os0 n.

Lemma proper_inv os0 : (forall n, os0 n <> None) -> forall ops s, inv os0 s -> proper (d_keys (s_reg s)) (s_active s) ops ->
  snd (run ops s) = true /\ inv os0 (fst (run ops s)).
Proof.
  intros Py. induction ops as [|[n h| |] ops IH]; intros s I P; cbn [run]; auto; destruct I as (I1 & I2 & I3); cbn [proper] in P.
  - destruct P as [P1 P2]. apply IH.
    + unfold register. destruct (s_active s) eqn:A.
      * destruct I3 as [K I3]. split; [apply d_set_ok; auto|]. split; [apply d_set_ok; auto|]. cbn [s_active set_handler s_orig s_reg s_os].
        split.
        -- intros m. rewrite !d_get_set. destruct (Nat.eqb m n); [discriminate|auto].
        -- intros m. rewrite d_get_set. unfold os_set. destruct (Nat.eqb_spec m n) as [->|N]; [|exact (I3 m)].
           specialize (I3 n). case_eq (d_get n (s_orig s)); [intros o G|intros G; rewrite G in I3; exact I3].
           exfalso. apply (P1 eq_refl). apply d_get_In. apply K. congruence.
      * split; [apply d_set_ok; auto|]. split; [auto|]. simpl. auto.
    + unfold register. destruct (s_active s) eqn:A; simpl; rewrite ?A; eapply proper_ext; try exact P2; intros m Hm; apply d_keys_set in Hm; simpl; destruct Hm; auto.
  - destruct P as [A P]. rewrite A in I3. destruct I3 as [O I3].
    unfold activate. fold (setall (s_reg s) s). destruct (setall_spec (s_reg s) s I1) as (B1 & B2 & B3 & B4 & B5). apply IH.
    + split; [simpl; rewrite B1; auto|]. split; [simpl; auto|]. simpl. split.
      * intros n. rewrite B4, B1, O. simpl. destruct (d_get n (s_reg s)); congruence.
      * intros n. rewrite B4, B3, O. simpl. destruct (d_get n (s_reg s)); auto.
    + simpl. rewrite B1. auto.
  - unfold deactivate. destruct (s_active s) eqn:A.
    + destruct I3 as [K I3]. destruct (restore_ok (s_orig s) (s_os s) I2) as [R1 R2].
      * intros n o G. specialize (I3 n). rewrite G in I3. rewrite I3. auto.
      * destruct (restore (s_orig s) (s_os s)) as [os ok]. simpl in R1, R2. subst ok. apply IH.
        -- split; auto. split; [constructor|]. simpl. split; auto. intros n. rewrite R2. specialize (I3 n). destruct (d_get n (s_orig s)); auto.
        -- simpl. auto.
    + apply IH; [split; auto; split; auto; rewrite A; auto|rewrite A; auto].
Qed.

(** Whenever such a program has deactivated the plugin, all signals have the handlers
    they had at first, if these were set from Python; no exception is raised. *)
Theorem C92_restored_partial : forall ops s, d_ok (s_reg s) -> s_orig s = [] -> s_active s = false -> (forall n, s_os s n <> None) ->
  proper (d_keys (s_reg s)) false ops ->
  let (s', ok) := run ops s in ok = true /\ (s_active s' = false -> forall n, s_os s' n = s_os s n).
Proof.
  intros ops s Ok O Na Py P. destruct (proper_inv (s_os s) Py ops s) as [A B].
  - split; auto. rewrite O. split; [constructor|]. rewrite Na. auto.
  - rewrite Na. auto.
  - destruct (run ops s) as [s' ok]. simpl in *. split; auto. intros N. destruct B as (_ & _ & B). rewrite N in B. tauto.
Qed.

(** ** What is not true: handlers are always set back *)

Definition restored (ops : list op) (s : state) : Prop :=
  d_ok (s_reg s) -> s_orig s = [] -> s_active s = false ->
  let (s', ok) := run ops s in ok = true /\ (s_active s' = false -> forall n, s_os s' n = s_os s n).

(** registering a handler twice while the plugin is active *)
Theorem C92_twice_refuted : exists s, (forall n, s_os s n <> None) /\ ~ restored [Activate; Register 10 2; Register 10 3; Deactivate] s.
Proof.
  exists (mkS [] [] false (fun _ => Some 1)). split; [discriminate|]. intros R. destruct (R (NoDup_nil _) eq_refl eq_refl) as [_ H].
  specialize (H eq_refl 10). vm_compute in H. discriminate.
Qed.
(** also if the first registration was before the activation, as that of SIGUSR1 and SIGUSR2 is *)
Theorem C92_replaced_refuted : exists s, (forall n, s_os s n <> None) /\ ~ restored [Register 10 2; Activate; Register 10 3; Deactivate] s.
Proof.
  exists (mkS [] [] false (fun _ => Some 1)). split; [discriminate|]. intros R. destruct (R (NoDup_nil _) eq_refl eq_refl) as [_ H].
  specialize (H eq_refl 10). vm_compute in H. discriminate.
Qed.
(** activating twice *)
Theorem C92_activated_twice_refuted : exists s, (forall n, s_os s n <> None) /\ ~ restored [Register 10 2; Activate; Activate; Deactivate] s.
Proof.
  exists (mkS [] [] false (fun _ => Some 1)). split; [discriminate|]. intros R. destruct (R (NoDup_nil _) eq_refl eq_refl) as [_ H].
  specialize (H eq_refl 10). vm_compute in H. discriminate.
Qed.
(** a handler that was not set from Python: TypeError, and further signals stay changed *)
Theorem C92_foreign_refuted : exists s ops, proper (d_keys (s_reg s)) false ops /\ ~ restored ops s /\
  s_os s 12 = Some 1 /\ s_os (fst (run ops s)) 12 = Some 3 /\ snd (run ops s) = false.
Proof.
  exists (mkS [(10, 2); (12, 3)] [] false (fun n => if Nat.eqb n 10 then None else Some 1)), [Activate; Deactivate].
  split; [simpl; auto|]. split; [|auto]. intros R. destruct R as [H _]; simpl; auto; [|discriminate].
  repeat constructor; simpl; intuition discriminate.
Qed.

(** ** Non-vacuity *)
Example C92_hypotheses_met : let s := mkS [(10, 2); (12, 3)] [] false (fun _ => Some 1) in
  d_ok (s_reg s) /\ proper (d_keys (s_reg s)) false [Activate; Register 15 4; Deactivate; Register 10 5; Activate; Deactivate; Deactivate] /\
  s_os (fst (run [Activate; Register 15 4] s)) 15 = Some 4 /\
  s_os (fst (run [Activate; Register 15 4; Deactivate; Register 10 5; Activate] s)) 10 = Some 5 /\
  s_os (fst (run [Activate; Register 15 4; Deactivate; Register 10 5; Activate; Deactivate; Deactivate] s)) 10 = Some 1.
Proof.
  split; [repeat constructor; simpl; intuition discriminate|]. split; [|auto]. simpl. split; auto. split; [|split; auto; discriminate].
  intros _ [|[|[]]]; discriminate.
Qed.

Print Assumptions C92_handled.
Print Assumptions C92_restored_partial.
Print Assumptions C92_twice_refuted.
Print Assumptions C92_replaced_refuted.
Print Assumptions C92_activated_twice_refuted.
Print Assumptions C92_foreign_refuted.
