(** C121: checking the requirements of a test (ReqCheck.v; core/requirements.py:47-78, runner.py:129-156). *)

From Coq Require Import List Bool Arith String Lia.
From Verif Require Import ReqCheck.
Import ListNotations.
Open Scope string_scope.
Open Scope list_scope.
Local Notation length := List.length.

(** The functions asked, of a list of requirements *)
Definition functions (qs : list req) : list nat :=
  flat_map (fun q => match q_req q with QCall _ => [q_id q] | _ => [] end) qs.

(** [speaks ans q n met m]: requirement q, asked as call number n, says [met], with message [m] *)
Inductive speaks (ans : nat -> nat -> reply) (q : req) (n : nat) : bool -> pv -> Prop :=
| sp_bool b : q_req q = QBool b -> speaks ans q n b (msg_val (q_msg q))
| sp_value r v : q_req q = QCall r -> ans (q_id q) n = RValue v -> speaks ans q n (truthy v) (msg_val (q_msg q))
| sp_tuple r v m : q_req q = QCall r -> ans (q_id q) n = RTuple [v; m] -> speaks ans q n (truthy v) m.

(** [fails ans q n x]: it cannot be asked or its answer is no answer *)
Inductive fails (ans : nat -> nat -> reply) (q : req) (n : nat) : failure -> Prop :=
| fl_call r : q_req q = QOther r -> fails ans q n FNotCallable
| fl_raise r x : q_req q = QCall r -> ans (q_id q) n = RRaise x -> fails ans q n (FRaised x)
| fl_tuple r l : q_req q = QCall r -> ans (q_id q) n = RTuple l -> length l <> 2 -> fails ans q n FUnpack.

(** [says ans qs n un]: requirements qs asked one after the other, beginning with call number n, all answer, and those in [un]
    (with their messages) are not met *)
Inductive says (ans : nat -> nat -> reply) : list req -> nat -> list (req * pv) -> Prop :=
| says_nil n : says ans [] n []
| says_met q qs n m un : speaks ans q n true m -> says ans qs (n + length (functions [q])) un -> says ans (q :: qs) n un
| says_not q qs n m un : speaks ans q n false m -> says ans qs (n + length (functions [q])) un -> says ans (q :: qs) n ((q, m) :: un).

Lemma is_met_cases ans q calls :
  fst (is_met ans q calls) = calls ++ functions [q] /\
  match snd (is_met ans q calls) with
  | inl (b, m) => speaks ans q (length calls) b m
  | inr x => fails ans q (length calls) x
  end.
Proof.
  unfold is_met, functions. destruct (q_req q) as [b|r|r] eqn:Eq; simpl; rewrite ?app_nil_r.
  - rewrite Eq. split; [rewrite app_nil_r; auto|]. constructor; auto.
  - rewrite Eq. split; auto. destruct (ans (q_id q) (length calls)) as [l|v|x] eqn:Ea.
    + destruct l as [|v [|m [|z l]]]; [eapply fl_tuple; eauto; simpl; lia|eapply fl_tuple; eauto; simpl; lia|eapply sp_tuple; eauto|].
      eapply fl_tuple; eauto. simpl. lia.
    + eapply sp_value; eauto.
    + eapply fl_raise; eauto.
  - rewrite Eq. split; [rewrite app_nil_r; auto|]. econstructor; eauto.
Qed.

Lemma speaks_fun ans q n b m b' m' : speaks ans q n b m -> speaks ans q n b' m' -> b' = b /\ m' = m.
Proof. intros H K. inversion H; inversion K; subst; try congruence; split; congruence. Qed.
Lemma speaks_fails ans q n b m x : speaks ans q n b m -> fails ans q n x -> False.
Proof.
  intros H K. inversion H as [? A|? ? A B|? ? ? A B]; inversion K as [? A'|? ? A' B'|? l A' B' C']; subst; try congruence.
  rewrite B in B'. inversion B'; subst. apply C'. reflexivity.
Qed.

(** [stops ans qs n p x]: the requirements p answer, and the one after them fails with x *)
Definition stops (ans : nat -> nat -> reply) (qs : list req) (n : nat) (p : list req) (q : req) (x : failure) : Prop :=
  (exists r, qs = p ++ q :: r) /\ (exists un, says ans p n un) /\ fails ans q (n + length (functions p)) x.

Lemma functions_app a b : functions (a ++ b) = functions a ++ functions b.
Proof. apply flat_map_app. Qed.
Lemma functions_cons q l : functions (q :: l) = functions [q] ++ functions l.
Proof. unfold functions. simpl. rewrite app_nil_r. reflexivity. Qed.

Lemma get_unmet_spec ans qs : forall calls,
  match get_unmet ans qs calls with
  | (c, inl un) => c = calls ++ functions qs /\ says ans qs (length calls) un
  | (c, inr x) => exists p q, c = calls ++ functions p ++ functions [q] /\ stops ans qs (length calls) p q x
  end.
Proof.
  induction qs as [|q qs IH]; intros calls; cbn [get_unmet].
  - unfold functions; simpl. rewrite app_nil_r. split; auto. constructor.
  - destruct (is_met_cases ans q calls) as (A & B). destruct (is_met ans q calls) as [c [[b m]|x]]; cbn [fst snd] in A, B; subst c.
    + specialize (IH (calls ++ functions [q])). rewrite app_length in IH.
      destruct (get_unmet ans qs (calls ++ functions [q])) as [c [un|x]]; cbn iota beta in *.
      * destruct IH as (-> & IH). rewrite (functions_cons q qs), app_assoc. split; auto. destruct b; [eapply says_met|eapply says_not]; eauto.
      * destruct IH as (p & q' & -> & (r & ->) & (un & Hu) & F). exists (q :: p), q'.
        rewrite (functions_cons q p), <- !app_assoc. split; auto. split; [exists r; reflexivity|]. split.
        -- exists (if b then un else (q, m) :: un). destruct b; [eapply says_met|eapply says_not]; eauto.
        -- rewrite (functions_cons q p), app_length, Nat.add_assoc. exact F.
    + exists [], q. split; auto. split; [exists qs; reflexivity|]. split; [exists []; constructor|]. simpl. rewrite Nat.add_0_r. exact B.
Qed.

Lemma says_fun ans qs n un : says ans qs n un -> forall un', says ans qs n un' -> un' = un.
Proof.
  induction 1 as [n|q qs n m un H1 H2 IH|q qs n m un H1 H2 IH]; intros un' K; inversion K; subst; auto.
  - exfalso. match goal with K : speaks _ _ _ false _ |- _ => destruct (speaks_fun _ _ _ _ _ _ _ H1 K) as (X & _) end. discriminate.
  - exfalso. match goal with K : speaks _ _ _ true _ |- _ => destruct (speaks_fun _ _ _ _ _ _ _ H1 K) as (X & _) end. discriminate.
  - f_equal; auto. f_equal. match goal with K : speaks _ _ _ false ?m0 |- ?m0 = m => destruct (speaks_fun _ _ _ _ _ _ _ H1 K) as (_ & X) end. exact X.
Qed.

Lemma says_stops ans p q r x : forall n un, says ans (p ++ q :: r) n un -> fails ans q (n + length (functions p)) x -> False.
Proof.
  induction p as [|a p IH]; intros n un H F; simpl in *.
  - rewrite Nat.add_0_r in F. inversion H; subst; eapply speaks_fails; eauto.
  - change (flat_map _ p) with (functions p) in F.
    assert (F' : fails ans q (n + length (functions [a]) + length (functions p)) x).
    { replace (n + length (functions [a]) + length (functions p)) with (n + length (functions (a :: p))).
      - exact F.
      - rewrite (functions_cons a p), app_length. lia. }
    inversion H; subst; eapply IH; eauto.
Qed.

Lemma stops_fun ans : forall p qs n q x p' q' x', stops ans qs n p q x -> stops ans qs n p' q' x' -> p' = p /\ q' = q /\ x' = x.
Proof.
  induction p as [|a p IH]; intros qs n q x p' q' x' ((r & R) & (un & S) & F) ((r' & R') & (un' & S') & F'); subst qs.
  - destruct p' as [|a' p']; simpl in R'; inversion R'; subst.
    + simpl in *. rewrite Nat.add_0_r in *. split; auto. split; auto.
      inversion F as [? A|? ? A B|? l A B C]; inversion F' as [? A'|? ? A' B'|? l' A' B' C']; subst; congruence.
    + exfalso. simpl in F. rewrite Nat.add_0_r in F. inversion S'; subst; eapply speaks_fails; eauto.
  - destruct p' as [|a' p']; simpl in R'; inversion R'; subst.
    + exfalso. simpl in F'. rewrite Nat.add_0_r in F'. inversion S; subst; eapply speaks_fails; eauto.
    + rewrite (functions_cons a' p), app_length, Nat.add_assoc in F. rewrite (functions_cons a' p'), app_length, Nat.add_assoc in F'.
      destruct (IH (p ++ q :: r) (n + length (functions [a'])) q x p' q' x') as (-> & -> & ->); auto.
      * split; [exists r; reflexivity|]. split; [inversion S; subst; eauto|exact F].
      * split; [exists r'; assumption|]. split; [inversion S'; subst; eauto|exact F'].
Qed.

(** Each requirement's function is called at most once for each time it is listed, in the order of the list.  If all
    answer, all of them are called; if not, the first that does not answer is the last one called: its failure is what
    leaves, nothing is recorded as skipped, test_avoided is not fired and the test is not run. *)
Theorem C121_asked : forall ans qs ex,
  (forall un, says ans qs 0 un -> k_calls (process ans qs ex) = functions qs) /\
  (forall p q x, stops ans qs 0 p q x ->
     process ans qs ex = mkChecked (functions p ++ functions [q]) [] None (VError x)) /\
  ((exists un, says ans qs 0 un) \/ exists p q x, stops ans qs 0 p q x).
Proof.
  intros ans qs ex. pose proof (get_unmet_spec ans qs []) as G. unfold process.
  destruct (get_unmet ans qs []) as [c [un|x]]; simpl in G.
  - destruct G as (-> & G). split; [|split].
    + intros un' _. destruct un; [destruct ex; reflexivity|reflexivity].
    + intros p q x ((r & ->) & _ & F). exfalso. eapply says_stops; eauto.
    + left. eauto.
  - destruct G as (p & q & -> & G). split; [|split].
    + intros un S. exfalso. destruct G as ((r & ->) & _ & F). eapply says_stops; eauto.
    + intros p' q' x' G'. destruct (stops_fun _ _ _ _ _ _ _ _ _ G G') as (-> & -> & ->). reflexivity.
    + right. eauto.
Qed.
Print Assumptions C121_asked.

(** The test is run if and only if all its requirements answer that they are met and it is not excluded. *)
Theorem C121_runs : forall ans qs ex, k_verdict (process ans qs ex) = VRun <-> says ans qs 0 [] /\ ex = false.
Proof.
  intros ans qs ex. pose proof (get_unmet_spec ans qs []) as G. unfold process.
  destruct (get_unmet ans qs []) as [c [un|x]]; simpl in G.
  - destruct G as (_ & G). destruct un as [|p un].
    + destruct ex; simpl; split; try discriminate; auto. intros (_ & H). discriminate.
    + simpl. split; [discriminate|]. intros (S & _). apply (says_fun _ _ _ _ G) in S. discriminate.
  - destruct G as (p & q & -> & ((r & ->) & _ & F)). simpl. split; [discriminate|]. intros (S & _). exfalso. eapply says_stops; eauto.
Qed.
Print Assumptions C121_runs.

(** [reason q m t]: text t for an unmet requirement q with message m: a message of the answer, or else the message
    it was declared with, or else its repr *)
Inductive reason (q : req) (m : pv) : string -> Prop :=
| rs_answer : truthy m = true -> reason q m (shown m)
| rs_declared s : truthy m = false -> q_msg q = Some s -> reason q m s
| rs_bool b : truthy m = false -> q_msg q = None -> q_req q = QBool b -> reason q m "?"
| rs_repr r : truthy m = false -> q_msg q = None -> (q_req q = QCall r \/ q_req q = QOther r) -> reason q m r.

Lemma reason_text q m : reason q m (if truthy m then shown m else req_repr q).
Proof.
  destruct (truthy m) eqn:T; [constructor; auto|]. unfold req_repr. destruct (q_msg q) eqn:M; [econstructor; eauto|].
  destruct (q_req q) eqn:Q; [eapply rs_bool|eapply rs_repr|eapply rs_repr]; eauto.
Qed.

(** [skipped_for (q, m) t]: the reason recorded *)
Definition skipped_for (p : req * pv) (t : option string) : Prop :=
  (q_skip (fst p) = true /\ t = q_msg (fst p)) \/
  (q_skip (fst p) = false /\ exists s, reason (fst p) (snd p) s /\ t = Some (String.append "Unmet requirement: " s)).
(** [told_for (q, m) t]: the reason test_avoided is told *)
Definition told_for (p : req * pv) (t : string) : Prop :=
  (q_skip (fst p) = true /\ ((q_msg (fst p) = Some t /\ t <> "") \/ ((q_msg (fst p) = None \/ q_msg (fst p) = Some "") /\ t = "Skipped"))) \/
  (q_skip (fst p) = false /\ exists s, reason (fst p) (snd p) s /\ t = String.append "Unmet requirement: " s).

(** If some are not met, one skip is recorded for each of those, in their order, with its reason; if all are met, one if the test is
    excluded and none otherwise. *)
Theorem C121_skips : forall ans qs ex un, says ans qs 0 un ->
  (un <> [] -> Forall2 skipped_for un (k_skips (process ans qs ex))) /\
  (un = [] -> k_skips (process ans qs ex) = if ex then [Some "Excluded due to parameter combination exclusion rules"] else []).
Proof.
  intros ans qs ex un S. pose proof (get_unmet_spec ans qs []) as G. unfold process.
  destruct (get_unmet ans qs []) as [c [un'|x]]; simpl in G.
  - destruct G as (_ & G). apply (says_fun _ _ _ _ G) in S. subst un'. destruct un as [|p un]; [split; [contradiction|destruct ex; reflexivity]|].
    split; [|discriminate]. intros _.
    cbn [k_skips]. generalize (p :: un). clear. intros l. induction l as [|a l IH]; simpl; constructor; auto.
    unfold skipped_for, skip_text. destruct (q_skip (fst a)); [left; auto|]. right. split; auto. eexists. split; [apply reason_text|reflexivity].
  - exfalso. destruct G as (p & q & _ & ((r & ->) & _ & F)). eapply says_stops; eauto.
Qed.
Print Assumptions C121_skips.

Lemma uniq_in t l : In t (uniq l) <-> In t l.
Proof.
  induction l as [|s l IH]; simpl; [tauto|]. destruct (existsb (String.eqb s) l) eqn:X; simpl; rewrite IH; [|tauto].
  split; auto. intros [->|H]; auto. apply existsb_exists in X as (y & Y1 & Y2). apply String.eqb_eq in Y2. subst y. exact Y1.
Qed.
Lemma uniq_nodup l : NoDup (uniq l).
Proof.
  induction l as [|s l IH]; simpl; [constructor|]. destruct (existsb (String.eqb s) l) eqn:X; auto. constructor; auto.
  rewrite uniq_in. intros H. assert (Y : existsb (String.eqb s) l = true) by (apply existsb_exists; exists s; split; auto; apply String.eqb_refl).
  congruence.
Qed.

(** test_avoided is fired exactly when all requirements answer and the test is not run; it is told the reasons of all the
    unmet requirements, equal ones once, and that the test is excluded if that is why. *)
Theorem C121_avoided : forall ans qs ex,
  (forall un, says ans qs 0 un -> un <> [] -> exists ts, k_avoided (process ans qs ex) = Some ts /\ NoDup ts /\
     (forall p, In p un -> exists t, told_for p t /\ In t ts) /\ (forall t, In t ts -> exists p, In p un /\ told_for p t)) /\
  (says ans qs 0 [] -> k_avoided (process ans qs ex) = (if ex then Some ["Excluded due to parameter combination exclusion rules"] else None)) /\
  (k_avoided (process ans qs ex) <> None <-> k_verdict (process ans qs ex) = VAvoid).
Proof.
  intros ans qs ex. pose proof (get_unmet_spec ans qs []) as G. unfold process.
  assert (TF : forall a, told_for a (avoid_text (fst a) (snd a))).
  { intros a. unfold told_for, avoid_text. destruct (q_skip (fst a)) eqn:Q.
    - left. split; auto. destruct (q_msg (fst a)) as [s|]; [|right; auto]. destruct (String.eqb s "") eqn:E.
      + apply String.eqb_eq in E. subst s. right. auto.
      + left. split; auto. intros ->. discriminate.
    - right. split; auto. eexists. split; [apply reason_text|reflexivity]. }
  destruct (get_unmet ans qs []) as [c [un'|x]]; simpl in G.
  - destruct G as (_ & G). split; [|split].
    + intros un S N. apply (says_fun _ _ _ _ G) in S. subst un'. destruct un as [|p un]; [contradiction|].
      eexists. split; [reflexivity|]. split; [apply uniq_nodup|]. split.
      * intros a Ha. exists (avoid_text (fst a) (snd a)). split; [apply TF|]. rewrite uniq_in. apply in_map_iff. exists a. auto.
      * intros t Ht. rewrite uniq_in in Ht. apply in_map_iff in Ht as (a & <- & Ha). exists a. auto.
    + intros S. apply (says_fun _ _ _ _ G) in S. subst un'. destruct ex; reflexivity.
    + destruct un'; [destruct ex|]; simpl; split; auto; try discriminate; intros; contradiction.
  - destruct G as (p & q & _ & ((r & ->) & _ & F)). split; [|split].
    + intros un S. exfalso. eapply says_stops; eauto.
    + intros S. exfalso. eapply says_stops; eauto.
    + simpl. split; [contradiction|discriminate].
Qed.
Print Assumptions C121_avoided.

(** ** Which requirements a test has *)

Lemma req_in_spec q l : req_in q l = true <-> exists p, In p l /\ q_id p = q_id q.
Proof. unfold req_in. rewrite existsb_exists. split; intros (p & A & B); exists p; split; auto; apply Nat.eqb_eq; auto. Qed.
Lemma once_id q l : (exists p, In p (once l) /\ q_id p = q_id q) <-> exists p, In p l /\ q_id p = q_id q.
Proof.
  induction l as [|a l IH]; simpl; [tauto|]. destruct (req_in a l) eqn:R.
  - rewrite IH. split; intros (p & A & B); [exists p; auto|]. destruct A as [->|A]; [|exists p; auto].
    apply req_in_spec in R as (z & Z1 & Z2). exists z. split; auto. congruence.
  - simpl. split; intros (p & [->|A] & B); try (exists p; auto; fail).
    + destruct IH as [IH _]. destruct IH as (z & Z1 & Z2); [exists p; auto|exists z; auto].
    + destruct IH as [_ IH]. destruct IH as (z & Z1 & Z2); [exists p; auto|exists z; auto].
Qed.
Lemma once_incl l : incl (once l) l.
Proof. induction l as [|a l IH]; simpl; [apply incl_refl|]. destruct (req_in a l); [apply incl_tl; auto|]. apply incl_cons; [left; auto|apply incl_tl; auto]. Qed.
Lemma once_nodup l : NoDup (map q_id (once l)).
Proof.
  induction l as [|a l IH]; simpl; [constructor|]. destruct (req_in a l) eqn:R; auto. simpl. constructor; auto.
  intros H. apply in_map_iff in H as (p & A & B). apply once_incl in B.
  assert (X : req_in a l = true) by (apply req_in_spec; exists p; auto). congruence.
Qed.

(** For every order in which sets are gone through: unless it is marked with nofixtures, the test has each requirement of its
    own, of its fixtures and of the autouse fixtures, once, and no other. *)
Theorem C121_gathered : forall order own fixtures autouse,
  (forall l, (forall q, In q (order l) <-> In q l) /\ (NoDup (map q_id l) -> NoDup (map q_id (order l)))) ->
  NoDup (map q_id (test_requirements order false own fixtures autouse)) /\
  (forall q, (exists p, In p (test_requirements order false own fixtures autouse) /\ q_id p = q_id q) <->
             (exists p, In p (own ++ fixtures ++ autouse) /\ q_id p = q_id q)) /\
  (forall ans ex un i, says ans (test_requirements order false own fixtures autouse) 0 un ->
     count_occ Nat.eq_dec (k_calls (process ans (test_requirements order false own fixtures autouse) ex)) i <= 1).
Proof.
  intros order own fixtures autouse HO. unfold test_requirements.
  set (f := order (once (fixtures ++ autouse))).
  assert (ND : NoDup (map q_id (order (once (own ++ f))))) by (apply (proj2 (HO _)), once_nodup).
  split; [exact ND|]. split.
  - intros q. transitivity (exists p, In p (once (own ++ f)) /\ q_id p = q_id q).
    { split; intros (p & A & B); exists p; split; auto; apply (proj1 (HO (once (own ++ f)))); auto. }
    rewrite once_id.
    assert (F : (exists p, In p f /\ q_id p = q_id q) <-> exists p, In p (fixtures ++ autouse) /\ q_id p = q_id q).
    { rewrite <- (once_id q (fixtures ++ autouse)). split; intros (p & A & B); exists p; split; auto; apply (proj1 (HO (once (fixtures ++ autouse)))); auto. }
    split; intros (p & A & B); apply in_app_or in A as [A|A].
    + exists p. split; auto. apply in_or_app; auto.
    + destruct F as [F _]. destruct F as (z & Z1 & Z2); [exists p; auto|]. exists z. split; auto. apply in_or_app; auto.
    + exists p. split; auto. apply in_or_app; auto.
    + destruct F as [_ F]. destruct F as (z & Z1 & Z2); [exists p; auto|]. exists z. split; auto. apply in_or_app; auto.
  - intros ans ex un i S. destruct (C121_asked ans (order (once (own ++ f))) ex) as (K & _). rewrite (K un S).
    clear - ND. induction (order (once (own ++ f))) as [|q l IH]; [simpl; lia|].
    simpl in ND. inversion ND as [|? ? N1 N2]; subst. specialize (IH N2). rewrite functions_cons, count_occ_app.
    assert (Z : forall j, In j (functions l) -> In j (map q_id l)).
    { clear. induction l as [|a l IH]; simpl; [tauto|]. intros j H. change (flat_map _ l) with (functions l) in H.
      apply in_app_or in H as [H|H]; [|right; auto]. destruct (q_req a); simpl in H; [contradiction| |contradiction]. destruct H as [->|[]]. auto. }
    unfold functions at 1. simpl. destruct (q_req q); simpl; try exact IH. destruct (Nat.eq_dec (q_id q) i); [|exact IH].
    subst i. rewrite (proj1 (count_occ_not_In Nat.eq_dec (functions l) (q_id q))); [lia|]. intros H. apply N1, Z, H.
Qed.
Print Assumptions C121_gathered.

(** ** Cases *)

Definition exq_lab := mkReq 1 (QCall "<in_lab>") (Some "needs the lab") false.
Definition exq_disk := mkReq 2 (QCall "<disk>") None false.
Definition exq_net := mkReq 3 (QBool false) None false.
Definition exq_skip := skip_req 4 None.
Definition exq_ans (i n : nat) : reply :=
  match i with 1 => RValue (PBool false) | 2 => RTuple [PObj false "0"; PStr "disk full"] | _ => RValue (PBool true) end.

Example C121_case :
  says exq_ans [exq_lab; exq_disk; exq_net; exq_skip] 0
    [(exq_lab, PStr "needs the lab"); (exq_disk, PStr "disk full"); (exq_net, PNone); (exq_skip, PNone)] /\
  process exq_ans [exq_lab; exq_disk; exq_net; exq_skip] false =
    mkChecked [1; 2] [Some "Unmet requirement: needs the lab"; Some "Unmet requirement: disk full"; Some "Unmet requirement: ?"; None]
      (Some ["Unmet requirement: needs the lab"; "Unmet requirement: disk full"; "Unmet requirement: ?"; "Skipped"]) VAvoid.
Proof.
  split; [|reflexivity].
  eapply says_not; [change false with (truthy (PBool false)); eapply sp_value; reflexivity|].
  eapply says_not; [change false with (truthy (PObj false "0")); eapply sp_tuple; reflexivity|].
  eapply says_not; [apply sp_bool; reflexivity|].
  eapply says_not; [apply sp_bool; reflexivity|constructor].
Qed.

Example C121_gathered_case :
  let order := @rev req in
  (forall l, (forall q, In q (order l) <-> In q l) /\ (NoDup (map q_id l) -> NoDup (map q_id (order l)))) /\
  test_requirements order false [exq_lab; exq_net] [exq_disk; exq_lab] [exq_disk] = [exq_lab; exq_disk; exq_net].
Proof.
  split; [|reflexivity]. intros l. split; [intros; symmetry; apply in_rev|]. rewrite map_rev. apply NoDup_rev.
Qed.

(** ** Not so *)

(** Unmet requirements found before one that fails are forgotten: the test has an error and no skip. *)
Theorem C121_hidden_refuted : exists ans q qs ex x,
  speaks ans q 0 false (msg_val (q_msg q)) /\ process ans (q :: qs) ex = mkChecked (k_calls (process ans (q :: qs) ex)) [] None (VError x).
Proof.
  exists (fun i _ => match i with 1 => RValue (PBool false) | _ => RRaise 9 end), exq_lab, [exq_disk], false, (FRaised 9).
  split; [|reflexivity]. change false with (truthy (PBool false)). eapply sp_value; reflexivity.
Qed.
Print Assumptions C121_hidden_refuted.

(** slash.requires accepts values other than bools and functions (0, None): they are not requirements that are not met, the test
    has an error (core/requirements.py:12-13, 64-66). *)
Theorem C121_value_refuted : exists q, (forall ans ex, process ans [q] ex = mkChecked [] [] None (VError FNotCallable)).
Proof. exists (mkReq 1 (QOther "0") (Some "needs it") false). reflexivity. Qed.
Print Assumptions C121_value_refuted.

(** A test marked with nofixtures whose requirement is listed twice (of the class and of the method, say) asks it twice and is
    skipped twice. *)
Theorem C121_twice_refuted : exists ans order own,
  let c := process ans (test_requirements order true own [] []) false in
  k_calls c = [1; 1] /\ List.length (k_skips c) = 2 /\ k_avoided c = Some ["Unmet requirement: needs the lab"].
Proof. exists exq_ans, (fun l => l), [exq_lab; exq_lab]. repeat split. Qed.
Print Assumptions C121_twice_refuted.

(** The reason recorded need not be the one test_avoided is told. *)
Theorem C121_reason_refuted : exists ans q,
  let c := process ans [q] false in k_skips c = [None] /\ k_avoided c = Some ["Skipped"].
Proof. exists exq_ans, exq_skip. split; reflexivity. Qed.
Print Assumptions C121_reason_refuted.
