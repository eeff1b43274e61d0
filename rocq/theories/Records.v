(** Results agree with the trace; every exception is recorded at most once;
    cleanup errors go to the result current at registration. *)

From Coq Require Import List Bool Arith PeanoNat Lia.
From Verif Require Import Events Core CoreSpec CoreBase Frame.
Import ListNotations.

Definition keys (s : state) : list nat := map fst (st_results s).

Definition known (s : state) (r : rref) : Prop :=
  match r with RGlobal => True | RTest t => In t (keys s) end.

Definition cleanups_of (s : state) : list cleanup :=
  flat_map sc_cleanups (cm_stack (st_cm s)) ++ cm_pending (st_cm s).

Definition ent (e : entry) : option xid * bool := (n_src e, n_fatal e).

Record matches (tr : list event) (rr : rref) (r : result) : Prop := mkMatches {
  m_err : map ent (r_errors r) = recorded rr RKError tr;
  m_fail : map ent (r_failures r) = recorded rr RKFailure tr;
  m_skip : map ent (r_skips r) = recorded rr RKSkip tr }.

Section R.
Variable E : env.

(** What follows an observation of an exception, [p] being the trace before it:
    an exception leaving a cleanup is recorded on the registration-time result,
    one reaching a handling block on the current result, unless it had been
    recorded before. *)
Definition mk (p : list event) (e : event) (t : list event) : Prop :=
  match e with
  | EvRaised cid x k =>
      isinstance k TException = true ->
      exists req tgt crit succ r, In (EvAdd cid req tgt crit succ r) p /\
        (In x (sources p) \/ exists f t', t = EvRecord r (prescribed (e_skips E) k) (Some x) f :: t')
  | EvHandle x k f r =>
      In x (sources p) \/ exists t', t = EvRecord r (prescribed (e_skips E) k) (Some x) f :: t'
  | _ => True
  end.

Definition mark_ok (tr : list event) : Prop := forall p e t, tr = p ++ e :: t -> mk p e t.

Record W (K : list nat) (s : state) : Prop := mkW {
  w_added : st_added s = rev (sources (st_trace s));
  w_nodup : NoDup (sources (st_trace s));
  w_handled : incl (st_handled s) (st_added s);
  w_res : forall t r, lookup t (st_results s) = Some r ->
      matches (st_trace s) (RTest t) r /\
      r_interrupted r = nonempty (recorded (RTest t) RKInterrupt (st_trace s));
  w_glob : matches (st_trace s) RGlobal (st_global s);
  w_gintr : r_interrupted (st_global s) = true <-> exists r src f, In (EvRecord r RKInterrupt src f) (st_trace s);
  w_keys : NoDup (keys s);
  w_K : incl K (keys s);
  w_known : forall r k src f, In (EvRecord r k src f) (st_trace s) -> known s r;
  w_clean : forall c, In c (cleanups_of s) -> known s (c_result c) /\
      exists req tgt, In (EvAdd (c_id c) req tgt (c_crit c) (c_succ c) (c_result c)) (st_trace s);
  w_mark : mark_ok (st_trace s);
  w_cur : known s (st_result s);
  w_test : match st_test s with Some t => known s (RTest t) | None => True end }.

Lemma recorded_app r k a b : recorded r k (a ++ b) = recorded r k a ++ recorded r k b.
Proof. unfold recorded. apply flat_map_app. Qed.
Lemma sources_app a b : sources (a ++ b) = sources a ++ sources b.
Proof. unfold sources. apply flat_map_app. Qed.

Definition plain (e : event) : bool :=
  match e with EvRecord _ _ _ _ | EvRaised _ _ _ | EvHandle _ _ _ _ => false | _ => true end.

Lemma recorded_plain r k l : forallb plain l = true -> recorded r k l = [].
Proof.
  induction l as [|e l IH]; simpl; auto. intros H. apply andb_true_iff in H as [H1 H2].
  destruct e; simpl in *; try discriminate; auto.
Qed.
Lemma sources_plain l : forallb plain l = true -> sources l = [].
Proof.
  induction l as [|e l IH]; simpl; auto. intros H. apply andb_true_iff in H as [H1 H2].
  destruct e; simpl in *; try discriminate; auto.
Qed.

Definition neutral (e : event) : bool :=
  match e with EvRaised _ _ _ | EvHandle _ _ _ _ => false | _ => true end.

Lemma mk_ext p e t l : mk p e t -> mk p e (t ++ l).
Proof.
  destruct e; simpl; auto.
  - intros H Hk. destruct (H Hk) as (req & tgt & crit & succ & r & A & B). exists req, tgt, crit, succ, r.
    split; auto. destruct B as [B|(f & t' & ->)]; auto. right. exists f, (t' ++ l). reflexivity.
  - intros [H|(t' & ->)]; auto. right. exists (t' ++ l). reflexivity.
Qed.

Lemma mark_snoc tr e : mk tr e [] -> mark_ok tr -> mark_ok (tr ++ [e]).
Proof.
  intros He H p e' t Heq. destruct t as [|y t] using rev_ind.
  - apply app_inj_tail in Heq as [-> ->]. auto.
  - clear IHt. change (p ++ e' :: t ++ [y]) with (p ++ (e' :: t) ++ [y]) in Heq.
    rewrite app_assoc in Heq. apply app_inj_tail in Heq as [Heq <-]. apply mk_ext. apply (H _ _ _ Heq).
Qed.

Lemma neutral_mk e p t : neutral e = true -> mk p e t.
Proof. destruct e; simpl; auto; discriminate. Qed.

Lemma mark_app tr l : forallb neutral l = true -> mark_ok tr -> mark_ok (tr ++ l).
Proof.
  revert tr. induction l as [|e l IH]; intros tr Hl H; [rewrite app_nil_r; auto|].
  simpl in Hl. apply andb_true_iff in Hl as [H1 H2].
  replace (tr ++ e :: l) with ((tr ++ [e]) ++ l) by (rewrite <- app_assoc; reflexivity).
  apply IH; auto. apply mark_snoc; auto. apply neutral_mk; auto.
Qed.

Lemma mark_two tr e e2 : mk tr e [e2] -> neutral e2 = true -> mark_ok tr -> mark_ok (tr ++ [e; e2]).
Proof.
  intros He Hn H p e' t Heq. destruct t as [|y t] using rev_ind.
  - replace (tr ++ [e; e2]) with ((tr ++ [e]) ++ [e2]) in Heq by (rewrite <- app_assoc; reflexivity).
    apply app_inj_tail in Heq as [_ <-]. apply neutral_mk; auto.
  - clear IHt. replace (tr ++ [e; e2]) with ((tr ++ [e]) ++ [e2]) in Heq by (rewrite <- app_assoc; reflexivity).
    change (p ++ e' :: t ++ [y]) with (p ++ (e' :: t) ++ [y]) in Heq.
    rewrite app_assoc in Heq. apply app_inj_tail in Heq as [Heq <-].
    destruct t as [|z t] using rev_ind.
    + apply app_inj_tail in Heq as [-> ->]. auto.
    + clear IHt. change (p ++ e' :: t ++ [z]) with (p ++ (e' :: t) ++ [z]) in Heq.
      rewrite app_assoc in Heq. apply app_inj_tail in Heq as [Heq <-]. apply mk_ext, mk_ext. apply (H _ _ _ Heq).
Qed.

Lemma plain_neutral l : forallb plain l = true -> forallb neutral l = true.
Proof.
  induction l as [|e l IH]; simpl; auto. intros H. apply andb_true_iff in H as [H1 H2].
  rewrite IH; auto. destruct e; simpl in *; auto; discriminate.
Qed.

(** ** Steps that leave results alone *)

Record wstep (s s' : state) : Prop := mkWstep {
  ws_glob : st_global s' = st_global s;
  ws_res : st_results s' = st_results s;
  ws_handled : st_handled s' = st_handled s;
  ws_added : st_added s' = st_added s;
  ws_test : st_test s' = st_test s;
  ws_cur : st_result s' = st_result s;
  ws_clean : incl (cleanups_of s') (cleanups_of s);
  ws_trace : exists l, st_trace s' = st_trace s ++ l /\ forallb plain l = true }.

Lemma W_wstep K s s' : wstep s s' -> W K s -> W K s'.
Proof.
  intros [] []. destruct ws_trace0 as (l & Ht & Hl).
  assert (Hs : sources (st_trace s') = sources (st_trace s)).
  { rewrite Ht, sources_app, (sources_plain l Hl), app_nil_r; auto. }
  assert (Hr : forall r k, recorded r k (st_trace s') = recorded r k (st_trace s)).
  { intros. rewrite Ht, recorded_app, (recorded_plain _ _ l Hl), app_nil_r; auto. }
  assert (Hin : forall r k src f, In (EvRecord r k src f) (st_trace s') <-> In (EvRecord r k src f) (st_trace s)).
  { intros. rewrite Ht, in_app_iff. split; auto. intros [H|H]; auto.
    rewrite forallb_forall in Hl. apply Hl in H. discriminate. }
  assert (Hk : keys s' = keys s) by (unfold keys; congruence).
  assert (Hkn : forall r, known s' r <-> known s r) by (intros [|t]; simpl; rewrite ?Hk; tauto).
  assert (Hm : forall rr r, matches (st_trace s) rr r -> matches (st_trace s') rr r).
  { intros rr r []. constructor; rewrite Hr; auto. }
  constructor; rewrite ?Hs, ?Hk, ?ws_added0, ?ws_handled0, ?ws_glob0, ?ws_res0, ?ws_test0, ?ws_cur0; auto.
  - intros t r H. destruct (w_res0 t r H). rewrite Hr. auto.
  - rewrite w_gintr0. split; intros (r & src & f & H); exists r, src, f; apply Hin; auto.
  - intros r k src f H. apply Hkn. apply (w_known0 r k src f). apply Hin; auto.
  - intros c H. destruct (w_clean0 c (ws_clean0 c H)) as [A (req & tgt & B)]. split; [apply Hkn; auto|].
    exists req, tgt. rewrite Ht. apply in_or_app; auto.
  - rewrite Ht. apply mark_app; auto. apply plain_neutral; auto.
  - apply Hkn; auto.
  - destruct (st_test s); auto. apply Hkn; auto.
Qed.

Ltac wfield := intros; constructor; try reflexivity; [apply incl_refl | exists []; rewrite app_nil_r; auto].

Lemma wstep_emit e s : plain e = true -> wstep s (emit e s).
Proof.
  intros H. constructor; try reflexivity; [apply incl_refl|]. exists [e]. simpl. rewrite H. auto.
Qed.

Lemma wstep_refl s : wstep s s. Proof. wfield. Qed.
Lemma wstep_trans a b c : wstep a b -> wstep b c -> wstep a c.
Proof.
  intros [] []. constructor; try congruence.
  - eapply incl_tran; eauto.
  - destruct ws_trace0 as (l1 & H1 & P1), ws_trace1 as (l2 & H2 & P2). exists (l1 ++ l2).
    rewrite H2, H1, app_assoc, forallb_app, P1, P2. auto.
Qed.

(** ** Recording *)

Lemma matches_snoc tr rr r e :
  matches tr rr r -> (forall k src f, e = EvRecord rr k src f -> k = RKInterrupt \/ k = RKNothing) ->
  matches (tr ++ [e]) rr r.
Proof.
  intros [] He.
  assert (H : forall k, k <> RKInterrupt -> k <> RKNothing -> recorded rr k [e] = []).
  { intros k K1 K2. simpl. destruct e; simpl; auto.
    destruct (rref_eqb rr r0 && rkind_eqb k k0) eqn:Eq; auto. apply andb_true_iff in Eq as [E1 E2].
    assert (k = k0) by (destruct k, k0; simpl in E2; congruence). subst k0.
    assert (rr = r0).
    { destruct rr, r0; simpl in E1; try discriminate; auto. apply Nat.eqb_eq in E1. congruence. }
    subst. destruct (He _ _ _ eq_refl); congruence. }
  constructor; rewrite recorded_app, H, app_nil_r; auto; discriminate.
Qed.

Lemma rref_eqb_eq a b : rref_eqb a b = true <-> a = b.
Proof.
  destruct a, b; simpl; split; intros H; try discriminate; auto.
  - apply Nat.eqb_eq in H; congruence.
  - inversion H. apply Nat.eqb_refl.
Qed.

(** giving [en] of kind [k] to result [rr] (k one of error, failure, skip) *)
Definition upd_of (k : rkind) (en : entry) : result -> result :=
  match k with RKError => r_add_error en | RKFailure => r_add_failure en | _ => r_add_skip en end.

Definition entry_kind (k : rkind) : Prop := k = RKError \/ k = RKFailure \/ k = RKSkip.

Lemma matches_entry tr rr r k en :
  entry_kind k -> matches tr rr r ->
  matches (tr ++ [EvRecord rr k (n_src en) (n_fatal en)]) rr (upd_of k en r).
Proof.
  intros Hk []. assert (Hrr : rref_eqb rr rr = true) by (apply rref_eqb_eq; auto).
  destruct Hk as [-> | [-> | ->]]; constructor; cbn [upd_of r_add_error r_add_failure r_add_skip r_errors r_failures r_skips];
    rewrite recorded_app; cbn [recorded flat_map]; rewrite Hrr; cbn [rkind_eqb andb];
    rewrite ?map_app, ?app_nil_r; cbn [map app]; unfold ent in *; congruence.
Qed.

Lemma recorded_other rr k tr e :
  (forall src f, e <> EvRecord rr k src f) -> recorded rr k (tr ++ [e]) = recorded rr k tr.
Proof.
  intros H. rewrite recorded_app. simpl. destruct e; rewrite ?app_nil_r; auto.
  destruct (rref_eqb rr r && rkind_eqb k k0) eqn:Eq; rewrite ?app_nil_r; auto.
  apply andb_true_iff in Eq as [E1 E2]. apply rref_eqb_eq in E1. subst.
  assert (k = k0) by (destruct k, k0; simpl in E2; congruence). subst. exfalso. eapply H; eauto.
Qed.

Lemma upd_of_intr k en r : r_interrupted (upd_of k en r) = r_interrupted r.
Proof. destruct k; reflexivity. Qed.

(** [give rr k en s]: state after adding the entry and the event *)
Definition give (rr : rref) (k : rkind) (en : entry) (s : state) : state :=
  emit (EvRecord rr k (n_src en) (n_fatal en)) (on_result rr (upd_of k en) s).

Lemma keys_on_result rr f s : keys (on_result rr f s) = keys s.
Proof. destruct rr; simpl; auto. unfold keys. simpl. apply update_keys. Qed.

Lemma cleanups_on_result rr f s : cleanups_of (on_result rr f s) = cleanups_of s.
Proof. destruct rr; reflexivity. Qed.

Lemma known_ext s s' : keys s' = keys s -> forall r, known s' r <-> known s r.
Proof. intros H [|t]; simpl; rewrite ?H; tauto. Qed.

(** results after [on_result] *)
Lemma res_on_result rr f s t r :
  lookup t (st_results (on_result rr f s)) = Some r ->
  (rr = RTest t /\ exists r0, lookup t (st_results s) = Some r0 /\ r = f r0) \/
  (rr <> RTest t /\ lookup t (st_results s) = Some r).
Proof.
  destruct rr as [|u]; simpl; intros H; [right; split; auto; discriminate|].
  rewrite lookup_update in H. destruct (Nat.eqb t u) eqn:Eq.
  - apply Nat.eqb_eq in Eq. subst u. left. split; auto. destruct (lookup t (st_results s)); [|discriminate].
    simpl in H. inversion H; eauto.
  - apply Nat.eqb_neq in Eq. right. split; auto. congruence.
Qed.

Lemma glob_on_result rr f s :
  st_global (on_result rr f s) = if rref_eqb rr RGlobal then f (st_global s) else st_global s.
Proof. destruct rr; reflexivity. Qed.

(** what adding an entry does, given that its exception (if any) is new and
    has just been put at the head of [st_added] *)
Lemma W_give K s rr k en :
  entry_kind k -> known s rr ->
  W K s ->
  match n_src en with
  | Some x => ~ In x (sources (st_trace s)) -> W K (give rr k en (set_added (x :: st_added s) s))
  | None => W K (give rr k en s)
  end.
Proof.
  intros Hk Hkn HW.
  assert (G : forall ad, ad = rev (sources (st_trace s ++ [EvRecord rr k (n_src en) (n_fatal en)])) ->
     NoDup (sources (st_trace s ++ [EvRecord rr k (n_src en) (n_fatal en)])) ->
     incl (st_added s) ad ->
     W K (give rr k en (set_added ad s))).
  { intros ad Had Hnd Hincl. destruct HW. set (ev := EvRecord rr k (n_src en) (n_fatal en)) in *.
    assert (Ht : st_trace (give rr k en (set_added ad s)) = st_trace s ++ [ev]) by (destruct rr; reflexivity).
    assert (Hkeys : keys (give rr k en (set_added ad s)) = keys s).
    { unfold give. change (keys (on_result rr (upd_of k en) (set_added ad s)) = keys s). rewrite keys_on_result. reflexivity. }
    pose proof (known_ext _ _ Hkeys) as Hkn'.
    constructor; rewrite ?Ht, ?Hkeys; auto.
    - rewrite <- Had. destruct rr; reflexivity.
    - replace (st_handled (give rr k en (set_added ad s))) with (st_handled s) by (destruct rr; reflexivity).
      replace (st_added (give rr k en (set_added ad s))) with ad by (destruct rr; reflexivity).
      eapply incl_tran; eauto.
    - intros t r H. apply (res_on_result rr (upd_of k en) (set_added ad s)) in H. simpl in H.
      destruct H as [[-> (r0 & H & ->)]|[Hne H]].
      + destruct (w_res0 t r0 H) as [M I]. split.
        * apply matches_entry; auto.
        * rewrite upd_of_intr, I, recorded_other; auto. intros src f Heq. inversion Heq. destruct Hk as [?|[?|?]]; congruence.
      + destruct (w_res0 t r H) as [M I]. split.
        * apply matches_snoc; auto. intros k' src f Heq. inversion Heq. congruence.
        * rewrite I, recorded_other; auto. intros src f Heq. inversion Heq. congruence.
    - replace (st_global (give rr k en (set_added ad s))) with (if rref_eqb rr RGlobal then upd_of k en (st_global s) else st_global s)
        by (destruct rr; reflexivity).
      destruct rr as [|t]; simpl; [apply matches_entry; auto|].
      apply matches_snoc; auto. intros k' src f Heq. inversion Heq.
    - replace (r_interrupted (st_global (give rr k en (set_added ad s)))) with (r_interrupted (st_global s))
        by (destruct rr; simpl; rewrite ?upd_of_intr; reflexivity).
      rewrite w_gintr0. split; intros (r & src & f & H); exists r, src, f.
      + apply in_or_app; auto.
      + apply in_app_or in H as [H|[H|[]]]; auto. inversion H. destruct Hk as [?|[?|?]]; congruence.
    - intros r k' src f H. apply in_app_or in H as [H|[H|[]]].
      + apply Hkn'. eauto.
      + inversion H; subst. apply Hkn'. auto.
    - intros c H. assert (Hc : In c (cleanups_of s)) by (destruct rr; exact H).
      destruct (w_clean0 c Hc) as [A (req & tgt & B)]. split; [apply Hkn'; auto|].
      exists req, tgt. apply in_or_app; auto.
    - apply mark_snoc; auto; exact I.
    - apply Hkn'. replace (st_result (give rr k en (set_added ad s))) with (st_result s) by (destruct rr; reflexivity). auto.
    - replace (st_test (give rr k en (set_added ad s))) with (st_test s) by (destruct rr; reflexivity).
      destruct (st_test s); auto. apply (Hkn' (RTest n)). auto. }
  destruct (n_src en) as [x|] eqn:Es.
  - intros Hx. apply G.
    + rewrite sources_app. simpl. rewrite rev_app_distr. simpl. rewrite (w_added _ _ HW). reflexivity.
    + rewrite sources_app. simpl. apply (NoDup_Add (Add_app x (sources (st_trace s)) [])). rewrite app_nil_r.
      split; auto. apply (w_nodup _ _ HW).
    + intros y Hy. right; auto.
  - replace s with (set_added (st_added s) s) by (destruct s; reflexivity). apply G.
    + rewrite sources_app. simpl. rewrite app_nil_r. apply (w_added _ _ HW).
    + rewrite sources_app. simpl. rewrite app_nil_r. apply (w_nodup _ _ HW).
    + apply incl_refl.
Qed.

(** the interruption mark and the ignored exception *)
Lemma W_mark K s rr x fatal :
  known s rr -> W K s -> ~ In x (sources (st_trace s)) ->
  W K (on_result RGlobal r_mark_interrupted
        (match rr with
         | RGlobal => emit (EvRecord rr RKInterrupt (Some x) fatal) (set_added (x :: st_added s) s)
         | RTest t => on_result rr r_mark_interrupted (emit (EvRecord rr RKInterrupt (Some x) fatal) (set_added (x :: st_added s) s))
         end)).
Proof.
  intros Hkn HW Hx. destruct HW. set (ev := EvRecord rr RKInterrupt (Some x) fatal).
  set (s' := on_result _ _ _).
  assert (Ht : st_trace s' = st_trace s ++ [ev]) by (destruct rr; reflexivity).
  assert (Hkeys : keys s' = keys s).
  { destruct rr; auto. unfold keys, s'. simpl. apply update_keys. }
  pose proof (known_ext _ _ Hkeys) as Hkn'.
  constructor; rewrite ?Ht, ?Hkeys; auto.
  - rewrite sources_app. simpl. rewrite rev_app_distr. simpl. rewrite <- w_added0. destruct rr; reflexivity.
  - rewrite sources_app. simpl. apply (NoDup_Add (Add_app x (sources (st_trace s)) [])). rewrite app_nil_r. auto.
  - replace (st_handled s') with (st_handled s) by (destruct rr; reflexivity).
    replace (st_added s') with (x :: st_added s) by (destruct rr; reflexivity). intros y Hy. right; auto.
  - intros t r H.
    assert (H' : (rr = RTest t /\ exists r0, lookup t (st_results s) = Some r0 /\ r = r_mark_interrupted r0) \/
                 (rr <> RTest t /\ lookup t (st_results s) = Some r)).
    { apply (res_on_result rr r_mark_interrupted s). destruct rr; exact H. }
    destruct H' as [[-> (r0 & H0 & ->)]|[Hne H0]]; destruct (w_res0 t _ H0) as [M I].
    + split.
      * destruct (matches_snoc _ _ _ ev M) as [A B C]; [intros k src f Heq; inversion Heq; auto|]. constructor; auto.
      * simpl. rewrite recorded_app. simpl. rewrite Nat.eqb_refl. simpl.
        destruct (recorded (RTest t) RKInterrupt (st_trace s)); reflexivity.
    + split.
      * apply matches_snoc; auto. intros k src f Heq; inversion Heq; auto.
      * rewrite I, recorded_other; auto. intros src f Heq. inversion Heq. congruence.
  - replace (st_global s') with (r_mark_interrupted (st_global s)) by (destruct rr; reflexivity).
    destruct (matches_snoc _ _ _ ev w_glob0) as [A B C]; [intros k src f Heq; inversion Heq; auto|]. constructor; auto.
  - replace (r_interrupted (st_global s')) with true by (destruct rr; reflexivity). split; auto.
    intros _. exists rr, (Some x), fatal. apply in_or_app; right; left; auto.
  - intros r k' src f H. apply in_app_or in H as [H|[H|[]]].
    + apply Hkn'. eauto.
    + inversion H; subst. apply Hkn'. auto.
  - intros c H. assert (Hc : In c (cleanups_of s)) by (destruct rr; exact H).
    destruct (w_clean0 c Hc) as [A (req & tgt & B)]. split; [apply Hkn'; auto|].
    exists req, tgt. apply in_or_app; auto.
  - apply mark_snoc; auto; exact I.
  - apply Hkn'. replace (st_result s') with (st_result s) by (destruct rr; reflexivity). auto.
  - replace (st_test s') with (st_test s) by (destruct rr; reflexivity).
    destruct (st_test s); auto. apply (Hkn' (RTest n)). auto.
Qed.

Lemma W_nothing K s rr x fatal :
  known s rr -> W K s -> ~ In x (sources (st_trace s)) ->
  W K (emit (EvRecord rr RKNothing (Some x) fatal) (set_added (x :: st_added s) s)).
Proof.
  intros Hkn HW Hx. destruct HW. set (ev := EvRecord rr RKNothing (Some x) fatal).
  assert (NE : forall r k src f, ev = EvRecord r k src f -> k = RKInterrupt \/ k = RKNothing) by (intros r k src f Heq; inversion Heq; auto).
  constructor; cbn [emit st_trace set_added st_added st_handled st_results st_global st_result st_test]; auto.
  - rewrite sources_app. simpl. rewrite rev_app_distr. simpl. rewrite w_added0. reflexivity.
  - rewrite sources_app. simpl. apply (NoDup_Add (Add_app x (sources (st_trace s)) [])). rewrite app_nil_r. auto.
  - intros y Hy. right; auto.
  - intros t r H. destruct (w_res0 t r H) as [M I]. split.
    + apply matches_snoc; eauto.
    + rewrite I, recorded_other; auto. intros src f Heq. inversion Heq.
  - apply matches_snoc; eauto.
  - rewrite w_gintr0. split; intros (r & src & f & H); exists r, src, f.
    + apply in_or_app; auto.
    + apply in_app_or in H as [H|[H|[]]]; auto. inversion H.
  - intros r k' src f H. apply in_app_or in H as [H|[H|[]]]; [eapply w_known0; eauto|].
    inversion H; subst. auto.
  - intros c Hc. destruct (w_clean0 c Hc) as [A (req & tgt & B)]. split; auto.
    exists req, tgt. apply in_or_app; auto.
  - apply mark_snoc; auto; exact I.
Qed.

Lemma W_added_src K s x : W K s -> (mem_xid x (st_added s) = false <-> ~ In x (sources (st_trace s))).
Proof.
  intros HW. rewrite <- not_true_iff_false, mem_xid_In, (w_added _ _ HW), <- in_rev. tauto.
Qed.

Lemma W_add_exception K rr x s : known s rr -> W K s -> W K (add_exception E rr x s).
Proof.
  intros Hkn HW. unfold add_exception.
  destruct (mem_xid (x_id x) (st_added s)) eqn:Em; auto.
  apply (W_added_src K) in Em; auto. cbv zeta.
  set (en := mkEntry (Some (x_id x)) (x_fatal x)).
  repeat match goal with |- W K (if ?b then _ else _) => destruct b end.
  - apply (W_give K s rr RKFailure en); auto. unfold entry_kind; auto.
  - apply (W_give K s rr RKSkip en); auto. unfold entry_kind; auto.
  - pose proof (W_mark K s rr (x_id x) (x_fatal x) Hkn HW Em) as H.
    destruct rr as [|t]; auto.
    match goal with |- context[if ?b then _ else _] => destruct b end; auto.
    eapply W_wstep; [|exact H]. constructor; try reflexivity; [apply incl_refl|]. exists [EvHook HTestInterrupt t]. split; reflexivity.
  - apply W_nothing; auto.
  - apply (W_give K s rr RKError en); auto. unfold entry_kind; auto.
Qed.

Lemma W_current K s : W K s ->
  known s (match st_test s with Some t => RTest t | None => RGlobal end).
Proof. intros []. destruct (st_test s); auto. Qed.

(** after [add_exception] the exception is among the recorded ones *)
Lemma add_exception_src rr x s :
  st_added s = rev (sources (st_trace s)) ->
  In (x_id x) (sources (st_trace (add_exception E rr x s))).
Proof.
  intros H. unfold add_exception. destruct (mem_xid (x_id x) (st_added s)) eqn:Em.
  - apply mem_xid_In in Em. rewrite H, <- in_rev in Em. auto.
  - cbv zeta.
    assert (L : forall l a b k f, In (x_id x) (sources ((l ++ [EvRecord a k (Some (x_id x)) f]) ++ b))).
    { intros. rewrite !sources_app. apply in_or_app. left. apply in_or_app. right. left. auto. }
    assert (L0 : forall l a k f, In (x_id x) (sources (l ++ [EvRecord a k (Some (x_id x)) f]))).
    { intros. rewrite sources_app. apply in_or_app. right. left. auto. }
    destruct rr as [|u];
      repeat match goal with |- context[if ?b then _ else _] => destruct b end; simpl; auto.
Qed.

(** a marker event, then [add_exception] *)
Lemma add_exception_shape rr x s :
  mem_xid (x_id x) (st_added s) = false ->
  exists l, st_trace (add_exception E rr x s)
            = st_trace s ++ EvRecord rr (prescribed (e_skips E) (x_kind x)) (Some (x_id x)) (x_fatal x) :: l /\
            forallb neutral l = true /\
            forall e, st_trace (add_exception E rr x (emit e s))
            = st_trace s ++ e :: EvRecord rr (prescribed (e_skips E) (x_kind x)) (Some (x_id x)) (x_fatal x) :: l.
Proof.
  intros Em. unfold add_exception. cbn [emit st_added]. rewrite Em. cbv zeta.
  unfold prescribed. fold (skip_types E).
  destruct (isinstance_any (x_kind x) [TAssertion]) eqn:K1.
  { assert (x_kind x = KAssertion) as -> by (destruct (x_kind x); simpl in K1; try discriminate; auto).
    exists []. destruct rr; simpl; repeat split; intros; rewrite <- ?app_assoc; reflexivity. }
  replace (match x_kind x with KAssertion => RKFailure | _ => _ end)
    with (if isinstance_any (x_kind x) (skip_types E) then RKSkip
          else match x_kind x with KKeyboard | KTerminated => RKInterrupt | KGenExit => RKNothing | _ => RKError end)
    by (destruct (x_kind x); simpl in K1; try discriminate; reflexivity).
  destruct (isinstance_any (x_kind x) (skip_types E)) eqn:K2.
  { exists []. destruct rr; simpl; repeat split; intros; rewrite <- ?app_assoc; reflexivity. }
  destruct (isinstance_any (x_kind x) interruption_types) eqn:K3.
  { replace (match x_kind x with KKeyboard | KTerminated => RKInterrupt | KGenExit => RKNothing | _ => RKError end) with RKInterrupt
      by (destruct (x_kind x); simpl in K3; try discriminate; auto).
    destruct rr as [|u].
    - exists []. simpl; repeat split; intros; rewrite <- ?app_assoc; reflexivity.
    - cbn [get_result emit set_added st_results].
      destruct (match lookup u (st_results s) with Some q => r_interrupted q | None => false end).
      + exists []. simpl; repeat split; intros; rewrite <- ?app_assoc; reflexivity.
      + exists [EvHook HTestInterrupt u]. simpl; repeat split; intros; rewrite <- ?app_assoc; reflexivity. }
  destruct (isinstance_any (x_kind x) [TGenExit]) eqn:K4.
  { replace (match x_kind x with KKeyboard | KTerminated => RKInterrupt | KGenExit => RKNothing | _ => RKError end) with RKNothing
      by (destruct (x_kind x); simpl in K4; try discriminate; auto).
    exists []. destruct rr; simpl; repeat split; intros; rewrite <- ?app_assoc; reflexivity. }
  replace (match x_kind x with KKeyboard | KTerminated => RKInterrupt | KGenExit => RKNothing | _ => RKError end) with RKError
    by (destruct (x_kind x); simpl in K3, K4; try discriminate; auto).
  exists []. destruct rr; simpl; repeat split; intros; rewrite <- ?app_assoc; reflexivity.
Qed.

Lemma add_exception_emit rr x e s :
  st_added (add_exception E rr x (emit e s)) = st_added (add_exception E rr x s) /\
  st_handled (add_exception E rr x (emit e s)) = st_handled (add_exception E rr x s) /\
  st_results (add_exception E rr x (emit e s)) = st_results (add_exception E rr x s) /\
  st_global (add_exception E rr x (emit e s)) = st_global (add_exception E rr x s) /\
  cleanups_of (add_exception E rr x (emit e s)) = cleanups_of (add_exception E rr x s) /\
  st_result (add_exception E rr x (emit e s)) = st_result (add_exception E rr x s) /\
  st_test (add_exception E rr x (emit e s)) = st_test (add_exception E rr x s).
Proof.
  unfold add_exception. cbn [emit st_added]. destruct (mem_xid (x_id x) (st_added s)); [repeat split|].
  cbv zeta. destruct rr as [|u]; cbn [get_result emit set_added st_results];
    repeat match goal with |- context[if ?b then _ else _] => destruct b end; repeat split.
Qed.

Lemma W_marked K rr x e s :
  (forall r k, recorded r k [e] = []) -> sources [e] = [] ->
  (In (x_id x) (sources (st_trace s)) -> mk (st_trace s) e []) ->
  mk (st_trace s) e [EvRecord rr (prescribed (e_skips E) (x_kind x)) (Some (x_id x)) (x_fatal x)] ->
  known s rr -> W K s -> W K (add_exception E rr x (emit e s)).
Proof.
  intros Hre Hse Hm1 Hm2 Hkn HW.
  pose proof (W_add_exception K rr x s Hkn HW) as H3.
  destruct (add_exception_emit rr x e s) as (T2 & T3 & T4 & T5 & T6 & T7 & T8).
  set (s3 := add_exception E rr x s) in *. set (s4 := add_exception E rr x (emit e s)) in *.
  assert (HH : exists l, st_trace s3 = st_trace s ++ l /\ st_trace s4 = st_trace s ++ e :: l /\ mark_ok (st_trace s4)).
  { destruct (mem_xid (x_id x) (st_added s)) eqn:Em.
    - exists []. unfold s3, s4, add_exception. cbn [emit st_added]. rewrite Em. rewrite app_nil_r. repeat split.
      apply mark_snoc; [|apply (w_mark _ _ HW)]. apply Hm1.
      apply mem_xid_In in Em. rewrite (w_added _ _ HW), <- in_rev in Em. auto.
    - destruct (add_exception_shape rr x s Em) as (l & A1 & A2 & A3).
      eexists. split; [exact A1|]. split; [apply A3|].
      unfold s4. rewrite A3.
      replace (st_trace s ++ e :: EvRecord rr (prescribed (e_skips E) (x_kind x)) (Some (x_id x)) (x_fatal x) :: l)
        with ((st_trace s ++ [e; EvRecord rr (prescribed (e_skips E) (x_kind x)) (Some (x_id x)) (x_fatal x)]) ++ l)
        by (rewrite <- app_assoc; reflexivity).
      apply mark_app; auto. apply mark_two; auto. apply (w_mark _ _ HW). }
  destruct HH as (l & Htr & T1 & Hmk).
  assert (Hsrc : sources (st_trace s4) = sources (st_trace s3)).
  { rewrite T1, Htr. change (e :: l) with ([e] ++ l). rewrite !sources_app, Hse. reflexivity. }
  assert (Hrec : forall r k, recorded r k (st_trace s4) = recorded r k (st_trace s3)).
  { intros. rewrite T1, Htr. change (e :: l) with ([e] ++ l). rewrite !recorded_app, Hre. reflexivity. }
  assert (Hne : forall r k src f, e <> EvRecord r k src f).
  { intros r k src f ->. specialize (Hre r k). simpl in Hre.
    assert (R1 : rref_eqb r r = true) by (apply rref_eqb_eq; auto). rewrite R1 in Hre. destruct k; discriminate. }
  assert (Hin3 : forall a, In a (st_trace s3) -> In a (st_trace s4)).
  { intros a. rewrite T1, Htr, !in_app_iff. simpl. tauto. }
  assert (Hin4 : forall r k src f, In (EvRecord r k src f) (st_trace s4) -> In (EvRecord r k src f) (st_trace s3)).
  { intros r k src f. rewrite T1, Htr, !in_app_iff. simpl. intros [A|[A|A]]; auto. exfalso. eapply Hne; eauto. }
  assert (Hkeys : keys s4 = keys s3) by (unfold keys; congruence).
  pose proof (known_ext _ _ Hkeys) as Hkn'.
  destruct H3. constructor; rewrite ?Hsrc, ?Hkeys, ?T2, ?T3, ?T4, ?T5, ?T6, ?T7, ?T8; auto.
  - intros t r H. destruct (w_res0 t r H) as [[A B C] I]. split; [constructor|]; rewrite Hrec; auto.
  - destruct w_glob0 as [A B C]. constructor; rewrite Hrec; auto.
  - rewrite w_gintr0. split; intros (r & src & f & H); exists r, src, f; auto.
  - intros r k0 src f H. apply Hkn'. eapply w_known0. eauto.
  - intros c0 Hc0. destruct (w_clean0 c0 Hc0) as [A (rq & tg & B)]. split; [apply Hkn'; auto|].
    exists rq, tg. auto.
  - apply Hkn'; auto.
  - destruct (st_test s3); auto. apply (Hkn' (RTest n)); auto.
Qed.

Lemma W_handle K x s : W K s -> W K (handle_exception E x s).
Proof.
  intros HW. unfold handle_exception. cbv zeta.
  set (rr := match st_test s with Some t => RTest t | None => RGlobal end).
  pose proof (W_current K s HW) as Hkn. fold rr in Hkn.
  set (e := EvHandle (x_id x) (x_kind x) (x_fatal x) rr). cbn [emit st_handled].
  assert (HW1 : W K (add_exception E rr x (emit e s))).
  { apply W_marked; auto; try (intros; reflexivity).
    - intros H. left; auto.
    - right. eexists. reflexivity. }
  destruct (mem_xid (x_id x) (st_handled s)) eqn:Em.
  - assert (Ha : mem_xid (x_id x) (st_added s) = true).
    { apply mem_xid_In. apply (w_handled _ _ HW). apply mem_xid_In. auto. }
    unfold add_exception in HW1. cbn [emit st_added] in HW1. rewrite Ha in HW1. exact HW1.
  - unfold update_current_result. cbn [st_test set_handled].
    assert (Heq : forall s0, match st_test s with Some t => add_exception E (RTest t) x s0 | None => add_exception E RGlobal x s0 end
            = add_exception E rr x s0) by (intros; unfold rr; destruct (st_test s); auto).
    match goal with |- W K ?X => replace X with (add_exception E rr x (set_handled (x_id x :: st_handled s) (emit e s)))
      by (symmetry; apply Heq) end.
    set (s1 := emit e s) in *.
    assert (Hc : add_exception E rr x (set_handled (x_id x :: st_handled s) s1)
             = set_handled (x_id x :: st_handled s) (add_exception E rr x s1)).
    { clearbody rr s1. unfold add_exception. cbv zeta. destruct rr as [|u]; simpl;
      repeat match goal with |- context[if ?b then _ else _] => destruct b end; reflexivity. }
    rewrite Hc. destruct HW1. constructor; auto. cbn [set_handled st_handled st_added].
    intros y [<-|Hy].
    + rewrite w_added0, <- in_rev. apply add_exception_src; auto. unfold s1. cbn [emit st_added st_trace].
      rewrite sources_app. simpl. rewrite app_nil_r. apply (w_added _ _ HW).
    + apply w_handled0. replace (st_handled (add_exception E rr x s1)) with (st_handled s); auto.
      unfold s1. clear. unfold add_exception. cbv zeta. destruct rr as [|u];
        repeat match goal with |- context[if ?b then _ else _] => destruct b end; reflexivity.
Qed.

Lemma W_add_entry K k fatal s : entry_kind k -> W K s -> W K (add_entry k fatal s).
Proof.
  intros Hk HW. pose proof (W_give K s (st_result s) k (mkEntry None fatal) Hk (w_cur _ _ HW) HW) as H. simpl in H.
  destruct Hk as [-> | [-> | ->]]; exact H.
Qed.

(** ** Registering *)
Lemma cleanups_attach c req tgt s x :
  In x (cleanups_of (attach c req tgt s)) -> x = c \/ In x (cleanups_of s).
Proof.
  unfold attach, cleanups_of. destruct tgt as [sid|]; simpl; rewrite !in_app_iff.
  - intros [H|H]; auto. apply in_flat_map in H as [sc [H1 H2]]. unfold on_scope in H1.
    apply in_map_iff in H1 as [sc0 [H3 H4]]. destruct (Nat.eqb sid (sc_id sc0)); subst sc.
    + simpl in H2. destruct H2 as [<-|H2]; auto. right. left. apply in_flat_map. eauto.
    + right. left. apply in_flat_map. eauto.
  - intros [H|[H|H]]; auto.
Qed.

Lemma W_attach K c req tgt s :
  known s (c_result c) -> W K s -> W K (attach c req tgt s).
Proof.
  intros Hkn HW. destruct HW.
  set (ev := EvAdd (c_id c) req tgt (c_crit c) (c_succ c) (c_result c)).
  assert (Ht : st_trace (attach c req tgt s) = st_trace s ++ [ev]) by (unfold attach; destruct tgt; reflexivity).
  assert (Hsame : st_results (attach c req tgt s) = st_results s /\ st_global (attach c req tgt s) = st_global s /\
     st_added (attach c req tgt s) = st_added s /\ st_handled (attach c req tgt s) = st_handled s /\
     st_result (attach c req tgt s) = st_result s /\ st_test (attach c req tgt s) = st_test s).
  { unfold attach; destruct tgt; repeat split; reflexivity. }
  destruct Hsame as (S1 & S2 & S3 & S4 & S5 & S6).
  assert (Hkeys : keys (attach c req tgt s) = keys s) by (unfold keys; congruence).
  pose proof (known_ext _ _ Hkeys) as Hkn'.
  assert (Hs : sources (st_trace s ++ [ev]) = sources (st_trace s)) by (rewrite sources_app; simpl; apply app_nil_r).
  assert (Hr : forall r k, recorded r k (st_trace s ++ [ev]) = recorded r k (st_trace s)).
  { intros. rewrite recorded_app; simpl; apply app_nil_r. }
  assert (Hm : forall rr r, matches (st_trace s) rr r -> matches (st_trace s ++ [ev]) rr r).
  { intros rr r []. constructor; rewrite Hr; auto. }
  assert (Hin : forall r k src f, In (EvRecord r k src f) (st_trace s ++ [ev]) <-> In (EvRecord r k src f) (st_trace s)).
  { intros. rewrite in_app_iff. split; auto. intros [H|[H|[]]]; auto. discriminate. }
  constructor; rewrite ?Ht, ?Hkeys, ?Hs, ?S1, ?S2, ?S3, ?S4, ?S5, ?S6; auto.
  - intros t r H. rewrite Hr. destruct (w_res0 t r H). auto.
  - rewrite w_gintr0. split; intros (r & src & f & H); exists r, src, f; apply Hin; auto.
  - intros r k src f H. apply Hkn'. apply (w_known0 r k src f). apply Hin; auto.
  - intros x Hx. apply cleanups_attach in Hx as [->|Hx].
    + split; [apply Hkn'; auto|]. exists req, tgt. apply in_or_app. right; left; auto.
    + destruct (w_clean0 x Hx) as [A (rq & tg & B)]. split; [apply Hkn'; auto|]. exists rq, tg. apply in_or_app; auto.
  - apply mark_snoc; auto; exact I.
  - apply Hkn'; auto.
  - destruct (st_test s); auto. apply (Hkn' (RTest n)); auto.
Qed.

Lemma presW_raise K k f : pres (W K) (raise_new k f).
Proof. intros s H. simpl. eapply W_wstep; [|exact H]. wfield. Qed.

Lemma presW_add_cleanup K sc crit succ body : pres (W K) (add_cleanup sc crit succ body).
Proof.
  intros s H. unfold add_cleanup. destruct (succ && crit); [apply presW_raise; auto|].
  set (c := mkCleanup _ _ _ _ _). set (s1 := on_cm _ s).
  assert (H1 : W K s1) by (eapply W_wstep; [|exact H]; wfield).
  assert (Hc : known s1 (c_result c)) by (apply (w_cur _ _ H)).
  repeat match goal with |- W K (fst (match ?b with _ => _ end)) => destruct b end; cbn [fst];
    try (apply presW_raise; auto; fail); apply W_attach; auto.
Qed.

Lemma presW_handling K h a : pres (W K) a -> pres (W K) (handling E h a).
Proof. apply pres_handling. intros; apply W_handle; auto. Qed.

Lemma presW_step K f : (forall s, wstep s (f s)) -> pres (W K) (upd f).
Proof. intros H s Hs. eapply W_wstep; [apply H|exact Hs]. Qed.

Lemma presW_exec K p : pres (W K) (exec E p).
Proof.
  induction p; cbn [exec].
  - apply pres_ret.
  - apply presW_raise.
  - apply pres_reraise.
  - apply pres_seq; auto. apply presW_step. intros; apply wstep_emit; reflexivity.
  - apply pres_seq; auto. apply pres_tap_add; [|apply presW_add_cleanup].
    intros req k s H. eapply W_wstep; [apply wstep_emit; reflexivity|exact H].
  - apply pres_seq; auto. apply pres_upd. intros s H. apply W_add_entry; auto. unfold entry_kind; auto.
  - apply pres_seq; auto. apply pres_upd. intros s H. apply W_add_entry; auto. unfold entry_kind; auto.
  - apply pres_seq; auto. apply presW_handling; auto.
  - apply pres_seq; auto. apply pres_except; auto. intros; apply pres_ret.
  - apply pres_seq; auto. apply pres_default; auto. intros v s H. eapply W_wstep; [|exact H]. wfield.
  - apply pres_seq; auto. intros s H. unfold activate_fixture. cbn [fst]. eapply W_wstep; [|exact H].
    constructor; try reflexivity; [apply incl_refl|]. exists [EvFixUp (st_nfix s) l]. auto.
  - apply pres_seq; auto. apply pres_finally; auto.
  - apply pres_seq; auto. apply pres_cond; auto.
  - apply pres_seq; auto. intros s. unfold observe_phase. cbn [fst]. intros H. eapply W_wstep; [|exact H]. apply wstep_emit; reflexivity.
Qed.

Lemma presW_fire K h t : pres (W K) (fire E h t).
Proof. apply pres_seq; [|apply presW_exec]. apply presW_step. intros; apply wstep_emit; reflexivity. Qed.

(** ** Scopes *)
Lemma presW_cm_push K n : pres (W K) (cm_push n).
Proof.
  intros s H. unfold cm_push. cbn [fst]. eapply W_wstep; [|exact H].
  constructor; try reflexivity.
  - intros c Hc. unfold cleanups_of in *. simpl in Hc. rewrite app_nil_r in Hc.
    apply in_app_or in Hc as [Hc|Hc]; apply in_or_app; auto.
  - exists [EvPush (cm_nsid (st_cm s)) n]. split; reflexivity.
Qed.

Lemma presW_call_cleanup K sid c s :
  known s (c_result c) -> (exists req tgt, In (EvAdd (c_id c) req tgt (c_crit c) (c_succ c) (c_result c)) (st_trace s)) ->
  W K s -> W K (fst (call_cleanup E sid c s)).
Proof.
  intros Hkn (req & tgt & Ha) HW. unfold call_cleanup, finally, seq, upd.
  set (s1 := emit (EvRun (c_id c)) (on_cm (with_current (Some sid)) s)).
  assert (H1 : W K s1).
  { eapply W_wstep; [|exact HW]. constructor; try reflexivity; [apply incl_refl|]. exists [EvRun (c_id c)]. auto. }
  assert (F1 : frame s s1).
  { constructor; try reflexivity; [exists [EvRun (c_id c)]; auto|apply res_grow_refl|apply grow_refl]. }
  pose proof (presW_exec K (c_body c) s1 H1) as H2. pose proof (relf_exec E (c_body c) s1) as F2.
  unfold except_, tap. destruct (exec E (c_body c) s1) as [s2 [| x |]]; cbn [fst snd] in *.
  - eapply W_wstep; [|exact H2]. wfield.
  - assert (F : frame s s2) by (eapply frame_trans; eauto).
    assert (Ha2 : In (EvAdd (c_id c) req tgt (c_crit c) (c_succ c) (c_result c)) (st_trace s2)).
    { destruct (f_trace _ _ F) as (tr & -> & _). apply in_or_app; auto. }
    assert (Hkn2 : known s2 (c_result c)).
    { eapply known_ext; [|exact Hkn]. unfold keys. apply (f_res _ _ F). }
    change (isinstance_any (x_kind x) [TException]) with (isinstance (x_kind x) TException || false).
    rewrite orb_false_r.
    destruct (isinstance (x_kind x) TException) eqn:Ei; cbn [fst].
    + cut (W K (add_exception E (c_result c) x (emit (EvRaised (c_id c) (x_id x) (x_kind x)) s2))).
      { intros H3. eapply W_wstep; [|exact H3]. wfield. }
      apply W_marked; auto; try (intros; reflexivity).
      * intros Hin _. exists req, tgt, (c_crit c), (c_succ c), (c_result c). auto.
      * intros _. exists req, tgt, (c_crit c), (c_succ c), (c_result c). split; auto. right. do 2 eexists. reflexivity.
    + destruct H2. constructor; cbn [st_trace emit on_cm set_cm st_added st_handled st_results st_global st_test st_result]; auto.
      * rewrite sources_app. simpl. rewrite app_nil_r. auto.
      * rewrite sources_app. simpl. rewrite app_nil_r. auto.
      * intros t r H. destruct (w_res0 t r H) as [M I]. split.
        -- apply matches_snoc; auto. intros; discriminate.
        -- rewrite I, recorded_other; auto. intros; discriminate.
      * apply matches_snoc; auto. intros; discriminate.
      * rewrite w_gintr0. split; intros (r & src & f & H); exists r, src, f.
        -- apply in_or_app; auto.
        -- apply in_app_or in H as [H|[H|[]]]; auto. discriminate.
      * intros r k src f H. apply in_app_or in H as [H|[H|[]]]; [eapply w_known0; eauto|discriminate].
      * intros c0 Hc0. destruct (w_clean0 c0 Hc0) as [A (rq & tg & B)]. split; auto. exists rq, tg. apply in_or_app; auto.
      * apply mark_snoc; auto. intros Hk. congruence.
  - exact H2.
Qed.

Lemma scope_cleanups_In sid s c : In c (scope_cleanups sid s) -> In c (cleanups_of s).
Proof.
  unfold scope_cleanups, cleanups_of. destruct (find _ _) as [sc|] eqn:Ef; [|intros []].
  intros H. apply find_some in Ef as [Ef _]. apply in_or_app. left. apply in_flat_map. eauto.
Qed.

Lemma cleanups_drop sid s :
  incl (cleanups_of (on_cm (fun m => with_stack (on_scope sid (@tl _) (cm_stack m)) m) s)) (cleanups_of s).
Proof.
  intros c. unfold cleanups_of. simpl. rewrite !in_app_iff, !in_flat_map.
  intros [[sc [H1 H2]]|H]; auto. left. unfold on_scope in H1. apply in_map_iff in H1 as [sc0 [H3 H4]].
  destruct (Nat.eqb sid (sc_id sc0)); subst sc; eauto. simpl in H2. exists sc0. split; auto.
  destruct (sc_cleanups sc0); simpl in *; auto.
Qed.

Lemma presW_cleanup_loop K fuel sid f i : pres (W K) (cleanup_loop E fuel sid f i).
Proof.
  induction fuel as [|fuel IH]; intros s HW; cbn [cleanup_loop]; auto.
  destruct (scope_cleanups sid s) as [|c cl] eqn:Ec; auto.
  set (s0 := on_cm _ s).
  assert (H0 : W K s0).
  { eapply W_wstep; [|exact HW]. constructor; try reflexivity; [apply cleanups_drop|exists []; rewrite app_nil_r; auto]. }
  destruct (i && negb (c_crit c)); [apply IH; auto|].
  destruct ((f || i) && c_succ c); [apply IH; auto|].
  destruct (w_clean _ _ HW c) as [A B]; [apply (scope_cleanups_In sid); rewrite Ec; left; auto|].
  unfold seq, handling.
  pose proof (presW_call_cleanup K sid c s0 A B H0) as H1.
  destruct (call_cleanup E sid c s0) as [s1 [| x |]]; cbn [fst] in *; auto.
  pose proof (W_handle K x s1 H1) as H2.
  repeat match goal with |- context[if ?b then _ else _] => destruct b end; cbn [fst]; auto; apply IH; auto.
Qed.

Lemma presW_call_cleanups K sid nm f i : pres (W K) (call_cleanups E sid nm f i).
Proof.
  apply pres_seq.
  - destruct (sname_eqb nm STest); [|apply pres_ret]. intros s H. apply presW_handling; auto. apply presW_fire.
  - intros s H. apply presW_cleanup_loop; auto.
Qed.

Lemma presW_cm_pop K n : pres (W K) (cm_pop E n).
Proof.
  intros s H. unfold cm_pop. destruct (cm_stack (st_cm s)) as [|sc l]; [apply presW_raise; auto|].
  destruct (negb _); [apply presW_raise; auto|].
  set (s1 := emit _ s). assert (H1 : W K s1) by (eapply W_wstep; [apply wstep_emit; reflexivity|exact H]).
  pose proof (presW_call_cleanups K (sc_id sc) (sc_name sc) (negb (current_success s)) (current_interrupted s) s1 H1) as H2.
  destruct (call_cleanups E _ _ _ _ s1) as [s2 [| x |]]; cbn [fst] in *; auto;
    (eapply W_wstep; [apply wstep_emit; reflexivity|]; eapply W_wstep; [|exact H2];
     constructor; try reflexivity; [|exists []; rewrite app_nil_r; auto]);
    (intros c; unfold cleanups_of; simpl; rewrite !in_app_iff; intros [Hc|Hc]; auto; left;
     destruct (cm_stack (st_cm s2)); simpl in *; auto; apply in_or_app; auto).
Qed.

Lemma presW_deactivate K l fid : pres (W K) (deactivate_fixture E l fid).
Proof.
  intros s H. unfold deactivate_fixture. destruct (lookup fid (fix_get l s)) as [fin|]; auto.
  apply pres_seq; [| |exact H]; [|apply presW_exec]. apply presW_step. intros s'.
  eapply wstep_trans; [|apply wstep_emit; reflexivity]. wfield.
Qed.

Lemma presW_fix_pop K n : pres (W K) (fix_pop E n).
Proof.
  assert (A : forall l fids, pres (W K) (deactivate_all E l fids)).
  { intros l fids. induction fids; simpl; [apply pres_ret|]. apply pres_seq; auto. apply presW_handling, presW_deactivate. }
  assert (L : forall sl l, pres (W K) (fix_pop_level E sl l)).
  { intros sl l s H. unfold fix_pop_level. destruct (Nat.leb _ _); auto.
    apply pres_seq; auto. intros s' H'. destruct (nonempty _); auto. apply presW_raise; auto. }
  assert (Ls : forall sl ls, pres (W K) (fix_pop_levels E sl ls)).
  { intros sl ls. induction ls; simpl; [apply pres_ret|apply pres_seq; auto]. }
  intros s H. unfold fix_pop. destruct (current_interrupted s); auto. apply Ls; auto.
Qed.

Lemma presW_sm_push K n : pres (W K) (sm_push n).
Proof. apply pres_seq; [|apply presW_cm_push]. apply presW_step. wfield. Qed.

Lemma presW_sm_pop K n : pres (W K) (sm_pop E n).
Proof.
  intros s H. unfold sm_pop. destruct (st_scopes s) as [|p rest]; [apply presW_raise; auto|].
  assert (H1 : W K (set_scopes rest s)) by (eapply W_wstep; [|exact H]; wfield).
  destruct (negb _); [apply presW_raise; auto|].
  assert (H2 : pres (W K) (call_all None [cm_pop E n; fix_pop E n])).
  { apply pres_call_all. intros f [<-|[<-|[]]]; [apply presW_cm_pop|apply presW_fix_pop]. }
  specialize (H2 _ H1).
  destruct (call_all None _ (set_scopes rest s)) as [s1 [| x |]]; cbn [fst] in *; auto;
    (eapply W_wstep; [apply wstep_emit; reflexivity|exact H2]).
Qed.

Lemma presW_begin K t : pres (W K) (begin_test E t).
Proof.
  unfold begin_test. destruct (t_module t); [|apply presW_raise].
  repeat first [ apply presW_sm_push | apply presW_cm_push | apply presW_sm_pop | apply presW_raise
               | apply pres_seq | apply pres_cond | apply pres_ret | apply presW_step; wfield ].
Qed.

Lemma presW_end K t : pres (W K) (end_test E t).
Proof. apply pres_cond; [apply presW_raise|apply presW_sm_pop]. Qed.

Lemma presW_flush K : pres (W K) (flush_remaining_scopes E).
Proof.
  intros s H. unfold flush_remaining_scopes.
  assert (H1 : pres (W K) (call_all None (map (sm_pop E) (st_scopes s)))).
  { apply pres_call_all. intros f Hf. apply in_map_iff in Hf as [n [<- _]]. apply presW_sm_pop. }
  apply H1; auto.
Qed.

Lemma presW_initiate K : pres (W K) (initiate_cleanup E).
Proof.
  apply pres_cond; [|apply pres_ret]. apply pres_finally; apply presW_handling; [|apply presW_flush].
  apply presW_fire.
Qed.

Lemma presW_add_skips K n : pres (W K) (add_skips n).
Proof.
  induction n; simpl; [apply pres_ret|]. apply pres_seq; auto. apply pres_upd.
  intros; apply W_add_entry; unfold entry_kind; auto.
Qed.

(** ** The runner *)

Lemma W_weaken K K' s : incl K K' -> W K' s -> W K s.
Proof. intros H []. constructor; auto. eapply incl_tran; eauto. Qed.

Lemma W_keys K s : W K s -> W (keys s) s.
Proof. intros []. constructor; auto. apply incl_refl. Qed.

Definition knownK (K : list nat) (r : rref) : Prop := match r with RGlobal => True | RTest t => In t K end.

Lemma W_knownK K s r : W K s -> knownK K r -> known s r.
Proof. intros [] H. destruct r; simpl in *; auto. Qed.

Lemma W_set_result K r s : knownK K r -> W K s -> W K (set_result r s).
Proof.
  intros Hr HW. pose proof (W_knownK _ _ _ HW Hr). destruct HW. constructor; auto.
Qed.

Lemma W_set_test K t s : match t with Some u => In u K | None => True end -> W K s -> W K (set_test t s).
Proof.
  intros Hr HW. destruct HW. constructor; auto. cbn [st_test set_test]. destruct t; auto. apply (w_K0 n Hr).
Qed.

(** marks that are not recorded *)
Lemma W_remark K t f s :
  (forall r, r_errors (f r) = r_errors r /\ r_failures (f r) = r_failures r /\ r_skips (f r) = r_skips r /\
             r_interrupted (f r) = r_interrupted r) ->
  W K s -> W K (on_result (RTest t) f s).
Proof.
  intros Hf HW. pose proof (keys_on_result (RTest t) f s) as Hk. pose proof (known_ext _ _ Hk) as Hkn.
  destruct HW. constructor; rewrite ?Hk; auto.
  - intros u r H. apply (res_on_result (RTest t) f s) in H as [[_ (r0 & H & ->)]|[_ H]].
    + destruct (w_res0 u r0 H) as [[A B C] I]. destruct (Hf r0) as (F1 & F2 & F3 & F4).
      split; [constructor|]; rewrite ?F1, ?F2, ?F3, ?F4; auto.
    + auto.
  - intros r k src fl H. apply Hkn. eapply w_known0; eauto.
  - intros c H. destruct (w_clean0 c H). split; auto. apply Hkn; auto.
  - apply Hkn; auto.
  - change (st_test (on_result (RTest t) f s)) with (st_test s). destruct (st_test s); auto. apply (Hkn (RTest n)); auto.
Qed.

Lemma presW_mark_started K t : pres (W K) (upd (on_result (RTest t) r_mark_started)).
Proof. apply pres_upd. intros s. apply W_remark. intros; repeat split. Qed.
Lemma presW_mark_finished K t : pres (W K) (upd (on_result (RTest t) r_mark_finished)).
Proof. apply pres_upd. intros s. apply W_remark. intros; repeat split. Qed.

Lemma presW_ctl_start K t : pres (W K) (ctl_start E t).
Proof.
  apply pres_cond; [apply pres_ret|]. apply pres_seq; [apply presW_step; wfield|].
  apply pres_seq; [apply presW_mark_started|apply presW_fire].
Qed.

Lemma presW_ctl_end K t prev : knownK K prev -> pres (W K) (ctl_end E t prev).
Proof.
  intros Hp. apply pres_cond; [|apply pres_ret]. apply pres_seq; [apply presW_step; wfield|].
  apply pres_finally; [|apply pres_upd; intros; apply W_set_result; auto].
  apply pres_forbid; [intros v s H; eapply W_wstep; [|exact H]; wfield|].
  apply pres_seq; [apply presW_fire|apply presW_mark_finished].
Qed.

Lemma presW_summary K t : pres (W K) (fire_summary E t).
Proof.
  intros s H. unfold fire_summary. apply presW_handling; auto. intros s' H'.
  destruct (lookup t (st_results s')); auto.
  repeat match goal with |- context[if ?b then _ else _] => destruct b end; apply presW_fire; auto.
Qed.

(** creating the result of a test and making the test current *)
Lemma W_create K t s :
  W K s -> lookup t (st_results s) = None ->
  W (t :: keys s) (set_results (st_results s ++ [(t, result0)]) (set_test (Some t) s)).
Proof.
  intros HW Hl. set (s' := set_results _ _).
  assert (Hn : ~ In t (keys s)).
  { intros H. apply lookup_In in H as [r H]. congruence. }
  assert (Hk : keys s' = keys s ++ [t]) by (unfold keys, s'; simpl; rewrite map_app; reflexivity).
  assert (Hkn : forall r, known s r -> known s' r).
  { intros [|u]; simpl; auto. rewrite Hk. intros; apply in_or_app; auto. }
  assert (Hnone : forall k, recorded (RTest t) k (st_trace s) = []).
  { intros k. destruct (recorded (RTest t) k (st_trace s)) as [|[src f] l] eqn:Er; auto. exfalso.
    assert (Hin : In (src, f) (recorded (RTest t) k (st_trace s))) by (rewrite Er; left; auto).
    apply in_flat_map in Hin as [e [H1 H2]]. destruct e; try destruct H2.
    destruct (rref_eqb (RTest t) r && rkind_eqb k k0) eqn:Eq; [|destruct H2].
    apply andb_true_iff in Eq as [E1 _]. apply rref_eqb_eq in E1. subst r.
    apply (w_known _ _ HW) in H1. auto. }
  destruct HW. constructor; rewrite ?Hk; auto.
  - intros u r H. unfold s' in H. simpl in H. rewrite lookup_app in H.
    destruct (lookup u (st_results s)) as [r0|] eqn:El.
    + inversion H; subst. apply (w_res0 u r El).
    + simpl in H. destruct (Nat.eqb u t) eqn:Eu; [|discriminate]. apply Nat.eqb_eq in Eu. subst u. inversion H; subst.
      split; [constructor|]; cbn [s' set_results set_test st_trace]; rewrite Hnone; reflexivity.
  - apply (NoDup_Add (Add_app t (keys s) [])). rewrite app_nil_r. split; auto.
  - intros u [<-|H]; apply in_or_app; simpl; auto.
  - intros r k src f H. apply Hkn. eapply w_known0; eauto.
  - intros c H. destruct (w_clean0 c H). split; auto.
  - simpl. rewrite Hk. apply in_or_app; simpl; auto.
Qed.

Lemma presW_test_context K t body :
  (forall K' prev, knownK K' prev -> In t K' -> pres (W K') (body prev)) -> pres (W K) (test_context t body).
Proof.
  intros Hb s HW. unfold test_context, finally, seq, upd, create_result.
  change (st_results (set_test (Some t) s)) with (st_results s).
  assert (Hprev : match st_test s with Some u => In u (keys s) | None => True end).
  { pose proof (w_test _ _ HW). destruct (st_test s); auto. }
  destruct (lookup t (st_results s)) eqn:El.
  - cbn [fst raise_new set_nx].
    eapply W_wstep; [|exact HW]. constructor; try reflexivity; [apply incl_refl|exists []; rewrite app_nil_r; auto].
  - pose proof (W_create K t s HW El) as H1. set (s1 := set_results _ _) in *.
    set (K' := t :: keys s) in *.
    assert (Hp : knownK K' (st_result s1)).
    { change (st_result s1) with (st_result s). pose proof (w_cur _ _ HW) as Hc. destruct (st_result s); simpl in *; auto. }
    assert (H2 : W K' (set_result (RTest t) s1)).
    { apply W_set_result; auto. left; auto. }
    pose proof (Hb K' (st_result s1) Hp (or_introl eq_refl) _ H2) as H3.
    assert (HK : incl K K') by (intros u Hu; right; apply (w_K _ _ HW); auto).
    assert (Ht : match st_test s with Some u => In u K' | None => True end).
    { destruct (st_test s); auto. right; auto. }
    destruct (body (st_result s1) (set_result (RTest t) s1)) as [s2 [| x |]]; cbn [fst] in *;
      apply (W_weaken K K'); auto; try (apply W_set_test; auto; apply W_set_result; auto).
Qed.

Lemma presW_process K t : pres (W K) (process_requirements E t).
Proof.
  apply pres_seq; [apply presW_exec|].
  destruct (negb _); [apply pres_seq; [apply presW_add_skips|apply presW_fire]|].
  destruct (t_excluded t); [apply pres_seq; [apply (presW_add_skips K 1)|apply presW_fire]|apply pres_ret].
Qed.

Lemma presW_run_single K t b : pres (W K) (run_single E t b).
Proof.
  apply presW_test_context. intros K' prev Hp Ht. apply presW_handling.
  apply pres_seq; [apply presW_process|]. destruct (should_run t); [|apply pres_ret].
  apply pres_seq; [apply presW_mark_started|]. apply pres_seq; [apply presW_step; wfield|].
  apply pres_finally; [|apply presW_ctl_end; auto].
  apply pres_except; [|intros; apply pres_ret].
  apply pres_seq; [|apply pres_seq; [apply presW_summary|]].
  - apply pres_except; [|intros; apply pres_ret]. apply presW_handling.
    apply pres_seq; [apply presW_begin|]. apply pres_finally; [|apply presW_end].
    apply pres_seq; [apply presW_ctl_start|]. apply presW_handling, presW_exec.
  - destruct (_ && _); [|apply pres_ret].
    apply pres_seq; [apply presW_ctl_end; auto|]. apply presW_handling, presW_initiate.
Qed.

Lemma presW_metadata K t : pres (W K) (set_metadata E t).
Proof.
  intros s H. unfold set_metadata. destruct (lookup _ _); [apply presW_raise; auto|].
  destruct (e_worker E); (eapply W_wstep; [|exact H]; wfield).
Qed.

Lemma W_emit K e s : plain e = true -> W K s -> W K (emit e s).
Proof. intros H. apply W_wstep, wstep_emit; auto. Qed.

Lemma presW_run_loop K ts : forall last s, W K s -> W K (fst (fst (fst (run_loop E last ts s)))).
Proof.
  induction ts as [|t ts IH]; intros last s H; cbn [run_loop]; auto.
  pose proof (presW_metadata K (t_id t) s H) as H1.
  destruct (set_metadata E (t_id t) s) as [s1 [| x |]]; cbn [fst] in *; auto.
  set (s2 := emit (EvReportStart (t_id t)) (if file_differs last (t_file t) then emit (EvFileStart (t_file t)) s1 else s1)).
  assert (H2 : W K s2).
  { apply W_emit; auto. destruct (file_differs _ _); auto. apply W_emit; auto. }
  pose proof (presW_run_single K t (nonempty ts) s2 H2) as H3.
  fold s2. destruct (run_single E t (nonempty ts) s2) as [s3 [| x |]]; cbn [fst] in *; auto.
  match goal with |- context[emit (EvReportEnd _) s3] => set (s4 := emit (EvReportEnd (t_id t)) s3) end.
  assert (H4 : W K s4) by (apply W_emit; auto).
  match goal with |- context[match ts with [] => emit ?e s4 | _ => _ end] =>
    set (s5 := match ts with [] => emit e s4 | t' :: _ => if Nat.eqb (t_file t') (t_file t) then s4 else emit e s4 end) end.
  assert (H5 : W K s5).
  { unfold s5. destruct ts; [apply W_emit; auto|]. destruct (Nat.eqb _ _); auto. apply W_emit; auto. }
  repeat match goal with |- context[if ?b then _ else _] => destruct b end; cbn [fst]; auto.
Qed.

Lemma presW_mark_unrun K ts : pres (W K) (mark_unrun ts).
Proof.
  induction ts as [|t ts IH]; simpl; [apply pres_ret|]. apply pres_seq; auto.
  apply presW_test_context. intros; apply pres_ret.
Qed.

Lemma presW_run_tests K ts : pres (W K) (run_tests E ts).
Proof.
  intros s H. unfold run_tests. pose proof (presW_run_loop K ts None s H) as H1.
  destruct (run_loop E None ts s) as [[[s1 o] e] last]. cbn [fst] in H1.
  assert (H2 : W K (fst ((if e_worker E then ret else initiate_cleanup E) s1))).
  { destruct (e_worker E); auto. apply presW_initiate; auto. }
  destruct o; auto;
    destruct ((if e_worker E then ret else initiate_cleanup E) s1) as [s2 [| x' |]]; cbn [fst] in *; auto.
  destruct (e_worker E); auto.
  match goal with |- W K (fst ((?a ;; ?b) s2)) => assert (P : pres (W K) (a ;; b)) end; [|apply P; auto].
  apply pres_seq; [apply presW_mark_unrun|].
  destruct e, last; first [apply pres_ret | apply presW_step; intros; apply wstep_emit; reflexivity].
Qed.

Lemma presW_started K body : pres (W K) body -> pres (W K) (started_context E body).
Proof.
  intros Hb. unfold started_context. apply pres_seq; [apply presW_cm_push|]. apply pres_seq; [apply presW_step; wfield|].
  apply pres_finally.
  - apply pres_except; [|intros; apply pres_seq; [apply presW_fire|apply pres_reraise]].
    apply pres_seq; auto. apply presW_handling.
    repeat first [apply presW_fire | apply pres_seq | apply presW_step; wfield].
  - apply pres_seq; [apply presW_handling, presW_cm_pop|].
    apply pres_cond; [|apply pres_ret]. apply pres_seq; apply presW_handling, presW_fire.
Qed.

Lemma W_state0 : W [] state0.
Proof.
  constructor; simpl; auto; try (intros; contradiction); try (intros; discriminate).
  - constructor.
  - intros x [].
  - constructor; reflexivity.
  - split; [discriminate|]. intros (r & src & f & []).
  - constructor.
  - intros x [].
  - intros p e t H. destruct p; discriminate.
Qed.

Theorem session_records ts : W [] (fst (run_session E ts)).
Proof. apply presW_started; [apply presW_run_tests|apply W_state0]. Qed.

End R.
