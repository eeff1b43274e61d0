(** Every trace of the model is accepted by the scope/cleanup acceptor of
    CoreSpec.v, and the cleanup loop never runs out of fuel. *)

From Coq Require Import List Bool Arith PeanoNat Lia.
From Verif Require Import Events Core CoreSpec CoreBase.
Import ListNotations.

Lemma spec_run_app q a b :
  spec_run q (a ++ b) = match spec_run q a with Some q' => spec_run q' b | None => None end.
Proof.
  revert q; induction a as [|e a IH]; intros q; simpl; auto.
  destruct (spec_step q e); auto.
Qed.

(** Events the acceptor ignores *)
Definition neutral (e : event) : Prop := forall q, spec_step q e = Some q.

Lemma spec_run_neutral l : Forall neutral l -> forall q, spec_run q l = Some q.
Proof. induction 1 as [|e l He Hl IH]; intros q; simpl; auto. rewrite He; auto. Qed.

(** ** Simulation *)

Definition item_of (c : cleanup) : item := (c_id c, c_crit c, c_succ c).

Definition scope_match (x : sscope) (sc : scope) : Prop :=
  ss_id x = sc_id sc /\ ss_nm x = sc_name sc /\ ss_pop x = None /\
  ss_items x = map item_of (sc_cleanups sc).

Definition stack_match (mode : option (bool * bool)) (d : list item) (ql : list sscope) (sl : list scope) : Prop :=
  match mode with
  | None => d = [] /\ Forall2 scope_match ql sl
  | Some (f, i) =>
      match ql, sl with
      | x :: ql', sc :: sl' =>
          ss_id x = sc_id sc /\ ss_nm x = sc_name sc /\ ss_pop x = Some (f, i) /\
          ss_items x = d ++ map item_of (sc_cleanups sc) /\
          Forall (fun it => it_must f i it = false) d /\ Forall2 scope_match ql' sl'
      | _, _ => False
      end
  end.

Definition names_ok (sl : list scope) (names : list (sname * list nat)) : Prop :=
  forall n,
    match name_lookup n names with
    | None => find (fun sc => sname_eqb n (sc_name sc)) sl = None
    | Some l => l = map sc_id (filter (fun sc => sname_eqb n (sc_name sc)) sl)
    end.

Definition flags_ok (c : cleanup) : Prop := c_crit c && c_succ c = false.

Record sim (mode : option (bool * bool)) (d : list item) (q : sst) (s : state) : Prop := mkSim {
  sim_stack : stack_match mode d (q_stack q) (cm_stack (st_cm s));
  sim_pend : q_pend q = map item_of (cm_pending (st_cm s));
  sim_names : names_ok (cm_stack (st_cm s)) (cm_names (st_cm s));
  sim_cids : forall c, In c (q_cids q) -> c < cm_ncid (st_cm s);
  sim_sids : forall i, In i (q_sids q) -> i < cm_nsid (st_cm s);
  sim_nodup : NoDup (map sc_id (cm_stack (st_cm s)));
  sim_known : forall sc, In sc (cm_stack (st_cm s)) -> In (sc_id sc) (q_sids q);
  sim_flags : (forall sc, In sc (cm_stack (st_cm s)) -> Forall flags_ok (sc_cleanups sc)) /\
              Forall flags_ok (cm_pending (st_cm s)) }.

Definition inv (mode : option (bool * bool)) (d : list item) (s : state) : Prop :=
  exists q, spec_run sst0 (st_trace s) = Some q /\ sim mode d q s.

(** ** Steps that do not concern scopes and cleanups *)

Record nstep (s s' : state) : Prop := mkN {
  n_stack : cm_stack (st_cm s') = cm_stack (st_cm s);
  n_names : cm_names (st_cm s') = cm_names (st_cm s);
  n_pend : cm_pending (st_cm s') = cm_pending (st_cm s);
  n_nsid : cm_nsid (st_cm s') = cm_nsid (st_cm s);
  n_ncid : cm_ncid (st_cm s) <= cm_ncid (st_cm s');
  n_trace : exists l, st_trace s' = st_trace s ++ l /\ Forall neutral l }.

Lemma nstep_refl s : nstep s s.
Proof. constructor; auto. exists []. rewrite app_nil_r; auto. Qed.

Lemma nstep_trans a b c : nstep a b -> nstep b c -> nstep a c.
Proof.
  intros [A1 A2 A3 A4 A5 [l [A6 A7]]] [B1 B2 B3 B4 B5 [l' [B6 B7]]].
  constructor; try congruence; try lia.
  exists (l ++ l'). rewrite B6, A6, app_assoc. split; auto. apply Forall_app; auto.
Qed.

Lemma inv_nstep mode d s s' : nstep s s' -> inv mode d s -> inv mode d s'.
Proof.
  intros [A1 A2 A3 A4 A5 [l [A6 A7]]] [q [Hq S]].
  exists q. split.
  - rewrite A6, spec_run_app, Hq. apply spec_run_neutral; auto.
  - destruct S. constructor; rewrite ?A1, ?A2, ?A3, ?A4; auto.
    intros c Hc. specialize (sim_cids0 c Hc). lia.
Qed.

Lemma nstep_emit e s : neutral e -> nstep s (emit e s).
Proof. intros H. constructor; simpl; auto. exists [e]. auto. Qed.

(** changes of other fields *)
Ltac nfield := constructor; simpl; auto; exists []; rewrite app_nil_r; auto.

Lemma nstep_on_result r f s : nstep s (on_result r f s).
Proof. destruct r; nfield. Qed.

Lemma nstep_add_exception E r x s : nstep s (add_exception E r x s).
Proof.
  unfold add_exception. destruct (mem_xid (x_id x) (st_added s)); [apply nstep_refl|].
  assert (H0 : nstep s (set_added (x_id x :: st_added s) s)) by nfield.
  cbv zeta.
  repeat match goal with
  | |- nstep _ (if ?b then _ else _) => destruct b
  end.
  - eapply nstep_trans; [|apply nstep_emit; intros q; reflexivity].
    eapply nstep_trans; [exact H0|apply nstep_on_result].
  - eapply nstep_trans; [|apply nstep_emit; intros q; reflexivity].
    eapply nstep_trans; [exact H0|apply nstep_on_result].
  - eapply nstep_trans; [|apply nstep_on_result].
    assert (H1 : nstep s (emit (EvRecord r RKInterrupt (Some (x_id x)) (x_fatal x)) (set_added (x_id x :: st_added s) s))).
    { eapply nstep_trans; [exact H0|apply nstep_emit; intros q; reflexivity]. }
    destruct r as [|t]; auto.
    match goal with |- nstep _ (if ?b then _ else _) => destruct b end.
    + eapply nstep_trans; [exact H1|apply nstep_on_result].
    + eapply nstep_trans; [|apply nstep_emit; intros q; reflexivity].
      eapply nstep_trans; [exact H1|apply nstep_on_result].
  - eapply nstep_trans; [exact H0|apply nstep_emit; intros q; reflexivity].
  - eapply nstep_trans; [|apply nstep_emit; intros q; reflexivity].
    eapply nstep_trans; [exact H0|apply nstep_on_result].
Qed.

Lemma nstep_handle E x s : nstep s (handle_exception E x s).
Proof.
  unfold handle_exception. cbv zeta.
  eapply nstep_trans; [apply (nstep_emit (EvHandle (x_id x) (x_kind x) (x_fatal x)
    (match st_test s with Some t => RTest t | None => RGlobal end))); intros q; reflexivity|].
  set (s1 := emit _ s). destruct (mem_xid _ _); [apply nstep_refl|].
  assert (H0 : nstep s1 (set_handled (x_id x :: st_handled s1) s1)) by nfield.
  unfold update_current_result.
  destruct (st_test _); (eapply nstep_trans; [exact H0|apply nstep_add_exception]).
Qed.

Lemma nstep_add_entry k f s : nstep s (add_entry k f s).
Proof.
  unfold add_entry. eapply nstep_trans; [apply nstep_on_result|].
  apply nstep_emit. intros q; reflexivity.
Qed.

(** ** add_cleanup *)

Lemma target_model mode d ql sl :
  stack_match mode d ql sl ->
  map ss_id ql = map sc_id sl /\
  (forall n, option_map ss_id (find (fun x => sname_eqb n (ss_nm x)) ql) =
             option_map sc_id (find (fun x => sname_eqb n (sc_name x)) sl)) /\
  map ss_nm ql = map sc_name sl.
Proof.
  assert (F : forall ql sl, Forall2 scope_match ql sl ->
    map ss_id ql = map sc_id sl /\
    (forall n, option_map ss_id (find (fun x => sname_eqb n (ss_nm x)) ql) =
               option_map sc_id (find (fun x => sname_eqb n (sc_name x)) sl)) /\
    map ss_nm ql = map sc_name sl).
  { clear. induction 1 as [|x sc ql sl [H1 [H2 [H3 H4]]] Hf IH]; simpl.
    - auto.
    - destruct IH as [I1 [I2 I3]]. repeat split; try congruence.
      intros n. rewrite H2. destruct (sname_eqb n (sc_name sc)); simpl; [congruence|auto]. }
  destruct mode as [[f i]|]; simpl.
  - destruct ql as [|x ql], sl as [|sc sl]; try tauto.
    intros (H1 & H2 & _ & _ & _ & H3). destruct (F _ _ H3) as [I1 [I2 I3]]. simpl.
    repeat split; try congruence.
    intros n. rewrite H2. destruct (sname_eqb n (sc_name sc)); simpl; [congruence|auto].
  - intros [_ H]; auto.
Qed.

Lemma stack_match_add mode ql sl sid c :
  stack_match mode [] ql sl ->
  stack_match mode [] (add_item sid (item_of c) ql) (on_scope sid (cons c) sl).
Proof.
  assert (F : forall ql sl, Forall2 scope_match ql sl ->
     Forall2 scope_match (add_item sid (item_of c) ql) (on_scope sid (cons c) sl)).
  { clear. induction 1 as [|x sc ql sl (H1 & H2 & H3 & H4) Hf IH]; simpl; constructor; auto.
    rewrite H1. destruct (Nat.eqb sid (sc_id sc)); repeat split; simpl; congruence. }
  destruct mode as [[f i]|]; simpl.
  - destruct ql as [|x ql], sl as [|sc sl]; try tauto.
    intros (H1 & H2 & H3 & H4 & H5 & H6). simpl. rewrite H1.
    destruct (Nat.eqb sid (sc_id sc)); simpl; repeat split; auto; congruence.
  - intros [_ H]; auto.
Qed.

Lemma on_scope_ids sid f sl : map sc_id (on_scope sid f sl) = map sc_id sl.
Proof.
  unfold on_scope. rewrite map_map. apply map_ext. intros sc. destruct (Nat.eqb _ _); auto.
Qed.

Lemma on_scope_names sid f sl : map sc_name (on_scope sid f sl) = map sc_name sl.
Proof.
  unfold on_scope. rewrite map_map. apply map_ext. intros sc. destruct (Nat.eqb _ _); auto.
Qed.

Lemma on_scope_filter sid f n sl :
  map sc_id (filter (fun sc => sname_eqb n (sc_name sc)) (on_scope sid f sl)) =
  map sc_id (filter (fun sc => sname_eqb n (sc_name sc)) sl).
Proof.
  induction sl as [|sc sl IH]; simpl; auto.
  destruct (Nat.eqb sid (sc_id sc)); simpl; destruct (sname_eqb n (sc_name sc)); simpl; congruence.
Qed.

Lemma on_scope_find sid f n sl :
  find (fun sc => sname_eqb n (sc_name sc)) sl = None ->
  find (fun sc => sname_eqb n (sc_name sc)) (on_scope sid f sl) = None.
Proof.
  induction sl as [|sc sl IH]; simpl; auto.
  destruct (Nat.eqb sid (sc_id sc)); simpl; destruct (sname_eqb n (sc_name sc)); auto; discriminate.
Qed.

Lemma names_ok_on_scope sid f sl names : names_ok sl names -> names_ok (on_scope sid f sl) names.
Proof.
  intros H n. specialize (H n). destruct (name_lookup n names).
  - rewrite on_scope_filter; auto.
  - apply on_scope_find; auto.
Qed.

Lemma In_on_scope sid f sl sc :
  In sc (on_scope sid f sl) ->
  exists sc', In sc' sl /\ sc_id sc = sc_id sc' /\ sc_name sc = sc_name sc' /\
              (sc_cleanups sc = sc_cleanups sc' \/ sc_cleanups sc = f (sc_cleanups sc')).
Proof.
  unfold on_scope. rewrite in_map_iff. intros [sc' [H1 H2]]. exists sc'. subst.
  destruct (Nat.eqb _ _); simpl; auto.
Qed.

Lemma memb_lt n l m : (forall c, In c l -> c < m) -> m <= n -> memb n l = false.
Proof.
  intros H Hm. unfold memb. destruct (existsb (Nat.eqb n) l) eqn:He; auto.
  apply existsb_exists in He as [c [Hc Hn]]. apply Nat.eqb_eq in Hn. subst.
  specialize (H _ Hc). lia.
Qed.

Lemma opt_nat_eqb_refl a : opt_nat_eqb a a = true.
Proof. destruct a; simpl; auto. apply Nat.eqb_refl. Qed.

(** registering on the scope the specification asks for *)
Lemma inv_attach mode s c req tgt :
  inv mode [] s ->
  flags_ok c -> S (c_id c) = cm_ncid (st_cm s) ->
  (forall q, spec_run sst0 (st_trace s) = Some q -> sim mode [] q s -> memb (c_id c) (q_cids q) = false) ->
  (match req with
   | None => tgt = option_map sc_id (hd_error (cm_stack (st_cm s)))
   | Some n => tgt = option_map sc_id (find (fun x => sname_eqb n (sc_name x)) (cm_stack (st_cm s))) /\ tgt <> None
   end) ->
  inv mode [] (attach c req tgt s).
Proof.
  intros [q [Hq S]] Hf Hid Hnew Htgt.
  specialize (Hnew q Hq S).
  pose proof (target_model _ _ _ _ (sim_stack _ _ _ _ S)) as [T1 [T2 T3]].
  assert (Ht : tgt = target req (q_stack q)).
  { destruct req as [n|]; simpl.
    - rewrite T2. tauto.
    - rewrite Htgt. destruct (q_stack q), (cm_stack (st_cm s)); simpl in *; try discriminate; auto.
      congruence. }
  assert (Hreq : tgt = None -> req = None).
  { intros Hn. destruct req; auto. destruct Htgt; congruence. }
  set (it := item_of c).
  exists (match tgt with
     | Some sid => mkSst (add_item sid it (q_stack q)) (q_pend q) (c_id c :: q_cids q) (q_sids q)
     | None => mkSst (q_stack q) (it :: q_pend q) (c_id c :: q_cids q) (q_sids q)
     end).
  assert (Htr : st_trace (attach c req tgt s) = st_trace s ++ [EvAdd (c_id c) req tgt (c_crit c) (c_succ c) (c_result c)]).
  { unfold attach. destruct tgt; reflexivity. }
  split.
  - rewrite Htr, spec_run_app, Hq. simpl. rewrite Hnew. simpl. red in Hf. rewrite Hf.
    rewrite <- Ht, opt_nat_eqb_refl. simpl.
    destruct tgt as [sid|]; auto. rewrite (Hreq eq_refl). reflexivity.
  - destruct S as [S1 S2 S3 S4 S5 S6 S7 [S8 S9]].
    unfold attach. destruct tgt as [sid|]; constructor; simpl; auto.
    + apply stack_match_add; auto.
    + apply names_ok_on_scope; auto.
    + intros c' [<-|Hc']; [lia|]. specialize (S4 _ Hc'). lia.
    + rewrite on_scope_ids; auto.
    + intros sc Hsc. apply In_on_scope in Hsc as [sc' [H1 [H2 _]]]. rewrite H2; auto.
    + split; auto. intros sc Hsc. apply In_on_scope in Hsc as [sc' [H1 [H2 [H3 [H4|H4]]]]]; rewrite H4; auto.
    + unfold it. rewrite S2. reflexivity.
    + intros c' [<-|Hc']; [lia|]. specialize (S4 _ Hc'). lia.
Qed.

Lemma pres_add_cleanup mode sc crit succ body : pres (inv mode []) (add_cleanup sc crit succ body).
Proof.
  intros s Hs. unfold add_cleanup.
  destruct (succ && crit) eqn:Hsc.
  { simpl. eapply inv_nstep; [|exact Hs]. nfield. }
  set (n := match sc with SDefault => _ | SGiven n => n end).
  set (c := mkCleanup _ _ _ _ _).
  set (s1 := on_cm _ s).
  assert (H1 : nstep s s1) by nfield.
  pose proof (inv_nstep _ _ _ _ H1 Hs) as Hs1.
  assert (Hfl : flags_ok c) by (unfold flags_ok; simpl; rewrite andb_comm; auto).
  assert (Hnew : forall q, spec_run sst0 (st_trace s1) = Some q -> sim mode [] q s1 -> memb (c_id c) (q_cids q) = false).
  { intros q Hq _. destruct Hs as [q' [Hq' S']].
    assert (q' = q) by (change (st_trace s1) with (st_trace s) in Hq; congruence). subst q'.
    eapply memb_lt; [exact (sim_cids _ _ _ _ S')|]. simpl. lia. }
  destruct n as [nm|].
  - destruct (name_lookup nm (cm_names (st_cm s1))) as [[|sid l]|] eqn:Hl.
    + simpl. eapply inv_nstep; [|exact Hs1]. nfield.
    + cbn [fst]. apply inv_attach; auto.
      destruct Hs1 as [q [Hq S]]. pose proof (sim_names _ _ _ _ S nm) as Hn. rewrite Hl in Hn.
      split; [|discriminate].
      clear - Hn. induction (cm_stack (st_cm s1)) as [|x sl IH]; simpl in *; [discriminate|].
      destruct (sname_eqb nm (sc_name x)); simpl in *; [congruence|auto].
    + simpl. eapply inv_nstep; [|exact Hs1]. nfield.
  - destruct (negb (cm_implicit (st_cm s1))).
    + simpl. eapply inv_nstep; [|exact Hs1]. nfield.
    + cbn [fst]. apply inv_attach; auto. simpl. destruct (cm_stack (st_cm s)); reflexivity.
Qed.

(** ** User code *)

Lemma nstep_fun {mode d} f : (forall s, nstep s (f s)) -> forall s, inv mode d s -> inv mode d (f s).
Proof. intros H s Hs. eapply inv_nstep; eauto. Qed.

Lemma pres_handling_inv mode d E h a : pres (inv mode d) a -> pres (inv mode d) (handling E h a).
Proof. apply pres_handling. intros x. apply nstep_fun. intros s. apply nstep_handle. Qed.

Lemma pres_raise_inv mode d k f : pres (inv mode d) (raise_new k f).
Proof. intros s Hs. simpl. eapply inv_nstep; [|exact Hs]. nfield. Qed.

Lemma pres_exec mode E p : pres (inv mode []) (exec E p).
Proof.
  induction p; simpl.
  - apply pres_ret.
  - apply pres_raise_inv.
  - apply pres_reraise.
  - apply pres_seq; auto. apply pres_upd, nstep_fun. intros s. apply nstep_emit. intros q; reflexivity.
  - apply pres_seq; auto. apply pres_tap_add; [|apply pres_add_cleanup].
    intros req k. apply nstep_fun. intros s. apply nstep_emit. intros q; reflexivity.
  - apply pres_seq; auto. apply pres_upd, nstep_fun. intros s. apply nstep_add_entry.
  - apply pres_seq; auto. apply pres_upd, nstep_fun. intros s. apply nstep_add_entry.
  - apply pres_seq; auto. apply pres_handling_inv; auto.
  - apply pres_seq; auto. apply pres_except; auto. intros x. apply pres_ret.
  - apply pres_seq; auto. apply pres_default; auto. intros v. apply nstep_fun. intros s'; nfield.
  - apply pres_seq; auto. intros s Hs. simpl. eapply inv_nstep; [|exact Hs].
    constructor; simpl; auto. exists [EvFixUp (st_nfix s) l]. split; auto.
    constructor; auto. intros q; reflexivity.
  - apply pres_seq; auto. apply pres_finally; auto.
  - apply pres_seq; auto. apply pres_cond; auto.
  - apply pres_seq; auto. intros s. apply nstep_fun. intros s'. apply nstep_emit. intros q; reflexivity.
Qed.

Lemma pres_fire mode E h t : pres (inv mode []) (fire E h t).
Proof.
  apply pres_seq; [|apply pres_exec]. apply pres_upd, nstep_fun. intros s. apply nstep_emit. intros q; reflexivity.
Qed.

(** The frame of user code on the scope stack: ids and names unchanged. *)
Definition shape (s : state) := map (fun sc => (sc_id sc, sc_name sc)) (cm_stack (st_cm s)).

Lemma shape_on_scope sid f sl :
  map (fun sc => (sc_id sc, sc_name sc)) (on_scope sid f sl) = map (fun sc => (sc_id sc, sc_name sc)) sl.
Proof. unfold on_scope. rewrite map_map. apply map_ext. intros sc. destruct (Nat.eqb _ _); auto. Qed.

Lemma shape_nstep s s' : nstep s s' -> shape s' = shape s.
Proof. intros [H _ _ _ _ _]. unfold shape. rewrite H; auto. Qed.

Lemma shape_attach c req tgt s : shape (attach c req tgt s) = shape s.
Proof. unfold attach, shape. destruct tgt; simpl; auto. apply shape_on_scope. Qed.

Lemma shape_add_cleanup sc crit succ body s : shape (fst (add_cleanup sc crit succ body s)) = shape s.
Proof.
  unfold add_cleanup.
  destruct (succ && crit); [reflexivity|].
  destruct (match sc with SDefault => _ | SGiven n => n end).
  - destruct (name_lookup _ _) as [[|sid l]|]; try reflexivity. cbn [fst]. rewrite shape_attach. reflexivity.
  - destruct (negb _); [reflexivity|]. cbn [fst]. rewrite shape_attach. reflexivity.
Qed.

Lemma shape_exec E p : forall sh, pres (fun s => shape s = sh) (exec E p).
Proof.
  intros sh.
  assert (Hn : forall f, (forall s, nstep s (f s)) -> forall s, shape s = sh -> shape (f s) = sh).
  { intros f Hf s Hs. rewrite (shape_nstep _ _ (Hf s)); auto. }
  induction p; simpl.
  - apply pres_ret.
  - intros s Hs; exact Hs.
  - apply pres_reraise.
  - apply pres_seq; auto. apply pres_upd. intros s Hs; exact Hs.
  - apply pres_seq; auto. apply pres_tap_add; [intros req k s Hs; exact Hs|]. intros s Hs. rewrite shape_add_cleanup; auto.
  - apply pres_seq; auto. apply pres_upd, Hn. intros s. apply nstep_add_entry.
  - apply pres_seq; auto. apply pres_upd, Hn. intros s. apply nstep_add_entry.
  - apply pres_seq; auto. apply pres_handling; auto. intros x. apply Hn. intros s; apply nstep_handle.
  - apply pres_seq; auto. apply pres_except; auto. intros x. apply pres_ret.
  - apply pres_seq; auto. apply pres_default; auto.
  - apply pres_seq; auto. intros s Hs; exact Hs.
  - apply pres_seq; auto. apply pres_finally; auto.
  - apply pres_seq; auto. apply pres_cond; auto.
  - apply pres_seq; auto. intros s Hs; exact Hs.
Qed.

(** ** Sizes: everything user code registers is bounded by its size *)

Definition size (s : state) : nat := stack_size (cm_stack (st_cm s)).

Lemma list_sum_cons a l : list_sum (a :: l) = a + list_sum l.
Proof. reflexivity. Qed.

Lemma stack_size_on_scope sid c sl :
  NoDup (map sc_id sl) ->
  stack_size (on_scope sid (cons c) sl) <= stack_size sl + csize c.
Proof.
  induction sl as [|sc sl IH]; intros Hd; simpl; [unfold stack_size; simpl; lia|].
  inversion Hd as [|? ? Hni Hd']; subst.
  unfold stack_size in *. cbn [map]. rewrite !list_sum_cons.
  destruct (Nat.eqb sid (sc_id sc)) eqn:He.
  - apply Nat.eqb_eq in He. subst. cbn [sc_cleanups map]. rewrite list_sum_cons.
    assert (Hs : on_scope (sc_id sc) (cons c) sl = sl).
    { clear - Hni. unfold on_scope. rewrite <- (map_id sl) at 2. apply map_ext_in. intros a Ha.
      destruct (Nat.eqb (sc_id sc) (sc_id a)) eqn:E; auto. apply Nat.eqb_eq in E.
      exfalso. apply Hni. rewrite E. apply in_map; auto. }
    rewrite Hs. lia.
  - specialize (IH Hd'). lia.
Qed.

(** size bound of a computation together with the invariant *)
Definition grows (k : nat) (m : M) : Prop :=
  forall s, NoDup (map sc_id (cm_stack (st_cm s))) ->
    size (fst (m s)) <= size s + k /\ NoDup (map sc_id (cm_stack (st_cm (fst (m s))))).

Lemma grows_nstep f : (forall s, nstep s (f s)) -> grows 0 (upd f).
Proof.
  intros H s Hd. destruct (H s) as [A1 A2 A3 _ _ _]. unfold size, upd. simpl. rewrite A1. split; auto. lia.
Qed.

Lemma grows_weaken k k' m : k <= k' -> grows k m -> grows k' m.
Proof. intros Hk H s Hd. destruct (H s Hd). split; auto. lia. Qed.

Lemma grows_seq k l a b : grows k a -> grows l b -> grows (k + l) (a ;; b).
Proof.
  intros Ha Hb s Hd. unfold seq. destruct (Ha s Hd) as [H1 H2].
  destruct (a s) as [s1 [| x |]]; simpl in *; [|split; auto; lia..].
  destruct (Hb s1 H2). split; auto. lia.
Qed.

Lemma grows_handling k E h a : grows k a -> grows k (handling E h a).
Proof.
  intros Ha s Hd. unfold handling. destruct (Ha s Hd) as [H1 H2].
  destruct (a s) as [s1 [| x |]]; simpl in *; auto.
  assert (Hh : size (handle_exception E x s1) = size s1 /\ cm_stack (st_cm (handle_exception E x s1)) = cm_stack (st_cm s1)).
  { destruct (nstep_handle E x s1) as [A1 A2 A3 _ _ _]. unfold size. rewrite A1. auto. }
  destruct Hh as [Hh1 Hh2].
  repeat (match goal with |- context[if ?b then _ else _] => destruct b end); simpl; rewrite ?Hh1, ?Hh2; auto.
Qed.

Lemma grows_tap_add k sc a : grows k a -> grows k (tap_add sc a).
Proof.
  intros Ha s Hd. unfold tap_add. specialize (Ha s Hd). destruct (a s) as [s1 [| x |]]; simpl in *; auto.
Qed.

Lemma grows_exec E p : grows (psize p) (exec E p).
Proof.
  induction p; cbn [exec psize].
  - intros s Hd. simpl. split; auto. lia.
  - intros s Hd; simpl; split; auto; unfold size; simpl; lia.
  - intros s Hd; simpl; split; auto; unfold size; simpl; lia.
  - apply (grows_seq 1); auto. apply (grows_weaken 0); [lia|]. apply grows_nstep. intros s. apply nstep_emit. intros q; reflexivity.
  - apply (grows_weaken (S (psize p1) + psize p2)); [lia|]. apply grows_seq; auto.
    apply grows_tap_add. intros s Hd. unfold add_cleanup.
    destruct (succ && crit); [simpl; split; auto; unfold size; simpl; lia|].
    set (c := mkCleanup _ _ _ _ _).
    set (s1 := on_cm _ s).
    assert (Hat : forall req tgt, size (attach c req tgt s1) <= size s + S (psize p1) /\
                 NoDup (map sc_id (cm_stack (st_cm (attach c req tgt s1))))).
    { intros req tgt. unfold attach. destruct tgt as [sid|]; unfold size; simpl.
      - rewrite on_scope_ids. split; auto. pose proof (stack_size_on_scope sid c (cm_stack (st_cm s)) Hd) as Hz.
        assert (Hcs : csize c = S (psize p1)) by reflexivity. fold c. lia.
      - split; auto. lia. }
    destruct (match sc with SDefault => _ | SGiven n => n end).
    + destruct (name_lookup _ _) as [[|sid l]|]; simpl; [|apply Hat|]; split; auto; unfold size; simpl; lia.
    + destruct (negb _); [simpl; split; auto; unfold size; simpl; lia|]. simpl. apply Hat.
  - apply (grows_seq 1); auto. apply (grows_weaken 0); [lia|]. apply grows_nstep. intros s. apply nstep_add_entry.
  - apply (grows_seq 1); auto. apply (grows_weaken 0); [lia|]. apply grows_nstep. intros s. apply nstep_add_entry.
  - apply (grows_weaken (psize p1 + psize p2)); [lia|]. apply grows_seq; auto. apply grows_handling; auto.
  - apply (grows_weaken (psize p1 + psize p2)); [lia|]. apply grows_seq; auto.
    intros s Hd. unfold except_. specialize (IHp1 s Hd).
    destruct (exec E p1 s) as [s1 [| x |]]; simpl in *; auto. destruct (isinstance_any _ _); auto.
  - apply (grows_weaken (psize p1 + psize p2)); [lia|]. apply grows_seq; auto.
    intros s Hd. unfold default_scope_override, finally, seq. simpl.
    specialize (IHp1 (on_cm (with_default (Some sc)) s) Hd).
    destruct (exec E p1 (on_cm (with_default (Some sc)) s)) as [s1 [| x |]]; simpl in *; auto.
  - apply (grows_seq 1); auto. intros s Hd. simpl. split; auto. unfold size; simpl; lia.
  - apply (grows_weaken ((psize p1 + psize p2) + psize p3)); [lia|]. apply grows_seq; auto.
    intros s Hd. unfold finally. specialize (IHp1 s Hd). destruct IHp1 as [H1 H2].
    destruct (exec E p1 s) as [s1 [| x |]]; cbn [fst] in *; try (split; [lia|auto]; fail).
    + destruct (IHp2 s1 H2) as [H3 H4]. destruct (exec E p2 s1) as [s2 [| y |]]; cbn [fst] in *; (split; [lia|auto]).
    + destruct (IHp2 s1 H2) as [H3 H4]. destruct (exec E p2 s1) as [s2 [| y |]]; cbn [fst] in *; (split; [lia|auto]).
  - apply (grows_weaken ((psize p1 + psize p2) + psize p3)); [lia|]. apply grows_seq; auto.
    intros s Hd. unfold cond. destruct (e_cond E c s); [destruct (IHp1 s Hd)|destruct (IHp2 s Hd)]; split; auto; lia.
  - apply (grows_seq 1); auto. intros s Hd. simpl. split; auto. unfold size; simpl; lia.
Qed.

(** ** The cleanup loop *)

Lemma on_scope_top sc rest f :
  NoDup (map sc_id (sc :: rest)) ->
  on_scope (sc_id sc) f (sc :: rest) = mkScope (sc_id sc) (sc_name sc) (f (sc_cleanups sc)) :: rest.
Proof.
  intros Hd. inversion Hd as [|? ? Hni Hd']; subst. simpl. rewrite Nat.eqb_refl. f_equal.
  rewrite <- (map_id rest) at 2. apply map_ext_in. intros a Ha.
  destruct (Nat.eqb (sc_id sc) (sc_id a)) eqn:E; auto. apply Nat.eqb_eq in E.
  exfalso. apply Hni. rewrite E. apply in_map; auto.
Qed.

Lemma must_run_loop f i crit succ :
  crit && succ = false ->
  must_run f i crit succ =
  negb (i && negb crit) && negb ((f || i) && succ).
Proof. destruct f, i, crit, succ; simpl; auto; discriminate. Qed.

Definition top_is (sid : nat) (s : state) : Prop :=
  exists sc rest, cm_stack (st_cm s) = sc :: rest /\ sc_id sc = sid.

Lemma shape_top sid s s' : shape s' = shape s -> top_is sid s -> top_is sid s'.
Proof.
  unfold shape, top_is. intros H [sc [rest [H1 H2]]]. rewrite H1 in H. simpl in H.
  destruct (cm_stack (st_cm s')) as [|sc' rest'] eqn:E; [discriminate|].
  exists sc', rest'. split; auto. simpl in H. congruence.
Qed.

Lemma inv_nodup mode d s : inv mode d s -> NoDup (map sc_id (cm_stack (st_cm s))).
Proof. intros [q [_ S]]. apply S. Qed.

(** popping an entry the specification does not ask to run *)
Lemma inv_skip f i d s sc rest c cl :
  inv (Some (f, i)) d s ->
  cm_stack (st_cm s) = sc :: rest -> sc_cleanups sc = c :: cl ->
  it_must f i (item_of c) = false ->
  inv (Some (f, i)) (d ++ [item_of c])
      (on_cm (fun m => with_stack (on_scope (sc_id sc) (@tl _) (cm_stack m)) m) s).
Proof.
  intros [q [Hq S]] Hs Hc Hm. exists q. split; [exact Hq|].
  destruct S as [S1 S2 S3 S4 S5 S6 S7 [S8 S9]].
  assert (Ht : on_scope (sc_id sc) (@tl _) (sc :: rest) = mkScope (sc_id sc) (sc_name sc) cl :: rest).
  { rewrite on_scope_top; [rewrite Hc; auto|]. rewrite <- Hs; auto. }
  rewrite Hs in *.
  constructor; cbn [on_cm set_cm st_cm with_stack cm_stack cm_pending cm_names cm_nsid cm_ncid];
    rewrite ?Hs; auto.
  - rewrite Ht. simpl in *. destruct (q_stack q) as [|x ql]; [tauto|].
    destruct S1 as (H1 & H2 & H3 & H4 & H5 & H6). repeat split; auto.
    + rewrite H4, Hc. simpl. rewrite <- app_assoc. reflexivity.
    + apply Forall_app; auto.
  - apply names_ok_on_scope; auto.
  - rewrite on_scope_ids; auto.
  - rewrite Ht. intros sc' [<-|Hi]; simpl; [apply (S7 sc); left|apply S7; right]; auto.
  - rewrite Ht. split; auto. intros sc' [<-|Hi]; simpl.
    + specialize (S8 sc (or_introl eq_refl)). rewrite Hc in S8. inversion S8; auto.
    + apply S8; right; auto.
Qed.

Lemma take_skip f i cid d l :
  Forall (fun it => it_must f i it = false) d -> take f i cid (d ++ l) = take f i cid l.
Proof. induction 1 as [|x d Hx Hd IH]; simpl; auto. rewrite Hx; auto. Qed.

(** calling a cleanup *)
Lemma inv_run f i d s sc rest c cl v :
  inv (Some (f, i)) d s ->
  cm_stack (st_cm s) = sc :: rest -> sc_cleanups sc = c :: cl ->
  it_must f i (item_of c) = true ->
  inv (Some (f, i)) []
    (emit (EvRun (c_id c)) (on_cm (with_current v)
      (on_cm (fun m => with_stack (on_scope (sc_id sc) (@tl _) (cm_stack m)) m) s))).
Proof.
  intros [q [Hq S]] Hs Hc Hm.
  destruct S as [S1 S2 S3 S4 S5 S6 S7 [S8 S9]].
  assert (Ht : on_scope (sc_id sc) (@tl _) (sc :: rest) = mkScope (sc_id sc) (sc_name sc) cl :: rest).
  { rewrite on_scope_top; [rewrite Hc; auto|]. rewrite <- Hs; auto. }
  rewrite Hs in *.
  destruct (q_stack q) as [|x ql] eqn:Eq; [simpl in S1; tauto|].
  destruct S1 as (H1 & H2 & H3 & H4 & H5 & H6).
  exists (mkSst (mkSS (ss_id x) (ss_nm x) (Some (f, i)) (map item_of cl) :: ql) (q_pend q) (q_cids q) (q_sids q)).
  split.
  - cbn [emit st_trace on_cm set_cm]. rewrite spec_run_app, Hq. cbn [spec_run spec_step]. rewrite Eq.
    destruct x as [xi xn xp xl]; simpl in *. subst xp. rewrite H4, take_skip; auto. rewrite Hc. simpl. rewrite Hm, Nat.eqb_refl. reflexivity.
  - constructor; cbn [emit on_cm set_cm st_cm with_current with_stack cm_stack cm_pending cm_names cm_nsid cm_ncid q_stack q_pend q_cids q_sids];
      rewrite ?Hs; auto.
    + rewrite Ht. simpl. repeat split; auto.
    + apply names_ok_on_scope; auto.
    + rewrite on_scope_ids; auto.
    + rewrite Ht. intros sc' [<-|Hi]; simpl; [apply (S7 sc); left|apply S7; right]; auto.
    + rewrite Ht. split; auto. intros sc' [<-|Hi]; simpl.
      * specialize (S8 sc (or_introl eq_refl)). rewrite Hc in S8. inversion S8; auto.
      * apply S8; right; auto.
Qed.

Lemma shape_loop_pop sid s :
  shape (on_cm (fun m => with_stack (on_scope sid (@tl _) (cm_stack m)) m) s) = shape s.
Proof. unfold shape. simpl. apply shape_on_scope. Qed.

Lemma size_loop_pop s sc rest c cl :
  cm_stack (st_cm s) = sc :: rest -> sc_cleanups sc = c :: cl ->
  NoDup (map sc_id (cm_stack (st_cm s))) ->
  size (on_cm (fun m => with_stack (on_scope (sc_id sc) (@tl _) (cm_stack m)) m) s) + S (psize (c_body c)) = size s.
Proof.
  intros Hs Hc Hd. unfold size. cbn [on_cm set_cm st_cm with_stack cm_stack]. rewrite Hs in *.
  rewrite on_scope_top; auto. rewrite Hc. unfold stack_size. cbn [map sc_cleanups]. rewrite Hc.
  cbn [map tl]. rewrite !list_sum_cons. unfold csize at 3. lia.
Qed.

(** the rest of the iteration, after the entry has been popped and EvRun emitted *)
Lemma call_cleanup_ok E f i d s sc rest c cl :
  inv (Some (f, i)) d s ->
  cm_stack (st_cm s) = sc :: rest -> sc_cleanups sc = c :: cl ->
  it_must f i (item_of c) = true ->
  let s0 := on_cm (fun m => with_stack (on_scope (sc_id sc) (@tl _) (cm_stack m)) m) s in
  let r := handling E h_swallowing (call_cleanup E (sc_id sc) c) s0 in
  inv (Some (f, i)) [] (fst r) /\ shape (fst r) = shape s /\ size (fst r) < size s /\ snd r <> OFuel.
Proof.
  intros Hi Hs Hc Hm s0 r.
  pose proof (inv_nodup _ _ _ Hi) as Hd.
  set (s1 := emit (EvRun (c_id c)) (on_cm (with_current (Some (sc_id sc))) s0)).
  assert (Hi1 : inv (Some (f, i)) [] s1) by (eapply inv_run; eauto).
  assert (Hsh1 : shape s1 = shape s) by (unfold s1; exact (shape_loop_pop (sc_id sc) s)).
  assert (Hz : size s1 + S (psize (c_body c)) = size s) by (exact (size_loop_pop s sc rest c cl Hs Hc Hd)).
  assert (Hd1 : NoDup (map sc_id (cm_stack (st_cm s1)))) by (eapply inv_nodup; eauto).
  pose proof (pres_exec (Some (f, i)) E (c_body c) s1 Hi1) as P1.
  pose proof (shape_exec E (c_body c) (shape s1) s1 eq_refl) as P2.
  destruct (grows_exec E (c_body c) s1 Hd1) as [P3 _].
  pose proof (nofuel_exec E (c_body c) s1) as P4.
  (* the same facts after the steps of __call__ and handling_exceptions *)
  assert (K : forall s2, inv (Some (f, i)) [] s2 -> shape s2 = shape s -> size s2 < size s ->
     forall s3, nstep s2 s3 -> inv (Some (f, i)) [] s3 /\ shape s3 = shape s /\ size s3 < size s).
  { intros s2 A B C s3 N. split; [eapply inv_nstep; eauto|]. split; [rewrite (shape_nstep _ _ N); auto|].
    unfold size. rewrite (n_stack _ _ N); auto. }
  unfold r, handling, call_cleanup, finally, seq, upd, except_, tap. fold s0. cbn [fst snd].
  change (emit (EvRun (c_id c)) (on_cm (with_current (Some (sc_id sc))) s0)) with s1.
  destruct (exec E (c_body c) s1) as [s2 [| x |]]; cbn [fst snd] in *; [| |congruence].
  - assert (N : nstep s2 (on_cm (with_current (cm_current (st_cm s0))) s2)) by nfield.
    destruct (K s2 P1 ltac:(congruence) ltac:(lia) _ N) as [A [B C]].
    repeat split; auto; discriminate.
  - assert (G : forall s3, nstep s2 s3 ->
       let r := match (s3, ORaise x) with
        | (s3, ORaise x) =>
          if isinstance_any (x_kind x) (h_pass h_swallowing) then (s3, ORaise x)
          else if isinstance_any (x_kind x) (skip_types E) || isinstance_any (x_kind x) interruption_types
               then (handle_exception E x s3, ORaise x)
               else if isinstance_any (x_kind x) (if h_swallow h_swallowing then h_types h_swallowing ++ [TException] else h_types h_swallowing)
                    then (handle_exception E x s3, ONormal) else (handle_exception E x s3, ORaise x)
        | r => r end in
       inv (Some (f, i)) [] (fst r) /\ shape (fst r) = shape s /\ size (fst r) < size s /\ snd r <> OFuel).
    { intros s3 N r'.
      destruct (K s2 P1 ltac:(congruence) ltac:(lia) s3 N) as [A [B C]].
      destruct (K s2 P1 ltac:(congruence) ltac:(lia) (handle_exception E x s3)) as [A' [B' C']].
      { eapply nstep_trans; [exact N|apply nstep_handle]. }
      unfold r'. repeat match goal with |- context[if ?b then _ else _] => destruct b end; cbn [fst snd];
        repeat split; auto; discriminate. }
    destruct (isinstance_any (x_kind x) [TException]); cbn [fst snd].
    + apply G. eapply nstep_trans; [apply (nstep_emit (EvRaised (c_id c) (x_id x) (x_kind x))); intros q; reflexivity|].
      eapply nstep_trans; [apply nstep_add_exception|]. nfield.
    + apply G. eapply nstep_trans; [apply (nstep_emit (EvRaised (c_id c) (x_id x) (x_kind x))); intros q; reflexivity|]. nfield.
Qed.

Lemma cleanup_loop_ok E f i : forall fuel d s sid,
  inv (Some (f, i)) d s -> top_is sid s -> size s < fuel ->
  exists d',
    inv (Some (f, i)) d' (fst (cleanup_loop E fuel sid f i s)) /\
    shape (fst (cleanup_loop E fuel sid f i s)) = shape s /\
    snd (cleanup_loop E fuel sid f i s) <> OFuel /\
    (snd (cleanup_loop E fuel sid f i s) = ONormal ->
     forall sc rest, cm_stack (st_cm (fst (cleanup_loop E fuel sid f i s))) = sc :: rest -> sc_cleanups sc = []).
Proof.
  induction fuel as [|fuel IH]; intros d s sid Hi Htop Hz; [lia|].
  pose proof (inv_nodup _ _ _ Hi) as Hd.
  destruct Htop as [sc [rest [Hs Hid]]]. subst sid.
  cbn [cleanup_loop].
  assert (Hsc : scope_cleanups (sc_id sc) s = sc_cleanups sc).
  { unfold scope_cleanups. rewrite Hs. simpl. rewrite Nat.eqb_refl. auto. }
  rewrite Hsc.
  destruct (sc_cleanups sc) as [|c cl] eqn:Hc.
  { exists d. cbn [fst snd]. repeat split; auto; try discriminate.
    intros _ sc' rest' H. rewrite Hs in H. congruence. }
  assert (Hfl : c_crit c && c_succ c = false).
  { destruct Hi as [q [_ S]]. destruct (sim_flags _ _ _ _ S) as [F _].
    specialize (F sc). rewrite Hs in F. specialize (F (or_introl eq_refl)). rewrite Hc in F. inversion F; auto. }
  pose proof (must_run_loop f i (c_crit c) (c_succ c) Hfl) as Hmr.
  set (s0 := on_cm _ s).
  assert (Hsh0 : shape s0 = shape s) by apply shape_loop_pop.
  assert (Htop0 : top_is (sc_id sc) s0).
  { eapply shape_top; [exact Hsh0|]. exists sc, rest; auto. }
  assert (Hz0 : size s0 < fuel).
  { pose proof (size_loop_pop s sc rest c cl Hs Hc Hd). fold s0 in H. lia. }
  destruct (i && negb (c_crit c)) eqn:E1.
  { destruct (IH (d ++ [item_of c]) s0 (sc_id sc)) as [d' [A [B [C D]]]]; auto.
    - eapply inv_skip; eauto.
    - exists d'. rewrite <- Hsh0. auto. }
  destruct ((f || i) && c_succ c) eqn:E2.
  { destruct (IH (d ++ [item_of c]) s0 (sc_id sc)) as [d' [A [B [C D]]]]; auto.
    - eapply inv_skip; eauto.
    - exists d'. rewrite <- Hsh0. auto. }
  assert (Hm : it_must f i (item_of c) = true) by (exact Hmr).
  destruct (call_cleanup_ok E f i d s sc rest c cl Hi Hs Hc Hm) as [A [B [C D]]].
  fold s0 in A, B, C, D. unfold seq.
  destruct (handling E h_swallowing (call_cleanup E (sc_id sc) c) s0) as [s1 [| x |]]; cbn [fst snd] in *; [| |congruence].
  - destruct (IH [] s1 (sc_id sc)) as [d' [A' [B' [C' D']]]]; auto; try lia.
    + eapply shape_top; [exact B|]. exists sc, rest; auto.
    + exists d'. rewrite <- B. auto.
  - exists []. repeat split; auto; discriminate.
Qed.

(** ** Scopes *)

Definition inv0 := inv None [].

Lemma inv0_state0 : inv0 state0.
Proof.
  exists sst0. split; auto. constructor; simpl; auto; try tauto.
  - intros n; simpl; auto.
  - constructor.
  - split; auto. tauto.
Qed.

Lemma name_lookup_update n m f l :
  name_lookup m (name_update n f l) =
  if sname_eqb m n then Some (f (match name_lookup n l with Some v => v | None => [] end))
  else name_lookup m l.
Proof.
  induction l as [|[k v] l IH]; simpl.
  - destruct (sname_eqb m n); auto.
  - destruct (sname_eqb n k) eqn:E; simpl.
    + apply sname_eqb_eq in E. subst k. destruct (sname_eqb m n); auto.
    + destruct (sname_eqb m k) eqn:E'.
      * apply sname_eqb_eq in E'. subst k.
        destruct (sname_eqb m n) eqn:E''; auto.
        apply sname_eqb_eq in E''. subst. rewrite sname_eqb_refl in E. discriminate.
      * rewrite IH. destruct (sname_eqb m n); auto.
Qed.

Lemma find_none_filter {A} (f : A -> bool) l : find f l = None -> filter f l = [].
Proof. induction l as [|a l IH]; simpl; auto. destruct (f a); [discriminate|auto]. Qed.

Lemma safe_cm_push n : safe inv0 (cm_push n).
Proof.
  intros s [q [Hq S]]. split; [|discriminate].
  destruct S as [S1 S2 S3 S4 S5 S6 S7 [S8 S9]].
  exists (mkSst (mkSS (cm_nsid (st_cm s)) n None (q_pend q) :: q_stack q) [] (q_cids q) (cm_nsid (st_cm s) :: q_sids q)).
  split.
  - cbn. rewrite spec_run_app, Hq. cbn [spec_run spec_step].
    rewrite (memb_lt _ _ _ S5 (le_n _)).
    destruct S1 as [_ S1]. inversion S1 as [|x sc ql sl Hm Hf Hq1 Hs1]; simpl; auto.
    destruct Hm as (_ & _ & -> & _). reflexivity.
  - destruct S1 as [_ S1].
    constructor; cbn [fst cm_push emit on_cm set_cm st_cm cm_stack cm_names cm_pending cm_nsid cm_ncid q_stack q_pend q_cids q_sids].
    + split; auto. constructor; auto. repeat split; auto.
    + reflexivity.
    + intros m. rewrite name_lookup_update. specialize (S3 m). simpl.
      destruct (sname_eqb m n) eqn:E.
      * apply sname_eqb_eq in E. subst m. simpl. f_equal.
        destruct (name_lookup n (cm_names (st_cm s))); auto. rewrite find_none_filter; auto.
      * simpl. destruct (name_lookup m _); auto.
    + auto.
    + intros i [<-|Hi]; [lia|]. specialize (S5 _ Hi). lia.
    + simpl. constructor; auto. rewrite in_map_iff. intros [sc [H1 H2]]. specialize (S5 _ (S7 _ H2)). lia.
    + intros sc [<-|Hi]; simpl; auto.
    + split; auto. intros sc [<-|Hi]; simpl; auto.
Qed.

Lemma inv0_nstep s s' : nstep s s' -> inv0 s -> inv0 s'.
Proof. apply inv_nstep. Qed.

Lemma safe_exec E p : safe inv0 (exec E p).
Proof. apply safe_of; [apply pres_exec|apply nofuel_exec]. Qed.

Lemma safe_fire E h t : safe inv0 (fire E h t).
Proof. apply safe_of; [apply pres_fire|apply nofuel_fire]. Qed.

Lemma safe_cm_pop E n : safe inv0 (cm_pop E n).
Proof.
  intros s Hi. unfold cm_pop.
  set (fl := negb (current_success s)). set (it := current_interrupted s).
  destruct (cm_stack (st_cm s)) as [|sc rest] eqn:Hs.
  { split; [|discriminate]. eapply inv0_nstep; [|exact Hi]. simpl. nfield. }
  destruct (sname_eqb (sc_name sc) n) eqn:En; cbn [negb].
  2:{ split; [|discriminate]. eapply inv0_nstep; [|exact Hi]. simpl. nfield. }
  apply sname_eqb_eq in En. subst n.
  set (s1 := emit (EvPopBegin (sc_id sc) (sc_name sc) fl it) s).
  (* entering *)
  assert (H1 : inv (Some (fl, it)) [] s1).
  { destruct Hi as [q [Hq S]]. destruct S as [[_ S1] S2 S3 S4 S5 S6 S7 S8].
    rewrite Hs in *. inversion S1 as [|x sc' ql sl (M1 & M2 & M3 & M4) Hf Hq1 Hs1]; subst.
    exists (mkSst (mkSS (ss_id x) (ss_nm x) (Some (fl, it)) (ss_items x) :: ql) (q_pend q) (q_cids q) (q_sids q)).
    split.
    - unfold s1. cbn [emit st_trace]. rewrite spec_run_app, Hq. cbn [spec_run spec_step].
      rewrite <- Hq1. destruct x as [xi xn xp xl]. simpl in *. subst.
      rewrite Nat.eqb_refl, sname_eqb_refl. reflexivity.
    - constructor; cbn [s1 emit st_cm q_stack q_pend q_cids q_sids]; rewrite ?Hs; auto.
      simpl. repeat split; auto. }
  assert (Hsh1 : shape s1 = shape s) by reflexivity.
  (* the hook *)
  unfold call_cleanups, seq.
  set (pre := if sname_eqb (sc_name sc) STest then _ else ret).
  assert (Hpre : inv (Some (fl, it)) [] (fst (pre s1)) /\ shape (fst (pre s1)) = shape s1 /\ snd (pre s1) <> OFuel).
  { unfold pre. destruct (sname_eqb _ _); [|repeat split; auto; discriminate].
    split; [|split].
    - apply pres_handling_inv; auto. apply pres_fire.
    - refine (pres_handling (fun s => shape s = shape s1) E h_plain _ _ _ s1 eq_refl).
      + intros x s' H. rewrite (shape_nstep _ _ (nstep_handle E x s')); auto.
      + apply pres_seq; [apply pres_upd; auto|apply shape_exec].
    - apply nofuel_handling. apply nofuel_fire. }
  (* leaving *)
  assert (Hout : forall d s2 o, inv (Some (fl, it)) d s2 -> shape s2 = shape s ->
    (o = ONormal -> forall sc' rest', cm_stack (st_cm s2) = sc' :: rest' -> sc_cleanups sc' = []) ->
    inv0 (emit (EvPopEnd (sc_id sc) (sc_name sc) (match o with ONormal => true | _ => false end))
      (on_cm (fun m => with_names (name_update (sc_name sc) (@tl _) (cm_names m))
                                        (with_stack (tl (cm_stack m)) m)) s2))).
  { intros d s2 o [q [Hq S]] Hsh2 Hdone.
    destruct S as [S1 S2 S3 S4 S5 S6 S7 [S8 S9]].
    unfold shape in Hsh2. rewrite Hs in Hsh2.
    destruct (cm_stack (st_cm s2)) as [|sc2 rest2] eqn:Hs2; [discriminate|].
    simpl in Hsh2. inversion Hsh2 as [[I1 I2 I3]].
    destruct (q_stack q) as [|x ql] eqn:Eq; [simpl in S1; tauto|].
    destruct S1 as (M1 & M2 & M3 & M4 & M5 & M6).
    exists (mkSst ql (q_pend q) (q_cids q) (q_sids q)). split.
    - cbn [emit on_cm set_cm st_trace]. rewrite spec_run_app, Hq. cbn [spec_run spec_step]. rewrite Eq.
      destruct x as [xi xn xp xl]. simpl in M1, M2, M3, M4. subst xi xn xp.
      rewrite I1, I2, Nat.eqb_refl, sname_eqb_refl. simpl.
      destruct o; simpl; auto.
      rewrite M4, (Hdone eq_refl sc2 rest2 eq_refl), app_nil_r.
      assert (Hall : forallb (fun x => negb (it_must fl it x)) d = true).
      { apply forallb_forall. intros y Hy. rewrite Forall_forall in M5. rewrite M5; auto. }
      rewrite Hall. reflexivity.
    - constructor; cbn [emit on_cm set_cm st_cm with_names with_stack cm_stack cm_names cm_pending cm_nsid cm_ncid q_stack q_pend q_cids q_sids];
        rewrite ?Hs2; auto.
      + simpl. auto.
      + intros m. rewrite name_lookup_update. specialize (S3 m). simpl in S3 |- *. rewrite I2 in S3. rewrite ?I2.
        destruct (sname_eqb m (sc_name sc)) eqn:Em.
        * apply sname_eqb_eq in Em. subst m. rewrite ?sname_eqb_refl in S3.
          destruct (name_lookup (sc_name sc) _); [|discriminate]. simpl. rewrite S3. reflexivity.
        * rewrite ?Em in S3. auto.
      + simpl. inversion S6; auto.
      + simpl. intros sc' H'. apply S7. right; auto.
      + split; auto. simpl. intros sc' H'. apply S8. right; auto. }
  destruct Hpre as [P1 [P2 P3]].
  destruct (pre s1) as [s2 [| x |]]; cbn [fst snd] in *; [| |congruence].
  - assert (Htop2 : top_is (sc_id sc) s2).
    { eapply shape_top; [exact P2|]. exists sc, rest. split; auto. }
    destruct (cleanup_loop_ok E fl it (S (stack_size (cm_stack (st_cm s2)))) [] s2 (sc_id sc) P1 Htop2 (le_n _))
      as [d' [A [B [C D]]]].
    destruct (cleanup_loop E (S (stack_size (cm_stack (st_cm s2)))) (sc_id sc) fl it s2) as [s3 [| x |]];
      cbn [fst snd] in *; [| |congruence].
    + split; [|discriminate]. apply (Hout d' s3 ONormal); auto; congruence.
    + split; [|discriminate]. apply (Hout d' s3 (ORaise x)); auto; try congruence; discriminate.
  - split; [|discriminate]. apply (Hout [] s2 (ORaise x)); auto; discriminate.
Qed.
