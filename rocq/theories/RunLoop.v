(** The trace of the runner's loop over the tests. *)

From Coq Require Import List Bool Arith PeanoNat Lia.
From Verif Require Import Events Core CoreSpec CoreBase CleanupSim SessionSim Frame Records RunnerSpec Runner.
Import ListNotations.

Section L.
Variable E : env.

Definition thook (e : event) : bool :=
  match e with
  | EvHook (HTestStart | HTestEnd | HTestSuccess | HTestFailure | HTestSkip | HTestError | HTestAvoided) _ => true
  | _ => false
  end.

(** events that none of the trace facts below look at *)
Definition benign (e : event) : bool :=
  match e with EvReportStart _ | EvReportEnd _ => false | _ => negb (thook e) end.

Definition seg_ok (tr : list event) : Prop := forall p t m q,
  tr = p ++ EvReportStart t :: m ++ EvReportEnd t :: q -> In (S_ t) m -> summarised t m \/ unusual m.

Definition stop_ok (tr : list event) : Prop := forall p t q,
  tr = p ++ EvReportStart t :: q -> ~ must_stop (e_stop E) p.

Record Tr (done : list nat) (tr : list event) : Prop := mkTr {
  t_starts : report_starts tr = done;
  t_nodup : NoDup done;
  t_segs : exists segs, map fst segs = done /\ filter thook tr = concat (map snd segs) /\
      Forall (fun p => shape (fst p) (snd p)) segs;
  t_seg : seg_ok tr;
  t_sum : sum_ok tr;
  t_stop : stop_ok tr }.

Lemma report_starts_app a b : report_starts (a ++ b) = report_starts a ++ report_starts b.
Proof. unfold report_starts. apply flat_map_app. Qed.

Lemma report_starts_In t tr : In t (report_starts tr) <-> In (EvReportStart t) tr.
Proof.
  unfold report_starts. rewrite in_flat_map. split.
  - intros (e & H1 & H2). destruct e; try destruct H2; [subst; auto|contradiction].
  - intros H. exists (EvReportStart t). split; auto. left; auto.
Qed.

Lemma must_stop_app stop tr l :
  (forall t, ~ In (EvReportEnd t) l) -> must_stop stop (tr ++ l) -> must_stop stop tr.
Proof.
  intros Hl (p & t & q & Heq & H). apply app_split in Heq as [(x & A & B)|(x & A & B)].
  - exists p, t, x. auto.
  - exfalso. apply (Hl t). rewrite B. apply in_or_app. right. left. auto.
Qed.

Lemma benign_not l : forallb benign l = true ->
  report_starts l = [] /\ filter thook l = [] /\ (forall t, ~ In (EvReportEnd t) l) /\ (forall t, ~ In (EvReportStart t) l).
Proof.
  induction l as [|e l IH]; simpl; intros H; [repeat split; auto|].
  apply andb_true_iff in H as [H1 H2]. destruct (IH H2) as (A & B & C & D).
  assert (T : thook e = false) by (destruct e; simpl in H1; auto; try discriminate; destruct h; auto; discriminate).
  rewrite T. split; [|split; [auto|split]].
  - destruct e; simpl in *; auto; discriminate.
  - intros t [->|Ht]; [discriminate|apply (C t Ht)].
  - intros t [->|Ht]; [discriminate|apply (D t Ht)].
Qed.

Lemma quiet_benign e : quiet e = true -> benign e = true.
Proof. destruct e; simpl; auto; try discriminate. destruct h; simpl; auto. Qed.

Lemma Tr_benign done tr l : forallb benign l = true -> Tr done tr -> Tr done (tr ++ l).
Proof.
  intros Hl [A N (segs & B1 & B2 & B3) C D F]. destruct (benign_not l Hl) as (L1 & L2 & L3 & L4). constructor.
  - rewrite report_starts_app, L1, app_nil_r. auto.
  - exact N.
  - exists segs. rewrite filter_app, L2, app_nil_r. auto.
  - intros p t m q Heq. rewrite (app_comm_cons m), app_assoc in Heq.
    apply app_split in Heq as [(x & E1 & E2)|(x & E1 & E2)].
    + apply (C p t m x). rewrite E1, <- app_assoc. reflexivity.
    + exfalso. apply (L3 t). rewrite E2. apply in_or_app. right. left. auto.
  - apply sum_ok_app; auto. intros h t Hin. rewrite forallb_forall in Hl. apply Hl in Hin.
    destruct h; simpl in *; auto; discriminate.
  - intros p t q Heq. apply app_split in Heq as [(x & E1 & E2)|(x & E1 & E2)].
    + eapply F; eauto.
    + exfalso. apply (L4 t). rewrite E2. apply in_or_app. right. left. auto.
Qed.

Lemma thook_loud l : filter thook (filter loud l) = filter thook l.
Proof.
  induction l as [|e l IH]; simpl; auto. destruct (loud e) eqn:El; simpl; rewrite IH; auto.
  replace (thook e) with false; auto. unfold loud in El. apply negb_false_iff, quiet_benign in El.
  destruct e; simpl in *; auto; destruct h; auto; discriminate.
Qed.

Lemma shape_thook t L : shape t L -> forallb thook L = true.
Proof.
  assert (H : forall r, thook (EvHook (summ r) t) = true).
  { intros r. pose proof (summ_summary r). destruct (summ r); auto; discriminate. }
  intros []; cbn [forallb]; rewrite ?H; reflexivity.
Qed.

Lemma filter_all {A} (f : A -> bool) l : forallb f l = true -> filter f l = l.
Proof. induction l; simpl; auto. intros H. apply andb_true_iff in H as [H1 H2]. rewrite H1, IHl; auto. Qed.

Lemma loud_in l e : loud e = true -> In e l -> In e (filter loud l).
Proof. intros. apply filter_In; auto. Qed.

(** one test: report_test_start, the loud events of the test, and possibly
    report_test_end *)
Lemma Tr_test done tr t l :
  Tr done tr -> ~ must_stop (e_stop E) tr -> ~ In t done ->
  shape t (filter loud l) ->
  (In (S_ t) (filter loud l) -> summarised t (filter loud l) \/ unusual l) ->
  sum_ok (tr ++ EvReportStart t :: l) ->
  Tr (done ++ [t]) (tr ++ EvReportStart t :: l) /\ Tr (done ++ [t]) (tr ++ EvReportStart t :: l ++ [EvReportEnd t]).
Proof.
  intros [A N (segs & B1 & B2 & B3) C D F] Hns Hnew Hsh Hseg Hsum.
  assert (N' : NoDup (done ++ [t])).
  { apply (NoDup_Add (Add_app t done [])). rewrite app_nil_r. auto. }
  pose proof (shape_thook _ _ Hsh) as Hth.
  assert (L1 : forall u, ~ In (EvReportStart u) l).
  { intros u Hu. apply (loud_in l (EvReportStart u) eq_refl) in Hu. rewrite forallb_forall in Hth. apply Hth in Hu. discriminate. }
  assert (L2 : forall u, ~ In (EvReportEnd u) l).
  { intros u Hu. apply (loud_in l (EvReportEnd u) eq_refl) in Hu. rewrite forallb_forall in Hth. apply Hth in Hu. discriminate. }
  assert (L3 : report_starts l = []).
  { destruct (report_starts l) as [|u z] eqn:Ez; auto. exfalso. apply (L1 u). apply report_starts_In. rewrite Ez. left; auto. }
  assert (L4 : filter thook l = filter loud l) by (rewrite <- thook_loud; apply filter_all; auto).
  assert (Hst : forall p u q z, (tr ++ EvReportStart t :: l) ++ z = p ++ EvReportStart u :: q ->
    (forall v, ~ In (EvReportStart v) z) -> ~ must_stop (e_stop E) p).
  { intros p u q z Heq Hz. rewrite <- app_assoc in Heq. apply app_split in Heq as [(x & E1 & E2)|(x & E1 & E2)].
    - eapply F; eauto.
    - destruct x as [|y x]; [rewrite app_nil_r in E1; subst p; auto|]. exfalso.
      simpl in E2. inversion E2 as [[E3 E4]]. assert (In (EvReportStart u) (l ++ z)) as Hin.
      { rewrite E4. apply in_or_app. right. left. auto. }
      apply in_app_or in Hin as [Hin|Hin]; [apply (L1 u Hin)|apply (Hz u Hin)]. }
  assert (Hso : forall p u m q, tr ++ EvReportStart t :: l = p ++ EvReportStart u :: m ++ EvReportEnd u :: q ->
    In (S_ u) m -> summarised u m \/ unusual m).
  { intros p u m q Heq. rewrite (app_comm_cons m), app_assoc in Heq.
    apply app_split in Heq as [(x & E1 & E2)|(x & E1 & E2)].
    - apply (C p u m x). rewrite E1, <- app_assoc. reflexivity.
    - exfalso. destruct x as [|y x]; [discriminate|]. inversion E2 as [[E3 E4]]. apply (L2 u). rewrite E4.
      apply in_or_app. right. left. auto. }
  split; constructor.
  - rewrite report_starts_app, A. simpl. rewrite L3. auto.
  - exact N'.
  - exists (segs ++ [(t, filter loud l)]). rewrite !map_app, B1, filter_app, B2, concat_app. simpl. rewrite app_nil_r, L4.
    split; auto. split; auto. apply Forall_app. split; auto.
  - exact Hso.
  - exact Hsum.
  - intros p u q Heq. apply (Hst p u q []); [rewrite app_nil_r; auto|auto].
  - rewrite report_starts_app, A. simpl. rewrite report_starts_app, L3. auto.
  - exact N'.
  - exists (segs ++ [(t, filter loud l)]). rewrite !map_app, B1, filter_app, B2, concat_app. simpl.
    rewrite filter_app. simpl. rewrite !app_nil_r, L4.
    split; auto. split; auto. apply Forall_app. split; auto.
  - intros p u m q Heq. destruct q as [|y q] using rev_ind.
    + clear - Heq A Hnew L1 Hseg. rewrite !app_comm_cons, !app_assoc in Heq. apply app_inj_tail in Heq as [Heq Hu].
      inversion Hu; subst u.
      apply app_split in Heq as [(x & E1 & E2)|(x & E1 & E2)].
      { exfalso. apply Hnew. rewrite <- A. apply report_starts_In. rewrite E1. apply in_or_app. right. left. auto. }
      destruct x as [|y x]; simpl in E2; inversion E2; subst.
      * intros Hin. destruct Hseg as [(h & H1 & H2)|H1]; auto.
        { apply loud_in; auto. }
        left. exists h. split; auto. apply filter_In in H2. tauto.
      * exfalso. apply (L1 t). apply in_or_app. right. left. auto.
    + clear IHq. intros Hin. rewrite !app_comm_cons, !app_assoc in Heq. apply app_inj_tail in Heq as [Heq _].
      eapply (Hso p u m q); [|exact Hin]. rewrite Heq. rewrite <- !app_assoc. reflexivity.
  - rewrite app_comm_cons, app_assoc. apply sum_ok_app; auto. intros h u [Hx|[]]. discriminate.
  - intros p u q Heq. apply (Hst p u q [EvReportEnd t]).
    + rewrite <- app_assoc. auto.
    + intros v [Hx|[]]. discriminate.
Qed.

(** ** File reports *)

Definition nofile (e : event) : bool := match e with EvFileStart _ | EvFileEnd _ => false | _ => true end.

Lemma files_app o a b : files o (a ++ b) = match files o a with Some o' => files o' b | None => None end.
Proof.
  revert o. induction a as [|e a IH]; intros o; simpl; auto.
  destruct e; auto; destruct o; auto. destruct (Nat.eqb f n); auto.
Qed.

Lemma files_nofile o l : forallb nofile l = true -> files o l = Some o.
Proof.
  induction l as [|e l IH]; simpl; auto. intros H. apply andb_true_iff in H as [H1 H2].
  destruct e; auto; discriminate.
Qed.

Lemma files_ext o tr l : forallb nofile l = true -> files None tr = Some o -> files None (tr ++ l) = Some o.
Proof. intros H1 H2. rewrite files_app, H2. apply files_nofile; auto. Qed.

Lemma loud_nofile l : forallb thook (filter loud l) = true -> forallb nofile l = true.
Proof.
  induction l as [|e l IH]; simpl; auto. destruct (loud e) eqn:El; simpl.
  - intros H. apply andb_true_iff in H as [H1 H2]. rewrite IH; auto. destruct e; auto; discriminate.
  - intros H. rewrite IH; auto. destruct e; auto; discriminate.
Qed.

Lemma quiet_nofile l : forallb quiet l = true -> forallb nofile l = true.
Proof.
  induction l as [|e l IH]; simpl; auto. intros H. apply andb_true_iff in H as [H1 H2]. rewrite IH; auto.
  destruct e; auto; discriminate.
Qed.

(** the file still open when the tests [ts] remain *)
Definition expect (last : option nat) (ts : list test) : option nat :=
  match last, ts with
  | Some f, t :: _ => if Nat.eqb (t_file t) f then Some f else None
  | _, _ => None
  end.

(** ** The loop *)

Record St (done : list nat) (s : state) : Prop := mkSt {
  s_keys : keys s = done;
  s_idx : map fst (st_idx s) = done;
  s_enum : e_worker E = false -> st_idx s = combine done (List.seq 0 (length done)) /\ st_nidx s = length done;
  s_gst : r_started (st_global s) = true }.

Definition Ran (done : list nat) (s : state) : Prop := forall u, In u done -> ran u s \/ trouble (st_trace s).

(** a stop of the loop has a cause *)
Definition cause (tr : list event) : Prop :=
  exists p t q, tr = p ++ EvReportEnd t :: q /\
    (fatal_on t p \/ (e_stop E = true /\ (unsuccessful p \/ trouble p))).

Lemma combine_snoc {A B} (a : list A) (b : list B) x y :
  length a = length b -> combine (a ++ [x]) (b ++ [y]) = combine a b ++ [(x, y)].
Proof.
  revert b. induction a as [|u a IH]; intros [|v b] H; simpl in *; try discriminate; auto. rewrite IH; auto.
Qed.

Lemma recorded_In r k src f tr : In (src, f) (recorded r k tr) <-> In (EvRecord r k src f) tr.
Proof.
  unfold recorded. rewrite in_flat_map. split.
  - intros (e & H1 & H2). destruct e; try destruct H2.
    destruct (rref_eqb r r0 && rkind_eqb k k0) eqn:Eq; [|destruct H2].
    apply andb_true_iff in Eq as [E1 E2]. apply rref_eqb_eq in E1. subst r0.
    assert (k = k0) by (destruct k, k0; auto; discriminate). subst.
    destruct H2 as [H2|[]]. inversion H2; subst. auto.
  - intros H. eexists. split; [exact H|]. simpl. replace (rref_eqb r r) with true; [|symmetry; apply rref_eqb_eq; auto].
    replace (rkind_eqb k k) with true; [left; auto|]. destruct k; reflexivity.
Qed.

Lemma fatal_spec K s t r : W E K s -> lookup t (st_results s) = Some r ->
  (has_fatal r = true <-> fatal_on t (st_trace s)).
Proof.
  intros HW Hr. destruct (w_res _ _ _ HW t r Hr) as [[Me Mf Ms] Mi]. unfold has_fatal. rewrite existsb_exists. split.
  - intros (en & Hin & Hf). apply in_app_or in Hin as [Hin|Hin]; exists (n_src en).
    + left. apply recorded_In. rewrite <- Me. apply in_map_iff. exists en. split; auto. unfold ent. rewrite Hf. auto.
    + right. apply recorded_In. rewrite <- Mf. apply in_map_iff. exists en. split; auto. unfold ent. rewrite Hf. auto.
  - intros (src & [H|H]); apply recorded_In in H; [rewrite <- Me in H|rewrite <- Mf in H];
      apply in_map_iff in H as (en & H1 & H2); exists en; (split; [apply in_or_app; auto|]); unfold ent in H1; congruence.
Qed.

Lemma bad_entry K s t r k src f : W E K s -> lookup t (st_results s) = Some r ->
  In (EvRecord (RTest t) k src f) (st_trace s) -> (k = RKError \/ k = RKFailure \/ k = RKInterrupt) ->
  is_success true r = false.
Proof.
  intros HW Hr H Hk. destruct (w_res _ _ _ HW t r Hr) as [[Me Mf Ms] Mi]. unfold is_success, is_error, is_failure.
  apply recorded_In in H. destruct Hk as [-> | [-> | ->]].
  - rewrite <- Me in H. destruct (r_errors r); [destruct H|reflexivity].
  - rewrite <- Mf in H. destruct (r_errors r), (r_failures r); try reflexivity. destruct H.
  - rewrite Mi. destruct (recorded (RTest t) RKInterrupt (st_trace s)); [destruct H|].
    destruct (r_errors r), (r_failures r); reflexivity.
Qed.

Lemma glob_spec K s : W E K s -> r_started (st_global s) = true ->
  is_success true (st_global s) = true ->
  forall k src f, In (EvRecord RGlobal k src f) (st_trace s) -> ~ (k = RKError \/ k = RKFailure \/ k = RKInterrupt).
Proof.
  intros HW Hs Hg k src f H Hk. destruct (w_glob _ _ _ HW) as [Me Mf Ms]. unfold is_success, is_error, is_failure in Hg.
  destruct Hk as [-> | [-> | ->]].
  - apply recorded_In in H. rewrite <- Me in H. destruct (r_errors (st_global s)); [destruct H|discriminate].
  - apply recorded_In in H. rewrite <- Mf in H. destruct (r_errors (st_global s)), (r_failures (st_global s)); try discriminate. destruct H.
  - assert (I : r_interrupted (st_global s) = true) by (apply (w_gintr _ _ _ HW); do 3 eexists; exact H).
    rewrite I in Hg. destruct (r_errors (st_global s)), (r_failures (st_global s)); discriminate.
Qed.

Lemma lookup_split {A} t (l : list (nat * A)) a : lookup t l = Some a -> In (t, a) l.
Proof.
  induction l as [|[u b] l IH]; simpl; [discriminate|]. destruct (Nat.eqb t u) eqn:Eu; intros H.
  - apply Nat.eqb_eq in Eu. inversion H; subst. auto.
  - auto.
Qed.

Lemma In_lookup {A} t (l : list (nat * A)) a : NoDup (map fst l) -> In (t, a) l -> lookup t l = Some a.
Proof.
  induction l as [|[u b] l IH]; simpl; [tauto|]. intros Hn [H|H].
  - inversion H; subst. rewrite Nat.eqb_refl. auto.
  - apply NoDup_cons_iff in Hn as [Hn1 Hn2]. destruct (Nat.eqb t u) eqn:Eu; auto. apply Nat.eqb_eq in Eu. subst u.
    exfalso. apply Hn1. apply in_map_iff. exists (t, a). auto.
Qed.

(** the session is successful iff nothing bad was recorded and every test was run *)
Lemma success_no_bad K s : W E K s -> r_started (st_global s) = true ->
  session_success true s = true -> ~ unsuccessful (st_trace s).
Proof.
  intros HW Hg Hs (r & k & src & f & H & Hk). unfold session_success in Hs. apply andb_true_iff in Hs as [S1 S2].
  destruct r as [|t].
  - eapply glob_spec; eauto.
  - pose proof (w_known _ _ _ HW _ _ _ _ H) as Hkn. apply lookup_In in Hkn as [r Hr].
    pose proof (bad_entry _ _ _ _ _ _ _ HW Hr H Hk) as Hb. rewrite forallb_forall in S2.
    specialize (S2 _ (lookup_split _ _ _ Hr)). simpl in S2. congruence.
Qed.

Lemma success_or_bad K s : W E K s -> r_started (st_global s) = true ->
  session_success true s = true \/ unsuccessful (st_trace s) \/
  exists t r, In (t, r) (st_results s) /\ r_started r = false /\ r_skips r = [].
Proof.
  intros HW Hg. destruct (session_success true s) eqn:Hs; [auto|right].
  unfold session_success in Hs. apply andb_false_iff in Hs as [S1|S2].
  - left. destruct (w_glob _ _ _ HW) as [Me Mf Ms]. unfold is_success, is_error, is_failure in S1.
    destruct (r_errors (st_global s)) as [|en l] eqn:E1.
    + destruct (r_failures (st_global s)) as [|en l] eqn:E2.
      * destruct (r_interrupted (st_global s)) eqn:E3.
        { destruct (proj1 (w_gintr _ _ _ HW) E3) as (r & src & f & H). exists r, RKInterrupt, src, f. auto. }
        simpl in S1. destruct (is_skip (st_global s)); [discriminate|]. congruence.
      * exists RGlobal, RKFailure, (n_src en), (n_fatal en). split; auto. apply recorded_In. rewrite <- Mf. left. auto.
    + exists RGlobal, RKError, (n_src en), (n_fatal en). split; auto. apply recorded_In. rewrite <- Me. left. auto.
  - assert (X : exists p, In p (st_results s) /\ is_success true (snd p) = false).
    { clear - S2. induction (st_results s) as [|p l IH]; simpl in *; [discriminate|].
      apply andb_false_iff in S2 as [H|H]; [exists p; auto|]. destruct (IH H) as (q & A & B). exists q; auto. }
    destruct X as ([t r] & Hin & Hb). simpl in Hb.
    assert (Hl : lookup t (st_results s) = Some r) by (apply In_lookup; auto; apply (w_keys _ _ _ HW)).
    destruct (w_res _ _ _ HW t r Hl) as [[Me Mf Ms] Mi]. unfold is_success, is_error, is_failure in Hb.
    destruct (r_errors r) as [|en l] eqn:E1.
    2:{ left. exists (RTest t), RKError, (n_src en), (n_fatal en). split; auto. apply recorded_In. rewrite <- Me. left. auto. }
    destruct (r_failures r) as [|en l] eqn:E2.
    2:{ left. exists (RTest t), RKFailure, (n_src en), (n_fatal en). split; auto. apply recorded_In. rewrite <- Mf. left. auto. }
    destruct (r_interrupted r) eqn:E3.
    { left. destruct (recorded (RTest t) RKInterrupt (st_trace s)) as [|[src f] l] eqn:E4; [discriminate|].
      exists (RTest t), RKInterrupt, src, f. split; auto. apply recorded_In. rewrite E4. left. auto. }
    right. exists t, r. split; auto. simpl in Hb. unfold is_skip in Hb. destruct (r_skips r); [simpl in Hb; auto|discriminate].
Qed.

Lemma no_bad_success K s done : W E K s -> r_started (st_global s) = true -> keys s = done -> Ran done s ->
  session_success true s = false -> unsuccessful (st_trace s) \/ trouble (st_trace s).
Proof.
  intros HW Hg Hk Hr Hs. destruct (success_or_bad K s HW Hg) as [X|[X|(t & r & X & Y1 & Y2)]]; [congruence|auto|].
  assert (Hl : lookup t (st_results s) = Some r) by (apply In_lookup; auto; apply (w_keys _ _ _ HW)).
  destruct (Hr t) as [(r' & H1 & H2)|H]; auto.
  { rewrite <- Hk. apply lookup_In. eauto. }
  rewrite Hl in H1. inversion H1; subst r'. destruct H2 as [H2|H2]; congruence.
Qed.

(** what the loop leaves *)
Record post (done : list nat) (ts : list test) (s s' : state) (o : outcome) (e : loop_end) (last' : option nat) : Prop := mkPost {
  x_W : W E [] s';
  x_inv : inv0 s';
  x_ran : exists ran rest, ts = ran ++ rest /\ Tr (done ++ map t_id ran) (st_trace s') /\ St (done ++ map t_id ran) s' /\
      match e with
      | LComplete => rest = [] /\ o = ONormal /\ files None (st_trace s') = Some None
      | LBreak r => r = rest /\ o = ONormal /\ cause (st_trace s') /\ files None (st_trace s') = Some (expect last' rest) /\
                    (exists f, last' = Some f /\ (expect last' rest = None -> exists tr0, st_trace s' = tr0 ++ [EvFileEnd f]))
      | LExc => (exists x, o = ORaise x) /\ exists op, files None (st_trace s') = Some op
      end;
  x_test : st_test s' = st_test s;
  x_result : st_result s' = st_result s;
  x_ss : st_ss s' = st_ss s;
  x_nc : In EvComplete (st_trace s') -> In EvComplete (st_trace s) }.

Lemma loop_spec ts : forall done last s s' o e last',
  run_loop E last ts s = (s', o, e, last') ->
  W E [] s -> inv0 s -> Tr done (st_trace s) -> St done s -> Ran done s -> ~ must_stop (e_stop E) (st_trace s) ->
  files None (st_trace s) = Some (expect last ts) ->
  post done ts s s' o e last'.
Proof.
  induction ts as [|t rest IH]; intros done last s s' o e last' H HW HI HT HS HR HN HF.
  { simpl in H. inversion H; subst. constructor; auto. exists [], []. simpl. rewrite app_nil_r.
    split; [auto|]. split; [auto|]. split; [auto|]. split; [auto|]. split; auto. destruct last'; auto. }
  cbn [run_loop] in H. destruct (set_metadata E (t_id t) s) as [s1 o1] eqn:Em.
  unfold set_metadata in Em. destruct (lookup (t_id t) (st_idx s)) eqn:El.
  { unfold raise_new in Em. inversion Em; subst. inversion H; subst. constructor; try reflexivity.
    - eapply W_wstep; [|exact HW]. constructor; try reflexivity; [apply incl_refl|exists []; rewrite app_nil_r; auto].
    - pose proof (safe_metadata E (t_id t) s HI) as [A _]. unfold set_metadata in A. rewrite El in A. exact A.
    - exists [], (t :: rest). simpl. rewrite app_nil_r. split; auto. split; [exact HT|]. split; [|eauto].
      destruct HS. constructor; auto.
    - exact (fun X => X). }
  assert (Hnew : ~ In (t_id t) done).
  { rewrite <- (s_idx _ _ HS). intros Hin. apply lookup_In in Hin as [a Ha]. congruence. }
  assert (M : W E [] s1 /\ inv0 s1 /\ st_trace s1 = st_trace s /\ o1 = ONormal /\ st_results s1 = st_results s /\
              st_global s1 = st_global s /\ st_test s1 = st_test s /\ st_result s1 = st_result s /\ st_ss s1 = st_ss s /\
              map fst (st_idx s1) = done ++ [t_id t] /\
              (e_worker E = false -> st_idx s1 = combine (done ++ [t_id t]) (List.seq 0 (length (done ++ [t_id t]))) /\ st_nidx s1 = length (done ++ [t_id t]))).
  { pose proof (presW_metadata E [] (t_id t) s HW) as A1. pose proof (safe_metadata E (t_id t) s HI) as [A2 _].
    unfold set_metadata in A1, A2. rewrite El in A1, A2. rewrite Em in A1, A2. cbn [fst] in A1, A2.
    split; auto. split; auto. destruct HS as [B1 B2 B3 B4].
    destruct (e_worker E); inversion Em; subst s1 o1; (do 7 (split; [reflexivity|])).
    - split; [|discriminate]. cbn [set_idx st_idx]. rewrite map_app, B2. reflexivity.
    - split.
      + cbn [set_nidx set_idx st_idx]. rewrite map_app, B2. reflexivity.
      + intros _. destruct (B3 eq_refl) as [C1 C2]. cbn [set_nidx set_idx st_idx st_nidx].
        rewrite app_length, C1, C2. simpl. rewrite Nat.add_1_r. split; auto.
        rewrite seq_S. simpl. rewrite combine_snoc; [reflexivity|]. rewrite seq_length. auto. }
  destruct M as (HW1 & HI1 & MT & -> & MR & MG & M1 & M2 & M3 & MI & ME).
  set (s2 := if file_differs last (t_file t) then emit (EvFileStart (t_file t)) s1 else s1) in *.
  assert (HW2 : W E [] s2) by (unfold s2; destruct (file_differs _ _); auto; apply W_emit; auto).
  assert (HI2 : inv0 s2) by (unfold s2; destruct (file_differs _ _); auto; apply inv0_emit; auto; intros q; reflexivity).
  assert (HT2 : Tr done (st_trace s2)).
  { unfold s2. destruct (file_differs _ _); [|rewrite MT; auto]. cbn [emit st_trace]. rewrite MT. apply Tr_benign; auto. }
  assert (HN2 : ~ must_stop (e_stop E) (st_trace s2)).
  { unfold s2. destruct (file_differs _ _); [|rewrite MT; auto]. cbn [emit st_trace]. rewrite MT.
    intros Hm. apply HN. eapply must_stop_app; [|exact Hm]. intros u [Hx|[]]. discriminate. }
  assert (HF2 : files None (st_trace s2) = Some (Some (t_file t))).
  { unfold s2, file_differs. destruct last as [f|]; cbn [opt_eqb negb].
    - unfold expect in HF. rewrite Nat.eqb_sym. destruct (Nat.eqb (t_file t) f) eqn:Ef; cbn [negb].
      + apply Nat.eqb_eq in Ef. subst f. rewrite MT. auto.
      + cbn [emit st_trace]. rewrite MT, files_app, HF. reflexivity.
    - cbn [emit st_trace]. rewrite MT, files_app, HF. reflexivity. }
  assert (S2 : keys s2 = done /\ map fst (st_idx s2) = done ++ [t_id t] /\ r_started (st_global s2) = true /\
               st_test s2 = st_test s /\ st_result s2 = st_result s /\ st_ss s2 = st_ss s /\ st_results s2 = st_results s /\
               (e_worker E = false -> st_idx s2 = combine (done ++ [t_id t]) (List.seq 0 (length (done ++ [t_id t]))) /\ st_nidx s2 = length (done ++ [t_id t]))).
  { destruct HS as [B1 B2 B3 B4]. unfold keys in *.
    unfold s2; destruct (file_differs _ _); cbn [emit st_results st_idx st_global st_test st_result st_ss st_nidx]; rewrite MR, MG; auto 10. }
  destruct S2 as (K2 & I2 & G2 & T2 & R2 & SS2 & RS2 & E2).
  set (s3 := emit (EvReportStart (t_id t)) s2) in *.
  assert (HW3 : W E [] s3) by (apply W_emit; auto).
  assert (HI3 : inv0 s3) by (apply inv0_emit; auto; intros q; reflexivity).
  assert (Hsum3 : sum_ok (st_trace s3)).
  { unfold s3. cbn [emit st_trace]. apply sum_ok_app; [apply HT2|]. intros h u [Hx|[]]. discriminate. }
  destruct (run_single E t (nonempty rest) s3) as [s4 o4] eqn:Er.
  pose proof (presW_run_single E [] t (nonempty rest) s3 HW3) as HW4.
  pose proof (safe_run_single E t (nonempty rest) s3 HI3) as [HI4 Ho4]. rewrite Er in HW4, HI4, Ho4. cbn [fst snd] in *.
  pose proof (single_spec E [] t (nonempty rest) s3 s4 o4 HW3 Hsum3 Er Ho4) as SG.
  destruct SG as [N1 N2 N3 N4 N5 N6 N7 N8 (L & l & N9 & N10 & N11 & N12 & N13) N14].
  assert (Hk4 : keys s4 = done ++ [t_id t]).
  { destruct N7 as [N7|(_ & N7 & _)].
    - rewrite N7. f_equal. exact K2.
    - exfalso. apply Hnew. rewrite <- K2. exact N7. }
  subst L.
  assert (Htr : st_trace s4 = st_trace s2 ++ EvReportStart (t_id t) :: l).
  { rewrite N9. unfold s3. cbn [emit st_trace]. rewrite <- app_assoc. reflexivity. }
  rewrite Htr in N8.
  destruct (Tr_test done (st_trace s2) (t_id t) l HT2 HN2 Hnew N11 N12 N8) as [TA TB].
  rewrite <- Htr in TA.
  assert (NC2 : In EvComplete (st_trace s2) -> In EvComplete (st_trace s)).
  { unfold s2. destruct (file_differs _ _); cbn [emit st_trace]; rewrite MT; auto. intros X. apply in_app_or in X as [X|[X|[]]]; auto. discriminate. }
  assert (NC4 : In EvComplete (st_trace s4) -> In EvComplete (st_trace s)).
  { rewrite Htr. intros X. apply in_app_or in X as [X|[X|X]]; auto; [discriminate|]. exfalso.
    apply (loud_in l EvComplete eq_refl) in X. pose proof (shape_thook _ _ N11) as Hth. rewrite forallb_forall in Hth. apply Hth in X. discriminate. }
  assert (HF4 : files None (st_trace s4) = Some (Some (t_file t))).
  { rewrite Htr. apply files_ext; auto. cbn [forallb nofile]. apply loud_nofile. apply (shape_thook _ _ N11). }
  assert (HS4 : St (done ++ [t_id t]) s4).
  { constructor; auto.
    - rewrite N5. exact I2.
    - intros Hw. rewrite N5, N4. exact (E2 Hw).
    - rewrite N6. exact G2. }
  destruct o4.
  2:{ inversion H; subst. constructor; auto; try congruence.
      - exists [t], rest. simpl. split; auto. split; auto. split; auto. split; eauto.
      - rewrite N1. exact T2.
      - rewrite N2. exact R2.
      - rewrite N3. exact SS2. }
  2:{ contradiction. }
  set (s5 := emit (EvReportEnd (t_id t)) s4) in *.
  match type of H with context[match rest with [] => emit ?ev s5 | _ => _ end] =>
    set (s6 := match rest with [] => emit ev s5 | t' :: _ => if Nat.eqb (t_file t') (t_file t) then s5 else emit ev s5 end) in * end.
  assert (HW6 : W E [] s6).
  { assert (W E [] s5) by (apply W_emit; auto). unfold s6. destruct rest; [apply W_emit; auto|]. destruct (Nat.eqb _ _); auto. apply W_emit; auto. }
  assert (HI6 : inv0 s6).
  { assert (inv0 s5) by (apply inv0_emit; auto; intros q; reflexivity). unfold s6. destruct rest; [apply inv0_emit; auto; intros q; reflexivity|].
    destruct (Nat.eqb _ _); auto. apply inv0_emit; auto; intros q; reflexivity. }
  assert (T5 : Tr (done ++ [t_id t]) (st_trace s5)).
  { unfold s5. cbn [emit st_trace]. rewrite Htr, <- app_assoc. exact TB. }
  assert (X6 : exists le, st_trace s6 = st_trace s4 ++ EvReportEnd (t_id t) :: le /\ (le = [] \/ le = [EvFileEnd (t_file t)]) /\
     (expect (Some (t_file t)) rest = None -> le = [EvFileEnd (t_file t)]) /\
     files None (st_trace s6) = Some (expect (Some (t_file t)) rest)).
  { assert (F5 : files None (st_trace s5) = Some (Some (t_file t))) by (apply files_ext; auto).
    assert (FE : files None (st_trace s5 ++ [EvFileEnd (t_file t)]) = Some None).
    { rewrite files_app, F5. cbn [files]. rewrite Nat.eqb_refl. auto. }
    assert (TE : st_trace s5 ++ [EvFileEnd (t_file t)] = st_trace s4 ++ EvReportEnd (t_id t) :: [EvFileEnd (t_file t)]).
    { unfold s5. cbn [emit st_trace]. rewrite <- app_assoc. reflexivity. }
    unfold s6, expect. destruct rest as [|t' rest'].
    - exists [EvFileEnd (t_file t)]. cbn [emit st_trace] in *. auto.
    - destruct (Nat.eqb (t_file t') (t_file t)).
      + exists []. split; [reflexivity|]. split; auto. split; auto. discriminate.
      + exists [EvFileEnd (t_file t)]. split; [exact TE|]. split; auto. }
  destruct X6 as (le & Y1 & Y2 & Y3 & Y4).
  assert (NC6 : In EvComplete (st_trace s6) -> In EvComplete (st_trace s)).
  { rewrite Y1. intros X. apply in_app_or in X as [X|[X|X]]; auto; [discriminate|].
    destruct Y2 as [-> | ->]; [destruct X|destruct X as [X|[]]; discriminate]. }
  assert (T6 : Tr (done ++ [t_id t]) (st_trace s6)).
  { destruct Y2 as [-> | ->].
    - rewrite Y1. exact T5.
    - rewrite Y1. change (EvReportEnd (t_id t) :: [EvFileEnd (t_file t)]) with ([EvReportEnd (t_id t)] ++ [EvFileEnd (t_file t)]).
      rewrite app_assoc. apply Tr_benign; auto. }
  assert (Q6 : st_results s6 = st_results s4 /\ st_idx s6 = st_idx s4 /\ st_nidx s6 = st_nidx s4 /\ st_global s6 = st_global s4 /\
               st_test s6 = st_test s4 /\ st_result s6 = st_result s4 /\ st_ss s6 = st_ss s4).
  { unfold s6. destruct rest; [repeat split|]. destruct (Nat.eqb _ _); repeat split. }
  destruct Q6 as (Z1 & Z2 & Z3 & Z4 & Z5 & Z6 & Z7).
  assert (HS6 : St (done ++ [t_id t]) s6).
  { destruct HS4 as [B1 B2 B3 B4]. constructor; unfold keys; rewrite ?Z1, ?Z2, ?Z3, ?Z4; auto. }
  assert (HR4 : Ran (done ++ [t_id t]) s4).
  { intros u Hu. apply in_app_or in Hu as [Hu|[<-|[]]].
    - destruct (HR u Hu) as [A|A].
      + left. apply N14. destruct A as (r & A1 & A2). exists r. split; auto. unfold s3. cbn [emit st_results]. rewrite RS2. auto.
      + right. destruct A as (x & k & f & r & A). exists x, k, f, r. rewrite Htr. apply in_or_app. left.
        unfold s2. destruct (file_differs _ _); cbn [emit st_trace]; rewrite MT; auto. apply in_or_app; auto.
    - destruct N13 as [A|[A|A]]; auto; [|contradiction]. right. destruct A as (x & k & f & r & A). exists x, k, f, r.
      rewrite Htr. apply in_or_app. right. right. auto. }
  assert (HR6 : Ran (done ++ [t_id t]) s6).
  { intros u Hu. destruct (HR4 u Hu) as [(r & A)|(x & k & f & r & A)].
    - left. exists r. rewrite Z1. auto.
    - right. exists x, k, f, r. rewrite Y1. apply in_or_app; auto. }
  assert (Hin : In (t_id t) (keys s4)) by (rewrite Hk4; apply in_or_app; right; left; auto).
  apply lookup_In in Hin as [r Hr].
  pose proof (fatal_spec [] s4 (t_id t) r HW4 Hr) as Hfat.
  assert (Brk : fatal_on (t_id t) (st_trace s4) \/ (e_stop E = true /\ (unsuccessful (st_trace s4) \/ trouble (st_trace s4))) ->
     (s6, ONormal, LBreak rest, Some (t_file t)) = (s', o, e, last') -> post done (t :: rest) s s' o e last').
  { intros Hc Heq. inversion Heq; subst. constructor; auto; try congruence.
    - exists [t], rest. simpl. split; auto. split; auto. split; auto. split; auto. split; auto. split.
      + exists (st_trace s4), (t_id t), le. auto.
      + split; auto. eexists. split; [reflexivity|]. intros Hx. exists (st_trace s4 ++ [EvReportEnd (t_id t)]).
        rewrite Y1, (Y3 Hx), <- app_assoc. reflexivity.
    - rewrite Z5, N1. exact T2.
    - rewrite Z6, N2. exact R2.
    - rewrite Z7, N3. exact SS2. }
  rewrite Z1, Hr in H.
  destruct (has_fatal r) eqn:Hf.
  { apply Brk; auto. left. apply Hfat. auto. }
  assert (SSu : session_success true s6 = session_success true s4) by (unfold session_success; rewrite Z1, Z4; auto).
  rewrite SSu in H.
  destruct (e_stop E && negb (session_success true s4)) eqn:Hst.
  { apply Brk; auto. right. apply andb_true_iff in Hst as [A B]. split; auto. apply negb_true_iff in B.
    eapply no_bad_success; eauto. }
  assert (HN6 : ~ must_stop (e_stop E) (st_trace s6)).
  { intros Hm.
    assert (Hm5 : must_stop (e_stop E) (st_trace s4 ++ [EvReportEnd (t_id t)])).
    { rewrite Y1 in Hm. change (EvReportEnd (t_id t) :: le) with ([EvReportEnd (t_id t)] ++ le) in Hm. rewrite app_assoc in Hm.
      eapply must_stop_app; [|exact Hm]. intros u Hu. destruct Y2 as [-> | ->]; [destruct Hu|destruct Hu as [Hu|[]]; discriminate]. }
    destruct Hm5 as (p & u & q & Heq & Hc). apply app_split in Heq as [(x & A & B)|(x & A & B)].
    - rewrite Htr in A. apply HN2. eapply must_stop_app with (l := EvReportStart (t_id t) :: l).
      + intros v [Hv|Hv]; [discriminate|]. apply (loud_in l (EvReportEnd v) eq_refl) in Hv.
        pose proof (shape_thook _ _ N11) as Hth. rewrite forallb_forall in Hth. apply Hth in Hv. discriminate.
      + exists p, u, x. auto.
    - destruct x as [|y x]; [|destruct x; discriminate]. inversion B; subst u q. rewrite app_nil_r in A. subst p.
      destruct Hc as [Hc|[Hc1 Hc2]].
      + apply Hfat in Hc. congruence.
      + rewrite Hc1 in Hst. simpl in Hst. apply negb_false_iff in Hst.
        exact (success_no_bad _ _ HW4 (s_gst _ _ HS4) Hst Hc2). }
  pose proof (IH (done ++ [t_id t]) (Some (t_file t)) s6 s' o e last' H HW6 HI6 T6 HS6 HR6 HN6 Y4) as [P1 P2 P3 P4 P5 P6 P7].
  constructor; auto.
  - destruct P3 as (rn & rs & Q1 & Q2 & Q3 & Q4). exists (t :: rn), rs. cbn [map]. rewrite <- app_assoc in Q2, Q3. cbn [app] in *.
    rewrite Q1. auto.
  - rewrite P4, Z5, N1. exact T2.
  - rewrite P5, Z6, N2. exact R2.
  - rewrite P6, Z7, N3. exact SS2.
Qed.

End L.
