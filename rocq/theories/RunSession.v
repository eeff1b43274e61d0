(** The trace of a whole session, as seen by the runner's properties. *)

From Coq Require Import List Bool Arith PeanoNat Lia.
From Verif Require Import Events Core CoreSpec CoreBase CleanupSim SessionSim Frame Records RunnerSpec Runner RunLoop.
Import ListNotations.

Section S.
Variable E : env.

(** ** Code around the loop over the tests *)

Definition calm (e : event) : bool :=
  benign e && nofile e && match e with EvComplete => false | _ => true end.

Record tail (s s' : state) : Prop := mkTail {
  l_trace : exists l, st_trace s' = st_trace s ++ l /\ forallb calm l = true;
  l_idx : st_idx s' = st_idx s;
  l_nidx : st_nidx s' = st_nidx s;
  l_test : st_test s' = st_test s;
  l_result : st_result s' = st_result s;
  l_res : res_grow (st_results s) (st_results s');
  l_gst : r_started (st_global s') = r_started (st_global s) }.

Lemma tail_refl s : tail s s.
Proof. constructor; auto; [exists []; rewrite app_nil_r; auto|apply res_grow_refl]. Qed.
Lemma tail_trans a b c : tail a b -> tail b c -> tail a c.
Proof.
  intros [] []. constructor; try congruence.
  - destruct l_trace0 as (x & A & B), l_trace1 as (y & C & D). exists (x ++ y).
    rewrite C, A, app_assoc, forallb_app, B, D. auto.
  - eapply res_grow_trans; eauto.
Qed.
Lemma quiet_calm l : forallb quiet l = true -> forallb calm l = true.
Proof.
  induction l as [|e l IH]; simpl; auto. intros H. apply andb_true_iff in H as [H1 H2]. rewrite IH; auto.
  unfold calm. rewrite quiet_benign by auto. destruct e; auto; discriminate.
Qed.
Lemma frame_tail s s' : frame s s' -> tail s s'.
Proof.
  intros []. constructor; auto.
  - destruct f_trace as (l & A & B). exists l. split; auto. apply quiet_calm; auto.
  - apply (g_started _ _ f_glob).
Qed.
Lemma relt_of m : relf m -> rel tail m.
Proof. intros H s. apply frame_tail, H. Qed.
Lemma relt_fire h t : calm (EvHook h t) = true -> rel tail (fire E h t).
Proof.
  intros H s. unfold fire, seq, upd. eapply tail_trans with (emit (EvHook h t) s).
  - constructor; auto; [exists [EvHook h t]; simpl; rewrite H; auto|apply res_grow_refl].
  - apply frame_tail, relf_exec.
Qed.
Lemma relt_set_ss v : rel tail (upd (set_ss v)).
Proof. intros s. cbn. constructor; try reflexivity; [exists []; rewrite app_nil_r; auto|apply res_grow_refl]. Qed.
Lemma relt_handling h m : rel tail m -> rel tail (handling E h m).
Proof. apply rel_handling; [apply tail_trans|]. intros. apply frame_tail, frame_handle. Qed.
Lemma relt_seq a b : rel tail a -> rel tail b -> rel tail (a ;; b).
Proof. apply rel_seq, tail_trans. Qed.

Definition preamble : M :=
  handling E h_plain
    (fire E HBeforeSessionStart 0 ;; fire E HSessionStart 0 ;; upd (set_ss true) ;; fire E HAfterSessionStart 0).

Definition closing : M :=
  handling E h_plain (cm_pop E SSessionGlobal) ;;
  cond st_ss (handling E h_plain (fire E HSessionEnd 0) ;; handling E h_plain (fire E HAfterSessionEnd 0)) ret.

Lemma relt_preamble : rel tail preamble.
Proof.
  apply relt_handling. apply relt_seq; [apply relt_fire; reflexivity|].
  apply relt_seq; [apply relt_fire; reflexivity|]. apply relt_seq; [apply relt_set_ss|apply relt_fire; reflexivity].
Qed.
Lemma relt_closing : rel tail closing.
Proof.
  apply relt_seq; [apply relt_handling, relt_of, relf_cm_pop|].
  apply rel_cond; [|intros s; apply tail_refl].
  apply relt_seq; apply relt_handling, relt_fire; reflexivity.
Qed.

(** ** Marking tests that were not run *)

Definition unstarted (t : nat) (s : state) : Prop :=
  exists r, lookup t (st_results s) = Some r /\ r_started r = false.

Lemma unstarted_grow t s s' : res_grow (st_results s) (st_results s') -> unstarted t s -> unstarted t s'.
Proof.
  intros [_ R] (r & H1 & H2). destruct (R _ _ H1) as (r' & A & B). exists r'. split; auto. rewrite (g_started _ _ B). auto.
Qed.

Definition same_rest (s s' : state) : Prop :=
  st_trace s' = st_trace s /\ st_idx s' = st_idx s /\ st_nidx s' = st_nidx s /\ st_test s' = st_test s /\
  st_result s' = st_result s /\ st_global s' = st_global s.

Lemma mark_one t s :
  (exists x, snd (test_context t (fun _ => ret) s) = ORaise x /\ same_rest s (fst (test_context t (fun _ => ret) s))) \/
  (snd (test_context t (fun _ => ret) s) = ONormal /\ same_rest s (fst (test_context t (fun _ => ret) s)) /\
   lookup t (st_results s) = None /\
   st_results (fst (test_context t (fun _ => ret) s)) = st_results s ++ [(t, result0)]).
Proof.
  unfold test_context, finally, seq, upd, create_result.
  change (st_results (set_test (Some t) s)) with (st_results s).
  destruct (lookup t (st_results s)) eqn:El.
  - left. eexists. split; [reflexivity|]. repeat split.
  - right. repeat split.
Qed.

Lemma mark_unrun_spec ts : forall s s' o, mark_unrun ts s = (s', o) ->
  same_rest s s' /\ o <> OFuel /\
  (o = ONormal -> keys s' = keys s ++ map t_id ts /\ (forall u, unstarted u s -> unstarted u s') /\
     forall t, In t ts -> unstarted (t_id t) s').
Proof.
  induction ts as [|t ts IH]; intros s s' o H.
  - simpl in H. inversion H; subst. split; [repeat split|]. split; [discriminate|]. intros _. simpl. rewrite app_nil_r. split; auto. split; auto. intros t [].
  - cbn [mark_unrun] in H. unfold seq in H. destruct (mark_one (t_id t) s) as [(x & A & B)|(A & B & C & D)];
      destruct (test_context (t_id t) (fun _ => ret) s) as [s1 o1]; cbn [fst snd] in *; subst o1.
    + inversion H; subst. split; auto. split; [discriminate|]. discriminate.
    + destruct (IH _ _ _ H) as (F1 & F2 & F3). split.
      { destruct B as (B1 & B2 & B3 & B4 & B5 & B6), F1 as (G1 & G2 & G3 & G4 & G5 & G6). repeat split; congruence. }
      split; auto. intros Ho. destruct (F3 Ho) as (K1 & K2 & K3).
      assert (U1 : forall u, unstarted u s -> unstarted u s1).
      { intros u (r & X & Y). exists r. rewrite D, lookup_app, X. auto. }
      split; [|split; [auto|]].
      * rewrite K1. unfold keys. rewrite D, map_app. simpl. rewrite <- app_assoc. reflexivity.
      * intros u [<-|Hu]; auto. apply K2. exists result0. rewrite D, lookup_app, C. simpl. rewrite Nat.eqb_refl. auto.
Qed.

(** ** run_tests *)

(** one more report_file_end after a balanced sequence ending with the same file *)
Definition surplus (tr : list event) : Prop :=
  exists a f b, tr = a ++ EvFileEnd f :: b /\ forallb nofile b = true /\ files None a = Some None /\
    exists c d, a = c ++ EvFileEnd f :: d /\ forallb nofile d = true.

Record Fin (ts : list test) (s' : state) (o : outcome) : Prop := mkFin {
  fn_ran : exists ran rest, ts = ran ++ rest /\ Tr E (map t_id ran) (st_trace s') /\
      (e_worker E = false -> st_idx s' = combine (map t_id ran) (List.seq 0 (length ran)) /\ st_nidx s' = length ran) /\
      (o = ONormal -> rest <> [] -> cause E (st_trace s')) /\
      (o = ONormal -> e_worker E = false ->
         keys s' = map t_id ts /\ (forall t, In t rest -> unstarted (t_id t) s') /\
         (cause E (st_trace s') \/ In EvComplete (st_trace s'))) /\
      (In EvComplete (st_trace s') -> rest = []);
  fn_files : e_worker E = false ->
      ((exists op, files None (st_trace s') = Some op) \/ surplus (st_trace s')) /\
      (o = ONormal -> files None (st_trace s') = Some None \/ surplus (st_trace s')) /\
      (In EvComplete (st_trace s') -> files None (st_trace s') = Some None);
  fn_gst : r_started (st_global s') = true }.

Lemma calm_benign l : forallb calm l = true -> forallb benign l = true /\ forallb nofile l = true /\ ~ In EvComplete l.
Proof.
  induction l as [|e l IH]; simpl; auto. intros H. apply andb_true_iff in H as [H1 H2]. destruct (IH H2) as (A & B & C).
  unfold calm in H1. apply andb_true_iff in H1 as [H1 H3]. apply andb_true_iff in H1 as [H1 H4].
  rewrite A, B, H1, H4. split; auto. split; auto. intros [->|H]; auto. discriminate.
Qed.

Lemma cause_app tr l : cause E tr -> cause E (tr ++ l).
Proof. intros (p & t & q & -> & H). exists p, t, (q ++ l). split; auto. rewrite <- app_assoc. reflexivity. Qed.

Lemma surplus_app tr l : forallb nofile l = true -> surplus tr -> surplus (tr ++ l).
Proof.
  intros Hl (a & f & b & -> & H1 & H2 & H3). exists a, f, (b ++ l). rewrite <- app_assoc. split; auto.
  split; auto. rewrite forallb_app, H1, Hl. auto.
Qed.

Lemma Fin_tail ts s s' o o' : Fin ts s o -> tail s s' -> (o' = ONormal -> o = ONormal) -> Fin ts s' o'.
Proof.
  intros [(ran & rest & A & B & C & D & F & H) G GS] [(l & L1 & L2) T2 T3 _ _ T4 T5] Ho.
  destruct (calm_benign l L2) as (L3 & L4 & L5).
  assert (HC : In EvComplete (st_trace s') -> In EvComplete (st_trace s)).
  { rewrite L1. intros X. apply in_app_or in X as [X|X]; auto. contradiction. }
  constructor.
  - exists ran, rest. split; auto. split; [rewrite L1; apply Tr_benign; auto|]. split; [rewrite T2, T3; auto|].
    split; [intros; rewrite L1; apply cause_app; auto|]. split; [|auto].
    intros X Y. destruct (F (Ho X) Y) as (F1 & F2 & F3). split; [unfold keys; rewrite (proj1 T4); auto|]. split.
    + intros t Ht. eapply unstarted_grow; eauto.
    + destruct F3; [left; rewrite L1; apply cause_app; auto|right; rewrite L1; apply in_or_app; auto].
  - intros Hw. destruct (G Hw) as (G1 & G2 & G3). split; [|split].
    + destruct G1 as [(op & G1)|G1]; [left; exists op; rewrite L1; apply files_ext; auto|right; rewrite L1; apply surplus_app; auto].
    + intros X. destruct (G2 (Ho X)); [left; rewrite L1; apply files_ext; auto|right; rewrite L1; apply surplus_app; auto].
    + intros X. rewrite L1. apply files_ext; auto.
  - congruence.
Qed.

Lemma run_tests_Fin ts s s' o :
  run_tests E ts s = (s', o) ->
  W E [] s -> inv0 s -> Tr E [] (st_trace s) -> St E [] s -> files None (st_trace s) = Some None ->
  ~ In EvComplete (st_trace s) -> (forall t, ~ In (EvReportEnd t) (st_trace s)) ->
  Fin ts s' o /\ o <> OFuel /\ st_test s' = st_test s /\ st_result s' = st_result s.
Proof.
  intros H HW HI HT HS HF HC HE. unfold run_tests in H.
  destruct (run_loop E None ts s) as [[[s1 o1] e] last] eqn:El.
  assert (HN : ~ must_stop (e_stop E) (st_trace s)).
  { intros (p & t & q & X & _). apply (HE t). rewrite X. apply in_or_app. right. left. auto. }
  assert (HR : Ran [] s) by (intros u []).
  pose proof (loop_spec E ts [] None s s1 o1 e last El HW HI HT HS HR HN HF) as [P1 P2 P3 P4 P5 P6 P7].
  destruct P3 as (ran & rest & Q1 & Q2 & Q3 & Q4). cbn [app] in *.
  assert (NC : ~ In EvComplete (st_trace s1)) by auto.
  assert (Ho1 : o1 <> OFuel).
  { destruct e; [destruct Q4 as (_ & -> & _)|destruct Q4 as (_ & -> & _)|destruct Q4 as [[x ->] _]]; discriminate. }
  destruct ((if e_worker E then ret else initiate_cleanup E) s1) as [s2 o2] eqn:Ei.
  assert (F2 : frame s1 s2).
  { destruct (e_worker E); [inversion Ei; subst; apply frame_refl|]. eapply frame_of; [apply relf_initiate|exact Ei]. }
  assert (Ho2 : o2 <> OFuel).
  { destruct (e_worker E); [inversion Ei; subst; discriminate|]. pose proof (safe_initiate E s1 P2) as [_ X]. rewrite Ei in X. exact X. }
  pose proof (frame_tail _ _ F2) as T2.
  assert (D1 : e_worker E = false -> st_idx s1 = combine (map t_id ran) (List.seq 0 (length ran)) /\ st_nidx s1 = length ran).
  { intros Hw. destruct (s_enum _ _ _ Q3 Hw) as [X Y]. rewrite map_length in *. auto. }
  assert (Fx : forall oo, oo <> ONormal -> Fin ts s1 oo).
  { intros oo Hoo. constructor.
    - exists ran, rest. split; auto. split; auto. split; auto. split; [intros; contradiction|]. split; [intros; contradiction|].
      intros; contradiction.
    - intros Hw. split; [|split; [intros; contradiction|intros; contradiction]]. left.
      destruct e; [exists None; tauto|eexists; apply (proj1 (proj2 (proj2 (proj2 Q4))))|tauto].
    - apply (s_gst _ _ _ Q3). }
  assert (GS2 : r_started (st_global s2) = true) by (rewrite (l_gst _ _ T2); apply (s_gst _ _ _ Q3)).
  assert (Base : st_test s2 = st_test s /\ st_result s2 = st_result s).
  { rewrite (f_test _ _ F2), (f_result _ _ F2). auto. }
  assert (Er : o <> ONormal -> s' = s2 -> Fin ts s' o /\ st_test s' = st_test s /\ st_result s' = st_result s).
  { intros X ->. split; [|exact Base]. apply (Fin_tail ts s1 s2 o o (Fx o X) T2). auto. }
  assert (Er' : forall x, (s2, ORaise x) = (s', o) -> Fin ts s' o /\ o <> OFuel /\ st_test s' = st_test s /\ st_result s' = st_result s).
  { intros x Hx. inversion Hx; subst s' o. destruct Er as (X1 & X2 & X3); [discriminate|auto|]. split; auto. split; [discriminate|auto]. }
  destruct o1; [| |contradiction]; (destruct o2; [| |contradiction]); try (eapply Er'; exact H).
  clear Fx Er Er'.
  destruct (l_trace _ _ T2) as (l2 & L1 & L2). destruct (calm_benign l2 L2) as (L3 & L4 & L5).
  assert (NC2 : ~ In EvComplete (st_trace s2)).
  { rewrite L1. intros X. apply in_app_or in X as [X|X]; auto. }
  assert (TR2 : Tr E (map t_id ran) (st_trace s2)) by (rewrite L1; apply Tr_benign; auto).
  assert (ID2 : e_worker E = false -> st_idx s2 = combine (map t_id ran) (List.seq 0 (length ran)) /\ st_nidx s2 = length ran).
  { rewrite (l_idx _ _ T2), (l_nidx _ _ T2). auto. }
  destruct (e_worker E) eqn:Hw.
  { inversion H; subst s' o. split; [|split; [discriminate|exact Base]]. constructor; [|congruence|exact GS2].
    exists ran, rest. split; auto. split; auto. split; [congruence|]. split.
    - intros _ Hr. rewrite L1. apply cause_app. destruct e; [tauto|tauto|]. destruct Q4 as [[x X] _]. discriminate.
    - split; [congruence|]. intros; contradiction. }
  unfold seq in H.
  destruct (mark_unrun (match e with LBreak r => r | _ => [] end) s2) as [s3 o3] eqn:Emk.
  destruct (mark_unrun_spec _ _ _ _ Emk) as ((U1 & U2 & U3 & U4 & U5 & U7) & Uf & U6).
  assert (R2 : map t_id (match e with LBreak r => r | _ => [] end) = map t_id rest).
  { destruct e; [destruct Q4 as [-> _]; auto|destruct Q4 as [-> _]; auto|destruct Q4 as [[x X] _]; discriminate]. }
  assert (Rin : forall t, In t rest -> In t (match e with LBreak r => r | _ => [] end)).
  { destruct e; [destruct Q4 as [-> _]; auto|destruct Q4 as [-> _]; auto|destruct Q4 as [[x X] _]; discriminate]. }
  assert (K2 : keys s2 = map t_id ran).
  { unfold keys. rewrite (proj1 (l_res _ _ T2)). apply (s_keys _ _ _ Q3). }
  assert (Base3 : st_test s3 = st_test s /\ st_result s3 = st_result s) by (rewrite U4, U5; exact Base).
  (* the general shape of the final state *)
  assert (Mk : forall s4 o4 le, o4 <> OFuel -> st_trace s4 = st_trace s2 ++ le -> forallb benign le = true ->
     st_idx s4 = st_idx s2 -> st_nidx s4 = st_nidx s2 -> st_results s4 = st_results s3 -> st_global s4 = st_global s3 ->
     (o4 = ONormal -> o3 = ONormal) ->
     (rest <> [] -> cause E (st_trace s2)) ->
     (o4 = ONormal -> cause E (st_trace s2) \/ In EvComplete le) ->
     (In EvComplete le -> rest = []) ->
     (((exists op, files None (st_trace s4) = Some op) \/ surplus (st_trace s4)) /\
      (o4 = ONormal -> files None (st_trace s4) = Some None \/ surplus (st_trace s4)) /\
      (In EvComplete (st_trace s4) -> files None (st_trace s4) = Some None)) ->
     Fin ts s4 o4).
  { intros s4 o4 le V0 V1 V2 V3 V4 V5 V11 V6 V7 V8 V9 V10. constructor; [|auto|congruence].
    exists ran, rest. split; auto. split; [rewrite V1; apply Tr_benign; auto|]. split; [rewrite V3, V4; auto|].
    split; [intros; rewrite V1; apply cause_app; auto|]. split.
    - intros Z _. destruct (U6 (V6 Z)) as (K3 & _ & K5). split; [|split].
      + unfold keys in *. rewrite V5, K3, K2, R2, Q1, map_app. reflexivity.
      + intros t Ht. destruct (K5 t (Rin t Ht)) as (r & X & Y). exists r. rewrite V5. auto.
      + destruct (V8 Z); [left; rewrite V1; apply cause_app; auto|right; rewrite V1; apply in_or_app; auto].
    - rewrite V1. intros X. apply in_app_or in X as [X|X]; auto. contradiction. }
  destruct e as [|r|].
  - destruct Q4 as (-> & _ & Fs).
    assert (F2' : files None (st_trace s2) = Some None) by (rewrite L1; apply files_ext; auto).
    destruct o3; [|inversion Emk; fail|contradiction].
    assert (H' : (emit EvComplete s3, ONormal) = (s', o)) by (destruct last; exact H).
    inversion H'; subst s' o. split; [|split; [discriminate|exact Base3]].
    assert (FF : files None (st_trace (emit EvComplete s3)) = Some None).
    { cbn [emit st_trace]. rewrite U1. apply files_ext; auto. }
    apply (Mk (emit EvComplete s3) ONormal [EvComplete]); auto; try discriminate; try (intros; contradiction).
    + cbn [emit st_trace]. rewrite U1. auto.
    + intros _. right. left. auto.
    + split; eauto.
  - destruct Q4 as (-> & _ & Cs & Fs & f & -> & Fl).
    assert (Cs2 : cause E (st_trace s2)) by (rewrite L1; apply cause_app; auto).
    destruct o3; [| |contradiction].
    + inversion H; subst s' o. split; [|split; [discriminate|exact Base3]].
      assert (FF : files None (st_trace (emit (EvFileEnd f) s3)) = Some None \/ surplus (st_trace (emit (EvFileEnd f) s3))).
      { cbn [emit st_trace]. rewrite U1. destruct (expect (Some f) rest) as [g|] eqn:Ex.
        - left. rewrite files_app, L1, (files_ext (Some g)); auto. cbn [files].
          assert (g = f) by (unfold expect in Ex; destruct rest; [discriminate|]; destruct (Nat.eqb _ _); inversion Ex; auto).
          subst g. rewrite Nat.eqb_refl. auto.
        - right. destruct (Fl eq_refl) as (tr0 & Ft). exists (st_trace s2), f, []. split; auto. split; auto.
          split; [rewrite L1; apply files_ext; auto|]. exists tr0, l2. rewrite L1, Ft, <- app_assoc. auto. }
      apply (Mk (emit (EvFileEnd f) s3) ONormal [EvFileEnd f]); auto; try discriminate.
      * cbn [emit st_trace]. rewrite U1. auto.
      * intros [X|[]]. discriminate.
      * split; [destruct FF; eauto|]. split; auto.
        cbn [emit st_trace]. rewrite U1. intros X. apply in_app_or in X as [X|[X|[]]]; [contradiction|discriminate].
    + inversion H; subst s' o. split; [|split; [discriminate|exact Base3]].
      apply (Mk s3 (ORaise x) []); auto; try discriminate; try (intros; contradiction).
      * rewrite app_nil_r. auto.
      * split; [left; eexists; rewrite U1, L1; apply files_ext; [auto|exact Fs]|]. split; [discriminate|].
        rewrite U1. intros; contradiction.
  - destruct Q4 as [[x X] _]. discriminate.
Qed.

(** ** The session *)

Lemma Fin_unrun ts s o : o <> ONormal -> Tr E [] (st_trace s) -> st_idx s = [] -> st_nidx s = 0 ->
  files None (st_trace s) = Some None -> ~ In EvComplete (st_trace s) -> r_started (st_global s) = true -> Fin ts s o.
Proof.
  intros Ho HT H1 H2 HF HC HG. constructor; [| |exact HG].
  - exists [], ts. simpl. split; auto. split; auto. split; auto. split; [intros; contradiction|]. split; [intros; contradiction|].
    intros; contradiction.
  - intros _. split; [eauto|]. split; [intros; contradiction|auto].
Qed.

Lemma session_Fin ts s' o : run_session E ts = (s', o) -> Fin ts s' o /\ o <> OFuel.
Proof.
  intros H. pose proof (safe_session E ts) as [_ Hf]. rewrite H in Hf. cbn [snd] in Hf. split; auto.
  unfold run_session, started_context in H. fold preamble in H. fold closing in H.
  unfold seq at 1 in H. destruct (cm_push SSessionGlobal state0) as [sa oa] eqn:Ea.
  assert (Ta : tail state0 sa) by (apply frame_tail; eapply frame_of; [apply relf_cm_push|exact Ea]).
  assert (Wa : W E [] sa) by (pose proof (presW_cm_push E [] SSessionGlobal state0 (W_state0 E)) as X; rewrite Ea in X; exact X).
  assert (Ia : inv0 sa) by (pose proof (safe_cm_push SSessionGlobal state0 inv0_state0) as [X _]; rewrite Ea in X; exact X).
  assert (oa = ONormal) by (unfold cm_push in Ea; inversion Ea; auto). subst oa.
  unfold seq at 1, upd at 1 in H. set (sb := set_ss false sa) in *.
  assert (Tb : tail state0 sb) by (eapply tail_trans; [exact Ta|apply (relt_set_ss false sa)]).
  assert (Wb : W E [] sb).
  { eapply W_wstep; [|exact Wa]. constructor; try reflexivity; [apply incl_refl|exists []; rewrite app_nil_r; auto]. }
  assert (Ib : inv0 sb).
  { pose proof (safe_n (set_ss false)) as X. apply X; [intros z; nfield|exact Ia]. }
  clearbody sb. clear sa Ea Ta Wa Ia.
  unfold finally in H.
  match type of H with context[except_ interruption_types ?b ?h sb] => destruct (except_ interruption_types b h sb) as [sc oc] eqn:Eb end.
  assert (Hoc : oc <> OFuel) by (intros ->; inversion H; subst; contradiction).
  assert (Fc : Fin ts sc oc).
  { clear H. unfold except_ at 1 in Eb. unfold seq at 1 in Eb.
    destruct (preamble sb) as [sd od] eqn:Ep.
    assert (Td : tail state0 sd) by (eapply tail_trans; [exact Tb|]; pose proof (relt_preamble sb) as X; rewrite Ep in X; exact X).
    assert (Wd : W E [] sd).
    { assert (X : pres (W E []) preamble).
      { apply presW_handling. repeat first [apply presW_fire | apply pres_seq | apply presW_step; intros; constructor; try reflexivity; [apply incl_refl|exists []; rewrite app_nil_r; auto]]. }
      specialize (X sb Wb). rewrite Ep in X. exact X. }
    assert (Id : inv0 sd).
    { assert (X : safe inv0 preamble).
      { apply safe_handling0. apply safe_seq; [apply safe_fire|]. apply safe_seq; [apply safe_fire|].
        apply safe_seq; [apply safe_n; intros z; nfield|apply safe_fire]. }
      destruct (X sb Ib) as [Y _]. rewrite Ep in Y. exact Y. }
    destruct (l_trace _ _ Td) as (l & L1 & L2). simpl in L1. destruct (calm_benign l L2) as (L3 & L4 & L5).
    assert (Trd : Tr E [] (st_trace sd)).
    { rewrite L1. change l with ([] ++ l). apply Tr_benign; auto. constructor.
      - reflexivity.
      - constructor.
      - exists []. repeat split. constructor.
      - intros p t m q X. destruct p; discriminate.
      - intros p h t q X. destruct p; discriminate.
      - intros p t q X. destruct p; discriminate. }
    assert (Fd : files None (st_trace sd) = Some None) by (rewrite L1; apply files_nofile; auto).
    assert (Cd : ~ In EvComplete (st_trace sd)) by (rewrite L1; auto).
    assert (Ed : forall t, ~ In (EvReportEnd t) (st_trace sd)) by (rewrite L1; apply (benign_not l L3)).
    assert (Sd : St E [] sd).
    { constructor.
      - unfold keys. rewrite (proj1 (l_res _ _ Td)). reflexivity.
      - rewrite (l_idx _ _ Td). reflexivity.
      - intros _. rewrite (l_idx _ _ Td), (l_nidx _ _ Td). split; reflexivity.
      - rewrite (l_gst _ _ Td). reflexivity. }
    assert (Hd : forall oo, oo <> ONormal -> Fin ts sd oo).
    { intros oo Hoo. apply Fin_unrun; auto; [rewrite (l_idx _ _ Td); auto|rewrite (l_nidx _ _ Td); auto|apply (s_gst _ _ _ Sd)]. }
    assert (Hh : forall x se so, Fin ts se (ORaise x) -> (fire E HSessionInterrupt 0 ;; reraise x) se = (sc, so) -> so <> OFuel -> Fin ts sc so).
    { intros x se so HF Hx Hso. eapply Fin_tail; [exact HF| |].
      - assert (X : rel tail (fire E HSessionInterrupt 0 ;; reraise x)).
        { apply relt_seq; [apply relt_fire; reflexivity|]. intros z. apply tail_refl. }
        specialize (X se). rewrite Hx in X. exact X.
      - intros ->. unfold seq, reraise in Hx. destruct (fire E HSessionInterrupt 0 se) as [z [| y |]]; discriminate. }
    destruct od.
    - destruct (run_tests E ts sd) as [se oe] eqn:Er.
      destruct (run_tests_Fin ts sd se oe Er Wd Id Trd Sd Fd Cd Ed) as (Fe & Hoe & _).
      destruct oe; [inversion Eb; subst; auto| |contradiction].
      destruct (isinstance_any (x_kind x) interruption_types); [|inversion Eb; subst; auto].
      eapply Hh; eauto.
    - destruct (isinstance_any (x_kind x) interruption_types); [|inversion Eb; subst; apply Hd; discriminate].
      eapply Hh; eauto. apply Hd; discriminate.
    - inversion Eb; subst. contradiction. }
  destruct (closing sc) as [se oe] eqn:Ec.
  assert (Te : tail sc se) by (pose proof (relt_closing sc) as X; rewrite Ec in X; exact X).
  assert (s' = se /\ (o = ONormal -> oc = ONormal)) as [-> Ho].
  { destruct oc; destruct oe; inversion H; subst; auto; try (split; [auto|discriminate]); contradiction. }
  eapply Fin_tail; eauto.
Qed.

End S.
