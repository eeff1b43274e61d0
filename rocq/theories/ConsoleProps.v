(** C94: the line of a file on the console ends with FAIL if a test of the file
    has an error or a failure, and only then. *)

From Coq Require Import List Bool Arith PeanoNat Lia.
From Verif Require Import Events Core CoreSpec CoreBase CleanupSim SessionSim Frame Records RunnerSpec Runner RunLoop RunSession Console.
Import ListNotations.

(** ** The reporter by itself *)

(** does a call say that a test got an error or a failure? *)
Definition blames (k : call) : Prop :=
  exists t b, k = CErrorAdded (Some t) b \/ k = CFailureAdded (Some t) b.

(** a file starts or ends *)
Definition file_call (k : call) : Prop := exists f, k = CFileStart f \/ k = CFileEnd f.

Lemma steps_app l a b c : steps l (a ++ b) c = match steps l a c with Some c => steps l b c | None => None end.
Proof. revert c. induction a as [|k a IH]; intros c; simpl; auto. destruct (step l k c); auto. Qed.

Lemma steps_mid l ks : forall c a, (forall k, In k ks -> ~ file_call k) -> failed c = Some a ->
  exists c' b, steps l ks c = Some c' /\ failed c' = Some b /\ (b = true <-> a = true \/ exists k, In k ks /\ blames k) /\
    (skips c = None -> skips c' = None \/ skips c' = Some true) /\
    (forall z, skips c = Some z -> exists y, skips c' = Some y /\ (y = true <-> z = true \/ exists t, In (CSkipAdded t) ks)).
Proof.
  induction ks as [|k ks IH]; intros c a Hn Ha.
  { exists c, a. split; [reflexivity|]. split; [exact Ha|]. split; [split; [auto|intros [?|(k & [] & _)]; auto]|].
    split; [auto|]. intros z Hz. exists z. split; [exact Hz|]. split; [auto|intros [?|(t & [])]; auto]. }
  assert (Hn' : forall x, In x ks -> ~ file_call x) by (intros x Hx; apply Hn; right; exact Hx).
  assert (G : forall c1 a1, step l k c = Some c1 -> failed c1 = Some a1 ->
     (a1 = true <-> a = true \/ blames k) ->
     (skips c1 = skips c /\ (forall t, k <> CSkipAdded t) \/ skips c1 = Some true /\ exists t, k = CSkipAdded t) ->
     exists c' b, steps l (k :: ks) c = Some c' /\ failed c' = Some b /\ (b = true <-> a = true \/ exists x, In x (k :: ks) /\ blames x) /\
       (skips c = None -> skips c' = None \/ skips c' = Some true) /\
       (forall z, skips c = Some z -> exists y, skips c' = Some y /\ (y = true <-> z = true \/ exists t, In (CSkipAdded t) (k :: ks)))).
  { intros c1 a1 Hs Hf Hb Hk. destruct (IH c1 a1 Hn' Hf) as (c' & b & S1 & F1 & B1 & K1 & K2).
    exists c', b. cbn [steps]. rewrite Hs. split; [exact S1|]. split; [exact F1|]. split; [|split].
    - rewrite B1, Hb. split.
      + intros [[?|?]|(x & X & Y)]; auto; right; [exists k; simpl; auto|exists x; simpl; auto].
      + intros [?|(x & [<-|X] & Y)]; auto. right. exists x; auto.
    - intros Z. destruct Hk as [[Hk _]|[Hk _]].
      + apply K1. congruence.
      + destruct (K2 true Hk) as (y & Y1 & Y2). right. rewrite Y1. f_equal. apply Y2. auto.
    - intros z Z. destruct Hk as [[Hk Hne]|[Hk (t & ->)]].
      + destruct (K2 z) as (y & Y1 & Y2); [congruence|]. exists y. split; [exact Y1|]. rewrite Y2. split.
        * intros [?|(t & Ht)]; [auto|]. right. exists t. right. exact Ht.
        * intros [?|(t & [Ht|Ht])]; [auto|destruct (Hne t Ht)|]. right. exists t. exact Ht.
      + destruct (K2 true Hk) as (y & Y1 & Y2). exists y. split; [exact Y1|]. split; [|intros _; apply Y2; auto].
        intros _. right. exists t. left. reflexivity. }
  destruct k as [f|f| | |t|t b|t b]; cbn [step] in *.
  - exfalso. apply (Hn (CFileStart f)); [left; auto|]. exists f. auto.
  - exfalso. apply (Hn (CFileEnd f)); [left; auto|]. exists f. auto.
  - destruct (allows l NOTICE) eqn:El; cbn [step] in G; rewrite ?El in G;
      (eapply G; [reflexivity|cbn; exact Ha| |left; split; [reflexivity|intros ? ?; discriminate]]);
      (split; [auto|intros [?|(t & b & [?|?])]; [auto|discriminate|discriminate]]).
  - destruct (allows l NOTICE) eqn:El; cbn [step] in G; rewrite ?El in G;
      (eapply G; [reflexivity|cbn; exact Ha| |left; split; [reflexivity|intros ? ?; discriminate]]);
      (split; [auto|intros [?|(t & b & [?|?])]; [auto|discriminate|discriminate]]).
  - destruct (allows l NOTICE) eqn:El; cbn [step] in G; rewrite ?El in G;
      (eapply G; [reflexivity|cbn; exact Ha| |right; split; [reflexivity|eauto]]);
      (split; [auto|intros [?|(u & b & [?|?])]; [auto|discriminate|discriminate]]).
  - destruct t as [t|].
    + cbn [error_added] in G. destruct (allows l NOTICE) eqn:El; rewrite ?El in G;
        (eapply G; [reflexivity|cbn; reflexivity| |left; split; [reflexivity|intros ? ?; discriminate]]);
        (split; [intros _; right; exists t, b; auto|auto]).
    + cbn [error_added] in G. destruct b;
        (eapply G; [reflexivity|cbn; exact Ha| |left; split; [reflexivity|intros ? ?; discriminate]]);
        (split; [auto|intros [?|(u & b & [?|?])]; [auto|discriminate|discriminate]]).
  - destruct t as [t|].
    + cbn [error_added] in G. destruct (allows l NOTICE) eqn:El; rewrite ?El in G;
        (eapply G; [reflexivity|cbn; reflexivity| |left; split; [reflexivity|intros ? ?; discriminate]]);
        (split; [intros _; right; exists t, b; auto|auto]).
    + cbn [error_added] in G. destruct b;
        (eapply G; [reflexivity|cbn; exact Ha| |left; split; [reflexivity|intros ? ?; discriminate]]);
        (split; [auto|intros [?|(u & b & [?|?])]; [auto|discriminate|discriminate]]).
Qed.

(** At the verbosity at which files get lines, and for any calls: the line of a
    file ends with FAIL if a test was said to have an error or a failure since
    the file started, otherwise with PASS, in the colour of skips if a skip was
    added since then. *)
Theorem C94_line l ks f ms c c1 g :
  NOTICE < l -> l <= WARNING -> steps l ks con0 = Some c ->
  (forall k, In k ms -> ~ file_call k) -> steps l (CFileStart f :: ms) c = Some c1 ->
  exists c2, steps l (ks ++ CFileStart f :: ms ++ [CFileEnd g]) con0 = Some c2 /\
    ((exists k, In k ms /\ blames k) -> out c2 = out c1 ++ [WLineFail]) /\
    ((forall k, In k ms -> ~ blames k) -> exists b, out c2 = out c1 ++ [WLinePass b] /\ (b = true <-> exists t, In (CSkipAdded t) ms)).
Proof.
  intros H1 H2 Hc Hm Hs.
  assert (A1 : allows l NOTICE = false) by (apply Nat.leb_gt; exact H1).
  assert (A2 : allows l WARNING = true) by (apply Nat.leb_le; exact H2).
  cbn [steps] in Hs. destruct (step l (CFileStart f) c) as [c0|] eqn:E0; [|discriminate].
  assert (F0 : failed c0 = Some false /\ skips c0 = Some false).
  { cbn [step] in E0. rewrite A2, A1 in E0. inversion E0; subst. split; reflexivity. }
  destruct F0 as [F0 K0]. destruct (steps_mid l ms c0 false Hm F0) as (c' & b & S1 & FB & B1 & _ & K2).
  rewrite Hs in S1. inversion S1; subst c'. clear S1. destruct (K2 false K0) as (y & Y1 & Y2).
  assert (D : exists c2, step l (CFileEnd g) c1 = Some c2 /\ out c2 = out c1 ++ [if b then WLineFail else WLinePass y]).
  { cbn [step]. rewrite A2, A1, FB. destruct b; [eexists; split; reflexivity|]. rewrite Y1. eexists; split; reflexivity. }
  destruct D as (c2 & D1 & D2). exists c2. split.
  { rewrite steps_app, Hc. change (CFileStart f :: ms ++ [CFileEnd g]) with ((CFileStart f :: ms) ++ [CFileEnd g]).
    rewrite steps_app. cbn [steps]. rewrite E0, Hs. cbn [steps]. rewrite D1. reflexivity. }
  split.
  - intros X. rewrite D2. replace b with true; [reflexivity|]. symmetry. apply B1. auto.
  - intros X. exists y. split.
    + rewrite D2. destruct b; [|reflexivity]. destruct (proj1 B1 eq_refl) as [Z|(k & K & Kb)]; [discriminate|]. destruct (X k K Kb).
    + rewrite Y2. split; [intros [Z|Z]; [discriminate|exact Z]|auto].
Qed.

(** ** Where the events of a session lie *)

Section L.
Variable ts : list test.

(** Files and tests as they have to come: a test starts when no test is open,
    in the file started last, to which it belongs; files start and end between
    tests.  State: the file started last and the open test. *)
Fixpoint lay (st : option nat * option nat) (tr : list event) : option (option nat * option nat) :=
  match tr with
  | [] => Some st
  | EvFileStart f :: tr => match snd st with None => lay (Some f, None) tr | Some _ => None end
  | EvFileEnd f :: tr => match st with
                         | (Some g, None) => if Nat.eqb f g then lay st tr else None
                         | _ => None end
  | EvReportStart t :: tr => match st with
                             | (Some g, None) => if existsb (fun x => Nat.eqb (t_id x) t && Nat.eqb (t_file x) g) ts
                                                 then lay (Some g, Some t) tr else None
                             | _ => None end
  | EvReportEnd t :: tr => match snd st with
                           | Some u => if Nat.eqb t u then lay (fst st, None) tr else None
                           | None => None end
  | _ :: tr => lay st tr
  end.

Definition inert (e : event) : bool :=
  match e with EvFileStart _ | EvFileEnd _ | EvReportStart _ | EvReportEnd _ => false | _ => true end.

Lemma lay_app a b : forall st, lay st (a ++ b) = match lay st a with Some st => lay st b | None => None end.
Proof.
  induction a as [|e a IH]; intros st; [reflexivity|]. destruct e; cbn [lay app]; auto.
  - destruct (snd st); auto.
  - destruct st as [[g|] [u|]]; auto. destruct (Nat.eqb f g); auto.
  - destruct st as [[g|] [u|]]; auto. destruct (existsb _ _); auto.
  - destruct (snd st); auto. destruct (Nat.eqb _ _); auto.
Qed.

Lemma lay_inert l : forallb inert l = true -> forall st, lay st l = Some st.
Proof.
  induction l as [|e l IH]; intros H st; [reflexivity|]. cbn [forallb] in H. apply andb_true_iff in H as [H1 H2].
  destruct e; try discriminate; cbn [lay]; auto.
Qed.

Variable E : env.

Lemma calm_inert l : forallb calm l = true -> forallb inert l = true.
Proof.
  intros H. rewrite forallb_forall in *. intros e He. apply H in He. unfold calm in He. destruct e; auto; discriminate.
Qed.

Lemma shape_inert t l : shape t (filter loud l) -> forallb inert l = true.
Proof.
  intros H. apply shape_thook in H. rewrite forallb_forall in *. intros e He.
  destruct (loud e) eqn:El; [|destruct e; auto; discriminate].
  apply (loud_in l e El) in He. apply H in He. destruct e; auto; discriminate.
Qed.

Lemma lay_ext st st' a l : forallb inert l = true -> lay st a = Some st' -> lay st (a ++ l) = Some st'.
Proof. intros H A. rewrite lay_app, A. apply lay_inert; exact H. Qed.

Definition start0 : option nat * option nat := (None, None).

Lemma loop_lay us : forall last s, incl us ts -> W E [] s -> sum_ok (st_trace s) ->
  lay start0 (st_trace s) = Some (last, None) ->
  forall s' o e last', run_loop E last us s = (s', o, e, last') -> o <> OFuel ->
  (exists st, lay start0 (st_trace s') = Some st) /\ (o = ONormal -> lay start0 (st_trace s') = Some (last', None)).
Proof.
  induction us as [|t rest IH]; intros last s Hin HW HS HL s' o e last' H Ho.
  { cbn in H. inversion H; subst. split; eauto. }
  cbn [run_loop] in H. destruct (set_metadata E (t_id t) s) as [s1 o1] eqn:Em.
  assert (M : st_trace s1 = st_trace s) by (unfold set_metadata in Em; destruct (lookup _ _); [inversion Em; subst; auto|]; destruct (e_worker E); inversion Em; subst; auto).
  assert (HW1 : W E [] s1) by (pose proof (presW_metadata E [] (t_id t) s HW) as X; rewrite Em in X; exact X).
  destruct o1; try (inversion H; subst; rewrite M; split; [eauto|intros; discriminate]).
  set (sf := if file_differs last (t_file t) then emit (EvFileStart (t_file t)) s1 else s1) in *.
  set (s2 := emit (EvReportStart (t_id t)) sf) in *.
  assert (Lf : lay start0 (st_trace sf) = Some (Some (t_file t), None)).
  { unfold sf. destruct (file_differs last (t_file t)) eqn:Ed.
    - cbn [emit st_trace]. rewrite lay_app, M, HL. reflexivity.
    - rewrite M, HL. unfold file_differs, opt_eqb in Ed. destruct last as [g|]; [|discriminate].
      apply negb_false_iff, Nat.eqb_eq in Ed. subst g. reflexivity. }
  assert (HW2 : W E [] s2) by (unfold s2, sf; destruct (file_differs _ _); repeat (apply W_emit; [reflexivity|]); auto).
  assert (HS2 : sum_ok (st_trace s2)).
  { unfold s2, sf. destruct (file_differs _ _); cbn [emit st_trace]; repeat apply sum_ok_app; try (rewrite M; exact HS); intros h u [X|[]]; discriminate. }
  assert (L2 : lay start0 (st_trace s2) = Some (Some (t_file t), Some (t_id t))).
  { unfold s2. cbn [emit st_trace]. rewrite lay_app, Lf. cbn [lay].
    replace (existsb _ ts) with true; [reflexivity|]. symmetry. apply existsb_exists. exists t.
    split; [apply Hin; left; auto|]. rewrite !Nat.eqb_refl. reflexivity. }
  destruct (run_single E t (nonempty rest) s2) as [s3 o3] eqn:Er.
  pose proof (presW_run_single E [] t (nonempty rest) s2 HW2) as HW3. rewrite Er in HW3. cbn [fst] in HW3.
  assert (Ho3 : o3 <> OFuel) by (intros ->; inversion H; subst; contradiction).
  pose proof (single_spec E [] t (nonempty rest) s2 s3 o3 HW2 HS2 Er Ho3) as G.
  destruct (g_trace _ _ _ _ G) as (L & l & T1 & T2 & T3 & _). subst L.
  pose proof (lay_ext _ _ _ _ (shape_inert _ _ T3) L2) as L3. rewrite <- T1 in L3.
  destruct o3 as [|x|]; [|inversion H; subst; split; [eauto|intros; discriminate]|contradiction].
  set (s4 := emit (EvReportEnd (t_id t)) s3) in *.
  assert (L4 : lay start0 (st_trace s4) = Some (Some (t_file t), None)).
  { unfold s4. cbn [emit st_trace]. rewrite lay_app, L3. cbn [lay fst snd]. rewrite Nat.eqb_refl. reflexivity. }
  assert (Le : lay start0 (st_trace (emit (EvFileEnd (t_file t)) s4)) = Some (Some (t_file t), None)).
  { cbn [emit st_trace]. cbn [emit st_trace] in L4. rewrite lay_app, L4. cbn [lay]. rewrite Nat.eqb_refl. reflexivity. }
  set (s5 := match rest with [] => emit (EvFileEnd (t_file t)) s4
             | t' :: _ => if Nat.eqb (t_file t') (t_file t) then s4 else emit (EvFileEnd (t_file t)) s4 end) in *.
  assert (L5 : lay start0 (st_trace s5) = Some (Some (t_file t), None)).
  { unfold s5. destruct rest as [|t' rest']; [exact Le|]. destruct (Nat.eqb _ _); [exact L4|exact Le]. }
  assert (HW5 : W E [] s5).
  { assert (X : W E [] s4) by (apply W_emit; [reflexivity|exact HW3]).
    unfold s5. destruct rest as [|t' rest']; [apply W_emit; [reflexivity|exact X]|]. destruct (Nat.eqb _ _); [exact X|apply W_emit; [reflexivity|exact X]]. }
  assert (HS5 : sum_ok (st_trace s5)).
  { assert (X : sum_ok (st_trace s4)) by (unfold s4; cbn [emit st_trace]; apply sum_ok_app; [apply (g_sum _ _ _ _ G)|intros h u [Y|[]]; discriminate]).
    assert (Y : sum_ok (st_trace (emit (EvFileEnd (t_file t)) s4))) by (cbn [emit st_trace]; apply sum_ok_app; [exact X|intros h u [Z|[]]; discriminate]).
    unfold s5. destruct rest as [|t' rest']; [exact Y|]. destruct (Nat.eqb _ _); [exact X|exact Y]. }
  assert (Done : forall ee, (s5, ONormal, ee, Some (t_file t)) = (s', o, e, last') ->
    (exists st, lay start0 (st_trace s') = Some st) /\ (o = ONormal -> lay start0 (st_trace s') = Some (last', None))).
  { intros ee X. inversion X; subst. split; eauto. }
  repeat match type of H with context[if ?b then _ else _] => destruct b end; eauto.
  eapply (IH (Some (t_file t)) s5); eauto. intros x Hx. apply Hin. right. exact Hx.
Qed.

Definition laid (s : state) : Prop := exists st, lay start0 (st_trace s) = Some st.

Lemma laid_tail s s' : tail s s' -> laid s -> laid s'.
Proof. intros T (st & H). destruct (l_trace _ _ T) as (l & L1 & L2). exists st. rewrite L1. apply lay_ext; [apply calm_inert; exact L2|exact H]. Qed.

Lemma run_tests_lay s : W E [] s -> sum_ok (st_trace s) -> lay start0 (st_trace s) = Some start0 ->
  snd (run_tests E ts s) <> OFuel -> laid (fst (run_tests E ts s)).
Proof.
  intros HW HS HL Ho. unfold run_tests in *. destruct (run_loop E None ts s) as [[[s1 o1] e] last] eqn:El.
  assert (Ho1 : o1 <> OFuel) by (intros ->; apply Ho; reflexivity).
  destruct (loop_lay ts None s (incl_refl _) HW HS HL s1 o1 e last El Ho1) as (X & Y).
  assert (T2 : tail s1 (fst ((if e_worker E then ret else initiate_cleanup E) s1))).
  { destruct (e_worker E); [apply tail_refl|]. apply frame_tail, relf_initiate. }
  destruct ((if e_worker E then ret else initiate_cleanup E) s1) as [s2 o2] eqn:Ei. cbn [fst] in T2.
  pose proof (laid_tail _ _ T2 X) as X2.
  destruct o1 as [|x|]; [|destruct o2; exact X2|contradiction].
  destruct o2 as [|x|]; [|exact X2|exact X2].
  destruct (e_worker E); [exact X2|]. unfold seq.
  destruct (mark_unrun (match e with LBreak r => r | _ => [] end) s2) as [s3 o3] eqn:Em.
  destruct (mark_unrun_spec _ _ _ _ Em) as ((U1 & U2) & _).
  assert (T3 : lay start0 (st_trace s3) = Some (last, None)).
  { destruct (l_trace _ _ T2) as (l & A & B). rewrite U1, A. apply lay_ext; [apply calm_inert; exact B|]. apply Y; reflexivity. }
  assert (X3 : laid s3) by (eexists; exact T3).
  destruct o3; [|exact X3|exact X3].
  destruct e as [|r|]; [| |].
  - cbn [upd fst]. exists (last, None). cbn [emit st_trace]. rewrite lay_app, T3. reflexivity.
  - destruct last as [f|]; [|exact X3]. cbn [upd fst]. exists (Some f, None). cbn [emit st_trace]. rewrite lay_app, T3. cbn [lay]. rewrite Nat.eqb_refl. reflexivity.
  - destruct last as [f|]; [|exact X3]. cbn [upd fst]. exists (Some f, None). cbn [emit st_trace]. rewrite lay_app, T3. cbn [lay]. rewrite Nat.eqb_refl. reflexivity.
Qed.

Lemma session_lay : laid (fst (run_session E ts)).
Proof.
  pose proof (session_Fin E ts _ _ (surjective_pairing _)) as [_ Hf]. revert Hf.
  unfold run_session, started_context. fold (preamble E). fold (closing E).
  unfold finally, except_, upd, seq. destruct (cm_push SSessionGlobal state0) as [sa oa] eqn:Ea.
  assert (Wa : W E [] sa) by (pose proof (presW_cm_push E [] SSessionGlobal state0 (W_state0 E)) as X; rewrite Ea in X; exact X).
  assert (Ta : tail state0 sa) by (apply frame_tail; eapply frame_of; [apply relf_cm_push|exact Ea]).
  assert (oa = ONormal) by (unfold cm_push in Ea; inversion Ea; auto). subst oa. set (sb := set_ss false sa).
  assert (Tb : tail state0 sb) by (eapply tail_trans; [exact Ta|apply (relt_set_ss false sa)]).
  assert (Wb : W E [] sb).
  { eapply W_wstep; [|exact Wa]. constructor; try reflexivity; [apply incl_refl|exists []; rewrite app_nil_r; auto]. }
  clearbody sb.
  destruct (preamble E sb) as [sd od] eqn:Ep.
  assert (Wd : W E [] sd).
  { assert (X : pres (W E []) (preamble E)).
    { apply presW_handling. repeat first [apply presW_fire | apply pres_seq | apply presW_step; intros; constructor; try reflexivity; [apply incl_refl|exists []; rewrite app_nil_r; auto]]. }
    specialize (X sb Wb). rewrite Ep in X. exact X. }
  assert (Td : tail state0 sd) by (eapply tail_trans; [exact Tb|]; pose proof (relt_preamble E sb) as X; rewrite Ep in X; exact X).
  destruct (l_trace _ _ Td) as (l & L1 & L2). simpl in L1.
  assert (Sd : sum_ok (st_trace sd)).
  { destruct (calm_benign l L2) as (L3 & _).
    rewrite L1. change l with ([] ++ l). apply sum_ok_app; [intros p h t q X; destruct p; discriminate|].
    intros h t Hin. rewrite forallb_forall in L3. apply L3 in Hin. destruct h; simpl in *; auto; discriminate. }
  assert (Ld : lay start0 (st_trace sd) = Some start0) by (rewrite L1; apply lay_inert, calm_inert; exact L2).
  assert (Ad : laid sd) by (eexists; exact Ld).
  assert (C : forall z, laid z -> laid (fst (closing E z))) by (intros z; apply laid_tail, relt_closing).
  assert (F : forall x z, laid z -> laid (fst ((fire E HSessionInterrupt 0 ;; reraise x) z))).
  { intros x z. apply laid_tail. assert (X : rel tail (fire E HSessionInterrupt 0 ;; reraise x)).
    { apply relt_seq; [apply relt_fire; reflexivity|]. intros y; apply tail_refl. } apply X. }
  unfold seq in F.
  destruct od as [|x|].
  - intros Hf. destruct (run_tests E ts sd) as [se oe] eqn:Er.
    assert (Hoe : oe <> OFuel) by (intros ->; apply Hf; reflexivity).
    assert (Ae : laid se).
    { pose proof (run_tests_lay sd Wd Sd Ld) as X. rewrite Er in X. apply X. exact Hoe. }
    clear Hf. destruct oe as [|x|]; [| |contradiction].
    + specialize (C se Ae). destruct (closing E se) as [z [| y |]]; exact C.
    + destruct (isinstance_any (x_kind x) interruption_types).
      * specialize (F x se Ae). destruct (fire E HSessionInterrupt 0 se) as [y oy]. unfold reraise in *.
        destruct oy; cbn [fst] in F; [| |exact F]; specialize (C y F); destruct (closing E y) as [z [| w |]]; exact C.
      * specialize (C se Ae). destruct (closing E se) as [z [| y |]]; exact C.
  - intros _. destruct (isinstance_any (x_kind x) interruption_types).
    + specialize (F x sd Ad). destruct (fire E HSessionInterrupt 0 sd) as [y oy]. unfold reraise in *.
      destruct oy; cbn [fst] in F; [| |exact F]; specialize (C y F); destruct (closing E y) as [z [| w |]]; exact C.
    + specialize (C sd Ad). destruct (closing E sd) as [z [| y |]]; exact C.
  - intros _. exact Ad.
Qed.

End L.

(** ** The lines of a session *)

(** the test whose start, but not whose end, was reported *)
Fixpoint opened (cur : option nat) (tr : list event) : option nat :=
  match tr with
  | [] => cur
  | EvReportStart t :: tr => opened (Some t) tr
  | EvReportEnd _ :: tr => opened None tr
  | _ :: tr => opened cur tr
  end.

(** errors and failures *)
Definition bad (k : rkind) : Prop := k = RKError \/ k = RKFailure.

(** Every error or failure was recorded on the test running at that moment, and
    on the session only when no test ran *)
Definition own (tr : list event) : Prop := forall p r k src fl q,
  tr = p ++ EvRecord r k src fl :: q -> bad k ->
  match r with RTest t => opened None p = Some t | RGlobal => opened None p = None end.

Lemma opened_app a b : forall cur, opened cur (a ++ b) = opened (opened cur a) b.
Proof. induction a as [|e a IH]; intros cur; [reflexivity|]. destruct e; cbn; auto. Qed.

Lemma told_app a b : forall cur, told cur (a ++ b) = told cur a ++ told (opened cur a) b.
Proof.
  induction a as [|e a IH]; intros cur; [reflexivity|]. destruct e; cbn [told opened app]; rewrite ?IH; auto.
  destruct k; cbn [app]; rewrite ?IH; auto.
Qed.

Lemma opened_lay ts tr : forall st st', lay ts st tr = Some st' -> opened (snd st) tr = snd st'.
Proof.
  induction tr as [|e tr IH]; intros st st' H; [inversion H; reflexivity|]. destruct e; cbn [lay opened] in *; auto.
  - destruct (snd st) eqn:Es; [discriminate|]. apply IH in H. exact H.
  - destruct st as [[g|] [u|]]; try discriminate. destruct (Nat.eqb f g); [|discriminate]. apply IH in H. exact H.
  - destruct st as [[g|] [u|]]; try discriminate. destruct (existsb _ _); [|discriminate]. apply IH in H. exact H.
  - destruct (snd st); [|discriminate]. destruct (Nat.eqb _ _); [|discriminate]. apply IH in H. exact H.
Qed.

Lemma opened_start tr t : opened None tr = Some t ->
  exists a b, tr = a ++ EvReportStart t :: b /\ forall u, ~ In (EvReportEnd u) b.
Proof.
  assert (G : forall cur, opened cur tr = Some t ->
    (cur = Some t /\ forall u, ~ In (EvReportEnd u) tr) \/ exists a b, tr = a ++ EvReportStart t :: b /\ forall u, ~ In (EvReportEnd u) b).
  { induction tr as [|e tr IH]; intros cur H; [left; split; [exact H|intros u []]|].
    assert (K : forall c, opened c tr = Some t -> (forall u, e <> EvReportEnd u) ->
       (c = Some t -> e = EvReportStart t \/ c = cur) ->
      (cur = Some t /\ (forall u, ~ In (EvReportEnd u) (e :: tr))) \/ exists a b, e :: tr = a ++ EvReportStart t :: b /\ forall u, ~ In (EvReportEnd u) b).
    { intros c Hc He Hd. destruct (IH c Hc) as [[X Y]|(a & b & X & Y)].
      - destruct (Hd X) as [->|Z]; [right; exists [], tr; auto|]. left. split; [congruence|].
        intros u [Z'|Z']; [destruct (He u Z')|apply (Y u Z')].
      - right. exists (e :: a), b. split; [rewrite X; reflexivity|exact Y]. }
    destruct e; cbn [opened] in H; try (apply (K cur); [exact H|intros ? ?; discriminate|auto]; fail).
    - apply (K (Some t0)); [exact H|intros ? ?; discriminate|]. intros X. inversion X; auto.
    - destruct (IH None H) as [[X _]|(a & b & X & Y)]; [discriminate|]. right. exists (EvReportEnd t0 :: a), b. split; [rewrite X; reflexivity|exact Y]. }
  intros H. destruct (G None H) as [[X _]|X]; [discriminate|exact X].
Qed.

Lemma lay_closes ts tr : forall f t st', lay ts (f, Some t) tr = Some st' -> snd st' = None -> In (EvReportEnd t) tr.
Proof.
  induction tr as [|e tr IH]; intros f t st' H Hn; [inversion H; subst; discriminate|].
  destruct e; cbn [lay snd fst] in H; try discriminate; try (right; eapply IH; eauto; fail).
  - destruct f; discriminate.
  - destruct f; discriminate.
  - destruct (Nat.eqb_spec t0 t) as [->|]; [left; reflexivity|discriminate].
Qed.

(** no AttributeError *)
Lemma steps_lay l ts tr : forall st st' c, lay ts st tr = Some st' ->
  (allows l WARNING = true -> fst st <> None -> failed c <> None /\ skips c <> None) ->
  exists c', steps l (told (snd st) tr) c = Some c' /\
    (allows l WARNING = true -> fst st' <> None -> failed c' <> None /\ skips c' <> None).
Proof.
  induction tr as [|e tr IH]; intros st st' c H Hc; [inversion H; subst; exists c; auto|].
  assert (K : forall k z st1, steps l (k :: told (snd st1) tr) c = steps l (told (snd st1) tr) z ->
     lay ts st1 tr = Some st' -> (allows l WARNING = true -> fst st1 <> None -> failed z <> None /\ skips z <> None) ->
     exists c', steps l (k :: told (snd st1) tr) c = Some c' /\
       (allows l WARNING = true -> fst st' <> None -> failed c' <> None /\ skips c' <> None)).
  { intros k z st1 E1 E2 E3. rewrite E1. apply IH; auto. }
  destruct e; cbn [lay] in H; cbn [told]; try (apply IH; auto; fail).
  - destruct k; try (apply IH; auto; fail).
    + apply (K _ (error_added l (snd st) false false c) st); [reflexivity|exact H|]. intros A B. specialize (Hc A B).
      unfold error_added. destruct (snd st); [|exact Hc]. destruct (allows l NOTICE); cbn; split; try discriminate; tauto.
    + apply (K _ (error_added l (snd st) false true c) st); [reflexivity|exact H|]. intros A B. specialize (Hc A B).
      unfold error_added. destruct (snd st); [|exact Hc]. destruct (allows l NOTICE); cbn; split; try discriminate; tauto.
    + eapply (K _ _ st); [cbn [steps step]; reflexivity|exact H|]. intros A B. specialize (Hc A B).
      destruct (allows l NOTICE); cbn; split; try discriminate; tauto.
  - destruct (snd st) eqn:Es; [discriminate|]. change (told None tr) with (told (snd (Some f, @None nat)) tr).
    destruct (allows l WARNING) eqn:Ew.
    + eapply (K _ _ (Some f, None)); [cbn [steps step]; rewrite Ew; reflexivity|exact H|].
      intros _ _. destruct (allows l NOTICE); cbn; split; discriminate.
    + apply (K _ c (Some f, None)); [cbn [steps step]; rewrite Ew; reflexivity|exact H|intros; discriminate].
  - destruct st as [[g|] [u|]]; try discriminate. destruct (Nat.eqb f g); [|discriminate]. cbn [snd] in *.
    change (told None tr) with (told (snd (Some g, @None nat)) tr).
    destruct (allows l WARNING) eqn:Ew.
    + destruct (Hc eq_refl) as [A B]; [discriminate|]. destruct (failed c) as [b|] eqn:Ef; [|contradiction]. destruct (skips c) as [b'|] eqn:Ek; [|contradiction].
      destruct (allows l NOTICE) eqn:En.
      * apply (K _ c (Some g, None)); [cbn [steps step]; rewrite Ew, En; reflexivity|exact H|]. intros _ _. rewrite Ef, Ek. split; discriminate.
      * destruct b.
        -- apply (K _ (put [WLineFail] c) (Some g, None)); [cbn [steps step]; rewrite Ew, En, Ef; reflexivity|exact H|].
           intros _ _. cbn. rewrite Ef, Ek. split; discriminate.
        -- apply (K _ (put [WLinePass b'] c) (Some g, None)); [cbn [steps step]; rewrite Ew, En, Ef, Ek; reflexivity|exact H|].
           intros _ _. cbn. rewrite Ef, Ek. split; discriminate.
    + apply (K _ c (Some g, None)); [cbn [steps step]; rewrite Ew; reflexivity|exact H|intros; discriminate].
  - destruct st as [[g|] [u|]]; try discriminate. destruct (existsb _ _); [|discriminate].
    exact (IH (Some g, Some t) st' c H Hc).
  - destruct (snd st); [|discriminate]. destruct (Nat.eqb _ _); [|discriminate]. exact (IH (fst st, None) st' c H Hc).
Qed.

Lemma told_blame m : forall cur,
  (exists k, In k (told cur m) /\ blames k) <->
  exists m1 r k src fl m2 t, m = m1 ++ EvRecord r k src fl :: m2 /\ bad k /\ opened cur m1 = Some t.
Proof.
  induction m as [|e m IH]; intros cur.
  { split; [intros (k & [] & _)|intros (m1 & r & k & src & fl & m2 & t & X & _); destruct m1; discriminate]. }
  assert (Z : forall c, (forall x, In x (told cur (e :: m)) <-> In x (told c m)) \/
                        (exists h, ~ blames h /\ told cur (e :: m) = h :: told c m) ->
     opened cur (e :: m) = opened c m -> (forall m1, opened cur (e :: m1) = opened c m1) ->
     (forall r k src fl, e = EvRecord r k src fl -> ~ bad k \/ cur = None) ->
     ((exists k, In k (told cur (e :: m)) /\ blames k) <->
      exists m1 r k src fl m2 t, e :: m = m1 ++ EvRecord r k src fl :: m2 /\ bad k /\ opened cur m1 = Some t)).
  { intros c Ht _ Ho He.
    assert (L : (exists k, In k (told cur (e :: m)) /\ blames k) <-> exists k, In k (told c m) /\ blames k).
    { destruct Ht as [Ht|(h & Hh & Ht)].
      - split; intros (k & A & B); exists k; split; auto; apply Ht; auto.
      - rewrite Ht. split; [intros (k & [<-|A] & B); [contradiction|exists k; auto]|intros (k & A & B); exists k; split; [right; exact A|exact B]]. }
    rewrite L, IH. split.
    - intros (m1 & r & k & src & fl & m2 & t & X & Y & O). exists (e :: m1), r, k, src, fl, m2, t.
      split; [rewrite X; reflexivity|]. split; [exact Y|]. rewrite Ho. exact O.
    - intros (m1 & r & k & src & fl & m2 & t & X & Y & O). destruct m1 as [|e' m1].
      + cbn [app] in X. inversion X as [[X1 X2]]. destruct (He _ _ _ _ X1) as [C|C]; [contradiction|]. cbn in O. congruence.
      + cbn [app] in X. injection X as X1 X2. subst e'. exists m1, r, k, src, fl, m2, t. split; [exact X2|]. split; [exact Y|]. rewrite <- Ho. exact O. }
  assert (Skip : forall c, told cur (e :: m) = told c m -> (forall m1, opened cur (e :: m1) = opened c m1) ->
     (forall r k src fl, e = EvRecord r k src fl -> ~ bad k \/ cur = None) ->
     ((exists k, In k (told cur (e :: m)) /\ blames k) <->
      exists m1 r k src fl m2 t, e :: m = m1 ++ EvRecord r k src fl :: m2 /\ bad k /\ opened cur m1 = Some t)).
  { intros c A B C. apply (Z c); auto. left. intros x. rewrite A. tauto. }
  assert (Nb : forall h, (h = CFileStart 0 \/ True) -> (forall t b, h <> CErrorAdded (Some t) b) -> (forall t b, h <> CFailureAdded (Some t) b) -> ~ blames h).
  { intros h _ A B (t & b & [X|X]); [apply (A t b X)|apply (B t b X)]. }
  destruct e; try (apply (Skip cur); [reflexivity|reflexivity|intros ? ? ? ? X; discriminate]; fail).
  - destruct k; try (apply (Skip cur); [reflexivity|reflexivity|intros ? ? ? ? X; inversion X; subst; left; intros [Y|Y]; discriminate]; fail).
    + destruct cur as [t|].
      * split; [intros _; exists [], r, RKError, src, fatal, m, t; repeat split; left; reflexivity|].
        intros _. exists (CErrorAdded (Some t) false). split; [left; reflexivity|]. exists t, false. auto.
      * apply (Z None); auto. right. exists (CErrorAdded None false). split; [apply Nb; auto; intros; discriminate|reflexivity].
    + destruct cur as [t|].
      * split; [intros _; exists [], r, RKFailure, src, fatal, m, t; repeat split; right; reflexivity|].
        intros _. exists (CFailureAdded (Some t) false). split; [left; reflexivity|]. exists t, false. auto.
      * apply (Z None); auto. right. exists (CFailureAdded None false). split; [apply Nb; auto; intros; discriminate|reflexivity].
    + apply (Z cur); auto.
      * right. exists (CSkipAdded cur). split; [apply Nb; auto; intros; discriminate|reflexivity].
      * intros ? ? ? ? X. inversion X; subst. left. intros [Y|Y]; discriminate.
  - apply (Z cur); auto; [|intros ? ? ? ? X; discriminate]. right. exists (CFileStart f). split; [apply Nb; auto; intros; discriminate|reflexivity].
  - apply (Z cur); auto; [|intros ? ? ? ? X; discriminate]. right. exists (CFileEnd f). split; [apply Nb; auto; intros; discriminate|reflexivity].
  - apply (Skip (Some t)); [reflexivity|reflexivity|intros ? ? ? ? X; discriminate].
  - apply (Skip None); [reflexivity|reflexivity|intros ? ? ? ? X; discriminate].
Qed.

Lemma told_nofile m : forallb nofile m = true -> forall cur k, In k (told cur m) -> ~ file_call k.
Proof.
  induction m as [|e m IH]; intros H cur k Hk; [destruct Hk|]. cbn [forallb] in H. apply andb_true_iff in H as [H1 H2].
  destruct e; try discriminate; cbn [told] in Hk; eauto.
  destruct k0; eauto; destruct Hk as [<-|Hk]; eauto; intros (f & [X|X]); discriminate.
Qed.

Lemma split_unique tr t x y a z : NoDup (report_starts tr) ->
  tr = x ++ EvReportStart t :: y -> tr = a ++ EvReportStart t :: z -> x = a /\ y = z.
Proof.
  intros N A B. revert x a N A B. induction tr as [|e tr IH]; intros x a N A B; [destruct x; discriminate|].
  assert (M : forall w v, e :: tr = w ++ EvReportStart t :: v -> w <> [] -> In t (report_starts tr)).
  { intros w v X Y. destruct w as [|e' w]; [contradiction|]. inversion X; subst. apply report_starts_In, in_or_app. right. left. reflexivity. }
  destruct x as [|e1 x], a as [|e2 a].
  - inversion A; inversion B; subst. auto.
  - inversion A; subst. exfalso. cbn in N. inversion N; subst. apply H1. eapply M; [exact B|discriminate].
  - inversion B; subst. exfalso. cbn in N. inversion N; subst. apply H1. eapply M; [exact A|discriminate].
  - inversion A; subst e1. inversion B; subst e2. assert (N' : NoDup (report_starts tr)).
    { destruct e; cbn in N; auto. inversion N; auto. }
    destruct (IH x a N' H1 H2) as [-> ->]. auto.
Qed.

Lemma lay_files ts m : forall f st', lay ts (Some f, None) m = Some st' -> forallb nofile m = true ->
  forall t, In (EvReportStart t) m -> exists x, In x ts /\ t_id x = t /\ t_file x = f.
Proof.
  assert (G : forall o f st', lay ts (Some f, o) m = Some st' -> forallb nofile m = true ->
    forall t, In (EvReportStart t) m -> exists x, In x ts /\ t_id x = t /\ t_file x = f).
  { induction m as [|e m IH]; intros o f st' H Hn t Hin; [destruct Hin|]. cbn [forallb] in Hn. apply andb_true_iff in Hn as [Hn1 Hn2].
    destruct Hin as [->|Hin].
    - cbn [lay] in H. destruct o; [discriminate|]. destruct (existsb _ ts) eqn:Ex; [|discriminate].
      apply existsb_exists in Ex as (x & X1 & X2). apply andb_true_iff in X2 as [X2 X3]. apply Nat.eqb_eq in X2, X3. exists x. auto.
    - destruct e; try discriminate; cbn [lay fst snd] in H; eauto.
      + destruct o; [discriminate|]. destruct (existsb _ ts); [|discriminate]. eauto.
      + destruct o; [|discriminate]. destruct (Nat.eqb _ _); [|discriminate]. eauto. }
  intros f. apply G.
Qed.

(** The tests between the start and the end of a file are tests of that file *)
Theorem C94_tests_of_file E ts p f m q :
  st_trace (fst (run_session E ts)) = p ++ EvFileStart f :: m ++ EvFileEnd f :: q -> forallb nofile m = true ->
  forall t, In (EvReportStart t) m -> exists x, In x ts /\ t_id x = t /\ t_file x = f.
Proof.
  intros Ht Hm. destruct (session_lay ts E) as (st & HL). rewrite Ht in HL. rewrite lay_app in HL.
  destruct (lay ts start0 p) as [st1|]; [|discriminate]. cbn [lay] in HL. destruct (snd st1); [discriminate|].
  rewrite lay_app in HL. destruct (lay ts (Some f, None) m) as [st2|] eqn:E2; [|discriminate].
  eapply lay_files; eauto.
Qed.

(** The console reporter never reads an attribute that does not exist, at any
    verbosity *)
Theorem C94_no_attribute_error E ts l :
  exists c, steps l (told None (st_trace (fst (run_session E ts)))) con0 = Some c.
Proof.
  destruct (session_lay ts E) as (st & HL).
  destruct (steps_lay l ts _ _ _ con0 HL) as (c & X & _); [intros _ X; destruct (X eq_refl)|]. exists c. exact X.
Qed.

(** If errors and failures are recorded on the test that runs: the line of a
    file ends with FAIL if one of its tests has an error or failure in the end,
    and with PASS if none has *)
Theorem C94_verdict_partial E ts p f m q l :
  let s := fst (run_session E ts) in
  NOTICE < l -> l <= WARNING -> own (st_trace s) ->
  st_trace s = p ++ EvFileStart f :: m ++ EvFileEnd f :: q -> forallb nofile m = true ->
  exists c c', steps l (told None (p ++ EvFileStart f :: m)) con0 = Some c /\
    steps l (told None (p ++ EvFileStart f :: m ++ [EvFileEnd f])) con0 = Some c' /\
    ((exists t r, In (EvReportStart t) m /\ lookup t (st_results s) = Some r /\ (r_errors r <> [] \/ r_failures r <> [])) ->
       out c' = out c ++ [WLineFail]) /\
    ((forall t r, In (EvReportStart t) m -> lookup t (st_results s) = Some r -> r_errors r = [] /\ r_failures r = []) ->
       exists b, out c' = out c ++ [WLinePass b]).
Proof.
  intros s H1 H2 Hown Ht Hm. destruct (session_lay ts E) as (st & HL). fold s in HL. rewrite Ht in HL. rewrite lay_app in HL.
  destruct (lay ts start0 p) as [st1|] eqn:E1; [|discriminate]. cbn [lay] in HL. destruct (snd st1) eqn:Es; [discriminate|].
  rewrite lay_app in HL. destruct (lay ts (Some f, None) m) as [st2|] eqn:E2; [|discriminate].
  assert (S2 : snd st2 = None) by (cbn [lay] in HL; destruct st2 as [[g|] [u|]]; try discriminate; reflexivity).
  assert (O1 : opened None p = None) by (pose proof (opened_lay ts p start0 st1 E1) as X; rewrite Es in X; exact X).
  destruct (steps_lay l ts p start0 st1 con0 E1) as (c0 & C0 & _); [intros _ X; destruct (X eq_refl)|]. cbn [snd start0] in C0.
  assert (T1 : told None (p ++ EvFileStart f :: m) = told None p ++ CFileStart f :: told None m).
  { rewrite told_app, O1. reflexivity. }
  assert (T2 : told None (p ++ EvFileStart f :: m ++ [EvFileEnd f]) = told None p ++ CFileStart f :: told None m ++ [CFileEnd f]).
  { rewrite told_app, O1. cbn [told]. rewrite told_app. reflexivity. }
  assert (E3 : lay ts start0 (p ++ EvFileStart f :: m) = Some st2).
  { rewrite lay_app, E1. cbn [lay]. rewrite Es. exact E2. }
  destruct (steps_lay l ts _ start0 st2 con0 E3) as (c1 & C1 & _); [intros _ X; destruct (X eq_refl)|]. cbn [snd start0] in C1.
  assert (C1' : steps l (CFileStart f :: told None m) c0 = Some c1).
  { rewrite T1, steps_app, C0 in C1. exact C1. }
  destruct (C94_line l (told None p) f (told None m) c0 c1 f H1 H2 C0 (told_nofile m Hm None) C1') as (c2 & C2 & A & B).
  exists c1, c2. split; [exact C1|]. split; [rewrite T2; exact C2|].
  pose proof (session_records E ts) as HW. fold s in HW.
  assert (ND : NoDup (report_starts (st_trace s))).
  { pose proof (session_Fin E ts _ _ (surjective_pairing _)) as [F _]. destruct F as [(ran & rest & _ & T & _) _ _].
    fold s in T. rewrite (t_starts _ _ _ T). apply (t_nodup _ _ _ T). }
  split.
  - intros (t & r & Hin & Hl & Hr). apply A. apply told_blame.
    destruct (w_res _ _ _ HW t r Hl) as [[ME MF _] _].
    assert (R : exists k src fl, bad k /\ In (EvRecord (RTest t) k src fl) (st_trace s)).
    { destruct Hr as [Hr|Hr].
      - destruct (r_errors r) as [|en es]; [contradiction|]. cbn [map] in ME. destruct (ent en) as [src fl].
        exists RKError, src, fl. split; [left; reflexivity|]. apply recorded_In. rewrite <- ME. left. reflexivity.
      - destruct (r_failures r) as [|en es]; [contradiction|]. cbn [map] in MF. destruct (ent en) as [src fl].
        exists RKFailure, src, fl. split; [right; reflexivity|]. apply recorded_In. rewrite <- MF. left. reflexivity. }
    destruct R as (k & src & fl & Hb & HR). apply in_split in HR as (p2 & q2 & HR).
    pose proof (Hown _ _ _ _ _ _ HR Hb) as HO. cbn in HO.
    destruct (opened_start _ _ HO) as (a & b & P2 & NE).
    apply in_split in Hin as (m1 & m2 & Hmm).
    assert (X1 : st_trace s = (p ++ EvFileStart f :: m1) ++ EvReportStart t :: (m2 ++ EvFileEnd f :: q)).
    { rewrite Ht, Hmm. rewrite <- !app_assoc. reflexivity. }
    assert (X2 : st_trace s = a ++ EvReportStart t :: (b ++ EvRecord (RTest t) k src fl :: q2)).
    { rewrite HR, P2, <- app_assoc. reflexivity. }
    destruct (split_unique _ _ _ _ _ _ ND X1 X2) as [<- Hy].
    assert (HE : In (EvReportEnd t) m2).
    { rewrite Hmm, lay_app in E2. destruct (lay ts (Some f, None) m1) as [st3|]; [|discriminate].
      cbn [lay] in E2. destruct st3 as [[g|] [u|]]; try discriminate. destruct (existsb _ _); [|discriminate].
      eapply lay_closes; eauto. }
    assert (Y : exists z, m2 = b ++ EvRecord (RTest t) k src fl :: z).
    { clear - Hy NE HE. revert m2 Hy HE. induction b as [|e b IH]; intros m2 Hy HE.
      - destruct m2 as [|e m2]; [destruct HE|]. cbn [app] in Hy. inversion Hy; subst. eexists. reflexivity.
      - destruct m2 as [|e' m2]; [destruct HE|]. cbn [app] in Hy. inversion Hy; subst e'.
        destruct HE as [->|HE]; [exfalso; apply (NE t); left; reflexivity|].
        destruct (IH (fun u Hu => NE u (or_intror Hu)) m2 H1 HE) as (z & ->). exists z. reflexivity. }
    destruct Y as (z & ->). exists (m1 ++ EvReportStart t :: b), (RTest t), k, src, fl, z, t.
    split; [rewrite Hmm, <- app_assoc; reflexivity|]. split; [exact Hb|].
    rewrite P2 in HO. rewrite opened_app in HO. cbn [opened] in HO. rewrite opened_app. cbn [opened]. exact HO.
  - intros Hall. destruct B as (b & B & _); [|exists b; exact B].
    intros k Hk Hkb. destruct (proj1 (told_blame m None) (ex_intro _ k (conj Hk Hkb))) as (m1 & r & k' & src & fl & m2 & t & Hmm & Hb & HO).
    assert (HR : st_trace s = (p ++ EvFileStart f :: m1) ++ EvRecord r k' src fl :: (m2 ++ EvFileEnd f :: q)).
    { rewrite Ht, Hmm, <- !app_assoc. reflexivity. }
    pose proof (Hown _ _ _ _ _ _ HR Hb) as HQ.
    assert (OQ : opened None (p ++ EvFileStart f :: m1) = Some t) by (rewrite opened_app, O1; exact HO).
    destruct r as [|u]; [congruence|]. rewrite OQ in HQ. inversion HQ; subst u.
    destruct (opened_start _ _ HO) as (a & b & -> & _).
    assert (Hin : In (EvReportStart t) m) by (rewrite Hmm; apply in_or_app; left; apply in_or_app; right; left; reflexivity).
    assert (HRi : In (EvRecord (RTest t) k' src fl) (st_trace s)) by (rewrite HR; apply in_or_app; right; left; reflexivity).
    pose proof (w_known _ _ _ HW _ _ _ _ HRi) as HK. cbn in HK. apply lookup_In in HK as (r & Hr).
    destruct (Hall t r Hin Hr) as [Z1 Z2]. destruct (w_res _ _ _ HW t r Hr) as [[ME MF _] _]. rewrite Z1 in ME. rewrite Z2 in MF.
    apply recorded_In in HRi. destruct Hb; subst k'; [rewrite <- ME in HRi|rewrite <- MF in HRi]; destruct HRi.
Qed.

(** ** Refutations *)

Definition ex_env94 : env := mkEnv (fun _ _ => PDone) (fun _ => (KAssertion, false)) [] false false 0 (fun _ _ => false).

(** The full statement - FAIL exactly if a test of the file has an error or a
    failure - is false.  A cleanup of the module of file 1 fails: it runs when
    the first test of file 2 begins.  The failure is recorded on the test that
    added the cleanup, and the console blames the file that is running: file 1,
    with a failed test, says PASS, and file 2, all of whose tests passed, says
    FAIL. *)
Definition ex_module94 : list test :=
  [ mkTest 1 (Some 1) 1 PDone 0 false (PAdd (SGiven (Some SModule)) false false (PRaise KAssertion false) PDone);
    mkTest 2 (Some 2) 2 PDone 0 false PDone ].
Theorem C94_verdict_refuted : exists E ts, let s := fst (run_session E ts) in
  map (fun x => (t_id x, t_file x)) ts = [(1, 1); (2, 2)] /\
  option_map out (steps WARNING (told None (st_trace s)) con0) = Some [WName 1; WLinePass false; WName 2; WFail; WLineFail] /\
  option_map (fun r => (length (r_errors r), length (r_failures r))) (lookup 1 (st_results s)) = Some (0, 1) /\
  option_map (fun r => (length (r_errors r), length (r_failures r))) (lookup 2 (st_results s)) = Some (0, 0).
Proof. exists ex_env94, ex_module94. split; [reflexivity|]. split; [vm_compute; reflexivity|]. split; vm_compute; reflexivity. Qed.

(** The same when a cleanup of the session fails, after the last test of the
    last file *)
Definition ex_session94 : list test :=
  [ mkTest 1 (Some 1) 1 PDone 0 false (PAdd (SGiven (Some SSession)) false false (PRaise KAssertion false) PDone);
    mkTest 2 (Some 1) 1 PDone 0 false PDone; mkTest 3 (Some 2) 2 PDone 0 false PDone ].
Theorem C94_session_cleanup_refuted : exists E ts, let s := fst (run_session E ts) in
  map (fun x => (t_id x, t_file x)) ts = [(1, 1); (2, 1); (3, 2)] /\
  option_map out (steps WARNING (told None (st_trace s)) con0) = Some [WName 1; WLinePass false; WName 2; WFail; WLineFail] /\
  option_map (fun r => (length (r_errors r), length (r_failures r))) (lookup 1 (st_results s)) = Some (0, 1) /\
  option_map (fun r => (length (r_errors r), length (r_failures r))) (lookup 3 (st_results s)) = Some (0, 0).
Proof. exists ex_env94, ex_session94. split; [reflexivity|]. split; [vm_compute; reflexivity|]. split; vm_compute; reflexivity. Qed.

(** ** The hypotheses can be met *)

Fixpoint ownb (cur : option nat) (tr : list event) : bool :=
  match tr with
  | [] => true
  | EvRecord r k _ _ :: tr =>
      (match k with
       | RKError | RKFailure => match r, cur with RTest t, Some u => Nat.eqb t u | RGlobal, None => true | _, _ => false end
       | _ => true end) && ownb cur tr
  | EvReportStart t :: tr => ownb (Some t) tr
  | EvReportEnd _ :: tr => ownb None tr
  | _ :: tr => ownb cur tr
  end.

Lemma ownb_own tr : ownb None tr = true -> own tr.
Proof.
  intros H p r k src fl q -> Hb. revert H.
  enough (G : forall cur, ownb cur (p ++ EvRecord r k src fl :: q) = true ->
    match r with RTest t => opened cur p = Some t | RGlobal => opened cur p = None end) by exact (G None).
  induction p as [|e p IH]; intros cur H.
  - cbn in H. apply andb_true_iff in H as [H _]. cbn [opened].
    destruct Hb as [->| ->]; destruct r as [|t]; destruct cur as [u|]; try discriminate H; try reflexivity; apply Nat.eqb_eq in H; subst; reflexivity.
  - destruct e; cbn [app ownb opened] in *; try (apply IH; exact H).
    apply andb_true_iff in H as [_ H]. apply IH; exact H.
Qed.

(** two files: a failing test and a passing one in the first, a skipped and a
    passing one in the second, with cleanups *)
Definition ex_files94 : list test :=
  [ mkTest 1 (Some 1) 1 PDone 0 false (PAdd (SGiven (Some SModule)) false false (PEmit 1 PDone) (PRaise KAssertion false));
    mkTest 2 (Some 1) 1 PDone 0 false (PAdd SDefault false false (PEmit 2 PDone) PDone);
    mkTest 3 (Some 2) 2 PDone 0 false (PRaise KSkip false);
    mkTest 4 (Some 2) 2 PDone 0 false PDone ].
Example C94_ex :
  let tr := st_trace (fst (run_session ex_env94 ex_files94)) in
  own tr /\ (exists p m q, tr = p ++ EvFileStart 1 :: m ++ EvFileEnd 1 :: q /\ forallb nofile m = true /\ In (EvReportStart 2) m) /\
  option_map out (steps WARNING (told None tr) con0) = Some [WName 1; WFail; WLineFail; WName 2; WSkip; WLinePass true].
Proof.
  cbv zeta. split; [apply ownb_own; vm_compute; reflexivity|]. split; [|vm_compute; reflexivity].
  exists (firstn 4 (st_trace (fst (run_session ex_env94 ex_files94)))),
         (firstn 28 (skipn 5 (st_trace (fst (run_session ex_env94 ex_files94))))),
         (skipn (6 + 28) (st_trace (fst (run_session ex_env94 ex_files94)))).
  split; [vm_compute; reflexivity|]. split; [vm_compute; reflexivity|].
  vm_compute. tauto.
Qed.

Print Assumptions C94_line.
Print Assumptions C94_tests_of_file.
Print Assumptions C94_no_attribute_error.
Print Assumptions C94_verdict_partial.
Print Assumptions C94_verdict_refuted.
Print Assumptions C94_session_cleanup_refuted.
