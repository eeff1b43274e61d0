(** Properties of parallel execution (model: Parallel.v): C33-C38, C65-C68. *)

From Coq Require Import List Bool Arith PeanoNat Lia Sorting.Sorted Sorting.Permutation.
From Verif Require Import Dict Parallel ParallelBase ParallelSys.
Import ListNotations.

(** ** C33: each test is handed out at most once, whatever calls arrive *)

Lemma serve_given num tests l : forall s, NoDup (sv_unstarted s) -> forall s' tr, serve num tests l s = (s', tr) ->
  NoDup (flat_map (fun e : call * reply => match snd e with RTest _ t => [t] | _ => [] end) tr)
  /\ (forall x d t, In (x, RTest d t) tr -> In t (sv_unstarted s)).
Proof.
  induction l as [|x l IH]; simpl; intros s Nd s' tr H; [inversion H; subst; split; [constructor|intros ? ? ? []]|].
  destruct (sstate_eqb (sv_state s) StopServe); [inversion H; subst; split; [constructor|intros ? ? ? []]|].
  destruct (handle num tests x s) as [s1 r] eqn:E. destruct (serve num tests l s1) as [s2 rs] eqn:Es. inversion H; subst.
  destruct (handle_unstarted num tests x s s1 r E) as [H1 H2].
  assert (Sub : forall t, In t (sv_unstarted s1) -> In t (sv_unstarted s)).
  { intros t I. destruct H2 as [Q|[Q|[u [_ Q]]]]; rewrite Q in I; [auto|destruct I|eapply remove1_In; eauto]. }
  assert (Nd1 : NoDup (sv_unstarted s1)).
  { destruct H2 as [Q|[Q|[u [_ Q]]]]; rewrite Q; [auto|constructor|apply remove1_NoDup; auto]. }
  destruct (IH s1 Nd1 _ _ Es) as [G1 G2]. split.
  - simpl. destruct r; simpl; auto. constructor; auto. intros I. apply in_flat_map in I as [[x' r'] [I J]].
    destruct r'; simpl in J; try contradiction. destruct J as [->|[]]. apply G2 in I.
    destruct (H1 d t eq_refl) as [c [h [_ [It Q]]]]. rewrite Q in I. apply (remove1_gone t (sv_unstarted s)); auto.
  - intros x' d t [Q|Q]; [inversion Q; subst|apply Sub; eapply G2; eauto].
    destruct (H1 d t eq_refl) as [c [h [_ [It _]]]]. auto.
Qed.

Lemma flat_nodup {A B} (f : A -> list B) l : NoDup (flat_map f l) -> forall i j a b t,
  nth_error l i = Some a -> nth_error l j = Some b -> In t (f a) -> In t (f b) -> i = j.
Proof.
  induction l as [|x l IH]; simpl; intros Nd i j a b t Hi Hj Ha Hb; [destruct i; discriminate|].
  assert (D : forall t, In t (f x) -> ~ In t (flat_map f l)).
  { clear - Nd. intros t I J. induction (f x) as [|y m IH]; [destruct I|]. simpl in Nd. apply NoDup_cons_iff in Nd as [Ny Nd].
    destruct I as [->|I]; [apply Ny, in_app_iff; auto|apply IH; auto]. }
  assert (Nd' : NoDup (flat_map f l)) by (clear - Nd; induction (f x); simpl in Nd; auto; apply NoDup_cons_iff in Nd as [_ Nd]; auto).
  destruct i, j; simpl in *; auto.
  - inversion Hi; subst. destruct (D t Ha). apply in_flat_map. exists b. split; auto. eapply nth_error_In; eauto.
  - inversion Hj; subst. destruct (D t Hb). apply in_flat_map. exists a. split; auto. eapply nth_error_In; eauto.
  - f_equal. eapply IH; eauto.
Qed.

Theorem C33_given_once : forall num tests conf calls s tr i j c c' h h' d d' t,
  serve num tests calls (init tests conf) = (s, tr) ->
  nth_error tr i = Some (CGet c h, RTest d t) -> nth_error tr j = Some (CGet c' h', RTest d' t) -> i = j.
Proof.
  intros num tests conf calls s tr i j c c' h h' d d' t H Hi Hj.
  destruct (serve_given num tests calls (init tests conf)) with (s' := s) (tr := tr) as [Nd _]; auto.
  { apply sorted_NoDup. apply (i_sorted _ _ (init_inv tests conf)). }
  eapply (flat_nodup _ tr Nd i j _ _ t Hi Hj); simpl; auto.
Qed.
Print Assumptions C33_given_once.

(** tests are given only as answers to requests for a test *)
Theorem C33_given_on_request : forall num tests conf calls s tr x d t,
  serve num tests calls (init tests conf) = (s, tr) -> In (x, RTest d t) tr -> exists c h, x = CGet c h.
Proof.
  intros num tests conf calls. generalize (init tests conf). induction calls as [|y l IH]; simpl; intros s0 s tr x d t H I; [inversion H; subst; destruct I|].
  destruct (sstate_eqb _ _); [inversion H; subst; destruct I|].
  destruct (handle num tests y s0) as [s1 r] eqn:E. destruct (serve num tests l s1) as [s2 rs] eqn:Es. inversion H; subst.
  destruct I as [Q|I]; [|eapply IH; eauto]. inversion Q; subst. destruct (handle_unstarted _ _ _ _ _ _ E) as [H1 _].
  destruct (H1 d t eq_refl) as [c [h [-> _]]]. eauto.
Qed.
Print Assumptions C33_given_on_request.

(** three tests in one file, two workers *)
Definition x_tests : list ptest := [mkPTest 1 None 1 0; mkPTest 1 None 2 0; mkPTest 1 None 3 0].
Definition x_conf : @dict wconf := [(1, mkConf [] []); (2, mkConf [] [])].
Definition x_coll : list desc := map desc_of x_tests.
Definition ok_choice : choice := mkChoice false x_coll false false.
Definition W (c : nat) : label := LWorker c ok_choice.
Definition x_run (l : list label) := run 2 x_tests l (start 2 x_tests x_conf).

(** both workers connect and validate, tests are handed out and finished alternately *)
Definition all_fine : list label := [W 1; W 2; W 1; W 2; W 1; W 2; W 1; W 1; W 2; W 1; W 1; W 1; W 2; W 2].
Example ex_all_fine :
  map snd (snd (x_run all_fine)) = [RNone; RNone; RBool true; RBool true; RTest (1, 1, 0) 0; RTest (1, 2, 0) 1; RNone;
     RTest (1, 3, 0) 2; RNone; RNone; RNoMore; RNone; RNoMore; RNone]
  /\ sv_finished (sy_server (fst (x_run all_fine))) = [0; 1; 2].
Proof. split; vm_compute; reflexivity. Qed.

(** ** C34: no test is lost *)

(** where a test is *)
Definition waiting (s : server) (t : nat) : Prop := In t (sv_unstarted s).
Definition executing (s : server) (t : nat) : Prop := exists c, In c (sv_connected s) /\ d_get c (sv_exec s) = Some (Some t).
Definition done (s : server) (t : nat) : Prop := In t (sv_finished s).

Theorem C34_no_test_lost : forall num tests conf labels t, t < length tests ->
  let s := sy_server (fst (run num tests labels (start num tests conf))) in
  (waiting s t \/ executing s t \/ done s t)
  /\ ~ (waiting s t /\ executing s t) /\ ~ (waiting s t /\ done s t) /\ ~ (executing s t /\ done s t)
  /\ (forall c c', d_get c (sv_exec s) = Some (Some t) -> d_get c' (sv_exec s) = Some (Some t) -> c = c').
Proof.
  intros num tests conf labels t L s. destruct (run_inv num tests labels _ (start_inv num tests conf)) as [[A B C D E F G H I J K P] _].
  fold s in A, B, C, D, E, F, G, H, I, J, K, P. unfold waiting, executing, done. split; [destruct (F t L) as [?|[?|?]]; auto|].
  split; [intros [X [c [_ Y]]]; destruct (C c t Y); contradiction|].
  split; [intros [X Y]; destruct (E t Y); contradiction|].
  split; [intros [[c [X Y]] Z]; apply (G c t Z Y X)|]. intros c c' X Y. eapply D; eauto.
Qed.
Print Assumptions C34_no_test_lost.

Example ex_halfway : let s := sy_server (fst (x_run (firstn 7 all_fine))) in
  waiting s 2 /\ executing s 1 /\ done s 0.
Proof. cbv zeta. split; [|split]; vm_compute; auto. exists 2. auto. Qed.

(** every finished test has exactly one result *)
Theorem C34_results : forall num tests conf labels,
  let s := sy_server (fst (run num tests labels (start num tests conf))) in
  NoDup (map fst (sv_results s)) /\ forall t, In t (map fst (sv_results s)) <-> done s t.
Proof.
  intros num tests conf labels s. destruct (run_inv num tests labels _ (start_inv num tests conf)) as [[A B C D E F G H I J K P] _].
  split; auto.
Qed.
Print Assumptions C34_results.

(** ** C67: the parent waits until every test has a result *)

Theorem C67_all_accounted : forall num tests conf labels t,
  let s := sy_server (fst (run num tests labels (start num tests conf))) in
  should_wait tests s = false -> t < length tests -> exists k, In (t, k) (sv_results s).
Proof.
  intros num tests conf labels t s H L. destruct (run_inv num tests labels _ (start_inv num tests conf)) as [[A B C D E F G Hr I J K P] _].
  fold s in A, B, C, D, E, F, G, Hr, I, J, K, P. unfold should_wait in H. apply orb_false_iff in H as [H1 H2]. destruct (sv_connected s) eqn:Ec; [|discriminate].
  apply Nat.ltb_ge in H2.
  assert (In t (map fst (sv_results s))) as Q.
  { apply Hr. destruct (F t L) as [Q|[Q|[c [[] _]]]]; auto. exfalso.
    assert (Nu : sv_unstarted s <> []) by (intros X; rewrite X in Q; destruct Q). specialize (K Nu).
    assert (X : incl (List.seq 0 (length tests)) (sv_finished s)).
    { apply NoDup_length_incl; [auto|rewrite seq_length; auto|]. intros u W. apply in_seq. destruct (E u W). lia. }
    destruct (E t) as [_ N]; [apply X, in_seq; lia|]. contradiction. }
  apply in_map_iff in Q as [[t' k] [Q1 Q2]]. simpl in Q1. subst. eauto.
Qed.
Print Assumptions C67_all_accounted.

Example ex_stops_waiting : should_wait x_tests (sy_server (fst (x_run all_fine))) = false
  /\ should_wait x_tests (sy_server (fst (x_run (firstn 13 all_fine)))) = true.
Proof. split; vm_compute; reflexivity. Qed.

(** ** C35: agreement on the collection *)

Lemma step_events num tests l y : exists ev, snd (step num tests l y) = ev /\ length ev <= 1.
Proof.
  unfold step. destruct l; repeat match goal with |- context [match ?x with _ => _ end] => destruct x end; eexists; (split; [reflexivity|simpl; lia]).
Qed.

Section C35.
Variable num : nat.
Variable tests : list ptest.

(** worker [w] connected and then validated the collection *)
Definition agreed (tr : list (call * reply)) (w : nat) : Prop :=
  exists a b c, tr = a ++ (CConnect w false, RNone) :: b ++ (CValidate w (sorted (collection tests)), RBool true) :: c.

Definition joined (tr : list (call * reply)) (w : nat) : Prop := exists a b, tr = a ++ (CConnect w false, RNone) :: b.

Record agr (y : system) (tr : list (call * reply)) (vs : list nat) : Prop := mkAgr {
  a_nodup : NoDup vs;
  a_len : length vs = sv_validated (sy_server y);
  a_seen : forall w, In w vs -> agreed tr w;
  a_fresh : forall w, In w vs -> match d_get w (sy_workers y) with None | Some WNew | Some WJoined => False | _ => True end;
  a_joined : forall w, d_get w (sy_workers y) = Some WJoined -> joined tr w;
  a_ids : forall w, d_get w (sy_workers y) <> None <-> 1 <= w <= num;
  a_serve : sv_state (sy_server y) = Serve -> num <= sv_validated (sy_server y);
  a_given : forall pre c h d t post, tr = pre ++ (CGet c h, RTest d t) :: post -> forall w, 1 <= w <= num -> agreed pre w
}.

Lemma agreed_app tr e w : agreed tr w -> agreed (tr ++ e) w.
Proof. intros [a [b [c ->]]]. exists a, b, (c ++ e). rewrite <- !app_assoc. simpl. rewrite <- !app_assoc. reflexivity. Qed.
Lemma joined_app tr e w : joined tr w -> joined (tr ++ e) w.
Proof. intros [a [b ->]]. exists a, (b ++ e). rewrite <- !app_assoc. reflexivity. Qed.

(** state and validations after a call other than of validation *)
Lemma handle_state x s s' r : handle num tests x s = (s', r) ->
  (match x with CValidate _ _ => False | _ => True end) -> sv_validated s' = sv_validated s /\ (sv_state s' = Serve -> sv_state s = Serve).
Proof.
  intros H N. destruct x as [c h|c l|c f|c h|c b st|c| | | |c t|c t]; simpl in H; try contradiction.
  - unfold connect in H. destruct h; [inversion H; subst; auto|]. destruct (Nat.leb _ _); inversion H; subst; simpl; auto. split; auto; discriminate.
  - unfold disconnect in H. destruct (mem _ _); [destruct f|]; inversion H; subst; simpl; auto. split; auto; discriminate.
  - unfold get_test in H. destruct (d_get c (sv_exec s)) as [[t|]|]; try (inversion H; subst; auto).
    destruct (sv_state s) eqn:Es; simpl in H; try (inversion H; subst; simpl; split; auto; congruence).
    destruct (sv_unstarted s) as [|u us]; simpl in H; [inversion H; subst; simpl; auto|].
    destruct (can_execute s u c) as [[|]|]; [|destruct (next_test s c us) as [[t|]|]|]; try (inversion H; subst; auto).
    + destruct (nth_error _ u); inversion H; subst; simpl; auto.
    + destruct (nth_error _ t); inversion H; subst; simpl; auto.
  - unfold finished_test in H. destruct (d_get c (sv_exec s)) as [[t|]|]; try (inversion H; subst; auto).
    unfold create_result in H. destruct (mem t _); [inversion H; subst; simpl; auto|].
    destruct b; [inversion H; subst; simpl; auto|]. destruct st; [|inversion H; subst; simpl; auto].
    unfold mark_unrun_tests in H. destruct (mark_loop _ _) as [s1 o] eqn:E. apply mark_frame in E as [_ [_ [E1 [E2 _]]]]. simpl in E1, E2.
    assert (s1 = s') by (destruct o; inversion H; auto). subst. rewrite E1, E2. split; auto; discriminate.
  - unfold report_client_failure in H. destruct (mem c _); [|inversion H; subst; auto].
    simpl in H. unfold create_result, mark_unrun_tests in H. simpl in H.
    assert (Gn : forall l s0, sv_state s0 = StopTests -> sv_validated s0 = sv_validated s ->
      (let (s', o) := mark_loop l s0 in match o with Some e => (s', RFault e) | None => (set_error true s', RNone) end) = (s', r) ->
      sv_validated s' = sv_validated s /\ (sv_state s' = Serve -> sv_state s = Serve)).
    { intros l s0 E1 E2 Q. destruct (mark_loop l s0) as [s1 o] eqn:E. apply mark_frame in E as [_ [_ [E3 [E4 _]]]].
      assert (sv_state s' = sv_state s1 /\ sv_validated s' = sv_validated s1) as [-> ->] by (destruct o; inversion Q; auto).
      rewrite E3, E4, E1, E2. split; auto; discriminate. }
    destruct (d_get c (sv_exec s)) as [[t|]|].
    + destruct (mem t _); [inversion H; subst; simpl; auto|]. eapply Gn; [| |exact H]; auto.
    + eapply Gn; [| |exact H]; auto.
    + eapply Gn; [| |exact H]; auto.
  - inversion H; subst. unfold session_interrupted. destruct (sstate_eqb _ _) eqn:Q; simpl; split; auto; discriminate.
  - inversion H; subst. simpl. split; auto; discriminate.
  - inversion H; subst; simpl; auto.
  - unfold reconf in H. destruct (d_get c (sv_conf s)) as [w|]; [destruct (exclude_test t w)|]; inversion H; subst; simpl; auto.
  - unfold reconf in H. destruct (d_get c (sv_conf s)) as [w|]; [destruct (force_test t w)|]; inversion H; subst; simpl; auto.
Qed.

Lemma given_serving x s s' d t : handle num tests x s = (s', RTest d t) -> sv_state s = Serve.
Proof.
  intros H. destruct (handle_unstarted num tests x s s' _ H) as [H1 _]. destruct (H1 d t eq_refl) as [c [h [-> _]]]. simpl in H.
  unfold get_test in H. destruct (d_get c (sv_exec s)) as [[u|]|]; try discriminate.
  destruct (sv_state s); simpl in H; try discriminate; auto.
Qed.

Lemma agr_snoc_given s y tr vs x r : agr y tr vs -> sy_server y = s -> (forall d t, r = RTest d t -> sv_state s = Serve) ->
  forall pre c h d t post, tr ++ [(x, r)] = pre ++ (CGet c h, RTest d t) :: post -> forall w, 1 <= w <= num -> agreed pre w.
Proof.
  intros H Es Hr pre c h d t post E w Hw. destruct H as [A1 A2 A3 A4 A5 A6 A7 A8]. subst s.
  destruct post as [|p post] using rev_ind.
  - apply app_inj_tail in E as [-> E]. inversion E; subst. apply A3.
    assert (X : incl (List.seq 1 num) vs).
    { apply NoDup_length_incl; [auto|rewrite seq_length, A2; apply A7; eapply Hr; eauto|].
      intros v I. apply in_seq. pose proof (A4 v I) as F. destruct (d_get v (sy_workers y)) eqn:Ev; [|contradiction].
      assert (d_get v (sy_workers y) <> None) as Q by congruence. apply A6 in Q. lia. }
    apply X, in_seq. lia.
  - replace (pre ++ (CGet c h, RTest d t) :: post ++ [p]) with ((pre ++ (CGet c h, RTest d t) :: post) ++ [p]) in E by (rewrite <- app_assoc; reflexivity).
    apply app_inj_tail in E as [-> _]. eapply A8; [reflexivity|auto].
Qed.

Lemma agr_ask x y tr vs s' r : agr y tr vs -> handle num tests x (sy_server y) = (s', r) ->
  (match x with CValidate _ _ => False | _ => True end) -> agr (mkSystem s' (sy_workers y)) (tr ++ [(x, r)]) vs.
Proof.
  intros H E N. pose proof H as [A1 A2 A3 A4 A5 A6 A7 A8]. destruct (handle_state x _ _ _ E N) as [E1 E2].
  constructor; simpl; auto.
  - congruence.
  - intros w I. apply agreed_app; auto.
  - intros w I. apply joined_app; auto.
  - intros Q. rewrite E1. auto.
  - eapply agr_snoc_given; eauto. intros d t ->. eapply given_serving; eauto.
Qed.

Lemma agr_step l y tr vs : agr y tr vs -> exists vs', agr (fst (step num tests l y)) (tr ++ snd (step num tests l y)) vs'.
Proof.
  intros H. unfold step.
  assert (Id : exists vs', agr y (tr ++ []) vs') by (exists vs; rewrite app_nil_r; auto).
  assert (Ask : forall x, (match x with CValidate _ _ => False | _ => True end) ->
     exists vs', agr (fst (if sstate_eqb (sv_state (sy_server y)) StopServe then (y, []) else let (s1, r) := handle num tests x (sy_server y) in (mkSystem s1 (sy_workers y), [(x, r)])))
       (tr ++ snd (if sstate_eqb (sv_state (sy_server y)) StopServe then (y, []) else let (s1, r) := handle num tests x (sy_server y) in (mkSystem s1 (sy_workers y), [(x, r)]))) vs').
  { intros x Hx. destruct (sstate_eqb _ _); [exact Id|]. destruct (handle num tests x (sy_server y)) as [s1 r] eqn:E. exists vs. eapply agr_ask; eauto. }
  assert (Gone : forall c p, d_get c (sy_workers y) = Some p -> exists vs', agr (mkSystem (sy_server y) (d_set c WGone (sy_workers y))) (tr ++ []) vs').
  { intros c p Ep. exists vs. rewrite app_nil_r. pose proof H as [A1 A2 A3 A4 A5 A6 A7 A8]. constructor; simpl; auto.
    - intros w I. rewrite d_get_set. destruct (Nat.eqb_spec w c); auto. apply A4; auto.
    - intros w. rewrite d_get_set. destruct (Nat.eqb_spec w c); [discriminate|apply A5].
    - intros w. rewrite d_get_set. destruct (Nat.eqb_spec w c); [subst|apply A6]. rewrite <- A6. split; congruence. }
  destruct l as [c ch|c|c| | | |c t|c t]; try (apply Ask; exact I).
  - destruct (d_get c (sy_workers y)) as [p|] eqn:Ep; [|exact Id]. destruct (next_call c p ch) as [x|] eqn:Ex; [|exact Id].
    destruct (sstate_eqb _ _); [eapply Gone; eauto|]. destruct (handle num tests x (sy_server y)) as [s1 r] eqn:E. cbn [fst snd].
    assert (Gen : (match x with CValidate _ _ => False | _ => True end) -> (match next_pc p r with WNew => False | WJoined => x = CConnect c false /\ r = RNone | _ => True end) ->
       p <> WJoined -> (In c vs -> match next_pc p r with WJoined => False | _ => True end) ->
       agr (mkSystem s1 (d_set c (next_pc p r) (sy_workers y))) (tr ++ [(x, r)]) vs).
    { intros N1 N2 N3 N4. pose proof (agr_ask x y tr vs s1 r H E N1) as [A1 A2 A3 A4 A5 A6 A7 A8]. constructor; simpl; auto.
      - intros w I. rewrite d_get_set. destruct (Nat.eqb_spec w c); [subst|apply A4; auto]. specialize (N4 I). destruct (next_pc p r); auto.
      - intros w. rewrite d_get_set. destruct (Nat.eqb_spec w c); [subst|apply A5]. intros Q. inversion Q as [Q1]. rewrite Q1 in N2. destruct N2 as [-> ->].
        exists tr, []. reflexivity.
      - intros w. rewrite d_get_set. destruct (Nat.eqb_spec w c); [subst|apply A6]. rewrite <- A6. simpl. split; congruence. }
    destruct p; simpl in Ex; inversion Ex; subst.
    + exists vs. apply Gen; auto; try discriminate.
      * simpl in E. unfold connect in E. destruct (ch_hook ch); [inversion E; subst; simpl; auto|].
        destruct (Nat.leb _ _); inversion E; subst; simpl; auto.
      * intros I. pose proof (a_fresh _ _ _ H c I) as F. rewrite Ep in F. contradiction.
    + (* validation *)
      pose proof H as [A1 A2 A3 A4 A5 A6 A7 A8].
      cbn [Parallel.handle] in E. unfold validate_collection in E. destruct (descs_eqb (sorted (collection tests)) (sorted (ch_coll ch))) eqn:Ed; cbn [negb] in E; cbv zeta in E; cbn [set_validated sv_validated sv_state] in E.
      * apply descs_eqb_eq in Ed. rewrite <- Ed in *.
        assert (Nc : ~ In c vs) by (intros I; specialize (A4 c I); rewrite Ep in A4; contradiction).
        assert (r = RBool true /\ sv_validated s1 = S (sv_validated (sy_server y)) /\ (sv_state s1 = Serve -> num <= sv_validated s1)) as [-> [Ev Es]].
        { destruct ((num <=? S (sv_validated (sy_server y))) && sstate_eqb (sv_state (sy_server y)) WaitValidation) eqn:Q; inversion E; subst; simpl.
          - apply andb_true_iff in Q as [Q _]. apply Nat.leb_le in Q. auto.
          - split; auto. }
        exists (c :: vs). constructor; cbn [sy_server sy_workers next_pc]; auto.
        -- constructor; auto.
        -- simpl. congruence.
        -- intros w [<-|I]; [|apply agreed_app; auto]. destruct (A5 c Ep) as [a [b ->]]. exists a, b, []. rewrite <- app_assoc. reflexivity.
        -- intros w I. rewrite d_get_set. destruct (Nat.eqb_spec w c); [auto|]. apply A4. destruct I as [I|I]; [congruence|auto].
        -- intros w. rewrite d_get_set. destruct (Nat.eqb_spec w c); [discriminate|]. intros Q. apply joined_app. auto.
        -- intros w. rewrite d_get_set. destruct (Nat.eqb_spec w c); [subst|apply A6]. rewrite <- A6. split; congruence.
        -- eapply agr_snoc_given; eauto. discriminate.
      * inversion E; subst. exists vs. constructor; simpl; auto.
        -- intros w I. apply agreed_app; auto.
        -- intros w I. rewrite d_get_set. destruct (Nat.eqb_spec w c); [auto|]. apply A4; auto.
        -- intros w. rewrite d_get_set. destruct (Nat.eqb_spec w c); [discriminate|]. intros Q. apply joined_app. auto.
        -- intros w. rewrite d_get_set. destruct (Nat.eqb_spec w c); [subst|apply A6]. rewrite <- A6. split; congruence.
        -- eapply agr_snoc_given; eauto. discriminate.
    + exists vs. apply Gen; auto; try discriminate; try (destruct r; simpl; auto).
    + exists vs. apply Gen; auto; try discriminate; try (destruct r; simpl; auto).
    + exists vs. apply Gen; auto; try discriminate; try (destruct r; simpl; auto).
    + exists vs. apply Gen; auto; try discriminate; try (destruct r; simpl; auto).
  - destruct (d_get c (sy_workers y)) as [p|] eqn:Ep; [|exact Id]. eapply Gone; eauto.
Qed.

Lemma agr_run l : forall y tr vs, agr y tr vs -> exists vs', agr (fst (run num tests l y)) (tr ++ snd (run num tests l y)) vs'.
Proof.
  induction l as [|x l IH]; simpl; intros y tr vs H; [exists vs; rewrite app_nil_r; auto|].
  apply (agr_step x) in H as [vs1 H]. destruct (step num tests x y) as [y1 e1]. simpl in H. apply IH in H as [vs2 H].
  destruct (run num tests l y1) as [y2 e2]. simpl in *. exists vs2. rewrite app_assoc. auto.
Qed.

Lemma agr_start conf : agr (start num tests conf) [] [].
Proof.
  constructor; simpl; auto; try discriminate; try (intros; contradiction); try (constructor; fail).
  - assert (G : forall k n w, d_get w (map (fun c => (c, WNew)) (List.seq k n)) <> Some WJoined).
    { intros k n. revert k. induction n as [|n IH]; simpl; intros k w; [discriminate|]. destruct (Nat.eqb w k); [discriminate|apply IH]. }
    intros w Q. destruct (G _ _ _ Q).
  - intros w. rewrite <- (d_get_In (V := pc)). unfold d_keys. rewrite map_map. simpl. rewrite map_id, in_seq. lia.
  - intros pre c h d t post Q. destruct pre; discriminate.
Qed.

Theorem C35_agreement : forall conf labels pre c h d t post,
  snd (run num tests labels (start num tests conf)) = pre ++ (CGet c h, RTest d t) :: post ->
  forall w, 1 <= w <= num -> agreed pre w.
Proof.
  intros conf labels pre c h d t post H. destruct (agr_run labels _ _ _ (agr_start conf)) as [vs [A1 A2 A3 A4 A5 A6 A7 A8]].
  simpl in A8. eapply A8; eauto.
Qed.
End C35.
Print Assumptions C35_agreement.

Lemma insert_perm d l : Permutation (d :: l) (insert d l).
Proof.
  induction l as [|x l IH]; simpl; auto. destruct (desc_leb d x); auto.
  apply perm_trans with (x :: d :: l); [apply perm_swap|constructor; auto].
Qed.
Lemma sorted_perm l : Permutation l (sorted l).
Proof. induction l as [|x l IH]; simpl; auto. apply perm_trans with (x :: sorted l); [constructor; auto|apply insert_perm]. Qed.

(** a worker is told that its collection is right only if it has the same tests as the
    parent, up to order *)
Theorem C35_refused : forall num tests w own s s' r, handle num tests (CValidate w (sorted own)) s = (s', r) ->
  (r = RBool true /\ Permutation own (map desc_of tests)) \/ (r = RBool false /\ s' = s).
Proof.
  intros num tests w own s s' r H. simpl in H. unfold validate_collection in H.
  destruct (descs_eqb (sorted (collection tests)) (sorted own)) eqn:E; simpl in H.
  - left. apply descs_eqb_eq in E. split; [destruct (_ && _) in H; inversion H; auto|].
    apply perm_trans with (sorted own); [apply sorted_perm|]. rewrite <- E. apply Permutation_sym, sorted_perm.
  - inversion H; auto.
Qed.
Print Assumptions C35_refused.

(** in the other direction: the same tests in another order are accepted *)
Lemma desc_leb_total a b : desc_leb a b = false -> desc_leb b a = true.
Proof.
  destruct a as [[f g] v], b as [[f' g'] v']. unfold desc_leb.
  destruct (Nat.eqb_spec f f'), (Nat.eqb_spec f' f); try congruence; subst.
  - destruct (Nat.eqb_spec g g'), (Nat.eqb_spec g' g); try congruence; rewrite Nat.leb_gt; rewrite Nat.leb_le; lia.
  - rewrite Nat.leb_gt, Nat.leb_le. lia.
Qed.
Lemma desc_leb_anti a b : desc_leb a b = true -> desc_leb b a = true -> a = b.
Proof.
  destruct a as [[f g] v], b as [[f' g'] v']. unfold desc_leb.
  destruct (Nat.eqb_spec f f'), (Nat.eqb_spec f' f); try congruence; subst.
  - destruct (Nat.eqb_spec g g'), (Nat.eqb_spec g' g); try congruence; subst; rewrite !Nat.leb_le; intros; [f_equal; lia|lia].
  - rewrite !Nat.leb_le. lia.
Qed.
Lemma desc_leb_trans a b c : desc_leb a b = true -> desc_leb b c = true -> desc_leb a c = true.
Proof.
  destruct a as [[f g] v], b as [[f' g'] v'], c as [[f'' g''] v'']. unfold desc_leb.
  destruct (Nat.eqb_spec f f'), (Nat.eqb_spec f' f''), (Nat.eqb_spec f f''); subst; try congruence; try (rewrite !Nat.leb_le; lia);
  destruct (Nat.eqb_spec g g'), (Nat.eqb_spec g' g''), (Nat.eqb_spec g g''); subst; try congruence; rewrite !Nat.leb_le; lia.
Qed.
Lemma insert_sorted d l : StronglySorted (fun a b => desc_leb a b = true) l -> StronglySorted (fun a b => desc_leb a b = true) (insert d l).
Proof.
  induction 1 as [|x l H IH F]; simpl; [repeat constructor|]. destruct (desc_leb d x) eqn:E.
  - constructor; [constructor; auto|]. constructor; auto. eapply Forall_impl; [|exact F]. intros y Q. eapply desc_leb_trans; eauto.
  - constructor; auto. apply Forall_forall. intros y I. apply (Permutation_in y (Permutation_sym (insert_perm d l))) in I as [<-|I].
    + apply desc_leb_total; auto.
    + rewrite Forall_forall in F. auto.
Qed.
Lemma sorted_sorted l : StronglySorted (fun a b => desc_leb a b = true) (sorted l).
Proof. induction l; simpl; [constructor|apply insert_sorted; auto]. Qed.
Lemma sorted_unique a : forall b, StronglySorted (fun a b => desc_leb a b = true) a -> StronglySorted (fun a b => desc_leb a b = true) b ->
  Permutation a b -> a = b.
Proof.
  induction a as [|x a IH]; intros b Ha Hb Pm; [apply Permutation_nil in Pm; auto|].
  destruct b as [|y b]; [apply Permutation_sym, Permutation_nil in Pm; discriminate|].
  inversion Ha; subst. inversion Hb; subst. rewrite Forall_forall in H2, H4.
  assert (x = y).
  { assert (In y (x :: a)) as I1 by (apply (Permutation_in y (Permutation_sym Pm)); left; auto).
    assert (In x (y :: b)) as I2 by (apply (Permutation_in x Pm); left; auto).
    destruct I1 as [|I1]; auto. destruct I2 as [|I2]; auto. apply desc_leb_anti; auto. }
  subst. f_equal. apply IH; auto. apply Permutation_cons_inv in Pm. auto.
Qed.

Theorem C35_accepted : forall num tests w own s, Permutation own (map desc_of tests) ->
  snd (handle num tests (CValidate w (sorted own)) s) = RBool true.
Proof.
  intros num tests w own s Pm. simpl. unfold validate_collection.
  replace (sorted own) with (sorted (collection tests)).
  2:{ apply sorted_unique; try apply sorted_sorted. apply perm_trans with (collection tests); [apply Permutation_sym, sorted_perm|].
      apply perm_trans with own; [apply Permutation_sym; auto|apply sorted_perm]. }
  rewrite (proj2 (descs_eqb_eq _ _) eq_refl). simpl. destruct (_ && _); reflexivity.
Qed.
Print Assumptions C35_accepted.

(** a worker with a test missing is refused, leaves, and no test is served *)
Definition bad_choice : choice := mkChoice false [(1, 1, 0); (1, 2, 0)] false false.
Example ex_refused : map snd (snd (x_run [W 1; W 2; W 1; W 1; LWorker 2 bad_choice; W 1; W 2; W 1]))
  = [RNone; RNone; RBool true; RWaiting; RBool false; RWaiting; RNone; RNoMore].
Proof. vm_compute. reflexivity. Qed.

(** ** C36: forced and excluded tests *)

(** test [t] was forced to run on worker [w] *)
Definition forced_on (conf : @dict wconf) (w t : nat) : Prop := exists wc, d_get w conf = Some wc /\ In t (wc_forced wc).
Definition excluded_on (conf : @dict wconf) (w t : nat) : Prop := exists wc, d_get w conf = Some wc /\ In t (wc_excluded wc).

Lemma set_all w l : forall (d : @dict nat) t v, d_get t (fold_left (fun d t => d_set t w d) l d) = Some v ->
  (In t l /\ v = w) \/ (~ In t l /\ d_get t d = Some v).
Proof.
  induction l as [|u l IH]; simpl; intros d t v H; [right; auto|].
  apply IH in H as [[I E]|[N E]]; [left; auto|]. rewrite d_get_set in E. destruct (Nat.eqb_spec t u).
  - inversion E; subst. left. auto.
  - right. split; auto. intros [Q|Q]; [congruence|auto].
Qed.
Lemma set_all_none w l : forall (d : @dict nat) t, d_get t (fold_left (fun d t => d_set t w d) l d) = None -> ~ In t l /\ d_get t d = None.
Proof.
  induction l as [|u l IH]; simpl; intros d t H; auto. apply IH in H as [N E]. rewrite d_get_set in E.
  destruct (Nat.eqb_spec t u); [discriminate|]. split; auto. intros [Q|Q]; [congruence|auto].
Qed.
Lemma forced_dict_some conf : forall t w, d_get t (forced_dict conf) = Some w -> exists wc, In (w, wc) conf /\ In t (wc_forced wc).
Proof.
  unfold forced_dict. assert (G : forall d t w, d_get t (fold_left (fun d (wc : nat * wconf) => fold_left (fun d t => d_set t (fst wc) d) (wc_forced (snd wc)) d) conf d) = Some w ->
    (exists wc, In (w, wc) conf /\ In t (wc_forced wc)) \/ d_get t d = Some w).
  { induction conf as [|[w0 wc0] conf IH]; simpl; intros d t w H; auto. apply IH in H as [[wc [I J]]|H]; [left; exists wc; auto|].
    apply set_all in H as [[I ->]|[_ H]]; auto. left. exists wc0. auto. }
  intros t w H. apply G in H as [H|H]; [auto|discriminate].
Qed.
Lemma forced_dict_none conf : forall t, d_get t (forced_dict conf) = None -> forall w wc, In (w, wc) conf -> ~ In t (wc_forced wc).
Proof.
  unfold forced_dict. assert (G : forall d t, d_get t (fold_left (fun d (wc : nat * wconf) => fold_left (fun d t => d_set t (fst wc) d) (wc_forced (snd wc)) d) conf d) = None ->
    (forall w wc, In (w, wc) conf -> ~ In t (wc_forced wc)) /\ d_get t d = None).
  { induction conf as [|[w0 wc0] conf IH]; simpl; intros d t H; [split; [intros ? ? []|auto]|]. apply IH in H as [H1 H2].
    apply set_all_none in H2 as [H2 H3]. split; auto. intros w wc [E|I]; [inversion E; subst; auto|eauto]. }
  intros t H. apply G in H as [H _]. auto.
Qed.

(** the snapshot of forced tests never changes and exclusions are never withdrawn *)
Lemma handle_conf num tests x s s' r : handle num tests x s = (s', r) -> sv_forced s' = sv_forced s
  /\ (forall w t, excluded_on (sv_conf s) w t -> excluded_on (sv_conf s') w t).
Proof.
  intros H. destruct x as [c h|c l|c f|c h|c b st|c| | | |c t|c t]; simpl in H.
  - unfold connect in H. destruct h; [inversion H; subst; auto|]. destruct (Nat.leb _ _); inversion H; subst; simpl; auto.
  - unfold validate_collection in H. destruct (negb _); [inversion H; subst; auto|]. destruct (_ && _); inversion H; subst; simpl; auto.
  - unfold disconnect in H. destruct (mem _ _); [destruct f|]; inversion H; subst; simpl; auto.
  - unfold get_test in H. destruct (d_get c (sv_exec s)) as [[t|]|]; try (inversion H; subst; auto).
    destruct (sv_state s) eqn:Es; simpl in H; try (inversion H; subst; simpl; split; auto; congruence).
    destruct (sv_unstarted s) as [|u us]; simpl in H; [inversion H; subst; simpl; auto|].
    destruct (can_execute s u c) as [[|]|]; [|destruct (next_test s c us) as [[t|]|]|]; try (inversion H; subst; auto).
    + destruct (nth_error _ u); inversion H; subst; simpl; auto.
    + destruct (nth_error _ t); inversion H; subst; simpl; auto.
  - unfold finished_test in H. destruct (d_get c (sv_exec s)) as [[t|]|]; try (inversion H; subst; auto).
    unfold create_result in H. destruct (mem t _); [inversion H; subst; simpl; auto|].
    destruct b; [inversion H; subst; simpl; auto|]. destruct st; [|inversion H; subst; simpl; auto].
    unfold mark_unrun_tests in H. destruct (mark_loop _ _) as [s1 o] eqn:E. apply mark_frame in E as [_ [_ [_ [_ [E1 E2]]]]]. simpl in E1, E2.
    assert (s1 = s') by (destruct o; inversion H; auto). subst. rewrite E1, E2. auto.
  - unfold report_client_failure in H. destruct (mem c _); [|inversion H; subst; auto].
    simpl in H. unfold create_result, mark_unrun_tests in H. simpl in H.
    assert (Gn : forall l s0, sv_conf s0 = sv_conf s -> sv_forced s0 = sv_forced s ->
      (let (s', o) := mark_loop l s0 in match o with Some e => (s', RFault e) | None => (set_error true s', RNone) end) = (s', r) ->
      sv_forced s' = sv_forced s /\ (forall w t, excluded_on (sv_conf s) w t -> excluded_on (sv_conf s') w t)).
    { intros l s0 E1 E2 Q. destruct (mark_loop l s0) as [s1 o] eqn:E. apply mark_frame in E as [_ [_ [_ [_ [E3 E4]]]]].
      assert (sv_conf s' = sv_conf s1 /\ sv_forced s' = sv_forced s1) as [-> ->] by (destruct o; inversion Q; auto).
      rewrite E3, E4, E1, E2. auto. }
    destruct (d_get c (sv_exec s)) as [[t|]|].
    + destruct (mem t _); [inversion H; subst; simpl; auto|]. eapply Gn; [| |exact H]; auto.
    + eapply Gn; [| |exact H]; auto.
    + eapply Gn; [| |exact H]; auto.
  - inversion H; subst. unfold session_interrupted. destruct (sstate_eqb _ _); simpl; auto.
  - inversion H; subst. simpl. auto.
  - inversion H; subst; simpl; auto.
  - unfold reconf in H. destruct (d_get c (sv_conf s)) as [w|] eqn:Ew; [destruct (exclude_test t w) as [w'|] eqn:Ex|]; inversion H; subst; simpl; auto.
    split; auto. intros v u [wc [Q1 Q2]]. unfold excluded_on. rewrite d_get_set. destruct (Nat.eqb_spec v c); [|eauto]. subst.
    exists w'. split; auto. unfold exclude_test in Ex. destruct (mem _ _); inversion Ex; subst. simpl. apply add_In. right. congruence.
  - unfold reconf in H. destruct (d_get c (sv_conf s)) as [w|] eqn:Ew; [destruct (force_test t w) as [w'|] eqn:Ex|]; inversion H; subst; simpl; auto.
    split; auto. intros v u [wc [Q1 Q2]]. unfold excluded_on. rewrite d_get_set. destruct (Nat.eqb_spec v c); [|eauto]. subst.
    exists w'. split; auto. unfold force_test in Ex. destruct (mem _ _); inversion Ex; subst. simpl. congruence.
Qed.

Lemma next_test_first s c l t : StronglySorted lt l -> next_test s c l = inl (Some t) ->
  forall u, In u l -> u < t -> can_execute s u c = Some false.
Proof.
  induction 1 as [|x l Hs IH F]; simpl; [discriminate|]. intros E u [<-|I] L.
  - destruct (can_execute s x c) as [[|]|]; auto; [inversion E; lia|discriminate].
  - destruct (can_execute s x c) as [[|]|] eqn:Q; [|auto|discriminate]. inversion E; subst. rewrite Forall_forall in F. specialize (F u I). lia.
Qed.

Lemma get_next num tests c h s s' d t : handle num tests (CGet c h) s = (s', RTest d t) ->
  next_test s c (sv_unstarted s) = inl (Some t) /\ nth_error (map desc_of tests) t = Some d.
Proof.
  intros H. simpl in H. unfold get_test in H. destruct (d_get c (sv_exec s)) as [[x|]|]; try discriminate.
  destruct (sv_state s) eqn:Es; simpl in H; try discriminate. destruct (sv_unstarted s) as [|u us] eqn:Eu; [discriminate|].
  cbn [negb] in H. destruct (next_test s c (u :: us)) as [[x|]|]; try discriminate.
  unfold collection in H. destruct (nth_error (map desc_of tests) x) as [d'|] eqn:En; [|discriminate]. destruct h; [discriminate|].
  inversion H; subst. auto.
Qed.

Lemma serve_conf num tests l : forall s s' tr, serve num tests l s = (s', tr) -> sv_forced s' = sv_forced s
  /\ (forall w t, excluded_on (sv_conf s) w t -> excluded_on (sv_conf s') w t)
  /\ (StronglySorted lt (sv_unstarted s) -> StronglySorted lt (sv_unstarted s')).
Proof.
  induction l as [|x l IH]; simpl; intros s s' tr H; [inversion H; subst; auto|].
  destruct (sstate_eqb _ _); [inversion H; subst; auto|]. destruct (handle num tests x s) as [s1 r] eqn:E.
  destruct (serve num tests l s1) as [s2 rs] eqn:Es. inversion H; subst. apply handle_conf in E as Hc. destruct Hc as [H1 H2].
  apply IH in Es as [H3 [H4 H5]]. split; [congruence|]. split; auto. intros Q. apply H5.
  destruct (handle_unstarted _ _ _ _ _ _ E) as [_ [G|[G|[u [_ G]]]]]; rewrite G; auto; [constructor|apply remove1_sorted; auto].
Qed.

(** the worker that gets a test is one it was forced on, if it was forced at all, and
    otherwise one it is not excluded from; and every earlier test not handed out yet
    is forced on another worker, or excluded from this one *)
Theorem C36_restrictions : forall num tests conf calls s tr c h s' d t, d_ok conf ->
  serve num tests calls (init tests conf) = (s, tr) -> handle num tests (CGet c h) s = (s', RTest d t) ->
  ((exists w, forced_on conf w t) -> forced_on conf c t)
  /\ ((forall w, ~ forced_on conf w t) -> ~ excluded_on (sv_conf s) c t /\ ~ excluded_on conf c t)
  /\ (forall u, In u (sv_unstarted s) -> u < t ->
        (exists w, w <> c /\ forced_on conf w u) \/ ((forall w, ~ forced_on conf w u) /\ excluded_on (sv_conf s) c u)).
Proof.
  intros num tests conf calls s tr c h s' d t Ok H G. apply serve_conf in H as [H1 [H2 H3]]. simpl in H1, H2.
  apply get_next in G as [G _].
  assert (Hs : StronglySorted lt (sv_unstarted s)) by (apply H3; apply (i_sorted _ _ (init_inv tests conf))).
  assert (Can : forall u b, can_execute s u c = Some b -> (exists w, d_get u (forced_dict conf) = Some w /\ b = Nat.eqb w c /\ forced_on conf w u)
     \/ ((forall w, ~ forced_on conf w u) /\ exists wc, d_get c (sv_conf s) = Some wc /\ b = negb (mem u (wc_excluded wc)))).
  { intros u b Q. unfold can_execute in Q. rewrite H1 in Q. destruct (d_get u (forced_dict conf)) as [w|] eqn:Ef.
    - inversion Q. left. exists w. split; auto. split; auto. apply forced_dict_some in Ef as [wc [I J]]. exists wc. split; auto. apply d_pair_get; auto.
    - right. split.
      + intros w [wc [J1 J2]]. apply d_get_pair in J1. apply (forced_dict_none conf u Ef w wc J1 J2).
      + destruct (d_get c (sv_conf s)) as [wc|]; [|discriminate]. inversion Q. eauto. }
  pose proof (next_test_In _ _ _ _ G) as [_ Ct].
  apply Can in Ct as Ct'. split; [|split].
  - intros [w Fw]. destruct Ct' as [[w' [_ [E F]]]|[N _]]; [|destruct (N w Fw)]. symmetry in E. apply Nat.eqb_eq in E. subst. auto.
  - intros N. destruct Ct' as [[w' [_ [E F]]]|[_ [wc [E1 E2]]]]; [destruct (N w' F)|].
    assert (X : ~ excluded_on (sv_conf s) c t).
    { intros [wc' [Q1 Q2]]. assert (wc' = wc) by congruence. subst. apply mem_In in Q2. rewrite Q2 in E2. discriminate. }
    split; auto.
  - intros u I L. apply (next_test_first s c _ t Hs G u I) in L. apply Can in L as [[w' [_ [E F]]]|[N [wc [E1 E2]]]].
    + left. exists w'. split; auto. symmetry in E. apply Nat.eqb_neq in E. auto.
    + right. split; auto. exists wc. split; auto. apply mem_In. destruct (mem u _); [auto|discriminate].
Qed.
Print Assumptions C36_restrictions.

(** forcing and excluding exclude each other for a worker, in any sequence of requests *)
Theorem C36_consistent : forall (requests : list (bool * nat)),
  let w := fold_left (fun w (q : bool * nat) => match (if fst q then force_test (snd q) w else exclude_test (snd q) w) with Some w' => w' | None => w end)
             requests (mkConf [] []) in
  forall t, ~ (In t (wc_forced w) /\ In t (wc_excluded w)).
Proof.
  intros requests. cbv zeta. assert (H0 : forall t, ~ (In t (wc_forced (mkConf [] [])) /\ In t (wc_excluded (mkConf [] [])))) by (intros t [[] _]).
  revert H0. generalize (mkConf [] []). induction requests as [|[b u] l IH]; simpl; intros w H; auto. apply IH. intros t.
  destruct b; simpl; unfold force_test, exclude_test.
  - destruct (mem u (wc_excluded w)) eqn:E; [apply H|]. apply mem_false in E. simpl. rewrite add_In.
    intros [[->|Q] R]; [auto|apply (H t); auto].
  - destruct (mem u (wc_forced w)) eqn:E; [apply H|]. apply mem_false in E. simpl. rewrite add_In.
    intros [Q [->|R]]; [auto|apply (H t); auto].
Qed.
Print Assumptions C36_consistent.

(** a request while the server runs is refused exactly if there is no such worker or
    the opposite was requested before; it changes the configuration of that worker
    only, and there only for this test; a refused one changes nothing *)
Theorem C36_requests num tests c t s :
  (let (s', r) := handle num tests (CForce c t) s in
   (r = RNone \/ r = RFault EKey \/ r = RFault EHook) /\
   (r = RFault EKey <-> d_get c (sv_conf s) = None) /\
   (r = RFault EHook <-> excluded_on (sv_conf s) c t) /\
   (r <> RNone -> s' = s) /\
   (r = RNone -> forall w u, (forced_on (sv_conf s') w u <-> forced_on (sv_conf s) w u \/ (w = c /\ u = t)) /\
                             (excluded_on (sv_conf s') w u <-> excluded_on (sv_conf s) w u))) /\
  (let (s', r) := handle num tests (CExclude c t) s in
   (r = RNone \/ r = RFault EKey \/ r = RFault EHook) /\
   (r = RFault EKey <-> d_get c (sv_conf s) = None) /\
   (r = RFault EHook <-> forced_on (sv_conf s) c t) /\
   (r <> RNone -> s' = s) /\
   (r = RNone -> forall w u, (excluded_on (sv_conf s') w u <-> excluded_on (sv_conf s) w u \/ (w = c /\ u = t)) /\
                             (forced_on (sv_conf s') w u <-> forced_on (sv_conf s) w u))).
Proof.
  assert (K : forall (p q : wconf -> list nat) (f : wconf -> option wconf) (g : wconf -> wconf),
    (forall w, f w = if mem t (q w) then None else Some (g w)) -> (forall w u, In u (p (g w)) <-> u = t \/ In u (p w)) -> (forall w, q (g w) = q w) ->
    let on (h : wconf -> list nat) conf w u := exists wc, d_get w conf = Some wc /\ In u (h wc) in
    let (s', r) := reconf f c s in
   (r = RNone \/ r = RFault EKey \/ r = RFault EHook) /\
   (r = RFault EKey <-> d_get c (sv_conf s) = None) /\
   (r = RFault EHook <-> on q (sv_conf s) c t) /\
   (r <> RNone -> s' = s) /\
   (r = RNone -> forall w u, (on p (sv_conf s') w u <-> on p (sv_conf s) w u \/ (w = c /\ u = t)) /\
                             (on q (sv_conf s') w u <-> on q (sv_conf s) w u))).
  { intros p q f g F P Q on. unfold reconf. destruct (d_get c (sv_conf s)) as [wc|] eqn:D.
    - rewrite F. destruct (mem t (q wc)) eqn:M.
      + split; [auto|]. split; [split; discriminate|]. split; [|split; [auto|discriminate]].
        split; [|auto]. intros _. exists wc. split; [exact D|]. apply mem_In. exact M.
      + split; [auto|]. split; [split; discriminate|]. split; [|split; [congruence|]].
        { split; [discriminate|]. intros (x & X & Y). rewrite D in X. injection X as <-. apply mem_In in Y. congruence. }
        intros _ w u. unfold on. cbn [set_conf sv_conf]. rewrite !d_get_set. destruct (Nat.eqb_spec w c) as [->|N].
        * rewrite D. split; split.
          -- intros (x & X & Y). injection X as <-. apply P in Y as [->|Y]; [right; auto|left; exists wc; auto].
          -- intros [(x & X & Y)|[_ ->]]; [injection X as <-; exists (g wc); split; [reflexivity|]; apply P; auto|].
             exists (g wc). split; [reflexivity|]. apply P. auto.
          -- intros (x & X & Y). injection X as <-. rewrite Q in Y. exists wc. auto.
          -- intros (x & X & Y). injection X as <-. exists (g wc). rewrite Q. auto.
        * split; [|reflexivity]. split; [auto|]. intros [X|[X _]]; [exact X|congruence].
    - split; [auto|]. split; [split; auto|]. split; [|split; [auto|discriminate]]. split; [discriminate|].
      intros (x & X & _). rewrite D in X. discriminate. }
  split.
  - refine (K wc_forced wc_excluded (force_test t) (fun w => mkConf (add t (wc_forced w)) (wc_excluded w)) _ _ _); [reflexivity| |reflexivity].
    intros w u. apply add_In.
  - refine (K wc_excluded wc_forced (exclude_test t) (fun w => mkConf (wc_forced w) (add t (wc_excluded w))) _ _ _); [reflexivity| |reflexivity].
    intros w u. apply add_In.
Qed.
Print Assumptions C36_requests.

(** a test object stands for its place among the loaded tests: it is refused if it is none of them or excluded from
    the worker, and otherwise that place, and only that, is forced in addition *)
Theorem C36_objects loaded t w :
  (force_test_object loaded t w = None <->
     ~ In t loaded \/ exists pre post, loaded = pre ++ t :: post /\ ~ In t pre /\ In (length pre) (wc_excluded w)) /\
  (forall w', force_test_object loaded t w = Some w' ->
     exists pre post, loaded = pre ++ t :: post /\ ~ In t pre /\
       (forall u, In u (wc_forced w') <-> u = length pre \/ In u (wc_forced w)) /\ wc_excluded w' = wc_excluded w).
Proof.
  assert (P : match position t loaded with
              | None => ~ In t loaded
              | Some i => exists pre post, loaded = pre ++ t :: post /\ ~ In t pre /\ i = length pre end).
  { induction loaded as [|x l IH]; [intros []|]. cbn [position]. destruct (Nat.eqb_spec t x) as [->|N].
    - exists [], l. split; [reflexivity|]. split; [intros []|reflexivity].
    - destruct (position t l) as [i|]; cbn [option_map].
      + destruct IH as (pre & post & -> & M & ->). exists (x :: pre), post. split; [reflexivity|]. split; [|reflexivity].
        intros [E|I]; [congruence|auto].
      + intros [E|I]; [congruence|auto]. }
  assert (U : forall pre post pre' post', pre ++ t :: post = pre' ++ t :: post' -> ~ In t pre -> ~ In t pre' -> length pre = length pre').
  { clear. induction pre as [|a pre IH]; destruct pre' as [|b pre']; cbn; intros post' E A B; auto.
    - injection E as -> _. destruct B. left. reflexivity.
    - injection E as -> _. destruct A. left. reflexivity.
    - injection E as -> E. f_equal. eapply IH; eauto. }
  unfold force_test_object, parallel_index. destruct (position t loaded) as [i|].
  - destruct P as (pre & post & E & N & ->). unfold force_test. destruct (mem (length pre) (wc_excluded w)) eqn:M.
    + split; [|discriminate]. split; [|auto]. intros _. right. exists pre, post. split; [exact E|]. split; [exact N|]. apply mem_In. exact M.
    + split.
      * split; [discriminate|]. intros [K|(pre' & post' & E' & N' & K)].
        -- destruct K. rewrite E. apply in_or_app. right. left. reflexivity.
        -- rewrite E in E'. rewrite <- (U _ _ _ _ E' N N') in K. apply mem_In in K. congruence.
      * intros w' Q. injection Q as <-. exists pre, post. split; [exact E|]. split; [exact N|]. split; [|reflexivity].
        intros u. cbn [wc_forced]. apply add_In.
  - split; [|discriminate]. split; auto.
Qed.
Print Assumptions C36_objects.

Example ex_objects : force_test_object [7; 8; 9] 9 (mkConf [0] [1]) = Some (mkConf [2; 0] [1]).
Proof. reflexivity. Qed.
Example ex_objects_refused : map (fun t => force_test_object [7; 8; 9] t (mkConf [] [1])) [8; 6] = [None; None].
Proof. reflexivity. Qed.

(** all three answers *)
Example ex_requests :
  let s := init x_tests [(1, mkConf [] [1])] in
  map (fun x => snd (handle 1 x_tests x s)) [CForce 1 0; CForce 1 1; CForce 2 0; CExclude 1 0]
  = [RNone; RFault EHook; RFault EKey; RNone].
Proof. reflexivity. Qed.

(** test 0 forced on worker 2, test 1 excluded from worker 1: worker 1 gets test 2 first
    and worker 2 gets 0 and 1 *)
Definition restricted : @dict wconf := [(1, mkConf [] [1]); (2, mkConf [0] [])].
Example ex_restricted :
  map snd (snd (run 2 x_tests [W 1; W 2; W 1; W 2; W 1; W 2; W 2; W 2; W 1; W 1] (start 2 x_tests restricted)))
  = [RNone; RNone; RBool true; RBool true; RTest (1, 3, 0) 2; RTest (1, 1, 0) 0; RNone; RTest (1, 2, 0) 1; RNone; RNoMore].
Proof. vm_compute. reflexivity. Qed.

(** not honoured: force_test called after the server was created, as from the
    before_worker_start hook *)
Theorem C36_forced_late_refuted : exists labels, let (y, tr) := x_run labels in
  forced_on (sv_conf (sy_server y)) 2 0 /\ exists pre post, tr = (CForce 2 0, RNone) :: pre ++ (CGet 1 false, RTest (1, 1, 0) 0) :: post.
Proof.
  exists [LForce 2 0; W 1; W 2; W 1; W 2; W 1].
  change (x_run [LForce 2 0; W 1; W 2; W 1; W 2; W 1]) with (run 2 x_tests [LForce 2 0; W 1; W 2; W 1; W 2; W 1] (start 2 x_tests x_conf)).
  vm_compute. split; [exists (mkConf [0] []); split; [reflexivity|left; reflexivity]|].
  eexists [_; _; _; _], []. reflexivity.
Qed.
Print Assumptions C36_forced_late_refuted.

(** not honoured: force_test given a test object when sorting changed the order of the
    tests. [loaded] and [ordered] are the tests (by number) before and after sorting:
    test 7 is forced on worker 1 but the test given to worker 2 is test 7 *)
Theorem C36_forced_object_refuted : exists loaded ordered w, Permutation loaded ordered
  /\ force_test_object loaded 7 (mkConf [] []) = Some w
  /\ exists d t post, snd (run 2 x_tests [W 1; W 2; W 1; W 2; W 2] (start 2 x_tests [(1, w); (2, mkConf [] [])]))
       = post ++ [(CGet 2 false, RTest d t)] /\ nth_error ordered t = Some 7.
Proof.
  exists [7; 8; 9], [8; 7; 9], (mkConf [0] []). split; [constructor|]. split; [reflexivity|].
  exists (1, 2, 0), 1. vm_compute. eexists [_; _; _; _]. split; reflexivity.
Qed.
Print Assumptions C36_forced_object_refuted.

(** ** C68: a worker is sent away only if nothing is left for it *)
Theorem C68_no_more : forall num tests conf calls s tr c h s', d_ok conf ->
  serve num tests calls (init tests conf) = (s, tr) -> sv_state s = Serve -> handle num tests (CGet c h) s = (s', RNoMore) ->
  (forall u, In u (sv_unstarted s) -> (exists w, w <> c /\ forced_on conf w u) \/ ((forall w, ~ forced_on conf w u) /\ excluded_on (sv_conf s) c u))
  /\ (sv_unstarted s <> [] -> s' = s).
Proof.
  intros num tests conf calls s tr c h s' Ok H Es G. apply serve_conf in H as [H1 [H2 H3]]. simpl in H1, H2.
  simpl in G. unfold get_test in G. destruct (d_get c (sv_exec s)) as [[x|]|]; try discriminate. rewrite Es in G. simpl in G.
  assert (Nx : forall l, next_test s c l = inl None -> forall u, In u l -> can_execute s u c = Some false).
  { clear. induction l as [|x l IH]; simpl; intros E u I; [destruct I|]. destruct (can_execute s x c) as [[|]|] eqn:Q; try discriminate.
    destruct I as [<-|I]; auto. }
  destruct (sv_unstarted s) as [|v us] eqn:Eu; [split; [intros u []|congruence]|]. cbn [negb] in G.
  destruct (next_test s c (v :: us)) as [[x|]|] eqn:En; try discriminate.
  { destruct (nth_error _ x); [destruct h|]; discriminate. }
  inversion G; subst. split; auto. intros u I. apply (Nx _ En) in I. unfold can_execute in I. rewrite H1 in I.
  destruct (d_get u (forced_dict conf)) as [w|] eqn:Ef.
  - left. exists w. inversion I. apply Nat.eqb_neq in H0. split; auto. apply forced_dict_some in Ef as [wc [J1 J2]]. exists wc. split; auto. apply d_pair_get; auto.
  - right. split.
    + intros w [wc [J1 J2]]. apply d_get_pair in J1. apply (forced_dict_none conf u Ef w wc J1 J2).
    + destruct (d_get c (sv_conf s')) as [wc|] eqn:Q; [|discriminate]. inversion I. exists wc. split; auto. apply mem_In. destruct (mem u _); [auto|discriminate].
Qed.
Print Assumptions C68_no_more.

Example ex_no_more : let (y, tr) := run 2 x_tests [W 1; W 2; W 1; W 2; W 1; W 1; W 1] (start 2 x_tests restricted) in
  map snd tr = [RNone; RNone; RBool true; RBool true; RTest (1, 3, 0) 2; RNone; RNoMore]
  /\ sv_state (sy_server y) = Serve /\ sv_unstarted (sy_server y) = [0; 1].
Proof. vm_compute. auto. Qed.

(** ** C37: a failed worker *)

Lemma handle_results num tests x s s' r : handle num tests x s = (s', r) -> exists l, sv_results s' = l ++ sv_results s.
Proof.
  assert (Mk : forall l s s' o, mark_loop l s = (s', o) -> exists m, sv_results s' = m ++ sv_results s).
  { induction l as [|t l IH]; simpl; intros s0 s0' o H; [inversion H; subst; exists []; auto|].
    unfold create_result in H. destruct (mem t _); [inversion H; subst; exists []; auto|]. apply IH in H as [m H]. simpl in H.
    exists (m ++ [(t, KUnrun)]). rewrite <- app_assoc. auto. }
  intros H. destruct x as [c h|c l|c f|c h|c b st|c| | | |c t|c t]; simpl in H.
  - unfold connect in H. destruct h; [inversion H; subst; exists []; auto|]. destruct (Nat.leb _ _); inversion H; subst; exists []; auto.
  - unfold validate_collection in H. destruct (negb _); [inversion H; subst; exists []; auto|]. destruct (_ && _); inversion H; subst; exists []; auto.
  - unfold disconnect in H. destruct (mem _ _); [destruct f|]; inversion H; subst; exists []; auto.
  - unfold get_test in H. destruct (d_get c (sv_exec s)) as [[t|]|]; try (inversion H; subst; exists []; auto; fail).
    destruct (sv_state s) eqn:Es; simpl in H; try (inversion H; subst; simpl; exists []; auto; fail).
    destruct (sv_unstarted s) as [|u us]; simpl in H; [inversion H; subst; simpl; exists []; auto|].
    destruct (can_execute s u c) as [[|]|]; [|destruct (next_test s c us) as [[t|]|]|]; try (inversion H; subst; exists []; auto; fail).
    + destruct (nth_error _ u); inversion H; subst; simpl; exists []; auto.
    + destruct (nth_error _ t); inversion H; subst; simpl; exists []; auto.
  - unfold finished_test in H. destruct (d_get c (sv_exec s)) as [[t|]|]; try (inversion H; subst; exists []; auto; fail).
    unfold create_result in H. destruct (mem t _); [inversion H; subst; simpl; exists []; auto|].
    destruct b; [inversion H; subst; simpl; exists [(t, KReported)]; auto|]. destruct st; [|inversion H; subst; simpl; exists [(t, KReported)]; auto].
    unfold mark_unrun_tests in H. destruct (mark_loop _ _) as [s1 o] eqn:E. apply Mk in E as [m E]. simpl in E.
    assert (s1 = s') by (destruct o; inversion H; auto). subst. exists (m ++ [(t, KReported)]). rewrite <- app_assoc. auto.
  - unfold report_client_failure in H. destruct (mem c _); [|inversion H; subst; exists []; auto].
    simpl in H. unfold create_result, mark_unrun_tests in H. simpl in H.
    assert (Gn : forall l s0 m0, sv_results s0 = m0 ++ sv_results s ->
      (let (s', o) := mark_loop l s0 in match o with Some e => (s', RFault e) | None => (set_error true s', RNone) end) = (s', r) ->
      exists m, sv_results s' = m ++ sv_results s).
    { intros l s0 m0 E1 Q. destruct (mark_loop l s0) as [s1 o] eqn:E. apply Mk in E as [m E].
      assert (sv_results s' = sv_results s1) as -> by (destruct o; inversion Q; auto). exists (m ++ m0). rewrite <- app_assoc. congruence. }
    destruct (d_get c (sv_exec s)) as [[t|]|].
    + destruct (mem t _); [inversion H; subst; simpl; exists []; auto|]. eapply (Gn _ _ [(t, KInterrupted)]); [|exact H]; auto.
    + eapply (Gn _ _ []); [|exact H]; auto.
    + eapply (Gn _ _ []); [|exact H]; auto.
  - inversion H; subst. unfold session_interrupted. destruct (sstate_eqb _ _); simpl; exists []; auto.
  - inversion H; subst. simpl. exists []; auto.
  - inversion H; subst; simpl; exists []; auto.
  - unfold reconf in H. destruct (d_get c (sv_conf s)) as [w|]; [destruct (exclude_test t w)|]; inversion H; subst; exists []; auto.
  - unfold reconf in H. destruct (d_get c (sv_conf s)) as [w|]; [destruct (force_test t w)|]; inversion H; subst; exists []; auto.
Qed.

Lemma step_results num tests l y : exists m, sv_results (sy_server (fst (step num tests l y))) = m ++ sv_results (sy_server y).
Proof.
  assert (Ask : forall x W, exists m, sv_results (sy_server (fst (let (s1, r) := handle num tests x (sy_server y) in (mkSystem s1 (W r), [(x, r)])))) = m ++ sv_results (sy_server y)).
  { intros x W. destruct (handle num tests x (sy_server y)) as [s1 r] eqn:E. apply handle_results in E. exact E. }
  assert (Id : exists m, sv_results (sy_server y) = m ++ sv_results (sy_server y)) by (exists []; auto).
  unfold step. destruct l as [c ch|c|c| | | |c t|c t]; try (destruct (sstate_eqb _ _); [exact Id|]; apply (Ask _ (fun _ => sy_workers y))).
  - destruct (d_get c (sy_workers y)) as [p|]; [|exact Id]. destruct (next_call c p ch) as [x|]; [|exact Id].
    destruct (sstate_eqb _ _); [exact Id|]. apply (Ask x (fun r => d_set c (next_pc p r) (sy_workers y))).
  - destruct (d_get c (sy_workers y)); exact Id.
Qed.
Lemma run_results num tests l : forall y, exists m, sv_results (sy_server (fst (run num tests l y))) = m ++ sv_results (sy_server y).
Proof.
  induction l as [|x l IH]; simpl; intros y; [exists []; auto|]. destruct (step_results num tests x y) as [m Hm].
  destruct (step num tests x y) as [y1 e1]. simpl in Hm. destruct (IH y1) as [m' Hm']. destruct (run num tests l y1). simpl in *.
  exists (m' ++ m). rewrite <- app_assoc. congruence.
Qed.
Lemma run_app num tests l : forall l' y, run num tests (l ++ l') y
  = let (y1, e1) := run num tests l y in let (y2, e2) := run num tests l' y1 in (y2, e1 ++ e2).
Proof.
  induction l as [|x l IH]; simpl; intros l' y; [destruct (run num tests l' y); auto|].
  destruct (step num tests x y) as [y1 e1]. rewrite IH. destruct (run num tests l y1) as [y2 e2]. destruct (run num tests l' y2).
  rewrite app_assoc. auto.
Qed.

(** the test of a worker reported as failed gets one result, "interrupted", for good,
    whatever the worker sends afterwards *)
Theorem C37_one_result : forall num tests conf before later c t,
  let y := fst (run num tests before (start num tests conf)) in
  sv_state (sy_server y) <> StopServe -> In c (sv_connected (sy_server y)) -> d_get c (sv_exec (sy_server y)) = Some (Some t) ->
  let s := sy_server (fst (run num tests (before ++ LTimeout c :: later) (start num tests conf))) in
  In (t, KInterrupted) (sv_results s) /\ forall k, In (t, k) (sv_results s) -> k = KInterrupted.
Proof.
  intros num tests conf before later c t y Ns Ic Ec s.
  pose proof (run_inv num tests before _ (start_inv num tests conf)) as [Hi _]. fold y in Hi.
  assert (In (t, KInterrupted) (sv_results s)) as I.
  { unfold s. rewrite run_app. unfold y in *. destruct (run num tests before (start num tests conf)) as [y0 e0]. cbn [fst] in *.
    cbn [run step]. destruct (sstate_eqb (sv_state (sy_server y0)) StopServe) eqn:Q; [apply sstate_eqb_eq in Q; contradiction|].
    destruct (handle num tests (CFailure c) (sy_server y0)) as [s1 r] eqn:E.
    destruct (failure_empty num tests c _ _ _ Hi E Ic) as [_ [_ [_ [_ F]]]]. destruct (F t Ec) as [_ F2].
    pose proof (run_results num tests later (mkSystem s1 (sy_workers y0))) as [m Hm].
    destruct (run num tests later (mkSystem s1 (sy_workers y0))). simpl in *. rewrite Hm. apply in_app_iff. auto. }
  split; auto. intros k J.
  pose proof (run_inv num tests (before ++ LTimeout c :: later) _ (start_inv num tests conf)) as [Hj _]. fold s in Hj.
  pose proof (i_once _ _ Hj) as Nd. clear - I J Nd. induction (sv_results s) as [|[u k'] l IH]; [destruct I|].
  simpl in Nd. apply NoDup_cons_iff in Nd as [Nu Nd]. destruct I as [I|I], J as [J|J]; try congruence; auto.
  - inversion I; subst. destruct Nu. apply in_map_iff. exists (t, k). auto.
  - inversion J; subst. destruct Nu. apply in_map_iff. exists (t, KInterrupted). auto.
Qed.
Print Assumptions C37_one_result.

(** but a late report of the worker does end in an internal error, and the test is
    counted as finished twice *)
Definition late : list label := [W 1; W 2; W 1; W 2; W 1; LTimeout 1; W 1].
Theorem C37_late_report_refuted : exists labels, let (y, tr) := x_run labels in
  In (CFailure 1, RNone) tr /\ In (CFinished 1 false false, RFault EInternal) tr /\ ~ NoDup (sv_finished (sy_server y)).
Proof.
  exists late. unfold late. change (x_run [W 1; W 2; W 1; W 2; W 1; LTimeout 1; W 1]) with (run 2 x_tests [W 1; W 2; W 1; W 2; W 1; LTimeout 1; W 1] (start 2 x_tests x_conf)).
  vm_compute. split; [tauto|]. split; [tauto|]. intros N. apply NoDup_cons_iff in N as [N _]. apply N. simpl. auto.
Qed.
Print Assumptions C37_late_report_refuted.

(** if workers are reported as failed only once they are really gone, there is no
    internal error *)
Fixpoint patient (num : nat) (tests : list ptest) (l : list label) (y : system) : Prop :=
  match l with
  | [] => True
  | x :: l' => (match x with LTimeout c => d_get c (sy_workers y) = Some WGone | _ => True end) /\ patient num tests l' (fst (step num tests x y))
  end.

Definition alive_connected (y : system) : Prop :=
  forall c, match d_get c (sy_workers y) with None | Some WNew | Some WGone => True | _ => In c (sv_connected (sy_server y)) end.

Lemma no_internal num tests x s s' r : inv tests s -> handle num tests x s = (s', r) ->
  (forall c b st, x = CFinished c b st -> In c (sv_connected s)) -> r <> RFault EInternal.
Proof.
  intros Hi H Hc. destruct x as [c h|c l|c f|c h|c b st|c| | | |c t|c t]; simpl in H.
  - unfold connect in H. destruct h; [inversion H; discriminate|]. destruct (Nat.leb _ _); inversion H; discriminate.
  - unfold validate_collection in H. destruct (negb _); [inversion H; discriminate|]. destruct (_ && _); inversion H; discriminate.
  - unfold disconnect in H. destruct (mem _ _); [destruct f|]; inversion H; discriminate.
  - unfold get_test in H. destruct (d_get c (sv_exec s)) as [[t|]|]; try (inversion H; discriminate).
    assert (Ne : forall l e, next_test s c l = inr e -> e = EKey).
    { induction l as [|x l IH]; simpl; intros e Q; [discriminate|]. destruct (can_execute s x c) as [[|]|]; try discriminate; [auto|congruence]. }
    destruct (sv_state s) eqn:Es; simpl in H; try (inversion H; discriminate).
    destruct (sv_unstarted s) as [|u us]; simpl in H; [inversion H; discriminate|].
    destruct (can_execute s u c) as [[|]|]; [|destruct (next_test s c us) as [[t|]|] eqn:En|]; try (inversion H; discriminate).
    + destruct (nth_error _ u); [destruct h|]; inversion H; discriminate.
    + destruct (nth_error _ t); [destruct h|]; inversion H; discriminate.
    + apply Ne in En. subst. inversion H; discriminate.
  - specialize (Hc c b st eq_refl). pose proof Hi as [A B C D E F G R N On K P].
    unfold finished_test in H. destruct (d_get c (sv_exec s)) as [[t|]|] eqn:Ec; try (inversion H; discriminate).
    unfold create_result in H. simpl in H. destruct (mem t _) eqn:Em.
    + apply mem_In, R in Em. destruct (G c t Em Ec Hc).
    + apply mem_false in Em. rewrite R in Em. destruct (C c t Ec) as [Ct Cu]. destruct b; [inversion H; discriminate|]. destruct st; [|inversion H; discriminate].
      rewrite mark_inv in H; simpl in *.
      * inversion H; discriminate.
      * auto.
      * intros u Q W. apply in_app_iff in W as [W|[<-|[]]]; [destruct (E u W)|]; contradiction.
      * intros u. rewrite R, in_app_iff. simpl. tauto.
  - destruct (mem c (sv_connected s)) eqn:Em.
    + apply mem_In in Em. destruct (failure_empty num tests c s s' r Hi H Em) as [_ [-> _]]. discriminate.
    + unfold report_client_failure in H. rewrite Em in H. inversion H; discriminate.
  - inversion H; discriminate.
  - inversion H; discriminate.
  - inversion H; discriminate.
  - unfold reconf in H. destruct (d_get c (sv_conf s)) as [w|]; [destruct (exclude_test t w)|]; inversion H; discriminate.
  - unfold reconf in H. destruct (d_get c (sv_conf s)) as [w|]; [destruct (force_test t w)|]; inversion H; discriminate.
Qed.

Lemma alive_step num tests l y : sys_inv tests y -> alive_connected y -> (match l with LTimeout c => d_get c (sy_workers y) = Some WGone | _ => True end) ->
  alive_connected (fst (step num tests l y)) /\ (forall x, ~ In (x, RFault EInternal) (snd (step num tests l y))).
Proof.
  intros [Hi Hp] Ha Hl.
  assert (Id : alive_connected y /\ (forall x : call, ~ In (x, RFault EInternal) [])) by (split; auto).
  assert (Gone : forall c, alive_connected (mkSystem (sy_server y) (d_set c WGone (sy_workers y))) /\ (forall x : call, ~ In (x, RFault EInternal) [])).
  { intros c. split; auto. intros c'. simpl. rewrite d_get_set. destruct (Nat.eqb_spec c' c); auto. apply Ha. }
  assert (Ask : forall x, (match client x with Some c => d_get c (sy_workers y) = Some WGone | None => True end) ->
     (match x with CFinished _ _ _ => False | _ => True end) ->
     forall r0, r0 = (if sstate_eqb (sv_state (sy_server y)) StopServe then (y, []) else let (s1, r) := handle num tests x (sy_server y) in (mkSystem s1 (sy_workers y), [(x, r)])) ->
     alive_connected (fst r0) /\ (forall x, ~ In (x, RFault EInternal) (snd r0))).
  { intros x Hx Nf r0 ->. destruct (sstate_eqb _ _); [exact Id|]. destruct (handle num tests x (sy_server y)) as [s1 r] eqn:E. cbn [fst snd]. split.
    - intros c. simpl. specialize (Ha c). pose proof (handle_frame num tests x _ _ _ E c) as Fr. destruct (client x) as [c0|].
      + destruct (Nat.eq_dec c c0) as [->|Nc]; [rewrite Hx; auto|]. destruct Fr as [_ F]; [congruence|].
        destruct (d_get c (sy_workers y)) as [[]|]; auto; apply F; auto.
      + destruct Fr as [_ F]; [discriminate|]. destruct (d_get c (sy_workers y)) as [[]|]; auto; apply F; auto.
    - intros x' [Q|[]]. inversion Q as [[Q1 Q2]]. apply (no_internal num tests x _ _ _ Hi E) in Q2; auto. intros c b st ->. contradiction. }
  unfold step. destruct l as [c ch|c|c| | | |c t|c t]; try (eapply Ask; [| |reflexivity]; simpl; auto).
  - destruct (d_get c (sy_workers y)) as [p|] eqn:Ep; [|exact Id]. destruct (next_call c p ch) as [x|] eqn:Ex; [|exact Id].
    destruct (sstate_eqb _ _); [apply Gone|]. destruct (handle num tests x (sy_server y)) as [s1 r] eqn:E. cbn [fst snd].
    pose proof (Ha c) as Hc. rewrite Ep in Hc. split.
    + intros c'. simpl. rewrite d_get_set. pose proof (handle_frame num tests x _ _ _ E c') as Fr.
      assert (Cx : client x = Some c) by (destruct p; simpl in Ex; inversion Ex; subst; reflexivity).
      destruct (Nat.eqb_spec c' c) as [->|Nc].
      * assert (Gc : In c (sv_connected s1) -> match next_pc p r with WNew | WGone => True | _ => In c (sv_connected s1) end) by (destruct (next_pc p r); auto).
        destruct p; simpl in Ex; inversion Ex; subst; clear Fr; simpl in E.
        -- apply Gc. unfold connect in E. destruct (ch_hook ch); [|destruct (Nat.leb _ _)]; inversion E; subst; simpl; apply add_In; auto.
        -- apply Gc. unfold validate_collection in E. destruct (negb _); [|destruct (_ && _)]; inversion E; subst; simpl; auto.
        -- destruct r; simpl; auto.
        -- apply Gc. unfold get_test in E. destruct (d_get c (sv_exec _)) as [[t|]|]; try (inversion E; subst; auto; fail).
           destruct (sv_state _) eqn:Es; simpl in E; try (inversion E; subst; simpl; auto; fail).
           destruct (sv_unstarted _) as [|u us]; simpl in E; [inversion E; subst; simpl; auto|].
           destruct (can_execute _ u c) as [[|]|]; [|destruct (next_test _ c us) as [[t|]|]|]; try (inversion E; subst; auto; fail).
           ++ destruct (nth_error _ u); inversion E; subst; simpl; auto.
           ++ destruct (nth_error _ t); inversion E; subst; simpl; auto.
        -- apply Gc. unfold finished_test in E. destruct (d_get c (sv_exec _)) as [[u|]|]; try (inversion E; subst; auto; fail).
           unfold create_result in E. simpl in E. destruct (mem u _); [inversion E; subst; simpl; auto|].
           destruct (ch_broken ch); [inversion E; subst; simpl; auto|]. destruct (ch_stops ch); [|inversion E; subst; simpl; auto].
           unfold mark_unrun_tests in E. destruct (mark_loop _ _) as [s2 o] eqn:Em. apply mark_frame in Em as [_ [Em _]]. simpl in Em.
           assert (s2 = s1) by (destruct o; inversion E; auto). subst. rewrite Em. auto.
        -- destruct r; simpl; auto.
      * destruct Fr as [_ F]; [congruence|]. specialize (Ha c'). destruct (d_get c' (sy_workers y)) as [[]|]; auto; apply F; auto.
    + intros x' [Q|[]]. inversion Q as [[Q1 Q2]]. apply (no_internal num tests x _ _ _ Hi E) in Q2; auto. intros c0 b st ->.
      destruct p; simpl in Ex; inversion Ex; subst. auto.
  - destruct (d_get c (sy_workers y)); [apply Gone|exact Id].
Qed.

Theorem C37_no_internal_error_partial : forall num tests conf labels,
  patient num tests labels (start num tests conf) ->
  forall x, ~ In (x, RFault EInternal) (snd (run num tests labels (start num tests conf))).
Proof.
  intros num tests conf labels.
  assert (H0 : alive_connected (start num tests conf)).
  { intros c. simpl. generalize 1. induction num as [|n IH]; intros k; simpl; auto. destruct (Nat.eqb c k); auto. apply IH. }
  pose proof (start_inv num tests conf) as H1. revert H0 H1. generalize (start num tests conf).
  induction labels as [|l labels IH]; intros y Ha Hi Hp x; [simpl; auto|]. cbn [patient] in Hp. destruct Hp as [Hl Hp].
  destruct (alive_step num tests l y Hi Ha Hl) as [Ha1 Hn]. pose proof (step_inv num tests l y Hi) as Hi1.
  cbn [run]. destruct (step num tests l y) as [y1 e1]. cbn [fst snd] in *. specialize (IH y1 Ha1 Hi1 Hp x).
  destruct (run num tests labels y1) as [y2 e2]. cbn [snd] in *. rewrite in_app_iff. intros [I|I]; [apply (Hn x I)|auto].
Qed.
Print Assumptions C37_no_internal_error_partial.

(** a worker that died while running a test *)
Definition died : list label := [W 1; W 2; W 1; W 2; W 1; LDie 1; LTimeout 1; W 2; W 2].
Example ex_died : patient 2 x_tests died (start 2 x_tests x_conf)
  /\ sv_results (sy_server (fst (x_run died))) = [(2, KUnrun); (1, KUnrun); (0, KInterrupted)]
  /\ map snd (snd (x_run died)) = [RNone; RNone; RBool true; RBool true; RTest (1, 1, 0) 0; RNone; RNoMore; RNone].
Proof. split; [|split]; vm_compute; auto 20. Qed.

(** ** C66: no test is handed out after a failure with stop_on_error, after a fatal
    error or after the failure of a worker *)

Lemma serve_empty num tests l : forall s s' tr x d t, serve num tests l s = (s', tr) -> sv_unstarted s = [] -> ~ In (x, RTest d t) tr.
Proof.
  induction l as [|y l IH]; simpl; intros s s' tr x d t H E I; [inversion H; subst; destruct I|].
  destruct (sstate_eqb _ _); [inversion H; subst; destruct I|]. destruct (handle num tests y s) as [s1 r] eqn:Eh.
  destruct (serve num tests l s1) as [s2 rs] eqn:Es. inversion H; subst. destruct I as [Q|I].
  - inversion Q; subst. destruct (handle_unstarted _ _ _ _ _ _ Eh) as [H1 _]. destruct (H1 d t eq_refl) as [c [h [_ [J _]]]]. rewrite E in J. destruct J.
  - eapply IH; eauto. eapply handle_empty; eauto.
Qed.

Theorem C66_stops : forall num tests conf calls s pre post c x d t,
  serve num tests calls (init tests conf) = (s, pre ++ (CFinished c false true, RNone) :: post)
  \/ serve num tests calls (init tests conf) = (s, pre ++ (CFailure c, RNone) :: post) ->
  ~ In (x, RTest d t) post.
Proof.
  intros num tests conf calls. generalize (init tests conf). induction calls as [|y l IH]; intros s0 s pre post c x d t H.
  - simpl in H. destruct H as [H|H]; inversion H; destruct pre; discriminate.
  - simpl in H. destruct (sstate_eqb _ _); [destruct H as [H|H]; inversion H; destruct pre; discriminate|].
    destruct (handle num tests y s0) as [s1 r] eqn:E. destruct (serve num tests l s1) as [s2 rs] eqn:Es.
    destruct pre as [|p pre].
    + apply (serve_empty num tests l s1 s2 post); [destruct H as [H|H]; inversion H; subst; auto|].
      destruct H as [H|H]; inversion H; subst.
      * simpl in E. unfold finished_test in E. destruct (d_get c (sv_exec s0)) as [[u|]|]; try discriminate.
        unfold create_result in E. simpl in E. destruct (mem u _); [discriminate|]. unfold mark_unrun_tests in E.
        destruct (mark_loop _ _) as [s3 o] eqn:Em. apply mark_unstarted in Em. destruct o; inversion E; subst. destruct Em as [[_ Em]|[Em _]]; [auto|congruence].
      * simpl in E. unfold report_client_failure in E. destruct (mem c _); [|discriminate]. simpl in E. unfold create_result, mark_unrun_tests in E. simpl in E.
        assert (Gn : forall l s0, (let (s', o) := mark_loop l s0 in match o with Some e => (s', RFault e) | None => (set_error true s', RNone) end) = (s1, RNone) -> sv_unstarted s1 = []).
        { intros l0 s3 Q. destruct (mark_loop l0 s3) as [s4 o] eqn:Em. apply mark_unstarted in Em. destruct o; inversion Q; subst. destruct Em as [[_ Em]|[Em _]]; [auto|congruence]. }
        destruct (d_get c (sv_exec s0)) as [[u|]|].
        -- destruct (mem u _); [discriminate|]. eapply Gn; exact E.
        -- eapply Gn; exact E.
        -- eapply Gn; exact E.
    + apply (IH s1 s2 pre post c x d t). destruct H as [H|H]; inversion H; subst; auto.
Qed.
Print Assumptions C66_stops.

Example ex_stops : map snd (snd (x_run [W 1; W 2; W 1; W 2; W 1; LWorker 1 (mkChoice false [] false true); W 2; W 1]))
  = [RNone; RNone; RBool true; RBool true; RTest (1, 1, 0) 0; RNone; RNoMore; RNoMore].
Proof. vm_compute. reflexivity. Qed.

(** ** C65: no test is handed out after an interruption *)

Lemma stopped_call num tests x s s' r : handle num tests x s = (s', r) -> (sv_state s = StopTests \/ sv_state s = StopServe) ->
  (forall c h, x <> CConnect c h) -> (sv_state s' = StopTests \/ sv_state s' = StopServe) /\ forall d t, r <> RTest d t.
Proof.
  intros H Hs N. split.
  - destruct x as [c h|c l|c f|c h|c b st|c| | | |c t|c t]; simpl in H; try (destruct (N c h); reflexivity).
    + unfold validate_collection in H. destruct (negb _); [inversion H; subst; auto|]. cbv zeta in H. cbn [set_validated sv_state] in H.
      assert (Q : sstate_eqb (sv_state s) WaitValidation = false) by (destruct Hs as [-> | ->]; auto). rewrite Q, andb_false_r in H. inversion H; subst; auto.
    + unfold disconnect in H. destruct (mem _ _); [destruct f|]; inversion H; subst; simpl; auto.
    + unfold get_test in H. destruct (d_get c (sv_exec s)) as [[t|]|]; try (inversion H; subst; auto; fail).
      destruct Hs as [Hs|Hs]; rewrite Hs in H; simpl in H; inversion H; subst; simpl; auto.
    + unfold finished_test in H. destruct (d_get c (sv_exec s)) as [[t|]|]; try (inversion H; subst; auto; fail).
      unfold create_result in H. destruct (mem t _); [inversion H; subst; simpl; auto|].
      destruct b; [inversion H; subst; simpl; auto|]. destruct st; [|inversion H; subst; simpl; auto].
      unfold mark_unrun_tests in H. destruct (mark_loop _ _) as [s1 o] eqn:E. apply mark_frame in E as [_ [_ [E1 _]]]. simpl in E1.
      assert (s1 = s') by (destruct o; inversion H; auto). subst. auto.
    + unfold report_client_failure in H. destruct (mem c _); [|inversion H; subst; auto].
      simpl in H. unfold create_result, mark_unrun_tests in H. simpl in H.
      assert (Gn : forall l s0, sv_state s0 = StopTests ->
        (let (s', o) := mark_loop l s0 in match o with Some e => (s', RFault e) | None => (set_error true s', RNone) end) = (s', r) -> sv_state s' = StopTests).
      { intros l s0 E1 Q. destruct (mark_loop l s0) as [s1 o] eqn:E. apply mark_frame in E as [_ [_ [E3 _]]].
        assert (sv_state s' = sv_state s1) as -> by (destruct o; inversion Q; auto). congruence. }
      destruct (d_get c (sv_exec s)) as [[t|]|].
      * destruct (mem t _); [inversion H; subst; simpl; auto|]. left. eapply Gn; [|exact H]; auto.
      * left. eapply Gn; [|exact H]; auto.
      * left. eapply Gn; [|exact H]; auto.
    + inversion H; subst. unfold session_interrupted. destruct (sstate_eqb _ _) eqn:Q; simpl; auto.
    + inversion H; subst. simpl. auto.
    + inversion H; subst; simpl; auto.
    + unfold reconf in H. destruct (d_get c (sv_conf s)) as [w|]; [destruct (exclude_test t w)|]; inversion H; subst; simpl; auto.
    + unfold reconf in H. destruct (d_get c (sv_conf s)) as [w|]; [destruct (force_test t w)|]; inversion H; subst; simpl; auto.
  - intros d t ->. apply given_serving in H. destruct Hs; congruence.
Qed.

Theorem C65_after_interruption_partial : forall num tests conf calls s pre post,
  serve num tests calls (init tests conf) = (s, pre ++ (CInterrupted, RNone) :: post) ->
  (forall c h r, ~ In (CConnect c h, r) post) -> forall x d t, ~ In (x, RTest d t) post.
Proof.
  intros num tests conf calls.
  assert (St : forall l s s' tr, (sv_state s = StopTests \/ sv_state s = StopServe) -> serve num tests l s = (s', tr) ->
    (forall c h r, ~ In (CConnect c h, r) tr) -> forall x d t, ~ In (x, RTest d t) tr).
  { induction l as [|y l IH]; simpl; intros s s' tr Hs H N x d t I; [inversion H; subst; destruct I|].
    destruct (sstate_eqb _ _); [inversion H; subst; destruct I|]. destruct (handle num tests y s) as [s1 r] eqn:E.
    destruct (serve num tests l s1) as [s2 rs] eqn:Es. inversion H; subst.
    destruct (stopped_call num tests y s s1 r E Hs) as [Hs1 Hr]; [intros c h ->; apply (N c h r); left; auto|].
    destruct I as [Q|I]; [inversion Q; subst; apply (Hr d t); auto|].
    revert I. eapply IH; eauto. intros c h r0 J. apply (N c h r0). right; auto. }
  generalize (init tests conf). induction calls as [|y l IH]; simpl; intros s0 s pre post H N x d t; [inversion H; destruct pre; discriminate|].
  destruct (sstate_eqb _ _) eqn:Q0; [inversion H; destruct pre; discriminate|].
  destruct (handle num tests y s0) as [s1 r] eqn:E. destruct (serve num tests l s1) as [s2 rs] eqn:Es.
  destruct pre as [|p pre]; inversion H; subst.
  - eapply St; [|exact Es|auto]. simpl in E. inversion E; subst. unfold session_interrupted. simpl. rewrite Q0. auto.
  - eapply IH; eauto.
Qed.
Print Assumptions C65_after_interruption_partial.

(** interrupted while a worker has not connected yet: tests are handed out after all *)
Theorem C65_after_interruption_refuted : exists labels, let (y, tr) := x_run labels in
  exists pre post d t, tr = pre ++ (CInterrupted, RNone) :: post /\ In (CGet 1 false, RTest d t) post.
Proof.
  exists [W 1; W 1; LInterrupt; W 2; W 2; W 1].
  change (x_run [W 1; W 1; LInterrupt; W 2; W 2; W 1]) with (run 2 x_tests [W 1; W 1; LInterrupt; W 2; W 2; W 1] (start 2 x_tests x_conf)).
  vm_compute. eexists [_; _], [_; _; _], _, _. split; [reflexivity|]. right; right; left; reflexivity.
Qed.
Print Assumptions C65_after_interruption_refuted.

Example ex_interrupted : map snd (snd (x_run [W 1; W 2; W 1; W 2; W 1; LInterrupt; W 2; W 1; W 1]))
  = [RNone; RNone; RBool true; RBool true; RTest (1, 1, 0) 0; RNone; RNoMore; RNone; RNoMore].
Proof. vm_compute. reflexivity. Qed.

(** ** C38: the test a worker runs *)

Lemma positions_In d l : forall i, In i (positions d l) <-> nth_error l i = Some d.
Proof.
  intros i. unfold positions. rewrite in_map_iff. split.
  - intros [[j e] [<- H]]. apply filter_In in H as [H E]. simpl in *. apply desc_eqb_eq in E. subst.
    assert (G : forall k, In (j, d) (combine (List.seq k (length l)) l) -> k <= j /\ nth_error l (j - k) = Some d).
    { clear. induction l as [|x l IH]; simpl; intros k H; [destruct H|]. destruct H as [H|H].
      - inversion H; subst. split; auto. rewrite Nat.sub_diag. auto.
      - apply IH in H as [H1 H2]. split; [lia|]. replace (j - k) with (S (j - S k)) by lia. auto. }
    apply G in H as [_ H]. rewrite Nat.sub_0_r in H. auto.
  - intros H. exists (i, d). split; auto. apply filter_In. split; [|apply desc_eqb_eq; auto].
    assert (G : forall k j, nth_error l j = Some d -> In (k + j, d) (combine (List.seq k (length l)) l)).
    { clear. induction l as [|x l IH]; intros k j H; [destruct j; discriminate|]. destruct j as [|j]; simpl in *.
      - inversion H; subst. left. f_equal. lia.
      - right. replace (k + S j) with (S k + j) by lia. auto. }
    apply (G 0 i H).
Qed.
Lemma positions_NoDup d l : NoDup (positions d l).
Proof.
  unfold positions. generalize 0. induction l as [|x l IH]; intros k; simpl; [constructor|].
  assert (G : forall j, In j (map fst (filter (fun p => desc_eqb (snd p) d) (combine (List.seq (S k) (length l)) l))) -> k < j).
  { intros j I. apply in_map_iff in I as [[a e] [<- I]]. apply filter_In in I as [I _]. apply in_combine_l, in_seq in I. simpl. lia. }
  destruct (desc_eqb x d); simpl; auto. constructor; auto. intros I. apply G in I. lia.
Qed.
Lemma positions_length d l : length (positions d l) = length (filter (fun e => desc_eqb e d) l).
Proof.
  unfold positions. rewrite map_length. generalize 0. induction l as [|x l IH]; intros k; simpl; auto.
  destruct (desc_eqb x d); simpl; rewrite IH; auto.
Qed.
Lemma filter_perm_length {A} (f : A -> bool) a b : Permutation a b -> length (filter f a) = length (filter f b).
Proof. induction 1; simpl; repeat match goal with |- context [if ?c then _ else _] => destruct c end; simpl; congruence. Qed.

Lemma pop_spec pick own used d i : pop_position pick own used d = Some i -> nth_error own i = Some d /\ ~ In i used.
Proof.
  unfold pop_position. intros H.
  assert (Q : In i (filter (fun i => negb (mem i used)) (positions d own))).
  { destruct (filter _ (positions d own)) as [|x l]; [discriminate|]. destruct (mem (pick (x :: l)) (x :: l)) eqn:E.
    - inversion H; subst. apply mem_In; auto.
    - inversion H; subst. left; auto. }
  apply filter_In in Q as [Q1 Q2]. apply positions_In in Q1. split; auto. intros I. apply mem_In in I. rewrite I in Q2. discriminate.
Qed.

(** a worker whose collection was accepted can run everything it is sent: the set of
    positions of a description is never empty, each test of its own is run at most once,
    and it has the description that was sent *)
Theorem C38_same_description : forall pick own coll given,
  Permutation own coll -> NoDup given -> (forall t, In t given -> t < length coll) ->
  exists ran, run_positions pick own [] (map (fun t => nth t coll (0, 0, 0)) given) = Some ran
    /\ NoDup ran /\ Forall2 (fun i t => nth_error own i = nth_error coll t) ran given.
Proof.
  intros pick own coll given Pm.
  (* [past]: the tests given before, [used]: the positions run for them *)
  assert (G : forall given past used, NoDup (past ++ given) -> (forall t, In t (past ++ given) -> t < length coll) ->
    NoDup used -> Forall2 (fun i t => nth_error own i = nth_error coll t) used past ->
    exists ran, run_positions pick own used (map (fun t => nth t coll (0, 0, 0)) given) = Some ran
      /\ NoDup ran /\ (forall i, In i ran -> ~ In i used) /\ Forall2 (fun i t => nth_error own i = nth_error coll t) ran given).
  { clear given. induction given as [|t given IH]; intros past used Nd Rg Nu Fu; [exists []; simpl; repeat split; auto; constructor|].
    assert (Lt : t < length coll) by (apply Rg, in_app_iff; right; left; auto).
    set (d := nth t coll (0, 0, 0)). assert (Ed : nth_error coll t = Some d) by (apply nth_error_nth'; auto).
    simpl. fold d. destruct (pop_position pick own used d) as [i|] eqn:Ep.
    - apply pop_spec in Ep as [E1 E2].
      destruct (IH (t :: past) (i :: used)) as [ran [R1 [R2 [R3 R4]]]].
      + apply (Permutation_NoDup (l := past ++ t :: given)); auto. apply Permutation_sym, Permutation_middle.
      + intros u I. apply Rg. apply (Permutation_in u (l := t :: past ++ given)); auto. apply Permutation_middle.
      + constructor; auto.
      + constructor; auto. congruence.
      + exists (i :: ran). rewrite R1. split; auto. split; [constructor; auto; intros I; apply (R3 i I); left; auto|].
        split; [intros j [<-|I]; auto; intros J; apply (R3 j I); right; auto|]. constructor; auto. congruence.
    - exfalso. unfold pop_position in Ep.
      assert (Emp : filter (fun i => negb (mem i used)) (positions d own) = []).
      { destruct (filter _ (positions d own)) as [|x l]; auto. destruct (mem _ _); discriminate. }
      (* all own positions of d are used, each for a past test described by d *)
      assert (I1 : incl (positions d own) (filter (fun i => match nth_error own i with Some e => desc_eqb e d | None => false end) used)).
      { intros i I. apply filter_In. split.
        - destruct (mem i used) eqn:Q; [apply mem_In; auto|]. exfalso.
          assert (In i (filter (fun i => negb (mem i used)) (positions d own))) as J by (apply filter_In; rewrite Q; auto). rewrite Emp in J. destruct J.
        - apply positions_In in I. rewrite I. apply desc_eqb_eq. auto. }
      assert (L1 := NoDup_incl_length (positions_NoDup d own) I1).
      assert (L2 : length (filter (fun i => match nth_error own i with Some e => desc_eqb e d | None => false end) used)
                 = length (filter (fun t => match nth_error coll t with Some e => desc_eqb e d | None => false end) past)).
      { clear - Fu. induction Fu as [|i u us ps E F IH]; simpl; auto. rewrite E.
        destruct (nth_error coll u) as [e|]; [destruct (desc_eqb e d)|]; simpl; auto. }
      (* but t is one more test described by d *)
      assert (I2 : incl (t :: filter (fun t => match nth_error coll t with Some e => desc_eqb e d | None => false end) past) (positions d coll)).
      { intros u [<-|I]; apply positions_In; auto. apply filter_In in I as [_ I]. destruct (nth_error coll u) as [e|]; [|discriminate].
        apply desc_eqb_eq in I. congruence. }
      assert (N2 : NoDup (t :: filter (fun t => match nth_error coll t with Some e => desc_eqb e d | None => false end) past)).
      { apply (Permutation_NoDup (l' := t :: past ++ given)) in Nd; [|apply Permutation_sym, Permutation_middle].
        apply NoDup_cons_iff in Nd as [N1 N2]. constructor.
        - intros I. apply filter_In in I as [I _]. apply N1, in_app_iff. auto.
        - apply NoDup_filter. clear - N2. induction past; [constructor|]. simpl in N2. apply NoDup_cons_iff in N2 as [A B]. constructor; auto.
          intros I. apply A, in_app_iff. auto. }
      assert (L3 := NoDup_incl_length N2 I2). simpl in L3.
      rewrite !positions_length in *. rewrite (filter_perm_length _ _ _ Pm) in L1. lia. }
  intros Nd Rg. destruct (G given [] [] Nd Rg (NoDup_nil _) (Forall2_nil _)) as [ran [R1 [R2 [_ R4]]]]. exists ran. auto.
Qed.
Print Assumptions C38_same_description.

Lemma NoDup_nth_same {A} (l : list A) i j x : NoDup l -> nth_error l i = Some x -> nth_error l j = Some x -> i = j.
Proof. intros Nd Hi Hj. rewrite NoDup_nth_error in Nd. apply Nd; [apply nth_error_Some; congruence|congruence]. Qed.

(** with the same order on both sides and all descriptions distinct, the test run is
    the one at the same position *)
Theorem C38_same_position_partial : forall pick coll given, NoDup coll -> NoDup given -> (forall t, In t given -> t < length coll) ->
  run_positions pick coll [] (map (fun t => nth t coll (0, 0, 0)) given) = Some given.
Proof.
  intros pick coll given Nc Nd Rg. destruct (C38_same_description pick coll coll given (Permutation_refl _) Nd Rg) as [ran [R1 [_ R2]]].
  rewrite R1. f_equal. clear R1. induction R2 as [|i t ran given E F IH]; auto. apply NoDup_cons_iff in Nd as [_ Nd].
  f_equal; [|apply IH; auto; intros u I; apply Rg; right; auto].
  assert (Lt : t < length coll) by (apply Rg; left; auto).
  apply (NoDup_nth_same coll i t (nth t coll (0, 0, 0)) Nc); [rewrite E|]; apply nth_error_nth'; exact Lt.
Qed.
Print Assumptions C38_same_position_partial.

Example ex_positions : run_positions (fun l => hd 0 l) (map desc_of x_tests) [] [(1, 3, 0); (1, 1, 0)] = Some [2; 0].
Proof. reflexivity. Qed.

(** two test methods of the same name in two classes of a file have the same
    description: the worker runs the other one *)
Definition two_classes : list ptest := [mkPTest 1 (Some 1) 5 0; mkPTest 1 (Some 2) 5 0].
Theorem C38_same_position_refuted : exists pick coll t, coll = map desc_of two_classes /\ t < length coll
  /\ exists i, run_positions pick coll [] [nth t coll (0, 0, 0)] = Some [i] /\ nth_error two_classes i <> nth_error two_classes t.
Proof.
  exists (fun l => hd 0 l), (map desc_of two_classes), 1. split; [reflexivity|]. split; [simpl; auto|]. exists 0. split; [reflexivity|discriminate].
Qed.
Print Assumptions C38_same_position_refuted.

(** ** A worker is sent away before tests are served only if something stopped the session *)

Definition stopper (x : call) : bool :=
  match x with CDisconnect _ true | CFinished _ _ true | CFailure _ | CInterrupted | CStop => true | _ => false end.

Definition validations (tr : list (call * reply)) : nat :=
  length (filter (fun e : call * reply => match snd e with RBool true => true | _ => false end) tr).

Theorem C68_sent_away : forall num tests conf calls s pre c h post,
  serve num tests calls (init tests conf) = (s, pre ++ (CGet c h, RNoMore) :: post) ->
  (exists x r, In (x, r) pre /\ stopper x = true) \/ num <= validations pre.
Proof.
  intros num tests conf calls.
  set (st_ok := fun (stopped : bool) (s : server) => stopped = false ->
     sv_state s = WaitClients \/ sv_state s = WaitValidation \/ num <= sv_validated s).
  assert (St : forall x s s' r b, handle num tests x s = (s', r) -> st_ok b s ->
     st_ok (b || stopper x) s' /\ sv_validated s' = sv_validated s + (match r with RBool true => 1 | _ => 0 end)).
  { intros x s s' r b H O. unfold st_ok in *. destruct x as [c h|c l|c f|c h|c br st|c| | | |c t|c t]; simpl in H.
    - unfold connect in H. destruct h; [inversion H; subst; simpl; rewrite orb_false_r; auto|].
      destruct (Nat.leb _ _); inversion H; subst; simpl; rewrite orb_false_r; auto.
    - unfold validate_collection in H. destruct (negb _); [inversion H; subst; simpl; rewrite orb_false_r; auto|].
      destruct (Nat.leb num (sv_validated (set_validated (S (sv_validated s)) s))) eqn:L; simpl in H.
      + apply Nat.leb_le in L. simpl in L.
        destruct (sstate_eqb _ _) in H; inversion H; subst; simpl; (split; [intros _; right; right; lia|lia]).
      + inversion H; subst; simpl. split; [|lia]. rewrite orb_false_r. intros Q. destruct (O Q) as [?|[?|?]]; auto.
    - unfold disconnect in H. destruct (mem _ _); [destruct f|destruct f]; inversion H; subst; simpl;
        rewrite ?orb_true_r, ?orb_false_r; (split; [first [discriminate|auto]|auto]).
    - simpl. rewrite orb_false_r. unfold get_test in H. destruct (d_get c (sv_exec s)) as [[t|]|]; try (inversion H; subst; auto; fail).
      destruct (sv_state s) eqn:Es; try (inversion H; subst; simpl; rewrite ?Es; auto; fail);
        try (simpl in H; inversion H; subst; simpl; split; [intros Q; destruct (O Q) as [?|[?|?]]; auto; discriminate|auto]; fail).
      cbn [sstate_eqb andb] in H. destruct (sv_unstarted s) as [|u us] eqn:Eu; cbn [negb] in H.
      + inversion H; subst; simpl. split; [intros Q; destruct (O Q) as [?|[?|?]]; auto; discriminate|auto].
      + destruct (next_test s c (u :: us)) as [[t|]|e]; try (inversion H; subst; simpl; rewrite ?Es; auto; fail).
        destruct (nth_error (collection tests) t); [destruct h|]; inversion H; subst; simpl; (split; [intros Q; destruct (O Q) as [?|[?|?]]; solve [auto|discriminate|congruence]|auto]).
    - assert (Mk : forall l s s' o, mark_loop l s = (s', o) -> sv_state s' = sv_state s /\ sv_validated s' = sv_validated s).
      { clear. induction l as [|t l IH]; simpl; intros s0 s0' o H; [inversion H; subst; auto|].
        unfold create_result in H. destruct (mem t _); [inversion H; subst; auto|]. apply IH in H as [A B]. auto. }
      unfold finished_test in H. destruct (d_get c (sv_exec s)) as [[t|]|]; try (inversion H; subst; simpl; split; [|auto]; intros Q; apply orb_false_iff in Q as [Q _]; auto; fail).
      unfold create_result in H. destruct (mem t _); [inversion H; subst; simpl; split; [|auto]; intros Q; apply orb_false_iff in Q as [Q _]; auto|].
      destruct br; [inversion H; subst; simpl; split; [|auto]; intros Q; apply orb_false_iff in Q as [Q _]; auto|].
      destruct st; [|inversion H; subst; simpl; rewrite orb_false_r; auto].
      unfold answer, mark_unrun_tests in H. destruct (mark_loop _ _) as [s1 [e|]] eqn:Em; apply Mk in Em as [A B]; inversion H; subst;
        simpl; rewrite orb_true_r; (split; [discriminate|]); simpl in B; lia.
    - assert (Mk : forall l s s' o, mark_loop l s = (s', o) -> sv_state s' = sv_state s /\ sv_validated s' = sv_validated s).
      { clear. induction l as [|t l IH]; simpl; intros s0 s0' o H; [inversion H; subst; auto|].
        unfold create_result in H. destruct (mem t _); [inversion H; subst; auto|]. apply IH in H as [A B]. auto. }
      simpl. rewrite orb_true_r. split; [discriminate|]. unfold report_client_failure in H.
      destruct (mem c _); [|inversion H; subst; auto].
      assert (R : forall s1 s' r, sv_validated s1 = sv_validated s ->
        (match mark_unrun_tests (set_state StopTests s1) with (s2, None) => (set_error true s2, RNone) | (s2, Some e) => (s2, RFault e) end) = (s', r) ->
        sv_validated s' = sv_validated s + (match r with RBool true => 1 | _ => 0 end)).
      { intros s1 s2 r2 V Q. unfold mark_unrun_tests in Q. destruct (mark_loop _ _) as [s3 [e|]] eqn:Em; apply Mk in Em as [A B];
          inversion Q; subst; simpl in *; lia. }
      cbv zeta in H. destruct (d_get c _) as [[t|]|]; try (eapply R; [|exact H]; reflexivity).
      unfold create_result in H. destruct (mem t _); [inversion H; subst; simpl; auto|]. eapply R; [|exact H]; reflexivity.
    - inversion H; subst. simpl. rewrite orb_true_r. split; [discriminate|]. unfold session_interrupted. destruct (sstate_eqb _ _); simpl; auto.
    - inversion H; subst. simpl. rewrite orb_true_r. split; [discriminate|auto].
    - inversion H; subst. simpl. rewrite orb_false_r. auto.
    - simpl. rewrite orb_false_r. unfold reconf in H. destruct (d_get c _) as [w|]; [destruct (exclude_test t w)|]; inversion H; subst; simpl; auto.
    - simpl. rewrite orb_false_r. unfold reconf in H. destruct (d_get c _) as [w|]; [destruct (force_test t w)|]; inversion H; subst; simpl; auto. }
  assert (G : forall l s0 b s pre c h post, st_ok b s0 -> serve num tests l s0 = (s, pre ++ (CGet c h, RNoMore) :: post) ->
     b = true \/ (exists x r, In (x, r) pre /\ stopper x = true) \/ num <= sv_validated s0 + validations pre).
  { induction l as [|x l IH]; simpl; intros s0 b s pre c h post O H; [inversion H; destruct pre; discriminate|].
    destruct (sstate_eqb _ _); [inversion H; destruct pre; discriminate|].
    destruct (handle num tests x s0) as [s1 r] eqn:E. destruct (serve num tests l s1) as [s2 rs] eqn:Es. inversion H; subst.
    destruct (St x s0 s1 r b E O) as [O1 V1]. destruct pre as [|p pre]; simpl in H2; inversion H2; subst.
    - destruct b; auto. right. right. specialize (O eq_refl). simpl. clear - O E. simpl in E. unfold get_test in E.
      destruct (d_get c (sv_exec s0)) as [[t|]|]; try discriminate.
      destruct O as [O|[O|O]]; [rewrite O in E; discriminate|rewrite O in E; discriminate|unfold validations; simpl; lia].
    - apply (IH s1 (b || stopper x) s pre c h post O1) in Es. destruct Es as [Q|[(y & ry & I & Q)|Q]].
      + apply orb_true_iff in Q as [Q|Q]; auto. right. left. exists x, r. split; [left; auto|auto].
      + right. left. exists y, ry. split; [right; auto|auto].
      + right. right. unfold validations in *. simpl. destruct r as [|[]| | | | |]; simpl; lia. }
  intros s pre c h post H. apply (G _ _ false) in H; [|left; reflexivity].
  destruct H as [H|[H|H]]; [discriminate|auto|right; exact H].
Qed.
Print Assumptions C68_sent_away.

(** ** After a worker with another collection left, nobody is kept waiting *)

(** workers 1..n, the connected ones have started *)
Definition known (n : nat) (y : system) : Prop :=
  (forall c, d_get c (sy_workers y) <> None -> In c (List.seq 1 n))
  /\ (forall c, In c (sv_connected (sy_server y)) -> exists p, d_get c (sy_workers y) = Some p /\ p <> WNew).

(** the session was stopped and worker [c0] has gone *)
Definition without (c0 : nat) (y : system) : Prop :=
  d_get c0 (sy_workers y) = Some WGone /\ ~ In c0 (sv_connected (sy_server y))
  /\ (sv_state (sy_server y) = StopTests \/ sv_state (sy_server y) = StopServe).

Lemma handle_shrinks num tests x s s' r : handle num tests x s = (s', r) -> (forall c h, x <> CConnect c h) ->
  forall c, In c (sv_connected s') -> In c (sv_connected s).
Proof.
  intros H N c I. pose proof (handle_frame num tests x s s' r H c) as F.
  destruct x as [c0 h|c0 l|c0 f|c0 h|c0 b st|c0| | | |c0 t|c0 t]; simpl in F; try (apply F; [discriminate|exact I]).
  - destruct (N c0 h); auto.
  - simpl in H. unfold validate_collection in H. destruct (negb _); [|destruct (_ && _)]; inversion H; subst; auto.
  - simpl in H. unfold disconnect in H. destruct (mem _ _); [destruct f|]; inversion H; subst; simpl in I; auto; eapply remove1_In; eauto.
  - simpl in H. unfold get_test in H. destruct (d_get c0 (sv_exec s)) as [[t|]|]; try (inversion H; subst; auto; fail).
    destruct (sv_state s); cbn [sstate_eqb andb] in H; try (inversion H; subst; auto; fail).
    destruct (negb _); [|inversion H; subst; auto]. destruct (next_test _ _ _) as [[t|]|]; try (inversion H; subst; auto; fail).
    destruct (nth_error _ t); inversion H; subst; auto.
  - simpl in H. unfold finished_test in H. destruct (d_get c0 (sv_exec s)) as [[t|]|]; try (inversion H; subst; auto; fail).
    unfold create_result in H. destruct (mem t _); [inversion H; subst; auto|]. destruct b; [inversion H; subst; auto|].
    destruct st; [|inversion H; subst; auto]. unfold mark_unrun_tests in H. destruct (mark_loop _ _) as [s1 o] eqn:E.
    apply mark_frame in E as [_ [E _]]. assert (s1 = s') by (destruct o; inversion H; auto). subst. rewrite E in I. auto.
  - simpl in H. unfold report_client_failure in H. destruct (mem c0 _); [|inversion H; subst; auto]. cbv zeta in H.
    assert (Q : In c (remove1 c0 (sv_connected s))); [|eapply remove1_In; eauto].
    assert (R : forall s0 b, sv_connected s0 = b -> (match mark_unrun_tests (set_state StopTests s0) with (s2, None) => (set_error true s2, RNone) | (s2, Some e) => (s2, RFault e) end) = (s', r) ->
      sv_connected s' = b).
    { intros s0 b Eb Q. unfold mark_unrun_tests in Q. destruct (mark_loop _ _) as [s2 [e|]] eqn:Em; apply mark_frame in Em as [_ [Em _]]; inversion Q; subst; simpl; simpl in Em; auto. }
    destruct (d_get c0 _) as [[t|]|].
    + unfold create_result in H. destruct (mem t _); [inversion H; subst; auto|]. eapply R in H; [|reflexivity]. rewrite H in I. exact I.
    + eapply R in H; [|reflexivity]. rewrite H in I. exact I.
    + eapply R in H; [|reflexivity]. rewrite H in I. exact I.
Qed.

Lemma next_pc_not_new p r : next_pc p r <> WNew.
Proof. destruct p, r as [|[]| | | | |]; discriminate. Qed.

(** what one step does *)
Lemma without_step num tests l y c0 : sys_inv tests y -> known num y ->
  known num (fst (step num tests l y)) /\
  (without c0 y -> without c0 (fst (step num tests l y))
     /\ forall w h, ~ In (CGet w h, RWaiting) (snd (step num tests l y)) /\ forall d t, ~ In (CGet w h, RTest d t) (snd (step num tests l y))).
Proof.
  intros Hi [K1 K2].
  assert (Stopped : forall x r s1, handle num tests x (sy_server y) = (s1, r) -> (sv_state (sy_server y) = StopTests \/ sv_state (sy_server y) = StopServe) ->
    forall w h, ~ In (CGet w h, RWaiting) [(x, r)] /\ forall d t, ~ In (CGet w h, RTest d t) [(x, r)]).
  { intros x r s1 H Hs w h.
    assert (G : forall q, (x, r) = (CGet w h, q) -> q <> RWaiting /\ forall d t, q <> RTest d t).
    { intros q Q. inversion Q; subst. simpl in H. unfold get_test in H. destruct (d_get w (sv_exec _)) as [[t|]|];
        try (inversion H; subst; split; [discriminate|intros; discriminate]; fail).
      destruct Hs as [Q2|Q2]; rewrite Q2 in H; simpl in H; inversion H; subst; (split; [discriminate|intros; discriminate]). }
    split; [intros [Q|[]]|intros d t [Q|[]]]; destruct (G _ Q) as [A B]; [congruence|apply (B d t); auto]. }
  assert (Nil : forall w h, ~ In (CGet w h, RWaiting) ([] : list (call * reply)) /\ forall d t, ~ In (CGet w h, RTest d t) ([] : list (call * reply))) by (intros; split; auto).
  assert (Id : known num y /\ (without c0 y -> without c0 y /\ forall w h, ~ In (CGet w h, RWaiting) [] /\ forall d t, ~ In (CGet w h, RTest d t) []))
    by (split; [split; auto|intros; split; auto]).
  assert (Gone : forall c p, d_get c (sy_workers y) = Some p -> known num (mkSystem (sy_server y) (d_set c WGone (sy_workers y)))
     /\ (without c0 y -> without c0 (mkSystem (sy_server y) (d_set c WGone (sy_workers y))) /\ forall w h, ~ In (CGet w h, RWaiting) [] /\ forall d t, ~ In (CGet w h, RTest d t) [])).
  { intros c p Ec. split.
    - split; simpl; intros c'; rewrite d_get_set; destruct (Nat.eqb_spec c' c) as [->|Nc]; auto.
      + intros _. apply K1. congruence.
      + intros _. exists WGone. split; [auto|discriminate].
    - intros (A & B & C). split; auto. split; simpl; auto. rewrite d_get_set. destruct (Nat.eqb c0 c); auto. }
  assert (Ask : forall x, (forall c h, x <> CConnect c h) ->
     forall r0, r0 = (if sstate_eqb (sv_state (sy_server y)) StopServe then (y, []) else let (s1, r) := handle num tests x (sy_server y) in (mkSystem s1 (sy_workers y), [(x, r)])) ->
     known num (fst r0) /\ (without c0 y -> without c0 (fst r0) /\ forall w h, ~ In (CGet w h, RWaiting) (snd r0) /\ forall d t, ~ In (CGet w h, RTest d t) (snd r0))).
  { intros x Nx r0 ->. destruct (sstate_eqb _ _); [exact Id|]. destruct (handle num tests x (sy_server y)) as [s1 r] eqn:E. cbn [fst snd].
    pose proof (handle_shrinks num tests x _ _ _ E Nx) as Sh. split.
    - split; simpl; auto.
    - intros (A & B & C). split; [|eapply Stopped; eauto]. split; auto. split; simpl; [auto|]. apply (stopped_call num tests x _ _ _ E C Nx). }
  unfold step. destruct l as [c ch|c|c| | | |c t|c t]; try (eapply Ask; [|reflexivity]; intros; discriminate).
  - destruct (d_get c (sy_workers y)) as [p|] eqn:Ep; [|exact Id]. destruct (next_call c p ch) as [x|] eqn:Ex; [|exact Id].
    destruct (sstate_eqb _ _); [apply (Gone c p Ep)|]. destruct (handle num tests x (sy_server y)) as [s1 r] eqn:E. cbn [fst snd].
    assert (Cn : forall c', In c' (sv_connected s1) -> c' = c \/ In c' (sv_connected (sy_server y))).
    { intros c' I. destruct (Nat.eq_dec c' c); auto. right. pose proof (handle_frame num tests x _ _ _ E c') as F.
      apply F; auto. assert (client x = Some c) as -> by (destruct p; simpl in Ex; inversion Ex; subst; reflexivity). congruence. }
    split.
    + split; simpl; intros c'; rewrite d_get_set; destruct (Nat.eqb_spec c' c) as [->|Nc]; auto.
      * intros _. apply K1. congruence.
      * intros _. exists (next_pc p r). split; auto. apply next_pc_not_new.
      * intros I. destruct (Cn c' I) as [|I']; [contradiction|auto].
    + intros (A & B & C). split; [|eapply Stopped; eauto].
      assert (Nc : c0 <> c) by (intros ->; rewrite A in Ep; inversion Ep; subst; discriminate).
      assert (B' : ~ In c0 (sv_connected s1)) by (intros I; destruct (Cn c0 I); auto).
      split; simpl; [rewrite d_get_set_other; auto|]. split; [auto|].
      destruct (match x with CConnect _ _ => true | _ => false end) eqn:Cx.
      * destruct x as [c1 h| | | | | | | | | |]; try discriminate. assert (c1 = c) by (destruct p; simpl in Ex; inversion Ex; auto). subst c1.
        simpl in E. unfold connect in E. destruct h; [inversion E; subst; auto|].
        destruct (Nat.leb_spec num (length (sv_connected (set_exec (d_set c None (sv_exec (set_connected (add c (sv_connected (sy_server y))) (sy_server y)))) (set_connected (add c (sv_connected (sy_server y))) (sy_server y)))))) as [L|L];
          [|inversion E; subst; auto]. exfalso. inversion E; subst. clear E. simpl in *.
        assert (ND : NoDup (c0 :: add c (sv_connected (sy_server y)))).
        { constructor; auto. unfold add. destruct (mem c (sv_connected (sy_server y))) eqn:M; [|constructor].
          - apply (i_conn _ _ (proj1 Hi)).
          - intros Q. apply mem_In in Q. congruence.
          - apply (i_conn _ _ (proj1 Hi)). }
        apply NoDup_incl_length with (l' := List.seq 1 num) in ND.
        -- rewrite seq_length in ND. simpl in ND. lia.
        -- intros c' [<-|I]; [apply K1; congruence|]. apply add_In in I as [->|I]; [apply K1; congruence|].
           apply K2 in I as (q & Q & _). apply K1. congruence.
      * apply (stopped_call num tests x _ _ _ E C). intros c1 h ->. discriminate.
  - destruct (d_get c (sy_workers y)) as [p|] eqn:Ep; [apply (Gone c p Ep)|exact Id].
Qed.

(** A worker whose collection differs leaves with a failure. From then on no worker is
    given a test or told to wait, whatever the others do. *)
Theorem C66_refused : forall num tests conf labels pre c post,
  snd (run num tests labels (start num tests conf)) = pre ++ (CDisconnect c true, RNone) :: post ->
  forall w h, ~ In (CGet w h, RWaiting) post /\ forall d t, ~ In (CGet w h, RTest d t) post.
Proof.
  intros num tests conf labels.
  assert (Rest : forall c l y, sys_inv tests y -> known num y -> without c y ->
    forall w h, ~ In (CGet w h, RWaiting) (snd (run num tests l y)) /\ forall d t, ~ In (CGet w h, RTest d t) (snd (run num tests l y))).
  { intros c. induction l as [|x l IH]; intros y Hi K W w h; [simpl; auto|]. cbn [run].
    destruct (without_step num tests x y c Hi K) as [K' W']. specialize (W' W). destruct W' as [W' N].
    pose proof (step_inv num tests x y Hi) as Hi'. destruct (step num tests x y) as [y1 e1]. cbn [fst snd] in *.
    specialize (IH y1 Hi' K' W' w h). destruct (run num tests l y1) as [y2 e2]. cbn [snd] in *. destruct (N w h) as [N1 N2], IH as [I1 I2].
    split; [|intros d t]; rewrite in_app_iff; intros [I|I]; auto; [apply (N2 d t I)|apply (I2 d t I)]. }
  assert (K0 : known num (start num tests conf)).
  { split; simpl; [|intros c []].
    assert (G : forall n k c, d_get c (map (fun c => (c, WNew)) (List.seq k n)) <> None -> In c (List.seq k n)).
    { induction n as [|n IH]; simpl; intros k c Q; [congruence|]. destruct (Nat.eqb_spec c k); auto. }
    intros c Q. exact (G num 1 c Q). }
  pose proof (start_inv num tests conf) as H1. revert K0 H1. generalize (start num tests conf).
  induction labels as [|l labels IH]; intros y K Hi pre c post H w h; [destruct pre; discriminate|]. cbn [run] in H.
  pose proof (without_step num tests l y c Hi K) as [K' _]. pose proof (step_inv num tests l y Hi) as Hi'.
  destruct (step num tests l y) as [y1 e1] eqn:Es. cbn [fst snd] in *. destruct (run num tests labels y1) as [y2 e2] eqn:Er. cbn [snd] in H.
  destruct (step_events num tests l y) as (ev & Ev & Le). rewrite Es in Ev. simpl in Ev. subst ev.
  destruct e1 as [|e [|? ?]]; [| |simpl in Le; lia].
  - apply (IH y1 K' Hi' pre c post); rewrite Er; exact H.
  - destruct pre as [|e' pre]; simpl in H; inversion H; subst; [|apply (IH y1 K' Hi' pre c post); rewrite Er; reflexivity].
    replace post with (snd (run num tests labels y1)) by (rewrite Er; reflexivity). apply (Rest c); auto. clear - Es K Hi.
    assert (Ask : forall x, x <> CDisconnect c true ->
      (if sstate_eqb (sv_state (sy_server y)) StopServe then (y, []) else let (s1, r) := handle num tests x (sy_server y) in (mkSystem s1 (sy_workers y), [(x, r)])) <> (y1, [(CDisconnect c true, RNone)])).
    { intros x N Q. destruct (sstate_eqb _ _); [discriminate|]. destruct (handle num tests x (sy_server y)); inversion Q; congruence. }
    unfold step in Es. destruct l as [c1 ch|c1|c1| | | |c1 t|c1 t]; try (exfalso; revert Es; apply Ask; discriminate).
    + destruct (d_get c1 (sy_workers y)) as [p|] eqn:Ep; [|discriminate]. destruct (next_call c1 p ch) as [x|] eqn:Ex; [|discriminate].
      destruct (sstate_eqb _ _); [discriminate|]. destruct (handle num tests x (sy_server y)) as [s1 r] eqn:E. inversion Es; subst.
      destruct p; simpl in Ex; inversion Ex; subst. split; simpl; [apply d_get_set_same|].
      simpl in E. unfold disconnect in E. destruct (mem c (sv_connected (sy_server y))) eqn:M; inversion E; subst. simpl. split; auto.
      pose proof (i_conn _ _ (proj1 Hi)) as ND. clear - ND M. apply mem_In in M. apply in_split in M as (a & b & Q). rewrite Q in *.
      assert (R : remove1 c (a ++ c :: b) = a ++ b).
      { apply NoDup_remove_2 in ND. clear Q. induction a as [|z a IH]; simpl; [rewrite Nat.eqb_refl; auto|].
        destruct (Nat.eqb_spec c z) as [->|Nz]; [destruct ND; left; auto|]. rewrite IH; auto. intros I. apply ND. right. auto. }
      rewrite R. apply NoDup_remove_2 in ND. auto.
    + destruct (d_get c1 (sy_workers y)); discriminate.
Qed.
Print Assumptions C66_refused.

(** worker 2 collected fewer tests; worker 3 connects afterwards *)
Example ex_refused_left : snd (run 3 x_tests [W 1; W 2; W 1; LWorker 2 bad_choice; W 2; W 3; W 3; W 3; W 1] (start 3 x_tests x_conf)) =
  [(CConnect 1 false, RNone); (CConnect 2 false, RNone); (CValidate 1 [(1, 1, 0); (1, 2, 0); (1, 3, 0)], RBool true);
   (CValidate 2 [(1, 1, 0); (1, 2, 0)], RBool false); (CDisconnect 2 true, RNone); (CConnect 3 false, RNone);
   (CValidate 3 [(1, 1, 0); (1, 2, 0); (1, 3, 0)], RBool true); (CGet 3 false, RNoMore); (CGet 1 false, RNoMore)].
Proof. vm_compute. reflexivity. Qed.
