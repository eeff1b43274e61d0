(** Lemmas about the model of the parallel server (Parallel.v). *)

From Coq Require Import List Bool Arith PeanoNat Lia Sorting.Sorted.
From Verif Require Import Dict Parallel.
Import ListNotations.

Lemma mem_In x l : mem x l = true <-> In x l.
Proof.
  unfold mem. rewrite existsb_exists. split; [intros [y [I E]]; apply Nat.eqb_eq in E; subst; auto|].
  intros I. exists x. rewrite Nat.eqb_refl. auto.
Qed.
Lemma mem_false x l : mem x l = false <-> ~ In x l.
Proof. rewrite <- mem_In. destruct (mem x l); split; congruence. Qed.
Lemma add_In x y l : In y (add x l) <-> y = x \/ In y l.
Proof. unfold add. destruct (mem x l) eqn:E; simpl; [apply mem_In in E; intuition congruence|intuition]. Qed.
Lemma add_NoDup x l : NoDup l -> NoDup (add x l).
Proof. unfold add. destruct (mem x l) eqn:E; auto. constructor; auto. apply mem_false; auto. Qed.
Lemma remove1_In x y l : In y (remove1 x l) -> In y l.
Proof. induction l as [|z l IH]; simpl; auto. destruct (Nat.eqb_spec x z); simpl; intuition. Qed.
Lemma remove1_other x y l : y <> x -> In y l -> In y (remove1 x l).
Proof. induction l as [|z l IH]; simpl; auto. intros N H. destruct (Nat.eqb_spec x z); simpl; subst; intuition congruence. Qed.
Lemma remove1_NoDup x l : NoDup l -> NoDup (remove1 x l).
Proof.
  induction l as [|z l IH]; simpl; auto. intros H. apply NoDup_cons_iff in H as [Nz H]. destruct (Nat.eqb x z); auto.
  constructor; auto. intros I. apply Nz. eapply remove1_In; eauto.
Qed.
Lemma remove1_gone x l : NoDup l -> ~ In x (remove1 x l).
Proof.
  induction l as [|z l IH]; simpl; auto. intros H. apply NoDup_cons_iff in H as [Nz H].
  destruct (Nat.eqb_spec x z); [subst; auto|]. simpl. intros [E|I]; [congruence|apply IH; auto].
Qed.
Lemma remove1_absent x l : ~ In x l -> remove1 x l = l.
Proof. induction l as [|z l IH]; simpl; auto. intros N. destruct (Nat.eqb_spec x z); [subst; intuition|]. f_equal. auto. Qed.
Lemma remove1_sorted x l : StronglySorted lt l -> StronglySorted lt (remove1 x l).
Proof.
  induction 1 as [|z l H IH F]; simpl; [constructor|]. destruct (Nat.eqb x z); auto. constructor; auto.
  apply Forall_forall. intros y I. rewrite Forall_forall in F. apply F. eapply remove1_In; eauto.
Qed.
Lemma sorted_NoDup l : StronglySorted lt l -> NoDup l.
Proof.
  induction 1 as [|z l H IH F]; constructor; auto. intros I. rewrite Forall_forall in F. specialize (F z I). lia.
Qed.

Lemma desc_eqb_eq a b : desc_eqb a b = true <-> a = b.
Proof.
  destruct a as [[f g] v], b as [[f' g'] v']. unfold desc_eqb. rewrite !andb_true_iff, !Nat.eqb_eq. intuition congruence.
Qed.
Lemma descs_eqb_eq a : forall b, descs_eqb a b = true <-> a = b.
Proof.
  induction a as [|x a IH]; intros [|y b]; simpl; try (split; congruence).
  rewrite andb_true_iff, IH, desc_eqb_eq. split; [intros [-> ->]; auto|intros H; inversion H; auto].
Qed.
Lemma sstate_eqb_eq a b : sstate_eqb a b = true <-> a = b.
Proof. destruct a, b; simpl; split; congruence. Qed.

Lemma mark_unstarted l : forall s s' o, mark_loop l s = (s', o) ->
  (o = None /\ sv_unstarted s' = []) \/ (o <> None /\ sv_unstarted s' = sv_unstarted s).
Proof.
  induction l as [|t l IH]; simpl; intros s s' o H.
  - inversion H; subst. auto.
  - unfold create_result in H. destruct (mem t (map fst (sv_results s))).
    + inversion H; subst. right. split; [discriminate|auto].
    + apply IH in H. simpl in H. auto.
Qed.

Lemma next_test_In s c l t : next_test s c l = inl (Some t) -> In t l /\ can_execute s t c = Some true.
Proof.
  induction l as [|u l IH]; simpl; [discriminate|]. destruct (can_execute s u c) as [[|]|] eqn:E; [|intuition|discriminate].
  intros H. inversion H; subst. auto.
Qed.

Section Server.
Variable num : nat.
Variable tests : list ptest.
Notation handle := (handle num tests).

(** how a call changes the list of unstarted tests *)
Lemma handle_unstarted x s s' r : handle x s = (s', r) ->
  (forall d t, r = RTest d t -> exists c h, x = CGet c h /\ In t (sv_unstarted s) /\ sv_unstarted s' = remove1 t (sv_unstarted s))
  /\ (sv_unstarted s' = sv_unstarted s \/ sv_unstarted s' = [] \/ exists t, In t (sv_unstarted s) /\ sv_unstarted s' = remove1 t (sv_unstarted s)).
Proof.
  destruct x as [c h|c l|c f|c h|c b st|c| | | |c t|c t]; simpl; intros H.
  - unfold connect in H. destruct h; [inversion H; subst; split; [discriminate|auto]|].
    destruct (Nat.leb num _); inversion H; subst; (split; [discriminate|auto]).
  - unfold validate_collection in H. destruct (negb _); [inversion H; subst; split; [discriminate|auto]|].
    destruct (_ && _); inversion H; subst; (split; [discriminate|auto]).
  - unfold disconnect in H. destruct (mem _ _); [destruct f|]; inversion H; subst; (split; [discriminate|auto]).
  - unfold get_test in H. destruct (d_get c (sv_exec s)) as [[t|]|]; try (inversion H; subst; split; [discriminate|auto]; fail).
    assert (G : forall b : bool, (if b then
        match next_test s c (sv_unstarted s) with
        | inl (Some t) => match nth_error (collection tests) t with
            | Some d => (set_exec (d_set c (Some t) (sv_exec (set_unstarted (remove1 t (sv_unstarted s)) s))) (set_unstarted (remove1 t (sv_unstarted s)) s), if h then RFault EHook else RTest d t)
            | None => (set_unstarted (remove1 t (sv_unstarted s)) s, RFault EIndex) end
        | inl None => (s, RNoMore) | inr e => (s, RFault e) end
        else (set_state StopTests s, RNoMore)) = (s', r) ->
      (forall d t, r = RTest d t -> exists c0 h0, CGet c h = CGet c0 h0 /\ In t (sv_unstarted s) /\ sv_unstarted s' = remove1 t (sv_unstarted s))
      /\ (sv_unstarted s' = sv_unstarted s \/ sv_unstarted s' = [] \/ exists t, In t (sv_unstarted s) /\ sv_unstarted s' = remove1 t (sv_unstarted s))).
    { intros b G. destruct b; [|inversion G; subst; split; [discriminate|auto]].
      destruct (next_test s c (sv_unstarted s)) as [[t|]|e] eqn:En; try (inversion G; subst; split; [discriminate|auto]; fail).
      apply next_test_In in En as [I _].
      destruct (nth_error (collection tests) t) as [d|]; inversion G; subst; simpl.
      - split; [|right; right; eauto]. intros d0 t0 E. destruct h; [discriminate|]. inversion E; subst. eauto.
      - split; [discriminate|right; right; eauto]. }
    destruct (sv_state s); try (inversion H; subst; split; [discriminate|auto]; fail); eapply G; exact H.
  - unfold finished_test in H. destruct (d_get c (sv_exec s)) as [[t|]|]; try (inversion H; subst; split; [discriminate|auto]; fail).
    unfold create_result in H. destruct (mem t _); [inversion H; subst; split; [discriminate|auto]|].
    destruct b; [inversion H; subst; split; [discriminate|auto]|].
    destruct st; [|inversion H; subst; split; [discriminate|auto]].
    unfold mark_unrun_tests in H. destruct (mark_loop _ _) as [s1 o] eqn:E.
    apply mark_unstarted in E. simpl in E. destruct o; inversion H; subst; (split; [discriminate|]); destruct E as [[E1 E2]|[E1 E2]]; auto.
  - unfold report_client_failure in H. destruct (mem c _); [|inversion H; subst; split; [discriminate|auto]].
    assert (G : forall s0 : server, sv_unstarted s0 = sv_unstarted s -> (match mark_unrun_tests (set_state StopTests s0) with
                  | (s', None) => (set_error true s', RNone)
                  | (s', Some e) => (s', RFault e)
                  end) = (s', r) ->
       (forall d t, r = RTest d t -> exists c0 h0, CFailure c = CGet c0 h0 /\ In t (sv_unstarted s) /\ sv_unstarted s' = remove1 t (sv_unstarted s))
      /\ (sv_unstarted s' = sv_unstarted s \/ sv_unstarted s' = [] \/ exists t, In t (sv_unstarted s) /\ sv_unstarted s' = remove1 t (sv_unstarted s))).
    { intros s0 E0 G. unfold mark_unrun_tests in G. destruct (mark_loop _ _) as [s1 o] eqn:E. apply mark_unstarted in E. simpl in E.
      destruct o; inversion G; subst; simpl; (split; [discriminate|]); destruct E as [[E1 E2]|[E1 E2]]; auto; left; congruence. }
    simpl in H. destruct (d_get c (sv_exec s)) as [[t|]|].
    + unfold create_result in H. simpl in H. destruct (mem t _); [inversion H; subst; split; [discriminate|auto]|]. eapply G; [|exact H]; auto.
    + eapply G; [|exact H]; auto.
    + eapply G; [|exact H]; auto.
  - inversion H; subst. unfold session_interrupted. destruct (sstate_eqb _ _); simpl; (split; [discriminate|auto]).
  - inversion H; subst. split; [discriminate|auto].
  - inversion H; subst. split; [discriminate|auto].
  - unfold reconf in H. destruct (d_get c (sv_conf s)) as [w|]; [destruct (exclude_test t w)|]; inversion H; subst; (split; [discriminate|auto]).
  - unfold reconf in H. destruct (d_get c (sv_conf s)) as [w|]; [destruct (force_test t w)|]; inversion H; subst; (split; [discriminate|auto]).
Qed.

(** ** The invariant of the server *)

Record inv (s : server) : Prop := mkInv {
  i_sorted : StronglySorted lt (sv_unstarted s);
  i_range : forall t, In t (sv_unstarted s) -> t < length tests;
  i_exec : forall c t, d_get c (sv_exec s) = Some (Some t) -> t < length tests /\ ~ In t (sv_unstarted s);
  i_inj : forall c c' t, d_get c (sv_exec s) = Some (Some t) -> d_get c' (sv_exec s) = Some (Some t) -> c = c';
  i_fin : forall t, In t (sv_finished s) -> t < length tests /\ ~ In t (sv_unstarted s);
  i_cover : forall t, t < length tests -> In t (sv_unstarted s) \/ In t (sv_finished s)
              \/ exists c, In c (sv_connected s) /\ d_get c (sv_exec s) = Some (Some t);
  i_excl : forall c t, In t (sv_finished s) -> d_get c (sv_exec s) = Some (Some t) -> ~ In c (sv_connected s);
  i_res : forall t, In t (map fst (sv_results s)) <-> In t (sv_finished s);
  i_conn : NoDup (sv_connected s);
  i_once : NoDup (map fst (sv_results s));
  i_dup : sv_unstarted s <> [] -> NoDup (sv_finished s);
  i_late : forall c t, In t (sv_finished s) -> d_get c (sv_exec s) = Some (Some t) -> sv_unstarted s = []
}.

(** calls as made by workers that follow their program *)
Definition orderly (s : server) (x : call) : Prop :=
  match x with
  | CConnect c _ => ~ In c (sv_connected s) /\ d_get c (sv_exec s) = None
  | CDisconnect c _ => forall t, d_get c (sv_exec s) <> Some (Some t)
  | CGet c _ => In c (sv_connected s) \/ sv_unstarted s = []
  | _ => True
  end.

Lemma init_inv conf : inv (init tests conf).
Proof.
  constructor; simpl; try (intros; exfalso; auto; fail); try (intros; discriminate); try (constructor; fail).
  - generalize 0. induction (length tests) as [|n IH]; simpl; intros k; constructor; auto.
    apply Forall_forall. intros y I. apply in_seq in I. lia.
  - intros t I. apply in_seq in I. lia.
  - intros t I. left. apply in_seq. lia.
  - tauto.
Qed.

Lemma mark_all l : forall s, NoDup l -> (forall t, In t l -> ~ In t (map fst (sv_results s))) ->
  mark_loop l s = (mkServer (sv_state s) [] (sv_exec s) (sv_finished s ++ l) (sv_validated s) (sv_connected s)
    (rev (map (fun t => (t, KUnrun)) l) ++ sv_results s) (sv_error s) (sv_interrupted s) (sv_conf s) (sv_forced s), None).
Proof.
  induction l as [|t l IH]; intros s Nd D.
  - rewrite app_nil_r. reflexivity.
  - apply NoDup_cons_iff in Nd as [Nt Nd]. cbn [mark_loop]. unfold create_result.
    destruct (mem t (map fst (sv_results s))) eqn:E; [apply mem_In in E; destruct (D t (or_introl eq_refl) E)|].
    rewrite IH; auto.
    + simpl. rewrite <- !app_assoc. simpl. reflexivity.
    + intros u I. simpl. intros [->|J]; [auto|]. apply (D u (or_intror I) J).
Qed.

Lemma mark_inv s : StronglySorted lt (sv_unstarted s) -> (forall t, In t (sv_unstarted s) -> ~ In t (sv_finished s)) ->
  (forall t, In t (map fst (sv_results s)) <-> In t (sv_finished s)) ->
  mark_unrun_tests s = (mkServer (sv_state s) [] (sv_exec s) (sv_finished s ++ sv_unstarted s) (sv_validated s) (sv_connected s)
    (rev (map (fun t => (t, KUnrun)) (sv_unstarted s)) ++ sv_results s) (sv_error s) (sv_interrupted s) (sv_conf s) (sv_forced s), None).
Proof.
  intros H1 H2 H3. unfold mark_unrun_tests. apply mark_all; [apply sorted_NoDup; auto|].
  intros t I J. apply H3 in J. apply (H2 t I J).
Qed.

Lemma NoDup_remove_3 {A} (l l' : list A) x : NoDup (l ++ l') -> ~ In x (l ++ l') -> NoDup (l ++ x :: l').
Proof.
  induction l as [|y l IH]; simpl; intros H N; [constructor; auto|].
  apply NoDup_cons_iff in H as [Ny H]. constructor; [|apply IH; auto]. rewrite in_app_iff in *. simpl. intuition.
Qed.

(** marking the remaining tests keeps the invariant *)
Lemma marked_inv s e : inv s -> inv (mkServer (sv_state s) [] (sv_exec s) (sv_finished s ++ sv_unstarted s) (sv_validated s) (sv_connected s)
    (rev (map (fun t => (t, KUnrun)) (sv_unstarted s)) ++ sv_results s) e (sv_interrupted s) (sv_conf s) (sv_forced s)).
Proof.
  intros [A B C D E F G H I J K P].
  assert (R : forall t, In t (map fst (rev (map (fun t => (t, KUnrun)) (sv_unstarted s)) ++ sv_results s)) <-> In t (sv_unstarted s) \/ In t (map fst (sv_results s))).
  { intros t. rewrite map_app, in_app_iff, map_rev, <- in_rev, map_map. simpl. rewrite map_id. tauto. }
  constructor; cbn [sv_state sv_unstarted sv_exec sv_finished sv_validated sv_connected sv_results]; auto.
  - constructor.
  - intros t [].
  - intros c t Q. destruct (C c t Q). split; auto.
  - intros t Q. apply in_app_iff in Q as [Q|Q]; [destruct (E t Q)|]; split; auto.
  - intros t L. rewrite in_app_iff. destruct (F t L) as [Q|[Q|Q]]; auto.
  - intros c t Q M. apply in_app_iff in Q as [Q|Q]; [eapply G; eauto|]. destruct (C c t M). contradiction.
  - intros t. rewrite R, in_app_iff, H. tauto.
  - rewrite map_app, map_rev, map_map. simpl. rewrite map_id.
    assert (NoDup (rev (sv_unstarted s))) by (apply NoDup_rev, sorted_NoDup; auto).
    assert (Dj : forall t, In t (rev (sv_unstarted s)) -> ~ In t (map fst (sv_results s))).
    { intros t Q M. apply in_rev in Q. apply H in M. apply (proj2 (E t M) Q). }
    clear - H0 Dj J. induction (rev (sv_unstarted s)) as [|t l IH]; simpl; auto. apply NoDup_cons_iff in H0 as [Nt H0].
    constructor; [|apply IH; auto; intros u Q; apply Dj; right; auto].
    rewrite in_app_iff. intros [Q|Q]; [auto|]. apply (Dj t (or_introl eq_refl) Q).
  - congruence.
Qed.

Lemma NoDup_snoc {A} (l : list A) x : NoDup l -> ~ In x l -> NoDup (l ++ [x]).
Proof.
  induction l as [|y l IH]; simpl; intros H N; [constructor; auto; constructor|].
  apply NoDup_cons_iff in H as [Ny H]. constructor; [|apply IH; auto]. rewrite in_app_iff. simpl. intuition.
Qed.

Theorem handle_inv x s : inv s -> orderly s x -> inv (fst (handle x s)).
Proof.
  intros Hi Ho. pose proof Hi as [A B C D E F G H I J K P]. destruct x as [c h|c l|c f|c h|c b st|c| | | |c t|c t]; simpl in Ho |- *.
  - destruct Ho as [N1 N2]. unfold connect.
    assert (X1 : inv (set_connected (add c (sv_connected s)) s)).
    { constructor; simpl; auto.
      - intros t L. destruct (F t L) as [Q|[Q|[c' [Q M]]]]; auto. right; right. exists c'. rewrite add_In. auto.
      - intros c' t Q M W. apply add_In in W as [->|W]; [congruence|]. eapply G; eauto.
      - apply add_NoDup; auto. }
    destruct h; [exact X1|]. clear A B C D E F G H I J K P. destruct X1 as [A B C D E F G H I J K P].
    assert (X2 : inv (set_exec (d_set c None (sv_exec s)) (set_connected (add c (sv_connected s)) s))).
    { constructor; simpl in *; auto.
      - intros c' t. rewrite d_get_set. destruct (Nat.eqb_spec c' c); [discriminate|]. apply C.
      - intros c1 c2 t. rewrite !d_get_set. destruct (Nat.eqb_spec c1 c); [discriminate|]. destruct (Nat.eqb_spec c2 c); [discriminate|]. apply D.
      - intros t L. destruct (F t L) as [Q|[Q|[c' [Q M]]]]; auto. right; right. exists c'. split; auto.
        rewrite d_get_set. destruct (Nat.eqb_spec c' c); [congruence|auto].
      - intros c' t Q. rewrite d_get_set. destruct (Nat.eqb_spec c' c); [discriminate|]. apply G; auto.
      - intros c' t Q. rewrite d_get_set. destruct (Nat.eqb_spec c' c); [discriminate|]. intros M. eapply P; eauto. }
    cbv zeta. destruct (Nat.leb _ _); cbn [fst]; [|exact X2].
    destruct X2; constructor; auto.
  - unfold validate_collection. destruct (negb _); [exact Hi|]. cbv zeta. destruct (_ && _); constructor; auto.
  - unfold disconnect. destruct (mem c (sv_connected s)) eqn:Em; [|exact Hi].
    assert (X : inv (set_connected (remove1 c (sv_connected s)) s)).
    { constructor; simpl; auto.
      - intros t L. destruct (F t L) as [Q|[Q|[c' [Q M]]]]; auto. right; right. exists c'. split; auto.
        apply remove1_other; auto. intros ->. apply (Ho t M).
      - intros c' t Q M W. apply remove1_In in W. eapply G; eauto.
      - apply remove1_NoDup; auto. }
    destruct f; cbn [fst]; auto. destruct X; constructor; auto.
  - unfold get_test. destruct (d_get c (sv_exec s)) as [[t|]|] eqn:Ec; try exact Hi.
    assert (Gn : forall b : bool, (b = true -> sv_unstarted s <> []) -> inv (fst (if b then
        match next_test s c (sv_unstarted s) with
        | inl (Some t) => match nth_error (collection tests) t with
            | Some d => (set_exec (d_set c (Some t) (sv_exec (set_unstarted (remove1 t (sv_unstarted s)) s))) (set_unstarted (remove1 t (sv_unstarted s)) s), if h then RFault EHook else RTest d t)
            | None => (set_unstarted (remove1 t (sv_unstarted s)) s, RFault EIndex) end
        | inl None => (s, RNoMore) | inr e => (s, RFault e) end
        else (set_state StopTests s, RNoMore)))).
    { intros b Hb. destruct b; [|destruct Hi; constructor; auto]. specialize (Hb eq_refl).
      destruct Ho as [Ho|Ho]; [|contradiction].
      destruct (next_test s c (sv_unstarted s)) as [[t|]|e] eqn:En; try exact Hi.
      apply next_test_In in En as [Iu _]. pose proof (B t Iu) as Lt.
      assert (Nu : ~ In t (remove1 t (sv_unstarted s))) by (apply remove1_gone, sorted_NoDup; auto).
      destruct (nth_error (collection tests) t) as [d|] eqn:Ed.
      2:{ exfalso. apply nth_error_None in Ed. unfold collection in Ed. rewrite map_length in Ed. lia. }
      cbn [fst]. constructor; simpl; auto.
      - apply remove1_sorted; auto.
      - intros u Q. apply B. eapply remove1_In; eauto.
      - intros c' u. rewrite d_get_set. destruct (Nat.eqb_spec c' c).
        + intros Q. inversion Q; subst. auto.
        + intros Q. destruct (C c' u Q) as [C1 C2]. split; auto. intros W. apply C2. eapply remove1_In; eauto.
      - intros c1 c2 u. rewrite !d_get_set. destruct (Nat.eqb_spec c1 c), (Nat.eqb_spec c2 c); intros Q M; subst; auto.
        + inversion Q; subst. destruct (C c2 u M). contradiction.
        + inversion M; subst. destruct (C c1 u Q). contradiction.
        + eapply D; eauto.
      - intros u Q. destruct (E u Q) as [E1 E2]. split; auto. intros W. apply E2. eapply remove1_In; eauto.
      - intros u L. destruct (Nat.eq_dec u t) as [->|Nt].
        + right; right. exists c. rewrite d_get_set_same. auto.
        + destruct (F u L) as [Q|[Q|[c' [Q M]]]]; auto.
          * left. apply remove1_other; auto.
          * right; right. exists c'. split; auto. rewrite d_get_set. destruct (Nat.eqb_spec c' c); [congruence|auto].
      - intros c' u Q. rewrite d_get_set. destruct (Nat.eqb_spec c' c).
        + intros M. inversion M; subst. destruct (E u Q). contradiction.
        + apply G; auto.
      - intros c' u Q. rewrite d_get_set. destruct (Nat.eqb_spec c' c).
        + intros M. inversion M; subst. destruct (E u Q). contradiction.
        + intros M. rewrite (P c' u Q M) in Iu. destruct Iu. }
    destruct (sv_state s) eqn:Es; try exact Hi; try (apply Gn; simpl; discriminate).
    simpl. apply Gn. destruct (sv_unstarted s); [discriminate|discriminate].
  - unfold finished_test. destruct (d_get c (sv_exec s)) as [[t|]|] eqn:Ec; try exact Hi.
    destruct (C c t Ec) as [Ct Cu].
    cbv zeta. unfold create_result.
    cbn [set_exec set_finished sv_results sv_exec sv_finished sv_unstarted sv_state sv_connected sv_validated sv_error sv_interrupted sv_conf sv_forced].
    destruct (mem t (map fst (sv_results s))) eqn:Em.
    + apply mem_In in Em. apply H in Em. cbn [fst].
      constructor; simpl; auto.
      * intros c' u. rewrite d_get_set. destruct (Nat.eqb_spec c' c); [discriminate|]. apply C.
      * intros c1 c2 u. rewrite !d_get_set. destruct (Nat.eqb_spec c1 c); [discriminate|]. destruct (Nat.eqb_spec c2 c); [discriminate|]. apply D.
      * intros u Q. apply in_app_iff in Q as [Q|[<-|[]]]; auto.
      * intros u L. rewrite in_app_iff. destruct (F u L) as [Q|[Q|[c' [Q M]]]]; auto.
        destruct (Nat.eq_dec c' c) as [->|Nc]; [right; left; right; left; congruence|].
        right; right. exists c'. split; auto. rewrite d_get_set_other; auto.
      * intros c' u Q. rewrite d_get_set. destruct (Nat.eqb_spec c' c); [discriminate|]. intros M.
        apply in_app_iff in Q as [Q|[<-|[]]]; [eapply G; eauto|eapply G; eauto].
      * intros u. rewrite H, in_app_iff. simpl. intuition congruence.
      * intros Nu. destruct Nu. eapply P; eauto.
      * intros c' u Q. rewrite d_get_set. destruct (Nat.eqb_spec c' c); [discriminate|]. intros M.
        apply in_app_iff in Q as [Q|[<-|[]]]; [eapply P; eauto|eapply P; eauto].
    + apply mem_false in Em. rewrite H in Em.
      assert (X : forall st, inv (mkServer st (sv_unstarted s) (d_set c None (sv_exec s)) (sv_finished s ++ [t]) (sv_validated s)
         (sv_connected s) ((t, KReported) :: sv_results s) (sv_error s) (sv_interrupted s) (sv_conf s) (sv_forced s))).
      { intros st0. constructor; simpl; auto.
        - intros c' u. rewrite d_get_set. destruct (Nat.eqb_spec c' c); [discriminate|]. apply C.
        - intros c1 c2 u. rewrite !d_get_set. destruct (Nat.eqb_spec c1 c); [discriminate|]. destruct (Nat.eqb_spec c2 c); [discriminate|]. apply D.
        - intros u Q. apply in_app_iff in Q as [Q|[<-|[]]]; auto.
        - intros u L. rewrite in_app_iff. destruct (F u L) as [Q|[Q|[c' [Q M]]]]; auto.
          destruct (Nat.eq_dec c' c) as [->|Nc]; [right; left; right; left; congruence|].
          right; right. exists c'. split; auto. rewrite d_get_set_other; auto.
        - intros c' u Q. rewrite d_get_set. destruct (Nat.eqb_spec c' c); [discriminate|]. intros M.
          apply in_app_iff in Q as [Q|[<-|[]]]; [eapply G; eauto|]. destruct n. eapply D; eauto.
        - intros u. rewrite H, in_app_iff. simpl. tauto.
        - constructor; auto. rewrite H. auto.
        - intros Nu. apply NoDup_snoc; auto.
        - intros c' u Q. rewrite d_get_set. destruct (Nat.eqb_spec c' c); [discriminate|]. intros M.
          apply in_app_iff in Q as [Q|[<-|[]]]; [eapply P; eauto|]. destruct n. eapply D; eauto. }
      cbv beta. destruct b; [apply X|]. destruct st; [|apply X].
      specialize (X StopTests). unfold set_state, set_results. cbn [sv_results sv_exec sv_finished sv_unstarted sv_state sv_connected sv_validated sv_error sv_interrupted sv_conf sv_forced].
      rewrite mark_inv.
      * exact (marked_inv _ (sv_error s) X).
      * apply A.
      * intros u Q W. apply (proj2 (i_fin _ X u W) Q).
      * apply (i_res _ X).
  - unfold report_client_failure. destruct (mem c (sv_connected s)) eqn:Em; [|exact Hi]. apply mem_In in Em.
    cbv zeta. cbn [set_connected sv_exec].
    assert (Y : forall s0, inv s0 -> inv (fst (match mark_unrun_tests (set_state StopTests s0) with
                  | (s', None) => (set_error true s', RNone)
                  | (s', Some e) => (s', RFault e)
                  end))).
    { intros s0 X0. assert (X : inv (set_state StopTests s0)) by (destruct X0; constructor; auto).
      rewrite mark_inv; [|apply (i_sorted _ X)| |apply (i_res _ X)].
      - exact (marked_inv _ true X).
      - intros u Q W. apply (proj2 (i_fin _ X u W) Q). }
    destruct (d_get c (sv_exec s)) as [[t|]|] eqn:Ec.
    + assert (Nf : ~ In t (sv_finished s)) by (intros Q; apply (G c t Q Ec Em)). destruct (C c t Ec) as [Ct Cu].
      unfold create_result. cbn [set_connected sv_results].
      destruct (mem t (map fst (sv_results s))) eqn:Er; [apply mem_In, H in Er; contradiction|].
      (* the intermediate state is not invariant; the final one is *)
      rewrite mark_inv; cbn [set_state set_finished set_results set_connected sv_results sv_exec sv_finished sv_unstarted sv_state sv_connected sv_validated sv_error sv_interrupted sv_conf sv_forced fst].
      * unfold set_error. cbn [sv_results sv_exec sv_finished sv_unstarted sv_state sv_connected sv_validated sv_error sv_interrupted sv_conf sv_forced].
        pose proof (marked_inv s true Hi) as [A' B' C' D' E' F' G' H' I' J' K' P'].
        cbn [sv_results sv_exec sv_finished sv_unstarted sv_state sv_connected sv_validated sv_error sv_interrupted sv_conf sv_forced] in *.
        assert (Rt : forall (u : nat) (k : kind), In u (map fst (rev (map (fun t => (t, KUnrun)) (sv_unstarted s)) ++ (t, k) :: sv_results s))
          <-> u = t \/ In u (map fst (rev (map (fun t => (t, KUnrun)) (sv_unstarted s)) ++ sv_results s))).
        { intros u k. rewrite !map_app, !in_app_iff. simpl. intuition. }
        constructor; cbn [sv_results sv_exec sv_finished sv_unstarted sv_state sv_connected sv_validated sv_error sv_interrupted sv_conf sv_forced]; auto.
        -- intros u. rewrite !in_app_iff. simpl. intros [[Q|[<-|[]]]|Q]; auto; apply E'; rewrite in_app_iff; auto.
        -- intros u L. rewrite !in_app_iff. simpl. destruct (F u L) as [Q|[Q|[c' [Q M]]]]; auto.
           destruct (Nat.eq_dec c' c) as [->|Nc]; [right; left; left; right; left; congruence|].
           right; right. exists c'. split; auto. apply remove1_other; auto.
        -- intros c' u Q M W. apply in_app_iff in Q as [Q|Q]; [apply in_app_iff in Q as [Q|[<-|[]]]|].
           ++ apply (G c' u Q M). eapply remove1_In; eauto.
           ++ assert (c' = c) by (eapply D; eauto). subst. apply (remove1_gone c (sv_connected s)); auto.
           ++ destruct (C c' u M). contradiction.
        -- intros u. rewrite Rt, H', !in_app_iff. simpl. intuition.
        -- apply remove1_NoDup; auto.
        -- rewrite map_app. rewrite map_app in J'. simpl. apply NoDup_remove_3.
           ++ exact J'.
           ++ intros Q. rewrite <- map_app in Q. apply H' in Q. rewrite in_app_iff in Q. tauto.
        -- intros Q. congruence.
      * exact A.
      * intros u Q W. apply in_app_iff in W as [W|[<-|[]]]; [apply (proj2 (E u W) Q)|contradiction].
      * intros u. simpl. rewrite H, in_app_iff. simpl. tauto.
    + apply Y. constructor; simpl; auto.
      * intros u L. destruct (F u L) as [Q|[Q|[c' [Q M]]]]; auto. right; right. exists c'. split; auto.
        apply remove1_other; auto. congruence.
      * intros c' u Q M W. apply remove1_In in W. eapply G; eauto.
      * apply remove1_NoDup; auto.
    + apply Y. constructor; simpl; auto.
      * intros u L. destruct (F u L) as [Q|[Q|[c' [Q M]]]]; auto. right; right. exists c'. split; auto.
        apply remove1_other; auto. congruence.
      * intros c' u Q M W. apply remove1_In in W. eapply G; eauto.
      * apply remove1_NoDup; auto.
  - unfold session_interrupted. cbv zeta. destruct (sstate_eqb _ _); constructor; auto.
  - constructor; auto.
  - constructor; auto.
  - unfold reconf. destruct (d_get c (sv_conf s)) as [w|]; [destruct (exclude_test t w)|]; try exact Hi. constructor; auto.
  - unfold reconf. destruct (d_get c (sv_conf s)) as [w|]; [destruct (force_test t w)|]; try exact Hi. constructor; auto.
Qed.
End Server.
