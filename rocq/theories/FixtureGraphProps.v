(** Properties of namespaces, of the resolution of fixture arguments and of the
    needed parametrizations (model: FixtureGraph.v): C25, C26, C27. *)

From Coq Require Import List Bool Arith PeanoNat Lia Relations.
From Verif Require Import Dict FixtureGraph.
Import ListNotations.

(** ** lists *)

Lemma mem_true x l : existsb (Nat.eqb x) l = true <-> In x l.
Proof.
  rewrite existsb_exists. split.
  - intros [y [H E]]. apply Nat.eqb_eq in E. subst. auto.
  - intros H. exists x. rewrite Nat.eqb_refl. auto.
Qed.
Lemma mem_false x l : existsb (Nat.eqb x) l = false <-> ~ In x l.
Proof. rewrite <- mem_true. destruct (existsb _ l); intuition congruence. Qed.

Lemma set_nth_length {A} k (x : A) l : length (set_nth k x l) = length l.
Proof. revert k. induction l as [|y l IH]; intros [|k]; simpl; auto. Qed.
Lemma nth_set_nth {A} k j (x : A) l : k < length l ->
  nth_error (set_nth k x l) j = if Nat.eqb j k then Some x else nth_error l j.
Proof.
  revert k j. induction l as [|y l IH]; intros [|k] [|j]; simpl; try lia; auto.
  intros H. apply IH. lia.
Qed.

Lemma oset_add_In s x y : In y (oset_add s x) <-> y = x \/ In y s.
Proof.
  unfold oset_add. destruct (existsb (Nat.eqb x) s) eqn:E.
  - apply mem_true in E. intuition. subst; auto.
  - rewrite in_app_iff. simpl. intuition.
Qed.
Lemma oset_update_In l s y : In y (oset_update s l) <-> In y s \/ In y l.
Proof.
  unfold oset_update. revert s. induction l as [|x l IH]; simpl; intros s; [intuition|].
  rewrite IH, oset_add_In. intuition.
Qed.
Lemma oset_add_NoDup s x : NoDup s -> NoDup (oset_add s x).
Proof.
  unfold oset_add. intros H. destruct (existsb (Nat.eqb x) s) eqn:E; auto.
  apply mem_false in E. rewrite <- (rev_involutive (s ++ [x])). apply NoDup_rev.
  rewrite rev_app_distr. simpl. constructor; [rewrite <- in_rev; auto|apply NoDup_rev, H].
Qed.
Lemma oset_update_NoDup l s : NoDup s -> NoDup (oset_update s l).
Proof.
  unfold oset_update. revert s. induction l as [|x l IH]; simpl; intros s H; auto.
  apply IH, oset_add_NoDup, H.
Qed.

(** ** the dependency graph *)

(** fixture [f] has been resolved and fixture [g] is one of its arguments *)
Definition depends (st : store) (f g : nat) : Prop :=
  exists r, d_get f (fs_resolved st) = Some r /\ In (DFix g) (map snd (r_kwargs r)).

(** [g] can be reached from [f] by following arguments *)
Definition reaches (st : store) : nat -> nat -> Prop := clos_refl_trans_1n _ (depends st).
(** in at least one step *)
Definition reaches1 (st : store) : nat -> nat -> Prop := clos_trans_1n _ (depends st).

(** a fixture that depends on itself through a chain is reachable from [f] *)
Definition cyclic_from (st : store) (f : nat) : Prop := exists g, reaches st f g /\ reaches1 st g g.

(** parametrization [p] belongs to fixture [f] *)
Definition has_param (st : store) (f p : nat) : Prop :=
  exists d own, d_get f (fs_fixtures st) = Some (d, own) /\ In p (map snd (fd_params d)).

(** parametrization [p] is needed by [f], directly or through other fixtures *)
Definition needs (st : store) (f p : nat) : Prop := exists g, reaches st f g /\ has_param st g p.

Lemma reaches_refl st f : reaches st f f.
Proof. constructor. Qed.
Lemma reaches_step st f g h : depends st f g -> reaches st g h -> reaches st f h.
Proof. intros. econstructor 2; eauto. Qed.
Lemma reaches_trans st f g h : reaches st f g -> reaches st g h -> reaches st f h.
Proof. induction 1; intros; auto. eapply reaches_step; eauto. Qed.
Lemma reaches1_of st f g h : depends st f g -> reaches st g h -> reaches1 st f h.
Proof.
  intros H R. revert f H. induction R as [g|g x h D R IH]; intros f H.
  - constructor. auto.
  - econstructor 2; [exact H|]. apply IH. auto.
Qed.
Lemma reaches1_inv st f h : reaches1 st f h -> exists g, depends st f g /\ reaches st g h.
Proof.
  intros R. destruct R as [h D|x h D R].
  - exists h. split; auto. constructor.
  - exists x. split; auto. clear D. induction R as [x h D|x y h D R IH].
    + eapply reaches_step; eauto. constructor.
    + eapply reaches_step; eauto.
Qed.
Lemma reaches_inv st f h : reaches st f h -> f = h \/ exists g, depends st f g /\ reaches st g h.
Proof. intros R. destruct R as [|x h D R]; [auto|]. right. exists x. auto. Qed.

Lemma cyclic_inv st f : cyclic_from st f -> exists g, depends st f g /\ cyclic_from st g.
Proof.
  intros [g [R C]]. destruct (reaches_inv _ _ _ R) as [->|[x [D R']]].
  - destruct (reaches1_inv _ _ _ C) as [x [D R']]. exists x. split; auto. exists g. auto.
  - exists x. split; auto. exists g. auto.
Qed.
Lemma cyclic_step st f g : depends st f g -> cyclic_from st g -> cyclic_from st f.
Proof. intros D [h [R C]]. exists h. split; auto. eapply reaches_step; eauto. Qed.

(** ** the invariant of a store *)

Definition known (st : store) (f : nat) : Prop := d_get f (fs_fixtures st) <> None.

(** a correct entry of the memo: it stays correct while the store grows *)
Record entry (st : store) (f : nat) (s : list nat) : Prop := mkEntry {
  en_resolved : forall g, reaches st f g -> d_get g (fs_resolved st) <> None;
  en_acyclic : ~ cyclic_from st f;
  en_nodup : NoDup s;
  en_set : forall p, In p s <-> needs st f p
}.

Record ok (st : store) : Prop := mkOk {
  ok_parent : forall k x p, nth_error (fs_nss st) k = Some x -> ns_parent x = Some p -> p < k;
  ok_stack : forall k, In k (fs_stack st) -> k < length (fs_nss st);
  ok_names : forall k x name f, nth_error (fs_nss st) k = Some x -> d_get name (ns_names x) = Some f -> known st f;
  ok_own : forall f d own, d_get f (fs_fixtures st) = Some (d, own) -> own < length (fs_nss st) /\ fd_id d = f;
  ok_res : forall f r, d_get f (fs_resolved st) = Some r ->
    exists d own, d_get f (fs_fixtures st) = Some (d, own)
      /\ (forall p, In p (r_pids r) <-> In p (map snd (fd_params d)))
      /\ (forall g, In (DFix g) (map snd (r_kwargs r)) ->
            g <> f /\ exists dg og, d_get g (fs_fixtures st) = Some (dg, og) /\ fd_scope d <= fd_scope dg);
  ok_unres : forall f, known st f -> In f (fs_unresolved st) \/ d_get f (fs_resolved st) <> None;
  ok_memo : forall f s, d_get f (fs_memo st) = Some s -> entry st f s
}.

Lemma ok0 : ok store0.
Proof.
  split; simpl; try (intros; discriminate).
  - intros [|k] x p H; simpl in H; [|destruct k; discriminate]. inversion H; subst. discriminate.
  - intros k [<-|[]]. auto.
  - intros [|k] x name f H; simpl in H; [|destruct k; discriminate]. inversion H; subst. discriminate.
  - intros f H. destruct H. reflexivity.
Qed.

(** growth of a store: known fixtures and resolutions stay as they are *)
Definition grows (st st' : store) : Prop :=
  (forall f x, d_get f (fs_fixtures st) = Some x -> d_get f (fs_fixtures st') = Some x)
  /\ (forall f r, d_get f (fs_resolved st) = Some r -> d_get f (fs_resolved st') = Some r).

Lemma grows_refl st : grows st st.
Proof. split; auto. Qed.
Lemma grows_depends st st' f g : grows st st' -> depends st f g -> depends st' f g.
Proof. intros [_ G] [r [H I]]. exists r. auto. Qed.
Lemma depends_back st st' f g : grows st st' -> d_get f (fs_resolved st) <> None -> depends st' f g -> depends st f g.
Proof.
  intros [_ G] H [r [Q I]]. destruct (d_get f (fs_resolved st)) eqn:E; [|congruence].
  apply G in E as E'. exists r0. split; auto. congruence.
Qed.
Lemma grows_reaches st st' f g : grows st st' -> reaches st f g -> reaches st' f g.
Proof. intros G. induction 1; [constructor|]. eapply reaches_step; eauto using grows_depends. Qed.
Lemma reaches_back st st' f g : grows st st' ->
  (forall h, reaches st f h -> d_get h (fs_resolved st) <> None) -> reaches st' f g -> reaches st f g.
Proof.
  intros G A R. induction R as [f|f x g D R IH]; [constructor|].
  assert (D' : depends st f x) by (eapply depends_back; eauto; apply A; constructor).
  eapply reaches_step; [exact D'|]. apply IH. intros h R'. apply A. eapply reaches_step; eauto.
Qed.

Lemma entry_grows st st' f s : ok st -> grows st st' -> entry st f s -> entry st' f s.
Proof.
  intros O G [A B C D]. split; auto.
  - intros g R. apply (reaches_back st) in R; auto. apply A in R.
    destruct (d_get g (fs_resolved st)) eqn:E; [|congruence]. apply G in E. congruence.
  - intros [g [R C1]]. apply B. apply (reaches_back st) in R; auto. exists g. split; auto.
    destruct (reaches1_inv _ _ _ C1) as [x [Dx Rx]].
    assert (Dx' : depends st g x) by (eapply depends_back; eauto).
    eapply reaches1_of; eauto. eapply (reaches_back st); eauto. intros h Rh. apply A.
    eapply reaches_trans; [exact R|]. eapply reaches_step; eauto.
  - intros p. rewrite D. split; intros [g [R [d [own [Q I]]]]].
    + exists g. split; [eapply grows_reaches; eauto|]. exists d, own. split; auto. apply G, Q.
    + apply (reaches_back st) in R; auto. exists g. split; auto. exists d, own. split; auto.
      specialize (A g R). destruct (d_get g (fs_resolved st)) eqn:E; [|congruence].
      destruct (ok_res _ O _ _ E) as [d' [own' [Q' _]]]. pose proof (proj1 G _ _ Q'). congruence.
Qed.

Lemma nth_app_last {A} (l : list A) x k y : nth_error (l ++ [x]) k = Some y ->
  nth_error l k = Some y \/ (k = length l /\ y = x).
Proof.
  intros H. destruct (Nat.lt_ge_cases k (length l)) as [L|L].
  - rewrite nth_error_app1 in H by auto. auto.
  - rewrite nth_error_app2 in H by auto. destruct (k - length l) as [|[|n]] eqn:E; simpl in H; try discriminate.
    inversion H. right. split; auto. lia.
Qed.

(** add_name touches the names of one namespace only *)
Lemma add_name_spec k name id nss nss' : add_name k name id nss = Some nss' ->
  length nss' = length nss /\
  forall j, nth_error nss' j =
    match nth_error nss j with
    | Some x => Some (if Nat.eqb j k
                      then match d_get name (ns_names x) with
                           | Some _ => x
                           | None => mkNs (ns_parent x) (d_set name id (ns_names x))
                           end
                      else x)
    | None => None
    end.
Proof.
  unfold add_name. destruct (nth_error nss k) eqn:E; [|discriminate].
  assert (L : k < length nss) by (apply nth_error_Some; congruence).
  destruct (d_get name (ns_names n)) eqn:D.
  - destruct (Nat.eqb_spec n0 id); [|discriminate]. intros H; inversion H; subst. split; auto.
    intros j. destruct (nth_error nss' j) eqn:J; auto. destruct (Nat.eqb_spec j k); auto.
    subst. rewrite E in J. inversion J; subst. rewrite D. auto.
  - intros H; inversion H; subst. rewrite set_nth_length. split; auto. intros j.
    rewrite nth_set_nth by auto. destruct (Nat.eqb_spec j k) as [->|N].
    + rewrite E, D. auto.
    + destruct (nth_error nss j); auto.
Qed.

Lemma resolve_args_spec st d own args : forall kw kw',
  resolve_args st d own args kw = inl kw' ->
  forall x, In x (map snd kw') -> In x (map snd kw)
    \/ exists g dg og, x = DFix g /\ d_get g (fs_fixtures st) = Some (dg, og)
         /\ fd_scope d <= fd_scope dg /\ g <> fd_id d.
Proof.
  induction args as [|[a real] args IH]; simpl; intros kw kw' H x I.
  - inversion H; subst; auto.
  - destruct (existsb _ _); [eauto|].
    destruct (get_by_name st own real) as [g|e]; [|discriminate].
    destruct (d_get g (fs_fixtures st)) as [[dg og]|] eqn:E; [|discriminate].
    destruct (Nat.ltb_spec (fd_scope dg) (fd_scope d)); [discriminate|].
    destruct (Nat.eqb_spec g (fd_id d)); [discriminate|].
    specialize (IH _ _ H x I) as [Q|Q]; auto.
    assert (W : forall k (v : dep) dd y, In y (map snd (d_set k v dd)) -> y = v \/ In y (map snd dd)).
    { clear. intros k v dd y. induction dd as [|[j w] dd IH]; simpl; [intuition|].
      destruct (Nat.eqb k j); simpl; intuition. }
    apply W in Q as [->|Q]; auto. right. exists g, dg, og. auto.
Qed.

Lemma param_kwargs_no_fix d g : ~ In (DFix g) (map snd (param_kwargs d)).
Proof.
  unfold param_kwargs. assert (H : forall l kw, ~ In (DFix g) (map snd kw) ->
    ~ In (DFix g) (map snd (fold_left (fun kw np => d_set (fst np) (DParam (snd np)) kw) l kw))).
  { induction l as [|[n p] l IH]; simpl; intros kw H; auto. apply IH.
    clear IH. induction kw as [|[j w] kw IHk]; simpl in *; [intuition congruence|].
    destruct (Nat.eqb n j); simpl; intuition congruence. }
  apply H. auto.
Qed.

Lemma resolve_one_ok f st st' : ok st -> resolve_one f st = inl st' ->
  ok st' /\ grows st st' /\ d_get f (fs_resolved st') <> None
  /\ fs_unresolved st' = fs_unresolved st /\ fs_fixtures st' = fs_fixtures st
  /\ fs_nss st' = fs_nss st /\ fs_stack st' = fs_stack st
  /\ forall g, d_get g (fs_resolved st') <> None <-> g = f \/ d_get g (fs_resolved st) <> None.
Proof.
  intros O. unfold resolve_one. destruct (d_get f (fs_fixtures st)) as [[d own]|] eqn:E; [|discriminate].
  destruct (d_get f (fs_resolved st)) as [r|] eqn:R.
  - intros H; inversion H; subst. split; [auto|]. split; [apply grows_refl|]. split; [congruence|].
    do 4 (split; [auto|]). intros g. intuition. congruence.
  - destruct (resolve_args st d own (fd_args d) (param_kwargs d)) as [kw|e] eqn:A; [|discriminate].
    intros H; inversion H; subst; clear H. cbn.
    set (st' := mkStore _ _ _ _ _ _).
    assert (G : grows st st').
    { split; simpl; auto. intros g r H. rewrite d_get_set_other; auto. congruence. }
    split; [|split; [auto|]].
    + destruct O as [P1 P2 P3 P4 P5 P6 P7]. split; simpl; auto.
      * intros g r H. rewrite d_get_set in H. destruct (Nat.eqb_spec g f) as [->|N]; [|apply P5; auto].
        inversion H; subst; clear H. simpl. exists d, own. split; [auto|]. split.
        { intros p. rewrite oset_update_In. simpl. intuition. }
        intros g I. destruct (resolve_args_spec _ _ _ _ _ _ A _ I) as [Q|[g' [dg [og [Q [Q1 [Q2 Q3]]]]]]].
        { destruct (param_kwargs_no_fix d g Q). }
        inversion Q; subst g'. split; [|exists dg, og; auto].
        destruct (P4 _ _ _ E) as [_ Hf]. congruence.
      * intros g K. destruct (P6 g K) as [U|U]; auto. right. rewrite d_get_set.
        destruct (Nat.eqb g f); congruence.
      * intros g s H. eapply entry_grows; eauto. split; auto.
    + rewrite d_get_set_same. split; [discriminate|]. do 4 (split; [auto|]).
      intros g. rewrite d_get_set. destruct (Nat.eqb_spec g f); intuition congruence.
Qed.

Lemma ok_ext st st' : ok st ->
  fs_nss st' = fs_nss st -> fs_fixtures st' = fs_fixtures st -> fs_resolved st' = fs_resolved st ->
  fs_memo st' = fs_memo st ->
  (forall k, In k (fs_stack st') -> In k (fs_stack st)) ->
  (forall f, In f (fs_unresolved st) -> In f (fs_unresolved st') \/ d_get f (fs_resolved st) <> None) ->
  ok st'.
Proof.
  intros O A B C D S1 U.
  assert (G : grows st st') by (split; rewrite ?B, ?C; auto).
  destruct O as [P1 P2 P3 P4 P5 P6 P7]. split; unfold known; rewrite ?A, ?B, ?C, ?D; auto.
  - intros f K. destruct (P6 f K) as [W|W]; auto.
  - intros f s H. eapply entry_grows; eauto. split; auto.
Qed.

Lemma resolve_args_ext s1 st d own : fs_nss s1 = fs_nss st -> fs_fixtures s1 = fs_fixtures st ->
  forall args kw, resolve_args s1 d own args kw = resolve_args st d own args kw.
Proof.
  intros A B. induction args as [|[a real] args IH]; intros kw; simpl; auto. rewrite IH, B.
  assert (G : get_by_name s1 own real = get_by_name st own real) by (unfold get_by_name; rewrite A; auto).
  rewrite G. destruct (existsb _ _); [reflexivity|]. destruct (get_by_name st own real) as [g|]; [|reflexivity].
  destruct (d_get g (fs_fixtures st)) as [[dg og]|]; [|reflexivity].
  destruct (Nat.ltb _ _); [reflexivity|]. destruct (Nat.eqb _ _); [reflexivity|]. apply IH.
Qed.

(** during resolve: all known fixtures but those still in the set are resolved *)
Lemma resolve_all_ok order : forall st st', ok st -> resolve_all order st = inl st' ->
  ok st' /\ grows st st' /\ fs_unresolved st' = [] /\ fs_fixtures st' = fs_fixtures st
  /\ fs_nss st' = fs_nss st /\ fs_stack st' = fs_stack st.
Proof.
  induction order as [|f order IH]; simpl; intros st st' O H.
  - destruct (fs_unresolved st) eqn:U; [|discriminate]. inversion H; subst. split; [auto|]. split; [apply grows_refl|]. auto.
  - destruct (existsb (Nat.eqb f) (fs_unresolved st)) eqn:M; [|discriminate].
    match goal with H : context [resolve_one f ?s] |- _ => set (s1 := s) in * end.
    destruct (resolve_one f s1) as [s2|e] eqn:R; [|discriminate].
    assert (Q : ok s2 /\ grows st s2 /\ fs_fixtures s2 = fs_fixtures st /\ fs_nss s2 = fs_nss st /\ fs_stack s2 = fs_stack st).
    { (* resolve first, then remove from the set: same result *)
      assert (R' : resolve_one f st = inl (mkStore (fs_nss s2) (fs_stack s2) (fs_fixtures s2) (fs_unresolved st) (fs_resolved s2) (fs_memo s2))).
      { revert R. unfold resolve_one, s1. cbn [fs_fixtures fs_resolved fs_nss fs_stack fs_unresolved fs_memo].
        destruct (d_get f (fs_fixtures st)) as [[d own]|]; [|discriminate].
        destruct (d_get f (fs_resolved st)); [intros Q; inversion Q; subst; destruct st; reflexivity|].
        assert (E : forall args kw, resolve_args s1 d own args kw = resolve_args st d own args kw) by (intros; apply resolve_args_ext; auto).
        fold s1. rewrite E. destruct (resolve_args st d own (fd_args d) (param_kwargs d)); [|discriminate].
        intros Q; inversion Q; subst. reflexivity. }
      assert (U2 : fs_unresolved s2 = remove Nat.eq_dec f (fs_unresolved st)).
      { revert R. unfold resolve_one, s1. cbn [fs_fixtures fs_resolved fs_nss fs_stack fs_unresolved fs_memo].
        destruct (d_get f (fs_fixtures st)) as [[d own]|]; [|discriminate].
        destruct (d_get f (fs_resolved st)); [intros Q; inversion Q; subst; reflexivity|].
        destruct (resolve_args _ _ _ _ _); [|discriminate]. intros Q; inversion Q; subst. reflexivity. }
      destruct (resolve_one_ok _ _ _ O R') as [Oa [Ga [Da [Ua [Fa [Na [Sa Ra]]]]]]]. cbn in *.
      split; [|split; [split; [apply Ga|apply Ga]|auto]].
      eapply ok_ext; [exact Oa|reflexivity..|auto|]. cbn. intros g I. rewrite U2.
      destruct (Nat.eq_dec g f) as [->|N]; [right; auto|]. left. apply in_in_remove; auto. }
    destruct Q as [O2 [G2 [F2 [N2 S2]]]].
    destruct (IH _ _ O2 H) as [O3 [G3 [U3 [F3 [N3 S3]]]]].
    split; [auto|]. split; [|rewrite F3, N3, S3; auto].
    destruct G2, G3. split; auto.
Qed.

(** ** the needed parametrizations *)

Section Needed.
Variable st : store.
Hypothesis O : ok st.
Hypothesis all_resolved : fs_unresolved st = [].

Lemma resolved_known f : known st f -> exists r, d_get f (fs_resolved st) = Some r.
Proof.
  intros K. destruct (ok_unres _ O f K) as [U|U].
  - rewrite all_resolved in U. destruct U.
  - destruct (d_get f (fs_resolved st)); eauto. congruence.
Qed.

Lemma depends_known f g : depends st f g -> known st g.
Proof.
  intros [r [H I]]. destruct (ok_res _ O _ _ H) as [d [own [_ [_ D]]]].
  destruct (D _ I) as [_ [dg [og [E _]]]]. unfold known. congruence.
Qed.

Lemma reaches_known f g : known st f -> reaches st f g -> known st g.
Proof. intros K R. induction R; auto. apply IHR. eapply depends_known; eauto. Qed.

Definition deps_of (l : list dep) : list nat := flat_map (fun x => match x with DFix g => [g] | _ => [] end) l.
Lemma deps_of_In l g : In g (deps_of l) <-> In (DFix g) l.
Proof.
  unfold deps_of. rewrite in_flat_map. split.
  - intros [[p|h] [I J]]; simpl in J; [destruct J|]. destruct J as [->|[]]. auto.
  - intros I. exists (DFix g). simpl. auto.
Qed.

Lemma push_deps_spec l path : forall stack,
  match push_deps l path stack with
  | None => exists g, In g (deps_of l) /\ In g path
  | Some s => (forall g, In g (deps_of l) -> ~ In g path)
              /\ s = rev (map (fun g => (g, path ++ [g])) (deps_of l)) ++ stack
  end.
Proof.
  induction l as [|[p|g] l IH]; simpl; intros stack; auto.
  - apply IH.
  - destruct (existsb (Nat.eqb g) path) eqn:M.
    + apply mem_true in M. exists g. auto.
    + apply mem_false in M. specialize (IH ((g, path ++ [g]) :: stack)).
      destruct (push_deps l path _).
      * destruct IH as [A B]. split.
        { intros h [<-|I]; auto. }
        rewrite B. rewrite <- app_assoc. reflexivity.
      * destruct IH as [h [A B]]. exists h. auto.
Qed.

(** what the elements of the stack satisfy *)
Definition item (x : nat * list nat) : Prop :=
  known st (fst x) /\ NoDup (snd x) /\ (forall g, In g (snd x) -> known st g /\ reaches st g (fst x)).

Lemma item_push f path g : item (f, path) -> depends st f g -> ~ In g path -> item (g, path ++ [g]).
Proof.
  intros [A [B C]] D N. simpl in *. assert (K : known st g) by (eapply depends_known; eauto).
  split; [auto|]. split; simpl.
  - rewrite <- (rev_involutive (path ++ [g])). apply NoDup_rev. rewrite rev_app_distr. simpl.
    constructor; [rewrite <- in_rev; auto|apply NoDup_rev, B].
  - intros h I. apply in_app_iff in I as [I|[<-|[]]].
    + destruct (C h I) as [C1 C2]. split; auto. eapply reaches_trans; [exact C2|].
      eapply reaches_step; eauto. constructor.
    + split; auto. constructor.
Qed.

(** the partial correctness of the loop *)
Lemma needed_loop_spec n : forall stack ret,
  (forall x, In x stack -> item x) -> NoDup ret ->
  match needed_loop n st (fs_memo st) stack ret with
  | inl s => NoDup s /\ (forall x, In x stack -> ~ cyclic_from st (fst x))
             /\ forall p, In p s <-> In p ret \/ exists x, In x stack /\ needs st (fst x) p
  | inr CyclicFixtureDependency => exists x, In x stack /\ cyclic_from st (fst x)
  | inr NoFuel => True
  | inr _ => False
  end.
Proof.
  induction n as [|n IH]; simpl; intros stack ret It ND; auto.
  destruct stack as [|[f path] rest].
  - split; [auto|]. split; [intros x []|]. intros p. split; auto. intros [H|[x [[] _]]]; auto.
  - assert (If : item (f, path)) by (apply It; left; auto).
    destruct (d_get f (fs_memo st)) as [s|] eqn:M.
    + pose proof (ok_memo _ O _ _ M) as [E1 E2 E3 E4].
      specialize (IH rest (oset_update ret s) (fun x I => It x (or_intror I)) (oset_update_NoDup _ _ ND)).
      destruct (needed_loop n st (fs_memo st) rest (oset_update ret s)) as [res|e].
      * destruct IH as [A [B C]]. split; [auto|]. split.
        { intros x [<-|I]; auto. }
        intros p. rewrite C, oset_update_In, E4. split.
        { intros [[H|H]|[x [I H]]]; [auto|right; exists (f, path); simpl; auto|right; exists x; simpl; auto]. }
        { intros [H|[x [[<-|I] H]]]; [auto|auto|right; exists x; auto]. }
      * destruct e; try exact IH. destruct IH as [x [I C]]. exists x. simpl. auto.
    + destruct If as [K If]. simpl in K. unfold known in K.
      destruct (d_get f (fs_fixtures st)) as [[d own]|] eqn:F; [|congruence].
      destruct (resolved_known f) as [r R]; [unfold known; congruence|]. rewrite R.
      destruct (ok_res _ O _ _ R) as [d' [own' [F' [P D]]]]. rewrite F in F'. inversion F'; subst d' own'; clear F'.
      pose proof (push_deps_spec (map snd (r_kwargs r)) path rest) as PS.
      assert (DD : forall g, In g (deps_of (map snd (r_kwargs r))) <-> depends st f g).
      { intros g. rewrite deps_of_In. split.
        - intros I. exists r. auto.
        - intros [r' [R' I]]. congruence. }
      destruct (push_deps (map snd (r_kwargs r)) path rest) as [stack'|].
      * destruct PS as [PA PB].
        assert (It' : forall x, In x stack' -> item x).
        { intros x I. rewrite PB in I. apply in_app_iff in I as [I|I]; [|apply It; right; auto].
          rewrite <- in_rev in I. apply in_map_iff in I as [g [<- I]].
          eapply item_push; [split; [simpl; unfold known; rewrite F; discriminate|exact If]|apply DD; auto|auto]. }
        specialize (IH stack' (oset_update ret (r_pids r)) It' (oset_update_NoDup _ _ ND)).
        assert (In_s : forall g, depends st f g -> exists pth, In (g, pth) stack').
        { intros g H. exists (path ++ [g]). rewrite PB. apply in_app_iff. left. rewrite <- in_rev.
          apply in_map_iff. exists g. split; auto. apply DD. auto. }
        assert (S_in : forall x, In x stack' -> depends st f (fst x) \/ In x rest).
        { intros x I. rewrite PB in I. apply in_app_iff in I as [I|I]; auto. left.
          rewrite <- in_rev in I. apply in_map_iff in I as [g [<- I]]. apply DD. auto. }
        assert (R_in : forall x, In x rest -> In x stack').
        { intros x I. rewrite PB. apply in_app_iff. auto. }
        destruct (needed_loop n st (fs_memo st) stack' (oset_update ret (r_pids r))) as [res|e].
        { destruct IH as [A [B C]]. split; [auto|]. split.
          - intros x [<-|I]; auto. simpl. intros Cy. destruct (cyclic_inv _ _ Cy) as [g [Dg Cg]].
            destruct (In_s g Dg) as [pth I]. apply (B _ I). auto.
          - intros p. rewrite C, oset_update_In. split.
            + intros [[H|H]|[x [I H]]]; auto.
              * right. exists (f, path). split; [left; auto|]. exists f. split; [constructor|].
                exists d, own. split; auto. apply P, H.
              * right. destruct (S_in x I) as [Dx|Ix]; [|exists x; split; [right; auto|auto]].
                exists (f, path). split; [left; auto|]. destruct H as [g [Rg Hg]]. exists g. split; auto.
                eapply reaches_step; eauto.
            + intros [H|[x [[<-|I] H]]]; auto.
              * simpl in H. destruct H as [g [Rg [d' [own' [Hd Hp]]]]].
                destruct (reaches_inv _ _ _ Rg) as [->|[h [Dh Rh]]].
                { left. right. apply P. rewrite F in Hd. inversion Hd; subst. auto. }
                { right. destruct (In_s h Dh) as [pth I]. exists (h, pth). split; auto. exists g. split; auto.
                  exists d', own'. auto. }
              * right. exists x. auto. }
        { destruct e; try exact IH. destruct IH as [x [I C]]. destruct (S_in x I) as [Dx|Ix]; [|exists x; split; [right; auto|auto]].
          exists (f, path). split; [left; auto|]. eapply cyclic_step; eauto. }
      * destruct PS as [g [A B]]. exists (f, path). split; [left; auto|]. simpl.
        apply DD in A. destruct If as [_ C]. destruct (C g B) as [_ Rg]. exists g. split.
        { eapply reaches_step; eauto. constructor. }
        { destruct (reaches_inv _ _ _ Rg) as [E|[h [Dh Rh]]].
          - simpl in E. subst g. constructor. auto.
          - simpl in *. eapply reaches1_of; [exact Dh|]. eapply reaches_trans; [exact Rh|].
            eapply reaches_step; eauto. constructor. }
Qed.

(** ** termination: the weight of the stack decreases *)

Definition weight (x : nat * list nat) : nat := steps (max_args st) (length (fs_fixtures st) - length (snd x)).

Lemma steps_pos d k : 1 <= steps d k.
Proof. destruct k; simpl; lia. Qed.

Lemma path_short f path : item (f, path) -> length path <= length (fs_fixtures st).
Proof.
  intros [_ [ND C]]. simpl in *. rewrite <- (map_length fst (fs_fixtures st)).
  apply NoDup_incl_length; auto. intros g I. apply d_get_In. apply C. auto.
Qed.

Lemma deps_of_length l : length (deps_of l) <= length l.
Proof. unfold deps_of. induction l as [|[p|g] l IH]; simpl; lia. Qed.

Lemma max_args_ge f r : d_get f (fs_resolved st) = Some r -> length (r_kwargs r) <= max_args st.
Proof.
  intros H. apply d_get_pair in H. unfold max_args.
  assert (Q : Forall (fun k => k <= list_max (map (fun x => length (r_kwargs (snd x))) (fs_resolved st)))
                     (map (fun x => length (r_kwargs (snd x))) (fs_resolved st))).
  { apply list_max_le. auto. }
  rewrite Forall_forall in Q. apply Q. apply in_map_iff. exists (f, r). auto.
Qed.

Lemma needed_loop_ends n : forall stack ret, (forall x, In x stack -> item x) ->
  list_sum (map weight stack) < n -> needed_loop n st (fs_memo st) stack ret <> inr NoFuel.
Proof.
  induction n as [|n IH]; intros stack ret It H; [lia|]. simpl.
  destruct stack as [|[f path] rest]; [discriminate|].
  assert (If : item (f, path)) by (apply It; left; auto).
  change (list_sum (map weight ((f, path) :: rest))) with (weight (f, path) + list_sum (map weight rest)) in H.
  assert (Wp : 1 <= weight (f, path)) by apply steps_pos.
  destruct (d_get f (fs_memo st)) as [s|]; [apply IH; [intros; apply It; right; auto|lia]|].
  destruct (d_get f (fs_fixtures st)) as [[d own]|] eqn:F; [|discriminate].
  destruct (resolved_known f) as [r R]; [unfold known; congruence|]. rewrite R.
  pose proof (push_deps_spec (map snd (r_kwargs r)) path rest) as PS.
  assert (DD : forall g, In g (deps_of (map snd (r_kwargs r))) -> depends st f g).
  { intros g I. apply deps_of_In in I. exists r. auto. }
  destruct (push_deps (map snd (r_kwargs r)) path rest) as [stack'|]; [|discriminate].
  destruct PS as [PA PB].
  assert (It1 : forall g, In g (deps_of (map snd (r_kwargs r))) -> item (g, path ++ [g])).
  { intros g I. eapply item_push; eauto. }
  apply IH.
  - intros x I. rewrite PB in I. apply in_app_iff in I as [I|I]; [|apply It; right; auto].
    rewrite <- in_rev in I. apply in_map_iff in I as [g [<- I]]. auto.
  - rewrite PB, map_app, list_sum_app, map_rev.
    assert (SR : forall l, list_sum (rev l) = list_sum l).
    { clear. induction l; simpl; auto. rewrite list_sum_app. simpl. lia. }
    rewrite SR, map_map.
    assert (Q : list_sum (map (fun g => weight (g, path ++ [g])) (deps_of (map snd (r_kwargs r)))) < weight (f, path)).
    { destruct (deps_of (map snd (r_kwargs r))) as [|g0 gs] eqn:E; [simpl; lia|].
      assert (L : length path < length (fs_fixtures st)).
      { specialize (It1 g0 (or_introl eq_refl)). apply path_short in It1. rewrite app_length in It1. simpl in It1. lia. }
      unfold weight at 2. simpl snd.
      destruct (length (fs_fixtures st) - length path) as [|k] eqn:K; [lia|]. cbn [steps].
      assert (B : forall l, list_sum (map (fun g => weight (g, path ++ [g])) l) = length l * steps (max_args st) k).
      { induction l as [|g l IHl]; simpl; auto.
        unfold weight at 1. simpl snd. rewrite app_length. simpl.
        replace (length (fs_fixtures st) - (length path + 1)) with k by lia.
        unfold list_sum in IHl. rewrite <- IHl. reflexivity. }
      rewrite B. rewrite <- E. pose proof (deps_of_length (map snd (r_kwargs r))). rewrite map_length in *.
      pose proof (max_args_ge _ _ R). assert (length (deps_of (map snd (r_kwargs r))) <= max_args st) by lia.
      apply Nat.lt_succ_r. apply Nat.mul_le_mono_r. auto. }
    lia.
Qed.

Lemma item0 f : known st f -> item (f, [f]).
Proof.
  intros K. split; [auto|]. split; simpl.
  - constructor; auto. constructor.
  - intros g [<-|[]]. split; auto. constructor.
Qed.

Lemma compute_needed_spec f : known st f ->
  (cyclic_from st f /\ compute_needed st f = inr CyclicFixtureDependency)
  \/ (~ cyclic_from st f /\ exists s, compute_needed st f = inl s /\ NoDup s /\ forall p, In p s <-> needs st f p).
Proof.
  intros K. unfold compute_needed.
  assert (I1 : forall x, In x [(f, [f])] -> item x) by (intros x [<-|[]]; apply item0; auto).
  pose proof (needed_loop_spec (enough st) [(f, [f])] [] I1 (NoDup_nil _)) as A.
  pose proof (needed_loop_ends (enough st) [(f, [f])] [] I1) as B.
  assert (L : list_sum (map weight [(f, [f])]) < enough st).
  { simpl. unfold weight, enough. simpl snd. simpl length. pose proof (path_short _ _ (item0 f K)). simpl in H.
    destruct (length (fs_fixtures st)) as [|k]; [lia|]. replace (S k - 1) with k by lia. simpl.
    rewrite Nat.add_0_r. pose proof (steps_pos (max_args st) k).
    destruct (max_args st) as [|m] eqn:M.
    - destruct k; simpl; lia.
    - simpl. lia. }
  specialize (B L).
  destruct (needed_loop (enough st) st (fs_memo st) [(f, [f])] []) as [s|e].
  - destruct A as [A1 [A2 A3]]. right. split; [apply (A2 (f, [f])); simpl; auto|].
    exists s. split; [auto|]. split; [auto|]. intros p. rewrite A3. split.
    + intros [[]|[x [[<-|[]] H]]]. auto.
    + intros H. right. exists (f, [f]). simpl. auto.
  - destruct e; try contradiction; try congruence.
    destruct A as [x [[<-|[]] C]]. left. auto.
Qed.

Lemma get_all_needed_spec f : known st f ->
  (cyclic_from st f /\ get_all_needed st f = (st, inr CyclicFixtureDependency))
  \/ (~ cyclic_from st f /\ exists s, snd (get_all_needed st f) = inl s /\ NoDup s /\ forall p, In p s <-> needs st f p).
Proof.
  intros K. unfold get_all_needed. rewrite all_resolved.
  destruct (d_get f (fs_memo st)) as [s|] eqn:M.
  - destruct (ok_memo _ O _ _ M) as [_ A B C]. right. split; auto. exists s. auto.
  - destruct (compute_needed_spec f K) as [[A B]|[A [s [B [C D]]]]]; rewrite B; [left; auto|].
    right. split; auto. exists s. auto.
Qed.

End Needed.

Lemma get_all_needed_ok st f : ok st -> ok (fst (get_all_needed st f)).
Proof.
  intros O. unfold get_all_needed. destruct (fs_unresolved st) eqn:U; [|auto].
  destruct (d_get f (fs_memo st)) eqn:M; [auto|].
  destruct (compute_needed st f) as [s|e] eqn:C; [|auto]. simpl.
  assert (K : known st f).
  { intros Q. revert C. unfold compute_needed, enough. rewrite Nat.add_1_l. simpl. rewrite M, Q. discriminate. }
  destruct (compute_needed_spec st O U f K) as [[A B]|[A [s' [B [ND S']]]]]; [congruence|].
  assert (s' = s) by congruence. subst s'.
  assert (E : entry st f s).
  { split; auto. intros g R. destruct (resolved_known st O U g); [eapply reaches_known; eauto|]. congruence. }
  set (st' := mkStore _ _ _ _ _ _). assert (G : grows st st') by (split; auto).
  pose proof O as [P1 P2 P3 P4 P5 P6 P7]. split; simpl; auto.
  - intros g K'. destruct (P6 g K') as [W|W]; [rewrite U in W; destruct W|auto].
  - intros g s0 H. rewrite d_get_set in H. apply (entry_grows st); auto.
    destruct (Nat.eqb_spec g f) as [->|N]; [inversion H; subst; auto|auto].
Qed.

Lemma define_ok d st st' : ok st -> define d st = inl st' -> ok st' /\ grows st st'.
Proof.
  intros O. unfold define. destruct (current st) as [c|] eqn:C; [|discriminate].
  destruct (d_get (fd_id d) (fs_fixtures st)) as [x|] eqn:F.
  - destruct (add_name c (fd_name d) (fd_id d) (fs_nss st)) as [nss|] eqn:A; [|discriminate].
    intros H; inversion H; subst; clear H. destruct (add_name_spec _ _ _ _ _ A) as [L N].
    set (st' := mkStore _ _ _ _ _ _). assert (G : grows st st') by (split; auto).
    split; auto. pose proof O as [P1 P2 P3 P4 P5 P6 P7]. split; simpl; auto.
    + intros k y p. rewrite N. destruct (nth_error (fs_nss st) k) eqn:Y; [|discriminate].
      intros H Q; inversion H; subst; clear H. apply (P1 _ _ _ Y).
      destruct (Nat.eqb k c); auto. destruct (d_get (fd_name d) (ns_names n)); auto.
    + intros k. rewrite L. auto.
    + intros k y name f. rewrite N. destruct (nth_error (fs_nss st) k) eqn:Y; [|discriminate].
      intros H Q; inversion H; subst; clear H. unfold known. simpl. fold (known st f).
      destruct (Nat.eqb k c); [|eapply P3; eauto].
      destruct (d_get (fd_name d) (ns_names n)); [eapply P3; eauto|]. simpl in Q. rewrite d_get_set in Q.
      destruct (Nat.eqb name (fd_name d)); [|eapply P3; eauto]. inversion Q; subst. unfold known. congruence.
    + intros f dd own Q. rewrite L. auto.
    + intros f s Q. apply (entry_grows st); auto.
  - destruct (fd_testlike d); [discriminate|].
    destruct (add_name c (fd_name d) (fd_id d) (fs_nss st ++ [mkNs (Some c) []])) as [nss|] eqn:A; [|discriminate].
    intros H; inversion H; subst; clear H. destruct (add_name_spec _ _ _ _ _ A) as [L N].
    rewrite app_length in L. simpl in L.
    set (st' := mkStore _ _ _ _ _ _).
    assert (G : grows st st').
    { split; simpl; auto. intros f x Q. rewrite d_get_set_other; auto. congruence. }
    assert (Cl : c < length (fs_nss st)).
    { unfold current in C. destruct (fs_stack st) eqn:S1; [discriminate|]. simpl in C. inversion C; subst.
      apply (ok_stack _ O). rewrite S1. left; auto. }
    split; auto. pose proof O as [P1 P2 P3 P4 P5 P6 P7]. split; simpl; auto.
    + intros k y p. rewrite N. destruct (nth_error (fs_nss st ++ _) k) eqn:Y; [|discriminate].
      intros H Q; inversion H; subst; clear H.
      assert (Q' : ns_parent n = Some p) by (destruct (Nat.eqb k c); auto; destruct (d_get (fd_name d) (ns_names n)); auto).
      destruct (nth_app_last _ _ _ _ Y) as [Y'|[-> ->]]; [eapply P1; eauto|].
      simpl in Q'. inversion Q'; subst. auto.
    + intros k I. rewrite L. specialize (P2 k I). lia.
    + intros k y name f. rewrite N. destruct (nth_error (fs_nss st ++ _) k) eqn:Y; [|discriminate].
      intros H Q; inversion H; subst; clear H. unfold known. simpl. rewrite d_get_set.
      destruct (Nat.eqb_spec f (fd_id d)) as [|Nf]; [discriminate|]. fold (known st f).
      assert (Q' : d_get name (ns_names n) = Some f).
      { destruct (Nat.eqb k c); auto. destruct (d_get (fd_name d) (ns_names n)); auto.
        simpl in Q. rewrite d_get_set in Q. destruct (Nat.eqb name (fd_name d)); auto. congruence. }
      destruct (nth_app_last _ _ _ _ Y) as [Y'|[-> ->]]; [eapply P3; eauto|]. discriminate.
    + intros f dd own Q. rewrite d_get_set in Q. rewrite L. destruct (Nat.eqb_spec f (fd_id d)) as [->|Nf].
      * inversion Q; subst. split; auto. lia.
      * destruct (P4 _ _ _ Q). split; auto. lia.
    + intros f r Q. destruct (P5 _ _ Q) as [dd [own [Q1 [Q2 Q3]]]]. exists dd, own. split; [apply G, Q1|].
      split; auto. intros g I. destruct (Q3 g I) as [Q4 [dg [og [Q5 Q6]]]]. split; auto. exists dg, og. split; auto. apply G, Q5.
    + intros f K. unfold known in K. simpl in K. rewrite d_get_set in K. rewrite in_app_iff.
      destruct (Nat.eqb_spec f (fd_id d)) as [Ef|Nf]; [subst; simpl; auto|]. destruct (P6 f K); auto.
    + intros f s Q. apply (entry_grows st); auto.
Qed.

Lemma step_ok o st st' : ok st -> step o st = inl st' -> ok st' /\ grows st st'.
Proof.
  intros O. destruct o as [| |d|order|f]; simpl.
  - unfold push_namespace. destruct (current st) as [c|] eqn:C; [|discriminate].
    intros H; inversion H; subst; clear H. set (st' := mkStore _ _ _ _ _ _).
    assert (G : grows st st') by (split; auto). split; auto.
    pose proof O as [P1 P2 P3 P4 P5 P6 P7].
    assert (Cl : c < length (fs_nss st)).
    { unfold current in C. destruct (fs_stack st) eqn:S1; [discriminate|]. simpl in C. inversion C; subst.
      apply P2. left; auto. }
    split; simpl; auto.
    + intros k y p Y Q. destruct (nth_app_last _ _ _ _ Y) as [Y'|[-> ->]]; [eapply P1; eauto|].
      simpl in Q. inversion Q; subst; auto.
    + intros k. rewrite app_length. simpl. intros [<-|I]; [lia|]. specialize (P2 k I). lia.
    + intros k y name f Y Q. destruct (nth_app_last _ _ _ _ Y) as [Y'|[-> ->]]; [eapply P3; eauto|discriminate].
    + intros f dd own Q. rewrite app_length. simpl. destruct (P4 _ _ _ Q). split; auto. lia.
    + intros f s Q. apply (entry_grows st); auto.
  - unfold pop_namespace. destruct (fs_stack st) eqn:S1; [discriminate|].
    intros H; inversion H; subst; clear H. split; [|split; auto].
    eapply ok_ext; [exact O|reflexivity..| |]; simpl; auto. intros k I. rewrite S1. right; auto.
  - apply define_ok; auto.
  - intros H. destruct (resolve_all_ok _ _ _ O H) as [A [B _]]. auto.
  - intros H; inversion H; subst. split; [apply get_all_needed_ok; auto|].
    unfold get_all_needed. destruct (fs_unresolved st); [|apply grows_refl].
    destruct (d_get f (fs_memo st)); [apply grows_refl|]. destruct (compute_needed st f); [|apply grows_refl].
    split; auto.
Qed.

Lemma run_ok ops : forall st st', ok st -> run ops st = inl st' -> ok st' /\ grows st st'.
Proof.
  induction ops as [|o ops IH]; simpl; intros st st' O H.
  - inversion H; subst. split; auto. apply grows_refl.
  - destruct (step o st) as [s|e] eqn:E; [|discriminate]. destruct (step_ok _ _ _ O E) as [O1 G1].
    destruct (IH _ _ O1 H) as [O2 G2]. split; auto. destruct G1, G2. split; auto.
Qed.

(** ** C25: the innermost definition *)

(** namespace [a] is reached from [k] by going up [i] parents *)
Inductive above (nss : list ns) : nat -> nat -> nat -> Prop :=
| above_0 k : above nss 0 k k
| above_S i k x p a : nth_error nss k = Some x -> ns_parent x = Some p -> above nss i p a -> above nss (S i) k a.

Definition defines (nss : list ns) (k name f : nat) : Prop :=
  exists x, nth_error nss k = Some x /\ d_get name (ns_names x) = Some f.

Lemma ns_lookup_spec nss : (forall k x p, nth_error nss k = Some x -> ns_parent x = Some p -> p < k) ->
  forall name n k, k < n -> k < length nss ->
  (exists i a f, above nss i k a /\ defines nss a name f /\ ns_lookup n nss k name = inl f
                 /\ forall j b g, j < i -> above nss j k b -> ~ defines nss b name g)
  \/ (ns_lookup n nss k name = inr (UnknownFixtures name) /\ forall j b g, above nss j k b -> ~ defines nss b name g).
Proof.
  intros P name. induction n as [|n IH]; intros k Ln Ll; [lia|]. simpl.
  destruct (nth_error nss k) as [x|] eqn:X; [|apply nth_error_None in X; lia].
  destruct (d_get name (ns_names x)) as [f|] eqn:D.
  - left. exists 0, k, f. split; [constructor|]. split; [exists x; auto|]. split; auto. intros j b g H. lia.
  - assert (N0 : forall g, ~ defines nss k name g) by (intros g [y [Y E]]; congruence).
    destruct (ns_parent x) as [p|] eqn:Pp.
    + pose proof (P _ _ _ X Pp) as Lp. destruct (IH p ltac:(lia) ltac:(lia)) as [[i [a [f [A [B [C E]]]]]]|[A B]].
      * left. exists (S i), a, f. split; [econstructor; eauto|]. do 2 (split; [auto|]).
        intros j b g Lj Ab. inversion Ab as [|? ? ? ? ? X' Pp']; subst; auto.
        rewrite X in X'. inversion X'; subst. rewrite Pp in Pp'. inversion Pp'; subst. eapply E; eauto. lia.
      * right. split; auto. intros j b g Ab. inversion Ab as [|? ? ? ? ? X' Pp']; subst; auto.
        rewrite X in X'. inversion X'; subst. rewrite Pp in Pp'. inversion Pp'; subst. eauto.
    + right. split; auto. intros j b g Ab. inversion Ab as [|? ? ? ? ? X' Pp']; subst; auto. congruence.
Qed.

Lemma above_fun nss i k a b : above nss i k a -> above nss i k b -> a = b.
Proof.
  intros A. revert b. induction A as [|i k x p a X P A IH]; intros b B; inversion B; subst; auto.
  apply IH. rewrite X in H0. inversion H0; subst. congruence.
Qed.
Lemma defines_fun nss k name f g : defines nss k name f -> defines nss k name g -> f = g.
Proof. intros [x [A B]] [y [C D]]. congruence. Qed.

(** A name looked up in a namespace gives the definition in the nearest enclosing
    namespace that has one, and UnknownFixtures exactly if there is none. *)
Theorem C25_innermost : forall ops st k name, run ops store0 = inl st -> k < length (fs_nss st) ->
  (forall f, get_by_name st k name = inl f <->
     exists i a, above (fs_nss st) i k a /\ defines (fs_nss st) a name f
       /\ forall j b g, j < i -> above (fs_nss st) j k b -> ~ defines (fs_nss st) b name g)
  /\ ((exists e, get_by_name st k name = inr e) <-> forall j b g, above (fs_nss st) j k b -> ~ defines (fs_nss st) b name g)
  /\ (forall e, get_by_name st k name = inr e -> e = UnknownFixtures name).
Proof.
  intros ops st k name R L. destruct (run_ok _ _ _ ok0 R) as [O _]. unfold get_by_name.
  destruct (ns_lookup_spec (fs_nss st) (ok_parent _ O) name (S k) k (Nat.lt_succ_diag_r k) L)
    as [[i [a [f [A [B [C D]]]]]]|[A B]].
  - split; [|split].
    + intros f'. rewrite C. split.
      * intros H; inversion H; subst. exists i, a. auto.
      * intros [i' [a' [A' [B' D']]]]. f_equal. destruct (Nat.lt_trichotomy i i') as [T|[T|T]].
        { destruct (D' i a f T A B). }
        { subst. rewrite (above_fun _ _ _ _ _ A A') in B. eapply defines_fun; eauto. }
        { destruct (D i' a' f' T A' B'). }
    + rewrite C. split; [intros [e H]; discriminate|]. intros H. destruct (H _ _ _ A B).
    + rewrite C. discriminate.
  - split; [|split].
    + intros f'. rewrite A. split; [discriminate|]. intros [i [a [A' [B' _]]]]. destruct (B _ _ _ A' B').
    + rewrite A. split; eauto.
    + rewrite A. congruence.
Qed.
Print Assumptions C25_innermost.

(** In terms of the history: number of namespaces closed and opened *)
Definition pushes (l : list op) : nat := length (filter (fun o => match o with OPush => true | _ => false end) l).
Definition pops (l : list op) : nat := length (filter (fun o => match o with OPop => true | _ => false end) l).

(** the namespace that is current before [l] is still open after [l] *)
Definition still_open (l : list op) : Prop := forall p q, l = p ++ q -> pops p <= pushes p.

(** how many namespaces must have been open before [l], if [c] more are closed after it *)
Definition back (o : op) (c : nat) : nat := match o with OPop => S c | OPush => pred c | _ => c end.

Lemma back_spec l : forall c s, fold_right back c l <= s <-> c + pops l <= pushes l + s /\ forall p q, l = p ++ q -> pops p <= pushes p + s.
Proof.
  induction l as [|o l IH]; intros c s.
  - simpl. unfold pops, pushes. simpl. split.
    + intros H. split; [lia|]. intros p q E. symmetry in E. apply app_eq_nil in E as [-> ->]. simpl. lia.
    + intros [H _]. lia.
  - simpl fold_right.
    assert (Sp : forall (Q : list op -> Prop), (forall p q, o :: l = p ++ q -> Q p) <-> Q [] /\ forall p q, l = p ++ q -> Q (o :: p)).
    { intros Q. split.
      - intros H. split; [apply (H [] (o :: l)); auto|]. intros p q E. apply (H (o :: p) q). rewrite E. auto.
      - intros [H0 H] [|x p] q E; auto. simpl in E. inversion E; subst. eapply H; eauto. }
    rewrite (Sp (fun p => pops p <= pushes p + s)). unfold pops, pushes in *.
    destruct o; cbn [back filter length].
    + rewrite <- Nat.le_succ_le_pred || idtac.
      split.
      * intros H. assert (H' : fold_right back c l <= S s) by lia. apply IH in H' as [A B].
        split; [lia|]. split; [lia|]. intros p q E. specialize (B p q E). lia.
      * intros [A [_ B]]. assert (H' : fold_right back c l <= S s).
        { apply IH. split; [lia|]. intros p q E. specialize (B p q E). lia. }
        lia.
    + split.
      * intros H. destruct s as [|s]; [lia|]. assert (H' : fold_right back c l <= s) by lia. apply IH in H' as [A B].
        split; [lia|]. split; [lia|]. intros p q E. specialize (B p q E). lia.
      * intros [A [_ B]]. destruct s as [|s].
        { specialize (B [] l eq_refl). simpl in B. lia. }
        assert (H' : fold_right back c l <= s).
        { apply IH. split; [lia|]. intros p q E. specialize (B p q E). lia. }
        lia.
    + rewrite IH. split; intros [A B]; split; try split; try apply B; auto; simpl; lia.
    + rewrite IH. split; intros [A B]; split; try split; try apply B; auto; simpl; lia.
    + rewrite IH. split; intros [A B]; split; try split; try apply B; auto; simpl; lia.
Qed.

Lemma still_open_back l : still_open l <-> fold_right back 0 l = 0.
Proof.
  rewrite <- Nat.le_0_r, back_spec. unfold still_open. split.
  - intros H. split; [specialize (H l [] ltac:(rewrite app_nil_r; auto)); lia|]. intros p q E. specialize (H p q E). lia.
  - intros [_ H] p q E. specialize (H p q E). lia.
Qed.

(** the last definition of a name in a history (latest first) whose namespace is
    open after [c] more closings *)
Fixpoint last_open (name : nat) (h : list op) (c : nat) : option nat :=
  match h with
  | [] => None
  | o :: h' =>
      match o, c with
      | ODef d, 0 => if Nat.eqb name (fd_name d) then Some (fd_id d) else last_open name h' 0
      | _, _ => last_open name h' (back o c)
      end
  end.

Lemma last_open_spec name h : forall c,
  match last_open name h c with
  | Some f => exists a d b, rev h = a ++ ODef d :: b /\ fd_name d = name /\ fd_id d = f /\ fold_right back c b = 0
      /\ forall b1 d' b2, b = b1 ++ ODef d' :: b2 -> fd_name d' = name -> fold_right back c b2 <> 0
  | None => forall a d b, rev h = a ++ ODef d :: b -> fd_name d = name -> fold_right back c b <> 0
  end.
Proof.
  induction h as [|o h IH]; intros c; simpl.
  - intros a d b E. destruct a; discriminate.
  - assert (Skip : forall c', c' = back o c -> (forall d, o = ODef d -> c = 0 -> fd_name d <> name) ->
      match last_open name h c' with
      | Some f => exists a d b, rev h ++ [o] = a ++ ODef d :: b /\ fd_name d = name /\ fd_id d = f /\ fold_right back c b = 0
          /\ forall b1 d' b2, b = b1 ++ ODef d' :: b2 -> fd_name d' = name -> fold_right back c b2 <> 0
      | None => forall a d b, rev h ++ [o] = a ++ ODef d :: b -> fd_name d = name -> fold_right back c b <> 0
      end).
    { intros c' Ec No. specialize (IH c'). destruct (last_open name h c') as [f|].
      - destruct IH as [a [d [b [A [B [C [D E]]]]]]]. exists a, d, (b ++ [o]).
        split; [rewrite A, <- app_assoc; auto|]. do 2 (split; [auto|]).
        split; [rewrite fold_right_app; simpl; congruence|].
        intros b1 d' b2 Q N. destruct (rev b2) as [|z rb] eqn:Z.
        + assert (b2 = []) by (rewrite <- (rev_involutive b2), Z; auto). subst b2.
          apply app_inj_tail in Q as [_ Q]. simpl. intros C0. apply (No d'); auto.
        + assert (b2 = rev rb ++ [z]) by (rewrite <- (rev_involutive b2), Z; auto). subst b2.
          rewrite app_comm_cons, app_assoc in Q. apply app_inj_tail in Q as [Q ->].
          rewrite fold_right_app. simpl. rewrite <- Ec. eapply E; eauto.
      - intros a d b Q N. destruct (rev b) as [|z rb] eqn:Z.
        + assert (b = []) by (rewrite <- (rev_involutive b), Z; auto). subst b.
          apply app_inj_tail in Q as [_ Q]. simpl. intros C0. apply (No d); auto.
        + assert (b = rev rb ++ [z]) by (rewrite <- (rev_involutive b), Z; auto). subst b.
          rewrite app_comm_cons, app_assoc in Q. apply app_inj_tail in Q as [Q ->].
          rewrite fold_right_app. simpl. rewrite <- Ec. eapply IH; eauto. }
    destruct o; try (apply Skip; [auto|intros ? ?; discriminate]).
    destruct c as [|c]; [|apply Skip; [auto|intros; discriminate]].
    destruct (Nat.eqb_spec name (fd_name d)) as [E|E].
    + exists (rev h), d, []. simpl. do 4 (split; [auto|]). intros b1 d' b2 Q. destruct b1; discriminate.
    + apply Skip; auto. intros d' Q _. inversion Q; subst. auto.
Qed.

(** the names of the open namespaces, innermost first *)
Fixpoint lookup_in (name : nat) (l : list (dict nat)) : option nat :=
  match l with
  | [] => None
  | d :: l' => match d_get name d with Some f => Some f | None => lookup_in name l' end
  end.

(** the stack is a chain of parents *)
Inductive chain (nss : list ns) : list nat -> list (dict nat) -> Prop :=
| chain_nil : chain nss [] []
| chain_cons k x l ds : nth_error nss k = Some x -> ns_parent x = hd_error l -> chain nss l ds ->
    chain nss (k :: l) (ns_names x :: ds).

Lemma chain_lookup nss l ds name : chain nss l ds -> forall n k, hd_error l = Some k -> length l <= n ->
  match lookup_in name ds with
  | Some f => ns_lookup n nss k name = inl f
  | None => ns_lookup n nss k name = inr (UnknownFixtures name)
  end.
Proof.
  intros C. induction C as [|k x l ds X P C IH]; intros n k' H L; [discriminate|].
  inversion H; subst k'. destruct n as [|n]; simpl in L; [lia|]. simpl. rewrite X.
  destruct (d_get name (ns_names x)); auto. rewrite P. destruct l as [|k2 l].
  - inversion C; subst. simpl. auto.
  - simpl. apply IH; auto. lia.
Qed.

Lemma chain_ext nss nss' l ds : (forall k, In k l -> nth_error nss' k = nth_error nss k) -> chain nss l ds -> chain nss' l ds.
Proof.
  intros H C. induction C as [|k x l ds X P C IH]; constructor; auto.
  - rewrite H by (left; auto). auto.
  - apply IH. intros j I. apply H. right; auto.
Qed.

Lemma chain_below nss l ds : (forall k x p, nth_error nss k = Some x -> ns_parent x = Some p -> p < k) ->
  chain nss l ds -> forall k, hd_error l = Some k -> length l <= S k /\ forall j, In j (tl l) -> j < k.
Proof.
  intros P C. induction C as [|k x l ds X Q C IH]; intros k' H; [discriminate|].
  inversion H; subst k'. simpl. destruct l as [|k2 l]; simpl in *; [split; [lia|intros j []]|].
  pose proof (P _ _ _ X Q) as Lt. destruct (IH k2 eq_refl) as [A B]. split; [lia|].
  intros j [<-|I]; auto. specialize (B j I). lia.
Qed.

(** the invariant: looking up from the [c]-th open namespace agrees with the history *)
Lemma history ops : forall st, run ops store0 = inl st ->
  exists ds, chain (fs_nss st) (fs_stack st) ds
    /\ forall c name, c < length (fs_stack st) -> lookup_in name (skipn c ds) = last_open name (rev ops) c.
Proof.
  assert (Snoc : forall l o (s s' : store), run (l ++ [o]) s = inl s' -> exists s1, run l s = inl s1 /\ step o s1 = inl s').
  { induction l as [|x l IH]; simpl; intros o s s' H.
    - destruct (step o s) as [s1|] eqn:E; [|discriminate]. inversion H; subst. exists s. auto.
    - destruct (step x s) as [s1|] eqn:E; [|discriminate]. apply IH in H. auto. }
  induction ops as [|o ops IH] using rev_ind; intros st R.
  - inversion R; subst. exists [[]]. split.
    + apply (chain_cons _ 0 (mkNs None []) [] []); simpl; auto. constructor.
    + intros c name H. simpl in H. replace c with 0 by lia. reflexivity.
  - destruct (Snoc _ _ _ _ R) as [s1 [R1 St]]. destruct (run_ok _ _ _ ok0 R1) as [O1 _].
    destruct (IH _ R1) as [ds [C I]]. rewrite rev_unit. clear IH R.
    assert (Same : fs_nss st = fs_nss s1 -> fs_stack st = fs_stack s1 ->
      (forall c name, last_open name (o :: rev ops) c = last_open name (rev ops) c) ->
      exists ds, chain (fs_nss st) (fs_stack st) ds
        /\ forall c name, c < length (fs_stack st) -> lookup_in name (skipn c ds) = last_open name (o :: rev ops) c).
    { intros A B D. exists ds. rewrite A, B. split; auto. intros c name L. rewrite D. auto. }
    assert (Ch : forall k, hd_error (fs_stack s1) = Some k ->
                 length (fs_stack s1) <= S k /\ forall j, In j (tl (fs_stack s1)) -> j < k).
    { apply (chain_below _ _ _ (ok_parent _ O1) C). }
    assert (Def : forall d nss0 nss, o = ODef d -> fs_stack st = fs_stack s1 -> fs_nss st = nss ->
        (forall k, k < length (fs_nss s1) -> nth_error nss0 k = nth_error (fs_nss s1) k) ->
        forall cur, hd_error (fs_stack s1) = Some cur -> add_name cur (fd_name d) (fd_id d) nss0 = Some nss ->
        exists ds, chain (fs_nss st) (fs_stack st) ds
        /\ forall c name, c < length (fs_stack st) -> lookup_in name (skipn c ds) = last_open name (o :: rev ops) c).
    { intros d nss0 nss Eo A B Old cur Hc Ad. destruct (Ch _ Hc) as [_ Bl].
      destruct (add_name_spec _ _ _ _ _ Ad) as [_ Nt].
      assert (Lk : forall k, In k (fs_stack s1) -> k < length (fs_nss s1)) by apply (ok_stack _ O1).
      destruct C as [|k x l ds X P C]; [discriminate|]. inversion Hc; subst k. simpl in Bl.
      assert (Ck : nth_error nss0 cur = Some x).
      { rewrite Old; auto. apply nth_error_Some. congruence. }
      exists ((match d_get (fd_name d) (ns_names x) with Some _ => ns_names x | None => d_set (fd_name d) (fd_id d) (ns_names x) end) :: ds).
      rewrite A, B. split.
      - set (x' := match d_get (fd_name d) (ns_names x) with Some _ => x | None => mkNs (ns_parent x) (d_set (fd_name d) (fd_id d) (ns_names x)) end).
        replace (match d_get (fd_name d) (ns_names x) with Some _ => ns_names x | None => d_set (fd_name d) (fd_id d) (ns_names x) end)
          with (ns_names x') by (unfold x'; destruct (d_get (fd_name d) (ns_names x)); auto).
        constructor.
        + rewrite Nt, Ck, Nat.eqb_refl. auto.
        + unfold x'. destruct (d_get (fd_name d) (ns_names x)); auto.
        + eapply chain_ext; [|exact C]. intros j J. rewrite Nt. specialize (Bl j J).
          rewrite Old by (apply Lk; right; auto). destruct (nth_error (fs_nss s1) j); auto.
          destruct (Nat.eqb_spec j cur); [lia|]. auto.
      - intros c name L. subst o. simpl last_open. destruct c as [|c].
        + simpl. specialize (I 0 name ltac:(simpl in *; lia)). simpl in I.
          assert (Same2 : forall w, d_get (fd_name d) (ns_names x) = Some w -> w = fd_id d).
          { intros w Hw. revert Ad. unfold add_name. rewrite Ck, Hw. destruct (Nat.eqb_spec w (fd_id d)); auto. discriminate. }
          destruct (Nat.eqb_spec name (fd_name d)) as [->|N].
          * destruct (d_get (fd_name d) (ns_names x)) as [w|] eqn:W.
            { rewrite W. f_equal. auto. }
            { rewrite d_get_set_same. auto. }
          * rewrite <- I. destruct (d_get (fd_name d) (ns_names x)); auto. rewrite d_get_set_other; auto.
        + specialize (I (S c) name L). simpl in *. auto. }
    destruct o as [| |d|order|f]; simpl in St.
    + unfold push_namespace, current in St. destruct (hd_error (fs_stack s1)) as [cur|] eqn:Hc; [|discriminate].
      inversion St; subst st; clear St. simpl. exists ([] :: ds). split.
      * apply (chain_cons _ (length (fs_nss s1)) (mkNs (Some cur) []) (fs_stack s1) ds).
        { rewrite nth_error_app2, Nat.sub_diag by auto. auto. }
        { simpl. auto. }
        { eapply chain_ext; [|exact C]. intros k J. rewrite nth_error_app1; auto. apply (ok_stack _ O1). auto. }
      * intros [|c] name L; simpl.
        { apply (I 0 name). destruct (fs_stack s1); simpl in *; [discriminate|lia]. }
        { apply I. lia. }
    + unfold pop_namespace in St. destruct (fs_stack s1) as [|k l] eqn:S1; [discriminate|].
      inversion St; subst st; clear St. simpl. inversion C; subst. exists ds0. split; auto.
      intros c name L. apply (I (S c) name). simpl. lia.
    + revert St. unfold define, current. destruct (hd_error (fs_stack s1)) as [cur|] eqn:Hc; [|discriminate].
      destruct (d_get (fd_id d) (fs_fixtures s1)).
      * destruct (add_name cur (fd_name d) (fd_id d) (fs_nss s1)) as [nss|] eqn:Ad; [|discriminate].
        intros H; inversion H; subst st. eapply Def; eauto.
      * destruct (fd_testlike d); [discriminate|].
        destruct (add_name cur (fd_name d) (fd_id d) (fs_nss s1 ++ [mkNs (Some cur) []])) as [nss|] eqn:Ad; [|discriminate].
        intros H; inversion H; subst st. eapply (Def d (fs_nss s1 ++ [mkNs (Some cur) []])); eauto.
        intros k L. rewrite nth_error_app1; auto.
    + destruct (resolve_all_ok _ _ _ O1 St) as [_ [_ [_ [_ [A B]]]]]. apply Same; [auto|auto|intros [|c] name; reflexivity].
    + inversion St; subst st. apply Same; [| |intros [|c] name; reflexivity]; unfold get_all_needed;
        destruct (fs_unresolved s1); auto; destruct (d_get f (fs_memo s1)); auto; destruct (compute_needed s1 f); auto.
Qed.

(** A name used in the current namespace is the last one defined under this name
    in a namespace that has not been closed since. *)
Theorem C25_by_history : forall ops st k name, run ops store0 = inl st -> current st = Some k ->
  (forall f, get_by_name st k name = inl f <->
     exists a d b, ops = a ++ ODef d :: b /\ fd_name d = name /\ fd_id d = f /\ still_open b
       /\ forall b1 d' b2, b = b1 ++ ODef d' :: b2 -> fd_name d' = name -> ~ still_open b2)
  /\ (get_by_name st k name = inr (UnknownFixtures name) <->
      forall a d b, ops = a ++ ODef d :: b -> fd_name d = name -> ~ still_open b).
Proof.
  intros ops st k name R Cu. destruct (run_ok _ _ _ ok0 R) as [O _].
  destruct (history _ _ R) as [ds [C I]]. unfold current in Cu.
  assert (L0 : 0 < length (fs_stack st)) by (destruct (fs_stack st); simpl in *; [discriminate|lia]).
  specialize (I 0 name L0). simpl skipn in I.
  destruct (chain_below _ _ _ (ok_parent _ O) C k Cu) as [Ln _].
  pose proof (chain_lookup _ _ _ name C (S k) k Cu Ln) as Lk. fold (get_by_name st k name) in Lk.
  pose proof (last_open_spec name (rev ops) 0) as Sp. rewrite rev_involutive in Sp. rewrite I in Lk.
  destruct (last_open name (rev ops) 0) as [f|].
  - destruct Sp as [a [d [b [A [B [D [E F]]]]]]]. rewrite Lk. split.
    + intros f'. split.
      * intros H; inversion H; subst f'. exists a, d, b. do 3 (split; [auto|]). split; [apply still_open_back; auto|].
        intros b1 d' b2 Q N. rewrite still_open_back. eauto.
      * intros [a' [d' [b' [A' [B' [D' [E' F']]]]]]]. rewrite A' in A. f_equal. rewrite <- D, <- D'.
        rewrite still_open_back in E'.
        assert (W : forall (a a' b b' : list op) d d', a ++ ODef d :: b = a' ++ ODef d' :: b' ->
          (d = d' /\ b = b') \/ (exists z, b = z ++ ODef d' :: b') \/ (exists z, b' = z ++ ODef d :: b)).
        { clear. induction a as [|x a IH]; intros [|y a'] b b' d d' H; simpl in H; inversion H; subst; auto.
          - right. left. exists a'. auto.
          - right. right. exists a. auto.
          - eapply (IH a'). eauto. }
        destruct (W _ _ _ _ _ _ A) as [[-> _]|[[z ->]|[z ->]]]; auto.
        { destruct (F' z d b eq_refl B). apply still_open_back. auto. }
        { destruct (F z d' b' eq_refl B' E'). }
    + split; [discriminate|]. intros H. destruct (H a d b A B). apply still_open_back. auto.
  - rewrite Lk. split.
    + intros f. split; [discriminate|]. intros [a [d [b [A [B [_ [E _]]]]]]]. apply still_open_back in E. destruct (Sp a d b A B E).
    + split; auto. intros _ a d b A B E. apply still_open_back in E. apply (Sp a d b A B E).
Qed.
Print Assumptions C25_by_history.

(** What is defined inside a namespace changes nothing outside of it. *)
Theorem C25_siblings : forall ops w st st' k name, run ops store0 = inl st ->
  still_open w -> pops w = pushes w -> run (OPush :: w ++ [OPop]) st = inl st' ->
  k < length (fs_nss st) -> get_by_name st' k name = get_by_name st k name.
Proof.
  intros ops w st st' k name R So Eq Rw L. destruct (run_ok _ _ _ ok0 R) as [O _].
  assert (Key : forall w s new, ok s -> (forall j, In j new -> length (fs_nss st) <= j) ->
     fs_stack s = new ++ fs_stack st ->
     (forall j, j < length (fs_nss st) -> nth_error (fs_nss s) j = nth_error (fs_nss st) j) ->
     length (fs_nss st) <= length (fs_nss s) ->
     (forall p q, w = p ++ q -> pops p < pushes p + length new) ->
     forall s', run w s = inl s' ->
     forall j, j < length (fs_nss st) -> nth_error (fs_nss s') j = nth_error (fs_nss st) j).
  { clear w So Eq Rw. induction w as [|o w IH]; intros s new Os Hn Hs Hj Hl Hw s' Rs.
    - inversion Rs; subst. auto.
    - simpl in Rs. destruct (step o s) as [s1|] eqn:E; [|discriminate].
      destruct (step_ok _ _ _ Os E) as [O1 _].
      assert (Hw0 : 0 < length new) by (specialize (Hw [] (o :: w) eq_refl); simpl in Hw; auto).
      assert (Def : forall d cur nss0 nss, current s = Some cur ->
          (forall j, j < length (fs_nss st) -> nth_error nss0 j = nth_error (fs_nss st) j) ->
          add_name cur (fd_name d) (fd_id d) nss0 = Some nss ->
          forall j, j < length (fs_nss st) -> nth_error nss j = nth_error (fs_nss st) j).
      { intros d cur nss0 nss Cu H0 Ad j Lj. destruct (add_name_spec _ _ _ _ _ Ad) as [_ N]. rewrite N, H0 by auto.
        destruct (nth_error (fs_nss st) j); auto. destruct (Nat.eqb_spec j cur) as [->|]; auto.
        unfold current in Cu. rewrite Hs in Cu. destruct new as [|z new]; simpl in *; [lia|].
        inversion Cu; subst. specialize (Hn cur (or_introl eq_refl)). lia. }
      destruct o as [| |d|order|f]; simpl in E.
      + unfold push_namespace in E. destruct (current s) as [cur|]; [|discriminate]. inversion E; subst s1; clear E.
        eapply (IH _ (length (fs_nss s) :: new)); eauto; simpl.
        * intros j [<-|I]; auto.
        * rewrite Hs. auto.
        * intros j Lj. rewrite nth_error_app1 by lia. auto.
        * rewrite app_length. lia.
        * intros p q E. specialize (Hw (OPush :: p) q ltac:(simpl; congruence)).
          unfold pops, pushes in *. simpl in Hw. lia.
      + unfold pop_namespace in E. destruct (fs_stack s) eqn:Sk; [discriminate|]. inversion E; subst s1; clear E.
        destruct new as [|z new]; [simpl in Hw0; lia|]. simpl in Hs. inversion Hs; subst.
        eapply (IH _ new); eauto; simpl.
        * intros j I. apply Hn. right; auto.
        * intros p q E. specialize (Hw (OPop :: p) q ltac:(simpl; congruence)).
          unfold pops, pushes in *. simpl in Hw. lia.
      + revert E. unfold define. destruct (current s) as [cur|] eqn:Cu; [|discriminate].
        assert (Wn : forall p q, w = p ++ q -> pops p < pushes p + length new).
        { intros p q E. specialize (Hw (ODef d :: p) q ltac:(simpl; congruence)). unfold pops, pushes in *. simpl in Hw. auto. }
        destruct (d_get (fd_id d) (fs_fixtures s)).
        * destruct (add_name cur (fd_name d) (fd_id d) (fs_nss s)) as [nss|] eqn:Ad; [|discriminate].
          intros E; inversion E; subst s1. destruct (add_name_spec _ _ _ _ _ Ad) as [La _].
          eapply (IH _ new); eauto; simpl; try lia.
        * destruct (fd_testlike d); [discriminate|].
          destruct (add_name cur (fd_name d) (fd_id d) (fs_nss s ++ [mkNs (Some cur) []])) as [nss|] eqn:Ad; [|discriminate].
          intros E; inversion E; subst s1. destruct (add_name_spec _ _ _ _ _ Ad) as [La _]. rewrite app_length in La.
          eapply (IH _ new); [exact O1|exact Hn|exact Hs| |simpl in *; lia|exact Wn|exact Rs]. simpl. eapply Def; [reflexivity| |exact Ad].
          intros j Lj. rewrite nth_error_app1 by lia. auto.
      + destruct (resolve_all_ok _ _ _ Os E) as [_ [_ [_ [_ [A B]]]]].
        eapply (IH s1 new); eauto; try congruence.
        * intros j Lj. rewrite A. auto.
        * intros p q Q. specialize (Hw (OResolve order :: p) q ltac:(simpl; congruence)). unfold pops, pushes in *. simpl in Hw. auto.
      + inversion E; subst s1; clear E.
        assert (AB : fs_nss (fst (get_all_needed s f)) = fs_nss s /\ fs_stack (fst (get_all_needed s f)) = fs_stack s).
        { unfold get_all_needed. destruct (fs_unresolved s); auto; destruct (d_get f (fs_memo s)); auto; destruct (compute_needed s f); auto. }
        destruct AB as [A B]. eapply (IH _ new); eauto; try congruence.
        * intros j Lj. rewrite A. auto.
        * intros p q Q. specialize (Hw (OCall f :: p) q ltac:(simpl; congruence)). unfold pops, pushes in *. simpl in Hw. auto. }
  assert (App : forall l1 l2 s s', run (l1 ++ l2) s = inl s' -> exists s1, run l1 s = inl s1 /\ run l2 s1 = inl s').
  { induction l1 as [|x l1 IH]; simpl; intros l2 s s' H; eauto. destruct (step x s); [|discriminate]. apply IH in H. auto. }
  rewrite app_comm_cons in Rw. apply App in Rw as [s1 [R1 R2]].
  simpl in R1. destruct (push_namespace st) as [s0|] eqn:Pn; [|discriminate].
  assert (O0 : ok s0) by (apply (step_ok OPush st); auto).
  unfold push_namespace in Pn. destruct (current st) as [cur|]; [|discriminate]. inversion Pn; subst s0; clear Pn.
  assert (N1 : forall j, j < length (fs_nss st) -> nth_error (fs_nss s1) j = nth_error (fs_nss st) j).
  { eapply (Key w _ [length (fs_nss st)]); eauto; simpl.
    - intros j [<-|[]]. auto.
    - intros j Lj. rewrite nth_error_app1; auto.
    - rewrite app_length. lia.
    - intros p q E. specialize (So p q E). lia. }
  assert (N2 : fs_nss st' = fs_nss s1).
  { simpl in R2. destruct (pop_namespace s1) as [s2|] eqn:Pp; [|discriminate]. inversion R2; subst. unfold pop_namespace in Pp.
    destruct (fs_stack s1); [discriminate|]. inversion Pp; auto. }
  unfold get_by_name. rewrite N2. clear - N1 L O. revert k L.
  assert (Q : forall n k, k < length (fs_nss st) -> ns_lookup n (fs_nss s1) k name = ns_lookup n (fs_nss st) k name).
  { induction n as [|n IH]; intros k L; simpl; auto. rewrite N1 by auto.
    destruct (nth_error (fs_nss st) k) eqn:X; auto. destruct (d_get name (ns_names n0)); auto.
    destruct (ns_parent n0) eqn:P; auto. apply IH. pose proof (ok_parent _ O _ _ _ X P). lia. }
  intros k L. apply Q. auto.
Qed.
Print Assumptions C25_siblings.

(** ** arguments are bound to these definitions *)

Lemma resolve_args_binds st d own args : forall kw kw', NoDup (map fst args) ->
  resolve_args st d own args kw = inl kw' ->
  (forall a, ~ In a (map fst args) -> d_get a kw' = d_get a kw)
  /\ forall a real, In (a, real) args ->
       (In a (map fst (fd_params d)) -> d_get a kw' = d_get a kw)
       /\ (~ In a (map fst (fd_params d)) -> exists g, get_by_name st own real = inl g /\ d_get a kw' = Some (DFix g)).
Proof.
  induction args as [|[a real] args IH]; intros kw kw' ND H; simpl in *.
  - inversion H; subst. split; auto. intros a real [].
  - apply NoDup_cons_iff in ND as [N1 N2].
    destruct (existsb (Nat.eqb a) (map fst (fd_params d))) eqn:M.
    + destruct (IH _ _ N2 H) as [A B]. split.
      * intros b Nb. apply A. intuition.
      * intros b rb [Q|Q]; [|apply B; auto]. inversion Q; subst. split; [intros _; apply A; auto|].
        intros N. apply mem_true in M. destruct (N M).
    + destruct (get_by_name st own real) as [g|e] eqn:G; [|discriminate].
      destruct (d_get g (fs_fixtures st)) as [[dg og]|]; [|discriminate].
      destruct (Nat.ltb _ _); [discriminate|]. destruct (Nat.eqb _ _); [discriminate|].
      destruct (IH _ _ N2 H) as [A B]. split.
      * intros b Nb. rewrite A by intuition. apply d_get_set_other. intuition.
      * intros b rb [Q|Q].
        { inversion Q; subst. split.
          - intros I. apply mem_false in M. destruct (M I).
          - intros _. exists g. split; auto. rewrite A by auto. apply d_get_set_same. }
        { destruct (B _ _ Q) as [B1 B2]. split; [|apply B2]. intros I. rewrite B1 by auto.
          apply d_get_set_other. intros ->. apply N1. apply in_map_iff. exists (a, rb). auto. }
Qed.

(** Every argument of a fixture that is no parameter is bound, when the fixture is
    resolved, to what its (real) name means in the namespace of the fixture. *)
Theorem C25_arguments : forall ops st f d own st' r, run ops store0 = inl st ->
  d_get f (fs_fixtures st) = Some (d, own) -> NoDup (map fst (fd_args d)) ->
  d_get f (fs_resolved st) = None -> resolve_one f st = inl st' -> d_get f (fs_resolved st') = Some r ->
  forall a real, In (a, real) (fd_args d) -> ~ In a (map fst (fd_params d)) ->
  exists g, get_by_name st own real = inl g /\ d_get a (r_kwargs r) = Some (DFix g).
Proof.
  intros ops st f d own st' r R F ND U Re Rr a real I N. revert Re. unfold resolve_one. rewrite F, U.
  destruct (resolve_args st d own (fd_args d) (param_kwargs d)) as [kw|e] eqn:A; [|discriminate].
  intros H; inversion H; subst st'. simpl in Rr. rewrite d_get_set_same in Rr. inversion Rr; subst r. simpl.
  destruct (resolve_args_binds _ _ _ _ _ _ ND A) as [_ B]. apply B; auto.
Qed.
Print Assumptions C25_arguments.

(** ** C26 *)

(** Collecting the needed parametrizations always ends: with
    CyclicFixtureDependency exactly if a fixture that depends on itself can be
    reached, and otherwise with exactly the parametrizations of the reachable
    fixtures, each once.  This holds after any number of such calls and of
    definitions of further fixtures. *)
Theorem C26_cycles : forall ops st f, run ops store0 = inl st -> fs_unresolved st = [] -> known st f ->
  (snd (get_all_needed st f) = inr CyclicFixtureDependency <-> cyclic_from st f)
  /\ (~ cyclic_from st f <-> exists s, snd (get_all_needed st f) = inl s)
  /\ forall s, snd (get_all_needed st f) = inl s -> NoDup s /\ forall p, In p s <-> needs st f p.
Proof.
  intros ops st f R U K. destruct (run_ok _ _ _ ok0 R) as [O _].
  destruct (get_all_needed_spec st O U f K) as [[A B]|[A [s [B [C D]]]]]; rewrite B; simpl.
  - split; [split; auto|]. split; [split; [intros H; destruct (H A)|intros [s H]; discriminate]|discriminate].
  - split; [split; [discriminate|intros H; destruct (A H)]|]. split; [split; [intros _; exists s; auto|auto]|].
    intros s' H; inversion H; subst. auto.
Qed.
Print Assumptions C26_cycles.

Definition good_arg (st : store) (d : fixdef) (own : nat) (ar : nat * nat) : Prop :=
  In (fst ar) (map fst (fd_params d))
  \/ exists g dg og, get_by_name st own (snd ar) = inl g /\ d_get g (fs_fixtures st) = Some (dg, og)
       /\ fd_scope d <= fd_scope dg /\ g <> fd_id d.

Lemma resolve_args_good st d own args rest : (forall ar, In ar args -> good_arg st d own ar) -> forall kw,
  exists kw', resolve_args st d own (args ++ rest) kw = resolve_args st d own rest kw'.
Proof.
  induction args as [|[a real] args IH]; simpl; intros H kw; [eauto|].
  assert (IH' : forall kw, exists kw', resolve_args st d own (args ++ rest) kw = resolve_args st d own rest kw').
  { apply IH. intros ar I. apply H. auto. }
  destruct (existsb (Nat.eqb a) (map fst (fd_params d))) eqn:M; [apply IH'|].
  destruct (H _ (or_introl eq_refl)) as [P|[g [dg [og [A [B [C D]]]]]]]; simpl in *.
  - apply mem_true in P. congruence.
  - rewrite A, B. destruct (Nat.ltb_spec (fd_scope dg) (fd_scope d)); [lia|].
    destruct (Nat.eqb_spec g (fd_id d)); [congruence|]. apply IH'.
Qed.

(** before everything is resolved nobody is told what a fixture needs, and asking changes nothing; asking twice gives the same answer *)
Theorem C26_asking st f :
  (fs_unresolved st <> [] -> get_all_needed st f = (st, inr UnresolvedFixtureStore)) /\
  snd (get_all_needed (fst (get_all_needed st f)) f) = snd (get_all_needed st f).
Proof.
  split.
  - intros H. unfold get_all_needed. destruct (fs_unresolved st); [congruence|reflexivity].
  - unfold get_all_needed at 2 3. destruct (fs_unresolved st) as [|u l] eqn:U.
    + destruct (d_get f (fs_memo st)) as [s|] eqn:M.
      * cbn [fst snd]. unfold get_all_needed. rewrite U, M. reflexivity.
      * destruct (compute_needed st f) as [s|e] eqn:C; cbn [fst snd].
        -- unfold get_all_needed. cbn [fs_unresolved fs_memo]. rewrite U || idtac. rewrite d_get_set_same. reflexivity.
        -- unfold get_all_needed. rewrite U, M, C. reflexivity.
    + cbn [fst snd]. unfold get_all_needed. rewrite U. reflexivity.
Qed.
Print Assumptions C26_asking.

(** A fixture with itself as an argument is rejected when it is resolved; the
    exception is the one for the first argument that is not in order. *)
Theorem C26_self : forall ops st f d own a real l1 l2, run ops store0 = inl st ->
  d_get f (fs_fixtures st) = Some (d, own) -> d_get f (fs_resolved st) = None ->
  fd_args d = l1 ++ (a, real) :: l2 -> (forall ar, In ar l1 -> good_arg st d own ar) ->
  ~ In a (map fst (fd_params d)) -> get_by_name st own real = inl f ->
  resolve_one f st = inr CyclicFixtureDependency.
Proof.
  intros ops st f d own a real l1 l2 R F U E G N L. destruct (run_ok _ _ _ ok0 R) as [O _].
  unfold resolve_one. rewrite F, U, E. destruct (resolve_args_good st d own l1 ((a, real) :: l2) G (param_kwargs d)) as [kw ->].
  simpl. apply mem_false in N. rewrite N, L, F. rewrite Nat.ltb_irrefl.
  destruct (ok_own _ O _ _ _ F) as [_ ->]. rewrite Nat.eqb_refl. auto.
Qed.
Print Assumptions C26_self.

(** so no resolved fixture is an argument of itself *)
Theorem C26_no_self : forall ops st f, run ops store0 = inl st -> ~ depends st f f.
Proof.
  intros ops st f R [r [H I]]. destruct (run_ok _ _ _ ok0 R) as [O _].
  destruct (ok_res _ O _ _ H) as [d [own [_ [_ D]]]]. destruct (D _ I). congruence.
Qed.
Print Assumptions C26_no_self.

(** ** C27 *)

Definition scope_of (st : store) (f s : nat) : Prop :=
  exists d own, d_get f (fs_fixtures st) = Some (d, own) /\ fd_scope d = s.

Theorem C27_scopes : forall ops st f g s t, run ops store0 = inl st -> reaches st f g ->
  scope_of st f s -> scope_of st g t -> s <= t.
Proof.
  intros ops st f g s t R Re. destruct (run_ok _ _ _ ok0 R) as [O _]. revert s.
  induction Re as [f|f x g [r [H I]] Re IH]; intros s [d [own [F S1]]] T.
  - destruct T as [d' [own' [F' S']]]. rewrite F in F'. inversion F'; subst. lia.
  - destruct (ok_res _ O _ _ H) as [d' [own' [F' [_ D]]]]. rewrite F in F'. inversion F'; subst d' own'.
    destruct (D _ I) as [_ [dx [ox [X L]]]].
    specialize (IH (fd_scope dx) (ex_intro _ dx (ex_intro _ ox (conj X eq_refl))) T). lia.
Qed.
Print Assumptions C27_scopes.

(** an argument of a narrower scope: no resolution, and InvalidFixtureScope unless
    an earlier argument is not in order *)
Theorem C27_rejected : forall st f d own a real g dg og, d_get f (fs_fixtures st) = Some (d, own) ->
  d_get f (fs_resolved st) = None -> In (a, real) (fd_args d) -> ~ In a (map fst (fd_params d)) ->
  get_by_name st own real = inl g -> d_get g (fs_fixtures st) = Some (dg, og) -> fd_scope dg < fd_scope d ->
  (exists e, resolve_one f st = inr e)
  /\ forall l1 l2, fd_args d = l1 ++ (a, real) :: l2 -> (forall ar, In ar l1 -> good_arg st d own ar) ->
     resolve_one f st = inr (InvalidFixtureScope (fd_id d) a).
Proof.
  intros st f d own a real g dg og F U I N L G Lt. unfold resolve_one. rewrite F, U. apply mem_false in N. split.
  - assert (Q : forall args kw, In (a, real) args -> exists e, resolve_args st d own args kw = inr e).
    { induction args as [|[b rb] args IH]; intros kw J; [destruct J|]. simpl.
      destruct J as [J|J].
      - inversion J; subst. rewrite N, L, G. apply Nat.ltb_lt in Lt. rewrite Lt. eauto.
      - destruct (existsb (Nat.eqb b) (map fst (fd_params d))); [auto|]. destruct (get_by_name st own rb) as [h|]; [|eauto].
        destruct (d_get h (fs_fixtures st)) as [[dh oh]|]; [|eauto].
        destruct (Nat.ltb (fd_scope dh) (fd_scope d)); [eauto|]. destruct (Nat.eqb h (fd_id d)); [eauto|auto]. }
    destruct (Q _ (param_kwargs d) I) as [e ->]. eauto.
  - intros l1 l2 E H. rewrite E. destruct (resolve_args_good st d own l1 ((a, real) :: l2) H (param_kwargs d)) as [kw ->].
    simpl. rewrite N, L, G. apply Nat.ltb_lt in Lt. rewrite Lt. auto.
Qed.
Print Assumptions C27_rejected.

(** ** examples *)

(** two directories with a fixture of the same name, and one for all *)
Definition ex_ops : list op :=
  [ODef (mkFix 10 1 false 2 [(7, 70)] []); OPush; ODef (mkFix 11 1 false 1 [] []); OPop; OPush;
   ODef (mkFix 12 2 false 1 [] [(5, 1)]); ODef (mkFix 13 3 false 0 [(8, 80)] [(6, 2); (5, 1); (8, 8)])].
Definition ex_done : list op := ex_ops ++ [OResolve [12; 10; 13; 11]; OCall 12].

Example ex_lookup :
  match run ex_ops store0 with
  | inl st => current st = Some 4 /\ get_by_name st 4 1 = inl 10 /\ get_by_name st 5 4 = inr (UnknownFixtures 4)
              /\ get_by_name st 2 1 = inl 11
  | inr _ => False
  end.
Proof. vm_compute. auto. Qed.

Example ex_needed :
  match run ex_done store0 with
  | inl st => fs_unresolved st = [] /\ snd (get_all_needed st 13) = inl [80; 70] /\ fs_memo st = [(12, [70])]
  | inr _ => False
  end.
Proof. vm_compute. auto. Qed.

(** three fixtures in a circle, none an argument of itself *)
Definition ex_circle : list op :=
  [ODef (mkFix 10 1 false 0 [] [(2, 2)]); ODef (mkFix 11 2 false 0 [] [(3, 3)]); ODef (mkFix 12 3 false 0 [] [(1, 1)]);
   ODef (mkFix 13 4 false 0 [] [(1, 1)]); OResolve [10; 11; 12; 13]].
Example ex_circle_found :
  match run ex_circle store0 with
  | inl st => fs_unresolved st = [] /\ snd (get_all_needed st 13) = inr CyclicFixtureDependency
  | inr _ => False
  end.
Proof. vm_compute. auto. Qed.

Example ex_self : run [ODef (mkFix 10 1 false 0 [] [(1, 1)]); OResolve [10]] store0 = inr CyclicFixtureDependency.
Proof. reflexivity. Qed.

Example ex_scope : run [ODef (mkFix 10 1 false 0 [] []); ODef (mkFix 11 2 false 1 [] [(1, 1)]); OResolve [10; 11]] store0
  = inr (InvalidFixtureScope 11 1).
Proof. reflexivity. Qed.

(** a fixture that is not resolved yet *)
Example ex_asking : match run [ODef (mkFix 10 1 false 0 [] [])] store0 with
                    | inl st => fs_unresolved st = [10] /\ snd (get_all_needed st 10) = inr UnresolvedFixtureStore
                    | inr _ => False end.
Proof. vm_compute. auto. Qed.
