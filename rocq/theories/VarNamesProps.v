(** Parametrizations have names, so that the ids of variations differ. *)

From Coq Require Import List Bool Arith Lia.
From Verif Require Import Dict VarNames.
Import ListNotations.

Lemma root_eqb_eq a b : root_eqb a b = true <-> a = b.
Proof.
  destruct a, b; simpl; rewrite ?andb_true_iff, ?Nat.eqb_eq; split; intros H; try discriminate; try congruence;
    try (destruct H; congruence); injection H; auto.
Qed.
Lemma path_eqb_eq a b : path_eqb a b = true <-> a = b.
Proof.
  revert b. induction a as [|x a IH]; intros [|y b]; simpl; try (split; congruence).
  rewrite andb_true_iff, Nat.eqb_eq, IH. split; [intros [-> ->]; auto|intros H; injection H; auto].
Qed.
Lemma name_eqb_eq a b : name_eqb a b = true <-> a = b.
Proof.
  unfold name_eqb. rewrite andb_true_iff, root_eqb_eq, path_eqb_eq. destruct a, b; simpl. split; [intros [-> ->]; auto|intros H; injection H; auto].
Qed.

Lemma mem_In x l : mem x l = true <-> In x l.
Proof. unfold mem. rewrite existsb_exists. split; [intros (y & H & E); apply Nat.eqb_eq in E; subst; auto|intros H; exists x; rewrite Nat.eqb_refl; auto]. Qed.
Lemma mem_false x l : mem x l = false <-> ~ In x l.
Proof. rewrite <- mem_In. destruct (mem x l); split; congruence. Qed.

(** binding a name: the others stay *)
Lemma bind_In n o l m x : In (m, x) (bind n o l) -> (m = n /\ x = o) \/ In (m, x) l.
Proof.
  induction l as [|[k y] l IH]; simpl.
  - intros [Q|[]]. injection Q; auto.
  - case_eq (name_eqb k n); intros E; simpl; intros [Q|Q]; auto.
    + injection Q as -> ->. apply name_eqb_eq in E. auto.
    + apply IH in Q. tauto.
Qed.
Lemma bind_new n o l : In (n, o) (bind n o l).
Proof.
  induction l as [|[k y] l IH]; simpl; auto. case_eq (name_eqb k n); intros E; simpl; auto. apply name_eqb_eq in E. subst. auto.
Qed.
Lemma bind_old n o l m x : In (m, x) l -> m <> n -> In (m, x) (bind n o l).
Proof.
  induction l as [|[k y] l IH]; simpl; auto. intros [Q|Q] N; case_eq (name_eqb k n); intros E; simpl; auto.
  injection Q as -> ->. apply name_eqb_eq in E. congruence.
Qed.

Section Graph.
Variable kwargs : nat -> dict obj.
(** keyword_arguments are dicts, and all objects are known (fixture.py:79-111) *)
Variable universe : list nat.
Hypothesis kw_ok : forall f, d_ok (kwargs f).
Hypothesis kw_known : forall f n o, In (n, o) (kwargs f) -> In (oid o) universe.
(** an id is the id of one fixture or of one parametrization (its components share it) *)
Definition is_fix (o : obj) : bool := match o with OFix _ => true | _ => false end.

(** the parametrizations an object needs, itself or through the arguments of fixtures *)
Inductive needs : obj -> nat -> Prop :=
| n_self p c : needs (OParam p c) p
| n_arg f n o p : In (n, o) (kwargs f) -> needs o p -> needs (OFix f) p.

(** the object a path leads to *)
Fixpoint follow (o : obj) (path : list nat) : option obj :=
  match path with
  | [] => Some o
  | a :: path' =>
      match o with
      | OFix f => match d_get a (kwargs f) with Some o' => follow o' path' | None => None end
      | OParam _ _ => None
      end
  end.

Lemma follow_app o p q : follow o (p ++ q) = match follow o p with Some o' => follow o' q | None => None end.
Proof.
  revert o. induction p as [|a p IH]; intros o; simpl; auto. destruct o as [? ?|f]; auto. destruct (d_get a (kwargs f)); auto.
Qed.

(** all ids below an object are of fixtures or of parametrizations, not both *)
Definition sorted_ids : Prop := forall f g n m o o', In (n, o) (kwargs f) -> In (m, o') (kwargs g) -> oid o = oid o' -> is_fix o = is_fix o'.
Hypothesis kinds : sorted_ids.

Definition bound (acc : list (name * obj)) (p : nat) : Prop := exists n c, In (n, OParam p c) acc.

(** every name bound leads to its object from the object of its root *)
Definition sound (rt : root -> obj -> Prop) (l : list (name * obj)) : Prop :=
  forall n o, In (n, o) l -> exists x, rt (fst n) x /\ follow x (snd n) = Some o.
Definition functional (rt : root -> obj -> Prop) : Prop := forall r x y, rt r x -> rt r y -> x = y.

(** visited ids are on the stack or done *)
Definition done (visited : list nat) (stack acc : list (name * obj)) (o : obj) : Prop :=
  match o with
  | OParam p _ => bound acc p
  | OFix f => forall n o', In (n, o') (kwargs f) -> In (oid o') visited
  end.
Definition covered (o0 : obj) (visited : list nat) (stack acc : list (name * obj)) : Prop :=
  forall i, In i visited -> exists o, oid o = i /\ (o = o0 \/ exists f n, In (n, o) (kwargs f)) /\
    ((exists n, In (n, o) stack) \/ done visited stack acc o).

Lemma push_all_spec n : forall items visited stack visited' stack',
  push_all n items visited stack = (visited', stack') ->
  (forall i, In i visited' <-> In i visited \/ exists a o, In (a, o) items /\ oid o = i) /\
  (forall e, In e stack -> In e stack') /\
  (forall e, In e stack' -> In e stack \/ exists a o, In (a, o) items /\ e = ((fst n, snd n ++ [a]), o)) /\
  (forall i, In i visited' -> ~ In i visited -> exists a o, In (a, o) items /\ oid o = i /\ In ((fst n, snd n ++ [a]), o) stack').
Proof.
  induction items as [|[a o] items IH]; intros visited stack visited' stack'; simpl.
  - intros Q. injection Q as <- <-. split; [|split; [auto|split; [auto|tauto]]]. intros i. split; auto. intros [|(? & ? & [] & _)]; auto.
  - case_eq (mem (oid o) visited); intros M Q; apply IH in Q; destruct Q as (V & S1 & S2 & S3).
    + apply mem_In in M. split; [|split; [auto|split]].
      * intros i. rewrite V. split; [intros [|(b & o' & H & E)]; eauto 6|]. intros [|(b & o' & [H|H] & E)]; auto; [injection H as -> ->; left; congruence|eauto 6].
      * intros e He. destruct (S2 e He) as [|(b & o' & H & E)]; eauto 6.
      * intros i Hi N. destruct (S3 i Hi N) as (b & o' & H & E & Hs). eauto 6.
    + split; [|split; [|split]].
      * intros i. rewrite V. simpl. split; [intros [[|]|(b & o' & H & E)]; eauto 7|]. intros [|(b & o' & [H|H] & E)]; auto; [injection H as -> ->; auto|eauto 6].
      * intros e He. apply S1. right. auto.
      * intros e He. destruct (S2 e He) as [[|]|(b & o' & H & E)]; eauto 7.
      * intros i Hi N. destruct (Nat.eq_dec i (oid o)) as [->|N'].
        -- exists a, o. split; auto. split; auto. apply S1. left. auto.
        -- destruct (S3 i Hi) as (b & o' & H & E & Hs); [simpl; intros [|]; congruence|]. eauto 6.
Qed.

Lemma mem_cons x i v : mem x (i :: v) = Nat.eqb x i || mem x v.
Proof. reflexivity. Qed.

Definition unvisited (visited : list nat) : nat := length (filter (fun i => negb (mem i visited)) (nodup Nat.eq_dec universe)).

Lemma unvisited_cons i visited : In i universe -> ~ In i visited -> S (unvisited (i :: visited)) <= unvisited visited.
Proof.
  intros U N. unfold unvisited. assert (ND : NoDup (nodup Nat.eq_dec universe)) by apply NoDup_nodup.
  assert (I : In i (nodup Nat.eq_dec universe)) by (apply nodup_In; auto).
  revert ND I. generalize (nodup Nat.eq_dec universe). intros l ND I. clear U.
  induction l as [|x l IH]; [destruct I|]. inversion ND as [|? ? Nx ND']; subst. cbn [filter].
  assert (Le : forall k, length (filter (fun j => negb (mem j (i :: visited))) k) <= length (filter (fun j => negb (mem j visited)) k)).
  { induction k as [|y k IHk]; cbn [filter]; auto. rewrite mem_cons. destruct (Nat.eqb y i), (mem y visited); cbn [negb orb length]; lia. }
  destruct (Nat.eq_dec x i) as [->|D].
  - rewrite mem_cons, Nat.eqb_refl. apply mem_false in N. rewrite N. cbn [negb orb length]. specialize (Le l). lia.
  - destruct I as [|I]; [congruence|]. specialize (IH ND' I). rewrite mem_cons. apply Nat.eqb_neq in D. rewrite D. cbn [orb]. destruct (mem x visited); cbn [negb length]; lia.
Qed.

Lemma push_all_measure n : forall items visited stack visited' stack', (forall a o, In (a, o) items -> In (oid o) universe) ->
  push_all n items visited stack = (visited', stack') -> length stack' + unvisited visited' <= length stack + unvisited visited.
Proof.
  induction items as [|[a o] items IH]; intros visited stack visited' stack' K; simpl.
  - intros Q. injection Q as <- <-. auto.
  - case_eq (mem (oid o) visited); intros M Q; apply IH in Q; try (intros; eapply K; right; eauto); auto.
    apply mem_false in M. pose proof (unvisited_cons (oid o) visited (K a o (or_introl eq_refl)) M). simpl in Q. lia.
Qed.

Lemma populate_fuel : forall fuel visited stack acc, length stack + unvisited visited < fuel ->
  populate_loop kwargs fuel visited stack acc <> None.
Proof.
  induction fuel as [|fuel IH]; intros visited stack acc L; [lia|]. simpl.
  destruct stack as [|[n [p c|f]] stack]; [discriminate| |].
  - apply IH. simpl in L. lia.
  - case_eq (push_all n (kwargs f) visited stack). intros v' s' Q. apply IH.
    pose proof (push_all_measure n _ _ _ _ _ (kw_known f) Q). simpl in L. lia.
Qed.

Lemma populate_loop_spec rt o0 : functional rt ->
  forall fuel visited stack acc res, populate_loop kwargs fuel visited stack acc = Some res ->
  sound rt acc -> sound rt stack -> covered o0 visited stack acc ->
  (forall n o, In (n, o) stack -> o = o0 \/ exists f m, In (m, o) (kwargs f)) ->
  sound rt res /\ (forall p, bound acc p -> bound res p) /\ exists visited', (forall i, In i visited -> In i visited') /\ covered o0 visited' [] res.
Proof.
  intros Fu. induction fuel as [|fuel IH]; intros visited stack acc res; simpl; [discriminate|].
  destruct stack as [|[n [p c|f]] stack]; intros R Sa Ss Co St.
  - injection R as <-. split; auto. split; auto. exists visited. auto.
  - (* a parametrization is bound *)
    assert (Mono : forall q, bound acc q -> bound (bind n (OParam p c) acc) q).
    { intros q (m & d & H). destruct (name_eqb m n) eqn:E.
      - apply name_eqb_eq in E. subst m. destruct (Sa _ _ H) as (x & Rx & Fx). destruct (Ss n (OParam p c) (or_introl eq_refl)) as (y & Ry & Fy).
        rewrite (Fu _ _ _ Rx Ry), Fy in Fx. injection Fx as -> ->. exists n, d. apply bind_new.
      - exists m, d. apply bind_old; auto. intros ->. rewrite (proj2 (name_eqb_eq n n) eq_refl) in E. discriminate. }
    destruct (IH _ _ _ _ R) as (S' & B' & Co').
    + intros m o H. apply bind_In in H as [[-> ->]|H]; [apply Ss; left; auto|auto].
    + intros m o H. apply Ss. right. auto.
    + intros i Hi. destruct (Co i Hi) as (o & Ho & Ko & [[m [Q|Q]]|D]).
      * injection Q as <- <-. exists (OParam p c). split; auto. split; auto. right. exists n, c. apply bind_new.
      * exists o. split; auto. split; auto. left. eauto.
      * exists o. split; auto. split; auto. right. destruct o; simpl in *; auto.
    + intros m o H. apply (St m). right. auto.
    + split; auto.
  - (* the arguments of a fixture are pushed *)
    revert R. case_eq (push_all n (kwargs f) visited stack). intros visited' stack' Q R.
    pose proof (push_all_spec n _ _ _ _ _ Q) as (V & S1 & S2 & S3).
    destruct (IH _ _ _ _ R) as (S' & B' & vf & Vf & Co').
    + auto.
    + intros m o H. destruct (S2 _ H) as [H'|(a & o' & Ha & E)]; [apply Ss; right; auto|]. injection E as -> ->. simpl.
      destruct (Ss n (OFix f) (or_introl eq_refl)) as (x & Rx & Fx). exists x. split; auto. rewrite follow_app, Fx. simpl.
      rewrite (d_pair_get a o' (kwargs f)); auto.
    + intros i Hi. destruct (in_dec Nat.eq_dec i visited) as [Hv|Hv].
      * destruct (Co i Hv) as (o & Ho & Ko & [[m [Qm|Qm]]|D]).
        -- injection Qm as <- <-. exists (OFix f). split; auto. split; auto. right. simpl. intros a o' Ha. apply V. eauto.
        -- exists o. split; auto. split; auto. left. eauto.
        -- exists o. split; auto. split; auto. right. destruct o; simpl in *; auto. intros a o' Ha. apply V. left. eauto.
      * destruct (S3 i Hi Hv) as (a & o & Ha & Eo & Hs). exists o. split; auto. split; eauto.
    + intros m o H. destruct (S2 _ H) as [H'|(a & o' & Ha & E)]; [apply (St m); right; auto|]. injection E as -> ->. eauto.
    + split; auto. split; auto. exists vf. split; auto. intros i Hi. apply Vf, V. auto.
Qed.

Lemma covered_needs o0 visited acc : (forall g n o, In (n, o) (kwargs g) -> oid o = oid o0 -> is_fix o = is_fix o0) ->
  covered o0 visited [] acc ->
  forall o p, needs o p -> (o = o0 \/ exists f n, In (n, o) (kwargs f)) -> In (oid o) visited -> bound acc p.
Proof.
  intros K0 Co o p H. induction H as [p c|f n o p I H IH]; intros Ko Hv.
  - destruct (Co _ Hv) as (o' & Eo & Ko' & [[m []]|D]). assert (F : is_fix o' = false).
    { destruct Ko as [<-|(f & n & I)], Ko' as [->|(f' & n' & I')].
      - auto.
      - apply (K0 _ _ _ I'). auto.
      - symmetry in Eo. apply (eq_sym (K0 _ _ _ I Eo)).
      - apply (kinds _ _ _ _ _ _ I' I Eo). }
    destruct o' as [p' c'|]; [|discriminate]. simpl in Eo. subst p'. auto.
  - destruct (Co _ Hv) as (o' & Eo & Ko' & [[m []]|D]). assert (F : is_fix o' = true).
    { destruct Ko as [<-|(f' & n' & I')], Ko' as [->|(f'' & n'' & I'')].
      - auto.
      - apply (K0 _ _ _ I''). auto.
      - symmetry in Eo. apply (eq_sym (K0 _ _ _ I' Eo)).
      - apply (kinds _ _ _ _ _ _ I'' I' Eo). }
    destruct o' as [|f']; [discriminate|]. simpl in Eo. subst f'. simpl in D. apply IH; [right; eauto|]. eapply D; eauto.
Qed.

Definition fuel_enough (fuel : nat) : Prop := S (S (length universe)) <= fuel.

Lemma unvisited_le v : unvisited v <= length universe.
Proof.
  unfold unvisited. etransitivity; [|apply (NoDup_incl_length (NoDup_nodup Nat.eq_dec universe)); intros x; apply nodup_In].
  generalize (nodup Nat.eq_dec universe). intros l. induction l as [|x l IH]; simpl; auto. destruct (negb _); simpl; lia.
Qed.

Lemma populate_spec rt fuel r o acc : fuel_enough fuel -> functional rt -> rt r o -> sound rt acc ->
  (forall g n o', In (n, o') (kwargs g) -> oid o' = oid o -> is_fix o' = is_fix o) ->
  exists res, populate kwargs fuel r o acc = Some res /\ sound rt res /\ (forall p, bound acc p -> bound res p) /\ forall p, needs o p -> bound res p.
Proof.
  intros FE Fu Hr Sa K0. unfold populate.
  case_eq (populate_loop kwargs fuel [oid o] [(r, [], o)] acc).
  - intros res R. destruct (populate_loop_spec rt o Fu _ _ _ _ _ R) as (S' & B' & vf & Vf & Co'); auto.
    + intros n x [Q|[]]. injection Q as <- <-. exists o. auto.
    + intros i [<-|[]]. exists o. split; auto. split; auto. left. eexists. left. reflexivity.
    + intros n x [Q|[]]. injection Q as <- <-. auto.
    + exists res. split; auto. split; auto. split; auto. intros p Np. eapply covered_needs; eauto. apply Vf. left. auto.
  - intros N. exfalso. revert N. apply populate_fuel. simpl. pose proof (unvisited_le [oid o]). unfold fuel_enough in FE. lia.
Qed.

Lemma populate_all_spec rt fuel l : forall acc, fuel_enough fuel -> functional rt -> (forall r o, In (r, o) l -> rt r o) -> sound rt acc ->
  (forall r o, In (r, o) l -> forall g n o', In (n, o') (kwargs g) -> oid o' = oid o -> is_fix o' = is_fix o) ->
  exists res, populate_all kwargs fuel l acc = Some res /\ (forall p, bound acc p -> bound res p) /\ forall r o p, In (r, o) l -> needs o p -> bound res p.
Proof.
  induction l as [|[r o] l IH]; intros acc FE Fu Hr Sa K0; simpl.
  - exists acc. split; auto. split; auto. intros ? ? ? [].
  - destruct (populate_spec rt fuel r o acc FE Fu (Hr _ _ (or_introl eq_refl)) Sa (K0 _ _ (or_introl eq_refl))) as (a1 & E & S1 & B1 & N1).
    rewrite E. destruct (IH a1 FE Fu) as (res & Er & B2 & N2); auto.
    + intros. apply Hr. right. auto.
    + intros r' o' I. eapply K0. right. eauto.
    + exists res. split; auto. split; auto. intros r' o' p [Q|Q] Np; [injection Q as <- <-; auto|eauto].
Qed.

(** * All needed parametrizations have names *)

Definition all_roots (autouse : list (nat * obj)) (fs : list func) := flat_map (func_roots autouse) fs.

(** Every parametrization a test needs has a name, if equal names begin at equal objects, all
    parametrized names are arguments, and some function is not marked nofixtures (or
    there is no autouse fixture). *)
Theorem C90_named_partial : forall fuel autouse fs, fuel_enough fuel ->
  (forall r o o', In (r, o) (all_roots autouse fs) -> In (r, o') (all_roots autouse fs) -> o = o') ->
  (forall r o, In (r, o) (all_roots autouse fs) -> forall g n o', In (n, o') (kwargs g) -> oid o' = oid o -> is_fix o' = is_fix o) ->
  (forall f n p, In f fs -> fu_nofixtures f = false -> In (n, p) (fu_params f) -> d_get n (fu_params f) = Some p /\ In n (map fst (fu_args f))) ->
  (autouse = [] \/ exists f, In f fs /\ fu_nofixtures f = false) ->
  exists b, name_bindings kwargs fuel autouse fs = Some b /\
  forall o p, In o (needed autouse fs) -> needs o p -> bound b p.
Proof.
  intros fuel autouse fs FE Fu K0 Hp Ha.
  destruct (populate_all_spec (fun r o => In (r, o) (all_roots autouse fs)) fuel (all_roots autouse fs) []) as (b & E & _ & N); auto.
  - intros n o [].
  - exists b. split; [exact E|]. intros o p Io Np.
    assert (exists r, In (r, o) (all_roots autouse fs)) as [r Hr]; [|eapply N; eauto].
    unfold needed in Io. apply in_app_or in Io as [Io|Io].
    + apply in_map_iff in Io as ([n x] & <- & Io). destruct Ha as [->|(f & If & Nf)]; [destruct Io|]. exists (RAuto n). apply in_flat_map. exists f. split; auto.
      unfold func_roots. rewrite Nf. apply in_or_app. right. apply in_or_app. left. apply in_map_iff. exists (n, x). auto.
    + apply in_flat_map in Io as (f & If & Io). unfold func_needed in Io. destruct (fu_nofixtures f) eqn:Nf; [destruct Io|].
      assert (G : forall x, In x (map (arg_obj f) (fu_args f)) -> exists r, In (r, x) (all_roots autouse fs)).
      { intros x Ix. apply in_map_iff in Ix as (a & <- & Ia). exists (arg_root f (fst a)). apply in_flat_map. exists f. split; auto.
        unfold func_roots. rewrite Nf. apply in_or_app. left. apply in_map_iff. exists a. auto. }
      apply in_app_or in Io as [Io|Io]; [|apply in_app_or in Io as [Io|Io]]; auto.
      * apply in_map_iff in Io as ([n x] & <- & Io). destruct (Hp f n x If Nf Io) as [Gn In_]. apply in_map_iff in In_ as ([n' y] & En & In_). simpl in En. subst n'.
        apply G. apply in_map_iff. exists (n, y). split; auto. unfold arg_obj. simpl. rewrite Gn. auto.
      * apply in_map_iff in Io as ([n x] & <- & Io). exists (RPlain n). apply in_flat_map. exists f. split; auto.
        unfold func_roots. rewrite Nf. apply in_or_app. right. apply in_or_app. right. apply in_map_iff. exists (n, x). auto.
Qed.

End Graph.

(** * Ids of variations *)

Lemma id_In b indices id : variation_id b indices = Some id -> forall n o, In (n, o) b -> exists i, d_get (oid o) indices = Some i /\ In (n, i) id.
Proof.
  revert id. induction b as [|[m x] b IH]; simpl; intros id; [intros _ ? ? []|].
  destruct (d_get (oid x) indices) as [i|] eqn:G; [|discriminate]. destruct (variation_id b indices) as [r|]; [|discriminate].
  intros Q n o [E|E]; injection Q as <-.
  - injection E as -> ->. exists i. split; auto. left. auto.
  - destruct (IH r eq_refl n o E) as (j & Gj & Ij). exists j. split; auto. right. auto.
Qed.

Lemma id_same b : forall ind ind' id, variation_id b ind = Some id -> variation_id b ind' = Some id -> forall n o, In (n, o) b -> d_get (oid o) ind = d_get (oid o) ind'.
Proof.
  induction b as [|[m x] b IH]; simpl; intros ind ind' id; [intros _ _ ? ? []|].
  destruct (d_get (oid x) ind) as [i|] eqn:G; [|discriminate]. destruct (variation_id b ind) as [r|] eqn:V; [|discriminate].
  destruct (d_get (oid x) ind') as [i'|] eqn:G'; [|discriminate]. destruct (variation_id b ind') as [r'|] eqn:V'; [|discriminate].
  intros Q Q' n o [E|E]; injection Q as <-; injection Q' as -> ->.
  - injection E as -> ->. congruence.
  - eapply IH; eauto.
Qed.

(** Two variations have the same id exactly if they agree on the parametrizations that
    have a name; so if all have one, different variations have different ids. *)
Theorem C90_ids : forall b ind ind' id id', variation_id b ind = Some id -> variation_id b ind' = Some id' ->
  (id = id' <-> forall p, (exists n o, In (n, o) b /\ oid o = p) -> d_get p ind = d_get p ind').
Proof.
  intros b ind ind' id id' V V'. split.
  - intros <- p (n & o & I & <-). eapply id_same; eauto.
  - intros H. revert id id' V V'. induction b as [|[m x] b IH]; simpl; intros id id' V V'; [congruence|].
    rewrite <- (H (oid x)) in V' by (exists m, x; simpl; auto).
    destruct (d_get (oid x) ind) as [i|]; [|discriminate]. destruct (variation_id b ind) as [r|] eqn:E; [|discriminate]. destruct (variation_id b ind') as [r'|] eqn:E'; [|discriminate].
    injection V as <-. injection V' as <-. f_equal. apply IH; auto. intros p (n & o & I & <-). apply H. exists n, o. simpl. auto.
Qed.

Theorem C90_distinct_partial : forall kwargs universe fuel autouse fs b ind ind' id,
  (forall f, d_ok (kwargs f)) -> (forall f n o, In (n, o) (kwargs f) -> In (oid o) universe) -> sorted_ids kwargs -> fuel_enough universe fuel ->
  (forall r o o', In (r, o) (all_roots autouse fs) -> In (r, o') (all_roots autouse fs) -> o = o') ->
  (forall r o, In (r, o) (all_roots autouse fs) -> forall g n o', In (n, o') (kwargs g) -> oid o' = oid o -> is_fix o' = is_fix o) ->
  (forall f n p, In f fs -> fu_nofixtures f = false -> In (n, p) (fu_params f) -> d_get n (fu_params f) = Some p /\ In n (map fst (fu_args f))) ->
  (autouse = [] \/ exists f, In f fs /\ fu_nofixtures f = false) ->
  name_bindings kwargs fuel autouse fs = Some b -> variation_id b ind = Some id -> variation_id b ind' = Some id ->
  forall o p, In o (needed autouse fs) -> needs kwargs o p -> d_get p ind = d_get p ind'.
Proof.
  intros kwargs universe fuel autouse fs b ind ind' id K1 K2 K3 FE Fu K0 Hp Ha Nb V V' o p Io Np.
  destruct (C90_named_partial kwargs universe K1 K2 K3 fuel autouse fs FE Fu K0 Hp Ha) as (b' & Eb & N). rewrite Nb in Eb. injection Eb as <-.
  destruct (N o p Io Np) as (n & c & I). apply (id_same b ind ind' id V V' n (OParam p c) I).
Qed.

(** In particular, for a method of a test class: if at most one class has a before and an after,
    no two arguments of a function and no two autouse fixtures have the same name and
    use_fixtures is not used, names begin at one object only. *)
Theorem C90_class_partial : forall autouse before after befores afters method, before <> after ->
  length befores <= 1 -> length afters <= 1 -> fu_space method = None -> NoDup (map fst autouse) ->
  (forall f, In f (method :: befores ++ afters) -> NoDup (map fst (fu_args f)) /\ fu_extra f = []) ->
  forall r o o', In (r, o) (all_roots autouse (class_funcs before after befores afters method)) ->
  In (r, o') (all_roots autouse (class_funcs before after befores afters method)) -> o = o'.
Proof.
  intros autouse before after befores afters method Nb Lb La Sm Na Hf r o o'.
  assert (U : forall (l : list (nat * obj)), NoDup (map fst l) -> forall n x y, In (n, x) l -> In (n, y) l -> x = y).
  { induction l as [|[m z] l IH]; simpl; intros ND n x y I J; [destruct I|]. inversion ND as [|? ? N ND']; subst.
    assert (forall w, In (n, w) l -> n <> m) by (intros w Iw ->; apply N; apply in_map_iff; exists (m, w); auto).
    destruct I as [I|I], J as [J|J]; try congruence; eauto; exfalso; [injection I as -> ->; eapply H; eauto|injection J as -> ->; eapply H; eauto]. }
  (* what a root tells about where it comes from *)
  assert (G : forall x, In (r, x) (all_roots autouse (class_funcs before after befores afters method)) ->
    match r with
    | RAuto n => In (n, x) autouse
    | RPlain n => exists a, In (n, a) (fu_args method) /\ x = arg_obj method (n, a)
    | RSpace s n => exists f a, (s = before /\ befores = [f] \/ s = after /\ afters = [f]) /\ In (n, a) (fu_args f) /\
                    x = match d_get n (fu_params f) with Some p => p | None => a end
    end).
  { intros x I. apply in_flat_map in I as (f & If & I). unfold func_roots in I. destruct (fu_nofixtures f); [destruct I|].
    apply in_app_or in I as [I|I]; [|apply in_app_or in I as [I|I]].
    - apply in_map_iff in I as ([n a] & E & Ia). injection E as <- <-. unfold class_funcs in If.
      apply in_app_or in If as [If|If]; [|apply in_app_or in If as [If|[<-|[]]]].
      + apply in_map_iff in If as (g & <- & Ig). unfold arg_root, arg_obj. simpl in *. exists g, a. split; [|auto]. left. split; auto.
        destruct befores as [|h [|]]; simpl in *; try lia; try tauto. destruct Ig as [->|[]]. auto.
      + apply in_map_iff in If as (g & <- & Ig). unfold arg_root, arg_obj. simpl in *. exists g, a. split; [|auto]. right. split; auto.
        destruct afters as [|h [|]]; simpl in *; try lia; try tauto. destruct Ig as [->|[]]. auto.
      + unfold arg_root. rewrite Sm. eauto.
    - apply in_map_iff in I as ([n a] & E & Ia). injection E as <- <-. auto.
    - exfalso. assert (fu_extra f = []) as E; [|rewrite E in I; destruct I]. unfold class_funcs in If.
      apply in_app_or in If as [If|If]; [|apply in_app_or in If as [If|[<-|[]]]].
      + apply in_map_iff in If as (g & <- & Ig). simpl. apply Hf. right. apply in_or_app. auto.
      + apply in_map_iff in If as (g & <- & Ig). simpl. apply Hf. right. apply in_or_app. auto.
      + apply Hf. left. auto. }
  intros I J. apply G in I, J. clear G. destruct r as [n|s n|n].
  - destruct I as (a & Ia & ->), J as (b & Ib & ->). rewrite (U (fu_args method) (proj1 (Hf method (or_introl eq_refl))) n a b Ia Ib). auto.
  - destruct I as (f & a & Sf & Ia & ->), J as (g & b & Sg & Ib & ->).
    assert (f = g) as <- by (destruct Sf as [[-> Sf]|[-> Sf]], Sg as [[E Sg]|[E Sg]]; congruence).
    assert (NoDup (map fst (fu_args f))) as ND.
    { apply Hf. right. apply in_or_app. destruct Sf as [[_ ->]|[_ ->]]; simpl; auto. }
    rewrite (U (fu_args f) ND n a b Ia Ib). auto.
  - eapply U; eauto.
Qed.

(** ** What is not true *)

(** the claim: different variations have different ids *)
Definition ids_differ (kwargs : nat -> dict obj) (autouse : list (nat * obj)) (fs : list func) : Prop :=
  forall fuel b ind ind' id, name_bindings kwargs fuel autouse fs = Some b -> variation_id b ind = Some id -> variation_id b ind' = Some id ->
  forall o p, In o (needed autouse fs) -> needs kwargs o p -> d_get p ind = d_get p ind'.

(** A test class and its base class both have a before method with a parameter x (1) of
    their own: the combinations of both are made, but only the one of the base class shows. *)
Theorem C90_inherited_before_refuted : exists kwargs fs, ~ ids_differ kwargs [] fs /\
  fs = class_funcs 8 9 [mkFunc None false [(1, OParam 20 0)] [(1, OFix 0)] []; mkFunc None false [(1, OParam 21 0)] [(1, OFix 0)] []] [] (mkFunc None false [] [] []).
Proof.
  exists (fun _ => []). eexists. split; [|reflexivity]. intros H.
  specialize (H 5 [((RSpace 8 1, []), OParam 21 0)] [(20, 0); (21, 0)] [(20, 1); (21, 0)] _ eq_refl eq_refl eq_refl (OParam 20 0) 20).
  assert (Some 0 = Some 1) as Q; [|discriminate]. apply H; simpl; auto. constructor.
Qed.

(** A function marked nofixtures is run once for every value of a parametrized autouse
    fixture, and all these tests have the same id. *)
Theorem C90_nofixtures_refuted : exists kwargs autouse fs, ~ ids_differ kwargs autouse fs /\ kwargs 3 = [(1, OParam 20 0)] /\
  autouse = [(5, OFix 3)] /\ fs = [mkFunc None true [] [] []].
Proof.
  exists (fun f => if Nat.eqb f 3 then [(1, OParam 20 0)] else []), [(5, OFix 3)], [mkFunc None true [] [] []]. split; [|auto]. intros H.
  specialize (H 5 [] [(20, 0)] [(20, 1)] _ eq_refl eq_refl eq_refl (OFix 3) 20).
  assert (Some 0 = Some 1) as Q; [|discriminate]. apply H; simpl; auto. apply (n_arg _ 3 1 (OParam 20 0)); [left; auto|constructor].
Qed.

(** An autouse fixture that overrides another autouse fixture of the same name: both are
    used, and names of the one hide those of the other. *)
Theorem C90_autouse_refuted : exists kwargs autouse fs, ~ ids_differ kwargs autouse fs /\
  kwargs 3 = [(1, OParam 20 0)] /\ kwargs 4 = [(1, OParam 21 0)] /\ autouse = [(5, OFix 3); (5, OFix 4)] /\ fs = [mkFunc None false [] [] []].
Proof.
  exists (fun f => if Nat.eqb f 3 then [(1, OParam 20 0)] else if Nat.eqb f 4 then [(1, OParam 21 0)] else []), [(5, OFix 3); (5, OFix 4)], [mkFunc None false [] [] []]. split; [|auto 6]. intros H.
  specialize (H 5 [((RAuto 5, [1]), OParam 21 0)] [(20, 0); (21, 0)] [(20, 1); (21, 0)] _ eq_refl eq_refl eq_refl (OFix 3) 20).
  assert (Some 0 = Some 1) as Q; [|discriminate]. apply H; simpl; auto. apply (n_arg _ 3 1 (OParam 20 0)); [left; auto|constructor].
Qed.

(** Of several names parametrized together in a fixture only one shows. *)
Theorem C90_tuple_refuted : exists kwargs fs b, name_bindings kwargs 9 [] fs = Some b /\ kwargs 3 = [(1, OParam 20 0); (2, OParam 20 1)] /\
  needed [] fs = [OFix 3] /\ ~ exists n, In (n, OParam 20 1) b.
Proof.
  exists (fun f => if Nat.eqb f 3 then [(1, OParam 20 0); (2, OParam 20 1)] else []), [mkFunc None false [] [(7, OFix 3)] []]. eexists. split; [reflexivity|]. split; [auto|]. split; [auto|].
  intros (n & [Q|[]]). discriminate.
Qed.

(** ** Non-vacuity: a method with argument a (a fixture 3 that needs 4, parametrized) and
    b, parametrized, with a before method and an autouse fixture *)
Definition ex_kwargs (f : nat) : dict obj :=
  match f with 3 => [(1, OParam 20 0); (2, OFix 4)] | 4 => [(1, OParam 21 0)] | 5 => [(6, OFix 4)] | _ => [] end.
Definition ex_funcs : list func :=
  class_funcs 8 9 [mkFunc None false [] [(7, OFix 4)] []] [] (mkFunc None false [(2, OParam 22 0)] [(1, OFix 3); (2, OFix 0)] [(7, OFix 3)]).

Example C90_hypotheses_met : (forall f, d_ok (ex_kwargs f)) /\ (forall f n o, In (n, o) (ex_kwargs f) -> In (oid o) [20; 4; 21]) /\
  sorted_ids ex_kwargs /\ fuel_enough [20; 4; 21] 5 /\
  (forall r o o', In (r, o) (all_roots [(5, OFix 5)] ex_funcs) -> In (r, o') (all_roots [(5, OFix 5)] ex_funcs) -> o = o') /\
  (forall r o, In (r, o) (all_roots [(5, OFix 5)] ex_funcs) -> forall g n o', In (n, o') (ex_kwargs g) -> oid o' = oid o -> is_fix o' = is_fix o) /\
  (forall f n p, In f ex_funcs -> fu_nofixtures f = false -> In (n, p) (fu_params f) -> d_get n (fu_params f) = Some p /\ In n (map fst (fu_args f))) /\
  (exists f, In f ex_funcs /\ fu_nofixtures f = false) /\
  name_bindings ex_kwargs 5 [(5, OFix 5)] ex_funcs =
    Some [((RSpace 8 7, [1]), OParam 21 0); ((RAuto 5, [6; 1]), OParam 21 0); ((RPlain 1, [2; 1]), OParam 21 0); ((RPlain 1, [1]), OParam 20 0);
          ((RPlain 2, []), OParam 22 0); ((RPlain 7, [2; 1]), OParam 21 0); ((RPlain 7, [1]), OParam 20 0)].
Proof.
  assert (E : forall f n o, In (n, o) (ex_kwargs f) -> (n, o) = (1, OParam 20 0) \/ (n, o) = (2, OFix 4) \/ (n, o) = (1, OParam 21 0) \/ (n, o) = (6, OFix 4)).
  { intros f n o. unfold ex_kwargs. destruct f as [|[|[|[|[|[|f]]]]]]; simpl; intuition auto. }
  split. { intros f. unfold ex_kwargs. destruct f as [|[|[|[|[|[|f]]]]]]; repeat constructor; simpl; intuition discriminate. }
  split. { intros f n o I. apply E in I. destruct I as [I|[I|[I|I]]]; injection I as -> ->; simpl; auto. }
  split. { intros f g n m o o' I I' Q. apply E in I, I'. destruct I as [I|[I|[I|I]]], I' as [I'|[I'|[I'|I']]]; injection I as -> ->; injection I' as -> ->; auto; discriminate. }
  split. { unfold fuel_enough. simpl. lia. }
  split. { intros r o o' I I'. vm_compute in I, I'. intuition congruence. }
  split. { intros r o I g n o' I' Q. apply E in I'. simpl in I. repeat (destruct I as [I|I]; [injection I as <- <-; destruct I' as [I'|[I'|[I'|I']]]; injection I' as -> ->; auto; discriminate|]). destruct I. }
  split. { intros f n p I _ I'. simpl in I. destruct I as [<-|[<-|[]]]; simpl in *; [tauto|]. destruct I' as [Q|[]]. injection Q as <- <-. split; auto. }
  split. { eexists. split; [left; reflexivity|auto]. }
  reflexivity.
Qed.

Print Assumptions C90_named_partial.
Print Assumptions C90_ids.
Print Assumptions C90_distinct_partial.
(** the class of the example, without use_fixtures *)
Example C90_class_met : NoDup (map fst [(5, OFix 5)]) /\ forall f, In f (mkFunc None false [(2, OParam 22 0)] [(1, OFix 3); (2, OFix 0)] [] :: [mkFunc None false [] [(7, OFix 4)] []] ++ []) ->
  NoDup (map fst (fu_args f)) /\ fu_extra f = [].
Proof.
  split; [repeat constructor; simpl; tauto|]. intros f [<-|[<-|[]]]; split; auto; simpl; repeat constructor; simpl; intuition discriminate.
Qed.

Print Assumptions C90_class_partial.
Print Assumptions C90_inherited_before_refuted.
Print Assumptions C90_nofixtures_refuted.
Print Assumptions C90_autouse_refuted.
Print Assumptions C90_tuple_refuted.
