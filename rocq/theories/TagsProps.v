(** Tags: C43 (union, conflicts), C61 (tagging touches only its target). *)

From Coq Require Import List Bool Arith PeanoNat Lia.
From Verif Require Import Dict Tags.
Import ListNotations.

(** ** Specification *)

(** the tag is present *)
Definition has (t : tags) (k : nat) : Prop := exists d v, t = Some d /\ d_get k d = Some v.
(** the tag is present with a given value *)
Definition given (t : tags) (k v : nat) : Prop := exists d, t = Some d /\ d_get k d = Some (Some v).

(** dicts have no duplicate keys *)
Definition fine (t : tags) : Prop := match t with Some d => d_ok d | None => True end.

Fixpoint fixture_parts (f : fx) : list tags :=
  match f with Fx own required => own :: flat_map fixture_parts required end.

Definition function_parts (func : tags) (params : list tags) (nofixtures : bool) (fs : list fx) : list tags :=
  func :: params ++ if nofixtures then [] else flat_map fixture_parts fs.

Definition method_parts (cls meth : tags) (params : list tags) (nofixtures : bool) (fs : list fx) : list tags :=
  cls :: meth :: params ++ if nofixtures then [] else flat_map fixture_parts fs.

(** [t] is the union of the parts *)
Definition union_of (t : tags) (parts : list tags) : Prop :=
  (forall k, has t k <-> exists p, In p parts /\ has p k)
  /\ (forall k v, given t k v <-> exists p, In p parts /\ given p k v).

(** ** Sums *)

Definition sum (t : tags) (parts : list tags) : Prop := fine t /\ union_of t parts.

Lemma sum_one t : fine t -> sum t [t].
Proof.
  intros F. split; auto. split.
  - intros k. split; [intros H; exists t; simpl; auto|]. intros (p & [<-|[]] & H); auto.
  - intros k v. split; [intros H; exists t; simpl; auto|]. intros (p & [<-|[]] & H); auto.
Qed.

Lemma sum_nil_none : sum None [].
Proof.
  split; simpl; auto. split.
  - intros k; split; [intros (d & v & H & _); discriminate|intros (p & [] & _)].
  - intros k v; split; [intros (d & H & _); discriminate|intros (p & [] & _)].
Qed.

Lemma sum_nil_empty : sum (Some []) [].
Proof.
  split; [constructor|]. split.
  - intros k; split; [intros (d & v & H & G); inversion H; subst; discriminate|intros (p & [] & _)].
  - intros k v; split; [intros (d & H & G); inversion H; subst; discriminate|intros (p & [] & _)].
Qed.

Lemma sum_ext t ps qs : (forall p, In p ps <-> In p qs) -> sum t ps -> sum t qs.
Proof.
  intros E [F [H1 H2]]. split; auto. split.
  - intros k. rewrite H1. split; intros (p & Hi & H); exists p; split; auto; apply E; auto.
  - intros k v. rewrite H2. split; intros (p & Hi & H); exists p; split; auto; apply E; auto.
Qed.

Lemma sum_none_part t ps : sum t ps -> sum t (ps ++ [None]).
Proof.
  intros [F [H1 H2]]. split; auto. split.
  - intros k. rewrite H1. split; intros (p & Hi & H).
    + exists p; split; auto. apply in_or_app; auto.
    + apply in_app_iff in Hi as [Hi|[<-|[]]]; eauto. destruct H as (d & v & Q & _); discriminate.
  - intros k v. rewrite H2. split; intros (p & Hi & H).
    + exists p; split; auto. apply in_or_app; auto.
    + apply in_app_iff in Hi as [Hi|[<-|[]]]; eauto. destruct H as (d & Q & _); discriminate.
Qed.

Lemma no_conflict d d' k v : d_ok d' -> check_conflicts d d' = false -> d_get k d = Some (Some v) ->
  forall w, d_get k d' = Some w -> w = Some v.
Proof.
  intros O C G w G'. apply d_get_pair in G'.
  destruct (conflicting d k w) eqn:E.
  - assert (check_conflicts d d' = true); [|congruence]. apply existsb_exists. exists (k, w). auto.
  - unfold conflicting in E. rewrite G in E. apply negb_false_iff in E. destruct w as [w|]; simpl in E; [|discriminate].
    apply Nat.eqb_eq in E; congruence.
Qed.

Lemma sum_update d d' : d_ok d -> d_ok d' -> check_conflicts d d' = false ->
  forall ps qs, sum (Some d) ps -> sum (Some d') qs -> sum (Some (d_update d d')) (ps ++ qs).
Proof.
  intros O O' C ps qs [_ [H1 H2]] [_ [H1' H2']]. split; [apply d_update_ok; auto|].
  assert (forall k, has (Some (d_update d d')) k <-> has (Some d) k \/ has (Some d') k) as A.
  { intros k. unfold has. split.
    - intros (e & v & E & G). inversion E; subst. rewrite d_get_update in G by auto.
      destruct (d_get k d') eqn:G'; [right; eauto|left; eauto].
    - intros [(e & v & E & G)|(e & v & E & G)]; inversion E; subst; eexists.
      + exists (match d_get k d' with Some w => w | None => v end). split; [reflexivity|].
        rewrite d_get_update by auto. destruct (d_get k d'); auto.
      + exists v. split; [reflexivity|]. rewrite d_get_update by auto. rewrite G. auto. }
  assert (forall k v, given (Some (d_update d d')) k v <-> given (Some d) k v \/ given (Some d') k v) as B.
  { intros k v. unfold given. split.
    - intros (e & E & G). inversion E; subst. rewrite d_get_update in G by auto.
      destruct (d_get k d') eqn:G'; [right; exists d'; split; auto; congruence|left; eauto].
    - intros [(e & E & G)|(e & E & G)]; inversion E; subst; eexists; (split; [reflexivity|]); rewrite d_get_update by auto.
      + destruct (d_get k d') eqn:G'; auto. rewrite (no_conflict _ _ _ _ O' C G _ G'). auto.
      + rewrite G; auto. }
  split.
  - intros k. rewrite A, H1, H1'. split.
    + intros [(p & Hi & Hp)|(p & Hi & Hp)]; exists p; split; auto; apply in_or_app; auto.
    + intros (p & Hi & Hp). apply in_app_iff in Hi as [Hi|Hi]; eauto.
  - intros k v. rewrite B, H2, H2'. split.
    + intros [(p & Hi & Hp)|(p & Hi & Hp)]; exists p; split; auto; apply in_or_app; auto.
    + intros (p & Hi & Hp). apply in_app_iff in Hi as [Hi|Hi]; eauto.
Qed.

Lemma sum_none ps : sum None ps -> forall t qs, sum t qs -> sum t (ps ++ qs).
Proof.
  intros [_ [H1 H2]] t qs [F [H1' H2']]. split; auto. split.
  - intros k. rewrite H1'. split.
    + intros (p & Hi & Hp). exists p; split; auto. apply in_or_app; auto.
    + intros (p & Hi & Hp). apply in_app_iff in Hi as [Hi|Hi]; eauto.
      assert (has None k) as (d & v & Q & _) by (apply H1; eauto). discriminate.
  - intros k v. rewrite H2'. split.
    + intros (p & Hi & Hp). exists p; split; auto. apply in_or_app; auto.
    + intros (p & Hi & Hp). apply in_app_iff in Hi as [Hi|Hi]; eauto.
      assert (given None k v) as (d & Q & _) by (apply H2; eauto). discriminate.
Qed.

Lemma sum_swap t ps qs : sum t (ps ++ qs) -> sum t (qs ++ ps).
Proof. apply sum_ext. intros p. rewrite !in_app_iff. tauto. Qed.

Lemma sum_add a b t ps qs : tags_add a b = Some t -> sum a ps -> sum b qs -> sum t (ps ++ qs).
Proof.
  unfold tags_add. intros E Sa Sb. destruct a as [d|].
  - destruct b as [d'|].
    + destruct (check_conflicts d d') eqn:C; [discriminate|]. inversion E; subst.
      apply sum_update; auto; [apply Sa|apply Sb].
    + inversion E; subst. apply sum_swap, sum_none; auto.
  - inversion E; subst. apply sum_none; auto.
Qed.

Lemma sum_update_all l : forall d e ps, update_all d l = Some e -> (forall t, In t l -> fine t) ->
  sum (Some d) ps -> sum (Some e) (ps ++ l).
Proof.
  induction l as [|t l IH]; simpl; intros d e ps E F S.
  - inversion E; subst. rewrite app_nil_r. auto.
  - destruct (tags_update d t) as [d1|] eqn:U; [|discriminate]. simpl in E.
    assert (sum (Some d1) (ps ++ [t])) as S1.
    { unfold tags_update in U. destruct t as [d'|].
      - destruct (check_conflicts d d') eqn:C; [discriminate|]. inversion U; subst.
        apply sum_update; auto; [apply S|apply (F (Some d')); auto|apply sum_one; apply F; auto].
      - inversion U; subst. apply sum_none_part. auto. }
    specialize (IH d1 e (ps ++ [t]) E ltac:(auto) S1). rewrite <- app_assoc in IH. auto.
Qed.

Lemma sum_update_all' l : forall d e ps qss, update_all d l = Some e ->
  Forall2 sum l qss -> sum (Some d) ps -> sum (Some e) (ps ++ concat qss).
Proof.
  induction l as [|t l IH]; simpl; intros d e ps qss E F S; inversion F; subst; simpl.
  - inversion E; subst. rewrite app_nil_r. auto.
  - destruct (tags_update d t) as [d1|] eqn:U; [|discriminate]. simpl in E.
    rewrite app_assoc. eapply IH; eauto.
    eapply sum_add; eauto. unfold tags_update in U. unfold tags_add. destruct t as [d'|].
    + destruct (check_conflicts d d'); [discriminate|]. inversion U; auto.
    + inversion U; auto.
Qed.

Fixpoint fx_ok (f : fx) : Prop :=
  match f with Fx own required =>
    fine own /\ (fix all l := match l with [] => True | f :: l' => fx_ok f /\ all l' end) required
  end.

Definition fixture_all := fix all (l : list fx) : option (list tags) :=
  match l with
  | [] => Some []
  | f :: l' => bind (fixture_tags f) (fun t => bind (all l') (fun ts => Some (t :: ts)))
  end.

Lemma sum_fixture : forall f t, fixture_tags f = Some t -> fx_ok f -> sum t (fixture_parts f).
Proof.
  fix IH 1. intros [own req] t H [F R]. cbn [fixture_tags fixture_parts] in *.
  fold fixture_all in H.
  destruct (fixture_all req) as [ts|] eqn:A; [|discriminate]. simpl in H.
  destruct (update_all _ ts) as [d|] eqn:U; [|discriminate]. simpl in H. inversion H; subst. clear H.
  assert (exists qss, Forall2 sum ts qss /\ concat qss = flat_map fixture_parts req) as (qss & Q & E).
  { clear U F own d. revert ts A R.
    induction req as [|f req IHr]; intros ts A R.
    - simpl in A. inversion A; subst. exists []. auto.
    - simpl in A. destruct (fixture_tags f) as [t|] eqn:T; [|discriminate]. simpl in A.
      destruct (fixture_all req) as [ts'|] eqn:A'; [|discriminate]. simpl in A. inversion A; subst.
      destruct R as [Rf R]. destruct (IHr ts' eq_refl R) as (qss & Q & E).
      exists (fixture_parts f :: qss). split; [constructor; auto|simpl; congruence]. }
  rewrite <- E. change (own :: concat qss) with ([own] ++ concat qss).
  eapply sum_update_all'; eauto.
  destruct own as [d'|]; [apply sum_one; auto|]. apply (sum_none_part _ [] sum_nil_empty).
Qed.

Lemma sum_fixtures fs : forall acc t ps, fold_left (fun acc f => bind acc (fun t => bind (fixture_tags f) (fun t' => tags_add t t'))) fs acc = Some t ->
  (forall f, In f fs -> fx_ok f) -> (forall a, acc = Some a -> sum a ps) ->
  sum t (ps ++ flat_map fixture_parts fs).
Proof.
  induction fs as [|f fs IH]; simpl; intros acc t ps H F S.
  - rewrite app_nil_r. auto.
  - rewrite app_assoc. eapply IH; eauto. intros a E.
    destruct acc as [a0|]; [|discriminate]. simpl in E. destruct (fixture_tags f) as [t'|] eqn:T; [|discriminate].
    simpl in E. eapply sum_add; eauto. eapply sum_fixture; eauto.
Qed.

Lemma sum_variation params t : variation_tags params = Some t -> (forall p, In p params -> fine p) -> sum t params.
Proof.
  unfold variation_tags. destruct (update_all [] params) as [d|] eqn:U; [|discriminate]. simpl.
  intros H F; inversion H; subst. apply (sum_update_all params [] d [] U F). apply sum_nil_empty.
Qed.

(** ** C43 *)

(** The tags of a test are exactly the union of the tags of its function, of
    the chosen parameter values and of all fixtures it needs, directly or not,
    and every value given anywhere is the value of the tag. *)
Theorem C43_function_tags : forall func params nofixtures fs t,
  function_test_tags func params nofixtures fs = Some t ->
  fine func -> (forall p, In p params -> fine p) -> (forall f, In f fs -> fx_ok f) ->
  union_of t (function_parts func params nofixtures fs).
Proof.
  unfold function_test_tags, function_parts. intros func params nofixtures fs t H F1 F2 F3.
  destruct (variation_tags params) as [v|] eqn:V; [|discriminate]. simpl in H.
  destruct (tags_add func v) as [t1|] eqn:A; [|discriminate]. simpl in H.
  pose proof (sum_add _ _ _ _ _ A (sum_one _ F1) (sum_variation _ _ V F2)) as S1.
  destruct nofixtures.
  - inversion H; subst. rewrite app_nil_r. apply S1.
  - destruct (sum_fixture_tags fs) as [ft|] eqn:S; [|discriminate]. simpl in H.
    pose proof (sum_fixtures fs (Some None) ft [] S F3 ltac:(intros a E; inversion E; subst; apply sum_nil_none)) as S2.
    apply (sum_add _ _ _ _ _ H S1 S2).
Qed.

Theorem C43_method_tags : forall cls meth params nofixtures fs t,
  method_test_tags cls meth params nofixtures fs = Some t ->
  fine cls -> fine meth -> (forall p, In p params -> fine p) -> (forall f, In f fs -> fx_ok f) ->
  union_of t (method_parts cls meth params nofixtures fs).
Proof.
  unfold method_test_tags, method_parts. intros cls meth params nofixtures fs t H F0 F1 F2 F3.
  destruct (tags_add cls meth) as [cm|] eqn:C; [|discriminate]. simpl in H.
  destruct (variation_tags params) as [v|] eqn:V; [|discriminate]. simpl in H.
  destruct (tags_add cm v) as [t1|] eqn:A; [|discriminate]. simpl in H.
  pose proof (sum_add _ _ _ _ _ C (sum_one _ F0) (sum_one _ F1)) as S0.
  pose proof (sum_add _ _ _ _ _ A S0 (sum_variation _ _ V F2)) as S1.
  destruct nofixtures.
  - inversion H; subst. rewrite app_nil_r. apply S1.
  - destruct (sum_fixture_tags fs) as [ft|] eqn:S; [|discriminate]. simpl in H.
    pose proof (sum_fixtures fs (Some None) ft [] S F3 ltac:(intros a E; inversion E; subst; apply sum_nil_none)) as S2.
    apply (sum_add _ _ _ _ _ H S1 S2).
Qed.

Lemma given_fun t k v w : given t k v -> given t k w -> v = w.
Proof. intros (d & -> & G) (d' & E & G'). inversion E; subst. congruence. Qed.

(** Two different values given to a tag are a conflict, wherever they come from
    and whichever is met first. *)
Theorem C43_two_values_conflict_partial : forall func params nofixtures fs p q k v w,
  fine func -> (forall p, In p params -> fine p) -> (forall f, In f fs -> fx_ok f) ->
  In p (function_parts func params nofixtures fs) -> In q (function_parts func params nofixtures fs) ->
  given p k v -> given q k w -> v <> w ->
  function_test_tags func params nofixtures fs = None.
Proof.
  intros func params nofixtures fs p q k v w F1 F2 F3 Hp Hq Gp Gq N.
  destruct (function_test_tags func params nofixtures fs) as [t|] eqn:E; auto.
  destruct (C43_function_tags _ _ _ _ _ E F1 F2 F3) as [_ U].
  destruct N. apply (given_fun t k); apply U; eauto.
Qed.

Theorem C43_two_values_conflict_method_partial : forall cls meth params nofixtures fs p q k v w,
  fine cls -> fine meth -> (forall p, In p params -> fine p) -> (forall f, In f fs -> fx_ok f) ->
  In p (method_parts cls meth params nofixtures fs) -> In q (method_parts cls meth params nofixtures fs) ->
  given p k v -> given q k w -> v <> w ->
  method_test_tags cls meth params nofixtures fs = None.
Proof.
  intros cls meth params nofixtures fs p q k v w F0 F1 F2 F3 Hp Hq Gp Gq N.
  destruct (method_test_tags cls meth params nofixtures fs) as [t|] eqn:E; auto.
  destruct (C43_method_tags _ _ _ _ _ _ E F0 F1 F2 F3) as [_ U].
  destruct N. apply (given_fun t k); apply U; eauto.
Qed.

(** But a tag with a value and the same tag without one: whether that is a
    conflict depends on the order. *)
Theorem C43_order_independent_refuted : exists a b,
  fine a /\ fine b /\ tags_add a b <> None /\ tags_add b a = None.
Proof.
  exists (Some [(0, None)]), (Some [(0, Some 1)]).
  split; [repeat constructor; simpl; tauto|]. split; [repeat constructor; simpl; tauto|].
  split; [vm_compute; discriminate|reflexivity].
Qed.

(** The converse: no conflict is reported without a reason: some tag is given a
    value in one part and a different value or none in another. *)
Theorem C43_conflict_has_a_reason : forall d d', d_ok d' ->
  tags_add (Some d) (Some d') = None ->
  exists k v, given (Some d) k v /\ has (Some d') k /\ ~ given (Some d') k v.
Proof.
  intros d d' O. unfold tags_add. destruct (check_conflicts d d') eqn:C; [|discriminate]. intros _.
  apply existsb_exists in C as ([k w] & Hi & C). simpl in C. unfold conflicting in C.
  destruct (d_get k d) as [[v|]|] eqn:G; try discriminate.
  pose proof (d_pair_get _ _ _ O Hi) as G'.
  exists k, v. split; [exists d; auto|]. split; [exists d', w; auto|].
  intros (e & E & Ge). inversion E; subst. rewrite G' in Ge. inversion Ge; subst.
  simpl in C. rewrite Nat.eqb_refl in C. discriminate.
Qed.

Example ex_tags : exists t,
  function_test_tags (Some [(0, Some 7)]) [Some [(1, None)]; None] false
    [Fx (Some [(2, Some 5)]) [Fx (Some [(0, Some 7); (3, None)]) []]; Fx None []] = Some t
  /\ given t 0 7 /\ has t 1 /\ given t 2 5 /\ has t 3.
Proof.
  eexists. split; [vm_compute; reflexivity|].
  split; [eexists; split; reflexivity|]. split; [eexists _, _; split; reflexivity|].
  split; [eexists; split; reflexivity|eexists _, _; split; reflexivity].
Qed.

Example ex_tags_conflict :
  function_test_tags (Some [(0, Some 7)]) [] false [Fx None [Fx (Some [(0, Some 8)]) []]] = None.
Proof. reflexivity. Qed.

(** ** C61: tagging an object changes the tags of no other object: refuted *)

(** object 1 is a class with base class 0 *)
Definition ex_mro (o : nat) : list nat := if Nat.eqb o 1 then [1; 0] else [o].

Theorem C61_tagging_is_local_refuted : exists mro h o o' name value,
  (forall o, exists l, mro o = o :: l) /\ (exists l, h = tag_all mro l heap0)
  /\ o <> o' /\ ~ In o (mro o')
  /\ get_tags mro (fst (tag_test mro o name value h)) o' <> get_tags mro h o'.
Proof.
  exists ex_mro, (tag_all ex_mro [(0, 5, None)] heap0), 1, 0, 6, None.
  split; [intros o; unfold ex_mro; destruct (Nat.eqb_spec o 1); subst; eauto|].
  split; [eauto|]. split; [discriminate|]. split; [vm_compute; intuition discriminate|].
  vm_compute. discriminate.
Qed.

(** It holds for objects that have no base classes (functions). *)
Section Local.
Variable mro : nat -> list nat.
Hypothesis own_first : forall o, exists l, mro o = o :: l.

Definition sane (h : heap) : Prop :=
  (forall o r, d_get o (h_own h) = Some r -> r < h_next h /\ d_get r (h_obj h) <> None)
  /\ (forall o o' r, d_get o (h_own h) = Some r -> d_get o' (h_own h) = Some r -> o = o').

Lemma find_own h l r : find_attr h l = Some r -> exists o, In o l /\ d_get o (h_own h) = Some r.
Proof.
  induction l as [|c l IH]; simpl; [discriminate|]. destruct (d_get c (h_own h)) eqn:E.
  - intros H; inversion H; subst; eauto.
  - intros H. destruct (IH H) as (o & Hi & G); eauto.
Qed.

Lemma sane_tag o name value h : sane h -> sane (fst (tag_test mro o name value h))
  /\ snd (tag_test mro o name value h) <> Dangling.
Proof.
  intros [S1 S2]. unfold tag_test. destruct (find_attr h (mro o)) as [r|] eqn:F.
  - destruct (find_own _ _ _ F) as (c & _ & G). destruct (S1 _ _ G) as [L D].
    destruct (d_get r (h_obj h)) as [d|] eqn:E; [|congruence].
    destruct (conflicting d name value); simpl; [split; [split; auto|discriminate]|].
    split; [|discriminate]. split; simpl; auto.
    intros o' r' G'. destruct (S1 _ _ G') as [L' D']. split; auto.
    rewrite d_get_set. destruct (Nat.eqb r' r); [discriminate|auto].
  - cbn [h_obj]. rewrite d_get_set_same. cbn [conflicting d_get].
    split; [|discriminate]. cbn [fst]. split; simpl.
    + intros o' r'. rewrite d_get_set. destruct (Nat.eqb_spec o' o).
      * intros H; inversion H; subst. split; [lia|]. rewrite d_get_set, Nat.eqb_refl. discriminate.
      * intros G. destruct (S1 _ _ G) as [L D]. split; [lia|]. rewrite !d_get_set.
        destruct (Nat.eqb_spec r' (h_next h)); [lia|auto].
    + intros o1 o2 r'. rewrite !d_get_set. destruct (Nat.eqb_spec o1 o); destruct (Nat.eqb_spec o2 o); subst; auto.
      * intros H G. inversion H; subst. destruct (S1 _ _ G). lia.
      * intros G H. inversion H; subst. destruct (S1 _ _ G). lia.
      * apply S2.
Qed.

Lemma sane_all l h : sane h -> sane (tag_all mro l h).
Proof. revert h. induction l as [|[[o n] v] l IH]; simpl; auto. intros h S. apply IH, sane_tag, S. Qed.

Lemma sane0 : sane heap0.
Proof. split; simpl; intros; discriminate. Qed.

Theorem C61_tagging_is_local_partial : forall l o o' name value,
  mro o = [o] -> mro o' = [o'] -> o <> o' ->
  let h := tag_all mro l heap0 in
  get_tags mro (fst (tag_test mro o name value h)) o' = get_tags mro h o'.
Proof.
  intros l o o' name value M M' N h. pose proof (sane_all l _ sane0) as [S1 S2]. fold h in S1, S2.
  unfold tag_test, get_tags. rewrite M, M'. cbn [find_attr].
  destruct (d_get o (h_own h)) as [r|] eqn:G.
  - destruct (d_get r (h_obj h)) as [d|] eqn:E; [|auto].
    destruct (conflicting d name value); auto. simpl.
    destruct (d_get o' (h_own h)) as [r'|] eqn:G'; auto.
    rewrite d_get_set. destruct (Nat.eqb_spec r' r) as [->|]; auto. destruct N. eapply S2; eauto.
  - cbn [h_obj]. rewrite d_get_set_same. cbn [conflicting d_get]. simpl.
    rewrite d_get_set_other by auto. destruct (d_get o' (h_own h)) as [r'|] eqn:G'; auto.
    destruct (S1 _ _ G') as [L D]. rewrite !d_get_set. destruct (Nat.eqb_spec r' (h_next h)); [lia|auto].
Qed.

(** A tagged object has the tag, with the value given. *)
Theorem C61_tagged : forall l o name value h' ,
  let h := tag_all mro l heap0 in
  tag_test mro o name value h = (h', Tagged) ->
  exists d, get_tags mro h' o = Some d /\ d_get name d = Some value.
Proof.
  intros l o name value h' h H. pose proof (sane_all l _ sane0) as [S1 S2]. fold h in S1, S2.
  unfold tag_test in H. destruct (own_first o) as [ms M].
  destruct (find_attr h (mro o)) as [r|] eqn:F.
  - destruct (d_get r (h_obj h)) as [d|] eqn:E; [|inversion H].
    destruct (conflicting d name value); inversion H; subst. exists (d_set name value d).
    split; [|apply d_get_set_same]. unfold get_tags.
    assert (find_attr (mkHeap (h_own h) (d_set r (d_set name value d) (h_obj h)) (h_next h)) (mro o) = find_attr h (mro o)) as ->.
    { generalize (mro o). induction l0 as [|c l0 IH]; simpl; auto. rewrite IH; auto. }
    rewrite F. apply d_get_set_same.
  - cbn [h_obj] in H. rewrite d_get_set_same in H. cbn [conflicting d_get] in H. inversion H; subst.
    exists (d_set name value []). split; [|apply d_get_set_same].
    unfold get_tags. rewrite M. cbn [find_attr h_own]. rewrite d_get_set_same. simpl. apply d_get_set_same.
Qed.
End Local.

Example ex_local : let h := tag_all (fun o => [o]) [(0, 5, None); (1, 5, Some 3)] heap0 in
  get_tags (fun o => [o]) h 0 = Some [(5, None)] /\ get_tags (fun o => [o]) h 1 = Some [(5, Some 3)]
  /\ snd (tag_test (fun o => [o]) 1 5 (Some 4) h) = Conflict.
Proof. vm_compute. auto. Qed.

Print Assumptions C43_function_tags.
Print Assumptions C43_method_tags.
Print Assumptions C43_two_values_conflict_partial.
Print Assumptions C43_two_values_conflict_method_partial.
Print Assumptions C43_order_independent_refuted.
Print Assumptions C43_conflict_has_a_reason.
Print Assumptions C61_tagging_is_local_refuted.
Print Assumptions C61_tagging_is_local_partial.
Print Assumptions C61_tagged.
