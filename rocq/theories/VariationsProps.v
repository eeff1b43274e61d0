(** Properties of variations (model: Variations.v): C31. *)

From Coq Require Import List Bool Arith PeanoNat Lia Sorted FinFun.
From Verif Require Import Dict FixtureGraph Variations.
Import ListNotations.

Lemma Forall2_length {A B} (P : A -> B -> Prop) l m : Forall2 P l m -> length l = length m.
Proof. induction 1; simpl; auto. Qed.

(** ** products *)

Lemma product_In {A} (ls : list (list A)) : forall c, In c (product ls) <-> Forall2 (fun x l => In x l) c ls.
Proof.
  induction ls as [|l ls IH]; intros c; simpl.
  - split; [intros [<-|[]]; constructor|]. intros H; inversion H; auto.
  - rewrite in_flat_map. split.
    + intros [x [Ix H]]. apply in_map_iff in H as [c' [<- H]]. constructor; auto. apply IH; auto.
    + intros H; inversion H; subst. exists x. split; auto. apply in_map. apply IH; auto.
Qed.

Lemma product_length {A} (ls : list (list A)) : length (product ls) = fold_right (fun l n => length l * n) 1 ls.
Proof.
  induction ls as [|l ls IH]; simpl; auto. rewrite <- IH. clear IH.
  induction l as [|x l IH]; simpl; auto. rewrite app_length, map_length, IH. auto.
Qed.

(** the order of sequences that compares the first difference *)
Inductive lex : list nat -> list nat -> Prop :=
| lex_here x y l m : x < y -> lex (x :: l) (y :: m)
| lex_later x l m : lex l m -> lex (x :: l) (x :: m).

Lemma lex_irrefl l : ~ lex l l.
Proof. induction l; intros H; inversion H; subst; [lia|auto]. Qed.

Lemma sorted_app {A} (R : A -> A -> Prop) l m :
  StronglySorted R l -> StronglySorted R m -> (forall x y, In x l -> In y m -> R x y) -> StronglySorted R (l ++ m).
Proof.
  induction 1 as [|x l S1 IH F]; simpl; intros Sm H; auto. constructor.
  - apply IH; auto.
  - apply Forall_app. split; auto. apply Forall_forall. auto.
Qed.

Lemma sorted_map {A B} (R : A -> A -> Prop) (R' : B -> B -> Prop) (f : A -> B) l :
  (forall x y, In x l -> In y l -> R x y -> R' (f x) (f y)) -> StronglySorted R l -> StronglySorted R' (map f l).
Proof.
  intros H S1. induction S1 as [|x l S1 IH F]; simpl; constructor.
  - apply IH. intros a b Ia Ib. apply H; simpl; auto.
  - rewrite Forall_forall in *. intros y Iy. apply in_map_iff in Iy as [z [<- Iz]]. apply H; simpl; auto.
Qed.

Lemma product_sorted ls : Forall (StronglySorted lt) ls -> StronglySorted lex (product ls).
Proof.
  induction 1 as [|l ls Sl _ IH]; simpl; [repeat constructor|].
  induction Sl as [|x l Sl IHl F]; simpl; [constructor|]. apply sorted_app; auto.
  - eapply sorted_map; [|exact IH]. intros. apply lex_later; auto.
  - intros c d Ic Id. apply in_map_iff in Ic as [c' [<- Ic]]. apply in_flat_map in Id as [y [Iy Id]].
    apply in_map_iff in Id as [d' [<- Id]]. apply lex_here. rewrite Forall_forall in F. auto.
Qed.

Lemma seq_sorted a n : StronglySorted lt (seq a n).
Proof.
  revert a. induction n as [|n IH]; intros a; simpl; constructor; auto. apply Forall_forall. intros x Ix.
  apply in_seq in Ix. lia.
Qed.

(** ** dicts made from two lists *)

Lemma d_update_get {V} l : forall (d : @dict V) k, ~ In k (map fst l) -> d_get k (d_update d l) = d_get k d.
Proof.
  unfold d_update. induction l as [|[j v] l IH]; simpl; intros d k N; auto.
  rewrite IH by (intros I; apply N; right; auto). apply d_get_set_other. intros ->. apply N. left; auto.
Qed.
Lemma combine_get {V} keys : forall (vals : list V) d, NoDup keys -> length keys = length vals ->
  forall i k v, nth_error keys i = Some k -> nth_error vals i = Some v -> d_get k (d_update d (combine keys vals)) = Some v.
Proof.
  induction keys as [|j keys IH]; intros [|w vals] d Nd L i k v Hk Hv; try (destruct i; discriminate).
  apply NoDup_cons_iff in Nd as [Nj Nd]. simpl in L. unfold d_update. simpl. destruct i as [|i]; simpl in *.
  - inversion Hk; inversion Hv; subst. fold (d_update (d_set k v d) (combine keys vals)).
    rewrite d_update_get; [apply d_get_set_same|]. intros I. apply Nj.
    apply in_map_iff in I as [[a b] [E I]]. simpl in E; subst. eapply in_combine_l; eauto.
  - fold (d_update (d_set j w d) (combine keys vals)). eapply IH; eauto.
Qed.
Lemma combine_keys {V} keys : forall (vals : list V) d, NoDup keys -> length keys = length vals ->
  (forall k, In k keys -> d_get k d = None) -> d_keys (d_update d (combine keys vals)) = d_keys d ++ keys.
Proof.
  induction keys as [|j keys IH]; intros [|w vals] d Nd L N; simpl in *; try discriminate.
  - unfold d_update. simpl. rewrite app_nil_r. auto.
  - apply NoDup_cons_iff in Nd as [Nj Nd]. unfold d_update. simpl. fold (d_update (d_set j w d) (combine keys vals)).
    rewrite IH; auto.
    + assert (E : d_get j d = None) by (apply N; auto). clear - E.
      assert (K : d_keys (d_set j w d) = d_keys d ++ [j]).
      { induction d as [|[a b] d IHd]; simpl; auto. simpl in E. destruct (Nat.eqb j a); [discriminate|]. simpl. f_equal. auto. }
      rewrite K, <- app_assoc. auto.
    + intros k I. rewrite d_get_set. destruct (Nat.eqb_spec k j) as [->|]; [destruct (Nj I)|]. apply N. right; auto.
Qed.

(** ** the needed parametrizations *)

Lemma insert_In x l y : In y (insert x l) <-> y = x \/ In y l.
Proof.
  induction l as [|z l IH]; simpl; [intuition|]. destruct (Nat.leb (n_scope x) (n_scope z)); simpl; rewrite ?IH; intuition.
Qed.
Lemma sort_In l : forall acc y, In y (fold_left (fun acc x => insert x acc) l acc) <-> In y l \/ In y acc.
Proof.
  induction l as [|x l IH]; simpl; intros acc y; [intuition|]. rewrite IH, insert_In. intuition.
Qed.
Lemma insert_sorted x l : StronglySorted (fun a b => n_scope b <= n_scope a) l -> StronglySorted (fun a b => n_scope b <= n_scope a) (insert x l).
Proof.
  induction 1 as [|y l S1 IH F]; simpl; [repeat constructor|]. destruct (Nat.leb_spec (n_scope x) (n_scope y)).
  - constructor; auto. rewrite Forall_forall in *. intros z I. apply insert_In in I as [->|I]; auto.
  - constructor; [constructor; auto|]. rewrite Forall_forall in *. intros z [<-|I]; [lia|]. specialize (F z I). lia.
Qed.
Lemma sort_sorted l : StronglySorted (fun a b => n_scope b <= n_scope a) (sort_needed l).
Proof.
  unfold sort_needed. assert (G : forall acc, StronglySorted (fun a b => n_scope b <= n_scope a) acc ->
    StronglySorted (fun a b => n_scope b <= n_scope a) (fold_left (fun acc x => insert x acc) l acc)).
  { induction l as [|x l IH]; simpl; auto. intros acc S1. apply IH. apply insert_sorted. auto. }
  apply G. constructor.
Qed.

Lemma oset_add_In s x y : In y (oset_add s x) <-> In y s \/ y = x.
Proof.
  unfold oset_add. destruct (existsb (Nat.eqb x) s) eqn:E; [|rewrite in_app_iff; simpl; intuition].
  apply existsb_exists in E as [z [I E]]. apply Nat.eqb_eq in E. subst. intuition. subst; auto.
Qed.
Lemma oset_add_nodup s x : NoDup s -> NoDup (oset_add s x).
Proof.
  intros N. unfold oset_add. destruct (existsb (Nat.eqb x) s) eqn:E; auto.
  assert (~ In x s).
  { intros I. rewrite <- not_true_iff_false in E. apply E. apply existsb_exists. exists x. rewrite Nat.eqb_refl. auto. }
  apply NoDup_rev in N. rewrite <- (rev_involutive (s ++ [x])). apply NoDup_rev. rewrite rev_app_distr. simpl. constructor; auto.
  rewrite <- in_rev. auto.
Qed.
Lemma oset_update_In l : forall s y, In y (oset_update s l) <-> In y s \/ In y l.
Proof.
  unfold oset_update. induction l as [|x l IH]; simpl; intros s y; [intuition|]. rewrite IH, oset_add_In. intuition.
Qed.
Lemma oset_update_nodup l : forall s, NoDup s -> NoDup (oset_update s l).
Proof. unfold oset_update. induction l as [|x l IH]; simpl; auto. intros s N. apply IH. apply oset_add_nodup. auto. Qed.
Lemma oset_update_prefix l : forall s, exists t, oset_update s l = s ++ t.
Proof.
  unfold oset_update. induction l as [|x l IH]; simpl; intros s; [exists []; rewrite app_nil_r; auto|].
  destruct (IH (oset_add s x)) as [t ->]. unfold oset_add. destruct (existsb (Nat.eqb x) s); eauto.
  exists (x :: t). rewrite <- app_assoc. auto.
Qed.

Lemma needed_fold_In l : forall acc y, In y (fold_left (fun acc x => oset_update acc (n_ids x)) l acc)
  <-> In y acc \/ exists x, In x l /\ In y (n_ids x).
Proof.
  induction l as [|x l IH]; simpl; intros acc y.
  - split; auto. intros [H|[x [[] _]]]; auto.
  - rewrite IH, oset_update_In. split.
    + intros [[H|H]|[z [I H]]]; eauto.
    + intros [H|[z [[->|I] H]]]; eauto.
Qed.
Lemma needed_fold_nodup l : forall acc, NoDup acc -> NoDup (fold_left (fun acc x => oset_update acc (n_ids x)) l acc).
Proof. induction l as [|x l IH]; simpl; auto. intros acc N. apply IH. apply oset_update_nodup. auto. Qed.

Theorem C31_needed : forall l, NoDup (needed_ids l)
  /\ forall p, In p (needed_ids l) <-> exists x, In x l /\ In p (n_ids x).
Proof.
  intros l. split; [apply needed_fold_nodup; constructor|]. intros p. unfold needed_ids, sort_needed. rewrite needed_fold_In. split.
  - intros [[]|[x [I H]]]. apply sort_In in I as [I|[]]. eauto.
  - intros [x [I H]]. right. exists x. split; auto. apply sort_In. auto.
Qed.
Print Assumptions C31_needed.

(** Parametrizations needed by a fixture of wider scope come first, so that they vary
    slowest: [q] follows [p] if everything that needs [q] has a narrower scope than
    something that needs [p]. *)
Theorem C31_wide_scopes_first : forall l p q x, In x l -> In p (n_ids x) -> In q (needed_ids l) ->
  (forall y, In y l -> In q (n_ids y) -> n_scope y < n_scope x) ->
  exists l1 l2 l3, needed_ids l = l1 ++ p :: l2 ++ q :: l3.
Proof.
  intros l p q x Ix Ip Iq Hq.
  assert (Ix' : In x (sort_needed l)) by (apply sort_In; auto).
  assert (Hq' : forall y, In y (sort_needed l) -> In q (n_ids y) -> n_scope y < n_scope x).
  { intros y I. apply sort_In in I as [I|[]]. auto. }
  pose proof (sort_sorted l) as So. unfold needed_ids in *. apply in_split in Ix' as [a [b E]]. rewrite E in *.
  rewrite fold_left_app in *. cbn [fold_left] in *. set (s := fold_left _ a []) in *.
  assert (Ns : ~ In q (oset_update s (n_ids x))).
  { rewrite oset_update_In. unfold s. rewrite needed_fold_In. intros [[[]|[y [Iy Hy]]]|H].
    - pose proof (Hq' y ltac:(apply in_app_iff; auto) Hy).
      clear - So Iy H. induction a as [|z a IH]; [destruct Iy|]. simpl in So. inversion So; subst. destruct Iy as [->|Iy]; auto.
      rewrite Forall_forall in H3. specialize (H3 x ltac:(apply in_app_iff; right; left; auto)). lia.
    - pose proof (Hq' x ltac:(apply in_app_iff; right; left; auto) H). lia. }
  assert (Ip' : In p (oset_update s (n_ids x))) by (apply oset_update_In; auto).
  set (s' := oset_update s (n_ids x)) in *. clearbody s'. clear s.
  assert (Pre : forall m acc, exists t, fold_left (fun acc x => oset_update acc (n_ids x)) m acc = acc ++ t).
  { induction m as [|y m IH]; simpl; intros acc; [exists []; rewrite app_nil_r; auto|].
    destruct (IH (oset_update acc (n_ids y))) as [t ->]. destruct (oset_update_prefix (n_ids y) acc) as [t' ->].
    exists (t' ++ t). rewrite app_assoc. auto. }
  destruct (Pre b s') as [t Et]. rewrite Et in *. apply in_app_iff in Iq as [Iq|Iq]; [destruct (Ns Iq)|].
  apply in_split in Ip' as [a1 [a2 ->]]. apply in_split in Iq as [t1 [t2 ->]].
  exists a1, (a2 ++ t1), t2. rewrite <- !app_assoc. simpl. rewrite <- ?app_assoc. auto.
Qed.
Print Assumptions C31_wide_scopes_first.

(** ** the variations *)

Lemma bind_names_Some names indices : (forall name p, In (name, p) names -> d_get p indices <> None) ->
  forall acc, exists id, bind_names names indices acc = Some id
    /\ forall name, (exists p, In (name, p) names) \/ d_get name id = d_get name acc.
Proof.
  induction names as [|[name p] names IH]; simpl; intros H acc.
  - exists acc. split; auto.
  - destruct (d_get p indices) as [i|] eqn:E; [|destruct (H name p); auto].
    destruct (IH (fun n q I => H n q (or_intror I)) (d_set name i acc)) as [id [E1 E2]]. exists id. split; auto.
    intros m. destruct (E2 m) as [[q I]|E3]; [left; eauto|]. destruct (Nat.eq_dec m name) as [->|N]; [left; eauto|].
    right. rewrite E3. apply d_get_set_other. auto.
Qed.
Lemma bind_names_get names indices : forall acc id, d_ok names -> bind_names names indices acc = Some id ->
  forall name p, In (name, p) names -> d_get name id = d_get p indices.
Proof.
  assert (Out : forall names acc id m, bind_names names indices acc = Some id -> ~ In m (d_keys names) -> d_get m id = d_get m acc).
  { clear names. induction names as [|[a b] names IH]; simpl; intros acc id m H N; [congruence|].
    destruct (d_get b indices); [|discriminate]. rewrite (IH _ _ _ H) by (intros J; apply N; auto).
    apply d_get_set_other. intros ->. apply N. auto. }
  induction names as [|[a b] names IH]; simpl; intros acc id Ok H name p I; [destruct I|].
  unfold d_ok in Ok. simpl in Ok. apply NoDup_cons_iff in Ok as [Na Ok]. destruct (d_get b indices) as [i|] eqn:E; [|discriminate].
  destruct I as [I|I].
  - inversion I; subst. rewrite (Out _ _ _ _ H Na), d_get_set_same. auto.
  - eapply IH; eauto.
Qed.

Lemma all_some_map {A B} (f : A -> option B) l : (forall x, In x l -> f x <> None) ->
  exists r, all_some (map f l) = Some r /\ Forall2 (fun x y => f x = Some y) l r.
Proof.
  induction l as [|x l IH]; simpl; intros H; [exists []; split; [auto|constructor]|].
  destruct (f x) as [y|] eqn:E; [|destruct (H x); auto]. destruct IH as [r [E1 E2]]; [intros z I; apply H; auto|].
  rewrite E1. exists (y :: r). split; [auto|constructor; auto].
Qed.

Definition within (nvals : nat -> nat) (ids combination : list nat) : Prop := Forall2 (fun i p => i < nvals p) combination ids.

Lemma product_within nvals ids c : In c (product (map (fun p => seq 0 (nvals p)) ids)) <-> within nvals ids c.
Proof.
  rewrite product_In. unfold within. revert c. induction ids as [|p ids IH]; intros c; simpl.
  - split; intros H; inversion H; constructor.
  - split; intros H; inversion H; subst; constructor; try (apply IH; auto).
    + rewrite in_seq in *. lia.
    + rewrite in_seq in *. lia.
Qed.

Lemma all_some_cons {A} (l : list (option A)) r : all_some l = Some r -> map Some r = l.
Proof.
  revert r. induction l as [|[x|] l IH]; simpl; intros r H; try discriminate; [inversion H; auto|].
  destruct (all_some l) as [r'|]; [|discriminate]. inversion H; subst. simpl. f_equal. auto.
Qed.

Lemma point_combine {V} keys : forall c : list V, NoDup keys -> length keys = length c ->
  map (fun p => d_get p (d_update [] (combine keys c))) keys = map Some c.
Proof.
  intros c Nd L. assert (G : forall n, n <= length keys ->
    map (fun p => d_get p (d_update [] (combine keys c))) (skipn (length keys - n) keys) = map Some (skipn (length keys - n) c)).
  { induction n as [|n IH]; intros Hn.
    - rewrite Nat.sub_0_r, skipn_all, L, skipn_all. auto.
    - set (i := length keys - S n). assert (Ei : length keys - n = S i) by lia. rewrite Ei in IH.
      destruct (nth_error keys i) as [k|] eqn:Ek; [|apply nth_error_None in Ek; lia].
      destruct (nth_error c i) as [v|] eqn:Ev; [|apply nth_error_None in Ev; lia].
      assert (Sk : forall A (l : list A) j x, nth_error l j = Some x -> skipn j l = x :: skipn (S j) l).
      { clear. intros A l. induction l as [|a l IH]; intros [|j] x H; simpl in *; try discriminate; [congruence|]. apply IH. auto. }
      rewrite (Sk _ _ _ _ Ek), (Sk _ _ _ _ Ev). cbn [map]. f_equal; [|apply IH; lia].
      eapply combine_get; eauto. }
  specialize (G (length keys) (le_n _)). rewrite Nat.sub_diag in G. auto.
Qed.

Section Variations.
Variable nvals : nat -> nat.
Variable names : @dict nat.
Variable l : list needed.
Hypothesis names_ok : d_ok names.
Hypothesis bound : forall name p, In (name, p) names -> In p (needed_ids l).

Notation ids := (needed_ids l).

(** the values a variation gives to the needed parametrizations, in their order *)
Definition point (v : variation) : list (option nat) := map (fun p => d_get p (v_indices v)) ids.

Lemma point_build c : within nvals ids c -> exists v, build_variation names ids c = Some v
  /\ point v = map Some c /\ d_keys (v_indices v) = ids
  /\ forall name p, In (name, p) names -> d_get name (v_id v) = d_get p (v_indices v).
Proof.
  intros W. assert (L : length ids = length c) by (symmetry; eapply Forall2_length; eauto).
  destruct (C31_needed l) as [Nd _]. unfold build_variation. set (ind := d_update [] (combine ids c)).
  assert (K : d_keys ind = ids) by (unfold ind; rewrite combine_keys; auto).
  assert (H : forall name p, In (name, p) names -> d_get p ind <> None).
  { intros name p I. apply bound in I. rewrite <- K in I. apply d_get_In in I. auto. }
  destruct (bind_names_Some names ind H []) as [id [E _]]. rewrite E. exists (mkVar ind id). split; [auto|].
  split; [|split; [auto|]].
  - apply point_combine; auto.
  - simpl. eapply bind_names_get; eauto.
Qed.

Lemma variations_shape : exists vs, iter_variations nvals names l = Some vs
  /\ map point vs = map (map Some) (product (map (fun p => seq 0 (nvals p)) ids))
  /\ forall v, In v vs -> d_keys (v_indices v) = ids
       /\ forall name p, In (name, p) names -> d_get name (v_id v) = d_get p (v_indices v).
Proof.
  unfold iter_variations. case_eq (needed_ids l); [intros Ei|intros p0 ids0 Ei].
  - exists [mkVar [] []]. split; [auto|]. split; [unfold point; rewrite ?Ei; auto|].
    intros v [<-|[]]. split; [auto|]. intros name p I. apply bound in I. try rewrite Ei in I. destruct I.
  - rewrite <- Ei. assert (H : forall c, In c (product (map (fun p => seq 0 (nvals p)) ids)) -> build_variation names ids c <> None).
    { intros c I. apply product_within in I. destruct (point_build c I) as [v [E _]]. rewrite E. discriminate. }
    destruct (all_some_map _ _ H) as [vs [E F]]. exists vs. split; [exact E|]. split.
    + assert (W : forall c, In c (product (map (fun p => seq 0 (nvals p)) ids)) -> within nvals ids c) by (intros c; apply product_within).
      clear E H Ei. induction F as [|c v cs vs0 E F IH]; auto. simpl. f_equal.
      * destruct (point_build c (W c (or_introl eq_refl))) as [v' [E' [P _]]]. congruence.
      * apply IH. intros c' I. apply W. right; auto.
    + intros v I. assert (exists c, In c (product (map (fun p => seq 0 (nvals p)) ids)) /\ build_variation names ids c = Some v) as [c [Ic Ec]].
      { clear - F I. induction F; [destruct I|]. destruct I as [->|I]; [exists x; simpl; auto|].
        destruct (IHF I) as [c [A B]]. exists c. simpl. auto. }
      apply product_within in Ic. destruct (point_build c Ic) as [v' [E' [_ P]]]. rewrite E' in Ec. inversion Ec; subst. auto.
Qed.

(** C31: every way to choose one value of each needed parametrization is a variation,
    and there are no others; each occurs once, and they come in the lexicographic order
    of the value indices, parametrizations in the order of [needed_ids].  [ids] has
    every needed parametrization once (C31_needed). *)
Theorem C31_every_combination_once : exists vs, iter_variations nvals names l = Some vs
  /\ (forall g, (forall p, In p ids -> g p < nvals p) ->
        exists vs1 v vs2, vs = vs1 ++ v :: vs2
          /\ (forall p, d_get p (v_indices v) = if in_dec Nat.eq_dec p ids then Some (g p) else None)
          /\ forall w, In w (vs1 ++ vs2) -> exists p, In p ids /\ d_get p (v_indices w) <> Some (g p))
  /\ (forall v, In v vs ->
        (forall p, In p ids -> exists i, d_get p (v_indices v) = Some i /\ i < nvals p)
        /\ (forall p, ~ In p ids -> d_get p (v_indices v) = None)
        /\ forall name p, In (name, p) names -> d_get name (v_id v) = d_get p (v_indices v))
  /\ (forall vs1 v vs2 w vs3, vs = vs1 ++ v :: vs2 ++ w :: vs3 ->
        exists ids1 q ids2 i j, ids = ids1 ++ q :: ids2
          /\ (forall p, In p ids1 -> d_get p (v_indices v) = d_get p (v_indices w))
          /\ d_get q (v_indices v) = Some i /\ d_get q (v_indices w) = Some j /\ i < j)
  /\ length vs = fold_right (fun p n => nvals p * n) 1 ids.
Proof.
  destruct variations_shape as [vs [E [P K]]]. exists vs. split; [auto|].
  pose proof (product_sorted (map (fun p => seq 0 (nvals p)) ids)) as So.
  assert (So' : StronglySorted lex (product (map (fun p => seq 0 (nvals p)) ids))).
  { apply So. apply Forall_forall. intros x I. apply in_map_iff in I as [p [<- _]]. apply seq_sorted. }
  clear So. set (cs := product (map (fun p => seq 0 (nvals p)) ids)) in *.
  assert (Pt : forall v, In v vs -> exists c, In c cs /\ point v = map Some c).
  { intros v I. assert (J : In (point v) (map point vs)) by (apply in_map; auto). rewrite P in J.
    apply in_map_iff in J as [c [Ec Ic]]. eauto. }
  assert (Wc : forall c, In c cs -> within nvals ids c) by (intros c; apply product_within).
  assert (Get : forall v c, point v = map Some c -> within nvals ids c -> forall p, In p ids -> exists i, d_get p (v_indices v) = Some i /\ i < nvals p).
  { intros v c Pv W p. unfold point in Pv. revert c Pv W. unfold within. generalize ids as xs. intros xs. clear.
    induction xs as [|x xs IH]; intros c Pv W I; [destruct I|]. inversion W; subst. simpl in Pv. inversion Pv.
    destruct I as [->|I]; [eauto|]. eapply IH; eauto. }
  split; [|split; [|split]].
  - intros g Hg.
    assert (Ic : In (map g ids) cs).
    { unfold cs. apply product_within. unfold within. revert Hg. generalize ids as xs. clear.
      induction xs as [|x xs IH]; simpl; intros H; constructor; auto. }
    assert (Iv : In (map Some (map g ids)) (map point vs)) by (rewrite P; apply in_map; auto).
    apply in_map_iff in Iv as [v [Ev Iv]]. pose proof Iv as Iv0. apply in_split in Iv as [vs1 [vs2 Evs]].
    exists vs1, v, vs2. split; [auto|]. split.
    + intros p. destruct (in_dec Nat.eq_dec p ids) as [I|N].
      * unfold point in Ev. revert I Ev. generalize ids as xs. clear. induction xs as [|x xs IH]; simpl; intros I Ev; [destruct I|].
        inversion Ev. destruct I as [->|I]; auto.
      * destruct (K v Iv0) as [Kv _]. rewrite <- Kv in N. rewrite d_get_In in N.
        destruct (d_get p (v_indices v)); auto. exfalso. apply N. discriminate.
    + intros w Iw. assert (Ip : point w <> point v).
      { intros Eq. assert (Nd : NoDup (map point vs)).
        { rewrite P. apply Injective_map_NoDup.
          - intros a b H. revert b H. induction a as [|x a IH]; intros [|y b] H; simpl in H; try discriminate; auto.
            inversion H; subst. f_equal. auto.
          - clear - So'. induction So' as [|c cs0 S1 IH F]; constructor; auto. intros I. rewrite Forall_forall in F.
            exact (lex_irrefl _ (F _ I)). }
        rewrite Evs, map_app in Nd. simpl in Nd. apply NoDup_remove in Nd as [_ Nd]. apply Nd.
        rewrite <- map_app, <- Eq. apply in_map. auto. }
      assert (Iw' : In w vs) by (rewrite Evs; apply in_app_iff in Iw as [I|I]; apply in_app_iff; simpl; auto).
      rewrite Ev in Ip. unfold point in Ip. revert Ip. generalize ids as xs. clear.
      induction xs as [|x xs IH]; simpl; intros H; [congruence|].
      destruct (d_get x (v_indices w)) as [i|] eqn:Ex.
      * destruct (Nat.eq_dec i (g x)) as [->|N].
        { destruct IH as [p [I1 I2]]; [intros Q; apply H; congruence|]. exists p. auto. }
        { exists x. split; auto. rewrite Ex. congruence. }
      * exists x. split; auto. rewrite Ex. discriminate.
  - intros v Iv. destruct (Pt v Iv) as [c [Ic Pv]]. split; [eapply Get; eauto|]. destruct (K v Iv) as [Kv Kn]. split; [|auto].
    intros p N. rewrite <- Kv in N. rewrite d_get_In in N. destruct (d_get p (v_indices v)); auto. exfalso. apply N. discriminate.
  - intros vs1 v vs2 w vs3 Evs.
    assert (exists c d, point v = map Some c /\ point w = map Some d /\ lex c d) as [c [d [Pv [Pw Lx]]]].
    { rewrite Evs, map_app in P. cbn [map] in P. rewrite map_app in P. cbn [map] in P.
      symmetry in P. apply map_eq_app in P as [c1 [cr [Ec [_ P]]]]. apply map_eq_cons in P as [c [cr' [-> [Pc P]]]].
      apply map_eq_app in P as [c2 [cr2 [-> [_ P]]]]. apply map_eq_cons in P as [d [c3 [-> [Pd _]]]].
      exists c, d. split; [auto|]. split; [auto|]. rewrite Ec in So'. clear - So'.
      induction c1 as [|x c1 IH]; simpl in So'; inversion So'; subst; auto. rewrite Forall_forall in H2. apply H2.
      apply in_app_iff. simpl. auto. }
    unfold point in Pv, Pw. revert Pv Pw. clear - Lx. generalize ids as xs. induction Lx as [x y a b Lt|x a b Lx IH]; intros [|q xs] Pv Pw; try discriminate.
    + simpl in *. inversion Pv; inversion Pw. exists [], q, xs, x, y. simpl. do 2 (split; [intuition|]). auto.
    + simpl in *. inversion Pv; inversion Pw. destruct (IH xs) as [i1 [q' [i2 [i [j [-> [A B]]]]]]]; auto.
      exists (q :: i1), q', i2, i, j. split; [auto|]. split; [|auto]. intros p [<-|I]; [congruence|auto].
  - rewrite <- (map_length point), P, map_length. unfold cs. rewrite product_length. generalize ids as xs. clear.
    induction xs as [|x xs IH]; simpl; auto. rewrite IH, seq_length. auto.
Qed.

(** C31: one variation when nothing is parametrized, none when a needed parametrization
    has no values. *)
Theorem C31_nothing_parametrized : (forall x, In x l -> n_ids x = []) -> iter_variations nvals names l = Some [mkVar [] []].
Proof.
  intros H. unfold iter_variations. destruct (needed_ids l) as [|p ps] eqn:E; auto.
  destruct (C31_needed l) as [_ M]. assert (I : In p (needed_ids l)) by (rewrite E; left; auto).
  apply M in I as [x [Ix Ip]]. rewrite (H x Ix) in Ip. destruct Ip.
Qed.

Theorem C31_no_values : forall x p, In x l -> In p (n_ids x) -> nvals p = 0 -> iter_variations nvals names l = Some [].
Proof.
  intros x p Ix Ip E0. destruct C31_every_combination_once as [vs [E [_ [H _]]]]. rewrite E. f_equal.
  destruct vs as [|v vs]; auto. destruct (H v (or_introl eq_refl)) as [A _].
  destruct (A p) as [i [_ Li]]; [apply C31_needed; eauto|]. lia.
Qed.
End Variations.
Print Assumptions C31_every_combination_once.
Print Assumptions C31_nothing_parametrized.
Print Assumptions C31_no_values.

(** a test with an argument [4] of its own (2 values), using a session fixture that needs
    parametrizations 7 and 9, and a module fixture that needs 9 and 5 *)
Definition x_needed := [mkNeeded 0 [4]; mkNeeded 1 [9; 5]; mkNeeded 2 [7; 9]].
Definition x_nvals (p : nat) := match p with 4 => 2 | 9 => 3 | _ => 1 end.
Definition x_names : @dict nat := [(1, 4); (2, 9); (3, 9)].

Example ex_variations : option_map (map v_indices) (iter_variations x_nvals x_names x_needed)
  = Some [[(7, 0); (9, 0); (5, 0); (4, 0)]; [(7, 0); (9, 0); (5, 0); (4, 1)];
          [(7, 0); (9, 1); (5, 0); (4, 0)]; [(7, 0); (9, 1); (5, 0); (4, 1)];
          [(7, 0); (9, 2); (5, 0); (4, 0)]; [(7, 0); (9, 2); (5, 0); (4, 1)]].
Proof. reflexivity. Qed.
Example ex_bound : d_ok x_names /\ forall name p, In (name, p) x_names -> In p (needed_ids x_needed).
Proof.
  split; [unfold d_ok; simpl; repeat constructor; simpl; intuition discriminate|].
  intros name p [H|[H|[H|[]]]]; inversion H; subst; vm_compute; auto.
Qed.
Example ex_wide : In 7 (n_ids (mkNeeded 2 [7; 9])) /\ In 4 (needed_ids x_needed)
  /\ forall y, In y x_needed -> In 4 (n_ids y) -> n_scope y < 2.
Proof.
  split; [simpl; auto|]. split; [vm_compute; auto|].
  intros y [<-|[<-|[<-|[]]]]; simpl; intuition lia.
Qed.

(** ** iter_cartesian_dicts *)

(** The dictionaries are those with the given names and a value of each, and for lists of
    values without repetition each of them occurs once. *)
Theorem C31_cartesian_dicts : forall A (d : @dict (list A)), d_ok d ->
  (forall e, In e (iter_cartesian_dicts d) -> d_keys e = d_keys d
      /\ forall k vs, In (k, vs) d -> exists v, d_get k e = Some v /\ In v vs)
  /\ (forall g, (forall k vs, In (k, vs) d -> In (g k) vs) ->
      exists e, In e (iter_cartesian_dicts d) /\ forall k, In k (d_keys d) -> d_get k e = Some (g k))
  /\ ((forall k vs, In (k, vs) d -> NoDup vs) -> NoDup (iter_cartesian_dicts d))
  /\ length (iter_cartesian_dicts d) = fold_right (fun x n => length (snd x) * n) 1 d.
Proof.
  intros A d Ok. unfold iter_cartesian_dicts.
  assert (Len : forall c, In c (product (map snd d)) -> length (d_keys d) = length c).
  { intros c I. apply product_In in I. apply Forall2_length in I. unfold d_keys. rewrite I, !map_length. auto. }
  assert (Point : forall c : list A, length (d_keys d) = length c -> map (fun p => d_get p (d_update [] (combine (d_keys d) c))) (d_keys d) = map Some c).
  { intros c L. apply point_combine; auto. }
  split; [|split; [|split]].
  - intros e I. apply in_map_iff in I as [c [<- I]]. split; [apply combine_keys; auto|].
    intros k vs Ik. pose proof (Point c (Len c I)) as P. apply product_In in I.
    set (e := d_update [] (combine (d_keys d) c)) in *. clearbody e. clear Len Point Ok. unfold d_keys in P. revert c I P Ik.
    induction d as [|[j w] d IH]; simpl; intros c I P Ik; [destruct Ik|]. inversion I; subst. simpl in P. inversion P.
    destruct Ik as [Ik|Ik]; [inversion Ik; subst; eauto|]. eapply IH; eauto.
  - intros g Hg. exists (d_update [] (combine (d_keys d) (map g (d_keys d)))).
    assert (I : In (map g (d_keys d)) (product (map snd d))).
    { apply product_In. clear - Hg. induction d as [|[k vs] d IH]; simpl; constructor; [apply (Hg k); simpl; auto|].
      apply IH. intros j w J. apply (Hg j). right; auto. }
    split; [apply in_map_iff; eauto|]. pose proof (Point _ (Len _ I)) as P. intros k Ik.
    revert P Ik. generalize (d_update [] (combine (d_keys d) (map g (d_keys d)))) as e. generalize (d_keys d) as keys. clear.
    induction keys as [|x keys IH]; simpl; intros e P I; [destruct I|]. inversion P. destruct I as [<-|I]; auto.
  - intros Nv. assert (Np : NoDup (product (map snd d))).
    { assert (Nv' : forall k vs, In (k, vs) d -> NoDup vs) by auto. clear - Nv'.
      induction d as [|[k vs] d IH]; simpl; [constructor; [intros []|constructor]|].
      assert (Nd : NoDup (product (map snd d))) by (apply IH; intros j w J; apply (Nv' j); right; auto).
      specialize (Nv' k vs (or_introl eq_refl)). induction Nv' as [|x vs N Nv' IHv]; simpl; [constructor|].
      assert (G : forall a b : list (list A), NoDup a -> NoDup b -> (forall y, In y a -> ~ In y b) -> NoDup (a ++ b)).
      { clear. intros a b Na Nb H. induction Na as [|x a N Na IH]; simpl; auto. constructor.
        - rewrite in_app_iff. intros [I|I]; auto. apply (H x); simpl; auto.
        - apply IH. intros y I. apply H. right; auto. }
      apply G; auto.
      - apply Injective_map_NoDup; auto. intros a b H. congruence.
      - intros y I J. apply in_map_iff in I as [c [<- _]]. apply in_flat_map in J as [x' [Ix J]].
        apply in_map_iff in J as [c' [E _]]. inversion E; subst. auto. }
    assert (Inj : forall l : list (list A), (forall c, In c l -> In c (product (map snd d))) -> NoDup l ->
      NoDup (map (fun c => d_update [] (combine (d_keys d) c)) l)).
    { intros l Hl Nl. induction Nl as [|c l N Nl IH]; simpl; constructor.
      - intros I. apply in_map_iff in I as [c' [E I]]. apply N.
        pose proof (Point c (Len c (Hl c (or_introl eq_refl)))) as P1. pose proof (Point c' (Len c' (Hl c' (or_intror I)))) as P2.
        rewrite E, P1 in P2. assert (c = c'); [|subst; auto]. clear - P2. revert c' P2.
        induction c as [|x c IH]; intros [|y c'] H; simpl in H; try discriminate; auto. inversion H. f_equal; auto.
      - apply IH. intros c' I. apply Hl. right; auto. }
    apply Inj; auto.
  - rewrite map_length, product_length. clear. induction d as [|x d IH]; simpl; auto.
Qed.
Print Assumptions C31_cartesian_dicts.

Example ex_cartesian : iter_cartesian_dicts [(1, [10; 20]); (2, [5; 6])]
  = [[(1, 10); (2, 5)]; [(1, 10); (2, 6)]; [(1, 20); (2, 5)]; [(1, 20); (2, 6)]].
Proof. reflexivity. Qed.
