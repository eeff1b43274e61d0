(** Teardown of fixtures in whole sessions (Core.v): each fixture is torn down at most
    once, after it was activated, and the fixtures of a scope in reverse order. *)

From Coq Require Import List Bool Arith PeanoNat Lia Sorting.Sorted.
From Verif Require Import Events Core CoreBase Generic.
Import ListNotations.

(** ** Positions of activations and teardowns in a trace *)

Definition upat (t : list event) (i a : nat) (l : flevel) : Prop := nth_error t i = Some (EvFixUp a l).
Definition dnat (t : list event) (m a : nat) : Prop := nth_error t m = Some (EvFixDown a).

(** a fixture [a] activated before [b] in the same scope level is torn down after [b],
    unless a fixture of that level was torn down between the activations (the activation
    of [b] is then part of a teardown, or of a later scope) *)
Definition lifo (t : list event) : Prop := forall i j k a b l,
  upat t i a l -> upat t j b l -> dnat t k a -> i < j -> j < k ->
  (forall m c, i < m -> m < j -> dnat t m c -> ~ exists n, upat t n c l) ->
  exists m, j < m /\ m < k /\ dnat t m b.

Lemma nth_snoc {A} (t : list A) e i x : nth_error (t ++ [e]) i = Some x <-> nth_error t i = Some x \/ (i = length t /\ e = x).
Proof.
  split.
  - intros H. destruct (Nat.lt_ge_cases i (length t)) as [L|L].
    + rewrite nth_error_app1 in H; auto.
    + rewrite nth_error_app2 in H; auto. destruct (i - length t) as [|n] eqn:E; simpl in H.
      * right. split; [lia|congruence].
      * destruct n; discriminate.
  - intros [H|[-> ->]].
    + rewrite nth_error_app1; auto. apply nth_error_Some. congruence.
    + rewrite nth_error_app2, Nat.sub_diag; auto.
Qed.

Lemma upat_snoc t e i a l : upat (t ++ [e]) i a l <-> upat t i a l \/ (i = length t /\ e = EvFixUp a l).
Proof. apply nth_snoc. Qed.
Lemma dnat_snoc t e m a : dnat (t ++ [e]) m a <-> dnat t m a \/ (m = length t /\ e = EvFixDown a).
Proof. apply nth_snoc. Qed.
Lemma upat_lt t i a l : upat t i a l -> i < length t.
Proof. intros H. apply nth_error_Some. unfold upat in H. congruence. Qed.
Lemma dnat_lt t m a : dnat t m a -> m < length t.
Proof. intros H. apply nth_error_Some. unfold dnat in H. congruence. Qed.

(** ** The invariant *)

Definition ids (l : flevel) (s : state) : list nat := map fst (fix_get l s).

Record F (s : state) : Prop := mkF {
  f_ord : forall i j a b l l', upat (st_trace s) i a l -> upat (st_trace s) j b l' -> i < j -> a < b;
  f_lt : forall i a l, upat (st_trace s) i a l -> a < st_nfix s;
  f_act : forall l a, In a (ids l s) <-> (exists i, upat (st_trace s) i a l) /\ forall m, ~ dnat (st_trace s) m a;
  f_sorted : forall l, StronglySorted lt (ids l s);
  f_dn : forall m a, dnat (st_trace s) m a -> exists i l, i < m /\ upat (st_trace s) i a l;
  f_once : forall m m' a, dnat (st_trace s) m a -> dnat (st_trace s) m' a -> m = m';
  f_lifo : lifo (st_trace s) }.

Lemma F_unique s : F s -> forall i j a l l', upat (st_trace s) i a l -> upat (st_trace s) j a l' -> i = j /\ l = l'.
Proof.
  intros H i j a l l' A B. assert (i = j).
  { destruct (Nat.lt_trichotomy i j) as [L|[L|L]]; auto; exfalso.
    - apply (Nat.lt_irrefl a), (f_ord _ H _ _ _ _ _ _ A B L).
    - apply (Nat.lt_irrefl a), (f_ord _ H _ _ _ _ _ _ B A L). }
  subst. unfold upat in *. split; auto. congruence.
Qed.

(** ** The dictionary of active fixtures *)

Lemma flevel_eqb_eq a b : flevel_eqb a b = true <-> a = b.
Proof. destruct a, b; split; intros H; try reflexivity; discriminate. Qed.

Lemma fix_get_update l l' g s : fix_get l' (set_fix (fix_update l g (st_fix s)) s) =
  if flevel_eqb l' l then g (fix_get l s) else fix_get l' s.
Proof.
  unfold fix_get. cbn [set_fix st_fix]. generalize (st_fix s) as d. induction d as [|[m v] d IH]; cbn [fix_update find fst snd].
  - destruct (flevel_eqb l' l); reflexivity.
  - destruct (flevel_eqb l m) eqn:E; cbn [find fst snd].
    + apply flevel_eqb_eq in E. subst m. destruct (flevel_eqb l' l); auto.
    + destruct (flevel_eqb l' m) eqn:E2; cbn [snd].
      * destruct (flevel_eqb l' l) eqn:E3; auto. apply flevel_eqb_eq in E2, E3. subst.
        rewrite (proj2 (flevel_eqb_eq m m) eq_refl) in E || rewrite (proj2 (flevel_eqb_eq l l) eq_refl) in E. discriminate.
      * exact IH.
Qed.

(** ** Invariants about fixtures only *)

Definition fixless (e : event) : bool := match e with EvFixUp _ _ | EvFixDown _ => false | _ => true end.

Definition local (J : state -> Prop) : Prop :=
  (forall s s', st_fix s' = st_fix s -> st_nfix s' = st_nfix s -> st_trace s' = st_trace s -> J s -> J s')
  /\ (forall e s, fixless e = true -> J s -> J (emit e s)).

Section L.
Variable E : env.
Variable J : state -> Prop.
Hypothesis Loc : local J.
Hypothesis Up : forall l fin, pres J (activate_fixture l fin).

Lemma loc_alike s s' : alike s s' -> J s -> J s'.
Proof. intros H. apply (proj1 Loc); [apply (a_fix _ _ H)|apply (a_nfix _ _ H)|apply (a_trace _ _ H)]. Qed.

Lemma loc_other e s : other e = true -> J s -> J (emit e s).
Proof. intros H. apply (proj2 Loc). destruct e; auto. Qed.

Lemma loc_add sc crit succ body : pres J (tap_add sc (add_cleanup sc crit succ body)).
Proof.
  apply pres_tap_add; [intros; apply (proj2 Loc); auto|]. intros s H. unfold add_cleanup.
  assert (A : forall c req tgt s, J s -> J (attach c req tgt s)).
  { intros c req tgt s0 H0. unfold attach.
    assert (H1 : J (emit (EvAdd (c_id c) req tgt (c_crit c) (c_succ c) (c_result c)) s0)) by (apply (proj2 Loc); auto).
    destruct tgt; (eapply (proj1 Loc); [| | |exact H1]; reflexivity). }
  assert (R : forall k f s, J s -> J (fst (raise_new k f s))).
  { intros k f s0 H0. eapply (proj1 Loc); [| | |exact H0]; reflexivity. }
  set (s1 := on_cm _ s). assert (H1 : J s1) by (eapply (proj1 Loc); [| | |exact H]; reflexivity).
  destruct (succ && crit); [apply R; auto|].
  destruct (match sc with SDefault => _ | SGiven n => n end).
  - destruct (name_lookup _ _) as [[|sid l]|]; try (apply R; auto). cbn [fst]. apply A; auto.
  - destruct (negb _); [apply R; auto|]. cbn [fst]. apply A; auto.
Qed.

Lemma loc_exec p : pres J (exec E p).
Proof. apply (gen_exec E J loc_alike loc_other loc_add Up). Qed.

Lemma loc_handle x s : J s -> J (handle_exception E x s).
Proof. apply (gen_handle E J loc_alike loc_other). Qed.

Lemma loc_push n : pres J (cm_push n).
Proof. intros s H. apply (proj2 Loc); [reflexivity|]. eapply (proj1 Loc); [| | |exact H]; reflexivity. Qed.

Lemma loc_pop n : pres J (cm_pop E n).
Proof.
  intros s H. unfold cm_pop.
  assert (R : forall k f s, J s -> J (fst (raise_new k f s))).
  { intros k f s0 H0. eapply (proj1 Loc); [| | |exact H0]; reflexivity. }
  destruct (cm_stack (st_cm s)) as [|sc l]; [apply R; auto|].
  destruct (negb _); [apply R; auto|].
  set (s1 := emit _ s). assert (H1 : J s1) by (apply (proj2 Loc); auto).
  assert (H2 : J (fst (call_cleanups E (sc_id sc) (sc_name sc) (negb (current_success s)) (current_interrupted s) s1))).
  { apply (gen_call_cleanups E J loc_alike loc_other); auto.
    - intros c s' H'. apply (proj2 Loc); auto.
    - apply loc_add.
    - intros sid s' H'. eapply (proj1 Loc); [| | |exact H']; reflexivity. }
  destruct (call_cleanups E _ _ _ _ s1) as [s2 o]. cbn [fst] in H2.
  assert (K : forall e, fixless e = true -> J (emit e (on_cm (fun m => with_names (name_update n (@tl _) (cm_names m)) (with_stack (tl (cm_stack m)) m)) s2))).
  { intros e Q. apply (proj2 Loc); auto. eapply (proj1 Loc); [| | |exact H2]; reflexivity. }
  destruct o; cbn [fst]; auto.
Qed.
End L.

(** ** [F] *)

Lemma snoc_up t e : fixless e = true -> forall i a l, upat (t ++ [e]) i a l <-> upat t i a l.
Proof. intros H i a l. rewrite upat_snoc. split; [intros [?|[_ ->]]; [auto|discriminate]|auto]. Qed.
Lemma snoc_dn t e : fixless e = true -> forall i a, dnat (t ++ [e]) i a <-> dnat t i a.
Proof. intros H i a. rewrite dnat_snoc. split; [intros [?|[_ ->]]; [auto|discriminate]|auto]. Qed.

Lemma F_local : local F.
Proof.
  split.
  - intros s s' A B C []. constructor; unfold ids, fix_get in *; rewrite ?A, ?B, ?C; auto.
  - intros e s He H. pose proof (snoc_up (st_trace s) e He) as U. pose proof (snoc_dn (st_trace s) e He) as D.
    destruct H. constructor; cbn [emit st_trace st_nfix]; change (ids ?l (emit e s)) with (ids l s) || idtac.
    + intros i j a b l l'. rewrite !U. eauto.
    + intros i a l. rewrite U. eauto.
    + intros l a. change (ids l (emit e s)) with (ids l s). rewrite f_act0. split; intros [[i Q] N]; (split; [exists i; apply U; auto|]).
      * intros m Q2. apply D in Q2. destruct (N m); auto.
      * intros m Q2. destruct (N m). apply D; auto.
    + intros l. apply f_sorted0.
    + intros m a Q. apply D in Q. destruct (f_dn0 m a Q) as (i & l & L & Q2). exists i, l. split; auto. apply U; auto.
    + intros m m' a. rewrite !D. eauto.
    + intros i j k a b l Q1 Q2 Q3 L1 L2 N. apply U in Q1, Q2. apply D in Q3.
      destruct (f_lifo0 i j k a b l Q1 Q2 Q3 L1 L2) as (m & L3 & L4 & Q4).
      * intros m c L3 L4 Q4 [n Q5]. apply (N m c L3 L4); [apply D; auto|]. exists n. apply U; auto.
      * exists m. rewrite D. auto.
Qed.

(** activation *)
Section Up.
Variables (s : state) (l : flevel) (fin : prog).
Let s' := fst (activate_fixture l fin s).
Let t := st_trace s.

Lemma up_trace : st_trace s' = t ++ [EvFixUp (st_nfix s) l].
Proof. reflexivity. Qed.
Lemma up_up i a k : upat (st_trace s') i a k <-> upat t i a k \/ (i = length t /\ a = st_nfix s /\ k = l).
Proof. rewrite up_trace, upat_snoc. split; intros [H|H]; auto; right; destruct H as [H1 H2]; split; auto; [inversion H2; auto|destruct H2; subst; auto]. Qed.
Lemma up_dn m a : dnat (st_trace s') m a <-> dnat t m a.
Proof. rewrite up_trace, dnat_snoc. split; [intros [H|[_ H]]; [auto|discriminate]|auto]. Qed.
Lemma up_ids k : ids k s' = if flevel_eqb k l then ids l s ++ [st_nfix s] else ids k s.
Proof.
  unfold ids, s', activate_fixture. cbn [fst]. change (fix_get k (emit ?e ?x)) with (fix_get k x).
  change (fix_get k (set_nfix ?n ?x)) with (fix_get k x). rewrite fix_get_update.
  destruct (flevel_eqb k l); auto. rewrite map_app. reflexivity.
Qed.
End Up.

Lemma sorted_snoc l n : StronglySorted lt l -> (forall x, In x l -> x < n) -> StronglySorted lt (l ++ [n]).
Proof.
  induction 1 as [|x l H IH Fx]; simpl; intros L; [repeat constructor|].
  constructor; [apply IH; auto|]. rewrite Forall_forall in *. intros y I. apply in_app_iff in I as [I|[<-|[]]]; auto.
Qed.

Lemma F_up l fin : pres F (activate_fixture l fin).
Proof.
  intros s H. pose proof (up_up s l fin) as U. pose proof (up_dn s l fin) as D. pose proof (up_ids s l fin) as X.
  assert (NF : st_nfix (fst (activate_fixture l fin s)) = S (st_nfix s)) by reflexivity.
  set (s' := fst (activate_fixture l fin s)) in *. clearbody s'.
  assert (Lt : forall k x, In x (ids k s) -> x < st_nfix s).
  { intros k x I. apply (f_act _ H) in I as [[i Q] _]. eapply f_lt; eauto. }
  destruct H. constructor.
  - intros i j a b k k' Q1 Q2 L. apply U in Q1, Q2.
    destruct Q1 as [Q1|(E1 & E2 & _)], Q2 as [Q2|(E3 & E4 & _)]; subst.
    + exact (f_ord0 _ _ _ _ _ _ Q1 Q2 L).
    + exact (f_lt0 _ _ _ Q1).
    + exfalso. apply upat_lt in Q2. lia.
    + exfalso. lia.
  - intros i a k Q. rewrite NF. apply U in Q as [Q|(_ & -> & _)]; [|lia]. apply f_lt0 in Q. lia.
  - intros k a. rewrite X. destruct (flevel_eqb k l) eqn:Ek.
    + apply flevel_eqb_eq in Ek. subst k. rewrite in_app_iff, f_act0. split.
      * intros [[[i Q] N]|[<-|[]]].
        { split; [exists i; apply U; auto|]. intros m Q2. apply D in Q2. destruct (N m); auto. }
        { split; [exists (length (st_trace s)); apply U; auto|]. intros m Q2. apply D in Q2.
          apply f_dn0 in Q2 as (i & k & _ & Q2). apply f_lt0 in Q2. lia. }
      * intros [[i Q] N]. apply U in Q as [Q|(_ & -> & _)]; [|right; left; auto].
        left. split; [eauto|]. intros m Q2. apply (N m), D; auto.
    + rewrite f_act0. split; intros [[i Q] N].
      * split; [exists i; apply U; auto|]. intros m Q2. apply D in Q2. destruct (N m); auto.
      * apply U in Q as [Q|(_ & _ & ->)]; [|rewrite (proj2 (flevel_eqb_eq l l) eq_refl) in Ek; discriminate].
        split; [eauto|]. intros m Q2. apply (N m), D; auto.
  - intros k. rewrite X. destruct (flevel_eqb k l); auto. apply sorted_snoc; eauto.
  - intros m a Q. apply D in Q. destruct (f_dn0 m a Q) as (i & k & L & Q2). exists i, k. split; auto. apply U; auto.
  - intros m m' a. rewrite !D. eauto.
  - intros i j k a b lv Q1 Q2 Q3 L1 L2 N. apply D in Q3. apply dnat_lt in Q3 as L3.
    apply U in Q1 as [Q1|(-> & _)]; [|lia]. apply U in Q2 as [Q2|(-> & _)]; [|lia].
    destruct (f_lifo0 i j k a b lv Q1 Q2 Q3 L1 L2) as (m & L4 & L5 & Q4).
    + intros m c L4 L5 Q4 [n Q5]. apply (N m c L4 L5); [apply D; auto|]. exists n. apply U; auto.
    + exists m. rewrite D. auto.
Qed.

(** ** Tearing a level down *)

(** the fixtures [P] remain to be torn down; newer ones were activated after a fixture of
    the level was torn down *)
Definition K (l : flevel) (P : list nat) (s : state) : Prop :=
  F s /\ (forall a, In a P -> In a (ids l s)) /\
  forall a b, In a P -> In b (ids l s) -> a < b -> In b P \/
    forall i j, upat (st_trace s) i a l -> upat (st_trace s) j b l ->
      exists m c n, i < m /\ m < j /\ dnat (st_trace s) m c /\ upat (st_trace s) n c l.

(** and a fixture of the level was torn down since *)
Definition KD (l : flevel) (P : list nat) (s : state) : Prop :=
  K l P s /\ forall a i, In a P -> upat (st_trace s) i a l ->
    exists m c n, i < m /\ dnat (st_trace s) m c /\ upat (st_trace s) n c l.

Lemma KD_local l P : local (KD l P).
Proof.
  split.
  - intros s s' A B C [(H & I & N) D]. unfold KD, K, ids, fix_get in *. rewrite ?A, ?C. split; [split; [|split]|]; auto.
    apply (proj1 F_local s); auto.
  - intros e s He [(H & I & N) D]. pose proof (snoc_up (st_trace s) e He) as U. pose proof (snoc_dn (st_trace s) e He) as Dn.
    split; [split; [|split]|]; auto.
    + apply (proj2 F_local); auto.
    + intros a b A B L. destruct (N a b A B L) as [Q|Q]; auto. right. cbn [emit st_trace]. intros i j Q1 Q2.
      apply U in Q1, Q2. destruct (Q i j Q1 Q2) as (m & c & n & L1 & L2 & Q3 & Q4). exists m, c, n. rewrite Dn, U. auto.
    + cbn [emit st_trace]. intros a i A Q. apply U in Q. destruct (D a i A Q) as (m & c & n & L1 & Q3 & Q4). exists m, c, n.
      rewrite Dn, U. auto.
Qed.

Lemma KD_up l P k fin : pres (KD l P) (activate_fixture k fin).
Proof.
  intros s [(H & I & N) Dw]. pose proof (F_up k fin s H) as H'.
  pose proof (up_up s k fin) as U. pose proof (up_dn s k fin) as D. pose proof (up_ids s k fin) as X.
  set (s' := fst (activate_fixture k fin s)) in *. clearbody s'.
  assert (Inc : forall x, In x (ids l s') -> In x (ids l s) \/ (x = st_nfix s /\ l = k)).
  { intros x. rewrite X. destruct (flevel_eqb l k) eqn:E; auto. apply flevel_eqb_eq in E. subst.
    rewrite in_app_iff. intros [?|[<-|[]]]; auto. }
  assert (Keep : forall x, In x (ids l s) -> In x (ids l s')).
  { intros x Q. rewrite X. destruct (flevel_eqb l k) eqn:E; auto. apply flevel_eqb_eq in E. subst. apply in_app_iff; auto. }
  assert (UpP : forall a i, In a P -> upat (st_trace s') i a l -> upat (st_trace s) i a l).
  { intros a i A Q. apply U in Q as [Q|(_ & -> & _)]; auto. apply I, (f_act _ H) in A as [[j Q2] _].
    apply (f_lt _ H) in Q2. lia. }
  split; [split; [|split]|]; auto.
  - intros a b A B L. apply Inc in B as [B|[-> ->]].
    + destruct (N a b A B L) as [Q|Q]; auto. right. intros i j Q1 Q2. apply UpP in Q1; auto.
      assert (Q2' : upat (st_trace s) j b l).
      { apply U in Q2 as [Q2|(_ & -> & _)]; auto. apply (f_act _ H) in B as [[j' Q3] _]. apply (f_lt _ H) in Q3. lia. }
      destruct (Q i j Q1 Q2') as (m & c & n & L1 & L2 & Q3 & Q4). exists m, c, n. rewrite D, U. auto.
    + right. intros i j Q1 Q2. apply UpP in Q1; auto. apply U in Q2 as [Q2|(-> & _ & _)]; [apply (f_lt _ H) in Q2; lia|].
      destruct (Dw a i A Q1) as (m & c & n & L1 & Q3 & Q4). exists m, c, n. rewrite D, U. apply dnat_lt in Q3 as L2. auto.
  - intros a i A Q. apply UpP in Q; auto. destruct (Dw a i A Q) as (m & c & n & L1 & Q3 & Q4). exists m, c, n. rewrite D, U. auto.
Qed.

(** one fixture goes down *)
Section Down.
Variables (s : state) (l : flevel) (f : nat).
Let s' := down l f s.
Let t := st_trace s.
Lemma down_up i a k : upat (st_trace s') i a k <-> upat t i a k.
Proof. change (st_trace s') with (t ++ [EvFixDown f]). rewrite upat_snoc. split; [intros [H|[_ H]]; [auto|discriminate]|auto]. Qed.
Lemma down_dn m a : dnat (st_trace s') m a <-> dnat t m a \/ (m = length t /\ a = f).
Proof. change (st_trace s') with (t ++ [EvFixDown f]). rewrite dnat_snoc. split; intros [H|[H1 H2]]; auto; right; split; auto; congruence. Qed.
Lemma down_ids k : ids k s' = if flevel_eqb k l then filter (fun x => negb (Nat.eqb f x)) (ids l s) else ids k s.
Proof.
  unfold ids, s', down. change (fix_get k (emit ?e ?x)) with (fix_get k x). rewrite fix_get_update.
  destruct (flevel_eqb k l); auto. induction (fix_get l s) as [|[x p] d IH]; auto. cbn [filter map fst].
  destruct (Nat.eqb f x); cbn [negb map fst]; rewrite IH; auto.
Qed.
End Down.

Lemma sorted_last P a b : StronglySorted lt (P ++ [a]) -> In b (P ++ [a]) -> b <= a.
Proof.
  induction P as [|x P IH]; simpl; intros H I.
  - destruct I as [<-|[]]; auto.
  - inversion H; subst. destruct I as [<-|I]; auto. rewrite Forall_forall in H3. assert (x < a) by (apply H3, in_app_iff; simpl; auto). lia.
Qed.

Lemma sorted_prefix P a : StronglySorted lt (P ++ [a]) -> StronglySorted lt P.
Proof.
  induction P as [|x P IH]; simpl; intros H; [constructor|]. inversion H; subst. constructor; auto.
  rewrite Forall_forall in *. intros y I. apply H3, in_app_iff; auto.
Qed.

Lemma sorted_filter g l : StronglySorted lt l -> StronglySorted lt (filter g l).
Proof.
  induction 1 as [|x l H IH Fx]; simpl; [constructor|]. destruct (g x); auto. constructor; auto.
  rewrite Forall_forall in *. intros y I. apply filter_In in I as [I _]. auto.
Qed.

Lemma K_down l P a s : StronglySorted lt (P ++ [a]) -> K l (P ++ [a]) s -> KD l P (down l a s).
Proof.
  intros So (H & I & N). pose proof (down_up s l a) as U. pose proof (down_dn s l a) as D. pose proof (down_ids s l a) as X.
  assert (NF : st_nfix (down l a s) = st_nfix s) by reflexivity.
  set (s' := down l a s) in *. clearbody s'. pose proof (F_unique _ H) as Un.
  assert (Act : In a (ids l s)) by (apply I, in_app_iff; simpl; auto).
  destruct (proj1 (f_act _ H l a) Act) as [[ia Ua] Na].
  assert (Ne : forall b, In b P -> b <> a).
  { intros b Ib ->. clear - So Ib. induction P as [|x P IH]; [destruct Ib|]. simpl in So. inversion So; subst.
    destruct Ib as [->|Ib]; [|auto]. rewrite Forall_forall in H2. assert (a < a) by (apply H2, in_app_iff; simpl; auto). lia. }
  assert (F' : F s').
  { destruct H as [A1 A2 A3 A4 A5 A6 A7]. constructor.
    - intros i j x y k k'. rewrite !U. eauto.
    - intros i x k. rewrite U, NF. eauto.
    - intros k x. rewrite X. destruct (flevel_eqb k l) eqn:Ek.
      + apply flevel_eqb_eq in Ek. subst k. rewrite filter_In, A3, negb_true_iff, Nat.eqb_neq. split.
        * intros [[[i Q] Nd] Nx]. split; [exists i; apply U; auto|]. intros m Q2. apply D in Q2 as [Q2|[_ ->]]; [destruct (Nd m); auto|auto].
        * intros [[i Q] Nd]. apply U in Q. split; [split; [eauto|]|].
          { intros m Q2. apply (Nd m), D; auto. }
          { intros ->. apply (Nd (length (st_trace s))), D; auto. }
      + rewrite A3. split; intros [[i Q] Nd].
        * split; [exists i; apply U; auto|]. intros m Q2. apply D in Q2 as [Q2|[_ ->]]; [destruct (Nd m); auto|].
          destruct (Un _ _ _ _ _ Q Ua) as [_ ->]. rewrite (proj2 (flevel_eqb_eq l l) eq_refl) in Ek. discriminate.
        * apply U in Q. split; [eauto|]. intros m Q2. apply (Nd m), D; auto.
    - intros k. rewrite X. destruct (flevel_eqb k l); auto. apply sorted_filter; auto.
    - intros m x Q. apply D in Q as [Q|[-> ->]].
      + destruct (A5 m x Q) as (i & k & L & Q2). exists i, k. split; auto. apply U; auto.
      + exists ia, l. split; [eapply upat_lt; eauto|apply U; auto].
    - intros m m' x Q1 Q2. apply D in Q1, Q2. destruct Q1 as [Q1|[-> ->]], Q2 as [Q2|[-> Q2]]; subst; eauto; exfalso; eapply Na; eauto.
    - intros i j k x y lv Q1 Q2 Q3 L1 L2 Nm. apply U in Q1, Q2. apply D in Q3 as [Q3|[-> ->]].
      + destruct (A7 i j k x y lv Q1 Q2 Q3 L1 L2) as (m & L3 & L4 & Q4).
        * intros m c L3 L4 Q4 [n Q5]. apply (Nm m c L3 L4); [apply D; auto|]. exists n. apply U; auto.
        * exists m. rewrite D. auto.
      + destruct (Un _ _ _ _ _ Q1 Ua) as [-> ->].
        assert (Lab : a < y) by (eapply A1; eauto).
        assert (Dec : (exists m, dnat (st_trace s) m y) \/ forall m, ~ dnat (st_trace s) m y).
        { clear. unfold dnat. generalize (st_trace s) as tr. induction tr as [|e tr IH].
          - right. intros [|m]; discriminate.
          - destruct IH as [[m IH]|IH]; [left; exists (S m); auto|].
            assert (Q : e = EvFixDown y \/ e <> EvFixDown y).
            { destruct e; try (right; discriminate). destruct (Nat.eq_dec fid y); [left; congruence|right; congruence]. }
            destruct Q as [->|Q]; [left; exists 0; auto|]. right. intros [|m]; simpl; [congruence|apply IH]. }
        destruct Dec as [[m Q3]|Nd].
        { destruct (A5 m y Q3) as (j' & lv' & L3 & Q4). destruct (Un _ _ _ _ _ Q4 Q2) as [-> _]. exists m.
          split; auto. split; [eapply dnat_lt; eauto|apply D; auto]. }
        exfalso. assert (Ay : In y (ids l s)) by (apply A3; eauto).
        destruct (N a y) as [Q|Q]; auto; [apply in_app_iff; simpl; auto| |].
        { apply (sorted_last P a y So) in Q. lia. }
        { destruct (Q ia j Ua Q2) as (m & c & n & L3 & L4 & Q4 & Q5). apply (Nm m c L3 L4); [apply D; auto|]. exists n. apply U; auto. } }
  split; [split; [|split]|]; auto.
  - intros b Ib. rewrite X, (proj2 (flevel_eqb_eq l l) eq_refl), filter_In. split; [apply I, in_app_iff; auto|].
    apply negb_true_iff, Nat.eqb_neq. intros ->. destruct (Ne b); auto.
  - intros b c Ib Ic L. rewrite X, (proj2 (flevel_eqb_eq l l) eq_refl), filter_In, negb_true_iff, Nat.eqb_neq in Ic.
    destruct Ic as [Ic Nc]. destruct (N b c) as [Q|Q]; auto; [apply in_app_iff; auto| |].
    + apply in_app_iff in Q as [Q|[Q|[]]]; [auto|congruence].
    + right. intros i j Q1 Q2. apply U in Q1, Q2. destruct (Q i j Q1 Q2) as (m & d & n & L1 & L2 & Q3 & Q4). exists m, d, n.
      rewrite D, U. auto.
  - intros b i Ib Q. apply U in Q. exists (length (st_trace s)), a, ia. rewrite D, U. apply upat_lt in Q. auto.
Qed.

Section P.
Variable E : env.

Lemma lookup_ids l a s : In a (ids l s) -> exists fin, lookup a (fix_get l s) = Some fin.
Proof.
  unfold ids. induction (fix_get l s) as [|[x p] d IH]; simpl; [tauto|]. intros H. destruct (Nat.eqb a x) eqn:Q; [eauto|].
  destruct H as [->|H]; [rewrite Nat.eqb_refl in Q; discriminate|auto].
Qed.

Lemma handling_post (J : state -> Prop) h m s : (forall x s, J s -> J (handle_exception E x s)) ->
  J (fst (m s)) -> J (fst (handling E h m s)).
Proof.
  intros Hx H. unfold handling. destruct (m s) as [s1 [| x |]]; cbn [fst] in *; auto.
  destruct (isinstance_any (x_kind x) (h_pass h)); cbn [fst]; auto. cbv zeta.
  destruct (_ || _); cbn [fst]; auto.
  destruct (isinstance_any _ _); cbn [fst]; auto.
Qed.

Lemma all_down l Q : forall P s, P = rev Q -> StronglySorted lt P -> K l P s -> F (fst (deactivate_all E l Q s)).
Proof.
  induction Q as [|a Q IH]; intros P s EP So H; cbn [deactivate_all]; [apply H|].
  simpl in EP. subst P.
  assert (D : KD l (rev Q) (fst (handling E h_swallowing (deactivate_fixture E l a) s))).
  { apply (handling_post (KD l (rev Q))).
    - intros x s0. apply loc_handle, KD_local.
    - unfold deactivate_fixture. destruct (lookup_ids l a s) as [fin ->]; [apply H, in_app_iff; simpl; auto|].
      pose proof (K_down l (rev Q) a s So H) as H1.
      change ((upd (fun s0 => emit (EvFixDown a) (set_fix (fix_update l (filter (fun p => negb (Nat.eqb a (fst p)))) (st_fix s0)) s0)) ;; exec E fin) s)
        with (exec E fin (down l a s)).
      apply (loc_exec E (KD l (rev Q)) (KD_local l (rev Q)) (KD_up l (rev Q))); auto. }
  unfold seq. destruct (handling E h_swallowing (deactivate_fixture E l a) s) as [s1 [| x |]]; cbn [fst] in D;
    [|apply D|apply D].
  eapply IH; [reflexivity|eapply sorted_prefix; eauto|apply D].
Qed.

Lemma F_fix_pop n : pres F (fix_pop E n).
Proof.
  assert (L : forall sl l, pres F (fix_pop_level E sl l)).
  { intros sl l s H. unfold fix_pop_level. destruct (Nat.leb _ _); auto. unfold seq.
    pose proof (all_down l (rev (ids l s)) (ids l s) s) as Q.
    assert (H1 : F (fst (deactivate_all E l (rev (map fst (fix_get l s))) s))).
    { apply Q; [symmetry; apply rev_involutive|apply (f_sorted _ H)|].
      split; auto. }
    destruct (deactivate_all E l _ s) as [s1 [| x |]]; cbn [fst] in *; auto.
    destruct (nonempty _); cbn [fst]; auto. eapply (proj1 F_local); [| | |exact H1]; reflexivity. }
  intros s H. unfold fix_pop. destruct (current_interrupted s); auto.
  generalize (map fst (st_fix s)) as ls. intros ls. revert s H. induction ls; simpl; [apply pres_ret|apply pres_seq; auto].
Qed.

Lemma F_state0 : F state0.
Proof.
  constructor; simpl; try (intros; exfalso; eapply nil_pos; eauto; fail).
  - intros [|i]; discriminate.
  - intros [|i]; discriminate.
  - intros l a. split; [intros []|]. intros [[[|i] Q] _]; discriminate.
  - intros l. constructor.
  - intros [|i]; discriminate.
  - intros [|i]; discriminate.
  - intros [|i]; discriminate.
Qed.

Lemma F_session ts : F (fst (run_session E ts)).
Proof.
  apply (gen_session E F).
  - apply (loc_alike F F_local).
  - apply (loc_other F F_local).
  - apply (loc_add F F_local).
  - apply F_up.
  - apply (loc_push F F_local).
  - apply (loc_pop E F F_local F_up).
  - apply F_fix_pop.
  - intros n ok s. apply (proj2 F_local). reflexivity.
  - apply F_state0.
Qed.

(** ** C29 in whole sessions *)

(** A fixture is torn down at most once, after its activation. *)
Theorem C29_session_once ts : let t := st_trace (fst (run_session E ts)) in
  forall m a, nth_error t m = Some (EvFixDown a) ->
    (exists i l, i < m /\ nth_error t i = Some (EvFixUp a l)) /\
    (forall m', nth_error t m' = Some (EvFixDown a) -> m' = m).
Proof.
  cbv zeta. intros m a H. pose proof (F_session ts) as Q. split; [apply (f_dn _ Q); auto|].
  intros m' H'. eapply (f_once _ Q); eauto.
Qed.

(** Of two fixtures of the same scope level the one activated later is torn down first,
    unless a fixture of that level was torn down between their activations. *)
Theorem C29_session_order ts : let t := st_trace (fst (run_session E ts)) in
  forall i j k a b l,
    nth_error t i = Some (EvFixUp a l) -> nth_error t j = Some (EvFixUp b l) -> nth_error t k = Some (EvFixDown a) ->
    i < j < k ->
    (forall m c n, i < m < j -> nth_error t m = Some (EvFixDown c) -> nth_error t n <> Some (EvFixUp c l)) ->
    exists m, j < m < k /\ nth_error t m = Some (EvFixDown b).
Proof.
  cbv zeta. intros i j k a b l A B C [L1 L2] N. pose proof (F_session ts) as Q.
  destruct (f_lifo _ Q i j k a b l A B C L1 L2) as (m & L3 & L4 & D); [|eauto].
  intros m c L3 L4 D [n U]. apply (N m c n); auto.
Qed.
End P.
Print Assumptions C29_session_once.
Print Assumptions C29_session_order.

(** three fixtures in one test, a finalizer of which raises, and one of the module *)
Example C29_session_ex :
  let fin n := PEmit n PDone in
  let b := PFixture FTest (fin 1) (PFixture FModule (fin 2) (PFixture FTest (PRaise (KUser 1) false) (PFixture FTest (fin 3) PDone))) in
  let E := mkEnv (fun _ _ => PDone) (fun n => (KUser n, false)) [] false false 0 (fun _ _ => false) in
  filter (fun e => match e with EvFixUp _ _ | EvFixDown _ => true | _ => false end)
    (st_trace (fst (run_session E [mkTest 1 (Some 1) 1 PDone 0 false b]))) =
  [EvFixUp 0 FTest; EvFixUp 1 FModule; EvFixUp 2 FTest; EvFixUp 3 FTest; EvFixDown 3; EvFixDown 2; EvFixDown 0; EvFixDown 1].
Proof. vm_compute. reflexivity. Qed.
