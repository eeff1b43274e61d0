(** C122: proxies of tracebacks (TraceProxy.v; utils/traceback_proxy.py). *)

From Coq Require Import List Bool Arith ZArith Lia Permutation.
From Verif Require Import TraceProxy.
Import ListNotations.

(** Every reference there is: those of the objects and those of running code *)
Definition references (s : state) : list nat := flat_map children (objs s) ++ held s.
(** The counts are right: each object is counted as often as it is referred to, and references lead to objects *)
Definition sound (s : state) : Prop :=
  (forall i, In i (references s) -> i < length (objs s)) /\
  (forall i, i < length (objs s) -> count s i = Z.of_nat (count_occ Nat.eq_dec (references s) i)).

Notation occ l i := (count_occ Nat.eq_dec l i).

Lemma occ_app l m i : occ (l ++ m) i = occ l i + occ m i.
Proof. apply count_occ_app. Qed.
Lemma occ_out l i : ~ In i l -> occ l i = 0.
Proof. apply count_occ_not_In. Qed.

Lemma put_length i o l : length (put_nth i o l) = length l.
Proof. revert i. induction l as [|x l IH]; intros [|i]; simpl; auto. Qed.
Lemma put_same i o l : i < length l -> nth_error (put_nth i o l) i = Some o.
Proof. revert i. induction l as [|x l IH]; intros [|i]; simpl; intros; try lia; auto. apply IH. lia. Qed.
Lemma put_other i j o l : i <> j -> nth_error (put_nth i o l) j = nth_error l j.
Proof. revert i j. induction l as [|x l IH]; intros [|i] [|j]; simpl; intros; auto; try congruence. Qed.
Lemma put_refs t o l old i : nth_error l t = Some old ->
  occ (flat_map children (put_nth t o l)) i + occ (children old) i = occ (flat_map children l) i + occ (children o) i.
Proof.
  revert t. induction l as [|x l IH]; intros [|t] H; simpl in *; try discriminate.
  - inversion H; subst. rewrite !occ_app. lia.
  - specialize (IH t H). rewrite !occ_app. lia.
Qed.
Lemma put_in t o l i : In i (flat_map children (put_nth t o l)) -> In i (flat_map children l) \/ In i (children o).
Proof.
  revert t. induction l as [|x l IH]; intros [|t] H; simpl in *; auto; apply in_app_or in H as [H|H].
  - auto.
  - left. apply in_or_app. auto.
  - left. apply in_or_app. auto.
  - destruct (IH _ H); auto. left. apply in_or_app. auto.
Qed.
Lemma at_lt s i o : at_ s i = Some o -> i < length (objs s).
Proof. intros H. apply nth_error_Some. unfold at_ in H. congruence. Qed.
Lemma is_tb_lt s i : is_tb s i = true -> i < length (objs s).
Proof. unfold is_tb, real. destruct (at_ s i) eqn:A; [|discriminate]. intros _. eapply at_lt; eauto. Qed.
Lemma is_frame_lt s i : is_frame s i = true -> i < length (objs s).
Proof. unfold is_frame. destruct (at_ s i) eqn:A; [|discriminate]. intros _. eapply at_lt; eauto. Qed.

Ltac cases := simpl; repeat (match goal with |- context [Nat.eqb ?a ?b] => destruct (Nat.eqb_spec a b) | |- context [Nat.eq_dec ?a ?b] => destruct (Nat.eq_dec a b) end; try (exfalso; congruence)); try lia.
Ltac cases2 := repeat (match goal with |- context [Nat.eqb ?a ?b] => destruct (Nat.eqb_spec a b) | |- context [Nat.eq_dec ?a ?b] => destruct (Nat.eq_dec a b) end; try (exfalso; congruence)); try lia.

(** replacing one object and changing the counts accordingly *)
Lemma sound_put s t old o f : sound s -> at_ s t = Some old ->
  (forall i, In i (children o) -> i < length (objs s)) ->
  (forall i, f i = (count s i + Z.of_nat (occ (children o) i) - Z.of_nat (occ (children old) i))%Z) ->
  sound (mkState (put_nth t o (objs s)) f (held s)).
Proof.
  intros (C & N) A L F. unfold sound, references. simpl. rewrite put_length. split.
  - intros i H. apply in_app_or in H as [H|H].
    + apply put_in in H as [H|H]; auto. apply C. unfold references. apply in_or_app. auto.
    + apply C. unfold references. apply in_or_app. auto.
  - intros i Hi. rewrite F, (N i Hi). unfold references. rewrite !occ_app. pose proof (put_refs t o (objs s) old i A). lia.
Qed.

Lemma sound_set_next s p v s' : sound s -> set_next p v s = (s', Done) -> sound s'.
Proof.
  unfold set_next. intros S. destruct (at_ s p) as [[| |t|]|]; try discriminate.
  destruct (at_ s t) as [[|n f a b| |]|] eqn:T; try discriminate. destruct v as [w|].
  - destruct (is_tb s w) eqn:W; [|discriminate]. intros H. inversion H; subst. clear H.
    assert (K : sound (mkState (put_nth t (OTb (Some w) f a b) (objs s)) (count (add w 1 (match n with Some o => add o (-1) s | None => s end))) (held s))).
    { apply (sound_put s t (OTb n f a b)); auto.
      - intros i. simpl. intros [<-|H]; [apply is_tb_lt; auto|]. apply (proj1 S). unfold references. apply in_or_app. left.
        apply in_flat_map. exists (OTb n f a b). split; [eapply nth_error_In; eauto|]. simpl. apply in_or_app. auto.
      - intros i. cbn [children]. rewrite !occ_app. destruct n as [o|]; cases. }
    destruct n; exact K.
  - intros H. inversion H; subst. clear H.
    assert (K : sound (mkState (put_nth t (OTb None f a b) (objs s)) (count (match n with Some o => add o (-1) s | None => s end)) (held s))).
    { apply (sound_put s t (OTb n f a b)); auto.
      - intros i. simpl. intros H. apply (proj1 S). unfold references. apply in_or_app. left.
        apply in_flat_map. exists (OTb n f a b). split; [eapply nth_error_In; eauto|]. simpl. apply in_or_app. auto.
      - intros i. cbn [children]. rewrite !occ_app. destruct n as [o|]; cases. }
    destruct n; exact K.
Qed.

Lemma sound_set_frame s p v s' : sound s -> set_frame p v s = (s', Done) -> sound s'.
Proof.
  unfold set_frame. intros S. destruct (at_ s p) as [[| |t|]|]; try discriminate.
  destruct (at_ s t) as [[|n f a b| |]|] eqn:T; try discriminate.
  assert (I : forall i, In i (opt n) -> i < length (objs s)).
  { intros i H. apply (proj1 S). unfold references. apply in_or_app. left.
    apply in_flat_map. exists (OTb n f a b). split; [eapply nth_error_In; eauto|]. simpl. apply in_or_app. auto. }
  destruct v as [w|].
  - destruct (is_frame s w) eqn:W; [|discriminate]. intros H. inversion H; subst. clear H.
    assert (K : sound (mkState (put_nth t (OTb n (Some w) a b) (objs s)) (count (add w 1 (match f with Some o => add o (-1) s | None => s end))) (held s))).
    { apply (sound_put s t (OTb n f a b)); auto.
      - intros i. simpl. intros H. apply in_app_or in H as [H|[<-|[]]]; auto. apply is_frame_lt; auto.
      - intros i. cbn [children]. rewrite !occ_app. destruct f as [o|]; cases. }
    destruct f; exact K.
  - intros H. inversion H; subst. clear H.
    assert (K : sound (mkState (put_nth t (OTb n None a b) (objs s)) (count (match f with Some o => add o (-1) s | None => s end)) (held s))).
    { apply (sound_put s t (OTb n f a b)); auto.
      - intros i. simpl. rewrite app_nil_r. auto.
      - intros i. cbn [children]. rewrite !occ_app. destruct f as [o|]; cases. }
    destruct f; exact K.
Qed.

Lemma sound_set_numbers s p a b s' : sound s -> set_numbers p a b s = (s', Done) -> sound s'.
Proof.
  unfold set_numbers. intros S. destruct (at_ s p) as [[| |t|]|]; try discriminate.
  destruct (at_ s t) as [[|n f x y| |]|] eqn:T; try discriminate. intros H. inversion H; subst.
  apply (sound_put s t (OTb n f x y)); auto.
  - intros i H1. apply (proj1 S). unfold references. apply in_or_app. left.
    apply in_flat_map. exists (OTb n f x y). split; [eapply nth_error_In; eauto|]. exact H1.
  - intros i. simpl. lia.
Qed.

Lemma sound_hold s i : sound s -> i < length (objs s) -> sound (hold i s).
Proof.
  intros (C & N) L. unfold sound, references, hold in *. simpl. split.
  - intros j H. apply in_app_or in H as [H|[<-|H]]; auto; apply C; apply in_or_app; auto.
  - intros j Hj. specialize (N j Hj). rewrite occ_app in *. simpl. destruct (Nat.eqb_spec j i), (Nat.eq_dec i j); subst; try congruence; lia.
Qed.
Lemma remove1_occ i l j : In i l -> occ (remove1 i l) j + (if Nat.eqb j i then 1 else 0) = occ l j.
Proof.
  induction l as [|x l IH]; simpl; [tauto|]. intros [->|H].
  - rewrite Nat.eqb_refl. destruct (Nat.eq_dec i j), (Nat.eqb_spec j i); subst; try congruence; lia.
  - specialize (IH H). destruct (Nat.eqb_spec i x).
    + subst x. destruct (Nat.eq_dec i j), (Nat.eqb_spec j i); subst; try congruence; lia.
    + simpl. destruct (Nat.eq_dec x j), (Nat.eqb_spec j i); subst; try congruence; lia.
Qed.
Lemma remove1_incl i l : incl (remove1 i l) l.
Proof.
  induction l as [|x l IH]; simpl; [apply incl_refl|]. destruct (Nat.eqb i x); [apply incl_tl, incl_refl|].
  apply incl_cons; [left; auto|apply incl_tl; auto].
Qed.
Lemma sound_drop s i : sound s -> In i (held s) -> sound (drop i s).
Proof.
  intros (C & N) L. unfold sound, references, drop in *. simpl. split.
  - intros j H. apply C. apply in_or_app. apply in_app_or in H as [H|H]; auto. right. eapply remove1_incl; eauto.
  - intros j Hj. specialize (N j Hj). rewrite occ_app in *. pose proof (remove1_occ i (held s) j L). destruct (Nat.eqb_spec j i); subst; lia.
Qed.

(** an empty proxy, its traceback and the frame of create_traceback *)
Definition blank (s : state) : state :=
  let f := length (objs s) in let t := S f in let p := S t in
  mkState (objs s ++ [OFrame [t] 0 0; OTb None (Some f) 0 0; OProxy t])
    (fun j => if Nat.eqb j p then 1%Z else if Nat.eqb j f then 1%Z else if Nat.eqb j t then 2%Z else count s j) (p :: held s).

Lemma blank_sound s : sound s -> sound (blank s).
Proof.
  intros (C & N). unfold sound, references, blank in *. cbn [objs count held]. rewrite app_length, flat_map_app. cbn [children opt flat_map app length]. set (n := length (objs s)) in *.
  assert (O : forall i, n <= i -> occ (flat_map children (objs s)) i = 0 /\ occ (held s) i = 0).
  { intros i Hi. split; apply occ_out; intros H; assert (i < n) by (apply C; apply in_or_app; auto); lia. }
  split.
  - intros i H. repeat rewrite in_app_iff in H. simpl in H.
    assert (K : In i (flat_map children (objs s) ++ held s) -> i < n) by apply C. rewrite in_app_iff in K.
    intuition lia.
  - intros i Hi. repeat rewrite occ_app. cbn [count_occ].
    destruct (Nat.lt_ge_cases i n) as [L|L].
    + specialize (N i L). rewrite occ_app in N.
      cbn [count_occ]; cases2.
    + destruct (O i L) as (-> & ->).
      cbn [count_occ]; cases2.
Qed.

Lemma blank_at s : let n := length (objs s) in
  at_ (blank s) n = Some (OFrame [S n] 0 0) /\ at_ (blank s) (S n) = Some (OTb None (Some n) 0 0) /\ at_ (blank s) (S (S n)) = Some (OProxy (S n)) /\
  (forall i, i < n -> at_ (blank s) i = at_ s i) /\ length (objs (blank s)) = S (S (S n)).
Proof.
  cbv zeta. unfold at_, blank. cbn [objs]. repeat split.
  - rewrite nth_error_app2 by lia. rewrite Nat.sub_diag. reflexivity.
  - rewrite nth_error_app2 by lia. replace (S (length (objs s)) - length (objs s)) with 1 by lia. reflexivity.
  - rewrite nth_error_app2 by lia. replace (S (S (length (objs s))) - length (objs s)) with 2 by lia. reflexivity.
  - intros i H. apply nth_error_app1. auto.
  - rewrite app_length. simpl. lia.
Qed.

Lemma new_proxy_unfold src s : src <> FromTb None ->
  new_proxy src s =
    (andthen (set_next (S (S (length (objs s)))) None (blank s)) (fun s3 =>
        match src with
        | FromTb None => (s3, Stuck)
        | FromTb (Some tb) =>
            match fields s3 tb with
            | Some (_, f, a, b) => andthen (set_frame (S (S (length (objs s)))) f s3) (set_numbers (S (S (length (objs s)))) a b)
            | None => (s3, Stuck)
            end
        | FromFrame f =>
            match at_ s3 f with
            | Some (OFrame _ a b) => andthen (set_frame (S (S (length (objs s)))) (Some f) s3) (set_numbers (S (S (length (objs s)))) a b)
            | _ => (s3, Stuck)
            end
        end), S (S (length (objs s)))).
Proof.
  intros H.
  assert (B : mkState (objs (fst (create_traceback s)) ++ [OProxy (S (length (objs s)))])
               (fun j => if Nat.eqb j (S (S (length (objs s)))) then 1%Z else count (fst (create_traceback s)) j) (S (S (length (objs s))) :: held s) = blank s).
  { unfold create_traceback, blank. simpl. rewrite <- app_assoc. reflexivity. }
  assert (L : length (objs (fst (create_traceback s))) = S (S (length (objs s)))).
  { unfold create_traceback. simpl. rewrite app_length. simpl. lia. }
  unfold new_proxy. destruct src as [[t|]|f]; try congruence;
    (destruct (create_traceback s) as [s1 t1] eqn:E; cbn [fst] in B, L; unfold create_traceback in E; inversion E; subst t1; rewrite H1 in *; rewrite L, B; reflexivity).
Qed.

(** [entry_of s src (f, a, b)]: what a proxy is made of has frame f, tb_lasti a, tb_lineno b *)
Inductive entry_of (s : state) : source -> nat * nat * nat -> Prop :=
| eo_tb t nx f a b : fields s t = Some (nx, Some f, a, b) -> is_frame s f = true -> entry_of s (FromTb (Some t)) (f, a, b)
| eo_frame f l a b : at_ s f = Some (OFrame l a b) -> entry_of s (FromFrame f) (f, a, b).

Lemma fields_agree s s' t : (forall i, i < length (objs s) -> at_ s' i = at_ s i) -> forall r, fields s t = Some r -> fields s' t = Some r.
Proof.
  intros A r. unfold fields, real. destruct (at_ s t) as [o|] eqn:T; [|discriminate]. rewrite (A t (at_lt _ _ _ T)), T.
  destruct o as [| |u|]; try discriminate.
  - rewrite (A t (at_lt _ _ _ T)). auto.
  - destruct (at_ s u) as [o|] eqn:U; [|discriminate]. rewrite (A u (at_lt _ _ _ U)), U. auto.
Qed.
Lemma is_frame_agree s s' f : (forall i, i < length (objs s) -> at_ s' i = at_ s i) -> is_frame s f = true -> is_frame s' f = true.
Proof.
  intros A. unfold is_frame. destruct (at_ s f) eqn:F; [|discriminate]. rewrite (A f (at_lt _ _ _ F)), F. auto.
Qed.

Lemma put_at t o s i : t < length (objs s) -> at_ (put t o s) i = if Nat.eqb i t then Some o else at_ s i.
Proof.
  intros L. unfold at_, put. simpl. destruct (Nat.eqb_spec i t) as [->|N]; [apply put_same; auto|apply put_other; auto].
Qed.

Lemma new_proxy_ok src s f a b : entry_of s src (f, a, b) -> sound s ->
  let n := length (objs s) in
  exists s', new_proxy src s = (s', Done, S (S n)) /\ sound s' /\ held s' = S (S n) :: held s /\
    at_ s' (S n) = Some (OTb None (Some f) a b) /\ at_ s' (S (S n)) = Some (OProxy (S n)) /\
    (forall i, i < n -> at_ s' i = at_ s i) /\ length (objs s') = S (S (S n)) /\ count s' n = 0%Z /\ at_ s' n = Some (OFrame [S n] 0 0).
Proof.
  intros E S n. destruct (blank_at s) as (B0 & B1 & B2 & B3 & B4). fold n in B0, B1, B2, B3, B4.
  rewrite new_proxy_unfold by (inversion E; congruence). fold n.
  assert (K1 : set_next (Datatypes.S (Datatypes.S n)) None (blank s) = (put (Datatypes.S n) (OTb None (Some n) 0 0) (blank s), Done)).
  { unfold set_next. rewrite B2, B1. reflexivity. }
  rewrite K1. cbn [andthen]. set (s3 := put (Datatypes.S n) (OTb None (Some n) 0 0) (blank s)) in *.
  assert (S3 : sound s3) by (apply (sound_set_next (blank s) (Datatypes.S (Datatypes.S n)) None); [apply blank_sound; auto|exact K1]).
  assert (A3 : forall i, at_ s3 i = at_ (blank s) i).
  { intros i. unfold s3. rewrite put_at by lia. destruct (Nat.eqb_spec i (Datatypes.S n)); subst; auto. }
  assert (Old : forall i, i < n -> at_ s3 i = at_ s i) by (intros i Hi; rewrite A3; auto).
  assert (F : is_frame s f = true).
  { inversion E as [t nx f' a' b' F1 F2|f' l a' b' F1]; subst; auto. unfold is_frame. rewrite F1. auto. }
  assert (F3 : is_frame s3 f = true) by (apply (is_frame_agree s s3 f Old F)).
  assert (Fn : f < n) by (apply is_frame_lt; auto).
  assert (G : match src with
        | FromTb None => (s3, Stuck)
        | FromTb (Some tb) =>
            match fields s3 tb with
            | Some (_, f, a, b) => andthen (set_frame (Datatypes.S (Datatypes.S n)) f s3) (set_numbers (Datatypes.S (Datatypes.S n)) a b)
            | None => (s3, Stuck)
            end
        | FromFrame f =>
            match at_ s3 f with
            | Some (OFrame _ a b) => andthen (set_frame (Datatypes.S (Datatypes.S n)) (Some f) s3) (set_numbers (Datatypes.S (Datatypes.S n)) a b)
            | _ => (s3, Stuck)
            end
        end = andthen (set_frame (Datatypes.S (Datatypes.S n)) (Some f) s3) (set_numbers (Datatypes.S (Datatypes.S n)) a b)).
  { inversion E as [t nx f' a' b' F1 F2|f' l a' b' F1]; subst.
    - rewrite (fields_agree s s3 t Old _ F1). reflexivity.
    - rewrite (Old f Fn), F1. reflexivity. }
  rewrite G. clear G.
  assert (K2 : set_frame (Datatypes.S (Datatypes.S n)) (Some f) s3 = (put (Datatypes.S n) (OTb None (Some f) 0 0) (add f 1 (add n (-1) s3)), Done)).
  { unfold set_frame. rewrite !A3, B2, A3, B1, F3. reflexivity. }
  rewrite K2. cbn [andthen]. set (s4 := put (Datatypes.S n) (OTb None (Some f) 0 0) (add f 1 (add n (-1) s3))) in *.
  assert (S4 : sound s4) by (eapply sound_set_frame; eauto).
  assert (L3 : length (objs s3) = Datatypes.S (Datatypes.S (Datatypes.S n))) by (unfold s3, put; cbn [objs]; rewrite put_length; exact B4).
  assert (A4 : forall i, at_ s4 i = if Nat.eqb i (Datatypes.S n) then Some (OTb None (Some f) 0 0) else at_ s3 i).
  { intros i. unfold s4. rewrite put_at; [reflexivity|change (Datatypes.S n < length (objs s3)); lia]. }
  assert (L4 : length (objs s4) = Datatypes.S (Datatypes.S (Datatypes.S n))) by (unfold s4, put; cbn [objs]; rewrite put_length; exact L3).
  assert (K3 : set_numbers (Datatypes.S (Datatypes.S n)) a b s4 = (put (Datatypes.S n) (OTb None (Some f) a b) s4, Done)).
  { unfold set_numbers. rewrite A4. destruct (Nat.eqb_spec (Datatypes.S (Datatypes.S n)) (Datatypes.S n)); [lia|]. rewrite A3, B2, A4, Nat.eqb_refl. reflexivity. }
  rewrite K3. exists (put (Datatypes.S n) (OTb None (Some f) a b) s4).
  assert (A5 : forall i, at_ (put (Datatypes.S n) (OTb None (Some f) a b) s4) i = if Nat.eqb i (Datatypes.S n) then Some (OTb None (Some f) a b) else at_ s4 i).
  { intros i. apply put_at. lia. }
  split; [reflexivity|]. split; [eapply sound_set_numbers; eauto|]. split; [reflexivity|].
  split; [rewrite A5, Nat.eqb_refl; auto|].
  split; [rewrite A5, A4, A3; destruct (Nat.eqb_spec (Datatypes.S (Datatypes.S n)) (Datatypes.S n)); [lia|]; auto|].
  split; [|split; [|split]].
  - intros i Hi. rewrite A5, A4. destruct (Nat.eqb_spec i (Datatypes.S n)); [lia|]. auto.
  - unfold put. cbn [objs]. rewrite put_length. exact L4.
  - simpl. destruct (Nat.eqb_spec n f); [lia|]. rewrite Nat.eqb_refl. fold n.
    destruct (Nat.eqb_spec n (Datatypes.S (Datatypes.S n))); [lia|]. rewrite Nat.eqb_refl. reflexivity.
  - rewrite A5, A4, A3. destruct (Nat.eqb_spec n (Datatypes.S n)); [lia|]. exact B0.
Qed.

(** ** What a chain of proxies shows *)

(** [shows s p q es]: following tb_next from proxy p one finds the entries es, the last of them at proxy q *)
Inductive shows (s : state) : nat -> nat -> list (nat * nat * nat) -> Prop :=
| sh_last p t f a b : at_ s p = Some (OProxy t) -> at_ s t = Some (OTb None (Some f) a b) -> shows s p p [(f, a, b)]
| sh_more p t p' q f a b es : at_ s p = Some (OProxy t) -> at_ s t = Some (OTb (Some p') (Some f) a b) -> shows s p' q es ->
    shows s p q ((f, a, b) :: es).

(** [chain s t es]: the traceback t (of an exception; or a proxy) has these entries *)
Inductive chain (s : state) : nat -> list (nat * nat * nat) -> Prop :=
| ch_last t f a b : fields s t = Some (None, Some f, a, b) -> is_frame s f = true -> chain s t [(f, a, b)]
| ch_more t t' f a b es : fields s t = Some (Some t', Some f, a, b) -> is_frame s f = true -> chain s t' es -> chain s t ((f, a, b) :: es).

Definition agree (s0 s : state) : Prop := length (objs s0) <= length (objs s) /\ forall i, i < length (objs s0) -> at_ s i = at_ s0 i.

Lemma chain_agree s0 s t es : chain s0 t es -> agree s0 s -> chain s t es.
Proof.
  intros H (_ & A). induction H; econstructor; eauto using fields_agree, is_frame_agree.
Qed.

Lemma shows_end s p q es : shows s p q es -> exists t f a b, at_ s q = Some (OProxy t) /\ at_ s t = Some (OTb None (Some f) a b).
Proof. induction 1; eauto 8. Qed.

(** one more proxy after the last one *)
Lemma shows_extend s s' c t f a b p e : at_ s c = Some (OProxy t) -> at_ s t = Some (OTb None (Some f) a b) ->
  (forall i, i <> t -> i < length (objs s) -> at_ s' i = at_ s i) -> at_ s' t = Some (OTb (Some p) (Some f) a b) -> shows s' p p [e] ->
  forall first es, shows s first c es -> shows s' first p (es ++ [e]).
Proof.
  intros C T A T' P first es H. induction H as [q u f' a' b' Q U|q u q' r f' a' b' es Q U H IH]; simpl.
  - rewrite Q in C. inversion C; subst u. rewrite U in T. inversion T; subst. eapply sh_more; eauto.
    rewrite A; auto; [|eapply at_lt; eauto]. intros ->. congruence.
  - eapply sh_more.
    + rewrite A; [eauto| |eapply at_lt; eauto]. intros ->. congruence.
    + rewrite A; [eauto| |eapply at_lt; eauto]. intros ->. congruence.
    + apply IH; auto.
Qed.

Lemma link_ok src s e c t f a b : sound s -> entry_of s src e -> at_ s c = Some (OProxy t) -> at_ s t = Some (OTb None (Some f) a b) -> In c (held s) ->
  let p := S (S (length (objs s))) in
  exists s', link src c s = (s', Done, p) /\ sound s' /\ held s' = p :: remove1 c (held s) /\
    (forall i, i <> t -> i < length (objs s) -> at_ s' i = at_ s i) /\ at_ s' t = Some (OTb (Some p) (Some f) a b) /\
    shows s' p p [e] /\ length (objs s') = S p /\ at_ s' p = Some (OProxy (S (length (objs s)))).
Proof.
  intros S E C T H. cbv zeta. set (n := length (objs s)). destruct e as ((f1 & a1) & b1).
  destruct (new_proxy_ok src s f1 a1 b1 E S) as (s1 & K & S1 & H1 & T1 & P1 & O1 & L1 & _). fold n in K, H1, T1, P1, O1, L1.
  assert (Cn : c < n) by (eapply at_lt; eauto). assert (Tn : t < n) by (eapply at_lt; eauto).
  unfold link. rewrite K.
  assert (X : set_next c (Some (Datatypes.S (Datatypes.S n))) s1 =
              (put t (OTb (Some (Datatypes.S (Datatypes.S n))) (Some f) a b) (add (Datatypes.S (Datatypes.S n)) 1 s1), Done)).
  { unfold set_next. rewrite (O1 c Cn), C, (O1 t Tn), T. unfold is_tb, real. rewrite P1. reflexivity. }
  rewrite X. set (s2 := put t _ _) in *.
  assert (S2 : sound s2) by (eapply sound_set_next; eauto).
  assert (A2 : forall i, at_ s2 i = if Nat.eqb i t then Some (OTb (Some (Datatypes.S (Datatypes.S n))) (Some f) a b) else at_ s1 i).
  { intros i. unfold s2. rewrite put_at; [reflexivity|change (t < length (objs s1)); lia]. }
  assert (L2 : length (objs s2) = Datatypes.S (Datatypes.S (Datatypes.S n))) by (unfold s2, put; cbn [objs]; rewrite put_length; exact L1).
  assert (N : next_of s2 c = Some (Datatypes.S (Datatypes.S n))).
  { unfold next_of, fields, real. rewrite A2. destruct (Nat.eqb_spec c t); [subst; congruence|]. rewrite (O1 c Cn), C, A2, Nat.eqb_refl. reflexivity. }
  rewrite N. eexists. split; [reflexivity|].
  assert (Hd : held s2 = Datatypes.S (Datatypes.S n) :: held s) by (unfold s2; simpl; exact H1).
  split; [|split; [|split; [|split; [|split; [|split]]]]].
  - apply sound_drop; [apply sound_hold; [apply sound_drop; auto; rewrite Hd; left; auto|]|].
    + change (Datatypes.S (Datatypes.S n) < length (objs s2)). lia.
    + change (In c (Datatypes.S (Datatypes.S n) :: remove1 (Datatypes.S (Datatypes.S n)) (held s2))). rewrite Hd. cbn [remove1]. right. rewrite Nat.eqb_refl. auto.
  - change (remove1 c (Datatypes.S (Datatypes.S n) :: remove1 (Datatypes.S (Datatypes.S n)) (held s2)) = Datatypes.S (Datatypes.S n) :: remove1 c (held s)).
    rewrite Hd. cbn [remove1]. rewrite Nat.eqb_refl. cbn [remove1].
    destruct (Nat.eqb_spec c (Datatypes.S (Datatypes.S n))); [lia|reflexivity].
  - intros i Hi Hl. change (at_ s2 i = at_ s i). rewrite A2. destruct (Nat.eqb_spec i t); [congruence|]. auto.
  - change (at_ s2 t = Some (OTb (Some (Datatypes.S (Datatypes.S n))) (Some f) a b)). rewrite A2, Nat.eqb_refl. reflexivity.
  - eapply sh_last with (t := Datatypes.S n).
    + change (at_ s2 (Datatypes.S (Datatypes.S n)) = Some (OProxy (Datatypes.S n))). rewrite A2. destruct (Nat.eqb_spec (Datatypes.S (Datatypes.S n)) t); [lia|auto].
    + change (at_ s2 (Datatypes.S n) = Some (OTb None (Some f1) a1 b1)). rewrite A2. destruct (Nat.eqb_spec (Datatypes.S n) t); [lia|auto].
  - change (length (objs s2) = Datatypes.S (Datatypes.S (Datatypes.S n))). exact L2.
  - change (at_ s2 (Datatypes.S (Datatypes.S n)) = Some (OProxy (Datatypes.S n))). rewrite A2. destruct (Nat.eqb_spec (Datatypes.S (Datatypes.S n)) t); [lia|auto].
Qed.

(** [built s0 s first last es]: what is true while a chain of proxies is made, s0 being the state before *)
Definition built (s0 s : state) (first last : nat) (es : list (nat * nat * nat)) : Prop :=
  sound s /\ agree s0 s /\ Permutation (held s) (first :: last :: held s0) /\ shows s first last es /\
  exists t, at_ s last = Some (OProxy t) /\ length (objs s0) <= t.

Lemma remove1_perm i l : In i l -> Permutation l (i :: remove1 i l).
Proof.
  induction l as [|x l IH]; simpl; [tauto|]. intros [->|H].
  - rewrite Nat.eqb_refl. auto.
  - destruct (Nat.eqb_spec i x); [subst; auto|]. rewrite (IH H) at 1. apply perm_swap.
Qed.

Lemma link_built s0 s first last es src e : built s0 s first last es -> entry_of s src e ->
  exists s' p, link src last s = (s', Done, p) /\ built s0 s' first p (es ++ [e]).
Proof.
  intros (S & (Al & Ag) & P & H & (t & L & Lt)) E.
  destruct (shows_end _ _ _ _ H) as (t' & f & a & b & L' & T). rewrite L in L'. inversion L'; subst t'. clear L'.
  assert (I : In last (held s)) by (eapply Permutation_in; [apply Permutation_sym; exact P|right; left; auto]).
  destruct (link_ok src s e last t f a b S E L T I) as (s' & K & S' & Hd & O & T' & Sh & Len & P').
  exists s', (Datatypes.S (Datatypes.S (length (objs s)))). split; [exact K|]. split; [exact S'|].
  assert (Ag' : agree s0 s').
  { split; [lia|]. intros i Hi. rewrite O; [auto|lia|lia]. }
  split; [exact Ag'|]. split; [|split].
  - rewrite Hd. etransitivity; [|apply perm_swap]. constructor. apply (Permutation_cons_inv (a := last)).
    etransitivity; [symmetry; apply remove1_perm; exact I|]. etransitivity; [exact P|]. apply perm_swap.
  - exact (shows_extend s s' last t f a b _ e L T O T' Sh first es H).
  - exists (Datatypes.S (length (objs s))). split; [exact P'|lia].
Qed.

Lemma first_built s src e : sound s -> entry_of s src e ->
  exists s' p, new_proxy src s = (s', Done, p) /\ built s (hold p s') p p [e].
Proof.
  intros S E. destruct e as ((f & a) & b). destruct (new_proxy_ok src s f a b E S) as (s1 & K & S1 & H1 & T1 & P1 & O1 & L1 & _).
  exists s1, (Datatypes.S (Datatypes.S (length (objs s)))). split; [exact K|]. split; [apply sound_hold; auto; lia|].
  split; [split; [change (length (objs s) <= length (objs s1)); lia|intros i Hi; change (at_ s1 i = at_ s i); auto]|].
  split; [change (held (hold (Datatypes.S (Datatypes.S (length (objs s)))) s1)) with (Datatypes.S (Datatypes.S (length (objs s))) :: held s1); rewrite H1; auto|].
  split; [eapply sh_last; eauto|]. exists (Datatypes.S (length (objs s))). split; [exact P1|lia].
Qed.

Lemma chain_entry s t es : chain s t es -> exists e es', es = e :: es' /\ entry_of s (FromTb (Some t)) e /\
  match es' with [] => next_of s t = None | _ => exists t', next_of s t = Some t' /\ chain s t' es' end.
Proof.
  intros H. inversion H as [t1 f a b F1 F2|t1 t' f a b es1 F1 F2 C]; subst.
  - exists (f, a, b), []. split; auto. split; [econstructor; eauto|]. unfold next_of. rewrite F1. auto.
  - exists (f, a, b), es1. split; auto. split; [econstructor; eauto|].
    destruct es1; [inversion C|]. exists t'. split; auto. unfold next_of. rewrite F1. auto.
Qed.

Lemma entry_agree s0 s src e : entry_of s0 src e -> agree s0 s -> entry_of s src e.
Proof.
  intros H (_ & A). inversion H; subst; econstructor; eauto using fields_agree, is_frame_agree.
  rewrite A; eauto using at_lt.
Qed.
Lemma next_agree s0 s t es : chain s0 t es -> agree s0 s -> next_of s t = next_of s0 t.
Proof.
  intros H (_ & A). unfold next_of. inversion H as [t1 f a b F1 F2|t1 t' f a b es1 F1 F2 C]; subst;
    rewrite F1, (fields_agree _ _ _ A _ F1); reflexivity.
Qed.

Lemma rest_loop_ok s0 : forall es fuel t s first last done, chain s0 t es -> length es <= fuel -> built s0 s first last done ->
  exists s' q, rest_loop fuel (Some t) first last s = (s', Done, (first, q)) /\ built s0 s' first q (done ++ es).
Proof.
  induction es as [|e es IH]; intros fuel t s first last done C F B; [inversion C|].
  destruct fuel as [|fuel]; [simpl in F; lia|].
  destruct (chain_entry _ _ _ C) as (e1 & es1 & X & E & N). inversion X; subst e1 es1. clear X.
  destruct (link_built s0 s first last done (FromTb (Some t)) e B) as (s1 & p & K & B1).
  { eapply entry_agree; eauto. apply B. }
  cbn [rest_loop]. rewrite K. rewrite (next_agree s0 s1 t _ C) by apply B1.
  destruct es as [|e2 es].
  - rewrite N. exists s1, p. split; [destruct fuel; reflexivity|exact B1].
  - destruct N as (t' & N & C'). rewrite N. replace (done ++ e :: e2 :: es) with ((done ++ [e]) ++ e2 :: es) by (rewrite <- app_assoc; reflexivity).
    apply IH; auto. simpl in *. lia.
Qed.

(** an earlier proxy of the loop over frame_correction is given up *)
Lemma again_built s0 s q es src e : built s0 s q q es -> entry_of s0 src e ->
  exists s' p, new_proxy src s = (s', Done, p) /\ built s0 (drop q (drop q (hold p s'))) p p [e].
Proof.
  intros (S & Ag & P & H & _) E0.
  assert (E : entry_of s src e) by (eapply entry_agree; eauto).
  destruct e as ((f & a) & b). destruct (new_proxy_ok src s f a b E S) as (s1 & K & S1 & H1 & T1 & P1 & O1 & L1 & _).
  set (p := Datatypes.S (Datatypes.S (length (objs s)))) in *. exists s1, p. split; [exact K|].
  assert (Q1 : Permutation (held (hold p s1)) (q :: q :: p :: p :: held s0)).
  { change (held (hold p s1)) with (p :: held s1). rewrite H1, P. 
    etransitivity; [apply perm_skip, (perm_swap q p)|]. etransitivity; [apply perm_swap|]. constructor.
    etransitivity; [apply perm_skip, (perm_swap q p)|]. etransitivity; [apply perm_swap|]. reflexivity. }
  assert (I1 : In q (held (hold p s1))) by (eapply Permutation_in; [symmetry; exact Q1|left; auto]).
  assert (Q2 : Permutation (held (drop q (hold p s1))) (q :: p :: p :: held s0)).
  { apply (Permutation_cons_inv (a := q)). etransitivity; [|exact Q1]. symmetry. exact (remove1_perm q _ I1). }
  assert (I2 : In q (held (drop q (hold p s1)))) by (eapply Permutation_in; [symmetry; exact Q2|left; auto]).
  assert (Q3 : Permutation (held (drop q (drop q (hold p s1)))) (p :: p :: held s0)).
  { apply (Permutation_cons_inv (a := q)). etransitivity; [|exact Q2]. symmetry. exact (remove1_perm q _ I2). }
  destruct Ag as (Al & Ag).
  split; [apply sound_drop; auto; apply sound_drop; auto; apply sound_hold; auto; lia|].
  split; [split; [change (length (objs s0) <= length (objs s1)); lia|]|].
  { intros i Hi. change (at_ s1 i = at_ s0 i). rewrite O1 by lia. auto. }
  split; [exact Q3|]. split; [eapply sh_last; [exact P1|exact T1]|].
  exists (Datatypes.S (length (objs s))). split; [exact P1|lia].
Qed.

Lemma skip_loop_ok s0 : forall k es t prev s, chain s0 t es -> k < length es ->
  match prev with None => s = s0 /\ sound s0 | Some q => exists ds, built s0 s q q ds end ->
  exists s' p e rest nx, skip_loop k (Some t) prev s = ((s', Done, (p, p)), nx) /\ skipn k es = e :: rest /\ built s0 s' p p [e] /\
    match rest with [] => nx = None | _ => exists t', nx = Some t' /\ chain s0 t' rest end.
Proof.
  induction k as [|k IH]; intros es t prev s C L H.
  - destruct (chain_entry _ _ _ C) as (e & es1 & -> & E & N). cbn [skip_loop].
    assert (B : exists s1 p, new_proxy (FromTb (Some t)) s = (s1, Done, p) /\
              built s0 (match prev with Some q => drop q (drop q (hold p s1)) | None => hold p s1 end) p p [e]).
    { destruct prev as [q|]; [destruct H as (ds & B); eapply again_built; eauto|]. destruct H as (-> & S). apply first_built; auto. }
    destruct B as (s1 & p & K & B). rewrite K. eexists _, p, e, es1, _. split; [reflexivity|]. split; [reflexivity|]. split; [exact B|].
    rewrite (next_agree s0 _ t _ C) by apply B. destruct es1; auto.
  - destruct (chain_entry _ _ _ C) as (e & es1 & -> & E & N). cbn [skip_loop].
    assert (B : exists s1 p, new_proxy (FromTb (Some t)) s = (s1, Done, p) /\
              built s0 (match prev with Some q => drop q (drop q (hold p s1)) | None => hold p s1 end) p p [e]).
    { destruct prev as [q|]; [destruct H as (ds & B); eapply again_built; eauto|]. destruct H as (-> & S). apply first_built; auto. }
    destruct B as (s1 & p & K & B). rewrite K. rewrite (next_agree s0 _ t _ C) by apply B.
    destruct es1 as [|e2 es1]; [simpl in L; lia|]. destruct N as (t' & N & C'). rewrite N. cbn [skipn].
    apply IH; [exact C'|simpl in *; lia|]. exists [e]. exact B.
Qed.

(** ** The theorems *)

(** A program that uses proxies: it makes them of tracebacks and frames, assigns tb_next and tb_frame, reads tb_next and gives
    references up *)
Inductive op := ONew (src : source) | ONext (p : nat) (v : option nat) | OFrm (p : nat) (v : option nat) | OGet (p : nat) | ODrop (i : nat).
Inductive steps : state -> list op -> state -> Prop :=
| st_nil s : steps s [] s
| st_new s src e s1 p l s2 : entry_of s src e -> new_proxy src s = (s1, Done, p) -> steps s1 l s2 -> steps s (ONew src :: l) s2
| st_next s p v s1 l s2 : set_next p v s = (s1, Done) -> steps s1 l s2 -> steps s (ONext p v :: l) s2
| st_frame s p v s1 l s2 : set_frame p v s = (s1, Done) -> steps s1 l s2 -> steps s (OFrm p v :: l) s2
| st_get s p q l s2 : next_of s p = Some q -> steps (hold q s) l s2 -> steps s (OGet p :: l) s2
| st_drop s i l s2 : In i (held s) -> steps (drop i s) l s2 -> steps s (ODrop i :: l) s2.

Lemma next_lt s p q : sound s -> next_of s p = Some q -> q < length (objs s).
Proof.
  intros (C & _) H. unfold next_of in H. destruct (fields s p) as [(((n & f) & a) & b)|] eqn:F; [|discriminate]. subst n.
  unfold fields in F. destruct (real s p) as [t|]; [|discriminate]. destruct (at_ s t) as [[|n f' a' b'| |]|] eqn:T; try discriminate.
  inversion F; subst. apply C. unfold references. apply in_or_app. left. apply in_flat_map. exists (OTb (Some q) f a b).
  split; [eapply nth_error_In; eauto|left; auto].
Qed.

(** Whatever such a program does, after every assignment each object is counted as often as it is referred to: none is freed while it
    is referred to, none is kept by a count that is too high. *)
Theorem C122_counts : forall s l s', sound s -> steps s l s' -> sound s'.
Proof.
  intros s l s' S H. induction H; auto; apply IHsteps.
  - destruct e as ((f & a) & b). destruct (new_proxy_ok src s f a b H S) as (s3 & K & S3 & _). rewrite H0 in K. inversion K; subst. exact S3.
  - eapply sound_set_next; eauto.
  - eapply sound_set_frame; eauto.
  - apply sound_hold; auto. eapply next_lt; eauto.
  - apply sound_drop; auto.
Qed.
Print Assumptions C122_counts.

Lemma copy_built s t es k fuel : sound s -> chain s t es -> k < length es -> length es <= fuel ->
  exists s' first last, proxy_of_tb fuel t k s = (s', Done, (first, last)) /\ built s s' first last (skipn k es).
Proof.
  intros S C L F.
  destruct (skip_loop_ok s k es t None s C L (conj eq_refl S)) as (s1 & p & e & rest & nx & K & Sk & B & N).
  unfold proxy_of_tb. rewrite K, Sk. destruct rest as [|e2 rest].
  - subst nx. exists s1, p, p. split; [destruct fuel; reflexivity|]. exact B.
  - destruct N as (t' & -> & C'). assert (Lr : length (e2 :: rest) <= fuel).
    { assert (length (skipn k es) = length es - k) by apply skipn_length. rewrite Sk in H. simpl in *. lia. }
    destruct (rest_loop_ok s (e2 :: rest) fuel t' s1 p p [e] C' Lr B) as (s2 & q & K2 & B2).
    rewrite K2. exists s2, p, q. auto.
Qed.

(** create_traceback_proxy of a traceback with more than frame_correction entries: following tb_next from the first proxy one finds
    the entries of the traceback (frame, tb_lasti, tb_lineno) without the first frame_correction of them, the last at the second proxy;
    nothing that was there before has changed; counts are right; the two references returned are the only new ones held. *)
Theorem C122_copy : forall s t es k fuel, sound s -> chain s t es -> k < length es -> length es <= fuel ->
  exists s' first last, proxy_of_tb fuel t k s = (s', Done, (first, last)) /\ shows s' first last (skipn k es) /\
    (forall i, i < length (objs s) -> at_ s' i = at_ s i) /\ sound s' /\ Permutation (held s') (first :: last :: held s).
Proof.
  intros s t es k fuel S C L F. destruct (copy_built s t es k fuel S C L F) as (s' & p & q & K & B1 & (_ & B2) & B3 & B4 & _).
  exists s', p, q. auto.
Qed.
Print Assumptions C122_copy.

(** With a frame_correction of at least as many entries as there are it is an AssertionError. *)
Lemma skip_loop_short s0 : forall k es t prev s, chain s0 t es -> length es <= k ->
  match prev with None => s = s0 /\ sound s0 | Some q => exists ds, built s0 s q q ds end ->
  exists s', skip_loop k (Some t) prev s = ((s', Assertion, (0, 0)), None).
Proof.
  induction k as [|k IH]; intros es t prev s C L H.
  - inversion C; subst; simpl in L; lia.
  - destruct (chain_entry _ _ _ C) as (e & es1 & -> & E & N). cbn [skip_loop].
    assert (B : exists s1 p, new_proxy (FromTb (Some t)) s = (s1, Done, p) /\
              built s0 (match prev with Some q => drop q (drop q (hold p s1)) | None => hold p s1 end) p p [e]).
    { destruct prev as [q|]; [destruct H as (ds & B); eapply again_built; eauto|]. destruct H as (-> & S). apply first_built; auto. }
    destruct B as (s1 & p & K & B). rewrite K. rewrite (next_agree s0 _ t _ C) by apply B.
    destruct es1 as [|e2 es1].
    + rewrite N. destruct k; simpl; eauto.
    + destruct N as (t' & N & C'). rewrite N. eapply IH; [exact C'|simpl in *; lia|]. exists [e]. exact B.
Qed.
Theorem C122_short : forall s t es k fuel, sound s -> chain s t es -> length es <= k ->
  exists s' r, proxy_of_tb fuel t k s = (s', Assertion, r).
Proof.
  intros s t es k fuel S C L. destruct (skip_loop_short s k es t None s C L (conj eq_refl S)) as (s' & K).
  unfold proxy_of_tb. rewrite K. eauto.
Qed.
Print Assumptions C122_short.

Lemma frames_loop_ok s0 : forall fs es s first last done, Forall2 (fun f e => entry_of s0 (FromFrame f) e) fs es -> built s0 s first last done ->
  exists s' q, frames_loop fs first last s = (s', Done, (first, q)) /\ built s0 s' first q (done ++ es).
Proof.
  intros fs es s first last done H. revert s last done. induction H as [|f e fs es E H IH]; intros s last done B; cbn [frames_loop].
  - rewrite app_nil_r. eauto.
  - destruct (link_built s0 s first last done (FromFrame f) e B) as (s1 & p & K & B1).
    { eapply entry_agree; eauto. apply B. }
    rewrite K. replace (done ++ e :: es) with ((done ++ [e]) ++ es) by (rewrite <- app_assoc; reflexivity). apply IH. exact B1.
Qed.

(** Of the stack (innermost frame first): the proxies show its frames without the frame_correction innermost ones, the outermost
    first; an IndexError if none is left. *)
Theorem C122_stack : forall s stack es k, sound s -> Forall2 (fun f e => entry_of s (FromFrame f) e) stack es ->
  (k < length stack -> exists s' first last, proxy_of_stack stack k s = (s', Done, (first, last)) /\ shows s' first last (rev (skipn k es)) /\
    (forall i, i < length (objs s) -> at_ s' i = at_ s i) /\ sound s' /\ Permutation (held s') (first :: last :: held s)) /\
  (length stack <= k -> proxy_of_stack stack k s = (s, IndexErr, (0, 0))).
Proof.
  intros s stack es k S H. split.
  - intros L.
    assert (R : forall m, Forall2 (fun f e => entry_of s (FromFrame f) e) (skipn m stack) (skipn m es)).
    { clear L. induction H; intros [|m]; simpl; auto. }
    assert (R' : Forall2 (fun f e => entry_of s (FromFrame f) e) (rev (skipn k stack)) (rev (skipn k es))).
    { specialize (R k). clear - R. induction R; simpl; auto. apply Forall2_app; auto. }
    assert (N : length (rev (skipn k stack)) = length stack - k) by (rewrite rev_length, skipn_length; reflexivity).
    unfold proxy_of_stack. inversion R' as [E1 E2|f e fs es' E F E1 E2].
    + rewrite <- E1 in N. simpl in N. lia.
    + destruct (first_built s (FromFrame f) e S E) as (s1 & p & K & B). rewrite K.
      destruct (frames_loop_ok s fs es' (hold p s1) p p [e] F B) as (s2 & q & K2 & B1 & (_ & B2) & B3 & B4 & _).
      rewrite K2. exists s2, p, q. auto.
  - intros L. unfold proxy_of_stack. rewrite skipn_all2 by auto. reflexivity.
Qed.
Print Assumptions C122_stack.

Lemma shows_start s p q es : shows s p q es -> exists t, at_ s p = Some (OProxy t).
Proof. intros H. inversion H; eauto. Qed.
Lemma shows_agree s s' p q es : shows s p q es -> agree s s' -> shows s' p q es.
Proof.
  intros H (_ & A). induction H.
  - eapply sh_last; rewrite A; eauto using at_lt.
  - eapply sh_more; [| |eassumption]; rewrite A; eauto using at_lt.
Qed.
Lemma shows_away s s' t n f a b p q u es : at_ s t = Some (OTb None f a b) -> (forall i, i <> t -> at_ s' i = at_ s i) ->
  shows s p q es -> at_ s q = Some (OProxy u) -> n <= u -> t < n -> shows s' p q es.
Proof.
  intros T A H Q U L. induction H as [x v f' a' b' X V|x v y z f' a' b' es X V H IH].
  - rewrite X in Q. inversion Q; subst v. eapply sh_last; rewrite A; eauto; [intros ->; congruence|lia].
  - eapply sh_more; [rewrite A; [exact X|intros ->; congruence]|rewrite A; [exact V|intros ->; congruence]|auto].
Qed.
(** The fake traceback of handling_exceptions (exception_handling.py:85, 128-129): the proxies of the stack, with the proxies of the
    exception's traceback after the last of them, show the stack and then the traceback. *)
Lemma shows_join s s' p q t f a b r u es es' : at_ s q = Some (OProxy t) -> at_ s t = Some (OTb None (Some f) a b) ->
  (forall i, i <> t -> i < length (objs s) -> at_ s' i = at_ s i) -> at_ s' t = Some (OTb (Some r) (Some f) a b) ->
  shows s p q es -> shows s' r u es' -> shows s' p u (es ++ es').
Proof.
  intros Q T A T' H R. induction H as [x v f' a' b' X V|x v y z f' a' b' es X V H IH]; simpl.
  - rewrite X in Q. inversion Q; subst v. rewrite V in T. inversion T; subst. eapply sh_more; eauto.
    rewrite A; auto; [|eapply at_lt; eauto]. intros ->. congruence.
  - eapply sh_more.
    + rewrite A; [eauto| |eapply at_lt; eauto]. intros ->. congruence.
    + rewrite A; [eauto| |eapply at_lt; eauto]. intros ->. congruence.
    + apply IH; auto.
Qed.

Theorem C122_joined : forall s stack es k s1 first last s2 t es2 fuel,
  sound s -> Forall2 (fun f e => entry_of s (FromFrame f) e) stack es -> k < length stack ->
  proxy_of_stack stack k s = (s1, Done, (first, last)) ->
  sound s2 -> agree s1 s2 -> chain s2 t es2 -> length es2 <= fuel ->
  exists s3 second q s4, proxy_of_tb fuel t 0 s2 = (s3, Done, (second, q)) /\ set_next last (Some second) s3 = (s4, Done) /\
    sound s4 /\ shows s4 first q (rev (skipn k es) ++ es2).
Proof.
  intros s stack es k s1 first last s2 t es2 fuel S H L K S2 A C F.
  destruct (C122_stack s stack es k S H) as (X & _). destruct (X L) as (s1' & first' & last' & K' & Sh & _). rewrite K in K'. inversion K'; subst. clear K' X.
  assert (Lc : 0 < length es2) by (inversion C; simpl; lia).
  destruct (copy_built s2 t es2 0 fuel S2 C Lc F) as (s3 & second & q & K3 & (S3 & A3 & _ & Sh3 & (u & Qu & Lu))). simpl in Sh3.
  assert (Sh1 : shows s2 first' last' (rev (skipn k es))) by (eapply shows_agree; eauto).
  assert (Sh1' : shows s3 first' last' (rev (skipn k es))) by (eapply shows_agree; eauto).
  destruct (shows_end _ _ _ _ Sh1) as (v & f & a & b & Lv & V).
  assert (Lv3 : at_ s3 last' = Some (OProxy v)) by (rewrite (proj2 A3); eauto using at_lt).
  assert (V3 : at_ s3 v = Some (OTb None (Some f) a b)) by (rewrite (proj2 A3); eauto using at_lt).
  assert (T : is_tb s3 second = true).
  { destruct (shows_start _ _ _ _ Sh3) as (z & Z). unfold is_tb, real. rewrite Z. auto. }
  set (s4 := put v (OTb (Some second) (Some f) a b) (add second 1 s3)).
  assert (K4 : set_next last' (Some second) s3 = (s4, Done)) by (unfold set_next; rewrite Lv3, V3, T; reflexivity).
  exists s3, second, q, s4. split; [exact K3|]. split; [exact K4|]. split; [eapply sound_set_next; eauto|].
  assert (A4 : forall i, at_ s4 i = if Nat.eqb i v then Some (OTb (Some second) (Some f) a b) else at_ s3 i).
  { intros i. unfold s4. rewrite put_at; [reflexivity|]. change (v < length (objs s3)). eapply at_lt; eauto. }
  eapply (shows_join s3 s4 first' last' v f a b second q); eauto.
  - intros i Hi _. rewrite A4. destruct (Nat.eqb_spec i v); congruence.
  - rewrite A4, Nat.eqb_refl. auto.
  - eapply (shows_away s3 s4 v (length (objs s2))); eauto.
    + intros i Hi. rewrite A4. destruct (Nat.eqb_spec i v); congruence.
    + eapply at_lt; eauto.
Qed.
Print Assumptions C122_joined.

(** ** A case *)

(** frames 0 (outermost), 1, 2; the traceback 4 -> 3 of an exception raised in frame 2 and seen in frame 1; frames 0 and 1 are running *)
Definition ex_s : state :=
  mkState [OFrame [] 7 10; OFrame [] 8 20; OFrame [] 9 30; OTb None (Some 2) 9 30; OTb (Some 3) (Some 1) 8 21]
          (fun i => Z.of_nat (nth i [1; 2; 1; 1; 1] 0)) [0; 1; 4].

Example ex_sound : sound ex_s.
Proof.
  split.
  - intros i H. simpl in *. intuition lia.
  - intros i H. simpl in H. do 5 (destruct i as [|i]; [reflexivity|]). lia.
Qed.
Example ex_chain : chain ex_s 4 [(1, 8, 21); (2, 9, 30)].
Proof. eapply ch_more; [reflexivity|reflexivity|]. eapply ch_last; reflexivity. Qed.
Example ex_stack : Forall2 (fun f e => entry_of ex_s (FromFrame f) e) [1; 0] [(1, 8, 20); (0, 7, 10)].
Proof. repeat (constructor; [econstructor; reflexivity|]). constructor. Qed.
Example ex_result :
  let '(s1, o1, (first, last)) := proxy_of_stack [1; 0] 0 ex_s in
  let '(s3, o3, (second, q)) := proxy_of_tb 2 4 0 s1 in
  let '(s4, o4) := set_next last (Some second) s3 in
  (o1, o3, o4) = (Done, Done, Done) /\ (first, last, second, q) = (7, 10, 13, 16) /\
  map (fun p => fields s4 p) [7; 10; 13; 16] =
    [Some (Some 10, Some 0, 7, 10); Some (Some 13, Some 1, 8, 20); Some (Some 16, Some 1, 8, 21); Some (None, Some 2, 9, 30)].
Proof. vm_compute. repeat split. Qed.
Example ex_steps : exists s', steps ex_s [ONew (FromTb (Some 4)); ONext 7 (Some 3); OGet 7; ONext 7 None; ODrop 3; OFrm 7 (Some 0)] s'.
Proof.
  eexists. eapply st_new; [eapply eo_tb; reflexivity|reflexivity|]. eapply st_next; [reflexivity|].
  eapply st_get; [reflexivity|]. eapply st_next; [reflexivity|]. eapply st_drop; [simpl; auto|].
  eapply st_frame; [reflexivity|]. constructor.
Qed.

(** ** Not so *)

(** The assertions of the assignments come after the count of the old value was lowered (utils/traceback_proxy.py:92-96, 110-114):
    an assignment refused by the assertion leaves an object that is referred to once more than it is counted. *)
Theorem C122_assert_refuted : exists s p v s', sound s /\ set_frame p v s = (s', Assertion) /\
  exists i, (count s' i < Z.of_nat (count_occ Nat.eq_dec (references s') i))%Z.
Proof.
  destruct (new_proxy (FromTb (Some 4)) ex_s) as ((s1 & o) & p) eqn:K.
  assert (E : entry_of ex_s (FromTb (Some 4)) (1, 8, 21)) by (eapply eo_tb; reflexivity).
  destruct (new_proxy_ok _ _ _ _ _ E ex_sound) as (s' & K' & S' & _). rewrite K in K'. inversion K'; subst. clear K'.
  exists s', 7, (Some 3). vm_compute in K. inversion K; subst. eexists. split; [exact S'|]. split; [reflexivity|].
  exists 1. vm_compute. reflexivity.
Qed.
Print Assumptions C122_assert_refuted.

(** The frame of create_traceback is not referred to any more when tb_frame was assigned; its count is made 0 by the subtraction in
    line 114, which frees nothing: the frame and, through its variable tb, the traceback are kept until the garbage collector finds
    them. *)
Theorem C122_zero_refuted : forall s src f a b, sound s -> entry_of s src (f, a, b) ->
  exists s' p i t, new_proxy src s = (s', Done, p) /\ at_ s' p = Some (OProxy t) /\ count s' i = 0%Z /\ at_ s' i = Some (OFrame [t] 0 0).
Proof.
  intros s src f a b S E. destruct (new_proxy_ok src s f a b E S) as (s' & K & _ & _ & _ & P & _ & _ & Z & Fr).
  exists s', (Datatypes.S (Datatypes.S (length (objs s)))), (length (objs s)), (Datatypes.S (length (objs s))). auto.
Qed.
Print Assumptions C122_zero_refuted.
