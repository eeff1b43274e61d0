(** C49: configuration changes from the command line are undone. *)

From Coq Require Import List Bool Arith ZArith Ascii String.
From Verif Require Import Str Dict CliConf.
Import ListNotations.

Lemma restore_cons e l c : restore (e :: l) c = d_set (fst e) (snd e) (restore l c).
Proof. unfold restore. simpl. rewrite fold_left_app. reflexivity. Qed.

(** the first entry for a path decides *)
Lemma restore_get l c path :
  d_get path (restore l c) = match d_get path l with Some v => Some v | None => d_get path c end.
Proof.
  induction l as [|[k v] l IH]; auto. rewrite restore_cons, d_get_set. simpl.
  destruct (Nat.eqb_spec path k); auto.
Qed.

Lemma get_snoc {V} k (l : list (nat * V)) k' v :
  d_get k (l ++ [(k', v)]) = match d_get k l with Some x => Some x | None => if Nat.eqb k k' then Some v else None end.
Proof.
  induction l as [|[j w] l IH]; simpl; [destruct (Nat.eqb k k'); auto|].
  destruct (Nat.eqb k j); auto.
Qed.

Section C.
Variable deduce : cval -> cval -> option cval.
Variable c0 : cfg.

(** what is remembered for a path is its value at entry, everything assigned is
    remembered, everything else is as at entry *)
Record ok (s : cstate) : Prop := {
  k_val : forall p v, d_get p (cs_restore s) = Some v -> d_get p c0 = Some v;
  k_all : forall p, In p (cs_assigned s) -> d_get p (cs_restore s) <> None;
  k_same : forall p, ~ In p (cs_assigned s) -> d_get p (cs_cfg s) = d_get p c0 }.

Lemma remember_assign s path old new :
  ok s -> d_get path (cs_cfg s) = Some old ->
  ok (fst (assign deduce path old new (mkCs (cs_cfg s) (cs_restore s ++ [(path, old)]) (cs_assigned s)))).
Proof.
  intros [K1 K2 K3] G. unfold assign. simpl.
  assert (V : forall p v, d_get p (cs_restore s ++ [(path, old)]) = Some v -> d_get p c0 = Some v).
  { intros p v H. rewrite get_snoc in H. destruct (d_get p (cs_restore s)) as [x|] eqn:E.
    - apply K1. congruence.
    - destruct (Nat.eqb_spec p path) as [->|]; [|discriminate]. injection H as <-.
      rewrite <- K3; auto. intro I. apply (K2 _ I). auto. }
  assert (A : forall p, In p (cs_assigned s) -> d_get p (cs_restore s ++ [(path, old)]) <> None).
  { intros p I H. rewrite get_snoc in H. apply K2 in I. destruct (d_get p (cs_restore s)); congruence. }
  destruct (deduce old new) as [v|]; constructor; simpl; auto.
  - intros p I. apply in_app_or in I as [I|[<-|[]]]; auto. rewrite get_snoc, Nat.eqb_refl.
    destruct (d_get path (cs_restore s)); discriminate.
  - intros p N. rewrite d_get_set. destruct (Nat.eqb_spec p path) as [->|].
    + exfalso. apply N. apply in_or_app. right. left. auto.
    + apply K3. intro I. apply N. apply in_or_app. auto.
Qed.

Lemma flags_ok l s : ok s -> ok (fst (apply_flags deduce l s)).
Proof.
  revert s. induction l as [|g l IH]; intros s K; simpl; auto.
  destruct (d_get (g_path g) (cs_cfg s)) as [old|] eqn:G; auto.
  destruct (update_value g old) as [new|]; auto.
  destruct (cval_eqb new old); auto.
  pose proof (remember_assign s (g_path g) old new K G) as K1.
  destruct (assign deduce (g_path g) old new _) as [s1 []]; simpl in *; auto.
Qed.

Lemma overrides_ok l s : ok s -> ok (fst (apply_overrides deduce l s)).
Proof.
  revert s. induction l as [|[|path text] l IH]; intros s K; simpl; auto.
  destruct (d_get path (cs_cfg s)) as [old|] eqn:G; auto.
  pose proof (remember_assign s path old (VStr text) K G) as K1.
  destruct (assign deduce path old (VStr text) _) as [s1 []]; simpl in *; auto.
Qed.

(** Whatever flags and overrides are given, wherever their processing aborts and
    whatever the body does: after the context every path they assigned has the
    value it had at entry, and if the body was not run the whole configuration is
    as at entry. *)
Theorem C49_restored flags ovs body :
  match in_context deduce flags ovs body c0 with
  | (s, ran, final) =>
      (forall p, In p (cs_assigned s) -> d_get p final = d_get p c0)
      /\ (ran = false -> forall p, d_get p final = d_get p c0)
      /\ (ran = true -> forall p, d_get p (cs_cfg s) <> d_get p c0 -> d_get p final = d_get p c0)
  end.
Proof.
  assert (R : forall s c, ok s -> forall p, In p (cs_assigned s) -> d_get p (restore (cs_restore s) c) = d_get p c0).
  { intros s c [K1 K2 K3] p I. rewrite restore_get. specialize (K2 p I).
    destruct (d_get p (cs_restore s)) as [v|] eqn:E; [|congruence]. symmetry. auto. }
  assert (F : forall s, ok s -> forall p, d_get p (restore (cs_restore s) (cs_cfg s)) = d_get p c0).
  { intros s K p. destruct (in_dec Nat.eq_dec p (cs_assigned s)) as [I|N]; [apply R; auto|].
    destruct K as [K1 K2 K3]. rewrite restore_get. destruct (d_get p (cs_restore s)) eqn:E; [symmetry|]; auto. }
  assert (K0 : ok (mkCs c0 [] [])).
  { constructor; simpl; auto; intros; try discriminate; tauto. }
  unfold in_context. pose proof (flags_ok flags _ K0) as K1.
  destruct (apply_flags deduce flags (mkCs c0 [] [])) as [s1 []]; simpl in K1.
  2: { split; [auto|]. split; [auto|discriminate]. }
  pose proof (overrides_ok ovs _ K1) as K2.
  destruct (apply_overrides deduce ovs s1) as [s2 []]; simpl in K2.
  - split; [auto|]. split; [discriminate|]. intros _ p N. apply R; auto.
    destruct (in_dec Nat.eq_dec p (cs_assigned s2)) as [I|NI]; auto.
    exfalso. apply N. apply (k_same _ K2). auto.
  - split; [auto|]. split; [auto|discriminate].
Qed.

(** The body sees the requested values: flags and overrides leave every path they
    do not assign alone. *)
Theorem C49_others_untouched flags ovs body :
  match in_context deduce flags ovs body c0 with
  | (s, _, _) => forall p, ~ In p (cs_assigned s) -> d_get p (cs_cfg s) = d_get p c0
  end.
Proof.
  assert (K0 : ok (mkCs c0 [] [])).
  { constructor; simpl; auto; intros; try discriminate; tauto. }
  unfold in_context. pose proof (flags_ok flags _ K0) as K1.
  destruct (apply_flags deduce flags (mkCs c0 [] [])) as [s1 []]; simpl in K1; [|apply (k_same _ K1)].
  pose proof (overrides_ok ovs _ K1) as K2.
  destruct (apply_overrides deduce ovs s1) as [s2 []]; apply (k_same _ K2).
Qed.
End C.

(** numbers are accepted for numbers, text for text *)
Definition ex_deduce (old new : cval) : option cval :=
  match old, new with
  | VNum _, VStr s => if str_eqb s (lit "7"%string) then Some (VNum 7) else None
  | _, v => Some v
  end.
Definition ex_cfg : cfg := [(1, VNum 3); (2, VStr (lit "a"%string)); (3, VList [])].
Definition ex_flags := [mkFlag 1 None None [Increase; Increase]; mkFlag 3 None (Some [lit "x"%string]) []].
Definition ex_ovs := [Ov 2 (lit "b"%string); Ov 1 (lit "7"%string); Ov 2 (lit "c"%string)].

Example C49_ex :
  in_context ex_deduce ex_flags ex_ovs (fun c => d_set 2 (VNum 99) c) ex_cfg
  = (mkCs [(1, VNum 7); (2, VStr (lit "c"%string)); (3, VList [lit "x"%string])]
          [(1, VNum 3); (3, VList []); (2, VStr (lit "a"%string)); (1, VNum 5); (2, VStr (lit "b"%string))]
          [1; 3; 2; 1; 2], true, ex_cfg).
Proof. reflexivity. Qed.

(** an override that is refused half-way *)
Example C49_ex_abort :
  match in_context ex_deduce ex_flags [Ov 2 (lit "b"%string); Ov 1 (lit "x"%string)] (fun c => c) ex_cfg with
  | (_, ran, final) => ran = false /\ final = ex_cfg
  end.
Proof. split; reflexivity. Qed.

Print Assumptions C49_restored.
Print Assumptions C49_others_untouched.

(** What the body changed elsewhere stays. *)
Theorem C49_body_kept deduce flags ovs body c0 :
  match in_context deduce flags ovs body c0 with
  | (s, ran, final) => ran = true -> forall p, ~ In p (cs_assigned s) -> d_get p final = d_get p (body (cs_cfg s))
  end.
Proof.
  assert (Fl : forall l s s', apply_flags deduce l s = (s', true) ->
     (forall p, In p (map fst (cs_restore s)) -> In p (cs_assigned s)) -> forall p, In p (map fst (cs_restore s')) -> In p (cs_assigned s')).
  { induction l as [|g l IH]; simpl; intros s s' H I; [inversion H; subst; auto|].
    destruct (d_get (g_path g) (cs_cfg s)) as [old|]; [|eapply IH; eauto].
    destruct (update_value g old) as [new|]; [|discriminate]. destruct (cval_eqb new old); [eapply IH; eauto|].
    unfold assign in H. destruct (deduce old new); [|discriminate]. eapply IH; [exact H|]. simpl. intros p Q.
    rewrite map_app, in_app_iff in Q. simpl in Q. rewrite in_app_iff. simpl. destruct Q as [Q|[Q|[]]]; auto. }
  assert (Ov : forall l s s', apply_overrides deduce l s = (s', true) ->
     (forall p, In p (map fst (cs_restore s)) -> In p (cs_assigned s)) -> forall p, In p (map fst (cs_restore s')) -> In p (cs_assigned s')).
  { induction l as [|[|path text] l IH]; simpl; intros s s' H I; [inversion H; subst; auto|discriminate|].
    destruct (d_get path (cs_cfg s)) as [old|]; [|discriminate].
    unfold assign in H. destruct (deduce old (VStr text)); [|discriminate]. eapply IH; [exact H|]. simpl. intros p Q.
    rewrite map_app, in_app_iff in Q. simpl in Q. rewrite in_app_iff. simpl. destruct Q as [Q|[Q|[]]]; auto. }
  assert (R : forall l c p, ~ In p (map fst l) -> d_get p (restore l c) = d_get p c).
  { intros l c p. unfold restore. rewrite in_map_iff.
    intros N. assert (N' : forall e, In e (rev l) -> fst e <> p) by (intros e I Q; apply N; exists e; split; auto; apply in_rev; auto).
    clear N. revert c. induction (rev l) as [|e l' IH]; simpl; intros c; auto. rewrite IH by (intros; apply N'; right; auto).
    rewrite d_get_set. destruct (Nat.eqb_spec p (fst e)); auto. destruct (N' e); simpl; auto. }
  unfold in_context. destruct (apply_flags deduce flags (mkCs c0 [] [])) as [s1 []] eqn:E1; [|discriminate].
  destruct (apply_overrides deduce ovs s1) as [s2 []] eqn:E2; [|discriminate].
  intros _ p N. apply R. intros Q. apply N. eapply Ov; [exact E2| |exact Q]. eapply Fl; [exact E1|]. simpl. tauto.
Qed.
Print Assumptions C49_body_kept.

(** ** What the body sees *)

(** one after the other *)
Inductive called : list callback -> cval -> cval -> Prop :=
| called_nil v : called [] v v
| called_true l v w : called l (VBool true) w -> called (SetTrue :: l) v w
| called_false l v w : called l (VBool false) w -> called (SetFalse :: l) v w
| called_inc l z w : called l (VNum (z + 1)) w -> called (Increase :: l) (VNum z) w
| called_inc_bool l (b : bool) w : called l (VNum ((if b then 1 else 0) + 1)) w -> called (Increase :: l) (VBool b) w
| called_dec l z w : called l (VNum (z - 1)) w -> called (Decrease :: l) (VNum z) w
| called_dec_bool l (b : bool) w : called l (VNum ((if b then 1 else 0) - 1)) w -> called (Decrease :: l) (VBool b) w.

(** what the options of one leaf ask for, given its value: appended values come
    after the old ones, a plain argument replaces it, then the switches in order *)
Inductive asked (g : flag) : cval -> cval -> Prop :=
| asked_append old l w : g_append g = Some l -> called (g_calls g) (VList (old ++ l)) w -> asked g (VList old) w
| asked_append_str s l w : g_append g = Some l -> called (g_calls g) (VList (map (fun c => [c]) s ++ l)) w -> asked g (VStr s) w
| asked_arg v a w : g_append g = None -> g_arg g = Some a -> called (g_calls g) (VStr a) w -> asked g v w
| asked_none v w : g_append g = None -> g_arg g = None -> called (g_calls g) v w -> asked g v w.

(** values assigned one after the other, each converted by the one before *)
Inductive converted (deduce : cval -> cval -> option cval) : cval -> list str -> cval -> Prop :=
| conv_nil v : converted deduce v [] v
| conv_cons v t l w x : deduce v (VStr t) = Some w -> converted deduce w l x -> converted deduce v (t :: l) x.

Definition texts (p : nat) (ovs : list override) : list str :=
  flat_map (fun o => match o with Ov q t => if Nat.eqb p q then [t] else [] | OvBad => [] end) ovs.

Lemma called_fold l : forall v w,
  fold_left (fun acc k => match acc with Some v => call_back k v | None => None end) l (Some v) = Some w -> called l v w.
Proof.
  assert (N : forall l, fold_left (fun acc k => match acc with Some v => call_back k v | None => None end) l (@None cval) = None).
  { intros m. induction m as [|k m IH]; simpl; auto. }
  induction l as [|k l IH]; simpl; intros v w H; [inversion H; constructor|].
  destruct k; simpl in H.
  - constructor. auto.
  - constructor. auto.
  - destruct v; simpl in H; try (rewrite N in H; discriminate); constructor; apply IH; exact H.
  - destruct v; simpl in H; try (rewrite N in H; discriminate); constructor; apply IH; exact H.
Qed.

Lemma asked_update g v w : update_value g v = Some w -> asked g v w.
Proof.
  unfold update_value. intros H.
  assert (N : forall l, fold_left (fun acc k => match acc with Some v => call_back k v | None => None end) l (@None cval) = None).
  { intros m. induction m as [|k m IH]; simpl; auto. }
  destruct (g_append g) as [l|] eqn:Ea.
  - destruct v; simpl in H; try (rewrite N in H; discriminate); apply called_fold in H;
      [eapply asked_append_str|eapply asked_append]; eauto.
  - destruct (g_arg g) as [a|] eqn:Eg; apply called_fold in H; [eapply asked_arg|eapply asked_none]; eauto.
Qed.

Lemma overrides_conv deduce ovs : forall s s', apply_overrides deduce ovs s = (s', true) ->
  forall p, match d_get p (cs_cfg s) with
            | Some v => exists w, converted deduce v (texts p ovs) w /\ d_get p (cs_cfg s') = Some w
            | None => d_get p (cs_cfg s') = None
            end.
Proof.
  induction ovs as [|[|q t] ovs IH]; simpl; intros s s' H p.
  - inversion H; subst. destruct (d_get p (cs_cfg s')) as [v|]; auto. exists v. split; [constructor|reflexivity].
  - discriminate.
  - destruct (d_get q (cs_cfg s)) as [old|] eqn:Eq; [|discriminate]. unfold assign in H.
    destruct (deduce old (VStr t)) as [v|] eqn:Ed; [|discriminate]. specialize (IH _ _ H p). cbn [cs_cfg] in IH. rewrite d_get_set in IH.
    destruct (Nat.eqb p q) eqn:E.
    + apply Nat.eqb_eq in E. subst q. rewrite Eq. destruct IH as (w & C & G). exists w. split; [|exact G]. simpl. econstructor; eauto.
    + destruct (d_get p (cs_cfg s)); auto.
Qed.

Lemma flags_conv deduce l : NoDup (map g_path l) -> forall s s', apply_flags deduce l s = (s', true) ->
  forall p, match d_get p (cs_cfg s) with
            | Some v => exists w, d_get p (cs_cfg s') = Some w /\ ((forall g, In g l -> g_path g <> p) -> w = v) /\
                (forall g, In g l -> g_path g = p ->
                   exists x, asked g v x /\ (cval_eqb x v = true -> w = v) /\ (cval_eqb x v = false -> deduce v x = Some w))
            | None => d_get p (cs_cfg s') = None
            end.
Proof.
  induction l as [|g l IH]; intros N s s' H p.
  - inversion H; subst. destruct (d_get p (cs_cfg s')) as [v|]; auto. exists v. split; [reflexivity|]. split; [auto|]. intros g [].
  - inversion N as [|? ? N1 N2]; subst. simpl in H. specialize (IH N2).
    assert (Other : forall q, In q l -> g_path q <> g_path g) by (intros q Hq E; apply N1; rewrite <- E; apply in_map, Hq).
    destruct (d_get (g_path g) (cs_cfg s)) as [old|] eqn:Eg.
    + destruct (update_value g old) as [new|] eqn:Eu; [|discriminate]. destruct (cval_eqb new old) eqn:Ee.
      * specialize (IH _ _ H p). destruct (d_get p (cs_cfg s)) as [v|] eqn:Ep; auto. destruct IH as (w & A & B & C). exists w. split; [exact A|].
        split; [intros Hn; apply B; intros q Hq; apply Hn; right; exact Hq|]. intros q [<-|Hq] Eq; [|apply C; auto].
        subst p. rewrite Ep in Eg. inversion Eg; subst v. exists new. split; [apply asked_update, Eu|]. split; [|congruence].
        intros _. apply B. exact Other.
      * unfold assign in H. destruct (deduce old new) as [x|] eqn:Ed; [|discriminate]. specialize (IH _ _ H p). cbn [cs_cfg] in IH.
        rewrite d_get_set in IH. destruct (Nat.eqb p (g_path g)) eqn:E.
        -- apply Nat.eqb_eq in E. subst p. rewrite Eg. destruct IH as (w & A & B & C). exists w. split; [exact A|]. rewrite (B Other) in *.
           split; [intros Hn; exfalso; apply (Hn g); [left|]; reflexivity|]. intros q [<-|Hq] Eq; [|exfalso; apply (Other q Hq Eq)].
           exists new. split; [apply asked_update, Eu|]. split; [congruence|auto].
        -- destruct (d_get p (cs_cfg s)) as [v|]; auto. destruct IH as (w & A & B & C). exists w. split; [exact A|].
           split; [intros Hn; apply B; intros q Hq; apply Hn; right; exact Hq|]. intros q [<-|Hq] Eq; [apply Nat.eqb_neq in E; congruence|auto].
    + specialize (IH _ _ H p). destruct (d_get p (cs_cfg s)) as [v|] eqn:Ep; auto. destruct IH as (w & A & B & C). exists w. split; [exact A|].
      split; [intros Hn; apply B; intros q Hq; apply Hn; right; exact Hq|]. intros q [<-|Hq] Eq; [congruence|auto].
Qed.

(** two values are the same to Python: equal, or a bool and the number it is *)
Inductive same : cval -> cval -> Prop :=
| same_refl v : same v v
| same_true : same (VBool true) (VNum 1)
| same_false : same (VBool false) (VNum 0)
| same_sym v w : same v w -> same w v.

Lemma strs_eqb_eq a : forall b, strs_eqb a b = true <-> a = b.
Proof.
  induction a as [|x a IH]; intros [|y b]; simpl; try (split; [discriminate|intros; discriminate]); [tauto|].
  rewrite andb_true_iff, IH. destruct (str_eqb_spec x y); split; [intros [_ ->]; congruence|intros E; inversion E; auto|intros []; discriminate|intros E; inversion E; contradiction].
Qed.

Lemma cval_eqb_sym a b : cval_eqb a b = true -> cval_eqb b a = true.
Proof.
  destruct a as [|x|x|x|x], b as [|y|y|y|y]; simpl; auto; try discriminate.
  - destruct x, y; auto.
  - destruct x, y as [|[| |]|]; auto.
  - destruct y, x as [|[| |]|]; auto.
  - rewrite !Z.eqb_eq. congruence.
  - destruct (str_eqb_spec x y); [subst|discriminate]. destruct (str_eqb_spec y y); auto.
  - rewrite !strs_eqb_eq. congruence.
Qed.

Lemma cval_eqb_same a b : cval_eqb a b = true <-> same a b.
Proof.
  split.
  - destruct a as [|x|x|x|x], b as [|y|y|y|y]; simpl; try discriminate; intros H.
    + constructor.
    + destruct x, y; try discriminate; constructor.
    + destruct x; apply Z.eqb_eq in H; subst; constructor.
    + destruct y; apply Z.eqb_eq in H; subst; apply same_sym; constructor.
    + apply Z.eqb_eq in H as ->. constructor.
    + destruct (str_eqb_spec x y); [subst; constructor|discriminate].
    + apply strs_eqb_eq in H as ->. constructor.
  - induction 1 as [v| | |v w _ IH]; [|reflexivity|reflexivity|apply cval_eqb_sym, IH].
    destruct v as [|[]|z|s|l]; simpl; auto; [apply Z.eqb_refl|destruct (str_eqb_spec s s); auto|apply strs_eqb_eq; reflexivity].
Qed.

(** The body sees what was asked for: the old value, changed by the options of the
    leaf, then by each -o in turn; leaves without either as they were *)
Theorem C49_applied deduce flags ovs body c0 : NoDup (map g_path flags) ->
  match in_context deduce flags ovs body c0 with
  | (s, ran, _) => ran = true -> forall p,
      match d_get p c0 with
      | None => d_get p (cs_cfg s) = None
      | Some v => exists w x, ((forall g, In g flags -> g_path g <> p) -> w = v) /\
          (forall g, In g flags -> g_path g = p ->
             exists y, asked g v y /\ (same y v -> w = v) /\ (~ same y v -> deduce v y = Some w)) /\
          converted deduce w (texts p ovs) x /\ d_get p (cs_cfg s) = Some x
      end
  end.
Proof.
  intros N. unfold in_context. destruct (apply_flags deduce flags (mkCs c0 [] [])) as [s1 []] eqn:E1; [|discriminate].
  destruct (apply_overrides deduce ovs s1) as [s2 []] eqn:E2; [|discriminate]. intros _ p.
  pose proof (flags_conv deduce flags N _ _ E1 p) as F. cbn [cs_cfg] in F. pose proof (overrides_conv deduce ovs _ _ E2 p) as O.
  destruct (d_get p c0) as [v|].
  - destruct F as (w & A & B & C). rewrite A in O. destruct O as (x & D & G). exists w, x. split; [exact B|]. split; [|auto]. intros g Ig Eg. destruct (C g Ig Eg) as (y & Y1 & Y2 & Y3). exists y. split; [exact Y1|].
    rewrite <- !cval_eqb_same. split; [exact Y2|]. intros Q. apply Y3. destruct (cval_eqb y v); [contradiction|reflexivity].
  - rewrite F in O. exact O.
Qed.
Print Assumptions C49_applied.

(** the flags of [C49_ex] have different paths, and a list is really extended *)
Example C49_applied_ex : NoDup (map g_path ex_flags) /\
  asked (mkFlag 3 None (Some [lit "x"%string]) []) (VList [lit "y"%string]) (VList [lit "y"%string; lit "x"%string]).
Proof.
  split; [repeat constructor; simpl; intuition discriminate|]. eapply asked_append; [reflexivity|]. constructor.
Qed.
