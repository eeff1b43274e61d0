(** Properties of slash.requires (Requires.v): C72. *)

From Coq Require Import List Bool Arith Lia.
From Verif Require Import Dict Requires.
Import ListNotations.

Section P.
Variable mro : nat -> list nat.
(** a class comes first in its own resolution order *)
Hypothesis mro_self : forall t, exists l, mro t = t :: l.

(** attributes belong to the thing they are on, and no list is shared *)
Definition wf (w : world) : Prop :=
  (forall t k r, d_get t (w_attr w) = Some (k, r) -> k = t /\ r < w_next w)
  /\ (forall t t' k k' r, d_get t (w_attr w) = Some (k, r) -> d_get t' (w_attr w) = Some (k', r) -> t = t').

Lemma wf0 : wf world0.
Proof. split; simpl; discriminate. Qed.

Lemma first_attr_self t w : match d_get t (w_attr w) with
  | Some kr => first_attr (mro t) (w_attr w) = Some kr
  | None => exists l, mro t = t :: l /\ first_attr (mro t) (w_attr w) = first_attr l (w_attr w)
  end.
Proof.
  destruct (mro_self t) as [l E]. destruct (d_get t (w_attr w)) eqn:D.
  - rewrite E. simpl. rewrite D. auto.
  - exists l. split; auto. rewrite E. simpl. rewrite D. auto.
Qed.

Lemma first_attr_In l a k r : first_attr l a = Some (k, r) -> exists t, In t l /\ d_get t a = Some (k, r).
Proof.
  induction l as [|t l IH]; simpl; [discriminate|]. destruct (d_get t a) as [kr|] eqn:D.
  - intros X. inversion X; subst. eauto.
  - intros X. destruct (IH X) as (t' & I & E). eauto.
Qed.

(** the list of a thing decorated itself *)
Lemma ensure_spec t w : wf w ->
  let (w1, r) := ensure mro t w in
  wf w1 /\ d_get t (w_attr w1) = Some (t, r) /\ deref r w1 = get_requirements mro t w
  /\ (forall u, u <> t -> d_get u (w_attr w1) = d_get u (w_attr w))
  /\ (forall r', r' < w_next w -> deref r' w1 = deref r' w)
  /\ w_next w <= w_next w1.
Proof.
  intros [W1 W2]. unfold ensure, get_requirements.
  assert (FS := first_attr_self t w).
  destruct (first_attr (mro t) (w_attr w)) as [[k r]|] eqn:F.
  - destruct (Nat.eqb_spec k t) as [->|N].
    + destruct (first_attr_In _ _ _ _ F) as (t' & I & D). destruct (W1 _ _ _ D) as [<- L].
      split; [split; auto|]. auto 10.
    + destruct (d_get t (w_attr w)) as [kr|] eqn:D.
      { exfalso. inversion FS; subst. destruct (W1 _ _ _ D). congruence. }
      unfold deref; simpl. split; [split; simpl|].
      * intros u k' r' X. rewrite d_get_set in X. destruct (Nat.eqb_spec u t) as [->|NU].
        { inversion X; subst. split; auto. }
        { destruct (W1 _ _ _ X). split; auto. }
      * intros u u' k1 k2 r' X Y. rewrite d_get_set in X, Y.
        destruct (Nat.eqb_spec u t) as [->|NU], (Nat.eqb_spec u' t) as [->|NU']; auto.
        { inversion X; subst. destruct (W1 _ _ _ Y). lia. }
        { inversion Y; subst. destruct (W1 _ _ _ X). lia. }
        { eauto. }
      * rewrite d_get_set_same. split; auto. rewrite d_get_set_same. split; auto.
        split; [intros u NU; apply d_get_set_other; auto|].
        split; [|lia]. intros r' L. rewrite d_get_set_other by lia. auto.
  - destruct (d_get t (w_attr w)) as [kr|] eqn:D; [congruence|].
    unfold deref; simpl. split; [split; simpl|].
    * intros u k' r' X. rewrite d_get_set in X. destruct (Nat.eqb_spec u t) as [->|NU].
      { inversion X; subst. split; auto. }
      { destruct (W1 _ _ _ X). split; auto. }
    * intros u u' k1 k2 r' X Y. rewrite d_get_set in X, Y.
      destruct (Nat.eqb_spec u t) as [->|NU], (Nat.eqb_spec u' t) as [->|NU']; auto.
      { inversion X; subst. destruct (W1 _ _ _ Y). lia. }
      { inversion Y; subst. destruct (W1 _ _ _ X). lia. }
      { eauto. }
    * rewrite d_get_set_same. split; auto. rewrite d_get_set_same. split; auto.
      split; [intros u NU; apply d_get_set_other; auto|].
      split; [|lia]. intros r' L. rewrite d_get_set_other by lia. auto.
Qed.

Lemma requires_spec t q w : wf w ->
  wf (requires mro t q w)
  /\ (exists r, d_get t (w_attr (requires mro t q w)) = Some (t, r)
                /\ deref r (requires mro t q w) = get_requirements mro t w ++ [q])
  /\ (forall u, u <> t -> d_get u (w_attr (requires mro t q w)) = d_get u (w_attr w))
  /\ (forall u k r, u <> t -> d_get u (w_attr w) = Some (k, r) -> deref r (requires mro t q w) = deref r w).
Proof.
  intros W. assert (E := ensure_spec t w W). unfold requires. destruct (ensure mro t w) as [w1 r].
  destruct E as (W1 & A & B & C & D & L).
  cbn [w_attr]. split; [exact W1|]. split; [|split; auto].
  - exists r. split; auto. rewrite <- B. unfold deref at 1. cbn [w_heap]. rewrite d_get_set_same. auto.
  - intros u k r' NU X. rewrite <- D by (destruct W as [W _]; apply (W _ _ _ X)).
    unfold deref at 1. cbn [w_heap]. rewrite d_get_set_other; auto.
    intros ->. rewrite <- C in X by auto. destruct W1 as [_ W1]. apply NU. eapply W1; eauto.
Qed.

Lemma wf_decorate h : wf (decorate mro h).
Proof.
  unfold decorate. generalize wf0. generalize world0. induction h as [|[t q] h IH]; intros w W; simpl; auto.
  apply IH, requires_spec, W.
Qed.

Lemma get_own t k r w : d_get t (w_attr w) = Some (k, r) -> get_requirements mro t w = deref r w.
Proof.
  intros D. unfold get_requirements. assert (F := first_attr_self t w). rewrite D in F. rewrite F. auto.
Qed.

(** ** The decorated thing gets the new requirement in addition to the previous ones. *)
Theorem C72_added h t q :
  get_requirements mro t (decorate mro (h ++ [(t, q)])) = get_requirements mro t (decorate mro h) ++ [q].
Proof.
  unfold decorate at 1. rewrite fold_left_app. simpl. fold (decorate mro h).
  destruct (requires_spec t q _ (wf_decorate h)) as (_ & (r & D & E) & _).
  rewrite (get_own _ _ _ _ D). exact E.
Qed.

(** things without t in their resolution order see no change *)
Lemma first_attr_other l t a a' : ~ In t l -> (forall u, u <> t -> d_get u a' = d_get u a) ->
  first_attr l a' = first_attr l a.
Proof.
  induction l as [|u l IH]; simpl; intros N H; auto.
  rewrite H by (intros ->; auto). destruct (d_get u a); auto.
Qed.

Lemma requires_unrelated t q w u : wf w -> ~ In t (mro u) ->
  get_requirements mro u (requires mro t q w) = get_requirements mro u w.
Proof.
  intros W N. destruct (requires_spec t q w W) as (_ & _ & B & C).
  unfold get_requirements. rewrite (first_attr_other (mro u) t (w_attr w) (w_attr (requires mro t q w)) N B).
  destruct (first_attr (mro u) (w_attr w)) as [[k r]|] eqn:F; auto.
  destruct (first_attr_In _ _ _ _ F) as (t' & I & D). eapply C; [|exact D]. intros ->. auto.
Qed.

(** ** Nothing but the thing itself and its subclasses is affected: in particular a
    requirement of a class does not leak into its bases and their other subclasses. *)
Theorem C72_no_leak h t q u :
  ~ In t (mro u) ->
  get_requirements mro u (decorate mro (h ++ [(t, q)])) = get_requirements mro u (decorate mro h).
Proof.
  intros N. unfold decorate at 1. rewrite fold_left_app. simpl. fold (decorate mro h).
  apply requires_unrelated; auto. apply wf_decorate.
Qed.

(** a thing decorated itself is not affected by later decorations of others *)
Lemma decorated_attr h u : In u (map fst h) -> exists r, d_get u (w_attr (decorate mro h)) = Some (u, r).
Proof.
  induction h as [|[t q] h IH] using rev_ind; [intros []|].
  unfold decorate. rewrite fold_left_app. simpl. fold (decorate mro h).
  destruct (requires_spec t q _ (wf_decorate h)) as (_ & (r & D & _) & B & _).
  rewrite map_app, in_app_iff. simpl. intros I.
  destruct (Nat.eq_dec u t) as [->|N]; [eauto|].
  rewrite B by auto. apply IH. destruct I as [I|[I|[]]]; auto. congruence.
Qed.

Theorem C72_fixed h t q u :
  In u (map fst h) -> u <> t ->
  get_requirements mro u (decorate mro (h ++ [(t, q)])) = get_requirements mro u (decorate mro h).
Proof.
  intros I N. destruct (decorated_attr h u I) as (r & D).
  unfold decorate at 1. rewrite fold_left_app. simpl. fold (decorate mro h).
  destruct (requires_spec t q _ (wf_decorate h)) as (_ & _ & B & C).
  rewrite (get_own u u r) by (rewrite B; auto). rewrite (get_own u u r) by auto. eapply C; eauto.
Qed.

(** ** A class has all requirements of its base, if the base is its only one and is
    completely decorated before the class is. *)
Definition bases_first (u : nat) (h : list (nat * nat)) : Prop :=
  forall h1 h2 t q, h = h1 ++ (t, q) :: h2 -> In t (mro u) -> t <> u -> ~ In u (map fst h1).

Lemma undecorated_attr h u : ~ In u (map fst h) -> d_get u (w_attr (decorate mro h)) = None.
Proof.
  induction h as [|[t q] h IH] using rev_ind; [auto|].
  unfold decorate. rewrite fold_left_app. simpl. fold (decorate mro h).
  destruct (requires_spec t q _ (wf_decorate h)) as (_ & _ & B & _).
  rewrite map_app, in_app_iff. simpl. intros N.
  rewrite B by intuition. apply IH. tauto.
Qed.

Theorem C72_inherited_partial u b h :
  mro u = u :: mro b -> ~ In u (mro b) -> bases_first u h ->
  incl (get_requirements mro b (decorate mro h)) (get_requirements mro u (decorate mro h)).
Proof.
  intros E NU. induction h as [|[t q] h IH] using rev_ind; intros BF.
  - intros x X. unfold get_requirements in *. simpl in *. 
    assert (Z : forall l, first_attr l [] = None) by (induction l; simpl; auto). rewrite Z in X. destruct X.
  - assert (BF' : bases_first u h).
    { intros h1 h2 t' q' -> I N. apply (BF h1 (h2 ++ [(t, q)]) t' q'); auto. rewrite <- app_assoc. reflexivity. }
    specialize (IH BF').
    destruct (Nat.eq_dec t u) as [->|NT].
    + rewrite C72_added, C72_no_leak by auto. intros x X. apply in_or_app. auto.
    + destruct (in_dec Nat.eq_dec u (map fst h)) as [I|NI].
      * destruct (in_dec Nat.eq_dec t (mro u)) as [J|NJ].
        { exfalso. apply (BF h [] t q eq_refl J NT I). }
        { rewrite (C72_fixed h t q u) by auto. rewrite (C72_no_leak h t q b); auto. rewrite E in NJ. simpl in NJ. tauto. }
      * assert (D : d_get u (w_attr (decorate mro (h ++ [(t, q)]))) = None).
        { apply undecorated_attr. rewrite map_app, in_app_iff. simpl. intuition. }
        unfold get_requirements. rewrite E. simpl. rewrite D. apply incl_refl.
Qed.
End P.

(** classes 2 and 3 derive from 1, class 4 from 2 and 3; 10 is a function *)
Definition ex_mro (t : nat) : list nat :=
  match t with 2 => [2; 1] | 3 => [3; 1] | 4 => [4; 2; 3; 1] | _ => [t] end.

Lemma ex_mro_self t : exists l, ex_mro t = t :: l.
Proof. do 5 (destruct t as [|t]; [simpl; eauto|]). simpl. eauto. Qed.

(** Of several bases only the first that has requirements counts: the requirements of
    the others are not checked. *)
Theorem C72_inherited_refuted :
  exists mro u b h q,
    (forall t, exists l, mro t = t :: l) /\ In b (mro u) /\ bases_first mro u h
    /\ In q (get_requirements mro b (decorate mro h)) /\ ~ In q (get_requirements mro u (decorate mro h)).
Proof.
  exists ex_mro, 4, 3, [(2, 7); (3, 8)], 8.
  split; [exact ex_mro_self|]. split; [simpl; auto|]. split.
  - intros h1 h2 t q E _ _ I.
    destruct h1 as [|p1 [|p2 [|p3 h1]]]; simpl in *; inversion E; subst; simpl in I; intuition discriminate.
  - vm_compute. intuition discriminate.
Qed.

(** a requirement added to the base after the subclass was decorated is not seen *)
Theorem C72_late_refuted :
  exists mro u b h q,
    (forall t, exists l, mro t = t :: l) /\ mro u = u :: mro b
    /\ In q (get_requirements mro b (decorate mro h)) /\ ~ In q (get_requirements mro u (decorate mro h)).
Proof.
  exists ex_mro, 2, 1, [(2, 7); (1, 8)], 8.
  split; [exact ex_mro_self|]. split; [reflexivity|]. vm_compute. intuition discriminate.
Qed.

Example C72_ex :
  let h := [(1, 5); (10, 9); (2, 6); (2, 7)] in
  bases_first ex_mro 2 h
  /\ get_requirements ex_mro 2 (decorate ex_mro h) = [5; 6; 7]
  /\ get_requirements ex_mro 1 (decorate ex_mro h) = [5]
  /\ get_requirements ex_mro 3 (decorate ex_mro h) = [5]
  /\ get_requirements ex_mro 4 (decorate ex_mro h) = [5; 6; 7]
  /\ get_requirements ex_mro 10 (decorate ex_mro h) = [9].
Proof.
  cbv zeta. split; [|repeat split; reflexivity].
  intros h1 h2 t q E I N J.
  destruct h1 as [|p1 [|p2 [|p3 [|p4 [|? ?]]]]]; simpl in *; inversion E; subst; simpl in *;
    intuition (try discriminate; try congruence).
Qed.

Print Assumptions C72_added.
Print Assumptions C72_no_leak.
Print Assumptions C72_fixed.
Print Assumptions C72_inherited_partial.
Print Assumptions C72_inherited_refuted.
Print Assumptions C72_late_refuted.
