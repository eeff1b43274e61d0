(** C152: the marks slash puts on exceptions. *)

From Coq Require Import List Bool Arith Lia.
From Verif Require Import Dict Marks MarksProps FrameMark.
Import ListNotations.

(** the exception of a call *)
Definition who (a : call) : nat :=
  match a with Correct e _ | Correction e | Fatal e | IsFatal e | Inhibit e | Inhibits e | Marker _ e | IsMarked _ e => e end.

(** the corrections of [e], added up *)
Definition total (e : nat) (calls : list call) : nat :=
  list_sum (map (fun a => match a with Correct x c => if Nat.eqb x e then c else 0 | _ => 0 end) calls).

Section P.
Variable cls : nat -> option nat.
Variable mro : nat -> list nat.
Variable settable : nat -> bool.
Hypothesis C : classes cls mro.
Notation do_call := (do_call cls mro settable).
Notation observe := (observe cls mro).
Notation get := (get_exception_mark cls mro settable).
Notation put := (mark_exception cls mro settable).
Notation ereach := (ereach cls mro settable).

(** what is found for a name on [e] after the calls *)
Definition spec (e k : nat) (calls : list call) (v : option mval) : Prop :=
  match k with
  | 0 => v = if existsb (fun a => match a with Correct x _ => Nat.eqb x e | _ => false end) calls then Some (MAtom (total e calls)) else None
  | 1 => v = if existsb (fun a => match a with Fatal x => Nat.eqb x e | _ => false end) calls then Some (MAtom 1) else None
  | 2 => v = if existsb (fun a => match a with Inhibit x => Nat.eqb x e | _ => false end) calls then Some (MAtom 1) else None
  | S (S (S n)) => v = if existsb (fun a => match a with Marker m x => Nat.eqb m n && Nat.eqb x e | _ => false end) calls then Some (MAtom 1) else None
  end.

Lemma get_same w e c k o k' : ereach w -> cls e = Some c -> observe o k' (fst (get e k w)) = observe o k' w /\ ereach (fst (get e k w)) /\ snd (get e k w) = observe e k w.
Proof.
  intros R E. destruct (C51_lookup cls mro settable C w e c k o k' R E) as [A B]. split; [exact A|]. split; [exact (er_step _ _ _ w (EGet e k) R)|exact B].
Qed.

Lemma marked_same w e c k o k' : ereach w -> cls e = Some c -> observe o k' (fst (is_marked cls mro settable k e w)) = observe o k' w /\ ereach (fst (is_marked cls mro settable k e w)).
Proof. intros R E. unfold is_marked. destruct (get_same w e c k o k' R E) as (A & B & _). destruct (get e k w) as [w1 v]. split; assumption. Qed.

Lemma total_app e l a : total e (l ++ [a]) = total e l + match a with Correct x c => if Nat.eqb x e then c else 0 | _ => 0 end.
Proof. unfold total. rewrite map_app, list_sum_app. cbn. lia. Qed.

Lemma total_none e l : existsb (fun a => match a with Correct x _ => Nat.eqb x e | _ => false end) l = false -> total e l = 0.
Proof.
  induction l as [|a l IH]; [reflexivity|]. cbn [existsb]. intros H. apply orb_false_iff in H as [A B]. unfold total in *. cbn [map list_sum fold_right].
  change (fold_right Nat.add 0) with list_sum. rewrite (IH B). destruct a; try reflexivity. rewrite A. reflexivity.
Qed.

Lemma calls_spec calls : (forall a, In a calls -> cls (who a) <> None /\ settable (who a) = true) ->
  ereach (fold_left do_call calls world0) /\
  forall e c, cls e = Some c -> (forall k, observe e k world0 = None) -> forall k, spec e k calls (observe e k (fold_left do_call calls world0)).
Proof.
  induction calls as [|a calls IH] using rev_ind; intros H.
  - split; [constructor|]. intros e c E Z k. cbn. rewrite Z. destruct k as [|[|[|k]]]; reflexivity.
  - destruct IH as [R IH]; [intros x I; apply H; apply in_app_iff; left; exact I|]. rewrite fold_left_app. cbn [fold_left].
    set (w := fold_left do_call calls world0) in *. destruct (H a) as [T S]; [apply in_app_iff; right; left; reflexivity|].
    destruct (cls (who a)) as [ca|] eqn:Ea; [clear T|congruence].
    assert (PUT : forall w k v, ereach w -> ereach (put (who a) k v w)) by (intros w0 k v R0; exact (er_step _ _ _ w0 (EMark (who a) k v) R0)).
    assert (OBS : forall w e c k v k', ereach w -> cls e = Some c -> observe e k' (put (who a) k v w) = if Nat.eqb (who a) e && Nat.eqb k' k then Some v else observe e k' w).
    { intros w0 e c k v k' R0 E. destruct (Nat.eqb_spec (who a) e) as [<-|N].
      - cbn [andb]. eapply C51_marked; eassumption.
      - cbn [andb]. eapply C51_instance; eauto. }
    destruct a as [x n|x|x|x|x|x|n x|n x]; cbn [who FrameMark.do_call] in *.
    + unfold correct, frame_correction. destruct (get_same w x ca k_frame x k_frame R Ea) as (_ & R1 & V).
      assert (SAME : forall e k, observe e k (fst (get x k_frame w)) = observe e k w) by (intros; apply (get_same w x ca); assumption).
      destruct (get x k_frame w) as [w1 v] eqn:G. cbn [fst snd] in *. subst v.
      assert (Z : forall k, observe x k world0 = None) by (intros k; unfold Marks.observe, lookup; clear; induction (chain cls mro x) as [|y l IHl]; [reflexivity|exact IHl]).
      pose proof (IH x ca Ea Z 0) as V. cbn [spec] in V. unfold k_frame in *. rewrite V.
      set (b := existsb _ calls) in *.
      assert (Q : (if b then Some (MAtom (total x calls)) else None) = None /\ total x calls = 0 \/ (if b then Some (MAtom (total x calls)) else None) = Some (MAtom (total x calls))).
      { destruct b eqn:B; [right; reflexivity|left]. split; [reflexivity|apply total_none; exact B]. }
      assert (W : forall w2, w2 = put x 0 (MAtom (total x calls + n)) w1 -> ereach w2 /\
        forall e c, cls e = Some c -> (forall k, observe e k world0 = None) -> forall k, spec e k (calls ++ [Correct x n]) (observe e k w2)).
      { intros w2 ->. split; [apply PUT; exact R1|]. intros e c E Ze k. rewrite (OBS w1 e c 0 _ k R1 E), SAME. specialize (IH e c E Ze k).
        destruct k as [|[|[|k]]]; cbn [spec] in *; rewrite existsb_app; cbn [existsb]; rewrite ?orb_false_r, ?andb_false_r; try exact IH.
        rewrite total_app. destruct (Nat.eqb_spec x e) as [<-|N].
        - rewrite orb_true_r. reflexivity.
        - cbn [andb Nat.eqb]. rewrite orb_false_r, Nat.add_0_r. exact IH. }
      destruct Q as [[-> Q]| ->]; apply W; [rewrite Q|]; reflexivity.
    + unfold frame_correction. assert (SAME : forall e k, observe e k (fst (get x k_frame w)) = observe e k w) by (intros; apply (get_same w x ca); assumption).
      destruct (get_same w x ca k_frame x k_frame R Ea) as (_ & R1 & _). destruct (get x k_frame w) as [w1 v]. cbn [fst] in *. split; [exact R1|].
      intros e c E Z k. rewrite SAME. specialize (IH e c E Z k). destruct k as [|[|[|k]]]; cbn [spec] in *; rewrite ?total_app, existsb_app; cbn [existsb]; rewrite ?orb_false_r, ?Nat.add_0_r; exact IH.
    + split; [apply PUT; exact R|]. intros e c E Z k. rewrite (OBS w e c _ _ k R E). specialize (IH e c E Z k).
      destruct k as [|[|[|k]]]; cbn [spec] in *; rewrite ?total_app, existsb_app; cbn [existsb Nat.eqb]; unfold k_fatal; cbn [Nat.eqb]; rewrite ?andb_false_r, ?andb_true_r, ?orb_false_r, ?Nat.add_0_r; try exact IH.
      destruct (Nat.eqb x e); [rewrite orb_true_r; reflexivity|rewrite orb_false_r; exact IH].
    + destruct (marked_same w x ca k_fatal x 0 R Ea) as [_ R1]. split; [exact R1|]. intros e c E Z k. destruct (marked_same w x ca k_fatal e k R Ea) as [-> _].
      specialize (IH e c E Z k). destruct k as [|[|[|k]]]; cbn [spec] in *; rewrite ?total_app, existsb_app; cbn [existsb]; rewrite ?orb_false_r, ?Nat.add_0_r; exact IH.
    + split; [apply PUT; exact R|]. intros e c E Z k. rewrite (OBS w e c _ _ k R E). specialize (IH e c E Z k).
      destruct k as [|[|[|k]]]; cbn [spec] in *; rewrite ?total_app, existsb_app; cbn [existsb Nat.eqb]; unfold k_inhibit; cbn [Nat.eqb]; rewrite ?andb_false_r, ?andb_true_r, ?orb_false_r, ?Nat.add_0_r; try exact IH.
      destruct (Nat.eqb x e); [rewrite orb_true_r; reflexivity|rewrite orb_false_r; exact IH].
    + destruct (marked_same w x ca k_inhibit x 0 R Ea) as [_ R1]. split; [exact R1|]. intros e c E Z k. destruct (marked_same w x ca k_inhibit e k R Ea) as [-> _].
      specialize (IH e c E Z k). destruct k as [|[|[|k]]]; cbn [spec] in *; rewrite ?total_app, existsb_app; cbn [existsb]; rewrite ?orb_false_r, ?Nat.add_0_r; exact IH.
    + split; [apply PUT; exact R|]. intros e c E Z k. rewrite (OBS w e c _ _ k R E). specialize (IH e c E Z k).
      destruct k as [|[|[|k]]]; cbn [spec] in *; rewrite ?total_app, existsb_app; cbn [existsb Nat.eqb]; unfold k_marker; cbn [Nat.add Nat.eqb]; rewrite ?andb_false_r, ?orb_false_r, ?Nat.add_0_r; try exact IH.
      rewrite (Nat.eqb_sym k n). destruct (Nat.eqb n k); [|rewrite andb_false_r; cbn [andb]; rewrite orb_false_r; exact IH].
      rewrite andb_true_r. cbn [andb]. destruct (Nat.eqb x e); [rewrite orb_true_r; reflexivity|rewrite orb_false_r; exact IH].
    + destruct (marked_same w x ca (k_marker n) x 0 R Ea) as [_ R1]. split; [exact R1|]. intros e c E Z k. destruct (marked_same w x ca (k_marker n) e k R Ea) as [-> _].
      specialize (IH e c E Z k). destruct k as [|[|[|k]]]; cbn [spec] in *; rewrite ?total_app, existsb_app; cbn [existsb]; rewrite ?orb_false_r, ?Nat.add_0_r; exact IH.
Qed.

Lemma nothing_yet x k : observe x k world0 = None.
Proof. unfold Marks.observe, lookup. induction (chain cls mro x) as [|y l IHl]; [reflexivity|exact IHl]. Qed.

Lemma holds_in (P : call -> bool) (x : call) calls : (forall a, P a = true <-> a = x) -> existsb P calls = true <-> In x calls.
Proof.
  intros H. rewrite existsb_exists. split; [intros (a & I & Q); apply H in Q; subst; exact I|intros I; exists x; split; [exact I|apply H; reflexivity]].
Qed.

(** Whatever is marked and asked, on whatever exceptions: the corrections of an exception add up, and it is fatal, inhibits
    its traceback or has the mark of a marker exactly if it was given that mark itself. *)
Theorem C152_marks calls : (forall a, In a calls -> cls (who a) <> None /\ settable (who a) = true) -> forall e, cls e <> None ->
  let w := fold_left do_call calls world0 in
  snd (frame_correction cls mro settable e w) = Some (total e calls) /\
  (snd (is_marked cls mro settable k_fatal e w) = true <-> In (Fatal e) calls) /\
  (snd (is_marked cls mro settable k_inhibit e w) = true <-> In (Inhibit e) calls) /\
  (forall n, snd (is_marked cls mro settable (k_marker n) e w) = true <-> In (Marker n e) calls).
Proof.
  intros H e E w. destruct (cls e) as [c|] eqn:Ec; [clear E|congruence]. destruct (calls_spec calls H) as [R S]. fold w in R, S.
  assert (K : forall k, spec e k calls (observe e k w)) by (intros k; apply (S e c Ec); intros j; apply nothing_yet).
  assert (V : forall k, snd (get e k w) = observe e k w) by (intros k; apply (get_same w e c k e k R Ec)).
  assert (M : forall k (b : bool), observe e k w = (if b then Some (MAtom 1) else None) -> snd (is_marked cls mro settable k e w) = b).
  { intros k b Q. unfold is_marked. specialize (V k). destruct (get e k w) as [w1 v]. cbn [snd] in *. rewrite V, Q. destruct b; reflexivity. }
  split; [|split; [|split]].
  - unfold frame_correction. specialize (V k_frame). destruct (get e k_frame w) as [w1 v]. cbn [snd] in *. rewrite V. pose proof (K 0) as Q. cbn [spec] in Q. unfold k_frame. rewrite Q.
    destruct (existsb _ calls) eqn:B; [reflexivity|]. rewrite (total_none _ _ B). reflexivity.
  - rewrite (M k_fatal _ (K 1)). apply holds_in. intros [x n|x|x|x|x|x|n x|n x]; try (split; discriminate). rewrite Nat.eqb_eq. split; congruence.
  - rewrite (M k_inhibit _ (K 2)). apply holds_in. intros [x n|x|x|x|x|x|n x|n x]; try (split; discriminate). rewrite Nat.eqb_eq. split; congruence.
  - intros n. rewrite (M (k_marker n) _ (K (k_marker n))). apply holds_in. intros [x m|x|x|x|x|x|m x|m x]; try (split; discriminate).
    rewrite andb_true_iff, !Nat.eqb_eq. split; [intros [-> ->]; reflexivity|intros Q; injection Q; auto].
Qed.
End P.
Print Assumptions C152_marks.

(** marks on a class are marks of its exceptions: what a class is marked with, an exception has without having been marked *)
Theorem C152_class_refuted : exists w e, ex_cls e <> None /\ ereach ex_cls ex_mro ex_set w /\ observe ex_cls ex_mro e k_fatal world0 = None /\
  w = do_call ex_cls ex_mro ex_set world0 (Fatal 2) /\ snd (is_marked ex_cls ex_mro ex_set k_fatal e w) = true.
Proof.
  exists (do_call ex_cls ex_mro ex_set world0 (Fatal 2)), 12. split; [discriminate|]. split; [exact (er_step _ _ _ _ (EMark 2 k_fatal (MAtom 1)) (er_start _ _ _))|].
  repeat split; reflexivity.
Qed.
Print Assumptions C152_class_refuted.

(** two exceptions of a class and one of another one *)
Example C152_ex : let calls := [Correct 12 4; Fatal 22; Correction 22; Correct 12 1; Marker 0 12; IsFatal 12; Inhibit 14; Correct 22 1] in
  let w := fold_left (do_call ex_cls ex_mro ex_set) calls world0 in
  forallb (fun a => match ex_cls (who a) with Some _ => ex_set (who a) | None => false end) calls = true /\
  map (fun e => snd (frame_correction ex_cls ex_mro ex_set e w)) [12; 22; 14] = [Some 5; Some 1; Some 0] /\
  map (fun e => snd (is_marked ex_cls ex_mro ex_set k_fatal e w)) [12; 22; 14] = [false; true; false] /\
  map (fun e => snd (is_marked ex_cls ex_mro ex_set k_inhibit e w)) [12; 22; 14] = [false; false; true] /\
  map (fun e => snd (is_marked ex_cls ex_mro ex_set (k_marker 0) e w)) [12; 22; 14] = [true; false; false].
Proof. repeat split; reflexivity. Qed.
