(** Properties of Details (Details.v): C82. *)

From Coq Require Import List Bool Arith Lia.
From Verif Require Import Details.
Import ListNotations.

(** * C82 *)

Lemma get_put k v d j : get j (put k v d) = if Nat.eqb j k then Some v else get j d.
Proof.
  induction d as [|[k' v'] d IH]; simpl; auto.
  destruct (Nat.eqb_spec k k') as [->|N]; simpl.
  - destruct (Nat.eqb j k'); auto.
  - rewrite IH. destruct (Nat.eqb_spec j k'), (Nat.eqb_spec j k); subst; auto. contradiction.
Qed.

(** the code does not store list objects of its own with set, and appends to list objects
    of its own only *)
Definition separate (h : heap) (o : op) : Prop :=
  match o with
  | OSet _ (VNum _) _ => True
  | OSet _ (VList _) _ => False
  | OAppend _ _ _ => True
  | OMutate r _ => r < h_next h
  end.

(** what the key shows *)
Definition view (k : nat) (s : state) : option content := option_map (show (s_heap s)) (get k (s_dict s)).

Section P.
Variable callback : bool.
Variable base : nat.

Definition inv (s : state) : Prop :=
  base <= h_next (s_heap s) /\
  (forall k r, get k (s_dict s) = Some (VList r) -> base <= r < h_next (s_heap s)) /\
  (forall k j r, get k (s_dict s) = Some (VList r) -> get j (s_dict s) = Some (VList r) -> k = j).

(** what one operation should do to what key k shows *)
Definition expected (k : nat) (o : op) (c : option content) : option content :=
  match o with
  | OSet j (VNum n) x => if Nat.eqb k j && negb (callback && x) then Some (CNum n) else c
  | OSet j (VList _) _ => c
  | OAppend j v _ =>
      if Nat.eqb k j then
        match c with None => Some (CList [v]) | Some (CList l) => Some (CList (l ++ [v])) | Some (CNum n) => c end
      else c
  | OMutate _ _ => c
  end.

Lemma call_heap k v x s : s_heap (fst (call callback k v x s)) = s_heap s /\ s_dict (fst (call callback k v x s)) = s_dict s.
Proof. unfold call. destruct callback; auto. Qed.

Lemma step_ok h o s : h_next h = base -> separate h o -> inv s ->
  inv (fst (step callback o s)) /\ forall k, view k (fst (step callback o s)) = expected k o (view k s).
Proof.
  intros HB SEP (I0 & I1 & I2). destruct o as [j v x|j v x|r v]; cbn [step].
  - destruct v as [n|r]; [|contradiction]. unfold set.
    assert (C := call_heap j (VNum n) x s). destruct (call callback j (VNum n) x s) as [s1 b] eqn:E.
    cbn [fst] in C. destruct C as [C1 C2].
    assert (B : b = callback && x). { unfold call in E. destruct callback; injection E as <- <-; auto. }
    destruct b.
    + cbn [fst]. unfold inv, view. rewrite C1, C2. split; [auto|]. intros k. unfold expected. rewrite <- B. simpl.
      rewrite andb_false_r. auto.
    + cbn [fst]. unfold inv, view. cbn [s_heap s_dict]. rewrite C1, C2. split.
      * split; [auto|]. split.
        -- intros k r. rewrite get_put. destruct (Nat.eqb k j); [discriminate|]. apply I1.
        -- intros k k' r. rewrite !get_put. destruct (Nat.eqb k j), (Nat.eqb k' j); try discriminate. apply I2.
      * intros k. rewrite get_put. unfold expected. rewrite <- B. cbn [negb]. rewrite andb_true_r.
        destruct (Nat.eqb k j); auto.
  - unfold append. destruct (get j (s_dict s)) as [[n|r]|] eqn:G.
    + cbn [fst]. split; [split; auto|]. intros k. unfold expected, view. destruct (Nat.eqb_spec k j) as [->|]; auto.
      rewrite G. auto.
    + set (s1 := mkState (extend r v (s_heap s)) (s_dict s) (s_calls s)).
      assert (C := call_heap j (VList r) x s1). destruct (call callback j (VList r) x s1) as [s2 b].
      cbn [fst] in *. destruct C as [C1 C2]. unfold inv, view. rewrite C1, C2. unfold s1. cbn [s_heap s_dict extend h_next].
      split; [auto|]. intros k. unfold expected. destruct (Nat.eqb_spec k j) as [->|NK].
      * rewrite G. simpl. rewrite Nat.eqb_refl. auto.
      * destruct (get k (s_dict s)) as [[n|r']|] eqn:GK; auto. simpl.
        destruct (Nat.eqb_spec r' r) as [->|]; auto. exfalso. eauto.
    + cbn [alloc]. set (s1 := mkState _ _ _).
      assert (C := call_heap j (VList (h_next (s_heap s))) x s1). destruct (call callback j (VList (h_next (s_heap s))) x s1) as [s2 b].
      cbn [fst] in *. destruct C as [C1 C2]. unfold inv, view. rewrite C1, C2. unfold s1. cbn [s_heap s_dict extend h_next h_lists].
      split.
      * split; [lia|]. split.
        -- intros k r. rewrite get_put. destruct (Nat.eqb k j).
           ++ injection 1 as <-. lia.
           ++ intros H. apply I1 in H. lia.
        -- intros k k' r. rewrite !get_put. destruct (Nat.eqb_spec k j), (Nat.eqb_spec k' j); subst; auto.
           ++ injection 1 as <-. intros H. apply I1 in H. lia.
           ++ intros H. injection 1 as <-. apply I1 in H. lia.
           ++ apply I2.
      * intros k. rewrite get_put. unfold expected. destruct (Nat.eqb_spec k j) as [->|NK].
        -- rewrite G. simpl. rewrite Nat.eqb_refl. simpl. auto.
        -- destruct (get k (s_dict s)) as [[n|r']|] eqn:GK; auto. simpl. apply I1 in GK.
           destruct (Nat.eqb_spec r' (h_next (s_heap s))); auto. lia.
  - simpl in SEP. cbn [fst]. unfold inv, view. cbn [s_heap s_dict extend h_next]. split; [auto|].
    intros k. unfold expected. destruct (get k (s_dict s)) as [[n|r']|] eqn:GK; auto. simpl.
    apply I1 in GK. destruct (Nat.eqb_spec r' r); auto. lia.
Qed.

Lemma run_ok h l : h_next h = base -> Forall (separate h) l -> forall s, inv s ->
  forall k, view k (run callback l s) = fold_left (fun c o => expected k o c) l (view k s).
Proof.
  intros HB F. induction F as [|o l S F IH]; intros s I k; simpl; auto.
  destruct (step_ok h o s HB S I) as [I' V]. rewrite IH, V; auto.
Qed.
End P.

(** the operation is about this key *)
Definition about (k : nat) (o : op) : Prop := match o with OSet j _ _ | OAppend j _ _ => j = k | OMutate _ _ => False end.

(** the values set (successfully) for key k, first one first *)
Fixpoint sets (callback : bool) (k : nat) (l : list op) : list nat :=
  match l with
  | [] => []
  | OSet j (VNum n) x :: l' => (if Nat.eqb k j && negb (callback && x) then [n] else []) ++ sets callback k l'
  | _ :: l' => sets callback k l'
  end.
(** the values appended to key k *)
Fixpoint appends (k : nat) (l : list op) : list value :=
  match l with
  | [] => []
  | OAppend j v _ :: l' => (if Nat.eqb k j then [v] else []) ++ appends k l'
  | _ :: l' => appends k l'
  end.

Lemma inv0 h : inv (h_next h) (state0 h).
Proof. unfold inv, state0. simpl. repeat split; try discriminate; auto. Qed.

Lemma last_of (A : Type) (l : list A) : l = [] \/ exists l' x, l = l' ++ [x].
Proof. destruct l as [|y l] using rev_ind; [auto|]. right. eauto. Qed.

(** ** A key that is only set shows the value set last (an exception of the callback means
    that it was not set) *)
Theorem C82_set_partial callback h l k :
  Forall (separate h) l -> (forall o, In o l -> about k o -> exists n x, o = OSet k (VNum n) x) ->
  view k (run callback l (state0 h)) = match rev (sets callback k l) with [] => None | n :: _ => Some (CNum n) end.
Proof.
  intros F A. rewrite (run_ok callback (h_next h) h) by auto using inv0.
  change (view k (state0 h)) with (@None content).
  induction l as [|o l IH] using rev_ind; auto.
  rewrite fold_left_app. cbn [fold_left]. apply Forall_app in F. destruct F as [F1 F2].
  rewrite IH; auto; [|intros o' I; apply A; apply in_or_app; auto].
  assert (S : forall a b, sets callback k (a ++ b) = sets callback k a ++ sets callback k b).
  { clear. induction a as [|[j [n|r] x|j v x|r v] a IH]; intros b; simpl; rewrite ?IH, ?app_assoc; auto. }
  rewrite S, rev_app_distr. inversion F2 as [|? ? S1 _]; subst.
  assert (IO : In o (l ++ [o])) by (apply in_or_app; right; simpl; auto). assert (A1 := A o IO).
  destruct o as [j [n|r] x|j v x|r v]; simpl; auto; try contradiction.
  - destruct (Nat.eqb k j && negb (callback && x)); auto.
  - destruct (Nat.eqb_spec k j) as [->|]; auto. destruct (A1 eq_refl) as (? & ? & ?). discriminate.
Qed.

(** ** A key that is only appended to shows all values appended, in their order, also those
    for which the callback raised *)
Theorem C82_append_partial callback h l k :
  Forall (separate h) l -> (forall o, In o l -> about k o -> exists v x, o = OAppend k v x) ->
  view k (run callback l (state0 h)) = match appends k l with [] => None | vs => Some (CList vs) end.
Proof.
  intros F A. rewrite (run_ok callback (h_next h) h) by auto using inv0.
  change (view k (state0 h)) with (@None content).
  induction l as [|o l IH] using rev_ind; auto.
  rewrite fold_left_app. cbn [fold_left]. apply Forall_app in F. destruct F as [F1 F2].
  rewrite IH; auto; [|intros o' I; apply A; apply in_or_app; auto].
  assert (S : forall a b, appends k (a ++ b) = appends k a ++ appends k b).
  { clear. induction a as [|[j [n|r] x|j v x|r v] a IH]; intros b; simpl; rewrite ?IH, ?app_assoc; auto. }
  rewrite S. inversion F2 as [|? ? S1 _]; subst.
  assert (IO : In o (l ++ [o])) by (apply in_or_app; right; simpl; auto). assert (A1 := A o IO).
  destruct o as [j [n|r] x|j v x|r v]; simpl; rewrite ?app_nil_r; auto; try contradiction.
  - destruct (Nat.eqb_spec k j) as [->|]; auto. destruct (A1 eq_refl) as (? & ? & ?). discriminate.
  - destruct (Nat.eqb k j); [|rewrite app_nil_r; auto]. destruct (appends k l); auto.
Qed.

(** ** Appending to a key that was set to something else raises TypeError and changes nothing *)
Theorem C82_type_error callback k v x s n : get k (s_dict s) = Some (VNum n) ->
  step callback (OAppend k v x) s = (s, TypeErr).
Proof. simpl. unfold append. intros ->. auto. Qed.

(** ** The callback (the fact_set hook) is called once for each set and each successful
    append: before a value is set, but after it is appended *)
Theorem C82_callback k v x s :
  (exists known, s_calls (fst (step true (OSet k v x) s)) = s_calls s ++ [ECallback k v known] /\
     (known = true <-> get k (s_dict s) <> None)) /\
  (snd (step true (OAppend k v x) s) <> TypeErr ->
     exists r, s_calls (fst (step true (OAppend k v x) s)) = s_calls s ++ [ECallback k (VList r) true] /\
       get k (s_dict (fst (step true (OAppend k v x) s))) = Some (VList r) /\
       In v (h_lists (s_heap (fst (step true (OAppend k v x) s))) r)) /\
  s_calls (fst (step false (OSet k v x) s)) = s_calls s /\ s_calls (fst (step false (OAppend k v x) s)) = s_calls s.
Proof.
  split; [|split; [|split]].
  - exists (match get k (s_dict s) with Some _ => true | None => false end). cbn [step]. unfold set, call.
    destruct x; cbn [fst s_calls]; (split; [auto|]); destruct (get k (s_dict s)); split; congruence.
  - cbn [step]. unfold append, call. destruct (get k (s_dict s)) as [[n|r]|] eqn:G.
    + intros N. exfalso. apply N. auto.
    + intros _. exists r. cbn [fst s_calls s_dict s_heap]. rewrite G. split; auto. split; auto.
      simpl. rewrite Nat.eqb_refl. apply in_or_app. right. simpl. auto.
    + intros _. exists (h_next (s_heap s)). cbn [alloc fst s_calls s_dict s_heap]. rewrite get_put, Nat.eqb_refl.
      split; auto. split; auto. simpl. rewrite Nat.eqb_refl. simpl. auto.
  - cbn [step]. unfold set, call. auto.
  - cbn [step]. unfold append, call. destruct (get k (s_dict s)) as [[n|r]|]; auto.
Qed.

(** ** Details set to a list object share it: append changes the object of the caller, and
    changes what a copy made by all() shows *)
Theorem C82_alias_refuted : exists h k r v,
  h_lists h r = [] /\ r < h_next h /\
  let s := run false [OSet k (VList r) false] (state0 h) in
  let s' := run false [OAppend k v false] s in
  h_lists (s_heap s') r = [v] /\
  all (s_heap s) (s_dict s) = [(k, CList [])] /\ all (s_heap s') (s_dict s) = [(k, CList [v])].
Proof.
  exists (mkHeap (fun _ => []) 1), 5, 0, (VNum 7). vm_compute. auto.
Qed.

(** also without such sharing a copy made by all() changes when something is appended *)
Theorem C82_copy_refuted : exists h k l o,
  Forall (separate h) (l ++ [o]) /\
  let s := run false l (state0 h) in
  let s' := fst (step false o s) in
  all (s_heap s) (s_dict s) = [(k, CList [VNum 1])] /\ all (s_heap s') (s_dict s) = [(k, CList [VNum 1; VNum 2])].
Proof.
  exists (mkHeap (fun _ => []) 0), 5, [OAppend 5 (VNum 1) false], (OAppend 5 (VNum 2) false).
  split; [repeat constructor|]. vm_compute. auto.
Qed.

(** a fact that was set though its hook failed is not there, an appended one is *)
Example C82_ex :
  let h := mkHeap (fun _ => []) 1 in
  let l := [OSet 1 (VNum 4) false; OAppend 2 (VNum 5) false; OMutate 0 (VNum 9); OSet 1 (VNum 6) true;
            OAppend 2 (VList 0) true; OAppend 1 (VNum 8) false; OSet 3 (VNum 1) true] in
  Forall (separate h) l /\
  let s := run true l (state0 h) in
  all (s_heap s) (s_dict s) = [(1, CNum 4); (2, CList [VNum 5; VList 0])] /\
  s_calls s = [ECallback 1 (VNum 4) false; ECallback 2 (VList 1) true; ECallback 1 (VNum 6) true; ECallback 2 (VList 1) true; ECallback 3 (VNum 1) false].
Proof.
  cbv zeta. split; [|vm_compute; auto].
  repeat (apply Forall_cons; [simpl; auto|]). apply Forall_nil.
Qed.

Print Assumptions C82_set_partial.
Print Assumptions C82_append_partial.
Print Assumptions C82_type_error.
Print Assumptions C82_callback.
Print Assumptions C82_alias_refuted.
Print Assumptions C82_copy_refuted.
