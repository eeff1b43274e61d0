(** Iteration helpers: C23 (PeekableIterator), C55 (iteration). *)

From Coq Require Import List Bool Arith PeanoNat Lia.
From Verif Require Import Iteration.
Import ListNotations.

Section P.
Variable A : Type.

(** Specification: the answers prescribed when [rest] is still to come.
    Nothing is said about peeking but that it does not consume. *)
Fixpoint prescribed_answers (rest : list A) (ops : list op) : list (answer A) :=
  match ops with
  | [] => []
  | o :: ops =>
      match o, rest with
      | ONext, [] => ANext A Stop :: prescribed_answers [] ops
      | ONext, a :: rest' => ANext A (Val a) :: prescribed_answers rest' ops
      | OPeek, [] => APeek A Stop :: prescribed_answers rest ops
      | OPeek, a :: _ => APeek A (Val a) :: prescribed_answers rest ops
      | OPeekOrNone, _ => APeekOrNone A (Val (hd_error rest)) :: prescribed_answers rest ops
      | OHasNext, [] => AHasNext A false :: prescribed_answers rest ops
      | OHasNext, _ :: _ => AHasNext A true :: prescribed_answers rest ops
      end
  end.

(** what is still to come *)
Definition view (p : pk A) : list A :=
  match pk_peeked A p with
  | Nothing _ => pk_iter A p
  | End _ => []
  | Item _ a => a :: pk_iter A p
  end.

Definition good (p : pk A) : Prop := pk_peeked A p = End A -> pk_iter A p = [].

Lemma peek_view p p' r : good p -> pk_peek A p = (p', r) ->
  good p' /\ view p' = view p /\ r = match view p with [] => Stop | a :: _ => Val a end.
Proof.
  destruct p as [l [| |a]]; unfold pk_peek, good, view; simpl; intros G H; try (inversion H; subst; simpl; auto; fail).
  destruct l as [|a l]; inversion H; subst; simpl; repeat split; auto; discriminate.
Qed.

Lemma next_view p p' r : good p -> pk_next A p = (p', r) ->
  good p' /\ view p' = tl (view p) /\ r = match view p with [] => Stop | a :: _ => Val a end.
Proof.
  destruct p as [l [| |a]]; unfold pk_next, good, view; simpl; intros G H.
  - destruct l as [|a l]; inversion H; subst; simpl; repeat split; auto; discriminate.
  - inversion H; subst. simpl. rewrite G by auto. repeat split; auto; discriminate.
  - inversion H; subst. simpl. repeat split; auto; discriminate.
Qed.

(** ** C23 *)

(** However the calls are interleaved, the answers are those of the plain list
    of items: next yields the items in order, then StopIteration for ever;
    peek, peek_or_none and has_next look at the item the following next
    yields. *)
Theorem C23_transparent : forall (xs : list A) ops,
  pk_run A (pk_new A xs) ops = prescribed_answers xs ops.
Proof.
  intros xs ops. assert (H : forall p, good p -> pk_run A p ops = prescribed_answers (view p) ops).
  { induction ops as [|o ops IH]; intros p G; simpl; auto. destruct o; unfold pk_step.
    - destruct (pk_next A p) as [p' r] eqn:E. destruct (next_view p p' r G E) as (G' & V & ->).
      rewrite (IH p' G'), V. destruct (view p); reflexivity.
    - destruct (pk_peek A p) as [p' r] eqn:E. destruct (peek_view p p' r G E) as (G' & V & ->).
      rewrite (IH p' G'), V. destruct (view p); reflexivity.
    - unfold pk_peek_or_none, pk_has_next.
      destruct (pk_peek A p) as [p' r] eqn:E. destruct (peek_view p p' r G E) as (G' & V & ->).
      destruct (view p) as [|a l] eqn:Ev; simpl.
      + rewrite (IH p' G'), V. reflexivity.
      + destruct (pk_peek A p') as [p2 r2] eqn:E2. destruct (peek_view p' p2 r2 G' E2) as (G2 & V2 & ->).
        rewrite (IH p2 G2), V2, V. reflexivity.
    - unfold pk_has_next. destruct (pk_peek A p) as [p' r] eqn:E. destruct (peek_view p p' r G E) as (G' & V & ->).
      rewrite (IH p' G'), V. destruct (view p); reflexivity. }
  apply (H (pk_new A xs)). intros X. discriminate X.
Qed.

(** In particular the values obtained by next, over any interleaving, are the
    items in order, as many as next was called. *)
Definition yielded (ans : list (answer A)) : list A :=
  flat_map (fun a => match a with ANext _ (Val v) => [v] | _ => [] end) ans.

Definition is_next (o : op) : bool := match o with ONext => true | _ => false end.

Theorem C23_next_yields_the_items : forall (xs : list A) ops,
  yielded (pk_run A (pk_new A xs) ops) = firstn (length (filter is_next ops)) xs.
Proof.
  intros xs ops. rewrite C23_transparent. revert xs. induction ops as [|o ops IH]; intros xs; simpl; auto.
  destruct o; destruct xs as [|a xs]; simpl; rewrite ?IH; auto. rewrite firstn_nil. auto.
Qed.

(** ** C55 *)

Lemma iter_nth last xs : forall n i e, nth_error (iter_from A last n xs) i = Some e <->
  exists a, nth_error xs i = Some a /\ e = mkIter A a (n + i) (n + i + 1) (Nat.eqb (n + i) 0) last (option_map S last).
Proof.
  induction xs as [|x xs IH]; intros n i e; simpl.
  - destruct i; simpl; split; try discriminate; intros (a & H & _); discriminate.
  - destruct i as [|i]; simpl.
    + replace (n + 0) with n by lia. split; [intros H; inversion H; eauto|intros (a & H1 & H2); inversion H1; subst; auto].
    + rewrite IH. replace (S n + i) with (n + S i) by lia. reflexivity.
Qed.

(** The i-th object yielded belongs to the i-th item; its counters, [first] and
    [last] are right ([last] needs an iterable with a length). *)
Theorem C55_iteration : forall sized (xs : list A) i e,
  nth_error (iteration A sized xs) i = Some e ->
    nth_error xs i = Some (it_element A e) /\ it_counter0 A e = i /\ it_counter1 A e = S i /\
    (it_first A e = true <-> i = 0) /\
    (sized = true -> it_last_counter1 A e = Some (length xs) /\
       exists b, it_last A e = Some b /\ (b = true <-> S i = length xs)) /\
    (sized = false -> it_last A e = None).
Proof.
  intros sized xs i e H. unfold iteration in H. apply iter_nth in H as (a & H & ->). simpl.
  assert (L : i < length xs) by (apply nth_error_Some; congruence).
  split; auto. split; auto. split; [lia|]. split; [apply Nat.eqb_eq|]. split.
  - intros ->. simpl. split; [f_equal; lia|]. unfold it_last. simpl. eexists. split; eauto. rewrite Nat.eqb_eq. lia.
  - intros ->; reflexivity.
Qed.

Theorem C55_one_per_item : forall sized (xs : list A),
  map (it_element A) (iteration A sized xs) = xs /\
  map (it_counter0 A) (iteration A sized xs) = seq 0 (length xs).
Proof.
  intros sized xs. unfold iteration. generalize (if sized then Some (length xs - 1) else None). intros last. generalize 0.
  induction xs as [|x xs IH]; intros n; simpl; auto. destruct (IH (S n)) as [-> ->]. auto.
Qed.

End P.

(** ** Non-vacuity: concrete runs *)

Example C23_run :
  pk_run nat (pk_new nat [5; 6]) [OHasNext; OPeek; ONext; OPeekOrNone; OPeek; ONext; OHasNext; OPeekOrNone; ONext; ONext] =
  [AHasNext _ true; APeek _ (Val 5); ANext _ (Val 5); APeekOrNone _ (Val (Some 6)); APeek _ (Val 6); ANext _ (Val 6);
   AHasNext _ false; APeekOrNone _ (Val None); ANext _ Stop; ANext _ Stop].
Proof. reflexivity. Qed.

Example C55_run : nth_error (iteration nat true [7; 8; 9]) 2 = Some (mkIter nat 9 2 3 false (Some 2) (Some 3)).
Proof. reflexivity. Qed.

Print Assumptions C23_transparent.
Print Assumptions C23_next_yields_the_items.
Print Assumptions C55_iteration.
Print Assumptions C55_one_per_item.
