(** Python dicts with natural-number keys as association lists; the first
    occurrence of a key counts.  No file of /repo is modelled here. *)

From Coq Require Import List Bool Arith PeanoNat.
Import ListNotations.

Section D.
Context {V : Type}.

(** a Python operation, no code of /repo *)
Definition dict := list (nat * V).

(** d.get(k); a Python operation, no code of /repo *)
Fixpoint d_get (k : nat) (d : dict) : option V :=
  match d with
  | [] => None
  | (k', v) :: d' => if Nat.eqb k k' then Some v else d_get k d'
  end.

(** d[k] = v: an existing key keeps its position; a Python operation, no code of /repo *)
Fixpoint d_set (k : nat) (v : V) (d : dict) : dict :=
  match d with
  | [] => [(k, v)]
  | (k', v') :: d' => if Nat.eqb k k' then (k, v) :: d' else (k', v') :: d_set k v d'
  end.

(** d.pop(k, None), del d[k]; a Python operation, no code of /repo *)
Fixpoint d_del (k : nat) (d : dict) : dict :=
  match d with
  | [] => []
  | (k', v') :: d' => if Nat.eqb k k' then d_del k d' else (k', v') :: d_del k d'
  end.

(** a Python operation, no code of /repo *)
Definition d_keys (d : dict) : list nat := map fst d.

(** d.update(other); a Python operation, no code of /repo *)
Definition d_update (d other : dict) : dict := fold_left (fun d kv => d_set (fst kv) (snd kv) d) other d.

(** no key occurs twice, as in every dict; a Python operation, no code of /repo *)
Definition d_ok (d : dict) : Prop := NoDup (d_keys d).

Lemma d_get_set k k' v d : d_get k (d_set k' v d) = if Nat.eqb k k' then Some v else d_get k d.
Proof.
  induction d as [|[j w] d IH]; simpl.
  - destruct (Nat.eqb_spec k k'); auto.
  - destruct (Nat.eqb_spec k' j) as [->|N]; simpl.
    + destruct (Nat.eqb_spec k j); auto.
    + rewrite IH. destruct (Nat.eqb_spec k j); destruct (Nat.eqb_spec k k'); subst; auto; congruence.
Qed.

Lemma d_get_set_same k v d : d_get k (d_set k v d) = Some v.
Proof. rewrite d_get_set, Nat.eqb_refl. auto. Qed.

Lemma d_get_set_other k k' v d : k <> k' -> d_get k (d_set k' v d) = d_get k d.
Proof. rewrite d_get_set. destruct (Nat.eqb_spec k k'); congruence. Qed.

Lemma d_get_del k k' d : d_get k (d_del k' d) = if Nat.eqb k k' then None else d_get k d.
Proof.
  induction d as [|[j w] d IH]; simpl.
  - destruct (Nat.eqb k k'); auto.
  - destruct (Nat.eqb_spec k' j) as [->|N]; simpl.
    + rewrite IH. destruct (Nat.eqb_spec k j); auto.
    + rewrite IH. destruct (Nat.eqb_spec k j); destruct (Nat.eqb_spec k k'); subst; auto; congruence.
Qed.

Lemma d_get_In k d : In k (d_keys d) <-> d_get k d <> None.
Proof.
  induction d as [|[j w] d IH]; simpl; [intuition|].
  destruct (Nat.eqb_spec k j) as [->|N].
  - split; auto. discriminate.
  - rewrite <- IH. intuition congruence.
Qed.

Lemma d_get_pair k v d : d_get k d = Some v -> In (k, v) d.
Proof.
  induction d as [|[j w] d IH]; simpl; [discriminate|].
  destruct (Nat.eqb_spec k j) as [->|N]; auto. intros H; inversion H; auto.
Qed.

Lemma d_pair_get k v d : d_ok d -> In (k, v) d -> d_get k d = Some v.
Proof.
  unfold d_ok. induction d as [|[j w] d IH]; simpl; [intros _ []|].
  intros H [Q|Q].
  - inversion Q. rewrite Nat.eqb_refl. auto.
  - apply NoDup_cons_iff in H as [H1 H2]. destruct (Nat.eqb_spec k j) as [->|N]; auto.
    destruct H1. apply in_map_iff. exists (j, v). auto.
Qed.

Lemma d_keys_set k v d j : In j (d_keys (d_set k v d)) <-> j = k \/ In j (d_keys d).
Proof. rewrite !d_get_In, d_get_set. destruct (Nat.eqb_spec j k); intuition congruence. Qed.

Lemma d_set_ok k v d : d_ok d -> d_ok (d_set k v d).
Proof.
  unfold d_ok. induction d as [|[j w] d IH]; simpl; intros H.
  - constructor; auto.
  - apply NoDup_cons_iff in H as [H1 H2]. destruct (Nat.eqb_spec k j) as [->|N]; simpl; constructor; auto.
    fold (d_keys (d_set k v d)). rewrite d_keys_set. fold (d_keys d) in H1. intuition.
Qed.

Lemma d_keys_del k d j : In j (d_keys (d_del k d)) <-> j <> k /\ In j (d_keys d).
Proof. rewrite !d_get_In, d_get_del. destruct (Nat.eqb_spec j k); intuition congruence. Qed.

Lemma d_del_ok k d : d_ok d -> d_ok (d_del k d).
Proof.
  unfold d_ok. induction d as [|[j w] d IH]; simpl; intros H; auto.
  apply NoDup_cons_iff in H as [H1 H2]. destruct (Nat.eqb_spec k j) as [->|N]; simpl; auto.
  constructor; auto. fold (d_keys (d_del k d)). rewrite d_keys_del. fold (d_keys d) in H1. intuition.
Qed.

Lemma d_get_update k d other : d_ok other ->
  d_get k (d_update d other) = match d_get k other with Some v => Some v | None => d_get k d end.
Proof.
  unfold d_update, d_ok. revert d. induction other as [|[j w] other IH]; simpl; intros d H; auto.
  apply NoDup_cons_iff in H as [H1 H2]. rewrite IH by auto. fold (d_keys other) in H1. rewrite d_get_In in H1.
  rewrite d_get_set. destruct (Nat.eqb_spec k j) as [->|N]; auto.
  destruct (d_get j other); auto. destruct H1; discriminate.
Qed.

Lemma d_update_ok d other : d_ok d -> d_ok (d_update d other).
Proof.
  unfold d_update. revert d. induction other as [|[j w] other IH]; simpl; intros d H; auto.
  apply IH, d_set_ok, H.
Qed.

End D.
Arguments dict : clear implicits.
