(** Strings as lists of characters, with the few Python string operations the
    models need.  No file of /repo is modelled here; each definition names the
    Python operation it stands for. *)

From Coq Require Import List Bool Arith Ascii String.
Import ListNotations.

Notation str := (list ascii).

(** a Python string literal; a Python operation, no code of /repo *)
Definition lit (s : string) : str := list_ascii_of_string s.

(** [==] on strings; a Python operation, no code of /repo *)
Fixpoint str_eqb (a b : str) : bool :=
  match a, b with
  | [], [] => true
  | x :: a', y :: b' => Ascii.eqb x y && str_eqb a' b'
  | _, _ => false
  end.

(** [s.startswith(p)], giving what follows the prefix; a Python operation, no code of /repo *)
Fixpoint strip_prefix (p s : str) : option str :=
  match p, s with
  | [], _ => Some s
  | x :: p', y :: s' => if Ascii.eqb x y then strip_prefix p' s' else None
  | _, [] => None
  end.

(** a Python operation, no code of /repo *)
Definition starts (p s : str) : bool := match strip_prefix p s with Some _ => true | None => false end.

(** [p in s]; a Python operation, no code of /repo *)
Fixpoint contains (p s : str) : bool :=
  starts p s || match s with [] => false | _ :: s' => contains p s' end.

(** [s.endswith(p)]; a Python operation, no code of /repo *)
Definition ends (p s : str) : bool := starts (rev p) (rev s).

(** [s.split(c, 1)] for a single character [c] occurring in [s] (None: it does
    not occur, the result would be [[s]]) *)
Fixpoint split1 (c : ascii) (s : str) : option (str * str) :=
  match s with
  | [] => None
  | x :: s' => if Ascii.eqb x c then Some ([], s')
               else match split1 c s' with Some (a, b) => Some (x :: a, b) | None => None end
  end.

(** [s.split(c)]; a Python operation, no code of /repo *)
Fixpoint split_all (c : ascii) (s : str) : list str :=
  match s with
  | [] => [[]]
  | x :: s' =>
      if Ascii.eqb x c then [] :: split_all c s'
      else match split_all c s' with
           | w :: ws => (x :: w) :: ws
           | [] => [[x]]
           end
  end.

(** white space, as removed by [s.strip()]; ASCII only; a Python operation, no code of /repo *)
Definition space (c : ascii) : bool :=
  let n := nat_of_ascii c in Nat.eqb n 32 || (Nat.leb 9 n && Nat.leb n 13) || (Nat.leb 28 n && Nat.leb n 31).

(** a Python operation, no code of /repo *)
Fixpoint lstrip (s : str) : str :=
  match s with
  | c :: s' => if space c then lstrip s' else s
  | [] => []
  end.

(** a Python operation, no code of /repo *)
Definition strip (s : str) : str := rev (lstrip (rev (lstrip s))).

(** ** Facts *)

Lemma str_eqb_spec a b : reflect (a = b) (str_eqb a b).
Proof.
  apply iff_reflect. revert b. induction a as [|x a IH]; intros [|y b]; simpl; try (split; congruence).
  rewrite andb_true_iff, <- IH, Ascii.eqb_eq. split; [intros H; inversion H; auto|intros [-> ->]; auto].
Qed.

Lemma str_eqb_refl a : str_eqb a a = true.
Proof. destruct (str_eqb_spec a a); congruence. Qed.

Lemma str_eqb_eq a b : str_eqb a b = true <-> a = b.
Proof. destruct (str_eqb_spec a b); split; congruence. Qed.

Lemma str_eqb_neq a b : str_eqb a b = false <-> a <> b.
Proof. destruct (str_eqb_spec a b); split; congruence. Qed.

Lemma str_dec (a b : str) : {a = b} + {a <> b}.
Proof. apply list_eq_dec, ascii_dec. Qed.

Lemma strip_prefix_spec p s r : strip_prefix p s = Some r <-> s = p ++ r.
Proof.
  revert s. induction p as [|x p IH]; intros s; simpl.
  - split; congruence.
  - destruct s as [|y s]; [split; discriminate|].
    destruct (Ascii.eqb_spec x y) as [->|N].
    + rewrite IH. split; congruence.
    + split; congruence.
Qed.

Lemma starts_spec p s : starts p s = true <-> exists r, s = p ++ r.
Proof.
  unfold starts. destruct (strip_prefix p s) as [r|] eqn:E.
  - apply strip_prefix_spec in E. split; eauto.
  - split; [discriminate|]. intros [r H]. apply strip_prefix_spec in H. congruence.
Qed.

Lemma contains_spec p s : contains p s = true <-> exists a b, s = a ++ p ++ b.
Proof.
  induction s as [|x s IH]; simpl.
  - rewrite orb_false_r, starts_spec. split.
    + intros [r H]. exists [], r. auto.
    + intros (a & b & H). exists b. destruct a; simpl in H; [auto|discriminate].
  - rewrite orb_true_iff, IH, starts_spec. split.
    + intros [[r H]|(a & b & H)]; [exists [], r; auto|exists (x :: a), b; simpl; congruence].
    + intros ([|y a] & b & H); simpl in H; [left; eauto|right].
      inversion H. eauto.
Qed.

Lemma ends_spec p s : ends p s = true <-> exists a, s = a ++ p.
Proof.
  unfold ends. rewrite starts_spec. split.
  - intros [r H]. exists (rev r). rewrite <- (rev_involutive s), H, rev_app_distr, rev_involutive. auto.
  - intros [a ->]. exists (rev a). apply rev_app_distr.
Qed.

Lemma split1_spec c s a b : split1 c s = Some (a, b) <-> s = a ++ c :: b /\ ~ In c a.
Proof.
  revert a. induction s as [|x s IH]; intros a; simpl.
  - split; [discriminate|]. intros [H _]. destruct a; discriminate.
  - destruct (Ascii.eqb_spec x c) as [->|N].
    + split.
      * intros H; inversion H; auto.
      * intros [H NI]. destruct a as [|y a]; simpl in H; inversion H; subst; auto.
        destruct NI. simpl. auto.
    + destruct (split1 c s) as [[a' b']|] eqn:E.
      * split.
        -- intros H; inversion H; subst. destruct (proj1 (IH a') eq_refl) as [-> NI].
           split; auto. simpl. intuition.
        -- intros [H NI]. destruct a as [|y a]; simpl in H; inversion H; subst; [congruence|].
           assert (Some (a', b') = Some (a, b)) as Q.
           { apply IH. split; auto. intros Hi. apply NI. simpl; auto. }
           inversion Q; auto.
      * split; [discriminate|].
        intros [H NI]. destruct a as [|y a]; simpl in H; inversion H; subst; [congruence|].
        assert (None = Some (a, b)) as Q; [|discriminate].
        apply IH. split; auto. intros Hi; apply NI; simpl; auto.
Qed.

Lemma split1_none c s : split1 c s = None <-> ~ In c s.
Proof.
  induction s as [|x s IH]; simpl; [intuition|].
  destruct (Ascii.eqb_spec x c) as [->|N].
  - split; [discriminate|tauto].
  - destruct (split1 c s) as [[a b]|] eqn:E.
    + split; [discriminate|]. intros H. assert (~ In c s) as H' by tauto. apply IH in H'. discriminate.
    + split; auto. intros _ [H|H]; auto. apply IH in H; auto.
Qed.
