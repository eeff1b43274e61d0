(** Generic reasoning about the combinators of Core.v: preservation of
    invariants, and the frame of user code. *)

From Coq Require Import List Bool Arith PeanoNat Lia.
From Verif Require Import Events Core.
Import ListNotations.

Arguments isinstance : simpl never.
Arguments isinstance_any : simpl never.
Arguments handle_exception : simpl never.
Arguments add_exception : simpl never.
Arguments attach : simpl never.

(** ** Preservation *)

Definition pres (I : state -> Prop) (m : M) : Prop := forall s, I s -> I (fst (m s)).

Lemma pres_ret (I : state -> Prop) : pres I ret.
Proof. intros s H; exact H. Qed.

Lemma pres_seq (I : state -> Prop) a b : pres I a -> pres I b -> pres I (a ;; b).
Proof.
  intros Ha Hb s H. unfold seq. specialize (Ha s H). destruct (a s) as [s1 [| x |]]; simpl in *; auto.
Qed.

Lemma pres_upd (I : state -> Prop) f : (forall s, I s -> I (f s)) -> pres I (upd f).
Proof. intros H s Hs; simpl; auto. Qed.

Lemma pres_finally (I : state -> Prop) a b : pres I a -> pres I b -> pres I (finally a b).
Proof.
  intros Ha Hb s H. unfold finally. specialize (Ha s H).
  destruct (a s) as [s1 [| x |]]; simpl in *; auto;
    specialize (Hb s1 Ha); destruct (b s1) as [s2 [| y |]]; simpl in *; auto.
Qed.

Lemma pres_except (I : state -> Prop) ts a h : pres I a -> (forall x, pres I (h x)) -> pres I (except_ ts a h).
Proof.
  intros Ha Hh s H. unfold except_. specialize (Ha s H).
  destruct (a s) as [s1 [| x |]]; simpl in *; auto.
  destruct (isinstance_any (x_kind x) ts); simpl; auto. apply Hh; exact Ha.
Qed.

Lemma pres_cond (I : state -> Prop) c a b : pres I a -> pres I b -> pres I (cond c a b).
Proof. intros Ha Hb s H. unfold cond. destruct (c s); auto. Qed.

Lemma pres_reraise (I : state -> Prop) x : pres I (reraise x).
Proof. intros s H; exact H. Qed.

Lemma pres_handling (I : state -> Prop) E h a :
  (forall x s, I s -> I (handle_exception E x s)) ->
  pres I a -> pres I (handling E h a).
Proof.
  intros Hx Ha s H. unfold handling. specialize (Ha s H).
  destruct (a s) as [s1 [| x |]]; simpl in *; auto.
  destruct (isinstance_any (x_kind x) (h_pass h)); simpl; auto.
  destruct (_ || _); simpl; auto.
  destruct (isinstance_any (x_kind x) (if h_swallow h then _ else _)); simpl; auto.
Qed.

Lemma pres_call_all (I : state -> Prop) fs : (forall f, In f fs -> pres I f) -> forall sv, pres I (call_all sv fs).
Proof.
  induction fs as [|f fs IH]; intros H sv s Hs; simpl.
  - destruct sv; auto.
  - pose proof (H f (or_introl eq_refl) s Hs) as H1.
    assert (IH' : forall sv0, pres I (call_all sv0 fs)) by (apply IH; intros g Hg; apply H; right; exact Hg).
    destruct (f s) as [s1 [| x |]]; simpl in *; [apply IH'; exact H1 | | exact H1].
    destruct (isinstance (x_kind x) TException); simpl; [apply IH'; exact H1 | exact H1].
Qed.

Lemma pres_fun (I : state -> Prop) (f : state -> M) : (forall s0, pres I (f s0)) -> pres I (fun s => f s s).
Proof. intros H s Hs. apply H; exact Hs. Qed.

Lemma pres_default (I : state -> Prop) n a :
  (forall v s, I s -> I (on_cm (with_default v) s)) -> pres I a -> pres I (default_scope_override n a).
Proof.
  intros H Ha s Hs. unfold default_scope_override.
  assert (F : pres I (finally (upd (on_cm (with_default (Some n))) ;; a) (upd (on_cm (with_default (cm_default (st_cm s))))))).
  { apply pres_finally; [apply pres_seq; auto|]; apply pres_upd; auto. }
  exact (F s Hs).
Qed.

Lemma pres_forbid (I : state -> Prop) a :
  (forall v s, I s -> I (on_cm (with_implicit v) s)) -> pres I a -> pres I (forbid_implicit a).
Proof.
  intros H Ha s Hs. unfold forbid_implicit.
  assert (F : pres I (finally (upd (on_cm (with_implicit false)) ;; a) (upd (on_cm (with_implicit (cm_implicit (st_cm s))))))).
  { apply pres_finally; [apply pres_seq; auto|]; apply pres_upd; auto. }
  exact (F s Hs).
Qed.

Lemma pres_tap_add (I : state -> Prop) sc a :
  (forall req k s, I s -> I (emit (EvReject req k) s)) -> pres I a -> pres I (tap_add sc a).
Proof.
  intros He Ha s H. unfold tap_add. specialize (Ha s H). destruct (a s) as [s1 [| x |]]; simpl in *; auto.
Qed.

(** ** Which exception can escape *)

(** [raises P m]: every exception escaping from [m] satisfies [P]. *)
Definition raises (P : exn -> Prop) (m : M) : Prop :=
  forall s, match snd (m s) with ORaise x => P x | _ => True end.

(** [nofuel m]: [m] never reports fuel exhaustion. *)
Definition nofuel (m : M) : Prop := forall s, snd (m s) <> OFuel.

Lemma nofuel_ret : nofuel ret.
Proof. intros s; discriminate. Qed.
Lemma nofuel_upd f : nofuel (upd f).
Proof. intros s; discriminate. Qed.
Lemma nofuel_reraise x : nofuel (reraise x).
Proof. intros s; discriminate. Qed.
Lemma nofuel_raise k f : nofuel (raise_new k f).
Proof. intros s; discriminate. Qed.
Lemma nofuel_seq a b : nofuel a -> nofuel b -> nofuel (a ;; b).
Proof.
  intros Ha Hb s. unfold seq. specialize (Ha s). destruct (a s) as [s1 [| x |]]; simpl in *; auto.
Qed.
Lemma nofuel_finally a b : nofuel a -> nofuel b -> nofuel (finally a b).
Proof.
  intros Ha Hb s. unfold finally. specialize (Ha s). destruct (a s) as [s1 [| x |]]; simpl in *; auto;
  specialize (Hb s1); destruct (b s1) as [s2 [| y |]]; simpl in *; auto; discriminate.
Qed.
Lemma nofuel_except ts a h : nofuel a -> (forall x, nofuel (h x)) -> nofuel (except_ ts a h).
Proof.
  intros Ha Hh s. unfold except_. specialize (Ha s). destruct (a s) as [s1 [| x |]]; simpl in *; auto.
  destruct (isinstance_any _ _); simpl; auto; try discriminate. apply Hh.
Qed.
Lemma nofuel_cond c a b : nofuel a -> nofuel b -> nofuel (cond c a b).
Proof. intros Ha Hb s. unfold cond. destruct (c s); auto. Qed.
Lemma nofuel_handling E h a : nofuel a -> nofuel (handling E h a).
Proof.
  intros Ha s. unfold handling. specialize (Ha s). destruct (a s) as [s1 [| x |]]; simpl in *; auto.
  repeat (match goal with |- context[if ?b then _ else _] => destruct b end); simpl; discriminate.
Qed.
Lemma nofuel_call_all fs : (forall f, In f fs -> nofuel f) -> forall sv, nofuel (call_all sv fs).
Proof.
  induction fs as [|f fs IH]; intros H sv s; simpl.
  - destruct sv; discriminate.
  - pose proof (H f (or_introl eq_refl) s) as H1.
    assert (IH' : forall sv0, nofuel (call_all sv0 fs)) by (apply IH; intros g Hg; apply H; right; exact Hg).
    destruct (f s) as [s1 [| x |]]; simpl in *; [apply IH' | | exact H1].
    destruct (isinstance (x_kind x) TException); simpl; [apply IH' | discriminate].
Qed.
Lemma nofuel_fun (f : state -> M) : (forall s0, nofuel (f s0)) -> nofuel (fun s => f s s).
Proof. intros H s. apply H. Qed.

(** ** Preservation together with absence of fuel exhaustion *)

Definition safe (I : state -> Prop) (m : M) : Prop :=
  forall s, I s -> I (fst (m s)) /\ snd (m s) <> OFuel.

Lemma safe_of (I : state -> Prop) m : pres I m -> nofuel m -> safe I m.
Proof. intros H H' s Hs. split; auto. Qed.

Lemma safe_pres (I : state -> Prop) m : safe I m -> pres I m.
Proof. intros H s Hs. apply H; auto. Qed.

Lemma safe_ret (I : state -> Prop) : safe I ret.
Proof. intros s H; split; auto; discriminate. Qed.

Lemma safe_seq (I : state -> Prop) a b : safe I a -> safe I b -> safe I (a ;; b).
Proof.
  intros Ha Hb s H. unfold seq. destruct (Ha s H). destruct (a s) as [s1 [| x |]]; simpl in *; auto.
Qed.

Lemma safe_upd (I : state -> Prop) f : (forall s, I s -> I (f s)) -> safe I (upd f).
Proof. intros H s Hs; simpl; split; auto; discriminate. Qed.

Lemma safe_finally (I : state -> Prop) a b : safe I a -> safe I b -> safe I (finally a b).
Proof.
  intros Ha Hb s H. unfold finally. destruct (Ha s H) as [A1 A2].
  destruct (a s) as [s1 [| x |]]; simpl in *; [| |auto];
    destruct (Hb s1 A1); destruct (b s1) as [s2 [| y |]]; simpl in *; auto; split; auto; discriminate.
Qed.

Lemma safe_except (I : state -> Prop) ts a h : safe I a -> (forall x, safe I (h x)) -> safe I (except_ ts a h).
Proof.
  intros Ha Hh s H. unfold except_. destruct (Ha s H) as [A1 A2].
  destruct (a s) as [s1 [| x |]]; simpl in *; auto.
  destruct (isinstance_any (x_kind x) ts); simpl; auto. apply Hh; exact A1.
Qed.

Lemma safe_cond (I : state -> Prop) c a b : safe I a -> safe I b -> safe I (cond c a b).
Proof. intros Ha Hb s H. unfold cond. destruct (c s); auto. Qed.

Lemma safe_reraise (I : state -> Prop) x : safe I (reraise x).
Proof. intros s H; split; auto; discriminate. Qed.

Lemma safe_raise (I : state -> Prop) k f : (forall s n, I s -> I (set_nx n s)) -> safe I (raise_new k f).
Proof. intros Hn s H; split; simpl; auto; discriminate. Qed.

Lemma safe_handling (I : state -> Prop) E h a :
  (forall x s, I s -> I (handle_exception E x s)) ->
  safe I a -> safe I (handling E h a).
Proof.
  intros Hx Ha s H. unfold handling. destruct (Ha s H) as [A1 A2].
  destruct (a s) as [s1 [| x |]]; simpl in *; auto.
  destruct (isinstance_any (x_kind x) (h_pass h)); simpl; auto.
  destruct (_ || _); simpl; [split; auto; discriminate|].
  destruct (isinstance_any (x_kind x) (if h_swallow h then _ else _)); simpl; split; auto; discriminate.
Qed.

Lemma safe_call_all (I : state -> Prop) fs : (forall f, In f fs -> safe I f) -> forall sv, safe I (call_all sv fs).
Proof.
  induction fs as [|f fs IH]; intros H sv s Hs; simpl.
  - destruct sv; split; auto; discriminate.
  - destruct (H f (or_introl eq_refl) s Hs) as [H1 H2].
    assert (IH' : forall sv0, safe I (call_all sv0 fs)) by (apply IH; intros g Hg; apply H; right; exact Hg).
    destruct (f s) as [s1 [| x |]]; simpl in *; [apply IH'; exact H1 | | auto].
    destruct (isinstance (x_kind x) TException); simpl; [apply IH'; exact H1 | split; auto; discriminate].
Qed.

Lemma safe_fun (I : state -> Prop) (f : state -> M) : (forall s0, safe I (f s0)) -> safe I (fun s => f s s).
Proof. intros H s Hs. apply H; exact Hs. Qed.

Lemma safe_forbid (I : state -> Prop) a :
  (forall v s, I s -> I (on_cm (with_implicit v) s)) -> safe I a -> safe I (forbid_implicit a).
Proof.
  intros H Ha s Hs. unfold forbid_implicit.
  assert (F : safe I (finally (upd (on_cm (with_implicit false)) ;; a) (upd (on_cm (with_implicit (cm_implicit (st_cm s))))))).
  { apply safe_finally; [apply safe_seq; auto|]; apply safe_upd; auto. }
  exact (F s Hs).
Qed.

Lemma nofuel_exec E p : nofuel (exec E p).
Proof.
  induction p; simpl.
  - apply nofuel_ret.
  - apply nofuel_raise.
  - apply nofuel_reraise.
  - apply nofuel_seq; auto. apply nofuel_upd.
  - apply nofuel_seq; auto. intros s. unfold tap_add.
    assert (H : snd (add_cleanup sc crit succ p1 s) <> OFuel);
      [|destruct (add_cleanup sc crit succ p1 s) as [s1 [| x |]]; cbn [snd] in *; congruence].
    unfold add_cleanup.
    repeat match goal with
    | |- snd (if ?b then _ else _) <> _ => destruct b; try discriminate
    | |- snd (match ?b with _ => _ end) <> _ => destruct b; try discriminate
    end.
  - apply nofuel_seq; auto. apply nofuel_upd.
  - apply nofuel_seq; auto. apply nofuel_upd.
  - apply nofuel_seq; auto. apply nofuel_handling; auto.
  - apply nofuel_seq; auto. apply nofuel_except; auto. intros x; apply nofuel_ret.
  - apply nofuel_seq; auto. intros s. unfold default_scope_override.
    apply nofuel_finally; [apply nofuel_seq; auto|]; apply nofuel_upd.
  - apply nofuel_seq; auto. intros s; discriminate.
  - apply nofuel_seq; auto. apply nofuel_finally; auto.
  - apply nofuel_seq; auto. apply nofuel_cond; auto.
  - apply nofuel_seq; auto. intros s; discriminate.
Qed.

Lemma nofuel_fire E h t : nofuel (fire E h t).
Proof. apply nofuel_seq; [apply nofuel_upd|apply nofuel_exec]. Qed.

(** ** Equality tests *)

Lemma sname_eqb_eq a b : sname_eqb a b = true <-> a = b.
Proof. destruct a, b; simpl; split; intros; try discriminate; auto. Qed.
Lemma sname_eqb_refl a : sname_eqb a a = true.
Proof. destruct a; reflexivity. Qed.
Lemma xid_eqb_eq a b : xid_eqb a b = true <-> a = b.
Proof.
  destruct a, b; simpl; split; intros H; try discriminate;
    try (apply Nat.eqb_eq in H; subst; auto); try (inversion H; apply Nat.eqb_refl).
Qed.
Lemma mem_xid_In x l : mem_xid x l = true <-> In x l.
Proof.
  unfold mem_xid. rewrite existsb_exists. split.
  - intros [y [H1 H2]]. apply xid_eqb_eq in H2. subst; auto.
  - intros H. exists x; split; auto. apply xid_eqb_eq; auto.
Qed.
