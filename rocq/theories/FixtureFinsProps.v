(** C30 over whole sessions of the fixture store: what runs when a value of a
    fixture is given up.  No assumption about the dependencies, scopes or the
    depth of requests. *)

From Coq Require Import List Bool Arith PeanoNat Lia.
From Verif Require Import Dict FixtureLife FixtureLifeProps.
Import ListNotations.

(** Finalizers [fins] (in order of registration) of value [n] of fixture [f] ran,
    last one first, down to number [k]: to the first one registered, or to one
    that raised; all those that ran before it ended well *)
Definition torn (f n : nat) (fins : list fout) (t : list ev) : Prop := exists k,
  t = rev (map (fun i => EFin f n i (nth i fins Fine)) (seq k (length fins - k))) /\
  (k = 0 \/ exists c, nth_error fins k = Some (Raises c)) /\
  (forall j, k < j -> j < length fins -> nth_error fins j = Some Fine).

(** do_cleanups gives its events latest first *)
Lemma cleanups_torn f n fins t o : do_cleanups f n (rev fins) = (t, o) -> torn f n fins (rev t).
Proof.
  revert t o. induction fins as [|x fins IH] using rev_ind; intros t o H.
  - inversion H; subst. exists 0. split; [reflexivity|]. split; [auto|]. simpl. lia.
  - rewrite rev_unit in H. cbn [do_cleanups] in H. rewrite rev_length in H. destruct x as [|c].
    + destruct (do_cleanups f n (rev fins)) as [t' o'] eqn:E. inversion H; subst. destruct (IH _ _ eq_refl) as (k & A & B & C).
      destruct (Nat.le_gt_cases k (length fins)) as [Hk|Hk].
      * exists k. rewrite rev_app_distr, A, app_length. cbn [length rev app].
        replace (length fins + 1 - k) with (length fins - k + 1) by lia. rewrite seq_app, map_app, rev_app_distr.
        replace (k + (length fins - k)) with (length fins) by lia. cbn [seq map rev app]. split.
        { rewrite app_nth2, Nat.sub_diag by lia. cbn [nth]. f_equal. f_equal. apply map_ext_in. intros i Hi. apply in_seq in Hi.
          rewrite app_nth1 by lia. reflexivity. }
        split.
        { destruct B as [B|(c & B)]; [auto|]. right. exists c. rewrite nth_error_app1; [exact B|]. apply nth_error_Some. congruence. }
        { intros j J1 J2. destruct (Nat.lt_ge_cases j (length fins)).
          - rewrite nth_error_app1 by lia. auto.
          - rewrite nth_error_app2 by lia. replace (j - length fins) with 0 by lia. reflexivity. }
      * exfalso. destruct B as [->|(c & B)]; [lia|]. assert (X : k < length fins) by (apply nth_error_Some; congruence). lia.
    + inversion H; subst. exists (length fins). rewrite app_length. cbn [length].
      replace (length fins + 1 - length fins) with 1 by lia. cbn [seq map rev app]. split.
      * rewrite app_nth2, Nat.sub_diag by lia. reflexivity.
      * split; [right; exists c; rewrite nth_error_app2, Nat.sub_diag by lia; reflexivity|]. intros j J1 J2. lia.
Qed.

Section Fins.
Variable args_of : nat -> list nat.
Variable scope_of : nat -> nat.
Variable params_of : nat -> list nat.
Variable call : nat -> fcall.

Local Notation get_active := (FixtureLife.get_active scope_of).
Local Notation deactivate := (FixtureLife.deactivate scope_of).
Local Notation compute := (FixtureLife.compute args_of scope_of params_of call).
Local Notation fresh := (FixtureLife.fresh args_of scope_of params_of call).
Local Notation call_fixture := (FixtureLife.call_fixture args_of scope_of params_of call).

(** the pieces of a trace (earliest event first) *)
Definition piece (b : list ev) : Prop :=
  (exists f n vals, b = [ECall f n vals]) \/
  (exists f n t, b = EDown f n :: t /\ torn f n (c_fins (call n)) t).

Definition given_up (tr : list ev) : list nat := flat_map (fun e => match e with EDown _ n => [n] | _ => [] end) tr.

Record finv (st : state) : Prop := mkFinv {
  v_pieces : exists bs, rev (s_trace st) = concat bs /\ Forall piece bs;
  v_once : NoDup (given_up (s_trace st));
  v_old : forall n, In n (given_up (s_trace st)) -> n < s_next st;
  v_act : forall f a, get_active f st = Some a ->
    a_fins a = c_fins (call (a_val a)) /\ a_val a < s_next st /\ ~ In (a_val a) (given_up (s_trace st));
  v_inj : forall f g a b, get_active f st = Some a -> get_active g st = Some b -> a_val a = a_val b -> f = g }.

Lemma given_up_app a b : given_up (a ++ b) = given_up a ++ given_up b.
Proof. apply flat_map_app. Qed.

Lemma finv0 : finv state0.
Proof.
  split; try (intros; discriminate).
  - exists []. split; [reflexivity|constructor].
  - constructor.
  - intros n [].
Qed.

(** nothing of interest changed *)
Lemma finv_same st st' : finv st -> s_trace st' = s_trace st -> s_next st' = s_next st ->
  (forall f, get_active f st' = get_active f st) -> finv st'.
Proof.
  intros [A B C D E] Ht Hn Ha. split; rewrite ?Ht, ?Hn; auto.
  - intros f a H. rewrite Ha in H. exact (D f a H).
  - intros f g a b H1 H2. rewrite Ha in H1, H2. eauto.
Qed.

Lemma finv_touch k st : finv st -> finv (touch k st).
Proof.
  intros H. destruct (touch_rest k st) as (_ & _ & _ & T4 & T5). apply (finv_same st); auto.
  intros f. apply get_active_touch.
Qed.

Lemma finv_deactivate f st st' o : finv st -> deactivate f st = (st', o) -> finv st'.
Proof.
  intros [A B C D E] H. pose proof (deactivate_get scope_of f) as G. destruct (deactivate_spec _ _ _ _ _ H) as (_ & _ & _ & _ & Hn & _ & T).
  destruct (get_active f st) as [a|] eqn:Ea.
  - destruct T as (t & T & Dc). destruct (D f a Ea) as (D1 & D2 & D3).
    assert (Gt : given_up t = []).
    { pose proof (do_cleanups_app _ _ _ _ _ Dc) as Q. clear - Q. induction t as [|e t IH]; [reflexivity|].
      destruct (Q e (or_introl eq_refl)) as (i & x & ->). cbn. apply IH. intros e I. apply Q. right. exact I. }
    assert (GU : given_up (s_trace st') = a_val a :: given_up (s_trace st)).
    { rewrite T, given_up_app, Gt. reflexivity. }
    split; rewrite ?GU, ?Hn.
    + destruct A as (bs & A1 & A2). exists (bs ++ [EDown f (a_val a) :: rev t]). split.
      * rewrite T, rev_app_distr. cbn [rev]. rewrite <- app_assoc, A1, concat_app. cbn [concat app]. rewrite app_nil_r. reflexivity.
      * apply Forall_app. split; [exact A2|]. constructor; [|constructor]. right. exists f, (a_val a), (rev t). split; [reflexivity|].
        rewrite D1 in Dc. eapply cleanups_torn; eauto.
    + constructor; auto.
    + intros n [<-|I]; auto.
    + intros g b Hg. rewrite (G g _ _ _ H) in Hg. destruct (Nat.eqb_spec g f) as [->|Ne]; [discriminate|].
      destruct (D g b Hg) as (X1 & X2 & X3). split; [exact X1|]. split; [exact X2|]. intros [Y|Y]; [|contradiction].
      apply Ne. symmetry. eapply E; eauto.
    + intros g h b c Hg Hh. rewrite (G g _ _ _ H) in Hg. rewrite (G h _ _ _ H) in Hh.
      destruct (Nat.eqb g f); [discriminate|]. destruct (Nat.eqb h f); [discriminate|]. eauto.
  - destruct T as [T _]. apply (finv_same st); [split; auto|exact T|exact Hn|].
    intros g. rewrite (G g _ _ _ H). destruct (Nat.eqb_spec g f) as [->|]; [symmetry; exact Ea|reflexivity].
Qed.

Lemma finv_args rec l : (forall g st, finv st -> finv (fst (rec g st))) ->
  forall st, finv st -> finv (fst (compute_args rec l st)).
Proof.
  intros Hr. induction l as [|g l IH]; intros st H; [exact H|]. cbn [compute_args].
  pose proof (Hr g st H) as H1. destruct (rec g st) as [st1 [v|c|]]; cbn [fst] in H1; auto.
  pose proof (IH st1 H1) as H2. destruct (compute_args rec l st1) as [st2 [vs|r]]; exact H2.
Qed.

Lemma finv_call rec f st : (forall g st, finv st -> finv (fst (rec g st))) -> finv st -> finv (fst (FixtureLife.call_fixture args_of scope_of params_of call rec f st)).
Proof.
  intros Hr H. unfold FixtureLife.call_fixture. pose proof (finv_args rec (args_of f) Hr st H) as H1.
  destruct (compute_args rec (args_of f) st) as [st1 [vals|r]]; cbn [fst] in *; [|exact H1].
  destruct (get_active f st1) as [a|] eqn:Ea; cbn [fst]; [exact H1|].
  pose proof (finv_touch (scope_of f) st1 H1) as H2. destruct (touch_rest (scope_of f) st1) as (_ & _ & _ & T4 & T5).
  set (st2 := touch (scope_of f) st1) in *. destruct H2 as [A B C D E].
  set (n := s_next st1) in *.
  set (st5 := set_next _ _).
  assert (Tr : s_trace st5 = ECall f n vals :: s_trace st2) by reflexivity.
  assert (Nx : s_next st5 = S (s_next st2)) by (cbn; rewrite T4; reflexivity).
  assert (G : forall g, get_active g st5 = if Nat.eqb g f then Some (mkAct n (c_fins (call n))) else get_active g st2).
  { intros g. unfold FixtureLife.get_active, level at 1. unfold st5. cbn [s_active set_next emit set_deps set_active]. rewrite d_get_set.
    destruct (Nat.eqb_spec (scope_of g) (scope_of f)) as [Es|Es].
    - rewrite d_get_set. destruct (Nat.eqb g f); [reflexivity|]. rewrite Es. reflexivity.
    - destruct (Nat.eqb_spec g f) as [->|]; [congruence|]. reflexivity. }
  split; rewrite ?Tr, ?Nx.
  - destruct A as (bs & A1 & A2). exists (bs ++ [[ECall f n vals]]). split.
    + cbn [rev]. rewrite A1, concat_app. reflexivity.
    + apply Forall_app. split; [exact A2|]. constructor; [|constructor]. left. exists f, n, vals. reflexivity.
  - exact B.
  - intros m I. cbn in I. apply C in I. lia.
  - intros g b Hg. rewrite G in Hg. cbn [given_up flat_map app]. destruct (Nat.eqb g f).
    + inversion Hg; subst b. cbn [a_fins a_val]. split; [reflexivity|]. rewrite T4. split; [lia|].
      intros I. apply C in I. rewrite T4 in I. unfold n in I. lia.
    + destruct (D g b Hg) as (X1 & X2 & X3). split; [exact X1|]. split; [lia|exact X3].
  - intros g h b c Hg Hh Hv. rewrite G in Hg, Hh. destruct (Nat.eqb_spec g f) as [->|Ng]; destruct (Nat.eqb_spec h f) as [->|Nh]; auto.
    + inversion Hg; subst b. cbn in Hv. destruct (D h c Hh) as (_ & X2 & _). rewrite T4 in X2. unfold n in Hv. lia.
    + inversion Hh; subst c. cbn in Hv. destruct (D g b Hg) as (_ & X2 & _). rewrite T4 in X2. unfold n in Hv. lia.
    + eauto.
Qed.

Lemma finv_computing x st : finv st -> finv (set_computing x st).
Proof. intros H. apply (finv_same st); auto. Qed.

Lemma finv_fresh rec f st : (forall g st, finv st -> finv (fst (rec g st))) -> finv st -> finv (fst (FixtureLife.fresh args_of scope_of params_of call rec f st)).
Proof.
  intros Hr H. unfold FixtureLife.fresh. pose proof (finv_call rec f _ Hr (finv_computing (f :: s_computing st) st H)) as H1.
  destruct (FixtureLife.call_fixture _ _ _ _ _ _ _) as [st1 [v|c|]]; cbn [fst] in *; auto using finv_computing.
  destruct (deactivate f st1) as [st2 o] eqn:Ed. apply finv_computing. eapply finv_deactivate; eauto.
Qed.

Lemma finv_compute n : forall f st, finv st -> finv (fst (compute n f st)).
Proof.
  induction n as [|n IH]; intros f st H; [exact H|]. cbn [FixtureLife.compute].
  destruct (existsb (Nat.eqb f) (s_computing st)); [exact H|]. pose proof (finv_touch (scope_of f) st H) as H0.
  destruct (get_active f (touch (scope_of f) st)) as [a|]; [|apply finv_fresh; auto].
  destruct (FixtureLife.valid _ _ _); [exact H0|]. destruct (deactivate f (touch (scope_of f) st)) as [st1 [|c]] eqn:Ed.
  - apply finv_fresh; auto. eapply finv_deactivate; eauto.
  - eapply finv_deactivate; eauto.
Qed.

Lemma finv_down fs : forall st, finv st -> finv (fst (down_all scope_of fs st)).
Proof.
  induction fs as [|f fs IH]; intros st H; [exact H|]. cbn [down_all].
  destruct (deactivate f st) as [st1 o] eqn:Ed. pose proof (finv_deactivate _ _ _ _ H Ed) as H1. destruct o as [|[|]]; auto.
Qed.

Lemma finv_pop s ks : forall st, finv st -> finv (fst (pop_levels scope_of s ks st)).
Proof.
  induction ks as [|k ks IH]; intros st H; [exact H|]. cbn [pop_levels]. destruct (Nat.leb k s); auto.
  pose proof (finv_down (rev (d_keys (level k st))) st H) as H1. destruct (down_all scope_of _ st) as [st1 [|c]]; cbn [fst] in *; auto.
Qed.

Lemma finv_run fuel ops : forall st, finv st -> finv (run args_of scope_of params_of call fuel ops st).
Proof.
  induction ops as [|o ops IH]; intros st H; [exact H|]. unfold run in *. cbn [fold_left]. apply IH.
  destruct o as [f|v|s i]; cbn [step].
  - apply finv_compute, H.
  - apply (finv_same st); auto.
  - unfold pop_scope. destruct i; [exact H|]. apply finv_pop, H.
Qed.

Lemma piece_down bs f n p q : Forall piece bs -> concat bs = p ++ EDown f n :: q ->
  exists bs1 bs2 t, bs = bs1 ++ (EDown f n :: t) :: bs2 /\ p = concat bs1 /\ q = t ++ concat bs2 /\ torn f n (c_fins (call n)) t.
Proof.
  revert p. induction bs as [|b bs IH]; intros p Hb H; [destruct p; discriminate|]. inversion Hb as [|? ? Hp Hb']; subst.
  cbn [concat] in H.
  assert (K : forall h t, b = h :: t -> (forall x y, ~ In (EDown x y) t) ->
    (p = [] /\ h = EDown f n /\ q = t ++ concat bs) \/ exists p', p = b ++ p' /\ concat bs = p' ++ EDown f n :: q).
  { intros h t -> Ht. cbn [app] in H. destruct p as [|e p]; [left; inversion H; auto|]. right. inversion H; subst e. clear H.
    rename H2 into H. assert (Z : exists p', p = t ++ p' /\ concat bs = p' ++ EDown f n :: q).
    { clear - H Ht. revert p H. induction t as [|x t IHt]; intros p H; [exists p; auto|]. cbn [app] in H. destruct p as [|y p].
      - inversion H; subst. exfalso. apply (Ht f n). left. reflexivity.
      - inversion H; subst y. destruct (IHt (fun a b I => Ht a b (or_intror I)) p H2) as (p' & -> & X). exists p'. auto. }
    destruct Z as (p' & -> & X). exists p'. auto. }
  assert (Rec : forall p', p = b ++ p' -> concat bs = p' ++ EDown f n :: q ->
     exists bs1 bs2 t, b :: bs = bs1 ++ (EDown f n :: t) :: bs2 /\ p = concat bs1 /\ q = t ++ concat bs2 /\ torn f n (c_fins (call n)) t).
  { intros p' -> X. destruct (IH p' Hb' X) as (bs1 & bs2 & t & Y1 & Y2 & Y3 & Y4). exists (b :: bs1), bs2, t.
    split; [rewrite Y1; reflexivity|]. split; [rewrite Y2; reflexivity|]. auto. }
  destruct Hp as [(f' & n' & vals & Eb)|(f' & n' & t & Eb & Tn)].
  - destruct (K (ECall f' n' vals) [] Eb (fun _ _ I => I)) as [(_ & X & _)|(p' & X & Y)]; [discriminate|eauto].
  - destruct (K (EDown f' n') t Eb) as [(-> & X & Hq)|(p' & X & Y)]; [| |eauto].
    + intros x y I. destruct Tn as (k & -> & _). apply in_rev, in_map_iff in I as (i & I & _). discriminate.
    + inversion X; subst. exists [], bs, t. auto.
Qed.

Lemma piece_fin bs f n i o : Forall piece bs -> In (EFin f n i o) (concat bs) -> In n (given_up (concat bs)).
Proof.
  intros Hb H. apply in_concat in H as (b & Hin & H). rewrite Forall_forall in Hb. destruct (Hb b Hin) as [(f' & n' & vals & ->)|(f' & n' & t & -> & Tn)].
  - destruct H as [H|[]]; discriminate.
  - destruct H as [H|H]; [discriminate|]. destruct Tn as (k & -> & _). apply in_rev, in_map_iff in H as (j & H & _). inversion H; subst.
    apply in_flat_map. exists (EDown f n). split; [|left; reflexivity]. apply in_concat. eexists. split; [exact Hin|]. left. reflexivity.
Qed.

(** When the value [n] of a fixture is given up - and this happens at most once -
    its finalizers run directly afterwards: those of the call that made the
    value, last registered first, until one raises; and they run at no other
    time *)
Theorem C30_teardown : forall fuel ops p f n q,
  rev (s_trace (run args_of scope_of params_of call fuel ops state0)) = p ++ EDown f n :: q ->
  exists t q', q = t ++ q' /\ torn f n (c_fins (call n)) t /\
    (forall g i o, ~ In (EFin g n i o) p /\ ~ In (EFin g n i o) q') /\
    (forall g, ~ In (EDown g n) p /\ ~ In (EDown g n) q).
Proof.
  intros fuel ops p f n q H. pose proof (finv_run fuel ops _ finv0) as [[bs [A1 A2]] B _ _ _]. set (st := run _ _ _ _ _ _ _) in *.
  rewrite A1 in H. destruct (piece_down bs f n p q A2 H) as (bs1 & bs2 & t & E1 & E2 & E3 & E4).
  assert (N : NoDup (given_up (concat bs))).
  { rewrite <- A1. assert (P : forall l, given_up (rev l) = rev (given_up l)).
    { induction l as [|e l IHl]; [reflexivity|]. cbn [rev]. rewrite given_up_app, IHl. destruct e; cbn; rewrite ?app_nil_r; reflexivity. }
    rewrite P. apply NoDup_rev, B. }
  rewrite H, given_up_app in N. cbn [given_up flat_map app] in N. fold (given_up q) in N. pose proof (NoDup_remove_2 _ _ _ N) as Nn.
  rewrite E1 in A2. apply Forall_app in A2 as [F1 F2]. inversion F2 as [|? ? _ F3]; subst.
  assert (GI : forall g l, In (EDown g n) l -> In n (given_up l)).
  { intros g l I. apply in_flat_map. exists (EDown g n). split; [exact I|left; reflexivity]. }
  exists t, (concat bs2). split; [reflexivity|]. split; [exact E4|]. split.
  - intros g i o. split; intros I.
    + apply (piece_fin bs1) in I; auto. apply Nn, in_or_app. auto.
    + apply (piece_fin bs2) in I; auto. apply Nn, in_or_app. right. rewrite given_up_app. apply in_or_app. auto.
  - intros g. split; intros I; apply Nn, in_or_app; [left|right]; eapply GI; exact I.
Qed.

(** If no finalizer raises they all run *)
Theorem C30_all_torn_partial : forall fuel ops p f n q, (forall o, In o (tl (c_fins (call n))) -> o = Fine) ->
  rev (s_trace (run args_of scope_of params_of call fuel ops state0)) = p ++ EDown f n :: q ->
  exists q', q = rev (map (fun i => EFin f n i (nth i (c_fins (call n)) Fine)) (seq 0 (length (c_fins (call n))))) ++ q'.
Proof.
  intros fuel ops p f n q Hf H. destruct (C30_teardown fuel ops p f n q H) as (t & q' & -> & (k & -> & K & _) & _).
  exists q'. f_equal. assert (k = 0) as ->.
  { destruct K as [K|(c & K)]; [exact K|]. destruct k as [|k]; [reflexivity|]. exfalso.
    destruct (c_fins (call n)) as [|x l]; [discriminate|]. cbn in K. apply nth_error_In in K. apply Hf in K. discriminate. }
  rewrite Nat.sub_0_r. reflexivity.
Qed.
End Fins.

(** a fixture with three finalizers, the second of which raises, and its scope
    ends twice with a request after each *)
Example C30_teardown_ex :
  rev (s_trace (run (fun _ => []) (fun _ => 0) (fun _ => []) (fun n => match n with 0 => mkCall [Fine; Raises false; Fine] Fine | _ => mkCall [Fine; Fine] Fine end) 2
    [Request 5; PopScope 0 false; Request 5; PopScope 0 false] state0))
  = [ECall 5 0 []; EDown 5 0; EFin 5 0 2 Fine; EFin 5 0 1 (Raises false); ECall 5 1 []; EDown 5 1; EFin 5 1 1 Fine; EFin 5 1 0 Fine].
Proof. reflexivity. Qed.

Print Assumptions C30_teardown.
Print Assumptions C30_all_torn_partial.
