(** Properties of computing, caching and tearing down fixtures (model:
    FixtureLife.v): C28, C29, C30. *)

From Coq Require Import List Bool Arith PeanoNat Lia Sorted.
From Verif Require Import Dict FixtureLife.
Import ListNotations.

(** ** C30: the finalizers of one fixture *)

Definition fins_run (t : list ev) : list (nat * fout) :=
  flat_map (fun e => match e with EFin _ _ i o => [(i, o)] | _ => [] end) (rev t).

Lemma do_cleanups_app f n fins : forall t o, do_cleanups f n fins = (t, o) ->
  forall e, In e t -> exists i x, e = EFin f n i x.
Proof.
  induction fins as [|x fins IH]; simpl; intros t o H e I.
  - inversion H; subst. destruct I.
  - destruct x as [|c].
    + destruct (do_cleanups f n fins) as [t' o']. inversion H; subst. apply in_app_iff in I as [I|[<-|[]]]; eauto.
    + inversion H; subst. destruct I as [<-|[]]; eauto.
Qed.

(** Finalizers run in reverse order of registration until one of them raises;
    those registered before it are then never run. *)
Theorem C30_order : forall f n fins,
  let (t, o) := do_cleanups f n (rev fins) in
  exists k, k <= length fins
    /\ fins_run t = rev (combine (seq k (length fins - k)) (skipn k fins))
    /\ (o = Fine -> k = 0)
    /\ (o <> Fine -> nth_error fins k = Some o)
    /\ forall j, k < j -> nth_error fins j <> None -> nth_error fins j = Some Fine.
Proof.
  intros f n fins. induction fins as [|x fins IH] using rev_ind.
  - simpl. exists 0. simpl. repeat split; auto; try lia. intros H; congruence. intros [|j] _; simpl; congruence.
  - rewrite rev_unit. simpl. destruct x as [|c].
    + destruct (do_cleanups f n (rev fins)) as [t o]. destruct IH as [k [A [B [C [D E]]]]]. exists k.
      rewrite app_length, rev_length. simpl. split; [lia|]. split.
      * unfold fins_run in *. rewrite rev_app_distr. simpl. rewrite B, skipn_app.
        replace (k - length fins) with 0 by lia. simpl skipn.
        replace (length fins + 1 - k) with (length fins - k + 1) by lia. rewrite seq_app. simpl.
        replace (k + (length fins - k)) with (length fins) by lia.
        assert (W : forall (l1 l2 : list nat) (m1 m2 : list fout), length l1 = length m1 ->
                    combine (l1 ++ l2) (m1 ++ m2) = combine l1 m1 ++ combine l2 m2).
        { clear. induction l1 as [|a l1 IH]; intros l2 [|b m1] m2 H; simpl in *; try lia; auto. f_equal. apply IH. lia. }
        rewrite W by (rewrite seq_length, skipn_length; auto). simpl. rewrite rev_app_distr. reflexivity.
      * split; auto. split.
        { intros H. rewrite nth_error_app1; auto. apply nth_error_Some. rewrite (D H). discriminate. }
        { intros j J H. destruct (Nat.lt_ge_cases j (length fins)) as [L|L].
          - rewrite nth_error_app1 in * by auto. auto.
          - rewrite nth_error_app2 in * by auto. destruct (j - length fins) as [|[|m]]; simpl in *; congruence. }
    + exists (length fins). rewrite app_length, rev_length. simpl. split; [lia|]. split.
      * rewrite skipn_app, skipn_all, Nat.sub_diag. simpl. replace (length fins + 1 - length fins) with 1 by lia. reflexivity.
      * split; [discriminate|]. split.
        { intros _. rewrite nth_error_app2, Nat.sub_diag by auto. auto. }
        { intros j J H. exfalso. apply H. apply nth_error_None. rewrite app_length. simpl. lia. }
Qed.
Print Assumptions C30_order.

(** the full statement fails: a finalizer that raises keeps the others from running *)
Theorem C30_all_run_refuted : exists f n fins i,
  i < length fins /\ ~ exists o, In (EFin f n i o) (fst (do_cleanups f n (rev fins))).
Proof.
  exists 0, 0, [Fine; Raises false], 0. split; [simpl; lia|]. simpl. intros [o [H|[]]]. discriminate.
Qed.
Print Assumptions C30_all_run_refuted.

(** they all run, last one first, if none of them but possibly the first registered raises *)
Theorem C30_all_run_partial : forall f n fins, (forall x, In x (tl fins) -> x = Fine) ->
  fins_run (fst (do_cleanups f n (rev fins))) = rev (combine (seq 0 (length fins)) fins).
Proof.
  intros f n fins H. pose proof (C30_order f n fins) as Q. destruct (do_cleanups f n (rev fins)) as [t o]. simpl.
  destruct Q as [k [A [B [C [D _]]]]]. assert (K : k = 0).
  { destruct o; auto. specialize (D ltac:(discriminate)). destruct k as [|k]; auto.
    destruct fins as [|x fins]; [discriminate|]. simpl in D. apply nth_error_In in D. apply H in D. discriminate. }
  subst k. rewrite B, Nat.sub_0_r. auto.
Qed.
Print Assumptions C30_all_run_partial.

Example ex_finalizers : fins_run (fst (do_cleanups 3 4 (rev [Raises true; Fine; Fine]))) = [(2, Fine); (1, Fine); (0, Raises true)].
Proof. reflexivity. Qed.

(** ** dictionaries of scopes *)

Lemma sorted_app_inv {A} (R : A -> A -> Prop) l x : StronglySorted R l -> Forall (fun y => R y x) l -> StronglySorted R (l ++ [x]).
Proof.
  induction 1 as [|y l S1 IH F]; simpl; intros H.
  - constructor; constructor.
  - inversion H; subst. constructor; auto. apply Forall_app. split; auto.
Qed.

Lemma d_del_incl {V} k (d : dict V) x : In x (d_del k d) -> In x d.
Proof. induction d as [|[j w] d IH]; simpl; auto. destruct (Nat.eqb k j); simpl; intuition. Qed.
Lemma d_del_sorted {V} (R : nat * V -> nat * V -> Prop) k (d : dict V) : StronglySorted R d -> StronglySorted R (d_del k d).
Proof.
  induction 1 as [|[j w] d S1 IH F]; simpl; [constructor|]. destruct (Nat.eqb k j); auto. constructor; auto.
  rewrite Forall_forall in *. intros x I. apply F. eapply d_del_incl; eauto.
Qed.
Lemma d_set_fresh {V} k (v : V) d : d_get k d = None -> d_set k v d = d ++ [(k, v)].
Proof.
  induction d as [|[j w] d IH]; simpl; auto. destruct (Nat.eqb k j); [discriminate|]. intros H. rewrite IH; auto.
Qed.

Lemma d_keys_set_same {V} k (v w : V) d : d_get k d = Some w -> d_keys (d_set k v d) = d_keys d.
Proof.
  induction d as [|[j u] d IH]; simpl; [discriminate|]. destruct (Nat.eqb_spec k j); simpl; [congruence|].
  intros H. f_equal. auto.
Qed.
Lemma Forall2_imp {A B} (P Q : A -> B -> Prop) l m : (forall x y, P x y -> Q x y) -> Forall2 P l m -> Forall2 Q l m.
Proof. induction 2; constructor; auto. Qed.

Section Life.
Variable args_of : nat -> list nat.
Variable scope_of : nat -> nat.
Variable params_of : nat -> list nat.
Variable call : nat -> fcall.

(** facts of the static side: there is no cycle (C26), an argument does not have a
    narrower scope (C27) *)
Variable rank : nat -> nat.
Hypothesis acyclic : forall f g, In g (args_of f) -> rank g < rank f.
Hypothesis scopes : forall f g, In g (args_of f) -> scope_of f <= scope_of g.

Notation get_active := (get_active scope_of).
Notation valid := (valid params_of).
Notation deactivate := (deactivate scope_of).
Notation compute := (compute args_of scope_of params_of call).
Notation call_fixture := (call_fixture args_of scope_of params_of call).
Notation fresh := (fresh args_of scope_of params_of call).
Notation pop_scope := (pop_scope scope_of).

Record inv (st : state) : Prop := mkInv {
  i_active : d_ok (s_active st);
  i_level : forall k, d_ok (level k st);
  i_scope : forall k f a, d_get f (level k st) = Some a -> scope_of f = k;
  i_sorted : forall k, StronglySorted (fun x y => a_val (snd x) < a_val (snd y)) (level k st);
  i_uniq : forall f g a b, get_active f st = Some a -> get_active g st = Some b -> a_val a = a_val b -> f = g;
  i_deps : forall f a, get_active f st = Some a -> exists v, d_get f (s_deps st) = Some (map (fun p => (p, v p)) (params_of f));
  i_called : forall f a, get_active f st = Some a ->
    a_fins a = c_fins (call (a_val a)) /\ (exists vals, In (ECall f (a_val a) vals) (s_trace st)) /\ ~ In (EDown f (a_val a)) (s_trace st);
  i_calls : forall f n vals, In (ECall f n vals) (s_trace st) ->
    n < s_next st /\ (forall m, In m vals -> m < n)
    /\ (In (EDown f n) (s_trace st) \/ exists a, get_active f st = Some a /\ a_val a = n);
  i_once : forall n f g v w, In (ECall f n v) (s_trace st) -> In (ECall g n w) (s_trace st) -> f = g /\ v = w;
  i_downs : forall f n, In (EDown f n) (s_trace st) -> exists vals, In (ECall f n vals) (s_trace st)
}.

Lemma inv0 : inv state0.
Proof.
  split; simpl; try (intros; contradiction); try (intros; discriminate).
  - constructor.
  - intros k. constructor.
  - intros k. constructor.
Qed.

Lemma i_next st f a : inv st -> get_active f st = Some a -> a_val a < s_next st.
Proof. intros I H. destruct (i_called _ I _ _ H) as [_ [[vals C] _]]. apply (i_calls _ I _ _ _ C). Qed.

(** ** the effect of the single operations *)

Lemma level_touch k j st : level j (touch k st) = level j st.
Proof.
  unfold touch. destruct (d_get k (s_active st)) eqn:E; auto. unfold level. simpl. rewrite d_get_set.
  destruct (Nat.eqb_spec j k); subst; auto. rewrite E. auto.
Qed.
Lemma touch_rest k st : s_deps (touch k st) = s_deps st /\ s_computing (touch k st) = s_computing st
  /\ s_var (touch k st) = s_var st /\ s_next (touch k st) = s_next st /\ s_trace (touch k st) = s_trace st.
Proof. unfold touch. destruct (d_get k (s_active st)); auto. Qed.
Lemma get_active_touch f k st : get_active f (touch k st) = get_active f st.
Proof. unfold FixtureLife.get_active. rewrite level_touch. auto. Qed.
Lemma valid_touch f k st : valid f (touch k st) = valid f st.
Proof.
  unfold FixtureLife.valid, fixture_deps. destruct (touch_rest k st) as [-> [_ [-> _]]]. auto.
Qed.
Lemma inv_touch k st : inv st -> inv (touch k st).
Proof.
  intros [A B C D E F G H I J]. destruct (touch_rest k st) as [T1 [T2 [T3 [T4 T5]]]].
  split; intros; rewrite ?T1, ?T4, ?T5, ?level_touch, ?get_active_touch in *; eauto.
  unfold touch. destruct (d_get k (s_active st)); auto. simpl. apply d_set_ok. auto.
Qed.

Lemma deactivate_spec f st st' o : deactivate f st = (st', o) ->
  (forall k, level k st' = if Nat.eqb k (scope_of f) then d_del f (level k st) else level k st)
  /\ s_deps st' = d_del f (s_deps st) /\ s_computing st' = s_computing st /\ s_var st' = s_var st /\ s_next st' = s_next st
  /\ (d_ok (s_active st) -> d_ok (s_active st'))
  /\ match get_active f st with
     | None => s_trace st' = s_trace st /\ o = Fine
     | Some a => exists t, s_trace st' = t ++ EDown f (a_val a) :: s_trace st
                   /\ do_cleanups f (a_val a) (rev (a_fins a)) = (t, o)
     end.
Proof.
  unfold FixtureLife.deactivate. destruct (touch_rest (scope_of f) st) as [T1 [T2 [T3 [T4 T5]]]].
  set (st1 := set_deps _ _). intros H.
  assert (L : forall k, level k st1 = if Nat.eqb k (scope_of f) then d_del f (level k st) else level k st).
  { intros k. unfold st1, level at 1. simpl. rewrite d_get_set. destruct (Nat.eqb_spec k (scope_of f)); subst; auto.
    fold (level k (touch (scope_of f) st)). apply level_touch. }
  assert (K : d_ok (s_active st) -> d_ok (s_active st1)).
  { intros D. unfold st1. simpl. apply d_set_ok. unfold touch. destruct (d_get (scope_of f) (s_active st)); auto.
    simpl. apply d_set_ok. auto. }
  destruct (get_active f st) as [a|] eqn:Ga.
  - destruct (do_cleanups f (a_val a) (rev (a_fins a))) as [t o'] eqn:Dc. inversion H; subst; clear H.
    split; [exact L|]. simpl. do 4 (split; [auto|]). split; [exact K|].
    exists t. rewrite T5, <- app_assoc. auto.
  - inversion H; subst. split; [exact L|]. simpl. do 4 (split; [auto|]). split; [exact K|]. auto.
Qed.

Lemma deactivate_get f g st st' o : deactivate f st = (st', o) ->
  get_active g st' = if Nat.eqb g f then None else get_active g st.
Proof.
  intros H. destruct (deactivate_spec _ _ _ _ H) as [L _]. unfold FixtureLife.get_active. rewrite L.
  destruct (Nat.eqb_spec (scope_of g) (scope_of f)) as [E|E].
  - rewrite d_get_del. auto.
  - destruct (Nat.eqb_spec g f); subst; congruence.
Qed.

Definition no_trace_call (t : list ev) : Prop := forall f n vals, ~ In (ECall f n vals) t.

Lemma do_cleanups_events f n fins t o : do_cleanups f n fins = (t, o) ->
  no_trace_call t /\ forall g m, ~ In (EDown g m) t.
Proof.
  intros H. pose proof (do_cleanups_app _ _ _ _ _ H) as Q. split.
  - intros g m vals I. destruct (Q _ I) as [i [x E]]. discriminate.
  - intros g m I. destruct (Q _ I) as [i [x E]]. discriminate.
Qed.

Lemma deactivate_events f st st' o : deactivate f st = (st', o) ->
  (forall g n vals, In (ECall g n vals) (s_trace st') <-> In (ECall g n vals) (s_trace st))
  /\ (forall g n, In (EDown g n) (s_trace st') <->
        In (EDown g n) (s_trace st) \/ (g = f /\ exists a, get_active f st = Some a /\ a_val a = n)).
Proof.
  intros H. destruct (deactivate_spec _ _ _ _ H) as [_ [_ [_ [_ [_ [_ T]]]]]].
  destruct (get_active f st) as [a|].
  - destruct T as [t [T Dc]]. destruct (do_cleanups_events _ _ _ _ _ Dc) as [N1 N2]. rewrite T. split.
    + intros g n vals. rewrite in_app_iff. simpl. split; auto. intros [I|[I|I]]; auto; [destruct (N1 _ _ _ I)|discriminate].
    + intros g n. rewrite in_app_iff. simpl. split.
      * intros [I|[I|I]]; auto; [destruct (N2 _ _ I)|]. inversion I; subst. eauto.
      * intros [I|[-> [b [E <-]]]]; auto. inversion E; subst. auto.
  - destruct T as [T _]. rewrite T. split; [intuition|]. intros g n. split; auto. intros [X|[_ [a [X _]]]]; auto; discriminate.
Qed.

Lemma inv_deactivate f st st' o : inv st -> deactivate f st = (st', o) -> inv st'.
Proof.
  intros I H. destruct (deactivate_spec _ _ _ _ H) as [L [D [_ [_ [N [K _]]]]]].
  pose proof (deactivate_get f) as G. destruct (deactivate_events _ _ _ _ H) as [Ec Ed].
  destruct I as [A B C S1 E F Q R U V]. split.
  - auto.
  - intros k. rewrite L. destruct (Nat.eqb k (scope_of f)); auto. apply d_del_ok. auto.
  - intros k g a. rewrite L. destruct (Nat.eqb k (scope_of f)); [|apply C].
    rewrite d_get_del. destruct (Nat.eqb g f); [discriminate|apply C].
  - intros k. rewrite L. destruct (Nat.eqb k (scope_of f)); auto. apply d_del_sorted. auto.
  - intros g h a b. rewrite (G g _ _ _ H), (G h _ _ _ H). destruct (Nat.eqb g f); [discriminate|].
    destruct (Nat.eqb h f); [discriminate|]. apply E.
  - intros g a. rewrite (G g _ _ _ H). destruct (Nat.eqb_spec g f) as [|Ng]; [discriminate|]. intros Hg. rewrite D, d_get_del.
    destruct (Nat.eqb_spec g f); [congruence|]. eauto.
  - intros g a. rewrite (G g _ _ _ H). destruct (Nat.eqb_spec g f) as [|Ng]; [discriminate|]. intros Hg.
    destruct (Q _ _ Hg) as [Q1 [[vals Q2] Q3]]. split; auto. split; [exists vals; apply Ec; auto|].
    rewrite Ed. intros [X|[-> _]]; auto.
  - intros g n vals X. rewrite Ec in X. rewrite N. destruct (R _ _ _ X) as [R1 [R2 R3]]. split; [auto|]. split; [auto|].
    rewrite Ed. destruct R3 as [R3|[a [R3 R4]]]; auto. rewrite (G g _ _ _ H).
    destruct (Nat.eqb_spec g f) as [->|Ng]; [left; right; split; eauto|right; eauto].
  - intros n g h v w X Y. rewrite Ec in X, Y. eauto.
  - intros g n X. rewrite Ed in X. assert (exists vals, In (ECall g n vals) (s_trace st)) as [vals Y].
    { destruct X as [X|[-> [a [X <-]]]]; eauto. destruct (Q _ _ X) as [_ [Q2 _]]. auto. }
    exists vals. apply Ec. auto.
Qed.

Lemma inv_frame st st' : inv st -> s_active st' = s_active st -> s_deps st' = s_deps st -> s_next st' = s_next st ->
  s_trace st' = s_trace st -> inv st'.
Proof.
  intros I A D N T. assert (L : forall k, level k st' = level k st) by (intros k; unfold level; rewrite A; auto).
  assert (G : forall f, get_active f st' = get_active f st) by (intros f; unfold FixtureLife.get_active; rewrite L; auto).
  destruct I as [A1 B C S1 E F Q R U V]. split; intros; rewrite ?A, ?L, ?D, ?N, ?T, ?G in *; eauto.
Qed.

Lemma get_active_computing f x st : get_active f (set_computing x st) = get_active f st.
Proof. reflexivity. Qed.

(** ** validity *)

Lemma valid_spec st f v : d_get f (s_deps st) = Some (map (fun p => (p, v p)) (params_of f)) ->
  (valid f st = true <-> forall p, In p (params_of f) -> v p = s_var st p).
Proof.
  intros H. unfold FixtureLife.valid. rewrite H, forallb_forall. unfold fixture_deps. split.
  - intros A p I. specialize (A (p, s_var st p) (in_map _ _ _ I)). apply existsb_exists in A as [[q w] [Q E]].
    apply in_map_iff in Q as [r [R _]]. inversion R; subst. unfold pair_eqb in E. simpl in E.
    apply andb_true_iff in E as [E1 E2]. apply Nat.eqb_eq in E1, E2. congruence.
  - intros A x I. apply in_map_iff in I as [p [<- I]]. apply existsb_exists. exists (p, v p). split.
    + apply in_map_iff. eauto.
    + unfold pair_eqb. simpl. rewrite (A _ I), !Nat.eqb_refl. auto.
Qed.

Lemma valid_ext st st' f : d_get f (s_deps st') = d_get f (s_deps st) ->
  (forall p, In p (params_of f) -> s_var st' p = s_var st p) -> valid f st' = valid f st.
Proof.
  intros A B. unfold FixtureLife.valid, fixture_deps. rewrite A. destruct (d_get f (s_deps st)); auto.
  f_equal. apply map_ext_in. intros p I. rewrite B; auto.
Qed.

(** ** the relation between the states before and after computing a value *)

(** nothing happens to fixture [f]: it is not called, not given up, and none of its
    finalizers run *)
Definition ev_fixture (e : ev) : nat := match e with ECall f _ _ => f | EDown f _ => f | EFin f _ _ _ => f end.
Definition quiet (f : nat) (t : list ev) : Prop := forall e, In e t -> ev_fixture e <> f.

(** what stays: the variation, the fixtures being computed, and every active fixture
    that is valid; the trace grows *)
Record keeps (st st' : state) : Prop := mkKeeps {
  k_var : s_var st' = s_var st;
  k_comp : s_computing st' = s_computing st;
  k_next : s_next st <= s_next st';
  k_valid : forall f a, get_active f st = Some a -> valid f st = true ->
    get_active f st' = Some a /\ d_get f (s_deps st') = d_get f (s_deps st);
  k_deps : forall f a b, get_active f st = Some a -> get_active f st' = Some b -> a_val a = a_val b ->
    d_get f (s_deps st') = d_get f (s_deps st);
  k_trace : exists t, s_trace st' = t ++ s_trace st
    /\ forall f a, get_active f st = Some a -> valid f st = true -> quiet f t
}.

Lemma quiet_nil f : quiet f [].
Proof. intros e []. Qed.
Lemma quiet_app f t t' : quiet f t -> quiet f t' -> quiet f (t ++ t').
Proof. intros A B e I. apply in_app_iff in I as [I|I]; auto. Qed.
#[local] Hint Resolve quiet_nil quiet_app : core.

Lemma keeps_refl st : keeps st st.
Proof. split; auto. exists []. auto. Qed.
Lemma keeps_valid st st' f a : keeps st st' -> get_active f st = Some a -> valid f st = true -> valid f st' = true.
Proof.
  intros K A V. destruct (k_valid _ _ K _ _ A V) as [_ D]. rewrite (valid_ext st); auto.
  intros p _. rewrite (k_var _ _ K). auto.
Qed.
(** a value that is active before and after was active in between *)
Lemma still_active s1 s2 s3 t f a b : inv s1 -> inv s2 -> inv s3 -> (exists t', s_trace s2 = t' ++ s_trace s1) ->
  s_trace s3 = t ++ s_trace s2 ->
  get_active f s1 = Some a -> get_active f s3 = Some b -> a_val a = a_val b ->
  exists c, get_active f s2 = Some c /\ a_val c = a_val a.
Proof.
  intros I1 I2 I3 [t' T2] T3 G1 G3 E. destruct (i_called _ I1 _ _ G1) as [_ [[vals C] _]].
  assert (C2 : In (ECall f (a_val a) vals) (s_trace s2)) by (rewrite T2; apply in_app_iff; auto).
  destruct (i_calls _ I2 _ _ _ C2) as [_ [_ [D|[c [D1 D2]]]]]; [|eauto].
  destruct (i_called _ I3 _ _ G3) as [_ [_ N]]. exfalso. apply N. rewrite T3, <- E. apply in_app_iff. auto.
Qed.
Lemma keeps_trans s1 s2 s3 : inv s1 -> inv s2 -> inv s3 -> keeps s1 s2 -> keeps s2 s3 -> keeps s1 s3.
Proof.
  intros I1 I2 I3 K1 K2. pose proof K1 as [A1 A2 A3 A4 A7 [t1 [A5 A6]]]. pose proof K2 as [B1 B2 B3 B4 B7 [t2 [B5 B6]]]. split; try congruence; try lia.
  - intros f a G V. destruct (A4 _ _ G V) as [G2 D2].
    destruct (B4 _ _ G2 (keeps_valid _ _ _ _ K1 G V)) as [G3 D3]. split; congruence.
  - intros f a b G1 G3 E. destruct (still_active s1 s2 s3 t2 f a b) as [c [C1 C2]]; eauto.
    rewrite (B7 f c b), (A7 f a c); auto; congruence.
  - exists (t2 ++ t1). rewrite B5, A5, app_assoc. split; auto. intros f a G V. apply quiet_app; eauto.
    destruct (A4 _ _ G V) as [G2 _]. eapply B6; eauto. apply (keeps_valid _ _ _ _ K1 G V).
Qed.

Lemma keeps_frame st st' : s_active st' = s_active st -> s_deps st' = s_deps st -> s_var st' = s_var st ->
  s_computing st' = s_computing st -> s_next st' = s_next st -> s_trace st' = s_trace st -> keeps st st'.
Proof.
  intros A B C D E F. split; auto; try lia.
  - intros f a G V. unfold FixtureLife.get_active, level in *. rewrite A, B. auto.
  - intros f a b _ _ _. rewrite B. auto.
  - exists []. auto.
Qed.
Lemma keeps_touch k st : keeps st (touch k st).
Proof.
  destruct (touch_rest k st) as [T1 [T2 [T3 [T4 T5]]]]. split; auto; try lia.
  - intros f a G V. rewrite get_active_touch, T1. auto.
  - intros f a b _ _ _. rewrite T1. auto.
  - exists []. auto.
Qed.
Lemma keeps_deactivate f st st' o : deactivate f st = (st', o) ->
  (get_active f st <> None -> valid f st = false) -> keeps st st'.
Proof.
  intros H Nv. destruct (deactivate_spec _ _ _ _ H) as [_ [D [C [V [N [_ T]]]]]]. split; auto; try lia.
  - intros g a G Vg. rewrite (deactivate_get _ _ _ _ _ H), D, d_get_del. destruct (Nat.eqb_spec g f) as [->|]; auto.
    rewrite Nv in Vg; congruence.
  - intros g a b _. rewrite (deactivate_get _ _ _ _ _ H), D, d_get_del. destruct (Nat.eqb_spec g f); [discriminate|auto].
  - destruct (get_active f st); [destruct T as [t [T Dc]]|destruct T as [T _]; exists []; auto].
    exists (t ++ [EDown f (a_val a)]). rewrite T, <- app_assoc. split; auto. intros g b G Vg e J.
    assert (N' : g <> f) by (intros ->; rewrite Nv in Vg by congruence; discriminate).
    apply in_app_iff in J as [J|[<-|[]]]; [|auto]. destruct (do_cleanups_app _ _ _ _ _ Dc _ J) as [i [x ->]]. simpl. auto.
Qed.

(** the values [vals] are those of the arguments of [f], and valid *)
Definition built (st : state) (f : nat) (vals : list nat) : Prop :=
  Forall2 (fun g v => exists a, get_active g st = Some a /\ a_val a = v /\ valid g st = true) (args_of f) vals.

(** the guarantee of computing fixture [f] *)
Definition computed (f : nat) (st st' : state) (r : res) : Prop :=
  inv st' /\ keeps st st' /\ r <> RFuel
  /\ (forall h, rank f < rank h -> get_active h st' = get_active h st)
  /\ forall v, r = RVal v ->
       (exists a, get_active f st' = Some a /\ a_val a = v /\ valid f st' = true)
       /\ ((exists a, get_active f st = Some a /\ a_val a = v /\ valid f st = true)
           \/ (s_next st <= v /\ exists vals t, s_trace st' = t ++ s_trace st /\ In (ECall f v vals) t
                 /\ built st' f vals)).

Definition ready (f : nat) (st : state) : Prop := inv st /\ forall c, In c (s_computing st) -> rank f < rank c.

(** activation, in the last part of _call_fixture *)
Lemma activate_spec f vals st st5 : inv st -> get_active f st = None -> (forall m, In m vals -> m < s_next st) ->
  let n := s_next st in
  let st2 := touch (scope_of f) st in
  let st3 := set_active (d_set (scope_of f) (d_set f (mkAct n (c_fins (call n))) (level (scope_of f) st2)) (s_active st2)) st2 in
  let st4 := set_deps (d_set f (fixture_deps params_of f st3) (s_deps st3)) st3 in
  st5 = set_next (S n) (emit [ECall f n vals] st4) ->
  inv st5 /\ keeps st st5 /\ (forall h, h <> f -> get_active h st5 = get_active h st)
  /\ get_active f st5 = Some (mkAct n (c_fins (call n))) /\ valid f st5 = true
  /\ s_trace st5 = ECall f n vals :: s_trace st /\ s_next st5 = S n
  /\ (forall k, level k st5 = if Nat.eqb k (scope_of f) then level k st ++ [(f, mkAct n (c_fins (call n)))] else level k st).
Proof.
  intros I Na Vs n st2 st3 st4 ->. destruct (touch_rest (scope_of f) st) as [T1 [T2 [T3 [T4 T5]]]]. fold st2 in T1, T2, T3, T4, T5.
  set (st5 := set_next _ _).
  assert (Na' : d_get f (level (scope_of f) st) = None) by exact Na.
  assert (L : forall k, level k st5 = if Nat.eqb k (scope_of f) then level k st ++ [(f, mkAct n (c_fins (call n)))] else level k st).
  { intros k. unfold level at 1, st5. simpl. rewrite d_get_set. destruct (Nat.eqb_spec k (scope_of f)) as [->|N].
    - unfold st2. rewrite level_touch. apply d_set_fresh. auto.
    - fold (level k st2). unfold st2. apply level_touch. }
  assert (G : forall h, get_active h st5 = if Nat.eqb h f then Some (mkAct n (c_fins (call n))) else get_active h st).
  { intros h. unfold FixtureLife.get_active. rewrite L. destruct (Nat.eqb_spec (scope_of h) (scope_of f)) as [E|E].
    - rewrite E. rewrite <- (d_set_fresh f) by auto. rewrite d_get_set. auto.
    - destruct (Nat.eqb_spec h f); subst; congruence. }
  assert (Dp : s_deps st5 = d_set f (fixture_deps params_of f st) (s_deps st)).
  { unfold st5. simpl. rewrite T1. f_equal. unfold fixture_deps. simpl. rewrite T3. auto. }
  assert (Tr : s_trace st5 = ECall f n vals :: s_trace st) by (unfold st5; simpl; rewrite T5; auto).
  assert (Vr : s_var st5 = s_var st) by (unfold st5; simpl; auto).
  pose proof I as [A B C S1 E F Q R U V].
  assert (In' : inv st5).
  { split.
    - unfold st5. simpl. apply d_set_ok. unfold st2, touch. destruct (d_get (scope_of f) (s_active st)); auto. simpl. apply d_set_ok; auto.
    - intros k. rewrite L. destruct (Nat.eqb_spec k (scope_of f)); auto. subst k. rewrite <- (d_set_fresh f) by auto. apply d_set_ok; auto.
    - intros k g a. rewrite L. destruct (Nat.eqb_spec k (scope_of f)) as [->|]; [|apply C].
      rewrite <- (d_set_fresh f) by auto. rewrite d_get_set. destruct (Nat.eqb_spec g f); [congruence|apply C].
    - intros k. rewrite L. destruct (Nat.eqb_spec k (scope_of f)) as [->|]; auto.
      apply sorted_app_inv; auto. apply Forall_forall. intros [g a] J. simpl.
      apply d_pair_get in J; auto. pose proof (C _ _ _ J). unfold n.
      apply (i_next st g a I). unfold FixtureLife.get_active. congruence.
    - intros g h a b. rewrite !G. destruct (Nat.eqb_spec g f), (Nat.eqb_spec h f); subst; auto.
      + intros X Y W. inversion X; subst a. simpl in W. pose proof (i_next _ _ _ I Y). unfold n in W. lia.
      + intros X Y W. inversion Y; subst b. simpl in W. pose proof (i_next _ _ _ I X). unfold n in W. lia.
      + apply E.
    - intros g a. rewrite G, Dp, d_get_set. destruct (Nat.eqb_spec g f) as [->|]; [|apply F].
      intros _. exists (s_var st). auto.
    - intros g a. rewrite G, Tr. destruct (Nat.eqb_spec g f) as [->|Ng].
      + intros X; inversion X; subst a. simpl. split; [auto|]. split; [eauto|]. intros [Y|Y]; [discriminate|].
        apply V in Y as [w Y]. destruct (R _ _ _ Y). unfold n in *. lia.
      + intros X. destruct (Q _ _ X) as [Q1 [[w Q2] Q3]]. split; [auto|]. split; [exists w; right; auto|].
        intros [Y|Y]; [discriminate|auto].
    - intros g m w. rewrite Tr. simpl s_next. intros [X|X].
      + inversion X; subst. split; [unfold n; lia|]. split; [auto|]. right. exists (mkAct n (c_fins (call n))).
        rewrite G, Nat.eqb_refl. auto.
      + destruct (R _ _ _ X) as [R1 [R2 R3]]. split; [unfold n; lia|]. split; [auto|].
        destruct R3 as [R3|[a [R3 R4]]]; [left; right; auto|]. right. exists a. rewrite G. destruct (Nat.eqb_spec g f); subst; auto. congruence.
    - intros m g h v w. rewrite Tr. intros [X|X] [Y|Y].
      + inversion X; inversion Y; subst. split; congruence.
      + inversion X; subst. destruct (R _ _ _ Y). unfold n in *. lia.
      + inversion Y; subst. destruct (R _ _ _ X). unfold n in *. lia.
      + eauto.
    - intros g m. rewrite Tr. intros [X|X]; [discriminate|]. apply V in X as [w X]. exists w. right; auto. }
  split; [auto|]. split; [|split; [|split; [|split; [|split; [|split; auto]]]]]; auto.
  - split; auto.
    + change (s_next st5) with (S n). unfold n. lia.
    + intros g a X Vg. rewrite G, Dp, d_get_set. destruct (Nat.eqb_spec g f); subst; auto. congruence.
    + intros g a b X _ _. rewrite Dp, d_get_set. destruct (Nat.eqb_spec g f); subst; auto. congruence.
    + exists [ECall f n vals]. split; auto. intros g a X Vg e [<-|[]]. simpl. congruence.
  - intros h N. rewrite G. destruct (Nat.eqb_spec h f); congruence.
  - rewrite G, Nat.eqb_refl. auto.
  - apply (valid_spec st5 f (s_var st)); [rewrite Dp, d_get_set_same; auto|]. intros p _. rewrite Vr. auto.
Qed.

Lemma fresh_spec n f st : (forall g st, In g (args_of f) -> ready g st -> let (st', r) := compute n g st in computed g st st' r) ->
  ready f st -> get_active f st = None -> ~ In f (s_computing st) ->
  let (st', r) := fresh (compute n) f st in computed f st st' r
    /\ forall v, r = RVal v -> s_next st <= v /\ exists vals t, s_trace st' = t ++ s_trace st /\ In (ECall f v vals) t /\ built st' f vals.
Proof.
  intros Rec [I Rc] Na Nc. unfold FixtureLife.fresh, FixtureLife.call_fixture.
  set (st0 := set_computing (f :: s_computing st) st).
  assert (I0 : inv st0) by (apply (inv_frame st); auto).
  assert (Key : forall g st, In g (args_of f) -> inv st -> (forall c, In c (s_computing st) -> rank f <= rank c) ->
                let (st', r) := compute n g st in computed g st st' r).
  { intros g s Ig Is Hc. apply Rec; auto. split; auto. intros c J. specialize (Hc c J). specialize (acyclic f g Ig). lia. }
  (* the arguments *)
  assert (Ar : let (st', r) := compute_args (compute n) (args_of f) st0 in
    inv st' /\ keeps st0 st' /\ r <> inr RFuel /\ (forall v, r <> inr (RVal v))
    /\ (forall h, rank f <= rank h -> get_active h st' = get_active h st0)
    /\ (forall vals, r = inl vals ->
        Forall2 (fun g v => exists a, get_active g st' = Some a /\ a_val a = v /\ valid g st' = true) (args_of f) vals)).
  { (* compute_args_spec with the fixture itself among those being computed *)
    assert (Sub : forall l s, incl l (args_of f) -> inv s -> s_computing s = f :: s_computing st ->
      let (st', r) := compute_args (compute n) l s in
      inv st' /\ keeps s st' /\ r <> inr RFuel /\ (forall v, r <> inr (RVal v))
      /\ (forall h, rank f <= rank h -> get_active h st' = get_active h s)
      /\ (forall vals, r = inl vals ->
        Forall2 (fun g v => exists a, get_active g st' = Some a /\ a_val a = v /\ valid g st' = true) l vals)).
    { induction l as [|g l IHl]; intros s Inc Is Cs; simpl.
      - split; [auto|]. split; [apply keeps_refl|]. split; [discriminate|]. split; [discriminate|]. split; [auto|].
        intros vals H; inversion H; subst. constructor.
      - assert (Ig : In g (args_of f)) by (apply Inc; left; auto).
        assert (Hc : forall c, In c (s_computing s) -> rank f <= rank c).
        { rewrite Cs. intros c [<-|J]; auto. specialize (Rc c J). lia. }
        pose proof (Key g s Ig Is Hc) as P. destruct (compute n g s) as [st1 r]. destruct P as [P1 [P2 [P3 [P4 P5]]]].
        assert (P4' : forall h, rank f <= rank h -> get_active h st1 = get_active h s).
        { intros h L. apply P4. specialize (acyclic f g Ig). lia. }
        destruct r as [v|c|]; [| |congruence].
        + assert (Cs1 : s_computing st1 = f :: s_computing st) by (rewrite (k_comp _ _ P2); auto).
          specialize (IHl st1 (fun x J => Inc x (or_intror J)) P1 Cs1).
          destruct (compute_args (compute n) l st1) as [st2 r2]. destruct IHl as [Q1 [Q2 [Q3 [Q4 [Q5 Q6]]]]].
          assert (K12 : keeps s st2) by (eapply keeps_trans; eauto).
          assert (Q5' : forall h, rank f <= rank h -> get_active h st2 = get_active h s) by (intros h L; rewrite Q5, P4'; auto).
          destruct r2 as [vs|r2].
          * do 2 (split; [auto|]). do 2 (split; [discriminate|]). split; [auto|].
            intros vals H; inversion H; subst. constructor; [|apply Q6; auto].
            destruct (P5 v eq_refl) as [[a [A1 [A2 A3]]] _]. exists a. destruct (k_valid _ _ Q2 _ _ A1 A3) as [B1 B2].
            split; [auto|]. split; auto. exact (keeps_valid _ _ _ _ Q2 A1 A3).
          * do 2 (split; [auto|]). split; [congruence|]. split; [congruence|]. split; [auto|]. discriminate.
        + do 2 (split; [auto|]). do 2 (split; [discriminate|]). split; [auto|]. discriminate. }
    apply Sub; auto. apply incl_refl. }
  destruct (compute_args (compute n) (args_of f) st0) as [st1 ra]. destruct Ar as [I1 [K1 [N1 [N2 [U1 F1]]]]].
  assert (Rm : remove Nat.eq_dec f (f :: s_computing st) = s_computing st).
  { simpl. destruct (Nat.eq_dec f f); [|congruence]. apply notin_remove. auto. }
  assert (K0 : forall s, keeps st0 s -> keeps st (set_computing (remove Nat.eq_dec f (s_computing s)) s)).
  { intros s [A1 A2 A3 A4 A5 A6]. split; auto. simpl. rewrite A2. simpl s_computing. exact Rm. }
  assert (Na1 : get_active f st1 = None) by (rewrite U1; auto).
  assert (Fail : forall st2 o c, deactivate f st1 = (st2, o) ->
     computed f st (set_computing (remove Nat.eq_dec f (s_computing st2)) st2) (match o with Fine => RExn c | Raises c' => RExn c' end)).
  { intros st2 o c Dc. assert (K2 : keeps st1 st2) by (eapply keeps_deactivate; eauto; congruence).
    split; [|split; [|split; [|split]]].
    - apply (inv_frame st2); auto. eapply inv_deactivate; eauto.
    - apply K0. apply (keeps_trans _ st1); auto. eapply inv_deactivate; eauto.
    - destruct o; discriminate.
    - intros h L. rewrite get_active_computing, (deactivate_get _ _ _ _ _ Dc). destruct (Nat.eqb_spec h f); [subst; auto|].
      apply U1. lia.
    - intros v E. destruct o; discriminate. }
  destruct ra as [vals|r].
  - rewrite Na1.
    assert (Vs : forall m, In m vals -> m < s_next st1).
    { intros m J. specialize (F1 vals eq_refl). clear - F1 J I1 acyclic.
      induction F1 as [|g v l vs [a [A1 [A2 A3]]] F IH]; [destruct J|]. destruct J as [<-|J]; auto.
      subst v. eapply i_next; eauto. }
    pose proof (activate_spec f vals st1 _ I1 Na1 Vs eq_refl) as As. cbv zeta in As.
    match type of As with inv ?s /\ _ => set (st5 := s) in * end.
    destruct As as [I5 [K5 [U5 [G5 [V5 [T5 [Nx _]]]]]]].
    assert (K15 : keeps st0 st5) by (apply (keeps_trans _ st1); auto).
    destruct (c_out (call (s_next st1))) as [|b].
    + assert (New : s_next st <= s_next st1 /\ exists vals0 t, s_trace st5 = t ++ s_trace st /\ In (ECall f (s_next st1) vals0) t /\ built st5 f vals0).
      { destruct K1 as [_ _ Kn _ _ [t [Kt _]]]. split; [exact Kn|]. exists vals, (ECall f (s_next st1) vals :: t).
        split; [rewrite T5, Kt; auto|]. split; [left; auto|]. specialize (F1 vals eq_refl). unfold built.
        eapply Forall2_imp; [|exact F1]. intros g v [a [A1 [A2 A3]]].
        exists a. split; [apply (k_valid _ _ K5 _ _ A1 A3)|]. split; auto. exact (keeps_valid _ _ _ _ K5 A1 A3). }
      split; [|intros v E; inversion E; subst; exact New].
      split; [|split; [|split; [|split]]].
      * apply (inv_frame st5); auto.
      * apply K0. auto.
      * discriminate.
      * intros h L. rewrite get_active_computing, U5 by (intros ->; lia). apply U1. lia.
      * intros v E. inversion E; subst v. split.
        { exists (mkAct (s_next st1) (c_fins (call (s_next st1)))). rewrite get_active_computing. auto. }
        { right. exact New. }
    + destruct (deactivate f st5) as [st6 o] eqn:Dc.
      assert (K6 : keeps st1 st6).
      { destruct (deactivate_spec _ _ _ _ Dc) as [_ [Ds [Cs [Vr [Ns [_ Ts]]]]]]. destruct K5 as [A1 A2 A3 A4 A7 [t [A5 A6]]].
        split; try congruence; try lia.
        - intros g a G V. rewrite (deactivate_get _ _ _ _ _ Dc), Ds, d_get_del.
          destruct (Nat.eqb_spec g f) as [->|]; [congruence|]. apply A4; auto.
        - intros g a b' G. rewrite (deactivate_get _ _ _ _ _ Dc), Ds, d_get_del.
          destruct (Nat.eqb_spec g f) as [->|]; [congruence|]. eauto.
        - rewrite G5 in Ts. destruct Ts as [t' [Ts Dt]]. exists (t' ++ EDown f (s_next st1) :: t). rewrite Ts, A5, <- app_assoc.
          split; auto. intros g a G V. assert (Ng : g <> f) by congruence. apply quiet_app.
          + intros e J. destruct (do_cleanups_app _ _ _ _ _ Dt _ J) as [i [x ->]]. simpl. auto.
          + intros e [<-|J]; [simpl; auto|]. eapply A6; eauto. }
      split; [|intros v E; destruct o; discriminate].
      split; [|split; [|split; [|split]]].
      * apply (inv_frame st6); auto. eapply inv_deactivate; eauto.
      * apply K0. apply (keeps_trans _ st1); auto. eapply inv_deactivate; eauto.
      * destruct o; discriminate.
      * intros h L. rewrite get_active_computing, (deactivate_get _ _ _ _ _ Dc). destruct (Nat.eqb_spec h f); [subst; lia|].
        rewrite U5 by auto. apply U1. lia.
      * intros v E. destruct o; discriminate.
  - destruct r as [v|c|]; [destruct (N2 v); auto| |congruence].
    destruct (deactivate f st1) as [st2 o] eqn:Dc. split; [apply Fail; auto|]. intros v E. destruct o; discriminate.
Qed.

(** computing a fixture: the guarantee *)
Lemma compute_spec n : forall f st, rank f < n -> ready f st -> let (st', r) := compute n f st in computed f st st' r.
Proof.
  induction n as [|n IH]; intros f st L Rd; [lia|]. cbn [FixtureLife.compute].
  destruct Rd as [I Rc].
  assert (Nc : ~ In f (s_computing st)) by (intros J; specialize (Rc f J); lia).
  assert (M : existsb (Nat.eqb f) (s_computing st) = false).
  { destruct (existsb _ _) eqn:E; auto. apply existsb_exists in E as [c [J E]]. apply Nat.eqb_eq in E. subst. destruct (Nc J). }
  rewrite M. set (st0 := touch (scope_of f) st).
  assert (I0 : inv st0) by (apply inv_touch; auto).
  assert (K0 : keeps st st0) by apply keeps_touch.
  assert (G0 : forall g, get_active g st0 = get_active g st) by (intros g; apply get_active_touch).
  assert (V0 : forall g, valid g st0 = valid g st) by (intros g; apply valid_touch).
  assert (Rec : forall g s, In g (args_of f) -> ready g s -> let (st', r) := compute n g s in computed g s st' r).
  { intros g s Ig Rg. apply IH; auto. specialize (acyclic f g Ig). lia. }
  destruct (touch_rest (scope_of f) st) as [T1 [T2 [T3 [T4 T5]]]]. fold st0 in T1, T2, T3, T4, T5.
  assert (Comb : forall s1, keeps st s1 -> (forall h, h <> f -> get_active h s1 = get_active h st) -> inv s1 -> get_active f s1 = None ->
     let (st', r) := fresh (compute n) f s1 in computed f st st' r).
  { intros s1 K1 U1 I1 Na1. assert (Rd1 : ready f s1) by (split; auto; rewrite (k_comp _ _ K1); auto).
    assert (Nc1 : ~ In f (s_computing s1)) by (rewrite (k_comp _ _ K1); auto).
    pose proof (fresh_spec n f s1 Rec Rd1 Na1 Nc1) as F. destruct (fresh (compute n) f s1) as [st' r].
    destruct F as [[F1 [F2 [F3 [F4 F5]]]] F6]. split; [auto|]. split; [apply (keeps_trans _ s1); auto|]. split; [auto|]. split.
    - intros h Lh. rewrite F4 by auto. apply U1. intros ->. lia.
    - intros v E. destruct (F5 v E) as [A _]. split; auto. right. destruct (F6 v E) as [B [vals [t [C [D Bu]]]]].
      destruct K1 as [_ _ Kn _ _ [t1 [Kt _]]]. split; [lia|]. exists vals, (t ++ t1). rewrite C, Kt, app_assoc. split; auto.
      split; auto. apply in_app_iff. auto. }
  destruct (get_active f st0) as [a|] eqn:Ga.
  - destruct (valid f st0) eqn:Va.
    + split; [auto|]. split; [auto|]. split; [discriminate|]. split; [auto|].
      intros v E. inversion E; subst v. split; [exists a; auto|]. left. exists a. rewrite <- G0, <- V0. auto.
    + destruct (deactivate f st0) as [st1 o] eqn:Dc.
      assert (K1 : keeps st st1).
      { apply (keeps_trans _ st0); auto; [eapply inv_deactivate; eauto|]. eapply keeps_deactivate; eauto. }
      assert (I1 : inv st1) by (eapply inv_deactivate; eauto).
      assert (U1 : forall h, h <> f -> get_active h st1 = get_active h st).
      { intros h N. rewrite (deactivate_get _ _ _ _ _ Dc). destruct (Nat.eqb_spec h f); [congruence|auto]. }
      assert (Na1 : get_active f st1 = None).
      { rewrite (deactivate_get _ _ _ _ _ Dc), Nat.eqb_refl. auto. }
      destruct o as [|c].
      * apply Comb; auto.
      * split; [auto|]. split; [auto|]. split; [discriminate|]. split; [|discriminate].
        intros h Lh. apply U1. intros ->. lia.
  - apply Comb; auto.
Qed.


(** ** the end of a scope *)

Lemma down_all_spec fs : forall st st' o, inv st -> down_all scope_of fs st = (st', o) ->
  inv st' /\ s_computing st' = s_computing st /\ s_var st' = s_var st /\ s_next st' = s_next st
  /\ (forall k, level k st = [] -> level k st' = [])
  /\ (forall k, (forall f, In f fs -> scope_of f <> k) -> level k st' = level k st)
  /\ (forall f, ~ In f fs -> get_active f st' = get_active f st /\ d_get f (s_deps st') = d_get f (s_deps st))
  /\ exists t, s_trace st' = t ++ s_trace st /\ forall f, ~ In f fs -> quiet f t.
Proof.
  induction fs as [|f fs IH]; simpl; intros st st' o I H.
  - inversion H; subst. do 7 (split; [auto|]). exists []. auto.
  - destruct (deactivate f st) as [st1 o1] eqn:Dc.
    pose proof (inv_deactivate _ _ _ _ I Dc) as I1.
    destruct (deactivate_spec _ _ _ _ Dc) as [L [D [Cs [Vr [Nx [_ T]]]]]].
    assert (T1 : exists t, s_trace st1 = t ++ s_trace st /\ forall g, g <> f -> quiet g t).
    { destruct (get_active f st) as [a|]; [|destruct T as [T _]; exists []; auto].
      destruct T as [t [T Dt]]. exists (t ++ [EDown f (a_val a)]). rewrite T, <- app_assoc. split; auto.
      intros g Ng e J. apply in_app_iff in J as [J|[<-|[]]]; [|simpl; auto].
      destruct (do_cleanups_app _ _ _ _ _ Dt _ J) as [i [x ->]]. simpl. auto. }
    destruct T1 as [t1 [T1 Q1]].
    assert (Base : forall k, level k st = [] -> level k st1 = []).
    { intros k E. rewrite L, E. destruct (Nat.eqb k (scope_of f)); auto. }
    assert (Lk : forall k, scope_of f <> k -> level k st1 = level k st).
    { intros k N. rewrite L. destruct (Nat.eqb_spec k (scope_of f)); congruence. }
    assert (G1 : forall g, g <> f -> get_active g st1 = get_active g st /\ d_get g (s_deps st1) = d_get g (s_deps st)).
    { intros g N. rewrite (deactivate_get _ _ _ _ _ Dc), D, d_get_del. destruct (Nat.eqb_spec g f); [congruence|auto]. }
    assert (Rest : forall o', down_all scope_of fs st1 = (st', o') ->
      inv st' /\ s_computing st' = s_computing st /\ s_var st' = s_var st /\ s_next st' = s_next st
      /\ (forall k, level k st = [] -> level k st' = [])
      /\ (forall k, (forall g, In g (f :: fs) -> scope_of g <> k) -> level k st' = level k st)
      /\ (forall g, ~ In g (f :: fs) -> get_active g st' = get_active g st /\ d_get g (s_deps st') = d_get g (s_deps st))
      /\ exists t, s_trace st' = t ++ s_trace st /\ forall g, ~ In g (f :: fs) -> quiet g t).
    { intros o' H'. destruct (IH _ _ _ I1 H') as [A1 [A2 [A3 [A4 [A5 [A6 [A7 [t2 [A8 A9]]]]]]]]].
      split; [auto|]. do 3 (split; [congruence|]). split; [auto|]. split; [|split].
      - intros k N. rewrite A6 by (intros g J; apply N; right; auto). apply Lk. apply N. left; auto.
      - intros g N. destruct (A7 g) as [B1 B2]; [intros J; apply N; right; auto|].
        destruct (G1 g) as [B3 B4]; [intros ->; apply N; left; auto|]. split; congruence.
      - exists (t2 ++ t1). rewrite A8, T1, app_assoc. split; auto. intros g N. apply quiet_app.
        + apply A9. intros J; apply N; right; auto.
        + apply Q1. intros ->; apply N; left; auto. }
    destruct o1 as [|[]]; eauto.
    inversion H; subst. do 5 (split; [auto|]). split; [|split].
    + intros k N. apply Lk. apply N. left; auto.
    + intros g N. apply G1. intros ->; apply N; left; auto.
    + exists t1. split; [auto|]. intros g N. apply Q1. intros ->; apply N; left; auto.
Qed.

Lemma level_scope st k f : inv st -> In f (d_keys (level k st)) -> scope_of f = k.
Proof.
  intros I J. apply in_map_iff in J as [[g a] [E J]]. simpl in E. subst g. apply d_pair_get in J; [|apply I].
  eapply i_scope; eauto.
Qed.

Lemma pop_levels_spec s ks : forall st st' o, inv st -> pop_levels scope_of s ks st = (st', o) ->
  inv st' /\ s_computing st' = s_computing st /\ s_var st' = s_var st /\ s_next st' = s_next st
  /\ (forall f, s < scope_of f -> get_active f st' = get_active f st /\ d_get f (s_deps st') = d_get f (s_deps st))
  /\ exists t, s_trace st' = t ++ s_trace st /\ forall f, s < scope_of f -> quiet f t.
Proof.
  induction ks as [|k ks IH]; simpl; intros st st' o I H.
  - inversion H; subst. do 5 (split; [auto|]). exists []. auto.
  - destruct (Nat.leb_spec k s) as [Lk|Lk]; [|eauto].
    destruct (down_all scope_of (rev (d_keys (level k st))) st) as [st1 o1] eqn:Dc.
    destruct (down_all_spec _ _ _ _ I Dc) as [A1 [A2 [A3 [A4 [_ [_ [A7 [t1 [A8 A9]]]]]]]]].
    assert (Ni : forall f, s < scope_of f -> ~ In f (rev (d_keys (level k st)))).
    { intros f L J. apply in_rev in J. rewrite (level_scope _ _ _ I J) in L. lia. }
    destruct o1.
    + destruct (IH _ _ _ A1 H) as [B1 [B2 [B3 [B4 [B5 [t2 [B6 B7]]]]]]].
      split; [auto|]. do 3 (split; [congruence|]). split.
      * intros f L. destruct (B5 f L) as [C1 C2], (A7 f (Ni f L)) as [C3 C4]. split; congruence.
      * exists (t2 ++ t1). rewrite B6, A8, app_assoc. split; auto.
    + inversion H; subst. do 4 (split; [auto|]). split; [auto|]. exists t1. auto.
Qed.

Lemma pop_scope_spec s i st : inv st ->
  let st' := fst (pop_scope s i st) in
  inv st' /\ s_computing st' = s_computing st /\ s_var st' = s_var st /\ s_next st' = s_next st
  /\ (forall f, s < scope_of f \/ i = true -> get_active f st' = get_active f st /\ d_get f (s_deps st') = d_get f (s_deps st))
  /\ exists t, s_trace st' = t ++ s_trace st /\ forall f, s < scope_of f \/ i = true -> quiet f t.
Proof.
  intros I. unfold FixtureLife.pop_scope. destruct i; simpl.
  - do 5 (split; [auto|]). exists []. auto.
  - destruct (pop_levels scope_of s (d_keys (s_active st)) st) as [st' o] eqn:H. simpl.
    destruct (pop_levels_spec _ _ _ _ _ I H) as [A1 [A2 [A3 [A4 [A5 [t [A6 A7]]]]]]].
    do 4 (split; [auto|]). split; [|exists t; split; auto].
    + intros f [L|L]; [auto|discriminate].
    + intros f [L|L]; [auto|discriminate].
Qed.

(** ** every execution *)

Variable fuel : nat.
Hypothesis enough : forall f, rank f < fuel.

Notation step := (step args_of scope_of params_of call fuel).
Notation run := (run args_of scope_of params_of call fuel).

Definition good (st : state) : Prop := inv st /\ s_computing st = [].

Lemma good_ready st f : good st -> ready f st.
Proof. intros [I C]. split; auto. rewrite C. intros c []. Qed.

Lemma good_step o st : good st -> good (step o st).
Proof.
  intros G. destruct o as [f|v|s i]; simpl.
  - pose proof (compute_spec fuel f st (enough f) (good_ready st f G)) as P. destruct (compute fuel f st) as [st' r].
    destruct P as [I [K _]]. split; auto. simpl. rewrite (k_comp _ _ K). apply G.
  - split; [|apply G]. apply (inv_frame st); auto. apply G.
  - destruct (pop_scope_spec s i st (proj1 G)) as [I [C _]]. split; auto. rewrite C. apply G.
Qed.
Lemma good_run ops : forall st, good st -> good (run ops st).
Proof. induction ops as [|o ops IH]; simpl; auto. intros st G. apply IH. apply good_step. auto. Qed.
Lemma good0 : good state0.
Proof. split; [apply inv0|reflexivity]. Qed.

(** what leaves the value of [f] alone: requests, variations that agree on the
    parametrizations [f] needs, ends of narrower scopes, and ends of scopes while the
    test or session is interrupted *)
Definition harmless (f : nat) (v0 : nat -> nat) (o : op) : Prop :=
  match o with
  | Request _ => True
  | SetVar v => forall p, In p (params_of f) -> v p = v0 p
  | PopScope s i => s < scope_of f \/ i = true
  end.

Lemma harmless_step f v0 a o st : good st -> get_active f st = Some a -> valid f st = true ->
  (forall p, In p (params_of f) -> s_var st p = v0 p) -> harmless f v0 o ->
  get_active f (step o st) = Some a /\ valid f (step o st) = true
  /\ (forall p, In p (params_of f) -> s_var (step o st) p = v0 p)
  /\ exists t, s_trace (step o st) = t ++ s_trace st /\ quiet f t.
Proof.
  intros G A V Hv Ho. destruct o as [g|v|s i]; simpl.
  - pose proof (compute_spec fuel g st (enough g) (good_ready st g G)) as P. destruct (compute fuel g st) as [st' r]. simpl.
    destruct P as [I [K _]]. destruct (k_valid _ _ K _ _ A V) as [A' _]. split; [auto|].
    split; [exact (keeps_valid _ _ _ _ K A V)|]. split; [rewrite (k_var _ _ K); auto|].
    destruct (k_trace _ _ K) as [t [T Q]]. exists t. split; eauto.
  - simpl in Ho. split; [auto|]. split; [|split; [auto|exists []; auto]].
    rewrite <- V. apply valid_ext; auto. intros p J. simpl. rewrite Hv; auto.
  - destruct (pop_scope_spec s i st (proj1 G)) as [I [C [Vr [N [A' [t [T Q]]]]]]]. destruct (A' f Ho) as [A1 A2].
    split; [congruence|]. split; [|split].
    + rewrite <- V. apply valid_ext; auto. intros p J. rewrite Vr. auto.
    + intros p J. rewrite Vr. auto.
    + exists t. auto.
Qed.

Lemma harmless_run f v0 a ops : forall st, good st -> get_active f st = Some a -> valid f st = true ->
  (forall p, In p (params_of f) -> s_var st p = v0 p) -> Forall (harmless f v0) ops ->
  get_active f (run ops st) = Some a /\ valid f (run ops st) = true
  /\ exists t, s_trace (run ops st) = t ++ s_trace st /\ quiet f t.
Proof.
  induction ops as [|o ops IH]; simpl; intros st G A V Hv Ho.
  - do 2 (split; auto). exists []. auto.
  - inversion Ho; subst. destruct (harmless_step f v0 a o st G A V Hv H1) as [A1 [V1 [Hv1 [t1 [T1 Q1]]]]].
    destruct (IH _ (good_step o st G) A1 V1 Hv1 H2) as [A2 [V2 [t2 [T2 Q2]]]].
    do 2 (split; auto). exists (t2 ++ t1). rewrite T2, T1, app_assoc. auto.
Qed.

(** C28, first half: once a request has returned a value, further requests return the
    same value without the fixture being called, given up or finalized, whatever else
    is requested, as long as its scope is open and the parameters it needs keep their
    values. *)
Theorem C28_cached : forall before f n st1 later,
  compute fuel f (run before state0) = (st1, RVal n) ->
  Forall (harmless f (s_var st1)) later ->
  exists t st2, compute fuel f (run later st1) = (st2, RVal n) /\ s_trace st2 = t ++ s_trace st1 /\ quiet f t.
Proof.
  intros before f n st1 later H Hl. pose proof (good_run before _ good0) as G. set (st := run before state0) in *.
  pose proof (compute_spec fuel f st (enough f) (good_ready st f G)) as P. rewrite H in P.
  destruct P as [I [K [_ [_ P]]]]. destruct (P n eq_refl) as [[a [A1 [A2 A3]]] _].
  assert (G1 : good st1) by (split; auto; rewrite (k_comp _ _ K); apply G).
  destruct (harmless_run f (s_var st1) a later st1 G1 A1 A3 ltac:(auto) Hl) as [B1 [B2 [t [B3 B4]]]].
  pose proof (good_run later _ G1) as G2. set (s2 := run later st1) in *.
  destruct fuel as [|fuel'] eqn:Ef; [specialize (enough f); lia|]. cbn [FixtureLife.compute].
  destruct G2 as [_ C2]. rewrite C2. simpl existsb. rewrite get_active_touch, B1, valid_touch, B2, A2.
  exists t, (touch (scope_of f) s2). split; auto. destruct (touch_rest (scope_of f) s2) as [_ [_ [_ [_ ->]]]]. auto.
Qed.

(** C28, second half: a request that returns a value returns either the value of the
    active fixture, computed for the current values of the parameters it needs, or the
    result of a new call made with the current values of all its arguments. *)
Theorem C28_computed : forall before f n st1,
  let st := run before state0 in
  compute fuel f st = (st1, RVal n) ->
  (exists v a vals, get_active f st = Some a /\ a_val a = n /\ In (ECall f n vals) (s_trace st)
      /\ d_get f (s_deps st) = Some (map (fun p => (p, v p)) (params_of f))
      /\ (forall p, In p (params_of f) -> v p = s_var st p) /\ s_trace st1 = s_trace st)
  \/ (s_next st <= n /\ exists t vals, s_trace st1 = t ++ s_trace st /\ In (ECall f n vals) t
      /\ Forall2 (fun g v => exists st2, compute fuel g st1 = (st2, RVal v) /\ s_trace st2 = s_trace st1) (args_of f) vals).
Proof.
  intros before f n st1 st H. pose proof (good_run before _ good0) as G. fold st in G.
  pose proof (compute_spec fuel f st (enough f) (good_ready st f G)) as P. rewrite H in P.
  destruct P as [I [K [_ [_ P]]]]. destruct (P n eq_refl) as [_ [[a [A1 [A2 A3]]]|[B [vals [t [C1 [C2 C3]]]]]]].
  - left. destruct (i_deps _ (proj1 G) _ _ A1) as [v Dv]. destruct (i_called _ (proj1 G) _ _ A1) as [_ [[vals Cl] _]].
    exists v, a, vals. subst n. do 4 (split; [auto|]). split; [apply valid_spec; auto|].
    destruct fuel as [|fuel'] eqn:Ef; [specialize (enough f); lia|]. cbn [FixtureLife.compute] in H.
    destruct G as [_ C2]. rewrite C2 in H. simpl existsb in H. rewrite get_active_touch, A1, valid_touch, A3 in H.
    inversion H; subst. apply touch_rest.
  - right. split; auto. exists t, vals. do 2 (split; [auto|]). unfold built in C3. rename K into K0. clear P H.
    assert (Cp : s_computing st1 = []) by (rewrite (k_comp _ _ K0); apply G).
    eapply Forall2_imp; [|exact C3]. intros g v [a [A1 [A2 A3]]]. exists (touch (scope_of g) st1).
    destruct fuel as [|fuel'] eqn:Ef; [specialize (enough g); lia|]. cbn [FixtureLife.compute]. rewrite Cp. simpl existsb.
    rewrite get_active_touch, A1, valid_touch, A3, A2. split; auto. apply touch_rest.
Qed.

(** a request does not run out of fuel, and fails only if a fixture function or a finalizer raised *)
Theorem C28_terminates : forall before f, snd (compute fuel f (run before state0)) <> RFuel.
Proof.
  intros before f. pose proof (good_run before _ good0) as G. set (st := run before state0) in *.
  pose proof (compute_spec fuel f st (enough f) (good_ready st f G)) as P. destruct (compute fuel f st). apply P.
Qed.


(** while a step is taken, the parameter values recorded for an active value stay *)
Definition steps (st st' : state) : Prop :=
  (exists t, s_trace st' = t ++ s_trace st)
  /\ forall f a b, get_active f st = Some a -> get_active f st' = Some b -> a_val a = a_val b ->
       d_get f (s_deps st') = d_get f (s_deps st).

Lemma keeps_steps st st' : keeps st st' -> steps st st'.
Proof. intros K. split; [|apply K]. destruct (k_trace _ _ K) as [t [T _]]. eauto. Qed.
Lemma steps_trans s1 s2 s3 : inv s1 -> inv s2 -> inv s3 -> steps s1 s2 -> steps s2 s3 -> steps s1 s3.
Proof.
  intros I1 I2 I3 [[t1 A1] A2] [[t2 B1] B2]. split.
  - exists (t2 ++ t1). rewrite B1, A1, app_assoc. auto.
  - intros f a b G1 G3 E. destruct (still_active s1 s2 s3 t2 f a b) as [c [C1 C2]]; eauto.
    rewrite (B2 f c b), (A2 f a c); auto; congruence.
Qed.
Lemma steps_deactivate f st st' o : deactivate f st = (st', o) -> steps st st'.
Proof.
  intros H. destruct (deactivate_spec _ _ _ _ H) as [_ [D [_ [_ [_ [_ T]]]]]]. split.
  - destruct (get_active f st); [destruct T as [t [T _]]|destruct T as [T _]; exists []; auto].
    exists (t ++ [EDown f (a_val a)]). rewrite T, <- app_assoc. auto.
  - intros g a b _. rewrite (deactivate_get _ _ _ _ _ H), D, d_get_del. destruct (Nat.eqb_spec g f); [discriminate|auto].
Qed.
Lemma steps_refl st : steps st st.
Proof. split; [exists []; auto|auto]. Qed.
Lemma steps_down_all fs : forall st st' o, inv st -> down_all scope_of fs st = (st', o) -> steps st st'.
Proof.
  induction fs as [|f fs IH]; simpl; intros st st' o I H; [inversion H; subst; apply steps_refl|].
  destruct (deactivate f st) as [st1 o1] eqn:Dc. pose proof (steps_deactivate _ _ _ _ Dc) as S1.
  pose proof (inv_deactivate _ _ _ _ I Dc) as I1.
  assert (R : forall o', down_all scope_of fs st1 = (st', o') -> steps st st').
  { intros o' H'. apply (steps_trans _ st1); auto; [|eapply IH; eauto]. eapply down_all_spec; eauto. }
  destruct o1 as [|[]]; eauto. inversion H; subst. auto.
Qed.
Lemma steps_pop_levels s ks : forall st st' o, inv st -> pop_levels scope_of s ks st = (st', o) -> steps st st'.
Proof.
  induction ks as [|k ks IH]; simpl; intros st st' o I H; [inversion H; subst; apply steps_refl|].
  destruct (Nat.leb k s); [|eauto].
  destruct (down_all scope_of (rev (d_keys (level k st))) st) as [st1 o1] eqn:Dc.
  pose proof (steps_down_all _ _ _ _ I Dc) as S1. destruct (down_all_spec _ _ _ _ I Dc) as [I1 _].
  destruct o1; [|inversion H; subst; auto].
  apply (steps_trans _ st1); auto; [|eapply IH; eauto]. eapply pop_levels_spec; eauto.
Qed.
Lemma steps_step o st : good st -> steps st (step o st).
Proof.
  intros G. destruct o as [f|v|s i]; simpl.
  - pose proof (compute_spec fuel f st (enough f) (good_ready st f G)) as P. destruct (compute fuel f st). simpl.
    apply keeps_steps. apply P.
  - split; [exists []; auto|auto].
  - unfold FixtureLife.pop_scope. destruct i; simpl; [apply steps_refl|].
    destruct (pop_levels scope_of s (d_keys (s_active st)) st) as [st' o] eqn:H. simpl. eapply steps_pop_levels; eauto. apply G.
Qed.
Lemma steps_run ops : forall st, good st -> steps st (run ops st).
Proof.
  induction ops as [|o ops IH]; simpl; intros st G; [apply steps_refl|].
  apply (steps_trans _ (step o st)).
  - apply G.
  - apply good_step. auto.
  - apply good_run. apply good_step. auto.
  - apply steps_step. auto.
  - apply IH. apply good_step. auto.
Qed.

(** C28, the parameters: two requests that return the same value were made with the
    same values of all parametrizations the fixture needs; so a relevant change of the
    variation makes the fixture be computed anew. *)
Theorem C28_same_parameters : forall before f n st1 later st2,
  compute fuel f (run before state0) = (st1, RVal n) ->
  compute fuel f (run later st1) = (st2, RVal n) ->
  forall p, In p (params_of f) -> s_var st2 p = s_var st1 p.
Proof.
  intros before f n st1 later st2 H1 H2 p Hp.
  pose proof (good_run before _ good0) as G. set (st := run before state0) in *.
  pose proof (compute_spec fuel f st (enough f) (good_ready st f G)) as P1. rewrite H1 in P1.
  assert (G1 : good st1).
  { pose proof (good_step (Request f) st G) as X. simpl in X. rewrite H1 in X. auto. }
  pose proof (good_run later _ G1) as G'. pose proof (steps_run later _ G1) as S1. set (st' := run later st1) in *.
  pose proof (compute_spec fuel f st' (enough f) (good_ready st' f G')) as P2. rewrite H2 in P2.
  assert (G2 : good st2).
  { pose proof (good_step (Request f) st' G') as X. simpl in X. rewrite H2 in X. auto. }
  destruct P1 as [_ [_ [_ [_ P1]]]]. destruct (P1 n eq_refl) as [[a [A1 [A2 A3]]] _].
  destruct P2 as [_ [K2 [_ [_ P2]]]]. destruct (P2 n eq_refl) as [[b [B1 [B2 B3]]] _].
  assert (S2 : steps st1 st2).
  { apply (steps_trans _ st'); auto; try apply G1; try apply G'; try apply G2. apply keeps_steps. auto. }
  assert (E : a_val a = a_val b) by congruence.
  pose proof (proj2 S2 f a b A1 B1 E) as D. destruct (i_deps _ (proj1 G1) _ _ A1) as [v Dv].
  rewrite Dv in D. rewrite <- (proj1 (valid_spec _ _ _ D) B3 p Hp). apply (valid_spec _ _ _ Dv); auto.
Qed.

(** ** C29: what the end of a scope does *)

Definition downs (t : list ev) : list (nat * nat) :=
  flat_map (fun e => match e with EDown f n => [(f, n)] | _ => [] end) (rev t).

Lemma downs_app t t' : downs (t' ++ t) = downs t ++ downs t'.
Proof. unfold downs. rewrite rev_app_distr, flat_map_app. auto. Qed.
Lemma downs_none t : (forall f n, ~ In (EDown f n) t) -> downs t = [].
Proof.
  intros H. unfold downs. assert (H' : forall f n, ~ In (EDown f n) (rev t)) by (intros f n I; apply (H f n), in_rev; auto).
  clear H. induction (rev t) as [|e l IH]; simpl; auto. destruct e; simpl.
  - apply IH. intros g m I. apply (H' g m). right; auto.
  - destruct (H' f n). left; auto.
  - apply IH. intros g m I. apply (H' g m). right; auto.
Qed.

(** no finalizer raises an exception that is not swallowed when a scope ends *)
Definition calm : Prop := forall n o, In o (c_fins (call n)) -> o <> Raises true.

Lemma do_cleanups_out f n fins t o : do_cleanups f n fins = (t, o) -> o = Fine \/ In o fins.
Proof.
  revert t o. induction fins as [|x fins IH]; simpl; intros t o H; [inversion H; auto|].
  destruct x; [|inversion H; auto]. destruct (do_cleanups f n fins) as [t' o']. inversion H; subst.
  destruct (IH _ _ eq_refl); auto.
Qed.

Lemma calm_deactivate f st st' o : calm -> inv st -> deactivate f st = (st', o) -> o <> Raises true.
Proof.
  intros Cm I H. destruct (deactivate_spec _ _ _ _ H) as [_ [_ [_ [_ [_ [_ T]]]]]].
  destruct (get_active f st) as [a|] eqn:A; [|destruct T as [_ ->]; discriminate].
  destruct T as [t [_ Dc]]. apply do_cleanups_out in Dc as [->|J]; [discriminate|]. apply in_rev in J.
  destruct (i_called _ I _ _ A) as [E _]. rewrite E in J. eapply Cm; eauto.
Qed.

Definition entry (x : nat * act) : nat * nat := (fst x, a_val (snd x)).

Lemma d_del_last {V} f (a : V) l : d_ok (l ++ [(f, a)]) -> d_del f (l ++ [(f, a)]) = l.
Proof.
  unfold d_ok, d_keys. rewrite map_app. simpl. intros N. apply NoDup_remove in N as [_ N]. rewrite app_nil_r in N.
  induction l as [|[g b] l IH]; simpl.
  - rewrite Nat.eqb_refl. auto.
  - simpl in N. destruct (Nat.eqb_spec f g) as [->|]; [destruct N; left; auto|]. f_equal. apply IH. intros J. apply N. right; auto.
Qed.

Lemma down_level k l : forall st, calm -> inv st -> level k st = l ->
  exists st', down_all scope_of (rev (d_keys l)) st = (st', Fine) /\ level k st' = []
    /\ (forall j, j <> k -> level j st' = level j st)
    /\ d_keys (s_active st') = d_keys (s_active st)
    /\ exists t, s_trace st' = t ++ s_trace st /\ downs t = rev (map entry l).
Proof.
  induction l as [|[f a] l IH] using rev_ind; intros st Cm I L.
  - exists st. simpl. do 4 (split; [auto|]). exists []. auto.
  - unfold d_keys. rewrite map_app, rev_app_distr. simpl. destruct (deactivate f st) as [st1 o] eqn:Dc.
    assert (Ok : d_ok (l ++ [(f, a)])) by (rewrite <- L; apply I).
    assert (In1 : In (f, a) (level k st)) by (rewrite L; apply in_app_iff; right; left; auto).
    assert (Sc : scope_of f = k).
    { apply (level_scope st k f I). apply in_map_iff. exists (f, a). auto. }
    assert (A : get_active f st = Some a).
    { unfold FixtureLife.get_active. rewrite Sc. apply d_pair_get; [apply I|auto]. }
    pose proof (inv_deactivate _ _ _ _ I Dc) as I1. pose proof (calm_deactivate _ _ _ _ Cm I Dc) as No.
    assert (Ka : d_keys (s_active st1) = d_keys (s_active st)).
    { unfold FixtureLife.deactivate in Dc. rewrite A in Dc. destruct (do_cleanups f (a_val a) (rev (a_fins a))).
      inversion Dc; subst. simpl. unfold touch. unfold level in L.
      destruct (d_get (scope_of f) (s_active st)) eqn:E.
      - eapply d_keys_set_same; eauto.
      - destruct l; discriminate. }
    destruct (deactivate_spec _ _ _ _ Dc) as [Lv [_ [_ [_ [_ [_ T]]]]]]. rewrite A in T. destruct T as [t [T Dt]].
    assert (L1 : level k st1 = l).
    { rewrite Lv, Sc, Nat.eqb_refl, L. apply d_del_last. auto. }
    destruct (IH st1 Cm I1 L1) as [st' [D' [L' [O' [K' [t' [T' E']]]]]]].
    assert (Step : match o with Raises true => (st1, Raises true) | _ => down_all scope_of (rev (map fst l)) st1 end = (st', Fine)).
    { destruct o as [|[]]; auto. congruence. }
    exists st'. split; [exact Step|]. split; [auto|]. split; [|split].
    + intros j N. rewrite O' by auto. rewrite Lv, Sc. destruct (Nat.eqb_spec j k); congruence.
    + unfold d_keys in *. congruence.
    + exists (t' ++ t ++ [EDown f (a_val a)]). rewrite T', T. split; [rewrite !app_assoc; simpl; rewrite <- !app_assoc; auto|].
      rewrite !downs_app, E', map_app, rev_app_distr. simpl.
      rewrite (downs_none t); [|apply (do_cleanups_events _ _ _ _ _ Dt)]. auto.
Qed.


Lemma pop_all s ks : forall st, calm -> inv st -> NoDup ks ->
  exists st', pop_levels scope_of s ks st = (st', Fine) /\ inv st'
    /\ (forall k, level k st' = if existsb (Nat.eqb k) ks && Nat.leb k s then [] else level k st)
    /\ exists t, s_trace st' = t ++ s_trace st
         /\ downs t = flat_map (fun k => if Nat.leb k s then rev (map entry (level k st)) else []) ks.
Proof.
  induction ks as [|k ks IH]; simpl; intros st Cm I Nd.
  - exists st. do 3 (split; [auto|]). exists []. auto.
  - apply NoDup_cons_iff in Nd as [Nk Nd]. destruct (Nat.leb_spec k s) as [Lk|Lk].
    + destruct (down_level k _ st Cm I eq_refl) as [st1 [D1 [L1 [O1 [_ [t1 [T1 E1]]]]]]]. rewrite D1.
      destruct (down_all_spec _ _ _ _ I D1) as [I1 _].
      destruct (IH st1 Cm I1 Nd) as [st' [D' [I' [L' [t' [T' E']]]]]]. exists st'. do 2 (split; [auto|]). split.
      * intros j. rewrite L'. destruct (Nat.eqb_spec j k) as [->|N]; simpl.
        { rewrite L1. destruct (Nat.leb_spec k s); [|lia]. destruct (existsb (Nat.eqb k) ks); auto. }
        { rewrite O1; auto. }
      * exists (t' ++ t1). rewrite T', T1, app_assoc. split; auto. rewrite downs_app, E1, E'. f_equal.
        clear - O1 Nk. induction ks as [|j ks IH]; simpl; auto. rewrite O1 by (intros ->; apply Nk; left; auto).
        f_equal. apply IH. intros J. apply Nk. right; auto.
    + destruct (IH st Cm I Nd) as [st' [D' [I' [L' [t' [T' E']]]]]]. exists st'. do 2 (split; [auto|]). split.
      * intros j. rewrite L'. destruct (Nat.eqb_spec j k) as [->|N]; simpl; auto.
        destruct (Nat.leb_spec k s); [lia|]. rewrite andb_false_r. auto.
      * exists t'. auto.
Qed.

(** [x] comes before [y] *)
Definition precedes {A} (x y : A) (l : list A) : Prop := exists l1 l2 l3, l = l1 ++ x :: l2 ++ y :: l3.

Lemma precedes_rev {A} (x y : A) l : precedes x y l -> precedes y x (rev l).
Proof.
  intros [l1 [l2 [l3 ->]]]. exists (rev l3), (rev l2), (rev l1).
  rewrite rev_app_distr. simpl. rewrite rev_app_distr. simpl. rewrite <- !app_assoc. simpl. auto.
Qed.
Lemma precedes_ctx {A} (x y : A) l l1 l2 : precedes x y l -> precedes x y (l1 ++ l ++ l2).
Proof.
  intros [m1 [m2 [m3 ->]]]. exists (l1 ++ m1), m2, (m3 ++ l2). rewrite <- !app_assoc. simpl. rewrite <- !app_assoc. simpl. auto.
Qed.
Lemma sorted_precedes {A} (R : A -> A -> Prop) l x y : (forall a, ~ R a a) -> (forall a b, R a b -> ~ R b a) ->
  StronglySorted R l -> In x l -> In y l -> R x y -> precedes x y l.
Proof.
  intros Irr Asym. induction 1 as [|z l S1 IH F]; intros Ix Iy Rxy; [destruct Ix|].
  rewrite Forall_forall in F. destruct Ix as [->|Ix].
  - destruct Iy as [->|Iy]; [destruct (Irr _ Rxy)|]. apply in_split in Iy as [l1 [l2 ->]]. exists [], l1, l2. auto.
  - destruct Iy as [->|Iy]; [destruct (Asym _ _ Rxy); auto|]. destruct (IH Ix Iy Rxy) as [l1 [l2 [l3 ->]]].
    exists (z :: l1), l2, l3. auto.
Qed.

Lemma level_key st k : level k st <> [] -> In k (d_keys (s_active st)).
Proof. unfold level. destruct (d_get k (s_active st)) eqn:E; [|congruence]. intros _. apply d_get_In. congruence. Qed.

(** C29, the end of a scope in any state an execution can reach: the active fixtures of
    that scope and of narrower ones are torn down, each once, no others, and within a
    scope those called later go first. *)
Theorem C29_scope_end : calm -> forall before s,
  let st := run before state0 in
  let st' := step (PopScope s false) st in
  exists t, s_trace st' = t ++ s_trace st
    /\ (forall f n, In (f, n) (downs t) <-> scope_of f <= s /\ exists a, get_active f st = Some a /\ a_val a = n)
    /\ NoDup (downs t)
    /\ (forall f m g n, In (f, m) (downs t) -> In (g, n) (downs t) -> scope_of f = scope_of g -> m < n ->
          precedes (g, n) (f, m) (downs t))
    /\ (forall f, get_active f st' = if Nat.leb (scope_of f) s then None else get_active f st).
Proof.
  intros Cm before s st st'. pose proof (good_run before _ good0) as [I _]. fold st in I.
  destruct (pop_all s (d_keys (s_active st)) st Cm I (i_active _ I)) as [s2 [D [I2 [L [t [T E]]]]]].
  assert (E2 : st' = s2).
  { unfold st', FixtureLife.step, FixtureLife.pop_scope. rewrite D. auto. }
  rewrite E2. exists t. split; [auto|].
  assert (Mem : forall f n, In (f, n) (downs t) <-> scope_of f <= s /\ exists a, get_active f st = Some a /\ a_val a = n).
  { intros f n. rewrite E, in_flat_map. split.
    - intros [k [Ik J]]. destruct (Nat.leb_spec k s) as [Lk|]; [|destruct J]. apply in_rev in J. apply in_map_iff in J as [[g a] [X J]].
      inversion X; subst g n. apply d_pair_get in J; [|apply I]. pose proof (i_scope _ I _ _ _ J) as Sc.
      unfold FixtureLife.get_active. rewrite Sc. eauto.
    - intros [Lk [a [A <-]]]. exists (scope_of f). unfold FixtureLife.get_active in A. split.
      + apply level_key. intros X. rewrite X in A. discriminate.
      + destruct (Nat.leb_spec (scope_of f) s); [|lia]. rewrite <- in_rev. apply in_map_iff. exists (f, a). split; auto.
        apply d_get_pair. auto. }
  split; [auto|]. split; [|split].
  - rewrite E. clear - I. pose proof (i_active _ I) as Nd. unfold d_ok in Nd. induction (d_keys (s_active st)) as [|k ks IH]; simpl; [constructor|].
    apply NoDup_cons_iff in Nd as [Nk Nd]. destruct (Nat.leb k s); simpl; auto.
    assert (Nl : NoDup (map entry (level k st))).
    { pose proof (i_level _ I k) as Ok. unfold d_ok, d_keys in Ok. clear - Ok. induction (level k st) as [|x l IH]; simpl in *; [constructor|].
      apply NoDup_cons_iff in Ok as [N Ok]. constructor; auto. intros J. apply in_map_iff in J as [y [Ey J]]. apply N.
      apply in_map_iff. exists y. split; auto. unfold entry in Ey. congruence. }
    apply NoDup_rev in Nl. revert Nl. generalize (IH Nd).
    assert (Dj : forall x, In x (rev (map entry (level k st))) ->
       ~ In x (flat_map (fun k0 => if Nat.leb k0 s then rev (map entry (level k0 st)) else []) ks)).
    { intros x J J'. apply in_rev in J. apply in_map_iff in J as [[g a] [X J]].
      assert (S1 : scope_of g = k) by (apply (level_scope st k g I), in_map_iff; exists (g, a); auto).
      apply in_flat_map in J' as [k' [Ik' J']]. destruct (Nat.leb k' s); [|destruct J']. apply in_rev in J'.
      apply in_map_iff in J' as [[g' a'] [X' J']].
      assert (S2 : scope_of g' = k') by (apply (level_scope st k' g' I), in_map_iff; exists (g', a'); auto).
      assert (g = g') by (unfold entry in *; simpl in *; congruence). subst. congruence. }
    revert Dj. generalize (rev (map entry (level k st))) as l1.
    generalize (flat_map (fun k0 => if Nat.leb k0 s then rev (map entry (level k0 st)) else []) ks) as l2.
    clear. intros l2 l1 Dj N2 N1. induction l1 as [|x l1 IH]; simpl; auto. apply NoDup_cons_iff in N1 as [N N1]. constructor.
    + rewrite in_app_iff. intros [J|J]; auto. apply (Dj x); auto. left; auto.
    + apply IH; auto. intros y J. apply Dj. right; auto.
  - intros f m g n If Ig Sc Lt. apply Mem in If as [Lf [a [Af Ef]]]. apply Mem in Ig as [Lg [b [Bg Eg]]]. subst m n.
    rewrite E. set (k := scope_of f).
    assert (Ik : In k (d_keys (s_active st))).
    { apply level_key. intros X. unfold FixtureLife.get_active in Af. fold k in Af. rewrite X in Af. discriminate. }
    apply in_split in Ik as [k1 [k2 Ik]]. rewrite Ik, flat_map_app. cbn [flat_map].
    apply precedes_ctx with (l := if Nat.leb k s then rev (map entry (level k st)) else []).
    destruct (Nat.leb_spec k s); [|unfold k in *; lia]. apply precedes_rev.
    assert (P : precedes (f, a) (g, b) (level k st)).
    { eapply (sorted_precedes (fun x y => a_val (snd x) < a_val (snd y))).
      - intros x. lia.
      - intros x y. lia.
      - apply I.
      - apply d_get_pair. exact Af.
      - apply d_get_pair. unfold FixtureLife.get_active in Bg. rewrite <- Sc in Bg. exact Bg.
      - simpl. auto. }
    destruct P as [l1 [l2 [l3 P]]]. rewrite P, map_app. cbn [map]. rewrite map_app. cbn [map].
    exists (map entry l1), (map entry l2), (map entry l3). auto.
  - intros f. unfold FixtureLife.get_active. rewrite L. destruct (Nat.leb_spec (scope_of f) s) as [Lf|Lf].
    + rewrite andb_true_r. destruct (existsb (Nat.eqb (scope_of f)) (d_keys (s_active st))) eqn:X; auto.
      destruct (level (scope_of f) st) eqn:Y; auto. exfalso.
      assert (In (scope_of f) (d_keys (s_active st))) by (apply level_key; congruence).
      rewrite <- not_true_iff_false in X. apply X. apply existsb_exists. exists (scope_of f). rewrite Nat.eqb_refl. auto.
    + rewrite andb_false_r. auto.
Qed.

(** C28, the end of the scope: after it, the next request calls the fixture again *)
Theorem C28_after_scope : calm -> forall before s f st1 n, scope_of f <= s ->
  let st := run before state0 in
  compute fuel f (step (PopScope s false) st) = (st1, RVal n) ->
  s_next st <= n /\ exists t vals, s_trace st1 = t ++ s_trace st /\ In (ECall f n vals) t.
Proof.
  intros Cm before s f st1 n L st H. destruct (C29_scope_end Cm before s) as [t1 [T1 [_ [_ [_ A]]]]]. fold st in T1, A.
  assert (E : step (PopScope s false) st = run (before ++ [PopScope s false]) state0).
  { unfold FixtureLife.run. rewrite fold_left_app. auto. }
  assert (Nx : s_next (step (PopScope s false) st) = s_next st).
  { pose proof (good_run before _ good0) as [I _]. apply (pop_scope_spec s false _ I). }
  specialize (A f). destruct (Nat.leb_spec (scope_of f) s); [|lia].
  rewrite E in *. destruct (C28_computed _ _ _ _ H) as [[v [a [vals [B _]]]]|[B [t [vals [C [D _]]]]]]; [congruence|].
  rewrite Nx in B. split; auto. exists (t ++ t1), vals. rewrite C, T1, app_assoc. split; auto. apply in_app_iff. auto.
Qed.

(** ** C29: a fixture is torn down before those it was computed from *)

(** at every teardown of a value, everything computed from it is gone already *)
Fixpoint ordered (tr : list ev) : Prop :=
  match tr with
  | [] => True
  | e :: tr' => ordered tr' /\ match e with
                               | EDown f m => forall g n vals, In (ECall g n vals) tr' -> In m vals -> In (EDown g n) tr'
                               | _ => True
                               end
  end.

Lemma ordered_split tr : ordered tr <->
  forall t1 t2 f m, tr = t1 ++ EDown f m :: t2 -> forall g n vals, In (ECall g n vals) t2 -> In m vals -> In (EDown g n) t2.
Proof.
  split.
  - induction tr as [|e tr IH]; simpl; intros O t1 t2 f m E.
    + destruct t1; discriminate.
    + destruct t1 as [|e' t1]; simpl in E; inversion E; subst; [apply O|]. eapply IH; eauto. apply O.
  - induction tr as [|e tr IH]; simpl; auto. intros H. split.
    + apply IH. intros t1 t2 f m E. apply (H (e :: t1) t2 f m). rewrite E. auto.
    + destruct e; auto. apply (H [] tr f n). auto.
Qed.
Lemma ordered_app t tr : (forall f n, ~ In (EDown f n) t) -> ordered tr -> ordered (t ++ tr).
Proof.
  induction t as [|e t IH]; simpl; auto. intros N O. split.
  - apply IH; auto. intros f n I. apply (N f n). auto.
  - destruct e; auto. destruct (N f n). auto.
Qed.

Record sinv (st : state) : Prop := mkSinv {
  si_inv : inv st;
  si_valid : forall f a, get_active f st = Some a -> valid f st = true;
  si_live : forall g b vals, get_active g st = Some b -> In (ECall g (a_val b) vals) (s_trace st) ->
    Forall2 (fun h v => exists a, get_active h st = Some a /\ a_val a = v) (args_of g) vals;
  si_ord : ordered (s_trace st)
}.

Definition unused (f : nat) (st : state) : Prop :=
  forall a g b vals, get_active f st = Some a -> get_active g st = Some b ->
    In (ECall g (a_val b) vals) (s_trace st) -> ~ In (a_val a) vals.

Lemma Forall2_In_r {A B} (P : A -> B -> Prop) l m y : Forall2 P l m -> In y m -> exists x, In x l /\ P x y.
Proof. induction 1; intros []; subst; [exists x; simpl; auto|]. destruct IHForall2 as [z [Z1 Z2]]; auto. exists z. simpl; auto. Qed.
Lemma Forall2_imp_In {A B} (P Q : A -> B -> Prop) l m : (forall x y, In x l -> In y m -> P x y -> Q x y) -> Forall2 P l m -> Forall2 Q l m.
Proof. intros H F. induction F; constructor; [apply H; simpl; auto|]. apply IHF. intros. apply H; simpl; auto. Qed.

Lemma sinv_deactivate f st st' o : sinv st -> unused f st -> deactivate f st = (st', o) -> sinv st'.
Proof.
  intros [I V L O] Un H. pose proof (inv_deactivate _ _ _ _ I H) as I'.
  destruct (deactivate_spec _ _ _ _ H) as [_ [D [_ [Vr [_ [_ T]]]]]]. destruct (deactivate_events _ _ _ _ H) as [Ec Ed].
  pose proof (fun g => deactivate_get f g st st' o H) as G. split; auto.
  - intros g b. rewrite G. destruct (Nat.eqb_spec g f) as [|Ng]; [discriminate|]. intros B. rewrite <- (V _ _ B).
    apply valid_ext; [rewrite D, d_get_del; destruct (Nat.eqb_spec g f); congruence|]. intros p _. rewrite Vr. auto.
  - intros g b vals. rewrite G, Ec. destruct (Nat.eqb_spec g f) as [|Ng]; [discriminate|]. intros B Cl.
    eapply Forall2_imp_In; [|apply (L _ _ _ B Cl)]. intros h v Ih Iv [a [A <-]]. exists a. rewrite G.
    destruct (Nat.eqb_spec h f) as [->|]; auto. destruct (Un a g b vals A B Cl Iv).
  - destruct (get_active f st) as [a|] eqn:A; [|destruct T as [-> _]; auto]. destruct T as [t [-> Dt]].
    apply ordered_app; [apply (do_cleanups_events _ _ _ _ _ Dt)|]. simpl. split; auto.
    intros g n vals Cl J. destruct (i_calls _ I _ _ _ Cl) as [_ [_ [X|[b [B1 <-]]]]]; auto.
    destruct (Un a g b vals A B1 Cl J).
Qed.

Lemma sinv_frame st st' : sinv st -> s_active st' = s_active st -> s_deps st' = s_deps st -> s_next st' = s_next st ->
  s_trace st' = s_trace st ->
  (forall f a p, get_active f st = Some a -> In p (params_of f) -> s_var st' p = s_var st p) -> sinv st'.
Proof.
  intros [I V L O] A D N T Vr.
  assert (G : forall f, get_active f st' = get_active f st) by (intros f; unfold FixtureLife.get_active, level; rewrite A; auto).
  split.
  - eapply inv_frame; eauto.
  - intros f a. rewrite G. intros B. rewrite <- (V _ _ B). apply valid_ext; [rewrite D; auto|]. eauto.
  - intros g b vals. rewrite G, T. intros B Cl. eapply Forall2_imp; [|eapply L; eauto].
    intros h v [a [X Y]]. exists a. rewrite G. auto.
  - rewrite T. auto.
Qed.

Lemma sinv_touch k st : sinv st -> sinv (touch k st).
Proof.
  intros [I V L O]. destruct (touch_rest k st) as [T1 [T2 [T3 [T4 T5]]]]. split.
  - apply inv_touch. auto.
  - intros f a. rewrite get_active_touch, valid_touch. apply V.
  - intros g b vals. rewrite get_active_touch, T5. intros B Cl. eapply Forall2_imp; [|eapply L; eauto].
    intros h v [a [X Y]]. exists a. rewrite get_active_touch. auto.
  - rewrite T5. auto.
Qed.


Lemma sinv_fresh n f st : (forall g st, In g (args_of f) -> sinv st -> ready g st -> sinv (fst (compute n g st))) ->
  (forall g, In g (args_of f) -> rank g < n) ->
  sinv st -> ready f st -> get_active f st = None -> ~ In f (s_computing st) -> sinv (fst (fresh (compute n) f st)).
Proof.
  intros Rec Rn S0 [I Rc] Na Nc. unfold FixtureLife.fresh, FixtureLife.call_fixture.
  set (st0 := set_computing (f :: s_computing st) st).
  assert (S1 : sinv st0) by (apply (sinv_frame st); auto).
  assert (Ar : forall l s, incl l (args_of f) -> sinv s -> s_computing s = f :: s_computing st -> get_active f s = None ->
      let (st', r) := compute_args (compute n) l s in
      sinv st' /\ s_computing st' = f :: s_computing st /\ get_active f st' = None /\ r <> inr RFuel /\ (forall v, r <> inr (RVal v))
      /\ keeps s st'
      /\ (forall vals, r = inl vals -> Forall2 (fun g v => exists a, get_active g st' = Some a /\ a_val a = v) l vals)).
  { induction l as [|g l IHl]; intros s Inc Ss Cs Ns; simpl.
    - split; [auto|]. split; [auto|]. split; [auto|]. do 2 (split; [discriminate|]). split; [apply keeps_refl|].
      intros vals H; inversion H; constructor.
    - assert (Ig : In g (args_of f)) by (apply Inc; left; auto).
      assert (Rg : ready g s).
      { split; [apply Ss|]. rewrite Cs. intros c [<-|J]; [auto|]. specialize (Rc c J). specialize (acyclic f g Ig). lia. }
      pose proof (compute_spec n g s (Rn g Ig) Rg) as P. pose proof (Rec g s Ig Ss Rg) as Sg.
      destruct (compute n g s) as [st1 r]. simpl in Sg. destruct P as [P1 [P2 [P3 [P4 P5]]]].
      assert (Cs1 : s_computing st1 = f :: s_computing st) by (rewrite (k_comp _ _ P2); auto).
      assert (Ns1 : get_active f st1 = None) by (rewrite P4; auto).
      destruct r as [v|c|]; [| |congruence].
      + specialize (IHl st1 (fun x J => Inc x (or_intror J)) Sg Cs1 Ns1).
        destruct (compute_args (compute n) l st1) as [st2 r2]. destruct IHl as [Q1 [Q2 [Q3 [Q4 [Q5 [Q6 Q7]]]]]].
        assert (K12 : keeps s st2) by (apply (keeps_trans _ st1); auto; [apply Ss|apply Q1]).
        destruct r2 as [vs|r2].
        * do 3 (split; [auto|]). do 2 (split; [discriminate|]). split; [auto|].
          intros vals H; inversion H; subst. constructor; [|apply Q7; auto].
          destruct (P5 v eq_refl) as [[a [A1 [A2 A3]]] _]. exists a. destruct (k_valid _ _ Q6 _ _ A1 A3) as [B1 B2]. auto.
        * do 3 (split; [auto|]). split; [congruence|]. split; [congruence|]. split; [auto|]. discriminate.
      + do 3 (split; [auto|]). do 2 (split; [discriminate|]). split; [auto|]. discriminate. }
  specialize (Ar (args_of f) st0 (incl_refl _) S1 eq_refl Na).
  destruct (compute_args (compute n) (args_of f) st0) as [st1 ra]. destruct Ar as [Q1 [Q2 [Na1 [Q4 [Q5 [Q6 Q7]]]]]].
  destruct ra as [vals|r].
  - rewrite Na1. specialize (Q7 vals eq_refl).
    assert (Vs : forall m, In m vals -> m < s_next st1).
    { intros m J. destruct (Forall2_In_r _ _ _ _ Q7 J) as [g [_ [a [A <-]]]]. eapply i_next; eauto. apply Q1. }
    pose proof (activate_spec f vals st1 _ (si_inv _ Q1) Na1 Vs eq_refl) as As. cbv zeta in As.
    match type of As with inv ?s /\ _ => set (st5 := s) in * end.
    destruct As as [I5 [K5 [U5 [G5 [V5 [T5 [Nx _]]]]]]].
    assert (S5 : sinv st5).
    { destruct Q1 as [I1 V1 L1 O1]. split; auto.
      - intros g b B. destruct (Nat.eq_dec g f) as [->|N]; auto. rewrite U5 in B by auto. exact (keeps_valid _ _ _ _ K5 B (V1 _ _ B)).
      - intros g b w B Cl. rewrite T5 in Cl. destruct (Nat.eq_dec g f) as [->|N].
        + rewrite G5 in B. inversion B; subst b. simpl in Cl. destruct Cl as [X|X].
          * inversion X; subst w. eapply Forall2_imp_In; [|exact Q7]. intros h v Ih _ [a [X1 X2]]. exists a. rewrite U5; auto.
            intros ->. specialize (acyclic f f Ih). lia.
          * destruct (i_calls _ I1 _ _ _ X). lia.
        + rewrite U5 in B by auto. destruct Cl as [X|X]; [inversion X; congruence|].
          eapply Forall2_imp; [|apply (L1 _ _ _ B X)]. intros h v [a [X1 X2]]. exists a.
          destruct (k_valid _ _ K5 _ _ X1 (V1 _ _ X1)). auto.
      - rewrite T5. simpl. auto. }
    destruct (c_out (call (s_next st1))) as [|b]; [apply (sinv_frame st5); auto|].
    destruct (deactivate f st5) as [st6 o] eqn:Dc. simpl. apply (sinv_frame st6); auto.
    eapply sinv_deactivate; eauto. intros a g b' w A B Cl J. rewrite G5 in A. inversion A; subst a. simpl in J.
    destruct (i_calls _ I5 _ _ _ Cl) as [X1 [X2 _]]. specialize (X2 _ J). lia.
  - destruct r as [v|c|]; [destruct (Q5 v); auto| |congruence].
    destruct (deactivate f st1) as [st2 o] eqn:Dc. simpl. apply (sinv_frame st2); auto.
    eapply sinv_deactivate; eauto. intros a g b w A. congruence.
Qed.

Lemma sinv_compute n : forall f st, rank f < n -> sinv st -> ready f st -> sinv (fst (compute n f st)).
Proof.
  induction n as [|n IH]; intros f st L S0 [I Rc]; [lia|]. cbn [FixtureLife.compute].
  assert (Nc : ~ In f (s_computing st)) by (intros J; specialize (Rc f J); lia).
  assert (M : existsb (Nat.eqb f) (s_computing st) = false).
  { destruct (existsb _ _) eqn:E; auto. apply existsb_exists in E as [c [J E]]. apply Nat.eqb_eq in E. subst. destruct (Nc J). }
  rewrite M. pose proof (sinv_touch (scope_of f) st S0) as S1. destruct (touch_rest (scope_of f) st) as [_ [T2 _]].
  set (st0 := touch (scope_of f) st) in *. destruct (get_active f st0) as [a|] eqn:Ga.
  - rewrite (si_valid _ S1 _ _ Ga). auto.
  - apply sinv_fresh; auto.
    + intros g s Ig Ss Rg. apply IH; auto. specialize (acyclic f g Ig). lia.
    + intros g Ig. specialize (acyclic f g Ig). lia.
    + split; [apply S1|]. rewrite T2. auto.
    + rewrite T2. auto.
Qed.

Lemma sinv_down_level k l : forall st, calm -> sinv st -> (forall j, j < k -> level j st = []) -> level k st = l ->
  sinv (fst (down_all scope_of (rev (d_keys l)) st)).
Proof.
  induction l as [|[f a] l IH] using rev_ind; intros st Cm S0 Emp L; [auto|].
  pose proof (si_inv _ S0) as I.
  unfold d_keys. rewrite map_app, rev_app_distr. simpl. destruct (deactivate f st) as [st1 o] eqn:Dc.
  assert (Ok : d_ok (l ++ [(f, a)])) by (rewrite <- L; apply I).
  assert (In1 : In (f, a) (level k st)) by (rewrite L; apply in_app_iff; right; left; auto).
  assert (Sc : scope_of f = k).
  { apply (level_scope st k f I). apply in_map_iff. exists (f, a). auto. }
  assert (A : get_active f st = Some a).
  { unfold FixtureLife.get_active. rewrite Sc. apply d_pair_get; [apply I|auto]. }
  assert (Un : unused f st).
  { intros a' g b vals A' B Cl J. rewrite A in A'. inversion A'; subst a'.
    destruct (i_calls _ I _ _ _ Cl) as [_ [Lt _]]. specialize (Lt _ J).
    destruct (Forall2_In_r _ _ _ _ (si_live _ S0 _ _ _ B Cl) J) as [h [Ih [a2 [A2 E2]]]].
    assert (h = f) by (eapply (i_uniq _ I); eauto). subst h. specialize (scopes g f Ih). rewrite Sc in scopes.
    unfold FixtureLife.get_active in B. destruct (Nat.eq_dec (scope_of g) k) as [Eq|Ne].
    - rewrite Eq in B. apply d_get_pair in B. pose proof (i_sorted _ I k) as So. rewrite L in B, So.
      apply in_app_iff in B as [B|[B|[]]].
      + clear - So B Lt. induction l as [|x l IHl]; [destruct B|]. simpl in So. inversion So; subst.
        destruct B as [->|B]; [|auto]. rewrite Forall_forall in H2. specialize (H2 (f, a) ltac:(apply in_app_iff; right; left; auto)).
        simpl in H2. lia.
      + inversion B; subst. lia.
    - rewrite (Emp (scope_of g)) in B by lia. discriminate. }
  pose proof (sinv_deactivate _ _ _ _ S0 Un Dc) as S1. pose proof (calm_deactivate _ _ _ _ Cm I Dc) as No.
  destruct (deactivate_spec _ _ _ _ Dc) as [Lv _].
  assert (L1 : level k st1 = l) by (rewrite Lv, Sc, Nat.eqb_refl, L; apply d_del_last; auto).
  assert (Emp1 : forall j, j < k -> level j st1 = []).
  { intros j Lj. rewrite Lv, (Emp j Lj). destruct (Nat.eqb j (scope_of f)); auto. }
  specialize (IH st1 Cm S1 Emp1 L1). destruct o as [|[]]; auto.
Qed.

Lemma down_nil st : down_all scope_of (rev (d_keys (@nil (nat * act)))) st = (st, Fine).
Proof. reflexivity. Qed.

Lemma sinv_pop_levels s ks : forall st, calm -> sinv st -> (forall j, j < s -> level j st = []) ->
  sinv (fst (pop_levels scope_of s ks st)).
Proof.
  induction ks as [|k ks IH]; simpl; intros st Cm S0 Emp; auto.
  destruct (Nat.leb_spec k s) as [Lk|Lk]; auto.
  pose proof (si_inv _ S0) as I.
  destruct (down_level k _ st Cm I eq_refl) as [st1 [D1 [L1 [O1 _]]]].
  assert (S1 : sinv st1).
  { pose proof (sinv_down_level k _ st Cm S0 (fun j Lj => Emp j (Nat.lt_le_trans _ _ _ Lj Lk)) eq_refl) as X.
    rewrite D1 in X. auto. }
  rewrite D1. apply IH; auto. intros j Lj. destruct (Nat.eq_dec j k) as [->|N]; auto. rewrite O1; auto.
Qed.

(** an execution in which the parameter values the active fixtures were computed for
    stay in force, scopes end from the inside out, and are not interrupted *)
Fixpoint steady (st : state) (ops : list op) : Prop :=
  match ops with
  | [] => True
  | o :: ops' =>
      match o with
      | Request _ => True
      | SetVar v => forall f a p, get_active f st = Some a -> In p (params_of f) -> v p = s_var st p
      | PopScope s i => i = false /\ forall f, scope_of f < s -> get_active f st = None
      end /\ steady (step o st) ops'
  end.

Lemma no_level st k : inv st -> (forall f, scope_of f = k -> get_active f st = None) -> level k st = [].
Proof.
  intros I H. destruct (level k st) as [|[f a] l] eqn:E; auto.
  assert (J : In (f, a) (level k st)) by (rewrite E; left; auto). apply d_pair_get in J; [|apply I].
  pose proof (i_scope _ I _ _ _ J) as Sc. specialize (H f Sc). unfold FixtureLife.get_active in H. rewrite Sc in H. congruence.
Qed.

Lemma sinv_run ops : forall st, calm -> good st -> sinv st -> steady st ops -> sinv (run ops st).
Proof.
  induction ops as [|o ops IH]; simpl; intros st Cm G S0 H; auto. destruct H as [H1 H2].
  apply IH; auto; [apply good_step; auto|]. destruct o as [f|v|s i]; simpl.
  - apply sinv_compute; auto. apply good_ready. auto.
  - apply (sinv_frame st); auto.
  - destruct H1 as [-> E]. unfold FixtureLife.pop_scope. apply sinv_pop_levels; auto.
    intros j Lj. apply no_level; [apply G|]. intros f Sc. apply E. lia.
Qed.

Lemma sinv0 : sinv state0.
Proof. split; [apply inv0| | |]; simpl; auto; intros; discriminate. Qed.

(** Partial: in such executions a value is never given up before everything computed
    from it.  Without these restrictions it can happen (the refutations below). *)
Theorem C29_dependents_first_partial : calm -> forall ops, steady state0 ops ->
  forall t1 t2 f m, s_trace (run ops state0) = t1 ++ EDown f m :: t2 ->
  forall g n vals, In (ECall g n vals) t2 -> In m vals -> In (EDown g n) t2.
Proof.
  intros Cm ops H. apply ordered_split. apply sinv_run; auto; [apply good0|apply sinv0].
Qed.

(** Partial: in such executions the value a request returns was computed from values
    that are still active. *)
Theorem C28_live_partial : calm -> forall ops f n st1, steady state0 ops ->
  compute fuel f (run ops state0) = (st1, RVal n) ->
  exists vals, In (ECall f n vals) (s_trace st1) /\ Forall2 (fun g v => exists a, get_active g st1 = Some a /\ a_val a = v) (args_of f) vals
    /\ forall g v, In v vals -> ~ In (EDown g v) (s_trace st1).
Proof.
  intros Cm ops f n st1 Hs H. pose proof (good_run ops _ good0) as G.
  pose proof (sinv_run ops _ Cm good0 sinv0 Hs) as S0. set (st := run ops state0) in *.
  pose proof (sinv_compute fuel f st (enough f) S0 (good_ready st f G)) as S1.
  pose proof (compute_spec fuel f st (enough f) (good_ready st f G)) as P. rewrite H in S1, P. simpl in S1.
  destruct P as [I [_ [_ [_ P]]]]. destruct (P n eq_refl) as [[a [A1 [A2 A3]]] _]. subst n.
  destruct (i_called _ I _ _ A1) as [_ [[vals Cl] _]]. exists vals. split; auto.
  pose proof (si_live _ S1 _ _ _ A1 Cl) as Lv. split; auto. intros g v J Dn.
  destruct (Forall2_In_r _ _ _ _ Lv J) as [h [_ [b [B1 B2]]]]. subst v.
  destruct (i_called _ I _ _ B1) as [_ [[w Cb] Nd]]. destruct (i_downs _ I _ _ Dn) as [w' Cw].
  destruct (i_once _ I _ _ _ _ _ Cb Cw) as [<- _]. auto.
Qed.

End Life.

Print Assumptions C28_cached.
Print Assumptions C28_computed.
Print Assumptions C28_terminates.
Print Assumptions C28_same_parameters.
Print Assumptions C28_after_scope.
Print Assumptions C28_live_partial.
Print Assumptions C29_scope_end.
Print Assumptions C29_dependents_first_partial.

(** ** a concrete case *)

(** fixture 0 has session scope and is parametrized; 1 and 2 have module scope, 3 has
    test scope; 1 uses 0, 2 uses 0 and 1, 3 uses 2; fixture 3 of call 3 registers two
    finalizers, of which one fails *)
Definition x_args (f : nat) : list nat := match f with 1 => [0] | 2 => [0; 1] | 3 => [2] | _ => [] end.
Definition x_scope (f : nat) : nat := match f with 0 => 2 | 1 => 1 | 2 => 1 | _ => 0 end.
Definition x_params (f : nat) : list nat := match f with 0 => [7] | 1 => [7] | 2 => [7] | 3 => [7] | _ => [] end.
Definition x_call (n : nat) : fcall := match n with 3 => mkCall [Fine; Raises false] Fine | _ => mkCall [] Fine end.
Definition x_rank (f : nat) : nat := if Nat.leb f 3 then f else 0.

Lemma x_acyclic f g : In g (x_args f) -> x_rank g < x_rank f.
Proof. destruct f as [|[|[|[|f]]]]; simpl; intuition; subst; unfold x_rank; simpl; lia. Qed.
Lemma x_scopes f g : In g (x_args f) -> x_scope f <= x_scope g.
Proof. destruct f as [|[|[|[|f]]]]; simpl; intuition; subst; simpl; lia. Qed.
Lemma x_enough f : x_rank f < 4.
Proof. unfold x_rank. destruct (Nat.leb_spec f 3); lia. Qed.
Lemma x_calm : calm x_call.
Proof. intros [|[|[|[|n]]]] o; simpl; intuition; subst; discriminate. Qed.

Definition x_run := run x_args x_scope x_params x_call 4.
Definition x_compute := compute x_args x_scope x_params x_call 4.

(** two tests of one module request fixture 3; the module and the session end *)
Definition x_ops : list op :=
  [Request 3; PopScope 0 false; Request 3; PopScope 0 false; PopScope 1 false; PopScope 2 false].

Example ex_life : rev (s_trace (x_run x_ops state0)) =
  [ECall 0 0 []; ECall 1 1 [0]; ECall 2 2 [0; 1]; ECall 3 3 [2]; EDown 3 3; EFin 3 3 1 (Raises false);
   ECall 3 4 [2]; EDown 3 4; EDown 2 2; EDown 1 1; EDown 0 0].
Proof. reflexivity. Qed.

Example ex_steady : steady x_args x_scope x_params x_call 4 state0 x_ops.
Proof.
  unfold x_ops. cbn [steady]. repeat match goal with |- _ /\ _ => split | |- True => exact I | |- _ = _ => reflexivity end;
  intros [|[|[|[|f]]]]; vm_compute; intros; try lia; reflexivity.
Qed.

(** the cached value: fixture 2 is requested again after other requests, a change of
    another parameter and the end of the test *)
Example ex_cached :
  let st1 := fst (x_compute 2 (x_run [Request 0] state0)) in
  let later := [Request 3; SetVar (fun p => if Nat.eqb p 7 then 0 else 5); PopScope 0 false] in
  snd (x_compute 2 (x_run [Request 0] state0)) = RVal 2
  /\ Forall (harmless x_scope x_params 2 (s_var st1)) later
  /\ snd (x_compute 2 (x_run later st1)) = RVal 2.
Proof.
  cbv zeta. split; [vm_compute; reflexivity|]. split; [|vm_compute; reflexivity].
  constructor; [exact I|]. constructor; [|constructor; [left; vm_compute; lia|constructor]].
  intros p [<-|[]]. vm_compute. reflexivity.
Qed.

(** computed anew after a change of the parameter and after the end of the scope *)
Example ex_recomputed :
  let st1 := fst (x_compute 1 state0) in
  let st2 := fst (x_compute 1 (x_run [SetVar (fun _ => 1)] st1)) in
  snd (x_compute 1 state0) = RVal 1
  /\ snd (x_compute 1 (x_run [SetVar (fun _ => 1)] st1)) = RVal 3
  /\ snd (x_compute 1 (x_run [PopScope 1 false] st2)) = RVal 4.
Proof. cbv zeta. split; [vm_compute; reflexivity|]. split; vm_compute; reflexivity. Qed.

(** ** what is false *)

(** The value returned by a request can have been computed from a value that was torn
    down in the meantime: fixture 1 uses fixture 0; 0 alone is requested under another
    parameter value, and then the first value is current again. *)
Theorem C28_live_refuted : exists ops f n vals g m,
  let st1 := fst (x_compute f (x_run ops state0)) in
  snd (x_compute f (x_run ops state0)) = RVal n /\ In (ECall f n vals) (s_trace st1) /\ In m vals
  /\ In (EDown g m) (s_trace st1) /\ ~ exists a, get_active x_scope g st1 = Some a /\ a_val a = m.
Proof.
  exists [Request 1; SetVar (fun _ => 1); Request 0; SetVar (fun _ => 0)], 1, 1.
  exists [0], 0, 0. cbv zeta. split; [vm_compute; reflexivity|]. split; [vm_compute; auto|]. split; [vm_compute; auto|].
  split; [vm_compute; auto|]. intros [a [H E]]. revert H E. vm_compute. intros H; inversion H; subst a. discriminate.
Qed.
Print Assumptions C28_live_refuted.

(** The end of a scope does not make a fixture be computed anew if the current test is
    interrupted. *)
Theorem C28_after_scope_interrupted_refuted : exists before s f n,
  x_scope f <= s /\ snd (x_compute f (x_run (before ++ [PopScope s true]) state0)) = RVal n
  /\ n < s_next (x_run before state0).
Proof. exists [Request 3], 2, 3, 3. split; [simpl; lia|]. split; [vm_compute; reflexivity|]. vm_compute. lia. Qed.
Print Assumptions C28_after_scope_interrupted_refuted.

(** A value can be torn down while a value computed from it is still in use: when a
    fixture is computed anew for another parameter value, those using it are left. *)
Theorem C29_dependents_first_refuted : exists ops t1 t2 f m g n vals,
  s_trace (x_run ops state0) = t1 ++ EDown f m :: t2 /\ In (ECall g n vals) t2 /\ In m vals /\ ~ In (EDown g n) t2.
Proof.
  exists [Request 1; SetVar (fun _ => 1); Request 0], [ECall 0 2 []], [ECall 1 1 [0]; ECall 0 0 []], 0, 0, 1, 1, [0].
  split; [reflexivity|]. split; [simpl; auto|]. split; [simpl; auto|]. simpl. intuition discriminate.
Qed.
Print Assumptions C29_dependents_first_refuted.

(** It also happens without any change of parameters: after an interrupted test, its
    fixtures are left to the end of the session, where the scopes are handled in the
    order of their first use. *)
Theorem C29_interrupted_refuted : exists ops t1 t2 f m g n vals,
  (forall v, ~ In (SetVar v) ops)
  /\ s_trace (x_run ops state0) = t1 ++ EDown f m :: t2 /\ In (ECall g n vals) t2 /\ In m vals /\ ~ In (EDown g n) t2.
Proof.
  exists [Request 0; Request 1; PopScope 1 true; PopScope 2 false], [EDown 1 1], [ECall 1 1 [0]; ECall 0 0 []], 0, 0, 1, 1, [0].
  split; [simpl; intuition discriminate|].
  split; [reflexivity|]. split; [simpl; auto|]. split; [simpl; auto|]. simpl. intuition discriminate.
Qed.
Print Assumptions C29_interrupted_refuted.
