(** Properties of the calling of a test's functions (TestCall.v): C70, C71. *)

From Coq Require Import List Bool Arith Lia.
From Verif Require Import TestCall.
Import ListNotations.

(** * An acceptor for traces

    [w_live]: fixtures set up and not torn down; [w_since]: fixtures announced to start
    since the current test began; [w_open]: fixtures started and not ended.  The checks
    at the begin of a test and at the call of its function are made by the strict
    acceptor only. *)
Record acc := mkAcc { w_live : list nat; w_since : list nat; w_open : list nat }.
Definition acc0 := mkAcc [] [] [].

Definition mem (f : nat) (l : list nat) : bool := existsb (Nat.eqb f) l.
Definition remove (f : nat) (l : list nat) : list nat := filter (fun g => negb (Nat.eqb f g)) l.

Definition step (strict : bool) (a : acc) (e : event) : option acc :=
  match e with
  | EvBegin => if strict && negb (match w_open a with [] => true | _ => false end) then None
               else Some (mkAcc (w_live a) [] (w_open a))
  | EvSetUp f => Some (mkAcc (f :: w_live a) (w_since a) (w_open a))
  | EvTearDown f => Some (mkAcc (remove f (w_live a)) (w_since a) (remove f (w_open a)))
  | EvStart f => if mem f (w_open a) then None
                 else Some (mkAcc (w_live a) (f :: w_since a) (f :: w_open a))
  | EvEnd f => Some (mkAcc (w_live a) (w_since a) (remove f (w_open a)))
  | EvMethod => if strict && negb (forallb (fun f => mem f (w_since a)) (w_live a)) then None else Some a
  | _ => Some a
  end.

Fixpoint accept (strict : bool) (a : acc) (l : list event) : option acc :=
  match l with
  | [] => Some a
  | e :: l' => match step strict a e with Some a' => accept strict a' l' | None => None end
  end.

Lemma accept_app b l1 l2 a :
  accept b a (l1 ++ l2) = match accept b a l1 with Some a' => accept b a' l2 | None => None end.
Proof. revert a; induction l1 as [|e l1 IH]; intros a; simpl; auto. destruct (step b a e); auto. Qed.

Lemma mem_In f l : mem f l = true <-> In f l.
Proof.
  unfold mem. rewrite existsb_exists. split.
  - intros (x & I & E). apply Nat.eqb_eq in E. subst. auto.
  - intros I. exists f. rewrite Nat.eqb_refl. auto.
Qed.

Lemma remove_In f g l : In g (remove f l) <-> In g l /\ g <> f.
Proof.
  unfold remove. rewrite filter_In, negb_true_iff, Nat.eqb_neq. intuition congruence.
Qed.

(** * The invariant *)
Definition neutral (e : event) : Prop :=
  match e with EvStartCall _ _ | EvEndCall _ _ | EvBefore | EvAfter | EvRecord _ => True | _ => False end.

Definition started (s : st) (f : nat) : Prop := exists a, In a (fx s) /\ a_id a = f /\ a_started a = true.

Definition inv (b : bool) (s : st) : Prop :=
  exists a, accept b acc0 (trace s) = Some a
    /\ (forall f, In f (w_live a) <-> In f (map a_id (fx s)))
    /\ (forall f, In f (w_open a) <-> started s f)
    /\ (forall f, started s f -> b = true -> In f (w_since a))
    /\ NoDup (map a_id (fx s)) /\ (forall f, In f (map a_id (fx s)) -> f < next s).

(** the same fixtures, and events that do not matter *)
Definition ext (s s' : st) : Prop :=
  fx s' = fx s /\ next s' = next s /\ exists l, Forall neutral l /\ trace s' = trace s ++ l.

Lemma ext_refl s : ext s s.
Proof. split; auto. split; auto. exists []. rewrite app_nil_r. auto. Qed.

Lemma ext_trans s1 s2 s3 : ext s1 s2 -> ext s2 s3 -> ext s1 s3.
Proof.
  intros (A & B & l & C & D) (A' & B' & l' & C' & D').
  split; [congruence|]. split; [congruence|]. exists (l ++ l').
  split; [apply Forall_app; auto|]. rewrite D', D, app_assoc. auto.
Qed.

Lemma accept_neutral b l a : Forall neutral l -> accept b a l = Some a.
Proof.
  induction l as [|e l IH]; intros N; simpl; auto. inversion N; subst.
  destruct e; simpl in *; try contradiction; auto.
Qed.

Lemma inv_ext b s s' : ext s s' -> inv b s -> inv b s'.
Proof.
  intros (A & B & l & C & D) (a & E1 & E2 & E3 & E4 & E5 & E6).
  exists a. rewrite D, accept_app, E1, accept_neutral by auto.
  unfold started in *. rewrite A, B. auto 10.
Qed.

Lemma ext_handle x s : ext s (handle x s).
Proof.
  unfold handle. destruct (existsb _ _); [apply ext_refl|].
  split; auto. split; auto. exists [EvRecord x]. split; auto. repeat constructor.
Qed.

Definition extm (m : M) := forall s, ext s (fst (m s)).

Lemma ext_handling b m : extm m -> extm (handling b m).
Proof.
  intros H s. unfold handling. specialize (H s). destruct (m s) as [s1 [x|]]; simpl in *; auto.
  eapply ext_trans; [exact H|apply ext_handle].
Qed.

Lemma ext_seq m1 m2 : extm m1 -> extm m2 -> extm (seq m1 m2).
Proof.
  intros A B s. unfold seq. specialize (A s). destruct (m1 s) as [s1 [x|]]; simpl in *; auto.
  eapply ext_trans; eauto.
Qed.

Lemma ext_emit e : neutral e -> extm (emit e).
Proof. intros N s. split; auto. split; auto. exists [e]. auto. Qed.

Lemma ext_outcome r : extm (outcome r).
Proof. intros s. apply ext_refl. Qed.

Lemma ext_call_all ev l : (forall k, neutral (ev k)) -> forall k, extm (call_all ev k l).
Proof.
  intros N. induction l as [|c l IH]; intros k; simpl.
  - intros s. apply ext_refl.
  - apply ext_seq; [apply ext_emit; auto|]. apply ext_seq; [apply ext_outcome|]. apply IH.
Qed.

(** * Preservation *)
Definition pres (b : bool) (m : M) := forall s, inv b s -> inv b (fst (m s)).

Lemma pres_ext b m : extm m -> pres b m.
Proof. intros H s I. eapply inv_ext; eauto. Qed.

Lemma pres_seq b m1 m2 : pres b m1 -> pres b m2 -> pres b (seq m1 m2).
Proof.
  intros A B s I. unfold seq. specialize (A s I). destruct (m1 s) as [s1 [x|]]; simpl in *; auto.
Qed.

Lemma pres_try b m1 m2 : pres b m1 -> pres b m2 -> pres b (try_finally m1 m2).
Proof.
  intros A B s I. unfold try_finally. specialize (A s I). destruct (m1 s) as [s1 r]; simpl in *.
  specialize (B s1 A). destruct (m2 s1) as [s2 [x|]]; simpl in *; auto.
Qed.

Lemma pres_handling b sw m : pres b m -> pres b (handling sw m).
Proof.
  intros H s I. unfold handling. specialize (H s I). destruct (m s) as [s1 [x|]]; simpl in *; auto.
  eapply inv_ext; [apply ext_handle|auto].
Qed.

Lemma map_upd f g l : (forall a, a_id (g a) = a_id a) -> map a_id (upd_fx f g l) = map a_id l.
Proof.
  intros E. unfold upd_fx. rewrite map_map. apply map_ext. intros a. destruct (Nat.eqb f (a_id a)); auto.
Qed.

Lemma In_upd f g l a : In a (upd_fx f g l) <->
  exists a0, In a0 l /\ a = if Nat.eqb f (a_id a0) then g a0 else a0.
Proof. unfold upd_fx. rewrite in_map_iff. split; intros (x & A & B); exists x; auto. Qed.

Lemma started_same_flags s s' f :
  (exists g k, fx s' = upd_fx k g (fx s) /\ forall a, a_id (g a) = a_id a /\ a_started (g a) = a_started a) ->
  started s f <-> started s' f.
Proof.
  intros (g & k & E & G). unfold started. rewrite E. split.
  - intros (a & I & J & K). exists (if Nat.eqb k (a_id a) then g a else a).
    split; [apply In_upd; eauto|]. destruct (Nat.eqb k (a_id a)); auto.
    destruct (G a) as [G1 G2]. rewrite G1, G2. auto.
  - intros (a & I & J & K). apply In_upd in I as (a0 & I & ->). exists a0. split; auto.
    destruct (Nat.eqb k (a_id a0)); auto. destruct (G a0) as [G1 G2]. rewrite G1, G2 in *. auto.
Qed.

Lemma inv_same_flags b s s' g k :
  fx s' = upd_fx k g (fx s) -> (forall a, a_id (g a) = a_id a /\ a_started (g a) = a_started a) ->
  next s' = next s -> trace s' = trace s -> inv b s -> inv b s'.
Proof.
  intros E G N T (a & E1 & E2 & E3 & E4 & E5 & E6).
  assert (ES : forall f, started s f <-> started s' f) by (intros f; apply started_same_flags; eauto).
  assert (EM : map a_id (fx s') = map a_id (fx s)) by (rewrite E; apply map_upd; intros; apply G).
  exists a. rewrite T, EM, N. split; auto. split; auto.
  split; [intros f; rewrite E3; apply ES|].
  split; [intros f SF; apply E4, ES, SF|]. auto.
Qed.

Lemma pres_do_fop b o s : inv b s -> inv b (do_fop o s).
Proof.
  intros I. destruct o as [n bs es|f|f c|f c]; simpl.
  - destruct I as (a & E1 & E2 & E3 & E4 & E5 & E6).
    assert (SF : forall f, started s f <->
              started (mkSt (firstn n (fx s) ++ mkActive (next s) bs es false :: skipn n (fx s)) (S (next s)) (handled s)
                            (trace s ++ [EvSetUp (next s)])) f).
    { intros f. unfold started; simpl. split.
      - intros (x & I & J & K). exists x. split; auto.
        rewrite <- (firstn_skipn n (fx s)) in I. apply in_app_or in I. apply in_or_app. simpl. tauto.
      - intros (x & I & J & K). exists x. split; auto.
        rewrite <- (firstn_skipn n (fx s)). apply in_app_or in I. apply in_or_app. simpl in I.
        destruct I as [I|[<-|I]]; auto. discriminate K. }
    assert (P : forall f, In f (map a_id (firstn n (fx s) ++ mkActive (next s) bs es false :: skipn n (fx s)))
                 <-> f = next s \/ In f (map a_id (fx s))).
    { intros f. rewrite <- (firstn_skipn n (fx s)) at 3. rewrite !map_app. simpl. rewrite !in_app_iff. simpl.
      intuition. }
    exists (mkAcc (next s :: w_live a) (w_since a) (w_open a)). simpl trace.
    rewrite accept_app, E1. split; [reflexivity|]. cbn [w_live w_open w_since fx next].
    split; [intros f; rewrite P; simpl; rewrite E2; intuition|].
    split; [intros f; rewrite <- SF; auto|].
    split; [intros f; rewrite <- SF; auto|]. split.
    + rewrite <- (firstn_skipn n (fx s)) in E5. rewrite map_app in *. simpl.
      apply NoDup_Add with (a := next s) (l := map a_id (firstn n (fx s)) ++ map a_id (skipn n (fx s))).
      * apply Add_app.
      * split; auto. rewrite <- map_app, firstn_skipn. intros X. apply E6 in X. lia.
    + intros f X. apply P in X as [->|X]; [lia|]. apply E6 in X. lia.
  - destruct (existsb _ _) eqn:X; auto.
    destruct I as (a & E1 & E2 & E3 & E4 & E5 & E6).
    exists (mkAcc (remove f (w_live a)) (w_since a) (remove f (w_open a))). cbn [trace fx next].
    rewrite accept_app, E1. split; [reflexivity|]. cbn [w_live w_open w_since].
    assert (PM : forall g, In g (map a_id (filter (fun a0 => negb (Nat.eqb f (a_id a0))) (fx s)))
                   <-> In g (map a_id (fx s)) /\ g <> f).
    { intros g. rewrite !in_map_iff. split.
      - intros (x & <- & J). apply filter_In in J as [J K]. apply negb_true_iff, Nat.eqb_neq in K.
        split; eauto.
      - intros ((x & <- & J) & N). exists x. split; auto. apply filter_In. split; auto.
        apply negb_true_iff, Nat.eqb_neq. auto. }
    assert (PS : forall g, started (mkSt (filter (fun a0 => negb (Nat.eqb f (a_id a0))) (fx s)) (next s) (handled s)
                                    (trace s ++ [EvTearDown f])) g <-> started s g /\ g <> f).
    { intros g. unfold started; simpl. split.
      - intros (x & J & <- & K). apply filter_In in J as [J L]. apply negb_true_iff, Nat.eqb_neq in L.
        split; eauto.
      - intros ((x & J & <- & K) & N). exists x. split; auto. apply filter_In. split; auto.
        apply negb_true_iff, Nat.eqb_neq. auto. }
    split; [intros g; rewrite remove_In, PM, E2; tauto|].
    split; [intros g; rewrite remove_In, PS, E3; tauto|].
    split; [intros g J B; apply PS in J; apply E4; tauto|].
    split; [|intros g J; apply PM in J; apply E6; tauto].
    clear - E5. induction (fx s) as [|x l IH]; simpl in *; [constructor|].
    inversion E5; subst. destruct (negb _); simpl; auto. constructor; auto.
    intros J. apply H1. apply in_map_iff in J as (y & <- & J). apply filter_In in J as [J _].
    apply in_map. auto.
  - eapply inv_same_flags with (g := add_start c); [reflexivity|..]; auto.
  - eapply inv_same_flags with (g := add_end c); [reflexivity|..]; auto.
Qed.

Lemma pres_do_fops b l : pres b (do_fops l).
Proof.
  intros s. unfold do_fops; simpl. revert s. induction l as [|o l IH]; intros s I; simpl; auto.
  apply IH. apply pres_do_fop, I.
Qed.

Lemma find_In f s a : find_fx f s = Some a -> In a (fx s) /\ a_id a = f.
Proof.
  unfold find_fx. intros H. apply find_some in H as [A B]. apply Nat.eqb_eq in B. auto.
Qed.

Lemma find_None f s : find_fx f s = None -> ~ In f (map a_id (fx s)).
Proof.
  unfold find_fx. intros H I. apply in_map_iff in I as (a & E & I).
  eapply find_none in H; eauto. simpl in H. rewrite E, Nat.eqb_refl in H. discriminate.
Qed.

Lemma unique_id s a a' : NoDup (map a_id (fx s)) -> In a (fx s) -> In a' (fx s) -> a_id a = a_id a' -> a = a'.
Proof.
  intros N I J E. induction (fx s) as [|x l IH]; simpl in *; [contradiction|].
  inversion N; subst.
  destruct I as [->|I], J as [->|J]; auto.
  - exfalso. apply H1. rewrite E. apply in_map; auto.
  - exfalso. apply H1. rewrite <- E. apply in_map; auto.
Qed.

Lemma started_set b f s s' : fx s' = upd_fx f (set_started b) (fx s) -> forall g,
  started s' g <-> (if Nat.eqb f g then b = true /\ In f (map a_id (fx s)) else started s g).
Proof.
  intros E g. unfold started. rewrite E. split.
  - intros (a & I & <- & K). apply In_upd in I as (a0 & I & ->).
    destruct (Nat.eqb_spec f (a_id a0)) as [->|N].
    + simpl in *. rewrite Nat.eqb_refl. split; auto. apply in_map; auto.
    + destruct (Nat.eqb_spec f (a_id a0)); [congruence|]. eauto.
  - destruct (Nat.eqb_spec f g) as [->|N].
    + intros (-> & I). apply in_map_iff in I as (a & <- & I).
      exists (set_started true a). simpl. split; auto. apply In_upd. exists a. rewrite Nat.eqb_refl. auto.
    + intros (a & I & J & K). exists a. split; auto. apply In_upd. exists a. split; auto.
      destruct (Nat.eqb_spec f (a_id a)); congruence.
Qed.

(** the two halves of a call of test_start/test_end callbacks *)
Lemma inv_mark_start b f s a : inv b s -> find_fx f s = Some a -> a_started a = false ->
  inv b (mkSt (upd_fx f (set_started true) (fx s)) (next s) (handled s) (trace s ++ [EvStart f])).
Proof.
  intros (w & E1 & E2 & E3 & E4 & E5 & E6) F NS.
  apply find_In in F as [I <-].
  assert (NO : ~ In (a_id a) (w_open w)).
  { intros J. apply E3 in J as (a' & J & K & L). replace a' with a in L; [congruence|].
    eapply unique_id; eauto. }
  set (s' := mkSt _ _ _ _).
  assert (SS : forall g, started s' g <-> (if Nat.eqb (a_id a) g then true = true /\ In (a_id a) (map a_id (fx s)) else started s g)).
  { intros g. apply (started_set true (a_id a) s s'). reflexivity. }
  exists (mkAcc (w_live w) (a_id a :: w_since w) (a_id a :: w_open w)). unfold s' at 1. cbn [trace].
  rewrite accept_app, E1. simpl accept. destruct (mem (a_id a) (w_open w)) eqn:M; [apply mem_In in M; contradiction|].
  split; [reflexivity|]. cbn [w_live w_open w_since]. unfold s' at 1 4 5 6. cbn [fx next].
  rewrite (map_upd (a_id a)) by auto. split; auto.
  split; [|split; [|split; auto]].
  - intros g. rewrite SS. simpl. destruct (Nat.eqb_spec (a_id a) g) as [E|N].
    + split; auto. intros _. split; auto. apply in_map_iff. exists a. auto.
    + rewrite <- E3. intuition.
  - intros g J B. apply SS in J. simpl. destruct (Nat.eqb_spec (a_id a) g) as [->|N]; auto.
Qed.

Lemma inv_mark_end b f s : inv b s ->
  inv b (mkSt (upd_fx f (set_started false) (fx s)) (next s) (handled s) (trace s ++ [EvEnd f])).
Proof.
  intros (w & E1 & E2 & E3 & E4 & E5 & E6).
  set (s' := mkSt _ _ _ _).
  assert (SS : forall g, started s' g <-> (if Nat.eqb f g then false = true /\ In f (map a_id (fx s)) else started s g)).
  { intros g. apply (started_set false f s s'). reflexivity. }
  exists (mkAcc (w_live w) (w_since w) (remove f (w_open w))). unfold s' at 1. cbn [trace].
  rewrite accept_app, E1. split; [reflexivity|]. cbn [w_live w_open w_since]. unfold s' at 1 4 5 6. cbn [fx next].
  rewrite (map_upd f) by auto. split; auto.
  split; [|split; [|split; auto]].
  - intros g. rewrite SS, remove_In, E3. destruct (Nat.eqb_spec f g) as [->|N]; intuition; try discriminate; congruence.
  - intros g J B. apply SS in J. destruct (Nat.eqb_spec f g); [destruct J; discriminate|]. auto.
Qed.

Lemma pres_call_test_start b f : pres b (call_test_start f).
Proof.
  intros s I. unfold call_test_start. destruct (find_fx f s) as [a|] eqn:F; auto.
  destruct (a_started a) eqn:NS; auto.
  unfold seq, put_started, emit. cbn [fst fx next handled trace].
  apply pres_ext; [apply ext_handling, ext_call_all; intros; exact Logic.I|].
  eapply inv_mark_start; eauto.
Qed.

Lemma pres_call_test_end b f : pres b (call_test_end f).
Proof.
  intros s I. unfold call_test_end. destruct (find_fx f s) as [a|] eqn:F; auto.
  unfold seq, put_started, emit. cbn [fst fx next handled trace].
  apply pres_ext; [apply ext_handling, ext_call_all; intros; exact Logic.I|].
  apply inv_mark_end; auto.
Qed.

Lemma pres_for_each b l body : (forall f, pres b (body f)) -> pres b (for_each l body).
Proof. intros H. induction l as [|f l IH]; simpl; [intros s I; auto|]. apply pres_seq; auto. Qed.

Lemma pres_start_all b : pres b start_all.
Proof. intros s I. unfold start_all. apply pres_for_each; auto. apply pres_call_test_start. Qed.

Lemma pres_end_all b : pres b end_all.
Proof.
  intros s I. unfold end_all. apply pres_for_each; auto. intros f. apply pres_handling, pres_call_test_end.
Qed.

Lemma pres_outcome b r : pres b (outcome r).
Proof. apply pres_ext, ext_outcome. Qed.

Lemma pres_ok b : pres b ok.
Proof. intros s I. auto. Qed.

Lemma pres_emit b e : neutral e -> pres b (emit e).
Proof. intros N. apply pres_ext, ext_emit, N. Qed.

(** the call of the function itself, when the acceptor is not strict *)
Lemma pres_method : pres false (emit EvMethod).
Proof.
  intros s (w & E). exists w. simpl. rewrite accept_app. destruct E as (E1 & E). rewrite E1. auto.
Qed.

Lemma pres_cwf b ev f st en : pres b (emit ev) -> pres b (call_with_fixtures ev f st en).
Proof.
  intros H. unfold call_with_fixtures.
  apply pres_seq; [apply pres_do_fops|]. apply pres_seq; [apply pres_outcome|].
  apply pres_try.
  - apply pres_seq; [destruct st; [apply pres_start_all|apply pres_ok]|].
    apply pres_seq; auto. apply pres_seq; [apply pres_do_fops|apply pres_outcome].
  - destruct en; [apply pres_end_all|apply pres_ok].
Qed.

Lemma pres_run t : pres false (run t).
Proof.
  destruct t as [f g|bf m g af]; simpl.
  - apply pres_seq; [apply pres_cwf, pres_method|apply pres_outcome].
  - apply pres_seq; [apply pres_cwf, pres_emit; exact I|].
    apply pres_try; apply pres_handling.
    + apply pres_seq; [apply pres_cwf, pres_method|apply pres_outcome].
    + apply pres_cwf, pres_emit; exact I.
Qed.

Lemma inv0 b : inv b st0.
Proof.
  exists acc0. split; [reflexivity|]. split; [simpl; tauto|]. split; [|split; [|split]].
  - intros f. split; [intros []|intros (a & [] & _)].
  - intros f (a & [] & _).
  - constructor.
  - intros f [].
Qed.

Lemma inv_begin s : inv false s -> inv false (fst (emit EvBegin s)).
Proof.
  intros (w & E1 & E2 & E3 & E4 & E). exists (mkAcc (w_live w) [] (w_open w)). simpl.
  rewrite accept_app, E1. split; [reflexivity|]. simpl. split; auto. split; auto.
  split; auto. intros f _ B. discriminate.
Qed.

Lemma inv_run_tests l : inv false (run_tests l).
Proof.
  unfold run_tests. generalize (inv0 false). generalize st0. induction l as [|[o t] l IH]; intros s I; simpl; auto.
  apply IH. unfold run_one. apply pres_run, inv_begin, pres_do_fops, I.
Qed.

(** ** test_start callbacks are not called twice without the test_end callbacks in
    between (a torn down fixture never starts again). *)
Lemma open_stays b f l : forall a a', accept b a l = Some a' -> In f (w_open a) ->
  ~ In (EvEnd f) l -> ~ In (EvTearDown f) l -> In f (w_open a').
Proof.
  induction l as [|e l IH]; intros a a' H I N N'; simpl in H.
  - inversion H; subst; auto.
  - destruct (step b a e) as [a1|] eqn:S1; [|discriminate].
    apply (IH a1 a' H); [|intros X; apply N; right; auto|intros X; apply N'; right; auto].
    destruct e; simpl in S1;
      repeat match type of S1 with (if ?c then _ else _) = _ => destruct c; [discriminate S1|] end;
      inversion S1; subst; simpl; auto.
    + apply remove_In. split; auto. intros ->. apply N'. left; auto.
    + apply remove_In. split; auto. intros ->. apply N. left; auto.
Qed.

Lemma accept_prefix b a l1 l2 a' : accept b a (l1 ++ l2) = Some a' ->
  exists a1, accept b a l1 = Some a1 /\ accept b a1 l2 = Some a'.
Proof. rewrite accept_app. destruct (accept b a l1) as [a1|]; [eauto|discriminate]. Qed.

Theorem C70_alternate tests f l1 l2 l3 :
  trace (run_tests tests) = l1 ++ EvStart f :: l2 ++ EvStart f :: l3 ->
  In (EvEnd f) l2 \/ In (EvTearDown f) l2.
Proof.
  intros E. destruct (inv_run_tests tests) as (w & A & _). rewrite E in A.
  apply accept_prefix in A as (a1 & _ & A). simpl in A.
  destruct (mem f (w_open a1)); [discriminate|].
  apply accept_prefix in A as (a2 & A2 & A). simpl in A.
  destruct (mem f (w_open a2)) eqn:M; [discriminate|].
  destruct (in_dec (fun x y : event => ltac:(repeat decide equality)) (EvEnd f) l2) as [|N]; auto.
  destruct (in_dec (fun x y : event => ltac:(repeat decide equality)) (EvTearDown f) l2) as [|N']; auto.
  exfalso. apply (open_stays _ f _ _ _ A2) in N; auto; [|left; auto].
  apply mem_In in N. congruence.
Qed.

(** * Every test starts and ends every active fixture

    True unless a test_end callback raises something else than an ordinary exception,
    or the fixtures of an after method cannot be computed. *)
Definition mild (c : callback) : Prop :=
  match c with Some x => x_kind x = KError | None => True end.

Definition mild_fop (o : fop) : Prop :=
  match o with
  | FSetUp _ _ es => Forall mild es
  | FAddEnd _ c => mild c
  | _ => True
  end.

Definition mild_func (f : func) : Prop := Forall mild_fop (f_prep f) /\ Forall mild_fop (f_ops f).

Definition mild_test (t : test) : Prop :=
  match t with
  | TFunc f _ => mild_func f
  | TClass b m _ a => mild_func b /\ mild_func m /\ mild_func a /\ f_prep_out a = None
  end.

Definition mild_tests (l : list (list fop * test)) : Prop :=
  Forall (fun p => Forall mild_fop (fst p) /\ mild_test (snd p)) l.

Definition mild_st (s : st) : Prop := Forall (fun a => Forall mild (a_ends a)) (fx s).

(** a state reached by mild code *)
Definition minv (s : st) : Prop := inv true s /\ mild_st s.
Definition mpres (m : M) := forall s, minv s -> minv (fst (m s)).

Lemma mild_fx s s' : mild_st s -> fx s' = fx s -> mild_st s'.
Proof. unfold mild_st. intros H ->. auto. Qed.

Lemma mild_upd s s' f g : mild_st s -> fx s' = upd_fx f g (fx s) -> (forall a, Forall mild (a_ends a) -> Forall mild (a_ends (g a))) -> mild_st s'.
Proof.
  unfold mild_st. intros H -> G. apply Forall_forall. intros a I. apply In_upd in I as (a0 & I & ->).
  rewrite Forall_forall in H. specialize (H a0 I). destruct (Nat.eqb f (a_id a0)); auto.
Qed.

Lemma mpres_ext m : extm m -> mpres m.
Proof.
  intros H s [I J]. split; [apply pres_ext; auto|]. eapply mild_fx; eauto. apply H.
Qed.

Lemma mpres_seq m1 m2 : mpres m1 -> mpres m2 -> mpres (seq m1 m2).
Proof.
  intros A B s I. unfold seq. specialize (A s I). destruct (m1 s) as [s1 [x|]]; simpl in *; auto.
Qed.

Lemma mpres_try m1 m2 : mpres m1 -> mpres m2 -> mpres (try_finally m1 m2).
Proof.
  intros A B s I. unfold try_finally. specialize (A s I). destruct (m1 s) as [s1 r]; simpl in *.
  specialize (B s1 A). destruct (m2 s1) as [s2 [x|]]; simpl in *; auto.
Qed.

Lemma minv_ext s s' : ext s s' -> minv s -> minv s'.
Proof. intros E [I J]. split; [eapply inv_ext; eauto|]. eapply mild_fx; eauto. apply E. Qed.

Lemma mpres_handling sw m : mpres m -> mpres (handling sw m).
Proof.
  intros H s I. unfold handling. specialize (H s I). destruct (m s) as [s1 [x|]]; simpl in *; auto.
  eapply minv_ext; [apply ext_handle|auto].
Qed.

Lemma mpres_do_fop o s : mild_fop o -> minv s -> minv (do_fop o s).
Proof.
  intros MO [I J]. split; [apply pres_do_fop; auto|]. destruct o as [n b e|f|f c|f c]; simpl in *.
  - unfold mild_st in *. simpl. rewrite <- (firstn_skipn n (fx s)), Forall_app in J. destruct J as [J K].
    apply Forall_app. split; auto.
  - destruct (existsb _ _); auto. unfold mild_st in *. simpl. apply Forall_forall. intros a X.
    apply filter_In in X as [X _]. rewrite Forall_forall in J. auto.
  - eapply mild_upd; [exact J|reflexivity|]. auto.
  - eapply mild_upd; [exact J|reflexivity|]. simpl. intros a X. apply Forall_app. auto.
Qed.

Lemma mpres_do_fops l : Forall mild_fop l -> mpres (do_fops l).
Proof.
  intros H s. unfold do_fops; simpl. revert s. induction H as [|o l MO H IH]; intros s I; simpl; auto.
  apply IH, mpres_do_fop; auto.
Qed.

Lemma mpres_call_test_start f : mpres (call_test_start f).
Proof.
  intros s [I J]. split; [apply pres_call_test_start, I|].
  unfold call_test_start. destruct (find_fx f s) as [a|] eqn:F; auto.
  destruct (a_started a) eqn:NS; auto.
  unfold seq, put_started, emit. cbn [fst fx next handled trace].
  eapply mild_fx; [|apply ext_handling, ext_call_all; intros; exact Logic.I].
  eapply mild_upd; [exact J|reflexivity|]. auto.
Qed.

Lemma mpres_call_test_end f : mpres (call_test_end f).
Proof.
  intros s [I J]. split; [apply pres_call_test_end, I|].
  unfold call_test_end. destruct (find_fx f s) as [a|] eqn:F; auto.
  unfold seq, put_started, emit. cbn [fst fx next handled trace].
  eapply mild_fx; [|apply ext_handling, ext_call_all; intros; exact Logic.I].
  eapply mild_upd; [exact J|reflexivity|]. auto.
Qed.

Lemma mpres_for_each l body : (forall f, mpres (body f)) -> mpres (for_each l body).
Proof. intros H. induction l as [|f l IH]; simpl; [intros s I; auto|]. apply mpres_seq; auto. Qed.

Lemma mpres_start_all : mpres start_all.
Proof. intros s I. unfold start_all. apply mpres_for_each; auto. apply mpres_call_test_start. Qed.

Lemma mpres_end_all : mpres end_all.
Proof.
  intros s I. unfold end_all. apply mpres_for_each; auto. intros f. apply mpres_handling, mpres_call_test_end.
Qed.

Lemma mpres_outcome r : mpres (outcome r).
Proof. apply mpres_ext, ext_outcome. Qed.

Lemma mpres_ok : mpres ok.
Proof. intros s I. auto. Qed.

(** effect of start_all on the flags *)
Lemma call_test_start_fx f s :
  map a_id (fx (fst (call_test_start f s))) = map a_id (fx s)
  /\ (forall g, started s g -> started (fst (call_test_start f s)) g)
  /\ (In f (map a_id (fx s)) -> started (fst (call_test_start f s)) f).
Proof.
  unfold call_test_start. destruct (find_fx f s) as [a|] eqn:F.
  - destruct (a_started a) eqn:NS.
    + simpl. split; auto. split; auto. intros _. apply find_In in F as [I <-]. exists a; auto.
    + unfold seq, put_started, emit. cbn [fst fx next handled trace].
      set (s1 := mkSt _ _ _ _).
      destruct (ext_handling false _ (ext_call_all (EvStartCall f) (a_starts a) (fun _ => Logic.I) 0) s1) as [X _].
      assert (ES : forall g, started (fst (handling false (call_all (EvStartCall f) 0 (a_starts a)) s1)) g <-> started s1 g)
        by (intros g; unfold started; rewrite X; tauto).
      assert (SS := started_set true f s s1 eq_refl).
      rewrite X. split; [unfold s1; simpl; apply map_upd; auto|]. split.
      * intros g G. apply ES, SS. destruct (Nat.eqb_spec f g) as [<-|N]; auto. split; auto.
        destruct G as (b & I & <- & _). apply in_map; auto.
      * intros I. apply ES, SS. rewrite Nat.eqb_refl. auto.
  - apply find_None in F. simpl. tauto.
Qed.

Lemma for_each_start l : forall s,
  map a_id (fx (fst (for_each l call_test_start s))) = map a_id (fx s)
  /\ (forall g, started s g -> started (fst (for_each l call_test_start s)) g)
  /\ (snd (for_each l call_test_start s) = None ->
      forall f, In f l -> In f (map a_id (fx s)) -> started (fst (for_each l call_test_start s)) f).
Proof.
  induction l as [|f l IH]; intros s; simpl; [split; auto; split; auto; tauto|].
  unfold seq. destruct (call_test_start_fx f s) as (A & B & C).
  destruct (call_test_start f s) as [s1 [x|]]; simpl in *.
  - split; auto. split; auto. discriminate.
  - destruct (IH s1) as (D & E & F). split; [congruence|]. split; auto.
    intros H g [<-|I] J; [apply E, C, J|]. apply F; auto. rewrite A. auto.
Qed.

Lemma start_all_all s : snd (start_all s) = None ->
  forall f, In f (map a_id (fx (fst (start_all s)))) -> started (fst (start_all s)) f.
Proof.
  unfold start_all. destruct (for_each_start (map a_id (fx s)) s) as (A & B & C). rewrite A.
  intros H f I. apply C; auto.
Qed.

(** effect of end_all: no exception leaves it, and nothing is started afterwards *)
Lemma call_all_mild ev l : Forall mild l -> forall k s,
  mild (snd (call_all ev k l s)).
Proof.
  induction 1 as [|c l C H IH]; intros k s; simpl; auto.
  unfold seq, emit, outcome. destruct c as [x|]; simpl in *; [exact C|apply IH].
Qed.

Lemma call_test_end_fx f s : mild_st s ->
  snd (handling true (call_test_end f) s) = None
  /\ map a_id (fx (fst (handling true (call_test_end f) s))) = map a_id (fx s)
  /\ (forall g, started (fst (handling true (call_test_end f) s)) g -> started s g /\ g <> f).
Proof.
  intros MS.
  assert (HE : handling true (call_test_end f) s =
    match call_test_end f s with
    | (s1, None) => (s1, None)
    | (s1, Some x) => (handle x s1, match x_kind x with KSkip | KInterrupt => Some x | KError => None | KExit => Some x end)
    end) by reflexivity.
  rewrite HE. clear HE. unfold call_test_end.
  destruct (find_fx f s) as [a|] eqn:F.
  - unfold seq, put_started, emit. cbn [fst fx next handled trace].
    set (s1 := mkSt _ _ _ _).
    destruct (ext_handling false _ (ext_call_all (EvEndCall f) (a_ends a) (fun _ => Logic.I) 0) s1) as [X _].
    assert (SS := started_set false f s s1 eq_refl).
    assert (MC : mild (snd (handling false (call_all (EvEndCall f) 0 (a_ends a)) s1))).
    { unfold handling. assert (H := call_all_mild (EvEndCall f) (a_ends a)).
      apply find_In in F as [I _]. unfold mild_st in MS. rewrite Forall_forall in MS. specialize (H (MS a I) 0 s1).
      destruct (call_all (EvEndCall f) 0 (a_ends a) s1) as [s2 [x|]]; simpl in *; auto.
      rewrite H. simpl. auto. }
    destruct (handling false (call_all (EvEndCall f) 0 (a_ends a)) s1) as [s2 r] eqn:R. rewrite ?R in X; rewrite ?R in MC. simpl in X, MC.
    assert (X' : fx (match r with Some x => handle x s2 | None => s2 end) = fx s1).
    { destruct r as [x|]; auto. destruct (ext_handle x s2) as [Y _]. rewrite Y, X. reflexivity. }
    assert (ES : forall g, started (match r with Some x => handle x s2 | None => s2 end) g -> started s g /\ g <> f).
    { intros g G. assert (G1 : started s1 g) by (unfold started in *; rewrite X' in G; auto).
      apply SS in G1. destruct (Nat.eqb_spec f g) as [<-|N]; [destruct G1; discriminate|]. split; auto. }
    assert (EM : map a_id (fx (match r with Some x => handle x s2 | None => s2 end)) = map a_id (fx s)).
    { rewrite X'. unfold s1. simpl. apply map_upd; auto. }
    destruct r as [x|]; simpl in *.
    + rewrite MC. auto.
    + auto.
  - simpl. split; auto. split; auto. intros g G. split; auto. intros ->. apply find_None in F. apply F.
    destruct G as (a & I & <- & _). apply in_map; auto.
Qed.

Lemma for_each_end l : forall s, mild_st s ->
  snd (for_each l (fun f => handling true (call_test_end f)) s) = None
  /\ (forall g, started (fst (for_each l (fun f => handling true (call_test_end f)) s)) g -> started s g /\ ~ In g l).
Proof.
  induction l as [|f l IH]; intros s MS; simpl; [auto|].
  unfold seq. destruct (call_test_end_fx f s MS) as (A & B & C).
  assert (MS' : mild_st (fst (handling true (call_test_end f) s))).
  { unfold mild_st. clear - MS B. unfold handling, call_test_end. destruct (find_fx f s) as [a|]; auto.
    unfold seq, put_started, emit. cbn [fst fx next handled trace].
    set (s1 := mkSt _ _ _ _).
    destruct (ext_handling false _ (ext_call_all (EvEndCall f) (a_ends a) (fun _ => Logic.I) 0) s1) as [X _].
    assert (M1 : mild_st s1) by (eapply mild_upd; [exact MS|reflexivity|]; auto).
    destruct (handling false (call_all (EvEndCall f) 0 (a_ends a)) s1) as [s2 [x|]]; simpl in *; rewrite ?X.
    - destruct (ext_handle x s2) as [Y _]. rewrite Y, X. exact M1.
    - exact M1. }
  destruct (handling true (call_test_end f) s) as [s1 r]; simpl in *. subst r.
  destruct (IH s1 MS') as (D & E). split; auto. intros g G. apply E in G as [G N].
  apply C in G as [G N']. split; auto. intros [->|I]; auto.
Qed.

(** no fixture is between start and end *)
Definition clean (s : st) : Prop := forall f, ~ started s f.

Lemma end_all_clean s : mild_st s -> snd (end_all s) = None /\ clean (fst (end_all s)).
Proof.
  intros MS. unfold end_all. destruct (for_each_end (map a_id (fx s)) s MS) as [A B]. split; auto.
  intros f G. apply B in G as [(a & I & <- & _) N]. apply N, in_map, I.
Qed.

(** the function is called when every active fixture was started in this test *)
Lemma minv_method s : minv s -> (forall f, In f (map a_id (fx s)) -> started s f) ->
  minv (fst (emit EvMethod s)).
Proof.
  intros [(w & E1 & E2 & E3 & E4 & E5) J] H. split; [|exact J].
  exists w. simpl. rewrite accept_app, E1. split; [|auto]. simpl.
  replace (forallb _ _) with true; auto. symmetry. apply forallb_forall. intros f I.
  apply mem_In, E4; auto. apply H, E2, I.
Qed.

Lemma minv_start_method f : mild_func f ->
  mpres (seq start_all (seq (emit EvMethod) (seq (do_fops (f_ops f)) (outcome (f_out f))))).
Proof.
  intros [_ MF] s I. unfold seq at 1. assert (H := mpres_start_all s I). assert (K := start_all_all s).
  destruct (start_all s) as [s1 [x|]]; simpl in *; auto.
  assert (L := minv_method s1 H (K eq_refl)).
  change (minv (fst (seq (do_fops (f_ops f)) (outcome (f_out f)) (fst (emit EvMethod s1))))).
  apply mpres_seq; [apply mpres_do_fops, MF|apply mpres_outcome|exact L].
Qed.

Lemma mpres_method f en : mild_func f -> mpres (call_with_fixtures EvMethod f true en).
Proof.
  intros MF. unfold call_with_fixtures.
  apply mpres_seq; [apply mpres_do_fops, MF|]. apply mpres_seq; [apply mpres_outcome|].
  apply mpres_try; [apply minv_start_method, MF|].
  destruct en; [apply mpres_end_all|apply mpres_ok].
Qed.

Lemma mpres_other ev f en : neutral ev -> mild_func f -> mpres (call_with_fixtures ev f false en).
Proof.
  intros N MF. unfold call_with_fixtures.
  apply mpres_seq; [apply mpres_do_fops, MF|]. apply mpres_seq; [apply mpres_outcome|].
  apply mpres_try.
  - apply mpres_seq; [apply mpres_ok|]. apply mpres_seq; [apply mpres_ext, ext_emit, N|].
    apply mpres_seq; [apply mpres_do_fops, MF|apply mpres_outcome].
  - destruct en; [apply mpres_end_all|apply mpres_ok].
Qed.

Lemma mpres_run t : mild_test t -> mpres (run t).
Proof.
  destruct t as [f g|bf m g af]; simpl; intros MT.
  - apply mpres_seq; [apply mpres_method, MT|apply mpres_outcome].
  - destruct MT as (A & B & C & _).
    apply mpres_seq; [apply mpres_other; [exact I|auto]|].
    apply mpres_try; apply mpres_handling.
    + apply mpres_seq; [apply mpres_method; auto|apply mpres_outcome].
    + apply mpres_other; [exact I|auto].
Qed.

(** do_fops and events alone start nothing *)
Lemma clean_ext s s' : ext s s' -> clean s -> clean s'.
Proof. intros (A & _) C f S. apply (C f). unfold started in *. rewrite A in S. auto. Qed.

Lemma clean_do_fop o s : clean s -> clean (do_fop o s).
Proof.
  intros C f (a & I & E & F). apply (C f). unfold started. destruct o as [n b e|g|g c|g c]; simpl in *.
  - apply in_app_or in I as [I|[<-|I]]; [|discriminate F|].
    + exists a. split; auto. rewrite <- (firstn_skipn n (fx s)). apply in_or_app; auto.
    + exists a. split; auto. rewrite <- (firstn_skipn n (fx s)). apply in_or_app; auto.
  - destruct (existsb _ _); [apply filter_In in I as [I _]|]; eauto.
  - apply In_upd in I as (a0 & I & ->). exists a0. split; auto. destruct (Nat.eqb g (a_id a0)); auto.
  - apply In_upd in I as (a0 & I & ->). exists a0. split; auto. destruct (Nat.eqb g (a_id a0)); auto.
Qed.

Lemma clean_do_fops l s : clean s -> clean (fst (do_fops l s)).
Proof.
  unfold do_fops; simpl. revert s. induction l as [|o l IH]; intros s C; simpl; auto.
  apply IH, clean_do_fop, C.
Qed.

(** call_with_fixtures with trigger_test_end leaves a clean state, if its arguments
    can be computed or the state was clean *)
Lemma clean_cwf ev f sta s : minv s -> mild_func f ->
  pres true (emit ev) \/ ev = EvMethod /\ sta = true ->
  clean s \/ f_prep_out f = None ->
  clean (fst (call_with_fixtures ev f sta true s)).
Proof.
  intros I MF PE H. unfold call_with_fixtures, seq at 1.
  assert (C := clean_do_fops (f_prep f) s).
  assert (I1 := mpres_do_fops (f_prep f) (proj1 MF) s I).
  assert (N : snd (do_fops (f_prep f) s) = None) by reflexivity.
  destruct (do_fops (f_prep f) s) as [s1 r]. simpl in *. subst r.
  unfold seq at 1. unfold outcome at 1. destruct (f_prep_out f) as [x|] eqn:P.
  - simpl. destruct H as [H|H]; [auto|discriminate].
  - unfold try_finally.
    set (body := seq _ _).
    assert (MB : mild_st (fst (body s1))).
    { destruct PE as [PE|[-> ->]].
      - assert (mpres (emit ev)) by (intros s' [A B]; split; [apply PE; auto|exact B]).
        assert (mpres body).
        { unfold body. apply mpres_seq; [destruct sta; [apply mpres_start_all|apply mpres_ok]|].
          apply mpres_seq; auto. apply mpres_seq; [apply mpres_do_fops, MF|apply mpres_outcome]. }
        apply H1, I1.
      - unfold body. apply minv_start_method; auto. }
    destruct (body s1) as [s2 r]. simpl in MB.
    destruct (end_all_clean s2 MB) as [_ CE].
    destruct (end_all s2) as [s3 [x|]]; auto.
Qed.

Lemma clean_before bf s : clean s -> clean (fst (call_with_fixtures EvBefore bf false false s)).
Proof.
  intros C. unfold call_with_fixtures, seq at 1.
  assert (C1 := clean_do_fops (f_prep bf) s C).
  destruct (do_fops (f_prep bf) s) as [s1 [x|]]; auto. simpl in C1.
  unfold seq at 1, outcome at 1. destruct (f_prep_out bf); auto.
  unfold try_finally, ok, seq, emit, outcome.
  assert (C2 := clean_do_fops (f_ops bf) (mkSt (fx s1) (next s1) (handled s1) (trace s1 ++ [EvBefore]))
                  (clean_ext s1 _ (ext_emit EvBefore I s1) C1)).
  destruct (do_fops (f_ops bf) _) as [s2 [x|]]; auto.
Qed.

Lemma clean_run t s : minv s -> clean s -> mild_test t -> clean (fst (run t s)).
Proof.
  intros I C MT. destruct t as [f g|bf m g af]; simpl in *.
  - unfold seq. assert (X := clean_cwf EvMethod f true s I MT (or_intror (conj eq_refl eq_refl)) (or_introl C)).
    destruct (call_with_fixtures EvMethod f true true s) as [s1 [x|]]; auto.
  - destruct MT as (A & B & D & E).
    unfold seq at 1. assert (X := clean_before bf s C).
    assert (I1 := mpres_other EvBefore bf false Logic.I A s I).
    destruct (call_with_fixtures EvBefore bf false false s) as [s1 [x|]]; auto. simpl in *.
    unfold try_finally.
    assert (I2 : mpres (handling false (seq (call_with_fixtures EvMethod m true false) (outcome g)))).
    { apply mpres_handling, mpres_seq; [apply mpres_method, B|apply mpres_outcome]. }
    specialize (I2 s1 I1).
    destruct (handling false (seq (call_with_fixtures EvMethod m true false) (outcome g)) s1) as [s2 r].
    simpl in I2.
    assert (PE : pres true (emit EvAfter)) by (apply pres_emit; exact Logic.I).
    assert (X2 := clean_cwf EvAfter af false s2 I2 D (or_introl PE) (or_intror E)).
    unfold handling at 1. destruct (call_with_fixtures EvAfter af false true s2) as [s3 [x|]]; simpl in *; auto.
    assert (X3 := clean_ext _ _ (ext_handle x s3) X2).
    destruct (x_kind x); auto.
Qed.

Lemma minv_begin s : minv s -> clean s -> minv (fst (emit EvBegin s)).
Proof.
  intros [(w & E1 & E2 & E3 & E4 & E) J] C. split; [|exact J].
  exists (mkAcc (w_live w) [] (w_open w)). simpl.
  rewrite accept_app, E1. split.
  - simpl. destruct (w_open w) as [|f o] eqn:W; auto. exfalso. apply (C f), E3. left; auto.
  - simpl. split; auto. split; auto. split; auto. intros f S. exfalso. exact (C f S).
Qed.

Lemma run_tests_clean l : mild_tests l -> minv (run_tests l) /\ clean (run_tests l).
Proof.
  unfold run_tests. intros H.
  assert (I : minv st0) by (split; [apply inv0|constructor]).
  assert (C : clean st0) by (intros f (a & [] & _)).
  revert I C. generalize st0. induction H as [|[o t] l [A B] H IH]; intros s I C; simpl; auto.
  simpl in A, B.
  assert (I1 := mpres_do_fops o A s I). assert (C1 := clean_do_fops o s C).
  assert (I2 := minv_begin _ I1 C1).
  assert (C2 : clean (fst (emit EvBegin (fst (do_fops o s))))).
  { intros f S. apply (C1 f). exact S. }
  apply IH; unfold run_one; simpl fst; simpl snd.
  - apply mpres_run; auto.
  - apply clean_run; auto.
Qed.

(** ** When the function of a test is called, every active fixture has been told
    that the test starts, in this very test. *)
Lemma live_grows b f l : forall a a', accept b a l = Some a' ->
  In (EvSetUp f) l \/ In f (w_live a) -> ~ In (EvTearDown f) l -> In f (w_live a').
Proof.
  induction l as [|e l IH]; intros a a' H I N; simpl in H.
  - inversion H; subst. destruct I as [[]|I]; auto.
  - destruct (step b a e) as [a1|] eqn:S1; [|discriminate].
    apply (IH a1 a' H); [|intros X; apply N; right; auto].
    destruct I as [[->|I]|I]; auto.
    + inversion S1; subst. right. simpl. auto.
    + right. destruct e; simpl in S1;
      repeat match type of S1 with (if ?c then _ else _) = _ => destruct c; [discriminate S1|] end;
      inversion S1; subst; simpl; auto.
      apply remove_In. split; auto. intros ->. apply N. left; auto.
Qed.

Lemma since_events f l : forall a a', accept true a l = Some a' -> In f (w_since a') ->
  In (EvStart f) l \/ In f (w_since a).
Proof.
  induction l as [|e l IH]; intros a a' H I; simpl in H.
  - inversion H; subst; auto.
  - destruct (step true a e) as [a1|] eqn:S1; [|discriminate].
    destruct (IH a1 a' H I) as [J|J]; [left; right; auto|].
    destruct e; simpl in S1;
      repeat match type of S1 with (if ?c then _ else _) = _ => destruct c; [discriminate S1|] end;
      inversion S1; subst; simpl in J; auto; try contradiction.
    destruct J as [->|J]; auto. left. left. auto.
Qed.

Theorem C70_started_partial tests f l0 l1 l2 :
  mild_tests tests ->
  trace (run_tests tests) = l0 ++ EvBegin :: l1 ++ EvMethod :: l2 ->
  In (EvSetUp f) (l0 ++ l1) -> ~ In (EvTearDown f) (l0 ++ l1) ->
  In (EvStart f) l1.
Proof.
  intros MT E SU TD. destruct (run_tests_clean _ MT) as [[(w & A & _) _] _]. rewrite E in A.
  apply accept_prefix in A as (a1 & A1 & A). cbn [accept] in A.
  destruct (step true a1 EvBegin) as [a2|] eqn:S2; [|discriminate].
  assert (L2 : w_since a2 = [] /\ w_live a2 = w_live a1).
  { simpl in S2. destruct (negb _); inversion S2; auto. }
  apply accept_prefix in A as (a3 & A3 & A). cbn [accept] in A.
  destruct (step true a3 EvMethod) as [a4|] eqn:S4; [|discriminate].
  simpl in S4. destruct (forallb (fun f0 => mem f0 (w_since a3)) (w_live a3)) eqn:F; [|discriminate].
  rewrite forallb_forall in F.
  assert (TD1 : ~ In (EvTearDown f) l0) by (intros X; apply TD, in_or_app; auto).
  assert (TD2 : ~ In (EvTearDown f) l1) by (intros X; apply TD, in_or_app; auto).
  assert (LV : In f (w_live a3)).
  { apply in_app_or in SU as [SU|SU].
    - apply (live_grows _ f _ _ _ A3); auto. right. rewrite (proj2 L2).
      apply (live_grows _ f _ _ _ A1); auto.
    - apply (live_grows _ f _ _ _ A3); auto. }
  apply F, mem_In in LV. destruct (since_events f _ _ _ A3 LV) as [X|X]; auto.
  rewrite (proj1 L2) in X. destruct X.
Qed.

(** ** A fixture told that a test starts is told that it ends before the next test
    begins, and before the last test is over. *)
Theorem C70_ended_partial tests f l0 l1 l2 :
  mild_tests tests ->
  trace (run_tests tests) ++ [EvBegin] = l0 ++ EvStart f :: l1 ++ EvBegin :: l2 ->
  In (EvEnd f) l1 \/ In (EvTearDown f) l1.
Proof.
  intros MT E. destruct (run_tests_clean _ MT) as [I C].
  destruct (minv_begin _ I C) as [(w & A & _) _]. simpl in A. rewrite E in A.
  apply accept_prefix in A as (a1 & A1 & A). cbn [accept] in A.
  destruct (step true a1 (EvStart f)) as [a2|] eqn:S2; [|discriminate].
  assert (O2 : In f (w_open a2)).
  { simpl in S2. destruct (mem f (w_open a1)); inversion S2. left; auto. }
  apply accept_prefix in A as (a3 & A3 & A). cbn [accept] in A.
  destruct (in_dec (fun x y : event => ltac:(repeat decide equality)) (EvEnd f) l1) as [|N]; auto.
  destruct (in_dec (fun x y : event => ltac:(repeat decide equality)) (EvTearDown f) l1) as [|N']; auto.
  exfalso. assert (O3 := open_stays _ f _ _ _ A3 O2 N N').
  simpl in A. destruct (w_open a3); [destruct O3|discriminate].
Qed.

(** * Counterexamples to the unrestricted statements *)
Definition fn (prep : list fop) (out : option exn) : func := mkFunc prep None [] out.
Definition ordinary (n : nat) : exn := mkExn n KError.

(** a session-scoped fixture with one callback of each kind is set up for a class whose
    after method asks for a fixture that cannot be computed; a function test follows *)
Definition ex_stale : list (list fop * test) :=
  [([FSetUp 0 [None] [None]], TClass (fn [] None) (fn [] None) None (mkFunc [] (Some (ordinary 1)) [] None));
   ([], TFunc (fn [] None) None)].

Theorem C70_started_refuted :
  exists tests f l0 l1 l2,
    trace (run_tests tests) = l0 ++ EvBegin :: l1 ++ EvMethod :: l2
    /\ ~ In EvBegin l1 /\ In (EvSetUp f) l0 /\ ~ In (EvTearDown f) (l0 ++ l1) /\ ~ In (EvStart f) l1.
Proof.
  exists ex_stale, 0,
    [EvSetUp 0; EvBegin; EvBefore; EvStart 0; EvStartCall 0 0; EvMethod; EvRecord (ordinary 1)],
    [], [EvEnd 0; EvEndCall 0 0].
  split; [reflexivity|]. simpl. intuition discriminate.
Qed.

Theorem C70_ended_refuted :
  exists tests f l0 l1 l2,
    trace (run_tests tests) = l0 ++ EvStart f :: l1 ++ EvBegin :: l2
    /\ ~ In (EvEnd f) l1 /\ ~ In (EvTearDown f) l1.
Proof.
  exists ex_stale, 0, [EvSetUp 0; EvBegin; EvBefore],
    [EvStartCall 0 0; EvMethod; EvRecord (ordinary 1)], [EvMethod; EvEnd 0; EvEndCall 0 0].
  split; [reflexivity|]. simpl. intuition discriminate.
Qed.

(** the same happens when the test_end callback of another fixture skips *)
Definition ex_skip : list (list fop * test) :=
  [([FSetUp 0 [] [Some (mkExn 1 KSkip)]; FSetUp 1 [None] [None]], TFunc (fn [] None) None);
   ([], TFunc (fn [] None) None)].

Theorem C70_skip_refuted :
  exists tests f l0 l1 l2,
    trace (run_tests tests) = l0 ++ EvBegin :: l1 ++ EvMethod :: l2
    /\ ~ In EvBegin l1 /\ In (EvSetUp f) l0 /\ ~ In (EvTearDown f) (l0 ++ l1) /\ ~ In (EvStart f) l1.
Proof.
  exists ex_skip, 1,
    [EvSetUp 0; EvSetUp 1; EvBegin; EvStart 0; EvStart 1; EvStartCall 1 0; EvMethod;
     EvEnd 0; EvEndCall 0 0; EvRecord (mkExn 1 KSkip)],
    [EvStart 0], [EvEnd 0; EvEndCall 0 0].
  split; [reflexivity|]. simpl. intuition discriminate.
Qed.

(** test_end callbacks of a fixture that was never told that a test starts: another
    fixture's test_start callback fails *)
Definition ex_unstarted : list (list fop * test) :=
  [([FSetUp 0 [Some (ordinary 1)] []; FSetUp 1 [None] [None]], TFunc (fn [] None) None)].

Theorem C70_end_without_start_refuted :
  exists tests f l0 l1,
    mild_tests tests /\ trace (run_tests tests) = l0 ++ EvEndCall f 0 :: l1 /\ ~ In (EvStart f) l0.
Proof.
  exists ex_unstarted, 1,
    [EvSetUp 0; EvSetUp 1; EvBegin; EvStart 0; EvStartCall 0 0; EvRecord (ordinary 1); EvEnd 0; EvEnd 1], [].
  split.
  - unfold ex_unstarted, mild_tests, mild_test, mild_func. simpl. repeat constructor.
  - split; [reflexivity|]. simpl. intuition discriminate.
Qed.

(** the hypotheses of the positive statements are met by tests that fail in many ways *)
Definition ex_mild : list (list fop * test) :=
  [([FSetUp 0 [None] [Some (ordinary 1)]],
    TClass (fn [FSetUp 0 [None; None] [None]] None) (fn [FSetUp 1 [] []] (Some (mkExn 2 KInterrupt))) None
           (fn [] (Some (ordinary 3))));
   ([FTearDown 1], TFunc (fn [] None) (Some (ordinary 4)))].

Example C70_ex :
  mild_tests ex_mild
  /\ trace (run_tests ex_mild)
     = [EvSetUp 0; EvBegin; EvSetUp 1; EvBefore; EvSetUp 2; EvStart 1; EvStartCall 1 0; EvStartCall 1 1; EvStart 2;
        EvStart 0; EvStartCall 0 0; EvMethod; EvRecord (mkExn 2 KInterrupt); EvAfter;
        EvEnd 1; EvEndCall 1 0; EvEnd 2; EvEnd 0; EvEndCall 0 0; EvRecord (ordinary 1); EvRecord (ordinary 3);
        EvTearDown 1; EvBegin; EvStart 2; EvStart 0; EvStartCall 0 0; EvMethod; EvEnd 2; EvEnd 0; EvEndCall 0 0].
Proof.
  split; [|reflexivity]. unfold ex_mild, mild_tests, mild_test, mild_func. simpl.
  repeat (constructor; try reflexivity).
Qed.

(** * Class tests: before, method, after *)

(** the events a piece of code adds *)
Definition adds (s s' : st) (l : list event) : Prop := trace s' = trace s ++ l.
Definition quiet (P : event -> Prop) (m : M) := forall s, exists l, adds s (fst (m s)) l /\ Forall P l.

(** none of before, method and after is called *)
Definition no_call (e : event) : Prop := e <> EvBefore /\ e <> EvMethod /\ e <> EvAfter.

Lemma quiet_seq P m1 m2 : quiet P m1 -> quiet P m2 -> quiet P (seq m1 m2).
Proof.
  intros A B s. unfold seq. destruct (A s) as (l & E & F). destruct (m1 s) as [s1 [x|]]; simpl in *; eauto.
  destruct (B s1) as (l' & E' & F'). exists (l ++ l'). unfold adds in *. rewrite E', E, app_assoc.
  split; auto. apply Forall_app; auto.
Qed.

Lemma quiet_try P m1 m2 : quiet P m1 -> quiet P m2 -> quiet P (try_finally m1 m2).
Proof.
  intros A B s. unfold try_finally. destruct (A s) as (l & E & F). destruct (m1 s) as [s1 r]; simpl in *.
  destruct (B s1) as (l' & E' & F').
  assert (X : adds s (fst (m2 s1)) (l ++ l') /\ Forall P (l ++ l')).
  { unfold adds in *. rewrite E', E, app_assoc. split; auto. apply Forall_app; auto. }
  destruct (m2 s1) as [s2 [x|]]; simpl in *; eauto.
Qed.

Lemma quiet_handling (P : event -> Prop) b m : (forall x, P (EvRecord x)) -> quiet P m -> quiet P (handling b m).
Proof.
  intros R A s. unfold handling. destruct (A s) as (l & E & F). destruct (m s) as [s1 [x|]]; simpl in *; eauto.
  unfold handle. destruct (existsb _ _); eauto.
  exists (l ++ [EvRecord x]). unfold adds in *. simpl. rewrite E, app_assoc. split; auto.
  apply Forall_app; auto.
Qed.

Lemma quiet_emit (P : event -> Prop) e : P e -> quiet P (emit e).
Proof. intros H s. exists [e]. split; [reflexivity|]. auto. Qed.

Lemma quiet_none (P : event -> Prop) m : (forall s, trace (fst (m s)) = trace s) -> quiet P m.
Proof. intros H s. exists []. unfold adds. rewrite H, app_nil_r. auto. Qed.

Lemma quiet_do_fops (P : event -> Prop) l : (forall f, P (EvSetUp f)) -> (forall f, P (EvTearDown f)) -> quiet P (do_fops l).
Proof.
  intros A B. induction l as [|o l IH]; [apply quiet_none; auto|].
  intros s. destruct (IH (do_fop o s)) as (l1 & E & F).
  assert (X : exists l0, trace (do_fop o s) = trace s ++ l0 /\ Forall P l0).
  { destruct o; simpl; try solve [exists []; rewrite app_nil_r; auto].
    - exists [EvSetUp (next s)]. auto.
    - destruct (existsb _ _); [exists [EvTearDown f]; auto|exists []; rewrite app_nil_r; auto]. }
  destruct X as (l0 & E0 & F0). exists (l0 ++ l1). unfold adds, do_fops in *. simpl in *.
  rewrite E, E0, app_assoc. split; auto. apply Forall_app; auto.
Qed.

Lemma quiet_call_all (P : event -> Prop) ev l : (forall k, P (ev k)) -> forall k, quiet P (call_all ev k l).
Proof.
  intros H. induction l as [|c l IH]; intros k; simpl; [apply quiet_none; auto|].
  apply quiet_seq; [apply quiet_emit; auto|]. apply quiet_seq; [apply quiet_none; auto|apply IH].
Qed.

Lemma no_call_simple e :
  match e with EvBefore | EvMethod | EvAfter => False | _ => True end -> no_call e.
Proof. destruct e; intros H; try contradiction; split; try split; discriminate. Qed.

Ltac nc := intros; apply no_call_simple; exact I.

Lemma quiet_start_one f : quiet no_call (call_test_start f).
Proof.
  intros s. unfold call_test_start. destruct (find_fx f s) as [a|]; [|exists []; unfold adds; rewrite app_nil_r; auto].
  destruct (a_started a); [exists []; unfold adds; rewrite app_nil_r; auto|].
  apply quiet_seq; [apply quiet_none; auto|]. apply quiet_seq; [apply quiet_emit; nc|].
  apply quiet_handling; [nc|]. apply quiet_call_all. nc.
Qed.

Lemma quiet_end_one f : quiet no_call (call_test_end f).
Proof.
  intros s. unfold call_test_end. destruct (find_fx f s) as [a|]; [|exists []; unfold adds; rewrite app_nil_r; auto].
  apply quiet_seq; [apply quiet_none; auto|]. apply quiet_seq; [apply quiet_emit; nc|].
  apply quiet_handling; [nc|]. apply quiet_call_all. nc.
Qed.

Lemma quiet_for_each P l body : (forall f, quiet P (body f)) -> quiet P (for_each l body).
Proof. intros H. induction l; simpl; [apply quiet_none; auto|]. apply quiet_seq; auto. Qed.

Lemma quiet_start_all : quiet no_call start_all.
Proof. intros s. unfold start_all. apply quiet_for_each. apply quiet_start_one. Qed.

Lemma quiet_end_all : quiet no_call end_all.
Proof.
  intros s. unfold end_all. apply quiet_for_each. intros f. apply quiet_handling; [nc|]. apply quiet_end_one.
Qed.

(** a call of one of the user's functions: what precedes and follows it *)
Lemma cwf_shape ev f sta en s :
  exists l, adds s (fst (call_with_fixtures ev f sta en s)) l
    /\ (Forall no_call l \/ exists l1 l2, l = l1 ++ ev :: l2 /\ Forall no_call l1 /\ Forall no_call l2).
Proof.
  unfold call_with_fixtures, seq at 1.
  destruct (quiet_do_fops no_call (f_prep f) (ltac:(nc)) (ltac:(nc)) s) as (l0 & E0 & F0).
  destruct (do_fops (f_prep f) s) as [s1 [x|]]; simpl in *; eauto.
  unfold seq at 1, outcome at 1. destruct (f_prep_out f) as [x|]; simpl; eauto.
  assert (Q1 : quiet no_call (if sta then start_all else ok)).
  { destruct sta; [apply quiet_start_all|apply quiet_none; auto]. }
  assert (Q2 : quiet no_call (if en then end_all else ok)).
  { destruct en; [apply quiet_end_all|apply quiet_none; auto]. }
  unfold try_finally. unfold seq at 1. destruct (Q1 s1) as (l1 & E1 & F1).
  destruct ((if sta then start_all else ok) s1) as [s2 [x|]]; simpl in *.
  - destruct (Q2 s2) as (l2 & E2 & F2). exists (l0 ++ l1 ++ l2). split.
    + unfold adds in *. destruct ((if en then end_all else ok) s2) as [s3 [y|]]; simpl in *;
      rewrite E2, E1, E0, !app_assoc; auto.
    + left. rewrite !Forall_app. auto.
  - set (s2' := mkSt (fx s2) (next s2) (handled s2) (trace s2 ++ [ev])).
    destruct (quiet_do_fops no_call (f_ops f) (ltac:(nc)) (ltac:(nc)) s2') as (l2 & E2 & F2). simpl in E2.
    set (s3 := fold_left _ _ _) in *.
    destruct (Q2 s3) as (l3 & E3 & F3).
    exists ((l0 ++ l1) ++ ev :: l2 ++ l3). split.
    + unfold adds in *. simpl in *. destruct ((if en then end_all else ok) s3) as [s4 [y|]]; simpl in *;
      rewrite E3, E2, E1, E0, <- !app_assoc; simpl; auto.
    + right. exists (l0 ++ l1), (l2 ++ l3). rewrite !Forall_app. auto.
Qed.

(** the call is made if the arguments can be computed and, when they are called, the
    test_start callbacks raise nothing; without the callbacks of fixtures the outcome is
    that of the function *)
Lemma cwf_called ev f en s : f_prep_out f = None ->
  exists l1 l2, adds s (fst (call_with_fixtures ev f false en s)) (l1 ++ ev :: l2) /\ Forall no_call l1 /\ Forall no_call l2.
Proof.
  intros P. unfold call_with_fixtures, seq at 1.
  destruct (quiet_do_fops no_call (f_prep f) (ltac:(nc)) (ltac:(nc)) s) as (l0 & E0 & F0).
  assert (N : snd (do_fops (f_prep f) s) = None) by reflexivity.
  destruct (do_fops (f_prep f) s) as [s1 r]; simpl in *. subst r.
  unfold seq at 1, outcome at 1. rewrite P.
  assert (Q2 : quiet no_call (if en then end_all else ok)).
  { destruct en; [apply quiet_end_all|apply quiet_none; auto]. }
  assert (Q3 : quiet no_call (seq (do_fops (f_ops f)) (outcome (f_out f)))).
  { apply quiet_seq; [apply quiet_do_fops; nc|apply quiet_none; auto]. }
  unfold try_finally. unfold seq at 1, ok at 1. unfold seq at 1, emit at 1.
  destruct (Q3 (mkSt (fx s1) (next s1) (handled s1) (trace s1 ++ [ev]))) as (l2 & E2 & F2).
  destruct (seq (do_fops (f_ops f)) (outcome (f_out f)) _) as [s3 r]. simpl in E2.
  destruct (Q2 s3) as (l3 & E3 & F3).
  exists l0, (l2 ++ l3). unfold adds in *. simpl in *.
  split; [|rewrite !Forall_app; auto].
  destruct ((if en then end_all else ok) s3) as [s4 [y|]]; simpl in *;
    rewrite E3, E2, E0, <- !app_assoc; simpl; auto.
Qed.

Lemma cwf_plain_outcome ev f s :
  snd (call_with_fixtures ev f false false s) = match f_prep_out f with Some x => Some x | None => f_out f end.
Proof.
  unfold call_with_fixtures, seq, outcome, try_finally, ok, emit, do_fops.
  destruct (f_prep_out f); auto.
Qed.

Lemma Forall_not (P : event -> Prop) e l : Forall P l -> ~ P e -> ~ In e l.
Proof. intros F N I. rewrite Forall_forall in F. apply N, F, I. Qed.

Lemma nc_In l e : Forall no_call l -> (e = EvBefore \/ e = EvMethod \/ e = EvAfter) -> ~ In e l.
Proof.
  intros F E. apply (Forall_not _ _ _ F). intros (A & B & C). intuition.
Qed.

(** handling only adds a record at the end *)
Lemma handling_shape b m s : exists l, adds (fst (m s)) (fst (handling b m s)) l /\ Forall no_call l.
Proof.
  unfold handling. destruct (m s) as [s1 [x|]]; simpl.
  - unfold handle. destruct (existsb _ _).
    + exists []. unfold adds. rewrite app_nil_r. auto.
    + exists [EvRecord x]. split; [reflexivity|]. constructor; auto. nc.
  - exists []. unfold adds. rewrite app_nil_r. auto.
Qed.

Lemma seq_outcome_state m r s : fst (seq m (outcome r) s) = fst (m s).
Proof. unfold seq, outcome. destruct (m s) as [s1 [x|]]; auto. Qed.

Lemma try_state m1 m2 s : fst (try_finally m1 m2 s) = fst (m2 (fst (m1 s))).
Proof. unfold try_finally. destruct (m1 s) as [s1 r]; simpl. destruct (m2 s1) as [s2 [x|]]; auto. Qed.

(** the trace of a class test after a successful before *)
Lemma class_shape b m g a s : f_prep_out b = None -> f_out b = None ->
  exists lb lm la, adds s (fst (run (TClass b m g a) s)) (lb ++ lm ++ la)
    /\ (exists l1 l2, lb = l1 ++ EvBefore :: l2 /\ Forall no_call l1 /\ Forall no_call l2)
    /\ (Forall no_call lm \/ exists l1 l2, lm = l1 ++ EvMethod :: l2 /\ Forall no_call l1 /\ Forall no_call l2)
    /\ (f_prep_out a = None -> exists l1 l2, la = l1 ++ EvAfter :: l2 /\ Forall no_call l1 /\ Forall no_call l2)
    /\ (Forall no_call la \/ exists l1 l2, la = l1 ++ EvAfter :: l2 /\ Forall no_call l1 /\ Forall no_call l2).
Proof.
  intros P O. simpl. unfold seq at 1.
  destruct (cwf_called EvBefore b false s P) as (b1 & b2 & EB & FB1 & FB2).
  assert (OB := cwf_plain_outcome EvBefore b s). rewrite P, O in OB.
  destruct (call_with_fixtures EvBefore b false false s) as [s1 r]. simpl in *. subst r.
  rewrite try_state.
  set (mm := seq (call_with_fixtures EvMethod m true false) (outcome g)).
  set (ma := call_with_fixtures EvAfter a false true).
  destruct (handling_shape false mm s1) as (hm & EH & FH). unfold mm in EH at 1. rewrite seq_outcome_state in EH.
  destruct (cwf_shape EvMethod m true false s1) as (lm & EM & CM).
  set (s2 := fst (handling false mm s1)) in *.
  destruct (handling_shape false ma s2) as (ha & EA & FA). unfold ma in EA at 1.
  destruct (cwf_shape EvAfter a false true s2) as (la & EL & CL).
  exists (b1 ++ EvBefore :: b2), (lm ++ hm), (la ++ ha).
  split; [unfold adds in *; rewrite EA, EL, EH, EM, EB, !app_assoc; auto|].
  split; [eauto|]. split.
  { destruct CM as [CM|(l1 & l2 & -> & C1 & C2)]; [left; apply Forall_app; auto|].
    right. exists l1, (l2 ++ hm). rewrite <- app_assoc. rewrite Forall_app. auto. }
  split.
  - intros PA. destruct (cwf_called EvAfter a true s2 PA) as (l1 & l2 & EC & C1 & C2).
    unfold adds in *. fold ma in EC. unfold ma in EC. rewrite EL in EC. apply app_inv_head in EC. subst la.
    exists l1, (l2 ++ ha). rewrite <- app_assoc, Forall_app. auto.
  - destruct CL as [CL|(l1 & l2 & -> & C1 & C2)]; [left; apply Forall_app; auto|].
    right. exists l1, (l2 ++ ha). rewrite <- app_assoc, Forall_app. auto.
Qed.

(** ** after is called, once and last, when before succeeded, whatever the method does *)
Theorem C71_after_partial b m g a s :
  f_prep_out b = None -> f_out b = None -> f_prep_out a = None ->
  exists l1 l2, trace (fst (run (TClass b m g a) s)) = trace s ++ l1 ++ EvAfter :: l2
    /\ In EvBefore l1 /\ ~ In EvAfter l1
    /\ ~ In EvBefore l2 /\ ~ In EvMethod l2 /\ ~ In EvAfter l2.
Proof.
  intros P O PA. destruct (class_shape b m g a s P O) as (lb & lm & la & E & (b1 & b2 & -> & B1 & B2) & CM & CA & _).
  destruct (CA PA) as (a1 & a2 & -> & A1 & A2).
  exists ((b1 ++ EvBefore :: b2) ++ lm ++ a1), a2.
  unfold adds in E. split; [rewrite E, <- !app_assoc; auto|].
  split; [rewrite !in_app_iff; simpl; auto|].
  split.
  - rewrite !in_app_iff. simpl. intros X.
    assert (~ In EvAfter b1) by (apply nc_In; auto). assert (~ In EvAfter b2) by (apply nc_In; auto).
    assert (~ In EvAfter a1) by (apply nc_In; auto).
    assert (~ In EvAfter lm).
    { destruct CM as [CM|(l1 & l2 & -> & C1 & C2)]; [apply nc_In; auto|].
      rewrite in_app_iff. simpl. assert (~ In EvAfter l1) by (apply nc_In; auto).
      assert (~ In EvAfter l2) by (apply nc_In; auto). intuition discriminate. }
    intuition discriminate.
  - split; [apply nc_In; auto|]. split; apply nc_In; auto.
Qed.

(** neither the method nor after is called when before fails *)
Theorem C71_before_failed b m g a s :
  f_prep_out b <> None \/ f_out b <> None ->
  exists l, trace (fst (run (TClass b m g a) s)) = trace s ++ l
    /\ ~ In EvMethod l /\ ~ In EvAfter l
    /\ snd (run (TClass b m g a) s) = match f_prep_out b with Some x => Some x | None => f_out b end.
Proof.
  intros H. simpl. unfold seq at 1 3.
  destruct (cwf_shape EvBefore b false false s) as (l & E & CB).
  assert (OB := cwf_plain_outcome EvBefore b s).
  assert (N1 : ~ In EvMethod l /\ ~ In EvAfter l).
  { destruct CB as [CB|(l1 & l2 & -> & C1 & C2)]; [split; apply nc_In; auto|].
    assert (~ In EvMethod l1) by (apply nc_In; auto). assert (~ In EvMethod l2) by (apply nc_In; auto).
    assert (~ In EvAfter l1) by (apply nc_In; auto). assert (~ In EvAfter l2) by (apply nc_In; auto).
    rewrite !in_app_iff; simpl. intuition discriminate. }
  destruct (call_with_fixtures EvBefore b false false s) as [s1 [x|]]; simpl in *.
  - exists l. rewrite OB. intuition.
  - destruct (f_prep_out b); [discriminate|]. destruct H as [H|H]; congruence.
Qed.

Lemma split_unique (x : event) l r : ~ In x l -> ~ In x r -> forall l1 l2,
  l ++ x :: r = l1 ++ x :: l2 -> l = l1 /\ r = l2.
Proof.
  induction l as [|e l IH]; intros N N' l1 l2 X; destruct l1 as [|e1 l1]; simpl in *.
  - inversion X; auto.
  - inversion X; subst. exfalso. apply N'. apply in_elt.
  - inversion X; subst. exfalso. apply N. auto.
  - inversion X; subst. destruct (IH (fun i => N (or_intror i)) N' l1 l2 H1) as [-> ->]. auto.
Qed.

(** the method is called at most once, after before and before after *)
Theorem C71_order b m g a s :
  exists l, trace (fst (run (TClass b m g a) s)) = trace s ++ l
    /\ (forall l1 l2, l = l1 ++ EvMethod :: l2 ->
          In EvBefore l1 /\ ~ In EvMethod l1 /\ ~ In EvAfter l1 /\ ~ In EvMethod l2 /\ ~ In EvBefore l2).
Proof.
  assert (D : (f_prep_out b = None /\ f_out b = None) \/ (f_prep_out b <> None \/ f_out b <> None)).
  { destruct (f_prep_out b), (f_out b); auto; right; left + right; discriminate. }
  destruct D as [[P O]|D].
  - destruct (class_shape b m g a s P O) as (lb & lm & la & E & (b1 & b2 & -> & B1 & B2) & CM & _ & CA).
    exists ((b1 ++ EvBefore :: b2) ++ lm ++ la). split; [exact E|]. intros l1 l2 X.
    assert (NB1 : ~ In EvMethod (b1 ++ EvBefore :: b2)).
    { rewrite in_app_iff; simpl. assert (~ In EvMethod b1) by (apply nc_In; auto).
      assert (~ In EvMethod b2) by (apply nc_In; auto). intuition discriminate. }
    assert (NB2 : ~ In EvAfter (b1 ++ EvBefore :: b2)).
    { rewrite in_app_iff; simpl. assert (~ In EvAfter b1) by (apply nc_In; auto).
      assert (~ In EvAfter b2) by (apply nc_In; auto). intuition discriminate. }
    assert (NA : ~ In EvMethod la /\ ~ In EvBefore la).
    { destruct CA as [CA|(c1 & c2 & -> & C1 & C2)]; [split; apply nc_In; auto|].
      rewrite !in_app_iff; simpl. assert (~ In EvMethod c1) by (apply nc_In; auto).
      assert (~ In EvMethod c2) by (apply nc_In; auto). assert (~ In EvBefore c1) by (apply nc_In; auto).
      assert (~ In EvBefore c2) by (apply nc_In; auto). intuition discriminate. }
    destruct CM as [CM|(m1 & m2 & -> & M1 & M2)].
    + exfalso. assert (I : In EvMethod ((b1 ++ EvBefore :: b2) ++ lm ++ la)) by (rewrite X; apply in_elt).
      apply in_app_or in I as [I|I]; auto. apply in_app_or in I as [I|I]; [|tauto].
      revert I. apply nc_In; auto.
    + assert (NM : ~ In EvMethod m1 /\ ~ In EvAfter m1 /\ ~ In EvMethod m2 /\ ~ In EvBefore m2).
      { split; [|split; [|split]]; apply nc_In; auto. }
      assert (X' : ((b1 ++ EvBefore :: b2) ++ m1) ++ EvMethod :: (m2 ++ la) = l1 ++ EvMethod :: l2).
      { rewrite <- X, <- !app_assoc. simpl. try rewrite <- !app_assoc. auto. }
      apply split_unique in X'; [|rewrite in_app_iff; tauto|rewrite in_app_iff; tauto].
      destruct X' as [<- <-].
      rewrite !(in_app_iff _ m1), !(in_app_iff m2).
      assert (In EvBefore (b1 ++ EvBefore :: b2)) by apply in_elt. tauto.
  - destruct (C71_before_failed b m g a s D) as (l & E & N1 & N2 & _). exists l. split; auto.
    intros l1 l2 ->. exfalso. apply N1. apply in_elt.
Qed.

(** ** What the method raises is recorded *)
Definition recorded (i : nat) (l : list event) : Prop := exists y, x_id y = i /\ In (EvRecord y) l.
Definition rec_inv (s : st) : Prop := forall i, In i (handled s) -> recorded i (trace s).
Definition rpres (m : M) := forall s, rec_inv s ->
  rec_inv (fst (m s)) /\ exists l, trace (fst (m s)) = trace s ++ l.

Lemma recorded_app i l l' : recorded i l -> recorded i (l ++ l').
Proof. intros (y & E & I). exists y. split; auto. apply in_or_app; auto. Qed.

Lemma rpres_seq m1 m2 : rpres m1 -> rpres m2 -> rpres (seq m1 m2).
Proof.
  intros A B s I. unfold seq. destruct (A s I) as (A1 & l & E). destruct (m1 s) as [s1 [x|]]; simpl in *; eauto.
  destruct (B s1 A1) as (B1 & l' & E'). split; auto. exists (l ++ l'). rewrite E', E, app_assoc. auto.
Qed.

Lemma rpres_try m1 m2 : rpres m1 -> rpres m2 -> rpres (try_finally m1 m2).
Proof.
  intros A B s I. rewrite try_state. destruct (A s I) as (A1 & l & E).
  destruct (B _ A1) as (B1 & l' & E'). split; auto. exists (l ++ l'). rewrite E', E, app_assoc. auto.
Qed.

Lemma rpres_handle x s : rec_inv s ->
  rec_inv (handle x s) /\ recorded (x_id x) (trace (handle x s)) /\ exists l, trace (handle x s) = trace s ++ l.
Proof.
  intros I. unfold handle. destruct (existsb _ _) eqn:E.
  - split; auto. split; [|exists []; rewrite app_nil_r; auto].
    apply existsb_exists in E as (j & J & K). apply Nat.eqb_eq in K. subst j. apply I, J.
  - simpl. split; [|split; eauto].
    + intros i [<-|J]; [|apply recorded_app, I, J]. exists x. split; auto. apply in_or_app. simpl; auto.
    + exists x. split; auto. apply in_or_app. simpl; auto.
Qed.

Lemma rpres_handling b m : rpres m -> rpres (handling b m).
Proof.
  intros A s I. destruct (A s I) as (A1 & l & E). unfold handling.
  destruct (m s) as [s1 [x|]]; simpl in *; eauto.
  destruct (rpres_handle x s1 A1) as (R & _ & l' & E'). split; auto. exists (l ++ l').
  rewrite E', E, app_assoc. auto.
Qed.

Lemma rpres_simple m : (forall s, handled (fst (m s)) = handled s /\ exists l, trace (fst (m s)) = trace s ++ l) -> rpres m.
Proof.
  intros H s I. destruct (H s) as (E & l & F). split; eauto. intros i J. rewrite E in J. rewrite F.
  apply recorded_app, I, J.
Qed.

Lemma rpres_same m : (forall s, handled (fst (m s)) = handled s /\ trace (fst (m s)) = trace s) -> rpres m.
Proof.
  intros H. apply rpres_simple. intros s. destruct (H s). split; auto. exists []. rewrite app_nil_r; auto.
Qed.

Lemma rpres_emit e : rpres (emit e).
Proof. apply rpres_simple. intros s. split; simpl; eauto. Qed.

Lemma rpres_do_fops l : rpres (do_fops l).
Proof.
  apply rpres_simple. unfold do_fops; simpl. induction l as [|o l IH]; intros s; simpl.
  - split; auto. exists []. rewrite app_nil_r; auto.
  - destruct (IH (do_fop o s)) as (A & l' & B). rewrite A, B.
    destruct o; simpl; try solve [split; eauto].
    + split; auto. exists ([EvSetUp (next s)] ++ l'). rewrite app_assoc. auto.
    + destruct (existsb _ _); simpl; split; eauto.
      exists ([EvTearDown f] ++ l'). rewrite app_assoc. auto.
Qed.

Lemma rpres_call_all ev l : forall k, rpres (call_all ev k l).
Proof.
  induction l as [|c l IH]; intros k; simpl; [apply rpres_same; auto|].
  apply rpres_seq; [apply rpres_emit|]. apply rpres_seq; [apply rpres_same; auto|apply IH].
Qed.

Lemma rpres_start_one f : rpres (call_test_start f).
Proof.
  intros s I. unfold call_test_start.
  assert (Z : rec_inv s /\ (exists l, trace s = trace s ++ l)) by (split; [exact I|exists []; rewrite app_nil_r; auto]).
  destruct (find_fx f s) as [a|]; auto. destruct (a_started a); auto.
  apply rpres_seq; [apply rpres_same; auto| |exact I]. apply rpres_seq; [apply rpres_emit|].
  apply rpres_handling, rpres_call_all.
Qed.

Lemma rpres_end_one f : rpres (call_test_end f).
Proof.
  intros s I. unfold call_test_end.
  assert (Z : rec_inv s /\ (exists l, trace s = trace s ++ l)) by (split; [exact I|exists []; rewrite app_nil_r; auto]).
  destruct (find_fx f s) as [a|]; auto.
  apply rpres_seq; [apply rpres_same; auto| |exact I]. apply rpres_seq; [apply rpres_emit|].
  apply rpres_handling, rpres_call_all.
Qed.

Lemma rpres_for_each l body : (forall f, rpres (body f)) -> rpres (for_each l body).
Proof. intros H. induction l; simpl; [apply rpres_same; auto|]. apply rpres_seq; auto. Qed.

Lemma rpres_cwf ev f sta en : rpres (call_with_fixtures ev f sta en).
Proof.
  assert (A : rpres start_all) by (intros s I; unfold start_all; apply rpres_for_each; auto; apply rpres_start_one).
  assert (B : rpres end_all).
  { intros s I. unfold end_all. apply rpres_for_each; auto. intros g. apply rpres_handling, rpres_end_one. }
  unfold call_with_fixtures.
  apply rpres_seq; [apply rpres_do_fops|]. apply rpres_seq; [apply rpres_same; auto|]. apply rpres_try.
  - apply rpres_seq; [destruct sta; auto; apply rpres_same; auto|]. apply rpres_seq; [apply rpres_emit|].
    apply rpres_seq; [apply rpres_do_fops|apply rpres_same; auto].
  - destruct en; auto. apply rpres_same; auto.
Qed.

Lemma rpres_run t : rpres (run t).
Proof.
  destruct t; simpl; repeat first [apply rpres_cwf|apply rpres_seq|apply rpres_try|apply rpres_handling|apply rpres_same; auto].
Qed.

Lemma rec_run_tests l : rec_inv (run_tests l).
Proof.
  unfold run_tests. assert (I : rec_inv st0) by (intros i []). revert I. generalize st0.
  induction l as [|[o t] l IH]; intros s I; simpl; auto. apply IH. unfold run_one.
  apply rpres_run, rpres_emit, rpres_do_fops, I.
Qed.

(** either the method is not called, or its call ends as the method does *)
Lemma method_called m s :
  (exists l, adds s (fst (call_with_fixtures EvMethod m true false s)) l /\ Forall no_call l)
  \/ snd (call_with_fixtures EvMethod m true false s) = f_out m.
Proof.
  unfold call_with_fixtures, seq at 1 6.
  destruct (quiet_do_fops no_call (f_prep m) (ltac:(nc)) (ltac:(nc)) s) as (l0 & E0 & F0).
  destruct (do_fops (f_prep m) s) as [s1 [x|]]; simpl in *; eauto.
  unfold seq at 1 5, outcome at 1 3. destruct (f_prep_out m) as [x|]; simpl; eauto.
  unfold try_finally. unfold seq at 1 4. destruct (quiet_start_all s1) as (l1 & E1 & F1).
  destruct (start_all s1) as [s2 [x|]]; simpl in *; auto.
  left. exists (l0 ++ l1). unfold adds in *. rewrite E1, E0, app_assoc. split; auto. apply Forall_app; auto.
Qed.

Lemma trace_cancel (s : st) l1 l2 : trace s ++ l1 = trace s ++ l2 -> l1 = l2.
Proof. apply app_inv_head. Qed.

Theorem C71_recorded tests between b m g a x l :
  let s := fst (emit EvBegin (fst (do_fops between (run_tests tests)))) in
  trace (fst (run (TClass b m g a) s)) = trace s ++ l ->
  In EvMethod l -> f_out m = Some x ->
  exists y, x_id y = x_id x /\ In (EvRecord y) (trace (fst (run (TClass b m g a) s))).
Proof.
  intros s E I O.
  assert (RS : rec_inv s) by (unfold s; apply rpres_emit, rpres_do_fops, rec_run_tests).
  clearbody s.
  assert (D : (f_prep_out b = None /\ f_out b = None) \/ (f_prep_out b <> None \/ f_out b <> None)).
  { destruct (f_prep_out b), (f_out b); auto; right; left + right; discriminate. }
  destruct D as [[P OB]|D].
  2:{ exfalso. destruct (C71_before_failed b m g a s D) as (l' & E' & N & _). rewrite E' in E.
      apply trace_cancel in E. subst l'. auto. }
  change (recorded (x_id x) (trace (fst (run (TClass b m g a) s)))).
  simpl in *. unfold seq at 1. unfold seq at 1 in E.
  assert (OX := cwf_plain_outcome EvBefore b s). rewrite P, OB in OX.
  assert (R1 := proj1 (rpres_cwf EvBefore b false false s RS)).
  destruct (cwf_shape EvBefore b false false s) as (lb & EB & CB).
  destruct (call_with_fixtures EvBefore b false false s) as [s1 r]. simpl in *. subst r.
  rewrite try_state in *.
  set (mm := seq (call_with_fixtures EvMethod m true false) (outcome g)) in *.
  set (ma := call_with_fixtures EvAfter a false true) in *.
  assert (RM : rpres mm) by (apply rpres_seq; [apply rpres_cwf|apply rpres_same; auto]).
  destruct (RM s1 R1) as (R2 & lm & EM).
  destruct (method_called m s1) as [(l1 & E1 & F1)|OM].
  - exfalso. revert I.
    destruct (handling_shape false mm s1) as (hm & EH & FH).
    destruct (handling_shape false ma (fst (handling false mm s1))) as (ha & EA & FA).
    destruct (cwf_shape EvAfter a false true (fst (handling false mm s1))) as (la & EL & CL). fold ma in EL.
    unfold mm in EH at 1. rewrite seq_outcome_state in EH. unfold adds in *.
    rewrite EA, EL, EH, E1, EB, <- !app_assoc in E. apply trace_cancel in E. subst l.
    rewrite !in_app_iff. assert (~ In EvMethod l1) by (apply nc_In; auto).
    assert (~ In EvMethod hm) by (apply nc_In; auto). assert (~ In EvMethod ha) by (apply nc_In; auto).
    assert (~ In EvMethod la).
    { destruct CL as [CL|(c1 & c2 & -> & C1 & C2)]; [apply nc_In; auto|].
      rewrite in_app_iff; simpl. assert (~ In EvMethod c1) by (apply nc_In; auto).
      assert (~ In EvMethod c2) by (apply nc_In; auto). intuition discriminate. }
    assert (~ In EvMethod lb).
    { destruct CB as [CB|(c1 & c2 & -> & C1 & C2)]; [apply nc_In; auto|].
      rewrite in_app_iff; simpl. assert (~ In EvMethod c1) by (apply nc_In; auto).
      assert (~ In EvMethod c2) by (apply nc_In; auto). intuition discriminate. }
    tauto.
  - assert (OMM : snd (mm s1) = Some x).
    { unfold mm, seq. rewrite O in OM. destruct (call_with_fixtures EvMethod m true false s1) as [s2 r].
      simpl in OM. subst r. auto. }
    assert (R3 := rpres_handling false mm RM s1 R1).
    assert (RX : recorded (x_id x) (trace (fst (handling false mm s1)))).
    { unfold handling. destruct (mm s1) as [s2 r]. simpl in *. subst r. simpl.
      apply (rpres_handle x s2 R2). }
    destruct R3 as (R3 & _).
    destruct (rpres_handling false ma (rpres_cwf EvAfter a false true) _ R3) as (_ & l3 & E3).
    rewrite E3. apply recorded_app, RX.
Qed.

(** ** The exception that leaves a class test

    If before and after succeed, it is that of the method. *)
Lemma cwf_end_outcome ev f s : minv s -> mild_func f -> neutral ev -> f_prep_out f = None ->
  snd (call_with_fixtures ev f false true s) = f_out f.
Proof.
  intros I MF N P. unfold call_with_fixtures, seq at 1.
  assert (I1 := mpres_do_fops (f_prep f) (proj1 MF) s I).
  assert (Z : snd (do_fops (f_prep f) s) = None) by reflexivity.
  destruct (do_fops (f_prep f) s) as [s1 r]; simpl in *. subst r.
  unfold seq at 1, outcome at 1. rewrite P. unfold try_finally.
  set (body := seq ok _).
  assert (MB : mpres body).
  { unfold body. apply mpres_seq; [apply mpres_ok|]. apply mpres_seq; [apply mpres_ext, ext_emit, N|].
    apply mpres_seq; [apply mpres_do_fops, MF|apply mpres_outcome]. }
  assert (OB : snd (body s1) = f_out f) by reflexivity.
  specialize (MB s1 I1). destruct (body s1) as [s2 r]. simpl in *. subst r.
  destruct (end_all_clean s2 (proj2 MB)) as [E _].
  destruct (end_all s2) as [s3 r]. simpl in E. subst r. auto.
Qed.

Theorem C71_outcome_partial tests between b m g a x l :
  mild_tests tests -> Forall mild_fop between -> mild_test (TClass b m g a) ->
  let s := fst (emit EvBegin (fst (do_fops between (run_tests tests)))) in
  f_out a = None ->
  trace (fst (run (TClass b m g a) s)) = trace s ++ l ->
  In EvMethod l -> f_out m = Some x ->
  snd (run (TClass b m g a) s) = Some x.
Proof.
  intros MT MB (A & B & C & D) s OA E I O.
  destruct (run_tests_clean tests MT) as [I0 C0].
  assert (IS : minv s).
  { unfold s. apply minv_begin; [apply mpres_do_fops; auto|apply clean_do_fops; auto]. }
  clearbody s.
  assert (DD : (f_prep_out b = None /\ f_out b = None) \/ (f_prep_out b <> None \/ f_out b <> None)).
  { destruct (f_prep_out b), (f_out b); auto; right; left + right; discriminate. }
  destruct DD as [[P OB]|DD].
  2:{ exfalso. destruct (C71_before_failed b m g a s DD) as (l' & E' & N & _). rewrite E' in E.
      apply trace_cancel in E. subst l'. auto. }
  simpl in *. unfold seq at 1. unfold seq at 1 in E.
  assert (OX := cwf_plain_outcome EvBefore b s). rewrite P, OB in OX.
  assert (R1 := mpres_other EvBefore b false Logic.I A s IS).
  destruct (cwf_shape EvBefore b false false s) as (lb & EB & CB).
  destruct (call_with_fixtures EvBefore b false false s) as [s1 r]. simpl in *. subst r.
  rewrite try_state in E.
  set (mm := seq (call_with_fixtures EvMethod m true false) (outcome g)) in *.
  set (ma := call_with_fixtures EvAfter a false true) in *.
  assert (RM : minv (fst (handling false mm s1))).
  { apply mpres_handling; [|exact R1]. apply mpres_seq; [apply mpres_method, B|apply mpres_outcome]. }
  assert (OAF := cwf_end_outcome EvAfter a _ RM C Logic.I D). fold ma in OAF. rewrite OA in OAF.
  destruct (method_called m s1) as [(l1 & E1 & F1)|OM].
  - exfalso. revert I.
    destruct (handling_shape false mm s1) as (hm & EH & FH).
    destruct (handling_shape false ma (fst (handling false mm s1))) as (ha & EA & FA).
    destruct (cwf_shape EvAfter a false true (fst (handling false mm s1))) as (la & EL & CL). fold ma in EL.
    unfold mm in EH at 1. rewrite seq_outcome_state in EH. unfold adds in *.
    rewrite EA, EL, EH, E1, EB, <- !app_assoc in E. apply trace_cancel in E. subst l.
    rewrite !in_app_iff. assert (~ In EvMethod l1) by (apply nc_In; auto).
    assert (~ In EvMethod hm) by (apply nc_In; auto). assert (~ In EvMethod ha) by (apply nc_In; auto).
    assert (~ In EvMethod la).
    { destruct CL as [CL|(c1 & c2 & -> & C1 & C2)]; [apply nc_In; auto|].
      rewrite in_app_iff; simpl. assert (~ In EvMethod c1) by (apply nc_In; auto).
      assert (~ In EvMethod c2) by (apply nc_In; auto). intuition discriminate. }
    assert (~ In EvMethod lb).
    { destruct CB as [CB|(c1 & c2 & -> & C1 & C2)]; [apply nc_In; auto|].
      rewrite in_app_iff; simpl. assert (~ In EvMethod c1) by (apply nc_In; auto).
      assert (~ In EvMethod c2) by (apply nc_In; auto). intuition discriminate. }
    tauto.
  - assert (OMM : snd (handling false mm s1) = Some x).
    { unfold handling. replace (mm s1) with (fst (mm s1), Some x); [simpl; destruct (x_kind x); auto|].
      unfold mm, seq. rewrite O in OM. destruct (call_with_fixtures EvMethod m true false s1) as [s2 r].
      simpl in OM. subst r. auto. }
    unfold try_finally. destruct (handling false mm s1) as [s2 r]. simpl in *. subst r.
    unfold handling. destruct (ma s2) as [s3 r]. simpl in OAF. subst r. auto.
Qed.

(** Otherwise an interruption of the method is lost: KeyboardInterrupt in the method
    followed by a failing after leaves an ordinary exception, which the runner swallows. *)
Theorem C71_interruption_refuted :
  exists b m g a x y,
    mild_test (TClass b m g a) /\ f_out m = Some x /\ x_kind x = KInterrupt
    /\ In EvMethod (trace (fst (run (TClass b m g a) st0)))
    /\ snd (run (TClass b m g a) st0) = Some y /\ x_kind y = KError.
Proof.
  exists (fn [] None), (fn [] (Some (mkExn 1 KInterrupt))), None, (fn [] (Some (ordinary 2))),
    (mkExn 1 KInterrupt), (ordinary 2).
  split; [repeat constructor|]. split; [reflexivity|]. split; [reflexivity|]. split; [simpl; auto|].
  split; reflexivity.
Qed.

(** And after is not called though before succeeded, if its own fixtures fail. *)
Theorem C71_after_refuted :
  exists b m g a, f_prep_out b = None /\ f_out b = None
    /\ In EvMethod (trace (fst (run (TClass b m g a) st0)))
    /\ ~ In EvAfter (trace (fst (run (TClass b m g a) st0))).
Proof.
  exists (fn [] None), (fn [] None), None, (mkFunc [] (Some (ordinary 1)) [] None).
  split; [reflexivity|]. split; [reflexivity|]. split; simpl; intuition discriminate.
Qed.

(** a state and a test meeting the hypotheses of the C71 theorems *)
Example C71_ex :
  let b := fn [FSetUp 0 [None] [Some (ordinary 5)]] None in
  let m := fn [] (Some (mkExn 2 KInterrupt)) in
  let a := fn [FSetUp 3 [] [None]] None in
  let s := fst (emit EvBegin (fst (do_fops [FTearDown 1] (run_tests ex_mild)))) in
  mild_test (TClass b m None a)
  /\ trace (fst (run (TClass b m None a) s))
     = trace s ++ [EvSetUp 3; EvBefore; EvStart 3; EvStartCall 3 0; EvStart 2; EvStart 0; EvStartCall 0 0; EvMethod;
                   EvSetUp 4; EvAfter; EvEnd 3; EvEndCall 3 0; EvRecord (ordinary 5); EvEnd 2; EvEnd 0; EvEndCall 0 0;
                   EvEnd 4; EvEndCall 4 0]
  /\ snd (run (TClass b m None a) s) = Some (mkExn 2 KInterrupt).
Proof.
  cbv zeta. split; [|split; reflexivity]. repeat (constructor; try reflexivity).
Qed.

Example C71_before_failed_ex :
  let b := fn [] (Some (ordinary 1)) in
  f_prep_out b <> None \/ f_out b <> None.
Proof. right. discriminate. Qed.

Print Assumptions C70_alternate.
Print Assumptions C70_started_partial.
Print Assumptions C70_ended_partial.
Print Assumptions C70_started_refuted.
Print Assumptions C70_ended_refuted.
Print Assumptions C70_skip_refuted.
Print Assumptions C70_end_without_start_refuted.
Print Assumptions C71_after_partial.
Print Assumptions C71_before_failed.
Print Assumptions C71_order.
Print Assumptions C71_recorded.
Print Assumptions C71_outcome_partial.
Print Assumptions C71_interruption_refuted.
Print Assumptions C71_after_refuted.

(** ** The callbacks of fixtures *)

Section FixtureCallbacks.
Definition starts_added (f : nat) (o : fop) : list callback := match o with FAddStart g c => if Nat.eqb f g then [c] else [] | _ => [] end.
Definition ends_added (f : nat) (o : fop) : list callback := match o with FAddEnd g c => if Nat.eqb f g then [c] else [] | _ => [] end.

Lemma find_upd f g h l : (forall a, a_id (h a) = a_id a) ->
  find (fun a => Nat.eqb f (a_id a)) (upd_fx g h l) =
  option_map (fun a => if Nat.eqb f g then h a else a) (find (fun a => Nat.eqb f (a_id a)) l).
Proof.
  intros K. induction l as [|a l IH]; [reflexivity|]. cbn [upd_fx map find]. fold (upd_fx g h l).
  destruct (Nat.eqb_spec g (a_id a)) as [E|E]; rewrite ?K; destruct (Nat.eqb_spec f (a_id a)) as [F|F]; cbn [option_map]; try exact IH.
  - rewrite F, E, Nat.eqb_refl. reflexivity.
  - destruct (Nat.eqb_spec f g) as [-> | _]; [contradiction|reflexivity].
Qed.

(** the callbacks of a fixture are those it was set up with and those given later, in their order, until it is torn down; the fixture
    made next is the one that is set up *)
Theorem C70_callbacks l : forall s f a, find_fx f s = Some a -> f < next s -> ~ In (FTearDown f) l ->
  exists a', find_fx f (fst (do_fops l s)) = Some a' /\ a_starts a' = a_starts a ++ flat_map (starts_added f) l /\
    a_ends a' = a_ends a ++ flat_map (ends_added f) l /\ a_started a' = a_started a.
Proof.
  induction l as [|o l IH]; intros s f a F L N.
  - exists a. cbn. rewrite !app_nil_r. auto.
  - assert (G : exists b, find_fx f (do_fop o s) = Some b /\ a_starts b = a_starts a ++ starts_added f o /\ a_ends b = a_ends a ++ ends_added f o /\ a_started b = a_started a).
    { unfold find_fx in *. destruct o as [n b e|g|g c|g c]; cbn [do_fop fx starts_added ends_added].
      - exists a. rewrite !app_nil_r. repeat split; auto. rewrite <- (firstn_skipn n (fx s)) in F. revert F.
        induction (firstn n (fx s)) as [|x r IHr]; cbn [app find a_id]; [|destruct (Nat.eqb f (a_id x)); auto].
        destruct (Nat.eqb_spec f (next s)); [lia|auto].
      - exists a. rewrite !app_nil_r. repeat split; auto. assert (g <> f) by (intros ->; apply N; left; reflexivity).
        destruct (existsb _ (fx s)); [|exact F]. cbn [fx]. revert F. induction (fx s) as [|x r IHr]; [discriminate|]. cbn [find filter].
        destruct (Nat.eqb_spec g (a_id x)) as [E|E]; cbn [negb]; destruct (Nat.eqb_spec f (a_id x)) as [E'|E']; cbn [find]; auto.
        + congruence.
        + destruct (Nat.eqb_spec f (a_id x)); [auto|contradiction].
        + destruct (Nat.eqb_spec f (a_id x)); [contradiction|auto].
      - rewrite find_upd by reflexivity. rewrite F. cbn [option_map]. eexists. split; [reflexivity|]. rewrite app_nil_r. destruct (Nat.eqb f g); cbn; rewrite ?app_nil_r; auto.
      - rewrite find_upd by reflexivity. rewrite F. cbn [option_map]. eexists. split; [reflexivity|]. rewrite app_nil_r. destruct (Nat.eqb f g); cbn; rewrite ?app_nil_r; auto. }
    destruct G as (b & B & S1 & S2 & S3). assert (L' : f < next (do_fop o s)) by (destruct o; cbn; [lia| |exact L|exact L]; destruct (existsb _ (fx s)); exact L).
    destruct (IH (do_fop o s) f b B L') as (a' & A & Q1 & Q2 & Q3); [intros I; apply N; right; exact I|]. exists a'. cbn [do_fops fst fold_left flat_map] in *.
    split; [exact A|]. rewrite Q1, Q2, Q3, S1, S2, S3, <- !app_assoc. auto.
Qed.

Theorem C70_set_up s n b e : (forall a, In a (fx s) -> a_id a < next s) ->
  find_fx (next s) (do_fop (FSetUp n b e) s) = Some (mkActive (next s) b e false).
Proof.
  intros H. unfold find_fx. cbn [do_fop fx]. assert (K : forall x, In x (firstn n (fx s)) -> a_id x < next s).
  { intros x I. apply H. rewrite <- (firstn_skipn n (fx s)). apply in_app_iff. auto. }
  induction (firstn n (fx s)) as [|x r IHr]; cbn [app find a_id]; [rewrite Nat.eqb_refl; reflexivity|].
  destruct (Nat.eqb_spec (next s) (a_id x)) as [E|_]; [specialize (K x (or_introl eq_refl)); lia|]. apply IHr. intros y I. apply K. right. exact I.
Qed.

Lemma call_all_fine ev l : Forall (fun c => c = None) l -> forall k s,
  trace (fst (call_all ev k l s)) = trace s ++ map ev (List.seq k (List.length l)) /\ snd (call_all ev k l s) = None.
Proof.
  induction 1 as [|c l -> _ IH]; intros k s; [cbn; rewrite app_nil_r; auto|]. cbn [call_all]. unfold seq, emit, outcome.
  destruct (IH (S k) (mkSt (fx s) (next s) (handled s) (trace s ++ [ev k]))) as [A B]. rewrite A, B. cbn. rewrite <- app_assoc. auto.
Qed.

Lemma call_all_raises ev pre x post : Forall (fun c => c = None) pre -> forall k s,
  trace (fst (call_all ev k (pre ++ Some x :: post) s)) = trace s ++ map ev (List.seq k (S (List.length pre))) /\ snd (call_all ev k (pre ++ Some x :: post) s) = Some x.
Proof.
  induction 1 as [|c l -> _ IH]; intros k s; [cbn; auto|]. cbn [app call_all]. unfold seq, emit, outcome.
  destruct (IH (S k) (mkSt (fx s) (next s) (handled s) (trace s ++ [ev k]))) as [A B]. cbn [fst snd] in *. rewrite A, B. cbn. rewrite <- app_assoc. auto.
Qed.

Lemma handled_call ev l s : 
  (Forall (fun c => c = None) l -> trace (fst (handling false (call_all ev 0 l) s)) = trace s ++ map ev (List.seq 0 (List.length l))
     /\ snd (handling false (call_all ev 0 l) s) = None) /\
  (forall pre x post, l = pre ++ Some x :: post -> Forall (fun c => c = None) pre -> exists r,
     trace (fst (handling false (call_all ev 0 l) s)) = trace s ++ map ev (List.seq 0 (S (List.length pre))) ++ r /\ (r = [] \/ r = [EvRecord x]) /\
     snd (handling false (call_all ev 0 l) s) = Some x).
Proof.
  split.
  - intros F. destruct (call_all_fine ev l F 0 s) as [A B]. unfold handling. destruct (call_all ev 0 l s) as [s1 r]. cbn [fst snd] in *. subst r. cbn. auto.
  - intros pre x post -> F. destruct (call_all_raises ev pre x post F 0 s) as [A B]. unfold handling. destruct (call_all ev 0 (pre ++ Some x :: post) s) as [s1 r].
    cbn [fst snd] in *. subst r. exists (if existsb (Nat.eqb (x_id x)) (handled s1) then [] else [EvRecord x]). cbn [fst snd]. split; [|split].
    + unfold handle. destruct (existsb _ (handled s1)); cbn [trace]; rewrite A, ?app_nil_r, <- ?app_assoc; reflexivity.
    + destruct (existsb _ (handled s1)); auto.
    + destruct (x_kind x); reflexivity.
Qed.

(** a fixture that is told calls all its callbacks in their order, up to the first that raises *)
Theorem C70_called f a s : find_fx f s = Some a ->
  (a_started a = false -> Forall (fun c => c = None) (a_starts a) ->
     trace (fst (call_test_start f s)) = trace s ++ EvStart f :: map (EvStartCall f) (List.seq 0 (List.length (a_starts a))) /\ snd (call_test_start f s) = None) /\
  (forall pre x post, a_started a = false -> a_starts a = pre ++ Some x :: post -> Forall (fun c => c = None) pre -> exists r,
     trace (fst (call_test_start f s)) = trace s ++ EvStart f :: map (EvStartCall f) (List.seq 0 (S (List.length pre))) ++ r /\ (r = [] \/ r = [EvRecord x]) /\
     snd (call_test_start f s) = Some x) /\
  (Forall (fun c => c = None) (a_ends a) ->
     trace (fst (call_test_end f s)) = trace s ++ EvEnd f :: map (EvEndCall f) (List.seq 0 (List.length (a_ends a))) /\ snd (call_test_end f s) = None) /\
  (forall pre x post, a_ends a = pre ++ Some x :: post -> Forall (fun c => c = None) pre -> exists r,
     trace (fst (call_test_end f s)) = trace s ++ EvEnd f :: map (EvEndCall f) (List.seq 0 (S (List.length pre))) ++ r /\ (r = [] \/ r = [EvRecord x]) /\
     snd (call_test_end f s) = Some x) /\
  (a_started a = true -> call_test_start f s = (s, None)).
Proof.
  intros F. unfold call_test_start, call_test_end. rewrite F. unfold seq, put_started, emit. cbn [fx next handled trace].
  set (s1 := mkSt (upd_fx f (set_started true) (fx s)) (next s) (handled s) (trace s ++ [EvStart f])).
  set (s2 := mkSt (upd_fx f (set_started false) (fx s)) (next s) (handled s) (trace s ++ [EvEnd f])).
  destruct (handled_call (EvStartCall f) (a_starts a) s1) as [A B]. destruct (handled_call (EvEndCall f) (a_ends a) s2) as [C D].
  assert (K : forall x y (z : list event), (x ++ [y]) ++ z = x ++ y :: z) by (intros; rewrite <- app_assoc; reflexivity).
  cbn [trace s1 s2] in *. setoid_rewrite K in A. setoid_rewrite K in B. setoid_rewrite K in C. setoid_rewrite K in D.
  split; [intros -> H; exact (A H)|]. split; [intros pre x post -> H1 H2; exact (B pre x post H1 H2)|]. split; [exact C|]. split; [exact D|]. intros ->. reflexivity.
Qed.

Example C70_callbacks_ex : let s := do_fop (FSetUp 0 [None] []) st0 in let x := mkExn 4 KError in
  let l := [FAddStart 0 (Some x); FSetUp 0 [] []; FAddEnd 1 None; FAddEnd 0 None] in
  find_fx 0 s = Some (mkActive 0 [None] [] false) /\ 0 < next s /\ ~ In (FTearDown 0) l /\
  find_fx 0 (fst (do_fops l s)) = Some (mkActive 0 [None; Some x] [None] false) /\
  trace (fst (call_test_start 0 (fst (do_fops l s)))) = [EvSetUp 0; EvSetUp 1; EvStart 0; EvStartCall 0 0; EvStartCall 0 1; EvRecord x].
Proof. cbv zeta. repeat split; try (cbn; lia). cbn. intuition discriminate. Qed.
End FixtureCallbacks.
Print Assumptions C70_callbacks.
Print Assumptions C70_set_up.
Print Assumptions C70_called.
