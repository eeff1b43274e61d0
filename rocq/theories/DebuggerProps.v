(** Properties of entering a debugger (Debugger.v): C83. *)

From Coq Require Import List Bool Arith Lia Permutation.
From Verif Require Import Debugger.
Import ListNotations.

(** * C83 *)

(** ** A debugger is entered only if debugging is enabled, for an exception that is no
    interruption and no exit, that all filters select, and that is no skip unless skips are
    to be debugged (or there is no session) *)
Theorem C83_when hr c known e :
  In EHook (fst (debug_if_needed hr c known e)) <->
    enabled c = true /\ exists x, e = Some x /\ x <> XExit /\
      (x = XSkip -> has_session c = true -> debug_skips c = true) /\ Forall (fun b => b = true) (filters c).
Proof.
  assert (FA : forallb (fun b => b) (filters c) = true <-> Forall (fun b => b = true) (filters c)).
  { rewrite forallb_forall, Forall_forall. tauto. }
  assert (L : In EHook (fst (launch hr c known))).
  { unfold launch. destruct hr; [simpl; auto|]. destruct (order (chosen c) known), (attempt (chosen c) l). simpl; auto. }
  unfold debug_if_needed. destruct (enabled c); cbn [negb]; [|simpl; split; [tauto|intros []; discriminate]].
  destruct e as [x|]; [|simpl; split; [tauto|intros (_ & x & X & _); discriminate]].
  set (f := match filters c with [] => false | _ => _ end).
  assert (FF : f = false <-> Forall (fun b => b = true) (filters c)).
  { unfold f. rewrite <- FA. destruct (filters c); [simpl; tauto|]. destruct (forallb _ _); simpl; split; congruence. }
  clearbody f. destruct x; cbn [andb]; rewrite ?andb_false_r, ?andb_true_r; cbn [andb].
  - destruct (has_session c), (debug_skips c); cbn [negb andb]; destruct f;
      (split; [intros H; try contradiction; split; auto; exists XSkip; repeat split; auto; try discriminate; apply FF; auto
              |intros (_ & x & X & N & S & F); auto; try (apply FF in F; discriminate);
               injection X as <-; specialize (S eq_refl eq_refl); discriminate]).
  - split; [contradiction|]. intros (_ & x & X & N & _). injection X as <-. contradiction.
  - destruct f; (split; [intros H; try contradiction; split; auto; exists XOther; repeat split; auto; try discriminate; apply FF; auto
              |intros (_ & x & X & N & S & F); auto; apply FF in F; discriminate]).
Qed.

(** nothing at all happens otherwise *)
Theorem C83_quiet hr c known e : ~ In EHook (fst (debug_if_needed hr c known e)) -> debug_if_needed hr c known e = ([], Done).
Proof.
  assert (L : In EHook (fst (launch hr c known))).
  { unfold launch. destruct hr; [simpl; auto|]. destruct (order (chosen c) known), (attempt (chosen c) l). simpl; auto. }
  unfold debug_if_needed. destruct (negb (enabled c)); auto. destruct e as [x|]; auto.
  destruct (has_session c && _ && _); auto. destruct (match x with XExit => true | _ => false end); auto.
  destruct (match filters c with [] => _ | _ => _ end); auto. contradiction.
Qed.

Lemma take_perm n l d r : take n l = Some (d, r) -> d_name d = n /\ Permutation l (d :: r) /\
  exists a b, l = a ++ d :: b /\ r = a ++ b /\ Forall (fun x => d_name x <> n) a.
Proof.
  revert r. induction l as [|x l IH]; intros r; simpl; [discriminate|].
  destruct (Nat.eqb_spec n (d_name x)) as [E|N].
  - injection 1 as <- <-. split; auto. split; auto. exists [], l. auto.
  - destruct (take n l) as [[y r']|]; [|discriminate]. injection 1 as <- <-.
    destruct (IH r' eq_refl) as (A & B & a & b & C & D & F). split; auto. split.
    + rewrite B. apply perm_swap.
    + exists (x :: a), b. subst. repeat split. constructor; auto.
Qed.

Lemma take_none n l : take n l = None <-> Forall (fun x => d_name x <> n) l.
Proof.
  induction l as [|x l IH]; simpl; [split; auto|].
  destruct (Nat.eqb_spec n (d_name x)) as [E|N].
  - split; [discriminate|]. inversion 1; subst. contradiction.
  - destruct (take n l) as [[y r']|].
    + split; [discriminate|]. inversion 1; subst. apply IH in H3. discriminate.
    + split; auto. intros _. constructor; auto. apply IH. auto.
Qed.

(** a debugger that can be used: it can be imported and does not claim to be unimplemented *)
Definition usable (d : debugger) : Prop := d_does d = Works \/ d_does d = Fails.

Lemma attempt_first c a d b : Forall (fun x => d_does x = Missing) a -> usable d ->
  exists w, Forall (fun e => e = EUnavailable) w /\
    attempt c (a ++ d :: b) = (w ++ [EStart (d_name d)], match d_does d with Works => Done | _ => Raised end).
Proof.
  intros F U. induction F as [|x a X F (w & W & IH)]; cbn [app attempt].
  - exists []. split; auto. destruct U as [-> | ->]; auto.
  - rewrite X, IH. destruct c as [n|]; [destruct (Nat.eqb (d_name x) n)|].
    + exists (EUnavailable :: w). auto.
    + exists w. auto.
    + exists w. auto.
Qed.

Lemma attempt_none c l : Forall (fun x => ~ usable x) l -> snd (attempt c l) = NoDebugger.
Proof.
  induction 1 as [|x l X F IH]; auto. cbn [attempt]. unfold usable in X.
  destruct (attempt c l). simpl in IH. subst. destruct (d_does x); auto; tauto.
Qed.

Lemma split_missing l : (forall d, In d l -> d_does d <> Unimplemented) ->
  Forall (fun x => ~ usable x) l \/ exists a d b, l = a ++ d :: b /\ Forall (fun x => d_does x = Missing) a /\ usable d.
Proof.
  unfold usable. induction l as [|x l IH]; intros N; [left; auto|].
  destruct (d_does x) eqn:X.
  - destruct IH as [IH|(a & d & b & -> & A & U)]; [intros d I; apply N; simpl; auto| |].
    + left. constructor; auto. intros []; congruence.
    + right. exists (x :: a), d, b. auto.
  - right. exists [], x, l. auto.
  - exfalso. apply (N x); simpl; auto.
  - right. exists [], x, l. auto.
Qed.

Definition starts (t : list event) : list nat := flat_map (fun e => match e with EStart n => [n] | _ => [] end) t.

Lemma starts_app a b : starts (a ++ b) = starts a ++ starts b.
Proof. apply flat_map_app. Qed.

(** ** At most one debugger is started: the one that was chosen if it is known and can be
    imported, and else the first in the list that can; none is started iff none can be
    imported, which is NotImplementedError *)
Theorem C83_which_partial c known : (forall d, In d known -> d_does d <> Unimplemented) ->
  let '(t, o) := launch false c known in
  (starts t = [] /\ o = NoDebugger /\ Forall (fun d => d_does d = Missing) known) \/
  exists a d b, known = a ++ d :: b /\ usable d /\ starts t = [d_name d] /\ (o = Done <-> d_does d = Works) /\
    ((exists n, chosen c = Some n /\ d_name d = n /\ Forall (fun x => d_name x <> n) a) \/
     ((forall n, chosen c = Some n -> forall e a' b', known = a' ++ e :: b' -> d_name e = n ->
          Forall (fun x => d_name x <> n) a' -> d_does e = Missing) /\
      Forall (fun x => d_does x = Missing) a)).
Proof.
  intros N. unfold launch. destruct (order (chosen c) known) as [l w] eqn:O.
  assert (W : starts w = []).
  { unfold order in O. destruct (chosen c) as [n|]; [destruct (take n known) as [[d r]|]|]; injection O as <- <-; auto. }
  assert (PL : Permutation known l).
  { unfold order in O. destruct (chosen c) as [n|]; [destruct (take n known) as [[d r]|] eqn:T|]; injection O as <- <-; auto.
    apply take_perm in T. tauto. }
  destruct (attempt (chosen c) l) as [t o] eqn:A.
  destruct (split_missing l) as [F|(a & d & b & L & F & U)].
  { intros d I. apply N. apply Permutation_in with l; auto. symmetry. auto. }
  - left. assert (X := attempt_none (chosen c) l F). rewrite A in X. simpl in X. subst o.
    assert (ST : starts t = []).
    { assert (G : forall l t o, (forall d, In d l -> d_does d = Missing) -> attempt (chosen c) l = (t, o) -> starts t = []).
      { clear. induction l as [|x l IH]; intros t o M; cbn [attempt]; [injection 1 as <- <-; auto|].
        rewrite (M x) by (simpl; auto). destruct (attempt (chosen c) l) as [t' o'] eqn:E.
        injection 1 as <- <-. cbn [app]. rewrite starts_app, (IH t' o') by (auto; intros; apply M; simpl; auto).
        destruct (chosen c) as [n|]; [destruct (Nat.eqb (d_name x) n)|]; auto. }
      apply (G l t NoDebugger); auto. intros d I. rewrite Forall_forall in F. specialize (F d I). unfold usable in F.
      assert (NU : d_does d <> Unimplemented) by (apply N; apply Permutation_in with l; [symmetry|]; auto).
      destruct (d_does d); auto; tauto. }
    split; [|split; auto].
    + change (starts (EHook :: w ++ t)) with (starts (w ++ t)). rewrite starts_app, W, ST. auto.
    + apply Forall_forall. intros d I. rewrite Forall_forall in F.
      assert (I' : In d l) by (apply Permutation_in with known; auto). specialize (F d I'). unfold usable in F.
      specialize (N d I). destruct (d_does d); auto; tauto.
  - right. destruct (attempt_first (chosen c) a d b F U) as (w' & W' & E). rewrite <- L in E. rewrite A in E. injection E as -> ->.
    assert (SW : starts w' = []). { clear - W'. induction W' as [|x w X F IH]; auto. subst. auto. }
    assert (ST : starts (EHook :: w ++ w' ++ [EStart (d_name d)]) = [d_name d]).
    { change (starts (EHook :: w ++ w' ++ [EStart (d_name d)])) with (starts (w ++ w' ++ [EStart (d_name d)])).
      rewrite !starts_app, W, SW. auto. }
    assert (OD : (match d_does d with Works => Done | _ => Raised end) = Done <-> d_does d = Works).
    { destruct (d_does d); split; congruence. }
    unfold order in O. destruct (chosen c) as [n|] eqn:CH; [destruct (take n known) as [[e r]|] eqn:T|].
    + injection O as <- <-. destruct (take_perm _ _ _ _ T) as (EN & _ & a1 & b1 & K & R & FN).
      destruct a as [|x a].
      * injection L as <- <-. exists a1, e, b1. repeat split; auto; try tauto. left. exists n. auto.
      * injection L as <- L. rewrite R in L. clear R. inversion F as [|? ? FE FA]; subst.
        (* d is in a1 ++ b1 *)
        assert (exists a2 b2, a1 ++ e :: b1 = a2 ++ d :: b2 /\ Forall (fun x => d_does x = Missing) a2) as (a2 & b2 & E2 & F2).
        { revert L FA. clear - FE U. intros L FA. 
          assert (C : (exists z, a1 = a ++ d :: z) \/ (exists z, a = a1 ++ z)).
          { clear - L. revert a L. induction a1 as [|x a1 IH]; intros [|y a] L; simpl in *.
            - right. exists []. auto.
            - right. exists (y :: a). auto.
            - injection L as -> _. left. exists a1. auto.
            - injection L as -> L. destruct (IH _ L) as [[z ->]|[z ->]]; [left|right]; eauto. }
          destruct C as [[z ->]|[z ->]].
          - exists a, (z ++ e :: b1). rewrite <- app_assoc. auto.
          - apply Forall_app in FA. destruct FA as [FA FZ].
            rewrite <- app_assoc in L. apply app_inv_head in L. subst b1.
            exists (a1 ++ e :: z), b. rewrite <- app_assoc. split; auto. apply Forall_app. split; auto. }
        exists a2, d, b2. repeat split; auto; try tauto. right. split; auto.
        intros n' CN e' a' b' K' EN' FN'. injection CN as <-.
        assert (T' : take (d_name e) (a1 ++ e :: b1) = Some (e', a' ++ b')).
        { rewrite K'. clear - EN' FN'. induction FN' as [|x a' X F IH]; simpl.
          - rewrite <- EN', Nat.eqb_refl. auto.
          - destruct (Nat.eqb_spec (d_name e) (d_name x)); [congruence|]. rewrite IH. auto. }
        rewrite T in T'. injection T' as <- _. auto.
    + injection O as <- <-. exists a, d, b. repeat split; auto; try tauto. right. split; auto.
      intros n' CN e' a' b' K' EN' FN'. injection CN as <-. exfalso. apply take_none in T. rewrite K' in T.
      apply Forall_app in T. destruct T as [_ T]. inversion T; subst. contradiction.
    + injection O as <- <-. exists a, d, b. repeat split; auto; try tauto. right. split; auto. discriminate.
Qed.

Lemma attempt_warns c l :
  ~ In EUnknown (fst (attempt c l)) /\
  (In EUnavailable (fst (attempt c l)) -> exists n d, c = Some n /\ In d l /\ d_name d = n /\ ~ usable d).
Proof.
  induction l as [|d l [IH1 IH2]]; [split; intros []|]. cbn [attempt]. destruct (attempt c l) as [t o]. cbn [fst] in *.
  assert (U : d_does d = Missing \/ d_does d = Unimplemented -> ~ usable d) by (unfold usable; intros [-> | ->] []; discriminate).
  assert (G : forall w, (w = [] \/ w = [EStart (d_name d)]) ->
    ~ In EUnknown (w ++ match c with Some n => if Nat.eqb (d_name d) n then [EUnavailable] else [] | None => [] end ++ t) /\
    (~ usable d -> In EUnavailable (w ++ match c with Some n => if Nat.eqb (d_name d) n then [EUnavailable] else [] | None => [] end ++ t) ->
     exists n x, c = Some n /\ In x (d :: l) /\ d_name x = n /\ ~ usable x)).
  { intros w W. split.
    - rewrite !in_app_iff. intros [I|[I|I]]; [| |exact (IH1 I)].
      + destruct W as [-> | ->]; [destruct I|destruct I as [I|[]]; discriminate].
      + destruct c as [n|]; [|destruct I]. destruct (Nat.eqb (d_name d) n); [destruct I as [I|[]]; discriminate|destruct I].
    - intros NU. rewrite !in_app_iff. intros [I|[I|I]].
      + destruct W as [-> | ->]; [destruct I|destruct I as [I|[]]; discriminate].
      + destruct c as [n|]; [|destruct I]. destruct (Nat.eqb_spec (d_name d) n); [|destruct I]. exists n, d. cbn. auto.
      + destruct (IH2 I) as (n & x & A & B & C). exists n, x. cbn. tauto. }
  destruct (d_does d) eqn:D; cbn [fst].
  - destruct (G []) as [G1 G2]; auto.
  - split; [intros [I|[]]; discriminate|intros [I|[]]; discriminate].
  - destruct (G [EStart (d_name d)]) as [G1 G2]; auto.
  - split; [intros [I|[]]; discriminate|intros [I|[]]; discriminate].
Qed.

(** ** There is a warning about a chosen debugger nobody knows, another one about a chosen debugger that cannot be used, and no other *)
Theorem C83_warned c known : NoDup (map d_name known) ->
  let t := fst (launch false c known) in
  (In EUnknown t <-> exists n, chosen c = Some n /\ forall d, In d known -> d_name d <> n) /\
  (In EUnavailable t <-> exists n d, chosen c = Some n /\ In d known /\ d_name d = n /\ ~ usable d).
Proof.
  intros ND. cbv zeta. unfold launch. destruct (order (chosen c) known) as [l w] eqn:O. pose proof (attempt_warns (chosen c) l) as [A1 A2].
  destruct (attempt (chosen c) l) as [t o] eqn:A. cbn [fst] in *. unfold order in O. destruct (chosen c) as [n|].
  - destruct (take n known) as [[d r]|] eqn:T; injection O as <- <-.
    + destruct (take_perm _ _ _ _ T) as (EN & P & _). cbn [app]. split; split.
      * intros [I|I]; [discriminate|contradiction].
      * intros (m & M & F). injection M as <-. exfalso. apply (F d); [apply (Permutation_in _ (Permutation_sym P)); left; reflexivity|exact EN].
      * intros [I|I]; [discriminate|]. destruct (A2 I) as (m & x & M & X & N & U). exists m, x. repeat split; auto.
        apply (Permutation_in _ (Permutation_sym P)), X.
      * intros (m & x & M & X & N & U). injection M as <-. right.
        assert (x = d) as ->.
        { apply (Permutation_in _ P) in X as [X|X]; [auto|]. exfalso.
          assert (ND' : NoDup (map d_name (d :: r))) by (eapply Permutation_NoDup; [apply Permutation_map, P|exact ND]).
          inversion ND' as [|? ? NI _]; subst. apply NI. rewrite <- N. apply in_map, X. }
        cbn [attempt] in A. destruct (attempt (Some n) r) as [t' o']. rewrite EN, Nat.eqb_refl in A. unfold usable in U.
        destruct (d_does d); try tauto; injection A as <- <-; cbn; auto.
    + apply take_none in T. rewrite Forall_forall in T. split; split.
      * intros _. exists n. auto.
      * intros _. right. left. reflexivity.
      * intros [I|[I|I]]; try discriminate. destruct (A2 I) as (m & x & M & X & N & _). injection M as <-. destruct (T x X N).
      * intros (m & x & M & X & N & _). injection M as <-. destruct (T x X N).
  - injection O as <- <-. cbn [app]. split; split.
    + intros [I|I]; [discriminate|contradiction].
    + intros (m & M & _). discriminate.
    + intros [I|I]; [discriminate|]. destruct (A2 I) as (m & x & M & _). discriminate.
    + intros (m & x & M & _). discriminate.
Qed.

(** ** A debugger that itself raises NotImplementedError (or code run in it) is taken for an
    unavailable one: a second debugger is started on the same exception *)
Theorem C83_which_refuted : exists c known t o,
  launch false c known = (t, o) /\ starts t = [1; 2] /\ o = Done /\ In EUnavailable t /\ chosen c = Some 1.
Proof.
  exists (mkConf true false true [] (Some 1)), [mkDebugger 1 Unimplemented; mkDebugger 2 Works]. eexists _, _.
  vm_compute. repeat split. auto.
Qed.

(** pudb is chosen but missing, ipdb is used: with the warning *)
Example C83_ex :
  let known := [mkDebugger 1 Missing; mkDebugger 2 Works; mkDebugger 3 Works] in
  (forall d, In d known -> d_does d <> Unimplemented) /\
  debug_if_needed false (mkConf true false true [true] (Some 1)) known (Some XOther) = ([EHook; EUnavailable; EStart 2], Done) /\
  debug_if_needed false (mkConf true false true [true] (Some 3)) known (Some XOther) = ([EHook; EStart 3], Done) /\
  debug_if_needed false (mkConf true false true [] (Some 7)) known (Some XOther) = ([EHook; EUnknown; EStart 2], Done) /\
  debug_if_needed false (mkConf true false true [] None) known (Some XSkip) = ([], Done).
Proof.
  cbv zeta. split; [|repeat split]. intros d [<-|[<-|[<-|[]]]]; discriminate.
Qed.

Print Assumptions C83_when.
Print Assumptions C83_quiet.
Print Assumptions C83_which_partial.
Print Assumptions C83_which_refuted.
Print Assumptions C83_warned.
