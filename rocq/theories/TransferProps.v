(** Properties of the transfer of results (Transfer.v): C81. *)

From Coq Require Import List Bool Arith Lia.
From Verif Require Import Transfer.
Import ListNotations.

(** * C81 *)

Section P.
Variable dumps : item -> dumped.
Variable loads : item -> loaded.
Variable rr : event -> bool.

(** the attribute can be pickled and unpickled *)
Definition arrives (i : item) : Prop := dumps i = DBytes /\ loads i = LValue.

Lemma serialize_items_spec l d : serialize_items dumps l = Some d ->
  d = filter (fun i => sent i && match dumps i with DBytes => true | _ => false end) l.
Proof.
  revert d. induction l as [|i l IH]; intros d; simpl; [injection 1 as <-; auto|].
  destruct (sent i), (dumps i); simpl; try discriminate; auto.
  destruct (serialize_items dumps l); [|discriminate]. injection 1 as <-. f_equal. auto.
Qed.

Lemma load_items_spec d : forall r r', load_items loads d r = (r', false) ->
  r' = fold_left (fun r i => set_item i r) (filter (fun i => match loads i with LValue => true | _ => false end) d) r.
Proof.
  induction d as [|i d IH]; intros r r'; simpl; [injection 1 as <-; auto|].
  destruct (loads i); simpl; auto. discriminate.
Qed.

Definition got (i : item) : bool := match dumps i, loads i with DBytes, LValue => true | _, _ => false end.
Lemma got_iff i : got i = true <-> arrives i.
Proof. unfold got, arrives. destruct (dumps i), (loads i); split; (discriminate || tauto || (intros []; discriminate)). Qed.

Lemma filter_two l : filter (fun i => match loads i with LValue => true | _ => false end)
   (filter (fun i => sent i && match dumps i with DBytes => true | _ => false end) l)
  = filter (fun i => sent i && got i) l.
Proof.
  unfold got. induction l as [|i l IH]; simpl; auto.
  destruct (sent i), (dumps i); simpl; auto; destruct (loads i); simpl; congruence.
Qed.

Lemma put_get k v d j : find (fun x => Nat.eqb j (fst x)) (put k v d)
  = if Nat.eqb j k then Some (k, v) else find (fun x => Nat.eqb j (fst x)) d.
Proof.
  induction d as [|[k' v'] d IH]; simpl.
  - destruct (Nat.eqb j k); auto.
  - destruct (Nat.eqb_spec k k') as [->|NK]; simpl.
    + destruct (Nat.eqb j k'); auto.
    + rewrite IH. destruct (Nat.eqb_spec j k'), (Nat.eqb_spec j k); subst; auto. contradiction.
Qed.

(** folding over the named attributes changes them only *)
Lemma fold_others l : forall r,
  let r' := fold_left (fun r i => set_item i r) (filter (fun i => sent i && got i) (map (fun x => IOther (fst x) (snd x)) l)) r in
  r_metadata r' = r_metadata r /\ r_facts r' = r_facts r /\ r_errors r' = r_errors r /\ r_failures r' = r_failures r /\
  r_skips r' = r_skips r /\ r_started r' = r_started r /\ r_finished r' = r_finished r /\ r_interrupted r' = r_interrupted r.
Proof.
  induction l as [|[k v] l IH]; intros r; cbn [map filter fst snd sent andb fold_left]; [repeat split|].
  destruct (got (IOther k v)); cbn [fold_left]; cbv zeta in *.
  - specialize (IH (set_item (IOther k v) r)). simpl in IH. exact IH.
  - apply IH.
Qed.

Lemma fold_others_get l : NoDup (map fst l) -> forall r j,
  find (fun x => Nat.eqb j (fst x)) (r_others (fold_left (fun r i => set_item i r)
     (filter (fun i => sent i && got i) (map (fun x => IOther (fst x) (snd x)) l)) r))
  = match find (fun x => Nat.eqb j (fst x)) l with
    | Some (k, v) => if got (IOther k v) then Some (k, v) else find (fun x => Nat.eqb j (fst x)) (r_others r)
    | None => find (fun x => Nat.eqb j (fst x)) (r_others r)
    end.
Proof.
  induction l as [|[k v] l IH]; intros ND r j; cbn [map filter fst snd sent andb fold_left find]; auto.
  cbn [map fst] in ND. inversion ND as [|? ? NI ND']; subst.
  assert (NF : forall j, Nat.eqb j k = true -> find (fun x => Nat.eqb j (fst x)) l = None).
  { intros i E. apply Nat.eqb_eq in E. subst i. destruct (find _ l) as [[a b]|] eqn:F; auto.
    apply find_some in F. destruct F as [F1 F2]. apply Nat.eqb_eq in F2. simpl in F2. subst.
    exfalso. apply NI. apply in_map_iff. exists (a, b). auto. }
  destruct (got (IOther k v)) eqn:G; cbn [fold_left].
  - rewrite IH by auto. cbn [set_item r_others]. rewrite put_get.
    destruct (Nat.eqb j k) eqn:E; [rewrite NF by auto|]; auto. rewrite G. auto.
  - rewrite IH by auto. destruct (Nat.eqb j k) eqn:E; [rewrite NF by auto|]; auto. rewrite G. auto.
Qed.

(** ** Each attribute arrives or stays as it was in the parent, whatever happens to the others;
    the metadata and the facts of the parent stay *)
Theorem C81_attributes w p d p' :
  serialize dumps w = Some d -> load_items loads d p = (p', false) -> NoDup (map fst (r_others w)) ->
  let either {A} (i : item) (x y z : A) := (arrives i -> z = x) /\ (~ arrives i -> z = y) in
  r_metadata p' = r_metadata p /\ r_facts p' = r_facts p /\
  either (IErrors (r_errors w)) (r_errors w) (r_errors p) (r_errors p') /\
  either (IFailures (r_failures w)) (r_failures w) (r_failures p) (r_failures p') /\
  either (ISkips (r_skips w)) (r_skips w) (r_skips p) (r_skips p') /\
  either (IStarted (r_started w)) (r_started w) (r_started p) (r_started p') /\
  either (IFinished (r_finished w)) (r_finished w) (r_finished p) (r_finished p') /\
  either (IInterrupted (r_interrupted w)) (r_interrupted w) (r_interrupted p) (r_interrupted p') /\
  forall k, let get r := find (fun x => Nat.eqb k (fst x)) (r_others r) in
    match get w with
    | Some (_, v) => either (IOther k v) (Some (k, v)) (get p) (get p')
    | None => get p' = get p
    end.
Proof.
  intros S L ND. apply serialize_items_spec in S. subst d. apply load_items_spec in L. subst p'.
  rewrite filter_two. unfold items. cbn [filter sent andb].
  cbv zeta.
  assert (E : forall {A} i (x y z : A), z = (if got i then x else y) -> (arrives i -> z = x) /\ (~ arrives i -> z = y)).
  { intros A i x y z ->. rewrite <- got_iff. destruct (got i); split; auto; try congruence; intros N; exfalso; auto. }
  set (o := filter _ (map _ _)).
  match goal with |- context [fold_left ?f ?l p] => set (r' := fold_left f l p) end.
  assert (F : exists r0, r' = fold_left (fun r i => set_item i r) o r0 /\ r_metadata r0 = r_metadata p /\ r_facts r0 = r_facts p /\
    r_errors r0 = (if got (IErrors (r_errors w)) then r_errors w else r_errors p) /\
    r_failures r0 = (if got (IFailures (r_failures w)) then r_failures w else r_failures p) /\
    r_skips r0 = (if got (ISkips (r_skips w)) then r_skips w else r_skips p) /\
    r_started r0 = (if got (IStarted (r_started w)) then r_started w else r_started p) /\
    r_finished r0 = (if got (IFinished (r_finished w)) then r_finished w else r_finished p) /\
    r_interrupted r0 = (if got (IInterrupted (r_interrupted w)) then r_interrupted w else r_interrupted p) /\
    r_others r0 = r_others p).
  { unfold r'. clear E. 
    destruct (got (IErrors (r_errors w))), (got (IFailures (r_failures w))), (got (ISkips (r_skips w))),
      (got (IStarted (r_started w))), (got (IFinished (r_finished w))), (got (IInterrupted (r_interrupted w)));
      cbn [fold_left]; (eexists; split; [reflexivity|]; simpl; tauto). }
  destruct F as (r0 & R & A1 & A2 & A3 & A4 & A5 & A6 & A7 & A8 & A9).
  destruct (fold_others (r_others w) r0) as (B1 & B2 & B3 & B4 & B5 & B6 & B7 & B8).
  fold o in B1, B2, B3, B4, B5, B6, B7, B8.
  assert (G := fold_others_get (r_others w) ND r0). fold o in G.
  rewrite <- R in *. clear R. clearbody r'.
  split; [congruence|]. split; [congruence|].
  split; [apply E; congruence|]. split; [apply E; congruence|]. split; [apply E; congruence|].
  split; [apply E; congruence|]. split; [apply E; congruence|]. split; [apply E; congruence|].
  intros k. specialize (G k). rewrite A9 in G. destruct (find _ (r_others w)) as [[k' v]|] eqn:W; auto.
  apply find_some in W. destruct W as [_ W]. apply Nat.eqb_eq in W. simpl in W. subst k'. apply E. auto.
Qed.

Lemma report_all_none l : (forall e, rr e = false) -> report_all rr l = (l, false).
Proof. intros R. induction l as [|e l IH]; simpl; auto. rewrite R, IH. auto. Qed.

(** what is reported is a beginning of what there is to report, all of it unless reporting
    raises *)
Lemma report_all_prefix l t x : report_all rr l = (t, x) -> (exists s, l = t ++ s) /\ (x = false -> t = l).
Proof.
  revert t x. induction l as [|e l IH]; intros t x; simpl; [injection 1 as <- <-; split; [exists []; auto|auto]|].
  destruct (rr e); [injection 1 as <- <-; split; [exists l; auto|discriminate]|].
  destruct (report_all rr l) as [t' x'] eqn:E. injection 1 as <- <-. destruct (IH _ _ eq_refl) as [[s ->] B].
  split; [exists s; auto|]. intros X. f_equal. auto.
Qed.

Lemma serialize_ok l : (forall i, In i l -> sent i = true -> arrives i) -> serialize_items dumps l = Some (filter sent l).
Proof.
  induction l as [|i l IH]; intros A; simpl; auto.
  rewrite IH by (intros; apply A; simpl; auto). destruct (sent i) eqn:S; auto.
  destruct (A i (or_introl eq_refl) S) as [-> _]. auto.
Qed.

Lemma load_ok d : (forall i, In i d -> arrives i) -> forall r, load_items loads d r = (fold_left (fun r i => set_item i r) d r, false).
Proof.
  induction d as [|i d IH]; intros A r; simpl; auto.
  destruct (A i (or_introl eq_refl)) as [_ ->]. apply IH. intros; apply A; simpl; auto.
Qed.

(** ** If everything can be pickled and reporting does not fail, the parent's result says what
    the worker's result says, and each failure, error and skip is reported once *)
Theorem C81_faithful_partial w p :
  (forall i, In i (items w) -> sent i = true -> arrives i) -> (forall e, rr e = false) ->
  Forall (fun e => e_failure e = true) (r_failures w) -> NoDup (map fst (r_others w)) ->
  exists d p', serialize dumps w = Some d /\
    deserialize loads rr d p = (p', map EFailure (r_failures w) ++ map EError (r_errors w) ++ map ESkip (r_skips w), false) /\
    r_metadata p' = r_metadata p /\ r_facts p' = r_facts p /\
    r_errors p' = r_errors w /\ r_failures p' = r_failures w /\ r_skips p' = r_skips w /\
    r_started p' = r_started w /\ r_finished p' = r_finished w /\ r_interrupted p' = r_interrupted w /\
    (forall k v, In (k, v) (r_others w) -> In (k, v) (r_others p')) /\
    (forall b, is_success b p' = is_success b w) /\ has_fatal p' = has_fatal w.
Proof.
  intros A R FF ND. assert (S := serialize_ok _ A). exists (filter sent (items w)).
  assert (A' : forall i, In i (filter sent (items w)) -> arrives i).
  { intros i I. apply filter_In in I. destruct I. auto. }
  assert (L := load_ok _ A' p). set (p1 := fold_left _ (filter sent (items w)) p) in L.
  destruct (C81_attributes w p _ p1 S L ND) as (B1 & B2 & (B3 & _) & (B4 & _) & (B5 & _) & (B6 & _) & (B7 & _) & (B8 & _) & B9).
  clearbody p1. unfold items in A. cbn [In] in A.
  assert (E1 : r_errors p1 = r_errors w) by (apply B3; apply A; [simpl; tauto|auto]).
  assert (E2 : r_failures p1 = r_failures w) by (apply B4; apply A; [simpl; tauto|auto]).
  assert (E3 : r_skips p1 = r_skips w) by (apply B5; apply A; [simpl; tauto|auto]).
  assert (E4 : r_started p1 = r_started w) by (apply B6; apply A; [simpl; tauto|auto]).
  assert (E5 : r_finished p1 = r_finished w) by (apply B7; apply A; [simpl; tauto|auto]).
  assert (E6 : r_interrupted p1 = r_interrupted w) by (apply B8; apply A; [simpl; tauto|auto]).
  assert (M : map mark_failure (r_failures w) = r_failures w).
  { clear - FF. induction FF as [|[i f x] l F _ IH]; simpl; auto. simpl in F. subst. rewrite IH. auto. }
  exists (mark_failures (length (announcements p1)) p1). split; [exact S|]. split.
  { unfold deserialize. rewrite L, report_all_none by auto. do 2 f_equal. 
    unfold announcements. rewrite E1, E2, E3. f_equal. rewrite <- M at 2. rewrite map_map. auto. }
  assert (MF : r_failures (mark_failures (length (announcements p1)) p1) = r_failures w).
  { unfold mark_failures. cbn [set_item r_failures]. rewrite E2.
    rewrite firstn_all2, skipn_all2, app_nil_r; auto; unfold announcements; rewrite app_length, map_length, E2; lia. }
  rewrite MF. repeat (split; [solve [auto]|]). split.
  { intros k v I. unfold mark_failures. cbn [set_item r_others]. specialize (B9 k). cbv zeta beta in B9.
    destruct (find _ (r_others w)) as [[k' v']|] eqn:F.
    - apply find_some in F. destruct F as [I' F]. apply Nat.eqb_eq in F. simpl in F. subst k'.
      assert (v' = v). 
      { clear - ND I I'. induction (r_others w) as [|[a b] l IH]; [contradiction|]. simpl in *.
        inversion ND as [|? ? NI ND']; subst. destruct I as [I|I], I' as [I'|I'].
        - congruence.
        - injection I as -> ->. exfalso. apply NI. apply in_map_iff. exists (k, v'). auto.
        - injection I' as -> ->. exfalso. apply NI. apply in_map_iff. exists (k, v). auto.
        - auto. }
      subst v'. destruct B9 as [B9 _]. assert (V : arrives (IOther k v)).
      { apply A; auto. do 8 right. apply in_map_iff. exists (k, v). auto. }
      specialize (B9 V). apply find_some in B9. tauto.
    - exfalso. apply (find_none _ _ F) in I. simpl in I. rewrite Nat.eqb_refl in I. discriminate. }
  split.
  - intros b. unfold is_success. rewrite MF. unfold mark_failures. cbn [set_item r_errors r_skips r_interrupted r_started].
    rewrite E1, E3, E4, E6. auto.
  - unfold has_fatal. rewrite MF. unfold mark_failures. cbn [set_item r_errors]. rewrite E1. auto.
Qed.

(** ** A result in which something went wrong does not become a success as long as the errors,
    the failures and the mark of the interruption can be pickled, whatever else is lost *)
Theorem C81_no_false_success_partial w p d p' t x :
  arrives (IErrors (r_errors w)) -> arrives (IFailures (r_failures w)) -> arrives (IInterrupted (r_interrupted w)) ->
  NoDup (map fst (r_others w)) -> r_started p = false -> r_skips p = [] ->
  serialize dumps w = Some d -> load_items loads d p = (p', false) -> deserialize loads rr d p = (mark_failures (length t) p', t, x) ->
  is_success true (mark_failures (length t) p') = true -> is_success true w = true.
Proof.
  intros A1 A2 A3 ND PS PK S L D.
  destruct (C81_attributes w p _ p' S L ND) as (_ & _ & (B3 & _) & (B4 & _) & (B5 & B5') & (B6 & B6') & _ & (B8 & _) & _).
  unfold is_success, mark_failures. cbn [set_item r_errors r_failures r_interrupted r_skips r_started].
  rewrite (B3 A1), (B4 A2), (B8 A3). destruct (r_errors w); [|discriminate].
  destruct (r_failures w) as [|f l]; [|destruct (length t); discriminate].
  rewrite firstn_nil, skipn_nil. cbn [map app]. destruct (r_interrupted w); [discriminate|].
  destruct (r_skips w) as [|s sk] eqn:SK; auto.
  assert (K : r_skips p' = []).
  { destruct (got (ISkips [])) eqn:G.
    - apply B5. apply got_iff. auto.
    - rewrite B5'; auto. rewrite <- got_iff. congruence. }
  rewrite K. intros ST. destruct (got (IStarted (r_started w))) eqn:G.
  - rewrite <- B6; auto. apply got_iff. auto.
  - rewrite B6' in ST; [congruence|]. rewrite <- got_iff. congruence.
Qed.

(** ** Nothing is sent iff some attribute fails to be pickled with another exception *)
Theorem C81_not_sent w : serialize dumps w = None <-> exists i, In i (items w) /\ sent i = true /\ dumps i = DRaises.
Proof.
  unfold serialize. generalize (items w). intros l. induction l as [|i l IH]; simpl.
  - split; [discriminate|]. intros (i & [] & _).
  - destruct (sent i) eqn:S.
    + destruct (dumps i) eqn:D.
      * destruct (serialize_items dumps l) as [d|].
        -- split; [discriminate|]. intros (j & [->|J] & K & L); [congruence|].
           assert (N : Some d = None) by (apply IH; eauto). discriminate.
        -- split; auto. intros _. destruct (proj1 IH eq_refl) as (j & J & K). exists j. auto.
      * rewrite IH. split; intros (j & J & K & L); [exists j; auto|].
        destruct J as [->|J]; [congruence|]. exists j. auto.
      * split; auto. intros _. exists i. auto.
    + rewrite IH. split; intros (j & J & K & L); [exists j; auto|].
      destruct J as [->|J]; [congruence|]. exists j. auto.
Qed.

(** ** Everything is reported in order up to the first report that raises, which is raised;
    the result itself is complete all the same *)
Theorem C81_reports d p p1 p' t x :
  load_items loads d p = (p1, false) -> deserialize loads rr d p = (p', t, x) ->
  (exists s, map (fun e => EFailure (mkErr (e_id e) true (e_fatal e))) (r_failures p1) ++ map EError (r_errors p1) ++ map ESkip (r_skips p1) = t ++ s /\
     (x = false -> s = [] /\ forall e, In e t -> rr e = false) /\
     (x = true -> exists t' e, t = t' ++ [e] /\ rr e = true /\ forall e', In e' t' -> rr e' = false)) /\
  map e_id (r_failures p') = map e_id (r_failures p1) /\ r_errors p' = r_errors p1 /\ r_skips p' = r_skips p1 /\
  is_success true p' = is_success true p1 /\ has_fatal p' = has_fatal p1.
Proof.
  intros L. unfold deserialize. rewrite L.
  change (map (fun e => EFailure (mkErr (e_id e) true (e_fatal e))) (r_failures p1) ++ map EError (r_errors p1) ++ map ESkip (r_skips p1))
    with (announcements p1).
  assert (K : forall l t x, report_all rr l = (t, x) -> exists s, l = t ++ s /\
     (x = false -> s = [] /\ forall e, In e t -> rr e = false) /\
     (x = true -> exists t' e, t = t' ++ [e] /\ rr e = true /\ forall e', In e' t' -> rr e' = false)).
  { induction l as [|e l IH]; simpl; intros t0 x0.
    - injection 1 as <- <-. exists []. split; auto. split; [|discriminate]. split; auto. intros e [].
    - destruct (rr e) eqn:E.
      + injection 1 as <- <-. exists l. split; auto. split; [discriminate|]. intros _. exists [], e. split; auto. split; auto. intros e' [].
      + destruct (report_all rr l) as [t1 x1]. injection 1 as <- <-. destruct (IH _ _ eq_refl) as (s & -> & A & B).
        exists s. split; auto. split.
        * intros X. destruct (A X) as [-> C]. split; auto. intros e' [<-|I]; auto.
        * intros X. destruct (B X) as (t' & e' & -> & C & D). exists (e :: t'), e'. split; auto. split; auto. intros e'' [<-|I]; auto. }
  destruct (report_all rr (announcements p1)) as [t1 x1] eqn:R. injection 1 as <- <- <-.
  split; [apply (K _ _ _ R)|]. unfold mark_failures. cbn [set_item r_failures r_errors r_skips].
  assert (I : forall n (l : list error), map e_id (map mark_failure (firstn n l) ++ skipn n l) = map e_id l).
  { induction n as [|n IH]; intros [|e l]; simpl; auto. f_equal. apply IH. }
  assert (F : forall n (l : list error), existsb e_fatal (map mark_failure (firstn n l) ++ skipn n l) = existsb e_fatal l).
  { induction n as [|n IH]; intros [|e l]; simpl; auto. f_equal. apply IH. }
  split; auto. split; auto. split; auto. split.
  - unfold is_success. cbn [set_item r_failures r_errors r_skips r_interrupted r_started].
    specialize (I (length t1) (r_failures p1)). destruct (r_failures p1) as [|f l].
    + destruct (length t1); auto.
    + destruct (map mark_failure (firstn (length t1) (f :: l)) ++ skipn (length t1) (f :: l)); [discriminate|].
      destruct (r_errors p1); auto.
  - unfold has_fatal. cbn [set_item r_failures r_errors]. rewrite existsb_app, F, <- existsb_app. auto.
Qed.
End P.

(** ** A failed test is a successful one in the parent if its errors cannot be pickled *)
Theorem C81_refuted : exists dumps loads w p d p' t,
  is_success true w = false /\ r_errors w <> [] /\
  r_started p = false /\ r_errors p = [] /\
  serialize dumps w = Some d /\ deserialize loads (fun _ => false) d p = (p', t, false) /\
  is_success true p' = true /\ t = [].
Proof.
  exists (fun i => match i with IErrors _ => DRefused | _ => DBytes end), (fun _ => LValue),
    (mkRes 1 0 [mkErr 5 false false] [] [] true true false []), (mkRes 1 0 [] [] [] false false false []).
  eexists _, _, _. vm_compute. repeat split; discriminate.
Qed.

(** the facts of the worker do not arrive, even if everything can be pickled *)
Theorem C81_facts_refuted : exists w p d p' t,
  serialize (fun _ => DBytes) w = Some d /\ deserialize (fun _ => LValue) (fun _ => false) d p = (p', t, false) /\
  r_facts w <> r_facts p'.
Proof.
  exists (mkRes 1 7 [] [] [] true true false []), (mkRes 1 0 [] [] [] false false false []).
  eexists _, _, _. vm_compute. repeat split. discriminate.
Qed.

(** a result with an error, a failure, two skips and two other attributes *)
Example C81_ex :
  let w := mkRes 1 7 [mkErr 5 false true] [mkErr 6 true false] [3; 4] true true false [(1, 10); (2, 20)] in
  let p := mkRes 1 0 [] [] [] false false false [(2, 0)] in
  Forall (fun e => e_failure e = true) (r_failures w) /\ NoDup (map fst (r_others w)) /\
  serialize (fun _ => DBytes) w = Some [IErrors [mkErr 5 false true]; IFailures [mkErr 6 true false]; ISkips [3; 4];
     IStarted true; IFinished true; IInterrupted false; IOther 1 10; IOther 2 20] /\
  deserialize (fun _ => LValue) (fun _ => false)
    [IErrors [mkErr 5 false true]; IFailures [mkErr 6 true false]; ISkips [3; 4];
     IStarted true; IFinished true; IInterrupted false; IOther 1 10; IOther 2 20] p =
    (mkRes 1 0 [mkErr 5 false true] [mkErr 6 true false] [3; 4] true true false [(2, 20); (1, 10)],
     [EFailure (mkErr 6 true false); EError (mkErr 5 false true); ESkip 3; ESkip 4], false) /\
  is_success true p = false.
Proof.
  cbv zeta. split; [repeat constructor|]. split; [|repeat split].
  repeat constructor; simpl; intuition discriminate.
Qed.

(** the report of the error raises: the skip is not reported any more, but is in the result *)
Example C81_reports_ex :
  let d := [IErrors [mkErr 5 false true]; IFailures [mkErr 6 false false]; ISkips [3]; IStarted true] in
  let p := mkRes 1 0 [] [] [] false false false [] in
  load_items (fun _ => LValue) d p = (mkRes 1 0 [mkErr 5 false true] [mkErr 6 false false] [3] true false false [], false) /\
  deserialize (fun _ => LValue) (fun e => match e with EError _ => true | _ => false end) d p =
    (mkRes 1 0 [mkErr 5 false true] [mkErr 6 true false] [3] true false false [], [EFailure (mkErr 6 true false); EError (mkErr 5 false true)], true).
Proof. split; reflexivity. Qed.

Print Assumptions C81_attributes.
Print Assumptions C81_faithful_partial.
Print Assumptions C81_no_false_success_partial.
Print Assumptions C81_not_sent.
Print Assumptions C81_reports.
Print Assumptions C81_refuted.
Print Assumptions C81_facts_refuted.
