(** C86, C87: a parametrized function is called once with each combination of the
    values its decorators give. *)

From Coq Require Import List Bool Arith PeanoNat Lia Permutation.
From Verif Require Import Dict Variations VariationsProps Parameters.
Import ListNotations.

(** ** Specification *)

(** what the user wrote for one row *)
Definition written (it : item) : option value :=
  match it with Plain v => Some v | Labelled _ v => v end.

(** the values an item gives to the names: to one name the whole value, to several
    names the elements of a sequence of the same length *)
Inductive gives : list nat -> item -> list value -> Prop :=
| gives_one n it v : written it = Some v -> gives [n] it [v]
| gives_several ns it l : 1 < length ns -> written it = Some (VSeq l) -> length l = length ns ->
    gives ns it (map VAtom l).

Definition nms (d : pname * list item) : list nat := names_of (fst d).

(** a choice of one row per decorator *)
Definition choice (D : list (pname * list item)) (rows : list (list value)) : Prop :=
  Forall2 (fun d r => exists it, In it (snd d) /\ gives (nms d) it r) D rows.

(** the function is called with exactly these rows *)
Definition receives (i : info) (v : variation) (D : list (pname * list item)) (rows : list (list value)) : Prop :=
  exists kw, called_with i v [] = Some kw
    /\ Forall2 (fun d r => map (fun n => d_get n kw) (nms d) = map Some r) D rows
    /\ forall n, d_get n kw <> None -> In n (flat_map nms D).

(** ** Normalized values *)

Lemma mem_In n l : mem n l = true <-> In n l.
Proof.
  unfold mem. rewrite existsb_exists. split.
  - intros [x [I E]]. apply Nat.eqb_eq in E. subst; auto.
  - intros I. exists n. split; auto. apply Nat.eqb_refl.
Qed.
Lemma mem_false n l : mem n l = false <-> ~ In n l.
Proof. rewrite <- mem_In. destruct (mem n l); split; congruence. Qed.

Lemma single_spec k it : match normalize_single k it with inr v => written it = Some (pv_value v) | inl e => written it = None /\ e = NoValue end.
Proof. destruct it as [v|l [v|]]; simpl; auto. Qed.

Lemma check_spec num v : check_value num v = None <-> (num <= 1 \/ exists l, v = VSeq l /\ length l = num).
Proof.
  unfold check_value. destruct (Nat.ltb_spec 1 num).
  - destruct v as [n|l].
    + split; [discriminate|]. intros [H0|(l & E & _)]; [lia|discriminate].
    + destruct (Nat.eqb_spec (length l) num); split; eauto; try discriminate. intros [H0|(l' & E & L)]; [lia|congruence].
  - split; auto.
Qed.

Lemma normalize_spec num items : forall index vs, normalize_values num index items = inr vs ->
  length vs = length items /\
  forall k it, nth_error items k = Some it -> exists v, nth_error vs k = Some v /\ written it = Some (pv_value v) /\ check_value num (pv_value v) = None.
Proof.
  induction items as [|it items IH]; intros index vs; simpl.
  - intros H; injection H as <-. split; auto. intros [|k] it; discriminate.
  - pose proof (single_spec index it) as Si. destruct (normalize_single index it) as [e|v]; [discriminate|].
    case_eq (check_value num (pv_value v)); [discriminate|]. intros C.
    specialize (IH (S index)). destruct (normalize_values num (S index) items) as [e|vs']; [discriminate|].
    intros H; injection H as <-. destruct (IH vs' eq_refl) as [L N]. split; [simpl; auto|].
    intros [|k] it'; simpl; [|apply N]. intros H; injection H as <-. eauto.
Qed.

Lemma normalize_ok ns items : ns <> [] -> forall index, (exists vs, normalize_values (length ns) index items = inr vs) <->
  (forall it, In it items -> exists r, gives ns it r).
Proof.
  intros Ne. induction items as [|it items IH]; intros index; simpl.
  - split; [intros _ it []|eauto].
  - pose proof (single_spec index it) as Si. destruct (normalize_single index it) as [e|v].
    + destruct Si as [W _]. split; [intros [vs E]; discriminate|]. intros H. destruct (H it (or_introl eq_refl)) as [r G]. inversion G; congruence.
    + case_eq (check_value (length ns) (pv_value v)).
      * intros e C. split; [intros [vs E]; discriminate|]. intros H. destruct (H it (or_introl eq_refl)) as [r G]. exfalso.
        assert (Cn : check_value (length ns) (pv_value v) = None); [|congruence]. apply check_spec.
        inversion G as [n it0 v0 W|ns0 it0 l Ln W L]; subst; [simpl; auto|]. right. exists l. split; [congruence|auto].
      * intros C. apply check_spec in C. specialize (IH (S index)). destruct (normalize_values (length ns) (S index) items) as [e|vs'].
        -- split; [intros [vs E]; discriminate|]. intros H. destruct IH as [_ IH]. destruct IH as [vs E]; [|discriminate].
           intros it' I. apply H. auto.
        -- split; [|eauto]. intros _ it' [<-|I]; [|apply IH; eauto].
           destruct C as [C|(l & E & L)].
           ++ destruct ns as [|n [|]]; simpl in C; try lia; [congruence|]. exists [pv_value v]. constructor; auto.
           ++ destruct ns as [|n [|n' ns]]; [congruence| |].
              ** exists [pv_value v]. constructor; auto.
              ** exists (map VAtom l). constructor; simpl in *; try lia. congruence.
Qed.

(** ** What the decorators store *)

Definition lookup (i : info) (n : nat) : option param :=
  if mem n (i_args i) then d_get n (i_params i) else d_get n (i_extra i).

Definition wf (i : info) : Prop :=
  NoDup (i_args i) /\ d_ok (i_extra i) /\ (forall n, In n (d_keys (i_extra i)) -> ~ In n (i_args i)) /\
  (forall n, In n (d_keys (i_params i)) -> In n (i_args i)).

Lemma store_spec p multi names : forall index i, wf i -> NoDup names ->
  let i' := store_names p multi index names i in
  wf i' /\ i_args i' = i_args i /\ i_next i' = i_next i /\
  (forall k n, nth_error names k = Some n -> lookup i' n = Some (mkParam (p_id p) (p_values p) (if multi then Some (index + k) else None))) /\
  (forall n, ~ In n names -> lookup i' n = lookup i n).
Proof.
  induction names as [|n names IH]; intros index i W ND; cbn [store_names]; cbv zeta.
  - split; [auto|]. split; [auto|]. split; [auto|]. split; [|auto]. intros [|k] n; discriminate.
  - apply NoDup_cons_iff in ND as [Nn ND]. set (q := mkParam _ _ _).
    set (i1 := if mem n (i_args i) then _ else _).
    assert (W1 : wf i1 /\ i_args i1 = i_args i /\ i_next i1 = i_next i /\ lookup i1 n = Some q /\ forall m, m <> n -> lookup i1 m = lookup i m).
    { destruct W as (A & B & C & F). unfold i1. case_eq (mem n (i_args i)); intros M.
      - pose proof M as M'. apply mem_In in M'. repeat split; cbn [i_args i_params i_extra]; auto.
        + intros m. rewrite d_keys_set. intros [->|I]; auto.
        + unfold lookup. cbn [i_args i_params]. rewrite M. apply d_get_set_same.
        + intros m Hm. unfold lookup. cbn [i_args i_params i_extra]. destruct (mem m (i_args i)); auto. apply d_get_set_other; auto.
      - pose proof M as M'. apply mem_false in M'. repeat split; cbn [i_args i_params i_extra]; auto.
        + apply d_set_ok; auto.
        + intros m. rewrite d_keys_set. intros [->|I]; auto.
        + unfold lookup. cbn [i_args i_extra]. rewrite M. apply d_get_set_same.
        + intros m Hm. unfold lookup. cbn [i_args i_params i_extra]. destruct (mem m (i_args i)); auto. apply d_get_set_other; auto. }
    destruct W1 as (W1 & A1 & X1 & L1 & O1).
    destruct (IH (S index) i1 W1 ND) as (W2 & A2 & X2 & L2 & O2). cbv zeta in *.
    split; [auto|]. split; [congruence|]. split; [congruence|]. split.
    + intros [|k] m; simpl.
      * intros H; injection H as <-. rewrite O2 by auto. rewrite L1. unfold q. rewrite Nat.add_0_r. auto.
      * intros H. rewrite (L2 k m H). replace (S index + k) with (index + S k) by lia. auto.
    + intros m Hm. rewrite O2 by (intros I; apply Hm; simpl; auto). apply O1. intros ->. apply Hm; simpl; auto.
Qed.

Lemma add_options_inv pn values i i' : add_options pn values i = inr i' ->
  exists vs, normalize_values (length (names_of pn)) 0 values = inr vs /\
    i' = store_names (mkParam (i_next i) vs None) (Nat.ltb 1 (length (names_of pn))) 0 (names_of pn)
           (mkInfo (i_args i) (i_params i) (i_extra i) (S (i_next i))).
Proof.
  unfold add_options. destruct (match pn with One n => _ | Tuple _ => _ | List_ _ => _ end); [discriminate|].
  destruct (normalize_values _ _ _) as [e|vs]; [discriminate|]. intros H; injection H as <-. eauto.
Qed.

Lemma NoDup_app_l {A} (l m : list A) : NoDup (l ++ m) -> NoDup l /\ NoDup m /\ forall x, In x l -> ~ In x m.
Proof.
  induction l as [|a l IH]; simpl; intros H; [split; [constructor|auto]|]. apply NoDup_cons_iff in H as [Na H].
  destruct (IH H) as (A1 & A2 & A3). split; [constructor; auto; intros I; apply Na, in_or_app; auto|]. split; auto.
  intros x [<-|I]; auto. intros J. apply Na, in_or_app; auto.
Qed.

Lemma declare_spec D : forall i i', declare D i = inr i' -> NoDup (flat_map nms D) -> wf i ->
  wf i' /\ i_args i' = i_args i /\
  (forall j d, nth_error D j = Some d -> exists vs, normalize_values (length (nms d)) 0 (snd d) = inr vs /\
     forall k n, nth_error (nms d) k = Some n ->
       lookup i' n = Some (mkParam (i_next i + j) vs (if Nat.ltb 1 (length (nms d)) then Some k else None))) /\
  (forall n, ~ In n (flat_map nms D) -> lookup i' n = lookup i n).
Proof.
  induction D as [|[pn values] D IH]; intros i i' E ND W; cbn [declare] in E.
  - injection E as <-. split; [auto|]. split; [auto|]. split; [|auto]. intros [|j] d; discriminate.
  - case_eq (add_options pn values i); [intros e Ea; rewrite Ea in E; discriminate|intros i1 Ea; rewrite Ea in E].
    apply add_options_inv in Ea as (vs & Ev & E1). cbn [flat_map] in ND. apply NoDup_app_l in ND as (N1 & N2 & N3).
    set (i0 := mkInfo (i_args i) (i_params i) (i_extra i) (S (i_next i))) in *.
    assert (W0 : wf i0) by exact W.
    destruct (store_spec (mkParam (i_next i) vs None) (Nat.ltb 1 (length (names_of pn))) (names_of pn) 0 i0 W0 N1) as (Wi & Ai & Xi & Li & Oi).
    cbv zeta in *. rewrite <- E1 in *. cbn [p_id p_values] in Li.
    destruct (IH i1 i' E N2 Wi) as (W' & A' & L' & O'). split; [auto|]. split; [rewrite A', Ai; auto|]. split.
    + intros [|j] d; cbn [nth_error].
      * intros H; injection H as <-. exists vs. split; [exact Ev|]. intros k n Hk. cbn [nms fst] in Hk.
        rewrite O'; [rewrite (Li k n Hk), Nat.add_0_r; auto|]. apply N3. eapply nth_error_In; eauto.
      * intros H. destruct (L' j d H) as (vs' & Ev' & Lv). exists vs'. split; auto. intros k n Hk. rewrite (Lv k n Hk).
        rewrite Xi. cbn [i_next i0]. replace (S (i_next i) + j) with (i_next i + S j) by lia. auto.
    + intros n Hn. cbn [flat_map] in Hn. rewrite O' by (intros I; apply Hn, in_or_app; auto). rewrite Oi by (intros I; apply Hn, in_or_app; auto).
      reflexivity.
Qed.

(** ** What the function is called with *)

Lemma iter_In i n p : wf i -> (In (n, p) (iter_params i) <-> lookup i n = Some p).
Proof.
  intros (A & B & C & F). unfold iter_params, lookup. rewrite in_app_iff, in_flat_map. split.
  - intros [(m & I & J)|I].
    + destruct (d_get m (i_params i)) as [q|] eqn:G; [|destruct J]. destruct J as [J|[]]. injection J as -> ->.
      apply mem_In in I. rewrite I. auto.
    + assert (K : In n (d_keys (i_extra i))) by (apply in_map_iff; exists (n, p); auto).
      pose proof (C n K) as M. apply mem_false in M. rewrite M. apply d_pair_get; auto.
  - case_eq (mem n (i_args i)); intros M G.
    + left. exists n. apply mem_In in M. split; auto. rewrite G. simpl; auto.
    + right. apply d_get_pair; auto.
Qed.

Lemma iter_nodup i : wf i -> NoDup (map fst (iter_params i)).
Proof.
  intros (A & B & C & F). unfold iter_params. rewrite map_app.
  assert (G : forall l, NoDup l -> NoDup (map fst (flat_map (fun n => match d_get n (i_params i) with Some p => [(n, p)] | None => [] end) l)) /\
     forall x, In x (map fst (flat_map (fun n => match d_get n (i_params i) with Some p => [(n, p)] | None => [] end) l)) -> In x l).
  { induction l as [|n l IH]; intros ND; simpl; [split; [constructor|auto]|]. apply NoDup_cons_iff in ND as [Nn ND].
    destruct (IH ND) as [I1 I2]. destruct (d_get n (i_params i)); simpl; [|split; auto].
    split; [constructor; auto|]. intros x [<-|I]; auto. }
  destruct (G (i_args i) A) as [G1 G2]. revert G1 G2. generalize (map fst (flat_map (fun n => match d_get n (i_params i) with Some p => [(n, p)] | None => [] end) (i_args i))).
  intros l G1 G2. induction l as [|a l IH]; simpl; [exact B|]. apply NoDup_cons_iff in G1 as [Na G1]. constructor.
  - intros I. apply in_app_or in I as [I|I]; auto. eapply C; eauto. apply G2; simpl; auto.
  - apply IH; auto. intros x I. apply G2. simpl; auto.
Qed.

Lemma fill_spec indices ps : forall kw, NoDup (map fst ps) ->
  (forall n p, In (n, p) ps -> exists idx v, d_get (p_id p) indices = Some idx /\ value_by_index p idx = Some v) ->
  exists kw', fill ps indices kw = Some kw' /\
    (forall n x, d_get n kw = Some x -> d_get n kw' = Some x) /\
    (forall n p idx v, In (n, p) ps -> d_get n kw = None -> d_get (p_id p) indices = Some idx -> value_by_index p idx = Some v -> d_get n kw' = Some v) /\
    (forall n, d_get n kw = None -> ~ In n (map fst ps) -> d_get n kw' = None).
Proof.
  induction ps as [|[m q] ps IH]; intros kw ND H; cbn [fill].
  - exists kw. split; [auto|]. split; [auto|]. split; [|auto]. intros n p idx v [].
  - simpl in ND. apply NoDup_cons_iff in ND as [Nm ND].
    destruct (H m q (or_introl eq_refl)) as (idx & v & G & V). rewrite G, V.
    set (kw1 := if mem m (d_keys kw) then kw else d_set m v kw).
    assert (Q : forall n, d_get n kw1 = if Nat.eqb n m then match d_get m kw with Some x => Some x | None => Some v end else d_get n kw).
    { intros n. unfold kw1. case_eq (mem m (d_keys kw)); intros M.
      - apply mem_In in M. apply d_get_In in M. destruct (Nat.eqb_spec n m) as [->|]; auto. destruct (d_get m kw); congruence.
      - apply mem_false in M. rewrite d_get_set. destruct (Nat.eqb_spec n m) as [->|]; auto.
        destruct (d_get m kw) eqn:Gm; auto. exfalso. apply M, d_get_In. congruence. }
    clearbody kw1. destruct (IH kw1 ND) as (kw' & E & P1 & P2 & P3); [intros n p I; apply (H n p); simpl; auto|].
    exists kw'. split; [auto|]. split; [|split].
    + intros n x Gn. apply P1. rewrite Q. destruct (Nat.eqb_spec n m) as [->|]; auto. rewrite Gn. auto.
    + intros n p idx' v' [I|I] Gn Gi Gv.
      * injection I as -> ->. apply P1. rewrite Q, Nat.eqb_refl, Gn. congruence.
      * eapply P2; eauto. rewrite Q. destruct (Nat.eqb_spec n m) as [->|]; auto. exfalso. apply Nm. apply in_map_iff. exists (m, p). auto.
    + intros n Gn Nn. simpl in Nn. apply P3; [|tauto]. rewrite Q. destruct (Nat.eqb_spec n m) as [->|]; auto. exfalso; auto.
Qed.

(** ** The theorem *)

Section Main.
Variable D : list (pname * list item).
Variable args : list nat.
Variable base : nat.
Variable i : info.
Hypothesis args_ok : NoDup args.
Hypothesis distinct : NoDup (flat_map nms D).
Hypothesis nonempty : forall d, In d D -> nms d <> [].
Hypothesis declared : declare D (mkInfo args [] [] base) = inr i.

Lemma wf0 : wf (mkInfo args [] [] base).
Proof. repeat split; simpl; auto; try (intros n []); try constructor. Qed.

Lemma main_spec : wf i /\ i_args i = args /\
  (forall j d, nth_error D j = Some d -> exists vs, normalize_values (length (nms d)) 0 (snd d) = inr vs /\
     forall k n, nth_error (nms d) k = Some n ->
       lookup i n = Some (mkParam (base + j) vs (if Nat.ltb 1 (length (nms d)) then Some k else None))) /\
  (forall n, ~ In n (flat_map nms D) -> lookup i n = None).
Proof.
  destruct (declare_spec D _ i declared distinct wf0) as (W & A & L & O). split; [auto|]. split; [auto|]. split; [exact L|].
  intros n Hn. rewrite (O n Hn). unfold lookup. simpl. destruct (mem n args); auto.
Qed.

Lemma iter_decl n p : In (n, p) (iter_params i) -> exists j d vs k, nth_error D j = Some d /\ nth_error (nms d) k = Some n /\
  normalize_values (length (nms d)) 0 (snd d) = inr vs /\ p = mkParam (base + j) vs (if Nat.ltb 1 (length (nms d)) then Some k else None).
Proof.
  destruct main_spec as (W & A & L & O). intros I. apply iter_In in I; auto.
  destruct (in_dec Nat.eq_dec n (flat_map nms D)) as [J|J]; [|rewrite O in I by auto; discriminate].
  apply in_flat_map in J as (d & Id & Jn). apply In_nth_error in Id as (j & Ej). apply In_nth_error in Jn as (k & Ek).
  destruct (L j d Ej) as (vs & Ev & Lv). exists j, d, vs, k. rewrite (Lv k n Ek) in I. injection I as <-. auto.
Qed.

Lemma decl_iter j d : nth_error D j = Some d -> exists vs, normalize_values (length (nms d)) 0 (snd d) = inr vs /\
  forall k n, nth_error (nms d) k = Some n -> In (n, mkParam (base + j) vs (if Nat.ltb 1 (length (nms d)) then Some k else None)) (iter_params i).
Proof.
  destruct main_spec as (W & A & L & O). intros Ej. destruct (L j d Ej) as (vs & Ev & Lv). exists vs. split; auto.
  intros k n Ek. apply iter_In; auto.
Qed.

Lemma ids_spec p : In p (needed_ids (needed_of i)) <-> exists j, p = base + j /\ j < length D.
Proof.
  destruct (C31_needed (needed_of i)) as [_ N]. rewrite N. split.
  - intros (x & Ix & Ip). unfold needed_of in Ix. apply in_map_iff in Ix as ([n q] & <- & I). cbn [n_ids snd] in Ip. destruct Ip as [<-|[]].
    destruct (iter_decl n q I) as (j & d & vs & k & Ej & _ & _ & ->). exists j. split; auto. apply nth_error_Some. congruence.
  - intros (j & -> & Lj). destruct (nth_error D j) as [d|] eqn:Ej; [|apply nth_error_None in Ej; lia].
    destruct (decl_iter j d Ej) as (vs & Ev & Iv).
    pose proof (nonempty d (nth_error_In _ _ Ej)) as Ne. destruct (nms d) as [|n ns] eqn:En; [congruence|].
    specialize (Iv 0 n eq_refl). eexists. split; [unfold needed_of; apply in_map_iff; eexists; split; [reflexivity|exact Iv]|]. simpl; auto.
Qed.

Lemma nvals_spec j d : nth_error D j = Some d -> nvals i (base + j) = length (snd d).
Proof.
  intros Ej. unfold nvals. destruct (decl_iter j d Ej) as (vs & Ev & Iv).
  case_eq (find (fun np => Nat.eqb (p_id (snd np)) (base + j)) (iter_params i)).
  - intros [n p] F. apply find_some in F as [I Q]. cbn [snd] in *. apply Nat.eqb_eq in Q.
    destruct (iter_decl n p I) as (j' & d' & vs' & k & Ej' & _ & Ev' & ->). cbn [p_id p_values] in *.
    assert (j' = j) as -> by lia. rewrite Ej in Ej'. injection Ej' as <-. destruct (normalize_spec _ _ _ _ Ev') as [L _]. auto.
  - intros F. pose proof (nonempty d (nth_error_In _ _ Ej)) as Ne. destruct (nms d) as [|n ns] eqn:En; [congruence|].
    pose proof (find_none _ _ F _ (Iv 0 n eq_refl)) as X. cbn [snd p_id] in X. rewrite Nat.eqb_refl in X. discriminate.
Qed.

Lemma bindings_ok : d_ok (bindings i).
Proof.
  destruct main_spec as ((A & _) & _). unfold bindings, d_ok, d_keys. revert A. generalize (i_args i).
  intros l. induction l as [|n l IH]; intros ND; simpl; [constructor|]. apply NoDup_cons_iff in ND as [Nn ND].
  destruct (d_get n (i_params i)); simpl; auto. constructor; auto. intros I. apply Nn.
  clear - I. induction l as [|m l IH]; simpl in *; auto. destruct (d_get m (i_params i)); simpl in *; intuition.
Qed.

Lemma bindings_bound name p : In (name, p) (bindings i) -> In p (needed_ids (needed_of i)).
Proof.
  intros I. unfold bindings in I. apply in_flat_map in I as (n & In_ & J). case_eq (d_get n (i_params i)); [|intros Gn; rewrite Gn in J; destruct J].
  intros q G. rewrite G in J. destruct J as [J|[]]. injection J as -> <-.
  destruct (C31_needed (needed_of i)) as [_ N]. apply N. exists (mkNeeded 0 [p_id q]). split; [|simpl; auto].
  unfold needed_of. apply in_map_iff. exists (name, q). split; auto. unfold iter_params. apply in_or_app. left. apply in_flat_map.
  exists name. rewrite G. simpl; auto.
Qed.

(** the rows picked by the indices *)
Definition picked (g : nat -> nat) (rows : list (list value)) : Prop :=
  length rows = length D /\
  forall j d r, nth_error D j = Some d -> nth_error rows j = Some r -> exists it, nth_error (snd d) (g (base + j)) = Some it /\ gives (nms d) it r.

Lemma gives_inj ns it r r' : gives ns it r -> gives ns it r' -> r = r'.
Proof. intros G G'. inversion G; subst; inversion G'; subst; simpl in *; try lia; congruence. Qed.

Lemma row_exists j d k : nth_error D j = Some d -> k < length (snd d) -> exists it r, nth_error (snd d) k = Some it /\ gives (nms d) it r.
Proof.
  intros Ej Lk. destruct (nth_error (snd d) k) as [it|] eqn:E; [|apply nth_error_None in E; lia]. exists it.
  destruct (decl_iter j d Ej) as (vs & Ev & _).
  destruct (normalize_ok (nms d) (snd d) (nonempty d (nth_error_In _ _ Ej)) 0) as [H _].
  destruct (H (ex_intro _ vs Ev) it (nth_error_In _ _ E)) as [r G]. eauto.
Qed.

Lemma Forall2_nth {A B} (P : A -> B -> Prop) l : forall m, Forall2 P l m <-> (length l = length m /\ forall j x y, nth_error l j = Some x -> nth_error m j = Some y -> P x y).
Proof.
  induction l as [|a l IH]; intros [|b m]; simpl.
  - split; [intros _; split; auto; intros [|j] x y; discriminate|constructor].
  - split; [intros H; inversion H|intros [H _]; discriminate].
  - split; [intros H; inversion H|intros [H _]; discriminate].
  - split.
    + intros H. inversion H; subst. apply IH in H5 as [L N]. split; auto. intros [|j] x y; simpl; [congruence|apply N].
    + intros [L N]. constructor; [apply (N 0); auto|]. apply IH. split; auto. intros j. apply (N (S j)).
Qed.

Lemma received_rows (g : nat -> nat) (v : variation) :
  (forall j d, nth_error D j = Some d -> g (base + j) < length (snd d)) ->
  (forall j, j < length D -> d_get (base + j) (v_indices v) = Some (g (base + j))) ->
  forall rows, picked g rows -> receives i v D rows.
Proof.
  intros Gr Gv rows [Lr Pr]. destruct main_spec as (W & A & L & O).
  assert (K : forall n p, In (n, p) (iter_params i) -> exists j d k it r x, nth_error D j = Some d /\ nth_error (nms d) k = Some n /\
     p_id p = base + j /\ nth_error (snd d) (g (base + j)) = Some it /\ gives (nms d) it r /\ nth_error r k = Some x /\ value_by_index p (g (base + j)) = Some x).
  { intros n p I. destruct (iter_decl n p I) as (j & d & vs & k & Ej & Ek & Ev & ->).
    destruct (row_exists j d _ Ej (Gr j d Ej)) as (it & r & Ei & G).
    destruct (normalize_spec _ _ _ _ Ev) as [_ N]. destruct (N _ _ Ei) as (pv & Epv & Wr & Ck).
    inversion G as [n0 it0 v0 W0 E1|ns0 it0 l Ln W0 Ll E1]; subst.
    - rewrite <- E1 in Ek. destruct k as [|[|]]; simpl in Ek; try discriminate.
      exists j, d, 0, it, [v0], v0. split; [auto|]. split; [rewrite <- E1; auto|]. split; [auto|]. split; [auto|]. split; [congruence|]. split; [auto|].
      unfold value_by_index. cbn [p_id p_values p_comp]. rewrite Epv. try rewrite <- E1. simpl. congruence.
    - assert (E2 : Nat.ltb 1 (length (nms d)) = true) by (apply Nat.ltb_lt; auto). rewrite E2.
      rewrite Wr in W0. injection W0 as W0. destruct (nth_error l k) as [x|] eqn:Ex.
      + exists j, d, k, it, (map VAtom l), (VAtom x). repeat split; auto; [rewrite nth_error_map, Ex; auto|].
        unfold value_by_index. cbn [p_id p_values p_comp]. rewrite Epv, W0, Ex. auto.
      + apply nth_error_None in Ex. assert (k < length (nms d)) by (apply nth_error_Some; congruence). lia. }
  destruct (fill_spec (v_indices v) (iter_params i) [] (iter_nodup i W)) as (kw & E & _ & P2 & P3).
  { intros n p I. destruct (K n p I) as (j & d & k & it & r & x & Ej & Ek & Ep & Ei & G & Ex & Ev). exists (g (base + j)), x.
    split; auto. rewrite Ep. apply Gv. apply nth_error_Some. congruence. }
  exists kw. split; [exact E|]. split.
  - apply Forall2_nth. split; [auto|]. intros j d r Ej Er. destruct (Pr j d r Ej Er) as (it & Ei & G).
    assert (Lrow : length r = length (nms d)) by (inversion G; subst; auto; rewrite map_length; auto).
    apply nth_ext with (d := None) (d' := None); [rewrite !map_length; auto|]. intros k Hk. rewrite map_length in Hk.
    destruct (nth_error (nms d) k) as [n|] eqn:Ek; [|apply nth_error_None in Ek; lia].
    destruct (nth_error r k) as [x|] eqn:Ex; [|apply nth_error_None in Ex; lia].
    assert (T1 : nth_error (map (fun n => d_get n kw) (nms d)) k = Some (d_get n kw)) by (rewrite nth_error_map, Ek; auto).
    assert (T2 : nth_error (map Some r) k = Some (Some x)) by (rewrite nth_error_map, Ex; auto).
    rewrite (nth_error_nth _ _ None T1), (nth_error_nth _ _ None T2).
    destruct (decl_iter j d Ej) as (vs & Ev & Iv). specialize (Iv k n Ek).
    destruct (K _ _ Iv) as (j' & d' & k' & it' & r' & x' & Ej' & Ek' & Ep & Ei' & G' & Ex' & Ev').
    cbn [p_id] in Ep. assert (j' = j) as -> by lia. rewrite Ej in Ej'. injection Ej' as <-. rewrite Ei in Ei'. injection Ei' as <-.
    assert (r' = r) as -> by (eapply gives_inj; eauto).
    assert (NDd : NoDup (nms d)).
    { clear - distinct Ej. revert j Ej. induction D as [|e D' IH]; intros [|j]; simpl; try discriminate; cbn [flat_map] in distinct; apply NoDup_app_l in distinct as (A & B & _).
      - intros H; injection H as <-; auto.
      - apply IH; auto. }
    assert (k' = k) as ->.
    { apply (proj1 (NoDup_nth_error (nms d)) NDd); [apply nth_error_Some; congruence|congruence]. }
    rewrite (P2 n _ _ x' Iv eq_refl (Gv j ltac:(apply nth_error_Some; congruence)) Ev'). congruence.
  - intros n Hn. destruct (in_dec Nat.eq_dec n (flat_map nms D)) as [|N]; auto. exfalso. apply Hn. apply P3; auto.
    intros I. apply in_map_iff in I as ([m p] & Em & I). simpl in Em. subst m. apply iter_In in I; auto. rewrite O in I by auto. discriminate.
Qed.

Lemma fold_perm (f : nat -> nat) l l' : Permutation l l' -> fold_right (fun p n => f p * n) 1 l = fold_right (fun p n => f p * n) 1 l'.
Proof. induction 1; simpl; lia. Qed.

Lemma receives_unique v rows rows' : receives i v D rows -> receives i v D rows' -> rows = rows'.
Proof.
  intros (kw & E & F & _) (kw' & E' & F' & _). rewrite E in E'. injection E' as <-. clear - F F'. revert rows' F'.
  induction F as [|d r D0 rows H F IH]; intros rows' F'; inversion F'; subst; auto. f_equal; [|apply IH; auto].
  rewrite H in H2. clear - H2. revert y H2. induction r as [|x r IH]; intros [|y l]; simpl; intros H; try discriminate; auto.
  injection H as -> H. f_equal. auto.
Qed.

End Main.

(** For all decorators on a function, whatever the order of its arguments, if no
    name occurs twice: the test has a variation for each way to choose one row of
    each decorator; in each variation the function receives such a choice, and
    nothing else; and if no decorator has the same row twice, each choice is
    received in exactly one variation. *)
Theorem C86_each_combination_once : forall D args base i, NoDup args -> NoDup (flat_map nms D) -> (forall d, In d D -> nms d <> []) ->
  declare D (mkInfo args [] [] base) = inr i ->
  exists vs, iter_variations (nvals i) (bindings i) (needed_of i) = Some vs
    /\ length vs = fold_right (fun d n => length (snd d) * n) 1 D
    /\ (forall v, In v vs -> exists rows, choice D rows /\ receives i v D rows)
    /\ (forall rows, choice D rows -> exists v, In v vs /\ receives i v D rows)
    /\ ((forall d j k a b r, In d D -> nth_error (snd d) j = Some a -> nth_error (snd d) k = Some b -> gives (nms d) a r -> gives (nms d) b r -> j = k) ->
        forall rows, choice D rows -> exists vs1 v vs2, vs = vs1 ++ v :: vs2 /\ receives i v D rows /\ forall w, In w (vs1 ++ vs2) -> ~ receives i w D rows).
Proof.
  intros D args base i HA HD HN HDe.
  pose proof (ids_spec D args base i HA HD HN HDe) as Ids.
  pose proof (nvals_spec D args base i HA HD HN HDe) as Nv.
  destruct (C31_every_combination_once (nvals i) (bindings i) (needed_of i)
              (bindings_ok D args base i HA HD HDe) (bindings_bound i)) as (vs & E & Ex & Al & _ & Ln).
  exists vs. split; [exact E|].
  (* indices of a variation *)
  assert (Idx : forall v, In v vs -> exists g, (forall j d, nth_error D j = Some d -> g (base + j) < length (snd d)) /\
     forall j, j < length D -> d_get (base + j) (v_indices v) = Some (g (base + j))).
  { intros v Iv. exists (fun p => match d_get p (v_indices v) with Some k => k | None => 0 end). destruct (Al v Iv) as (A1 & _).
    assert (A2 : forall j, j < length D -> exists k, d_get (base + j) (v_indices v) = Some k /\ k < nvals i (base + j)) by (intros j Lj; apply A1, Ids; eauto).
    split.
    - intros j d Ej. destruct (A2 j) as (k & Ek & Lk); [apply nth_error_Some; congruence|]. rewrite Ek. rewrite (Nv j d Ej) in Lk. auto.
    - intros j Lj. destruct (A2 j Lj) as (k & Ek & _). rewrite Ek. auto. }
  (* rows picked by in-range indices *)
  assert (Pick : forall g, (forall j d, nth_error D j = Some d -> g (base + j) < length (snd d)) -> exists rows, picked D base g rows).
  { intros g Gr. assert (T : forall n, n <= length D -> exists rows, length rows = n /\ forall j d r, nth_error D j = Some d -> nth_error rows j = Some r -> exists it, nth_error (snd d) (g (base + j)) = Some it /\ gives (nms d) it r).
    { induction n as [|n IH]; intros Hn; [exists []; split; auto; intros [|j] d r _; discriminate|].
      destruct IH as (rows & Lr & Pr); [lia|]. destruct (nth_error D n) as [d|] eqn:Ed; [|apply nth_error_None in Ed; lia].
      destruct (row_exists D args base i HA HD HN HDe n d _ Ed (Gr n d Ed)) as (it & r & Ei & G).
      exists (rows ++ [r]). split; [rewrite app_length; simpl; lia|]. intros j d' r' Ej Er.
      destruct (lt_dec j n) as [Lj|Lj].
      - rewrite nth_error_app1 in Er by lia. eauto.
      - assert (j < length (rows ++ [r])) by (apply nth_error_Some; congruence). rewrite app_length in H; simpl in H.
        assert (j = n) as -> by lia. rewrite nth_error_app2 in Er by lia. rewrite Lr, Nat.sub_diag in Er. injection Er as <-.
        rewrite Ed in Ej. injection Ej as <-. eauto. }
    destruct (T (length D) (le_n _)) as (rows & Lr & Pr). exists rows. split; auto. }
  assert (PC : forall g rows, picked D base g rows -> choice D rows).
  { intros g rows [Lr Pr]. apply Forall2_nth. split; auto. intros j d r Ej Er. destruct (Pr j d r Ej Er) as (it & Ei & G). exists it. split; auto. eapply nth_error_In; eauto. }
  assert (CP : forall rows, choice D rows -> exists g, (forall j d, nth_error D j = Some d -> g (base + j) < length (snd d)) /\ picked D base g rows).
  { intros rows C. apply Forall2_nth in C as [Lr Cr].
    assert (T : forall n, n <= length D -> exists l, length l = n /\ forall j d r, j < n -> nth_error D j = Some d -> nth_error rows j = Some r ->
       exists it, nth_error (snd d) (nth j l 0) = Some it /\ gives (nms d) it r).
    { induction n as [|n IH]; intros Hn; [exists []; split; auto; intros; lia|]. destruct IH as (l & Ll & Pl); [lia|].
      destruct (nth_error D n) as [d|] eqn:Ed; [|apply nth_error_None in Ed; lia].
      destruct (nth_error rows n) as [r|] eqn:Er; [|apply nth_error_None in Er; lia].
      destruct (Cr n d r Ed Er) as (it & Ii & G). apply In_nth_error in Ii as (k & Ek). exists (l ++ [k]).
      split; [rewrite app_length; simpl; lia|]. intros j d' r' Lj Ej Er'. destruct (lt_dec j n) as [Lj'|Lj'].
      - rewrite app_nth1 by lia. eauto.
      - assert (j = n) as -> by lia. rewrite app_nth2 by lia. rewrite Ll, Nat.sub_diag. simpl. rewrite Ed in Ej. rewrite Er in Er'.
        injection Ej as <-. injection Er' as <-. eauto. }
    destruct (T (length D) (le_n _)) as (l & Ll & Pl). exists (fun p => nth (p - base) l 0).
    assert (Q : forall j d r, nth_error D j = Some d -> nth_error rows j = Some r -> exists it, nth_error (snd d) (nth (base + j - base) l 0) = Some it /\ gives (nms d) it r).
    { intros j d r Ej Er. replace (base + j - base) with j by lia. apply Pl; auto. apply nth_error_Some. congruence. }
    split.
    - intros j d Ej. destruct (nth_error rows j) as [r|] eqn:Er.
      + destruct (Q j d r Ej Er) as (it & Ei & _). apply nth_error_Some. congruence.
      + apply nth_error_None in Er. assert (j < length D) by (apply nth_error_Some; congruence). lia.
    - split; [auto|]. exact Q. }
  assert (RR := received_rows D args base i HA HD HN HDe).
  split; [|split; [|split]].
  - rewrite Ln. assert (P : Permutation (needed_ids (needed_of i)) (map (fun j => base + j) (seq 0 (length D)))).
    { apply NoDup_Permutation.
      - apply C31_needed.
      - apply FinFun.Injective_map_NoDup; [intros a b; lia|apply seq_NoDup].
      - intros p. rewrite Ids, in_map_iff. split.
        + intros (j & -> & Lj). exists j. split; auto. apply in_seq. lia.
        + intros (j & <- & Lj). exists j. split; auto. apply in_seq in Lj. lia. }
    rewrite (fold_perm _ _ _ P). clear - Nv.
    assert (G : forall l k, (forall j d, nth_error l j = Some d -> nvals i (base + (k + j)) = length (snd d)) ->
       fold_right (fun p n => nvals i p * n) 1 (map (fun j => base + j) (seq k (length l))) = fold_right (fun d n => length (@snd pname (list item) d) * n) 1 l).
    { induction l as [|d l IH]; intros k H; auto. cbn [length seq map fold_right]. rewrite <- (H 0 d eq_refl), Nat.add_0_r. f_equal.
      apply IH. intros j d' Ej. rewrite <- (H (S j) d' Ej). f_equal. lia. }
    apply G. intros j d Ej. simpl. apply Nv; auto.
  - intros v Iv. destruct (Idx v Iv) as (g & Gr & Gv). destruct (Pick g Gr) as (rows & Pr). exists rows. split; [eapply PC; eauto|].
    eapply RR; eauto.
  - intros rows C. destruct (CP rows C) as (g & Gr & Pr). destruct (Ex g) as (vs1 & v & vs2 & Evs & Gv & _).
    { intros p Ip. apply Ids in Ip as (j & -> & Lj). destruct (nth_error D j) as [d|] eqn:Ej; [|apply nth_error_None in Ej; lia].
      rewrite (Nv j d Ej). auto. }
    exists v. split; [rewrite Evs; apply in_or_app; right; simpl; auto|]. apply (RR g); auto.
    intros j Lj. rewrite Gv. destruct (in_dec _ _ _) as [|N]; auto. exfalso. apply N, Ids. eauto.
  - intros Dis rows C. destruct (CP rows C) as (g & Gr & Pr). destruct (Ex g) as (vs1 & v & vs2 & Evs & Gv & Un).
    { intros p Ip. apply Ids in Ip as (j & -> & Lj). destruct (nth_error D j) as [d|] eqn:Ej; [|apply nth_error_None in Ej; lia].
      rewrite (Nv j d Ej). auto. }
    exists vs1, v, vs2. split; [auto|]. split.
    + apply (RR g); auto. intros j Lj. rewrite Gv. destruct (in_dec _ _ _) as [|N]; auto. exfalso. apply N, Ids. eauto.
    + intros w Iw Rw. destruct (Un w Iw) as (p & Ip & Np). apply Ids in Ip as (j & -> & Lj).
      assert (Iw' : In w vs) by (rewrite Evs; apply in_app_or in Iw; apply in_or_app; simpl; tauto).
      destruct (Idx w Iw') as (g' & Gr' & Gv'). destruct (Pick g' Gr') as (rows' & Pr').
      pose proof (RR g' w Gr' Gv' rows' Pr') as Rw'. assert (rows' = rows) as -> by (eapply receives_unique; eauto).
      destruct (nth_error D j) as [d|] eqn:Ej; [|apply nth_error_None in Ej; lia].
      destruct (nth_error rows j) as [r|] eqn:Er; [|apply nth_error_None in Er; destruct Pr; lia].
      destruct Pr as [_ Pr], Pr' as [_ Pr']. destruct (Pr j d r Ej Er) as (it & Ei & G). destruct (Pr' j d r Ej Er) as (it' & Ei' & G').
      apply Np. rewrite (Gv' j Lj). f_equal. symmetry. eapply (Dis d _ _ it it' r); eauto. eapply nth_error_In; eauto.
Qed.

(** A decorator is accepted exactly if its names are a name or a tuple, the name is
    no argument parametrized before, and each item gives a value to each name. *)
Theorem C86_accepted : forall pn items i, names_of pn <> [] ->
  (exists i', add_options pn items i = inr i') <->
  (forall l, pn <> List_ l) /\ (forall n, pn = One n -> d_get n (i_params i) = None) /\
  (forall it, In it items -> exists r, gives (names_of pn) it r).
Proof.
  intros pn items i Ne. rewrite <- (normalize_ok (names_of pn) items Ne 0). unfold add_options.
  destruct (normalize_values (length (names_of pn)) 0 items) as [e|vs].
  - split.
    + intros [i' H]. destruct (match pn with One n => _ | Tuple _ => _ | List_ _ => _ end); discriminate.
    + intros (_ & _ & [vs H]). discriminate.
  - destruct pn as [n|l|l].
    + case_eq (mem n (d_keys (i_params i))); intros M.
      * split; [intros [i' H]; discriminate|]. intros (_ & G & _). apply mem_In in M. apply d_get_In in M. specialize (G n eq_refl). congruence.
      * split; [|eauto]. intros _. split; [discriminate|]. split; [|eauto]. intros m H; injection H as <-. apply mem_false in M.
        destruct (d_get n (i_params i)) eqn:G; auto. exfalso. apply M, d_get_In. congruence.
    + split; [|eauto]. intros _. split; [discriminate|]. split; [discriminate|eauto].
    + split; [intros [i' H]; discriminate|]. intros (H & _). exfalso. eapply H; eauto.
Qed.

(** Arguments given in a call keep their values; the others are filled in. *)
Theorem C86_given_arguments_stay : forall i v kwargs kw n x, called_with i v kwargs = Some kw ->
  d_get n kwargs = Some x -> d_get n kw = Some x.
Proof.
  intros i v kwargs kw n x. unfold called_with. generalize (iter_params i) as ps. intros ps. revert kwargs.
  induction ps as [|[m p] ps IH]; intros kwargs; cbn [fill]; [congruence|].
  destruct (d_get (p_id p) (v_indices v)) as [idx|]; [|discriminate]. destruct (value_by_index p idx) as [w|]; [|discriminate].
  intros E G. apply (IH _ E). case_eq (mem m (d_keys kwargs)); intros M; auto. rewrite d_get_set.
  destruct (Nat.eqb_spec n m) as [->|]; auto. exfalso. apply mem_false in M. apply M, d_get_In. congruence.
Qed.

(** Decorating a function that is not parametrized leaves it alone: the function
    returned is another one, and no other function changes. *)
Theorem C86_first_decorator : forall pn items f infos next g infos' next', f_ref f = None ->
  parametrize pn items f infos next = Some (inr (g, infos', next')) ->
  f_ref g = Some (length infos) /\ (forall r, r < length infos -> nth_error infos' r = nth_error infos r) /\
  exists i, nth_error infos' (length infos) = Some i /\ declare [(pn, items)] (mkInfo (f_args f) [] [] next) = inr i.
Proof.
  intros pn items f infos next g infos' next' H. unfold parametrize. rewrite H.
  case_eq (add_options pn items (mkInfo (f_args f) [] [] next)); [discriminate|]. intros i E Q. injection Q as <- <- <-.
  split; [auto|]. split; [intros r Hr; apply nth_error_app1; auto|]. exists i. split.
  - rewrite nth_error_app2, Nat.sub_diag by auto. auto.
  - simpl. rewrite E. auto.
Qed.

Lemma replace_spec {A} (x : A) l : forall k, k < length l -> length (replace k x l) = length l /\
  forall r, nth_error (replace k x l) r = if Nat.eqb r k then Some x else nth_error l r.
Proof.
  induction l as [|y l IH]; intros k L; [inversion L|]. destruct k as [|k]; cbn [replace length].
  - split; [reflexivity|]. intros [|r]; reflexivity.
  - cbn in L. destruct (IH k (proj2 (Nat.succ_lt_mono _ _) L)) as [I1 I2]. split; [congruence|]. intros [|r]; [reflexivity|]. cbn [nth_error Nat.eqb]. apply I2.
Qed.

(** a further decorator: the function is the same, its own parameters are extended, those of all other functions stay *)
Theorem C86_next_decorator : forall pn items f infos next r i res, f_ref f = Some r -> nth_error infos r = Some i ->
  parametrize pn items f infos next = Some (inr res) ->
  exists infos' next' i', res = (f, infos', next') /\ declare [(pn, items)] (mkInfo (i_args i) (i_params i) (i_extra i) next) = inr i' /\
    length infos' = length infos /\ forall k, nth_error infos' k = if Nat.eqb k r then Some i' else nth_error infos k.
Proof.
  intros pn items f infos next r i res H N. unfold parametrize. rewrite H, N.
  case_eq (add_options pn items (mkInfo (i_args i) (i_params i) (i_extra i) next)); [discriminate|]. intros i' E Q. injection Q as <-.
  destruct (replace_spec i' infos r) as [R1 R2]; [apply nth_error_Some; congruence|]. exists (replace r i' infos), (i_next i'), i'.
  split; [reflexivity|]. split; [cbn [declare]; rewrite E; reflexivity|]. auto.
Qed.

(** a decorator raises exactly if the parameters cannot be added *)
Theorem C86_decorator_raises : forall pn items f infos next e,
  parametrize pn items f infos next = Some (inl e) <->
  exists i, match f_ref f with None => i = mkInfo (f_args f) [] [] next
                             | Some r => exists j, nth_error infos r = Some j /\ i = mkInfo (i_args j) (i_params j) (i_extra j) next end /\
            add_options pn items i = inl e.
Proof.
  intros pn items f infos next e. unfold parametrize. destruct (f_ref f) as [r|].
  - destruct (nth_error infos r) as [j|] eqn:N; [|split; [discriminate|intros (i & (j & X & _) & _); discriminate X]].
    destruct (add_options pn items (mkInfo (i_args j) (i_params j) (i_extra j) next)) eqn:E.
    + split; [intros Q; injection Q as <-; eexists; split; [exists j; split; reflexivity|exact E]|].
      intros (i & (j' & X & ->) & Q). injection X as <-. congruence.
    + split; [discriminate|]. intros (i' & (j' & X & ->) & Q). injection X as <-. congruence.
  - destruct (add_options pn items (mkInfo (f_args f) [] [] next)) eqn:E.
    + split; [intros Q; injection Q as <-; eexists; split; [reflexivity|exact E]|]. intros (i & -> & Q). congruence.
    + split; [discriminate|]. intros (i' & -> & Q). congruence.
Qed.

(** two decorated functions; the second decorator of the second one *)
Example C86_next_case : exists f0 infos0 n0 f1 infos1 n1 res,
  parametrize (One 1) [Plain (VAtom 5)] (mkFunc [1; 2] None) [] 0 = Some (inr (f0, infos0, n0)) /\
  parametrize (One 1) [Plain (VAtom 6)] (mkFunc [1; 2] None) infos0 n0 = Some (inr (f1, infos1, n1)) /\ f_ref f1 = Some 1 /\
  parametrize (One 2) [Plain (VAtom 7)] f1 infos1 n1 = Some (inr res) /\
  parametrize (One 1) [Plain (VAtom 7)] f1 infos1 n1 = Some (inl AlreadyParametrized).
Proof. do 7 eexists. repeat split. Qed.


(** Decorating it again changes the function that was decorated (it is returned). *)
Theorem C87_decorating_is_local_refuted : exists f0 f infos next infos' next' i i',
  parametrize (One 1) [Plain (VAtom 5)] f0 [] 0 = Some (inr (f, infos, next)) /\
  parametrize (One 2) [Plain (VAtom 7)] f infos next = Some (inr (f, infos', next')) /\
  f_ref f = Some 0 /\ nth_error infos 0 = Some i /\ nth_error infos' 0 = Some i' /\ iter_params i <> iter_params i'.
Proof.
  exists (mkFunc [1; 2] None). eexists _, _, _, _, _, _, _. split; [reflexivity|]. split; [reflexivity|]. split; [reflexivity|]. split; [reflexivity|].
  split; [reflexivity|]. vm_compute. discriminate.
Qed.

(** A name that occurs in two decorators is not always refused: if one of them has
    several names, or if it is no argument of the function, the second decorator
    replaces the values of the first, and they are never used. *)
Theorem C87_twice_refused_refuted :
  (exists D args i vs, NoDup args /\ declare D (mkInfo args [] [] 0) = inr i /\ D = [(One 1, [Plain (VAtom 5); Plain (VAtom 6)]); (Tuple [1; 2], [Plain (VSeq [7; 8])])] /\
     iter_variations (nvals i) (bindings i) (needed_of i) = Some vs /\
     map (fun v => called_with i v []) vs = [Some [(1, VAtom 7); (2, VAtom 8)]]) /\
  (exists D i vs, declare D (mkInfo [] [] [] 0) = inr i /\ D = [(One 1, [Plain (VAtom 5); Plain (VAtom 6)]); (One 1, [Plain (VAtom 7)])] /\
     iter_variations (nvals i) (bindings i) (needed_of i) = Some vs /\
     map (fun v => called_with i v []) vs = [Some [(1, VAtom 7)]]).
Proof.
  split.
  - eexists _, [1; 2], _, _. split; [repeat constructor; simpl; intuition discriminate|]. split; [|split; [reflexivity|]]; [reflexivity|].
    split; reflexivity.
  - eexists _, _, _. split; [|split; [reflexivity|]]; [reflexivity|]. split; reflexivity.
Qed.

(** What is refused is a single name that is an argument parametrized before. *)
Theorem C87_twice_refused_partial : forall n items i, d_get n (i_params i) <> None -> add_options (One n) items i = inl AlreadyParametrized.
Proof. intros n items i G. unfold add_options. apply d_get_In, mem_In in G. rewrite G. auto. Qed.

(** ** Non-vacuity: a function of x (1), fruit (2), colour (3), with a flag (4) it takes as keyword *)

Definition ex_decls : list (pname * list item) :=
  [(Tuple [2; 3], [Plain (VSeq [20; 30]); Labelled 9 (Some (VSeq [20; 31]))]); (One 1, [Plain (VAtom 10); Plain (VSeq [1; 2])]); toggle 4].

Example C86_hypotheses_met : exists i vs, NoDup [1; 2; 3] /\ NoDup (flat_map nms ex_decls) /\ (forall d, In d ex_decls -> nms d <> []) /\
  declare ex_decls (mkInfo [1; 2; 3] [] [] 1000) = inr i /\
  iter_variations (nvals i) (bindings i) (needed_of i) = Some vs /\ length vs = 8 /\
  nth_error (map (fun v => called_with i v []) vs) 3 = Some (Some [(1, VAtom 10); (2, VAtom 20); (3, VAtom 31); (4, VAtom 0)]).
Proof.
  eexists _, _. split; [repeat constructor; simpl; intuition discriminate|]. split; [repeat constructor; simpl; intuition discriminate|].
  split; [intros d H; repeat (destruct H as [<-|H]; [discriminate|]); destruct H|]. split; [reflexivity|]. split; [reflexivity|]. split; reflexivity.
Qed.
Example C86_choice_met : choice ex_decls [[VAtom 20; VAtom 31]; [VSeq [1; 2]]; [VAtom 1]].
Proof.
  constructor; [|constructor; [|constructor; [|constructor]]].
  - exists (Labelled 9 (Some (VSeq [20; 31]))). split; [simpl; auto|]. apply (gives_several [2; 3] _ [20; 31]); auto.
  - exists (Plain (VSeq [1; 2])). split; [simpl; auto|]. constructor. auto.
  - exists (Plain (VAtom 1)). split; [simpl; auto|]. constructor. auto.
Qed.

(** a toggled name is given True (the atom 1) and False (the atom 0), and nothing else; with [iterate] each name is given its own items *)
Theorem C86_toggle n rows : choice [toggle n] rows <-> rows = [[VAtom 1]] \/ rows = [[VAtom 0]].
Proof.
  unfold choice, toggle. split.
  - intros H. inversion H as [|d r D rs (it & I & G) F]; subst. inversion F; subst. cbn [snd fst nms names_of] in *.
    inversion G as [m it' v W|ns it' l L]; subst; [|cbn in L; lia]. destruct I as [<-|[<-|[]]]; cbn in W; injection W as <-; auto.
  - intros [-> | ->]; constructor; try constructor.
    + exists (Plain (VAtom 1)). split; [left; reflexivity|constructor; reflexivity].
    + exists (Plain (VAtom 0)). split; [right; left; reflexivity|constructor; reflexivity].
Qed.

Theorem C86_iterate kwargs rows : choice (iterate kwargs) rows <->
  Forall2 (fun kv row => exists it v, In it (snd kv) /\ written it = Some v /\ row = [v]) kwargs rows.
Proof.
  unfold choice, iterate. revert rows. induction kwargs as [|[n items] kwargs IH]; intros rows; cbn [map fst snd].
  - split; intros H; inversion H; constructor.
  - split; intros H; inversion H as [|d r D rs A F]; subst; constructor.
    + destruct A as (it & I & G). cbn [snd fst nms names_of] in *. inversion G as [m it' v W|ns it' l L]; subst; [|cbn in L; lia]. eauto.
    + apply IH, F.
    + destruct A as (it & v & I & W & ->). exists it. split; [exact I|]. constructor. exact W.
    + apply IH, F.
Qed.

Print Assumptions C86_each_combination_once.
Print Assumptions C86_accepted.
Print Assumptions C86_given_arguments_stay.
Print Assumptions C86_first_decorator.
Print Assumptions C87_decorating_is_local_refuted.
Print Assumptions C87_twice_refused_refuted.
Print Assumptions C87_twice_refused_partial.
Print Assumptions C86_next_decorator.
Print Assumptions C86_decorator_raises.
Print Assumptions C86_toggle.
Print Assumptions C86_iterate.
