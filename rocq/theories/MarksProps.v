(** C51: marks stay on the marked object. *)

From Coq Require Import List Bool Arith Lia.
From Verif Require Import Dict Marks.
Import ListNotations.

Section M.
Variable cls : nat -> option nat.
Variable mro : nat -> list nat.
Variable settable : nat -> bool.

(** classes: their mro begins with themselves and contains classes only; the type
    of an instance is a class *)
Record classes : Prop := {
  cl_self : forall c, cls c = None -> exists l, mro c = c :: l;
  cl_mro : forall c o, In o (mro c) -> cls o = None;
  cl_type : forall e c, cls e = Some c -> cls c = None }.

Hypothesis C : classes.

(** the worlds reached by operations of exception_mark.py / marks.py *)
Definition estep (o : eop) (w : world) : world :=
  match o with
  | EMark e k v => mark_exception cls mro settable e k v w
  | EGet e k => fst (get_exception_mark cls mro settable e k w)
  end.
Definition ostep (o : oop) (w : world) : world :=
  match o with OMark x k n a => fst (mark_object cls mro settable x k n a w) end.
Inductive ereach : world -> Prop :=
| er_start : ereach world0
| er_step w o : ereach w -> ereach (estep o w).
Inductive oreach : world -> Prop :=
| or_start : oreach world0
| or_step w o : oreach w -> oreach (ostep o w).

Notation lookup := (lookup cls mro).
Notation observe := (observe cls mro).

(** every stored reference is in use, and belongs to one object *)
Record wok (w : world) : Prop := {
  wk_used : forall o r, d_get o (w_attr w) = Some r -> r < w_next w /\ d_get r (w_heap w) <> None;
  wk_inj : forall o o' r, d_get o (w_attr w) = Some r -> d_get o' (w_attr w) = Some r -> o = o' }.

Lemma first_attr_some l a r : first_attr l a = Some r -> exists o, In o l /\ d_get o a = Some r.
Proof.
  induction l as [|o l IH]; simpl; [discriminate|]. destruct (d_get o a) as [x|] eqn:E.
  - intro Q. injection Q as ->. eauto.
  - intro Q. destruct (IH Q) as (o' & I & G). eauto.
Qed.

Lemma first_attr_set l a o r : ~ In o l -> first_attr l (d_set o r a) = first_attr l a.
Proof.
  induction l as [|x l IH]; simpl; intro N; auto.
  rewrite d_get_set_other by (intro; subst; tauto). rewrite IH by tauto. auto.
Qed.

Lemma lookup_own o w r : d_get o (w_attr w) = Some r -> lookup o w = Some r.
Proof.
  intro G. unfold Marks.lookup, chain. destruct (cls o) as [c|] eqn:K.
  - simpl. rewrite G. auto.
  - destruct (cl_self C o K) as [l ->]. simpl. rewrite G. auto.
Qed.

Lemma lookup_attr o w r : lookup o w = Some r -> exists x, In x (chain cls mro o) /\ d_get x (w_attr w) = Some r.
Proof. apply first_attr_some. Qed.

Lemma fresh_ok o m w : wok w -> wok (fst (fresh settable o m w)).
Proof.
  intros [U I]. unfold fresh. simpl. destruct (settable o); constructor; simpl.
  - intros x r. rewrite d_get_set. destruct (Nat.eqb_spec x o) as [->|].
    + intro Q. injection Q as <-. split; [lia|]. rewrite d_get_set_same. discriminate.
    + intro G. destruct (U x r G). split; [lia|]. rewrite d_get_set. destruct (Nat.eqb_spec r (w_next w)); [discriminate|auto].
  - intros x y r. rewrite !d_get_set. destruct (Nat.eqb_spec x o) as [->|], (Nat.eqb_spec y o) as [->|]; auto.
    + intros Q G. injection Q as <-. destruct (U y _ G). lia.
    + intros G Q. injection Q as <-. destruct (U x _ G). lia.
    + intros A B. eauto.
  - intros x r G. destruct (U x r G). split; [lia|]. rewrite d_get_set. destruct (Nat.eqb_spec r (w_next w)); [discriminate|auto].
  - auto.
Qed.

Lemma store_ok r k v w : wok w -> wok (store r k v w).
Proof.
  intros [U I]. unfold store. destruct (deref r w) as [m|]; constructor; simpl; auto.
  intros o r' G. destruct (U o r' G). split; auto. rewrite d_get_set. destruct (Nat.eqb r' r); [discriminate|auto].
Qed.

Lemma ensure_ok e w : wok w -> wok (fst (ensure cls mro settable e w)).
Proof.
  intro K. unfold ensure. destruct (lookup e w) as [r|]; [|apply fresh_ok; auto].
  destruct (cls e) as [c|]; auto. destruct (opt_nat_eqb (lookup c w) (Some r)); auto. apply fresh_ok. auto.
Qed.

Lemma ereach_ok w : ereach w -> wok w.
Proof.
  induction 1 as [|w o R K].
  - constructor; simpl; discriminate.
  - destruct o as [e k v|e k]; simpl.
    + unfold mark_exception. pose proof (ensure_ok e w K). destruct (ensure cls mro settable e w); simpl in *.
      apply store_ok. auto.
    + unfold get_exception_mark. pose proof (ensure_ok e w K). destruct (ensure cls mro settable e w); auto.
Qed.

Lemma oreach_ok w : oreach w -> wok w.
Proof.
  induction 1 as [|w [o k n a] R K].
  - constructor; simpl; discriminate.
  - simpl. unfold mark_object.
    assert (X : forall w1 r, (match lookup o w with Some r => Some (w, r) | None => if settable o then Some (fresh settable o [] w) else None end)
                             = Some (w1, r) -> wok w1).
    { intros w1 r Q. destruct (lookup o w); [congruence|]. destruct (settable o) eqn:S; [|discriminate].
      injection Q as <- <-. pose proof (fresh_ok o [] w K) as F. unfold fresh in F. rewrite S in F. rewrite S. auto. }
    destruct (match lookup o w with Some r => Some (w, r) | None => if settable o then Some (fresh settable o [] w) else None end)
      as [[w1 r]|]; simpl; auto.
    specialize (X w1 r eq_refl).
    destruct a; [|apply store_ok; auto]. destruct (deref r w1) as [m|]; auto.
    destruct (d_get k m) as [[x|l]|]; simpl; auto; apply store_ok; auto.
Qed.

(** an object that does not look at [e] and whose dictionary is not [r] *)
Lemma observe_store o k r k' v w : lookup o w <> Some r -> observe o k (store r k' v w) = observe o k w.
Proof.
  intro N. unfold store. destruct (deref r w) as [m|] eqn:D; auto.
  unfold Marks.observe, Marks.lookup, deref in *. simpl.
  destruct (first_attr (chain cls mro o) (w_attr w)) as [r'|]; auto.
  rewrite d_get_set_other by congruence. auto.
Qed.

Lemma observe_fresh e o k m w : wok w -> ~ In e (chain cls mro o) ->
  observe o k (fst (fresh settable e m w)) = observe o k w
  /\ lookup o (fst (fresh settable e m w)) <> Some (w_next w).
Proof.
  intros [U I] N. unfold fresh. simpl.
  assert (L : lookup o (mkWorld (if settable e then d_set e (w_next w) (w_attr w) else w_attr w)
                          (d_set (w_next w) m (w_heap w)) (S (w_next w))) = lookup o w).
  { unfold Marks.lookup. simpl. destruct (settable e); auto. apply first_attr_set. auto. }
  assert (LT : forall r, lookup o w = Some r -> r < w_next w).
  { intros r Q. apply lookup_attr in Q as (x & _ & G). apply (U x r G). }
  split.
  - unfold Marks.observe. rewrite L. destruct (lookup o w) as [r|] eqn:E; auto. unfold deref. simpl.
    rewrite d_get_set_other; auto. specialize (LT r eq_refl). lia.
  - rewrite L. intro Q. specialize (LT _ Q). lia.
Qed.

Lemma chain_instance e c o : cls e = Some c -> o <> e -> ~ In e (chain cls mro o).
Proof.
  intros K N I. unfold chain in I. destruct (cls o) as [c'|] eqn:E.
  - destruct I as [Q|I]; [congruence|]. apply (cl_mro C) in I. congruence.
  - apply (cl_mro C) in I. congruence.
Qed.

(** the dictionary ensured for an instance is not seen by anyone else *)
Lemma ensure_instance e c o k w : wok w -> cls e = Some c -> o <> e ->
  observe o k (fst (ensure cls mro settable e w)) = observe o k w
  /\ lookup o (fst (ensure cls mro settable e w)) <> Some (snd (ensure cls mro settable e w)).
Proof.
  intros K E N. pose proof (chain_instance e c o E N) as NI.
  unfold ensure. destruct (lookup e w) as [r|] eqn:L; [|apply observe_fresh; auto].
  rewrite E. destruct (opt_nat_eqb (lookup c w) (Some r)) eqn:Q; [apply observe_fresh; auto|].
  simpl. split; auto. intro X.
  assert (G : d_get e (w_attr w) = Some r).
  { unfold Marks.lookup, chain in L. rewrite E in L. simpl in L.
    destruct (d_get e (w_attr w)) as [r'|]; [congruence|].
    exfalso. assert (Y : lookup c w = Some r).
    { unfold Marks.lookup, chain. rewrite (cl_type C e c E). auto. }
    rewrite Y in Q. simpl in Q. rewrite Nat.eqb_refl in Q. discriminate. }
  apply lookup_attr in X as (x & I & G'). pose proof (wk_inj _ K _ _ _ G G') as ->. tauto.
Qed.

(** Marking an exception instance changes what no other object, its class
    included, shows. *)
Theorem C51_instance w e c o k k' v :
  ereach w -> cls e = Some c -> o <> e ->
  observe o k' (mark_exception cls mro settable e k v w) = observe o k' w.
Proof.
  intros R E N. apply ereach_ok in R. unfold mark_exception.
  pose proof (ensure_instance e c o k' w R E N) as [A B].
  destruct (ensure cls mro settable e w) as [w1 r]. simpl in *.
  rewrite observe_store; auto.
Qed.

(** Looking a mark up on an instance changes nothing anyone sees, and gives what is
    seen on the instance. *)
Theorem C51_lookup w e c k o k' :
  ereach w -> cls e = Some c ->
  observe o k' (fst (get_exception_mark cls mro settable e k w)) = observe o k' w
  /\ snd (get_exception_mark cls mro settable e k w) = observe e k w.
Proof.
  intros R E. apply ereach_ok in R. unfold get_exception_mark.
  assert (X : forall j, (match deref (snd (ensure cls mro settable e w)) (fst (ensure cls mro settable e w)) with Some m => d_get j m | None => None end)
              = observe e j w
              /\ observe e j (fst (ensure cls mro settable e w)) = observe e j w).
  { intro j. unfold ensure. destruct (lookup e w) as [r|] eqn:L.
    - rewrite E. destruct (opt_nat_eqb (lookup c w) (Some r)) eqn:Q.
      + destruct (lookup_attr _ _ _ L) as (x & _ & G). destruct (wk_used _ R _ _ G) as [LT D].
        destruct (d_get r (w_heap w)) as [m|] eqn:H; [|congruence].
        unfold fresh. simpl. unfold deref. simpl. rewrite d_get_set_same. split.
        * unfold Marks.observe, deref. rewrite L, H. auto.
        * unfold Marks.observe, deref. rewrite L, H. unfold Marks.lookup in *. simpl. unfold chain in *. rewrite E in *. simpl in *.
          destruct (settable e).
          -- rewrite d_get_set_same; simpl; rewrite d_get_set_same; auto.
          -- rewrite L. rewrite d_get_set_other by lia. rewrite H. auto.
      + simpl. unfold Marks.observe. rewrite L. auto.
    - unfold fresh. simpl. unfold deref. simpl. rewrite d_get_set_same. split.
      + unfold Marks.observe. rewrite L. auto.
      + unfold Marks.observe, deref. rewrite L. unfold Marks.lookup in *. simpl. unfold chain in *. rewrite E in *. simpl in *.
        destruct (settable e).
        * rewrite d_get_set_same; simpl; rewrite d_get_set_same; auto.
        * rewrite L. auto. }
  split.
  - destruct (Nat.eq_dec o e) as [->|N].
    + destruct (X k') as [_ B]. destruct (ensure cls mro settable e w); auto.
    + pose proof (ensure_instance e c o k' w R E N) as [A _]. destruct (ensure cls mro settable e w); auto.
  - destruct (X k) as [A _]. destruct (ensure cls mro settable e w); auto.
Qed.

(** A mark put on an instance is found there, beside those found before. *)
Theorem C51_marked w e c k v k' :
  ereach w -> cls e = Some c -> settable e = true ->
  observe e k' (mark_exception cls mro settable e k v w) = if Nat.eqb k' k then Some v else observe e k' w.
Proof.
  intros R E S. apply ereach_ok in R. unfold mark_exception, ensure.
  destruct (lookup e w) as [r|] eqn:L.
  - destruct (lookup_attr _ _ _ L) as (x & _ & G). destruct (wk_used _ R _ _ G) as [LT D].
    destruct (d_get r (w_heap w)) as [m|] eqn:H; [|congruence].
    rewrite E. destruct (opt_nat_eqb (lookup c w) (Some r)) eqn:Q.
    + unfold fresh. rewrite S. unfold store, deref. simpl. rewrite d_get_set_same.
      unfold Marks.observe, deref. rewrite L, H. unfold Marks.lookup. simpl. unfold chain. rewrite E. simpl.
      repeat (rewrite d_get_set_same; simpl). apply d_get_set.
    + unfold store, deref. rewrite H. unfold Marks.observe, deref. unfold Marks.lookup in *. simpl. rewrite L, H.
      rewrite d_get_set_same. apply d_get_set.
  - unfold fresh. rewrite S. unfold store, deref. simpl. rewrite d_get_set_same.
    unfold Marks.observe, deref. rewrite L. unfold Marks.lookup. simpl. unfold chain. rewrite E. simpl.
    repeat (rewrite d_get_set_same; simpl). destruct (Nat.eqb k' k); auto.
Qed.

(** the owner of the dictionary that is written *)
Lemma own_or_none b w : (exists r, d_get b (w_attr w) = Some r) \/ lookup b w = None ->
  wok w -> forall r, lookup b w = Some r -> d_get b (w_attr w) = Some r.
Proof.
  intros [[r G]|L] K r' Q; [|congruence]. rewrite (lookup_own _ _ _ G) in Q. congruence.
Qed.

(** Marking an exception class that has marks of its own, or inherits none, changes
    only what the class, its subclasses and their instances show.  Without that
    condition the claim is false: C51_class_refuted. *)
Theorem C51_class_partial w b k v o k' :
  ereach w -> cls b = None ->
  (exists r, d_get b (w_attr w) = Some r) \/ lookup b w = None ->
  ~ In b (chain cls mro o) ->
  observe o k' (mark_exception cls mro settable b k v w) = observe o k' w.
Proof.
  intros R E H N. apply ereach_ok in R. unfold mark_exception, ensure.
  pose proof (own_or_none b w H R) as X.
  destruct (lookup b w) as [r|] eqn:L.
  - rewrite E. apply observe_store. intro Q. apply lookup_attr in Q as (x & I & G).
    pose proof (wk_inj _ R _ _ _ G (X r eq_refl)) as ->. tauto.
  - pose proof (observe_fresh b o k' [] w R N) as [A B].
    destruct (fresh settable b [] w) as [w1 r] eqn:F. simpl in *. rewrite observe_store; auto.
    unfold fresh in F. injection F as _ <-. auto.
Qed.

(** The same for slash.marks on any object: own marks, or none inherited. *)
Theorem C51_object_partial w b k n a o k' :
  oreach w ->
  (exists r, d_get b (w_attr w) = Some r) \/ lookup b w = None ->
  ~ In b (chain cls mro o) ->
  observe o k' (fst (mark_object cls mro settable b k n a w)) = observe o k' w.
Proof.
  intros R H N. apply oreach_ok in R.
  pose proof (own_or_none b w H R) as X. unfold mark_object.
  assert (Y : forall w1 r, observe o k' w1 = observe o k' w -> lookup o w1 <> Some r ->
    observe o k' (fst (if a then match deref r w1 with
        | Some m => match d_get k m with
            | None => (store r k (MList [n]) w1, true)
            | Some (MList l) => (store r k (MList (l ++ [n])) w1, true)
            | Some (MAtom _) => (w1, false) end
        | None => (w1, false) end else (store r k (MAtom n) w1, true))) = observe o k' w).
  { intros w1 r A B. destruct a; [|simpl; rewrite observe_store; auto].
    destruct (deref r w1) as [m|]; auto. destruct (d_get k m) as [[x|l]|]; simpl; auto; rewrite observe_store; auto. }
  destruct (lookup b w) as [r|] eqn:L.
  - apply Y; auto. intro Q. apply lookup_attr in Q as (x & I & G).
    pose proof (wk_inj _ R _ _ _ G (X r eq_refl)) as ->. tauto.
  - destruct (settable b) eqn:S; auto.
    pose proof (observe_fresh b o k' [] w R N) as [A B].
    destruct (fresh settable b [] w) as [w1 r] eqn:F. simpl in *. apply Y; auto.
    unfold fresh in F. injection F as _ <-. auto.
Qed.
End M.

(** 1: a base class, 2: its subclass, 3: another base, 4: a class with bases 2 and 3;
    12, 22, 14: instances of 2, 2 and 4 *)
Definition ex_cls (o : nat) : option nat := match o with 12 | 22 => Some 2 | 14 => Some 4 | _ => None end.
Definition ex_mro (c : nat) : list nat :=
  match c with 2 => [2; 1] | 4 => [4; 2; 1; 3] | 12 | 22 | 14 => [] | c => [c] end.
Definition ex_set (o : nat) : bool := true.

Example C51_ex_classes : classes ex_cls ex_mro.
Proof.
  constructor.
  - intros c H. do 23 (destruct c as [|c]; [simpl in *; try discriminate; eexists; reflexivity|]).
    simpl. eexists. reflexivity.
  - intros c o I. do 23 (destruct c as [|c]; [simpl in I; repeat (destruct I as [<-|I]; [reflexivity|]); destruct I|]).
    destruct I as [<-|[]]. reflexivity.
  - intros e c H. do 23 (destruct e as [|e]; [simpl in H; try discriminate; injection H as <-; reflexivity|]).
    discriminate.
Qed.

Notation ex_mark e k v w := (mark_exception ex_cls ex_mro ex_set e k v w).
Notation ex_get e k w := (observe ex_cls ex_mro e k w).

(** the class has a mark; one instance gets others *)
Example C51_ex :
  let w := ex_mark 2 7 (MAtom 1) world0 in
  let w' := ex_mark 12 7 (MAtom 5) w in
  ereach ex_cls ex_mro ex_set w /\ ex_get 12 7 w = Some (MAtom 1)
  /\ ex_get 12 7 w' = Some (MAtom 5) /\ ex_get 2 7 w' = Some (MAtom 1) /\ ex_get 22 7 w' = Some (MAtom 1).
Proof.
  cbv zeta. split; [exact (er_step _ _ _ _ (EMark 2 7 (MAtom 1)) (er_start _ _ _))|].
  repeat split; reflexivity.
Qed.

(** Marking a subclass of a marked exception class marks the base class. *)
Theorem C51_class_refuted :
  exists cls mro settable w b base k v,
    classes cls mro /\ ereach cls mro settable w /\ cls b = None /\ In base (mro b) /\ ~ In b (chain cls mro base)
    /\ observe cls mro base k (mark_exception cls mro settable b k v w) <> observe cls mro base k w.
Proof.
  exists ex_cls, ex_mro, ex_set, (ex_mark 1 7 (MAtom 1) world0), 2, 1, 7, (MAtom 2).
  split; [exact C51_ex_classes|].
  split; [exact (er_step _ _ _ _ (EMark 1 7 (MAtom 1)) (er_start _ _ _))|].
  split; [reflexivity|]. split; [simpl; auto|]. split; [simpl; intuition discriminate|].
  vm_compute. discriminate.
Qed.

(** slash.marks: marking an instance marks its class and all other instances. *)
Theorem C51_object_refuted :
  exists cls mro settable w o c other k n,
    classes cls mro /\ oreach cls mro settable w /\ cls o = Some c /\ cls other = Some c /\ other <> o
    /\ observe cls mro c k (fst (mark_object cls mro settable o k n false w)) <> observe cls mro c k w
    /\ observe cls mro other k (fst (mark_object cls mro settable o k n false w)) <> observe cls mro other k w.
Proof.
  exists ex_cls, ex_mro, ex_set, (fst (mark_object ex_cls ex_mro ex_set 2 7 1 false world0)), 12, 2, 22, 7, 2.
  split; [exact C51_ex_classes|].
  split; [exact (or_step _ _ _ _ (OMark 2 7 1 false) (or_start _ _ _))|].
  split; [reflexivity|]. split; [reflexivity|]. split; [discriminate|].
  split; vm_compute; discriminate.
Qed.

(** Merely asking a class for a mark can hide the mark of another base class from
    its subclasses: the lookup stores an empty dictionary on the class. *)
Theorem C51_lookup_refuted :
  exists cls mro settable w c o k,
    classes cls mro /\ ereach cls mro settable w
    /\ observe cls mro o k w <> None
    /\ observe cls mro o k (fst (get_exception_mark cls mro settable c k w)) = None.
Proof.
  exists ex_cls, ex_mro, ex_set, (ex_mark 3 7 (MAtom 1) world0), 2, 14, 7.
  split; [exact C51_ex_classes|].
  split; [exact (er_step _ _ _ _ (EMark 3 7 (MAtom 1)) (er_start _ _ _))|].
  split; vm_compute; [discriminate|reflexivity].
Qed.

(** the condition of the partial theorems: class 2 with marks of its own *)
Example C51_partial_ex :
  let w := ex_mark 1 7 (MAtom 1) (ex_mark 2 7 (MAtom 3) world0) in
  ereach ex_cls ex_mro ex_set w /\ d_get 2 (w_attr w) <> None /\ ~ In 2 (chain ex_cls ex_mro 1)
  /\ ex_get 1 7 (ex_mark 2 7 (MAtom 9) w) = Some (MAtom 1) /\ ex_get 12 7 (ex_mark 2 7 (MAtom 9) w) = Some (MAtom 9).
Proof.
  cbv zeta. split.
  - exact (er_step _ _ _ _ (EMark 1 7 (MAtom 1)) (er_step _ _ _ _ (EMark 2 7 (MAtom 3)) (er_start _ _ _))).
  - split; [discriminate|]. split; [simpl; intuition discriminate|]. split; reflexivity.
Qed.

Print Assumptions C51_instance.
Print Assumptions C51_lookup.
Print Assumptions C51_marked.
Print Assumptions C51_class_partial.
Print Assumptions C51_object_partial.
Print Assumptions C51_class_refuted.
Print Assumptions C51_object_refuted.
Print Assumptions C51_lookup_refuted.
