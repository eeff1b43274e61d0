(** Names of variations and addresses of tests. *)

From Coq Require Import List Bool Arith Ascii String Lia Permutation Sorting.Sorted.
From Verif Require Import Str Naming.
Import ListNotations.

(** * Sorting *)

Lemma str_leb_total a b : str_leb a b = true \/ str_leb b a = true.
Proof.
  revert b. induction a as [|x a IH]; destruct b as [|y b]; simpl; auto.
  rewrite (Ascii.eqb_sym y x). destruct (Ascii.eqb x y); auto.
  destruct (Nat.leb_spec (nat_of_ascii x) (nat_of_ascii y)); auto. right. apply Nat.leb_le. lia.
Qed.

Lemma ascii_inj x y : nat_of_ascii x = nat_of_ascii y -> x = y.
Proof. intros H. rewrite <- (ascii_nat_embedding x), <- (ascii_nat_embedding y), H. auto. Qed.

Lemma str_leb_antisym a b : str_leb a b = true -> str_leb b a = true -> a = b.
Proof.
  revert b. induction a as [|x a IH]; destruct b as [|y b]; simpl; try discriminate; auto.
  rewrite (Ascii.eqb_sym y x). destruct (Ascii.eqb_spec x y) as [->|N].
  - intros; f_equal; auto.
  - rewrite !Nat.leb_le. intros. destruct N. apply ascii_inj. lia.
Qed.

Lemma str_leb_trans a b c : str_leb a b = true -> str_leb b c = true -> str_leb a c = true.
Proof.
  revert b c. induction a as [|x a IH]; destruct b as [|y b], c as [|z c]; simpl; try discriminate; auto.
  destruct (Ascii.eqb_spec x y) as [E1|N1], (Ascii.eqb_spec y z) as [E2|N2], (Ascii.eqb_spec x z) as [E3|N3];
    intros H1 H2; subst; try congruence; eauto; rewrite ?Nat.leb_le in *.
  - destruct N2. apply ascii_inj. lia.
  - lia.
Qed.

Definition le_b (a b : binding) : Prop := str_leb (b_name a) (b_name b) = true.

Lemma insert_perm b l : Permutation (b :: l) (insert_by b l).
Proof.
  induction l as [|c l IH]; simpl; auto. destruct (str_leb _ _); auto.
  rewrite perm_swap. constructor. auto.
Qed.

Lemma sort_perm l : Permutation l (sort_by l).
Proof. induction l as [|b l IH]; simpl; auto. rewrite <- insert_perm. constructor. auto. Qed.

Lemma insert_sorted b l : StronglySorted le_b l -> StronglySorted le_b (insert_by b l).
Proof.
  induction 1 as [|c l S IH F]; simpl.
  - repeat constructor.
  - destruct (str_leb (b_name b) (b_name c)) eqn:E.
    + constructor; [constructor; auto|]. constructor; auto. revert F. apply Forall_impl. intros d. unfold le_b. eauto using str_leb_trans.
    + constructor; auto. apply Forall_forall. intros d Hd.
      apply (Permutation_in d (Permutation_sym (insert_perm b l))) in Hd. destruct Hd as [<-|Hd].
      * unfold le_b. destruct (str_leb_total (b_name b) (b_name c)); congruence.
      * rewrite Forall_forall in F. auto.
Qed.

Lemma sort_sorted l : StronglySorted le_b (sort_by l).
Proof. induction l; simpl; [constructor|]. apply insert_sorted. auto. Qed.

Lemma sorted_unique l : forall l', Permutation l l' -> NoDup (map b_name l) ->
  StronglySorted le_b l -> StronglySorted le_b l' -> l = l'.
Proof.
  induction l as [|b l IH]; intros l' P N S S'.
  - apply Permutation_nil in P. auto.
  - destruct l' as [|c l']; [apply Permutation_sym, Permutation_nil in P; discriminate|].
    inversion S as [|? ? S1 F]; subst. inversion S' as [|? ? S1' F']; subst.
    assert (Hc : b = c).
    { assert (Ic : In c (b :: l)) by (eapply Permutation_in; [apply Permutation_sym, P|simpl; auto]).
      assert (Ib : In b (c :: l')) by (eapply Permutation_in; [apply P|simpl; auto]).
      destruct Ic as [|Ic]; auto. destruct Ib as [|Ib]; auto.
      rewrite Forall_forall in F, F'. pose proof (str_leb_antisym _ _ (F c Ic) (F' b Ib)) as Q.
      simpl in N. inversion N as [|? ? Ni _]; subst. destruct Ni. rewrite Q. apply in_map. auto. }
    subst c. f_equal. apply IH; auto.
    + eapply Permutation_cons_inv. eauto.
    + simpl in N. inversion N; auto.
Qed.

(** * The name of a variation depends on its bindings only, not on their order *)

Theorem C88_order : forall l l', Permutation l l' -> NoDup (map b_name l) -> safe_repr l = safe_repr l'.
Proof.
  intros l l' P N. unfold safe_repr. do 2 f_equal. apply sorted_unique; try apply sort_sorted.
  - rewrite <- sort_perm, P. apply sort_perm.
  - eapply Permutation_NoDup; [|exact N]. apply Permutation_map, sort_perm.
Qed.

(** * Names tell the bindings apart *)

(** the text shown for a binding: its label if it has one, otherwise its value if
    that consists of letters, digits, dashes and underscores, otherwise its name
    and its index *)
Inductive shown : binding -> str -> Prop :=
| sh_label n v s : shown (mkB n v (LText s)) s
| sh_value n v s : (forall c, In c v -> letter c = true \/ digit c = true \/ c = "-"%char \/ c = "_"%char) -> shown (mkB n v (LOther s)) v
| sh_index n v s c : In c v -> letter c = false -> digit c = false -> c <> "-"%char -> c <> "_"%char -> shown (mkB n v (LOther s)) (n ++ s).

Lemma printable_char_iff c : printable_char c = true <-> letter c = true \/ digit c = true \/ c = "-"%char \/ c = "_"%char.
Proof. unfold printable_char. rewrite !orb_true_iff, !Ascii.eqb_eq. tauto. Qed.

(** the characters: those of string.ascii_letters, string.digits, the dash and the underscore *)
Definition printable_chars : str := lit "abcdefghijklmnopqrstuvwxyzABCDEFGHIJKLMNOPQRSTUVWXYZ0123456789-_".
Theorem C88_printable : forall s, is_printable s = true <-> forall c, In c s -> In c printable_chars.
Proof.
  intros s. unfold is_printable. rewrite forallb_forall.
  assert (H : forall c, printable_char c = existsb (Ascii.eqb c) printable_chars) by (intros [[] [] [] [] [] [] [] []]; reflexivity).
  split; intros X c I; specialize (X c I).
  - rewrite H in X. apply existsb_exists in X as (d & D & E). apply Ascii.eqb_eq in E. subst. exact D.
  - rewrite H. apply existsb_exists. exists c. split; [exact X|apply Ascii.eqb_refl].
Qed.

Lemma format_shown b : shown b (format_safe b).
Proof.
  destruct b as [n v [s|s]]; unfold format_safe; simpl; [constructor|].
  destruct (is_printable v) eqn:E.
  - constructor. unfold is_printable in E. rewrite forallb_forall in E. intros c Hc. apply printable_char_iff. auto.
  - assert (H : exists c, In c v /\ printable_char c = false).
    { unfold is_printable in E. clear n s. induction v as [|x v IH]; simpl in E; [discriminate|].
      destruct (printable_char x) eqn:Ex; [|exists x; simpl; auto]. destruct (IH E) as (c & Hc & ?). exists c; simpl; auto. }
    destruct H as (c & Hc & Hp). apply (sh_index n v s c); auto.
    + destruct (letter c) eqn:Q; auto. exfalso. rewrite (proj2 (printable_char_iff c)) in Hp by auto. discriminate.
    + destruct (digit c) eqn:Q; auto. exfalso. rewrite (proj2 (printable_char_iff c)) in Hp by auto. discriminate.
    + intros ->. discriminate.
    + intros ->. discriminate.
Qed.

Lemma shown_fun b s s' : shown b s -> shown b s' -> s = s'.
Proof.
  intros H H'. inversion H; subst; inversion H'; subst; auto;
  match goal with X : forall c, In c _ -> _, Y : In _ _ |- _ => apply X in Y end; intuition congruence.
Qed.

Definition comma : ascii := ",".
(** no comma in the name, the label or the index of a binding; a printable value has none *)
Definition plain (b : binding) : Prop :=
  ~ In comma (b_name b) /\ match b_label b with LText s => ~ In comma s | LOther s => ~ In comma s end.

Lemma plain_text b : plain b -> ~ In comma (format_safe b).
Proof.
  intros [Hn Hl] Hi. pose proof (format_shown b) as Sh. destruct Sh; simpl in *; auto.
  - apply H in Hi. destruct Hi as [Hi|[Hi|[Hi|Hi]]]; vm_compute in Hi; discriminate.
  - apply in_app_or in Hi. tauto.
Qed.

Lemma cut (c : ascii) a b a' b' : ~ In c a -> ~ In c a' -> a ++ c :: b = a' ++ c :: b' -> a = a' /\ b = b'.
Proof.
  revert a'. induction a as [|x a IH]; intros [|y a'] N N' E; simpl in *.
  - injection E; auto.
  - injection E; intros; subst. tauto.
  - injection E; intros; subst. tauto.
  - injection E as -> E. destruct (IH a') as [-> ->]; auto.
Qed.

Lemma join_inj l : forall l', List.length l = List.length l' -> (forall s, In s (l ++ l') -> ~ In comma s) ->
  join (lit ",") l = join (lit ",") l' -> l = l'.
Proof.
  induction l as [|x l IH]; intros [|x' l'] L N E; try discriminate; auto.
  assert (Nx : ~ In comma x) by (apply N; simpl; auto).
  assert (Nx' : ~ In comma x') by (apply N; apply in_or_app; right; simpl; auto).
  destruct l as [|y l], l' as [|y' l']; try discriminate.
  - simpl in E. congruence.
  - change (x ++ comma :: join (lit ",") (y :: l) = x' ++ comma :: join (lit ",") (y' :: l')) in E.
    apply cut in E as [-> E]; auto. f_equal. apply IH; auto. intros s Hs. apply N.
    apply in_app_or in Hs. apply in_or_app. destruct Hs; [left|right]; right; auto.
Qed.

Lemma map_insert_names b b' l l' : b_name b = b_name b' -> map b_name l = map b_name l' ->
  map b_name (insert_by b l) = map b_name (insert_by b' l').
Proof.
  intros E. revert l'. induction l as [|c l IH]; intros [|c' l'] H; try discriminate; simpl in *.
  - congruence.
  - injection H as Hc Hl. rewrite E, Hc. destruct (str_leb _ _); simpl; [congruence|]. rewrite (IH l') by auto. congruence.
Qed.

Lemma map_sort_names l : forall l', map b_name l = map b_name l' -> map b_name (sort_by l) = map b_name (sort_by l').
Proof.
  induction l as [|b l IH]; intros [|b' l'] H; try discriminate; auto.
  simpl in *. injection H as Hb Hl. apply map_insert_names; auto.
Qed.

Lemma texts_eq l : forall l', map b_name l = map b_name l' ->
  map (fun b => b_name b ++ lit "=" ++ format_safe b) l = map (fun b => b_name b ++ lit "=" ++ format_safe b) l' ->
  Forall2 (fun b b' => b_name b = b_name b' /\ format_safe b = format_safe b') l l'.
Proof.
  induction l as [|b l IH]; intros [|b' l'] N E; try discriminate; auto.
  simpl in N, E. injection N as Nb Nl. injection E as Eb El. rewrite Nb in Eb. apply app_inv_head in Eb.
  constructor; auto. split; auto. injection Eb. auto.
Qed.

Lemma Forall2_ex (R : binding -> binding -> Prop) l l' : Forall2 R l l' -> forall b, In b l -> exists b', In b' l' /\ R b b'.
Proof. induction 1; simpl; intros ? []; subst; eauto. destruct (IHForall2 _ H1) as (? & ? & ?); eauto. Qed.

(** Two variations of one function (the same names are bound in them) have the same
    name if and only if they show the same text for every parameter. *)
Theorem C88_names : forall l l', map b_name l = map b_name l' -> NoDup (map b_name l) ->
  (forall b, In b (l ++ l') -> plain b) ->
  (safe_repr l = safe_repr l' <->
   forall b b' s s', In b l -> In b' l' -> b_name b = b_name b' -> shown b s -> shown b' s' -> s = s').
Proof.
  intros l l' N D P. split.
  - intros E b b' s s' Hb Hb' Nb Sb Sb'.
    rewrite (shown_fun _ _ _ Sb (format_shown b)), (shown_fun _ _ _ Sb' (format_shown b')).
    unfold safe_repr in E. apply join_inj in E.
    + apply texts_eq in E; [|apply map_sort_names; auto].
      assert (Hs : In b (sort_by l)) by (eapply Permutation_in; [apply sort_perm|auto]).
      destruct (Forall2_ex _ _ _ E b Hs) as (b2 & H2 & N2 & T2). rewrite T2.
      assert (Q : b2 = b').
      { apply (Permutation_in b2 (Permutation_sym (sort_perm l'))) in H2. rewrite N in D. rewrite N2 in Nb. clear - D H2 Hb' Nb.
        induction l' as [|x l' IH]; simpl in *; [tauto|]. inversion D as [|? ? Ni D']; subst.
        destruct H2 as [->|H2], Hb' as [->|Hb']; auto; destruct Ni; [rewrite Nb|rewrite <- Nb]; apply in_map; auto. }
      congruence.
    + rewrite !map_length, <- (Permutation_length (sort_perm l)), <- (Permutation_length (sort_perm l')).
      rewrite <- (map_length b_name l), N, map_length. auto.
    + intros s0 Hs. assert (exists b0, In b0 (l ++ l') /\ s0 = b_name b0 ++ lit "=" ++ format_safe b0) as (b0 & H0 & ->).
      { apply in_app_or in Hs. destruct Hs as [Hs|Hs]; apply in_map_iff in Hs as (b0 & <- & H0);
        apply (Permutation_in b0 (Permutation_sym (sort_perm _))) in H0; exists b0; split; auto; apply in_or_app; auto. }
      pose proof (P _ H0) as Pb. intros Hi. apply in_app_or in Hi. destruct Hi as [Hi|[Hi|Hi]].
      * apply Pb; auto.
      * discriminate.
      * revert Hi. apply plain_text. auto.
  - intros H. unfold safe_repr. f_equal.
    assert (G : forall k k', map b_name k = map b_name k' -> (forall b, In b k -> In b l) -> (forall b, In b k' -> In b l') ->
      map (fun b => b_name b ++ lit "=" ++ format_safe b) k = map (fun b => b_name b ++ lit "=" ++ format_safe b) k').
    { induction k as [|b k IH]; intros [|b' k'] Nk I1 I2; try discriminate; auto. simpl in *. injection Nk as Nb Nk.
      f_equal; [|apply IH; auto]. rewrite Nb. do 2 f_equal. eapply H; eauto using format_shown. }
    apply G.
    + apply map_sort_names; auto.
    + intros b Hb. eapply Permutation_in; [apply Permutation_sym, sort_perm|auto].
    + intros b Hb. eapply Permutation_in; [apply Permutation_sym, sort_perm|auto].
Qed.

(** Tests made from one function have different addresses if and only if some
    parameter is shown differently. *)
Theorem C88_addresses : forall m m', m_override m = None -> m_override m' = None ->
  m_path m = m_path m' -> m_in_file m = m_in_file m' -> m_varied m = true -> m_varied m' = true ->
  map b_name (m_bindings m) = map b_name (m_bindings m') -> NoDup (map b_name (m_bindings m)) ->
  (forall b, In b (m_bindings m ++ m_bindings m') -> plain b) ->
  (get_address m = get_address m' <->
   forall b b' s s', In b (m_bindings m) -> In b' (m_bindings m') -> b_name b = b_name b' -> shown b s -> shown b' s' -> s = s').
Proof.
  intros m m' O O' Pa F V V' N D P. rewrite <- (C88_names _ _ N D P).
  unfold get_address. rewrite O, O', Pa, F, V, V'. split.
  - intros E. do 4 apply app_inv_head in E. apply app_inv_tail in E. auto.
  - intros ->. auto.
Qed.

(** The full claim: variations with different values have different names. *)
Definition names_differ : Prop := forall l l' : list binding,
  map b_name l = map b_name l' -> NoDup (map b_name l) ->
  (forall b, In b (l ++ l') -> plain b) ->
  map b_label l <> map b_label l' -> safe_repr l <> safe_repr l'.

(** It is false of 1 and '1' (the indices 0 and 1), of a value shown by its name and
    index and a string that says the same, and of labels given twice. *)
Theorem C88_different_values_refuted : ~ names_differ /\
  safe_repr [mkB (lit "a") (lit "1") (LOther (lit "0"))] = safe_repr [mkB (lit "a") (lit "1") (LOther (lit "1"))] /\
  safe_repr [mkB (lit "a") (lit "[]") (LOther (lit "0"))] = safe_repr [mkB (lit "a") (lit "a0") (LOther (lit "1"))] /\
  safe_repr [mkB (lit "a") (lit "[]") (LText (lit "x"))] = safe_repr [mkB (lit "a") (lit "x") (LOther (lit "1"))].
Proof.
  split; [|repeat split; reflexivity].
  intros H. apply (H [mkB (lit "a") (lit "1") (LOther (lit "0"))] [mkB (lit "a") (lit "1") (LOther (lit "1"))]); try reflexivity.
  - repeat constructor. auto.
  - intros b Hb. destruct Hb as [<-|[<-|[]]]; split; simpl; intuition discriminate.
  - discriminate.
Qed.

(** Labels are meant to be identifiers of at most thirty characters ... *)
Definition identifier (s : str) : Prop :=
  exists c r, s = c :: r /\ (letter c = true \/ c = "_"%char) /\ List.length s <= 30 /\
  forall d, In d r -> letter d = true \/ digit d = true \/ d = "_"%char.

Lemma label_char_iff d : label_char d = true <-> letter d = true \/ digit d = true \/ d = "_"%char.
Proof. unfold label_char. rewrite !orb_true_iff, Ascii.eqb_eq. tauto. Qed.

(** ... and each of these is accepted, but so are those with a newline after them. *)
Theorem C88_labels_partial : forall s, valid_label s = true <-> identifier s \/ exists t, s = t ++ lit (String "010" "") /\ identifier t.
Proof.
  intros s. split.
  - destruct s as [|c s]; [discriminate|]. unfold valid_label. rewrite !andb_true_iff. cbv zeta. intros (Hc & Hb & Hl).
    rewrite orb_true_iff, Ascii.eqb_eq in Hc. apply Nat.leb_le in Hl. rewrite forallb_forall in Hb.
    destruct (ends (lit (String "010" "")) s) eqn:E.
    + right. apply ends_spec in E as [a ->]. rewrite app_length in *. simpl in Hb, Hl.
      replace (List.length a + 1 - 1) with (List.length a) in * by lia. rewrite firstn_app, Nat.sub_diag, firstn_all in *. simpl in Hb, Hl. rewrite app_nil_r in *.
      exists (c :: a). split; auto. exists c, a. split; auto. split; auto. split; [simpl; lia|]. intros d Hd. apply label_char_iff. auto.
    + left. exists c, s. split; auto. split; auto. split; [simpl; lia|]. intros d Hd. apply label_char_iff. auto.
  - assert (G : forall c r, letter c = true \/ c = "_"%char -> List.length r <= 29 -> (forall d, In d r -> letter d = true \/ digit d = true \/ d = "_"%char) ->
       (letter c || Ascii.eqb c "_") && (forallb label_char r && Nat.leb (List.length r) 29) = true).
    { intros c r Hc Hl Hr. rewrite !andb_true_iff, orb_true_iff, Ascii.eqb_eq, Nat.leb_le, forallb_forall. repeat split; auto. intros d Hd. apply label_char_iff. auto. }
    intros [(c & r & -> & Hc & Hl & Hr)|(t & -> & c & r & -> & Hc & Hl & Hr)]; simpl in Hl.
    + unfold valid_label. cbv zeta. destruct (ends (lit (String "010" "")) r) eqn:E.
      * apply ends_spec in E as [a ->]. exfalso. destruct (Hr "010"%char) as [H|[H|H]]; [apply in_or_app; simpl; auto| | |]; vm_compute in H; discriminate.
      * apply G; auto. lia.
    + change ((c :: r) ++ lit (String "010" "")) with (c :: (r ++ lit (String "010" ""))). unfold valid_label. cbv zeta.
      replace (ends (lit (String "010" "")) (r ++ lit (String "010" ""))) with true by (symmetry; apply ends_spec; eauto).
      assert (F : firstn (List.length (r ++ lit (String "010" "")) - 1) (r ++ lit (String "010" "")) = r).
      { rewrite app_length. replace (List.length r + List.length (lit (String "010" "")) - 1) with (List.length r) by (simpl; lia).
        rewrite firstn_app, Nat.sub_diag, firstn_all. apply app_nil_r. }
      rewrite F. apply G; auto. lia.
Qed.

Theorem C88_labels_refuted : exists s, valid_label s = true /\ ~ identifier s.
Proof.
  exists (lit "a" ++ lit (String "010" "")). split; [reflexivity|]. intros (c & r & E & _ & _ & H).
  simpl in E. injection E as <- <-. destruct (H "010"%char) as [Q|[Q|Q]]; simpl; auto; vm_compute in Q; discriminate.
Qed.

(** ** Non-vacuity: test_x(kind, size) with a list for size and a label for kind *)

Definition ex_1 : list binding :=
  [mkB (lit "size") (lit "[1, 2]") (LOther (lit "0")); mkB (lit "kind") (lit "3") (LText (lit "small"))].
Definition ex_2 : list binding :=
  [mkB (lit "size") (lit "-7") (LOther (lit "1")); mkB (lit "kind") (lit "3") (LText (lit "small"))].

Example C88_hypotheses_met : map b_name ex_1 = map b_name ex_2 /\ NoDup (map b_name ex_1) /\
  (forall b, In b (ex_1 ++ ex_2) -> plain b) /\
  get_address (mkM None (lit "t.py") (lit "test_x") true ex_1) = lit "t.py:test_x(kind=small,size=size0)" /\
  get_address (mkM None (lit "t.py") (lit "test_x") true ex_2) = lit "t.py:test_x(kind=small,size=-7)".
Proof.
  split; [reflexivity|]. split; [repeat constructor; simpl; intuition discriminate|]. split.
  - intros b Hb. simpl in Hb. destruct Hb as [<-|[<-|[<-|[<-|[]]]]]; split; simpl; intuition discriminate.
  - split; reflexivity.
Qed.

Print Assumptions C88_order.
Print Assumptions C88_names.
Print Assumptions C88_addresses.
Print Assumptions C88_different_values_refuted.
Print Assumptions C88_labels_partial.
Print Assumptions C88_labels_refuted.
Print Assumptions C88_printable.
