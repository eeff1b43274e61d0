(** Filter expressions: C42 (boolean semantics), C60 (malformed texts). *)

From Coq Require Import List Bool Arith PeanoNat Lia Ascii String.
From Verif Require Import Str Matcher.
Import ListNotations.

(** ** Specification *)

(** Filter expressions, independent of any text. *)
Inductive expr :=
| EAtom (w : str)
| ETag (w : str)
| ENot (a : expr)
| EAnd (a b : expr)
| EOr (a b : expr).

Definition inside (p s : str) : Prop := exists a b, s = a ++ p ++ b.

(** tag [k] is set, to a value whose text is [v] *)
Definition tag_is (md : metadata) (k v : str) : Prop :=
  exists l1 l2, md_tags md = Some (l1 ++ (k, Some v) :: l2) /\ ~ In k (map fst l1).

Definition has_tag (md : metadata) (k : str) : Prop :=
  exists l, md_tags md = Some l /\ In k (map fst l).

(** meaning of an atom [key=value] as a tag with a value *)
Definition valued (md : metadata) (w : str) : Prop :=
  exists k v, w = k ++ "="%char :: v /\ ~ In "="%char k /\ tag_is md k v.

Fixpoint holds (e : expr) (md : metadata) : Prop :=
  match e with
  | EAtom w => valued md w
               \/ (~ In "="%char w /\ exists k, has_tag md k /\ inside w k)
               \/ inside w (md_address md)
  | ETag w => valued md w \/ (~ In "="%char w /\ has_tag md w)
  | ENot a => ~ holds a md
  | EAnd a b => holds a md /\ holds b md
  | EOr a b => holds a md \/ holds b md
  end.

(** the same for a plain text in place of a test *)
Fixpoint holds_in (e : expr) (t : str) : Prop :=
  match e with
  | EAtom w | ETag w => inside w t
  | ENot a => ~ holds_in a t
  | EAnd a b => holds_in a t /\ holds_in b t
  | EOr a b => holds_in a t \/ holds_in b t
  end.

(** words that can stand for themselves: not read as the operator [not] and
    not as a [tag:] prefix *)
Definition word (w : str) : Prop := w <> [] /\ forall c, In c w -> word_char c = true.

Definition plain (w : str) : Prop :=
  word w /\ (forall r, w <> lit "tag:" ++ r)
  /\ (forall r, w = lit "not" ++ r -> exists c r', r = c :: r' /\ ident_char c = true).

Definition blanks (s : str) : Prop := forall c, In c s -> blank c = true.

(** a text that is set off from what precedes it *)
Definition set_off (s : str) : Prop :=
  exists c s', s = c :: s' /\ (blank c = true \/ c = "("%char).

(** [spells l e s]: the text [s] is a way of writing [e], at the given level of
    binding strength: [not] binds strongest, then [and], then [or]; [and] and
    [or] associate to the left; any amount of white space, any redundant
    parentheses. *)
Inductive spells : level -> expr -> str -> Prop :=
| SpAtom w sp : plain w -> blanks sp -> spells LBase (EAtom w) (sp ++ w)
| SpTag w sp sp' : word w -> blanks sp -> blanks sp' ->
    spells LBase (ETag w) (sp ++ lit "tag:" ++ sp' ++ w)
| SpParen e s sp sp' : spells LOr e s -> blanks sp -> blanks sp' ->
    spells LBase e (sp ++ lit "(" ++ s ++ sp' ++ lit ")")
| SpNot e s sp : spells LNot e s -> set_off s -> blanks sp ->
    spells LNot (ENot e) (sp ++ lit "not" ++ s)
| SpBase e s : spells LBase e s -> spells LNot e s
| SpAnd a b s s' sp : spells LAnd a s -> spells LNot b s' -> set_off s' -> blanks sp ->
    (sp <> [] \/ exists s0, s = s0 ++ lit ")") ->
    spells LAnd (EAnd a b) (s ++ sp ++ lit "and" ++ s')
| SpOne e s : spells LNot e s -> spells LAnd e s
| SpOr a b s s' sp : spells LOr a s -> spells LAnd b s' -> set_off s' -> blanks sp ->
    (sp <> [] \/ exists s0, s = s0 ++ lit ")") ->
    spells LOr (EOr a b) (s ++ sp ++ lit "or" ++ s')
| SpOnly e s : spells LAnd e s -> spells LOr e s.

(** ** Basic facts *)

Lemma tag_get_In k l v : tag_get k l = Some v -> In k (map fst l).
Proof.
  induction l as [|[k' v'] l IH]; simpl; [discriminate|].
  destruct (str_eqb_spec k k') as [->|]; auto.
Qed.

Lemma tag_get_first k l v : tag_get k l = Some v <-> exists l1 l2, l = l1 ++ (k, v) :: l2 /\ ~ In k (map fst l1).
Proof.
  induction l as [|[k' v'] l IH]; simpl.
  - split; [discriminate|]. intros ([|] & l2 & H & _); discriminate.
  - destruct (str_eqb_spec k k') as [<-|N]; [split|].
    + intros E. injection E as <-. exists [], l. auto.
    + intros ([|[k1 v1] l1] & l2 & H & I); simpl in H; [congruence|]. injection H as -> -> _. destruct I. simpl. auto.
    + rewrite IH. split; intros (l1 & l2 & H & I).
      * exists ((k', v') :: l1), l2. subst. split; auto. simpl. intros [|]; auto.
      * destruct l1 as [|[k1 v1] l1]; simpl in H; [congruence|]. injection H as -> -> ->. exists l1, l2. split; auto. intros J. apply I. simpl. auto.
Qed.

Lemma tag_is_get md k v : tag_is md k v <-> exists l, md_tags md = Some l /\ tag_get k l = Some (Some v).
Proof.
  split.
  - intros (l1 & l2 & H & N). exists (l1 ++ (k, Some v) :: l2). split; auto. apply tag_get_first. eauto.
  - intros (l & H & G). apply tag_get_first in G. destruct G as (l1 & l2 & -> & N). exists l1, l2. auto.
Qed.

Lemma include_atom w md : matches (Include false w) md = true <-> holds (EAtom w) md.
Proof.
  cbn [matches holds]. destruct (tags_match (md_tags md) w false) eqn:E; unfold tags_match in E.
  - split; auto. intros _. destruct (md_tags md) as [l|] eqn:T; [|discriminate].
    destruct (split1 "=" w) as [[k v]|] eqn:S.
    + left. apply split1_spec in S as [-> N]. exists k, v. do 2 (split; auto).
      destruct (tag_get k l) as [[v'|]|] eqn:G; try discriminate.
      apply str_eqb_eq in E as ->. apply tag_is_get. exists l. auto.
    + right; left. apply split1_none in S. split; auto.
      apply existsb_exists in E as ([k v] & Hi & C). simpl in C. apply contains_spec in C.
      exists k. split; [|exact C]. exists l. split; auto. apply in_map_iff. exists (k, v). auto.
  - rewrite contains_spec. split; auto.
    intros [(k & v & -> & N & TG)|[(N & k & (l & T & Hi) & C)|C]]; auto; exfalso.
    + apply tag_is_get in TG as (l & T & G). rewrite T in E. rewrite (proj2 (split1_spec "=" _ k v)) in E by auto.
      rewrite G, str_eqb_refl in E. discriminate.
    + rewrite T in E. rewrite (proj2 (split1_none "=" w) N) in E.
      apply in_map_iff in Hi as ([k' v] & <- & Hi).
      assert (existsb (fun kv : str * tagval => contains w (fst kv)) l = true); [|congruence].
      apply existsb_exists. exists (k', v). split; auto. apply contains_spec. exact C.
Qed.

Lemma include_tag w md : matches (Include true w) md = true <-> holds (ETag w) md.
Proof.
  cbn [matches holds]. unfold tags_match.
  destruct (md_tags md) as [l|] eqn:T.
  - destruct (split1 "=" w) as [[k v]|] eqn:S.
    + apply split1_spec in S as [-> N].
      destruct (tag_get k l) as [[v'|]|] eqn:G; [destruct (str_eqb_spec v' v) as [->|Nv]|..].
      * split; auto. intros _. left. exists k, v. do 2 (split; auto). apply tag_is_get. exists l. auto.
      * split; [discriminate|]. intros [(k2 & v2 & H & N2 & TG)|[H _]]; [apply tag_is_get in TG as (l2 & T2 & G2)|].
        -- assert (Some (k, v) = Some (k2, v2)) as Q.
           { rewrite <- (proj2 (split1_spec "=" _ k v) (conj eq_refl N)). apply split1_spec. auto. }
           inversion Q; subst. rewrite T in T2. inversion T2; subst. congruence.
        -- destruct H. apply in_or_app. simpl; auto.
      * split; [discriminate|]. intros [(k2 & v2 & H & N2 & TG)|[H _]]; [apply tag_is_get in TG as (l2 & T2 & G2)|].
        -- assert (Some (k, v) = Some (k2, v2)) as Q.
           { rewrite <- (proj2 (split1_spec "=" _ k v) (conj eq_refl N)). apply split1_spec. auto. }
           inversion Q; subst. rewrite T in T2. inversion T2; subst. congruence.
        -- destruct H. apply in_or_app. simpl; auto.
      * split; [discriminate|]. intros [(k2 & v2 & H & N2 & TG)|[H _]]; [apply tag_is_get in TG as (l2 & T2 & G2)|].
        -- assert (Some (k, v) = Some (k2, v2)) as Q.
           { rewrite <- (proj2 (split1_spec "=" _ k v) (conj eq_refl N)). apply split1_spec. auto. }
           inversion Q; subst. rewrite T in T2. inversion T2; subst. congruence.
        -- destruct H. apply in_or_app. simpl; auto.
    + apply split1_none in S.
      destruct (existsb (fun kv : str * tagval => str_eqb w (fst kv)) l) eqn:E.
      * split; auto. intros _. right. split; auto.
        apply existsb_exists in E as ([k v] & Hi & C). apply str_eqb_eq in C. simpl in C. subst.
        exists l. split; auto. apply in_map_iff. exists (k, v); auto.
      * split; [discriminate|]. intros [(k & v & -> & _)|[_ (l2 & T2 & Hi)]].
        -- destruct S. apply in_or_app; simpl; auto.
        -- rewrite T in T2; inversion T2; subst. apply in_map_iff in Hi as ([k v] & <- & Hi).
           assert (existsb (fun kv : str * tagval => str_eqb k (fst kv)) l2 = true) as Q; [|simpl in E; congruence].
           apply existsb_exists. exists (k, v). split; auto. apply str_eqb_refl.
  - split; [discriminate|]. intros [(k & v & _ & _ & l1 & l2 & T2 & _)|[_ (l & T2 & _)]]; congruence.
Qed.

Lemma skip_blanks sp p s : blanks sp ->
  skip p (sp ++ s) = match s with
                     | [] => skip (last sp p) []
                     | _ => skip (last sp p) s
                     end.
Proof.
  revert p. induction sp as [|c sp IH]; intros p B; simpl.
  - destruct s; auto.
  - rewrite (B c) by (simpl; auto). rewrite IH by (intros x Hx; apply B; simpl; auto).
    destruct sp as [|d sp]; destruct s; try reflexivity.
    + change (last (d :: sp) c) with (last (d :: sp) c).
      replace (last (d :: sp) c) with (last (d :: sp) p); auto.
      clear. revert d. induction sp as [|e sp IH]; intros d; simpl; auto. destruct sp; auto. apply (IH e).
    + replace (last (d :: sp) c) with (last (d :: sp) p); auto.
      clear. revert d. induction sp as [|e sp IH]; intros d; simpl; auto. destruct sp; auto. apply (IH e).
Qed.

Lemma skip_app sp p s : blanks sp -> skip p (sp ++ s) = skip (last sp p) s.
Proof. intros B. rewrite skip_blanks by auto. destruct s; auto. Qed.

Lemma skip_snd p q s : snd (skip p s) = snd (skip q s).
Proof. revert p q. induction s as [|c s IH]; intros p q; simpl; auto. destruct (blank c); auto. Qed.

Lemma skip_len p s : List.length (snd (skip p s)) <= List.length s.
Proof.
  revert p. induction s as [|c s IH]; intros p; simpl; auto.
  destruct (blank c); simpl; auto.
Qed.

Lemma skip_nonblank p c s : blank c = false -> skip p (c :: s) = (p, c :: s).
Proof. simpl. intros ->. auto. Qed.

Lemma last_indep {A} (x : A) l p q : last (x :: l) p = last (x :: l) q.
Proof. revert x. induction l as [|y l IH]; intros x; simpl; auto. destruct l; auto. apply (IH y). Qed.

(** all characters at once *)
Lemma ascii_all (P : ascii -> bool) :
  forallb P (map ascii_of_nat (seq 0 256)) = true -> forall c, P c = true.
Proof.
  rewrite forallb_forall. intros H c. rewrite <- (ascii_nat_embedding c). apply H.
  apply in_map_iff. exists (nat_of_ascii c). split; auto. apply in_seq. pose proof (nat_ascii_bounded c). lia.
Qed.

Lemma word_nonblank c : word_char c = true -> blank c = false.
Proof.
  intros H. pose proof (ascii_all (fun c => implb (word_char c) (negb (blank c))) ltac:(vm_compute; reflexivity) c) as Q.
  cbv beta in Q. rewrite H in Q. simpl in Q. now apply negb_true_iff in Q.
Qed.

Lemma blank_nonident c : blank c = true -> ident_char c = false.
Proof.
  intros H. pose proof (ascii_all (fun c => implb (blank c) (negb (ident_char c))) ltac:(vm_compute; reflexivity) c) as Q.
  cbv beta in Q. rewrite H in Q. simpl in Q. now apply negb_true_iff in Q.
Qed.

Lemma blank_nonword c : blank c = true -> word_char c = false.
Proof. intros H. destruct (word_char c) eqn:E; auto. apply word_nonblank in E. congruence. Qed.

(** a text after which a word has ended *)
Definition cut (s : str) : Prop := match s with [] => True | c :: _ => word_char c = false end.

Lemma take_word w r : (forall c, In c w -> word_char c = true) -> cut r -> take (w ++ r) = (w, r).
Proof.
  induction w as [|c w IH]; simpl; intros H C.
  - destruct r as [|c r]; auto. simpl. simpl in C. rewrite C. auto.
  - rewrite (H c) by auto. rewrite IH; auto.
Qed.

Lemma take_len s w r : take s = (w, r) -> List.length s = List.length w + List.length r.
Proof.
  revert w r. induction s as [|c s IH]; simpl; intros w r H.
  - inversion H; auto.
  - destruct (word_char c); [|inversion H; auto].
    destruct (take s) as [w' r'] eqn:E. inversion H; subst. simpl. f_equal. auto.
Qed.

(** ** Fuel *)

Definition ilen (i : inp) : nat := List.length (snd i).

Lemma p_lit_len w i i' : p_lit w i = Some i' -> ilen i' + List.length w <= ilen i.
Proof.
  unfold p_lit, ilen. destruct i as [p s]; simpl. pose proof (skip_len p s) as L.
  destruct (skip p s) as [q t]; simpl in *.
  destruct (strip_prefix w t) as [r|] eqn:E; [|discriminate].
  apply strip_prefix_spec in E as ->. intros H; inversion H; simpl. rewrite app_length in L. lia.
Qed.

Lemma p_keyword_len w i i' : p_keyword w i = Some i' -> ilen i' + List.length w <= ilen i.
Proof.
  unfold p_keyword, ilen. destruct i as [p s]; simpl. pose proof (skip_len p s) as L.
  destruct (skip p s) as [q t]; simpl in *.
  destruct (strip_prefix w t) as [r|] eqn:E; [|discriminate].
  apply strip_prefix_spec in E as ->. destruct (_ || _); [discriminate|].
  intros H; inversion H; simpl. rewrite app_length in L. lia.
Qed.

Lemma p_word_len i w i' : p_word i = Some (w, i') -> ilen i' < ilen i.
Proof.
  unfold p_word, ilen. destruct i as [p s]; simpl. pose proof (skip_len p s) as L.
  destruct (skip p s) as [q t]; simpl in *.
  destruct (take t) as [w' r] eqn:E. apply take_len in E.
  destruct w'; [discriminate|]. intros H; inversion H; subst; simpl in *. lia.
Qed.

Lemma p_matcher_len i m i' : p_matcher i = Some (m, i') -> ilen i' < ilen i.
Proof.
  unfold p_matcher. destruct (p_lit (lit "tag:") i) as [i1|] eqn:E.
  - apply p_lit_len in E. destruct (p_word i1) as [[w i2]|] eqn:F.
    + apply p_word_len in F. intros H; inversion H; subst. lia.
    + destruct (p_word i) as [[w i2]|] eqn:G; [|discriminate]. apply p_word_len in G.
      intros H; inversion H; subst. lia.
  - destruct (p_word i) as [[w i2]|] eqn:G; [|discriminate]. apply p_word_len in G.
    intros H; inversion H; subst. lia.
Qed.

Definition rank (l : level) : nat := match l with LBase => 1 | LNot => 2 | LAnd => 3 | LOr => 4 end.

Lemma fuel_enough n :
  (forall l i, 8 * ilen i + rank l <= n ->
     parse n l i <> PFuel /\ forall m i', parse n l i = POk m i' -> ilen i' < ilen i)
  /\ (forall l op i, 2 <= List.length op -> 8 * ilen i + 1 <= n ->
     more n l op i <> RFuel /\ forall ms i', more n l op i = ROk ms i' -> ilen i' <= ilen i).
Proof.
  induction n as [|n [IHp IHm]]; split.
  - intros l i H. destruct l; simpl in H; lia.
  - intros; lia.
  - intros l i H. destruct l; cbn [parse rank] in *.
    + destruct (p_matcher i) as [[m i']|] eqn:E.
      { apply p_matcher_len in E. split; [discriminate|]. intros m2 i2 Q; inversion Q; subst; auto. }
      destruct (p_lit (lit "(") i) as [i1|] eqn:E1; [|split; [discriminate|intros; discriminate]].
      apply p_lit_len in E1. simpl in E1.
      destruct (IHp LOr i1) as [F1 F2]; [simpl; lia|].
      destruct (parse n LOr i1) as [m i2| |]; [|split; [discriminate|intros; discriminate]|congruence].
      specialize (F2 _ _ eq_refl).
      destruct (p_lit (lit ")") i2) as [i3|] eqn:E3; [|split; [discriminate|intros; discriminate]].
      apply p_lit_len in E3. simpl in E3. split; [discriminate|]. intros m2 i4 Q; inversion Q; subst. lia.
    + destruct (IHp LBase i) as [B1 B2]; [simpl; lia|].
      destruct (p_keyword (lit "not") i) as [i1|] eqn:E1; [|auto].
      apply p_keyword_len in E1. simpl in E1.
      destruct (IHp LNot i1) as [F1 F2]; [simpl; lia|].
      destruct (parse n LNot i1) as [m i2| |]; [|auto|congruence].
      specialize (F2 _ _ eq_refl). split; [discriminate|]. intros m2 i4 Q; inversion Q; subst. lia.
    + destruct (IHp LNot i) as [B1 B2]; [simpl; lia|].
      destruct (parse n LNot i) as [m i1| |]; [|split; [discriminate|intros; discriminate]|congruence].
      specialize (B2 _ _ eq_refl).
      destruct (IHm LNot (lit "and") i1) as [F1 F2]; [simpl; lia|lia|].
      destruct (more n LNot (lit "and") i1) as [ms i2|]; [|congruence].
      specialize (F2 _ _ eq_refl). split; [discriminate|]. intros m2 i4 Q; inversion Q; subst. lia.
    + destruct (IHp LAnd i) as [B1 B2]; [simpl; lia|].
      destruct (parse n LAnd i) as [m i1| |]; [|split; [discriminate|intros; discriminate]|congruence].
      specialize (B2 _ _ eq_refl).
      destruct (IHm LAnd (lit "or") i1) as [F1 F2]; [simpl; lia|lia|].
      destruct (more n LAnd (lit "or") i1) as [ms i2|]; [|congruence].
      specialize (F2 _ _ eq_refl). split; [discriminate|]. intros m2 i4 Q; inversion Q; subst. lia.
  - intros l op i Lo H. cbn [more].
    destruct (p_lit op i) as [i1|] eqn:E1; [|split; [discriminate|intros ms i' Q; inversion Q; auto]].
    apply p_lit_len in E1.
    destruct (IHp l i1) as [F1 F2]; [destruct l; simpl; lia|].
    destruct (parse n l i1) as [m i2| |]; [|split; [discriminate|intros ms i' Q; inversion Q; auto]|congruence].
    specialize (F2 _ _ eq_refl).
    destruct (IHm l op i2) as [G1 G2]; [auto|lia|].
    destruct (more n l op i2) as [ms i3|]; [|congruence].
    specialize (G2 _ _ eq_refl). split; [discriminate|]. intros ms' i' Q; inversion Q; subst. lia.
Qed.

Lemma fuel_mono n :
  (forall l i r, parse n l i = r -> r <> PFuel -> parse (S n) l i = r)
  /\ (forall l op i r, more n l op i = r -> r <> RFuel -> more (S n) l op i = r).
Proof.
  induction n as [|n [IHp IHm]]; split.
  - intros l i r H N. simpl in H. congruence.
  - intros l op i r H N. simpl in H. congruence.
  - intros l i r H N. remember (S n) as k eqn:K. destruct l; cbn [parse].
    + rewrite K in H. cbn [parse] in H. destruct (p_matcher i) as [[m i']|]; auto.
      destruct (p_lit (lit "(") i) as [i1|]; auto.
      destruct (parse n LOr i1) eqn:E; try (rewrite (IHp _ _ _ E) by discriminate; auto; fail). congruence.
    + rewrite K in H. cbn [parse] in H. destruct (p_keyword (lit "not") i) as [i1|].
      * destruct (parse n LNot i1) eqn:E; try (rewrite (IHp _ _ _ E) by discriminate; auto; fail). congruence.
      * subst k; auto.
    + rewrite K in H. cbn [parse] in H.
      destruct (parse n LNot i) eqn:E; try (rewrite (IHp _ _ _ E) by discriminate; auto; fail); [|congruence].
      rewrite (IHp _ _ _ E) by discriminate.
      destruct (more n LNot (lit "and") i0) eqn:E2; [|congruence].
      rewrite (IHm _ _ _ _ E2) by discriminate. auto.
    + rewrite K in H. cbn [parse] in H.
      destruct (parse n LAnd i) eqn:E; try (rewrite (IHp _ _ _ E) by discriminate; auto; fail); [|congruence].
      rewrite (IHp _ _ _ E) by discriminate.
      destruct (more n LAnd (lit "or") i0) eqn:E2; [|congruence].
      rewrite (IHm _ _ _ _ E2) by discriminate. auto.
  - intros l op i r H N. remember (S n) as k eqn:K. cbn [more]. rewrite K in H. cbn [more] in H.
    destruct (p_lit op i) as [i1|]; auto.
    destruct (parse n l i1) eqn:E; try (rewrite (IHp _ _ _ E) by discriminate; auto; fail); [|congruence].
    rewrite (IHp _ _ _ E) by discriminate.
    destruct (more n l op i0) eqn:E2; [|congruence].
    rewrite (IHm _ _ _ _ E2) by discriminate. auto.
Qed.

Lemma parse_mono n k l i r : n <= k -> parse n l i = r -> r <> PFuel -> parse k l i = r.
Proof. intros H. revert r. induction H; auto. intros r E N. apply fuel_mono; auto. Qed.

Lemma more_mono n k l op i r : n <= k -> more n l op i = r -> r <> RFuel -> more k l op i = r.
Proof. intros H. revert r. induction H; auto. intros r E N. apply fuel_mono; auto. Qed.

(** ** Texts that spell an expression *)

Definition equiv (m : matcher) (e : expr) : Prop :=
  (forall md, matches m md = true <-> holds e md) /\ (forall t, matches_str m t = true <-> holds_in e t).

Definition startok (p : ascii) (s : str) : Prop := ident_char p = false \/ set_off s.

Definition closed (s : str) : Prop := exists s0, s = s0 ++ lit ")".
Definition fits (s rest : str) : Prop := cut rest \/ closed s.
Definition no_lit (w rest : str) : Prop := strip_prefix w (snd (skip " " rest)) = None.

Lemma no_lit_p w p rest : no_lit w rest -> p_lit w (p, rest) = None.
Proof.
  unfold no_lit, p_lit; simpl. rewrite (skip_snd " " p). destruct (skip p rest) as [q t]; simpl.
  intros ->. auto.
Qed.

Lemma spells_nonempty l e s : spells l e s -> s <> [].
Proof.
  induction 1; auto; try (destruct sp; discriminate).
  - destruct H as [[N _] _]. destruct sp; simpl; [auto|discriminate].
  - intros Q. apply app_eq_nil in Q as [Q _]. auto.
  - intros Q. apply app_eq_nil in Q as [Q _]. auto.
Qed.

Lemma closed_app a s : s <> [] -> closed (a ++ s) -> closed s.
Proof.
  intros N [s0 H]. destruct (exists_last N) as (s1 & c & ->).
  rewrite app_assoc in H. change (lit ")") with [")"%char] in H. apply app_inj_tail in H as [_ ->].
  exists s1. auto.
Qed.

Lemma fits_app a s rest : s <> [] -> fits (a ++ s) rest -> fits s rest.
Proof. intros N [H|H]; [left; auto|right; eapply closed_app; eauto]. Qed.

Lemma set_off_app s t : s <> [] -> set_off (s ++ t) -> set_off s.
Proof. intros N (c & s' & H & D). destruct s as [|d s]; [congruence|]. simpl in H. inversion H; subst. exists c, s. auto. Qed.

Lemma startok_app p s t : s <> [] -> startok p (s ++ t) -> startok p s.
Proof. intros N [H|H]; [left; auto|right; eapply set_off_app; eauto]. Qed.

Lemma prefix_in_word k w rest r :
  (forall c, In c k -> word_char c = true) -> cut rest ->
  strip_prefix k (w ++ rest) = Some r -> exists r0, w = k ++ r0.
Proof.
  revert w. induction k as [|c k IH]; intros w W C; simpl; [eauto|].
  destruct w as [|d w]; simpl.
  - destruct rest as [|d rest]; [discriminate|]. destruct (Ascii.eqb_spec c d) as [->|]; [|discriminate].
    simpl in C. rewrite (W d) in C by (simpl; auto). discriminate.
  - destruct (Ascii.eqb_spec c d) as [->|]; [|discriminate]. intros H.
    destruct (IH w) as [r0 ->]; auto. { intros x Hx; apply W; simpl; auto. } exists r0; auto.
Qed.

Lemma not_chars c : In c (lit "not") -> word_char c = true.
Proof. simpl. intros [<-|[<-|[<-|[]]]]; reflexivity. Qed.

Lemma tag_chars c : In c (lit "tag:") -> word_char c = true.
Proof. simpl. intros [<-|[<-|[<-|[<-|[]]]]]; reflexivity. Qed.

Lemma word_closed w : word w -> ~ closed w.
Proof.
  intros [N W] [s0 ->]. specialize (W ")"%char). rewrite in_app_iff in W. simpl in W.
  assert (word_char ")" = true) by auto. vm_compute in H. discriminate.
Qed.

Lemma word_skip w p rest : word w -> skip p (w ++ rest) = (p, w ++ rest).
Proof.
  intros [N W]. destruct w as [|c w]; [congruence|]. simpl. rewrite (word_nonblank c); auto. apply W; simpl; auto.
Qed.

Lemma p_word_ok sp w p rest : word w -> blanks sp -> cut rest ->
  exists p', p_word (p, sp ++ w ++ rest) = Some (w, (p', rest)).
Proof.
  intros W B C. unfold p_word; simpl. rewrite skip_app by auto. rewrite word_skip by auto.
  destruct W as [N W]. rewrite take_word by auto. destruct w as [|c w]; [congruence|]. eauto.
Qed.

Lemma last_blank sp p : blanks sp -> ident_char p = false -> ident_char (last sp p) = false.
Proof.
  intros B H. destruct sp as [|c sp]; auto.
  apply blank_nonident. apply B. clear. revert c. induction sp as [|d sp IH]; intros c; [simpl; auto|].
  right. apply (IH d).
Qed.

Lemma last_blank' sp p : blanks sp -> sp <> [] -> ident_char (last sp p) = false.
Proof.
  intros B H. destruct sp as [|c sp]; [congruence|]. rewrite (last_indep c sp p " "%char).
  apply last_blank; auto.
Qed.

Lemma blanks_cons c s : blanks (c :: s) -> blank c = true.
Proof. intros B. apply B. simpl; auto. Qed.

Lemma base_no_keyword e s p rest : spells LBase e s -> startok p s -> fits s rest ->
  p_keyword (lit "not") (p, s ++ rest) = None.
Proof.
  intros H S F. inversion H; subst; unfold p_keyword; cbn [fst snd]; rewrite <- ?app_assoc, skip_app by auto.
  - destruct F as [C|C].
    2:{ exfalso. destruct H0 as [Hw _]. eapply word_closed; eauto. destruct Hw as [N _]. eapply closed_app; eauto. }
    destruct H0 as (Hw & _ & Hn). rewrite word_skip by auto.
    destruct (strip_prefix (lit "not") (w ++ rest)) as [r|] eqn:E; auto.
    destruct (prefix_in_word _ _ _ _ not_chars C E) as [r0 ->].
    destruct (Hn _ eq_refl) as (c & r' & -> & Hc).
    rewrite <- app_assoc in E. apply strip_prefix_spec in E. apply app_inv_head in E. subst r. simpl.
    rewrite Hc, orb_true_r. auto.
  - reflexivity.
  - reflexivity.
Qed.

Definition P_tight (l : level) (e : expr) (s : str) : Prop :=
  exists m n, equiv m e /\ forall p rest, startok p s -> fits s rest ->
    exists p', parse n l (p, s ++ rest) = POk m (p', rest).

Definition P_list (l : level) (op : str) (agg : list matcher -> matcher) (guard : str -> Prop) (e : expr) (s : str) : Prop :=
  exists m ms n, equiv (group agg m ms) e /\ equiv (agg (m :: ms)) e /\
    forall p rest, startok p s -> fits s rest -> guard rest ->
      exists i0 p', parse n l (p, s ++ rest) = POk m i0
        /\ forall k ms' i', more k l op (p', rest) = ROk ms' i' -> more (n + k) l op i0 = ROk (ms ++ ms') i'.

Definition P (l : level) (e : expr) (s : str) : Prop :=
  match l with
  | LBase => P_tight LBase e s
  | LNot => P_tight LNot e s
  | LAnd => P_list LNot (lit "and") AndM (fun _ => True) e s
  | LOr => P_list LAnd (lit "or") OrM (no_lit (lit "and")) e s
  end.

Lemma list_one l op agg (guard : str -> Prop) e s :
  (forall m, equiv m e -> equiv (agg [m]) e) ->
  (exists m n, equiv m e /\ forall p rest, startok p s -> fits s rest -> guard rest ->
     exists p', parse n l (p, s ++ rest) = POk m (p', rest)) ->
  P_list l op agg guard e s.
Proof.
  intros A (m & n & E & H). exists m, [], n. split; [auto|]. split; [auto|].
  intros p rest S F G. destruct (H p rest S F G) as [p' Q]. exists (p', rest), p'. split; auto.
  intros k ms' i' M. simpl. eapply more_mono; [|exact M|discriminate]. lia.
Qed.

Lemma list_close l l' op agg (guard : str -> Prop) e s :
  (forall n i, parse (S n) l' i = match parse n l i with
                                  | POk m i1 => match more n l op i1 with
                                                | ROk ms i2 => POk (group agg m ms) i2
                                                | RFuel => PFuel
                                                end
                                  | r => r
                                  end) ->
  P_list l op agg guard e s ->
  exists m n, equiv m e /\ forall p rest, startok p s -> fits s rest -> guard rest -> no_lit op rest ->
     exists p', parse n l' (p, s ++ rest) = POk m (p', rest).
Proof.
  intros U (m & ms & n & E & _ & H). exists (group agg m ms), (S (n + 1)). split; auto.
  intros p rest S F G N. destruct (H p rest S F G) as (i0 & p' & Q & M). exists p'.
  rewrite U. rewrite (parse_mono n (n + 1) _ _ _ ltac:(lia) Q ltac:(discriminate)).
  rewrite (M 1 [] (p', rest)); [rewrite app_nil_r; auto|].
  cbn [more]. rewrite no_lit_p; auto.
Qed.

Lemma list_snoc l op agg (guard : str -> Prop) a b c s s' sp :
  (forall m ms mb, equiv (agg (m :: ms)) a -> equiv mb b -> equiv (agg (m :: ms ++ [mb])) c) ->
  P_list l op agg guard a s ->
  (exists mb n, equiv mb b /\ forall p rest, startok p s' -> fits s' rest -> guard rest ->
     exists p', parse n l (p, s' ++ rest) = POk mb (p', rest)) ->
  (forall t p, exists q, p_lit op (p, sp ++ op ++ t) = Some (q, t)) ->
  (forall t, guard (sp ++ op ++ t)) ->
  s <> [] -> s' <> [] -> set_off s' ->
  (sp <> [] \/ closed s) -> blanks sp ->
  P_list l op agg guard c (s ++ sp ++ op ++ s').
Proof.
  intros A (m & ms & n & _ & E & H) (mb & nb & Eb & Hb) PL G Ns Ns' O D B.
  exists m, (ms ++ [mb]), (n + S nb).
  assert (equiv (agg (m :: ms ++ [mb])) c) as Q by auto.
  split. { unfold group. destruct ms; simpl; auto. }
  split; auto.
  intros p rest St F Gr.
  assert (startok p s) as S1 by (eapply startok_app; eauto).
  assert (fits s' rest) as F1. { rewrite !app_assoc in F. eapply fits_app; eauto. }
  destruct (H p (sp ++ op ++ s' ++ rest)) as (i0 & p' & P1 & M); auto.
  { destruct D as [D|D]; [left|right; auto]. destruct sp as [|x sp]; [congruence|]. simpl.
    apply blank_nonword. eapply blanks_cons; eauto. }
  destruct (PL (s' ++ rest) p') as [q PQ].
  destruct (Hb q rest) as [p2 P2]; auto. { right; auto. }
  exists i0, p2. split.
  - rewrite <- !app_assoc. eapply parse_mono; [|exact P1|discriminate]. lia.
  - intros k ms' i' M'. replace (n + S nb + k) with (n + S (nb + k)) by lia.
    rewrite <- app_assoc. apply M. change ([mb] ++ ms') with (mb :: ms'). cbn [more].
    match goal with |- context [p_lit op ?x] => replace (p_lit op x) with (Some (q, s' ++ rest)) by (symmetry; exact PQ) end.
    rewrite (parse_mono nb (nb + k) _ _ _ ltac:(lia) P2 ltac:(discriminate)).
    rewrite (more_mono k (nb + k) _ _ _ _ ltac:(lia) M' ltac:(discriminate)). auto.
Qed.

Lemma and_all ms md : matches (AndM ms) md = true <-> forall m, In m ms -> matches m md = true.
Proof. cbn [matches]. apply forallb_forall. Qed.

Lemma or_some ms md : matches (OrM ms) md = true <-> exists m, In m ms /\ matches m md = true.
Proof. cbn [matches]. apply existsb_exists. Qed.

Lemma and_all_s ms t : matches_str (AndM ms) t = true <-> forall m, In m ms -> matches_str m t = true.
Proof. cbn [matches_str]. apply forallb_forall. Qed.

Lemma or_some_s ms t : matches_str (OrM ms) t = true <-> exists m, In m ms /\ matches_str m t = true.
Proof. cbn [matches_str]. apply existsb_exists. Qed.

Lemma equiv_and m ms mb a b : equiv (AndM (m :: ms)) a -> equiv mb b -> equiv (AndM (m :: ms ++ [mb])) (EAnd a b).
Proof.
  assert (A : forall (f : matcher -> Prop), (forall x, In x (m :: ms ++ [mb]) -> f x) <-> (forall x, In x (m :: ms) -> f x) /\ f mb).
  { intros f. split.
    - intros H. split; [intros x Hx; apply H|apply H]; simpl in *; rewrite ?in_app_iff; simpl; intuition.
    - intros [H1 H2] x Hx. simpl in Hx. rewrite in_app_iff in Hx. simpl in Hx.
      destruct Hx as [<-|[Hx|[<-|[]]]]; auto; apply H1; simpl; auto. }
  intros [Ha Sa] [Hb Sb]. split; [intros md; cbn [holds]; rewrite <- (Ha md), <- (Hb md), !and_all|intros t; cbn [holds_in]; rewrite <- (Sa t), <- (Sb t), !and_all_s]; apply A.
Qed.

Lemma equiv_or m ms mb a b : equiv (OrM (m :: ms)) a -> equiv mb b -> equiv (OrM (m :: ms ++ [mb])) (EOr a b).
Proof.
  assert (A : forall (f : matcher -> Prop), (exists x, In x (m :: ms ++ [mb]) /\ f x) <-> (exists x, In x (m :: ms) /\ f x) \/ f mb).
  { intros f. split.
    - intros (x & Hx & T). simpl in Hx. rewrite in_app_iff in Hx. simpl in Hx.
      destruct Hx as [<-|[Hx|[<-|[]]]]; auto; left; eexists; simpl; eauto.
    - intros [(x & Hx & T)|T]; [exists x|exists mb]; split; auto; simpl in *; rewrite ?in_app_iff; simpl; intuition. }
  intros [Ha Sa] [Hb Sb]. split; [intros md; cbn [holds]; rewrite <- (Ha md), <- (Hb md), !or_some|intros t; cbn [holds_in]; rewrite <- (Sa t), <- (Sb t), !or_some_s]; apply A.
Qed.

Lemma equiv_and1 m a : equiv m a -> equiv (AndM [m]) a.
Proof.
  intros [H S]. split; [intros md; rewrite <- (H md), and_all|intros t; rewrite <- (S t), and_all_s]; simpl; split; auto; intros T x [<-|[]]; auto.
Qed.

Lemma equiv_or1 m a : equiv m a -> equiv (OrM [m]) a.
Proof.
  intros [H S]. split; [intros md; rewrite <- (H md), or_some|intros t; rewrite <- (S t), or_some_s]; simpl; split; eauto; intros (x & [<-|[]] & T); auto.
Qed.

Lemma equiv_not m a : equiv m a -> equiv (Exclude m) (ENot a).
Proof.
  intros [H S]. split; [intros md; cbn [matches holds]; rewrite <- (H md), negb_true_iff; destruct (matches m md)|intros t; cbn [matches_str holds_in]; rewrite <- (S t), negb_true_iff; destruct (matches_str m t)];
    split; auto; try discriminate; intros N; destruct N; auto.
Qed.

Lemma p_lit_after sp op t p : blanks sp -> (forall q u, skip q (op ++ u) = (q, op ++ u)) ->
  exists q, p_lit op (p, sp ++ op ++ t) = Some (q, t).
Proof.
  intros B K. unfold p_lit; simpl. rewrite skip_app, K by auto.
  rewrite (proj2 (strip_prefix_spec op (op ++ t) t) eq_refl). eauto.
Qed.

Lemma spelled l e s : spells l e s -> P l e s.
Proof.
  induction 1; cbn [P] in *.
  - exists (Include false w), 1. split; [split; [intros md; apply include_atom|intros t; apply contains_spec]|].
    intros p rest S F. destruct H as (Hw & Ht & Hn).
    assert (cut rest) as C.
    { destruct F as [C|C]; auto. exfalso. eapply word_closed; eauto. eapply closed_app; eauto. apply Hw. }
    cbn [parse]. unfold p_matcher.
    assert (p_lit (lit "tag:") (p, (sp ++ w) ++ rest) = None) as ->.
    { unfold p_lit; cbn [fst snd]. rewrite <- app_assoc, skip_app, word_skip by auto.
      destruct (strip_prefix (lit "tag:") (w ++ rest)) as [r|] eqn:E; auto.
      destruct (prefix_in_word _ _ _ _ tag_chars C E) as [r0 Q].
      destruct (Ht _ Q). }
    rewrite <- app_assoc. destruct (p_word_ok sp w p rest Hw H0 C) as [p' ->]. eauto.
  - exists (Include true w), 1. split; [split; [intros md; apply include_tag|intros t; apply contains_spec]|].
    intros p rest S F.
    assert (cut rest) as C.
    { destruct F as [C|C]; auto. exfalso. eapply word_closed; eauto. eapply (closed_app (sp ++ lit "tag:" ++ sp')).
      - apply H. - rewrite <- !app_assoc. auto. }
    cbn [parse]. unfold p_matcher. rewrite <- !app_assoc.
    destruct (p_lit_after sp (lit "tag:") (sp' ++ w ++ rest) p H0 ltac:(intros; reflexivity)) as [q ->].
    destruct (p_word_ok sp' w q rest H H1 C) as [p' ->]. eauto.
  - destruct (list_close LAnd LOr (lit "or") OrM _ e s ltac:(intros; reflexivity) IHspells) as (m & n & E & Q).
    exists m, (S n). split; auto. intros p rest S F.
    cbn [parse]. unfold p_matcher. rewrite <- !app_assoc.
    assert (p_lit (lit "tag:") (p, sp ++ lit "(" ++ s ++ sp' ++ lit ")" ++ rest) = None) as ->.
    { unfold p_lit; cbn [fst snd]. rewrite skip_app by auto. reflexivity. }
    assert (p_word (p, sp ++ lit "(" ++ s ++ sp' ++ lit ")" ++ rest) = None) as ->.
    { unfold p_word; cbn [fst snd]. rewrite skip_app by auto. reflexivity. }
    assert (p_lit (lit "(") (p, sp ++ lit "(" ++ s ++ sp' ++ lit ")" ++ rest) = Some ("("%char, s ++ sp' ++ lit ")" ++ rest)) as ->.
    { unfold p_lit; cbn [fst snd]. rewrite skip_app by auto. reflexivity. }
    destruct (Q "("%char (sp' ++ lit ")" ++ rest)) as [p1 ->].
    + left. reflexivity.
    + left. destruct sp' as [|c sp']; [reflexivity|]. simpl. apply blank_nonword. eapply blanks_cons; eauto.
    + unfold no_lit. rewrite skip_app by auto. reflexivity.
    + unfold no_lit. rewrite skip_app by auto. reflexivity.
    + destruct (p_lit_after sp' (lit ")") rest p1 H1 ltac:(intros; reflexivity)) as [q ->]. eauto.
  - destruct IHspells as (m & n & E & Q). exists (Exclude m), (S n). split; [apply equiv_not; auto|].
    intros p rest S F. cbn [parse]. rewrite <- !app_assoc.
    assert (p_keyword (lit "not") (p, sp ++ lit "not" ++ s ++ rest) = Some ("t"%char, s ++ rest)) as ->.
    { unfold p_keyword; cbn [fst snd]. rewrite skip_app by auto.
      change (skip (last sp p) (lit "not" ++ s ++ rest)) with (last sp p, lit "not" ++ s ++ rest).
      cbn [fst snd]. rewrite (proj2 (strip_prefix_spec (lit "not") _ (s ++ rest)) eq_refl).
      assert (ident_char (last sp p) = false) as ->.
      { destruct sp as [|c sp]; [|apply last_blank'; auto; discriminate]. simpl.
        destruct S as [S|(c & s' & S & D)]; auto. simpl in S. inversion S; subst. destruct D as [D|D]; [vm_compute in D|]; discriminate. }
      destruct H0 as (c & s' & -> & D). simpl.
      assert (ident_char c = false) as ->; auto.
      destruct D as [D| ->]; [apply blank_nonident; auto|reflexivity]. }
    destruct (Q "t"%char rest) as [p' ->].
    + right; auto.
    + rewrite app_assoc in F. eapply fits_app; eauto. eapply spells_nonempty; eauto.
    + eauto.
  - destruct IHspells as (m & n & E & Q). exists m, (S n). split; auto.
    intros p rest S F. destruct (Q p rest S F) as [p' R]. exists p'. cbn [parse].
    rewrite (base_no_keyword e s p rest); auto.
  - eapply list_snoc with (s := s); eauto using spells_nonempty, equiv_and.
    + destruct IHspells2 as (mb & n & E & Q). exists mb, n. split; auto.
    + intros t p. apply p_lit_after; auto.
  - apply list_one; [intros; apply equiv_and1; auto|].
    destruct IHspells as (mb & n & E & Q). exists mb, n. split; auto.
  - eapply list_snoc with (s := s); eauto using spells_nonempty, equiv_or.
    + destruct (list_close LNot LAnd (lit "and") AndM _ b s' ltac:(intros; reflexivity) IHspells2) as (mb & n & E & Q).
      exists mb, n. split; auto.
    + intros t p. apply p_lit_after; auto.
    + intros t. unfold no_lit. rewrite skip_app by auto. reflexivity.
  - apply list_one; [intros; apply equiv_or1; auto|].
    destruct (list_close LNot LAnd (lit "and") AndM _ e s ltac:(intros; reflexivity) IHspells) as (mb & n & E & Q).
    exists mb, n. split; auto.
Qed.

(** ** C42 *)

(** the fuel is never exhausted *)
Theorem C42_parsing_terminates : forall s, parse (fuel_for s) LOr (" "%char, s) <> PFuel.
Proof.
  intros s. apply (fuel_enough (fuel_for s)). unfold fuel_for, ilen; simpl. lia.
Qed.

Lemma consumed_whole e s sp : spells LOr e s -> blanks sp ->
  exists m p', parse (fuel_for (s ++ sp)) LOr (" "%char, s ++ sp) = POk m (p', sp) /\ equiv m e.
Proof.
  intros H B. pose proof (spelled _ _ _ H) as Q. cbn [P] in Q.
  destruct (list_close LAnd LOr (lit "or") OrM _ e s ltac:(intros; reflexivity) Q) as (m & n & E & R).
  assert (no_lit (lit "and") sp /\ no_lit (lit "or") sp) as [N1 N2].
  { unfold no_lit. rewrite <- (app_nil_r sp), skip_app by auto. simpl. auto. }
  destruct (R " "%char sp) as [p' R1].
  - left. reflexivity.
  - left. destruct sp as [|c sp]; simpl; auto. apply blank_nonword. eapply blanks_cons; eauto.
  - auto.
  - auto.
  - exists m, p'. split; auto.
    pose proof (C42_parsing_terminates (s ++ sp)) as T.
    destruct (Nat.le_ge_cases n (fuel_for (s ++ sp))) as [L|L].
    + eapply parse_mono; [exact L|exact R1|discriminate].
    + pose proof (parse_mono _ _ _ _ _ L eq_refl T) as M. congruence.
Qed.

(** However a filter expression is written, the filter built from the text is
    accepted and selects exactly the tests for which the expression holds. *)
Theorem C42_boolean_semantics : forall e s sp, spells LOr e s -> blanks sp ->
  exists m, parse_filter (s ++ sp) = Some m
    /\ forall md, matches m md = true <-> holds e md.
Proof.
  intros e s sp H B. destruct (consumed_whole e s sp H B) as (m & p' & Q & E).
  exists m. split; [|apply E]. unfold parse_filter. rewrite Q. auto.
Qed.

(** ... and, for a plain text in place of a test (the exceptions of the debugger), the texts it holds for. *)
Theorem C42_plain_text : forall e s sp, spells LOr e s -> blanks sp ->
  exists m, parse_filter (s ++ sp) = Some m
    /\ forall t, matches_str m t = true <-> holds_in e t.
Proof.
  intros e s sp H B. destruct (consumed_whole e s sp H B) as (m & p' & Q & E).
  exists m. split; [|apply E]. unfold parse_filter. rewrite Q. auto.
Qed.

(** The characters of words, the characters that may not be next to [not], and white space. *)
Theorem C42_characters c :
  (word_char c = true <-> In c (lit "abcdefghijklmnopqrstuvwxyzABCDEFGHIJKLMNOPQRSTUVWXYZ0123456789._,-=/:"))
  /\ (ident_char c = true <-> In c (lit "abcdefghijklmnopqrstuvwxyzABCDEFGHIJKLMNOPQRSTUVWXYZ0123456789_$"))
  /\ (blank c = true <-> In c [ascii_of_nat 32; ascii_of_nat 9; ascii_of_nat 10; ascii_of_nat 13]).
Proof.
  assert (D : forall f l, forallb (fun c => Bool.eqb (f c) (existsb (Ascii.eqb c) l)) (map ascii_of_nat (seq 0 256)) = true -> forall c, f c = true <-> In c l).
  { intros f l H d. rewrite forallb_forall in H. specialize (H d). rewrite Bool.eqb_true_iff in H. rewrite H.
    - rewrite existsb_exists. split; [intros (x & I & E); apply Ascii.eqb_eq in E; subst; exact I|intros I; exists d; split; [exact I|apply Ascii.eqb_refl]].
    - apply in_map_iff. exists (nat_of_ascii d). split; [apply ascii_nat_embedding|]. apply in_seq. pose proof (nat_ascii_bounded d). lia. }
  repeat split; apply D; vm_compute; reflexivity.
Qed.

(** Filters are and-ed; without filters nothing is deselected. *)
Theorem C42_filters_are_conjoined : forall texts es md,
  Forall2 (fun s e => spells LOr e s) texts es ->
  exists ms, parse_all texts = Some ms
    /\ (is_excluded (Some ms) md = false <-> forall e, In e es -> holds e md).
Proof.
  intros texts es md H. induction H as [|s e texts es H HF (ms & Q & IH)].
  - exists []. split; auto. split; auto. intros _ e [].
  - destruct (C42_boolean_semantics e s [] H ltac:(intros c [])) as (m & P1 & E).
    rewrite app_nil_r in P1. exists (m :: ms). simpl. rewrite P1, Q. split; auto.
    unfold is_excluded in *. rewrite negb_false_iff in *. simpl. rewrite andb_true_iff, IH, E. split.
    + intros [H1 H2] x [<-|Hx]; auto.
    + intros Hx; split; [|intros x Hi]; apply Hx; simpl; auto.
Qed.

(** Every expression over plain words can be written, so the theorem is about
    all expressions. *)
Fixpoint plain_expr (e : expr) : Prop :=
  match e with
  | EAtom w => plain w
  | ETag w => word w
  | ENot a => plain_expr a
  | EAnd a b | EOr a b => plain_expr a /\ plain_expr b
  end.

Theorem C42_every_expression_has_a_text : forall e, plain_expr e -> exists s, spells LOr e s.
Proof.
  intros e H.
  enough (exists s, spells LBase e s) as [s Q] by (exists s; auto using SpBase, SpOne, SpOnly).
  assert (blanks []) as B0 by (intros c []).
  assert (blanks (lit " ")) as B1 by (intros c [<-|[]]; reflexivity).
  assert (forall e s, spells LOr e s -> exists s', spells LBase e s') as Par.
  { intros e' s Q. eexists. eapply (SpParen e' s [] []); eauto. }
  assert (forall e s, spells LBase e s -> exists s', spells LBase e s' /\ set_off s') as Off.
  { intros e' s Q. eexists. split; [eapply (SpParen e' s [] []); eauto using SpBase, SpOne, SpOnly|].
    eexists _, _. split; [reflexivity|auto]. }
  induction e; cbn [plain_expr] in H.
  - eexists. apply (SpAtom w []); auto.
  - eexists. apply (SpTag w [] []); auto.
  - destruct IHe as [s Q]; auto. destruct (Off _ _ Q) as (s' & Q' & O).
    eapply Par. apply SpOnly, SpOne. eapply (SpNot _ s' []); eauto using SpBase.
  - destruct H as [Ha Hb]. destruct IHe1 as [s1 Q1]; auto. destruct IHe2 as [s2 Q2]; auto.
    destruct (Off _ _ Q2) as (s' & Q' & O). eapply Par. apply SpOnly.
    eapply (SpAnd _ _ s1 s' (lit " ")); eauto using SpBase, SpOne. left; discriminate.
  - destruct H as [Ha Hb]. destruct IHe1 as [s1 Q1]; auto. destruct IHe2 as [s2 Q2]; auto.
    destruct (Off _ _ Q2) as (s' & Q' & O). eapply Par.
    eapply (SpOr _ _ s1 s' (lit " ")); eauto using SpBase, SpOne, SpOnly. left; discriminate.
Qed.

(** ** C60: a text that is not a filter expression is rejected: refuted *)

(** "x y" is not a way of writing any expression, but it is accepted, with the
    meaning of "x": what follows the longest expression is silently ignored. *)
Theorem C60_malformed_rejected_refuted :
  exists s, (forall e sp s', s = s' ++ sp -> blanks sp -> ~ spells LOr e s')
    /\ parse_filter s = parse_filter (lit "x").
Proof.
  exists (lit "x y"). split; [|vm_compute; reflexivity].
  intros e sp s' Hs B Q. destruct (consumed_whole e s' sp Q B) as (m & p' & R & _).
  rewrite <- Hs in R.
  assert (parse (fuel_for (lit "x y")) LOr (" "%char, lit "x y") = POk (Include false (lit "x")) ("x"%char, lit " y")) as C
    by (vm_compute; reflexivity).
  rewrite C in R. inversion R; subst. specialize (B "y"%char). simpl in B.
  assert (blank "y" = true) by auto. vm_compute in H. discriminate.
Qed.

(** What holds: a text in which no expression begins is rejected. *)
Theorem C60_malformed_rejected_partial : forall sp c s, blanks sp ->
  word_char c = false -> blank c = false -> c <> "("%char ->
  parse_filter (sp ++ c :: s) = None /\ parse_filter sp = None.
Proof.
  intros sp c s B W Bc N.
  assert (forall n t, (t = [] \/ exists u, t = c :: u) -> p_matcher (" "%char, sp ++ t) = None
            /\ p_lit (lit "(") (" "%char, sp ++ t) = None /\ p_keyword (lit "not") (" "%char, sp ++ t) = None
            /\ parse (S (S (S (S n)))) LOr (" "%char, sp ++ t) = PFail) as Q.
  { intros n t Ht.
    assert (p_matcher (" "%char, sp ++ t) = None) as Q1.
    { unfold p_matcher, p_lit, p_word; cbn [fst snd]. rewrite skip_app by auto.
      destruct Ht as [->|[u ->]]; [reflexivity|]. rewrite skip_nonblank by auto. simpl.
      destruct c as [[] [] [] [] [] [] [] []]; simpl in W |- *; try discriminate; auto. }
    assert (p_lit (lit "(") (" "%char, sp ++ t) = None) as Q2.
    { unfold p_lit; cbn [fst snd]. rewrite skip_app by auto.
      destruct Ht as [->|[u ->]]; [reflexivity|]. rewrite skip_nonblank by auto. cbn [lit list_ascii_of_string strip_prefix].
      destruct (Ascii.eqb_spec "(" c); [congruence|auto]. }
    assert (p_keyword (lit "not") (" "%char, sp ++ t) = None) as Q3.
    { unfold p_keyword; cbn [fst snd]. rewrite skip_app by auto.
      destruct Ht as [->|[u ->]]; [reflexivity|]. rewrite skip_nonblank by auto. cbn [lit list_ascii_of_string strip_prefix].
      destruct (Ascii.eqb_spec "n" c) as [<-|]; [discriminate W|auto]. }
    do 3 (split; auto). cbn [parse]. rewrite Q3, Q1, Q2. auto. }
  assert (forall t, exists n, fuel_for t = S (S (S (S n)))) as Fu.
  { intros t. exists (8 * List.length t + 4). unfold fuel_for. lia. }
  unfold parse_filter. split.
  - destruct (Fu (sp ++ c :: s)) as [n ->]. destruct (Q n (c :: s)) as (_ & _ & _ & ->); eauto.
  - destruct (Fu sp) as [n ->]. destruct (Q n []) as (_ & _ & _ & Q4); auto. rewrite app_nil_r in Q4.
    rewrite Q4; auto.
Qed.

(** ** Examples *)

Lemma plain_check w :
  negb (starts (lit "tag:") w)
  && match strip_prefix (lit "not") w with Some (c :: _) => ident_char c | Some [] => false | None => true end
  && match w with [] => false | _ => true end && forallb word_char w = true -> plain w.
Proof.
  rewrite !andb_true_iff, forallb_forall, negb_true_iff. intros [[[T K] N] W].
  split; [split; auto; destruct w; discriminate|]. split.
  - intros r ->. assert (starts (lit "tag:") (lit "tag:" ++ r) = true) by (apply starts_spec; eauto). congruence.
  - intros r ->. rewrite (proj2 (strip_prefix_spec (lit "not") _ r) eq_refl) in K.
    destruct r as [|c r]; [discriminate|]. eauto.
Qed.

(** "not a or tag:slow and  (b or c=1)" *)
Example ex_expr : expr :=
  EOr (ENot (EAtom (lit "a"))) (EAnd (ETag (lit "slow")) (EOr (EAtom (lit "b")) (EAtom (lit "c=1")))).

Example ex_spells : spells LOr ex_expr (lit "not a or tag:slow and  (b or c=1)").
Proof.
  assert (blanks (lit " ")) as B1 by (intros c [<-|[]]; reflexivity).
  assert (blanks (lit "  ")) as B2 by (intros c [<-|[<-|[]]]; reflexivity).
  assert (blanks []) as B0 by (intros c []).
  assert (forall c s, blank c = true -> set_off (c :: s)) as O by (intros c s Hc; exists c, s; auto).
  apply (SpOr _ _ (lit "not a") (lit " tag:slow and  (b or c=1)") (lit " ")); [| |apply O; reflexivity|auto|left; discriminate].
  - apply SpOnly, SpOne. apply (SpNot _ (lit " a") []); auto; [|apply O; reflexivity].
    apply SpBase. apply (SpAtom (lit "a") (lit " ")); auto. apply plain_check. reflexivity.
  - apply (SpAnd _ _ (lit " tag:slow") (lit "  (b or c=1)") (lit " ")); [| |apply O; reflexivity|auto|left; discriminate].
    + apply SpOne, SpBase. apply (SpTag (lit "slow") (lit " ") []); auto.
      apply plain_check. reflexivity.
    + apply SpBase. apply (SpParen _ (lit "b or c=1") (lit "  ") []); auto.
      apply (SpOr _ _ (lit "b") (lit " c=1") (lit " ")); [| |apply O; reflexivity|auto|left; discriminate].
      * apply SpOnly, SpOne, SpBase. apply (SpAtom (lit "b") []); auto. apply plain_check. reflexivity.
      * apply SpOne, SpBase. apply (SpAtom (lit "c=1") (lit " ")); auto. apply plain_check. reflexivity.
Qed.

Example ex_md : metadata := mkMeta (Some [(lit "slow", None); (lit "c", Some (lit "1"))]) (lit "t/a.py:x").

Example ex_selected : exists m, parse_filter (lit "not a or tag:slow and  (b or c=1)") = Some m
  /\ matches m ex_md = true /\ matches m (mkMeta None (lit "a")) = false.
Proof. eexists. split; [vm_compute; reflexivity|]. split; vm_compute; reflexivity. Qed.

Example ex_text : exists m, parse_filter (lit "not a or tag:slow and  (b or c=1)") = Some m
  /\ matches_str m (lit "ValueError") = false /\ matches_str m (lit "a slow b") = true.
Proof. eexists. split; [vm_compute; reflexivity|]. split; vm_compute; reflexivity. Qed.

Print Assumptions C42_parsing_terminates.
Print Assumptions C42_boolean_semantics.
Print Assumptions C42_plain_text.
Print Assumptions C42_characters.
Print Assumptions C42_filters_are_conjoined.
Print Assumptions C42_every_expression_has_a_text.
Print Assumptions C60_malformed_rejected_refuted.
Print Assumptions C60_malformed_rejected_partial.
