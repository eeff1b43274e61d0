(** What is proved about Error objects and the lists of results (Errors.v): C116. *)

From Coq Require Import List Bool Arith Lia.
From Verif Require Import Errors.
Import ListNotations.

Section Proofs.

Variable kind_of : nat -> kind.
Variable settable : nat -> bool.

Notation capture := (capture kind_of settable).
Notation new_error := (new_error kind_of).
Notation set_marks := (set_marks settable).
Notation add := (add kind_of settable).
Notation add_exception := (add_exception kind_of settable).
Notation step := (step kind_of settable).
Notation run := (run kind_of settable).

(** ** What is being talked about *)

(** the Error with number [i] was captured from exception [e] *)
Definition captured_from (w : world) (i e : nat) : Prop := exists x, nth_error (errs w) i = Some x /\ e_of x = Some e /\ e_custom x = false.

(** how often an Error captured from [e] is in the list (of failures or not) of a result *)
Definition is_of (w : world) (e i : nat) : bool :=
  match nth_error (errs w) i with Some x => match e_of x with Some a => Nat.eqb a e && negb (e_custom x) | None => false end | None => false end.
Definition times (w : world) (e r : nat) (failure : bool) : nat :=
  List.length (filter (fun n => Nat.eqb (n_result n) r && Bool.eqb (n_failure n) failure && is_of w e (n_err n)) (entries w)).

(** an operation adds [e] by itself; it handles [e]; it handles the exception that is active *)
Definition adds (e r : nat) (failure : bool) (o : op) : bool :=
  match o with Add r' f (Active a) => Nat.eqb a e && Nat.eqb r' r && Bool.eqb f failure | _ => false end.
Definition handles (e : nat) (o : op) : bool := match o with Handle _ a _ => Nat.eqb a e | _ => false end.
Definition in_place (o : op) : Prop := match o with Handle _ e a => a = Some e | _ => True end.

(** ** The invariant *)

Definition inv (w : world) : Prop :=
  (forall e i, m_captured (exns w e) = Some i -> captured_from w i e) /\
  (forall e i, settable e = true -> captured_from w i e -> m_captured (exns w e) = Some i) /\
  (forall n, In n (entries w) -> exists x, nth_error (errs w) (n_err n) = Some x /\ (n_failure n = true -> e_failure x = true)).

(** [w'] knows all Errors of [w], with the same exception, and no fewer marks *)
Definition grows (w w' : world) : Prop :=
  forall i x, nth_error (errs w) i = Some x -> exists y, nth_error (errs w') i = Some y /\ e_of y = e_of x /\ e_custom y = e_custom x /\
    (e_failure x = true -> e_failure y = true) /\ (e_fatal x = true -> e_fatal y = true).

Lemma grows_refl w : grows w w.
Proof. intros i x H. exists x. tauto. Qed.

Lemma grows_trans w1 w2 w3 : grows w1 w2 -> grows w2 w3 -> grows w1 w3.
Proof. intros A B i x H. apply A in H. destruct H as (y & H & P1 & P2 & P3 & P4). apply B in H. destruct H as (z & H & Q1 & Q2 & Q3 & Q4). exists z. repeat split; congruence || auto. Qed.

Lemma grows_captured w w' i e : grows w w' -> captured_from w i e -> captured_from w' i e.
Proof. intros G (x & H & A & B). apply G in H. destruct H as (y & H & P & Q & _). exists y. repeat split; congruence. Qed.

Lemma nth_combine {A B} (l : list A) (f : nat -> A -> B) i k :
  nth_error (map (fun p : nat * A => f (fst p) (snd p)) (combine (seq k (List.length l)) l)) i = option_map (f (k + i)) (nth_error l i).
Proof.
  revert k i. induction l as [|a l IH]; intros k i; [destruct i; reflexivity|]. cbn [List.length seq combine map]. destruct i as [|i]; cbn [nth_error].
  - rewrite Nat.add_0_r. reflexivity.
  - rewrite IH, Nat.add_succ_r. reflexivity.
Qed.

Lemma nth_change i f w j : nth_error (errs (change i f w)) j = option_map (fun x => if Nat.eqb j i then f x else x) (nth_error (errs w) j).
Proof. unfold change. cbn [errs]. exact (nth_combine (errs w) (fun n x => if Nat.eqb n i then f x else x) j 0). Qed.

Lemma change_grows i f w : (forall x, e_of (f x) = e_of x /\ e_custom (f x) = e_custom x /\ (e_failure x = true -> e_failure (f x) = true) /\ (e_fatal x = true -> e_fatal (f x) = true)) ->
  grows w (change i f w).
Proof. intros F j x H. rewrite nth_change, H. cbn. exists (if Nat.eqb j i then f x else x). split; [reflexivity|]. destruct (Nat.eqb j i); [apply F|tauto]. Qed.

Lemma change_captured i f w j e : (forall x, e_of (f x) = e_of x /\ e_custom (f x) = e_custom x) -> captured_from (change i f w) j e -> captured_from w j e.
Proof.
  intros F (x & H & A & B). rewrite nth_change in H. destruct (nth_error (errs w) j) as [y|] eqn:Y; [|discriminate]. injection H as <-. exists y. split; [exact Y|].
  destruct (Nat.eqb j i); [destruct (F y); split; congruence|split; assumption].
Qed.

Lemma change_inv i f w : (forall x, e_of (f x) = e_of x /\ e_custom (f x) = e_custom x /\ (e_failure x = true -> e_failure (f x) = true) /\ (e_fatal x = true -> e_fatal (f x) = true)) ->
  inv w -> inv (change i f w).
Proof.
  intros F (A & B & C). pose proof (change_grows i f w F) as G. split; [|split].
  - intros e j H. apply (grows_captured w); [exact G|]. apply A, H.
  - intros e j S H. apply (B e j S). eapply change_captured; [|exact H]. intros x. destruct (F x) as (P & Q & _). split; assumption.
  - intros n I. destruct (C n I) as (x & X & Y). apply G in X. destruct X as (y & X & _ & _ & P & _). exists y. split; [exact X|]. auto.
Qed.

Lemma set_marks_errs e f w : errs (set_marks e f w) = errs w /\ entries (set_marks e f w) = entries w.
Proof. unfold Errors.set_marks. destruct (settable e); split; reflexivity. Qed.

Lemma set_marks_inv e f w : (forall m, m_captured (f m) = m_captured m) -> inv w -> inv (set_marks e f w).
Proof.
  intros F (A & B & C). unfold Errors.set_marks. destruct (settable e) eqn:T; [|split; [exact A|split; [exact B|exact C]]].
  assert (X : forall a, m_captured (if Nat.eqb a e then f (exns w e) else exns w a) = m_captured (exns w a)) by (intros a; destruct (Nat.eqb_spec a e) as [->|]; [apply F|reflexivity]).
  split; [|split; [|exact C]].
  - intros a i H. cbn [exns] in H. rewrite X in H. apply (A a i H).
  - intros a i S H. cbn [exns]. rewrite X. apply (B a i S H).
Qed.

(** ** A new Error *)

Lemma new_error_spec e c w w' i : new_error e c w = (w', i) -> i = List.length (errs w) /\ exns w' = exns w /\ entries w' = entries w /\
  exists x, errs w' = errs w ++ [x] /\ e_of x = e /\ e_custom x = c /\ e_fatal x = (match e with Some e => m_fatal (exns w e) | None => false end) /\
    e_failure x = (match e with Some e => is_failure kind_of e | None => false end).
Proof. intros H. unfold Errors.new_error in H. injection H as <- <-. split; [reflexivity|]. split; [reflexivity|]. split; [reflexivity|]. eexists. split; [reflexivity|]. destruct e; repeat split. Qed.

Lemma nth_last {A} (l : list A) x : nth_error (l ++ [x]) (List.length l) = Some x.
Proof. rewrite nth_error_app2 by lia. rewrite Nat.sub_diag. reflexivity. Qed.

Lemma nth_old {A} (l : list A) x i y : nth_error l i = Some y -> nth_error (l ++ [x]) i = Some y.
Proof. intros H. rewrite nth_error_app1; [exact H|]. apply nth_error_Some. congruence. Qed.

Lemma nth_new {A} (l : list A) x i y : nth_error (l ++ [x]) i = Some y -> nth_error l i = Some y \/ (i = List.length l /\ y = x).
Proof.
  intros H. destruct (Nat.lt_ge_cases i (List.length l)) as [L|L]; [left; rewrite nth_error_app1 in H; assumption|].
  rewrite nth_error_app2 in H by lia. destruct (i - List.length l) as [|k] eqn:K; cbn in H; [injection H as <-; right; split; [lia|reflexivity]|destruct k; discriminate].
Qed.

Lemma app_grows w w' x : errs w' = errs w ++ [x] -> grows w w'.
Proof. intros E i y H. exists y. rewrite E. split; [apply nth_old, H|tauto]. Qed.

Lemma new_error_custom e w w' i : new_error e true w = (w', i) -> inv w ->
  inv w' /\ grows w w' /\ entries w' = entries w /\ exns w' = exns w /\ exists x, nth_error (errs w') i = Some x /\ e_custom x = true.
Proof.
  intros H (A & B & C). apply new_error_spec in H. destruct H as (-> & X & N & x & E & O & U & _). pose proof (app_grows w w' x E) as G.
  split; [|split; [exact G|split; [exact N|split; [exact X|exists x; split; [rewrite E; apply nth_last|exact U]]]]]. split; [|split].
  - intros a j H. rewrite X in H. apply (grows_captured w); auto.
  - intros a j S (y & Y & P & Q). rewrite X. rewrite E in Y. apply nth_new in Y. destruct Y as [Y|[_ ->]]; [apply (B a j S); exists y; auto|congruence].
  - intros n I. rewrite N in I. destruct (C n I) as (y & Y & Z). exists y. split; [rewrite E; apply nth_old, Y|exact Z].
Qed.

Lemma capture_spec e w w' i : capture e w = (w', i) -> inv w ->
  inv w' /\ grows w w' /\ entries w' = entries w /\ captured_from w' i e /\
  (forall a, m_added (exns w' a) = m_added (exns w a) /\ m_fatal (exns w' a) = m_fatal (exns w a)) /\
  (m_captured (exns w e) = None -> exists x, nth_error (errs w') i = Some x /\ e_fatal x = m_fatal (exns w e)).
Proof.
  intros H J. pose proof J as (A & B & C). unfold Errors.capture in H. destruct (m_captured (exns w e)) as [k|] eqn:K.
  - injection H as <- <-. split; [exact J|]. split; [apply grows_refl|]. split; [reflexivity|]. split; [apply A, K|]. split; [auto|discriminate].
  - destruct (new_error (Some e) false w) as [w1 k] eqn:N. injection H as <- <-. apply new_error_spec in N. destruct N as (-> & X & N & x & E & O & U & F & _).
    set (fm := fun m => mkMarks (m_added m) (m_fatal m) (Some (List.length (errs w)))).
    destruct (set_marks_errs e fm w1) as [SE SN].
    assert (G : grows w (set_marks e fm w1)) by (apply app_grows with (x := x); rewrite SE; exact E).
    assert (L : nth_error (errs (set_marks e fm w1)) (List.length (errs w)) = Some x) by (rewrite SE, E; apply nth_last).
    assert (M : forall a, exns (set_marks e fm w1) a = if settable e && Nat.eqb a e then fm (exns w e) else exns w a).
    { intros a. unfold Errors.set_marks. destruct (settable e); cbn [exns andb]; [rewrite X; destruct (Nat.eqb a e); reflexivity|rewrite X; reflexivity]. }
    split; [split; [|split]|split; [exact G|split; [congruence|split; [exists x; auto|split]]]].
    + intros a j H. rewrite M in H. destruct (settable e && Nat.eqb a e) eqn:T.
      * cbn in H. injection H as <-. apply andb_true_iff in T. destruct T as [_ T]. apply Nat.eqb_eq in T. subst a. exists x. auto.
      * apply (grows_captured w); [exact G|]. apply A, H.
    + intros a j S (y & Y & P & Q). rewrite M. rewrite SE, E in Y. apply nth_new in Y. destruct Y as [Y|[-> ->]].
      * assert (Z : m_captured (exns w a) = Some j) by (apply (B a j S); exists y; auto). destruct (Nat.eqb_spec a e) as [->|]; [congruence|]. rewrite andb_false_r. exact Z.
      * assert (a = e) by congruence. subst a. rewrite S, Nat.eqb_refl. reflexivity.
    + intros n I. rewrite SN, N in I. destruct (C n I) as (y & Y & Z). exists y. split; [rewrite SE, E; apply nth_old, Y|exact Z].
    + intros a. rewrite M. destruct (settable e && Nat.eqb a e) eqn:T; [|auto]. apply andb_true_iff in T. destruct T as [_ T]. apply Nat.eqb_eq in T. subst a. auto.
    + intros _. exists x. auto.
Qed.

(** ** Adding *)

Lemma is_of_captured w i e : is_of w e i = true <-> captured_from w i e.
Proof.
  unfold is_of, captured_from. destruct (nth_error (errs w) i) as [x|]; [|split; [discriminate|intros (x & H & _); discriminate]].
  destruct (e_of x) as [a|] eqn:A; [|split; [discriminate|intros (y & H & P & _); congruence]].
  rewrite andb_true_iff, Nat.eqb_eq, negb_true_iff. split; [intros [-> U]; exists x; auto|intros (y & H & P & Q)]. injection H as <-. split; congruence.
Qed.

Lemma is_of_grows w w' e i x : grows w w' -> nth_error (errs w) i = Some x -> is_of w' e i = is_of w e i.
Proof. intros G H. unfold is_of. rewrite H. apply G in H. destruct H as (y & H & P & Q & _). rewrite H, P, Q. reflexivity. Qed.

Definition hit (w : world) (e r : nat) (failure : bool) (n : entry) : bool := Nat.eqb (n_result n) r && Bool.eqb (n_failure n) failure && is_of w e (n_err n).

Lemma times_grows w w' e r f l : inv w -> grows w w' -> entries w' = entries w ++ l ->
  times w' e r f = times w e r f + List.length (filter (hit w' e r f) l).
Proof.
  intros (_ & _ & C) G N. unfold times. rewrite N, filter_app, app_length. f_equal. f_equal. apply filter_ext_in. intros n I. f_equal.
  destruct (C n I) as (x & X & _). eapply is_of_grows; eassumption.
Qed.

(** what [put] of _add_error does with the world after the Error is there *)
Lemma put_spec (r : nat) (failure : bool) (w w1 : world) (i : nat) (x : err) : inv w -> inv w1 -> grows w w1 -> entries w1 = entries w -> nth_error (errs w1) i = Some x ->
  let w2 := if failure then change i (fun x => mkErr (e_of x) (e_custom x) true (e_fatal x)) w1 else w1 in
  let w3 := mkWorld (errs w2) (exns w2) (entries w2 ++ [mkEntry r failure i]) (skips w2) (interrupted w2) in
  inv w3 /\ grows w w3 /\ grows w1 w3 /\ entries w3 = entries w ++ [mkEntry r failure i] /\ exns w3 = exns w1.
Proof.
  intros J J1 G N X w2 w3.
  assert (J2 : inv w2 /\ grows w1 w2 /\ entries w2 = entries w /\ exns w2 = exns w1 /\ exists y, nth_error (errs w2) i = Some y /\ (failure = true -> e_failure y = true)).
  { unfold w2. destruct failure.
    - split; [apply change_inv; [intros y; repeat split; auto|exact J1]|]. split; [apply change_grows; intros y; repeat split; auto|]. split; [exact N|]. split; [reflexivity|].
      rewrite nth_change, X. cbn. eexists. split; [reflexivity|]. rewrite Nat.eqb_refl. reflexivity.
    - split; [exact J1|]. split; [apply grows_refl|]. split; [exact N|]. split; [reflexivity|]. exists x. split; [exact X|discriminate]. }
  destruct J2 as ((A & B & C) & G2 & N2 & X2 & y & Y & F).
  split; [split; [exact A|split; [exact B|]]|split; [|split; [exact G2|split; [|exact X2]]]].
  - intros n I. cbn [w3 entries] in I. apply in_app_or in I. destruct I as [I|[<-|[]]]; [apply (C n I)|exists y; split; [exact Y|exact F]].
  - eapply grows_trans; [exact G|exact G2].
  - cbn [w3 entries]. rewrite N2. reflexivity.
Qed.

Lemma add_spec r f s w : inv w -> let w' := fst (add r f s w) in
  inv w' /\ grows w w' /\ (forall a, m_added (exns w' a) = m_added (exns w a) /\ m_fatal (exns w' a) = m_fatal (exns w a)) /\
  forall e r' f', times w' e r' f' = times w e r' f' + if adds e r' f' (Add r f s) then 1 else 0.
Proof.
  intros J w'. subst w'. unfold Errors.add. destruct s as [a| |a|].
  - destruct (capture a w) as [w1 i] eqn:K. destruct (capture_spec a w w1 i K J) as (J1 & G & N & (x & X & O & U) & M & _). cbn [fst].
    destruct (put_spec r f w w1 i x J J1 G N X) as (P1 & P2 & P3 & P4 & P5). split; [exact P1|]. split; [exact P2|]. split; [intros b; rewrite P5; apply M|].
    intros e r' f'. rewrite (times_grows w _ e r' f' [mkEntry r f i]) by assumption. f_equal. cbn [filter]. unfold hit. cbn [n_result n_failure n_err].
    rewrite (is_of_grows w1 _ e i x P3 X). assert (Z : is_of w1 e i = Nat.eqb a e).
    { unfold is_of. rewrite X, O, U, andb_true_r. reflexivity. }
    rewrite Z. cbn [adds]. destruct (Nat.eqb r r'), (Bool.eqb f f'), (Nat.eqb a e); reflexivity.
  - destruct (new_error None true w) as [w1 i] eqn:K. destruct (new_error_custom None w w1 i K J) as (J1 & G & N & E & x & X & U). cbn [fst].
    destruct (put_spec r f w w1 i x J J1 G N X) as (P1 & P2 & P3 & P4 & P5). split; [exact P1|]. split; [exact P2|]. split; [intros b; rewrite P5, E; auto|].
    intros e r' f'. rewrite (times_grows w _ e r' f' [mkEntry r f i]) by assumption. f_equal. cbn [filter]. unfold hit. cbn [n_result n_failure n_err].
    rewrite (is_of_grows w1 _ e i x P3 X). assert (Z : is_of w1 e i = false) by (unfold is_of; rewrite X, U; destruct (e_of x); [apply andb_false_r|reflexivity]).
    rewrite Z, andb_false_r. reflexivity.
  - destruct (new_error (Some a) true w) as [w1 i] eqn:K. destruct (new_error_custom (Some a) w w1 i K J) as (J1 & G & N & E & x & X & U). cbn [fst].
    destruct (put_spec r f w w1 i x J J1 G N X) as (P1 & P2 & P3 & P4 & P5). split; [exact P1|]. split; [exact P2|]. split; [intros b; rewrite P5, E; auto|].
    intros e r' f'. rewrite (times_grows w _ e r' f' [mkEntry r f i]) by assumption. f_equal. cbn [filter]. unfold hit. cbn [n_result n_failure n_err].
    rewrite (is_of_grows w1 _ e i x P3 X). assert (Z : is_of w1 e i = false) by (unfold is_of; rewrite X, U; destruct (e_of x); [apply andb_false_r|reflexivity]).
    rewrite Z, andb_false_r. reflexivity.
  - cbn. split; [exact J|]. split; [apply grows_refl|]. split; [auto|]. intros. rewrite Nat.add_0_r. reflexivity.
Qed.

Lemma times_same w w' e r f : inv w -> grows w w' -> entries w' = entries w -> times w' e r f = times w e r f.
Proof. intros J G N. rewrite (times_grows w w' e r f [] J G); [apply Nat.add_0_r|]. rewrite app_nil_r. exact N. Qed.

Lemma marks_same e f w a : (forall m, m_added (f m) = m_added m) -> m_added (exns (set_marks e f w) a) = m_added (exns w a).
Proof. intros F. unfold Errors.set_marks. destruct (settable e); [|reflexivity]. cbn [exns]. destruct (Nat.eqb_spec a e) as [->|]; [apply F|reflexivity]. Qed.

(** how often handling [e] for the first time adds it, and where *)
Definition share (e r' : nat) (f : bool) (r : nat) : nat :=
  match kind_of e with Failure => if Nat.eqb r r' && f then 1 else 0 | Ordinary => if Nat.eqb r r' && negb f then 1 else 0 | _ => 0 end.

Lemma share_failure e r' f r : kind_of e = Failure -> share e r' f r = if Nat.eqb r r' && f then 1 else 0.
Proof. unfold share. intros ->. reflexivity. Qed.
Lemma share_ordinary e r' f r : kind_of e = Ordinary -> share e r' f r = if Nat.eqb r r' && negb f then 1 else 0.
Proof. unfold share. intros ->. reflexivity. Qed.

Lemma handle_spec r a act w : inv w -> let w' := fst (add_exception r a act w) in
  inv w' /\ grows w w' /\ (forall e, settable e = true -> m_added (exns w' e) = m_added (exns w e) || Nat.eqb a e) /\
  (forall e, m_fatal (exns w' e) = m_fatal (exns w e)) /\
  (act = Some a -> forall e r' f', times w' e r' f' = times w e r' f' + if Nat.eqb a e && negb (m_added (exns w e)) then share e r' f' r else 0).
Proof.
  intros J w'. subst w'. unfold Errors.add_exception. destruct (m_added (exns w a)) eqn:D.
  - cbn [fst]. split; [exact J|]. split; [apply grows_refl|]. split; [|split; [auto|]].
    + intros e S. destruct (Nat.eqb_spec a e) as [->|]; [rewrite D; reflexivity|rewrite orb_false_r; reflexivity].
    + intros _ e r' f'. destruct (Nat.eqb_spec a e) as [->|]; [rewrite D|]; cbn; rewrite Nat.add_0_r; reflexivity.
  - set (fm := fun m => mkMarks true (m_fatal m) (m_captured m)). set (w0 := set_marks a fm w).
    assert (J0 : inv w0) by (apply set_marks_inv; [reflexivity|exact J]). destruct (set_marks_errs a fm w) as [E0 N0].
    assert (G0 : grows w w0) by (intros i x H; exists x; unfold w0; rewrite E0; tauto).
    assert (M0 : forall e, settable e = true -> m_added (exns w0 e) = m_added (exns w e) || Nat.eqb a e).
    { intros e S. unfold w0, Errors.set_marks. destruct (Nat.eqb_spec a e) as [<-|Ne]; [rewrite S; cbn [exns]; rewrite Nat.eqb_refl, orb_true_r; reflexivity|].
      rewrite orb_false_r. destruct (settable a); [|reflexivity]. cbn [exns]. destruct (Nat.eqb_spec e a); [congruence|reflexivity]. }
    assert (F0 : forall e, m_fatal (exns w0 e) = m_fatal (exns w e)).
    { intros e. unfold w0, Errors.set_marks. destruct (settable a); [|reflexivity]. cbn [exns]. destruct (Nat.eqb_spec e a) as [->|]; reflexivity. }
    assert (T0 : forall e r' f', times w0 e r' f' = times w e r' f') by (intros; apply times_same; [exact J|exact G0|exact N0]).
    assert (none : kind_of a <> Failure -> kind_of a <> Ordinary -> forall w1, inv w1 -> grows w0 w1 -> entries w1 = entries w0 ->
      forall e r' f', times w1 e r' f' = times w e r' f' + if Nat.eqb a e && negb (m_added (exns w e)) then share e r' f' r else 0).
    { intros K1 K2 w1 J1 G1 N1 e r' f'. rewrite (times_same w0 w1 e r' f' J0 G1 N1), T0. destruct (Nat.eqb_spec a e) as [<-|]; [|cbn; lia]. rewrite D. cbn. unfold share. destruct (kind_of a); congruence || lia. }
    destruct (kind_of a) eqn:K.
    + match goal with |- context [Errors.add _ _ r true ?s w0] => set (src := s) end. destruct (add_spec r true src w0 J0) as (A1 & A2 & A3 & A4).
      split; [exact A1|]. split; [eapply grows_trans; eassumption|]. split; [intros e S; rewrite (proj1 (A3 e)); auto|]. split; [intros e; rewrite (proj2 (A3 e)); auto|].
      intros -> e r' f'. rewrite A4, T0. f_equal. cbn [adds src]. destruct (Nat.eqb_spec a e) as [<-|]; cbn [andb]; [|reflexivity]. rewrite D, (share_failure a r' f' r K). destruct (Nat.eqb r r'), f'; reflexivity.
    + cbn [fst]. split; [exact J0|]. split; [exact G0|]. split; [exact M0|]. split; [exact F0|]. intros _. apply (none ltac:(discriminate) ltac:(discriminate) _); [exact J0|exact (grows_refl w0)|reflexivity].
    + destruct (capture a w0) as [w1 i] eqn:C. destruct (capture_spec a w0 w1 i C J0) as (J1 & G1 & N1 & _ & M1 & _). cbn [fst].
      split; [exact J1|]. split; [eapply grows_trans; [exact G0|exact G1]|]. split; [intros e S; cbn [exns]; rewrite (proj1 (M1 e)); auto|]. split; [intros e; cbn [exns]; rewrite (proj2 (M1 e)); auto|].
      intros _. apply (none ltac:(discriminate) ltac:(discriminate) _); [exact J1|exact G1|exact N1].
    + cbn [fst]. split; [exact J0|]. split; [exact G0|]. split; [exact M0|]. split; [exact F0|]. intros _. apply (none ltac:(discriminate) ltac:(discriminate) _); [exact J0|exact (grows_refl w0)|reflexivity].
    + destruct (add_spec r false (Active a) w0 J0) as (A1 & A2 & A3 & A4).
      split; [exact A1|]. split; [eapply grows_trans; eassumption|]. split; [intros e S; rewrite (proj1 (A3 e)); auto|]. split; [intros e; rewrite (proj2 (A3 e)); auto|].
      intros _ e r' f'. rewrite A4, T0. f_equal. cbn [adds]. destruct (Nat.eqb_spec a e) as [<-|]; cbn [andb]; [|reflexivity]. rewrite D, (share_ordinary a r' f' r K). destruct (Nat.eqb r r'), f'; reflexivity.
Qed.

Lemma step_inv o w : inv w -> inv (step w o) /\ grows w (step w o).
Proof.
  intros J. destruct o as [r f s|r e a|i|e]; cbn [Errors.step].
  - destruct (add_spec r f s w J) as (A & B & _). split; assumption.
  - destruct (handle_spec r e a w J) as (A & B & _). split; assumption.
  - split; [apply change_inv; [intros x; repeat split; auto|exact J]|apply change_grows; intros x; repeat split; auto].
  - split; [apply set_marks_inv; [reflexivity|exact J]|]. intros i x H. exists x. rewrite (proj1 (set_marks_errs e _ w)). tauto.
Qed.

Lemma inv0 : inv world0.
Proof. split; [|split]; cbn; [discriminate|intros e i _ (x & H & _); destruct i; discriminate|intros n []]. Qed.

Lemma run_inv ops w : inv w -> inv (run w ops) /\ grows w (run w ops).
Proof.
  revert w. induction ops as [|o ops IH]; intros w J; [split; [exact J|apply grows_refl]|]. destruct (step_inv o w J) as [A B]. destruct (IH _ A) as [C D].
  split; [exact C|eapply grows_trans; eassumption].
Qed.

(** ** Theorems *)

(** an exception has one Error, in whatever lists of whatever results it is *)
Theorem C116_one ops e n m : settable e = true -> let w := run world0 ops in
  In n (entries w) -> In m (entries w) -> captured_from w (n_err n) e -> captured_from w (n_err m) e -> n_err n = n_err m.
Proof. intros S w _ _ A B. destruct (run_inv ops world0 inv0) as [(_ & I & _) _]. apply (I e _ S) in A. apply (I e _ S) in B. fold w in A, B. congruence. Qed.

(** every entry is an Error, and those in the lists of failures are marked as failures *)
Theorem C116_marked ops n : let w := run world0 ops in In n (entries w) -> exists x, nth_error (errs w) (n_err n) = Some x /\ (n_failure n = true -> e_failure x = true).
Proof. intros w. destruct (run_inv ops world0 inv0) as [(_ & _ & C) _]. apply C. Qed.

(** ** What is marked as a failure *)

Definition why (w : world) (i : nat) (x : err) : Prop :=
  (exists e, e_of x = Some e /\ kind_of e = Failure) \/ exists n, In n (entries w) /\ n_err n = i /\ n_failure n = true.

Definition right (w : world) : Prop := forall i x, nth_error (errs w) i = Some x -> (e_failure x = true <-> why w i x).

Lemma marks_right e f w : right w -> right (set_marks e f w).
Proof. intros R i x. unfold why. rewrite (proj1 (set_marks_errs e f w)), (proj2 (set_marks_errs e f w)). apply R. Qed.

Lemma new_error_right e c w : inv w -> right w -> right (fst (new_error e c w)).
Proof.
  intros (_ & _ & C) R i x X. unfold why. cbn [new_error fst errs entries] in *. apply nth_new in X. destruct X as [X|[-> ->]]; [apply R, X|].
  assert (No : forall n, In n (entries w) -> n_err n <> List.length (errs w)).
  { intros n I E. destruct (C n I) as (y & Y & _). assert (n_err n < List.length (errs w)) by (apply nth_error_Some; congruence). lia. }
  destruct e as [e|]; cbn [e_of e_failure].
  - unfold Errors.is_failure. split.
    + intros F. left. exists e. split; [reflexivity|]. destruct (kind_of e); congruence.
    + intros [(a & A & K)|(n & I & E & _)]; [injection A as <-; rewrite K; reflexivity|destruct (No n I E)].
  - split; [discriminate|]. intros [(a & A & _)|(n & I & E & _)]; [discriminate|destruct (No n I E)].
Qed.

Lemma capture_right e w : inv w -> right w -> right (fst (capture e w)).
Proof.
  intros J R. unfold Errors.capture. destruct (m_captured (exns w e)); [exact R|]. pose proof (new_error_right (Some e) false w J R) as Q.
  destruct (new_error (Some e) false w) as [w1 i]. cbn [fst] in *. apply marks_right, Q.
Qed.

Lemma put_right r (failure : bool) i w : right w -> 
  let w2 := if failure then change i (fun x => mkErr (e_of x) (e_custom x) true (e_fatal x)) w else w in
  right (mkWorld (errs w2) (exns w2) (entries w2 ++ [mkEntry r failure i]) (skips w2) (interrupted w2)).
Proof.
  intros R w2 j x X. cbn [errs] in X. unfold why. cbn [entries].
  assert (N : entries w2 = entries w) by (unfold w2; destruct failure; reflexivity). rewrite N.
  assert (Y : exists y, nth_error (errs w) j = Some y /\ e_of y = e_of x /\ e_failure x = (failure && Nat.eqb j i) || e_failure y).
  { unfold w2 in X. destruct failure; [|exists x; auto]. rewrite nth_change in X. destruct (nth_error (errs w) j) as [y|]; [|discriminate]. exists y. split; [reflexivity|].
    cbn in X. injection X as <-. cbn [andb]. destruct (Nat.eqb j i); auto. }
  destruct Y as (y & Y & O & F). specialize (R j y Y). unfold why in R. rewrite O in R. rewrite F, orb_true_iff, R, andb_true_iff, Nat.eqb_eq. split.
  - intros [[-> ->]|[H|(n & I & E & T)]]; [|left; exact H|].
    + right. exists (mkEntry r true i). split; [apply in_or_app; right; left; reflexivity|auto].
    + right. exists n. split; [apply in_or_app; left; exact I|auto].
  - intros [H|(n & I & E & T)]; [right; left; exact H|]. apply in_app_or in I. destruct I as [I|[<-|[]]]; [right; right; exists n; auto|]. cbn in E, T. left. auto.
Qed.

Lemma add_right r f s w : inv w -> right w -> right (fst (add r f s w)).
Proof.
  intros J R. unfold Errors.add. destruct s as [e| |e|].
  - pose proof (capture_right e w J R) as Q. destruct (capture e w) as [w1 i]. apply (put_right r f i w1 Q).
  - pose proof (new_error_right None true w J R) as Q. destruct (new_error None true w) as [w1 i]. apply (put_right r f i w1 Q).
  - pose proof (new_error_right (Some e) true w J R) as Q. destruct (new_error (Some e) true w) as [w1 i]. apply (put_right r f i w1 Q).
  - exact R.
Qed.

Lemma step_right o w : inv w -> right w -> right (step w o).
Proof.
  intros J R. destruct o as [r f s|r e a|i|e]; cbn [Errors.step].
  - apply add_right; assumption.
  - unfold Errors.add_exception. destruct (m_added (exns w e)); [exact R|]. set (fm := fun m => mkMarks true (m_fatal m) (m_captured m)).
    assert (J0 : inv (set_marks e fm w)) by (apply set_marks_inv; [reflexivity|exact J]). pose proof (marks_right e fm w R) as R0. set (w0 := set_marks e fm w) in *.
    destruct (kind_of e); [apply add_right; assumption|exact R0| |exact R0|apply add_right; assumption]. exact (capture_right e w0 J0 R0).
  - intros j x X. unfold why. cbn [entries change]. rewrite nth_change in X. destruct (nth_error (errs w) j) as [y|] eqn:Y; [|discriminate]. specialize (R j y Y). cbn in X. injection X as <-.
    destruct (Nat.eqb j i); exact R.
  - apply marks_right, R.
Qed.

(** an Error is a failure exactly if its exception is one, or it was put in a list of failures *)
Theorem C116_failures ops i x : let w := run world0 ops in nth_error (errs w) i = Some x ->
  (e_failure x = true <-> (exists e, e_of x = Some e /\ kind_of e = Failure) \/ exists n, In n (entries w) /\ n_err n = i /\ n_failure n = true).
Proof.
  intros w. assert (Q : forall v, inv v -> right v -> right (run v ops)).
  { clear. induction ops as [|o ops IH]; intros v J R; [exact R|]. cbn. apply IH; [apply step_inv, J|apply step_right; assumption]. }
  apply (Q world0 inv0). intros j y Y. destruct j; discriminate.
Qed.

(** an exception that is handled where it is active is in the list it belongs to of the result it was handled in first, once, in
    addition to each add_error() and add_failure() that was called for it *)
Theorem C116_times ops e r f : settable e = true -> Forall in_place ops -> 
  times (run world0 ops) e r f = List.length (filter (adds e r f) ops) +
    match find (handles e) ops with
    | Some (Handle r' _ _) => if Nat.eqb r' r && (match kind_of e with Failure => f | Ordinary => negb f | _ => false end) then 1 else 0
    | _ => 0
    end.
Proof.
  intros S P.
  assert (Q : m_added (exns (run world0 ops) e) = existsb (handles e) ops /\ times (run world0 ops) e r f = List.length (filter (adds e r f) ops) +
    match find (handles e) ops with Some (Handle r' _ _) => share e r f r' | _ => 0 end).
  { induction ops as [|o ops IH] using rev_ind; [split; reflexivity|]. apply Forall_app in P. destruct P as [P Po]. inversion_clear Po as [|? ? Pi _]. destruct (IH P) as [M T]. clear IH.
    destruct (run_inv ops world0 inv0) as [J _]. unfold Errors.run in *. rewrite fold_left_app. cbn [fold_left]. set (w := fold_left step ops world0) in *.
    rewrite existsb_app, filter_app, app_length. cbn [existsb]. rewrite orb_false_r.
    assert (FA : find (handles e) (ops ++ [o]) = if existsb (handles e) ops then find (handles e) ops else find (handles e) [o]).
    { clear. induction ops as [|a ops IH]; [reflexivity|]. cbn [find existsb app]. destruct (handles e a) eqn:A; [reflexivity|]. exact IH. }
    rewrite FA. clear FA. destruct o as [r0 f0 s|r0 a act|i|a]; cbn [Errors.step handles find].
    - destruct (add_spec r0 f0 s w J) as (_ & _ & A & B). rewrite (proj1 (A e)), B, M, T, orb_false_r. split; [reflexivity|]. cbn [filter].
      destruct (adds e r f (Add r0 f0 s)); cbn [List.length]; destruct (existsb (handles e) ops) eqn:X; try lia;
      (destruct (find (handles e) ops) as [o|] eqn:Y; [exfalso|lia]); apply find_some in Y; assert (Z : existsb (handles e) ops = true) by (apply existsb_exists; exists o; exact Y); congruence.
    - destruct (handle_spec r0 a act w J) as (_ & _ & A & _ & B). rewrite (A e S), (B Pi), M, T. split; [reflexivity|]. cbn [filter adds List.length].
      destruct (existsb (handles e) ops) eqn:X; [rewrite andb_false_r; lia|]. cbn [negb]. rewrite andb_true_r.
      destruct (find (handles e) ops) as [o|] eqn:Y; [exfalso; apply find_some in Y; assert (Z : existsb (handles e) ops = true) by (apply existsb_exists; exists o; exact Y); congruence|].
      destruct (Nat.eqb a e); lia.
    - cbn [filter adds List.length]. rewrite orb_false_r. split; [exact M|]. rewrite (times_same w _ e r f J); [|apply change_grows; intros x; repeat split; auto|reflexivity]. rewrite T.
      destruct (existsb (handles e) ops) eqn:X; [lia|]. destruct (find (handles e) ops) as [o|] eqn:Y; [exfalso; apply find_some in Y; assert (Z : existsb (handles e) ops = true) by (apply existsb_exists; exists o; exact Y); congruence|lia].
    - cbn [filter adds List.length]. rewrite orb_false_r. rewrite marks_same by reflexivity. split; [exact M|]. destruct (set_marks_errs a (fun m => mkMarks (m_added m) true (m_captured m)) w) as [SE SN].
      rewrite (times_same w _ e r f J); [|intros i x H; exists x; rewrite SE; tauto|exact SN]. rewrite T.
      destruct (existsb (handles e) ops) eqn:X; [lia|]. destruct (find (handles e) ops) as [o|] eqn:Y; [exfalso; apply find_some in Y; assert (Z : existsb (handles e) ops = true) by (apply existsb_exists; exists o; exact Y); congruence|lia]. }
  destruct Q as [_ ->]. f_equal. destruct (find (handles e) ops) as [[| r' ? ?| |]|]; try reflexivity. unfold share. destruct (kind_of e); cbn; try rewrite andb_false_r; reflexivity.
Qed.

(** ** Nothing is taken away *)

Lemma capture_entries e w : entries (fst (capture e w)) = entries w.
Proof. unfold Errors.capture. destruct (m_captured (exns w e)); [reflexivity|]. cbn. unfold Errors.set_marks. destruct (settable e); reflexivity. Qed.

Lemma add_entries r f s w : exists l, entries (fst (add r f s w)) = entries w ++ l.
Proof.
  unfold Errors.add. destruct s as [e| |e|].
  - pose proof (capture_entries e w) as C. destruct (capture e w) as [w1 i]. cbn [fst] in *. exists [mkEntry r f i]. destruct f; cbn [entries change]; rewrite C; reflexivity.
  - cbn. exists [mkEntry r f (List.length (errs w))]. destruct f; reflexivity.
  - cbn. exists [mkEntry r f (List.length (errs w))]. destruct f; reflexivity.
  - exists []. rewrite app_nil_r. reflexivity.
Qed.

Lemma step_entries o w : exists l, entries (step w o) = entries w ++ l.
Proof.
  destruct o as [r f s|r e a|i|e]; cbn [Errors.step]; [apply add_entries| |exists []; rewrite app_nil_r; reflexivity|exists []; rewrite app_nil_r; apply set_marks_errs].
  unfold Errors.add_exception. destruct (m_added (exns w e)); [exists []; rewrite app_nil_r; reflexivity|].
  set (w0 := set_marks e _ w). assert (E : entries w0 = entries w) by apply set_marks_errs. rewrite <- E. destruct (kind_of e).
  - apply add_entries.
  - exists []. rewrite app_nil_r. reflexivity.
  - exists []. rewrite app_nil_r. cbn [fst entries]. apply capture_entries.
  - exists []. rewrite app_nil_r. reflexivity.
  - apply add_entries.
Qed.

Lemma run_entries ops w : exists l, entries (run w ops) = entries w ++ l.
Proof.
  revert w. induction ops as [|o ops IH]; intros w; [exists []; rewrite app_nil_r; reflexivity|]. destruct (step_entries o w) as [l A]. destruct (IH (step w o)) as [l' B].
  exists (l ++ l'). cbn. unfold Errors.run in B. rewrite B, A, app_assoc. reflexivity.
Qed.

(** what is recorded is not taken away, and not unmarked *)
Theorem C116_kept ops ops' n x : let w := run world0 ops in let w' := run world0 (ops ++ ops') in
  In n (entries w) -> nth_error (errs w) (n_err n) = Some x ->
  In n (entries w') /\ exists y, nth_error (errs w') (n_err n) = Some y /\ e_of y = e_of x /\ e_custom y = e_custom x /\ (e_failure x = true -> e_failure y = true) /\ (e_fatal x = true -> e_fatal y = true).
Proof.
  intros w w' I X. destruct (run_inv ops world0 inv0) as [J _]. destruct (run_inv ops' _ J) as [_ G]. destruct (run_entries ops' (run world0 ops)) as [l E].
  assert (W : w' = run (run world0 ops) ops') by (unfold w', Errors.run; apply fold_left_app). rewrite W. split; [rewrite E; apply in_or_app; left; exact I|]. exact (G _ _ X).
Qed.

(** ** Fatal errors *)

(** an operation that may capture [e] *)
Definition touches (e : nat) (o : op) : Prop :=
  match o with Add _ _ (Active a) => a = e | Handle _ a b => a = e \/ b = Some e | _ => False end.

Lemma set_marks_other e f w a : a <> e -> exns (set_marks e f w) a = exns w a.
Proof. intros N. unfold Errors.set_marks. destruct (settable e); [|reflexivity]. cbn [exns]. destruct (Nat.eqb_spec a e); [contradiction|reflexivity]. Qed.

Lemma capture_other e w a : a <> e -> exns (fst (capture e w)) a = exns w a.
Proof. intros N. unfold Errors.capture. destruct (m_captured (exns w e)); [reflexivity|]. cbn. rewrite set_marks_other by exact N. reflexivity. Qed.

Lemma add_other r f s w a : (forall e, s = Active e -> e <> a) -> exns (fst (add r f s w)) a = exns w a.
Proof.
  intros N. unfold Errors.add. destruct s as [e| |e|]; try (destruct f; reflexivity). pose proof (capture_other e w a) as C. destruct (capture e w) as [w1 i]. cbn [fst] in *.
  assert (X : exns w1 a = exns w a) by (apply C; intros ->; exact (N e eq_refl eq_refl)). destruct f; cbn [change exns]; exact X.
Qed.

Lemma step_other o w e : ~ touches e o -> m_captured (exns (step w o) e) = m_captured (exns w e).
Proof.
  intros T. destruct o as [r f s|r a b|i|a]; cbn [Errors.step].
  - f_equal. apply add_other. intros a -> ->. apply T. reflexivity.
  - unfold Errors.add_exception. destruct (m_added (exns w a)); [reflexivity|]. assert (Na : e <> a) by (intros ->; apply T; left; reflexivity).
    set (w0 := set_marks a _ w). assert (E : exns w0 e = exns w e) by (apply set_marks_other; exact Na). rewrite <- E. f_equal. destruct (kind_of a).
    + apply add_other. intros c H. destruct b as [b|]; [|discriminate]. injection H as <-. intros ->. apply T. right. reflexivity.
    + reflexivity.
    + cbn [fst exns]. apply capture_other, Na.
    + reflexivity.
    + apply add_other. intros c H. injection H as <-. congruence.
  - reflexivity.
  - unfold Errors.set_marks. destruct (settable a); [|reflexivity]. cbn [exns]. destruct (Nat.eqb_spec e a) as [->|]; reflexivity.
Qed.

Lemma step_fatal o w e : inv w -> settable e = true -> m_fatal (exns w e) = true \/ o = FatalException e -> m_fatal (exns (step w o) e) = true.
Proof.
  intros J S [H| ->].
  - destruct o as [r f s|r a b|i|a]; cbn [Errors.step].
    + destruct (add_spec r f s w J) as (_ & _ & A & _). rewrite (proj2 (A e)). exact H.
    + destruct (handle_spec r a b w J) as (_ & _ & _ & A & _). rewrite A. exact H.
    + exact H.
    + unfold Errors.set_marks. destruct (settable a); [|exact H]. cbn [exns]. destruct (Nat.eqb_spec e a); [reflexivity|exact H].
  - cbn [Errors.step]. unfold Errors.set_marks. rewrite S. cbn [exns]. rewrite Nat.eqb_refl. reflexivity.
Qed.

Lemma run_fatal ops w e : inv w -> settable e = true -> m_fatal (exns w e) = true \/ In (FatalException e) ops -> m_fatal (exns (run w ops) e) = true.
Proof.
  revert w. induction ops as [|o ops IH]; intros w J S H; [destruct H as [H|[]]; exact H|]. cbn. apply IH; [apply step_inv, J|exact S|].
  destruct H as [H|[->|H]]; [left; apply step_fatal; auto|left; apply step_fatal; auto|right; exact H].
Qed.

Lemma run_other ops w e : (forall o, In o ops -> ~ touches e o) -> m_captured (exns (run w ops) e) = m_captured (exns w e).
Proof.
  revert w. induction ops as [|o ops IH]; intros w T; [reflexivity|]. cbn. transitivity (m_captured (exns (step w o) e)); [apply IH; intros; apply T; right; assumption|apply step_other, T; left; reflexivity].
Qed.

Lemma has_fatal_in r w n x : In n (entries w) -> n_result n = r -> nth_error (errs w) (n_err n) = Some x -> e_fatal x = true -> has_fatal r w = true.
Proof. intros I R X F. apply existsb_exists. exists n. split; [exact I|]. rewrite R, Nat.eqb_refl, X. exact F. Qed.

Lemma add_fatal r f e w : inv w -> m_captured (exns w e) = None -> m_fatal (exns w e) = true ->
  let w' := fst (add r f (Active e) w) in exists n x, In n (entries w') /\ n_result n = r /\ nth_error (errs w') (n_err n) = Some x /\ e_of x = Some e /\ e_fatal x = true.
Proof.
  intros J C F w'. subst w'. unfold Errors.add. destruct (capture e w) as [w1 i] eqn:K. destruct (capture_spec e w w1 i K J) as (J1 & G & N & (x & X & O & U) & M & Z).
  destruct (Z C) as (y & Y & YF). rewrite X in Y. injection Y as <-. cbn [fst]. destruct (put_spec r f w w1 i x J J1 G N X) as (P1 & P2 & P3 & P4 & P5).
  destruct (P3 i x X) as (z & Q & Q1 & Q2 & Q3 & Q4). exists (mkEntry r f i), z. split; [rewrite P4; apply in_or_app; right; left; reflexivity|]. split; [reflexivity|]. split; [exact Q|].
  split; [congruence|]. apply Q4. congruence.
Qed.

(** an exception that is marked as fatal before anything captured it makes the result fatal in which it is recorded, for good *)
Theorem C116_fatal ops e o r ops' : settable e = true -> In (FatalException e) ops -> (forall o, In o ops -> ~ touches e o) ->
  (exists f, o = Add r f (Active e)) \/ (o = Handle r e (Some e) /\ (kind_of e = Failure \/ kind_of e = Ordinary)) ->
  has_fatal r (run world0 (ops ++ o :: ops')) = true.
Proof.
  intros S I T O. destruct (run_inv ops world0 inv0) as [J _]. set (w := run world0 ops) in *.
  assert (C : m_captured (exns w e) = None) by (unfold w; rewrite run_other by exact T; reflexivity).
  assert (F : m_fatal (exns w e) = true) by (apply run_fatal; [exact inv0|exact S|right; exact I]).
  assert (W : run world0 (ops ++ o :: ops') = run (step w o) ops') by (unfold w, Errors.run; rewrite fold_left_app; reflexivity).
  assert (A : m_added (exns w e) = false).
  { unfold w. clear - T S. assert (Q : forall w, m_added (exns w e) = false -> inv w -> m_added (exns (run w ops) e) = false); [|apply Q; [reflexivity|exact inv0]].
    induction ops as [|o ops IH]; intros w A J; [exact A|]. cbn. apply IH; [intros; apply T; right; assumption| |apply step_inv, J].
    assert (To : ~ touches e o) by (apply T; left; reflexivity). destruct o as [r f s|r a b|i|a]; cbn [Errors.step].
    - destruct (add_spec r f s w J) as (_ & _ & M & _). rewrite (proj1 (M e)). exact A.
    - destruct (handle_spec r a b w J) as (_ & _ & M & _). rewrite (M e S), A. destruct (Nat.eqb_spec a e) as [->|]; [destruct To; left; reflexivity|reflexivity].
    - exact A.
    - rewrite marks_same by reflexivity. exact A. }
  assert (X : exists n x, In n (entries (step w o)) /\ n_result n = r /\ nth_error (errs (step w o)) (n_err n) = Some x /\ e_of x = Some e /\ e_fatal x = true).
  { destruct O as [[f ->]|[-> K]]; cbn [Errors.step]; [apply add_fatal; assumption|]. unfold Errors.add_exception. rewrite A.
    set (w0 := set_marks e _ w). assert (J0 : inv w0) by (apply set_marks_inv; [reflexivity|exact J]).
    assert (E0 : m_captured (exns w0 e) = None /\ m_fatal (exns w0 e) = true).
    { unfold w0, Errors.set_marks. rewrite S. cbn [exns]. rewrite Nat.eqb_refl. cbn. split; assumption. }
    destruct E0 as [C0 F0]. destruct K as [K|K]; rewrite K; apply add_fatal; assumption. }
  destruct X as (n & x & N & R & X & _ & Y). destruct (step_inv o w J) as [J2 _]. destruct (run_inv ops' _ J2) as [_ G]. destruct (run_entries ops' (step w o)) as [l L].
  rewrite W. destruct (G _ _ X) as (y & Z & _ & _ & _ & Q). apply (has_fatal_in r _ n y); [rewrite L; apply in_or_app; left; exact N|exact R|exact Z|apply Q, Y].
Qed.

(** a result is fatal only because of an Error in its own lists *)
Theorem C116_fatal_own r w : has_fatal r w = true <-> exists n x, In n (entries w) /\ n_result n = r /\ nth_error (errs w) (n_err n) = Some x /\ e_fatal x = true.
Proof.
  split; [|intros (n & x & I & R & X & F); apply (has_fatal_in r w n x); assumption]. intros H. apply existsb_exists in H. destruct H as (n & I & H). apply andb_true_iff in H. destruct H as [R H]. apply Nat.eqb_eq in R.
  destruct (nth_error (errs w) (n_err n)) as [x|] eqn:X; [|discriminate]. exists n, x. auto.
Qed.

(** no result is fatal if nothing was marked as fatal *)
Theorem C116_not_fatal ops r : (forall o, In o ops -> match o with FatalError _ | FatalException _ => False | _ => True end) -> has_fatal r (run world0 ops) = false.
Proof.
  intros H. assert (Q : forall w, (forall x, In x (errs w) -> e_fatal x = false) /\ (forall e, m_fatal (exns w e) = false) ->
    forall x, In x (errs (run w ops)) -> e_fatal x = false).
  { induction ops as [|o ops IH]; intros w [A B]; [exact A|]. cbn. apply IH; [intros; apply H; right; assumption|].
    assert (NE : forall e c w, (forall x, In x (errs w) -> e_fatal x = false) /\ (forall e, m_fatal (exns w e) = false) -> let w' := fst (new_error e c w) in (forall x, In x (errs w') -> e_fatal x = false) /\ (forall e, m_fatal (exns w' e) = false)).
    { clear. intros e c w [A B]. split; [|exact B]. intros x I. cbn in I. apply in_app_or in I. destruct I as [I|[<-|[]]]; [apply A, I|]. destruct e; [apply B|reflexivity]. }
    assert (SM : forall e f w, (forall m, m_fatal (f m) = m_fatal m) -> (forall x, In x (errs w) -> e_fatal x = false) /\ (forall e, m_fatal (exns w e) = false) -> let w' := set_marks e f w in (forall x, In x (errs w') -> e_fatal x = false) /\ (forall e, m_fatal (exns w' e) = false)).
    { clear. intros e f w F [A B]. unfold Errors.set_marks. destruct (settable e); [|split; assumption]. split; [exact A|]. intros a. cbn [exns]. destruct (Nat.eqb a e); [rewrite F|]; apply B. }
    assert (CA : forall e w, (forall x, In x (errs w) -> e_fatal x = false) /\ (forall e, m_fatal (exns w e) = false) -> let w' := fst (capture e w) in (forall x, In x (errs w') -> e_fatal x = false) /\ (forall e, m_fatal (exns w' e) = false)).
    { intros e v V. unfold Errors.capture. destruct (m_captured (exns v e)); [exact V|]. pose proof (NE (Some e) false v V) as N. destruct (new_error (Some e) false v) as [v1 i]. cbn [fst] in *. apply SM; [reflexivity|exact N]. }
    assert (CH : forall i w, (forall x, In x (errs w) -> e_fatal x = false) -> forall x, In x (errs (change i (fun x => mkErr (e_of x) (e_custom x) true (e_fatal x)) w)) -> e_fatal x = false).
    { clear. intros i w A x I. unfold change in I. cbn [errs] in I. apply in_map_iff in I. destruct I as ([k y] & <- & I). apply in_combine_r in I. apply A in I. cbn [fst snd]. destruct (Nat.eqb k i); exact I. }
    assert (AD : forall r f s w, (forall x, In x (errs w) -> e_fatal x = false) /\ (forall e, m_fatal (exns w e) = false) -> let w' := fst (add r f s w) in (forall x, In x (errs w') -> e_fatal x = false) /\ (forall e, m_fatal (exns w' e) = false)).
    { intros r0 f s v V. unfold Errors.add. destruct s as [e| |e|].
      - pose proof (CA e v V) as N. destruct (capture e v) as [v1 i]. cbn [fst] in *. destruct N as [N1 N2]. destruct f; split; [intros x I; apply (CH i v1 N1 x I)|exact N2|exact N1|exact N2].
      - pose proof (NE None true v V) as N. destruct (new_error None true v) as [v1 i]. cbn [fst] in *. destruct N as [N1 N2]. destruct f; split; [intros x I; apply (CH i v1 N1 x I)|exact N2|exact N1|exact N2].
      - pose proof (NE (Some e) true v V) as N. destruct (new_error (Some e) true v) as [v1 i]. cbn [fst] in *. destruct N as [N1 N2]. destruct f; split; [intros x I; apply (CH i v1 N1 x I)|exact N2|exact N1|exact N2].
      - exact V. }
    pose proof (H o (or_introl eq_refl)) as Ho. destruct o as [r0 f s|r0 a b|i|a]; [| |destruct Ho|destruct Ho]; cbn [Errors.step].
    - apply AD. split; assumption.
    - unfold Errors.add_exception. destruct (m_added (exns w a)); [split; assumption|].
      pose proof (SM a (fun m => mkMarks true (m_fatal m) (m_captured m)) w (fun _ => eq_refl) (conj A B)) as V. set (w0 := set_marks a _ w) in *. destruct (kind_of a); try (apply AD; exact V); try exact V.
      exact (CA a w0 V). }
  assert (Z : (forall x, In x (errs world0) -> e_fatal x = false) /\ (forall e, m_fatal (exns world0 e) = false)) by (split; [intros x []|reflexivity]). specialize (Q world0 Z). destruct (has_fatal r (run world0 ops)) eqn:E; [|reflexivity]. exfalso. apply existsb_exists in E. destruct E as (n & _ & E).
  apply andb_true_iff in E. destruct E as [_ E]. destruct (nth_error (errs (run world0 ops)) (n_err n)) as [x|] eqn:X; [|discriminate]. apply nth_error_In in X. apply Q in X. congruence.
Qed.

(** an exception is handled once: after that nothing is recorded for it, whatever result is to get it *)
Theorem C116_once before r e a ops r' a' : settable e = true -> let w := run world0 (before ++ Handle r e a :: ops) in add_exception r' e a' w = (w, Ok).
Proof.
  intros S. cbv zeta. destruct (run_inv before world0 inv0) as [J _]. unfold Errors.run. rewrite fold_left_app. cbn [fold_left Errors.step]. fold (run world0 before). set (w := run world0 before) in *.
  set (w' := fold_left step ops (fst (add_exception r e a w))). destruct (handle_spec r e a w J) as (J1 & _ & A & _). assert (M : m_added (exns (fst (add_exception r e a w)) e) = true) by (rewrite (A e S), Nat.eqb_refl; apply orb_true_r).
  assert (Q : m_added (exns w' e) = true); [|unfold Errors.add_exception; rewrite Q; reflexivity]. unfold w'. revert M J1. generalize (fst (add_exception r e a w)). clear - S.
  induction ops as [|o ops IH]; intros w M J; [exact M|]. cbn. apply IH; [|apply step_inv, J]. destruct o as [r f s|r b c|i|b]; cbn [Errors.step].
  - destruct (add_spec r f s w J) as (_ & _ & X & _). rewrite (proj1 (X e)). exact M.
  - destruct (handle_spec r b c w J) as (_ & _ & X & _). rewrite (X e S), M. reflexivity.
  - exact M.
  - rewrite marks_same by reflexivity. exact M.
Qed.

(** skips, interruptions and GeneratorExit are no errors: the first is recorded as a skip, the second interrupts, the third is nothing *)
Theorem C116_others r e a w : m_added (exns w e) = false -> let w' := fst (add_exception r e a w) in kind_of e <> Failure -> kind_of e <> Ordinary ->
  snd (add_exception r e a w) = Ok /\ entries w' = entries w /\ skips w' = skips w ++ (match kind_of e with Skip => [r] | _ => [] end) /\
  interrupted w' = interrupted w ++ (match kind_of e with Interruption => [r] | _ => [] end).
Proof.
  intros A w' F O. subst w'. unfold Errors.add_exception. rewrite A. set (w0 := set_marks e _ w).
  assert (E : entries w0 = entries w /\ skips w0 = skips w /\ interrupted w0 = interrupted w) by (unfold w0, Errors.set_marks; destruct (settable e); repeat split).
  destruct E as (E1 & E2 & E3). destruct (kind_of e); try congruence; cbn [fst snd entries skips interrupted]; rewrite ?app_nil_r, ?E1, ?E2, ?E3; try (repeat split; assumption).
  assert (C : skips (fst (capture e w0)) = skips w0 /\ interrupted (fst (capture e w0)) = interrupted w0).
  { unfold Errors.capture. destruct (m_captured (exns w0 e)); [split; reflexivity|]. cbn. unfold Errors.set_marks. destruct (settable e); split; reflexivity. }
  rewrite capture_entries, (proj1 C), (proj2 C), E1, E2, E3. repeat split.
Qed.

(** neither a message nor an active exception: an error, and nothing is recorded *)
Theorem C116_nothing r f w : add r f Nothing w = (w, RuntimeErr).
Proof. reflexivity. Qed.

End Proofs.

(** ** What is not so *)

(** recording an exception with slash.add_error() and letting it go on records it twice in the same list *)
Theorem C116_twice_refuted : exists kinds ops, Forall in_place ops /\ times (run kinds (fun _ => true) world0 ops) 0 0 false = 2.
Proof. exists (fun _ => Ordinary), [Add 0 false (Active 0); Handle 0 0 (Some 0)]. split; [repeat constructor|reflexivity]. Qed.

(** an Error that is marked as a failure can be in a list of errors, and one exception in both lists of one result *)
Theorem C116_both_refuted : exists kinds ops, Forall in_place ops /\ let w := run kinds (fun _ => true) world0 ops in
  times w 0 0 true = 1 /\ times w 0 0 false = 1 /\ exists n x, In n (entries w) /\ n_failure n = false /\ nth_error (errs w) (n_err n) = Some x /\ e_failure x = true.
Proof.
  exists (fun _ => Ordinary), [Add 0 true (Active 0); Handle 0 0 (Some 0)]. split; [repeat constructor|]. split; [reflexivity|]. split; [reflexivity|].
  exists (mkEntry 0 false 0). eexists. split; [right; left; reflexivity|]. split; [reflexivity|]. split; reflexivity.
Qed.

(** an exception that is marked as fatal after it was recorded is recorded again when it is handled, but the result is not fatal *)
Theorem C116_late_refuted : exists kinds ops, Forall in_place ops /\ let w := run kinds (fun _ => true) world0 ops in
  m_fatal (exns w 0) = true /\ times w 0 0 false = 2 /\ has_fatal 0 w = false.
Proof. exists (fun _ => Ordinary), [Add 0 false (Active 0); FatalException 0; Handle 0 0 (Some 0)]. split; [repeat constructor|]. repeat split. Qed.

(** marking an Error of one result as fatal makes another one fatal, that has the same exception *)
Theorem C116_shared_refuted : exists kinds ops, Forall in_place ops /\ let w := run kinds (fun _ => true) world0 ops in
  has_fatal 0 w = false /\ has_fatal 1 w = false /\ has_fatal 0 (run kinds (fun _ => true) w [FatalError 0]) = true /\ has_fatal 1 (run kinds (fun _ => true) w [FatalError 0]) = true.
Proof. exists (fun _ => Ordinary), [Add 0 false (Active 0); Handle 1 0 (Some 0)]. split; [repeat constructor|]. repeat split. Qed.

(** a failure that is handled with its exc_info after its except clause is not recorded: RuntimeError, and then never; inside the
    except clause of another exception that one is recorded instead *)
Theorem C116_elsewhere_refuted : exists kinds, kinds 0 = Failure /\ let s := fun _ : nat => true in
  (let w := fst (add_exception kinds s 0 0 None world0) in snd (add_exception kinds s 0 0 None world0) = RuntimeErr /\ entries w = [] /\ add_exception kinds s 0 0 (Some 0) w = (w, Ok)) /\
  (let w := fst (add_exception kinds s 0 0 (Some 1) world0) in times w 0 0 true = 0 /\ times w 1 0 true = 1).
Proof. exists (fun e => match e with 0 => Failure | _ => Ordinary end). repeat split. Qed.

(** an exception that takes no attributes is recorded as often as it is handled, as different Errors *)
Theorem C116_slots_refuted : exists kinds, let w := run kinds (fun _ => false) world0 [Handle 0 0 (Some 0); Handle 0 0 (Some 0)] in
  times w 0 0 false = 2 /\ map n_err (entries w) = [0; 1].
Proof. exists (fun _ => Ordinary). split; reflexivity. Qed.

(** ** Cases of the theorems *)

Definition ex_kinds (e : nat) : kind := match e with 0 => Ordinary | 1 => Failure | 2 => Skip | 3 => Interruption | _ => Ordinary end.
Definition ex_ops : list op := [Handle 0 1 (Some 1); Add 0 false (Active 0); Add 1 true Message; Handle 1 0 (Some 0); Handle 2 0 (Some 0); Handle 2 2 (Some 2); Add 2 true (Active 0); FatalError 1; Handle 1 3 (Some 3); Add 1 false (MessageOf 0)].

Example C116_ex : Forall in_place ex_ops /\ let w := run ex_kinds (fun _ => true) world0 ex_ops in
  times w 1 0 true = 1 /\ times w 0 0 false = 1 /\ times w 0 1 false = 1 /\ times w 0 2 true = 1 /\ times w 0 2 false = 0 /\
  map (fun n => (n_result n, n_failure n, n_err n)) (entries w) = [(0, true, 0); (0, false, 1); (1, true, 2); (1, false, 1); (2, true, 1); (1, false, 4)] /\
  skips w = [2] /\ interrupted w = [1] /\ has_fatal 0 w = true /\ has_fatal 2 w = true /\
  captured_from w 1 0 /\ map e_failure (errs w) = [true; true; true; false; false].
Proof. split; [repeat constructor|]. repeat (split; [reflexivity|]). split; [eexists; repeat split|reflexivity]. Qed.

Example C116_fatal_ex : let ops := [Add 0 false Message; FatalException 0; Handle 0 1 (Some 1)] in
  In (FatalException 0) ops /\ (forall o, In o ops -> ~ touches 0 o) /\ has_fatal 0 (run ex_kinds (fun _ => true) world0 ops) = false /\
  has_fatal 0 (run ex_kinds (fun _ => true) world0 (ops ++ [Handle 0 0 (Some 0); Add 0 false Message])) = true.
Proof.
  cbv zeta. split; [right; left; reflexivity|]. split; [|split; reflexivity]. intros o [<-|[<-|[<-|[]]]]; cbn; try tauto. intros [X|X]; discriminate.
Qed.

Print Assumptions C116_failures.
Print Assumptions C116_one.
Print Assumptions C116_marked.
Print Assumptions C116_times.
Print Assumptions C116_kept.
Print Assumptions C116_fatal.
Print Assumptions C116_fatal_own.
Print Assumptions C116_not_fatal.
Print Assumptions C116_once.
Print Assumptions C116_others.
Print Assumptions C116_nothing.
Print Assumptions C116_twice_refuted.
Print Assumptions C116_both_refuted.
Print Assumptions C116_late_refuted.
Print Assumptions C116_shared_refuted.
Print Assumptions C116_elsewhere_refuted.
Print Assumptions C116_slots_refuted.
