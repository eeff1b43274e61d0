(** Properties of the arguments and requirements of functions (FixtureArgs.v): C73, C74, C75. *)

From Coq Require Import List Bool Arith Ascii String Lia.
From Verif Require Import Str FixtureArgs.
Import ListNotations.
Local Open Scope list_scope.

(** * What is collected *)

(** fixtures met through use_fixtures, starting from the fixture named n *)
Inductive extra (ns : namespace) : str -> str -> Prop :=
| ex_here n f x : ns n = Some f -> In x (fn_extra (fi_func f)) -> extra ns n x
| ex_step n x y : extra ns n x -> extra ns x y -> extra ns n y.

(** a pair comes from the requested names *)
Definition origin (ns : namespace) (names : list element) (p : str * fixture) : Prop :=
  exists e, In e names /\ is_this e = false
    /\ ((fst p = el_required e /\ ns (el_real e) = Some (snd p))
        \/ (extra ns (el_real e) (fst p) /\ fst p <> lit "this" /\ ns (fst p) = Some (snd p))).

Definition ids_unique (ns : namespace) : Prop :=
  forall a b f g, ns a = Some f -> ns b = Some g -> fi_id f = fi_id g -> f = g.

(** the inner loop of fixtures_set *)
Definition set_loop (fuel : nat) (ns : namespace) : list element -> list (str * fixture) -> result (list (str * fixture)) :=
  fix loop names acc :=
    match names with
    | [] => Ok acc
    | e :: names' =>
        if is_this e then loop names' acc
        else match ns (el_real e) with
             | None => UnknownFixture (el_real e)
             | Some f =>
                 match fixtures_set fuel ns (map EName (fn_extra (fi_func f))) (add_pair (el_required e, f) acc) with
                 | Ok acc' => loop names' acc'
                 | r => r
                 end
             end
    end.

Lemma fixtures_set_S fuel ns names acc : fixtures_set (S fuel) ns names acc = set_loop fuel ns names acc.
Proof. reflexivity. Qed.

Lemma add_pair_In p q l : In p (add_pair q l) -> p = q \/ In p l.
Proof.
  unfold add_pair. destruct (existsb _ _); auto. rewrite in_app_iff. simpl. intuition.
Qed.

Lemma add_pair_incl q l : incl l (add_pair q l).
Proof. unfold add_pair. destruct (existsb _ _); [apply incl_refl|]. intros x I. apply in_or_app; auto. Qed.

Lemma add_pair_has n f l : exists g, In (n, g) (add_pair (n, f) l) /\ fi_id g = fi_id f.
Proof.
  unfold add_pair. destruct (existsb _ _) eqn:E.
  - apply existsb_exists in E as ((m, g) & I & H). simpl in H. apply andb_true_iff in H as [A B].
    apply str_eqb_eq in A. apply Nat.eqb_eq in B. subst m. eauto.
  - exists f. split; auto. apply in_or_app. simpl; auto.
Qed.

Lemma fixtures_set_spec ns fuel : forall names acc l, fixtures_set fuel ns names acc = Ok l ->
  incl acc l
  /\ (forall p, In p l -> In p acc \/ origin ns names p)
  /\ (forall e, In e names -> is_this e = false ->
        exists f g, ns (el_real e) = Some f /\ In (el_required e, g) l /\ fi_id g = fi_id f).
Proof.
  induction fuel as [|fuel IH]; intros names acc l H; [discriminate|].
  rewrite fixtures_set_S in H. revert acc H.
  induction names as [|e names IHn]; intros acc H; simpl in H.
  - inversion H; subst. split; [apply incl_refl|]. split; auto. intros e [].
  - destruct (is_this e) eqn:T.
    + destruct (IHn acc H) as (A & B & C). split; auto. split.
      * intros p I. destruct (B p I) as [J|(e' & J & K)]; auto. right. exists e'. split; [right; auto|auto].
      * intros e' [<-|I] NT; [congruence|]. auto.
    + destruct (ns (el_real e)) as [f|] eqn:F; [|discriminate].
      destruct (fixtures_set fuel ns (map EName (fn_extra (fi_func f))) (add_pair (el_required e, f) acc)) as [acc'| |] eqn:S1;
        try discriminate.
      destruct (IH _ _ _ S1) as (A1 & B1 & _). destruct (IHn acc' H) as (A & B & C).
      split.
      { intros x I. apply A, A1, add_pair_incl, I. }
      split.
      * intros p I. destruct (B p I) as [J|(e' & J & K)]; [|right; exists e'; split; [right; auto|auto]].
        destruct (B1 p J) as [K|(e' & K & L & M)].
        { apply add_pair_In in K as [->|K]; auto. right. exists e. split; [left; auto|]. split; auto. }
        { right. exists e. split; [left; auto|]. split; auto. right.
          apply in_map_iff in K as (x & <- & K). simpl in M.
          destruct M as [[M1 M2]|(M1 & M2 & M3)].
          - rewrite M1. split; [econstructor; eauto|]. split; auto.
            intros X. apply str_eqb_eq in X. unfold is_this in L. congruence.
          - split; auto. eapply ex_step; [|exact M1]. econstructor; eauto. }
      * intros e' [<-|I] NT; [|auto].
        destruct (add_pair_has (el_required e) f acc) as (g & G & E).
        exists f, g. split; auto.
Qed.

(** * The dictionary *)
Lemma s_get_set n m f d : s_get n (s_set m f d) = if str_eqb n m then Some f else s_get n d.
Proof.
  induction d as [|[k g] d IH]; simpl.
  - destruct (str_eqb n m); auto.
  - destruct (str_eqb m k) eqn:E; simpl.
    + apply str_eqb_eq in E. subst k. destruct (str_eqb n m); auto.
    + rewrite IH. destruct (str_eqb n k) eqn:E1; auto. destruct (str_eqb n m) eqn:E2; auto.
      apply str_eqb_eq in E1, E2. subst. rewrite str_eqb_refl in E. discriminate.
Qed.

Definition build (names : list element) (l : list (str * fixture)) (d : list (str * fixture)) :=
  fold_left (fun d p => if selected names (fst p) then s_set (fst p) (snd p) d else d) l d.

Lemma build_get names l : forall d n f, s_get n (build names l d) = Some f ->
  s_get n d = Some f \/ (In (n, f) l /\ selected names n = true).
Proof.
  induction l as [|[m g] l IH]; intros d n f H; simpl in H; auto.
  destruct (IH _ _ _ H) as [J|[J K]]; [|right; split; [right; auto|auto]].
  simpl in J. destruct (selected names m) eqn:S; auto.
  rewrite s_get_set in J. destruct (str_eqb n m) eqn:E; auto.
  apply str_eqb_eq in E. subst. inversion J; subst. right. split; [left; auto|auto].
Qed.

Lemma build_has names l : forall d n, selected names n = true ->
  (s_get n d <> None \/ exists f, In (n, f) l) -> s_get n (build names l d) <> None.
Proof.
  induction l as [|[m g] l IH]; intros d n S H; simpl.
  - destruct H as [H|[f []]]; auto.
  - apply IH; auto. destruct H as [H|[f [H|H]]]; eauto.
    + left. destruct (selected names m); auto. rewrite s_get_set. destruct (str_eqb n m); auto. discriminate.
    + inversion H; subst. left. simpl. rewrite S, s_get_set, str_eqb_refl. discriminate.
Qed.

(** * C73: the arguments a function is given *)

(** no fixture met through use_fixtures is confused with an argument *)
Definition no_confusion (ns : namespace) (f : func) : Prop :=
  forall a x, In a (fn_args f) -> extra ns (snd a) x ->
    In (x, x) (fn_args f)
    \/ forall b, In b (fn_args f) ->
         if str_eqb (fst b) (snd b) then ~ (exists l r, fst b = l ++ x ++ r) else x <> fst b /\ x <> snd b.

(** an argument of the function that is not the plain "this" *)
Definition asks (f : func) (n real : str) : Prop :=
  In (n, real) (fn_args f) /\ ~ (n = lit "this" /\ real = lit "this").

Lemma required_names_In f e : In e (required_names f) <->
  exists a, In a (fn_args f) /\ el_required e = fst a /\ el_real e = snd a
    /\ e = if str_eqb (fst a) (snd a) then EName (snd a) else EAlias (fst a) (snd a).
Proof.
  unfold required_names. rewrite in_map_iff. split.
  - intros (a & <- & I). exists a. split; auto. destruct (str_eqb (fst a) (snd a)) eqn:E; simpl; auto.
    apply str_eqb_eq in E. auto.
  - intros (a & I & _ & _ & ->). eauto.
Qed.

Lemma this_asks f a : In a (fn_args f) ->
  is_this (if str_eqb (fst a) (snd a) then EName (snd a) else EAlias (fst a) (snd a)) = false <-> asks f (fst a) (snd a).
Proof.
  intros I. unfold asks. destruct a as [n r]; cbn [fst snd] in *. destruct (str_eqb n r) eqn:E; cbn [is_this].
  - apply str_eqb_eq in E. subst r. destruct (str_eqb n (lit "this")) eqn:T.
    + apply str_eqb_eq in T. split; [discriminate|]. intros [_ X]. exfalso. auto.
    + split; auto. intros _. split; auto. intros [X _]. apply str_eqb_eq in X. congruence.
  - split; auto. intros _. split; auto. intros [-> ->].
    rewrite str_eqb_refl in E. discriminate.
Qed.

Lemma selected_spec f n : selected (required_names f) n = true <->
  exists b, In b (fn_args f)
    /\ if str_eqb (fst b) (snd b) then (exists l r, fst b = l ++ n ++ r) else n = fst b \/ n = snd b.
Proof.
  unfold selected. rewrite orb_true_iff, !existsb_exists. split.
  - intros [(e & I & H)|(e & I & H)]; apply required_names_In in I as (b & I & _ & _ & ->); exists b; split; auto;
      destruct (str_eqb (fst b) (snd b)) eqn:E.
    + apply str_eqb_eq in H. apply str_eqb_eq in E. subst. exists [], []. rewrite app_nil_r, E. auto.
    + discriminate.
    + apply contains_spec in H. apply str_eqb_eq in E. rewrite E. auto.
    + apply orb_true_iff in H as [H|H]; apply str_eqb_eq in H; auto.
  - intros (b & I & H). right.
    exists (if str_eqb (fst b) (snd b) then EName (snd b) else EAlias (fst b) (snd b)).
    split; [apply required_names_In; exists b; split; auto; destruct (str_eqb (fst b) (snd b)) eqn:E; simpl; auto;
            apply str_eqb_eq in E; auto|].
    destruct (str_eqb (fst b) (snd b)) eqn:E.
    + apply contains_spec. apply str_eqb_eq in E. rewrite <- E. auto.
    + apply orb_true_iff. rewrite !str_eqb_eq. auto.
Qed.

(** ** Without confusion, the function is given exactly the arguments it asks for,
    each being the fixture it names. *)
Theorem C73_exact_partial fuel ns f d :
  ids_unique ns -> NoDup (map fst (fn_args f)) -> no_confusion ns f ->
  kwargs fuel ns f = Ok d ->
  forall n g, s_get n d = Some g <-> exists real, asks f n real /\ ns real = Some g.
Proof.
  intros U ND NC H n g. unfold kwargs, fixture_dict in H.
  destruct (fixtures_set fuel ns (required_names f) []) as [l| |] eqn:F; try discriminate.
  inversion H; subst d. clear H. fold (build (required_names f) l []).
  destruct (fixtures_set_spec ns fuel _ _ _ F) as (_ & B & C).
  (* every pair with a selected name is an argument *)
  assert (K : forall m h, In (m, h) l -> selected (required_names f) m = true ->
                exists real, asks f m real /\ ns real = Some h).
  { intros m h I S1. destruct (B _ I) as [[]|(e & J & T & O)]. simpl in O.
    apply required_names_In in J as (a & J & R1 & R2 & E). rewrite E in T. apply (this_asks f a J) in T.
    destruct O as [[O1 O2]|(O1 & O2 & O3)].
    - exists (snd a). rewrite O1, R1. rewrite R2 in O2. auto.
    - rewrite R2 in O1. destruct (NC a m J O1) as [P|P].
      + exists m. split; auto. split; auto. intros [-> _]. auto.
      + exfalso. apply selected_spec in S1 as (b & IB & S1). specialize (P b IB).
        destruct (str_eqb (fst b) (snd b)); tauto. }
  assert (UA : forall r1 r2, asks f n r1 -> asks f n r2 -> r1 = r2).
  { intros r1 r2 [I1 _] [I2 _]. clear - I1 I2 ND. induction (fn_args f) as [|[m r] l IH]; simpl in *; [contradiction|].
    inversion ND; subst. destruct I1 as [I1|I1], I2 as [I2|I2]; try congruence; auto.
    - inversion I1; subst. exfalso. apply H1. apply in_map_iff. exists (n, r2). auto.
    - inversion I2; subst. exfalso. apply H1. apply in_map_iff. exists (n, r1). auto. }
  split.
  - intros G. destruct (build_get _ _ _ _ _ G) as [X|[X Y]]; [discriminate|]. apply K; auto.
  - intros (real & A & N).
    assert (SE : selected (required_names f) n = true).
    { apply selected_spec. exists (n, real). split; [apply A|]. simpl.
      destruct (str_eqb n real) eqn:E; auto. apply str_eqb_eq in E. exists [], []. rewrite app_nil_r. auto. }
    destruct A as [A1 A2].
    set (e := if str_eqb n real then EName real else EAlias n real).
    assert (IE : In e (required_names f) /\ is_this e = false /\ el_required e = n /\ el_real e = real).
    { split; [|split].
      - apply required_names_In. exists (n, real). simpl. split; auto.
        unfold e. destruct (str_eqb n real) eqn:E; simpl; auto. apply str_eqb_eq in E. auto.
      - apply (this_asks f (n, real) A1). split; auto.
      - unfold e. destruct (str_eqb n real) eqn:E; simpl; auto. apply str_eqb_eq in E. auto. }
    destruct IE as (IE & TE & RE & LE).
    destruct (C e IE TE) as (h & h' & H1 & H2 & _). rewrite RE in H2.
    destruct (s_get n (build (required_names f) l [])) as [g'|] eqn:G.
    + destruct (build_get _ _ _ _ _ G) as [X|[X Y]]; [discriminate|].
      destruct (K n g' X Y) as (r2 & A' & N').
      rewrite (UA r2 real A' (conj A1 A2)) in N'. congruence.
    + exfalso. revert G. apply build_has; eauto.
Qed.

(** an environment given by a list *)
Definition env (l : list (string * fixture)) : namespace := fun n =>
  match find (fun p => str_eqb n (lit (fst p))) l with Some p => Some (snd p) | None => None end.

Definition fx (id : nat) (args : list (string * string)) (extra : list string) (reqs : list nat) : fixture :=
  mkFixture id (mkFunc (map (fun a => (lit (fst a), lit (snd a))) args) (map lit extra) reqs) false.
Definition test_of (args : list (string * string)) (extra : list string) : func :=
  mkFunc (map (fun a => (lit (fst a), lit (snd a))) args) (map lit extra) [].

Lemma env_ids l : NoDup (map (fun p => fi_id (snd p)) l) -> ids_unique (env l).
Proof.
  intros ND a b f g A B E. unfold env in *.
  destruct (find (fun p => str_eqb a (lit (fst p))) l) as [p|] eqn:F; [|discriminate].
  destruct (find (fun p => str_eqb b (lit (fst p))) l) as [q|] eqn:G; [|discriminate].
  apply find_some in F as [F _]. apply find_some in G as [G _]. inversion A; inversion B; subst. clear A B.
  induction l as [|x l IH]; simpl in *; [contradiction|]. inversion ND; subst.
  destruct F as [->|F], G as [->|G]; auto.
  - exfalso. apply H1. rewrite E. apply in_map with (f := fun p => fi_id (snd p)). auto.
  - exfalso. apply H1. rewrite <- E. apply in_map with (f := fun p => fi_id (snd p)). auto.
Qed.

(** test(bar), where bar uses the fixture a: the test is also given a, which it does
    not accept (TypeError) *)
Open Scope string_scope.
Definition ex_sub : namespace := env [("bar", fx 1 [] ["a"] []); ("a", fx 2 [] [] [])].

Theorem C73_unexpected_refuted :
  exists fuel ns f d n,
    ids_unique ns /\ NoDup (map fst (fn_args f)) /\ kwargs fuel ns f = Ok d
    /\ s_get n d <> None /\ ~ In n (map fst (fn_args f)).
Proof.
  exists 5, ex_sub, (test_of [("bar", "bar")] []), [(lit "bar", fx 1 [] ["a"] []); (lit "a", fx 2 [] [] [])], (lit "a").
  split; [apply env_ids; simpl; repeat constructor; simpl; intuition discriminate|].
  split; [repeat constructor; simpl; tauto|].
  split; [reflexivity|]. split; [discriminate|]. simpl. intuition discriminate.
Qed.

(** test(a: slash.use('real')), where the fixture real uses the fixture a: the test is
    given a instead of real *)
Definition ex_alias : namespace := env [("real", fx 1 [] ["a"] []); ("a", fx 2 [] [] [])].

Theorem C73_value_refuted :
  exists fuel ns f d n real g g',
    ids_unique ns /\ NoDup (map fst (fn_args f)) /\ kwargs fuel ns f = Ok d
    /\ asks f n real /\ ns real = Some g /\ s_get n d = Some g' /\ g' <> g.
Proof.
  exists 5, ex_alias, (test_of [("a", "real")] []), [(lit "a", fx 2 [] [] [])], (lit "a"), (lit "real"),
    (fx 1 [] ["a"] []), (fx 2 [] [] []).
  split; [apply env_ids; simpl; repeat constructor; simpl; intuition discriminate|].
  split; [repeat constructor; simpl; tauto|].
  split; [reflexivity|]. split; [split; [simpl; auto|intros [X _]; discriminate]|].
  split; [reflexivity|]. split; [reflexivity|]. discriminate.
Qed.

(** a function with an alias, whose fixtures use others without confusion *)
Definition ex_ok : namespace :=
  env [("net", fx 1 [] ["power"] []); ("disk", fx 2 [("n", "net")] [] []); ("power", fx 3 [] [] [])].

Example C73_ex :
  let f := test_of [("this", "this"); ("n", "net"); ("disk", "disk")] [] in
  ids_unique ex_ok /\ NoDup (map fst (fn_args f)) /\ no_confusion ex_ok f
  /\ kwargs 5 ex_ok f = Ok [(lit "n", fx 1 [] ["power"] []); (lit "disk", fx 2 [("n", "net")] [] [])].
Proof.
  cbv zeta. split; [apply env_ids; simpl; repeat constructor; simpl; intuition discriminate|].
  split; [simpl; repeat constructor; simpl; intuition discriminate|].
  split; [|reflexivity].
  assert (X : forall n x, extra ex_ok n x -> x = lit "power").
  { induction 1 as [n f x F I|]; auto.
    unfold ex_ok, env in F. simpl in F.
    destruct (str_eqb n _); [inversion F; subst; simpl in I; intuition|].
    destruct (str_eqb n _); [inversion F; subst; destruct I|].
    destruct (str_eqb n _); [inversion F; subst; destruct I|discriminate]. }
  intros a x _ H. apply X in H. subst x. right. intros b I.
  change (if str_eqb (fst b) (snd b) then ~ (exists l r, fst b = l ++ lit "power" ++ r) else lit "power" <> fst b /\ lit "power" <> snd b)%list.
  destruct I as [<-|[<-|[<-|[]]]]; cbn [fst snd].
  - replace (str_eqb (lit "this") (lit "this")) with true by reflexivity.
    intros Z. apply contains_spec in Z. discriminate Z.
  - replace (str_eqb (lit "n") (lit "net")) with false by reflexivity. split; discriminate.
  - replace (str_eqb (lit "disk") (lit "disk")) with true by reflexivity.
    intros Z. apply contains_spec in Z. discriminate Z.
Qed.
Close Scope string_scope.

(** * C74: the requirements of the fixtures of a test *)
Section Reqs.
Variable fns : nat -> namespace.
Variable limit : nat.

(** the fixtures a test depends on: through its arguments, autouse, and the arguments of
    such fixtures (fixture_store.py:368-379 computes these for a computed fixture) *)
Inductive needs (ns : namespace) (autouse : list fixture) (f : func) : fixture -> Prop :=
| nd_arg n real g : asks f n real -> ns real = Some g -> needs ns autouse f g
| nd_auto g : In g autouse -> needs ns autouse f g
| nd_trans g n real h : needs ns autouse f g -> asks (fi_func g) n real -> fns (fi_id g) real = Some h ->
    needs ns autouse f h.

(** no fixture uses use_fixtures, and Python's rules for arguments hold *)
Definition plain_ns (ns : namespace) : Prop :=
  ids_unique ns /\ forall n g, ns n = Some g -> fn_extra (fi_func g) = [].
Definition plain_fixture (g : fixture) : Prop := NoDup (map fst (fn_args (fi_func g))).

Lemma plain_no_extra ns : plain_ns ns -> forall n x, ~ extra ns n x.
Proof.
  intros [_ P] n x E. induction E as [n f x F I|]; auto. rewrite (P _ _ F) in I. destruct I.
Qed.

Lemma plain_objects ns f l : plain_ns ns -> NoDup (map fst (fn_args f)) ->
  required_objects limit ns f = Ok l -> forall n real g, asks f n real -> ns real = Some g -> In g l.
Proof.
  intros P ND H n real g A N. unfold required_objects in H.
  destruct (kwargs limit ns f) as [d| |] eqn:K; try discriminate. inversion H; subst l.
  assert (X : s_get n d = Some g).
  { eapply C73_exact_partial; eauto; [apply P|].
    intros a x _ E. exfalso. exact (plain_no_extra ns P _ _ E). }
  clear - X. induction d as [|[m h] d IH]; simpl in *; [discriminate|].
  destruct (str_eqb n m); [inversion X; auto|auto].
Qed.

Lemma collect_In {A B} (g : A -> result (list B)) l r : collect g l = Ok r ->
  forall a, In a l -> exists x, g a = Ok x /\ incl x r.
Proof.
  revert r. induction l as [|b l IH]; intros r H a I; [destruct I|]. simpl in H.
  destruct (g b) as [x| |] eqn:G; try discriminate.
  destruct (collect g l) as [y| |] eqn:C; try discriminate. inversion H; subst.
  destruct I as [->|I].
  - exists x. split; auto. intros z Z. apply in_or_app; auto.
  - destruct (IH y eq_refl a I) as (x' & X & Y). exists x'. split; auto. intros z Z. apply in_or_app; auto.
Qed.

(** the requirements of a fixture include those of the fixtures it asks for *)
Lemma requirements_step fuel g rs : fixture_requirements fns limit fuel g = Ok rs ->
  plain_ns (fns (fi_id g)) -> plain_fixture g ->
  incl (fn_reqs (fi_func g)) rs
  /\ forall n real h, asks (fi_func g) n real -> fns (fi_id g) real = Some h ->
       exists fuel' rs', fixture_requirements fns limit fuel' h = Ok rs' /\ incl rs' rs.
Proof.
  intros H P PF. destruct fuel as [|fuel]; [discriminate|]. simpl in H.
  destruct (required_objects limit (fns (fi_id g)) (fi_func g)) as [l| |] eqn:R; try discriminate.
  destruct (collect (fixture_requirements fns limit fuel) l) as [y| |] eqn:C; try discriminate.
  inversion H; subst. split; [intros z Z; apply in_or_app; auto|].
  intros n real h A N. assert (I := plain_objects _ _ _ P PF R _ _ _ A N).
  destruct (collect_In _ _ _ C h I) as (x & X & Y). exists fuel, x. split; auto.
  intros z Z. apply in_or_app; auto.
Qed.

(** ** If no fixture uses use_fixtures, a test that is run (or not) according to its
    requirements has all requirements of all fixtures it depends on among them. *)
Theorem C74_considered_partial fuel ns autouse own f rs :
  plain_ns ns -> (forall i, plain_ns (fns i)) -> NoDup (map fst (fn_args f)) ->
  (forall g, needs ns autouse f g -> plain_fixture g) ->
  test_requirements fns limit fuel ns autouse own f = Ok rs ->
  incl own rs /\ forall g, needs ns autouse f g -> incl (fn_reqs (fi_func g)) rs.
Proof.
  intros P PF ND PL H. unfold test_requirements in H.
  destruct (required_objects limit ns f) as [l| |] eqn:R; try discriminate.
  destruct (collect (fixture_requirements fns limit fuel) (l ++ autouse)) as [y| |] eqn:C; try discriminate.
  inversion H; subst. split; [intros z Z; apply in_or_app; auto|].
  assert (K : forall g, needs ns autouse f g ->
            exists fuel' rs', fixture_requirements fns limit fuel' g = Ok rs' /\ incl rs' y).
  { intros g N. induction N as [n real g A N|g I|g n real h N IH A L].
    - destruct (collect_In _ _ _ C g) as (x & X & Y); [|eauto].
      apply in_or_app. left. eapply plain_objects; eauto.
    - destruct (collect_In _ _ _ C g) as (x & X & Y); [|eauto]. apply in_or_app; auto.
    - destruct IH as (fu & r & E & I).
      destruct (requirements_step fu g r E (PF _) (PL g N)) as [_ Z].
      destruct (Z n real h A L) as (fu' & r' & E' & I'). exists fu', r'. split; auto.
      eapply incl_tran; eauto. }
  intros g N. destruct (K g N) as (fu & r & E & I).
  destruct (requirements_step fu g r E (PF _) (PL g N)) as [Z _].
  intros z ZZ. apply in_or_app. right. auto.
Qed.

(** ** The computation ends, if the fixtures do not depend on each other in a cycle and
    all of them are known *)
Lemma plain_set_ok ns names acc fuel : plain_ns ns ->
  (forall e, In e names -> is_this e = false -> ns (el_real e) <> None) ->
  exists l, fixtures_set (S (S fuel)) ns names acc = Ok l.
Proof.
  intros P. rewrite fixtures_set_S. revert acc. induction names as [|e names IH]; intros acc K; [simpl; eauto|].
  assert (K' : forall e', In e' names -> is_this e' = false -> ns (el_real e') <> None) by (intros; apply K; [right|]; auto).
  cbn [set_loop]. destruct (is_this e) eqn:T; [apply (IH acc K')|].
  destruct (ns (el_real e)) as [g|] eqn:N; [|exfalso; apply (K e); [left|..]; auto].
  rewrite (proj2 P _ _ N). rewrite fixtures_set_S. simpl. apply IH; auto.
Qed.

Lemma plain_objects_ok ns f : plain_ns ns -> 2 <= limit ->
  (forall n real, asks f n real -> ns real <> None) -> exists l, required_objects limit ns f = Ok l.
Proof.
  intros P L K. unfold required_objects, kwargs, fixture_dict.
  destruct limit as [|[|m]]; try lia.
  destruct (plain_set_ok ns (required_names f) [] m P) as [l E].
  - intros e I T. apply required_names_In in I as (a & J & R1 & R2 & X). rewrite X in T.
    apply (this_asks f a J) in T. rewrite R2. eapply K; eauto.
  - rewrite E. eauto.
Qed.

Lemma plain_objects_origin ns f l : plain_ns ns -> NoDup (map fst (fn_args f)) ->
  required_objects limit ns f = Ok l -> forall g, In g l -> exists n real, asks f n real /\ ns real = Some g.
Proof.
  intros P ND H g I. unfold required_objects in H.
  destruct (kwargs limit ns f) as [d| |] eqn:K; try discriminate. inversion H; subst l.
  assert (X : forall n h, s_get n d = Some h -> exists real, asks f n real /\ ns real = Some h).
  { intros n h G. eapply C73_exact_partial; eauto; [apply P|].
    intros a x _ E. exfalso. exact (plain_no_extra ns P _ _ E). }
  apply in_map_iff in I as ((n, h) & E & I). simpl in E. subst h.
  assert (NDK : NoDup (map fst d)).
  { unfold kwargs, fixture_dict in K. destruct (fixtures_set _ _ _ _) as [l| |]; try discriminate.
    inversion K. clear. assert (Z : NoDup (map fst (@nil (str * fixture)))) by constructor.
    revert Z. generalize (@nil (str * fixture)). induction l as [|[m h] l IH]; intros d Z; simpl; auto.
    apply IH. destruct (selected _ _); auto. clear IH.
    assert (Q : forall k, In k (map fst (s_set m h d)) -> k = m \/ In k (map fst d)).
    { clear. induction d as [|[k' h'] d IH]; simpl; intros k; [intuition|].
      destruct (str_eqb m k') eqn:E; simpl; intuition. destruct (IH k); auto. }
    induction d as [|[k h'] d IH]; simpl in *; [repeat constructor; simpl; tauto|].
    inversion Z; subst. destruct (str_eqb m k) eqn:E; simpl; [constructor; auto|].
    constructor.
    - intros J. assert (J' : k = m \/ In k (map fst d)).
      { clear - J. induction d as [|[k' h''] d IH]; simpl in *; [intuition|].
        destruct (str_eqb m k') eqn:E; simpl in *; intuition. }
      destruct J' as [->|J']; auto. rewrite str_eqb_refl in E. discriminate.
    - apply IH; auto. clear. induction d as [|[k' h''] d IH]; simpl; intros k; [intuition|].
      destruct (str_eqb m k') eqn:E; simpl; intuition. destruct (IH k); auto. }
  exists n. apply X. clear - NDK I. induction d as [|[m h] d IH]; simpl in *; [contradiction|].
  inversion NDK; subst. destruct I as [I|I].
  - inversion I; subst. rewrite str_eqb_refl. auto.
  - destruct (str_eqb n m) eqn:E; auto. apply str_eqb_eq in E. subst m. exfalso. apply H1.
    apply in_map_iff. exists (n, g). auto.
Qed.

Lemma collect_ok {A B} (g : A -> result (list B)) l : (forall a, In a l -> exists x, g a = Ok x) -> exists y, collect g l = Ok y.
Proof.
  induction l as [|a l IH]; intros H; simpl; eauto.
  destruct (H a (or_introl eq_refl)) as [x ->]. destruct IH as [y ->]; eauto. intros b I. apply H. right; auto.
Qed.

Theorem C74_terminates (rank : fixture -> nat) fuel ns autouse own f :
  plain_ns ns -> (forall i, plain_ns (fns i)) -> NoDup (map fst (fn_args f)) -> 2 <= limit ->
  (forall g, needs ns autouse f g -> plain_fixture g) ->
  (forall n real, asks f n real -> ns real <> None) ->
  (forall g n real, needs ns autouse f g -> asks (fi_func g) n real ->
     exists h, fns (fi_id g) real = Some h /\ rank h < rank g) ->
  (forall g, needs ns autouse f g -> rank g < fuel) ->
  exists rs, test_requirements fns limit fuel ns autouse own f = Ok rs.
Proof.
  intros P PF ND L PL K A RK. unfold test_requirements.
  destruct (plain_objects_ok ns f P L K) as [l R]. rewrite R.
  assert (T : forall m g, needs ns autouse f g -> rank g < m ->
            exists rs, fixture_requirements fns limit m g = Ok rs).
  { induction m as [|m IH]; intros g N M; [lia|]. simpl.
    destruct (plain_objects_ok (fns (fi_id g)) (fi_func g) (PF _) L) as [lg RG].
    { intros n real Q. destruct (A g n real N Q) as (h & -> & _). discriminate. }
    rewrite RG. destruct (collect_ok (fixture_requirements fns limit m) lg) as [y ->]; eauto.
    intros h I. destruct (plain_objects_origin _ _ _ (PF _) (PL g N) RG h I) as (n & real & Q & E).
    destruct (A g n real N Q) as (h' & E' & LT). rewrite E in E'. inversion E'; subst h'.
    apply IH; [|lia]. econstructor 3; eauto. }
  destruct (collect_ok (fixture_requirements fns limit fuel) (l ++ autouse)) as [y ->]; eauto.
  intros g I. apply in_app_or in I as [I|I].
  - destruct (plain_objects_origin _ _ _ P ND R g I) as (n & real & Q & E).
    assert (NG : needs ns autouse f g) by (econstructor 1; eauto). auto.
  - assert (NG : needs ns autouse f g) by (constructor 2; auto). auto.
Qed.

Lemma collect_origin {A B} (g : A -> result (list B)) l r : collect g l = Ok r ->
  forall z, In z r -> exists a x, In a l /\ g a = Ok x /\ In z x.
Proof.
  revert r. induction l as [|b l IH]; intros r H z I; simpl in H; [inversion H; subst; destruct I|].
  destruct (g b) as [x| |] eqn:G; try discriminate.
  destruct (collect g l) as [y| |] eqn:C; try discriminate. inversion H; subst.
  apply in_app_or in I as [I|I]; [exists b, x; simpl; auto|].
  destruct (IH y eq_refl z I) as (a & x' & K1 & K2 & K3). exists a, x'. simpl. auto.
Qed.

(** ** And it has no others: each requirement is one of its own or one of a fixture the
    test depends on. *)
Theorem C74_only fuel ns autouse own f rs :
  plain_ns ns -> (forall i, plain_ns (fns i)) -> NoDup (map fst (fn_args f)) ->
  (forall g, needs ns autouse f g -> plain_fixture g) ->
  test_requirements fns limit fuel ns autouse own f = Ok rs ->
  forall r, In r rs -> In r own \/ exists g, needs ns autouse f g /\ In r (fn_reqs (fi_func g)).
Proof.
  intros P PF ND PL H r I. unfold test_requirements in H.
  destruct (required_objects limit ns f) as [l| |] eqn:R; try discriminate.
  destruct (collect (fixture_requirements fns limit fuel) (l ++ autouse)) as [y| |] eqn:C; try discriminate.
  inversion H; subst. apply in_app_or in I as [I|I]; auto. right.
  assert (K : forall m g x, needs ns autouse f g -> fixture_requirements fns limit m g = Ok x -> In r x ->
            exists h, needs ns autouse f h /\ In r (fn_reqs (fi_func h))).
  { induction m as [|m IH]; intros g x N E J; [discriminate|]. simpl in E.
    destruct (required_objects limit (fns (fi_id g)) (fi_func g)) as [lg| |] eqn:RG; try discriminate.
    destruct (collect (fixture_requirements fns limit m) lg) as [z| |] eqn:CG; try discriminate.
    inversion E; subst. apply in_app_or in J as [J|J]; [eauto|].
    destruct (collect_origin _ _ _ CG r J) as (h & x & K1 & K2 & K3).
    destruct (plain_objects_origin _ _ _ (PF _) (PL g N) RG h K1) as (n & real & Q & F).
    apply (IH h x); auto. econstructor 3; eauto. }
  destruct (collect_origin _ _ _ C r I) as (g & x & K1 & K2 & K3). apply (K fuel g x); auto.
  apply in_app_or in K1 as [K1|K1]; [|constructor 2; auto].
  destruct (plain_objects_origin _ _ _ P ND R g K1) as (n & real & Q & F). econstructor 1; eauto.
Qed.
End Reqs.

(** The requirements of a fixture used with use_fixtures are not considered, though it
    is computed for the test. *)
Open Scope string_scope.
Definition ex_used : namespace := env [("lab", fx 1 [] [] [7])].

Theorem C74_considered_refuted :
  exists fns limit fuel ns f rs l g,
    test_requirements fns limit fuel ns [] (fn_reqs f) f = Ok rs
    /\ computed_directly limit ns f = Ok l /\ In g l /\ ~ incl (fn_reqs (fi_func g)) rs.
Proof.
  exists (fun _ => ex_used), 5, 5, ex_used, (test_of [] ["lab"]), [], [fx 1 [] [] [7]], (fx 1 [] [] [7]).
  split; [reflexivity|]. split; [reflexivity|]. split; [left; reflexivity|].
  intros I. destruct (I 7). left; reflexivity.
Qed.

(** and not those of a fixture used by an argument fixture *)
Theorem C74_indirect_refuted :
  exists fns limit fuel ns f rs l g,
    fn_extra f = []
    /\ test_requirements fns limit fuel ns [] (fn_reqs f) f = Ok rs
    /\ computed_directly limit ns f = Ok l /\ In g l /\ ~ incl (fn_reqs (fi_func g)) rs.
Proof.
  exists (fun _ => env [("bar", fx 1 [] ["lab"] []); ("lab", fx 2 [] [] [7])]), 5, 5,
    (env [("bar", fx 1 [] ["lab"] []); ("lab", fx 2 [] [] [7])]), (test_of [("bar", "bar")] []), [],
    [fx 1 [] ["lab"] []; fx 2 [] [] [7]], (fx 2 [] [] [7]).
  split; [reflexivity|]. split; [reflexivity|]. split; [reflexivity|]. split; [right; left; reflexivity|].
  intros I. destruct (I 7). left; reflexivity.
Qed.

(** fixtures depending on each other in a cycle (which loading rejects, C28) would not end *)
Example C74_cycle :
  fixture_requirements (fun _ => env [("a", fx 1 [("b", "b")] [] []); ("b", fx 2 [("a", "a")] [] [])]) 9 50
    (fx 1 [("b", "b")] [] []) = RecursionError.
Proof. reflexivity. Qed.

(** a test with a requirement two fixtures away, and an autouse fixture *)
Definition ex_deep : namespace := env [("disk", fx 1 [("n", "net"); ("this", "this")] [] [1]); ("net", fx 2 [] [] [2])].

Example C74_ex :
  let f := test_of [("d", "disk")] [] in
  plain_ns ex_deep /\ NoDup (map fst (fn_args f))
  /\ (forall g, needs (fun _ => ex_deep) ex_deep [fx 3 [] [] [3]] f g -> plain_fixture g)
  /\ (forall n real, asks f n real -> ex_deep real <> None)
  /\ needs (fun _ => ex_deep) ex_deep [fx 3 [] [] [3]] f (fx 2 [] [] [2])
  /\ test_requirements (fun _ => ex_deep) 5 5 ex_deep [fx 3 [] [] [3]] [0] f = Ok [0; 1; 2; 3].
Proof.
  cbv zeta.
  assert (P : plain_ns ex_deep).
  { split; [apply env_ids; simpl; repeat constructor; simpl; intuition discriminate|].
    intros n g E. unfold ex_deep, env in E. simpl in E.
    destruct (str_eqb n _); [inversion E; auto|]. destruct (str_eqb n _); inversion E; auto. }
  split; auto. split; [repeat constructor; simpl; tauto|].
  split; [|split; [|split]].
  - assert (Q : forall n g, ex_deep n = Some g -> plain_fixture g).
    { intros n g E. unfold ex_deep, env in E. simpl in E. unfold plain_fixture.
      destruct (str_eqb n _); [inversion E; subst; simpl; repeat constructor; simpl; intuition discriminate|].
      destruct (str_eqb n _); inversion E; subst; simpl; constructor. }
    intros g N. induction N as [n real g A N|g I|g n real h N IH A L]; eauto.
    destruct I as [<-|[]]. constructor.
  - intros n real [[I|[]] _]. inversion I; subst. discriminate.
  - eapply nd_trans with (g := fx 1 [("n", "net"); ("this", "this")] [] [1]) (n := lit "n") (real := lit "net").
    + eapply nd_arg with (n := lit "d") (real := lit "disk"); [|reflexivity].
      split; [left; reflexivity|]. intros [X _]. discriminate.
    + split; [left; reflexivity|]. intros [X _]. discriminate.
    + reflexivity.
  - reflexivity.
Qed.
Close Scope string_scope.

(** * C75: use_fixtures *)

(** the decorated function uses the given fixtures in addition *)
Theorem C75_added f r w :
  used f (use_fixtures f r w) = used f w ++ u_list w r.
Proof.
  unfold used, use_fixtures. destruct (u_get f (u_attr w)) as [r0|] eqn:E; simpl.
  - rewrite E, Nat.eqb_refl. auto.
  - rewrite Nat.eqb_refl. auto.
Qed.

(** another function is not affected, unless both were first given the same list object *)
Theorem C75_others_partial f g r w :
  g <> f -> (u_get f (u_attr w) = None \/ u_get g (u_attr w) <> u_get f (u_attr w)) ->
  used g (use_fixtures f r w) = used g w.
Proof.
  intros N H. unfold used, use_fixtures.
  destruct (u_get f (u_attr w)) as [r0|] eqn:E; simpl.
  - destruct (u_get g (u_attr w)) as [r1|]; auto. destruct (Nat.eqb_spec r1 r0) as [->|]; auto.
    destruct H; congruence.
  - destruct (Nat.eqb_spec g f); [congruence|]. auto.
Qed.

(** a list shared by two functions: decorating one of them again changes both *)
Theorem C75_others_refuted :
  exists f g r w, g <> f /\ used g (use_fixtures f r w) <> used g w
    /\ w = use_fixtures g 0 (use_fixtures f 0 (mkU [] (fun i => if Nat.eqb i 0 then [lit "a"%string] else [lit "b"%string]))).
Proof.
  exists 1, 2, 1, (use_fixtures 2 0 (use_fixtures 1 0 (mkU [] (fun i => if Nat.eqb i 0 then [lit "a"%string] else [lit "b"%string])))).
  split; [discriminate|]. split; [|reflexivity]. vm_compute. discriminate.
Qed.

Example C75_ex :
  let w := use_fixtures 2 1 (use_fixtures 1 0 (mkU [] (fun i => if Nat.eqb i 0 then [lit "a"%string] else [lit "b"%string]))) in
  u_get 1 (u_attr w) <> u_get 2 (u_attr w) /\ used 1 (use_fixtures 2 0 w) = [lit "a"%string]
  /\ used 2 (use_fixtures 2 0 w) = [lit "b"%string; lit "a"%string].
Proof. vm_compute. split; [discriminate|]. split; reflexivity. Qed.

Print Assumptions C73_exact_partial.
Print Assumptions C73_unexpected_refuted.
Print Assumptions C73_value_refuted.
Print Assumptions C74_considered_partial.
Print Assumptions C74_only.
Print Assumptions C74_terminates.
Print Assumptions C74_considered_refuted.
Print Assumptions C74_indirect_refuted.
Print Assumptions C75_added.
Print Assumptions C75_others_partial.
Print Assumptions C75_others_refuted.
