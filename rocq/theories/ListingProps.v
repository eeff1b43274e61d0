(** What `slash list` shows and how it ends. *)

From Coq Require Import List Bool Arith ZArith Ascii String Lia.
From Verif Require Import Str Dict Naming FixtureArgs Listing.
Import ListNotations.

Section P.
Variable isabs : str -> bool.
Variable relpath : str -> str.
Notation shown := (shown isabs relpath).
Notation report_loop := (report_loop isabs relpath).
Notation slash_list := (slash_list isabs relpath).

Definition addresses (l : list line) : list str := flat_map (fun x => match x with LTest a _ => [a] | _ => [] end) l.

Lemma seen_In a v : seen a v = true <-> In a v.
Proof.
  unfold seen. rewrite existsb_exists. split.
  - intros (b & I & E). apply str_eqb_eq in E. subst. auto.
  - intros I. exists a. split; auto. apply str_eqb_refl.
Qed.

Lemma loop_app o ts2 : forall ts1 v, snd (report_loop o v ts1) = false -> exists v',
  report_loop o v (ts1 ++ ts2) = (fst (report_loop o v ts1) ++ fst (report_loop o v' ts2), snd (report_loop o v' ts2)).
Proof.
  induction ts1 as [|t ts1 IH]; intros v E; cbn [app Listing.report_loop fst snd] in *.
  - exists v. destruct (report_loop o v ts2); auto.
  - destruct (shown o t) as [a|]; [|discriminate]. destruct (seen a v && negb (o_dups o)); auto.
    destruct (report_loop o (a :: v) ts1) as [l e] eqn:R. simpl in E. subst e.
    destruct (IH (a :: v)) as [v' Q]; [rewrite R; auto|]. exists v'. rewrite Q, R. auto.
Qed.

Lemma loop_spec o : o_dups o = false -> forall ts v, (forall t, In t ts -> shown o t <> None) ->
  snd (report_loop o v ts) = false /\ NoDup (addresses (fst (report_loop o v ts))) /\
  forall a, In a (addresses (fst (report_loop o v ts))) <-> ~ In a v /\ exists t, In t ts /\ shown o t = Some a.
Proof.
  intros D. induction ts as [|t ts IH]; intros v K; cbn [Listing.report_loop fst snd addresses flat_map].
  - split; auto. split; [constructor|]. intros a. split; [intros []|]. intros (_ & t & [] & _).
  - destruct (shown o t) as [a|] eqn:E; [|destruct (K t); simpl; auto]. rewrite D, andb_true_r.
    destruct (seen a v) eqn:Sv.
    + apply seen_In in Sv. destruct (IH v) as (A & B & C); [intros; apply K; right; auto|]. split; auto. split; auto. intros b. rewrite C. split.
      * intros (N & t' & I & Q). split; auto. exists t'. split; auto. right. auto.
      * intros (N & t' & [<-|I] & Q); [congruence|]. eauto.
    + assert (N : ~ In a v) by (rewrite <- seen_In; congruence).
      destruct (IH (a :: v)) as (A & B & C); [intros; apply K; right; auto|]. destruct (report_loop o (a :: v) ts) as [l e].
      cbn [fst snd addresses flat_map app] in *. fold (addresses l) in *. split; auto. split.
      * constructor; auto. rewrite C. simpl. tauto.
      * intros b. simpl. rewrite C. simpl. split.
        -- intros [<-|(N' & t' & I & Q)]; [split; auto; exists t; auto|]. split; [tauto|]. exists t'. auto.
        -- intros (N' & t' & [<-|I] & Q); [left; congruence|]. destruct (str_dec a b) as [->|Ne]; auto. right. split; [intros [|]; auto|]. eauto.
Qed.

(** Every address is shown, once, and addresses are shown in the order of the first tests
    that have them: what is shown for the first tests of a list does not depend on the
    others, and is shown first. *)
Theorem C91_listed : forall o ts fs w, o_given o = true -> o_output o = true -> o_dups o = false -> o_only o <> OFixtures ->
  (forall t, In t ts -> shown o t <> None) ->
  let out := addresses (fst (slash_list o (Some (ts, fs, w)))) in
  NoDup out /\ (forall a, In a out <-> exists t, In t ts /\ shown o t = Some a) /\
  forall ts1 ts2 fs' w', ts = ts1 ++ ts2 -> exists more, out = addresses (fst (slash_list o (Some (ts1, fs', w')))) ++ more.
Proof.
  intros o ts fs w G O D NF K.
  assert (F : forall ts' fs' w', addresses (fst (slash_list o (Some (ts', fs', w')))) = addresses (fst (report_loop o [] ts'))).
  { intros ts' fs' w'. unfold Listing.slash_list, report_tests. rewrite G, O. simpl negb. cbv iota.
    assert (Z : forall used, addresses (report_fixtures o fs' used) = []).
    { intros used. unfold report_fixtures, addresses. rewrite flat_map_app. replace (flat_map _ (map _ _)) with (@nil str); [destruct (o_only o); auto|].
      induction fs' as [|f fs' IHf]; simpl; auto. }
    destruct (report_loop o [] ts') as [l e]. unfold addresses in *. destruct (o_only o); simpl fst; [|congruence|]; rewrite ?flat_map_app, ?Z; auto. }
  destruct (loop_spec o D ts [] K) as (A & B & C). rewrite F. split; auto. split.
  - intros a. rewrite C. simpl. tauto.
  - intros ts1 ts2 fs' w' ->. rewrite F. destruct (loop_app o ts2 ts1 []) as [v' Q].
    + apply loop_spec; auto. intros t I. apply K. apply in_or_app. auto.
    + rewrite Q. simpl fst. exists (addresses (fst (report_loop o v' ts2))). unfold addresses. apply flat_map_app.
Qed.

(** With --show-duplicates there is a line for every test. *)
Theorem C91_duplicates : forall o ts fs w, o_given o = true -> o_output o = true -> o_dups o = true -> o_only o = OTests ->
  (forall t, In t ts -> shown o t <> None) ->
  Forall2 (fun t l => exists a, shown o t = Some a /\ l = LTest a (if o_tags o then t_tags t else [])) ts (fst (slash_list o (Some (ts, fs, w)))).
Proof.
  intros o ts fs w G O D NF K. unfold Listing.slash_list, report_tests. rewrite G, O, NF. simpl negb. cbv iota.
  assert (H : forall v, Forall2 (fun t l => exists a, shown o t = Some a /\ l = LTest a (if o_tags o then t_tags t else [])) ts (fst (report_loop o v ts))).
  { clear G O NF. induction ts as [|t ts IH]; intros v; simpl; [constructor|]. destruct (shown o t) as [a|] eqn:E; [|destruct (K t); simpl; auto].
    rewrite D, andb_false_r. specialize (IH (fun t I => K t (or_intror I)) (a :: v)). destruct (report_loop o (a :: v) ts). simpl in *. constructor; eauto. }
  specialize (H []). destruct (report_loop o [] ts). auto.
Qed.

(** The exit code: 0 exactly if tests were loaded or --allow-empty was given, without
    warnings turned into errors. *)
Theorem C91_exit : forall o loaded, (forall ts fs w, loaded = Some (ts, fs, w) -> forall t, In t ts -> shown o t <> None) ->
  let e := snd (slash_list o loaded) in
  (e = SystemExit <-> o_given o = false) /\
  (e = Code 0 <-> o_given o = true /\ exists ts fs w, loaded = Some (ts, fs, w) /\ (ts <> [] \/ o_empty o = true) /\ ~ (w = true /\ o_werror o = true)) /\
  (e = Code (-1) <-> o_given o = true /\ (loaded = None \/ exists ts fs, loaded = Some (ts, fs, true) /\ o_werror o = true)) /\
  e <> ValueError.
Proof.
  intros o loaded K. cbv zeta.
  assert (Q : forall ts fs w, loaded = Some (ts, fs, w) -> snd (report_tests isabs relpath o ts) = false).
  { intros ts fs w E. unfold report_tests. assert (H : forall v, snd (report_loop o v ts) = false).
    { specialize (K ts fs w E). clear E. induction ts as [|t ts IH]; intros v; simpl; auto. destruct (shown o t) as [a|] eqn:E; [|destruct (K t); simpl; auto].
      specialize (IH (fun t I => K t (or_intror I))). destruct (seen a v && negb (o_dups o)); auto. specialize (IH (a :: v)). destruct (report_loop o (a :: v) ts). auto. }
    specialize (H []). destruct (report_loop o [] ts). auto. }
  unfold Listing.slash_list. destruct (o_given o); simpl negb; cbv iota.
  - destruct loaded as [[[ts fs] w]|].
    + specialize (Q _ _ _ eq_refl). destruct (report_tests isabs relpath o ts) as [l e]. simpl in Q. subst e.
      destruct w, (o_werror o), ts as [|t ts], (o_empty o), (o_only o); simpl; (repeat split; intros); try discriminate; eauto;
        try (exists (@nil test), fs; eauto; fail);
        repeat match goal with
               | H : _ /\ _ |- _ => destruct H
               | H : exists _, _ |- _ => destruct H
               | H : _ \/ _ |- _ => destruct H
               | H : Some _ = Some _ |- _ => injection H as <- <- <-
               | H : Some _ = Some _ |- _ => injection H as ? ? ?
               end; subst; try congruence; try tauto;
        try (do 3 eexists; split; [reflexivity|]; split; [auto; left; discriminate|intros [? ?]; discriminate]);
        try (right; do 2 eexists; eauto).
    + simpl. repeat split; intros; try discriminate; auto. destruct H as (_ & ? & ? & ? & ? & _). discriminate.
  - simpl. repeat split; intros; try discriminate; auto; destruct H; discriminate.
Qed.

(** Fixtures are marked as unused exactly if they are not autouse and no test has them as
    an argument. *)
Theorem C91_fixtures : forall o ts fs w, o_given o = true -> o_output o = true -> o_only o = OFixtures ->
  Forall2 (fun f l => exists m, l = LFixture (f_name f) m (f_over f) /\ (m = MAuto <-> f_auto f = true) /\
             (m = MUnused <-> f_auto f = false /\ forall t, In t ts -> ~ In (f_id f) (t_required t)))
          fs (fst (slash_list o (Some (ts, fs, w)))).
Proof.
  intros o ts fs w G O NF. unfold Listing.slash_list, report_fixtures. rewrite G, O, NF. simpl negb. cbv iota. simpl fst. rewrite app_nil_r.
  induction fs as [|f fs IH]; simpl; constructor; auto. unfold fixture_line. eexists. split; [reflexivity|].
  destruct (f_auto f).
  - split; split; auto; try discriminate. intros [? ?]. discriminate.
  - destruct (existsb (Nat.eqb (f_id f)) (used_fixtures ts)) eqn:E.
    + split; split; try discriminate. intros [_ H]. apply existsb_exists in E as (i & I & Q). apply Nat.eqb_eq in Q. subst i.
      apply in_flat_map in I as (t & It & I). destruct (H t It I).
    + split; split; try discriminate; auto. intros _. split; auto. intros t It I. assert (existsb (Nat.eqb (f_id f)) (used_fixtures ts) = true); [|congruence].
      apply existsb_exists. exists (f_id f). split; [apply in_flat_map; eauto|apply Nat.eqb_refl].
Qed.

Lemma cut_address m : m_override m = None -> ~ In "("%char (m_path m) -> ~ In "("%char (m_in_file m) ->
  cut_params (get_address m) = m_path m ++ lit ":" ++ m_in_file m.
Proof.
  intros O P F. unfold cut_params, get_address. rewrite O.
  assert (N : ~ In "("%char (m_path m ++ lit ":" ++ m_in_file m)).
  { intros I. apply in_app_or in I as [I|I]; auto. simpl in I. destruct I as [I|I]; [discriminate|auto]. }
  destruct (m_varied m).
  - replace (m_path m ++ lit ":" ++ m_in_file m ++ lit "(" ++ safe_repr (m_bindings m) ++ lit ")")
      with ((m_path m ++ lit ":" ++ m_in_file m) ++ "("%char :: safe_repr (m_bindings m) ++ lit ")") by (rewrite <- !app_assoc; auto).
    rewrite (proj2 (split1_spec _ _ _ _) (conj eq_refl N)). auto.
  - rewrite app_nil_r. rewrite (proj2 (split1_none _ _) N). auto.
Qed.

Lemma relpath_address p r : ~ In ":"%char r ->
  to_relpath isabs relpath (p ++ lit ":" ++ r) = Some ((if isabs p then relpath p else p) ++ lit ":" ++ r).
Proof.
  intros N. unfold to_relpath, rsplit1.
  replace (rev (p ++ lit ":" ++ r)) with (rev r ++ ":"%char :: rev p) by (simpl; rewrite rev_app_distr; simpl; rewrite <- app_assoc; auto).
  rewrite (proj2 (split1_spec _ _ _ _) (conj eq_refl (fun I => N (proj2 (in_rev _ _) I)))), !rev_involutive. auto.
Qed.

(** the path of a file as it is to be shown *)
Definition path_shown (o : opts) (p : str) : str := if o_rel o && isabs p then relpath p else p.

(** the options with another choice of what is listed *)
Definition with_only (o : opts) (k : only) : opts :=
  mkOpts k (o_tags o) (o_params o) (o_empty o) (o_werror o) (o_rel o) (o_output o) (o_dups o) (o_given o).

(** Without --only-fixtures and --only-tests the output is the title of the fixtures, what
    --only-fixtures shows, the title of the tests and what --only-tests shows. *)
Theorem C91_both : forall o ts fs w, o_given o = true -> o_output o = true -> o_only o = OAll ->
  fst (slash_list o (Some (ts, fs, w))) =
    LFixtures :: fst (slash_list (with_only o OFixtures) (Some (ts, fs, w))) ++ LTests :: fst (slash_list (with_only o OTests) (Some (ts, fs, w))).
Proof.
  intros o ts fs w G O A. unfold Listing.slash_list, report_fixtures, Listing.report_tests. cbn [with_only o_given o_only o_output]. rewrite G, O, A. cbn [negb].
  assert (L : forall v l, report_loop (with_only o OTests) v l = report_loop o v l).
  { intros v l. revert v. induction l as [|t l IH]; intros v; [reflexivity|]. cbn [Listing.report_loop]. change (shown (with_only o OTests) t) with (shown o t).
    destruct (shown o t); [|reflexivity]. cbn [with_only o_dups o_tags]. rewrite !IH. reflexivity. }
  rewrite L. destruct (report_loop o [] ts) as [l e]. cbn [fst app]. rewrite app_nil_r. reflexivity.
Qed.

(** --no-params shows the path, made relative if asked for, and the name in the file, if
    these contain no parenthesis and the name no colon. *)
Theorem C91_no_params : forall o t m, o_params o = false -> t_address t = get_address m -> m_override m = None ->
  ~ In "("%char (m_path m) -> ~ In "("%char (m_in_file m) -> ~ In ":"%char (m_in_file m) ->
  shown o t = Some (path_shown o (m_path m) ++ lit ":" ++ m_in_file m).
Proof.
  intros o t m Op T O P F C. unfold Listing.shown, path_shown. rewrite Op, T, (cut_address m O P F). destruct (o_rel o); simpl andb; cbv iota; auto.
  apply relpath_address. auto.
Qed.

(** Otherwise the address is shown as it is, with a relative path if asked for. *)
Theorem C91_address : forall o t p r, o_params o = true -> t_address t = p ++ lit ":" ++ r -> ~ In ":"%char r ->
  shown o t = Some (path_shown o p ++ lit ":" ++ r).
Proof.
  intros o t p r Op T N. unfold Listing.shown, path_shown. rewrite Op, T. destruct (o_rel o); simpl andb; cbv iota; auto. apply relpath_address. auto.
Qed.
End P.

(** A fixture is marked as an override exactly if a namespace around it has another
    fixture of this name. *)
Theorem C91_override : forall self name parents, (exists ns, In ns parents /\ exists f, d_get name ns = Some f /\ f <> self) <-> is_override self name parents = true.
Proof.
  intros self name. induction parents as [|ns ps IH]; simpl.
  - split; [intros (? & [] & _)|discriminate].
  - assert (L : forall l, (exists ns, In ns l /\ exists f, d_get name ns = Some f /\ f <> self) -> lookup name l <> None).
    { induction l as [|x l IHl]; simpl; [intros (? & [] & _)|]. intros (y & [<-|I] & f & E & Ne); [rewrite E; discriminate|]. destruct (d_get name x); [discriminate|]. apply IHl. eauto 6. }
    assert (L2 : forall l f, lookup name l = Some f -> f <> self -> exists ns, In ns l /\ exists f, d_get name ns = Some f /\ f <> self).
    { induction l as [|x l IHl]; simpl; [discriminate|]. intros f. destruct (d_get name x) as [g|] eqn:E; intros Q N; [injection Q as ->; eauto 6|]. destruct (IHl f Q N) as (y & I & R). eauto. }
    destruct (d_get name ns) as [f|] eqn:E.
    + destruct (Nat.eqb_spec f self) as [->|Ne].
      * rewrite <- IH. split; [|intros (y & I & R); eauto]. intros (y & [<-|I] & g & Q & N); [congruence|eauto].
      * split; auto. intros _. eauto 6.
    + destruct (lookup name ps) as [f|] eqn:Lk.
      * destruct (Nat.eqb_spec f self) as [->|Ne].
        -- rewrite <- IH. split; [|intros (y & I & R); eauto]. intros (y & [<-|I] & g & Q & N); [congruence|eauto].
        -- split; auto. intros _. destruct (L2 _ _ Lk Ne) as (y & I & R). eauto.
      * split; [|discriminate]. intros (y & [<-|I] & g & Q & N); [congruence|]. exfalso. apply (L ps); eauto.
Qed.

(** ** What is not true *)

Definition plain : opts := mkOpts OAll false true false false false true false true.

(** Not every test is listed: tests with the same address are shown once
    (C88_different_values_refuted, C90: addresses need not differ). *)
Theorem C91_every_test_refuted : exists ts fs w, forall isabs relpath,
  List.length (addresses (fst (slash_list isabs relpath plain (Some (ts, fs, w))))) < List.length ts.
Proof.
  exists [mkT (lit "t.py:f(x=x0)") [] []; mkT (lit "t.py:f(x=x0)") [] []], [], false. intros. vm_compute. lia.
Qed.

(** --no-params cuts the path of a file, too. *)
Theorem C91_no_params_refuted : exists m, m_override m = None /\ m_varied m = false /\ cut_params (get_address m) <> get_address m.
Proof. exists (mkM None (lit "a(1)/t.py") (lit "f") false []). vm_compute. repeat split; discriminate. Qed.


(** What a function uses: its arguments, and what their functions use. *)
Inductive uses (ns : str -> option fixture) : FixtureArgs.func -> nat -> Prop :=
| u_arg f a n g : In (a, n) (fn_args f) -> ns n = Some g -> uses ns f (fi_id g)
| u_more f a n g i : In (a, n) (fn_args f) -> ns n = Some g -> uses ns (fi_func g) i -> uses ns f i.

(** A fixture that only fixtures need is shown as unused, although the test uses it: the
    fixtures looked at are those that get_required_fixture_objects (C73) gives for the test. *)
Theorem C91_unused_refuted : exists fuel ns f l b, required_objects fuel ns f = Ok l /\ uses ns f (f_id b) /\
  forall isabs relpath, In (LFixture (f_name b) MUnused false)
    (fst (slash_list isabs relpath plain (Some ([mkT (lit "t.py:f") [] (map fi_id l)], [b], false)))).
Proof.
  pose (fb := mkFixture 2 (FixtureArgs.mkFunc [] [] []) false).
  pose (fa := mkFixture 1 (FixtureArgs.mkFunc [(lit "b", lit "b")] [] []) false).
  exists 5, (fun n => if str_eqb n (lit "a") then Some fa else if str_eqb n (lit "b") then Some fb else None),
    (FixtureArgs.mkFunc [(lit "a", lit "a")] [] []), [fa], (mkF 2 (lit "b") false false).
  split; [reflexivity|]. split.
  - apply (u_more _ _ (lit "a") (lit "a") fa 2); [left; auto|auto|]. apply (u_arg _ _ (lit "b") (lit "b") fb); [left; auto|auto].
  - intros. vm_compute. tauto.
Qed.

(** ** Non-vacuity *)
Example C91_hypotheses_met :
  let ts := [mkT (lit "/a/t.py:f(x=1)") (lit "[]") [1]; mkT (lit "/a/t.py:f(x=2)") (lit "[]") [1]; mkT (lit "/a/t.py:g") (lit "[]") []] in
  let o := mkOpts OAll false false false true true true false true in
  let isabs := starts (lit "/") in let relpath := fun s => skipn 3 s in
  (forall t, In t ts -> shown isabs relpath o t <> None) /\
  slash_list isabs relpath o (Some (ts, [mkF 1 (lit "x") false false; mkF 2 (lit "y") false true; mkF 3 (lit "z") true false], false)) =
    ([LFixtures; LFixture (lit "x") MNone false; LFixture (lit "y") MUnused true; LFixture (lit "z") MAuto false;
      LTests; LTest (lit "t.py:f") []; LTest (lit "t.py:g") []], Code 0) /\
  slash_list isabs relpath o (Some (ts, [], true)) = ([LFixtures; LTests; LTest (lit "t.py:f") []; LTest (lit "t.py:g") []], Code (-1)) /\
  snd (slash_list isabs relpath o (Some ([], [], false))) = Code 1.
Proof.
  split; [|vm_compute; auto]. intros t I. simpl in I. destruct I as [<-|[<-|[<-|[]]]]; vm_compute; discriminate.
Qed.

Example C91_override_met : is_override 7 1 [[(1, 7)]; [(2, 5)]; [(1, 3)]] = true /\ is_override 7 1 [[(1, 7)]; [(2, 5)]] = false.
Proof. auto. Qed.

Print Assumptions C91_listed.
Print Assumptions C91_duplicates.
Print Assumptions C91_exit.
Print Assumptions C91_no_params.
Print Assumptions C91_address.
Print Assumptions C91_fixtures.
Print Assumptions C91_both.
Print Assumptions C91_override.
Print Assumptions C91_every_test_refuted.
Print Assumptions C91_no_params_refuted.
Print Assumptions C91_unused_refuted.
