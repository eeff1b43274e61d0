(** C119: the warnings of Python's warnings module and sessions (WarnCapture.v). *)

From Coq Require Import List Bool Arith PeanoNat Lia.
From Verif Require Import WarnCapture.
Import ListNotations.

(** ** What shows warnings is put back *)

Lemma find_cons_other c d h l : c <> d -> find_ctx c ((d, h) :: l) = find_ctx c l.
Proof. intros H. cbn. destruct (Nat.eqb c d) eqn:E; auto. apply Nat.eqb_eq in E. congruence. Qed.

Lemma ctx_step c e s h : find_ctx c (w_ctx s) = Some h -> find_ctx c (w_ctx (fst (wstep e s))) = Some h.
Proof.
  intros H. destruct e; cbn [wstep fst]; auto.
  - cbn. destruct (find_ctx c0 (w_ctx s)) eqn:E; cbn [fst w_ctx]; auto.
    rewrite find_cons_other; auto. intros ->. congruence.
  - destruct (find_ctx c0 (w_ctx s)); auto.
  - destruct (decide _ _); auto.
Qed.
Lemma ctx_run c l h : forall s, find_ctx c (w_ctx s) = Some h -> find_ctx c (w_ctx (wrun l s)) = Some h.
Proof. induction l as [|e l IH]; intros s H; cbn; auto. apply IH, ctx_step; auto. Qed.
Lemma wrun_app a b s : wrun (a ++ b) s = wrun b (wrun a s).
Proof. revert s. induction a as [|e a IH]; intros s; cbn; auto. Qed.

(** Whatever happens while a session captures warnings (other sessions, properly nested or not, filters, assignments to
    showwarning), what shows warnings after it is what did before. *)
Theorem C119_restored : forall c i body s, find_ctx c (w_ctx s) = None ->
  w_show (wrun (Start c i :: body ++ [Leave c]) s) = w_show s.
Proof.
  intros c i body s H. cbn [wrun]. rewrite wrun_app.
  assert (A : find_ctx c (w_ctx (fst (wstep (Start c i) s))) = Some (w_show s)).
  { cbn. rewrite H. cbn. rewrite Nat.eqb_refl. reflexivity. }
  pose proof (ctx_run c body _ _ A) as B. set (s1 := wrun body _) in *. cbn [wrun wstep]. rewrite B. reflexivity.
Qed.
Print Assumptions C119_restored.

(** A context is entered once, and not left before: otherwise it is refused and nothing about who shows warnings changes. *)
Theorem C119_once : forall c i s h, find_ctx c (w_ctx s) = Some h ->
  snd (wstep (Start c i) s) = Runtime /\ w_show (fst (wstep (Start c i) s)) = w_show s /\
  forall d, find_ctx d (w_ctx s) = None -> wstep (Leave d) s = (s, Runtime).
Proof.
  intros c i s h H. cbn. rewrite H. cbn. split; [auto|split; [auto|]]. intros d Hd. rewrite Hd. reflexivity.
Qed.
Print Assumptions C119_once.

(** ** What a session records *)

(** Programs that leave the filters and showwarning alone: warnings and whole sessions. *)
Inductive tree := TNil | TWarn (n : nat) (k : cat) (t : tree) | TSes (c i : nat) (b t : tree).
Fixpoint steps (t : tree) : list step :=
  match t with
  | TNil => []
  | TWarn n k t => Warn n k :: steps t
  | TSes c i b t => Start c i :: steps b ++ Leave c :: steps t
  end.
(** the contexts of the program: each is a new object (warnings.py:35) *)
Fixpoint ctxs (t : tree) : list nat :=
  match t with TNil => [] | TWarn _ _ t => ctxs t | TSes c _ b t => c :: ctxs b ++ ctxs t end.

(** an import warning, or of a class derived from it *)
Inductive import_like : cat -> Prop :=
| il_import : import_like CImport
| il_sub n c : import_like c -> import_like (CSub n c).

(** the warnings a session [j] is to record, where [h] is the session the program is in *)
Inductive records (ignored : nat -> bool) (j : nat) : nat -> tree -> list nat -> Prop :=
| r_nil h : records ignored j h TNil []
| r_kept n k t l : ~ import_like k -> ignored n = false -> records ignored j j t l -> records ignored j j (TWarn n k t) (n :: l)
| r_not h n k t l : import_like k \/ ignored n = true \/ h <> j -> records ignored j h t l -> records ignored j h (TWarn n k t) l
| r_ses h c i b t l1 l2 : records ignored j i b l1 -> records ignored j h t l2 -> records ignored j h (TSes c i b t) (l1 ++ l2).

Lemma cat_eqb_refl a : cat_eqb a a = true.
Proof. induction a; cbn; auto. rewrite Nat.eqb_refl, IHa. auto. Qed.
Lemma subclass_warning k : subclass k CWarning = true.
Proof. induction k; cbn; auto. Qed.
Lemma subclass_import k : subclass k CImport = true <-> import_like k.
Proof.
  induction k; cbn; split; intros H; try discriminate; try (inversion H; fail).
  - constructor.
  - reflexivity.
  - constructor. apply IHk; auto.
  - inversion H; subst. apply IHk; auto.
Qed.

Definition headed (l : list filter_) : Prop := exists r, l = (Ignore, CImport) :: (Always, CWarning) :: r.
Lemma capture_headed l : headed (capture_all l).
Proof. unfold capture_all, add_filter. cbn. eexists. reflexivity. Qed.
Lemma decide_headed l k : headed l -> decide l k = if subclass k CImport then Ignore else Always.
Proof. intros [r ->]. cbn. rewrite subclass_warning. reflexivity. Qed.

Lemma filters_steps t : forall s, headed (w_filters s) -> headed (w_filters (wrun (steps t) s)).
Proof.
  induction t; intros s H; cbn [steps]; auto.
  - cbn [wrun]. apply IHt. cbn. destruct (decide _ _); auto.
  - cbn [wrun]. rewrite wrun_app. cbn [wrun]. apply IHt2.
    assert (A : headed (w_filters (wrun (steps t1) (fst (wstep (Start c i) s))))).
    { apply IHt1. cbn. destruct (find_ctx _ _); cbn; apply capture_headed. }
    cbn [wstep]. destruct (find_ctx _ _); auto.
Qed.

Lemma ctx_steps c t : forall s, ~ In c (ctxs t) -> find_ctx c (w_ctx (wrun (steps t) s)) = find_ctx c (w_ctx s).
Proof.
  induction t; intros s H; cbn [steps ctxs] in *; auto.
  - cbn [wrun]. rewrite IHt; auto. cbn. destruct (decide _ _); auto.
  - cbn [wrun]. rewrite wrun_app. cbn [wrun]. cbn in H. rewrite in_app_iff in H.
    rewrite IHt2 by tauto.
    assert (A : forall s, find_ctx c (w_ctx (fst (wstep (Leave c0) s))) = find_ctx c (w_ctx s)).
    { intros s'. cbn. destruct (find_ctx c0 _); auto. }
    rewrite A, IHt1 by tauto. cbn. destruct (find_ctx c0 (w_ctx s)); cbn [fst w_ctx]; auto.
    apply find_cons_other. intros ->. tauto.
Qed.

Lemma nodup_r {A} (a b : list A) : NoDup (a ++ b) -> NoDup b.
Proof. induction a; cbn; auto. intros H. inversion H; auto. Qed.
Lemma nodup_l {A} (a b : list A) : NoDup (a ++ b) -> NoDup a.
Proof. induction a; cbn; [constructor|]. intros H. inversion H; subst. constructor; auto. intros Q. apply H2, in_app_iff. auto. Qed.
Lemma nodup_disj {A} (a b : list A) x : NoDup (a ++ b) -> In x a -> In x b -> False.
Proof. induction a; cbn; [tauto|]. intros H [->|I] J; inversion H; subst; eauto. apply H2, in_app_iff. auto. Qed.

Lemma show_steps t : forall s, NoDup (ctxs t) -> (forall c, In c (ctxs t) -> find_ctx c (w_ctx s) = None) ->
  w_show (wrun (steps t) s) = w_show s.
Proof.
  induction t; intros s N Hf; cbn [steps ctxs] in *; auto.
  - cbn [wrun]. rewrite IHt; auto; cbn; destruct (decide _ _); auto.
  - change (Start c i :: steps t1 ++ Leave c :: steps t2) with (Start c i :: steps t1 ++ [Leave c] ++ steps t2).
    rewrite app_assoc, app_comm_cons, wrun_app.
    inversion N; subst. rewrite in_app_iff in H1.
    rewrite IHt2; [apply C119_restored; apply Hf; left; auto| |].
    + apply nodup_r in H2. auto.
    + intros d Hd. rewrite app_comm_cons, wrun_app. cbn [wrun].
      assert (A : forall s, find_ctx d (w_ctx (fst (wstep (Leave c) s))) = find_ctx d (w_ctx s)).
      { intros s'. cbn. destruct (find_ctx c _); auto. }
      rewrite A. rewrite ctx_steps.
      * cbn. rewrite (Hf c (or_introl eq_refl)). cbn [fst w_ctx]. rewrite find_cons_other.
        { apply Hf. right. apply in_app_iff. auto. }
        intros ->. tauto.
      * intros Hi. eapply nodup_disj; eauto.
Qed.

Lemma kept_app ignored j f h c a b : kept ignored j (mkWs f h c (a ++ b)) = kept ignored j (mkWs f h c a) ++ kept ignored j (mkWs f h c b).
Proof. unfold kept. cbn [w_shown]. apply flat_map_app. Qed.

Lemma kept_steps ignored j h t l : records ignored j h t l -> forall s, headed (w_filters s) -> w_show s = ShSession h ->
  NoDup (ctxs t) -> (forall c, In c (ctxs t) -> find_ctx c (w_ctx s) = None) ->
  kept ignored j (wrun (steps t) s) = kept ignored j s ++ l.
Proof.
  induction 1; intros s Hh Hs N Hf; cbn [steps ctxs] in *.
  - cbn. rewrite app_nil_r. auto.
  - cbn [wrun wstep]. rewrite decide_headed by auto. destruct (subclass k CImport) eqn:Ek; [apply subclass_import in Ek; tauto|].
    cbn [fst]. rewrite IHrecords; auto. rewrite kept_app, Hs. unfold kept at 2. cbn [w_shown flat_map fst snd].
    rewrite Nat.eqb_refl, H0. cbn. rewrite <- app_assoc. reflexivity.
  - cbn [wrun wstep]. rewrite decide_headed by auto. destruct (subclass k CImport) eqn:Ek.
    + cbn [fst]. apply IHrecords; auto.
    + cbn [fst]. rewrite IHrecords; auto. rewrite kept_app, Hs.
      assert (X : kept ignored j (mkWs (w_filters s) (ShSession h) (w_ctx s) [(ShSession h, (n, k))]) = []).
      { unfold kept. cbn [w_shown flat_map fst snd]. destruct (Nat.eqb j h) eqn:Ej; auto. apply Nat.eqb_eq in Ej.
        destruct H as [H|[H|H]]; [apply subclass_import in H; congruence|rewrite H; auto|congruence]. }
      rewrite X, app_nil_r. reflexivity.
  - cbn [wrun]. rewrite wrun_app. cbn [wrun].
    assert (Hc : find_ctx c (w_ctx s) = None) by (apply Hf; left; auto).
    set (s1 := fst (wstep (Start c i) s)).
    assert (E1 : s1 = mkWs (capture_all (w_filters s)) (ShSession i) ((c, w_show s) :: w_ctx s) (w_shown s)).
    { unfold s1. cbn. rewrite Hc. reflexivity. }
    inversion N; subst. rewrite in_app_iff in H3.
    assert (Nb : NoDup (ctxs b)) by (apply nodup_l in H4; auto).
    assert (Nt : NoDup (ctxs t)) by (apply nodup_r in H4; auto).
    assert (F1 : forall d, In d (ctxs b) -> find_ctx d (w_ctx s1) = None).
    { intros d Hd. rewrite E1. cbn [w_ctx]. rewrite find_cons_other by (intros ->; tauto). apply Hf. right. apply in_app_iff. auto. }
    assert (K1 : kept ignored j (wrun (steps b) s1) = kept ignored j s ++ l1).
    { rewrite IHrecords1; auto; rewrite E1; auto. apply capture_headed. }
    set (s2 := wrun (steps b) s1) in *.
    assert (L2 : wstep (Leave c) s2 = (set_show (w_show s) s2, Fine)).
    { cbn. unfold s2. rewrite ctx_steps by tauto. rewrite E1. cbn. rewrite Nat.eqb_refl. reflexivity. }
    rewrite L2. cbn [fst]. rewrite IHrecords2; auto.
    + unfold kept in *. cbn [set_show w_shown]. rewrite K1, <- app_assoc. reflexivity.
    + unfold s2. cbn [set_show w_filters]. apply filters_steps. rewrite E1. apply capture_headed.
    + intros d Hd. cbn [set_show w_ctx]. unfold s2. rewrite ctx_steps.
      * rewrite E1. cbn [w_ctx]. rewrite find_cons_other by (intros ->; tauto). apply Hf. right. apply in_app_iff. auto.
      * intros Hi. eapply nodup_disj; eauto.
Qed.

(** While nobody touches the filters or showwarning, a session records exactly the warnings issued in it but not in a
    session inside of it, in their order, other than import warnings and those it was told to ignore; whatever the
    filters were before. *)
Theorem C119_recorded : forall ignored c i t l s, records ignored i i t l ->
  NoDup (c :: ctxs t) -> (forall d, In d (c :: ctxs t) -> find_ctx d (w_ctx s) = None) -> kept ignored i s = [] ->
  kept ignored i (wrun (Start c i :: steps t ++ [Leave c]) s) = l.
Proof.
  intros ignored c i t l s R N Hf K.
  assert (Q : records ignored i i (TSes c i t TNil) (l ++ [])) by (apply r_ses; [auto|constructor]).
  rewrite app_nil_r in Q.
  cbn [wrun]. rewrite wrun_app. set (s1 := fst (wstep (Start c i) s)).
  assert (E1 : s1 = mkWs (capture_all (w_filters s)) (ShSession i) ((c, w_show s) :: w_ctx s) (w_shown s)).
  { unfold s1. cbn. rewrite (Hf c (or_introl eq_refl)). reflexivity. }
  inversion N; subst.
  assert (K1 : kept ignored i (wrun (steps t) s1) = kept ignored i s1 ++ l).
  { apply (kept_steps ignored i i); auto; rewrite E1; auto; [apply capture_headed|].
    intros d Hd. cbn [w_ctx]. rewrite find_cons_other by (intros ->; auto). apply Hf. right; auto. }
  assert (K0 : kept ignored i s1 = []) by (rewrite E1; exact K). rewrite K0 in K1.
  cbn [wrun wstep]. destruct (find_ctx c (w_ctx (wrun (steps t) s1))); cbn [fst]; exact K1.
Qed.
Print Assumptions C119_recorded.

(** nothing is recorded by anyone of an import warning *)
Example C119_recorded_case :
  let t := TWarn 1 CDeprecation (TSes 2 8 (TWarn 3 (CSub 5 CUser) TNil) (TWarn 4 (CSub 9 CImport) (TWarn 5 CLogbook (TWarn 6 CUser TNil)))) in
  let s := wrun (Start 1 7 :: steps t ++ [Leave 1]) (ws0 [(AsError, CWarning)]) in
  kept (Nat.eqb 6) 7 s = [1; 5] /\ kept (Nat.eqb 6) 8 s = [3] /\ w_show s = ShDefault /\
  records (Nat.eqb 6) 7 7 t [1; 5] /\ NoDup (1 :: ctxs t).
Proof.
  cbv zeta. repeat split.
  - apply r_kept; [intros X; inversion X|reflexivity|]. change [5] with ([] ++ [5]). apply r_ses.
    + apply r_not; [right; right; discriminate|constructor].
    + apply r_not; [left; repeat constructor|]. apply r_kept; [intros X; inversion X|reflexivity|].
      apply r_not; [right; left; reflexivity|constructor].
  - repeat constructor; cbn; intuition discriminate.
Qed.

(** ** The filters *)

Lemma remove1_sub f l : incl (remove1 f l) l /\ length (remove1 f l) <= length l.
Proof.
  induction l as [|g l [IH1 IH2]]; cbn; [split; [apply incl_refl|auto]|]. destruct (filter_eqb f g).
  - split; [apply incl_tl, incl_refl|lia].
  - cbn. split; [|lia]. intros x [->|H]; [left; auto|right; auto].
Qed.
Lemma capture_idem l : capture_all (capture_all l) = capture_all l.
Proof.
  unfold capture_all, add_filter. set (r := remove1 (Always, CWarning) l). cbn [remove1].
  replace (filter_eqb (Ignore, CImport) (Always, CWarning)) with false by reflexivity.
  replace (filter_eqb (Always, CWarning) (Ignore, CImport)) with false by reflexivity.
  replace (filter_eqb (Always, CWarning) (Always, CWarning)) with true by reflexivity.
  cbn [remove1].
  replace (filter_eqb (Ignore, CImport) (Always, CWarning)) with false by reflexivity.
  replace (filter_eqb (Ignore, CImport) (Ignore, CImport)) with true by reflexivity. reflexivity.
Qed.

Lemma filters_run l : forall s, (forall f, ~ In (Filter f) l) ->
  w_filters (wrun l s) = w_filters s \/ w_filters (wrun l s) = capture_all (w_filters s).
Proof.
  induction l as [|e l IH]; intros s H; cbn [wrun]; auto.
  assert (H' : forall f, ~ In (Filter f) l) by (intros f Q; apply (H f); right; auto).
  assert (A : w_filters (fst (wstep e s)) = w_filters s \/ w_filters (fst (wstep e s)) = capture_all (w_filters s)).
  { destruct e; cbn [wstep fst]; auto.
    - cbn. destruct (find_ctx _ _); auto.
    - destruct (find_ctx _ _); auto.
    - destruct (decide _ _); auto.
    - exfalso. apply (H f). left; auto. }
  destruct (IH (fst (wstep e s)) H') as [B|B], A as [A|A]; rewrite B, A; auto.
Qed.

(** However many sessions there were, nested or not: the filters are those there were, with at most two more in front. *)
Theorem C119_no_growth : forall l s, (forall f, ~ In (Filter f) l) ->
  w_filters (wrun l s) = w_filters s \/
  exists r, w_filters (wrun l s) = (Ignore, CImport) :: (Always, CWarning) :: r /\ incl r (w_filters s) /\ length r <= length (w_filters s).
Proof.
  intros l s H. destruct (filters_run l s H) as [A|A]; auto. right. rewrite A. unfold capture_all, add_filter. cbn [remove1].
  replace (filter_eqb (Ignore, CImport) (Always, CWarning)) with false by reflexivity. eexists. split; [reflexivity|].
  destruct (remove1_sub (Always, CWarning) (w_filters s)) as [P1 P2].
  destruct (remove1_sub (Ignore, CImport) (remove1 (Always, CWarning) (w_filters s))) as [Q1 Q2].
  split; [eapply incl_tran; eauto|exact (Nat.le_trans _ _ _ Q2 P2)].
Qed.
Print Assumptions C119_no_growth.
Example C119_no_growth_case :
  w_filters (wrun [Start 1 1; Start 2 2; Leave 2; Leave 1; Start 3 3; Leave 3] (ws0 [(AsError, CUser)])) =
  [(Ignore, CImport); (Always, CWarning); (AsError, CUser)].
Proof. reflexivity. Qed.

(** ** What does not hold *)

(** The filters are not put back: what was ignored before a session is shown after it. *)
Theorem C119_filters_refuted : exists l n k,
  w_shown (wrun [Warn n k] (ws0 l)) = [] /\
  w_shown (wrun [Start 1 1; Leave 1; Warn n k] (ws0 l)) = [(ShDefault, (n, k))].
Proof. exists [(Ignore, CDeprecation)], 5, CDeprecation. split; reflexivity. Qed.
Print Assumptions C119_filters_refuted.

(** Warnings turned into errors (python -W error) are not errors in a session. *)
Theorem C119_error_refuted : exists l n k,
  snd (wstep (Warn n k) (ws0 l)) = Warned /\ snd (wstep (Warn n k) (wrun [Start 1 1] (ws0 l))) = Fine.
Proof. exists [(AsError, CWarning)], 5, CUser. split; reflexivity. Qed.
Print Assumptions C119_error_refuted.

(** A session inside of another undoes the filters set up in that one, also for the rest of it. *)
Theorem C119_inner_refuted : exists f n k,
  kept (fun _ => false) 1 (wrun [Start 1 1; Filter f; Warn n k; Leave 1] (ws0 [])) = [] /\
  kept (fun _ => false) 1 (wrun [Start 1 1; Filter f; Start 2 2; Leave 2; Warn n k; Leave 1] (ws0 [])) = [n].
Proof. exists (Ignore, CUser), 5, CUser. split; reflexivity. Qed.
Print Assumptions C119_inner_refuted.

(** Contexts that are not left in the opposite order: the warnings of a session go elsewhere, and to one that is over. *)
Theorem C119_overlap_refuted : exists l,
  w_shown (wrun l (ws0 [])) = [(ShDefault, (5, CUser)); (ShSession 1, (6, CUser))] /\
  l = [Start 1 1; Start 2 2; Leave 1; Warn 5 CUser; Leave 2; Warn 6 CUser].
Proof. eexists. split; [|reflexivity]. reflexivity. Qed.
Print Assumptions C119_overlap_refuted.

(** A context may be left again: that is not refused. *)
Theorem C119_leave_refuted : exists s c, snd (wstep (Leave c) (fst (wstep (Leave c) s))) = Fine /\
  w_show (fst (wstep (Leave c) (wrun [Leave c; Assign (ShOther 3)] s))) = ShDefault.
Proof. exists (wrun [Start 1 1] (ws0 [])), 1. split; reflexivity. Qed.
Print Assumptions C119_leave_refuted.
