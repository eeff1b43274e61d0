(** Where a cleanup without a scope is refused, along a whole session: proofs behind C06_implicit. *)

From Coq Require Import List Bool Arith PeanoNat Lia.
From Verif Require Import Events Core CoreBase.
Import ListNotations.

(** ** What the trace says *)

(** whether the handlers of test_end are running: they have been started, and since then only things that
    user code does have happened *)
Definition in_end1 (b : bool) (e : event) : bool :=
  match e with
  | EvHook HTestEnd _ => true
  | EvHook HTestInterrupt _ => b
  | EvUser _ | EvAdd _ _ _ _ _ _ | EvReject _ _ | EvRaised _ _ _ | EvHandle _ _ _ _ | EvRecord _ _ _ _ | EvFixUp _ _ | EvPhase _ => b
  | _ => false
  end.
Definition in_test_end (t : list event) : bool := fold_left in_end1 t false.

(** a registration without scope is accepted outside of them and refused inside *)
Definition fits (b : bool) (e : event) : Prop :=
  match e with
  | EvAdd _ None _ _ _ _ => b = false
  | EvReject None k => k = KAssertion \/ (k = KCannotAdd /\ b = true)
  | _ => True
  end.
Definition good (t : list event) : Prop := forall a e b, t = a ++ e :: b -> fits (in_test_end a) e.

Lemma in_test_end_snoc t e : in_test_end (t ++ [e]) = in_end1 (in_test_end t) e.
Proof. unfold in_test_end. rewrite fold_left_app. auto. Qed.

Lemma good_nil : good [].
Proof. intros a e b H. destruct a; discriminate. Qed.

Lemma good_snoc t e : good t -> fits (in_test_end t) e -> good (t ++ [e]).
Proof.
  intros G F a x b H.
  destruct b as [|y b] using rev_ind.
  - apply app_inj_tail in H. destruct H as [-> ->]. auto.
  - rewrite app_comm_cons, app_assoc in H. apply app_inj_tail in H. destruct H as [-> ->]. eapply G; eauto.
Qed.

(** ** Invariants *)

Definition akin (s s' : state) : Prop := st_trace s' = st_trace s /\ cm_implicit (st_cm s') = cm_implicit (st_cm s).
Ltac akin := split; reflexivity.

(** between pieces of user code *)
Definition R (s : state) : Prop := good (st_trace s) /\ cm_implicit (st_cm s) = true.
(** where user code may run, outside ([b] true) or inside the handlers of test_end *)
Definition U (b : bool) (s : state) : Prop :=
  good (st_trace s) /\ cm_implicit (st_cm s) = b /\ in_test_end (st_trace s) = negb b.

Lemma U_R s : U true s -> R s.
Proof. intros (A & B & _). split; auto. Qed.
Lemma R_akin s s' : akin s s' -> R s -> R s'.
Proof. intros [A B] (X & Y). unfold R. rewrite A, B. auto. Qed.
Lemma U_akin b s s' : akin s s' -> U b s -> U b s'.
Proof. intros [A B] (X & Y & Z). unfold U. rewrite A, B. auto. Qed.

(** things user code does, but not registrations *)
Definition inner (e : event) : bool :=
  match e with
  | EvUser _ | EvRaised _ _ _ | EvHandle _ _ _ _ | EvRecord _ _ _ _ | EvFixUp _ _ | EvPhase _ | EvHook HTestInterrupt _ => true
  | _ => false
  end.
(** things the runner does *)
Definition outer (e : event) : bool :=
  match e with
  | EvPush _ _ | EvPopBegin _ _ _ _ | EvPopEnd _ _ _ | EvTeardown _ _ | EvRun _ | EvFixDown _
  | EvFileStart _ | EvFileEnd _ | EvReportStart _ | EvReportEnd _ | EvComplete => true
  | EvHook HTestEnd _ | EvHook HTestInterrupt _ => false
  | EvHook _ _ => true
  | _ => false
  end.

Lemma U_inner b e s : inner e = true -> U b s -> U b (emit e s).
Proof.
  intros H (A & B & C). unfold U. cbn [emit st_trace st_cm]. rewrite in_test_end_snoc. split; [|split; auto].
  - apply good_snoc; auto. destruct e; try discriminate; exact I.
  - rewrite <- C. destruct e; try discriminate; auto. destruct h; try discriminate; auto.
Qed.
Lemma R_inner e s : inner e = true -> R s -> R (emit e s).
Proof.
  intros H (A & B). split; auto. cbn. apply good_snoc; auto. destruct e; try discriminate; exact I.
Qed.
Lemma outer_U e s : outer e = true -> R s -> U true (emit e s).
Proof.
  intros H (A & B). unfold U. cbn [emit st_trace st_cm]. rewrite in_test_end_snoc. split; [|split; auto].
  - apply good_snoc; auto. destruct e; try discriminate; exact I.
  - destruct e; try discriminate; auto. destruct h; try discriminate; auto.
Qed.

(** ** Code *)

Definition to (A B : state -> Prop) (m : M) : Prop := forall s, A s -> B (fst (m s)).
(** only if it ends normally *)
Definition norm (A B : state -> Prop) (m : M) : Prop := forall s, A s -> snd (m s) = ONormal -> B (fst (m s)).

Lemma to_seq A B C a b : to A C a -> norm A B a -> to B C b -> to A C (a ;; b).
Proof.
  intros H N K s Hs. unfold seq. specialize (H s Hs). specialize (N s Hs).
  destruct (a s) as [s1 [| x |]]; cbn [fst snd] in *; auto.
Qed.
Lemma norm_seq A B C a b : norm A B a -> norm B C b -> norm A C (a ;; b).
Proof.
  intros N K s Hs. unfold seq. specialize (N s Hs).
  destruct (a s) as [s1 [| x |]]; cbn [fst snd] in *; try discriminate. apply K; auto.
Qed.
Lemma to_norm A B m : to A B m -> norm A B m.
Proof. intros H s Hs _. auto. Qed.
Lemma to_finally A B C a b : to A B a -> to B C b -> (forall s, B s -> C s) -> to A C (finally a b).
Proof.
  intros H K L s Hs. unfold finally. specialize (H s Hs).
  destruct (a s) as [s1 [| x |]]; cbn [fst] in *; auto; specialize (K s1 H);
    destruct (b s1) as [s2 [| y |]]; cbn [fst] in *; auto.
Qed.
Section Implicit.
Variable E : env.

Section Exec.
Variable I : state -> Prop.
Hypothesis I_akin : forall s s', akin s s' -> I s -> I s'.
Hypothesis I_inner : forall e s, inner e = true -> I s -> I (emit e s).

Lemma i_upd f : (forall s, akin s (f s)) -> pres I (upd f).
Proof. intros H s Hs. eapply I_akin; [apply H|auto]. Qed.
Lemma i_raise k f : pres I (raise_new k f).
Proof. intros s Hs. eapply I_akin; [|exact Hs]. akin. Qed.
Lemma i_on_result r f s : I s -> I (on_result r f s).
Proof. apply I_akin. destruct r; akin. Qed.
Lemma i_add_exception r x s : I s -> I (add_exception E r x s).
Proof.
  intros H. unfold add_exception. destruct (mem_xid (x_id x) (st_added s)); auto. cbv zeta.
  assert (H0 : I (set_added (x_id x :: st_added s) s)) by (eapply I_akin; [|exact H]; akin).
  destruct (isinstance_any (x_kind x) [TAssertion]); [apply I_inner, i_on_result; auto|].
  destruct (isinstance_any (x_kind x) (skip_types E)); [apply I_inner, i_on_result; auto|].
  destruct (isinstance_any (x_kind x) interruption_types).
  - apply i_on_result. destruct r as [|t]; [apply I_inner; auto|].
    match goal with |- I (if ?b then _ else _) => destruct b end.
    + apply i_on_result, I_inner; auto.
    + apply I_inner; auto. apply i_on_result, I_inner; auto.
  - destruct (isinstance_any (x_kind x) [TGenExit]); apply I_inner; auto. apply i_on_result; auto.
Qed.
Lemma i_handle x s : I s -> I (handle_exception E x s).
Proof.
  intros H. unfold handle_exception. cbv zeta. set (s1 := emit _ s).
  assert (H1 : I s1) by (apply I_inner; auto).
  destruct (mem_xid _ _); auto. unfold update_current_result.
  assert (H2 : I (set_handled (x_id x :: st_handled s1) s1)) by (eapply I_akin; [|exact H1]; akin).
  destruct (st_test _); apply i_add_exception; auto.
Qed.
Lemma i_handling h a : pres I a -> pres I (handling E h a).
Proof. apply pres_handling. intros; apply i_handle; auto. Qed.
Lemma i_add_entry k f s : I s -> I (add_entry k f s).
Proof. intros H. unfold add_entry. apply I_inner; auto. apply i_on_result; auto. Qed.
Lemma i_tap cid a : pres I a -> pres I (tap cid a).
Proof. intros Ha s H. unfold tap. specialize (Ha s H). destruct (a s) as [s1 [| x |]]; cbn [fst] in *; auto. Qed.
Lemma i_add_skips n : pres I (add_skips n).
Proof. induction n; simpl; [apply pres_ret|]. apply pres_seq; auto. intros s H. simpl. apply i_add_entry; auto. Qed.

Hypothesis I_add : forall sc crit succ body, pres I (tap_add sc (add_cleanup sc crit succ body)).

Lemma i_exec p : pres I (exec E p).
Proof.
  induction p; cbn [exec].
  - apply pres_ret.
  - apply i_raise.
  - apply pres_reraise.
  - apply pres_seq; auto. intros s H. cbn. apply I_inner; auto.
  - apply pres_seq; auto.
  - apply pres_seq; auto. apply pres_upd. intros; apply i_add_entry; auto.
  - apply pres_seq; auto. apply pres_upd. intros; apply i_add_entry; auto.
  - apply pres_seq; auto. apply i_handling; auto.
  - apply pres_seq; auto. apply pres_except; auto. intros; apply pres_ret.
  - apply pres_seq; auto. apply pres_default; auto. intros v s H. eapply I_akin; [|exact H]. akin.
  - apply pres_seq; auto. intros s H. unfold activate_fixture. cbn [fst]. apply I_inner; auto. eapply I_akin; [|exact H]. akin.
  - apply pres_seq; auto. apply pres_finally; auto.
  - apply pres_seq; auto. apply pres_cond; auto.
  - apply pres_seq; [|exact IHp]. intros s H. apply I_inner; auto.
Qed.
End Exec.

(** registering fits the trace *)
Lemma U_add b sc crit succ body : pres (U b) (tap_add sc (add_cleanup sc crit succ body)).
Proof.
  intros s H. unfold tap_add, add_cleanup.
  set (nm := match sc with SDefault => cm_default (st_cm s) | SGiven n => n end).
  assert (Q : forall e s', U b s' -> fits (in_test_end (st_trace s')) e ->
                (forall q, in_end1 q e = q) -> U b (emit e s')).
  { intros e s' (A & B & C) F K. unfold U. cbn [emit st_trace st_cm]. rewrite in_test_end_snoc, K.
    split; [apply good_snoc; auto|auto]. }
  destruct (succ && crit).
  { unfold raise_new; cbn [fst x_kind]. apply Q; [eapply U_akin; [|exact H]; akin| |reflexivity]. destruct nm; cbn; auto. }
  cbv zeta. set (s1 := on_cm (fun m => with_ncid (S (cm_ncid m)) m) s).
  assert (H1 : U b s1) by (eapply U_akin; [|exact H]; akin).
  assert (A : forall c req tgt s', U b s' -> (req = None -> in_test_end (st_trace s') = false) -> U b (attach c req tgt s')).
  { intros c req tgt s' H' K. unfold attach. cbv zeta.
    assert (H2 : U b (emit (EvAdd (c_id c) req tgt (c_crit c) (c_succ c) (c_result c)) s')).
    { apply Q; auto. destruct req; cbn; auto. }
    destruct tgt; (eapply U_akin; [|exact H2]; akin). }
  destruct nm as [n|] eqn:En.
  - destruct (name_lookup n (cm_names (st_cm s1))) as [[|sid l]|]; cbn [fst].
    + unfold raise_new; cbn [fst x_kind]. apply Q; [eapply U_akin; [|exact H1]; akin| |reflexivity]. exact I.
    + apply A; auto. discriminate.
    + unfold raise_new; cbn [fst x_kind]. apply Q; [eapply U_akin; [|exact H1]; akin| |reflexivity]. exact I.
  - destruct (cm_implicit (st_cm s1)) eqn:Ei; cbn [negb fst].
    + apply A; auto. intros _. destruct H1 as (_ & X & Y). rewrite Y, <- X, Ei. reflexivity.
    + unfold raise_new; cbn [fst x_kind]. apply Q; [eapply U_akin; [|exact H1]; akin| |reflexivity]. cbn. right. split; auto.
      destruct H1 as (_ & X & Y). rewrite X in Ei. rewrite Ei in Y. exact Y.
Qed.

Lemma U_exec b p : pres (U b) (exec E p).
Proof. apply i_exec; [apply U_akin|apply U_inner|intros; apply U_add]. Qed.

(** from anywhere between pieces of user code to after user code *)
Lemma R_fire h t : h <> HTestEnd -> h <> HTestInterrupt -> to R (U true) (fire E h t).
Proof.
  intros A B s H. unfold fire, seq. cbn. apply U_exec. apply outer_U; auto. destruct h; auto; contradiction.
Qed.
Lemma R_of (m : M) : to R (U true) m -> pres R m.
Proof. intros H s Hs. apply U_R. auto. Qed.
Lemma R_handling h a : pres R a -> pres R (handling E h a).
Proof. apply i_handling; [apply R_akin|apply R_inner]. Qed.
Lemma U_handling b h a : pres (U b) a -> pres (U b) (handling E h a).
Proof. apply i_handling; [apply U_akin|apply U_inner]. Qed.
Lemma R_upd f : (forall s, akin s (f s)) -> pres R (upd f).
Proof. apply i_upd. apply R_akin. Qed.
Lemma R_raise k f : pres R (raise_new k f).
Proof. apply i_raise. apply R_akin. Qed.
Lemma R_res r f : pres R (upd (on_result r f)).
Proof. intros s H. cbn. eapply R_akin; [|exact H]. destruct r; akin. Qed.
Lemma R_outer e s : outer e = true -> R s -> R (emit e s).
Proof. intros. apply U_R, outer_U; auto. Qed.

Lemma R_fire' h t : h <> HTestEnd -> h <> HTestInterrupt -> pres R (fire E h t).
Proof. intros. apply R_of, R_fire; auto. Qed.

Lemma R_call_cleanup sid c : pres R (call_cleanup E sid c).
Proof.
  intros s H. unfold call_cleanup.
  assert (F : pres R (finally
    (upd (on_cm (with_current (Some sid))) ;; upd (emit (EvRun (c_id c))) ;;
     except_ [TException] (tap (c_id c) (exec E (c_body c)))
       (fun x => upd (add_exception E (c_result c) x) ;; reraise x))
    (upd (on_cm (with_current (cm_current (st_cm s))))))).
  { apply pres_finally; [|apply R_upd; intros; akin].
    apply pres_seq; [apply R_upd; intros; akin|].
    intros s' H'. apply U_R. unfold seq at 1. cbn [upd].
    assert (P : pres (U true) (except_ [TException] (tap (c_id c) (exec E (c_body c)))
       (fun x => upd (add_exception E (c_result c) x) ;; reraise x))).
    { apply pres_except; [apply i_tap; [apply U_inner|apply U_exec]|].
      intros x. apply pres_seq; [|apply pres_reraise]. intros s2 H2. cbn. apply i_add_exception; auto; [apply U_akin|apply U_inner]. }
    apply P. apply outer_U; auto. }
  exact (F s H).
Qed.

Lemma R_loop fuel sid f i : pres R (cleanup_loop E fuel sid f i).
Proof.
  induction fuel as [|fuel IH]; intros s H; cbn [cleanup_loop]; auto.
  destruct (scope_cleanups sid s) as [|c cl]; auto.
  set (s0 := on_cm _ s).
  assert (H0 : R s0) by (eapply R_akin; [|exact H]; akin).
  destruct (i && negb (c_crit c)); [apply IH; auto|].
  destruct ((f || i) && c_succ c); [apply IH; auto|].
  apply pres_seq; auto. apply R_handling, R_call_cleanup.
Qed.

Lemma R_call_cleanups sid nm f i : pres R (call_cleanups E sid nm f i).
Proof.
  apply pres_seq.
  - destruct (sname_eqb nm STest); [|apply pres_ret].
    intros s H. apply R_handling; auto. apply R_fire'; discriminate.
  - intros s H. apply R_loop; auto.
Qed.

Lemma R_push n : to R (U true) (cm_push n).
Proof. intros s H. unfold cm_push. cbn [fst]. cbv zeta. refine (outer_U (EvPush _ _) _ eq_refl _). eapply R_akin; [|exact H]. akin. Qed.

Lemma R_pop n : pres R (cm_pop E n).
Proof.
  intros s H. unfold cm_pop. cbv zeta. destruct (cm_stack (st_cm s)) as [|sc l]; [apply R_raise; auto|].
  destruct (negb _); [apply R_raise; auto|].
  match goal with |- context[call_cleanups E ?a ?b ?c ?d ?x] => pose proof (R_call_cleanups a b c d x) as P end.
  specialize (P ltac:(apply R_outer; auto)).
  destruct (call_cleanups _ _ _ _ _ _) as [s1 [| x |]]; cbn [fst] in *; auto;
    apply R_outer; auto; (eapply R_akin; [|exact P]; akin).
Qed.

Lemma R_fix_pop n : pres R (fix_pop E n).
Proof.
  assert (D : forall l fid, pres R (deactivate_fixture E l fid)).
  { intros l fid s H. unfold deactivate_fixture. destruct (lookup fid (fix_get l s)) as [fin|]; auto.
    unfold seq. cbn. apply U_R, U_exec, outer_U; auto. }
  assert (A : forall l fids, pres R (deactivate_all E l fids)).
  { intros l fids. induction fids; simpl; [apply pres_ret|]. apply pres_seq; auto. apply R_handling, D. }
  assert (L : forall sl l, pres R (fix_pop_level E sl l)).
  { intros sl l s H. unfold fix_pop_level. destruct (Nat.leb _ _); auto.
    apply pres_seq; auto. intros s' H'. destruct (nonempty _); auto. }
  assert (Ls : forall sl ls, pres R (fix_pop_levels E sl ls)).
  { intros sl ls. induction ls; simpl; [apply pres_ret|apply pres_seq; auto]. }
  intros s H. unfold fix_pop. destruct (current_interrupted s); auto. apply Ls; auto.
Qed.

Lemma R_sm_push n : to R (U true) (sm_push n).
Proof. intros s H. unfold sm_push, seq. cbn [upd]. apply R_push. eapply R_akin; [|exact H]. akin. Qed.

Lemma R_sm_pop n : pres R (sm_pop E n).
Proof.
  intros s H. unfold sm_pop. destruct (st_scopes s) as [|p rest]; [apply R_raise; auto|]. cbv zeta.
  assert (H1 : R (set_scopes rest s)) by (eapply R_akin; [|exact H]; akin).
  destruct (negb _); [apply R_raise; auto|].
  assert (H2 : pres R (call_all None [cm_pop E n; fix_pop E n])).
  { apply pres_call_all. intros f [<-|[<-|[]]]; [apply R_pop|apply R_fix_pop]. }
  specialize (H2 _ H1).
  destruct (call_all None _ (set_scopes rest s)) as [s1 [| x |]]; cbn [fst] in *; auto; apply R_outer; auto.
Qed.

Lemma R_begin t : to R R (begin_test E t) /\ norm R (U true) (begin_test E t).
Proof.
  assert (Z : pres (U true) (upd (set_lasttest (Some (t_id t))))) by (apply i_upd; [apply U_akin|intros; akin]).
  assert (L : to R (U true) (sm_push STest ;; upd (set_lasttest (Some (t_id t))))).
  { apply (to_seq R (U true) (U true)); [apply R_sm_push|apply to_norm, R_sm_push|exact Z]. }
  unfold begin_test. destruct (t_module t) as [m|]; [|split; [apply R_raise|intros s H; discriminate]].
  match goal with |- to R R (?a ;; ?b ;; ?c ;; ?d) /\ _ => assert (P : pres R a /\ pres R b /\ pres R c) end.
  { split; [|split].
    - apply pres_cond; [apply R_of, R_sm_push|apply pres_ret].
    - apply pres_cond; [|apply pres_ret].
      apply pres_seq; [apply pres_cond; [apply R_sm_pop|apply pres_ret]|].
      apply pres_seq; [apply pres_cond; [apply R_raise|apply pres_ret]|apply R_of, R_sm_push].
    - apply R_upd. intros; akin. }
  destruct P as (A & B & C). split.
  - apply pres_seq; [exact A|]. apply pres_seq; [exact B|]. apply pres_seq; [exact C|]. apply R_of, L.
  - apply (norm_seq R R); [apply to_norm, A|]. apply (norm_seq R R); [apply to_norm, B|].
    apply (norm_seq R R); [apply to_norm, C|]. apply to_norm, L.
Qed.

Lemma R_end t : pres R (end_test E t).
Proof. apply pres_cond; [apply R_raise|apply R_sm_pop]. Qed.

Lemma R_flush : pres R (flush_remaining_scopes E).
Proof.
  intros s H. unfold flush_remaining_scopes.
  assert (H1 : pres R (call_all None (map (sm_pop E) (st_scopes s)))).
  { apply pres_call_all. intros f Hf. apply in_map_iff in Hf as [n [<- _]]. apply R_sm_pop. }
  apply H1; auto.
Qed.

Lemma R_initiate : pres R (initiate_cleanup E).
Proof.
  apply pres_cond; [|apply pres_ret]. apply pres_finally; apply R_handling; [|apply R_flush]. apply R_fire'; discriminate.
Qed.

Lemma U_ctl_start t : pres (U true) (ctl_start E t).
Proof.
  apply pres_cond; [apply pres_ret|]. apply pres_seq; [apply i_upd; [apply U_akin|intros; akin]|].
  apply pres_seq; [intros s H; cbn; eapply U_akin; [|exact H]; akin|].
  intros s H. apply R_fire; try discriminate. apply U_R; auto.
Qed.

(** the handlers of test_end *)
Lemma R_ctl_end t prev : pres R (ctl_end E t prev).
Proof.
  apply pres_cond; [|apply pres_ret]. apply pres_seq; [apply R_upd; intros; akin|].
  apply pres_finally; [|apply R_upd; intros; akin].
  intros s (A & B). unfold forbid_implicit. cbv zeta. rewrite B.
  assert (X : U false (emit (EvHook HTestEnd t) (on_cm (with_implicit false) s))).
  { unfold U. cbn [emit st_trace st_cm on_cm set_cm with_implicit cm_implicit]. rewrite in_test_end_snoc.
    split; [|split; reflexivity]. apply good_snoc; [exact A|exact I]. }
  unfold finally. unfold seq at 1. cbn [upd].
  assert (P : pres (U false) (exec E (e_hook E HTestEnd t) ;; upd (on_result (RTest t) r_mark_finished))).
  { apply pres_seq; [apply U_exec|]. intros s' H'. cbn. eapply U_akin; [|exact H']. akin. }
  assert (Q : U false (fst ((fire E HTestEnd t ;; upd (on_result (RTest t) r_mark_finished)) (on_cm (with_implicit false) s)))).
  { specialize (P _ X). unfold fire. unfold seq in *. cbn [upd] in *. exact P. }
  assert (W : forall s', U false s' -> R (on_cm (with_implicit true) s')).
  { intros s' (X1 & X2 & X3). split; [exact X1|reflexivity]. }
  destruct ((fire E HTestEnd t ;; upd (on_result (RTest t) r_mark_finished)) (on_cm (with_implicit false) s)) as [s1 [| x |]] eqn:Er;
    cbn [fst] in *; auto.
  exfalso. assert (N : nofuel (fire E HTestEnd t ;; upd (on_result (RTest t) r_mark_finished)))
    by (apply nofuel_seq; [apply nofuel_fire|apply nofuel_upd]).
  apply (N (on_cm (with_implicit false) s)). rewrite Er. reflexivity.
Qed.

Lemma R_summary t : pres R (fire_summary E t).
Proof.
  intros s H. unfold fire_summary. apply R_handling; auto. intros s' H'.
  destruct (lookup t (st_results s')); auto.
  repeat match goal with |- context[if ?b then _ else _] => destruct b end; apply R_fire'; auto; discriminate.
Qed.

Lemma U_test_context t body : (forall p, to (U true) R (body p)) -> to (U true) R (test_context t body).
Proof.
  intros Hb s Hs. unfold test_context.
  assert (F : to (U true) R (finally
    (upd (set_test (Some t)) ;; create_result t ;;
     (fun s0 => finally (upd (set_result (RTest t)) ;; body (st_result s0)) (upd (set_result (st_result s0))) s0))
    (upd (set_test (st_test s))))).
  { apply (to_finally _ R); [|apply R_upd; intros; akin|auto].
    assert (K : forall f, (forall s, akin s (f s)) -> pres (U true) (upd f)) by (intros; apply i_upd; [apply U_akin|auto]).
    assert (KR : forall m, pres (U true) m -> to (U true) R m) by (intros m H s' H'; apply U_R; auto).
    apply (to_seq _ (U true)); [apply KR|apply to_norm|]; try (apply K; intros; akin).
    assert (C : pres (U true) (create_result t)).
    { intros s' Hs'. unfold create_result. destruct (lookup t (st_results s')); [apply i_raise; auto; apply U_akin|].
      eapply U_akin; [|exact Hs']. akin. }
    apply (to_seq _ (U true)); [apply KR, C|apply to_norm, C|].
    intros s1 H1. 
    assert (G : to (U true) R (finally (upd (set_result (RTest t)) ;; body (st_result s1)) (upd (set_result (st_result s1))))).
    { apply (to_finally _ R); [|apply R_upd; intros; akin|auto].
      apply (to_seq _ (U true)); [apply KR|apply to_norm|apply Hb]; apply K; intros; akin. }
    apply G; auto. }
  apply F; auto.
Qed.

Lemma R_test_context_ret t : pres R (test_context t (fun _ => ret)).
Proof.
  intros s Hs. unfold test_context.
  assert (F : pres R (finally
    (upd (set_test (Some t)) ;; create_result t ;;
     (fun s0 => finally (upd (set_result (RTest t)) ;; ret) (upd (set_result (st_result s0))) s0))
    (upd (set_test (st_test s))))).
  { apply pres_finally; [|apply R_upd; intros; akin].
    apply pres_seq; [apply R_upd; intros; akin|].
    apply pres_seq.
    - intros s' Hs'. unfold create_result. destruct (lookup t (st_results s')); [apply R_raise; auto|].
      eapply R_akin; [|exact Hs']. akin.
    - intros s1 H1.
      assert (G : pres R (finally (upd (set_result (RTest t)) ;; ret) (upd (set_result (st_result s1))))).
      { apply pres_finally; [apply pres_seq; [|apply pres_ret]|]; apply R_upd; intros; akin. }
      apply G; auto. }
  apply F; auto.
Qed.

Lemma U_process t : to (U true) R (process_requirements E t) /\ norm (U true) R (process_requirements E t).
Proof.
  assert (P : to (U true) R (process_requirements E t)).
  { apply (to_seq _ (U true)); [intros s H; apply U_R, U_exec; auto|apply to_norm, U_exec|].
    assert (K : forall m, pres R m -> to (U true) R m) by (intros m H s H'; apply H, U_R; auto).
    destruct (negb _); [apply K, pres_seq; [apply i_add_skips; [apply R_akin|apply R_inner]|apply R_fire'; discriminate]|].
    destruct (t_excluded t); [apply K, pres_seq; [apply (i_add_skips R R_akin R_inner 1)|apply R_fire'; discriminate]|].
    intros s H. apply U_R; auto. }
  split; [exact P|apply to_norm, P].
Qed.

Lemma U_run_single t b : to (U true) R (run_single E t b).
Proof.
  apply U_test_context. intros prev.
  assert (G : forall h m, to (U true) R m -> to (U true) R (handling E h m)).
  { intros h m H s Hs. unfold handling. specialize (H s Hs). destruct (m s) as [s1 [| x |]]; cbn [fst] in *; auto.
    repeat match goal with |- context[if ?b then _ else _] => destruct b end; cbn [fst]; auto; apply (i_handle R R_akin R_inner); auto. }
  apply G. destruct (U_process t) as [P1 P2].
  apply (to_seq _ R); [exact P1|exact P2|]. destruct (should_run t); [|apply pres_ret].
  apply pres_seq; [apply R_res|]. apply pres_seq; [apply R_upd; intros; akin|].
  apply pres_finally; [|apply R_ctl_end].
  apply pres_except; [|intros; apply pres_ret].
  apply pres_seq; [|apply pres_seq; [apply R_summary|]].
  - apply pres_except; [|intros; apply pres_ret]. apply R_handling.
    destruct (R_begin t) as [B1 B2].
    apply (to_seq R (U true) R); [exact B1|exact B2|].
    apply (to_finally (U true) R R); [|apply R_end|auto].
    assert (KR : forall m, pres (U true) m -> to (U true) R m) by (intros m H s' H'; apply U_R; auto).
    apply KR. apply pres_seq; [apply U_ctl_start|]. apply U_handling, U_exec.
  - destruct (_ && _); [|apply pres_ret].
    apply pres_seq; [apply R_ctl_end|]. apply R_handling, R_initiate.
Qed.

Lemma R_run_loop ts : forall last s, R s -> R (fst (fst (fst (run_loop E last ts s)))).
Proof.
  induction ts as [|t ts IH]; intros last s H; cbn [run_loop]; auto.
  assert (H1 : R (fst (set_metadata E (t_id t) s))).
  { unfold set_metadata. destruct (lookup _ _); [apply R_raise; auto|].
    destruct (e_worker E); (eapply R_akin; [|exact H]; akin). }
  destruct (set_metadata E (t_id t) s) as [s1 [| x |]]; cbn [fst] in *; auto.
  set (s2 := emit (EvReportStart (t_id t)) (if file_differs last (t_file t) then emit (EvFileStart (t_file t)) s1 else s1)).
  assert (H2 : U true s2).
  { apply outer_U; auto. destruct (file_differs _ _); auto. apply R_outer; auto. }
  pose proof (U_run_single t (nonempty ts) s2 H2) as H3.
  fold s2. destruct (run_single E t (nonempty ts) s2) as [s3 [| x |]]; cbn [fst] in *; auto.
  match goal with |- context[emit (EvReportEnd _) s3] => set (s4 := emit (EvReportEnd (t_id t)) s3) end.
  assert (H4 : R s4) by (apply R_outer; auto).
  match goal with |- context[match ts with [] => emit ?e s4 | _ => _ end] =>
    set (s5 := match ts with [] => emit e s4 | t' :: _ => if Nat.eqb (t_file t') (t_file t) then s4 else emit e s4 end) end.
  assert (H5 : R s5).
  { unfold s5. destruct ts; [apply R_outer; auto|]. destruct (Nat.eqb _ _); auto. apply R_outer; auto. }
  repeat match goal with |- context[if ?b then _ else _] => destruct b end; cbn [fst]; auto.
Qed.

Lemma R_mark_unrun l : pres R (mark_unrun l).
Proof. induction l; simpl; [apply pres_ret|]. apply pres_seq; auto. apply R_test_context_ret. Qed.

Lemma R_run_tests ts : pres R (run_tests E ts).
Proof.
  intros s H. unfold run_tests. pose proof (R_run_loop ts None s H) as H1.
  destruct (run_loop E None ts s) as [[[s1 o] e] last]. cbn [fst] in H1.
  assert (H2 : R (fst ((if e_worker E then ret else initiate_cleanup E) s1))).
  { destruct (e_worker E); auto. apply R_initiate; auto. }
  destruct o; auto;
    destruct ((if e_worker E then ret else initiate_cleanup E) s1) as [s2 [| x' |]]; cbn [fst] in *; auto.
  destruct (e_worker E); auto.
  match goal with |- R (fst ((?a ;; ?b) s2)) => assert (P : pres R (a ;; b)) end; [|apply P; auto].
  apply pres_seq; [apply R_mark_unrun|].
  destruct e, last; first [apply pres_ret | intros s' H'; apply R_outer; auto].
Qed.

Lemma R_session ts : R (fst (run_session E ts)).
Proof.
  assert (P : pres R (started_context E (run_tests E ts))).
  { unfold started_context. apply pres_seq; [apply R_of, R_push|]. apply pres_seq; [apply R_upd; intros; akin|].
    apply pres_finally.
    - apply pres_except; [|intros; apply pres_seq; [apply R_fire'; discriminate|apply pres_reraise]].
      apply pres_seq; [|apply R_run_tests]. apply R_handling.
      repeat first [apply R_fire'; discriminate | apply pres_seq | apply R_upd; intros; akin].
    - apply pres_seq; [apply R_handling, R_pop|].
      apply pres_cond; [|apply pres_ret]. apply pres_seq; apply R_handling, R_fire'; discriminate. }
  apply P. split; [apply good_nil|reflexivity].
Qed.

End Implicit.
