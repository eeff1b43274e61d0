(** What a closing scope is told about failures and interruptions, and which fixtures it takes down:
    proofs behind C03_flags and C29_session_torn, C29_session_within. *)

From Coq Require Import List Bool Arith PeanoNat Lia.
From Verif Require Import Events Core CoreSpec CoreBase Frame Records Generic FixOrder.
Import ListNotations.

(** ** What the trace says *)

(** where the session is: between tests, with a test of which test_start has not been fired (which may have been
    given up), or between its test_start and its test_end *)
Inductive place := Idle | Pending (t : nat) | Running (t : nat).
Definition place1 (w : place) (e : event) : place :=
  match e with
  | EvReportStart t => Pending t
  | EvHook HTestStart t => Running t
  | EvHook HTestEnd _ => Idle
  | EvReportEnd _ => Idle
  | _ => w
  end.
Definition place_of (t : list event) : place := fold_left place1 t Idle.

(** an error, failure or interruption has been recorded on [r]; an interruption has been *)
Definition bad_on (r : rref) (p : list event) : Prop :=
  exists k src f, In (EvRecord r k src f) p /\ (k = RKError \/ k = RKFailure \/ k = RKInterrupt).
Definition stopped_on (r : rref) (p : list event) : Prop := exists src f, In (EvRecord r RKInterrupt src f) p.

Definition test_flags (t : nat) (p : list event) (f i : bool) : Prop :=
  (f = true <-> bad_on (RTest t) p) /\ (i = true <-> stopped_on (RTest t) p).
(** [ids]: the tests of the session *)
Definition session_flags (ids : list nat) (p : list event) (f i : bool) : Prop :=
  ((exists r, bad_on r p) -> f = true) /\
  (f = true -> (exists r, bad_on r p) \/ exists t, In t ids /\ ~ In (EvHook HTestStart t) p) /\
  (i = true <-> exists r, stopped_on r p).

(** the fixtures taken down since a scope was last torn down completely *)
Definition downs1 (a : list nat) (e : event) : list nat :=
  match e with EvFixDown f => f :: a | EvTeardown _ _ => [] | _ => a end.
Definition downs (t : list event) : list nat := fold_left downs1 t [].

(** the levels of fixtures that end with a scope *)
Definition covers (n : sname) (l : flevel) : Prop :=
  match n with STest => l = FTest | SModule => l <> FSession | _ => True end.

(** no interruption of what is going on *)
Definition calm (p : list event) : Prop :=
  match place_of p with Running t => ~ stopped_on (RTest t) p | _ => forall r, ~ stopped_on r p end.

Definition no_end (p : list event) : Prop := forall sid n b, ~ In (EvPopEnd sid n b) p.

(** what the last scope that closed covers is down *)
Definition torn (n : sname) (p : list event) : Prop :=
  forall p0 sid m b p1, p = p0 ++ EvPopEnd sid m b :: p1 -> no_end p1 ->
    m = n /\ forall fid l, In (EvFixUp fid l) p0 -> covers n l -> In (EvFixDown fid) p.

Definition told (ids : list nat) (p : list event) (e : event) : Prop :=
  match e with
  | EvPopBegin _ _ f i =>
      downs p = [] /\
      match place_of p with
      | Running t => test_flags t p f i
      | Pending t => test_flags t p f i \/ session_flags ids p f i
      | Idle => session_flags ids p f i
      end
  | EvPush _ _ | EvRun _ | EvPopEnd _ _ _ => downs p = []
  | EvTeardown n ok =>
      (forall fid, In fid (downs p) -> exists l, In (EvFixUp fid l) p /\ covers n l) /\
      (ok = true -> calm p -> torn n p)
  | _ => True
  end.

Lemma downs_snoc t e : downs (t ++ [e]) = downs1 (downs t) e.
Proof. unfold downs. rewrite fold_left_app. reflexivity. Qed.

Lemma place_snoc t e : place_of (t ++ [e]) = place1 (place_of t) e.
Proof. unfold place_of. rewrite fold_left_app. reflexivity. Qed.
Lemma place_quiet l : forall t, forallb quiet l = true -> place_of (t ++ l) = place_of t.
Proof.
  induction l as [|e l IH]; intros t H; [rewrite app_nil_r; auto|]. cbn in H. apply andb_true_iff in H as [H1 H2].
  change (e :: l) with ([e] ++ l). rewrite app_assoc, IH, place_snoc by auto.
  destruct e; try discriminate; auto. destruct h; try discriminate; auto.
Qed.

Ltac wfield := intros; constructor; try reflexivity; [apply incl_refl | exists []; rewrite app_nil_r; auto].
Ltac fplain := intros; constructor; try reflexivity;
  [exists []; rewrite app_nil_r; auto | apply res_grow_refl | apply grow_refl].

Section Flags.
Variable E : env.
Variable ids : list nat.

Definition good (t : list event) : Prop := forall a e b, t = a ++ e :: b -> told ids a e.
Lemma good_nil : good [].
Proof. intros a e b H. destruct a; discriminate. Qed.
Lemma good_snoc t e : good t -> told ids t e -> good (t ++ [e]).
Proof.
  intros G F a x b H. destruct b as [|y b] using rev_ind.
  - apply app_inj_tail in H. destruct H as [-> ->]. auto.
  - rewrite app_comm_cons, app_assoc in H. apply app_inj_tail in H. destruct H as [-> ->]. eapply G; eauto.
Qed.

(** ** Outside of the teardown of fixtures *)

(** what matters to [F] *)
Definition view (s : state) : state :=
  mkState cman0 (st_global state0) [] [] [] 0 (st_fix s) (st_nfix s) [] None None None RGlobal false false 0 [] (st_trace s).
Lemma to_view s : F s -> F (view s).
Proof. apply (proj1 F_local); reflexivity. Qed.
Lemma of_view s : F (view s) -> F s.
Proof. apply (proj1 F_local); reflexivity. Qed.

Definition G (s : state) : Prop := good (st_trace s) /\ F (view s) /\ downs (st_trace s) = [].
Lemma G_F s : G s -> F s.
Proof. intros (_ & H & _). apply of_view; auto. Qed.
(** events of which nothing but [downs] matters *)
Definition nopop (e : event) : bool :=
  match e with EvPopBegin _ _ _ _ | EvFixUp _ _ | EvFixDown _ | EvTeardown _ _ => false | _ => true end.
Lemma G_emit e s : nopop e = true -> G s -> G (emit e s).
Proof.
  intros H (K & L & D). split; [|split].
  - apply good_snoc; auto. destruct e; try discriminate; cbn; auto.
  - apply to_view, (proj2 F_local); [destruct e; try discriminate; auto|apply of_view; auto].
  - cbn [emit st_trace]. rewrite downs_snoc, D. destruct e; try discriminate; auto.
Qed.
Lemma G_same s s' : st_fix s' = st_fix s -> st_nfix s' = st_nfix s -> st_trace s' = st_trace s -> G s -> G s'.
Proof.
  intros A B C (K & L & D). unfold G. rewrite C. split; [auto|split; [|auto]].
  apply to_view, (proj1 F_local s s'); auto. apply of_view; auto.
Qed.
Lemma G_alike s s' : alike s s' -> G s -> G s'.
Proof. intros []. apply G_same; auto. Qed.
Lemma G_other e s : other e = true -> G s -> G (emit e s).
Proof. intros H. apply G_emit. destruct e; try discriminate; auto. Qed.
Lemma G_run c s : G s -> G (emit (EvRun c) s).
Proof. apply G_emit; auto. Qed.

(** registering a cleanup *)
Lemma add_shape (P : state -> Prop) sc crit succ body :
  (forall s s', st_fix s' = st_fix s -> st_nfix s' = st_nfix s -> st_trace s' = st_trace s -> P s -> P s') ->
  (forall c r t a b q s, P s -> P (emit (EvAdd c r t a b q) s)) -> (forall nm k s, P s -> P (emit (EvReject nm k) s)) ->
  pres P (tap_add sc (add_cleanup sc crit succ body)).
Proof.
  intros Hs Ha Hr s H. unfold tap_add, add_cleanup. destruct (succ && crit).
  { unfold raise_new; cbn [fst x_kind]. apply Hr. eapply Hs; [| | |exact H]; reflexivity. }
  cbv zeta. set (s1 := on_cm (fun m => with_ncid (S (cm_ncid m)) m) s).
  assert (H1 : P s1) by (eapply Hs; [| | |exact H]; reflexivity).
  assert (A : forall c req tgt, P (attach c req tgt s1)).
  { intros c req tgt. unfold attach. cbv zeta.
    assert (H2 : P (emit (EvAdd (c_id c) req tgt (c_crit c) (c_succ c) (c_result c)) s1)) by auto.
    destruct tgt; (eapply Hs; [| | |exact H2]; reflexivity). }
  assert (B : forall k nm, P (emit (EvReject nm k) (fst (raise_new k false s1)))).
  { intros. apply Hr. eapply Hs; [| | |exact H1]; reflexivity. }
  destruct (match sc with SDefault => _ | SGiven n => n end) as [n|].
  - destruct (name_lookup n (cm_names (st_cm s1))) as [[|sid l]|]; cbn [fst]; auto; apply B.
  - destruct (negb _); [apply B|apply A].
Qed.
Lemma G_add sc crit succ body : pres G (tap_add sc (add_cleanup sc crit succ body)).
Proof. apply add_shape; [apply G_same| |]; intros; apply G_emit; auto. Qed.
Lemma G_up l fin : pres G (activate_fixture l fin).
Proof.
  intros s (K & L & D). split; [|split; [apply to_view, F_up, of_view; auto|]].
  - apply good_snoc; [exact K|exact I].
  - unfold activate_fixture. cbn [fst emit st_trace set_nfix set_fix]. rewrite downs_snoc, D. reflexivity.
Qed.
Lemma G_tl sid s : G s -> G (on_cm (fun m => with_stack (on_scope sid (@tl _) (cm_stack m)) m) s).
Proof. apply G_same; reflexivity. Qed.

Lemma G_exec p : pres G (exec E p).
Proof. apply gen_exec; auto using G_other, G_add, G_up. apply G_alike. Qed.
Lemma G_fire h t : pres G (fire E h t).
Proof. apply gen_fire; auto using G_other, G_add, G_up. apply G_alike. Qed.
Lemma G_handle x s : G s -> G (handle_exception E x s).
Proof. apply gen_handle; auto using G_other. apply G_alike. Qed.
Lemma G_call_cleanups sid nm f i : pres G (call_cleanups E sid nm f i).
Proof. apply gen_call_cleanups; auto using G_other, G_add, G_up, G_tl, G_run. apply G_alike. Qed.

(** ** The teardown of the fixtures of a scope *)

(** what is active has been activated; what went down is of a level of the scope *)
Definition D (n : sname) (s : state) : Prop :=
  good (st_trace s) /\ (forall l fid, In fid (FixOrder.ids l s) -> In (EvFixUp fid l) (st_trace s)) /\
  (forall fid, In fid (downs (st_trace s)) -> exists l, In (EvFixUp fid l) (st_trace s) /\ covers n l).

Lemma D_same n s s' : st_fix s' = st_fix s -> st_nfix s' = st_nfix s -> st_trace s' = st_trace s -> D n s -> D n s'.
Proof. intros A B C. unfold D, FixOrder.ids, fix_get. rewrite A, C. auto. Qed.
Lemma D_emit n e s : told ids (st_trace s) e -> match e with EvFixDown _ | EvTeardown _ _ => False | _ => True end -> D n s -> D n (emit e s).
Proof.
  intros Ht Hd (K & U & V). split; [apply good_snoc; auto|]. cbn [emit st_trace]. split.
  - intros l fid Hin. apply in_app_iff. left. apply U; auto.
  - intros fid. rewrite downs_snoc.
    assert (Q : downs1 (downs (st_trace s)) e = downs (st_trace s)) by (destruct e; tauto || reflexivity). rewrite Q.
    intros Hin. destruct (V fid Hin) as (l & A & B). exists l. split; auto. apply in_app_iff. auto.
Qed.
Lemma D_other n e s : other e = true -> D n s -> D n (emit e s).
Proof. intros H. apply D_emit; destruct e; try discriminate; cbn; auto. Qed.
Lemma D_alike n s s' : alike s s' -> D n s -> D n s'.
Proof. intros []. apply D_same; auto. Qed.
Lemma D_add n sc crit succ body : pres (D n) (tap_add sc (add_cleanup sc crit succ body)).
Proof. apply add_shape; [apply D_same| |]; intros; apply D_emit; cbn; auto. Qed.
Lemma D_up n l fin : pres (D n) (activate_fixture l fin).
Proof.
  intros s (K & U & V). pose proof (up_ids s l fin) as X. unfold D. rewrite (up_trace s l fin).
  split; [apply good_snoc; [exact K|exact I]|split].
  - intros k fid. rewrite X. intros Hin. apply in_app_iff. destruct (flevel_eqb k l) eqn:Ek; [|left; apply U; auto].
    apply flevel_eqb_eq in Ek. subst k. apply in_app_iff in Hin as [Hin|[<-|[]]]; [left; apply U; auto|right; left; auto].
  - intros fid. rewrite downs_snoc. cbn [downs1]. intros Hin. destruct (V fid Hin) as (k & A & B). exists k. split; auto.
    apply in_app_iff. auto.
Qed.
Lemma D_exec n p : pres (D n) (exec E p).
Proof. apply gen_exec; auto using D_other, D_add, D_up. apply D_alike. Qed.
Lemma D_handle n x s : D n s -> D n (handle_exception E x s).
Proof. apply gen_handle; auto using D_other. apply D_alike. Qed.

Lemma D_down n l fid s : covers n l -> In fid (FixOrder.ids l s) -> D n s -> D n (down l fid s).
Proof.
  intros Hc Hin (K & U & V). pose proof (down_ids s l fid) as X. unfold D. rewrite !(eq_refl : st_trace (down l fid s) = st_trace s ++ [EvFixDown fid]).
  split; [apply good_snoc; [exact K|exact I]|split].
  - intros k f. rewrite X. intros H. apply in_app_iff. left. destruct (flevel_eqb k l) eqn:Ek; [|apply U; auto].
    apply flevel_eqb_eq in Ek. subst k. apply filter_In in H as [H _]. apply U; auto.
  - intros f. rewrite downs_snoc. cbn [downs1]. intros [<-|H].
    + exists l. split; auto. apply in_app_iff. left. apply U; auto.
    + destruct (V f H) as (k & A & B). exists k. split; auto. apply in_app_iff. auto.
Qed.

Lemma lookup_in {A} f (d : list (nat * A)) v : lookup f d = Some v -> In f (map fst d).
Proof.
  induction d as [|[x p] d IH]; cbn; [discriminate|]. destruct (Nat.eqb f x) eqn:Q; [|auto].
  apply Nat.eqb_eq in Q. auto.
Qed.

Lemma D_fix_pop n : pres (D n) (fix_pop E n).
Proof.
  assert (Dd : forall l fid, covers n l -> pres (D n) (deactivate_fixture E l fid)).
  { intros l fid Hc s H. unfold deactivate_fixture. destruct (lookup fid (fix_get l s)) as [fin|] eqn:El; auto.
    apply (D_exec n fin (down l fid s)). apply D_down; auto. eapply lookup_in; exact El. }
  assert (Da : forall l fids, covers n l -> pres (D n) (deactivate_all E l fids)).
  { intros l fids Hc. induction fids; simpl; [apply pres_ret|]. apply pres_seq; auto.
    apply pres_handling; [apply D_handle|]. apply Dd; auto. }
  assert (Dl : forall l, pres (D n) (fix_pop_level E (flevel_of n) l)).
  { intros l s H. unfold fix_pop_level. destruct (Nat.leb _ _) eqn:El; auto.
    assert (Hc : covers n l) by (destruct n, l; cbn in El; try discriminate; cbn; auto; discriminate).
    apply pres_seq; auto. intros s' H'. destruct (nonempty _); auto. }
  assert (Ds : forall ls, pres (D n) (fix_pop_levels E (flevel_of n) ls)).
  { intros ls. induction ls; simpl; [apply pres_ret|apply pres_seq; auto]. }
  intros s H. unfold fix_pop. destruct (current_interrupted s); auto. apply Ds; auto.
Qed.

Lemma G_D n s : G s -> D n s.
Proof.
  intros (K & L & Q). apply of_view in L. split; [auto|split].
  - intros l fid Hin. apply (f_act _ L) in Hin as [[i Hi] _]. eapply nth_error_In; exact Hi.
  - intros fid. rewrite Q. intros [].
Qed.

(** no scope closes meanwhile *)
Definition ext (t0 : list event) (s : state) : Prop := exists l, st_trace s = t0 ++ l /\ no_end l.
Lemma ext_refl s : ext (st_trace s) s.
Proof. exists []. rewrite app_nil_r. split; auto. intros sid n b []. Qed.
Lemma ext_emit t0 e s : match e with EvPopEnd _ _ _ => False | _ => True end -> ext t0 s -> ext t0 (emit e s).
Proof.
  intros He (l & A & B). exists (l ++ [e]). cbn [emit st_trace]. rewrite A, app_assoc. split; auto.
  intros sid n b Hin. apply in_app_iff in Hin as [Hin|[->|[]]]; [exact (B _ _ _ Hin)|exact He].
Qed.
Lemma ext_same t0 s s' : st_fix s' = st_fix s -> st_nfix s' = st_nfix s -> st_trace s' = st_trace s -> ext t0 s -> ext t0 s'.
Proof. intros _ _ C. unfold ext. rewrite C. auto. Qed.
Section Ext.
Variable t0 : list event.
Lemma ext_alike s s' : alike s s' -> ext t0 s -> ext t0 s'.
Proof. intros []. apply ext_same; auto. Qed.
Lemma ext_other e s : other e = true -> ext t0 s -> ext t0 (emit e s).
Proof. intros H. apply ext_emit. destruct e; try discriminate; auto. Qed.
Lemma ext_add sc crit succ body : pres (ext t0) (tap_add sc (add_cleanup sc crit succ body)).
Proof. apply add_shape; [apply ext_same| |]; intros; apply ext_emit; cbn; auto. Qed.
Lemma ext_up l fin : pres (ext t0) (activate_fixture l fin).
Proof. intros s H. unfold activate_fixture. cbn [fst]. apply ext_emit; auto. Qed.
Lemma ext_exec p : pres (ext t0) (exec E p).
Proof. apply gen_exec; auto using ext_other, ext_add, ext_up. apply ext_alike. Qed.
Lemma ext_deactivate l fid : pres (ext t0) (deactivate_fixture E l fid).
Proof.
  intros s H. unfold deactivate_fixture. destruct (lookup fid (fix_get l s)) as [fin|]; auto.
  apply (ext_exec fin (down l fid s)). apply ext_emit; auto.
Qed.
Lemma ext_all l fids : pres (ext t0) (deactivate_all E l fids).
Proof.
  induction fids; simpl; [apply pres_ret|]. apply pres_seq; auto.
  apply pres_handling; [|apply ext_deactivate]. intros; apply gen_handle; auto using ext_other. apply ext_alike.
Qed.
Lemma ext_level sl l : pres (ext t0) (fix_pop_level E sl l).
Proof.
  intros s H. unfold fix_pop_level. destruct (Nat.leb _ _); auto.
  apply pres_seq; auto; [apply ext_all|]. intros s' H'. destruct (nonempty _); auto.
Qed.
Lemma ext_levels sl ls : pres (ext t0) (fix_pop_levels E sl ls).
Proof. induction ls; simpl; [apply pres_ret|apply pres_seq; auto]. apply ext_level. Qed.
Lemma ext_fix_pop n : pres (ext t0) (fix_pop E n).
Proof. intros s H. unfold fix_pop. destruct (current_interrupted s); auto. apply ext_levels; auto. Qed.
End Ext.
Lemma ext_in t0 s e : ext t0 s -> In e t0 -> In e (st_trace s).
Proof. intros (l & A & _) H. rewrite A. apply in_app_iff. auto. Qed.

(** of the levels looked at, nothing that was active is *)
Lemma F_empty l s : F s -> fix_get l s = [] -> forall fid, In (EvFixUp fid l) (st_trace s) -> In (EvFixDown fid) (st_trace s).
Proof.
  intros H Hn fid Hin.
  assert (Dec : In (EvFixDown fid) (st_trace s) \/ ~ In (EvFixDown fid) (st_trace s)).
  { generalize (st_trace s) as tr. induction tr as [|e tr IH]; [right; intros []|].
    destruct IH as [IH|IH]; [left; right; auto|].
    assert (Q : e = EvFixDown fid \/ e <> EvFixDown fid).
    { destruct e; try (right; discriminate). destruct (Nat.eq_dec fid0 fid); [left; congruence|right; congruence]. }
    destruct Q as [->|Q]; [left; left; auto|right; intros [X|X]; auto]. }
  destruct Dec as [Dec|Dec]; auto. exfalso.
  assert (X : In fid (FixOrder.ids l s)).
  { apply (f_act _ H). apply In_nth_error in Hin as [i Hi]. split; [exists i; exact Hi|].
    intros m Hm. apply Dec. eapply nth_error_In; exact Hm. }
  unfold FixOrder.ids in X. rewrite Hn in X. destruct X.
Qed.

Lemma F_level sl l : pres F (fix_pop_level E sl l).
Proof.
  intros s H. unfold fix_pop_level. destruct (Nat.leb _ _); auto. unfold seq.
  pose proof (all_down E l (rev (FixOrder.ids l s)) (FixOrder.ids l s) s) as Q.
  assert (H1 : F (fst (deactivate_all E l (rev (map fst (fix_get l s))) s))).
  { apply Q; [symmetry; apply rev_involutive|apply (f_sorted _ H)|]. split; auto. }
  destruct (deactivate_all E l _ s) as [s1 [| x |]]; cbn [fst] in *; auto.
  destruct (nonempty _); cbn [fst]; auto. eapply (proj1 F_local); [| | |exact H1]; reflexivity.
Qed.

Lemma level_empty sl l s : F s -> Nat.leb (flevel_num l) (flevel_num sl) = true -> snd (fix_pop_level E sl l s) = ONormal ->
  fix_get l (fst (fix_pop_level E sl l s)) = [].
Proof.
  intros H Hl Hn. unfold fix_pop_level in *. rewrite Hl in *. unfold seq in *.
  destruct (deactivate_all E l _ s) as [s1 [| x |]]; cbn [fst snd] in *; try discriminate.
  destruct (fix_get l s1) eqn:Q; cbn in *; auto. discriminate.
Qed.

Lemma levels_down sl ls : forall s, F s -> snd (fix_pop_levels E sl ls s) = ONormal ->
  forall l fid, In l ls -> Nat.leb (flevel_num l) (flevel_num sl) = true -> In (EvFixUp fid l) (st_trace s) ->
  In (EvFixDown fid) (st_trace (fst (fix_pop_levels E sl ls s))).
Proof.
  induction ls as [|k ls IH]; intros s H Hn l fid Hin Hl Hu; [destruct Hin|].
  cbn [fix_pop_levels] in *. unfold seq in *.
  pose proof (F_level sl k s H) as H1. pose proof (ext_level (st_trace s) sl k s (ext_refl s)) as X.
  pose proof (level_empty sl k s H) as Em.
  destruct (fix_pop_level E sl k s) as [s1 [| x |]]; cbn [fst snd] in *; try discriminate.
  destruct Hin as [<-|Hin].
  - pose proof (F_empty k s1 H1 (Em Hl eq_refl) fid (ext_in _ _ _ X Hu)) as Z.
    eapply ext_in; [|exact Z]. apply ext_levels, ext_refl.
  - apply (IH s1 H1 Hn l fid Hin Hl). eapply ext_in; eauto.
Qed.

Lemma fix_pop_down n s : F s -> current_interrupted s = false -> snd (fix_pop E n s) = ONormal ->
  forall l fid, covers n l -> In (EvFixUp fid l) (st_trace s) -> In (EvFixDown fid) (st_trace (fst (fix_pop E n s))).
Proof.
  intros H Hi Hn l fid Hc Hu. pose proof (ext_fix_pop (st_trace s) n s (ext_refl s)) as X.
  unfold fix_pop in *. rewrite Hi in *.
  assert (Dec : In l (map fst (st_fix s)) \/ fix_get l s = []).
  { unfold fix_get. generalize (st_fix s) as d. induction d as [|[k v] d IH]; [right; reflexivity|].
    cbn. destruct (flevel_eqb l k) eqn:Ek; [apply flevel_eqb_eq in Ek; auto|]. destruct IH; auto. }
  destruct Dec as [Dec|Dec].
  - eapply levels_down; eauto. destruct n, l; cbn in *; auto; try discriminate; congruence.
  - eapply ext_in; [exact X|]. apply (F_empty l s); auto.
Qed.

(** ** The invariant *)

Definition started (t : nat) (s : state) : Prop := exists r, lookup t (st_results s) = Some r /\ r_started r = true.

Record J (s : state) : Prop := mkJ {
  j_W : W E [] s;
  j_good : G s;
  j_place : match place_of (st_trace s) with
            | Idle => st_result s = RGlobal /\ st_ctl s = false
            | Pending t => (st_result s = RGlobal \/ st_result s = RTest t) /\ st_ctl s = false
            | Running t => st_result s = RTest t /\ st_ctl s = true
            end;
  j_start : forall t, In (EvHook HTestStart t) (st_trace s) -> started t s;
  j_glob : r_started (st_global s) = true;
  j_keys : incl (keys s) ids }.
Definition I (s : state) : Prop := J s /\ forall t, st_result s = RTest t -> started t s.

Lemma started_grow t s s' : res_grow (st_results s) (st_results s') -> started t s -> started t s'.
Proof.
  intros [_ H] (r & A & B). destruct (H t r A) as (r' & C & D). exists r'. split; auto. rewrite (g_started _ _ D). auto.
Qed.

Lemma J_frame s s' : frame s s' -> W E [] s' -> G s' -> J s -> J s'.
Proof.
  intros F HW HG [_ _ A B C D]. destruct F. destruct f_trace as (l & Ht & Hl). constructor; auto.
  - rewrite Ht, place_quiet, f_result, f_ctl by auto. exact A.
  - intros t H. rewrite Ht in H. apply in_app_iff in H as [H|H].
    + eapply started_grow; eauto.
    + rewrite forallb_forall in Hl. apply Hl in H. discriminate.
  - rewrite (g_started _ _ f_glob). auto.
  - unfold keys. destruct f_res as [-> _]. exact D.
Qed.
Lemma J_of m : relf m -> pres (W E []) m -> (forall s, J s -> G (fst (m s))) -> pres J m.
Proof. intros F P K s H. apply (J_frame s); auto. apply P, H. Qed.
Lemma I_of m : relf m -> pres (W E []) m -> (forall s, I s -> G (fst (m s))) -> pres I m.
Proof.
  intros F P K s [H S]. split; [apply (J_frame s); auto; [apply P, H|apply K; split; auto]|].
  intros t Ht. rewrite (f_result _ _ (F s)) in Ht. eapply started_grow; [apply (f_res _ _ (F s))|auto].
Qed.

(** events that say nothing about the place *)
Definition still (e : event) : bool :=
  match e with
  | EvReportStart _ | EvReportEnd _ | EvPopBegin _ _ _ _ | EvHook HTestStart _ | EvHook HTestEnd _ => false
  | EvRecord _ _ _ _ | EvRaised _ _ _ | EvHandle _ _ _ _ | EvFixUp _ _ | EvFixDown _ | EvTeardown _ _ => false
  | _ => true
  end.
Lemma J_still e s : still e = true -> J s -> J (emit e s).
Proof.
  intros H [A B C D F K]. constructor; auto.
  - apply W_emit; auto. destruct e; try discriminate; auto.
  - apply G_emit; auto. destruct e; try discriminate; auto.
  - cbn [emit st_trace st_result st_ctl]. rewrite place_snoc.
    assert (X : place1 (place_of (st_trace s)) e = place_of (st_trace s)).
    { destruct e; try discriminate; auto. destruct h; try discriminate; auto. }
    rewrite X. exact C.
  - intros t Ht. cbn in Ht. apply in_app_iff in Ht as [Ht|[Ht|[]]]; [exact (D t Ht)|subst e; discriminate].
Qed.
Lemma I_still e s : still e = true -> I s -> I (emit e s).
Proof. intros H [A B]. split; [apply J_still; auto|]. intros t Ht. apply (B t Ht). Qed.

Lemma J_exec p : pres J (exec E p).
Proof. apply J_of; [apply relf_exec|apply presW_exec|]. intros s H. apply G_exec, H. Qed.
Lemma I_exec p : pres I (exec E p).
Proof. apply I_of; [apply relf_exec|apply presW_exec|]. intros s H. apply G_exec, H. Qed.
Lemma J_fire h t : still (EvHook h t) = true -> pres J (fire E h t).
Proof. intros H. apply pres_seq; [|apply J_exec]. apply pres_upd. intros. apply J_still; auto. Qed.
Lemma I_fire h t : still (EvHook h t) = true -> pres I (fire E h t).
Proof. intros H. apply pres_seq; [|apply I_exec]. apply pres_upd. intros. apply I_still; auto. Qed.
Lemma I_handling h a : pres I a -> pres I (handling E h a).
Proof.
  apply pres_handling. intros x s H. change (handle_exception E x s) with (fst (upd (handle_exception E x) s)).
  apply I_of; auto; [apply relf_upd; intros; apply frame_handle|intros s' H'; apply W_handle; auto|].
  intros s' H'. apply G_handle, H'.
Qed.
Lemma J_handle x s : J s -> J (handle_exception E x s).
Proof.
  intros H. apply (J_frame s); auto; [apply frame_handle|apply W_handle, H|apply G_handle, H].
Qed.
Lemma I_raise k f : pres I (raise_new k f).
Proof. apply I_of; [apply relf_raise|apply presW_raise|]. intros s H. eapply G_alike; [|exact (j_good _ (proj1 H))]. alike. Qed.
Lemma I_upd f : (forall s, frame s (f s)) -> (forall s, wstep s (f s)) -> (forall s, alike s (f s)) -> pres I (upd f).
Proof.
  intros A B C. apply I_of; [apply relf_upd; auto|apply presW_step; auto|].
  intros s H. eapply G_alike; [apply C|apply H].
Qed.
Ltac iupd := apply I_upd; [fplain|wfield|intros; alike].

Lemma recorded_In r k tr : nonempty (recorded r k tr) = true <-> exists src f, In (EvRecord r k src f) tr.
Proof.
  assert (Q : forall k k', rkind_eqb k k' = true <-> k = k') by (intros [] []; cbn; split; intros X; try discriminate; auto).
  split.
  - intros H. destruct (recorded r k tr) as [|[src f] l] eqn:Er; [discriminate|].
    assert (Hin : In (src, f) (recorded r k tr)) by (rewrite Er; left; auto).
    apply in_flat_map in Hin as [e [H1 H2]]. destruct e; try destruct H2.
    destruct (rref_eqb r r0 && rkind_eqb k k0) eqn:Eq; [|destruct H2].
    apply andb_true_iff in Eq as [E1 E2]. apply rref_eqb_eq in E1. apply Q in E2. subst. eauto.
  - intros (src & f & H). destruct (recorded r k tr) as [|x l] eqn:Er; auto.
    assert (Hin : In (src, f) (recorded r k tr)).
    { apply in_flat_map. exists (EvRecord r k src f). split; auto.
      rewrite (proj2 (rref_eqb_eq r r) eq_refl), (proj2 (Q k k) eq_refl). left; auto. }
    rewrite Er in Hin. destruct Hin.
Qed.
Lemma nonempty_map {A B} (f : A -> B) l : nonempty (map f l) = nonempty l.
Proof. destruct l; auto. Qed.

(** a result knows exactly what has been recorded on it *)
Lemma bad_spec r rr tr : matches tr rr r ->
  r_interrupted r = true \/ (is_error r || is_failure r = true) <->
  (exists src f, In (EvRecord rr RKError src f) tr) \/ (exists src f, In (EvRecord rr RKFailure src f) tr) \/ r_interrupted r = true.
Proof.
  intros [A B _]. unfold is_error, is_failure.
  rewrite orb_true_iff, <- (nonempty_map ent (r_errors r)), <- (nonempty_map ent (r_failures r)), A, B, !recorded_In. tauto.
Qed.

Lemma success_spec r rr tr b : matches tr rr r ->
  is_success true r = b ->
  (b = false <-> (exists src f, In (EvRecord rr RKError src f) tr) \/ (exists src f, In (EvRecord rr RKFailure src f) tr) \/
                 r_interrupted r = true \/ (r_started r = false /\ is_skip r = false /\ is_error r || is_failure r = false /\ r_interrupted r = false)).
Proof.
  intros M <-. pose proof (bad_spec r rr tr M) as H. unfold is_success.
  destruct (is_error r || is_failure r) eqn:E1; cbn [orb].
  { split; auto. intros _. destruct H as [H _]. destruct H as [H|[H|H]]; auto. }
  destruct (r_interrupted r) eqn:E2; [split; auto; intros _; auto|].
  assert (N : ~ ((exists src f, In (EvRecord rr RKError src f) tr) \/ (exists src f, In (EvRecord rr RKFailure src f) tr))).
  { intros X. destruct H as [_ H]. destruct H as [H|H]; [tauto| |]; discriminate. }
  destruct (is_skip r) eqn:E3.
  - split; [discriminate|]. intros [X|[X|[X|(_ & X & _)]]]; try discriminate; tauto.
  - split; [intros ->; right; right; right; auto|]. intros [X|[X|[X|(X & _)]]]; try discriminate; tauto.
Qed.

Lemma bad_alt r tr : bad_on r tr <->
  (exists src f, In (EvRecord r RKError src f) tr) \/ (exists src f, In (EvRecord r RKFailure src f) tr) \/ stopped_on r tr.
Proof.
  unfold bad_on, stopped_on. split.
  - intros (k & src & f & H & [-> | [-> | ->]]); eauto 6.
  - intros [(src & f & H)|[(src & f & H)|(src & f & H)]]; eauto 8.
Qed.

Lemma I_test_flags s t : I s -> st_result s = RTest t ->
  test_flags t (st_trace s) (negb (current_success s)) (current_interrupted s).
Proof.
  intros [HJ HS] Hr. destruct (HS t Hr) as (r & Hl & Hst). destruct (w_res _ _ _ (j_W _ HJ) t r Hl) as [M Hi].
  assert (Hi' : r_interrupted r = true <-> stopped_on (RTest t) (st_trace s)).
  { rewrite Hi, recorded_In. reflexivity. }
  unfold test_flags, current_success, current_interrupted, get_result. rewrite Hr, Hl. split; auto.
  rewrite negb_true_iff, (success_spec r (RTest t) (st_trace s) _ M eq_refl), bad_alt, Hi', Hst.
  split; [|tauto]. intros [X|[X|[X|(X & _)]]]; auto. discriminate.
Qed.

Lemma J_session_flags s : J s -> st_result s = RGlobal ->
  session_flags ids (st_trace s) (negb (current_success s)) (current_interrupted s).
Proof.
  intros HJ Hr. destruct HJ as [HW _ _ Hst Hg Hk].
  unfold session_flags, current_success, current_interrupted, get_result. rewrite Hr.
  assert (Hi : r_interrupted (st_global s) = true <-> exists r, stopped_on r (st_trace s)).
  { rewrite (w_gintr _ _ _ HW). unfold stopped_on. reflexivity. }
  assert (L : forall t, In t (keys s) -> exists r, lookup t (st_results s) = Some r /\ In (t, r) (st_results s)).
  { unfold keys. intros t. generalize (st_results s) as l. intros l. induction l as [|[u r] l IH]; [intros []|].
    cbn. intros [<-|H].
    - exists r. rewrite Nat.eqb_refl. auto.
    - destruct (Nat.eqb t u) eqn:Eu; [apply Nat.eqb_eq in Eu; subst u; eauto|]. destruct (IH H) as (q & A & B). eauto. }
  unfold session_success. rewrite negb_true_iff, andb_false_iff. split; [|split; auto].
  - intros (rr & Hb). rewrite bad_alt in Hb.
    assert (X : stopped_on rr (st_trace s) -> is_success true (st_global s) = false).
    { intros Y. apply (success_spec _ RGlobal (st_trace s) _ (w_glob _ _ _ HW) eq_refl). right. right. left. apply Hi. eauto. }
    destruct rr as [|t].
    + left. apply (success_spec _ RGlobal (st_trace s) _ (w_glob _ _ _ HW) eq_refl).
      destruct Hb as [Hb|[Hb|Hb]]; auto. right. right. left. apply Hi. eauto.
    + destruct Hb as [Hb|[Hb|Hb]]; [right|right|left; auto].
      * assert (K : known s (RTest t)) by (destruct Hb as (src & f & Hb); eapply (w_known _ _ _ HW); eauto).
        destruct (L t K) as (r & Hl & Hin). apply not_true_iff_false. intros Hf. rewrite forallb_forall in Hf.
        specialize (Hf _ Hin). cbn in Hf. destruct (w_res _ _ _ HW t r Hl) as [M _].
        assert (Z : is_success true r = false) by (apply (success_spec r (RTest t) (st_trace s) _ M eq_refl); auto). congruence.
      * assert (K : known s (RTest t)) by (destruct Hb as (src & f & Hb); eapply (w_known _ _ _ HW); eauto).
        destruct (L t K) as (r & Hl & Hin). apply not_true_iff_false. intros Hf. rewrite forallb_forall in Hf.
        specialize (Hf _ Hin). cbn in Hf. destruct (w_res _ _ _ HW t r Hl) as [M _].
        assert (Z : is_success true r = false) by (apply (success_spec r (RTest t) (st_trace s) _ M eq_refl); auto). congruence.
  - intros [H|H].
    + left. apply (success_spec _ RGlobal (st_trace s) _ (w_glob _ _ _ HW) eq_refl) in H.
      destruct H as [H|[H|[H|(H & _)]]]; [exists RGlobal; apply bad_alt; auto|exists RGlobal; apply bad_alt; auto| |congruence].
      apply Hi in H as (r & H). exists r. apply bad_alt. auto.
    + assert (X : exists t r, In (t, r) (st_results s) /\ is_success true r = false).
      { apply not_true_iff_false in H. revert H. generalize (st_results s) as l. intros l.
        induction l as [|[u r] l IH]; cbn; [congruence|]. intros H. destruct (is_success true r) eqn:Er.
        - destruct (IH H) as (t & q & A & B). eauto 6.
        - exists u, r. auto. }
      destruct X as (t & r & Hin & Hs).
      assert (Hin' : In t (keys s)) by (apply (in_map fst) in Hin; exact Hin).
      assert (Hl : lookup t (st_results s) = Some r).
      { clear - Hin HW. pose proof (w_keys _ _ _ HW) as N. unfold keys in N. revert N Hin.
        generalize (st_results s) as l. intros l. induction l as [|[u q] l IH]; [intros _ []|].
        cbn. intros N [H|H].
        - inversion H; subst. rewrite Nat.eqb_refl. auto.
        - inversion N; subst. destruct (Nat.eqb t u) eqn:Eu; auto. apply Nat.eqb_eq in Eu. subst u.
          exfalso. apply H2. apply (in_map fst) in H. exact H. }
      destruct (w_res _ _ _ HW t r Hl) as [M Hti].
      apply (success_spec r (RTest t) (st_trace s) _ M eq_refl) in Hs.
      destruct Hs as [Hs|[Hs|[Hs|(Hs & _)]]].
      * left. exists (RTest t). apply bad_alt; auto.
      * left. exists (RTest t). apply bad_alt; auto.
      * left. exists (RTest t). apply bad_alt. right. right. rewrite Hti, recorded_In in Hs. exact Hs.
      * right. exists t. split; auto. intros Hh. destruct (Hst t Hh) as (q & A & B). congruence.
Qed.

Lemma I_told s sid n : I s -> told ids (st_trace s) (EvPopBegin sid n (negb (current_success s)) (current_interrupted s)).
Proof.
  intros H. pose proof (j_place _ (proj1 H)) as P. unfold told. split; [exact (proj2 (proj2 (j_good _ (proj1 H))))|]. destruct (place_of (st_trace s)) as [|t|t].
  - apply J_session_flags; [apply H|tauto].
  - destruct P as [[P|P] _]; [right; apply J_session_flags; [apply H|auto]|left; apply I_test_flags; auto].
  - apply I_test_flags; tauto.
Qed.

Lemma I_pop n : pres I (cm_pop E n).
Proof.
  apply I_of; [apply relf_cm_pop|apply presW_cm_pop|]. intros s H. pose proof (j_good _ (proj1 H)) as HG.
  unfold cm_pop. cbv zeta. destruct (cm_stack (st_cm s)) as [|sc l]; [eapply G_alike; [|exact HG]; alike|]. destruct (negb _); [eapply G_alike; [|exact HG]; alike|].
  match goal with |- context[call_cleanups E ?a ?b ?c ?d ?x] => pose proof (G_call_cleanups a b c d x) as P end.
  specialize (P ltac:(split; [apply good_snoc; [exact (proj1 HG)|apply I_told; exact H]|split;
    [apply to_view, (proj2 F_local); [reflexivity|apply G_F; exact HG]|cbn [emit st_trace]; rewrite downs_snoc; exact (proj2 (proj2 HG))]])).
  destruct (call_cleanups _ _ _ _ _ _) as [s1 [| x |]]; cbn [fst] in *; auto; apply G_emit; auto; (eapply G_same; [| | |exact P]; reflexivity).
Qed.
Lemma I_push n : pres I (cm_push n).
Proof.
  apply I_of; [apply relf_cm_push|apply presW_cm_push|]. intros s H. unfold cm_push. cbv zeta. cbn [fst].
  apply (G_emit (EvPush _ _)); auto. eapply G_same; [| | |exact (j_good _ (proj1 H))]; reflexivity.
Qed.
Lemma I_sm_push n : pres I (sm_push n).
Proof. apply pres_seq; [iupd|apply I_push]. Qed.

(** nothing but the result in place decides whether the fixtures are spared *)
Lemma calm_here s : I s -> calm (st_trace s) -> current_interrupted s = false.
Proof.
  intros H C. pose proof (j_place _ (proj1 H)) as P. unfold calm in C. apply not_true_iff_false. intros Hi.
  assert (R : st_result s = RGlobal -> exists r, stopped_on r (st_trace s)).
  { intros Q. destruct (J_session_flags s (proj1 H) Q) as (_ & _ & X). apply X; auto. }
  assert (S : forall t, st_result s = RTest t -> stopped_on (RTest t) (st_trace s)).
  { intros t Q. destruct (I_test_flags s t H Q) as (_ & X). apply X; auto. }
  destruct (place_of (st_trace s)) as [|t|t].
  - destruct (R ltac:(tauto)) as [r Q]. exact (C r Q).
  - destruct P as [[P|P] _]; [destruct (R P) as [r Q]; exact (C r Q)|exact (C _ (S t P))].
  - apply C, S. tauto.
Qed.
Lemma calm_back s s' : frame s s' -> calm (st_trace s') -> calm (st_trace s).
Proof.
  intros F C. destruct (f_trace _ _ F) as (l & Ht & Hl). unfold calm in *. rewrite Ht, place_quiet in C by auto.
  destruct (place_of (st_trace s)).
  - intros r (src & f & H). apply (C r). exists src, f. apply in_app_iff. auto.
  - intros r (src & f & H). apply (C r). exists src, f. apply in_app_iff. auto.
  - intros (src & f & H). apply C. exists src, f. apply in_app_iff. auto.
Qed.

Lemma pop_last n s : snd (cm_pop E n s) = ONormal -> exists q sid, st_trace (fst (cm_pop E n s)) = q ++ [EvPopEnd sid n true].
Proof.
  unfold cm_pop. cbv zeta. destruct (cm_stack (st_cm s)) as [|sc l]; [discriminate|]. destruct (negb _) eqn:En; [discriminate|].
  destruct (call_cleanups _ _ _ _ _ _) as [s1 [| x |]]; cbn [fst snd]; try discriminate. intros _.
  apply negb_false_iff in En. apply sname_eqb_eq in En. cbn [emit st_trace on_cm]. eexists _, _. rewrite ?En. reflexivity.
Qed.

Lemma last_end p0 sid m b p1 q sid' m' b' l : p0 ++ EvPopEnd sid m b :: p1 = (q ++ [EvPopEnd sid' m' b']) ++ l -> no_end p1 -> no_end l ->
  p0 = q /\ m = m'.
Proof.
  rewrite <- app_assoc. cbn [app]. revert q. induction p0 as [|e p0 IH]; intros [|e' q] H N1 N2; cbn in H; inversion H; subst; auto.
  - exfalso. apply (N1 sid' m' b'). apply in_app_iff. right. left. auto.
  - exfalso. apply (N2 sid m b). apply in_app_iff. right. left. auto.
  - match goal with X : _ = _ |- _ => destruct (IH q X N1 N2) as [-> ->]; auto end.
Qed.

Lemma nofuel_fix_pop n : nofuel (fix_pop E n).
Proof.
  assert (Dn : forall l fid, nofuel (deactivate_fixture E l fid)).
  { intros l fid s. unfold deactivate_fixture. destruct (lookup _ _); [|discriminate]. apply (nofuel_exec E p (down l fid s)). }
  assert (An : forall l fids, nofuel (deactivate_all E l fids)).
  { intros l fids. induction fids; simpl; [apply nofuel_ret|]. apply nofuel_seq; auto. apply nofuel_handling, Dn. }
  assert (Ln : forall sl l, nofuel (fix_pop_level E sl l)).
  { intros sl l s. unfold fix_pop_level. destruct (Nat.leb _ _); [|discriminate].
    apply nofuel_seq; auto. intros s'. destruct (nonempty _); discriminate. }
  assert (Lsn : forall sl ls, nofuel (fix_pop_levels E sl ls)).
  { intros sl ls. induction ls; simpl; [apply nofuel_ret|apply nofuel_seq; auto]. }
  intros s. unfold fix_pop. destruct (current_interrupted s); [discriminate|]. apply Lsn.
Qed.

Lemma G_teardown n ok s : good (st_trace s) -> F s -> told ids (st_trace s) (EvTeardown n ok) -> G (emit (EvTeardown n ok) s).
Proof.
  intros A B C. split; [apply good_snoc; auto|split; [apply to_view, (proj2 F_local); auto|]].
  cbn [emit st_trace]. rewrite downs_snoc. reflexivity.
Qed.

Lemma G_sm_pop n s : I s -> G (fst (sm_pop E n s)).
Proof.
  intros H. unfold sm_pop. destruct (st_scopes s) as [|p rest]; [apply (j_good _ (proj1 (I_raise _ _ _ H)))|]. cbv zeta.
  assert (H1 : I (set_scopes rest s)).
  { change (set_scopes rest s) with (fst (upd (set_scopes rest) s)). revert s H. iupd. }
  destruct (negb _); [apply (j_good _ (proj1 (I_raise _ _ _ H1)))|].
  generalize dependent (set_scopes rest s). intros s1 H1. clear s H. cbn [call_all].
  pose proof (I_pop n s1 H1) as H2. pose proof (pop_last n s1) as PL.
  destruct (cm_pop E n s1) as [s2 o]. cbn [fst snd] in *.
  pose proof (j_good _ (proj1 H2)) as G2.
  pose proof (D_fix_pop n s2 (G_D n s2 G2)) as HD. pose proof (F_fix_pop E n s2 (G_F _ G2)) as HF.
  pose proof (relf_fix_pop E n s2) as HR. pose proof (nofuel_fix_pop n s2) as NF.
  pose proof (fix_pop_down n s2 (G_F _ G2)) as FD.
  pose proof (ext_fix_pop (st_trace s2) n s2 (ext_refl s2)) as XF.
  assert (Bad : G (emit (EvTeardown n false) s2)).
  { apply G_teardown; [apply G2|apply G_F; exact G2|]. split; [|discriminate]. destruct G2 as (_ & _ & ->). intros fid []. }
  destruct o as [| x |]; cbn [fst]; [| |exact G2].
  - destruct (fix_pop E n s2) as [s3 o3]. cbn [fst snd] in *. destruct HD as (D1 & _ & D3).
    destruct o3 as [| y |]; [| |congruence].
    + cbn [fst]. apply G_teardown; auto. split; auto. intros _ C p0 sid m b p1 Hp N1.
      destruct (PL eq_refl) as (q & sid' & Hq). destruct XF as (l & Hl & Nl). rewrite Hq in Hl.
      destruct (last_end p0 sid m b p1 q sid' n true l) as [-> ->]; auto; [congruence|]. split; auto.
      intros fid lv Hin Hc. apply (FD (calm_here s2 H2 (calm_back _ _ HR C)) eq_refl lv fid Hc). rewrite Hq. apply in_app_iff. auto.
    + destruct (isinstance _ _); cbn [fst]; apply G_teardown; auto; split; auto; discriminate.
  - destruct (isinstance (x_kind x) TException); cbn [fst]; auto.
    destruct (fix_pop E n s2) as [s3 o3]. cbn [fst snd] in *. destruct HD as (D1 & _ & D3).
    destruct o3 as [| y |]; [| |congruence].
    + cbn [fst]. apply G_teardown; auto; split; auto; discriminate.
    + destruct (isinstance (x_kind y) TException); cbn [fst]; apply G_teardown; auto; split; auto; discriminate.
Qed.
Lemma I_sm_pop n : pres I (sm_pop E n).
Proof. apply I_of; [apply relf_sm_pop|apply presW_sm_pop|]. intros s H. apply G_sm_pop; auto. Qed.
Lemma I_begin t : pres I (begin_test E t).
Proof.
  unfold begin_test. destruct (t_module t); [|apply I_raise].
  repeat first [ apply I_sm_push | apply I_push | apply I_sm_pop | apply I_raise
               | apply pres_seq | apply pres_cond | apply pres_ret | iupd ].
Qed.
Lemma I_end t : pres I (end_test E t).
Proof. apply pres_cond; [apply I_raise|apply I_sm_pop]. Qed.
Lemma I_flush : pres I (flush_remaining_scopes E).
Proof.
  intros s H. unfold flush_remaining_scopes.
  assert (H1 : pres I (call_all None (map (sm_pop E) (st_scopes s)))).
  { apply pres_call_all. intros f Hf. apply in_map_iff in Hf as [n [<- _]]. apply I_sm_pop. }
  apply H1; auto.
Qed.
Lemma I_initiate : pres I (initiate_cleanup E).
Proof.
  apply pres_cond; [|apply pres_ret]. apply pres_finally; apply I_handling; [|apply I_flush]. apply I_fire; reflexivity.
Qed.
Lemma I_summary t : pres I (fire_summary E t).
Proof.
  intros s H. unfold fire_summary. apply I_handling; auto. intros s' H'.
  destruct (lookup t (st_results s')); auto.
  repeat match goal with |- context[if ?b then _ else _] => destruct b end; apply I_fire; auto.
Qed.

(** ** The runner *)

(** the test is the current result *)
Definition A (t : nat) (s : state) : Prop :=
  I s /\ st_result s = RTest t /\ (place_of (st_trace s) = Pending t \/ place_of (st_trace s) = Running t).
(** no test is between its test_start and its test_end *)
Definition N (s : state) : Prop := I s /\ st_ctl s = false.
(** between tests *)
Definition T (s : state) : Prop := J s /\ st_result s = RGlobal /\ st_test s = None.

Lemma T_I s : T s -> I s.
Proof. intros (H & R & _). split; auto. intros t Ht. congruence. Qed.
Lemma T_ctl s : T s -> st_ctl s = false.
Proof.
  intros (H & R & _). pose proof (j_place _ H) as P. destruct (place_of (st_trace s)); try tauto. destruct P. congruence.
Qed.
Lemma A_I t s : A t s -> I s.
Proof. intros [H _]. auto. Qed.

Lemma A_of t m : relf m -> pres I m -> pres (A t) m.
Proof.
  intros F P s (H & R & L). destruct (F s) as [_ f_result _ _ _ _ (l & Ht & Hl) _ _]. split; [|split].
  - apply P; auto.
  - congruence.
  - rewrite Ht, place_quiet by auto. exact L.
Qed.

Lemma started_mark t u s : started u s -> started u (on_result (RTest t) r_mark_started s).
Proof.
  intros (r & Hl & Hs). unfold started. cbn. rewrite lookup_update, Hl.
  destruct (Nat.eqb u t); cbn; eexists; split; eauto.
Qed.
Lemma started_marked t s : In t (keys s) -> started t (on_result (RTest t) r_mark_started s).
Proof.
  intros H. apply lookup_In in H as [r H]. unfold started. cbn. rewrite lookup_update, H, Nat.eqb_refl. cbn. eauto.
Qed.
Lemma J_mark_started t s : J s -> J (on_result (RTest t) r_mark_started s).
Proof.
  intros [A B C D F K]. constructor; auto.
  - apply (presW_mark_started E [] t s A).
  - intros u Hu. apply started_mark; auto.
  - rewrite keys_on_result. auto.
Qed.

Lemma A_ctl_start t : pres (A t) (ctl_start E t).
Proof.
  intros s (H & R & L). unfold ctl_start, cond. destruct (st_ctl s) eqn:Ec; [split; auto|].
  assert (P : place_of (st_trace s) = Pending t).
  { destruct L as [L|L]; auto. pose proof (j_place _ (proj1 H)) as X. rewrite L in X. destruct X. congruence. }
  assert (Kn : In t (keys s)).
  { pose proof (w_cur _ _ _ (j_W _ (proj1 H))) as X. rewrite R in X. exact X. }
  unfold seq at 1 2. cbn [upd]. unfold fire.
  set (s2 := emit (EvHook HTestStart t) (on_result (RTest t) r_mark_started (set_ctl true s))).
  assert (A2 : A t s2).
  { destruct H as [HJ HS]. pose proof (J_mark_started t s HJ) as [X1 X2 X3 X4 X5 X6].
    split; [split|split].
    - constructor.
      + apply W_emit; auto. eapply W_wstep; [|exact X1]. wfield.
      + apply G_emit; auto.
      + unfold s2. cbn [emit st_trace st_result st_ctl]. rewrite place_snoc. cbn. split; [exact R|reflexivity].
      + intros u Hu. cbn in Hu. apply in_app_iff in Hu as [Hu|[Hu|[]]].
        * exact (X4 u Hu).
        * inversion Hu; subst. exact (started_marked u s Kn).
      + exact X5.
      + exact X6.
    - intros u Hu. cbn in Hu. assert (u = t) by congruence. subst u. exact (started_marked t s Kn).
    - exact R.
    - right. unfold s2. cbn [emit st_trace]. rewrite place_snoc. reflexivity. }
  assert (Q : pres (A t) (exec E (e_hook E HTestStart t))) by (apply A_of; [apply relf_exec|apply I_exec]).
  specialize (Q s2 A2). unfold seq. cbn [upd]. fold s2. exact Q.
Qed.

(** the handlers of test_end run, then nothing of the test is left *)
Lemma I_ctl_end t : forall s, I s -> N (fst (ctl_end E t RGlobal s)).
Proof.
  intros s [HJ HS]. unfold ctl_end, cond. destruct (st_ctl s) eqn:Ec; [|split; [split; auto|auto]].
  set (B := fun s : state => W E [] s /\ G s /\ place_of (st_trace s) = Idle /\ st_ctl s = false /\
     (forall u, In (EvHook HTestStart u) (st_trace s) -> started u s) /\ r_started (st_global s) = true /\ incl (keys s) ids).
  assert (BW : forall v, forall s, B s -> B (on_cm (with_implicit v) s)).
  { intros v s' (X1 & X2). split; [eapply W_wstep; [|exact X1]; wfield|exact X2]. }
  assert (P : B (fst ((upd (set_ctl false) ;; forbid_implicit (fire E HTestEnd t ;; upd (on_result (RTest t) r_mark_finished))) s))).
  { unfold seq at 1. cbn [upd]. unfold forbid_implicit. cbv zeta.
    set (s1 := set_ctl false s). set (v := cm_implicit (st_cm s1)).
    set (s2 := emit (EvHook HTestEnd t) (on_cm (with_implicit false) s1)).
    assert (B2 : B s2).
    { destruct HJ as [X1 X2 X3 X4 X5 X6]. split; [|split; [|split; [|split; [|split; [|split]]]]].
      - apply W_emit; auto. eapply W_wstep; [|exact X1]. wfield.
      - apply G_emit; auto.
      - unfold s2. cbn [emit st_trace]. rewrite place_snoc. reflexivity.
      - reflexivity.
      - intros u Hu. cbn in Hu. apply in_app_iff in Hu as [Hu|[Hu|[]]]; [exact (X4 u Hu)|discriminate].
      - exact X5.
      - exact X6. }
    assert (Q : pres B (exec E (e_hook E HTestEnd t) ;; upd (on_result (RTest t) r_mark_finished))).
    { apply pres_seq.
      - intros s' (X1 & X2 & X3 & X4 & X5 & X6 & X7). pose proof (relf_exec E (e_hook E HTestEnd t) s') as F.
        split; [apply presW_exec; auto|split; [apply G_exec; auto|]]. destruct F. destruct f_trace as (l & Ht & Hl).
        split; [rewrite Ht, place_quiet; auto|split; [congruence|split; [|split]]].
        + intros u Hu. rewrite Ht in Hu. apply in_app_iff in Hu as [Hu|Hu].
          * eapply started_grow; eauto.
          * rewrite forallb_forall in Hl. apply Hl in Hu. discriminate.
        + rewrite (g_started _ _ f_glob). auto.
        + unfold keys. destruct f_res as [-> _]. exact X7.
      - intros s' (X1 & X2 & X3 & X4 & X5 & X6 & X7). cbn [upd fst].
        split; [apply (presW_mark_finished E [] t s' X1)|]. split; [exact X2|]. split; [exact X3|]. split; [exact X4|].
        split; [|split; [exact X6|rewrite keys_on_result; exact X7]].
        intros u Hu. destruct (X5 u Hu) as (r & Hl & Hs). unfold started. cbn. rewrite lookup_update, Hl.
        destruct (Nat.eqb u t); cbn; eexists; split; eauto. }
    specialize (Q s2 B2). unfold fire. unfold finally, seq in *. cbn [upd] in *. fold s2.
    destruct (exec E (e_hook E HTestEnd t) s2) as [s3 [| x |]]; cbn [fst] in *; auto; apply BW; exact Q. }
  unfold seq at 1 in P. unfold seq at 1. cbn [upd] in *.
  unfold finally. destruct (forbid_implicit _ _) as [s1 [| x |]] eqn:Ef; cbn [fst upd] in *.
  - destruct P as (X1 & X2 & X3 & X4 & X5 & X6 & X7). split; [split; [constructor; auto|discriminate]|exact X4].
    + apply W_set_result; auto. exact Logic.I.
    + cbn [set_result st_trace st_result st_ctl]. rewrite X3. auto.
  - destruct P as (X1 & X2 & X3 & X4 & X5 & X6 & X7). split; [split; [constructor; auto|discriminate]|exact X4].
    + apply W_set_result; auto. exact Logic.I.
    + cbn [set_result st_trace st_result st_ctl]. rewrite X3. auto.
  - exfalso.
    assert (Nf : nofuel (forbid_implicit (fire E HTestEnd t ;; upd (on_result (RTest t) r_mark_finished)))).
    { intros s0. unfold forbid_implicit. cbv zeta. revert s0. apply nofuel_fun with (f := fun s : state => finally (upd (on_cm (with_implicit false)) ;; fire E HTestEnd t ;; upd (on_result (RTest t) r_mark_finished)) (upd (on_cm (with_implicit (cm_implicit (st_cm s)))))).
      intros s0. apply nofuel_finally; [|apply nofuel_upd]. apply nofuel_seq; [apply nofuel_upd|].
      apply nofuel_seq; [apply nofuel_fire|apply nofuel_upd]. }
    apply (Nf (set_ctl false s)). rewrite Ef. reflexivity.
Qed.

Lemma N_of m : relf m -> pres I m -> pres N m.
Proof. intros F P s [H C]. split; [apply P; auto|]. rewrite (f_ctl _ _ (F s)). auto. Qed.

(** the body of a test *)
Definition P0 (t : nat) (s : state) : Prop := J s /\ st_result s = RTest t /\ place_of (st_trace s) = Pending t.
(** what is left of it *)
Definition N0 (s : state) : Prop := J s /\ st_ctl s = false.

Lemma P0_N0 t s : P0 t s -> N0 s.
Proof. intros (H & R & L). split; auto. pose proof (j_place _ H) as X. rewrite L in X. tauto. Qed.
Lemma P0_of t m : relf m -> pres J m -> pres (P0 t) m.
Proof.
  intros F P s (H & R & L). destruct (F s) as [_ f_result _ _ _ _ (l & Ht & Hl) _ _]. split; [|split].
  - apply P; auto.
  - congruence.
  - rewrite Ht, place_quiet by auto. exact L.
Qed.
Lemma P0_fire t h u : still (EvHook h u) = true -> pres (P0 t) (fire E h u).
Proof.
  intros H. apply pres_seq; [|apply P0_of; [apply relf_exec|apply J_exec]].
  intros s (X & R & L). split; [apply J_still; auto|split; auto]. cbn [emit st_trace upd fst]. rewrite place_snoc, L.
  destruct h; try discriminate; auto.
Qed.
Lemma P0_process t u : pres (P0 t) (process_requirements E u).
Proof.
  assert (S : forall n, pres (P0 t) (add_skips n)).
  { intros n. apply P0_of; [apply relf_add_skips|]. apply J_of; [apply relf_add_skips|apply presW_add_skips|].
    intros s H. assert (Q : pres G (add_skips n)); [|apply Q, H].
    apply gen_add_skips; [apply G_alike|apply G_other]. }
  apply pres_seq; [apply P0_of; [apply relf_exec|apply J_exec]|].
  destruct (negb _); [apply pres_seq; [apply S|apply P0_fire; auto]|].
  destruct (t_excluded u); [apply pres_seq; [apply (S 1)|apply P0_fire; auto]|apply pres_ret].
Qed.

(** [m] ends in [B], unless the model gives up *)
Definition ends (X B : state -> Prop) (m : M) : Prop :=
  forall s, X s -> G (fst (m s)) /\ (snd (m s) <> OFuel -> B (fst (m s))).

Lemma N0_handling X h m : ends X N0 m -> ends X N0 (handling E h m).
Proof.
  intros H s Hs. destruct (H s Hs) as [H1 H2]. unfold handling. destruct (m s) as [s1 [| x |]]; cbn [fst snd] in *; auto.
  specialize (H2 ltac:(discriminate)).
  assert (K : N0 (handle_exception E x s1)).
  { destruct H2 as [Y C]. split; [apply J_handle; auto|]. rewrite (f_ctl _ _ (frame_handle E x s1)). auto. }
  repeat match goal with |- context[if ?b then _ else _] => destruct b end; cbn [fst snd]; split; auto; try apply G_handle; auto; apply H1.
Qed.

Lemma ends_then (X B : state -> Prop) a b : pres X a -> (forall s, X s -> G s /\ B s) -> ends X B b -> ends X B (a ;; b).
Proof.
  intros Ha Hx Hb s Hs. unfold seq. specialize (Ha s Hs). destruct (a s) as [s1 [| x |]]; cbn [fst snd] in *.
  - apply Hb; auto.
  - split; [|intros _]; apply Hx; auto.
  - split; [|intros _]; apply Hx; auto.
Qed.
Lemma ends_upd (X Y B : state -> Prop) f b : (forall s, X s -> Y (f s)) -> ends Y B b -> ends X B (upd f ;; b).
Proof. intros Hf Hb s Hs. unfold seq. cbn [upd]. apply Hb. auto. Qed.
Lemma ends_finally (X : state -> Prop) a c : (forall s, X s -> I (fst (a s))) -> (forall s, I s -> N (fst (c s))) -> ends X N0 (finally a c).
Proof.
  intros Ha Hc s Hs. unfold finally. specialize (Ha s Hs). destruct (a s) as [s3 [| x |]]; cbn [fst snd] in *.
  - destruct (Hc s3 Ha) as [Q3 Q4]. destruct (c s3) as [s4 [| y |]]; cbn [fst snd] in *;
      (split; [exact (j_good _ (proj1 Q3))|intros _; split; [apply Q3|exact Q4]]).
  - destruct (Hc s3 Ha) as [Q3 Q4]. destruct (c s3) as [s4 [| y |]]; cbn [fst snd] in *;
      (split; [exact (j_good _ (proj1 Q3))|intros _; split; [apply Q3|exact Q4]]).
  - split; [exact (j_good _ (proj1 Ha))|congruence].
Qed.

Lemma A_then t ts a b : pres (A t) a -> pres I b -> forall s, A t s -> I (fst (except_ ts (a ;; b) (fun _ => ret) s)).
Proof.
  intros Ha Hb s Hs. unfold except_, seq. specialize (Ha s Hs). destruct (a s) as [s1 [| x |]]; cbn [fst] in *.
  - specialize (Hb s1 (A_I _ _ Ha)). destruct (b s1) as [s2 [| x |]]; cbn [fst] in *; auto.
    destruct (isinstance_any _ _); auto.
  - destruct (isinstance_any _ _); cbn; eapply A_I; eauto.
  - eapply A_I; eauto.
Qed.

Lemma body_N t (b : bool) : ends (P0 (t_id t)) N0 (handling E h_swallowing (
      process_requirements E t ;;
      if should_run t then
        upd (on_result (RTest (t_id t)) r_mark_started) ;;
        upd (set_ctl false) ;;
        finally
          (except_ (skip_types E)
            (except_ (skip_types E)
               (handling E h_swallowing
                 (begin_test E t ;;
                  finally
                    (ctl_start E (t_id t) ;; handling E h_swallowing (exec E (t_body t)))
                    (end_test E t)))
               (fun _ => ret) ;;
             fire_summary E (t_id t) ;;
             (if b then
                ctl_end E (t_id t) RGlobal ;;
                handling E h_swallowing (initiate_cleanup E)
              else ret))
            (fun _ => ret))
          (ctl_end E (t_id t) RGlobal)
      else ret)).
Proof.
  apply N0_handling.
  assert (PN : forall s, P0 (t_id t) s -> G s /\ N0 s).
  { intros s H. split; [exact (j_good _ (proj1 H))|]. eapply P0_N0; eauto. }
  apply ends_then; [apply P0_process|exact PN|]. destruct (should_run t); [|intros s H; cbn; split; [|intros _]; apply PN; auto].
  apply (ends_upd _ (fun s => A (t_id t) (set_ctl false s))).
  { intros s1 (X & R & L). pose proof (P0_N0 (t_id t) s1 (conj X (conj R L))) as [_ C].
    set (s2 := set_ctl false (on_result (RTest (t_id t)) r_mark_started s1)).
    assert (Kn : In (t_id t) (keys s1)).
    { pose proof (w_cur _ _ _ (j_W _ X)) as Y. rewrite R in Y. exact Y. }
    pose proof (J_mark_started (t_id t) s1 X) as [X1 X2 X3 X4 X5 X6].
    split; [split|split; [exact R|left; exact L]].
    - constructor; auto.
      + eapply W_wstep; [|exact X1]. wfield.
      + unfold s2. cbn [set_ctl on_result set_results st_trace st_result st_ctl] in *. rewrite L in *. tauto.
    - intros u Hu. cbn in Hu. assert (u = t_id t) by congruence. subst u. exact (started_marked (t_id t) s1 Kn). }
  apply (ends_upd _ (A (t_id t))); [auto|]. apply ends_finally; [|apply I_ctl_end].
    assert (Ab : pres (A (t_id t)) (except_ (skip_types E)
               (handling E h_swallowing
                 (begin_test E t ;;
                  finally
                    (ctl_start E (t_id t) ;; handling E h_swallowing (exec E (t_body t)))
                    (end_test E t))) (fun _ => ret))).
    { apply pres_except; [|intros; apply pres_ret].
      assert (Hh : forall h m, pres (A (t_id t)) m -> pres (A (t_id t)) (handling E h m)).
      { intros h m. apply pres_handling. intros x s' H'.
        change (handle_exception E x s') with (fst (upd (handle_exception E x) s')).
        apply A_of; auto; [apply relf_upd; intros; apply frame_handle|].
        apply I_of; [apply relf_upd; intros; apply frame_handle|intros s4 H4; apply W_handle; auto|].
        intros s4 H4. apply G_handle, H4. }
      apply Hh. apply pres_seq; [apply A_of; [apply relf_begin|apply I_begin]|].
      apply pres_finally; [|apply A_of; [apply relf_end|apply I_end]].
      apply pres_seq; [apply A_ctl_start|]. apply Hh, A_of; [apply relf_exec|apply I_exec]. }
    assert (I_rest : pres I (fire_summary E (t_id t) ;;
             (if b then ctl_end E (t_id t) RGlobal ;; handling E h_swallowing (initiate_cleanup E) else ret))).
    { apply pres_seq; [apply I_summary|]. destruct b; [|apply pres_ret].
      apply pres_seq; [intros s4 H4; apply I_ctl_end; auto|]. apply I_handling, I_initiate. }
    exact (A_then (t_id t) _ _ _ Ab I_rest).
Qed.

(** entering and leaving the context of a test *)
Lemma W_enter t s : W E [] s -> lookup t (st_results s) = None ->
  W E [] (set_result (RTest t) (set_results (st_results s ++ [(t, result0)]) (set_test (Some t) s))).
Proof.
  intros HW Hl. apply (W_weaken E [] (t :: keys s)); [intros x []|].
  apply W_set_result; [left; reflexivity|]. apply (W_create E []); auto.
Qed.

Lemma keys_new t s : In t ids -> incl (keys s) ids -> incl (map fst (st_results s ++ [(t, result0)])) ids.
Proof. intros H K u Hu. rewrite map_app in Hu. apply in_app_iff in Hu as [Hu|[<-|[]]]; auto. Qed.

Lemma started_new t u s : started u s -> started u (set_results (st_results s ++ [(t, result0)]) s).
Proof. intros (r & A & B). exists r. split; auto. cbn. rewrite lookup_app, A. auto. Qed.

Lemma J_set_test v s : match v with Some u => In u (keys s) | None => True end -> J s -> J (set_test v s).
Proof.
  intros Hv [X1 X2 X3 X4 X5 X6]. constructor; auto.
  apply (W_weaken E [] (keys s)); [intros x []|]. apply W_set_test; auto. apply (W_keys E []); auto.
Qed.

Lemma T_raise k f s : T s -> T (fst (raise_new k f s)).
Proof.
  intros (H & R & V). split; auto. apply (J_frame s); auto; [apply relf_raise|apply presW_raise, H|exact (j_good _ H)].
Qed.

Lemma T_test_context t body : In t ids -> ends (P0 t) N0 (body RGlobal) ->
  ends (fun s => T s /\ place_of (st_trace s) = Pending t) T (test_context t body).
Proof.
  intros Hin Hb s [(HJ & HR & HV) HP]. unfold test_context, finally, seq, upd, create_result.
  change (st_results (set_test (Some t) s)) with (st_results s).
  destruct (lookup t (st_results s)) eqn:El.
  { unfold raise_new. cbn [fst snd].
    assert (X : T (set_test (st_test s) (set_nx (S (st_nx s)) (set_test (Some t) s)))).
    { split; [|split; [exact HR|exact HV]]. apply (J_frame s); auto; [fplain| |exact (j_good _ HJ)].
      eapply W_wstep; [|exact (j_W _ HJ)]. wfield. }
    split; [exact (j_good _ (proj1 X))|intros _; exact X]. }
  cbv zeta.
  change (st_result (set_results (st_results s ++ [(t, result0)]) (set_test (Some t) s))) with (st_result s). rewrite HR.
  set (s1 := set_result (RTest t) (set_results (st_results s ++ [(t, result0)]) (set_test (Some t) s))).
  assert (X1 : P0 t s1).
  { destruct HJ as [Y1 Y2 Y3 Y4 Y5 Y6]. split; [constructor|split; [reflexivity|exact HP]].
    - apply W_enter; auto.
    - exact Y2.
    - unfold s1. cbn [set_result set_results set_test st_trace st_result st_ctl]. rewrite HP in *. tauto.
    - intros u Hu. exact (started_new t u s (Y4 u Hu)).
    - exact Y5.
    - exact (keys_new t s Hin Y6). }
  destruct (Hb s1 X1) as [Q1 Q2]. destruct (body RGlobal s1) as [s2 o] eqn:Eb. cbn [fst snd] in *.
  assert (Z : o <> OFuel -> T (set_test (st_test s) (set_result RGlobal s2))).
  { intros Ho. destruct (Q2 Ho) as [Y1 Y2].
    assert (Y3 : J (set_result RGlobal s2)).
    { destruct Y1 as [Z1 Z2 Z3 Z4 Z5 Z6]. constructor; auto.
      - apply W_set_result; auto. exact Logic.I.
      - cbn [set_result st_trace st_result st_ctl]. destruct (place_of (st_trace s2)); try tauto. destruct Z3. congruence. }
    split; [|split; [reflexivity|exact HV]]. apply J_set_test; auto. rewrite HV. exact Logic.I. }
  destruct o as [| x |]; cbn [fst snd].
  - specialize (Z ltac:(discriminate)). split; [exact (j_good _ (proj1 Z))|auto].
  - specialize (Z ltac:(discriminate)). split; [exact (j_good _ (proj1 Z))|auto].
  - split; [exact Q1|congruence].
Qed.

Lemma T_run_single t b : In (t_id t) ids ->
  ends (fun s => T s /\ place_of (st_trace s) = Pending (t_id t)) T (run_single E t b).
Proof. intros H. apply T_test_context; auto. apply body_N. Qed.

Lemma T_unrun t : In t ids -> pres T (test_context t (fun _ => ret)).
Proof.
  intros Hin s (HJ & HR & HV). unfold test_context, finally, seq, upd, create_result.
  change (st_results (set_test (Some t) s)) with (st_results s).
  destruct (lookup t (st_results s)) eqn:El.
  { unfold raise_new. cbn [fst snd]. split; [|split; [exact HR|exact HV]].
    apply (J_frame s); auto; [fplain| |exact (j_good _ HJ)]. eapply W_wstep; [|exact (j_W _ HJ)]. wfield. }
  cbv zeta. unfold ret. cbn [fst].
  split; [|split; [exact HR|exact HV]].
  destruct HJ as [Y1 Y2 Y3 Y4 Y5 Y6]. constructor.
  - apply W_set_test; [rewrite HV; exact Logic.I|].
    apply W_set_result; [cbn; rewrite HR; exact Logic.I|]. apply W_enter; auto.
  - exact Y2.
  - exact Y3.
  - intros u Hu. exact (started_new t u s (Y4 u Hu)).
  - exact Y5.
  - exact (keys_new t s Hin Y6).
Qed.

Lemma T_of m : relf m -> pres I m -> pres T m.
Proof.
  intros F P s HT. pose proof (T_I _ HT) as HI. destruct HT as (HJ & HR & HV). destruct (F s).
  split; [apply P; auto|split; congruence].
Qed.
Lemma T_still e s : still e = true -> T s -> T (emit e s).
Proof. intros H (A & B & C). split; [apply J_still; auto|split; auto]. Qed.

Lemma run_loop_ends ts : incl (map t_id ts) ids -> forall last s, T s ->
  G (fst (fst (fst (run_loop E last ts s)))) /\
  (snd (fst (fst (run_loop E last ts s))) <> OFuel -> T (fst (fst (fst (run_loop E last ts s))))).
Proof.
  induction ts as [|t ts IH]; intros Hin last s H; cbn [run_loop].
  { split; [exact (j_good _ (proj1 H))|auto]. }
  assert (Hin' : incl (map t_id ts) ids) by (intros u Hu; apply Hin; right; auto). specialize (IH Hin').
  assert (H1 : T (fst (set_metadata E (t_id t) s))).
  { unfold set_metadata. destruct (lookup _ _); [apply T_raise; auto|]. destruct H as (HJ & HR & HV).
    destruct (e_worker E); (split; [|split; [exact HR|exact HV]]); cbn [fst].
    - destruct HJ as [Y1 Y2 Y3 Y4 Y5 Y6]. constructor; auto. eapply W_wstep; [|exact Y1]. wfield.
    - destruct HJ as [Y1 Y2 Y3 Y4 Y5 Y6]. constructor; auto. eapply W_wstep; [|exact Y1]. wfield. }
  destruct (set_metadata E (t_id t) s) as [s1 o1]. cbn [fst] in H1.
  assert (TG : forall s, T s -> G s) by (intros s' H'; exact (j_good _ (proj1 H'))).
  destruct o1 as [| x |]; cbn [fst snd]; auto.
  set (s2 := emit (EvReportStart (t_id t)) (if file_differs last (t_file t) then emit (EvFileStart (t_file t)) s1 else s1)).
  assert (H2 : T s2 /\ place_of (st_trace s2) = Pending (t_id t)).
  { assert (X : T (if file_differs last (t_file t) then emit (EvFileStart (t_file t)) s1 else s1)).
    { destruct (file_differs _ _); auto. apply T_still; auto. }
    unfold s2. set (s1' := if file_differs last (t_file t) then _ else _) in *.
    assert (Y : place_of (st_trace (emit (EvReportStart (t_id t)) s1')) = Pending (t_id t)).
    { cbn [emit st_trace]. rewrite place_snoc. reflexivity. }
    split; [|exact Y]. pose proof (T_ctl _ X) as C. destruct X as ([Y1 Y2 Y3 Y4 Y5 Y6] & R & V).
    split; [constructor|split; [exact R|exact V]].
    - apply W_emit; auto.
    - apply G_emit; auto.
    - rewrite Y. split; [left; exact R|exact C].
    - intros u Hu. cbn in Hu. apply in_app_iff in Hu as [Hu|[Hu|[]]]; [exact (Y4 u Hu)|discriminate].
    - exact Y5.
    - exact Y6. }
  assert (Ht : In (t_id t) ids) by (apply Hin; left; auto).
  destruct (T_run_single t (nonempty ts) Ht s2 H2) as [H3 H4].
  fold s2. destruct (run_single E t (nonempty ts) s2) as [s3 [| x |]]; cbn [fst snd] in *; auto.
  specialize (H4 ltac:(discriminate)).
  match goal with |- context[emit (EvReportEnd _) s3] => set (s4 := emit (EvReportEnd (t_id t)) s3) end.
  assert (H5 : T s4).
  { pose proof (T_ctl _ H4) as C. destruct H4 as ([Y1 Y2 Y3 Y4 Y5 Y6] & R & V).
    split; [constructor|split; [exact R|exact V]].
    - apply W_emit; auto.
    - apply G_emit; auto.
    - unfold s4. cbn [emit st_trace st_result st_ctl]. rewrite place_snoc. cbn. auto.
    - intros u Hu. cbn in Hu. apply in_app_iff in Hu as [Hu|[Hu|[]]]; [exact (Y4 u Hu)|discriminate].
    - exact Y5.
    - exact Y6. }
  match goal with |- context[match ts with [] => emit ?e s4 | _ => _ end] =>
    set (s5 := match ts with [] => emit e s4 | t' :: _ => if Nat.eqb (t_file t') (t_file t) then s4 else emit e s4 end) end.
  assert (H6 : T s5).
  { unfold s5. destruct ts; [apply T_still; auto|]. destruct (Nat.eqb _ _); auto. apply T_still; auto. }
  clearbody s5. destruct (match lookup (t_id t) (st_results s5) with Some r => has_fatal r | None => false end); [split; [apply TG|]; auto|].
  destruct (e_stop E && negb (session_success true s5)); [split; [apply TG|]; auto|].
  apply IH; auto.
Qed.

Lemma run_loop_left ts : forall last s r, snd (fst (run_loop E last ts s)) = LBreak r -> incl (map t_id r) (map t_id ts).
Proof.
  induction ts as [|t ts IH]; intros last s r; cbn [run_loop]; [discriminate|].
  destruct (set_metadata E (t_id t) s) as [s1 [| x |]]; cbn [fst snd]; try discriminate.
  destruct (run_single E t _ _) as [s3 [| x |]]; cbn [fst snd]; try discriminate.
  match goal with |- context[if ?b then (?x, ONormal, LBreak ts, ?y) else _] => destruct b end.
  { cbn. intros X. inversion X; subst. apply incl_tl, incl_refl. }
  match goal with |- context[if ?b then (?x, ONormal, LBreak ts, ?y) else _] => destruct b end.
  { cbn. intros X. inversion X; subst. apply incl_tl, incl_refl. }
  intros X. apply incl_tl. eapply IH; eauto.
Qed.

Lemma relf_if_init (b : bool) : relf (if b then ret else initiate_cleanup E).
Proof. destruct b; [apply relf_ret|apply relf_initiate]. Qed.

Lemma T_run_tests ts : incl (map t_id ts) ids -> ends T T (run_tests E ts).
Proof.
  intros Hin s H. unfold run_tests. destruct (run_loop_ends ts Hin None s H) as [H1 H2].
  pose proof (run_loop_left ts None s) as HL.
  destruct (run_loop E None ts s) as [[[s1 o] e] last]. cbn [fst snd] in *.
  assert (TG : forall s, T s -> G s) by (intros s' H'; exact (j_good _ (proj1 H'))).
  assert (P : pres T (if e_worker E then ret else initiate_cleanup E)).
  { apply T_of; [apply relf_if_init|]. destruct (e_worker E); [apply pres_ret|apply I_initiate]. }
  destruct o as [| x |]; [| |split; auto; cbn; congruence].
  - specialize (P s1 (H2 ltac:(discriminate))).
    destruct ((if e_worker E then ret else initiate_cleanup E) s1) as [s2 [| x' |]]; cbn [fst snd] in *; auto.
    destruct (e_worker E); [cbn; auto|].
    match goal with |- G (fst ((?a ;; ?b) s2)) /\ _ => assert (Q : pres T (a ;; b)) end.
    { apply pres_seq.
      - assert (U : forall l, incl (map t_id l) ids -> pres T (mark_unrun l)).
        { induction l as [|t l IHl]; intros K; cbn; [apply pres_ret|]. apply pres_seq.
          - apply T_unrun. apply K. left; auto.
          - apply IHl. intros u Hu. apply K. right; auto. }
        apply U. destruct e; try (intros u []). eapply incl_tran; [apply (HL rest eq_refl)|exact Hin].
      - destruct e, last; try apply pres_ret; apply pres_upd; intros; apply T_still; auto. }
    specialize (Q s2 P). split; auto.
  - specialize (P s1 (H2 ltac:(discriminate))).
    destruct ((if e_worker E then ret else initiate_cleanup E) s1) as [s2 [| x' |]]; cbn [fst snd] in *; auto.
Qed.

Lemma T_G s : T s -> G s.
Proof. intros H. exact (j_good _ (proj1 H)). Qed.
Lemma ends_pres m : pres T m -> ends T T m.
Proof. intros H s Hs. split; [apply T_G|]; auto. Qed.
Lemma ends_seq a b : ends T T a -> ends T T b -> ends T T (a ;; b).
Proof.
  intros Ha Hb s Hs. unfold seq. destruct (Ha s Hs) as [A1 A2]. destruct (a s) as [s1 [| x |]]; cbn [fst snd] in *; auto.
  apply Hb, A2. discriminate.
Qed.
Lemma ends_fin a b : ends T T a -> ends T T b -> ends T T (finally a b).
Proof.
  intros Ha Hb s Hs. unfold finally. destruct (Ha s Hs) as [A1 A2]. destruct (a s) as [s1 [| x |]]; cbn [fst snd] in *; auto;
    destruct (Hb s1 (A2 ltac:(discriminate))) as [B1 B2]; destruct (b s1) as [s2 [| y |]]; cbn [fst snd] in *; auto;
    split; auto; intros _; apply B2; discriminate.
Qed.
Lemma ends_except ts a h : ends T T a -> (forall x, ends T T (h x)) -> ends T T (except_ ts a h).
Proof.
  intros Ha Hb s Hs. unfold except_. destruct (Ha s Hs) as [A1 A2]. destruct (a s) as [s1 [| x |]]; cbn [fst snd] in *; auto.
  destruct (isinstance_any _ _); auto. apply Hb, A2. discriminate.
Qed.
Lemma T_handling h m : pres T m -> pres T (handling E h m).
Proof.
  apply pres_handling. intros x s (A & B & C). pose proof (frame_handle E x s) as []. split; [apply J_handle; auto|split; congruence].
Qed.
Lemma T_fire h t : still (EvHook h t) = true -> pres T (fire E h t).
Proof.
  intros H. apply pres_seq; [apply pres_upd; intros; apply T_still; auto|]. apply T_of; [apply relf_exec|apply I_exec].
Qed.

Lemma G_session ts : incl (map t_id ts) ids -> G (fst (run_session E ts)).
Proof.
  intros Hin.
  assert (T0 : T state0).
  { split; [|split; reflexivity]. constructor; auto.
    - apply W_state0.
    - split; [apply good_nil|split; [apply to_view, F_state0|reflexivity]].
    - cbn. auto.
    - intros t [].
    - intros t []. }
  assert (SS : forall b, pres T (upd (set_ss b))).
  { intros b s ([Y1 Y2 Y3 Y4 Y5 Y6] & R & V). split; [|split; [exact R|exact V]]. constructor; auto.
    eapply W_wstep; [|exact Y1]. cbn [upd fst]. wfield. }
  assert (P : ends T T (started_context E (run_tests E ts))).
  { unfold started_context.
    apply ends_seq; [apply ends_pres, T_of; [apply relf_cm_push|apply I_push]|].
    apply ends_seq; [apply ends_pres, SS|].
    apply ends_fin.
    - apply ends_except; [|intros; apply ends_pres, pres_seq; [apply T_fire; auto|apply pres_reraise]].
      apply ends_seq; [|apply T_run_tests; auto]. apply ends_pres, T_handling.
      apply pres_seq; [apply T_fire; auto|]. apply pres_seq; [apply T_fire; auto|]. apply pres_seq; [apply SS|apply T_fire; auto].
    - apply ends_pres, pres_seq; [apply T_handling, T_of; [apply relf_cm_pop|apply I_pop]|].
      apply pres_cond; [|apply pres_ret]. apply pres_seq; apply T_handling, T_fire; auto. }
  exact (proj1 (P state0 T0)).
Qed.

End Flags.
