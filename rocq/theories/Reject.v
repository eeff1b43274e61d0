(** When add_cleanup refuses a scope name (C07). *)

From Coq Require Import List Bool Arith PeanoNat Lia.
From Verif Require Import Events Core CoreSpec CoreBase CleanupSim CleanupTrace Generic.
Import ListNotations.

(** a scope of that name was opened *)
Definition pushed (n : sname) (tr : list event) : bool :=
  existsb (fun e => match e with EvPush _ m => sname_eqb n m | _ => false end) tr.

Lemma pushed_In n tr : pushed n tr = true <-> exists sid, In (EvPush sid n) tr.
Proof.
  unfold pushed. rewrite existsb_exists. split.
  - intros [e [H1 H2]]. destruct e; try discriminate. exists sid. destruct n, nm; try discriminate; auto.
  - intros [sid H]. exists (EvPush sid n). split; auto. destruct n; auto.
Qed.

Lemma pushed_snoc n tr e : pushed n (tr ++ [e]) = pushed n tr || match e with EvPush _ m => sname_eqb n m | _ => false end.
Proof. unfold pushed. rewrite existsb_app. simpl. rewrite orb_false_r. reflexivity. Qed.

Definition rej_ok (tr : list event) : Prop :=
  forall p req k t, tr = p ++ EvReject req k :: t ->
    k = KAssertion \/
    match req with
    | Some n => innermost n (open_scopes p) = None /\ k = (if pushed n p then KIndexError else KIncorrectScope)
    | None => k = KCannotAdd
    end.

Record Nm (s : state) : Prop := mkNm {
  nm_open : open_scopes (st_trace s) = shape s;
  nm_nodup : NoDup (map fst (shape s));
  nm_lt : forall i, In i (map fst (shape s)) -> i < cm_nsid (st_cm s);
  nm_names : forall n, match name_lookup n (cm_names (st_cm s)) with
                       | None => pushed n (st_trace s) = false
                       | Some l => pushed n (st_trace s) = true /\
                                   l = map fst (filter (fun p => sname_eqb n (snd p)) (shape s))
                       end;
  nm_pushed : forall n p, In p (shape s) -> snd p = n -> pushed n (st_trace s) = true;
  nm_rej : rej_ok (st_trace s) }.

Lemma rej_snoc tr e : (forall req k, e <> EvReject req k) -> rej_ok tr -> rej_ok (tr ++ [e]).
Proof.
  intros He H p req k t Heq. destruct t as [|y t] using rev_ind.
  - apply app_inj_tail in Heq as [_ ->]. exfalso. eapply He; eauto.
  - clear IHt. change (p ++ EvReject req k :: t ++ [y]) with (p ++ (EvReject req k :: t) ++ [y]) in Heq.
    rewrite app_assoc in Heq. apply app_inj_tail in Heq as [Heq _]. eapply H; eauto.
Qed.

(** an event that opens, closes and rejects nothing *)
Definition silent (e : event) : bool :=
  match e with EvPush _ _ | EvPopEnd _ _ _ | EvReject _ _ => false | _ => true end.

Lemma open_silent tr e : silent e = true -> open_scopes (tr ++ [e]) = open_scopes tr.
Proof. intros H. rewrite open_scopes_snoc. destruct e; try discriminate; reflexivity. Qed.

Lemma Nm_move s s' e :
  shape s' = shape s -> cm_names (st_cm s') = cm_names (st_cm s) -> cm_nsid (st_cm s') = cm_nsid (st_cm s) ->
  st_trace s' = st_trace s ++ [e] -> silent e = true -> Nm s -> Nm s'.
Proof.
  intros A B C D F [].
  assert (P : forall n, pushed n (st_trace s') = pushed n (st_trace s)).
  { intros n. rewrite D, pushed_snoc. destruct e; try discriminate; apply orb_false_r. }
  constructor; rewrite ?A, ?B, ?C; auto.
  - rewrite D, open_silent; auto.
  - intros n. specialize (nm_names0 n). destruct (name_lookup n _); rewrite P; auto.
  - intros n p H1 H2. rewrite P. eauto.
  - rewrite D. apply rej_snoc; auto. intros req k ->. discriminate.
Qed.

Lemma Nm_same s s' :
  shape s' = shape s -> cm_names (st_cm s') = cm_names (st_cm s) -> cm_nsid (st_cm s') = cm_nsid (st_cm s) ->
  st_trace s' = st_trace s -> Nm s -> Nm s'.
Proof. intros A B C D []. constructor; rewrite ?A, ?B, ?C, ?D; auto. Qed.

Lemma Nm_alike s s' : alike s s' -> Nm s -> Nm s'.
Proof. intros []. apply Nm_same; auto. unfold shape. rewrite a_stack; auto. Qed.

Lemma Nm_emit e s : other e = true -> Nm s -> Nm (emit e s).
Proof. intros H. apply Nm_move with e; auto. destruct e; auto; discriminate. Qed.

Lemma innermost_filter n l : innermost n l = hd_error (map fst (filter (fun p => sname_eqb n (snd p)) l)).
Proof.
  unfold innermost. induction l as [|p l IH]; simpl; auto. destruct (sname_eqb n (snd p)); simpl; auto.
Qed.

Lemma sname_eqb_refl n : sname_eqb n n = true.
Proof. destruct n; auto. Qed.
Lemma sname_eqb_eq a b : sname_eqb a b = true -> a = b.
Proof. destruct a, b; try discriminate; auto. Qed.

Lemma Nm_reject s req k :
  Nm s ->
  (k = KAssertion \/ match req with
    | Some n => innermost n (open_scopes (st_trace s)) = None /\ k = (if pushed n (st_trace s) then KIndexError else KIncorrectScope)
    | None => k = KCannotAdd end) ->
  Nm (emit (EvReject req k) s).
Proof.
  intros [] Hk. constructor; cbn [emit st_trace]; auto.
  - rewrite open_scopes_snoc. simpl. auto.
  - intros n. specialize (nm_names0 n). cbn [emit st_cm].
    destruct (name_lookup n _); rewrite pushed_snoc, orb_false_r; auto.
  - intros n p H1 H2. rewrite pushed_snoc, orb_false_r. eauto.
  - intros p req' k' t Heq. destruct t as [|y t] using rev_ind.
    + apply app_inj_tail in Heq as [<- E2]. inversion E2; subst. exact Hk.
    + clear IHt. change (p ++ EvReject req' k' :: t ++ [y]) with (p ++ (EvReject req' k' :: t) ++ [y]) in Heq.
      rewrite app_assoc in Heq. apply app_inj_tail in Heq as [Heq _]. eapply nm_rej0; eauto.
Qed.

Lemma Nm_add sc crit succ body : pres Nm (tap_add sc (add_cleanup sc crit succ body)).
Proof.
  intros s H. unfold tap_add, add_cleanup. destruct (succ && crit).
  { cbn [raise_new fst]. apply Nm_reject; [|left; reflexivity]. eapply Nm_same; [| | | |exact H]; reflexivity. }
  set (n := match sc with SDefault => _ | SGiven n => n end).
  set (c := mkCleanup _ _ _ _ _). set (s1 := on_cm _ s).
  assert (H1 : Nm s1) by (eapply Nm_same; [| | | |exact H]; reflexivity).
  assert (A : forall req tgt, Nm (attach c req tgt s1)).
  { intros req tgt. eapply (Nm_move s1 _ (EvAdd (c_id c) req tgt (c_crit c) (c_succ c) (c_result c))); [apply shape_attach| | | | |exact H1];
      try reflexivity; unfold attach; destruct tgt; reflexivity. }
  assert (R : forall req k, (k = KAssertion \/ match req with
    | Some n => innermost n (open_scopes (st_trace s1)) = None /\ k = (if pushed n (st_trace s1) then KIndexError else KIncorrectScope)
    | None => k = KCannotAdd end) -> Nm (emit (EvReject req k) (set_nx (S (st_nx s1)) s1))).
  { intros req k Hk. apply Nm_reject; auto. eapply Nm_same; [| | | |exact H1]; reflexivity. }
  destruct n as [nm|].
  - pose proof (nm_names _ H1 nm) as Hn.
    destruct (name_lookup nm (cm_names (st_cm s1))) as [[|sid l]|] eqn:Hl; cbn [raise_new fst x_kind]; auto.
    + apply R. right. destruct Hn as [Hp Hn]. split; [|rewrite Hp; auto].
      rewrite (nm_open _ H1). rewrite innermost_filter, <- Hn. reflexivity.
    + apply R. right. rewrite Hn. split; auto. rewrite (nm_open _ H1).
      destruct (innermost nm (shape s1)) eqn:Ei; auto. exfalso. unfold innermost in Ei.
      destruct (find _ (shape s1)) as [p|] eqn:Ef; [|discriminate]. apply find_some in Ef as [F1 F2].
      rewrite (nm_pushed _ H1 nm p F1) in Hn; [discriminate|]. symmetry. apply sname_eqb_eq; auto.
  - destruct (negb (cm_implicit (st_cm s1))); cbn [raise_new fst x_kind]; auto.
Qed.

Lemma Nm_push n : pres Nm (cm_push n).
Proof.
  intros s []. unfold cm_push. cbn [fst].
  constructor; cbn [emit st_trace]; unfold shape; simpl.
  - rewrite open_scopes_snoc. simpl. rewrite nm_open0. reflexivity.
  - constructor; auto. intros Hi. specialize (nm_lt0 _ Hi). lia.
  - intros i [<-|Hi]; [lia|]. specialize (nm_lt0 _ Hi). lia.
  - intros m. rewrite name_lookup_update. specialize (nm_names0 m). rewrite pushed_snoc.
    destruct (sname_eqb m n) eqn:Em; simpl.
    + apply sname_eqb_eq in Em. subst m. split; [apply orb_true_r|]. f_equal. destruct (name_lookup n _) as [l|].
      * apply nm_names0.
      * symmetry. unfold shape. match goal with |- map fst (filter ?f ?l) = [] => destruct (filter f l) as [|p fl] eqn:Ef end; auto.
        assert (Hp : In p (filter (fun p => sname_eqb n (snd p)) (shape s))) by (unfold shape; rewrite Ef; left; auto).
        apply filter_In in Hp as [P1 P2]. rewrite (nm_pushed0 n p P1) in nm_names0; [discriminate|].
        symmetry; apply sname_eqb_eq; auto.
    + rewrite orb_false_r. destruct (name_lookup m _); auto.
  - intros m p [<-|Hp] Hm; rewrite pushed_snoc.
    + simpl in Hm. subst. rewrite sname_eqb_refl, orb_true_r; auto.
    + rewrite (nm_pushed0 m p); auto.
  - apply rej_snoc; auto. discriminate.
Qed.

Section P.
Variable E : env.

Lemma shape_call_cleanups sid nm f i s : shape (fst (call_cleanups E sid nm f i s)) = shape s.
Proof.
  refine (gen_call_cleanups E (fun s' => shape s' = shape s) _ _ _ _ _ _ sid nm f i s eq_refl).
  - intros s1 s2 [] H. unfold shape in *. rewrite a_stack; auto.
  - intros e s1 _ H; exact H.
  - intros c s1 H; exact H.
  - intros sc crit succ body. apply pres_tap_add; [intros req k s1 H; exact H|].
    intros s1 H. rewrite shape_add_cleanup; auto.
  - intros l fin s1 H; exact H.
  - intros sid' s1 H. rewrite shape_loop_pop; auto.
Qed.

Lemma Nm_tl sid s : Nm s -> Nm (on_cm (fun m => with_stack (on_scope sid (@tl _) (cm_stack m)) m) s).
Proof. apply Nm_same; try reflexivity. apply shape_loop_pop. Qed.

Lemma filter_other sid (l : list (nat * sname)) : ~ In sid (map fst l) -> filter (fun p => negb (Nat.eqb sid (fst p))) l = l.
Proof.
  induction l as [|p l IH]; simpl; auto. intros H. destruct (Nat.eqb sid (fst p)) eqn:Ee; simpl.
  - apply Nat.eqb_eq in Ee. exfalso. apply H. left; congruence.
  - f_equal. apply IH. tauto.
Qed.

Lemma Nm_up l fin : pres Nm (activate_fixture l fin).
Proof. intros s H. eapply (Nm_move s); [| | | | |exact H]; reflexivity. Qed.

Lemma Nm_pop n : pres Nm (cm_pop E n).
Proof.
  intros s H. unfold cm_pop. destruct (cm_stack (st_cm s)) as [|sc l] eqn:Hs.
  { cbn [raise_new fst]. eapply Nm_same; [| | | |exact H]; reflexivity. }
  destruct (negb (sname_eqb (sc_name sc) n)) eqn:Hn.
  { cbn [raise_new fst]. eapply Nm_same; [| | | |exact H]; reflexivity. }
  apply negb_false_iff, sname_eqb_eq in Hn.
  set (s1 := emit _ s).
  assert (H1 : Nm s1) by (eapply (Nm_move s); [| | | | |exact H]; reflexivity).
  set (fl := negb (current_success s)) in *. set (it := current_interrupted s) in *.
  pose proof (shape_call_cleanups (sc_id sc) (sc_name sc) fl it s1) as Sh.
  assert (H2 : Nm (fst (call_cleanups E (sc_id sc) (sc_name sc) fl it s1))).
  { apply (gen_call_cleanups E Nm); auto.
    - apply Nm_alike.
    - intros; apply Nm_emit; auto.
    - intros c s' H'. eapply Nm_move; [| | | | |exact H']; reflexivity.
    - apply Nm_add.
    - apply Nm_up.
    - intros; apply Nm_tl; auto. }
  destruct (call_cleanups E (sc_id sc) (sc_name sc) fl it s1) as [s2 o]. cbn [fst] in Sh, H2.
  assert (K : forall ok, Nm (emit (EvPopEnd (sc_id sc) n ok)
     (on_cm (fun m => with_names (name_update n (@tl _) (cm_names m)) (with_stack (tl (cm_stack m)) m)) s2))).
  { intros ok. destruct H2.
    change (shape s1) with (shape s) in Sh.
    assert (Sh' : exists rest, shape s2 = (sc_id sc, n) :: rest /\ map (fun c => (sc_id c, sc_name c)) (tl (cm_stack (st_cm s2))) = rest).
    { rewrite Sh. unfold shape. rewrite Hs. simpl. rewrite Hn. eexists. split; [reflexivity|].
      unfold shape in Sh. rewrite Hs in Sh. destruct (cm_stack (st_cm s2)); [discriminate|]. simpl in *. congruence. }
    destruct Sh' as (rest & R1 & R2).
    rewrite R1 in nm_nodup0, nm_lt0, nm_names0, nm_pushed0, nm_open0. simpl in nm_nodup0.
    apply NoDup_cons_iff in nm_nodup0 as [N1 N2].
    constructor; cbn [emit st_trace on_cm set_cm]; unfold shape; cbn [st_cm emit on_cm set_cm with_names with_stack cm_stack cm_names cm_nsid]; rewrite ?R2; auto.
    - rewrite open_scopes_snoc, nm_open0. simpl. rewrite Nat.eqb_refl. simpl. apply filter_other; auto.
    - intros i Hi. apply nm_lt0. right; auto.
    - intros m. rewrite name_lookup_update. specialize (nm_names0 m). rewrite pushed_snoc, orb_false_r.
      simpl in nm_names0. destruct (sname_eqb m n) eqn:Em.
      + apply sname_eqb_eq in Em. subst m. simpl in nm_names0. destruct (name_lookup n _) as [l'|].
        * destruct nm_names0 as [A ->]. simpl. auto.
        * exfalso. rewrite (nm_pushed0 n (sc_id sc, n)) in nm_names0; [discriminate|left; auto|auto].
      + destruct (name_lookup m _); auto.
    - intros m p Hp Hm. rewrite pushed_snoc, orb_false_r. apply (nm_pushed0 m p); auto. right; auto.
    - apply rej_snoc; auto. discriminate. }
  destruct o; cbn [fst]; auto.
Qed.

Lemma session_rej ts : rej_ok (st_trace (fst (run_session E ts))).
Proof.
  apply nm_rej. apply (gen_session E Nm).
  - apply Nm_alike.
  - intros; apply Nm_emit; auto.
  - apply Nm_add.
  - apply Nm_up.
  - apply Nm_push.
  - apply Nm_pop.
  - intros n. apply (gen_fix_pop E Nm).
    + apply Nm_alike.
    + intros; apply Nm_emit; auto.
    + apply Nm_add.
    + apply Nm_up.
    + intros l fid s H. eapply (Nm_move s); [| | | | |exact H]; reflexivity.
  - intros n ok s H. eapply (Nm_move s); [| | | | |exact H]; reflexivity.
  - constructor; simpl; auto; try tauto.
    + constructor.
    + intros p req k t H. destruct p; discriminate.
Qed.

End P.
