(** What acceptance by the scope/cleanup acceptor means for a trace. *)

From Coq Require Import List Bool Arith PeanoNat Lia.
From Verif Require Import Events CoreSpec.
Import ListNotations.

Lemma spec_run_snoc q tr e :
  spec_run q (tr ++ [e]) = match spec_run q tr with Some q' => spec_step q' e | None => None end.
Proof.
  revert q; induction tr as [|x tr IH]; intros q; simpl.
  - destruct (spec_step q e); auto.
  - destruct (spec_step q x); auto.
Qed.

Lemma accepted_app a b : accepted (a ++ b) -> accepted a.
Proof.
  revert b. unfold accepted. generalize sst0. induction a as [|e a IH]; intros q b [q' H]; simpl in *.
  - exists q; auto.
  - destruct (spec_step q e); [|discriminate]. eapply IH; eauto.
Qed.

(** ** Subsequences *)

Inductive subseq {A} : list A -> list A -> Prop :=
| sub_nil l : subseq [] l
| sub_keep x l m : subseq l m -> subseq (x :: l) (x :: m)
| sub_skip x l m : subseq l m -> subseq l (x :: m).

Lemma subseq_in {A} (l m : list A) x : subseq l m -> In x l -> In x m.
Proof. induction 1; simpl; intros; [tauto| |auto]. destruct H0; auto. Qed.

Lemma subseq_tail {A} (a : list A) l m : subseq (a ++ l) m -> subseq l m.
Proof.
  revert m. induction a as [|x a IH]; intros m H; auto.
  apply IH. remember ((x :: a) ++ l) as k. revert x a l IH Heqk. induction H; intros y a k IH E; simpl in E; try discriminate.
  - inversion E; subst. apply sub_skip; auto.
  - apply sub_skip. eapply IHsubseq; eauto.
Qed.

Lemma subseq_nodup {A} (l m : list A) : subseq l m -> NoDup m -> NoDup l.
Proof.
  induction 1; intros Hd; [constructor| |]; inversion Hd; subst; auto.
  constructor; auto. intros Hi. apply H2. eapply subseq_in; eauto.
Qed.

(** relative order in a subsequence of a duplicate-free list *)
Lemma subseq_order {A} (l m : list A) a b :
  subseq l m -> NoDup m -> In a l -> In b l ->
  (exists p q r, m = p ++ b :: q ++ a :: r) ->
  exists p q r, l = p ++ b :: q ++ a :: r.
Proof.
  induction 1 as [m|x l m H IH|x l m H IH]; intros Hd Ha Hb (p & q & r & Hm).
  - inversion Ha.
  - inversion Hd as [|? ? Hni Hd']; subst. destruct p as [|y p]; simpl in Hm; inversion Hm; subst.
    + (* b is the head *)
      assert (Hab : In a l).
      { destruct Ha as [<-|Ha]; auto. exfalso. apply Hni. apply in_or_app. right. left. auto. }
      apply in_split in Hab as [l1 [l2 ->]]. exists [], l1, l2. reflexivity.
    + assert (Hb' : In b l).
      { destruct Hb as [<-|Hb]; auto. exfalso. apply Hni. apply in_or_app. right. left. auto. }
      assert (Ha' : In a l).
      { destruct Ha as [<-|Ha]; auto. exfalso. apply Hni. apply in_or_app. right. right. apply in_or_app. right. left. auto. }
      destruct (IH Hd' Ha' Hb') as (p' & q' & r' & ->); [do 3 eexists; eauto|]. exists (y :: p'), q', r'. reflexivity.
  - inversion Hd as [|? ? Hni Hd']; subst. destruct p as [|y p]; simpl in Hm; inversion Hm; subst.
    + exfalso. apply Hni. eapply subseq_in; eauto.
    + apply IH; auto. do 3 eexists; eauto.
Qed.

(** ** Ghost projections *)

Definition adds (tr : list event) : list item :=
  flat_map (fun e => match e with EvAdd c _ _ crit succ _ => [(c, crit, succ)] | _ => [] end) tr.

Definition own_step (acc : list (nat * option nat)) (e : event) : list (nat * option nat) :=
  match e with
  | EvAdd c _ tgt _ _ _ => (c, tgt) :: acc
  | EvPush sid _ => map (fun p => (fst p, match snd p with None => Some sid | o => o end)) acc
  | _ => acc
  end.

Definition own (tr : list event) := fold_left own_step tr [].

Lemma own_snoc tr e : own (tr ++ [e]) = own_step (own tr) e.
Proof. unfold own. rewrite fold_left_app. reflexivity. Qed.

Lemma adds_snoc tr e : adds (tr ++ [e]) = adds tr ++ adds [e].
Proof. unfold adds. rewrite flat_map_app. reflexivity. Qed.

Lemma runs_snoc tr e : runs (tr ++ [e]) = runs tr ++ runs [e].
Proof. unfold runs. rewrite flat_map_app. reflexivity. Qed.

Lemma runs_In c tr : In c (runs tr) <-> In (EvRun c) tr.
Proof.
  unfold runs. rewrite in_flat_map. split.
  - intros [e [H1 H2]]. destruct e; simpl in H2; try tauto. destruct H2 as [<-|[]]; auto.
  - intros H. exists (EvRun c). split; simpl; auto.
Qed.

Lemma adds_In c crit succ tr :
  In (c, crit, succ) (adds tr) <-> exists req tgt r, In (EvAdd c req tgt crit succ r) tr.
Proof.
  unfold adds. rewrite in_flat_map. split.
  - intros [e [H1 H2]]. destruct e; simpl in H2; try tauto. destruct H2 as [H2|[]]; inversion H2; subst. eauto.
  - intros (req & tgt & r & H). eexists. split; [exact H|]. simpl; auto.
Qed.

Lemma open_after_snoc tr e acc :
  open_after acc (tr ++ [e]) = open_after (open_after acc tr) [e].
Proof.
  revert acc. induction tr as [|x tr IH]; intros acc; [reflexivity|].
  change ((x :: tr) ++ [e]) with (x :: (tr ++ [e])).
  destruct x; cbn [open_after]; try (rewrite IH; reflexivity).
Qed.

Lemma open_scopes_snoc tr e : open_scopes (tr ++ [e]) = open_after (open_scopes tr) [e].
Proof. apply open_after_snoc. Qed.

(** [own] is [belongs] *)
Lemma own_pending tr : forall c,
  In (c, None) (own tr) <->
  exists req crit succ r p q, tr = p ++ EvAdd c req None crit succ r :: q /\
     forallb (fun e => negb (is_push e)) q = true.
Proof.
  induction tr as [|e tr IH] using rev_ind; intros c.
  - split; [simpl; tauto|]. intros (req & crit & succ & r & p & q & H & _). destruct p; discriminate.
  - rewrite own_snoc. split.
    + intros H.
      assert (K : In (c, None) (own tr) -> is_push e = false ->
         exists req crit succ r p q, tr ++ [e] = p ++ EvAdd c req None crit succ r :: q /\ forallb (fun e => negb (is_push e)) q = true).
      { intros H' Hp. apply IH in H' as (req & crit & succ & r & p & q & -> & Hq).
        exists req, crit, succ, r, p, (q ++ [e]). split; [rewrite <- app_assoc; reflexivity|].
        rewrite forallb_app, Hq. simpl. rewrite Hp. reflexivity. }
      destruct e; simpl in H; try (apply K; auto; fail).
      * apply in_map_iff in H as [[c' o] [H1 _]]. simpl in H1. inversion H1. destruct o; discriminate.
      * destruct H as [H|H]; [|apply K; auto]. inversion H; subst.
        exists req, crit, succ, r, tr, []. auto.
    + intros (req & crit & succ & r & p & q & H & Hq).
      destruct q as [|x q] using rev_ind.
      * apply app_inj_tail in H as [H1 H2]. subst e. simpl. auto.
      * clear IHq. change (p ++ EvAdd c req None crit succ r :: q ++ [x]) with (p ++ (EvAdd c req None crit succ r :: q) ++ [x]) in H.
        rewrite app_assoc in H. apply app_inj_tail in H as [H1 H2]. subst e.
        rewrite forallb_app in Hq. apply andb_true_iff in Hq as [Hq1 Hq2]. simpl in Hq2.
        assert (H' : In (c, None) (own tr)) by (apply IH; subst; do 6 eexists; eauto).
        destruct x; simpl in *; auto; try discriminate.
Qed.

Lemma belongs_snoc c sid tr e : belongs c sid tr -> belongs c sid (tr ++ [e]).
Proof.
  intros [(req & crit & succ & r & H)|(req & crit & succ & r & nm & p & q & t & -> & H)].
  - left. exists req, crit, succ, r. apply in_or_app; auto.
  - right. exists req, crit, succ, r, nm, p, q, (t ++ [e]). split; auto.
    rewrite <- app_assoc. simpl. rewrite <- app_assoc. reflexivity.
Qed.

Lemma own_belongs tr : forall c sid, In (c, Some sid) (own tr) <-> belongs c sid tr.
Proof.
  induction tr as [|e tr IH] using rev_ind; intros c sid.
  - split; [simpl; tauto|]. intros [(req & crit & succ & r & [])|(req & crit & succ & r & nm & p & q & t & H & _)].
    destruct p; discriminate.
  - rewrite own_snoc. split.
    + intros H.
      assert (K : In (c, Some sid) (own tr) -> belongs c sid (tr ++ [e])) by (intros; apply belongs_snoc, IH; auto).
      destruct e; simpl in H; try (apply K; auto; fail).
      * apply in_map_iff in H as [[c' o] [H1 H2]]. simpl in H1. destruct o as [s'|]; inversion H1; subst; [apply K; auto|].
        apply own_pending in H2 as (req & crit & succ & r & p & q & -> & Hq).
        right. exists req, crit, succ, r, nm, p, q, []. split; auto. rewrite <- app_assoc. reflexivity.
      * destruct H as [H|H]; [|apply K; auto]. inversion H; subst. left.
        exists req, crit, succ, r. apply in_or_app. right; left; auto.
    + intros [(req & crit & succ & r & H)|(req & crit & succ & r & nm & p & q & t & H & Hq)].
      * apply in_app_or in H as [H|[H|[]]].
        -- assert (In (c, Some sid) (own tr)) by (apply IH; left; eauto).
           destruct e; simpl; auto. apply in_map_iff. exists (c, Some sid). auto.
        -- subst e. simpl. auto.
      * destruct t as [|x t] using rev_ind.
        -- change (p ++ EvAdd c req None crit succ r :: q ++ [EvPush sid nm])
             with (p ++ (EvAdd c req None crit succ r :: q) ++ [EvPush sid nm]) in H.
           rewrite app_assoc in H. apply app_inj_tail in H as [H1 H2]. subst e. simpl.
           apply in_map_iff. exists (c, None). split; auto.
           apply own_pending. do 6 eexists; eauto.
        -- clear IHt.
           replace (p ++ EvAdd c req None crit succ r :: q ++ EvPush sid nm :: t ++ [x])
             with ((p ++ EvAdd c req None crit succ r :: q ++ EvPush sid nm :: t) ++ [x]) in H
             by (rewrite <- app_assoc; simpl; rewrite <- app_assoc; reflexivity).
           apply app_inj_tail in H as [H1 H2]. subst e.
           assert (In (c, Some sid) (own tr)) by (apply IH; right; do 8 eexists; eauto).
           destruct x; simpl; auto. apply in_map_iff. exists (c, Some sid). auto.
Qed.

(** ** The invariant *)

Definition live (q : sst) (c : nat) : Prop :=
  (exists x it, In x (q_stack q) /\ In it (ss_items x) /\ it_id it = c) \/
  (exists it, In it (q_pend q) /\ it_id it = c).

Definition on_stack (q : sst) (sid : nat) : Prop := exists x, In x (q_stack q) /\ ss_id x = sid.

(** what can have become of a registration [it] owned by scope [sid] *)
Definition status (tr : list event) (q : sst) (it : item) (sid : nat) : Prop :=
  (exists x, In x (q_stack q) /\ ss_id x = sid /\ In it (ss_items x)) \/
  (In (it_id it) (runs tr) /\ exists nm f i, In (EvPopBegin sid nm f i) tr /\ it_must f i it = true) \/
  (~ In (it_id it) (runs tr) /\ exists nm f i, In (EvPopBegin sid nm f i) tr /\ it_must f i it = false) \/
  (~ In (it_id it) (runs tr) /\ exists nm, In (EvPopEnd sid nm false) tr).

Record J (tr : list event) (q : sst) : Prop := mkJ {
  j_open : open_scopes tr = map (fun x => (ss_id x, ss_nm x)) (q_stack q);
  j_nodup : NoDup (map ss_id (q_stack q));
  j_sids : forall x, In x (q_stack q) -> In (ss_id x) (q_sids q);
  j_push : forall sid nm, In (EvPush sid nm) tr -> In sid (q_sids q);
  j_cids : map it_id (rev (adds tr)) = q_cids q;
  j_cnd : NoDup (q_cids q);
  j_own : map fst (own tr) = q_cids q;
  j_items : forall x it, In x (q_stack q) -> In it (ss_items x) ->
              In it (adds tr) /\ In (it_id it, Some (ss_id x)) (own tr);
  j_pend : forall it, In it (q_pend q) -> In it (adds tr) /\ In (it_id it, None) (own tr);
  j_sub : forall x, In x (q_stack q) -> subseq (map it_id (ss_items x)) (q_cids q);
  j_subp : subseq (map it_id (q_pend q)) (q_cids q);
  j_rnd : NoDup (runs tr);
  j_runs : forall c, In c (runs tr) -> In c (q_cids q) /\ ~ live q c;
  j_idle : forall x rest y, q_stack q = x :: rest -> In y rest -> ss_pop y = None;
  j_begin : forall sid nm f i, In (EvPopBegin sid nm f i) tr ->
     In sid (q_sids q) /\
     (on_stack q sid -> exists x rest, q_stack q = x :: rest /\ ss_id x = sid /\ ss_pop x = Some (f, i));
  j_beginu : forall sid nm f i nm' f' i', In (EvPopBegin sid nm f i) tr -> In (EvPopBegin sid nm' f' i') tr ->
     f = f' /\ i = i';
  j_pop : forall x f i, In x (q_stack q) -> ss_pop x = Some (f, i) -> In (EvPopBegin (ss_id x) (ss_nm x) f i) tr;
  j_end : forall sid nm ok, In (EvPopEnd sid nm ok) tr -> In sid (q_sids q) /\ ~ on_stack q sid;
  j_endu : forall sid nm ok nm' ok', In (EvPopEnd sid nm ok) tr -> In (EvPopEnd sid nm' ok') tr -> ok = ok';
  j_none : forall c crit succ, In (c, crit, succ) (adds tr) -> In (c, None) (own tr) -> In (c, crit, succ) (q_pend q);
  j_status : forall it sid, In it (adds tr) -> In (it_id it, Some sid) (own tr) -> status tr q it sid }.

Lemma memb_In n l : memb n l = true <-> In n l.
Proof.
  unfold memb. rewrite existsb_exists. split.
  - intros [x [H1 H2]]. apply Nat.eqb_eq in H2. subst; auto.
  - intros H. exists n. split; auto. apply Nat.eqb_refl.
Qed.

Lemma memb_notIn n l : memb n l = false -> ~ In n l.
Proof. intros H Hi. apply memb_In in Hi. congruence. Qed.

Lemma J_nil : J [] sst0.
Proof.
  constructor; simpl; try tauto; try (constructor; fail).
  - intros x rest y H; discriminate.
Qed.

(** events the acceptor ignores *)
Definition ignored (e : event) : bool :=
  match e with
  | EvPush _ _ | EvAdd _ _ _ _ _ _ | EvPopBegin _ _ _ _ | EvRun _ | EvPopEnd _ _ _ => false
  | _ => true
  end.

Lemma J_ignored tr q e : ignored e = true -> J tr q -> J (tr ++ [e]) q.
Proof.
  intros He [].
  assert (A : adds (tr ++ [e]) = adds tr) by (rewrite adds_snoc; destruct e; try discriminate; apply app_nil_r).
  assert (R : runs (tr ++ [e]) = runs tr) by (rewrite runs_snoc; destruct e; try discriminate; apply app_nil_r).
  assert (O : own (tr ++ [e]) = own tr) by (rewrite own_snoc; destruct e; try discriminate; reflexivity).
  assert (P : open_scopes (tr ++ [e]) = open_scopes tr) by (rewrite open_scopes_snoc; destruct e; try discriminate; reflexivity).
  assert (IN : forall e', ignored e' = false -> In e' (tr ++ [e]) -> In e' tr).
  { intros e' He' H. apply in_app_or in H as [H|[H|[]]]; auto. subst; congruence. }
  assert (IN' : forall e', In e' tr -> In e' (tr ++ [e])) by (intros; apply in_or_app; auto).
  constructor; rewrite ?A, ?R, ?O, ?P; auto.
  - intros sid nm H. eapply j_push0. apply IN in H; eauto.
  - intros sid nm f i H. eapply j_begin0. apply IN in H; eauto.
  - intros sid nm f i nm' f' i' H H'. apply IN in H; auto. apply IN in H'; auto. eapply j_beginu0; eauto.
  - intros sid nm ok H. eapply j_end0. apply IN in H; eauto.
  - intros sid nm ok nm' ok' H H'. apply IN in H; auto. apply IN in H'; auto. eapply j_endu0; eauto.
  - intros it sid H H'. destruct (j_status0 it sid H H') as [S|[S|[S|S]]]; unfold status; rewrite R.
    + left; auto.
    + right; left. destruct S as [S1 (nm & f & i & S2 & S3)]. split; auto. do 3 eexists; eauto.
    + right; right; left. destruct S as [S1 (nm & f & i & S2 & S3)]. split; auto. do 3 eexists; eauto.
    + right; right; right. destruct S as [S1 (nm & S2)]. split; auto. eexists; eauto.
Qed.

Lemma nodup_item tr q it it' :
  J tr q -> In it (adds tr) -> In it' (adds tr) -> it_id it = it_id it' -> it = it'.
Proof.
  intros [] H H' He.
  assert (Hn : NoDup (map it_id (rev (adds tr)))) by (rewrite j_cids0; auto).
  apply in_rev in H. apply in_rev in H'. revert Hn H H'. generalize (rev (adds tr)). clear - He.
  induction l as [|a l IH]; simpl; intros Hn H H'; [tauto|]. inversion Hn as [|? ? Hni Hn']; subst.
  destruct H as [->|H], H' as [->|H']; auto.
  - exfalso. apply Hni. rewrite He. apply in_map; auto.
  - exfalso. apply Hni. rewrite <- He. apply in_map; auto.
Qed.

Lemma own_fun tr q c o o' : J tr q -> In (c, o) (own tr) -> In (c, o') (own tr) -> o = o'.
Proof.
  intros [] H H'.
  assert (Hn : NoDup (map fst (own tr))) by (rewrite j_own0; auto).
  revert Hn H H'. generalize (own tr). clear.
  induction l as [|a l IH]; simpl; intros Hn H H'; [tauto|]. inversion Hn as [|? ? Hni Hn']; subst.
  destruct H as [->|H], H' as [H'|H']; auto.
  - congruence.
  - exfalso. apply Hni. apply in_map_iff. exists (c, o'); auto.
  - subst a. exfalso. apply Hni. apply in_map_iff. exists (c, o); auto.
Qed.

Lemma adds_own tr q it : J tr q -> In it (adds tr) -> exists o, In (it_id it, o) (own tr).
Proof.
  intros [] H. assert (Hi : In (it_id it) (map fst (own tr))).
  { rewrite j_own0, <- j_cids0. apply in_map. apply in_rev in H. auto. }
  apply in_map_iff in Hi as [[c o] [H1 H2]]. simpl in H1. subst. exists o; auto.
Qed.

Ltac snoc_in H := apply in_app_or in H as [H|[H|[]]].

(** ** Opening a scope *)
Lemma J_push tr q sid nm :
  J tr q -> memb sid (q_sids q) = false -> top_idle (q_stack q) = true ->
  J (tr ++ [EvPush sid nm]) (mkSst (mkSS sid nm None (q_pend q) :: q_stack q) [] (q_cids q) (sid :: q_sids q)).
Proof.
  intros HJ Hm Ht. apply memb_notIn in Hm. pose proof HJ as HJ'. destruct HJ.
  assert (A : adds (tr ++ [EvPush sid nm]) = adds tr) by (rewrite adds_snoc; apply app_nil_r).
  assert (R : runs (tr ++ [EvPush sid nm]) = runs tr) by (rewrite runs_snoc; apply app_nil_r).
  assert (O : own (tr ++ [EvPush sid nm]) = map (fun p => (fst p, match snd p with None => Some sid | o => o end)) (own tr))
    by (rewrite own_snoc; reflexivity).
  assert (OS : forall c s, In (c, Some s) (own tr) -> In (c, Some s) (own (tr ++ [EvPush sid nm]))).
  { intros c s H. rewrite O. apply in_map_iff. exists (c, Some s); auto. }
  assert (ON : forall c, In (c, None) (own tr) -> In (c, Some sid) (own (tr ++ [EvPush sid nm]))).
  { intros c H. rewrite O. apply in_map_iff. exists (c, None); auto. }
  assert (OI : forall c s, In (c, Some s) (own (tr ++ [EvPush sid nm])) -> In (c, Some s) (own tr) \/ (s = sid /\ In (c, None) (own tr))).
  { intros c s H. rewrite O in H. apply in_map_iff in H as [[c' o] [H1 H2]]. simpl in H1.
    destruct o; inversion H1; subst; auto. }
  constructor; rewrite ?A, ?R; cbn [q_stack q_pend q_cids q_sids]; auto.
  - rewrite open_scopes_snoc, j_open0. reflexivity.
  - simpl. constructor; auto. rewrite in_map_iff. intros [x [H1 H2]]. apply Hm. rewrite <- H1; auto.
  - intros x [<-|H]; simpl; auto.
  - intros s n H. snoc_in H; [right; eauto|]. inversion H; left; auto.
  - rewrite O, map_map. simpl. rewrite <- j_own0. apply map_ext. auto.
  - intros x it [<-|Hx] Hi; simpl in *.
    + apply j_pend0 in Hi as [H1 H2]. auto.
    + destruct (j_items0 x it Hx Hi). auto.
  - intros it [].
  - intros x [<-|H]; simpl; auto.
  - simpl. constructor.
  - intros c H. apply j_runs0 in H as [H1 H2]. split; auto. intros [(x & it & [<-|Hx] & Hi & He)|(it & [] & _)].
    + apply H2. right. exists it; auto.
    + apply H2. left. exists x, it; auto.
  - intros x rest y H Hy. inversion H; subst. destruct (q_stack q) as [|z zs] eqn:Eq; [inversion Hy|].
    destruct Hy as [<-|Hy]; [|eapply j_idle0; eauto]. simpl in Ht. destruct (ss_pop z); [discriminate|auto].
  - intros s n f i H. snoc_in H; [|discriminate]. destruct (j_begin0 s n f i H) as [H1 H2]. split; [right; auto|].
    intros (x & Hx & He). destruct Hx as [<-|Hx].
    + simpl in He. subst s. contradiction.
    + exfalso. destruct (H2 (ex_intro _ x (conj Hx He))) as (y & rest & Hy & He' & Hp).
      rewrite Hy in Ht. simpl in Ht. rewrite Hp in Ht. discriminate.
  - intros s n f i n' f' i' H H'. snoc_in H; [|discriminate]. snoc_in H'; [|discriminate]. eapply j_beginu0; eauto.
  - intros x f i [<-|Hx] Hp; [discriminate|]. apply in_or_app. left. auto.
  - intros s n ok H. snoc_in H; [|discriminate]. destruct (j_end0 s n ok H) as [H1 H2]. split; [right; auto|].
    intros (x & [<-|Hx] & He); [simpl in He; subst; contradiction|]. apply H2. exists x; auto.
  - intros s n ok n' ok' H H'. snoc_in H; [|discriminate]. snoc_in H'; [|discriminate]. eapply j_endu0; eauto.
  - intros c crit succ H H'. exfalso. rewrite O in H'. apply in_map_iff in H' as [[c' o] [H1 _]].
    simpl in H1. inversion H1. destruct o; discriminate.
  - intros it s H H'. apply OI in H' as [H'|[-> H']].
    + destruct (j_status0 it s H H') as [S|[S|[S|S]]]; unfold status; rewrite R.
      * left. destruct S as (x & S1 & S2 & S3). exists x. simpl; auto.
      * right; left. destruct S as [S1 (n & f & i & S2 & S3)]. split; auto. exists n, f, i. split; auto. apply in_or_app; auto.
      * right; right; left. destruct S as [S1 (n & f & i & S2 & S3)]. split; auto. exists n, f, i. split; auto. apply in_or_app; auto.
      * right; right; right. destruct S as [S1 (n & S2)]. split; auto. exists n. apply in_or_app; auto.
    + left. exists (mkSS sid nm None (q_pend q)). simpl. repeat split; auto.
      destruct it as [[c crit] succ]. apply j_none0; auto.
Qed.

(** ** Registering *)
Lemma add_item_In s it l x :
  In x (add_item s it l) ->
  exists y, In y l /\ ss_id x = ss_id y /\ ss_nm x = ss_nm y /\ ss_pop x = ss_pop y /\
    ((ss_id y = s /\ ss_items x = it :: ss_items y) \/ (ss_id y <> s /\ ss_items x = ss_items y)).
Proof.
  unfold add_item. rewrite in_map_iff. intros [y [H1 H2]]. exists y. subst x.
  destruct (Nat.eqb s (ss_id y)) eqn:E; simpl.
  - apply Nat.eqb_eq in E. repeat split; auto.
  - apply Nat.eqb_neq in E. repeat split; auto.
Qed.

Lemma add_item_In' s it l y :
  In y l -> exists x, In x (add_item s it l) /\ ss_id x = ss_id y /\ ss_nm x = ss_nm y /\ ss_pop x = ss_pop y /\
    ss_items x = if Nat.eqb s (ss_id y) then it :: ss_items y else ss_items y.
Proof.
  intros H. eexists. split; [apply in_map; exact H|]. simpl. destruct (Nat.eqb s (ss_id y)); simpl; auto.
Qed.

Lemma add_item_ids s it l : map ss_id (add_item s it l) = map ss_id l.
Proof. unfold add_item. rewrite map_map. apply map_ext. intros x. destruct (Nat.eqb _ _); auto. Qed.

Lemma add_item_open s it l :
  map (fun x => (ss_id x, ss_nm x)) (add_item s it l) = map (fun x => (ss_id x, ss_nm x)) l.
Proof. unfold add_item. rewrite map_map. apply map_ext. intros x. destruct (Nat.eqb _ _); auto. Qed.

Lemma target_open req l :
  target req l = match req with
                 | None => option_map fst (hd_error (map (fun x => (ss_id x, ss_nm x)) l))
                 | Some n => innermost n (map (fun x => (ss_id x, ss_nm x)) l)
                 end.
Proof.
  destruct req as [n|]; simpl.
  - unfold innermost. induction l as [|x l IH]; simpl; auto. destruct (sname_eqb n (ss_nm x)); auto.
  - destruct l; auto.
Qed.

Lemma target_on_stack req q s : target req (q_stack q) = Some s -> on_stack q s.
Proof.
  destruct req as [n|]; simpl; unfold on_stack.
  - induction (q_stack q) as [|x l IH]; simpl; [discriminate|]. destruct (sname_eqb n (ss_nm x)); simpl.
    + intros H; inversion H. exists x; auto.
    + intros H. destruct (IH H) as (y & H1 & H2). exists y; auto.
  - destruct (q_stack q) as [|x l]; simpl; [discriminate|]. intros H; inversion H. exists x; auto.
Qed.

Lemma J_add tr q cid req tgt crit succ r q' :
  J tr q -> spec_step q (EvAdd cid req tgt crit succ r) = Some q' ->
  J (tr ++ [EvAdd cid req tgt crit succ r]) q'.
Proof.
  intros HJ Hstep. pose proof HJ as HJ'. destruct HJ.
  cbn [spec_step] in Hstep.
  destruct (memb cid (q_cids q)) eqn:Hm; [discriminate|]. simpl in Hstep.
  destruct (crit && succ); [discriminate|].
  destruct (opt_nat_eqb tgt (target req (q_stack q))) eqn:Ht; [|discriminate]. simpl in Hstep.
  apply memb_notIn in Hm.
  set (ev := EvAdd cid req tgt crit succ r) in *. set (it0 := (cid, crit, succ)) in *.
  assert (A : adds (tr ++ [ev]) = adds tr ++ [it0]) by (rewrite adds_snoc; reflexivity).
  assert (R : runs (tr ++ [ev]) = runs tr) by (rewrite runs_snoc; apply app_nil_r).
  assert (O : own (tr ++ [ev]) = (cid, tgt) :: own tr) by (rewrite own_snoc; reflexivity).
  assert (Hfresh : forall it, In it (adds tr) -> it_id it <> cid).
  { intros it H He. apply Hm. rewrite <- j_cids0. rewrite <- He. apply in_map. rewrite <- in_rev. auto. }
  assert (Hfresh' : forall c o, In (c, o) (own tr) -> c <> cid).
  { intros c o H ->. apply Hm. rewrite <- j_own0. apply in_map_iff. exists (cid, o); auto. }
  assert (Hnr : ~ In cid (runs tr)) by (intros H; apply j_runs0 in H as [H _]; auto).
  assert (IN : forall e, e <> ev -> In e (tr ++ [ev]) -> In e tr).
  { intros e He H. snoc_in H; auto. congruence. }
  assert (Hst : forall it s, status tr q it s -> q' = mkSst (q_stack q') (q_pend q') (cid :: q_cids q) (q_sids q) ->
      (forall x, In x (q_stack q) -> ss_id x = s -> In it (ss_items x) -> exists x', In x' (q_stack q') /\ ss_id x' = s /\ In it (ss_items x')) ->
      status (tr ++ [ev]) q' it s).
  { intros it s S _ Hx. unfold status. rewrite R. destruct S as [S|[S|[S|S]]].
    - left. destruct S as (x & S1 & S2 & S3). eauto.
    - right; left. destruct S as [S1 (n & f & i & S2 & S3)]. split; auto. exists n, f, i. split; auto. apply in_or_app; auto.
    - right; right; left. destruct S as [S1 (n & f & i & S2 & S3)]. split; auto. exists n, f, i. split; auto. apply in_or_app; auto.
    - right; right; right. destruct S as [S1 (n & S2)]. split; auto. exists n. apply in_or_app; auto. }
  assert (Hopen : open_scopes (tr ++ [ev]) = open_scopes tr) by (rewrite open_scopes_snoc; reflexivity).
  destruct tgt as [s0|].
  - (* on an open scope *)
    assert (Hs0 : on_stack q s0).
    { apply (target_on_stack req). destruct (target req (q_stack q)); simpl in Ht; [|discriminate].
      apply Nat.eqb_eq in Ht. congruence. }
    assert (Hq : q' = mkSst (add_item s0 it0 (q_stack q)) (q_pend q) (cid :: q_cids q) (q_sids q)) by congruence.
    clear Hstep. subst q'.
    constructor; rewrite ?A, ?R, ?O, ?Hopen; cbn [q_stack q_pend q_cids q_sids].
    + rewrite add_item_open; auto.
    + rewrite add_item_ids; auto.
    + intros x Hx. apply add_item_In in Hx as (y & Hy & -> & _). auto.
    + intros sid nm H. apply IN in H; [eauto|discriminate].
    + rewrite rev_app_distr. cbn [rev app map]. f_equal; auto.
    + constructor; auto.
    + simpl. congruence.
    + intros x it Hx Hi. apply add_item_In in Hx as (y & Hy & -> & _ & _ & [[E1 E2]|[E1 E2]]); rewrite E2 in Hi.
      * destruct Hi as [<-|Hi].
        -- split; [apply in_or_app; right; left; auto|]. left. unfold it0, it_id. simpl. congruence.
        -- destruct (j_items0 y it Hy Hi). split; [apply in_or_app; auto|right; auto].
      * destruct (j_items0 y it Hy Hi). split; [apply in_or_app; auto|right; auto].
    + intros it Hi. destruct (j_pend0 it Hi). split; [apply in_or_app; auto|right; auto].
    + intros x Hx. apply add_item_In in Hx as (y & Hy & _ & _ & _ & [[E1 E2]|[E1 E2]]); rewrite E2.
      * simpl. apply sub_keep; auto.
      * apply sub_skip; auto.
    + apply sub_skip; auto.
    + auto.
    + intros c H. destruct (j_runs0 c H) as [H1 H2]. split; [right; auto|].
      intros [(x & it & Hx & Hi & He)|(it & Hi & He)].
      * apply add_item_In in Hx as (y & Hy & _ & _ & _ & [[E1 E2]|[E1 E2]]); rewrite E2 in Hi.
        -- destruct Hi as [<-|Hi]; [apply Hnr; unfold it0, it_id in He; simpl in He; congruence|].
           apply H2. left. exists y, it; auto.
        -- apply H2. left. exists y, it; auto.
      * apply H2. right. exists it; auto.
    + intros x rest y H Hy. destruct (q_stack q) as [|z zs] eqn:Eq; [discriminate|].
      simpl in H. inversion H. subst rest.
      change (map _ zs) with (add_item s0 it0 zs) in Hy.
      apply add_item_In in Hy as (y' & Hy' & _ & _ & -> & _). eapply j_idle0; eauto.
    + intros sid nm f i H. apply IN in H; [|discriminate]. destruct (j_begin0 sid nm f i H) as [H1 H2]. split; auto.
      intros (x & Hx & He). apply add_item_In in Hx as (y & Hy & E1 & _).
      destruct H2 as (z & rest & Hz & Hid & Hp); [exists y; split; auto; congruence|].
      rewrite Hz. simpl. destruct (Nat.eqb s0 (ss_id z)); do 2 eexists; split; eauto.
    + intros sid nm f i nm' f' i' H H'. apply IN in H; [|discriminate]. apply IN in H'; [|discriminate]. eapply j_beginu0; eauto.
    + intros x f i Hx Hp. apply add_item_In in Hx as (y & Hy & -> & -> & E & _). apply in_or_app. left. apply j_pop0; auto. congruence.
    + intros sid nm ok H. apply IN in H; [|discriminate]. destruct (j_end0 sid nm ok H) as [H1 H2]. split; auto.
      intros (x & Hx & He). apply add_item_In in Hx as (y & Hy & E1 & _). apply H2. exists y. split; auto. congruence.
    + intros sid nm ok nm' ok' H H'. apply IN in H; [|discriminate]. apply IN in H'; [|discriminate]. eapply j_endu0; eauto.
    + intros c k s H [H'|H']; [discriminate|]. snoc_in H; [auto|]. inversion H; subst. exfalso. eapply Hfresh'; eauto.
    + intros it s H [H'|H'].
      * inversion H' as [[E1 E2]]. snoc_in H; [exfalso; eapply Hfresh; eauto|]. subst it s.
        left. destruct Hs0 as (y & Hy & He). destruct (add_item_In' s0 it0 _ y Hy) as (x & Hx & X1 & X2 & X3 & X4).
        exists x. rewrite X4, He, Nat.eqb_refl. repeat split; auto; [congruence|left; auto].
      * snoc_in H; [|subst it; exfalso; eapply Hfresh'; eauto].
        apply Hst; auto. intros x Hx He Hi. destruct (add_item_In' s0 it0 _ x Hx) as (x' & Hx' & X1 & X2 & X3 & X4).
        exists x'. split; auto. split; [congruence|]. cbn [q_stack]. rewrite X4. destruct (Nat.eqb _ _); [right|]; auto.
  - (* no scope open *)
    destruct req as [n|]; [discriminate|].
    assert (Hq : q' = mkSst (q_stack q) (it0 :: q_pend q) (cid :: q_cids q) (q_sids q)) by congruence.
    clear Hstep. subst q'.
    constructor; rewrite ?A, ?R, ?O, ?Hopen; cbn [q_stack q_pend q_cids q_sids]; auto.
    + intros sid nm H. apply IN in H; [eauto|discriminate].
    + rewrite rev_app_distr. cbn [rev app map]. f_equal; auto.
    + constructor; auto.
    + simpl. congruence.
    + intros x it Hx Hi. destruct (j_items0 x it Hx Hi). split; [apply in_or_app; auto|right; auto].
    + intros it [<-|Hi].
      * split; [apply in_or_app; right; left; auto|left; reflexivity].
      * destruct (j_pend0 it Hi). split; [apply in_or_app; auto|right; auto].
    + intros x Hx. apply sub_skip; auto.
    + simpl. apply sub_keep; auto.
    + intros c H. destruct (j_runs0 c H) as [H1 H2]. split; [right; auto|].
      intros [(x & it & Hx & Hi & He)|(it & [<-|Hi] & He)].
      * apply H2. left. exists x, it; auto.
      * apply Hnr. unfold it0, it_id in He; simpl in He; congruence.
      * apply H2. right. exists it; auto.
    + intros sid nm f i H. apply IN in H; [|discriminate]. exact (j_begin0 sid nm f i H).
    + intros sid nm f i nm' f' i' H H'. apply IN in H; [|discriminate]. apply IN in H'; [|discriminate]. eapply j_beginu0; eauto.
    + intros x f i Hx Hp. apply in_or_app; left; auto.
    + intros sid nm ok H. apply IN in H; [|discriminate]. exact (j_end0 sid nm ok H).
    + intros sid nm ok nm' ok' H H'. apply IN in H; [|discriminate]. apply IN in H'; [|discriminate]. eapply j_endu0; eauto.
    + intros c k s H [H'|H'].
      * inversion H'; subst c. snoc_in H; [exfalso; apply (Hfresh _ H); reflexivity|]. left. congruence.
      * snoc_in H; [right; auto|]. inversion H; subst. exfalso. eapply Hfresh'; eauto.
    + intros it s H [H'|H']; [discriminate|].
      snoc_in H; [|subst it; exfalso; eapply Hfresh'; eauto].
      apply Hst; auto. intros x Hx He Hi. exists x; auto.
Qed.

(** ** Beginning to close a scope *)
Lemma J_popbegin tr q sid nm f i q' :
  J tr q -> spec_step q (EvPopBegin sid nm f i) = Some q' -> J (tr ++ [EvPopBegin sid nm f i]) q'.
Proof.
  intros HJ Hstep. destruct HJ. cbn [spec_step] in Hstep.
  destruct (q_stack q) as [|[xs xn [p|] xi] rest] eqn:Eq; try discriminate.
  destruct (Nat.eqb sid xs && sname_eqb nm xn) eqn:Em; [|discriminate].
  apply andb_true_iff in Em as [E1 E2]. apply Nat.eqb_eq in E1. subst xs.
  assert (xn = nm) by (destruct nm, xn; simpl in E2; congruence). subst xn. clear E2.
  inversion Hstep; subst q'; clear Hstep.
  set (ev := EvPopBegin sid nm f i).
  assert (A : adds (tr ++ [ev]) = adds tr) by (rewrite adds_snoc; apply app_nil_r).
  assert (R : runs (tr ++ [ev]) = runs tr) by (rewrite runs_snoc; apply app_nil_r).
  assert (O : own (tr ++ [ev]) = own tr) by (rewrite own_snoc; reflexivity).
  assert (Hopen : open_scopes (tr ++ [ev]) = open_scopes tr) by (rewrite open_scopes_snoc; reflexivity).
  assert (Hnb : forall nm' f' i', ~ In (EvPopBegin sid nm' f' i') tr).
  { intros nm' f' i' H. destruct (j_begin0 _ _ _ _ H) as [_ H2].
    destruct H2 as (x & rest' & Hx & _ & Hp).
    - exists (mkSS sid nm None xi). rewrite Eq. simpl; auto.
    - rewrite ?Eq in Hx. inversion Hx; subst. discriminate. }
  assert (IN : forall e, e <> ev -> In e (tr ++ [ev]) -> In e tr).
  { intros e He H. snoc_in H; auto. congruence. }
  constructor; rewrite ?A, ?R, ?O, ?Hopen; cbn [q_stack q_pend q_cids q_sids]; auto.
  - intros x [<-|Hx]; simpl; [apply (j_sids0 (mkSS sid nm None xi)); left; auto|apply j_sids0; right; auto].
  - intros s n H. apply IN in H; [eauto|discriminate].
  - intros x it [<-|Hx] Hi; simpl in *.
    + apply (j_items0 (mkSS sid nm None xi) it); auto.
    + apply j_items0; auto.
  - intros x [<-|Hx]; simpl; [apply (j_sub0 (mkSS sid nm None xi)); left; auto|apply j_sub0; right; auto].
  - intros c H. destruct (j_runs0 c H) as [H1 H2]. split; auto.
    intros [(x & it & [<-|Hx] & Hi & He)|(it & Hi & He)]; apply H2.
    + left. exists (mkSS sid nm None xi), it. rewrite Eq. simpl; auto.
    + left. exists x, it. rewrite Eq. simpl; auto.
    + right. exists it; auto.
  - intros x rest' y H Hy. inversion H; subst. eapply j_idle0; eauto.
  - intros s n f' i' H. snoc_in H.
    + destruct (j_begin0 s n f' i' H) as [H1 H2]. split; auto.
      intros (x & Hx & He). assert (Hos : on_stack q s).
      { destruct Hx as [<-|Hx]; simpl in He.
        - exfalso. subst s. eapply Hnb; eauto.
        - exists x. rewrite Eq. simpl; auto. }
      destruct (H2 Hos) as (y & rest' & Hy & Hid & Hp). rewrite ?Eq in Hy. inversion Hy; subst. discriminate.
    + inversion H; subst. split.
      * apply (j_sids0 (mkSS s n None xi)). left; auto.
      * intros _. do 2 eexists. split; [reflexivity|]. auto.
  - intros s n f1 i1 n' f2 i2 H H'. snoc_in H; snoc_in H'.
    + eapply j_beginu0; eauto.
    + inversion H'; subst. exfalso. eapply Hnb; eauto.
    + inversion H; subst. exfalso. eapply Hnb; eauto.
    + unfold ev in *. inversion H; inversion H'; subst. auto.
  - intros x f' i' [<-|Hx] Hp; simpl in *.
    + inversion Hp; subst. apply in_or_app. right. left. reflexivity.
    + apply in_or_app. left. auto.
  - intros s n ok H. apply IN in H; [|discriminate]. destruct (j_end0 s n ok H) as [H1 H2]. split; auto.
    intros (x & Hx & He). apply H2. destruct Hx as [<-|Hx]; [exists (mkSS sid nm None xi)|exists x]; rewrite Eq; simpl; auto.
  - intros s n ok n' ok' H H'. apply IN in H; [|discriminate]. apply IN in H'; [|discriminate]. eapply j_endu0; eauto.
  - intros it s H H'. destruct (j_status0 it s H H') as [S|[S|[S|S]]]; unfold status; rewrite R.
    + left. destruct S as (x & S1 & S2 & S3). cbn [q_stack]. rewrite ?Eq in S1. destruct S1 as [<-|S1].
      * eexists. split; [left; reflexivity|]. auto.
      * exists x. split; [right; auto|auto].
    + right; left. destruct S as [S1 (n & g & j & S2 & S3)]. split; auto. exists n, g, j. split; auto. apply in_or_app; auto.
    + right; right; left. destruct S as [S1 (n & g & j & S2 & S3)]. split; auto. exists n, g, j. split; auto. apply in_or_app; auto.
    + right; right; right. destruct S as [S1 (n & S2)]. split; auto. exists n. apply in_or_app; auto.
Qed.

(** ** Running a cleanup *)
Lemma take_spec f i c l l' :
  take f i c l = Some l' ->
  exists d it, l = d ++ it :: l' /\ it_id it = c /\ it_must f i it = true /\
               Forall (fun x => it_must f i x = false) d.
Proof.
  induction l as [|x l IH]; simpl; [discriminate|].
  destruct (it_must f i x) eqn:Em.
  - destruct (Nat.eqb c (it_id x)) eqn:E; [|discriminate]. intros H; inversion H; subst.
    apply Nat.eqb_eq in E. exists [], x. repeat split; auto.
  - intros H. destruct (IH H) as (d & it & -> & H1 & H2 & H3). exists (x :: d), it. repeat split; auto.
Qed.

Lemma run_top q c q' :
  spec_step q (EvRun c) = Some q' ->
  exists sid nm f i items items' rest,
    q_stack q = mkSS sid nm (Some (f, i)) items :: rest /\
    take f i c items = Some items' /\
    q' = mkSst (mkSS sid nm (Some (f, i)) items' :: rest) (q_pend q) (q_cids q) (q_sids q).
Proof.
  cbn [spec_step]. destruct (q_stack q) as [|[sid nm [[f i]|] items] rest]; try discriminate.
  destruct (take f i c items) as [items'|] eqn:E; [|discriminate].
  intros H; inversion H. do 7 eexists; eauto.
Qed.

Lemma live_unique tr q x y it it' :
  J tr q -> In x (q_stack q) -> In y (q_stack q) -> In it (ss_items x) -> In it' (ss_items y) ->
  it_id it = it_id it' -> ss_id x = ss_id y.
Proof.
  intros HJ Hx Hy Hi Hi' He.
  destruct (j_items _ _ HJ x it Hx Hi) as [_ H1]. destruct (j_items _ _ HJ y it' Hy Hi') as [_ H2].
  rewrite <- He in H2. pose proof (own_fun _ _ _ _ _ HJ H1 H2). congruence.
Qed.

Lemma nodup_id_eq l x y : NoDup (map ss_id l) -> In x l -> In y l -> ss_id x = ss_id y -> x = y.
Proof.
  induction l as [|a l IH]; simpl; intros Hn Hx Hy He; [tauto|]. inversion Hn as [|? ? Hni Hn']; subst.
  destruct Hx as [->|Hx], Hy as [->|Hy]; auto.
  - exfalso. apply Hni. rewrite He. apply in_map; auto.
  - exfalso. apply Hni. rewrite <- He. apply in_map; auto.
Qed.

Lemma J_run tr q c q' :
  J tr q -> spec_step q (EvRun c) = Some q' -> J (tr ++ [EvRun c]) q'.
Proof.
  intros HJ Hstep. pose proof HJ as HJ'.
  apply run_top in Hstep as (sid & nm & f & i & items & items' & rest & Eq & Et & ->).
  apply take_spec in Et as (d & it0 & -> & Hid & Hmust & Hd).
  destruct HJ.
  set (ev := EvRun c). set (X := mkSS sid nm (Some (f, i)) (d ++ it0 :: items')).
  assert (HX : In X (q_stack q)) by (rewrite Eq; left; reflexivity).
  assert (A : adds (tr ++ [ev]) = adds tr) by (rewrite adds_snoc; apply app_nil_r).
  assert (R : runs (tr ++ [ev]) = runs tr ++ [c]) by (rewrite runs_snoc; reflexivity).
  assert (O : own (tr ++ [ev]) = own tr) by (rewrite own_snoc; reflexivity).
  assert (Hopen : open_scopes (tr ++ [ev]) = open_scopes tr) by (rewrite open_scopes_snoc; reflexivity).
  assert (IN : forall e, e <> ev -> In e (tr ++ [ev]) -> In e tr).
  { intros e He H. snoc_in H; auto. congruence. }
  assert (Hlive : live q c).
  { left. exists X, it0. split; auto. split; auto. simpl. apply in_or_app. right; left; auto. }
  assert (Hnr : ~ In c (runs tr)) by (intros H; apply j_runs0 in H as [_ H]; auto).
  assert (Hnd : NoDup (map it_id (d ++ it0 :: items'))).
  { eapply subseq_nodup; [apply (j_sub0 X HX)|auto]. }
  rewrite Eq in *.
  (* items left in the scope *)
  assert (Hsub : forall it, In it items' -> In it (ss_items X)).
  { intros it H. simpl. apply in_or_app. right; right; auto. }
  constructor; rewrite ?A, ?R, ?O, ?Hopen; cbn [q_stack q_pend q_cids q_sids]; auto.
  - intros x [<-|Hx]; simpl; [apply (j_sids0 X); left; auto|apply j_sids0; right; auto].
  - intros s n H. apply IN in H; [eauto|discriminate].
  - intros x it [<-|Hx] Hi; simpl in *.
    + apply (j_items0 X it); auto.
    + apply j_items0; auto.
  - intros x [<-|Hx].
    + cbn [ss_items]. pose proof (j_sub0 X (or_introl eq_refl)) as H. simpl in H. rewrite map_app in H.
      apply subseq_tail in H. simpl in H. apply (subseq_tail [it_id it0]) in H. auto.
    + apply j_sub0; right; auto.
  - apply NoDup_app_remove_r with (l' := []) in j_rnd0 || idtac.
    apply (NoDup_Add (Add_app c (runs tr) [])). rewrite app_nil_r. auto.
  - intros c' H. apply in_app_or in H as [H|[<-|[]]].
    + destruct (j_runs0 c' H) as [H1 H2]. split; auto.
      intros [(x & it & [<-|Hx] & Hi & He)|(it & Hi & He)]; apply H2.
      * left. exists X, it. rewrite Eq. simpl. split; auto.
      * left. exists x, it. rewrite Eq. simpl; auto.
      * right. exists it; auto.
    + assert (Hin : In it0 (adds tr) /\ In (it_id it0, Some sid) (own tr)).
      { apply (j_items0 X it0); [left; auto|]. simpl. apply in_or_app; right; left; auto. }
      destruct Hin as [Hin1 Hin2]. split.
      * rewrite <- j_cids0, <- Hid. apply in_map. rewrite <- in_rev. auto.
      * intros [(x & it & [<-|Hx] & Hi & He)|(it & Hi & He)].
        -- simpl in Hi. rewrite map_app in Hnd. apply NoDup_remove_2 in Hnd. apply Hnd.
           apply in_or_app. right. rewrite Hid, <- He. apply in_map; auto.
        -- destruct (j_items0 x it (or_intror Hx) Hi) as [_ Ho].
           rewrite Hid in Hin2. rewrite He in Ho. pose proof (own_fun _ _ _ _ _ HJ' Hin2 Ho) as Hs.
           inversion Hs as [Hs']. simpl in j_nodup0. inversion j_nodup0 as [|? ? Hni _]; subst.
           apply Hni. apply in_map; auto.
        -- destruct (j_pend0 it Hi) as [_ Ho]. rewrite Hid in Hin2. rewrite He in Ho.
           pose proof (own_fun _ _ _ _ _ HJ' Hin2 Ho). discriminate.
  - intros x rest' y H Hy. inversion H; subst. eapply j_idle0; eauto.
  - intros s n f' i' H. apply IN in H; [|discriminate]. destruct (j_begin0 s n f' i' H) as [H1 H2]. split; auto.
    intros (x & Hx & He).
    assert (Hos : on_stack q s).
    { destruct Hx as [<-|Hx]; simpl in He; [exists X|exists x]; rewrite Eq; simpl; auto. }
    destruct (H2 Hos) as (y & rest' & Hy & Hid' & Hp). inversion Hy; subst y rest'. simpl in *.
    do 2 eexists. split; [reflexivity|]. auto.
  - intros s n f1 i1 n' f2 i2 H H'. apply IN in H; [|discriminate]. apply IN in H'; [|discriminate]. eapply j_beginu0; eauto.
  - intros x f' i' [<-|Hx] Hp; apply in_or_app; left.
    + apply (j_pop0 X); [left; auto|exact Hp].
    + apply j_pop0; [right|]; auto.
  - intros s n ok H. apply IN in H; [|discriminate]. destruct (j_end0 s n ok H) as [H1 H2]. split; auto.
    intros (x & Hx & He). apply H2. destruct Hx as [<-|Hx]; [exists X|exists x]; rewrite Eq; simpl; auto.
  - intros s n ok n' ok' H H'. apply IN in H; [|discriminate]. apply IN in H'; [|discriminate]. eapply j_endu0; eauto.
  - intros it s H H'.
    assert (Hc : it_id it = c -> it = it0 /\ s = sid).
    { intros He. destruct (j_items0 X it0) as [B1 B2]; [left; auto|simpl; apply in_or_app; right; left; auto|].
      assert (it = it0) by (eapply nodup_item; eauto; congruence). subst it.
      pose proof (own_fun _ _ _ _ _ HJ' H' B2) as B3. simpl in B3. inversion B3; auto. }
    destruct (Nat.eq_dec (it_id it) c) as [He|Hne].
    { destruct (Hc He) as [-> ->]. unfold status. rewrite R. right; left. split.
      - apply in_or_app. right. left; auto.
      - exists nm, f, i. split; auto. apply in_or_app; left. apply (j_pop0 X f i); [left; auto|reflexivity]. }
    destruct (j_status0 it s H H') as [S|[S|[S|S]]]; unfold status; rewrite R.
    + destruct S as (x & S1 & S2 & S3). rewrite ?Eq in S1. destruct S1 as [<-|S1].
      * simpl in S2, S3. apply in_app_or in S3 as [S3|[S3|S3]].
        -- right; right; left. split.
           ++ rewrite in_app_iff. intros [K|[K|[]]]; [|congruence].
              apply j_runs0 in K as [_ K]. apply K. left. exists X, it. rewrite Eq. repeat split; [left; auto|]. simpl. apply in_or_app; auto.
           ++ exists nm, f, i. subst s. split; [apply in_or_app; left; apply (j_pop0 X f i); [left; auto|reflexivity]|].
              rewrite Forall_forall in Hd. auto.
        -- congruence.
        -- left. eexists. split; [left; reflexivity|]. auto.
      * left. exists x. split; [right; auto|auto].
    + right; left. destruct S as [S1 (n & g & j & S2 & S3)]. split; [apply in_or_app; auto|]. exists n, g, j. split; auto. apply in_or_app; auto.
    + right; right; left. destruct S as [S1 (n & g & j & S2 & S3)]. split.
      * rewrite in_app_iff. intros [K|[K|[]]]; auto.
      * exists n, g, j. split; auto. apply in_or_app; auto.
    + right; right; right. destruct S as [S1 (n & S2)]. split.
      * rewrite in_app_iff. intros [K|[K|[]]]; auto.
      * exists n. apply in_or_app; auto.
Qed.

(** ** Closing a scope *)
Lemma J_popend tr q sid nm ok q' :
  J tr q -> spec_step q (EvPopEnd sid nm ok) = Some q' -> J (tr ++ [EvPopEnd sid nm ok]) q'.
Proof.
  intros HJ Hstep. pose proof HJ as HJ'. destruct HJ. cbn [spec_step] in Hstep.
  destruct (q_stack q) as [|[xs xn [[f i]|] items] rest] eqn:Eq; try discriminate.
  destruct (Nat.eqb sid xs && sname_eqb nm xn && _) eqn:Em; [|discriminate].
  apply andb_true_iff in Em as [Em Hall]. apply andb_true_iff in Em as [E1 E2].
  apply Nat.eqb_eq in E1. subst xs.
  assert (xn = nm) by (destruct nm, xn; simpl in E2; congruence). subst xn. clear E2.
  inversion Hstep; subst q'; clear Hstep.
  set (ev := EvPopEnd sid nm ok). set (X := mkSS sid nm (Some (f, i)) items) in *.
  assert (A : adds (tr ++ [ev]) = adds tr) by (rewrite adds_snoc; apply app_nil_r).
  assert (R : runs (tr ++ [ev]) = runs tr) by (rewrite runs_snoc; apply app_nil_r).
  assert (O : own (tr ++ [ev]) = own tr) by (rewrite own_snoc; reflexivity).
  assert (Hni : ~ In sid (map ss_id rest)) by (inversion j_nodup0; auto).
  assert (IN : forall e, e <> ev -> In e (tr ++ [ev]) -> In e tr).
  { intros e He H. snoc_in H; auto. congruence. }
  assert (Hne : forall nm' ok', ~ In (EvPopEnd sid nm' ok') tr).
  { intros nm' ok' H. apply j_end0 in H as [_ H]. apply H. exists X. rewrite Eq. split; [left|]; auto. }
  constructor; rewrite ?A, ?R, ?O; cbn [q_stack q_pend q_cids q_sids]; auto.
  - rewrite open_scopes_snoc, j_open0. unfold X, ev. cbn [map open_after ss_id ss_nm filter fst].
    rewrite Nat.eqb_refl. cbn [negb]. revert Hni. clear. intros Hni. induction rest as [|x rest IH]; simpl; auto.
    destruct (Nat.eqb sid (ss_id x)) eqn:E; simpl.
    + apply Nat.eqb_eq in E. exfalso. apply Hni. left; auto.
    + f_equal. apply IH. intros H; apply Hni; right; auto.
  - inversion j_nodup0; auto.
  - intros x Hx. apply j_sids0; right; auto.
  - intros s n H. apply IN in H; [eauto|discriminate].
  - intros x it Hx. apply j_items0. right; auto.
  - intros x Hx. apply j_sub0. right; auto.
  - intros c H. destruct (j_runs0 c H) as [H1 H2]. split; auto.
    intros [(x & it & Hx & Hi & He)|(it & Hi & He)]; apply H2.
    + left. exists x, it. rewrite Eq. simpl; auto.
    + right. exists it; auto.
  - intros x rest' y H Hy. subst rest. eapply j_idle0; [reflexivity|right; auto].
  - intros s n f' i' H. apply IN in H; [|discriminate]. destruct (j_begin0 s n f' i' H) as [H1 H2]. split; auto.
    intros (x & Hx & He). exfalso.
    destruct H2 as (y & rest' & Hy & Hid' & Hp); [exists x; rewrite Eq; simpl; auto|].
    rewrite ?Eq in Hy. inversion Hy; subst y rest'. cbn [X ss_id] in Hid'. apply Hni. rewrite Hid', <- He. apply in_map; auto.
  - intros s n f1 i1 n' f2 i2 H H'. apply IN in H; [|discriminate]. apply IN in H'; [|discriminate]. eapply j_beginu0; eauto.
  - intros x f' i' Hx Hp. apply in_or_app; left. apply j_pop0; [right|]; auto.
  - intros s n k H. snoc_in H.
    + destruct (j_end0 s n k H) as [H1 H2]. split; auto. intros (x & Hx & He). apply H2. exists x. rewrite Eq. simpl; auto.
    + inversion H; subst. split; [apply (j_sids0 X); left; auto|].
      intros (x & Hx & He). apply Hni. rewrite <- He. apply in_map; auto.
  - intros s n k n' k' H H'. snoc_in H; snoc_in H'.
    + eapply j_endu0; eauto.
    + inversion H'; subst. exfalso. eapply Hne; eauto.
    + inversion H; subst. exfalso. eapply Hne; eauto.
    + unfold ev in *. inversion H; inversion H'; subst; auto.
  - intros it s H H'. destruct (j_status0 it s H H') as [S|[S|[S|S]]]; unfold status; rewrite R.
    + destruct S as (x & S1 & S2 & S3). rewrite ?Eq in S1. destruct S1 as [<-|S1].
      * cbn [X ss_id ss_items] in S2, S3. subst s.
        assert (Hnr : ~ In (it_id it) (runs tr)).
        { intros K. apply j_runs0 in K as [_ K]. apply K. left. exists X, it. rewrite Eq. repeat split; [left|]; auto. }
        destruct (it_must f i it) eqn:Em.
        -- right; right; right. split; auto. exists nm. destruct ok.
           ++ exfalso. simpl in Hall. rewrite forallb_forall in Hall. specialize (Hall it S3). rewrite Em in Hall. discriminate.
           ++ apply in_or_app; right; left; auto.
        -- right; right; left. split; auto. exists nm, f, i. split; auto. apply in_or_app; left.
           apply (j_pop0 X f i); [left|]; auto.
      * left. exists x; auto.
    + right; left. destruct S as [S1 (n & g & j & S2 & S3)]. split; auto. exists n, g, j. split; auto. apply in_or_app; auto.
    + right; right; left. destruct S as [S1 (n & g & j & S2 & S3)]. split; auto. exists n, g, j. split; auto. apply in_or_app; auto.
    + right; right; right. destruct S as [S1 (n & S2)]. split; auto. exists n. apply in_or_app; auto.
Qed.

Lemma J_run_all tr : forall q, spec_run sst0 tr = Some q -> J tr q.
Proof.
  induction tr as [|e tr IH] using rev_ind; intros q H.
  - inversion H; subst. apply J_nil.
  - rewrite spec_run_snoc in H. destruct (spec_run sst0 tr) as [q0|]; [|discriminate].
    specialize (IH q0 eq_refl).
    destruct e; try (inversion H; subst; apply J_ignored; auto; fail).
    + cbn [spec_step] in H. destruct (memb sid (q_sids q0)) eqn:E1; [discriminate|].
      destruct (top_idle (q_stack q0)) eqn:E2; [|discriminate]. simpl in H. inversion H; subst. apply J_push; auto.
    + eapply J_add; eauto.
    + eapply J_popbegin; eauto.
    + eapply J_run; eauto.
    + eapply J_popend; eauto.
Qed.

(** ** Consequences *)

Lemma acc_nodup tr : accepted tr -> NoDup (runs tr).
Proof. intros [q H]. apply (j_rnd _ _ (J_run_all _ _ H)). Qed.

Lemma acc_must tr cid sid req tgt crit succ r nm f i nm' :
  accepted tr ->
  In (EvAdd cid req tgt crit succ r) tr -> belongs cid sid tr ->
  In (EvPopBegin sid nm f i) tr -> In (EvPopEnd sid nm' true) tr ->
  (In cid (runs tr) <-> must_run f i crit succ = true).
Proof.
  intros [q H] Ha Hb Hp He. pose proof (J_run_all _ _ H) as HJ.
  assert (Hin : In (cid, crit, succ) (adds tr)) by (apply adds_In; eauto).
  assert (Ho : In (cid, Some sid) (own tr)) by (apply own_belongs; auto).
  destruct (j_status _ _ HJ (cid, crit, succ) sid Hin Ho) as [S|[S|[S|S]]].
  - exfalso. destruct S as (x & S1 & S2 & _). apply (j_end _ _ HJ) in He as [_ He]. apply He. exists x; auto.
  - destruct S as [S1 (n & g & j & S2 & S3)]. destruct (j_beginu _ _ HJ _ _ _ _ _ _ _ Hp S2) as [-> ->].
    unfold it_must in S3. simpl in S3. split; auto.
  - destruct S as [S1 (n & g & j & S2 & S3)]. destruct (j_beginu _ _ HJ _ _ _ _ _ _ _ Hp S2) as [-> ->].
    unfold it_must in S3. simpl in S3. split; [intros K; contradiction|congruence].
  - destruct S as [S1 (n & S2)]. pose proof (j_endu _ _ HJ _ _ _ _ _ He S2). discriminate.
Qed.

(** a known cleanup that is not in a known scope never enters it *)
Definition absent (q : sst) (c sid : nat) : Prop :=
  In c (q_cids q) /\ In sid (q_sids q) /\
  forall x it, In x (q_stack q) -> ss_id x = sid -> In it (ss_items x) -> it_id it <> c.

Lemma absent_step q e q' c sid :
  spec_step q e = Some q' -> absent q c sid -> absent q' c sid.
Proof.
  intros H (Hc & Hs & Hl).
  destruct e; cbn [spec_step] in H; try (inversion H; subst; repeat split; auto; fail).
  - destruct (memb sid0 (q_sids q)) eqn:Hm; [discriminate|]. apply memb_notIn in Hm.
    destruct (negb _); [discriminate|]. inversion H; subst. split; [auto|split; [right; auto|]]. cbn [q_stack].
    intros x it [<-|Hx] Hi; simpl in *; [subst; contradiction|eauto].
  - destruct (memb cid (q_cids q)) eqn:Hm; [discriminate|]. simpl in H.
    destruct (crit && succ); [discriminate|]. destruct (opt_nat_eqb _ _); [|discriminate]. simpl in H.
    apply memb_notIn in Hm.
    destruct tgt as [s|]; [|destruct req; [discriminate|]]; inversion H; subst; (split; [right; auto|split; [auto|]]); cbn [q_stack].
    + intros x it Hx He Hi. apply add_item_In in Hx as (y & Hy & Hid & _ & _ & [[E1 E2]|[E1 E2]]); rewrite E2 in Hi.
      * destruct Hi as [<-|Hi]; [unfold it_id; simpl; congruence|]. apply (Hl y); auto; congruence.
      * apply (Hl y); auto; congruence.
    + auto.
  - destruct (q_stack q) as [|[xs xn [p|] xi] rest]; try discriminate.
    destruct (_ && _); [|discriminate]. inversion H; subst. split; [auto|split; [auto|]]. cbn [q_stack].
    intros x it [<-|Hx] He Hi; simpl in *; [|eauto].
    apply (Hl (mkSS xs xn None xi)); auto.
  - destruct (q_stack q) as [|[xs xn [[f i]|] xi] rest]; try discriminate.
    destruct (take f i cid xi) as [xi'|] eqn:Et; [|discriminate]. inversion H; subst. split; [auto|split; [auto|]]. cbn [q_stack].
    apply take_spec in Et as (d & it0 & -> & _).
    intros x it [<-|Hx] He Hi; simpl in *; [|eauto].
    apply (Hl (mkSS xs xn (Some (f, i)) (d ++ it0 :: xi'))); auto. simpl. apply in_or_app; right; right; auto.
  - destruct (q_stack q) as [|[xs xn [[f i]|] xi] rest]; try discriminate.
    destruct (_ && _); [|discriminate]. inversion H; subst. split; [auto|split; [auto|]]. cbn [q_stack].
    intros x it Hx. apply Hl. right; auto.
Qed.

Lemma absent_run tr : forall q q' c sid,
  spec_run q tr = Some q' -> absent q c sid -> absent q' c sid.
Proof.
  induction tr as [|e tr IH]; intros q q' c sid H Ha; simpl in H; [inversion H; subst; auto|].
  destruct (spec_step q e) eqn:E; [|discriminate]. eapply IH; eauto. eapply absent_step; eauto.
Qed.

Lemma belongs_app c sid a b : belongs c sid a -> belongs c sid (a ++ b).
Proof.
  revert a. induction b as [|e b IH]; intros a H; [rewrite app_nil_r; auto|].
  replace (a ++ e :: b) with ((a ++ [e]) ++ b) by (rewrite <- app_assoc; reflexivity).
  apply IH, belongs_snoc, H.
Qed.

Lemma spec_run_split q a b q' : spec_run q (a ++ b) = Some q' ->
  exists q1, spec_run q a = Some q1 /\ spec_run q1 b = Some q'.
Proof.
  revert q. induction a as [|e a IH]; intros q H; simpl in *; [eauto|].
  destruct (spec_step q e); [auto|discriminate].
Qed.

Lemma spec_run_join q a q1 b q' :
  spec_run q a = Some q1 -> spec_run q1 b = Some q' -> spec_run q (a ++ b) = Some q'.
Proof.
  revert q. induction a as [|e a IH]; intros q H1 H2; simpl in *; [inversion H1; subst; auto|].
  destruct (spec_step q e); [auto|discriminate].
Qed.

(** a cleanup runs only while the scope it belongs to is being closed *)
Lemma acc_run_when p cid t sid :
  accepted (p ++ EvRun cid :: t) -> belongs cid sid (p ++ EvRun cid :: t) ->
  belongs cid sid p /\ (exists nm f i, In (EvPopBegin sid nm f i) p) /\
  (forall nm ok, ~ In (EvPopEnd sid nm ok) p).
Proof.
  intros [q H] Hb. pose proof (J_run_all _ _ H) as HJ.
  apply spec_run_split in H as [q1 [H1 H2]]. cbn [spec_run] in H2.
  destruct (spec_step q1 (EvRun cid)) as [q2|] eqn:E; [|discriminate].
  pose proof (J_run_all _ _ H1) as HJ1.
  apply run_top in E as (s & nm & f & i & items & items' & rest & Eq & Et & _).
  apply take_spec in Et as (d & it0 & -> & Hid & _).
  set (X := mkSS s nm (Some (f, i)) (d ++ it0 :: items')) in *.
  assert (HX : In X (q_stack q1)) by (rewrite Eq; left; auto).
  assert (Hi : In it0 (ss_items X)) by (simpl; apply in_or_app; right; left; auto).
  destruct (j_items _ _ HJ1 X it0 HX Hi) as [_ Ho]. rewrite Hid in Ho. cbn [X ss_id] in Ho.
  assert (Hbp : belongs cid s p) by (apply own_belongs; auto).
  assert (s = sid).
  { pose proof (belongs_app _ _ _ (EvRun cid :: t) Hbp) as Hb'.
    apply own_belongs in Hb. apply own_belongs in Hb'. pose proof (own_fun _ _ _ _ _ HJ Hb Hb'). congruence. }
  subst s. split; auto. split.
  - exists nm, f, i. apply (j_pop _ _ HJ1 X f i HX). reflexivity.
  - intros n ok K. apply (j_end _ _ HJ1) in K as [_ K]. apply K. exists X; auto.
Qed.

(** where a registration goes *)
Lemma acc_target p cid req tgt crit succ r t :
  accepted (p ++ EvAdd cid req tgt crit succ r :: t) ->
  match req with
  | None => tgt = option_map fst (hd_error (open_scopes p))
  | Some n => tgt = innermost n (open_scopes p) /\ tgt <> None
  end.
Proof.
  intros [q H]. apply spec_run_split in H as [q1 [H1 H2]]. simpl in H2.
  pose proof (J_run_all _ _ H1) as HJ1.
  destruct (memb cid (q_cids q1) || (crit && succ)); [discriminate|].
  destruct (opt_nat_eqb tgt (target req (q_stack q1))) eqn:Et; [|discriminate]. simpl in H2.
  assert (Ht : tgt = target req (q_stack q1)).
  { destruct tgt, (target req (q_stack q1)); simpl in Et; try discriminate; auto. apply Nat.eqb_eq in Et. congruence. }
  rewrite target_open, <- (j_open _ _ HJ1) in Ht.
  destruct req; auto. split; auto. clear Ht Et. destruct tgt; [congruence|simpl in H2; discriminate].
Qed.

(** last in, first out *)
Lemma add_once p e m p' m' c crit succ :
  adds [e] = [(c, crit, succ)] -> p ++ e :: m = p' ++ e :: m' ->
  NoDup (map it_id (adds (p ++ e :: m))) -> p = p'.
Proof.
  intros He.
  assert (Hno : forall l, In e l -> ~ NoDup (map it_id (adds (e :: l)))).
  { intros l Hi Hn. change (e :: l) with ([e] ++ l) in Hn. unfold adds in *. rewrite flat_map_app, He, map_app in Hn.
    simpl in Hn. inversion Hn as [|? ? Hni _]; subst. apply Hni. apply in_map_iff. exists (c, crit, succ). split; auto.
    apply in_flat_map. exists e. split; auto. simpl in He. rewrite app_nil_r in He. rewrite He. left; auto. }
  revert p'. induction p as [|x p IH]; intros [|x' p'] Heq Hn; simpl in Heq; auto.
  - exfalso. injection Heq as E1 E2. simpl in Hn. apply Hno in Hn; auto. rewrite E2. apply in_or_app; right; left; auto.
  - exfalso. injection Heq as E1 E2. subst x. simpl in Hn. apply Hno in Hn; auto. apply in_or_app; right; left; auto.
  - inversion Heq; subst. f_equal. apply IH; auto.
    change ((x' :: p) ++ e :: m) with ([x'] ++ p ++ e :: m) in Hn. unfold adds in *.
    rewrite flat_map_app, map_app in Hn. revert Hn. clear.
    match goal with |- NoDup (?a ++ _) -> _ => induction a as [|y a' IHa] end; simpl; auto.
    intros Hn; inversion Hn; auto.
Qed.

Lemma nodup_split_unique {A} (a : A) l k l' k' :
  l ++ a :: k = l' ++ a :: k' -> NoDup (l ++ a :: k) -> l = l' /\ k = k'.
Proof.
  revert l'. induction l as [|x l IH]; intros [|x' l'] Heq Hn; simpl in *.
  - injection Heq as E2. auto.
  - injection Heq as E1 E2. exfalso. inversion Hn as [|? ? Hni _]. apply Hni. rewrite E2. apply in_or_app; right; left; auto.
  - injection Heq as E1 E2. exfalso. subst x. inversion Hn as [|? ? Hni _]. apply Hni. apply in_or_app; right; left; auto.
  - injection Heq as E1 E2. inversion Hn; subst. destruct (IH l' E2) as [-> ->]; auto.
Qed.

Lemma acc_lifo tr a b sid ra ta ca sa xa rb tb cb sb xb :
  accepted tr ->
  belongs a sid tr -> belongs b sid tr ->
  before (EvAdd a ra ta ca sa xa) (EvAdd b rb tb cb sb xb) tr ->
  before (EvAdd b rb tb cb sb xb) (EvRun a) tr ->
  In (EvRun b) tr ->
  before (EvRun b) (EvRun a) tr.
Proof.
  intros Hacc Ba Bb Hab (p & m & t & Htr) Hrb. subst tr.
  destruct Hacc as [q H]. pose proof (J_run_all _ _ H) as HJ.
  set (EB := EvAdd b rb tb cb sb xb) in *. set (EA := EvAdd a ra ta ca sa xa) in *.
  replace (p ++ EB :: m ++ EvRun a :: t) with ((p ++ EB :: m) ++ EvRun a :: t) in * by (rewrite <- app_assoc; reflexivity).
  pose proof H as Hfull.
  apply spec_run_split in H as [q1 [H1 H2]]. cbn [spec_run] in H2.
  destruct (spec_step q1 (EvRun a)) as [q2|] eqn:E; [|discriminate]. pose proof E as E0.
  pose proof (J_run_all _ _ H1) as HJ1.
  assert (Hcase : In (EvRun b) (p ++ EB :: m) \/ b = a \/ In (EvRun b) t).
  { apply in_app_or in Hrb as [K|[K|K]]; auto. inversion K; auto. }
  destruct Hcase as [K|K].
  { apply in_split in K as [k1 [k2 K]]. exists k1, k2, t. rewrite K, <- app_assoc. reflexivity. }
  exfalso.
  assert (Hn : NoDup (map it_id (adds ((p ++ EB :: m) ++ EvRun a :: t)))).
  { pose proof (j_cids _ _ HJ) as Hc. pose proof (j_cnd _ _ HJ) as Hd. rewrite <- Hc in Hd.
    rewrite map_rev in Hd. apply NoDup_rev in Hd. rewrite rev_involutive in Hd. auto. }
  assert (HA : exists u v, p = u ++ EA :: v).
  { destruct Hab as (u & v & w & Huv). exists u, v.
    apply (add_once p EB (m ++ EvRun a :: t) _ w b cb sb); [reflexivity| |].
    - transitivity ((p ++ EB :: m) ++ EvRun a :: t); [rewrite <- app_assoc; reflexivity|].
      rewrite Huv. rewrite <- app_assoc. reflexivity.
    - rewrite <- app_assoc in Hn. exact Hn. }
  destruct HA as (u & v & ->).
  assert (Hpos : exists x y z, q_cids q1 = x ++ b :: y ++ a :: z).
  { rewrite <- (j_cids _ _ HJ1). unfold adds.
    replace ((u ++ EA :: v) ++ EB :: m) with (u ++ [EA] ++ v ++ [EB] ++ m) by (rewrite <- app_assoc; reflexivity).
    rewrite !flat_map_app, !rev_app_distr, !map_app. simpl. rewrite <- !app_assoc. simpl.
    do 3 eexists. reflexivity. }
  pose proof (j_cnd _ _ HJ1) as Hcnd.
  assert (Hab' : a <> b).
  { intros ->. destruct Hpos as (x & y & z & Hpos). rewrite Hpos in Hcnd.
    apply NoDup_remove_2 in Hcnd. apply Hcnd. apply in_or_app; right. apply in_or_app; right; left; auto. }
  destruct K as [K|K]; [congruence|].
  apply run_top in E as (s & nm & f & i & items & items' & rest & Eq & Et & Eq2).
  apply take_spec in Et as (d & it0 & -> & Hid & Hmust & Hd).
  set (X := mkSS s nm (Some (f, i)) (d ++ it0 :: items')) in *.
  assert (HX : In X (q_stack q1)) by (rewrite Eq; left; auto).
  assert (Hs : s = sid).
  { destruct (j_items _ _ HJ1 X it0 HX) as [_ Ho]; [simpl; apply in_or_app; right; left; auto|].
    rewrite Hid in Ho. apply own_belongs in Ho. pose proof (belongs_app _ _ _ (EvRun a :: t) Ho) as Hb'.
    apply own_belongs in Ba. apply own_belongs in Hb'. pose proof (own_fun _ _ _ _ _ HJ Ba Hb'). simpl in *. congruence. }
  subst s.
  assert (Habs : absent q2 b sid).
  { subst q2. split; [|split].
    - simpl. destruct Hpos as (x & y & z & ->). apply in_or_app; right; left; auto.
    - simpl. apply (j_sids _ _ HJ1 X HX).
    - cbn [q_stack]. intros x it [<-|Hx] He Hi Hb; simpl in *.
      + pose proof (j_sub _ _ HJ1 X HX) as Hsub. simpl in Hsub. rewrite map_app in Hsub. simpl in Hsub. rewrite Hid in Hsub.
        pose proof (subseq_nodup _ _ Hsub Hcnd) as Hnd.
        destruct (subseq_order _ _ a b Hsub Hcnd) as (x & y & z & Hxyz); auto.
        { apply in_or_app; right; left; auto. }
        { apply in_or_app; right; right. rewrite <- Hb. apply in_map; auto. }
        apply in_map with (f := it_id) in Hi. rewrite Hb in Hi. apply in_split in Hi as [k1 [k2 Hk]]. rewrite Hk in *.
        clear - Hxyz Hnd. rewrite Hxyz in Hnd.
        replace (x ++ b :: y ++ a :: z) with ((x ++ b :: y) ++ a :: z) in * by (rewrite <- app_assoc; reflexivity).
        destruct (nodup_split_unique _ _ _ _ _ (eq_sym Hxyz) Hnd) as [Hm Hz]. subst z.
        rewrite <- app_assoc in Hnd. apply NoDup_remove_2 in Hnd. apply Hnd.
        apply in_or_app; right. apply in_or_app; right; right. apply in_or_app; right; left; auto.
      + pose proof (j_nodup _ _ HJ1) as Hn1. rewrite Eq in Hn1. simpl in Hn1. inversion Hn1 as [|? ? Hni _]; subst.
        apply Hni. apply in_map; auto. }
  apply in_split in K as [t1 [t2 ->]].
  apply spec_run_split in H2 as [q3 [H3 H4]]. cbn [spec_run] in H4.
  destruct (spec_step q3 (EvRun b)) as [q4|] eqn:E4; [|discriminate].
  pose proof (absent_run _ _ _ _ _ H3 Habs) as (_ & _ & Habs3).
  assert (Hr3 : spec_run sst0 (((u ++ EA :: v) ++ EB :: m) ++ EvRun a :: t1) = Some q3).
  { eapply spec_run_join; [exact H1|]. cbn [spec_run]. rewrite E0. exact H3. }
  pose proof (J_run_all _ _ Hr3) as HJ3.
  apply run_top in E4 as (s' & nm' & f' & i' & its & its' & rest' & Eq4 & Et4 & _).
  apply take_spec in Et4 as (d' & it1 & -> & Hid1 & _ & _).
  set (Y := mkSS s' nm' (Some (f', i')) (d' ++ it1 :: its')) in *.
  assert (HY : In Y (q_stack q3)) by (rewrite Eq4; left; auto).
  assert (Hi1 : In it1 (ss_items Y)) by (simpl; apply in_or_app; right; left; auto).
  assert (Hs' : s' = sid).
  { destruct (j_items _ _ HJ3 Y it1 HY Hi1) as [_ Ho].
    rewrite Hid1 in Ho. apply own_belongs in Ho. apply (belongs_app _ _ _ (EvRun b :: t2)) in Ho.
    rewrite <- (app_assoc _ (EvRun a :: t1)) in Ho. simpl app in Ho.
    apply own_belongs in Bb. apply own_belongs in Ho. pose proof (own_fun _ _ _ _ _ HJ Bb Ho). simpl in *. congruence. }
  exact (Habs3 Y it1 HY Hs' Hi1 Hid1).
Qed.

(** a cleanup excluded by the table never runs *)
Lemma acc_excluded tr cid sid req tgt crit succ r nm f i :
  accepted tr ->
  In (EvAdd cid req tgt crit succ r) tr -> belongs cid sid tr ->
  In (EvPopBegin sid nm f i) tr -> In (EvRun cid) tr -> must_run f i crit succ = true.
Proof.
  intros [q H] Ha Hb Hp Hr. pose proof (J_run_all _ _ H) as HJ. apply runs_In in Hr.
  assert (Hin : In (cid, crit, succ) (adds tr)) by (apply adds_In; eauto).
  assert (Ho : In (cid, Some sid) (own tr)) by (apply own_belongs; auto).
  destruct (j_status _ _ HJ (cid, crit, succ) sid Hin Ho) as [S|[S|[S|S]]].
  - exfalso. destruct S as (x & S1 & _ & S2). apply (j_runs _ _ HJ) in Hr as [_ Hr]. apply Hr.
    left. exists x, (cid, crit, succ). auto.
  - destruct S as [_ (n & g & j & S2 & S3)]. destruct (j_beginu _ _ HJ _ _ _ _ _ _ _ Hp S2) as [-> ->]. exact S3.
  - destruct S as [S1 _]. contradiction.
  - destruct S as [S1 _]. contradiction.
Qed.

Lemma acc_registered tr cid :
  accepted tr -> In (EvRun cid) tr ->
  (exists req tgt crit succ r, In (EvAdd cid req tgt crit succ r) tr) /\ exists sid, belongs cid sid tr.
Proof.
  intros [q H] Hr. pose proof (J_run_all _ _ H) as HJ. apply in_split in Hr as [p [t ->]].
  apply spec_run_split in H as [q1 [H1 H2]]. cbn [spec_run] in H2.
  destruct (spec_step q1 (EvRun cid)) as [q2|] eqn:E; [|discriminate].
  pose proof (J_run_all _ _ H1) as HJ1.
  apply run_top in E as (s & nm & f & i & items & items' & rest & Eq & Et & _).
  apply take_spec in Et as (d & it0 & -> & Hid & _).
  set (X := mkSS s nm (Some (f, i)) (d ++ it0 :: items')) in *.
  assert (HX : In X (q_stack q1)) by (rewrite Eq; left; auto).
  assert (Hi : In it0 (ss_items X)) by (simpl; apply in_or_app; right; left; auto).
  destruct (j_items _ _ HJ1 X it0 HX Hi) as [Ha Ho]. rewrite Hid in Ho.
  destruct it0 as [[c crit] succ]. unfold it_id in Hid. simpl in Hid. subst c.
  apply adds_In in Ha as (req & tgt & r & Ha). split.
  - exists req, tgt, crit, succ, r. apply in_or_app; auto.
  - exists (ss_id X). apply own_belongs in Ho. apply belongs_app; auto.
Qed.
