(** C39, C40: the saved state of a session and what is resumed from it. *)

From Coq Require Import List Bool Arith Permutation Lia.
From Verif Require Import Events Core Results Dict Resume.
Import ListNotations.

(** ** Specification *)

(** the status a test deserves, from its result *)
Inductive deserves : option result -> rstatus -> Prop :=
| D_none : deserves None Planned
| D_skipped r : r_skips r <> [] -> deserves (Some r) Skipped
| D_success r : r_skips r = [] -> r_errors r = [] -> r_failures r = [] -> r_interrupted r = false ->
    r_started r = true -> r_finished r = true -> deserves (Some r) Success
| D_planned r : r_skips r = [] -> r_started r = false -> deserves (Some r) Planned
| D_failed r : r_skips r = [] -> r_started r = true ->
    r_errors r <> [] \/ r_failures r <> [] \/ r_interrupted r = true \/ r_finished r = false ->
    deserves (Some r) Failed.

(** the row stands for the test *)
Definition stands_for (w : row) (m : md) : Prop :=
  w_file w = m_file m /\ w_aif w = m_aif m
  /\ match w_var w with Some v => v = m_var m | None => m_var m = [] end.

(** which statuses the switches ask for *)
Definition asked (sw : switches) (rerun : bool) (s : rstatus) : Prop :=
  match s with
  | Success => rerun = true
  | Failed => unstarted_only sw = false
  | Planned => failed_only sw = false
  | Skipped => failed_only sw = false /\ no_skipped sw = false
  end.

Definition contradictory (sw : switches) : Prop :=
  (unstarted_only sw = true /\ failed_only sw = true)
  \/ (no_skipped sw = true /\ failed_only sw = true)
  \/ (unstarted_first sw = true /\ failed_first sw = true).

(** the status the switches want first *)
Definition first_status (sw : switches) : option rstatus :=
  if unstarted_first sw then Some Planned else if failed_first sw then Some Failed else None.

(** order-preserving sublist *)
Inductive sub {A} : list A -> list A -> Prop :=
| sub_nil : sub [] []
| sub_skip x l l' : sub l l' -> sub l (x :: l')
| sub_keep x l l' : sub l l' -> sub (x :: l) (x :: l').

(** ** C40: the saved status *)

Lemma deserves_fun o s s' : deserves o s -> deserves o s' -> s = s'.
Proof.
  intros H H'. inversion H; subst; inversion H'; subst; auto; try congruence;
    repeat match goal with Q : _ \/ _ |- _ => destruct Q end; congruence.
Qed.

Theorem C40_status r : deserves (Some r) (saved_status r).
Proof.
  unfold saved_status, is_success_finished, is_success, is_skip, is_error, is_failure.
  destruct (r_skips r) as [|k ks] eqn:K; simpl nonempty; cbv iota.
  2: { apply D_skipped. congruence. }
  destruct (r_errors r) as [|e es] eqn:E; destruct (r_failures r) as [|f fs] eqn:F; simpl;
    destruct (r_interrupted r) eqn:I; simpl; destruct (r_started r) eqn:S; simpl;
    destruct (r_finished r) eqn:N; simpl;
    try (apply D_planned; auto; fail);
    try (apply D_success; auto; fail);
    (apply D_failed; auto; rewrite ?E, ?F, ?I, ?N;
       first [left; congruence | right; left; congruence | right; right; left; congruence
             | right; right; right; congruence ]).
Qed.

(** only one status is deserved, so the saved one is it *)
Corollary C40_status_only r s : deserves (Some r) s -> saved_status r = s.
Proof. intro H. apply (deserves_fun _ _ _ (C40_status r) H). Qed.

Lemma stands_for_row m s : stands_for (row_of m s) m.
Proof.
  unfold stands_for, row_of, saved_var. simpl. do 2 (split; auto).
  destruct (m_var m); auto.
Qed.

Lemma result_of_In m results r : result_of m results = Some r ->
  exists m', In (m', r) results /\ m_id m' = m_id m.
Proof.
  unfold result_of. intro H. destruct (find _ results) as [[m' r']|] eqn:F; simpl in H; [|discriminate].
  injection H as <-. apply find_some in F as [I Q]. apply Nat.eqb_eq in Q. eauto.
Qed.

Lemma result_of_unique m r results : NoDup (map (fun mr => m_id (fst mr)) results) ->
  In (m, r) results -> result_of m results = Some r.
Proof.
  unfold result_of. induction results as [|[m' r'] l IH]; simpl; intros N I; [contradiction|].
  apply NoDup_cons_iff in N as [Nx N]. destruct I as [Q|I].
  - injection Q as -> ->. rewrite Nat.eqb_refl. auto.
  - destruct (Nat.eqb_spec (m_id m') (m_id m)) as [Q|Q].
    + exfalso. apply Nx. rewrite Q. apply (in_map (fun mr => m_id (fst mr)) _ _ I).
    + apply IH; auto.
Qed.

Lemma set_insert_all l acc :
  NoDup (map m_address (acc ++ l)) -> fold_left set_insert l acc = acc ++ l.
Proof.
  revert acc. induction l as [|m l IH]; intros acc N; simpl; [rewrite app_nil_r; auto|].
  assert (E : existsb (fun m' => Nat.eqb (m_address m') (m_address m)) acc = false).
  { apply not_true_is_false. intro Q. apply existsb_exists in Q as (m' & I & Q).
    apply Nat.eqb_eq in Q. rewrite map_app in N. simpl in N.
    apply NoDup_remove_2 in N. apply N. apply in_or_app. left. rewrite <- Q.
    apply in_map. auto. }
  unfold set_insert at 2. rewrite E. rewrite IH; rewrite <- app_assoc; auto.
Qed.

Lemma set_insert_In l acc m : In m (fold_left set_insert l acc) -> In m acc \/ In m l.
Proof.
  revert acc. induction l as [|x l IH]; intros acc H; simpl in *; auto.
  apply IH in H as [H|H]; auto. unfold set_insert in H.
  destruct (existsb _ acc); auto. apply in_app_or in H as [H|[H|[]]]; auto.
Qed.

Lemma set_insert_mono l acc m : In m acc -> In m (fold_left set_insert l acc).
Proof.
  revert acc. induction l as [|x l IH]; intros acc H; simpl in *; auto.
  apply IH. unfold set_insert. destruct (existsb _ acc); auto. apply in_or_app. auto.
Qed.

Lemma set_insert_addr l acc m : In m l ->
  exists m', In m' (fold_left set_insert l acc) /\ m_address m' = m_address m.
Proof.
  revert acc. induction l as [|x l IH]; intros acc H; [contradiction|]. simpl.
  destruct H as [->|H]; [|apply IH; auto].
  destruct (existsb (fun m' => Nat.eqb (m_address m') (m_address m)) acc) eqn:E.
  - apply existsb_exists in E as (m' & I & Q). apply Nat.eqb_eq in Q.
    exists m'. split; auto. apply set_insert_mono. unfold set_insert. destruct (existsb _ acc); auto.
    apply in_or_app; auto.
  - exists m. split; auto. apply set_insert_mono. unfold set_insert. rewrite E. apply in_or_app. right. left. auto.
Qed.

Section Order.
Variable set_order : list md -> list md.
Hypothesis set_order_perm : forall l, Permutation (set_order l) l.

(** Every row stands for a test that has a result or was collected, with the
    status it deserves. *)
Theorem C40_rows_sound results collected w :
  NoDup (map (fun mr => m_id (fst mr)) results) ->
  In w (saved_rows set_order results collected) ->
  exists m, (In m collected \/ In m (map fst results)) /\ stands_for w m
            /\ deserves (result_of m results) (w_status w).
Proof.
  intros N I. unfold saved_rows in I. apply in_app_or in I as [I|I].
  - apply in_map_iff in I as ([m r] & <- & I). exists m. simpl. split.
    + right. apply (in_map fst _ _ I).
    + split; [apply stands_for_row|]. rewrite (result_of_unique m r results N I). apply C40_status.
  - apply in_map_iff in I as (m & <- & I). apply (Permutation_in _ (set_order_perm _)) in I.
    unfold without_results in I. apply set_insert_In in I as [[]|I].
    apply filter_In in I as [I Q]. exists m. split; auto. split; [apply stands_for_row|].
    destruct (result_of m results); [discriminate|]. constructor.
Qed.

(** Every collected test has a row with the status it deserves, but for a test
    without a result that row may be the one of another test with the same
    address. *)
Theorem C40_rows_complete results collected m :
  NoDup (map (fun mr => m_id (fst mr)) results) ->
  (forall m' r, In (m', r) results -> m_id m' = m_id m -> m' = m) ->
  In m collected ->
  exists w m', In w (saved_rows set_order results collected) /\ stands_for w m'
               /\ deserves (result_of m results) (w_status w)
               /\ (m' = m \/ (result_of m results = None /\ m_address m' = m_address m)).
Proof.
  intros N U I. destruct (result_of m results) as [r|] eqn:R.
  - apply result_of_In in R as (m' & J & Q). apply (U m' r J) in Q. subst m'.
    exists (row_of m (saved_status r)), m. split; [|split; [apply stands_for_row|split; [apply C40_status|auto]]].
    apply in_or_app. left. apply in_map_iff. exists (m, r). auto.
  - destruct (set_insert_addr (filter (fun m => match result_of m results with None => true | Some _ => false end)
                                      collected) [] m) as (m' & J & Q).
    { apply filter_In. rewrite R. auto. }
    exists (row_of m' Planned), m'. split; [|split; [apply stands_for_row|split; [constructor|auto]]].
    apply in_or_app. right. apply (in_map (fun m => row_of m Planned)).
    apply (Permutation_in _ (Permutation_sym (set_order_perm _))). auto.
Qed.

Lemma filter_map_ids {B} (f : md -> B) (has : md -> bool) (tab : list md) (col : list md) :
  NoDup tab -> NoDup col -> (forall m, In m tab <-> In m col /\ has m = true) ->
  Permutation (map f tab) (map f (filter has col)).
Proof.
  intros N1 N2 H. apply Permutation_map. apply NoDup_Permutation; auto.
  - apply NoDup_filter. auto.
  - intro m. rewrite filter_In. apply H.
Qed.

Lemma perm_filter_split {A} (p : A -> bool) (l : list A) :
  Permutation l (filter p l ++ filter (fun x => negb (p x)) l).
Proof.
  induction l as [|x l IH]; simpl; auto. destruct (p x); simpl.
  - apply Permutation_cons; auto.
  - apply Permutation_cons_app; auto.
Qed.

(** One row per collected test, with the status its result deserves -- when no
    two tests without a result have the same address.  Missing for the full
    claim: the case where they do, see [C40_one_row_refuted]. *)
Theorem C40_one_row_partial results collected :
  NoDup (map m_id collected) ->
  NoDup (map (fun mr => m_id (fst mr)) results) ->
  (forall m r, In (m, r) results -> In m collected) ->
  NoDup (map m_address (filter (fun m => match result_of m results with None => true | Some _ => false end) collected)) ->
  exists status_of : md -> rstatus,
    (forall m, deserves (result_of m results) (status_of m))
    /\ Permutation (saved_rows set_order results collected) (map (fun m => row_of m (status_of m)) collected).
Proof.
  intros Nc Nr Hc Na.
  set (status_of := fun m => match result_of m results with Some r => saved_status r | None => Planned end).
  exists status_of. split.
  { intro m. unfold status_of. destruct (result_of m results); [apply C40_status|constructor]. }
  set (has := fun m => match result_of m results with None => false | Some _ => true end).
  eapply perm_trans. 2: { apply Permutation_map. apply Permutation_sym, (perm_filter_split has). }
  rewrite map_app. unfold saved_rows. apply Permutation_app.
  - assert (E : map (fun mr : md * result => row_of (fst mr) (saved_status (snd mr))) results
                = map (fun m => row_of m (status_of m)) (map fst results)).
    { rewrite map_map. apply map_ext_in. intros [m r] I. simpl. unfold status_of.
      rewrite (result_of_unique m r results Nr I). auto. }
    rewrite E. apply filter_map_ids.
    + rewrite <- map_map in Nr. apply NoDup_map_inv in Nr. auto.
    + apply NoDup_map_inv in Nc. auto.
    + intro m. split.
      * intro I. apply in_map_iff in I as ([m' r] & Q & I). simpl in Q. subst m'. split; [eauto|].
        unfold has. rewrite (result_of_unique m r results Nr I). auto.
      * intros [I Q]. unfold has in Q. destruct (result_of m results) as [r|] eqn:R; [|discriminate].
        apply result_of_In in R as (m' & J & Q'). assert (m' = m) as ->.
        { apply Hc in J. clear - Nc J I Q'. induction collected as [|x l IH]; [contradiction|].
          simpl in Nc. apply NoDup_cons_iff in Nc as [Nx Nc]. destruct J as [->|J], I as [->|I]; auto.
          - exfalso. apply Nx. rewrite Q'. apply in_map; auto.
          - exfalso. apply Nx. rewrite <- Q'. apply in_map; auto. }
        apply (in_map fst _ _ J).
  - set (f := fun m : md => match result_of m results with None => true | Some _ => false end) in *.
    assert (E : filter (fun x => negb (has x)) collected = filter f collected).
    { apply filter_ext. intro m. unfold has, f. destruct (result_of m results); auto. }
    rewrite E. unfold without_results. fold f. rewrite set_insert_all; auto. simpl.
    eapply perm_trans; [apply Permutation_map, set_order_perm|].
    assert (E2 : map (fun m => row_of m Planned) (filter f collected)
                 = map (fun m => row_of m (status_of m)) (filter f collected)).
    { apply map_ext_in. intros m I. apply filter_In in I as [_ Q]. unfold f in Q. unfold status_of.
      destruct (result_of m results); [discriminate|auto]. }
    rewrite E2. auto.
Qed.
End Order.

(** the result of a test that ran and succeeded, failed, was interrupted *)
Definition res_ok := mkResult [] [] [] true true false.
Definition res_fail := mkResult [] [mkEntry None false] [] true true false.
Definition res_intr := mkResult [] [] [] true false true.
Definition res_skip := mkResult [] [] [mkEntry None false] false false false.
Definition res_none := mkResult [] [] [] false false false.

Definition mA := mkMd 1 10 20 [] 100.
Definition mB := mkMd 2 10 21 [(5, 0)] 101.
Definition mC := mkMd 3 10 21 [(5, 1)] 102.
Definition mD := mkMd 4 11 20 [] 103.

Example C40_ex_rows :
  saved_rows (@rev md) [(mB, res_fail); (mA, res_ok)] [mA; mB; mC; mD]
  = [mkRow 10 21 (Some [(5, 0)]) Failed; mkRow 10 20 None Success;
     mkRow 11 20 None Planned; mkRow 10 21 (Some [(5, 1)]) Planned].
Proof. reflexivity. Qed.

Example C40_ex_hyps :
  NoDup (map m_id [mA; mB; mC; mD]) /\ NoDup (map (fun mr => m_id (fst mr)) [(mB, res_fail); (mA, res_ok)])
  /\ (forall m r, In (m, r) [(mB, res_fail); (mA, res_ok)] -> In m [mA; mB; mC; mD])
  /\ NoDup (map m_address (filter (fun m => match result_of m [(mB, res_fail); (mA, res_ok)] with
                                           None => true | Some _ => false end) [mA; mB; mC; mD])).
Proof.
  split; [|split; [|split]].
  - repeat constructor; simpl; intuition discriminate.
  - repeat constructor; simpl; intuition discriminate.
  - intros m r [Q|[Q|[]]]; injection Q as <- <-; simpl; auto.
  - repeat constructor; simpl; intuition discriminate.
Qed.

Example C40_ex_statuses :
  map saved_status [res_ok; res_fail; res_intr; res_skip; res_none] = [Success; Failed; Failed; Skipped; Planned].
Proof. reflexivity. Qed.

(** Two tests that never got a result and have the same address -- two values of
    a parameter with the same safe_repr, 1 and '1' -- get one row, whatever the
    order of the set; the other test is not in the saved state. *)
Theorem C40_one_row_refuted :
  exists results collected m,
    NoDup (map m_id collected) /\ NoDup (map (fun mr => m_id (fst mr)) results)
    /\ (forall m r, In (m, r) results -> In m collected)
    /\ In m collected
    /\ forall set_order, (forall l, Permutation (set_order l) l) ->
         forall w, In w (saved_rows set_order results collected) -> ~ stands_for w m.
Proof.
  exists [(mA, res_intr)], [mA; mB; mkMd 3 10 21 [(5, 1)] 101], (mkMd 3 10 21 [(5, 1)] 101).
  split; [repeat constructor; simpl; intuition discriminate|].
  split; [repeat constructor; simpl; intuition discriminate|].
  split; [intros m r [Q|[]]; injection Q as <- <-; simpl; auto|].
  split; [simpl; auto|].
  intros so P w I. unfold saved_rows in I. simpl in I. destruct I as [<-|I].
  - intros (_ & Q & _). simpl in Q. discriminate.
  - change (without_results [(mA, res_intr)] [mA; mB; mkMd 3 10 21 [(5, 1)] 101]) with [mB] in I.
    apply in_map_iff in I as (m & <- & I). apply (Permutation_in _ (P _)) in I as [<-|[]].
    intros (_ & _ & Q). simpl in Q. discriminate.
Qed.

(** ** C39: what is resumed *)

Lemma sub_filter {A} (p : A -> bool) l : sub (filter p l) l.
Proof. induction l; simpl; [constructor|]. destruct (p a); [apply sub_keep|apply sub_skip]; auto. Qed.

Lemma sub_trans {A} (a b c : list A) : sub a b -> sub b c -> sub a c.
Proof.
  intros H1 H2. revert a H1. induction H2; intros a H1; auto.
  - apply sub_skip. auto.
  - inversion H1; subst; [apply sub_skip|apply sub_keep]; auto.
Qed.

Lemma rstatus_eqb_spec a b : reflect (a = b) (rstatus_eqb a b).
Proof. destruct a, b; simpl; constructor; congruence. Qed.

Lemma asked_iff sw rerun s :
  unstarted_only sw && failed_only sw = false -> no_skipped sw && failed_only sw = false ->
  (existsb (rstatus_eqb s) (filtered_status sw rerun) = true <-> asked sw rerun s).
Proof.
  unfold filtered_status, asked. destruct sw as [u f n uf ff]; simpl. intros A B.
  destruct u, f, n; try discriminate; destruct rerun, s; simpl; intuition congruence.
Qed.

Lemma perm_filter {A} (p : A -> bool) (l l' : list A) :
  Permutation l l' -> Permutation (filter p l) (filter p l').
Proof.
  induction 1; simpl; auto.
  - destruct (p x); auto.
  - destruct (p x), (p y); auto. constructor.
  - eapply perm_trans; eauto.
Qed.

Section Remote.
Variable remote : nat -> bool -> option (list row).

(** Resuming a session with a saved state: contradictory switches are refused,
    otherwise the rows of the asked statuses are selected, each exactly as often
    as it was saved, in the saved order; if a status is wanted first, its rows
    come first, and both parts keep the saved order. *)
Theorem C39_selection sw rerun sid d saved :
  get_tests_locally sid d = saved -> saved <> [] ->
  match get_tests_from_previous_session remote sw rerun sid d with
  | None => contradictory sw
  | Some l =>
      ~ contradictory sw
      /\ (exists other, Permutation (l ++ other) saved /\ Forall (fun w => ~ asked sw rerun (w_status w)) other)
      /\ Forall (fun w => asked sw rerun (w_status w)) l
      /\ match first_status sw with
         | None => sub l saved
         | Some s => exists a b, l = a ++ b /\ Forall (fun w => w_status w = s) a
                                 /\ Forall (fun w => w_status w <> s) b /\ sub a saved /\ sub b saved
         end
  end.
Proof.
  intros L N. unfold get_tests_from_previous_session. rewrite L.
  destruct saved as [|w0 saved0] eqn:ES; [congruence|]. rewrite <- ES in *.
  unfold filter_tests, contradictory.
  destruct (unstarted_only sw && failed_only sw) eqn:A.
  { apply andb_true_iff in A. auto. }
  destruct (no_skipped sw && failed_only sw) eqn:B.
  { apply andb_true_iff in B. auto. }
  set (p := fun t : row => existsb (rstatus_eqb (w_status t)) (filtered_status sw rerun)).
  unfold sort_tests.
  destruct (unstarted_first sw && failed_first sw) eqn:C.
  { apply andb_true_iff in C. auto. }
  assert (NC : ~ (unstarted_only sw = true /\ failed_only sw = true \/
     no_skipped sw = true /\ failed_only sw = true \/ unstarted_first sw = true /\ failed_first sw = true)).
  { intros [[R1 R2]|[[R1 R2]|[R1 R2]]]; [rewrite R1, R2 in A|rewrite R1, R2 in B|rewrite R1, R2 in C]; discriminate. }
  assert (P1 : exists other, Permutation (filter p saved ++ other) saved
                 /\ Forall (fun w => ~ asked sw rerun (w_status w)) other).
  { exists (filter (fun w => negb (p w)) saved). split.
    - apply Permutation_sym, perm_filter_split.
    - apply Forall_forall. intros w I. apply filter_In in I as [_ Q]. apply negb_true_iff in Q.
      intro H. apply (asked_iff sw rerun _ A B) in H. unfold p in Q. congruence. }
  assert (P2 : Forall (fun w => asked sw rerun (w_status w)) (filter p saved)).
  { apply Forall_forall. intros w I. apply filter_In in I as [_ Q]. apply (asked_iff sw rerun _ A B). auto. }
  assert (G : forall s : rstatus,
    let l := filter (fun t => rstatus_eqb (w_status t) s) (filter p saved)
             ++ filter (fun t => negb (rstatus_eqb (w_status t) s)) (filter p saved) in
    ~ (unstarted_only sw = true /\ failed_only sw = true \/
     no_skipped sw = true /\ failed_only sw = true \/ unstarted_first sw = true /\ failed_first sw = true)
    /\ (exists other, Permutation (l ++ other) saved /\ Forall (fun w => ~ asked sw rerun (w_status w)) other)
    /\ Forall (fun w => asked sw rerun (w_status w)) l
    /\ exists a b, l = a ++ b /\ Forall (fun w => w_status w = s) a
                   /\ Forall (fun w => w_status w <> s) b /\ sub a saved /\ sub b saved).
  { intros s l. assert (PL : Permutation l (filter p saved)) by (apply Permutation_sym, perm_filter_split).
    split; auto. split; [|split].
    - destruct P1 as (other & P1 & F). exists other. split; auto.
      eapply perm_trans; [|apply P1]. apply Permutation_app_tail. auto.
    - apply Forall_forall. intros w I. rewrite Forall_forall in P2. apply P2. apply (Permutation_in _ PL). auto.
    - eexists; eexists; split; [reflexivity|]. split; [|split; [|split]].
      + apply Forall_forall. intros w I. apply filter_In in I as [_ Q].
        destruct (rstatus_eqb_spec (w_status w) s); congruence.
      + apply Forall_forall. intros w I. apply filter_In in I as [_ Q].
        destruct (rstatus_eqb_spec (w_status w) s); simpl in Q; congruence.
      + eapply sub_trans; apply sub_filter.
      + eapply sub_trans; apply sub_filter. }
  unfold first_status. destruct (unstarted_first sw) eqn:UF; destruct (failed_first sw) eqn:FF;
    try discriminate; simpl orb; cbv iota.
  - apply (G Planned).
  - apply (G Failed).
  - do 3 (split; auto). apply sub_filter.
Qed.

(** Several sessions: what each of them gives, one after another, and nothing if one of them cannot be resumed *)
Theorem C39_sessions sw rerun sids d :
  match collect_sessions remote sw rerun sids d with
  | None => exists sid, In sid sids /\ get_tests_from_previous_session remote sw rerun sid d = None
  | Some l => exists parts, Forall2 (fun sid part => get_tests_from_previous_session remote sw rerun sid d = Some part) sids parts /\ l = concat parts
  end.
Proof.
  induction sids as [|sid sids IH]; cbn [collect_sessions]; [exists []; split; [constructor|reflexivity]|].
  destruct (get_tests_from_previous_session remote sw rerun sid d) as [l|] eqn:E; [|exists sid; split; [left; reflexivity|exact E]].
  destruct (collect_sessions remote sw rerun sids d) as [m|]; cbn [option_map].
  - destruct IH as (parts & F & ->). exists (l :: parts). split; [constructor; assumption|reflexivity].
  - destruct IH as (x & I & X). exists x. split; [right; exact I|exact X].
Qed.

(** Of saved sessions exactly the rows of an asked status are resumed, whichever of the sessions they were saved for *)
Theorem C39_all_sessions sw rerun sids d : sids <> [] -> (forall sid, In sid sids -> get_tests_locally sid d <> []) ->
  match collect_sessions remote sw rerun sids d with
  | None => contradictory sw
  | Some l => ~ contradictory sw /\
      forall w, In w l <-> asked sw rerun (w_status w) /\ exists sid, In sid sids /\ In w (get_tests_locally sid d)
  end.
Proof.
  intros NE H. pose proof (C39_sessions sw rerun sids d) as S. destruct (collect_sessions remote sw rerun sids d) as [l|].
  - destruct S as (parts & F & ->). split.
    + destruct F as [|sid part sids parts E F]; [congruence|]. pose proof (C39_selection sw rerun sid d _ eq_refl (H sid (or_introl eq_refl))) as G.
      rewrite E in G. apply G.
    + intros w. clear NE. induction F as [|sid part sids parts E F IH]; [cbn; split; [intros []|intros (_ & ? & [] & _)]|].
      pose proof (C39_selection sw rerun sid d _ eq_refl (H sid (or_introl eq_refl))) as G. rewrite E in G. destruct G as (_ & (other & P & O) & A & _).
      rewrite Forall_forall in O, A. cbn [concat]. rewrite in_app_iff, (IH (fun x I => H x (or_intror I))). split.
      * intros [I|(K & x & I & J)].
        -- split; [apply A, I|]. exists sid. split; [left; reflexivity|]. apply (Permutation_in _ P), in_app_iff. left. exact I.
        -- split; [exact K|]. exists x. split; [right; exact I|exact J].
      * intros (K & x & [<-|I] & J).
        -- apply (Permutation_in _ (Permutation_sym P)), in_app_iff in J as [J|J]; [left; exact J|destruct (O _ J K)].
        -- right. split; [exact K|]. exists x. split; assumption.
  - destruct S as (sid & I & E). pose proof (C39_selection sw rerun sid d _ eq_refl (H sid I)) as G. rewrite E in G. exact G.
Qed.

(** every saved row belongs to a saved session *)
Definition db_ok (d : db) : Prop :=
  forall sid w, In (sid, w) (db_rows d) -> In sid (map q_sid (db_sessions d)).

(** Rows saved for a session come back as saved, and other sessions keep theirs. *)
Theorem C39_saved_and_read sid folder now rows d d' :
  db_ok d -> save sid folder now rows d = Some d' ->
  db_ok d' /\ get_tests_locally sid d' = rows
  /\ forall sid', sid' <> sid -> get_tests_locally sid' d' = get_tests_locally sid' d.
Proof.
  intros OK. unfold save. destruct (existsb (fun q => q_sid q =? sid) (db_sessions d)) eqn:E; [discriminate|].
  intro Q. injection Q as <-. split; [|split].
  - intros s w I. simpl in *. rewrite map_app. apply in_or_app. apply in_app_or in I as [I|I].
    + left. eapply OK; eauto.
    + right. apply in_map_iff in I as (w' & Q & _). injection Q as <- <-. simpl. auto.
  - unfold get_tests_locally. simpl. rewrite existsb_app. simpl. rewrite Nat.eqb_refl, orb_true_r.
    rewrite filter_app, map_app.
    assert (E1 : filter (fun sr : nat * row => fst sr =? sid) (db_rows d) = []).
    { destruct (filter _ (db_rows d)) as [|[s w] l] eqn:F; auto. exfalso.
      assert (I : In (s, w) (filter (fun sr : nat * row => fst sr =? sid) (db_rows d))) by (rewrite F; left; auto).
      apply filter_In in I as [I Q]. simpl in Q. apply Nat.eqb_eq in Q. subst s.
      apply OK in I. apply in_map_iff in I as (q & Q & I).
      assert (existsb (fun q => q_sid q =? sid) (db_sessions d) = true); [|congruence].
      apply existsb_exists. exists q. rewrite Q, Nat.eqb_refl. auto. }
    rewrite E1. simpl. clear. induction rows as [|w l IH]; simpl; auto.
    rewrite Nat.eqb_refl. simpl. f_equal. auto.
  - intros sid' N. unfold get_tests_locally. simpl. rewrite existsb_app. simpl.
    destruct (Nat.eqb_spec sid sid'); [congruence|]. rewrite !orb_false_r.
    rewrite filter_app.
    assert (E1 : filter (fun sr : nat * row => fst sr =? sid') (map (pair sid) rows) = []).
    { clear - n. induction rows; simpl; auto. destruct (Nat.eqb_spec sid sid'); congruence. }
    rewrite E1, app_nil_r. auto.
Qed.

(** Old sessions are forgotten, the state of every other session is kept. *)
Theorem C39_clean_keeps limit d sid q :
  NoDup (map q_sid (db_sessions d)) -> In q (db_sessions d) -> q_sid q = sid ->
  get_tests_locally sid (clean_old_entries limit d)
  = if Nat.ltb (q_created q) limit then [] else get_tests_locally sid d.
Proof.
  intros N I Q. unfold get_tests_locally, clean_old_entries. simpl.
  assert (U : forall q', In q' (db_sessions d) -> q_sid q' = sid -> q' = q).
  { intros q' I' Q'. clear - N I I' Q Q'. induction (db_sessions d) as [|x l IH]; [contradiction|].
    simpl in N. apply NoDup_cons_iff in N as [Nx N]. destruct I as [->|I], I' as [->|I']; auto.
    - exfalso. apply Nx. rewrite Q, <- Q'. apply in_map; auto.
    - exfalso. apply Nx. rewrite Q', <- Q. apply in_map; auto. }
  destruct (Nat.ltb (q_created q) limit) eqn:L.
  - destruct (existsb _ (filter _ (db_sessions d))) eqn:E; auto. exfalso.
    apply existsb_exists in E as (q' & I' & Q'). apply Nat.eqb_eq in Q'. apply filter_In in I' as [I' B].
    rewrite (U q' I' Q') in B. rewrite L in B. discriminate.
  - assert (E : existsb (fun q => q_sid q =? sid) (filter (fun q => negb (q_created q <? limit)) (db_sessions d)) = true).
    { apply existsb_exists. exists q. split; [|rewrite Q; apply Nat.eqb_refl].
      apply filter_In. rewrite L. auto. }
    rewrite E.
    assert (E2 : existsb (fun q => q_sid q =? sid) (db_sessions d) = true).
    { apply existsb_exists. exists q. split; auto. rewrite Q. apply Nat.eqb_refl. }
    rewrite E2. f_equal.
    assert (NI : existsb (Nat.eqb sid) (map q_sid (filter (fun q => q_created q <? limit) (db_sessions d))) = false).
    { apply not_true_is_false. intro H. apply existsb_exists in H as (s & H & H'). apply Nat.eqb_eq in H'. subst s.
      apply in_map_iff in H as (q' & Q' & H). apply filter_In in H as [H B]. rewrite (U q' H Q') in B. congruence. }
    induction (db_rows d) as [|[s w] l IH]; simpl; auto.
    destruct (Nat.eqb_spec s sid) as [->|Ns].
    + rewrite NI. simpl. rewrite Nat.eqb_refl. f_equal. auto.
    + destruct (existsb (Nat.eqb s) _); simpl; auto. destruct (Nat.eqb_spec s sid); [congruence|auto].
Qed.

(** The whole way: a session whose tests have distinct ids, and distinct
    addresses where they have no result, is saved; resuming it gives exactly the
    tests that did not succeed, rerunning it gives all tests, each once.
    Missing for the full claim: tests without results that share an address, see
    [C39_resume_refuted]. *)
Theorem C39_resume_partial set_order results collected sid folder now d d' rerun :
  (forall l, Permutation (set_order l) l) ->
  NoDup (map m_id collected) ->
  NoDup (map (fun mr => m_id (fst mr)) results) ->
  (forall m r, In (m, r) results -> In m collected) ->
  NoDup (map m_address (filter (fun m => match result_of m results with None => true | Some _ => false end) collected)) ->
  collected <> [] -> db_ok d ->
  save sid folder now (saved_rows set_order results collected) d = Some d' ->
  exists l tests,
    get_tests_from_previous_session remote (mkSw false false false false false) rerun sid d' = Some l
    /\ Permutation l tests
    /\ exists todo done, NoDup (map m_id todo) /\ Permutation (todo ++ done) collected
       /\ Forall2 stands_for tests todo
       /\ (forall m, In m todo -> rerun = true \/ ~ deserves (result_of m results) Success)
       /\ (forall m, In m done -> rerun = false /\ deserves (result_of m results) Success).
Proof.
  intros SP Nc Nr Hc Na Ne OK Sv.
  destruct (C40_one_row_partial set_order SP results collected Nc Nr Hc Na) as (st & Hst & Pm).
  destruct (C39_saved_and_read _ _ _ _ _ _ OK Sv) as (_ & L & _).
  unfold get_tests_from_previous_session. rewrite L.
  destruct (saved_rows set_order results collected) as [|w0 rows0] eqn:ES.
  { exfalso. apply Permutation_nil in Pm. destruct collected; [congruence|discriminate]. }
  rewrite <- ES in *. clear w0 rows0 ES.
  unfold filter_tests, sort_tests. simpl.
  set (p := fun t : row => existsb (rstatus_eqb (w_status t)) (filtered_status (mkSw false false false false false) rerun)).
  set (pm := fun m => p (row_of m (st m))).
  exists (filter p (saved_rows set_order results collected)), (map (fun m => row_of m (st m)) (filter pm collected)).
  split; auto. split.
  { eapply perm_trans; [apply perm_filter, Pm|].
    assert (E : filter p (map (fun m => row_of m (st m)) collected) = map (fun m => row_of m (st m)) (filter pm collected)).
    { clear. induction collected as [|m l IH]; simpl; auto. fold (pm m). destruct (pm m); simpl; rewrite IH; auto. }
    rewrite E. auto. }
  exists (filter pm collected), (filter (fun m => negb (pm m)) collected).
  split.
  { clear - Nc. induction collected as [|m l IH]; simpl; auto. simpl in Nc. apply NoDup_cons_iff in Nc as [Nx Nc].
    destruct (pm m); auto. simpl. constructor; auto. intro I. apply Nx. apply in_map_iff in I as (m' & Q & I).
    apply filter_In in I as [I _]. rewrite <- Q. apply in_map. auto. }
  split; [apply Permutation_sym, perm_filter_split|]. split; [|split].
  - clear. induction (filter pm collected); simpl; constructor; auto. apply stands_for_row.
  - intros m I. apply filter_In in I as [_ Q]. unfold pm, p in Q.
    apply (asked_iff (mkSw false false false false false) rerun _ eq_refl eq_refl) in Q. simpl in Q.
    destruct rerun; auto. right. intro D. rewrite (deserves_fun _ _ _ (Hst m) D) in Q. discriminate.
  - intros m I. apply filter_In in I as [_ Q]. apply negb_true_iff in Q. unfold pm, p in Q.
    assert (NA : ~ asked (mkSw false false false false false) rerun (st m)).
    { intro H. apply (asked_iff (mkSw false false false false false) rerun _ eq_refl eq_refl) in H.
      exact (eq_true_false_abs _ H Q). }
    specialize (Hst m). destruct (st m) eqn:E; simpl in NA; try tauto.
    destruct rerun; [tauto|]. auto.
Qed.
End Remote.

(** A planned test that shares its address with another planned test is lost: it
    neither succeeded nor is it resumed. *)
Theorem C39_resume_refuted :
  exists results collected m,
    NoDup (map m_id collected) /\ In m collected /\ result_of m results = None
    /\ forall remote set_order, (forall l, Permutation (set_order l) l) ->
       forall sw rerun l d',
       save 7 0 0 (saved_rows set_order results collected) (mkDb [] []) = Some d' ->
       get_tests_from_previous_session remote sw rerun 7 d' = Some l ->
       forall w, In w l -> ~ stands_for w m.
Proof.
  destruct C40_one_row_refuted as (results & collected & m & N & Nr & Hc & I & H).
  exists [(mA, res_intr)], [mA; mB; mkMd 3 10 21 [(5, 1)] 101], (mkMd 3 10 21 [(5, 1)] 101).
  clear results collected m N Nr Hc I H.
  split; [repeat constructor; simpl; intuition discriminate|].
  split; [simpl; auto|]. split; [reflexivity|].
  intros remote so P sw rerun l d' Sv G w I.
  assert (OK : db_ok (mkDb [] [])) by (intros ? ? []).
  destruct (C39_saved_and_read _ _ _ _ _ _ OK Sv) as (_ & L & _).
  assert (Ne : saved_rows so [(mA, res_intr)] [mA; mB; mkMd 3 10 21 [(5, 1)] 101] <> []).
  { unfold saved_rows. simpl. discriminate. }
  pose proof (C39_selection remote sw rerun 7 d' _ L Ne) as S. rewrite G in S.
  destruct S as (_ & (other & Pm & _) & _).
  assert (J : In w (saved_rows so [(mA, res_intr)] [mA; mB; mkMd 3 10 21 [(5, 1)] 101])).
  { apply (Permutation_in _ Pm). apply in_or_app. auto. }
  clear - J P. unfold saved_rows in J. simpl in J. destruct J as [<-|I].
  - intros (_ & Q & _). simpl in Q. discriminate.
  - change (without_results [(mA, res_intr)] [mA; mB; mkMd 3 10 21 [(5, 1)] 101]) with [mB] in I.
    apply in_map_iff in I as (m & <- & I). apply (Permutation_in _ (P _)) in I as [<-|[]].
    intros (_ & _ & Q). simpl in Q. discriminate.
Qed.

Definition ex_db :=
  match save 7 0 0 (saved_rows (@rev md) [(mB, res_fail); (mA, res_ok)] [mA; mB; mC; mD]) (mkDb [] []) with
  | Some d => d | None => mkDb [] [] end.

Example C39_ex_resume :
  get_tests_from_previous_session (fun _ _ => None) (mkSw false false false true false) false 7 ex_db
  = Some [mkRow 11 20 None Planned; mkRow 10 21 (Some [(5, 1)]) Planned; mkRow 10 21 (Some [(5, 0)]) Failed]
  /\ get_tests_locally 7 ex_db <> [].
Proof. split; [reflexivity|discriminate]. Qed.

Example C39_ex_failed_only :
  get_tests_from_previous_session (fun _ _ => None) (mkSw false true false false false) false 7 ex_db
  = Some [mkRow 10 21 (Some [(5, 0)]) Failed]
  /\ get_tests_from_previous_session (fun _ _ => None) (mkSw true true false false false) false 7 ex_db = None.
Proof. split; reflexivity. Qed.

Example C39_ex_hyps :
  db_ok (mkDb [] []) /\ save 7 0 0 (saved_rows (@rev md) [(mB, res_fail); (mA, res_ok)] [mA; mB; mC; mD]) (mkDb [] []) = Some ex_db
  /\ NoDup (map q_sid (db_sessions ex_db)).
Proof.
  split; [intros ? ? []|]. split; [reflexivity|]. simpl. repeat constructor; simpl; tauto.
Qed.

(** ** Finding the test again (loader) *)

Lemma var_eqb_refl v : d_ok v -> var_eqb v v = true.
Proof.
  intro N. unfold var_eqb. rewrite Nat.eqb_refl. simpl. apply forallb_forall. intros [k i] I. simpl.
  rewrite (d_pair_get k i v N I). apply Nat.eqb_refl.
Qed.

(** A resumed row of a test yields exactly that test, when its file still holds
    it and no other test of the file has its address in the file and (if it has
    a variation) its variation. *)
Theorem C39_found load excluded w m l1 l2 :
  stands_for w m -> load (m_file m) = l1 ++ m :: l2 -> d_ok (m_var m) -> excluded m = false ->
  (forall m', In m' (l1 ++ l2) -> m_aif m' = m_aif m -> m_var m <> [] /\ var_eqb (m_var m) (m_var m') = false) ->
  iter_test_resume load excluded w = [m].
Proof.
  intros (F & A & V) L D X U. unfold iter_test_resume. rewrite F, L.
  set (p := fun m0 : md => _).
  assert (Z : forall l, (forall m', In m' l -> In m' (l1 ++ l2)) -> filter p l = []).
  { induction l as [|m' l IH]; intro H; simpl; auto.
    assert (p m' = false) as ->; [|apply IH; intros; apply H; right; auto].
    unfold p. rewrite A. destruct (Nat.eqb_spec (m_aif m) (m_aif m')) as [Q|Q]; [|rewrite andb_false_r; auto].
    destruct (U m') as [U1 U2]; [apply H; left; auto|auto|].
    destruct (w_var w) as [[|x v]|].
    - congruence.
    - rewrite V. rewrite U2. rewrite andb_false_r. auto.
    - congruence. }
  rewrite filter_app, Z; [|intros; apply in_or_app; auto]. simpl.
  assert (p m = true) as ->.
  { unfold p. rewrite X, A, Nat.eqb_refl. simpl. destruct (w_var w) as [[|x v]|]; auto.
    rewrite V. apply var_eqb_refl. auto. }
  rewrite Z; [auto|intros; apply in_or_app; auto].
Qed.

Example C39_ex_found :
  iter_test_resume (fun f => if Nat.eqb f 10 then [mA; mB; mC] else [mD]) (fun _ => false)
    (mkRow 10 21 (Some [(5, 1)]) Planned) = [mC].
Proof. reflexivity. Qed.

(** Repetitions: the two copies of a failed test give two rows, and each of them
    yields the test of the file: a session of one test run twice resumes it
    twice (and with repeat_each still set, four times). *)
Theorem C39_once_refuted :
  exists results collected load l d',
    save 7 0 0 (saved_rows (fun l => l) results collected) (mkDb [] []) = Some d'
    /\ get_tests_from_previous_session (fun _ _ => None) (mkSw false false false false false) false 7 d' = Some l
    /\ exists m, flat_map (iter_test_resume load (fun _ => false)) l = [m; m].
Proof.
  exists [(mC, res_fail); (mkMd 9 10 21 [(5, 1)] 102, res_fail)], [mC; mkMd 9 10 21 [(5, 1)] 102],
    (fun _ => [mC]), [mkRow 10 21 (Some [(5, 1)]) Failed; mkRow 10 21 (Some [(5, 1)]) Failed].
  eexists. split; [reflexivity|]. split; [reflexivity|].
  exists mC. reflexivity.
Qed.

Print Assumptions C40_status.
Print Assumptions C40_status_only.
Print Assumptions C40_rows_sound.
Print Assumptions C40_rows_complete.
Print Assumptions C40_one_row_partial.
Print Assumptions C40_one_row_refuted.
Print Assumptions C39_selection.
Print Assumptions C39_saved_and_read.
Print Assumptions C39_clean_keeps.
Print Assumptions C39_resume_partial.
Print Assumptions C39_resume_refuted.
Print Assumptions C39_found.
Print Assumptions C39_once_refuted.

(** Without a session id the newest session saved for the folder is resumed, and there is
    none only if none was saved for the folder. *)
Theorem C39_last folder d :
  match get_last_resumeable_session_id folder d with
  | Some sid => exists q, In q (db_sessions d) /\ q_sid q = sid /\ q_folder q = folder
      /\ forall q', In q' (db_sessions d) -> q_folder q' = folder -> q_created q' <= q_created q
  | None => forall q, In q (db_sessions d) -> q_folder q <> folder
  end.
Proof.
  unfold get_last_resumeable_session_id.
  assert (G : forall l best, (forall b, best = Some b -> q_folder b = folder) ->
    match newest folder best l with
    | Some q => (In q l \/ best = Some q) /\ q_folder q = folder
        /\ (forall q', In q' l -> q_folder q' = folder -> q_created q' <= q_created q)
        /\ (forall b, best = Some b -> q_created b <= q_created q)
    | None => best = None /\ forall q, In q l -> q_folder q <> folder
    end).
  { induction l as [|q l IH]; simpl; intros best HB.
    - destruct best as [b|]; [|split; auto; intros ? []]. split; auto. split; auto. split; [intros ? []|]. intros b0 Q; inversion Q; auto.
    - destruct (Nat.eqb_spec (q_folder q) folder) as [F|F].
      + set (best2 := match best with Some b => if q_created b <? q_created q then Some q else Some b | None => Some q end).
        assert (B2 : exists b2, best2 = Some b2 /\ q_folder b2 = folder /\ (b2 = q \/ best = Some b2)
                  /\ q_created q <= q_created b2 /\ (forall b, best = Some b -> q_created b <= q_created b2)).
        { unfold best2. destruct best as [b|].
          - destruct (Nat.ltb_spec (q_created b) (q_created q)).
            + exists q. repeat split; auto. intros b0 Q; inversion Q; subst; lia.
            + exists b. repeat split; auto. intros b0 Q; inversion Q; subst; lia.
          - exists q. repeat split; auto. intros; discriminate. }
        destruct B2 as (b2 & E & F2 & W & L1 & L2). specialize (IH best2).
        destruct (newest folder best2 l) as [r|].
        * destruct IH as (A & B & C & D); [intros b Q; congruence|]. specialize (D b2 E).
          split; [|split; [auto|split]].
          { destruct A as [A|A]; auto. rewrite E in A. inversion A; subst. destruct W as [->|W]; auto. }
          { intros q' [<-|I] Fq; [lia|auto]. }
          { intros b Q. specialize (L2 b Q). lia. }
        * destruct IH as [A _]; [intros b Q; congruence|]. congruence.
      + specialize (IH best HB). destruct (newest folder best l) as [r|].
        * destruct IH as (A & B & C & D). split; [tauto|split; [auto|split; [|auto]]]. intros q' [<-|I] Fq; [contradiction|auto].
        * destruct IH as [A B]. split; auto. intros q' [<-|I]; auto. }
  specialize (G (db_sessions d) None). destruct (newest folder None (db_sessions d)) as [q|]; simpl.
  - destruct G as (A & B & C & _); [discriminate|]. exists q. destruct A as [A|A]; [auto|discriminate].
  - apply G. discriminate.
Qed.
Print Assumptions C39_last.

Example C39_last_ex : get_last_resumeable_session_id 1 (mkDb [mkSmeta 7 1 5; mkSmeta 8 2 9; mkSmeta 9 1 6] []) = Some 9.
Proof. reflexivity. Qed.

(** two sessions are resumed: the failed test of the first one and the test the second one did not run *)
Example ex_sessions :
  let d := mkDb [mkSmeta 1 7 0; mkSmeta 2 7 1] [(1, mkRow 10 20 None Failed); (1, mkRow 10 21 None Success); (2, mkRow 10 20 None Planned)] in
  collect_sessions (fun _ _ => None) (mkSw false false false false false) false [1; 2] d
  = Some [mkRow 10 20 None Failed; mkRow 10 20 None Planned]
  /\ get_tests_locally 1 d <> [] /\ get_tests_locally 2 d <> [].
Proof. repeat split; discriminate. Qed.

Print Assumptions C39_sessions.
Print Assumptions C39_all_sessions.
