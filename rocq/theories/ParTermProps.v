(** C127: a parallel session ends, and ends as a sequential one. *)

From Coq Require Import List Bool Arith PeanoNat Lia Permutation Sorting.Sorted.
From Verif Require Import Dict Parallel ParallelBase ParallelSys ParallelProps ParVerdict ParVerdictProps.
Import ListNotations.

(** ** Dictionaries *)

Section DictSum.
Context {V : Type}.
Variable f : V -> nat.
Definition dsum (d : @dict V) : nat := fold_right (fun e n => f (snd e) + n) 0 d.

Lemma dsum_set c p q (d : @dict V) : d_get c d = Some p -> dsum (d_set c q d) + f p = dsum d + f q.
Proof.
  unfold dsum. induction d as [|[k v] d IH]; cbn; [discriminate|]. destruct (Nat.eqb_spec c k) as [->|N].
  - intros E. injection E as ->. cbn. lia.
  - intros E. specialize (IH E). cbn. lia.
Qed.
End DictSum.

Lemma d_set_same {V} c (p : V) d : d_get c d = Some p -> d_set c p d = d.
Proof.
  induction d as [|[k v] d IH]; cbn; [discriminate|]. destruct (Nat.eqb_spec c k) as [->|N].
  - intros E. injection E as ->. auto.
  - intros E. rewrite IH; auto.
Qed.

Lemma d_keys_set {V} c (p q : V) d : d_get c d = Some p -> map fst (d_set c q d) = map fst d.
Proof.
  induction d as [|[k v] d IH]; cbn; [discriminate|]. destruct (Nat.eqb_spec c k) as [->|N]; [reflexivity|].
  intros E. cbn. rewrite IH; auto.
Qed.

Lemma d_get_key {V} c (d : @dict V) : In c (map fst d) <-> exists p, d_get c d = Some p.
Proof.
  induction d as [|[k v] d IH]; cbn; [split; [tauto|intros [p E]; discriminate]|]. destruct (Nat.eqb_spec c k) as [->|N].
  - split; [eauto|auto].
  - rewrite <- IH. intuition congruence.
Qed.

Lemma remove1_length x l : In x l -> S (length (remove1 x l)) = length l.
Proof.
  induction l as [|y l IH]; cbn; [tauto|]. destruct (Nat.eqb_spec x y); [auto|]. intros [E|I]; [congruence|]. cbn. rewrite IH; auto.
Qed.

(** ** The potential *)

Definition pot_pc (p : pc) : nat :=
  match p with WNew => 4 | WJoined => 3 | WRefused => 1 | WAsking => 2 | WRunning _ => 3 | WLeaving => 1 | WGone => 0 end.
Definition pot (y : system) : nat := 2 * length (sv_unstarted (sy_server y)) + dsum pot_pc (sy_workers y).

(** calls made by the program of a worker *)
Definition of_worker (x : call) : bool :=
  match x with CConnect _ _ | CValidate _ _ | CDisconnect _ _ | CGet _ _ | CFinished _ _ _ => true | _ => false end.
Definition waits (r : reply) : bool := match r with RWaiting => true | _ => false end.
(** the calls that did something *)
Definition counted (e : call * reply) : bool := of_worker (fst e) && negb (waits (snd e)).

Lemma handle_shorter num tests x s s' r : handle num tests x s = (s', r) ->
  length (sv_unstarted s') <= length (sv_unstarted s) /\ (forall d t, r = RTest d t -> S (length (sv_unstarted s')) = length (sv_unstarted s)).
Proof.
  intros H. destruct (handle_unstarted num tests x s s' r H) as [A B]. split.
  - destruct B as [->|[->|[t [I ->]]]]; cbn; [lia|lia|]. apply remove1_length in I. lia.
  - intros d t E. destruct (A d t E) as (c & h & _ & I & ->). apply remove1_length. exact I.
Qed.

Lemma next_pc_pot p r : pot_pc (next_pc p r)
  <= match p, r with WAsking, RTest _ _ => 3 | WAsking, RWaiting => 2 | WGone, _ => 0 | _, _ => pot_pc p - 1 end.
Proof. destruct p, r as [|[]| | | | |]; cbn; lia. Qed.

Lemma step_pot num tests l y y' tr : step num tests l y = (y', tr) ->
  pot y' + length (filter counted tr) <= pot y.
Proof.
  intros H. destruct y as [s W]. unfold step in H. cbn [sy_server sy_workers] in H.
  assert (Ask : forall x, of_worker x = false ->
    (if sstate_eqb (sv_state s) StopServe then (mkSystem s W, []) else let (s1, r) := handle num tests x s in (mkSystem s1 W, [(x, r)])) = (y', tr) ->
    pot y' + length (filter counted tr) <= pot (mkSystem s W)).
  { intros x O. destruct (sstate_eqb _ _); [intros E; injection E as <- <-; cbn; lia|].
    destruct (handle num tests x s) as [s1 r] eqn:Eh. intros E; injection E as <- <-. apply handle_shorter in Eh as [Eh _].
    unfold pot, counted. cbn [filter fst snd sy_server sy_workers]. rewrite O. cbn. lia. }
  destruct l as [c ch|c|c| | | |c t|c t]; try (first [exact (Ask (CFailure c) eq_refl H)|exact (Ask CInterrupted eq_refl H)|exact (Ask CStop eq_refl H)
    |exact (Ask CSessionError eq_refl H)|exact (Ask (CExclude c t) eq_refl H)|exact (Ask (CForce c t) eq_refl H)]).
  - destruct (d_get c W) as [p|] eqn:Ep; [|injection H as <- <-; cbn; lia].
    destruct (next_call c p ch) as [x|] eqn:Ex; [|injection H as <- <-; cbn; lia].
    destruct (sstate_eqb _ _).
    + injection H as <- <-. unfold pot. cbn [sy_server sy_workers filter length]. pose proof (dsum_set pot_pc c p WGone W Ep) as D. cbn [pot_pc] in D. lia.
    + destruct (handle num tests x s) as [s1 r] eqn:Eh. injection H as <- <-. apply handle_shorter in Eh as [Eh1 Eh2].
      unfold pot. cbn [sy_server sy_workers filter]. pose proof (dsum_set pot_pc c p (next_pc p r) W Ep) as D.
      pose proof (next_pc_pot p r) as N. unfold counted at 1. cbn [fst snd].
      assert (L : length (if of_worker x && negb (waits r) then [(x, r)] else []) = if of_worker x && negb (waits r) then 1 else 0) by (destruct (_ && _); reflexivity).
      unfold counted. cbn [fst snd]. rewrite L. 
      assert (T : forall d t, r = RTest d t -> S (length (sv_unstarted s1)) = length (sv_unstarted s)) by exact Eh2.
      destruct p; cbn [next_call] in Ex; try discriminate; injection Ex as <-; cbn [of_worker andb pot_pc] in *;
        destruct r as [|[]| | | | d u|]; cbn [waits negb] in *; try (specialize (T _ _ eq_refl)); lia.
  - destruct (d_get c W) as [p|] eqn:Ep; injection H as <- <-; [|cbn; lia].
    unfold pot. cbn [sy_server sy_workers filter length]. pose proof (dsum_set pot_pc c p WGone W Ep) as D. cbn [pot_pc] in D. lia.
Qed.

Lemma run_pot num tests l : forall y y' tr, run num tests l y = (y', tr) -> pot y' + length (filter counted tr) <= pot y.
Proof.
  induction l as [|x l IH]; cbn [run]; intros y y' tr H.
  - injection H as <- <-. cbn. lia.
  - destruct (step num tests x y) as [y1 e1] eqn:S. destruct (run num tests l y1) as [y2 e2] eqn:R. injection H as <- <-.
    apply IH in R. apply step_pot in S. rewrite filter_app, app_length. lia.
Qed.

Lemma pot_start num tests conf : pot (start num tests conf) = 2 * length tests + 4 * num.
Proof.
  unfold pot. cbn [start sy_server sy_workers init sv_unstarted]. rewrite seq_length. f_equal.
  enough (Q : forall k, dsum pot_pc (map (fun c => (c, WNew)) (List.seq k num)) = 4 * num) by apply Q.
  unfold dsum. induction num as [|n IH]; intros k; [reflexivity|]. cbn [List.seq map fold_right snd pot_pc]. rewrite IH. lia.
Qed.

(** Whatever happens, in whatever order, the workers make at most four calls each and two for every test, apart from those that are
    answered with "wait". *)
Theorem C127_bounded : forall num tests conf labels,
  let tr := snd (run num tests labels (start num tests conf)) in
  length (filter (fun e => match e with
                           | (CConnect _ _, _) | (CValidate _ _, _) | (CDisconnect _ _, _) | (CFinished _ _ _, _) => true
                           | (CGet _ _, r) => match r with RWaiting => false | _ => true end
                           | _ => false end) tr) <= 4 * num + 2 * length tests.
Proof.
  intros num tests conf labels. cbv zeta. destruct (run _ _ _ _) as [y tr] eqn:R. cbn [snd].
  pose proof (run_pot num tests labels _ _ _ R) as P. rewrite pot_start in P.
  enough (length (filter (fun e => match e with
                           | (CConnect _ _, _) | (CValidate _ _, _) | (CDisconnect _ _, _) | (CFinished _ _ _, _) => true
                           | (CGet _ _, r) => match r with RWaiting => false | _ => true end
                           | _ => false end) tr) <= length (filter counted tr)) by lia.
  (* only get_test answers "wait" *)
  assert (Q : forall e, In e tr -> match e with
                           | (CConnect _ _, _) | (CValidate _ _, _) | (CDisconnect _ _, _) | (CFinished _ _ _, _) => true
                           | (CGet _ _, r) => match r with RWaiting => false | _ => true end
                           | _ => false end = counted e).
  { assert (Hh : forall x s s' r, handle num tests x s = (s', r) -> r = RWaiting -> exists c h, x = CGet c h).
    { intros x s s' r H ->. destruct x as [c h|c l|c f|c h|c b st|c| | | |c t|c t]; cbn [handle] in H.
      - unfold connect in H. destruct h; [discriminate|]. destruct (Nat.leb _ _); discriminate.
      - unfold validate_collection in H. destruct (negb _); [discriminate|]. destruct (_ && _); discriminate.
      - unfold disconnect in H. destruct (mem _ _); discriminate.
      - eauto.
      - unfold finished_test in H. destruct (d_get _ _) as [[u|]|]; try discriminate. cbv zeta in H.
        destruct (create_result _ _ _); [|discriminate]. destruct b; [discriminate|]. destruct st; [|discriminate].
        unfold answer in H. destruct (mark_unrun_tests _) as [? []]; discriminate.
      - unfold report_client_failure in H. destruct (mem _ _); [|discriminate]. cbv zeta in H.
        destruct (d_get _ _) as [[u|]|]; [destruct (create_result _ _ _); [|discriminate]| |]; destruct (mark_unrun_tests _) as [? []]; discriminate.
      - discriminate.
      - discriminate.
      - discriminate.
      - unfold reconf in H. destruct (d_get _ _) as [w|]; [destruct (exclude_test t w)|]; discriminate.
      - unfold reconf in H. destruct (d_get _ _) as [w|]; [destruct (force_test t w)|]; discriminate. }
    clear P. revert R. generalize (start num tests conf) as y0. revert tr y. induction labels as [|l labels IH]; cbn [run]; intros tr y y0 H.
    - injection H as <- <-. intros e [].
    - destruct (step num tests l y0) as [y1 e1] eqn:S. destruct (run num tests labels y1) as [y2 e2] eqn:R. injection H as <- <-.
      intros e I. apply in_app_iff in I as [I|I]; [|eapply IH; eauto].
      apply step_trace in S as [[-> _]|(x & r & -> & S)]; [destruct I|]. destruct I as [<-|[]].
      unfold counted. cbn [fst snd]. destruct x; cbn [of_worker andb]; try reflexivity; destruct r; try reflexivity;
        destruct (Hh _ _ _ _ S eq_refl) as (c1 & h1 & E); discriminate. }
  rewrite (filter_ext_in _ counted tr Q). lia.
Qed.
Print Assumptions C127_bounded.

(** ** Orderly sessions: no worker dies, no hook raises, every worker collected the same tests and every result can be read *)

Section Good.
Variable num : nat.
Variable tests : list ptest.
Variable conf : @dict wconf.
Notation handle := (handle num tests).
Notation step := (step num tests).
Notation run := (run num tests).

Definition good (ch : choice) : Prop := ch_hook ch = false /\ Permutation (ch_coll ch) (map desc_of tests) /\ ch_broken ch = false.

(** a worker whose collection was found to be right *)
Definition checked (p : pc) : nat := match p with WNew | WJoined => 0 | _ => 1 end.

Record ginv (y : system) : Prop := mkG {
  g_sys : sys_inv tests y;
  g_keys : map fst (sy_workers y) = List.seq 1 num;
  g_conf : sv_conf (sy_server y) = conf;
  g_forced : sv_forced (sy_server y) = forced_dict conf;
  g_conn : forall c, In c (sv_connected (sy_server y)) <-> exists p, d_get c (sy_workers y) = Some p /\ p <> WNew /\ p <> WGone;
  g_refused : forall c, d_get c (sy_workers y) <> Some WRefused;
  g_state : match sv_state (sy_server y) with
            | WaitClients => sv_validated (sy_server y) = dsum checked (sy_workers y) /\ length (sv_connected (sy_server y)) < num
                /\ (forall c p, d_get c (sy_workers y) = Some p -> p = WNew \/ p = WJoined \/ p = WAsking)
            | WaitValidation => sv_validated (sy_server y) = dsum checked (sy_workers y) /\ sv_validated (sy_server y) < num
                /\ (forall c p, d_get c (sy_workers y) = Some p -> p = WJoined \/ p = WAsking)
            | Serve => (forall c p, d_get c (sy_workers y) = Some p -> p <> WNew /\ p <> WJoined)
                /\ (forall c p, d_get c (sy_workers y) = Some p -> p = WLeaving \/ p = WGone ->
                     forall t, In t (sv_unstarted (sy_server y)) -> can_execute (sy_server y) t c = Some false)
            | StopTests => (forall c p, d_get c (sy_workers y) = Some p -> p <> WNew /\ p <> WJoined) /\ sv_unstarted (sy_server y) = []
            | _ => False
            end
}.

Lemma dsum_le (d : @dict pc) : dsum checked d <= length d.
Proof. induction d as [|[k p] d IH]; cbn; [lia|]. destruct p; cbn [checked]; unfold dsum in IH; lia. Qed.
Lemma dsum_lt (d : @dict pc) c p : d_get c d = Some p -> checked p = 0 -> dsum checked d < length d.
Proof.
  induction d as [|[k q] d IH]; cbn; [discriminate|]. pose proof (dsum_le d) as L. unfold dsum in *. destruct (Nat.eqb c k).
  - intros E Z. injection E as ->. rewrite Z. lia.
  - intros E Z. specialize (IH E Z). destruct q; cbn [checked]; lia.
Qed.
Lemma dsum_ex (d : @dict pc) : NoDup (map fst d) -> dsum checked d < length d -> exists c p, d_get c d = Some p /\ checked p = 0.
Proof.
  induction d as [|[k q] d IH]; cbn; [lia|]. intros N L. apply NoDup_cons_iff in N as [Nk N]. destruct (checked q) eqn:E.
  - exists k, q. rewrite Nat.eqb_refl. auto.
  - assert (Q : dsum checked d < length d). { unfold dsum. destruct q; cbn [checked] in E; try discriminate; injection E as <-; lia. }
    destruct (IH N Q) as (c & p & A & B). exists c, p. destruct (Nat.eqb_spec c k) as [->|_]; [|auto].
    exfalso. apply Nk. apply d_get_key. eauto.
Qed.

Lemma keys_len (y : system) : map fst (sy_workers y) = List.seq 1 num -> length (sy_workers y) = num.
Proof. intros E. rewrite <- (map_length fst), E. apply seq_length. Qed.

Lemma ginv_start : 1 <= num -> ginv (start num tests conf).
Proof.
  intros N1.
  assert (D : forall k n c p, d_get c (map (fun c => (c, WNew)) (List.seq k n)) = Some p -> p = WNew).
  { intros k n. revert k. induction n as [|n IH]; cbn; intros k c p; [discriminate|]. destruct (Nat.eqb c k); [congruence|apply IH]. }
  constructor; cbn [start sy_server sy_workers init sv_conf sv_forced sv_connected sv_state sv_validated length].
  - apply start_inv.
  - rewrite map_map, map_id. reflexivity.
  - reflexivity.
  - reflexivity.
  - intros c. split; [intros []|]. intros (p & E & A & _). apply D in E. congruence.
  - intros c E. apply D in E. discriminate.
  - split; [|split; [exact N1|]].
    + clear. enough (Q : forall k, dsum checked (map (fun c => (c, WNew)) (List.seq k num)) = 0) by (symmetry; apply Q).
      unfold dsum. induction num as [|n IH]; intros k; cbn; auto.
    + intros c p E. apply D in E. auto.
Qed.

(** what a request for a test by a worker that may ask gets *)
Lemma get_asking c s : d_get c (sv_exec s) = Some None -> (forall t, In t (sv_unstarted s) -> t < length tests) ->
  (exists w, d_get c (sv_conf s) = Some w) ->
  match sv_state s with
  | WaitClients | WaitValidation => get_test tests c false s = (s, RWaiting)
  | Serve => match sv_unstarted s with
             | [] => get_test tests c false s = (set_state StopTests s, RNoMore)
             | _ => (get_test tests c false s = (s, RNoMore) /\ forall t, In t (sv_unstarted s) -> can_execute s t c = Some false)
                    \/ exists d t, In t (sv_unstarted s) /\ get_test tests c false s
                         = (set_exec (d_set c (Some t) (sv_exec s)) (set_unstarted (remove1 t (sv_unstarted s)) s), RTest d t)
             end
  | StopTests => get_test tests c false s = (s, RNoMore)
  | _ => True
  end.
Proof.
  intros E R [w C]. unfold get_test. rewrite E. destruct (sv_state s); auto.
  destruct (sv_unstarted s) as [|u us] eqn:U; [reflexivity|].
  cbn [sstate_eqb andb negb].
  assert (X : forall l, (forall t, In t l -> In t (u :: us)) ->
     (next_test s c l = inl None /\ forall t, In t l -> can_execute s t c = Some false) \/ exists t, In t l /\ next_test s c l = inl (Some t)).
  { induction l as [|t l IH]; intros Il; [left; split; [reflexivity|intros t []]|]. cbn [next_test].
    assert (Cx : exists b, can_execute s t c = Some b).
    { unfold can_execute. destruct (d_get t (sv_forced s)); [eauto|]. rewrite C. eauto. }
    destruct Cx as [[|] Cx]; rewrite Cx.
    - right. exists t. cbn. auto.
    - destruct IH as [[A B]|(v & A & B)]; [intros v I; apply Il; cbn; auto| |].
      + left. split; [exact A|]. intros v [<-|I]; auto.
      + right. exists v. cbn. auto. }
  remember (u :: us) as un eqn:Un. destruct (X un (fun t I => I)) as [[A B]|(t & I & A)]; rewrite A.
  - left. auto.
  - right. assert (L : t < length (collection tests)) by (unfold collection; rewrite map_length; auto).
    destruct (nth_error (collection tests) t) as [d|] eqn:Nt; [|apply nth_error_None in Nt; lia].
    exists d, t. auto.
Qed.

Hypothesis configured : forall c, 1 <= c <= num -> exists w, d_get c conf = Some w.

Lemma key_range y c p : map fst (sy_workers y) = List.seq 1 num -> d_get c (sy_workers y) = Some p -> 1 <= c <= num.
Proof. intros K E. assert (I : In c (map fst (sy_workers y))) by (apply d_get_key; eauto). rewrite K in I. apply in_seq in I. lia. Qed.

Lemma good_step c ch y p : ginv y -> good ch -> d_get c (sy_workers y) = Some p -> p <> WGone ->
  exists x s' r, step (LWorker c ch) y = (mkSystem s' (d_set c (next_pc p r) (sy_workers y)), [(x, r)]) /\ of_worker x = true
    /\ ginv (mkSystem s' (d_set c (next_pc p r) (sy_workers y)))
    /\ (r = RWaiting -> p = WAsking /\ s' = sy_server y /\ (sv_state s' = WaitClients \/ sv_state s' = WaitValidation)).
Proof.
  intros G Gc Ep Np. pose proof (step_inv num tests (LWorker c ch) y (g_sys y G)) as Si.
  destruct y as [s W]. cbn [sy_server sy_workers] in *. destruct G as [Gs Gk Gf Go Gn Gr Gt]. cbn [sy_server sy_workers] in *.
  destruct Gs as [Hi Hp]. pose proof (Hp c) as Hc. cbn [sy_server sy_workers] in Hi, Hc. rewrite Ep in Hc.
  pose proof (key_range (mkSystem s W) c p Gk Ep) as Rc. pose proof (keys_len (mkSystem s W) Gk) as Lw. cbn [sy_workers] in Lw.
  destruct Gc as (Gh & Gp & Gb).
  assert (Ns : sstate_eqb (sv_state s) StopServe = false) by (destruct (sv_state s); cbn in *; auto; contradiction).
  unfold step in *. cbn [sy_server sy_workers] in *. rewrite Ep in *. rewrite Ns in *.
  assert (Key : forall q, map fst (d_set c q W) = List.seq 1 num) by (intros q; erewrite d_keys_set; eauto).
  assert (In c (sv_connected s) <-> p <> WNew) as Ic.
  { rewrite Gn. split; [intros (q & E & A & _); congruence|]. intros A. exists p. auto. }
  destruct p as [| | | |t| |]; cbn [next_call] in *; try contradiction.
  - (* connect *)
    destruct (sv_state s) eqn:Es; try contradiction; try (destruct Gt as [Gt _]; destruct (Gt c _ Ep) as [Q _]; contradiction).
    2:{ destruct Gt as (_ & _ & Gt). destruct (Gt c _ Ep) as [Q|Q]; discriminate. }
    destruct Gt as (G1 & G2 & G3).
    cbn [handle] in *. unfold connect in *. rewrite Gh in *. cbv zeta in *.
    assert (Cn : forall c', In c' (add c (sv_connected s)) <-> exists q, d_get c' (d_set c WJoined W) = Some q /\ q <> WNew /\ q <> WGone).
    { intros c'. rewrite add_In, d_get_set, Gn. destruct (Nat.eqb_spec c' c) as [->|N].
      - split; [intros _; exists WJoined; repeat split; discriminate|auto].
      - intuition congruence. }
    assert (Rf : forall c', d_get c' (d_set c WJoined W) <> Some WRefused).
    { intros c'. rewrite d_get_set. destruct (Nat.eqb c' c); [discriminate|apply Gr]. }
    pose proof (dsum_set checked c WNew WJoined W Ep) as Ds. cbn [checked] in Ds.
    destruct (Nat.leb num _) eqn:Lb; cbn [fst] in Si; (eexists; eexists; eexists; split; [reflexivity|]; split; [reflexivity|]; split; [|discriminate]);
      (constructor; cbn [sy_server sy_workers set_state set_exec set_connected sv_conf sv_forced sv_connected sv_state sv_validated next_pc]; auto).
    + cbn [set_exec set_connected sv_connected] in Lb. apply Nat.leb_le in Lb. split; [lia|]. split.
      * rewrite G1. replace (dsum checked W) with (dsum checked (d_set c WJoined W)) by lia.
        replace num with (length (d_set c WJoined W)); [eapply dsum_lt; [apply d_get_set_same|reflexivity]|].
        rewrite <- (map_length fst), Key. apply seq_length.
      * intros c' q. rewrite d_get_set. destruct (Nat.eqb_spec c' c) as [->|N]; [intros E; injection E as <-; auto|]. intros E.
        destruct (G3 c' q E) as [->|Q]; [|exact Q]. exfalso.
        assert (Ii : incl (List.seq 1 num) (add c (sv_connected s))).
        { apply NoDup_length_incl; [apply add_NoDup, (i_conn _ _ Hi)|rewrite seq_length; exact Lb|].
          intros k I. apply Cn in I as (q & Q & _). rewrite <- (Key WJoined). apply d_get_key. eauto. }
        assert (I' : In c' (add c (sv_connected s))).
        { apply Ii. rewrite <- Gk. apply d_get_key. eauto. }
        apply add_In in I' as [I'|I']; [contradiction|]. apply Gn in I' as (q & Q & A & _). congruence.
    + cbn [set_exec set_connected sv_connected] in Lb. apply Nat.leb_gt in Lb. rewrite Es. split; [lia|]. split; [exact Lb|].
      intros c' q. rewrite d_get_set. destruct (Nat.eqb_spec c' c) as [->|N]; [intros E; injection E as <-; auto|]. apply G3.
  - (* validate *)
    assert (I1 : In c (sv_connected s)) by (apply Ic; discriminate).
    pose proof (dsum_set checked c WJoined WAsking W Ep) as Ds. cbn [checked] in Ds.
    assert (Eq : descs_eqb (sorted (collection tests)) (sorted (ch_coll ch)) = true).
    { pose proof (C35_accepted num tests c (ch_coll ch) s Gp) as A. cbn [handle] in A. unfold validate_collection in A.
      destruct (descs_eqb _ _); [reflexivity|discriminate]. }
    cbn [handle] in *. unfold validate_collection in *. rewrite Eq in *. cbn [negb] in *. cbv zeta in *.
    assert (Cn : forall c', In c' (sv_connected s) <-> exists q, d_get c' (d_set c WAsking W) = Some q /\ q <> WNew /\ q <> WGone).
    { intros c'. rewrite d_get_set. destruct (Nat.eqb_spec c' c) as [->|N]; [|apply Gn].
      split; [intros _; exists WAsking; repeat split; discriminate|auto]. }
    assert (Rf : forall c', d_get c' (d_set c WAsking W) <> Some WRefused).
    { intros c'. rewrite d_get_set. destruct (Nat.eqb c' c); [discriminate|apply Gr]. }
    destruct (sv_state s) eqn:Es; try contradiction; try (destruct Gt as [Gt _]; destruct (Gt c _ Ep) as [_ Q]; contradiction);
      cbn [set_validated sv_state sstate_eqb] in *; rewrite ?Es in *; cbn [sstate_eqb] in *; rewrite ?andb_false_r, ?andb_true_r in *.
    + destruct Gt as (G1 & G2 & G3). cbn [fst] in Si. eexists; eexists; eexists; split; [reflexivity|]. split; [reflexivity|]. split; [|discriminate].
      constructor; cbn [sy_server sy_workers set_validated sv_conf sv_forced sv_connected sv_state sv_validated next_pc]; auto.
      rewrite Es. split; [lia|]. split; [exact G2|].
      intros c' q. rewrite d_get_set. destruct (Nat.eqb_spec c' c) as [->|N]; [intros E; injection E as <-; auto|]. apply G3.
    + destruct Gt as (G1 & G2 & G3).
      destruct (Nat.leb num _) eqn:Lb; cbn [fst] in Si; (eexists; eexists; eexists; split; [reflexivity|]; split; [reflexivity|]; split; [|discriminate]);
        (constructor; cbn [sy_server sy_workers set_state set_validated sv_conf sv_forced sv_connected sv_state sv_validated sv_unstarted next_pc]; auto).
      * cbn [set_validated sv_validated] in Lb. apply Nat.leb_le in Lb.
        assert (J : forall c' q, d_get c' (d_set c WAsking W) = Some q -> q = WAsking).
        { intros c' q E. assert (Q : q = WJoined \/ q = WAsking).
          { rewrite d_get_set in E. destruct (Nat.eqb_spec c' c) as [->|N]; [injection E as <-; auto|]. apply (G3 c' q E). }
          destruct Q as [->|Q]; [|exact Q]. exfalso. pose proof (dsum_lt (d_set c WAsking W) c' WJoined E eq_refl) as L.
          rewrite <- (map_length fst), Key, seq_length in L. lia. }
        split; [intros c' q E; apply J in E as ->; split; discriminate|]. intros c' q E. apply J in E as ->. intros [Q|Q]; discriminate.
      * cbn [set_validated sv_validated] in Lb. apply Nat.leb_gt in Lb. rewrite Es. split; [lia|]. split; [lia|].
        intros c' q. rewrite d_get_set. destruct (Nat.eqb_spec c' c) as [->|N]; [intros E; injection E as <-; auto|]. apply G3.
  - exfalso. apply (Gr c Ep).
  - (* get *)
    assert (I1 : In c (sv_connected s)) by (apply Ic; discriminate). destruct Hc as [Hc _].
    rewrite Gh in *. cbn [handle] in *.
    assert (Cw : exists w, d_get c (sv_conf s) = Some w) by (rewrite Gf; apply configured; exact Rc).
    pose proof (get_asking c s Hc (i_range _ _ Hi) Cw) as Ga.
    assert (Cn : forall q, q <> WNew -> q <> WGone -> forall c', In c' (sv_connected s) <-> exists q', d_get c' (d_set c q W) = Some q' /\ q' <> WNew /\ q' <> WGone).
    { intros q A B c'. rewrite d_get_set. destruct (Nat.eqb_spec c' c) as [->|N]; [|apply Gn].
      split; [intros _; exists q; auto|auto]. }
    assert (Rf : forall q, q <> WRefused -> forall c', d_get c' (d_set c q W) <> Some WRefused).
    { intros q A c'. rewrite d_get_set. destruct (Nat.eqb c' c); [congruence|apply Gr]. }
    assert (Wt : get_test tests c false s = (s, RWaiting) -> sv_state s = WaitClients \/ sv_state s = WaitValidation ->
       exists x s' r, (let (s1, r) := get_test tests c false s in (mkSystem s1 (d_set c (next_pc WAsking r) W), [(CGet c false, r)]))
         = (mkSystem s' (d_set c (next_pc WAsking r) W), [(x, r)]) /\ of_worker x = true
         /\ ginv (mkSystem s' (d_set c (next_pc WAsking r) W))
         /\ (r = RWaiting -> WAsking = WAsking /\ s' = s /\ (sv_state s' = WaitClients \/ sv_state s' = WaitValidation))).
    { intros Q St. rewrite Q. exists (CGet c false), s, RWaiting. split; [reflexivity|]. split; [reflexivity|]. split; [|auto].
      cbn [next_pc]. rewrite (d_set_same c WAsking W Ep). constructor; cbn [sy_server sy_workers]; auto. split; auto. }
    destruct (sv_state s) eqn:Es; try contradiction.
    + apply Wt; auto.
    + apply Wt; auto.
    + destruct Gt as [G1 G2]. clear Wt. destruct (sv_unstarted s) as [|u us] eqn:Eu.
      * rewrite Ga in *. cbn [fst] in Si. eexists; eexists; eexists; split; [reflexivity|]. split; [reflexivity|]. split; [|discriminate].
        constructor; cbn [sy_server sy_workers set_state sv_conf sv_forced sv_connected sv_state sv_validated sv_unstarted next_pc]; auto.
        -- apply Cn; discriminate.
        -- apply Rf; discriminate.
        -- split; [|exact Eu]. intros c' q. rewrite d_get_set. destruct (Nat.eqb c' c); [intros E; injection E as <-; split; discriminate|apply G1].
      * rewrite <- Eu in *. destruct Ga as [[Ga Gx]|(d & t & It & Ga)]; rewrite Ga in *; cbn [fst] in Si.
        -- eexists; eexists; eexists; split; [reflexivity|]. split; [reflexivity|]. split; [|discriminate].
           constructor; cbn [sy_server sy_workers next_pc]; auto.
           ++ apply Cn; discriminate.
           ++ apply Rf; discriminate.
           ++ rewrite Es. split.
              ** intros c' q. rewrite d_get_set. destruct (Nat.eqb c' c); [intros E; injection E as <-; split; discriminate|apply G1].
              ** intros c' q. rewrite d_get_set. destruct (Nat.eqb_spec c' c) as [->|N]; [intros _ _; exact Gx|apply G2].
        -- eexists; eexists; eexists; split; [reflexivity|]. split; [reflexivity|]. split; [|discriminate].
           constructor; cbn [sy_server sy_workers set_exec set_unstarted sv_conf sv_forced sv_connected sv_state sv_validated sv_unstarted next_pc]; auto.
           ++ apply Cn; discriminate.
           ++ apply Rf; discriminate.
           ++ rewrite Es. split.
              ** intros c' q. rewrite d_get_set. destruct (Nat.eqb c' c); [intros E; injection E as <-; split; discriminate|apply G1].
              ** intros c' q. rewrite d_get_set. destruct (Nat.eqb_spec c' c) as [->|N]; [intros E; injection E as <-; intros [Q|Q]; discriminate|].
                 intros E Q v I. apply remove1_In in I. exact (G2 c' q E Q v I).
    + destruct Gt as [G1 G2]. rewrite Ga in *. cbn [fst] in Si. eexists; eexists; eexists; split; [reflexivity|]. split; [reflexivity|]. split; [|discriminate].
      constructor; cbn [sy_server sy_workers next_pc]; auto.
      * apply Cn; discriminate.
      * apply Rf; discriminate.
      * rewrite Es. split; [|exact G2]. intros c' q. rewrite d_get_set. destruct (Nat.eqb c' c); [intros E; injection E as <-; split; discriminate|apply G1].
  - (* finished *)
    assert (I1 : In c (sv_connected s)) by (apply Ic; discriminate). destruct Hc as [Hc _].
    destruct (Parallel.handle num tests (CFinished c (ch_broken ch) (ch_stops ch)) s) as [s1 r] eqn:Eh. cbn [fst] in Si.
    assert (St : sv_state s = Serve \/ sv_state s = StopTests).
    { destruct (sv_state s) eqn:Es; auto; try contradiction; destruct Gt as (_ & _ & Gt);
        [destruct (Gt c _ Ep) as [Q|[Q|Q]]; discriminate|destruct (Gt c _ Ep) as [Q|Q]; discriminate]. }
    assert (G1 : forall c p, d_get c W = Some p -> p <> WNew /\ p <> WJoined) by (destruct St as [St|St]; rewrite St in Gt; apply Gt).
    pose proof Eh as Eh'. cbn [handle] in Eh. unfold finished_test in Eh. rewrite Hc in Eh. cbv zeta in Eh. unfold create_result in Eh.
    assert (NI : r <> RFault EInternal). { eapply no_internal; [exact Hi|exact Eh'|]. intros c0 b st Q. injection Q as <- _ _. exact I1. }
    destruct (mem t _); [injection Eh as <- <-; contradiction|]. rewrite Gb in Eh.
    assert (Rr : r = RNone /\ sv_conf s1 = sv_conf s /\ sv_forced s1 = sv_forced s /\ sv_connected s1 = sv_connected s
      /\ ((sv_state s1 = sv_state s /\ sv_unstarted s1 = sv_unstarted s) \/ (sv_state s1 = StopTests /\ sv_unstarted s1 = []))).
    { destruct (ch_stops ch); [|injection Eh as <- <-; cbn; auto 10]. unfold mark_unrun_tests in Eh. destruct (mark_loop _ _) as [s2 o] eqn:Em.
      pose proof (mark_unstarted _ _ _ _ Em) as Mu. pose proof (mark_frame _ _ _ _ Em) as (F1 & F2 & F3 & F4 & F5 & F6). cbn in F1, F2, F3, F4, F5, F6.
      destruct o as [e|]; cbn [answer] in Eh; injection Eh as <- <-.
      - exfalso. clear Eh'. assert (Oe : forall l s0 s3 e0, mark_loop l s0 = (s3, Some e0) -> e0 = EInternal).
        { induction l as [|v l IH]; cbn [mark_loop]; intros s0 s3 e0 Q; [discriminate|]. unfold create_result in Q.
          destruct (mem v _); [congruence|]. eapply IH; exact Q. }
        rewrite (Oe _ _ _ _ Em) in NI. contradiction.
      - destruct Mu as [[_ Mu]|[Mu _]]; [|contradiction]. auto 10. }
    destruct Rr as (-> & R1 & R2 & R3 & R4).
    eexists; eexists; eexists; split; [reflexivity|]. split; [reflexivity|]. split; [|discriminate].
    constructor; cbn [sy_server sy_workers next_pc]; auto.
    + congruence.
    + congruence.
    + intros c'. rewrite R3, d_get_set. destruct (Nat.eqb_spec c' c) as [->|N]; [|apply Gn].
      split; [intros _; exists WAsking; repeat split; discriminate|auto].
    + intros c'. rewrite d_get_set. destruct (Nat.eqb c' c); [discriminate|apply Gr].
    + assert (G1' : forall c' q, d_get c' (d_set c WAsking W) = Some q -> q <> WNew /\ q <> WJoined).
      { intros c' q. rewrite d_get_set. destruct (Nat.eqb c' c); [intros E; injection E as <-; split; discriminate|apply G1]. }
      destruct R4 as [[-> R4]|[-> R4]]; [|split; auto]. destruct St as [St|St]; rewrite St in Gt; rewrite St.
      * split; [exact G1'|]. intros c' q. rewrite d_get_set. destruct (Nat.eqb_spec c' c) as [->|N]; [intros E; injection E as <-; intros [Q|Q]; discriminate|].
        intros E Q v. rewrite R4. intros I. destruct Gt as [_ Gt]. specialize (Gt c' q E Q v I). unfold can_execute in *. rewrite R1, R2. exact Gt.
      * split; [exact G1'|]. rewrite R4. apply Gt.
  - (* disconnect *)
    assert (I1 : In c (sv_connected s)) by (apply Ic; discriminate).
    cbn [handle] in *. unfold disconnect in *. rewrite (proj2 (mem_In _ _) I1) in *. cbn [fst] in Si.
    eexists; eexists; eexists; split; [reflexivity|]. split; [reflexivity|]. split; [|discriminate].
    constructor; cbn [sy_server sy_workers set_connected sv_conf sv_forced sv_connected sv_state sv_validated sv_unstarted next_pc]; auto.
    + intros c'. rewrite d_get_set. destruct (Nat.eqb_spec c' c) as [->|N].
      * split; [intros Q; exfalso; revert Q; apply remove1_gone, (i_conn _ _ Hi)|]. intros (q & Q & _ & A). congruence.
      * rewrite <- Gn. split; [apply remove1_In|apply remove1_other; auto].
    + intros c'. rewrite d_get_set. destruct (Nat.eqb c' c); [discriminate|apply Gr].
    + assert (St : sv_state s = Serve \/ sv_state s = StopTests).
      { destruct (sv_state s) eqn:Es; auto; try contradiction; destruct Gt as (_ & _ & Gt);
          [destruct (Gt c _ Ep) as [Q|[Q|Q]]; discriminate|destruct (Gt c _ Ep) as [Q|Q]; discriminate]. }
      destruct St as [St|St]; rewrite St in Gt; rewrite St; destruct Gt as [G1 G2].
      * split.
        -- intros c' q. rewrite d_get_set. destruct (Nat.eqb c' c); [intros E; injection E as <-; split; discriminate|apply G1].
        -- intros c' q. rewrite d_get_set. destruct (Nat.eqb_spec c' c) as [->|N]; [intros _ _; apply (G2 c _ Ep); auto|apply G2].
      * split; [|exact G2]. intros c' q. rewrite d_get_set. destruct (Nat.eqb c' c); [intros E; injection E as <-; split; discriminate|apply G1].
Qed.

Lemma pc_eq_gone (p : pc) : p = WGone \/ p <> WGone.
Proof. destruct p; auto; right; discriminate. Qed.
Lemma dec_gone (d : @dict pc) : (exists c p, d_get c d = Some p /\ p <> WGone) \/ (forall c p, d_get c d = Some p -> p = WGone).
Proof.
  assert (X : forall l, (exists c p, In c l /\ d_get c d = Some p /\ p <> WGone) \/ (forall c p, In c l -> d_get c d = Some p -> p = WGone)).
  { induction l as [|c l IH]; [right; intros c p []|]. destruct IH as [(c' & p & I & Q)|IH]; [left; exists c', p; cbn; tauto|].
    destruct (d_get c d) as [p|] eqn:E; [destruct (pc_eq_gone p) as [->|N]|].
    - right. intros c' q [<-|I] Q; [congruence|eauto].
    - left. exists c, p. cbn. auto.
    - right. intros c' q [<-|I] Q; [congruence|eauto]. }
  destruct (X (map fst d)) as [(c & p & _ & Q)|A]; [left; eauto|]. right. intros c p E. apply (A c p); [|exact E]. apply d_get_key. eauto.
Qed.
Lemma dec_new (d : @dict pc) : (exists c, d_get c d = Some WNew) \/ (forall c, d_get c d <> Some WNew).
Proof.
  assert (X : forall l, (exists c, In c l /\ d_get c d = Some WNew) \/ (forall c, In c l -> d_get c d <> Some WNew)).
  { induction l as [|c l IH]; [right; intros c []|]. destruct IH as [(c' & I & Q)|IH]; [left; exists c'; cbn; tauto|].
    destruct (d_get c d) as [[]|] eqn:E; try (right; intros c' [<-|I]; [congruence|auto]; fail). left. exists c. cbn. auto. }
  destruct (X (map fst d)) as [(c & _ & Q)|A]; [left; eauto|]. right. intros c E. apply (A c); [|exact E]. apply d_get_key. eauto.
Qed.

(** every worker has left *)
Definition all_gone (y : system) : Prop := forall c p, d_get c (sy_workers y) = Some p -> p = WGone.

Lemma good_any c ch y : ginv y -> good ch -> let y' := fst (step (LWorker c ch) y) in ginv y' /\ (y' = y \/ pot y' < pot y).
Proof.
  intros G Gc. cbv zeta. destruct (d_get c (sy_workers y)) as [p|] eqn:Ep.
  - destruct (pc_eq_gone p) as [->|N].
    + unfold step. rewrite Ep. cbn. auto.
    + destruct (good_step c ch y p G Gc Ep N) as (x & s' & r & E & O & G' & Wt). pose proof (step_pot _ _ _ _ _ _ E) as P.
      rewrite E. cbn [fst]. split; [exact G'|]. unfold counted in P. cbn [filter fst snd] in P. rewrite O in P. cbn [andb] in P.
      destruct r as [| | | | | |]; cbn [waits negb length] in P; try (right; lia).
      destruct (Wt eq_refl) as (-> & -> & _). left. cbn [next_pc]. rewrite (d_set_same c WAsking _ Ep). destruct y; reflexivity.
  - unfold step. rewrite Ep. cbn. auto.
Qed.

(** as long as a worker is there, some worker can go on *)
Lemma good_progress y : ginv y -> ~ all_gone y -> exists c, 1 <= c <= num /\ forall ch, good ch -> pot (fst (step (LWorker c ch) y)) < pot y.
Proof.
  intros G Na.
  assert (Nd : NoDup (map fst (sy_workers y))) by (rewrite (g_keys y G); apply seq_NoDup).
  assert (Ex : exists c p, d_get c (sy_workers y) = Some p /\ p <> WGone /\ (p = WAsking -> sv_state (sy_server y) = Serve \/ sv_state (sy_server y) = StopTests)).
  { pose proof (g_state y G) as St. pose proof (keys_len y (g_keys y G)) as Lw. destruct (sv_state (sy_server y)) eqn:Es; try contradiction.
    - destruct St as (S1 & S2 & S3).
      destruct (dec_new (sy_workers y)) as [(c & E)|A]; [exists c, WNew; repeat split; auto; discriminate|]. exfalso.
      assert (Ii : incl (List.seq 1 num) (sv_connected (sy_server y))).
      { intros c I. rewrite <- (g_keys y G) in I. apply d_get_key in I as [p E]. apply (g_conn y G). exists p. split; [exact E|].
        split; [intros ->; apply (A c E)|]. destruct (S3 c p E) as [->|[->| ->]]; discriminate. }
      apply NoDup_incl_length in Ii; [|apply seq_NoDup]. rewrite seq_length in Ii. lia.
    - destruct St as (S1 & S2 & S3). destruct (dsum_ex (sy_workers y) Nd) as (c & p & E & Z); [lia|].
      destruct (S3 c p E) as [->| ->]; [|discriminate]. exists c, WJoined. repeat split; auto; discriminate.
    - destruct (dec_gone (sy_workers y)) as [(c & p & E & N)|A]; [exists c, p; auto|]. contradiction.
    - destruct (dec_gone (sy_workers y)) as [(c & p & E & N)|A]; [exists c, p; auto|]. contradiction. }
  destruct Ex as (c & p & E & N & A). exists c. split; [eapply key_range; [apply (g_keys y G)|exact E]|]. intros ch Gc.
  destruct (good_step c ch y p G Gc E N) as (x & s' & r & Q & O & G' & Wt). pose proof (step_pot _ _ _ _ _ _ Q) as P.
  rewrite Q. cbn [fst]. unfold counted in P. cbn [filter fst snd] in P. rewrite O in P. cbn [andb] in P.
  destruct r as [| | | | | |]; cbn [waits negb length] in P; try lia.
  destruct (Wt eq_refl) as (W1 & W2 & W3). exfalso. rewrite W2 in W3. destruct (A W1) as [B|B]; destruct W3 as [C|C]; congruence.
Qed.

(** every test can be run by some worker: one that no other forces and it does not exclude *)
Hypothesis runnable : forall t, t < length tests -> exists c, 1 <= c <= num
  /\ (forall w wc, In (w, wc) conf -> In t (wc_forced wc) -> w = c) /\ (forall wc, d_get c conf = Some wc -> ~ In t (wc_excluded wc)).

Lemma ginv_end y : ginv y -> all_gone y -> should_wait tests (sy_server y) = false /\ forall t, t < length tests -> In t (sv_finished (sy_server y)).
Proof.
  intros G A. destruct (g_sys y G) as [Hi _]. pose proof (g_state y G) as St.
  assert (Rg : forall c, 1 <= c <= num -> d_get c (sy_workers y) = Some WGone).
  { intros c R. assert (I : In c (map fst (sy_workers y))) by (rewrite (g_keys y G); apply in_seq; lia).
    apply d_get_key in I as [p E]. rewrite E. f_equal. eapply A. exact E. }
  assert (Cn : sv_connected (sy_server y) = []).
  { destruct (sv_connected (sy_server y)) as [|c l] eqn:Ec; [reflexivity|]. exfalso.
    assert (I : In c (sv_connected (sy_server y))) by (rewrite Ec; cbn; auto). apply (g_conn y G) in I as (p & E & _ & N). apply N. eapply A. exact E. }
  assert (Un : sv_unstarted (sy_server y) = []).
  { destruct (sv_state (sy_server y)) eqn:Es; try contradiction.
    - destruct St as (_ & L & S). exfalso. destruct (S 1 WGone) as [Q|[Q|Q]]; try discriminate. apply Rg. lia.
    - destruct St as (_ & L & S). exfalso. destruct (S 1 WGone) as [Q|Q]; try discriminate. apply Rg. lia.
    - destruct (sv_unstarted (sy_server y)) as [|t l] eqn:Eu; [reflexivity|]. exfalso.
      assert (I : In t (sv_unstarted (sy_server y))) by (rewrite Eu; cbn; auto).
      destruct (runnable t (i_range _ _ Hi t I)) as (c & R & F & X). destruct St as [_ St].
      rewrite Eu in I. specialize (St c WGone (Rg c R) (or_intror eq_refl) t I). unfold can_execute in St. rewrite (g_forced y G), (g_conf y G) in St.
      destruct (d_get t (forced_dict conf)) as [w|] eqn:Ef.
      + apply forced_dict_some in Ef as (wc & I1 & I2). rewrite (F w wc I1 I2), Nat.eqb_refl in St. discriminate.
      + destruct (configured c R) as [wc Ew]. rewrite Ew in St. injection St as St. apply negb_false_iff, mem_In in St. exact (X wc Ew St).
    - apply St. }
  assert (Fi : forall t, t < length tests -> In t (sv_finished (sy_server y))).
  { intros t L. destruct (i_cover _ _ Hi t L) as [I|[I|(c & I & _)]]; [rewrite Un in I; destruct I|exact I|rewrite Cn in I; destruct I]. }
  split; [|exact Fi]. unfold should_wait. rewrite Cn. cbn [negb orb]. apply Nat.ltb_ge.
  assert (Ii : incl (List.seq 0 (length tests)) (sv_finished (sy_server y))) by (intros t I; apply Fi; apply in_seq in I; lia).
  apply NoDup_incl_length in Ii; [|apply seq_NoDup]. rewrite seq_length in Ii. exact Ii.
Qed.

(** *** Schedules without end *)

Variable who : nat -> nat.
Variable how : nat -> choice.

Definition st (n : nat) : system := fst (run (map (fun i => LWorker (who i) (how i)) (List.seq 0 n)) (start num tests conf)).

Lemma st_succ n : st (S n) = fst (step (LWorker (who n) (how n)) (st n)).
Proof.
  unfold st. rewrite seq_S, map_app, run_app. cbn [Nat.add map]. destruct (run _ _) as [y1 e1]. cbn [fst Parallel.run].
  destruct (step _ _) as [y2 e2]. reflexivity.
Qed.

Hypothesis some : 1 <= num.
Hypothesis orderly_ : forall i, good (how i).
Hypothesis fair : forall c n, 1 <= c <= num -> exists m, n <= m /\ who m = c.

Lemma st_ginv n : ginv (st n).
Proof. induction n as [|n IH]; [apply ginv_start, some|]. rewrite st_succ. apply good_any; auto. Qed.

Lemma st_less n : ~ all_gone (st n) -> exists m, n <= m /\ pot (st m) < pot (st n).
Proof.
  intros Na. destruct (good_progress (st n) (st_ginv n) Na) as (c & R & P). destruct (fair c n R) as (m & L & E).
  assert (Q : forall d, (exists j, n <= j /\ pot (st j) < pot (st n)) \/ st (n + d) = st n).
  { induction d as [|d IH]; [right; f_equal; lia|]. destruct IH as [IH|IH]; [left; exact IH|].
    replace (n + S d) with (S (n + d)) by lia. destruct (good_any (who (n + d)) (how (n + d)) (st (n + d)) (st_ginv _) (orderly_ _)) as [_ [Q|Q]].
    - right. rewrite st_succ, Q. exact IH.
    - left. exists (S (n + d)). split; [lia|]. rewrite st_succ. rewrite IH in Q at 2. exact Q. }
  destruct (Q (m - n)) as [(j & A & B)|B]; [eauto|]. replace (n + (m - n)) with m in B by lia.
  exists (S m). split; [lia|]. rewrite st_succ, B, E. apply P. auto.
Qed.

Lemma st_ends n : exists m, n <= m /\ all_gone (st m).
Proof.
  remember (pot (st n)) as k eqn:K. revert n K. induction k as [k IH] using lt_wf_ind. intros n ->.
  destruct (dec_gone (sy_workers (st n))) as [(c & p & E & N)|A]; [|exists n; split; [lia|exact A]].
  destruct (st_less n) as (m & L & P); [intros A; apply N; eapply A; exact E|].
  destruct (IH (pot (st m)) P m eq_refl) as (m' & L' & A). exists m'. split; [lia|exact A].
Qed.
End Good.

(** ** C127 *)

(** The labels of the first n steps of a schedule in which only workers act *)
Definition first (who : nat -> nat) (how : nat -> choice) (n : nat) : list label := map (fun i => LWorker (who i) (how i)) (List.seq 0 n).

(** If every worker has a configuration and every test can be run by some worker; if no worker dies, no hook raises, all collected the
    same tests and every result is understood (some may stop the session); and if every worker always goes on some time, in whatever
    order: then the session ends, with every worker gone, every test having a result, and the parent no longer waiting. *)
Theorem C127_ends : forall num tests conf who how, 1 <= num ->
  (forall c, 1 <= c <= num -> exists w, d_get c conf = Some w) ->
  (forall t, t < length tests -> exists c, 1 <= c <= num
     /\ (forall w wc, In (w, wc) conf -> In t (wc_forced wc) -> w = c) /\ (forall wc, d_get c conf = Some wc -> ~ In t (wc_excluded wc))) ->
  (forall i, ch_hook (how i) = false /\ Permutation (ch_coll (how i)) (map desc_of tests) /\ ch_broken (how i) = false) ->
  (forall c n, 1 <= c <= num -> exists m, n <= m /\ who m = c) ->
  exists m, forall n, m <= n ->
    let y := fst (run num tests (first who how n) (start num tests conf)) in
    should_wait tests (sy_server y) = false
    /\ (forall c, 1 <= c <= num -> d_get c (sy_workers y) = Some WGone)
    /\ (forall t, t < length tests -> exists k, In (t, k) (sv_results (sy_server y))).
Proof.
  intros num tests conf who how N1 Cf Rn Gd Fr.
  destruct (st_ends num tests conf Cf who how N1 Gd Fr 0) as (m & _ & A). exists m. intros n L. cbv zeta.
  change (fst (run num tests (first who how n) (start num tests conf))) with (st num tests conf who how n).
  assert (E : st num tests conf who how n = st num tests conf who how m).
  { replace n with (m + (n - m)) by lia. generalize (n - m) as d. induction d as [|d IH]; [f_equal; lia|].
    replace (m + S d) with (S (m + d)) by lia. rewrite st_succ, IH. unfold step.
    destruct (d_get (who (m + d)) _) as [p|] eqn:Ep; [|reflexivity]. rewrite (A _ _ Ep). reflexivity. }
  rewrite E. pose proof (st_ginv num tests conf Cf who how N1 Gd m) as G.
  destruct (ginv_end num tests conf Cf Rn _ G A) as [W F]. split; [exact W|]. split.
  - intros c R. assert (I : In c (map fst (sy_workers (st num tests conf who how m)))) by (rewrite (g_keys _ _ _ _ G); apply in_seq; lia).
    apply d_get_key in I as [p Ep]. rewrite Ep. f_equal. eapply A. exact Ep.
  - intros t Lt. apply (C67_all_accounted num tests conf (first who how m) t W Lt).
Qed.
Print Assumptions C127_ends.

(** ** Whatever happens, workers end or are told to wait *)

Definition waiting_state (x : sstate) : Prop := x = WaitClients \/ x = WaitValidation.

Lemma handle_waiting num tests x s s' r : handle num tests x s = (s', r) -> waiting_state (sv_state s') ->
  waiting_state (sv_state s) \/ exists c h, x = CConnect c h.
Proof.
  intros H I. destruct x as [c h|c l|c f|c h|c b st|c| | | |c u|c u]; cbn [handle] in H; eauto.
  - unfold validate_collection in H. destruct (negb _); [injection H as <- <-; auto|]. destruct (_ && _); injection H as <- <-; auto.
    destruct I; discriminate.
  - unfold disconnect in H. destruct (mem _ _); [destruct f|]; injection H as <- <-; auto. destruct I; discriminate.
  - unfold get_test in H. destruct (d_get c (sv_exec s)) as [[u|]|]; try (injection H as <- <-; auto).
    destruct (sv_state s) eqn:Es; try (injection H as <- <-; rewrite Es in I; auto);
      (destruct (_ && _); [|injection H as <- <-; destruct I; discriminate]);
      (destruct (next_test s c (sv_unstarted s)) as [[u|]|u]; try (injection H as <- <-; rewrite Es in I; auto));
      (destruct (nth_error _ u); injection H as <- <-; cbn in I; rewrite Es in I; auto).
  - unfold finished_test in H. destruct (d_get c (sv_exec s)) as [[u|]|]; try (injection H as <- <-; auto).
    cbv zeta in H. unfold create_result in H. destruct (mem u _); [injection H as <- <-; auto|].
    destruct b; [injection H as <- <-; auto|]. destruct st; [|injection H as <- <-; auto].
    unfold mark_unrun_tests in H. destruct (mark_loop _ _) as [s2 o] eqn:Em. apply mark_frame in Em as (_ & _ & Em & _). cbn in Em.
    destruct o; cbn [answer] in H; injection H as <- <-; rewrite Em in I; destruct I; discriminate.
  - unfold report_client_failure in H. destruct (mem _ _); [|injection H as <- <-; auto]. cbv zeta in H.
    assert (Q : forall s0, (match mark_unrun_tests (set_state StopTests s0) with (s2, None) => (set_error true s2, RNone) | (s2, Some e) => (s2, RFault e) end) = (s', r) -> False).
    { intros s0 E. unfold mark_unrun_tests in E. destruct (mark_loop _ _) as [s2 o] eqn:Em. apply mark_frame in Em as (_ & _ & Em & _). cbn in Em.
      destruct o; injection E as <- <-; cbn in I; rewrite Em in I; destruct I; discriminate. }
    destruct (d_get c _) as [[u|]|]; [|destruct (Q _ H)|destruct (Q _ H)].
    unfold create_result in H. destruct (mem u _); [injection H as <- <-; auto|destruct (Q _ H)].
  - injection H as <- <-. left. revert I. unfold session_interrupted. cbv zeta. destruct (sstate_eqb _ _); auto. intros [I|I]; discriminate.
  - injection H as <- <-. destruct I; discriminate.
  - injection H as <- <-. auto.
  - unfold reconf in H. destruct (d_get c _) as [w|]; [destruct (exclude_test u w)|]; injection H as <- <-; auto.
  - unfold reconf in H. destruct (d_get c _) as [w|]; [destruct (force_test u w)|]; injection H as <- <-; auto.
Qed.

Lemma handle_told num tests x s s' r : handle num tests x s = (s', r) -> r = RWaiting -> waiting_state (sv_state s).
Proof.
  intros H ->. destruct x as [c h|c l|c f|c h|c b st|c| | | |c u|c u]; cbn [handle] in H; try discriminate.
  - unfold connect in H. destruct h; [discriminate|]. destruct (Nat.leb _ _); discriminate.
  - unfold validate_collection in H. destruct (negb _); [discriminate|]. destruct (_ && _); discriminate.
  - unfold disconnect in H. destruct (mem _ _); discriminate.
  - unfold get_test in H. destruct (d_get c (sv_exec s)) as [[u|]|]; try discriminate. unfold waiting_state.
    destruct (sv_state s); auto; try discriminate;
      (destruct (_ && _); [|discriminate]); (destruct (next_test s c (sv_unstarted s)) as [[u|]|u]; try discriminate);
      (destruct (nth_error _ u); [destruct h; discriminate|discriminate]).
  - unfold finished_test in H. destruct (d_get _ _) as [[u|]|]; try discriminate. cbv zeta in H.
    destruct (create_result _ _ _); [|discriminate]. destruct b; [discriminate|]. destruct st; [|discriminate].
    unfold answer in H. destruct (mark_unrun_tests _) as [? []]; discriminate.
  - unfold report_client_failure in H. destruct (mem _ _); [|discriminate]. cbv zeta in H.
    destruct (d_get _ _) as [[u|]|]; [destruct (create_result _ _ _); [|discriminate]| |]; destruct (mark_unrun_tests _) as [? []]; discriminate.
  - unfold reconf in H. destruct (d_get _ _) as [w|]; [destruct (exclude_test _ w)|]; discriminate.
  - unfold reconf in H. destruct (d_get _ _) as [w|]; [destruct (force_test _ w)|]; discriminate.
Qed.

(** a step that does not lower the potential changes no worker, and does not make the server wait *)
Lemma step_same num tests l y y' tr : step num tests l y = (y', tr) -> pot y' = pot y ->
  (forall c, d_get c (sy_workers y') = d_get c (sy_workers y)) /\ (waiting_state (sv_state (sy_server y')) -> waiting_state (sv_state (sy_server y)))
  /\ (forall c ch p, l = LWorker c ch -> d_get c (sy_workers y) = Some p -> p = WGone \/ (p = WAsking /\ waiting_state (sv_state (sy_server y)))).
Proof.
  intros H P. pose proof (step_pot _ _ _ _ _ _ H) as Sp. assert (Z : length (filter counted tr) = 0) by lia. clear Sp.
  destruct y as [s W]. unfold step in H. cbn [sy_server sy_workers] in *.
  assert (Ask : forall x, (forall c h, x <> CConnect c h) ->
    (if sstate_eqb (sv_state s) StopServe then (mkSystem s W, []) else let (s1, r) := handle num tests x s in (mkSystem s1 W, [(x, r)])) = (y', tr) ->
    (forall c, d_get c (sy_workers y') = d_get c W) /\ (waiting_state (sv_state (sy_server y')) -> waiting_state (sv_state s))).
  { intros x O. destruct (sstate_eqb _ _); [intros E; injection E as <- <-; cbn; auto|].
    destruct (handle num tests x s) as [s1 r] eqn:Eh. intros E; injection E as <- <-. cbn [sy_server sy_workers]. split; [auto|].
    intros Q. destruct (handle_waiting _ _ _ _ _ _ Eh Q) as [A|(c & h & A)]; [exact A|destruct (O _ _ A)]. }
  assert (Fin : forall (B C : Prop), B /\ C -> forall l0, (forall c ch, l0 <> LWorker c ch) ->
     B /\ C /\ (forall c ch p, l0 = LWorker c ch -> d_get c W = Some p -> p = WGone \/ (p = WAsking /\ waiting_state (sv_state s)))).
  { intros B C [Q1 Q2] l0 N. split; [exact Q1|]. split; [exact Q2|]. intros c ch p E. destruct (N _ _ E). }
  destruct l as [c ch|c|c| | | |c t|c t];
    try (apply Fin; [|discriminate]; first [refine (Ask (CFailure c) _ H)|refine (Ask CInterrupted _ H)|refine (Ask CStop _ H)
    |refine (Ask CSessionError _ H)|refine (Ask (CExclude c t) _ H)|refine (Ask (CForce c t) _ H)]; discriminate).
  - destruct (d_get c W) as [p|] eqn:Ep; [|injection H as <- <-; cbn [sy_server sy_workers]; split; [auto|split; [auto|]]; intros c0 ch0 p E Q; injection E as <- <-; congruence].
    destruct (next_call c p ch) as [x|] eqn:Ex.
    2:{ injection H as <- <-. cbn [sy_server sy_workers]. split; [auto|]. split; [auto|]. intros c0 ch0 p0 E Q; injection E as <- <-.
        rewrite Ep in Q. injection Q as <-. destruct p; try discriminate. auto. }
    assert (Nz : pot_pc p > 0) by (destruct p; cbn in *; try discriminate; lia).
    destruct (sstate_eqb _ _).
    + injection H as <- <-. unfold pot in P. cbn [sy_server sy_workers] in P. pose proof (dsum_set pot_pc c p WGone W Ep) as D. cbn [pot_pc] in D. lia.
    + destruct (handle num tests x s) as [s1 r] eqn:Eh. injection H as <- <-. cbn [sy_server sy_workers filter] in *.
      unfold counted in Z. cbn [fst snd] in Z.
      assert (Ox : of_worker x = true) by (destruct p; cbn in Ex; try discriminate; injection Ex as <-; reflexivity).
      rewrite Ox in Z. cbn [andb] in Z. destruct (waits r) eqn:Wr; [|discriminate]. assert (r = RWaiting) as -> by (destruct r; try discriminate; reflexivity).
      pose proof (handle_told _ _ _ _ _ _ Eh eq_refl) as Ws.
      assert (p = WAsking) as ->.
      { unfold pot in P. cbn [sy_server sy_workers] in P. pose proof (dsum_set pot_pc c p (next_pc p RWaiting) W Ep) as D.
        apply handle_shorter in Eh as [Eh _]. destruct p; auto; exfalso; cbn [next_pc pot_pc] in D, P, Nz; lia. }
      split; [|split].
      * intros c0. cbn [next_pc]. rewrite (d_set_same c WAsking W Ep). reflexivity.
      * auto.
      * intros c0 ch0 p0 E Q. injection E as <- <-. rewrite Ep in Q. injection Q as <-. auto.
  - destruct (d_get c W) as [p|] eqn:Ep; injection H as <- <-; cbn [sy_server sy_workers]; (split; [|split; [auto|discriminate]]); auto.
    unfold pot in P. cbn [sy_server sy_workers] in P. pose proof (dsum_set pot_pc c p WGone W Ep) as D. cbn [pot_pc] in D.
    assert (p = WGone) as -> by (destruct p; cbn in D; auto; lia). rewrite (d_set_same c WGone W Ep). auto.
Qed.

Definition quiet (y : system) : Prop := forall c p, d_get c (sy_workers y) = Some p -> p = WGone \/ (p = WAsking /\ waiting_state (sv_state (sy_server y))).

Lemma quiet_dec y : quiet y \/ exists c p, d_get c (sy_workers y) = Some p /\ ~ (p = WGone \/ (p = WAsking /\ waiting_state (sv_state (sy_server y)))).
Proof.
  assert (D : forall p, (p = WGone \/ (p = WAsking /\ waiting_state (sv_state (sy_server y)))) \/ ~ (p = WGone \/ (p = WAsking /\ waiting_state (sv_state (sy_server y))))).
  { assert (Ws : waiting_state (sv_state (sy_server y)) \/ ~ waiting_state (sv_state (sy_server y))).
    { unfold waiting_state. destruct (sv_state (sy_server y)); auto; right; intros [Q|Q]; discriminate. }
    intros p. destruct p; auto; try (right; intros [Q|[Q _]]; discriminate). destruct Ws as [Ws|Ws]; [auto|].
    right. intros [Q|[_ Q]]; [discriminate|contradiction]. }
  assert (X : forall l, (forall c p, In c l -> d_get c (sy_workers y) = Some p -> p = WGone \/ (p = WAsking /\ waiting_state (sv_state (sy_server y))))
    \/ exists c p, d_get c (sy_workers y) = Some p /\ ~ (p = WGone \/ (p = WAsking /\ waiting_state (sv_state (sy_server y))))).
  { induction l as [|c l [IH|IH]]; [left; intros c p []| |auto]. destruct (d_get c (sy_workers y)) as [p|] eqn:E.
    - destruct (D p) as [Q|Q]; [|right; eauto]. left. intros c' p' [<-|I] E'; [congruence|eauto].
    - left. intros c' p' [<-|I] E'; [congruence|eauto]. }
  destruct (X (map fst (sy_workers y))) as [A|A]; [|auto]. left. intros c p E. apply (A c p); [|exact E]. apply d_get_key. eauto.
Qed.

Lemma run_keys num tests conf l : map fst (sy_workers (fst (run num tests l (start num tests conf)))) = List.seq 1 num.
Proof.
  assert (St : forall x y, map fst (sy_workers (fst (step num tests x y))) = map fst (sy_workers y)).
  { intros x y.
    assert (Ask : forall c, map fst (sy_workers (fst (if sstate_eqb (sv_state (sy_server y)) StopServe then (y, [])
      else let (s1, r) := handle num tests c (sy_server y) in (mkSystem s1 (sy_workers y), [(c, r)])))) = map fst (sy_workers y)).
    { intros c. destruct (sstate_eqb _ _); [reflexivity|]. destruct (handle _ _ _ _). reflexivity. }
    destruct x; cbn [step]; cbv zeta; try apply Ask.
    - destruct (d_get c _) as [p|] eqn:E; [|reflexivity]. destruct (next_call c p ch); [|reflexivity].
      destruct (sstate_eqb _ _); [cbn; eapply d_keys_set; exact E|]. destruct (handle _ _ _ _). cbn. eapply d_keys_set; exact E.
    - destruct (d_get c _) as [p|] eqn:E; [|reflexivity]. cbn. eapply d_keys_set; exact E. }
  assert (K0 : map fst (sy_workers (start num tests conf)) = List.seq 1 num) by (cbn; rewrite map_map, map_id; reflexivity).
  rewrite <- K0. generalize (start num tests conf) as y. induction l as [|x l IH]; cbn [run]; intros y; [reflexivity|].
  specialize (St x y). destruct (step num tests x y) as [y1 e1]. cbn [fst] in St. specialize (IH y1). destruct (run num tests l y1) as [y2 e2].
  cbn [fst] in *. congruence.
Qed.

(** Whatever else happens, in whatever order (workers die, hooks raise, the session is interrupted or stopped, workers are reported as
    failed, collections differ): if every worker always goes on some time, then again and again there is a moment when every worker is
    gone, or asks for a test and is told to wait for others to connect or to send their collections.  Once only workers act, it stays so. *)
Theorem C127_quiet : forall num tests conf (what : nat -> label),
  (forall c n, 1 <= c <= num -> exists m ch, n <= m /\ what m = LWorker c ch) ->
  let at_ n := fst (run num tests (map what (List.seq 0 n)) (start num tests conf)) in
  let rests n := forall c p, d_get c (sy_workers (at_ n)) = Some p ->
      p = WGone \/ (p = WAsking /\ (sv_state (sy_server (at_ n)) = WaitClients \/ sv_state (sy_server (at_ n)) = WaitValidation)) in
  (forall k, exists n, k <= n /\ rests n)
  /\ (forall k, (forall n, k <= n -> exists c ch, what n = LWorker c ch) -> exists m, forall n, m <= n -> rests n).
Proof.
  intros num tests conf what Fr. cbv zeta. set (Y := fun n => fst (run num tests (map what (List.seq 0 n)) (start num tests conf))).
  change ((forall k, exists n, k <= n /\ quiet (Y n)) /\ (forall k, (forall n, k <= n -> exists c ch, what n = LWorker c ch) -> exists m, forall n, m <= n -> quiet (Y n))).
  assert (Su : forall n, Y (S n) = fst (step num tests (what n) (Y n))).
  { intros n. unfold Y. rewrite seq_S, map_app, run_app. cbn [Nat.add map]. destruct (run _ _ (map what _) _) as [y1 e1]. cbn [fst run].
    destruct (step _ _ _ _) as [y2 e2]. reflexivity. }
  assert (Mo : forall n, pot (Y (S n)) <= pot (Y n)).
  { intros n. rewrite Su. destruct (step _ _ _ _) as [y e] eqn:E. apply step_pot in E. cbn [fst]. lia. }
  assert (Inf : forall k, exists n, k <= n /\ quiet (Y n)).
  { intros k. remember (pot (Y k)) as v eqn:V. revert k V. induction v as [v IH] using lt_wf_ind. intros k ->.
    destruct (quiet_dec (Y k)) as [Q|(c & p & E & N)]; [exists k; auto|].
    assert (R : 1 <= c <= num).
    { assert (I : In c (map fst (sy_workers (Y k)))) by (apply d_get_key; eauto). unfold Y in I. rewrite run_keys in I. apply in_seq in I. lia. }
    destruct (Fr c k R) as (m & ch & L & Em).
    assert (X : forall d, (exists j, k <= j /\ pot (Y j) < pot (Y k)) \/ (pot (Y (k + d)) = pot (Y k) /\ d_get c (sy_workers (Y (k + d))) = Some p
       /\ (waiting_state (sv_state (sy_server (Y (k + d)))) -> waiting_state (sv_state (sy_server (Y k)))))).
    { induction d as [|d [IHd|(I1 & I2 & I3)]]; [right; rewrite Nat.add_0_r; auto|auto|].
      replace (k + S d) with (S (k + d)) by lia. pose proof (Mo (k + d)) as M.
      destruct (Nat.eq_dec (pot (Y (S (k + d)))) (pot (Y (k + d)))) as [P|P].
      - right. destruct (step num tests (what (k + d)) (Y (k + d))) as [y e] eqn:S. pose proof (Su (k + d)) as U. rewrite S in U. cbn [fst] in U.
        rewrite U in *. destruct (step_same _ _ _ _ _ _ S P) as (A & B & _). split; [lia|]. split; [rewrite A; exact I2|auto].
      - left. exists (S (k + d)). split; [lia|]. lia. }
    assert (Low : exists j, k <= j /\ pot (Y j) < pot (Y k)).
    { destruct (X (m - k)) as [Q|(I1 & I2 & I3)]; [exact Q|]. replace (k + (m - k)) with m in * by lia.
      pose proof (Mo m) as M. destruct (Nat.eq_dec (pot (Y (S m))) (pot (Y m))) as [P|P]; [|exists (S m); split; lia]. exfalso.
      destruct (step num tests (what m) (Y m)) as [y e] eqn:S. pose proof (Su m) as U. rewrite S in U. cbn [fst] in U. rewrite U in P.
      destruct (step_same _ _ _ _ _ _ S P) as (_ & _ & C). specialize (C c ch p Em I2). apply N. intuition. }
    destruct Low as (j & Lj & Pj). destruct (IH (pot (Y j)) Pj j eq_refl) as (n & Ln & Q). exists n. split; [lia|exact Q]. }
  split; [exact Inf|]. intros k Only. destruct (Inf k) as (m & Lm & Q). exists m. intros n Ln.
  assert (E : Y n = Y m).
  { replace n with (m + (n - m)) by lia. generalize (n - m) as d. induction d as [|d IH]; [f_equal; lia|].
    replace (m + S d) with (S (m + d)) by lia. rewrite Su, IH. destruct (Only (m + d)) as (c & ch & Ew); [lia|]. rewrite Ew.
    unfold step. destruct (d_get c (sy_workers (Y m))) as [p|] eqn:Ep; [|reflexivity].
    destruct (Q c p Ep) as [->|[-> Ws]]; [reflexivity|]. cbn [next_call].
    assert (Ns : sstate_eqb (sv_state (sy_server (Y m))) StopServe = false) by (destruct Ws as [Ws|Ws]; rewrite Ws; reflexivity). rewrite Ns.
    pose proof (run_inv num tests (map what (List.seq 0 m)) _ (start_inv num tests conf)) as [_ Hp]. fold (Y m) in Hp. specialize (Hp c).
    rewrite Ep in Hp. destruct Hp as [Hp _]. cbn [handle]. unfold get_test. rewrite Hp.
    destruct Ws as [Ws|Ws]; rewrite Ws; cbn [next_pc fst]; rewrite (d_set_same c WAsking _ Ep); destruct (Y m); reflexivity. }
  rewrite E. exact Q.
Qed.
Print Assumptions C127_quiet.

(** the kinds of results *)
Lemma handle_kinds num tests x s s' r : handle num tests x s = (s', r) -> forall t k, In (t, k) (sv_results s') ->
  In (t, k) (sv_results s) \/ k = KReported \/ (exists c, x = CFailure c) \/ (exists c b, x = CFinished c b true).
Proof.
  intros H t k I. destruct x as [c h|c l|c f|c h|c b [|]|c| | | |c u|c u]; cbn [handle] in H; eauto 6.
  - unfold connect in H. destruct h; [injection H as <- <-; auto|]. destruct (Nat.leb _ _); injection H as <- <-; auto.
  - unfold validate_collection in H. destruct (negb _); [injection H as <- <-; auto|]. destruct (_ && _); injection H as <- <-; auto.
  - unfold disconnect in H. destruct (mem _ _); [destruct f|]; injection H as <- <-; auto.
  - unfold get_test in H. destruct (d_get c (sv_exec s)) as [[u|]|]; try (injection H as <- <-; auto).
    destruct (sv_state s); try (injection H as <- <-; auto). destruct (_ && _); [|injection H as <- <-; auto].
    destruct (next_test s c (sv_unstarted s)) as [[u|]|u]; try (injection H as <- <-; auto).
    destruct (nth_error _ u); injection H as <- <-; auto.
  - unfold finished_test in H. destruct (d_get c (sv_exec s)) as [[u|]|]; try (injection H as <- <-; auto).
    cbv zeta in H. unfold create_result in H. destruct (mem u _); [injection H as <- <-; auto|].
    destruct b; injection H as <- <-; cbn in I; destruct I as [I|I]; auto; injection I as <- <-; auto.
  - injection H as <- <-. left. revert I. unfold session_interrupted. cbv zeta. destruct (sstate_eqb _ _); auto.
  - injection H as <- <-. auto.
  - injection H as <- <-. auto.
  - unfold reconf in H. destruct (d_get c _) as [w|]; [destruct (exclude_test u w)|]; injection H as <- <-; auto.
  - unfold reconf in H. destruct (d_get c _) as [w|]; [destruct (force_test u w)|]; injection H as <- <-; auto.
Qed.

Lemma run_kinds num tests l : forall y y' tr, run num tests l y = (y', tr) -> forall t k, In (t, k) (sv_results (sy_server y')) ->
  In (t, k) (sv_results (sy_server y)) \/ k = KReported \/ (exists c r, In (CFailure c, r) tr) \/ (exists c b r, In (CFinished c b true, r) tr).
Proof.
  induction l as [|x l IH]; cbn [run]; intros y y' tr H t k I.
  - injection H as <- <-. auto.
  - destruct (step num tests x y) as [y1 e1] eqn:S. destruct (run num tests l y1) as [y2 e2] eqn:R. injection H as <- <-.
    destruct (IH _ _ _ R t k I) as [Q|[Q|[(c & r & Q)|(c & b & r & Q)]]].
    + apply step_trace in S as [[-> ES]|(c & r & -> & S)]; [rewrite ES in Q; auto|].
      destruct (handle_kinds _ _ _ _ _ _ S t k Q) as [Q'|[Q'|[[c' ->]|(c' & b & ->)]]]; auto.
      * right; right; left. exists c', r. cbn. auto.
      * right; right; right. exists c', b, r. cbn. auto.
    + auto.
    + right; right; left. exists c, r. apply in_app_iff. auto.
    + right; right; right. exists c, b, r. apply in_app_iff. auto.
Qed.

(** When the parent stopped waiting and neither a worker failed nor a result stopped the session, the results are those of all the
    tests, each as its worker reported it and no test twice; unless an error was told or the parent interrupted, the session is
    successful iff a session that runs the tests one after another with the same results is. *)
Theorem C127_as_sequential : forall reported own num tests conf labels a,
  let (y, tr) := run num tests labels (start num tests conf) in
  let s := sy_server y in
  should_wait tests s = false ->
  (forall c r, ~ In (CFailure c, r) tr) -> (forall c b r, ~ In (CFinished c b true, r) tr) ->
  Permutation (sv_results s) (map (fun t => (t, KReported)) (List.seq 0 (length tests)))
  /\ ((forall r, ~ In (CInterrupted, r) tr) -> (forall r, ~ In (CSessionError, r) tr) ->
      (session_success reported own a s = true <-> went_well a own /\ forall t, t < length tests -> went_well a (reported t))).
Proof.
  intros reported own num tests conf labels a.
  pose proof (C34_results num tests conf labels) as Rs. pose proof (C125_verdict reported own num tests conf labels a) as V.
  pose proof (fun t => C67_all_accounted num tests conf labels t) as Ac. pose proof (run_inv num tests labels _ (start_inv num tests conf)) as [Hi _].
  destruct (run num tests labels (start num tests conf)) as [y tr] eqn:R. cbn [fst] in *. cbv zeta in *. intros W Nf Ns.
  assert (K : forall t k, In (t, k) (sv_results (sy_server y)) -> k = KReported).
  { intros t k I. destruct (run_kinds _ _ _ _ _ _ R t k I) as [[]|[Q|[(c & r & Q)|(c & b & r & Q)]]]; [exact Q|destruct (Nf _ _ Q)|destruct (Ns _ _ _ Q)]. }
  assert (Al : forall t, t < length tests <-> In (t, KReported) (sv_results (sy_server y))).
  { intros t. split.
    - intros L. destruct (Ac t W L) as [k I]. rewrite (K t k I) in I. exact I.
    - intros I. apply (in_map fst) in I. apply Rs in I. apply (i_fin _ _ Hi t I). }
  split.
  - apply NoDup_Permutation.
    + apply (NoDup_map_inv fst). apply Rs.
    + apply FinFun.Injective_map_NoDup; [intros u v E; congruence|apply seq_NoDup].
    + intros [t k]. rewrite in_map_iff. split.
      * intros I. pose proof (K t k I) as ->. exists t. split; [reflexivity|]. apply in_seq. apply Al in I. lia.
      * intros (u & E & I). injection E as <- <-. apply Al. apply in_seq in I. lia.
  - intros Ni Ne. rewrite V. split.
    + intros (A & _ & _ & _ & B). split; [exact A|]. intros t L. apply Al in L. apply (B t KReported L).
    + intros [A B]. split; [exact A|]. split; [intros [r Q]; exact (Ni _ Q)|]. split; [intros [r Q]; exact (Ne _ Q)|].
      split; [intros [c Q]; exact (Nf _ _ Q)|]. intros t k I. pose proof (K t k I) as ->. split; [reflexivity|]. apply B, Al, I.
Qed.
Print Assumptions C127_as_sequential.

(** ** Examples *)

(** two workers in turn: the hypotheses of C127_ends hold, the bound is reached *)
Definition turn (i : nat) : nat := if Nat.even i then 1 else 2.
Example ex_fair : (forall c n, 1 <= c <= 2 -> exists m, n <= m /\ turn m = c)
  /\ (forall c, 1 <= c <= 2 -> exists w, d_get c x_conf = Some w)
  /\ (forall t, t < length x_tests -> exists c, 1 <= c <= 2
     /\ (forall w wc, In (w, wc) x_conf -> In t (wc_forced wc) -> w = c) /\ (forall wc, d_get c x_conf = Some wc -> ~ In t (wc_excluded wc)))
  /\ good x_tests ok_choice.
Proof.
  split; [|split; [|split]].
  - intros c n [A B]. unfold turn. assert (c = 1 \/ c = 2) as [-> | ->] by lia.
    + exists (2 * n). split; [lia|]. rewrite Nat.even_mul. reflexivity.
    + exists (S (2 * n)). split; [lia|]. rewrite Nat.even_succ, <- Nat.negb_even, Nat.even_mul. reflexivity.
  - intros c [A B]. assert (c = 1 \/ c = 2) as [-> | ->] by lia; cbn; eauto.
  - intros t _. exists 1. split; [lia|]. split; [|intros wc E; injection E as <-; auto].
    intros w wc [E|[E|[]]]; injection E as <- <-; intros [].
  - split; [reflexivity|]. split; [apply Permutation_refl|reflexivity].
Qed.
Example ex_bound : let tr := snd (x_run (first turn (fun _ => ok_choice) 20)) in
  length (filter counted tr) = 4 * 2 + 2 * 3 /\ should_wait x_tests (sy_server (fst (x_run (first turn (fun _ => ok_choice) 20)))) = false.
Proof. split; vm_compute; reflexivity. Qed.
Example ex_sequential : let (y, tr) := x_run all_fine in
  should_wait x_tests (sy_server y) = false /\ sv_results (sy_server y) = [(2, KReported); (1, KReported); (0, KReported)]
  /\ forallb (fun e => match e with (CFailure _, _) | (CFinished _ _ true, _) | (CInterrupted, _) | (CSessionError, _) => false | _ => true end) tr = true.
Proof. vm_compute. auto. Qed.

(** the second worker dies and is reported: the first goes on to the end *)
Definition troubled (i : nat) : label := if Nat.eqb i 6 then LDie 2 else if Nat.eqb i 9 then LTimeout 2 else W (turn i).
Example ex_quiet : (forall c n, 1 <= c <= 2 -> exists m ch, n <= m /\ troubled m = LWorker c ch)
  /\ (forall n, 10 <= n -> exists c ch, troubled n = LWorker c ch)
  /\ sy_workers (fst (x_run (map troubled (List.seq 0 20)))) = [(1, WGone); (2, WGone)].
Proof.
  assert (L : forall n, 10 <= n -> troubled n = W (turn n)).
  { intros n L. unfold troubled. destruct (Nat.eqb_spec n 6); [lia|]. destruct (Nat.eqb_spec n 9); [lia|]. reflexivity. }
  split; [|split].
  - intros c n R. destruct (proj1 ex_fair c (n + 10) R) as (m & A & B). exists m, ok_choice. split; [lia|]. rewrite L by lia. rewrite B. reflexivity.
  - intros n A. exists (turn n), ok_choice. rewrite L by exact A. reflexivity.
  - vm_compute. reflexivity.
Qed.

(** ** What does not hold *)

Lemma stuck num tests conf who how m : (forall n, m <= n -> fst (step num tests (LWorker (who n) (how n)) (st num tests conf who how m)) = st num tests conf who how m) ->
  forall n, m <= n -> st num tests conf who how n = st num tests conf who how m.
Proof.
  intros H n L. replace n with (m + (n - m)) by lia. generalize (n - m) as d. induction d as [|d IH]; [f_equal; lia|].
  replace (m + S d) with (S (m + d)) by lia. rewrite st_succ, IH. apply H. lia.
Qed.

(** A test that every worker excludes is never run, and the parent never stops waiting: all workers leave, no request comes, and only
    the timeout for sessions without requests (parallel_manager.py:100-113) ends the session. *)
Theorem C127_excluded_refuted : exists tests conf,
  (forall c, 1 <= c <= 1 -> exists w, d_get c conf = Some w)
  /\ forall n, let y := fst (run 1 tests (first (fun _ => 1) (fun _ => mkChoice false (map desc_of tests) false false) n) (start 1 tests conf)) in
     should_wait tests (sy_server y) = true /\ (4 <= n -> d_get 1 (sy_workers y) = Some WGone /\ sv_connected (sy_server y) = []).
Proof.
  exists [mkPTest 1 None 1 0], [(1, mkConf [] [0])]. split.
  - intros c [A B]. assert (c = 1) as -> by lia. cbn. eauto.
  - intros n. cbv zeta. destruct (le_lt_dec 4 n) as [L|L].
    + change (fst (run 1 [mkPTest 1 None 1 0] (first (fun _ => 1) (fun _ => mkChoice false (map desc_of [mkPTest 1 None 1 0]) false false) n) (start 1 [mkPTest 1 None 1 0] [(1, mkConf [] [0])])))
        with (st 1 [mkPTest 1 None 1 0] [(1, mkConf [] [0])] (fun _ => 1) (fun _ => mkChoice false (map desc_of [mkPTest 1 None 1 0]) false false) n).
      rewrite (stuck _ _ _ _ _ 4); [vm_compute; auto|intros; vm_compute; reflexivity|exact L].
    + split; [|lia]. destruct n as [|[|[|[|n]]]]; [| | | |lia]; vm_compute; reflexivity.
Qed.
Print Assumptions C127_excluded_refuted.

(** A worker whose connection was answered with an exception (a hook raised, server.py:128) counts as connected: the others are told to
    wait for its collection for ever. *)
Theorem C127_connection_refuted : exists how, (forall i, 1 <= i -> good x_tests (how i))
  /\ (forall i, ch_coll (how i) = map desc_of x_tests /\ ch_broken (how i) = false /\ ch_stops (how i) = false)
  /\ forall n, let y := fst (x_run (first turn how n)) in
       should_wait x_tests (sy_server y) = true
       /\ (8 <= n -> d_get 1 (sy_workers y) = Some WGone /\ d_get 2 (sy_workers y) = Some WAsking /\ sv_state (sy_server y) = WaitValidation).
Proof.
  exists (fun i => mkChoice (Nat.eqb i 0) (map desc_of x_tests) false false). split; [|split].
  - intros i L. split; [destruct i; [lia|reflexivity]|]. split; [apply Permutation_refl|reflexivity].
  - auto.
  - intros n. cbv zeta. unfold x_run. destruct (le_lt_dec 8 n) as [L|L].
    + change (fst (run 2 x_tests (first turn (fun i => mkChoice (Nat.eqb i 0) (map desc_of x_tests) false false) n) (start 2 x_tests x_conf)))
        with (st 2 x_tests x_conf turn (fun i => mkChoice (Nat.eqb i 0) (map desc_of x_tests) false false) n).
      rewrite (stuck _ _ _ _ _ 8); [vm_compute; auto| |exact L]. intros k Lk. unfold turn. destruct (Nat.even k); [vm_compute; reflexivity|].
      destruct k; [lia|]. cbn [Nat.eqb]. vm_compute. reflexivity.
    + split; [|lia]. do 8 (destruct n as [|n]; [vm_compute; reflexivity|]). lia.
Qed.
Print Assumptions C127_connection_refuted.
