(** C129: custom hooks. *)

From Coq Require Import List Bool Arith Lia.
From Verif Require Import Dict CustomHooks.
Import ListNotations.

(** calls that make a hook of the name, if there is none *)
Definition defines (c : call) (n : nat) : Prop := c = Add n \/ c = Ensure n \/ c = Direct n.
(** the name of a call *)
Definition named (c : call) : nat := match c with Add n | Ensure n | Remove n | Get n | Direct n => n end.
Definition direct (c : call) : Prop := exists n, c = Direct n.

(** ** Lemmas *)

Lemma run_app l1 l2 w : run (l1 ++ l2) w = run l2 (run l1 w).
Proof. revert w. induction l1 as [|c l1 IH]; intros w; [reflexivity|]. apply IH. Qed.

Ltac cases :=
  unfold do, add_custom_hook, ensure_custom_hook, remove_custom_hook, get_hook, define, g_define in *;
  repeat match goal with
         | |- context [match d_get ?a ?b with _ => _ end] => destruct (d_get a b) eqn:?; cbn in *
         | H : context [match d_get ?a ?b with _ => _ end] |- _ => destruct (d_get a b) eqn:?; cbn in *
         end; cbn in *.

Lemma reg_do c w n :
  d_get n (w_reg (fst (do c w))) =
  match c with
  | Add m | Ensure m | Direct m =>
      if Nat.eqb n m then Some (match d_get n (w_reg w) with Some h => h | None => w_next w end) else d_get n (w_reg w)
  | Remove m => if Nat.eqb n m then None else d_get n (w_reg w)
  | Get m => d_get n (w_reg w)
  end.
Proof.
  destruct c as [m|m|m|m|m]; cases; auto; rewrite ?d_get_set, ?d_get_del; destruct (Nat.eqb_spec n m) as [->|N]; auto; try congruence;
    repeat match goal with H : ?a = _ |- context [?a] => rewrite H end; auto.
Qed.

Lemma reg_set w n o : d_get n (w_reg (fold_left (fun w n => mkWorld (w_reg w) (d_set n (VOther n) (w_ns w)) (w_next w)) o w)) = d_get n (w_reg w).
Proof. revert w. induction o as [|x o IH]; intros w; [reflexivity|]. cbn [fold_left]. rewrite IH. reflexivity. Qed.

Lemma reg_builtin n b : forall w, d_get n (w_reg (fold_left (fun w n => fst (define n w)) b w)) <> None <-> d_get n (w_reg w) <> None \/ In n b.
Proof.
  induction b as [|x b IH]; intros w; [cbn; intuition|]. cbn [fold_left]. rewrite IH. cbn [In].
  pose proof (reg_do (Add x) w n) as H. cbn in H. unfold add_custom_hook in H. rewrite H.
  destruct (Nat.eqb_spec n x) as [->|N]; intuition congruence.
Qed.

Lemma reg_import be b af n : d_get n (w_reg (import be b af)) <> None <-> In n b.
Proof. unfold import. rewrite reg_set, reg_builtin, reg_set. cbn. intuition congruence. Qed.

(** registry and numbers fit together *)
Definition inv (w : world) : Prop :=
  d_ok (w_reg w) /\ NoDup (map snd (w_reg w)) /\ forall n h, In (n, h) (w_reg w) -> h < w_next w.

Lemma inv_define n w : inv w -> inv (fst (g_define n w)).
Proof.
  intros (K & D & F). unfold g_define. destruct (d_get n (w_reg w)) eqn:E; cbn; [repeat split; assumption|].
  assert (S : d_set n (w_next w) (w_reg w) = w_reg w ++ [(n, w_next w)]).
  { clear -E. induction (w_reg w) as [|[k v] d IH]; cbn in *; [reflexivity|]. destruct (Nat.eqb n k); [discriminate|]. rewrite IH; auto. }
  assert (N : ~ In n (d_keys (w_reg w))) by (rewrite d_get_In; congruence).
  rewrite S. unfold inv, d_ok, d_keys in *. cbn. rewrite !map_app. cbn. repeat split.
  - apply (NoDup_Add (a := n) (l := map fst (w_reg w))); [|auto]. rewrite <- (app_nil_r (map fst (w_reg w))) at 1. apply Add_app.
  - apply (NoDup_Add (a := w_next w) (l := map snd (w_reg w))).
    + rewrite <- (app_nil_r (map snd (w_reg w))) at 1. apply Add_app.
    + split; [auto|]. rewrite in_map_iff. intros ([a b] & E' & I). apply F in I. cbn in E'. lia.
  - intros m h I. apply in_app_iff in I as [I|[I|[]]]; [apply F in I; lia|]. inversion I; lia.
Qed.

Lemma inv_eq w w' : w_reg w' = w_reg w -> w_next w' = w_next w -> inv w -> inv w'.
Proof. unfold inv. intros -> ->. auto. Qed.

Lemma define_reg n w : w_reg (fst (define n w)) = w_reg (fst (g_define n w)) /\ w_next (fst (define n w)) = w_next (fst (g_define n w)).
Proof. unfold define, g_define. destruct (d_get n (w_reg w)); auto. Qed.

Lemma inv_define' n w : inv w -> inv (fst (define n w)).
Proof. intros I. destruct (define_reg n w) as [A B]. eapply inv_eq; eauto. apply inv_define, I. Qed.

Lemma In_del n (d : @dict nat) m h : In (m, h) (d_del n d) -> In (m, h) d.
Proof. induction d as [|[k v] d IH]; cbn; auto. destruct (Nat.eqb n k); cbn; intuition. Qed.

Lemma inv_del n w : inv w -> inv (mkWorld (d_del n (w_reg w)) (w_ns w) (w_next w)).
Proof.
  intros (K & D & F). unfold inv, d_ok, d_keys in *. cbn. repeat split.
  - clear -K. induction (w_reg w) as [|[k v] d IH]; cbn in *; [constructor|]. inversion K; subst. destruct (Nat.eqb n k); auto.
    cbn. constructor; auto. rewrite in_map_iff. intros ([a b] & E & I). apply In_del in I. cbn in E. subst. apply H1. apply (in_map fst) in I. exact I.
  - clear -D. induction (w_reg w) as [|[k v] d IH]; cbn in *; [constructor|]. inversion D; subst. destruct (Nat.eqb n k); auto.
    cbn. constructor; auto. rewrite in_map_iff. intros ([a b] & E & I). apply In_del in I. cbn in E. subst. apply H1. apply (in_map snd) in I. exact I.
  - intros m h I. apply In_del in I. eauto.
Qed.

Lemma inv_do c w : inv w -> inv (fst (do c w)).
Proof.
  intros I. destruct c as [m|m|m|m|m]; cbn [do].
  - apply inv_define', I.
  - unfold ensure_custom_hook, get_hook. destruct (d_get m (w_reg w)); [exact I|apply inv_define', I].
  - unfold remove_custom_hook, get_hook. destruct (d_get m (w_reg w)); [|exact I]. cbn. pose proof (inv_del m w I).
    destruct (d_get m (w_ns w)); [eapply inv_eq; eauto|exact H]; reflexivity.
  - exact I.
  - apply inv_define, I.
Qed.

Lemma inv_run l : forall w, inv w -> inv (run l w).
Proof. induction l as [|c l IH]; intros w I; [exact I|]. apply IH, inv_do, I. Qed.

Lemma inv_import be b af : inv (import be b af).
Proof.
  assert (Set' : forall o w, inv w -> inv (fold_left (fun w n => mkWorld (w_reg w) (d_set n (VOther n) (w_ns w)) (w_next w)) o w)).
  { induction o as [|x o IH]; intros w I; [exact I|]. apply IH. eapply inv_eq; eauto; reflexivity. }
  unfold import. apply Set'. generalize (Set' be (mkWorld [] [] 0)). intros H.
  assert (I : inv (fold_left (fun w n => mkWorld (w_reg w) (d_set n (VOther n) (w_ns w)) (w_next w)) be (mkWorld [] [] 0))).
  { apply H. repeat split; cbn; try constructor. intros ? ? []. }
  revert I. generalize (fold_left (fun w n => mkWorld (w_reg w) (d_set n (VOther n) (w_ns w)) (w_next w)) be (mkWorld [] [] 0)).
  induction b as [|x b IH]; intros w I; [exact I|]. cbn [fold_left]. apply IH, inv_define', I.
Qed.

Lemma listed w n h : inv w -> (In (n, h) (get_all_hooks w) <-> get_hook n w = Hook h).
Proof.
  intros (K & _). unfold get_all_hooks, get_hook. split.
  - intros I. assert (d_get n (w_reg w) = Some h); [|rewrite H; auto].
    revert I K. unfold d_ok, d_keys. induction (w_reg w) as [|[k v] d IH]; cbn; [intros []|]. intros [E|I] K; inversion K; subst.
    + inversion E; subst. rewrite Nat.eqb_refl. auto.
    + destruct (Nat.eqb_spec n k) as [->|N]; [|auto]. destruct H1. apply (in_map fst) in I. exact I.
  - destruct (d_get n (w_reg w)) eqn:E; intros H; inversion H; subst. apply d_get_pair. exact E.
Qed.

Lemma next_do c w : w_next w <= w_next (fst (do c w)).
Proof. destruct c as [m|m|m|m|m]; cases; auto. Qed.

Lemma next_run l : forall w, w_next w <= w_next (run l w).
Proof. induction l as [|c l IH]; intros w; [reflexivity|]. cbn [run]. etransitivity; [apply (next_do c)|apply IH]. Qed.

(** ** Theorems *)

(** a hook is there exactly if it was made by a call since the last removal, or is one of slash's own and was never removed; names and
    hooks occur once among all of them *)
Theorem C129_defined be builtin af l :
  let w := run l (import be builtin af) in
  (forall n, (exists h, In (n, h) (get_all_hooks w)) <->
             (exists l1 c l2, l = l1 ++ c :: l2 /\ defines c n /\ ~ In (Remove n) l2) \/ (In n builtin /\ ~ In (Remove n) l)) /\
  NoDup (map fst (get_all_hooks w)) /\ NoDup (map snd (get_all_hooks w)).
Proof.
  cbn zeta. pose proof (inv_run l _ (inv_import be builtin af)) as I. split; [|split; apply I].
  intros n. assert (E : (exists h, In (n, h) (get_all_hooks (run l (import be builtin af)))) <-> d_get n (w_reg (run l (import be builtin af))) <> None).
  { split.
    - intros (h & H). apply listed in H; auto. unfold get_hook in H. destruct (d_get n _); [discriminate|discriminate H].
    - intros H. destruct (d_get n _) as [h|] eqn:E; [|congruence]. exists h. apply listed; auto. unfold get_hook. rewrite E. auto. }
  rewrite E. clear E I. induction l as [|c l IH] using rev_ind.
  - cbn [run]. rewrite reg_import. split; [intros H; right; auto|]. intros [(l1 & c & l2 & H & _)|[H _]]; auto. destruct l1; discriminate.
  - rewrite run_app. cbn [run]. rewrite reg_do.
    assert (Keep : (forall m, c = Remove m -> m <> n) -> ~ defines c n ->
       ((exists l1 c' l2, l ++ [c] = l1 ++ c' :: l2 /\ defines c' n /\ ~ In (Remove n) l2) \/ (In n builtin /\ ~ In (Remove n) (l ++ [c])) <->
        (exists l1 c' l2, l = l1 ++ c' :: l2 /\ defines c' n /\ ~ In (Remove n) l2) \/ (In n builtin /\ ~ In (Remove n) l))).
    { intros R D. split.
      - intros [(l1 & c' & l2 & E & D' & N)|[B N]].
        + destruct l2 as [|x l2 _] using rev_ind; [apply app_inj_tail in E as [_ ->]; contradiction|].
          rewrite app_comm_cons, app_assoc in E. apply app_inj_tail in E as [-> ->]. left. exists l1, c', l2.
          split; [reflexivity|]. split; [exact D'|]. intros J. apply N, in_app_iff. auto.
        + right. split; [exact B|]. intros J. apply N, in_app_iff. auto.
      - intros [(l1 & c' & l2 & -> & D' & N)|[B N]].
        + left. exists l1, c', (l2 ++ [c]). split; [rewrite <- app_assoc; reflexivity|]. split; [exact D'|].
          intros J. apply in_app_iff in J as [J|[J|[]]]; [auto|]. exact (R n J eq_refl).
        + right. split; [exact B|]. intros J. apply in_app_iff in J as [J|[J|[]]]; [auto|]. exact (R n J eq_refl). }
    assert (Def : defines c n ->
       ((exists l1 c' l2, l ++ [c] = l1 ++ c' :: l2 /\ defines c' n /\ ~ In (Remove n) l2) \/ (In n builtin /\ ~ In (Remove n) (l ++ [c])) <-> True)).
    { intros D. split; [auto|]. intros _. left. exists l, c, []. auto. }
    destruct c as [m|m|m|m|m].
    1,2,5: destruct (Nat.eqb_spec n m) as [<-|N];
      [rewrite Def by (unfold defines; auto); split; [auto|discriminate]
      |rewrite Keep by (try discriminate; unfold defines; intuition congruence); exact IH].
    + destruct (Nat.eqb_spec n m) as [<-|N].
      * split; [congruence|]. intros [(l1 & c' & l2 & E & D' & N)|[B N]].
        -- destruct l2 as [|x l2 _] using rev_ind.
           ++ apply app_inj_tail in E as [_ <-]. unfold defines in D'. intuition discriminate.
           ++ rewrite app_comm_cons, app_assoc in E. apply app_inj_tail in E as [_ <-]. destruct N. apply in_app_iff. cbn. auto.
        -- destruct N. apply in_app_iff. cbn. auto.
      * rewrite Keep; [exact IH| |unfold defines; intuition discriminate]. intros m' E. inversion E; subst. auto.
    + rewrite Keep; [exact IH|discriminate|unfold defines; intuition discriminate].
Qed.
Print Assumptions C129_defined.

(** what the calls answer.  A hook that is there is found by its name, stays the same object until it is removed, and add_custom_hook
    refuses its name; where there is none, adding and ensuring make a new one, which was never there before, and looking up and removing
    raise LookupError.  A call that raises one of these changes nothing *)
Theorem C129_answers be builtin af l n :
  let w := run l (import be builtin af) in
  (forall h, In (n, h) (get_all_hooks w) ->
     do (Add n) w = (w, NameAlreadyUsed) /\ do (Direct n) w = (w, NameAlreadyUsed) /\ do (Ensure n) w = (w, Hook h) /\ do (Get n) w = (w, Hook h) /\
     forall l', ~ In (Remove n) l' -> In (n, h) (get_all_hooks (run l' w))) /\
  ((forall h, ~ In (n, h) (get_all_hooks w)) ->
     do (Get n) w = (w, NoSuchHook) /\ do (Remove n) w = (w, NoSuchHook) /\
     forall c, defines c n -> exists h, snd (do c w) = Hook h /\ In (n, h) (get_all_hooks (fst (do c w))) /\
       forall l1 l2 m, l = l1 ++ l2 -> ~ In (m, h) (get_all_hooks (run l1 (import be builtin af)))).
Proof.
  cbn zeta. pose proof (inv_run l _ (inv_import be builtin af)) as I. set (w := run l (import be builtin af)) in *. split.
  - intros h H. apply (listed _ _ _ I) in H. unfold get_hook in H. destruct (d_get n (w_reg w)) as [h'|] eqn:E; inversion H; subst h'. clear H.
    unfold do, add_custom_hook, ensure_custom_hook, get_hook, define, g_define. rewrite !E. repeat (split; [reflexivity|]).
    intros l' N. apply listed; [apply inv_run, I|]. revert E N. clear I. generalize w. clear w. induction l' as [|c l' IH]; intros w E N.
    + unfold get_hook. cbn [run]. rewrite E. auto.
    + cbn [run]. apply IH; [|intros J; apply N; cbn; auto]. rewrite reg_do, E.
      destruct c as [m|m|m|m|m]; try (destruct (Nat.eqb n m); reflexivity); try reflexivity.
      destruct (Nat.eqb_spec n m) as [<-|]; [|reflexivity]. destruct N. cbn. auto.
  - intros H. assert (E : d_get n (w_reg w) = None).
    { destruct (d_get n (w_reg w)) as [h|] eqn:E; [|auto]. destruct (H h). apply listed; [exact I|]. unfold get_hook. rewrite E. auto. }
    split; [|split]; [unfold do, get_hook; rewrite E; auto|unfold do, remove_custom_hook, get_hook; rewrite E; auto|].
    intros c D. exists (w_next w). split; [|split].
    + destruct D as [->|[->| ->]]; unfold do, add_custom_hook, ensure_custom_hook, get_hook, define, g_define; rewrite ?E; reflexivity.
    + apply listed; [apply inv_do, I|]. unfold get_hook. rewrite reg_do, E.
      destruct D as [->|[->| ->]]; rewrite Nat.eqb_refl; reflexivity.
    + intros l1 l2 m -> J. pose proof (inv_run l1 _ (inv_import be builtin af)) as (_ & _ & F). apply F in J.
      unfold w in J. rewrite run_app in J. pose proof (next_run l2 (run l1 (import be builtin af))). lia.
Qed.
Print Assumptions C129_answers.

(** the module's namespace and the registry agree *)
Definition agree (others : list nat) (w : world) : Prop :=
  forall n, d_get n (w_ns w) = match d_get n (w_reg w) with Some h => Some (VHook h)
                               | None => if in_dec Nat.eq_dec n others then Some (VOther n) else None end.

Lemma agree_do others c w : agree others w -> ~ direct c -> ~ In (named c) others -> agree others (fst (do c w)).
Proof.
  intros A D N n. pose proof (A n) as An. unfold agree in A.
  assert (Def : forall m, ~ In m others -> d_get n (w_ns (fst (define m w))) =
     match d_get n (w_reg (fst (define m w))) with Some h => Some (VHook h) | None => if in_dec Nat.eq_dec n others then Some (VOther n) else None end).
  { intros m Nm. unfold define, g_define. destruct (d_get m (w_reg w)) eqn:E; cbn; [exact An|]. rewrite !d_get_set.
    destruct (Nat.eqb_spec n m); [reflexivity|exact An]. }
  destruct c as [m|m|m|m|m]; cbn [named do] in *.
  - apply Def, N.
  - unfold ensure_custom_hook, get_hook. destruct (d_get m (w_reg w)); [exact An|apply Def, N].
  - unfold remove_custom_hook, get_hook. destruct (d_get m (w_reg w)) eqn:E; [|exact An]. cbn. rewrite (A m), E. cbn. rewrite !d_get_del.
    destruct (Nat.eqb_spec n m) as [->|]; [|exact An]. destruct (in_dec Nat.eq_dec m others); [contradiction|reflexivity].
  - exact An.
  - destruct D. exists m. auto.
Qed.

Lemma agree_run others l : forall w, agree others w -> (forall c, In c l -> ~ direct c /\ ~ In (named c) others) -> agree others (run l w).
Proof.
  induction l as [|c l IH]; intros w A H; [exact A|]. cbn [run]. apply IH; [|intros c' J; apply H; cbn; auto].
  destruct (H c); [cbn; auto|]. apply agree_do; assumption.
Qed.

Lemma agree_import be builtin af : (forall n, In n builtin -> ~ In n (be ++ af)) -> agree (be ++ af) (import be builtin af).
Proof.
  intros D. unfold import.
  assert (Set' : forall o os w, agree os w -> (forall n, In n o -> d_get n (w_reg w) = None) ->
            agree (os ++ o) (fold_left (fun w n => mkWorld (w_reg w) (d_set n (VOther n) (w_ns w)) (w_next w)) o w)).
  { induction o as [|x o IH]; intros os w A F; [rewrite app_nil_r; exact A|]. cbn [fold_left].
    replace (os ++ x :: o) with ((os ++ [x]) ++ o) by (rewrite <- app_assoc; reflexivity).
    apply IH; [|intros n J; apply F; cbn; auto]. intros n. cbn. rewrite d_get_set.
    destruct (Nat.eqb_spec n x) as [->|N].
    - rewrite (F x) by (cbn; auto). destruct (in_dec Nat.eq_dec x (os ++ [x])) as [_|K]; [reflexivity|]. destruct K. apply in_app_iff. cbn. auto.
    - rewrite (A n). destruct (d_get n (w_reg w)); [reflexivity|].
      destruct (in_dec Nat.eq_dec n os) as [J|J], (in_dec Nat.eq_dec n (os ++ [x])) as [K|K]; auto.
      + destruct K. apply in_app_iff. auto.
      + apply in_app_iff in K as [K|[K|[]]]; [contradiction|congruence]. }
  apply Set'.
  - assert (B : forall w, agree be w -> (forall n, In n builtin -> ~ In n be) -> agree be (fold_left (fun w n => fst (define n w)) builtin w)).
    { clear D. induction builtin as [|x b IH]; intros w A H; [exact A|]. cbn [fold_left]. apply IH; [|intros n J; apply H; cbn; auto].
      apply (agree_do be (Add x) w A); [intros (m & E); discriminate|]. apply H. cbn. auto. }
    apply B; [|intros n J K; apply (D n J), in_app_iff; auto].
    assert (E : forall w, agree [] w -> (forall n, d_get n (w_reg w) = None) ->
       agree be (fold_left (fun w n => mkWorld (w_reg w) (d_set n (VOther n) (w_ns w)) (w_next w)) be w)).
    { intros w A F. apply (Set' be [] w A). auto. }
    apply E; [intros n|intros n]; reflexivity.
  - intros n J. pose proof (reg_builtin n builtin (fold_left (fun w n => mkWorld (w_reg w) (d_set n (VOther n) (w_ns w)) (w_next w)) be (mkWorld [] [] 0))) as R.
    rewrite reg_set in R. cbn [w_reg d_get] in R. destruct (d_get n _); [|reflexivity]. exfalso.
    destruct R as [R _]. destruct R as [R|R]; [discriminate|destruct (R eq_refl)|]. apply (D n R), in_app_iff. auto.
Qed.

(** if the hooks of slash and the other names of the module differ, and all calls are those of the module, with names that are none of
    the other ones: the module has exactly the hooks, each under its name, and the other names are untouched; removing a hook takes it
    out of both and leaves all else *)
Theorem C129_module be builtin af l :
  (forall n, In n builtin -> ~ In n (be ++ af)) -> (forall c, In c l -> ~ direct c /\ ~ In (named c) (be ++ af)) ->
  let w := run l (import be builtin af) in
  (forall n h, d_get n (w_ns w) = Some (VHook h) <-> In (n, h) (get_all_hooks w)) /\
  (forall n o, d_get n (w_ns w) = Some (VOther o) <-> o = n /\ In n (be ++ af)) /\
  forall n h, In (n, h) (get_all_hooks w) ->
    snd (do (Remove n) w) = Nothing /\
    (forall m h', In (m, h') (get_all_hooks (fst (do (Remove n) w))) <-> m <> n /\ In (m, h') (get_all_hooks w)) /\
    (forall m, d_get m (w_ns (fst (do (Remove n) w))) = if Nat.eqb m n then None else d_get m (w_ns w)).
Proof.
  intros D H. cbn zeta. pose proof (inv_run l _ (inv_import be builtin af)) as I.
  pose proof (agree_run _ l _ (agree_import be builtin af D) H) as A. set (w := run l (import be builtin af)) in *.
  assert (Dis : forall n h, d_get n (w_reg w) = Some h -> ~ In n (be ++ af)).
  { intros n h E J. destruct (C129_defined be builtin af l) as [X _]. destruct (X n) as [X1 _]. destruct X1 as [(l1 & c & l2 & -> & De & _)|[B _]].
    - exists h. apply listed; [exact I|]. unfold get_hook. fold w. rewrite E. auto.
    - destruct (H c) as [_ N]; [apply in_app_iff; cbn; auto|]. apply N. destruct De as [->|[->| ->]]; exact J.
    - exact (D n B J). }
  split; [|split].
  - intros n h. rewrite (listed _ _ _ I). unfold get_hook. rewrite (A n). destruct (d_get n (w_reg w)); [split; congruence|].
    destruct (in_dec Nat.eq_dec n (be ++ af)); split; discriminate.
  - intros n o. rewrite (A n). destruct (d_get n (w_reg w)) eqn:E.
    + split; [discriminate|]. intros [_ J]. destruct (Dis n n0 E J).
    + destruct (in_dec Nat.eq_dec n (be ++ af)) as [J|J]; split.
      * intros X. inversion X. subst. auto.
      * intros [-> _]. auto.
      * intros X. discriminate X.
      * intros [_ J']. contradiction.
  - intros n h J. apply (listed _ _ _ I) in J. unfold get_hook in J. destruct (d_get n (w_reg w)) as [h'|] eqn:E; inversion J; subst h'. clear J.
    assert (F : do (Remove n) w = (mkWorld (d_del n (w_reg w)) (d_del n (w_ns w)) (w_next w), Nothing)).
    { unfold do, remove_custom_hook, get_hook. rewrite E. cbn. rewrite (A n), E. reflexivity. }
    pose proof (inv_do (Remove n) w I) as I'. rewrite F in *. cbn [fst snd] in *. split; [reflexivity|split].
    + intros m h'. rewrite !listed by assumption. unfold get_hook. cbn. rewrite d_get_del.
      destruct (Nat.eqb_spec m n) as [->|N]; [|tauto]. split; [discriminate|intros [X _]; congruence].
    + intros m. cbn. apply d_get_del.
Qed.
Print Assumptions C129_module.

(** a call, whatever its name, leaves the hooks and the module's names other than its own as they are *)
Theorem C129_own c be builtin af l n :
  let w := run l (import be builtin af) in
  n <> named c -> (forall h, In (n, h) (get_all_hooks (fst (do c w))) <-> In (n, h) (get_all_hooks w)) /\ d_get n (w_ns (fst (do c w))) = d_get n (w_ns w).
Proof.
  cbn zeta. intros N. pose proof (inv_run l _ (inv_import be builtin af)) as I. set (w := run l (import be builtin af)) in *. split.
  - intros h. rewrite !listed by (try apply inv_do; exact I). unfold get_hook. rewrite reg_do.
    destruct c as [m|m|m|m|m]; cbn [named] in N; try (destruct (Nat.eqb_spec n m); [contradiction|]); reflexivity.
  - destruct c as [m|m|m|m|m]; cbn [named] in N; cases; auto; rewrite ?d_get_set, ?d_get_del;
      destruct (Nat.eqb_spec n m); congruence.
Qed.
Print Assumptions C129_own.

(** ** Cases: 0 and 1 are config and register, 2 and 3 are session_start and test_start, 4 is debugger; 7 is a custom hook *)

Example ex_calls :
  let w := run [Add 7; Get 2; Add 2; Ensure 7] (import [0; 1] [2; 3] [4]) in
  get_all_hooks w = [(2, 0); (3, 1); (7, 2)] /\ w_ns w = [(0, VOther 0); (1, VOther 1); (2, VHook 0); (3, VHook 1); (4, VOther 4); (7, VHook 2)] /\
  snd (do (Add 2) w) = NameAlreadyUsed /\ snd (do (Add 9) w) = Hook 3 /\ snd (do (Remove 7) w) = Nothing /\ snd (do (Remove 9) w) = NoSuchHook /\
  get_all_hooks (run [Remove 7; Add 7] w) = [(2, 0); (3, 1); (7, 3)].
Proof. repeat split. Qed.

Example ex_module :
  (forall n, In n [2; 3] -> ~ In n ([0; 1] ++ [4])) /\
  (forall c, In c [Add 7; Get 2; Add 2; Ensure 7] -> ~ direct c /\ ~ In (named c) ([0; 1] ++ [4])).
Proof.
  split.
  - cbn. intros n H. intuition congruence.
  - cbn. intros c H. repeat (destruct H as [<-|H]; [split; [intros (m & E); discriminate|cbn; intuition congruence]|]). destruct H.
Qed.

(** ** Stronger expectations that fail *)

(** a custom hook with the name of something else of the module replaces it, and removing the hook does not bring it back; so does
    "config", which the handler of exceptions in hooks reads (slash/hooks.py:80) *)
Theorem C129_name_refuted :
  exists be builtin af n, let w0 := import be builtin af in
    (exists o, d_get n (w_ns w0) = Some (VOther o)) /\
    (exists h, do (Add n) w0 = (run [Add n] w0, Hook h) /\ d_get n (w_ns (run [Add n] w0)) = Some (VHook h)) /\
    snd (do (Remove n) (run [Add n] w0)) = Nothing /\ d_get n (w_ns (run [Add n; Remove n] w0)) = None.
Proof. exists [0; 1], [2; 3], [4], 0. cbn. repeat split; eauto. Qed.
Print Assumptions C129_name_refuted.

(** remove_custom_hook also removes the hooks of slash itself *)
Theorem C129_builtin_refuted :
  exists be builtin af n, In n builtin /\ snd (do (Remove n) (import be builtin af)) = Nothing /\
    forall h, ~ In (n, h) (get_all_hooks (run [Remove n] (import be builtin af))).
Proof. exists [0; 1], [2; 3], [4], 3. cbn. repeat split; auto. intros h [E|[]]. discriminate. Qed.
Print Assumptions C129_builtin_refuted.

(** of a hook that was made with gossip.define, ensure_custom_hook finds the hook but the module does not have it, and remove_custom_hook
    raises KeyError after removing it *)
Theorem C129_direct_refuted :
  exists be builtin af n h, let w := run [Direct n; Ensure n] (import be builtin af) in
    snd (do (Ensure n) w) = Hook h /\ d_get n (w_ns w) = None /\
    snd (do (Remove n) w) = KeyError /\ forall h', ~ In (n, h') (get_all_hooks (run [Remove n] w)).
Proof. exists [0; 1], [2; 3], [4], 7, 2. cbn. repeat split. intros h' [E|[E|[]]]; discriminate. Qed.
Print Assumptions C129_direct_refuted.

(** get_hook_by_name does not return None for a name without hook, as it says (slash/hooks.py:124), it raises *)
Theorem C129_none_refuted : exists be builtin af n, snd (do (Get n) (import be builtin af)) <> Nothing /\ snd (do (Get n) (import be builtin af)) = NoSuchHook.
Proof. exists [0; 1], [2; 3], [4], 9. cbn. split; [discriminate|reflexivity]. Qed.
Print Assumptions C129_none_refuted.
