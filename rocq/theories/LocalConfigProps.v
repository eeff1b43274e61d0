(** C50: the nearest slashconf definition wins, whatever was loaded before. *)

From Coq Require Import List Bool Arith Lia.
From Verif Require Import Dict LocalConfig.
Import ListNotations.

Section S.
Variable F : fs.

(** the last file of the directory with the name has this value *)
Definition defines (d : dir) (k v : nat) : Prop :=
  exists l1 f l2, f_conf F d = CFiles (l1 ++ Some f :: l2) /\ d_get k f = Some v
    /\ forall g, In (Some g) l2 -> d_get k g = None.

Definition undefined (d : dir) (k : nat) : Prop :=
  forall l f, f_conf F d = CFiles l -> In (Some f) l -> d_get k f = None.

(** the nearest ancestor (or the directory itself) defining the name *)
Definition visible (d : dir) (k v : nat) : Prop :=
  exists near far, d = near ++ far /\ defines far k v
    /\ forall a b, near = a ++ b -> b <> [] -> undefined (b ++ far) k.

(** every slashconf on the way to the root can be imported *)
Definition loadable (d : dir) : Prop :=
  forall near far, d = near ++ far ->
    f_conf F far <> CConflict /\ forall l, f_conf F far = CFiles l -> ~ In None l.

Definition directory (p : dir) : dir := match f_kind F p with PFile => tl p | _ => p end.
Definition openable (p : dir) : Prop := f_kind F p <> PMissing /\ loadable (directory p).

(** the paths open after some calls, newest first *)
Inductive history : list lop -> list dir -> Prop :=
| h_start : history [] []
| h_push ops ps p : history ops ps -> openable p -> history (ops ++ [Push p]) (p :: ps)
| h_fail ops ps p : history ops ps -> ~ openable p -> history (ops ++ [Push p]) ps
| h_pop ops ps p : history ops (p :: ps) -> history (ops ++ [Pop]) ps
| h_pop_empty ops : history ops [] -> history (ops ++ [Pop]) [].

(** a module's variables are a dictionary *)
Hypothesis Fok : forall d l v, f_conf F d = CFiles l -> In (Some v) l -> d_ok v.

Lemma merge_files_ok l acc v :
  (forall f, In (Some f) l -> d_ok f) -> d_ok acc -> merge_files l acc = Some v -> d_ok v.
Proof.
  revert acc. induction l as [|[f|] l IH]; simpl; intros acc H A M; try discriminate.
  - injection M as <-. auto.
  - apply (IH (d_update acc f)); auto. apply d_update_ok. auto.
Qed.

Lemma read_ok d v : read_dir F d = Some v -> d_ok v.
Proof.
  unfold read_dir. destruct (f_conf F d) eqn:E; intro H; try discriminate.
  - injection H as <-. constructor.
  - apply (merge_files_ok l []); auto; [|constructor]. intros f I. apply (Fok d l); auto.
Qed.

Lemma merge_files_get l acc v k x :
  (forall f, In (Some f) l -> d_ok f) -> merge_files l acc = Some v -> d_get k v = Some x ->
  (exists l1 f l2, l = l1 ++ Some f :: l2 /\ d_get k f = Some x /\ forall g, In (Some g) l2 -> d_get k g = None)
  \/ (d_get k acc = Some x /\ forall g, In (Some g) l -> d_get k g = None).
Proof.
  revert acc. induction l as [|[f|] l IH]; simpl; intros acc O M G; try discriminate.
  - injection M as <-. right. split; auto. intros g [].
  - destruct (IH (d_update acc f)) as [(l1 & f1 & l2 & -> & G1 & N)|[G1 N]]; auto.
    + left. exists (Some f :: l1), f1, l2. auto.
    + rewrite d_get_update in G1 by auto. destruct (d_get k f) as [y|] eqn:E.
      * left. exists [], f, l. injection G1 as ->. auto.
      * right. split; auto. intros g [Q|I]; [injection Q as <-; auto|auto].
Qed.

Lemma merge_files_none l acc v k :
  (forall f, In (Some f) l -> d_ok f) -> merge_files l acc = Some v -> d_get k v = None ->
  d_get k acc = None /\ forall g, In (Some g) l -> d_get k g = None.
Proof.
  revert acc. induction l as [|[f|] l IH]; simpl; intros acc O M G; try discriminate.
  - injection M as <-. split; auto. intros g [].
  - destruct (IH (d_update acc f)) as [G1 N]; auto.
    rewrite d_get_update in G1 by auto. destruct (d_get k f) as [y|] eqn:E; [discriminate|].
    split; auto. intros g [Q|I]; [injection Q as <-; auto|auto].
Qed.

Lemma read_get d v k x : read_dir F d = Some v -> d_get k v = Some x -> defines d k x.
Proof.
  unfold read_dir. destruct (f_conf F d) eqn:E; intros H G; try discriminate.
  - injection H as <-. discriminate.
  - assert (O : forall f, In (Some f) l -> d_ok f) by (intros f I; apply (Fok d l); auto).
    destruct (merge_files_get l [] v k x O H G) as [(l1 & f & l2 & -> & A & B)|[A _]]; [|discriminate].
    exists l1, f, l2. auto.
Qed.

Lemma read_none d v k : read_dir F d = Some v -> d_get k v = None -> undefined d k.
Proof.
  unfold read_dir, undefined. destruct (f_conf F d) eqn:E; intros H G l0 f0 Q I; try discriminate.
  injection Q as <-. apply (merge_files_none l [] v k); auto. intros f J. apply (Fok d l); auto.
Qed.

Lemma defines_undefined d k x : defines d k x -> ~ undefined d k.
Proof.
  intros (l1 & f & l2 & E & G & _) U. rewrite (U _ f E) in G; [discriminate|].
  apply in_or_app. right. left. auto.
Qed.

Lemma defines_fun d k x y : defines d k x -> defines d k y -> x = y.
Proof.
  intros (l1 & f & l2 & E & G & N) (l1' & f' & l2' & E' & G' & N').
  rewrite E in E'. injection E' as Q. clear E.
  revert l1' Q. induction l1 as [|a l1 IH]; intros [|a' l1'] Q; simpl in Q.
  - injection Q as -> ->. congruence.
  - injection Q as _ Q. subst l2. rewrite (N f') in G'; [discriminate|]. apply in_or_app. right. left. auto.
  - injection Q as _ Q. subst l2'. rewrite (N' f) in G; [discriminate|]. apply in_or_app. right. left. auto.
  - injection Q as -> Q. eauto.
Qed.

(** the part of the chain of directories *)
Lemma visible_here d k x : defines d k x -> visible d k x.
Proof.
  intro D. exists [], d. do 2 (split; auto).
  intros a b Q N. destruct a; simpl in Q; [subst; congruence|discriminate].
Qed.

Lemma app_snoc_cases {A} (a b l : list A) (x : A) :
  x :: l = a ++ b -> (a = [] /\ b = x :: l) \/ exists a', a = x :: a' /\ l = a' ++ b.
Proof. destruct a as [|y a']; simpl; intro Q; [auto|]. injection Q as <- ->. right. eauto. Qed.

Lemma visible_up c d k x : undefined (c :: d) k -> visible d k x -> visible (c :: d) k x.
Proof.
  intros U (near & far & -> & D & N). exists (c :: near), far. do 2 (split; auto).
  intros a b Q B. destruct (app_snoc_cases _ _ _ _ Q) as [[-> ->]|(a' & -> & E)]; [exact U|]. eauto.
Qed.

Lemma visible_inv c d k x : visible (c :: d) k x ->
  defines (c :: d) k x \/ (undefined (c :: d) k /\ visible d k x).
Proof.
  intros (near & far & Q & D & N). destruct near as [|c' near]; simpl in Q.
  - subst. auto.
  - injection Q as <- ->. right. split.
    + apply (N [] (c :: near)); auto. discriminate.
    + exists near, far. do 2 (split; auto). intros a b -> B. apply (N (c :: a) b); auto.
Qed.

Definition cache_ok (c : list (dir * vars)) : Prop :=
  forall d v, c_get d c = Some v -> read_dir F d = Some v.

Lemma cache_read c d : cache_ok c ->
  (match c_get d c with Some v => Some v | None => read_dir F d end) = read_dir F d.
Proof. intro H. destruct (c_get d c) eqn:E; auto. symmetry. auto. Qed.

Lemma cache_add c d v : cache_ok c -> read_dir F d = Some v -> cache_ok ((d, v) :: c).
Proof.
  intros H R d' v'. simpl. unfold dir_eqb. destruct (list_eq_dec Nat.eq_dec d' d) as [->|]; auto.
  intro Q. injection Q as <-. auto.
Qed.

(** reading without any cache *)
Fixpoint chain (ds : list dir) : option (list vars) :=
  match ds with
  | [] => Some []
  | d :: ds' =>
      match read_dir F d, chain ds' with
      | Some v, Some l => Some (v :: l)
      | _, _ => None
      end
  end.

Lemma collect_chain ds c stack : cache_ok c ->
  cache_ok (fst (collect F ds c stack))
  /\ snd (collect F ds c stack)
     = option_map (fun l => stack ++ filter (fun v => negb (vars_empty v)) l) (chain ds).
Proof.
  revert c stack. induction ds as [|d ds IH]; intros c stack K; simpl.
  - rewrite app_nil_r. auto.
  - rewrite cache_read by auto. destruct (read_dir F d) as [v|] eqn:R; auto.
    destruct (vars_empty v) eqn:E.
    + destruct (IH c stack K) as [A B]. split; auto. rewrite B.
      destruct (chain ds); simpl; auto. rewrite E. auto.
    + destruct (IH ((d, v) :: c) (stack ++ [v])) as [A B]; [apply cache_add; auto|]. split; auto.
      rewrite B. destruct (chain ds); simpl; auto. rewrite E. simpl. rewrite <- app_assoc. auto.
Qed.

Lemma merge_cons v l : merge (v :: l) = d_update (merge l) v.
Proof. unfold merge. simpl. rewrite fold_left_app. auto. Qed.

Lemma merge_filter l k : (forall v, In v l -> d_ok v) ->
  d_get k (merge (filter (fun v => negb (vars_empty v)) l)) = d_get k (merge l).
Proof.
  induction l as [|v l IH]; simpl; intro O; auto.
  destruct v as [|kv v]; simpl.
  - rewrite merge_cons. unfold d_update. simpl. auto.
  - rewrite !merge_cons, !d_get_update by auto. rewrite IH; auto.
Qed.

Lemma chain_ok ds l : chain ds = Some l -> forall v, In v l -> d_ok v.
Proof.
  revert l. induction ds as [|d ds IH]; simpl; intros l H v I.
  - injection H as <-. destruct I.
  - destruct (read_dir F d) as [w|] eqn:R; [|discriminate]. destruct (chain ds) as [l'|]; [|discriminate].
    injection H as <-. destruct I as [<-|I]; eauto using read_ok.
Qed.

Lemma chain_visible d l k x : chain (upwards d) = Some l ->
  (d_get k (merge l) = Some x <-> visible d k x).
Proof.
  revert l. induction d as [|c d IH]; intros l H.
  - simpl in H. destruct (read_dir F []) as [v|] eqn:R; [|discriminate]. injection H as <-.
    rewrite merge_cons, d_get_update by eauto using read_ok. unfold merge. simpl. split.
    + destruct (d_get k v) eqn:G; [|discriminate]. intro Q. injection Q as <-.
      apply visible_here. eauto using read_get.
    + intros (near & far & Q & D & _). destruct near, far; try discriminate.
      destruct (d_get k v) as [y|] eqn:G.
      * f_equal. apply (defines_fun [] k); eauto using read_get.
      * exfalso. apply (defines_undefined [] k x); eauto using read_none.
  - simpl in H. destruct (read_dir F (c :: d)) as [v|] eqn:R; [|discriminate].
    change (chain (upwards d)) with (chain (upwards d)) in H.
    destruct (chain (upwards d)) as [l'|] eqn:C; [|discriminate]. injection H as <-.
    specialize (IH l' eq_refl).
    rewrite merge_cons, d_get_update by eauto using read_ok. split.
    + destruct (d_get k v) as [y|] eqn:G.
      * intro Q. injection Q as <-. apply visible_here. eauto using read_get.
      * intro Q. apply visible_up; [eauto using read_none|]. apply IH. auto.
    + intro V. apply visible_inv in V as [D|[U V]].
      * destruct (d_get k v) as [y|] eqn:G.
        -- f_equal. apply (defines_fun (c :: d) k); eauto using read_get.
        -- exfalso. apply (defines_undefined (c :: d) k x); eauto using read_none.
      * destruct (d_get k v) as [y|] eqn:G.
        -- exfalso. apply (defines_undefined (c :: d) k y); eauto using read_get.
        -- apply IH. auto.
Qed.

Lemma merge_files_some l acc : merge_files l acc <> None <-> ~ In None l.
Proof.
  revert acc. induction l as [|[f|] l IH]; intro acc; simpl.
  - split; [tauto|discriminate].
  - rewrite IH. split; [intros H [Q|Q]; [discriminate|tauto]|tauto].
  - tauto.
Qed.

Lemma read_some d : read_dir F d <> None <-> f_conf F d <> CConflict /\ forall l, f_conf F d = CFiles l -> ~ In None l.
Proof.
  unfold read_dir. destruct (f_conf F d) as [|l|] eqn:E.
  - split; [split; [discriminate|intros; discriminate]|discriminate].
  - rewrite merge_files_some. split.
    + intro H. split; [discriminate|]. intros l' Q. injection Q as <-. auto.
    + intros [_ H]. auto.
  - tauto.
Qed.

Lemma chain_loadable d : chain (upwards d) <> None <-> loadable d.
Proof.
  unfold loadable. induction d as [|c d IH].
  - simpl. pose proof (read_some []) as R. destruct (read_dir F []) as [v|].
    + split; [|discriminate]. intros _ near far Q. destruct near, far; try discriminate. apply R. discriminate.
    + split; [tauto|]. intros L _. apply R; auto. apply (L [] []). auto.
  - simpl. pose proof (read_some (c :: d)) as R. destruct (read_dir F (c :: d)) as [v|].
    + destruct (chain (upwards d)) as [l|].
      * split; [|discriminate]. intros _ near far Q. destruct near as [|c' near]; simpl in Q.
        -- subst. apply R. discriminate.
        -- injection Q as <- Q. apply (proj1 IH) with near; auto. discriminate.
      * split; [tauto|]. intros L _. apply IH; auto.
        intros near far Q. apply (L (c :: near)). rewrite Q. auto.
    + split; [tauto|]. intros L _. apply R; auto. apply (L [] (c :: d)). auto.
Qed.

Definition shows (cfg : vars) (p : dir) : Prop :=
  forall k v, d_get k cfg = Some v <-> visible (directory p) k v.

Lemma build_spec p c : cache_ok c ->
  cache_ok (fst (build_config F p c))
  /\ match snd (build_config F p c) with
     | Some cfg => openable p /\ shows cfg p
     | None => ~ openable p
     end.
Proof.
  intro K. unfold build_config.
  assert (X : forall d, directory p = d -> f_kind F p <> PMissing ->
    let r := match collect F (upwards d) c [] with
             | (cache', Some stack) => (cache', Some (merge stack)) | (cache', None) => (cache', None) end in
    cache_ok (fst r) /\ match snd r with Some cfg => openable p /\ shows cfg p | None => ~ openable p end).
  { intros d D NM. pose proof (collect_chain (upwards d) c [] K) as [A B].
    destruct (collect F (upwards d) c []) as [c' [st|]]; simpl in *; split; auto.
    - destruct (chain (upwards d)) as [l|] eqn:C; [|discriminate]. injection B as ->. split.
      + split; auto. rewrite D. apply chain_loadable. congruence.
      + intros k v. rewrite merge_filter by (intros; eapply chain_ok; eauto). rewrite D.
        apply chain_visible. auto.
    - intros [_ L]. rewrite D in L. apply chain_loadable in L.
      destruct (chain (upwards d)); [discriminate|tauto]. }
  unfold directory in X. destruct (f_kind F p) eqn:E.
  - simpl. split; auto. intros [N _]. congruence.
  - apply X; auto. discriminate.
  - apply X; auto. discriminate.
Qed.

Lemma lrun_app ops1 ops2 s :
  lrun F (ops1 ++ ops2) s
  = (fst (lrun F ops2 (fst (lrun F ops1 s))), snd (lrun F ops1 s) ++ snd (lrun F ops2 (fst (lrun F ops1 s)))).
Proof.
  revert s. induction ops1 as [|o ops IH]; intro s; simpl.
  - destruct (lrun F ops2 s); auto.
  - destruct (lstep F o s) as [s1 b]. rewrite IH. destruct (lrun F ops s1); auto.
Qed.

(** After any calls of push_path and pop_path, failing ones included, the stack
    holds exactly one dictionary for every path that is still open, and in it every
    name has the value of the nearest directory defining it and no other name is
    present. *)
Theorem C50_nearest ops ps :
  history ops ps -> Forall2 shows (lc_configs (fst (lrun F ops lconf0))) ps.
Proof.
  intro H.
  enough (cache_ok (lc_cache (fst (lrun F ops lconf0)))
          /\ Forall2 shows (lc_configs (fst (lrun F ops lconf0))) ps) by tauto.
  induction H as [|ops ps p H [K IH] O|ops ps p H [K IH] O|ops ps p H [K IH]|ops H [K IH]].
  - split; [|constructor]. intros d v. discriminate.
  - rewrite lrun_app. simpl. set (s := fst (lrun F ops lconf0)) in *.
    pose proof (build_spec p (lc_cache s) K) as [A B].
    destruct (build_config F p (lc_cache s)) as [c [cfg|]]; simpl in *; [|tauto].
    split; auto. constructor; tauto.
  - rewrite lrun_app. simpl. set (s := fst (lrun F ops lconf0)) in *.
    pose proof (build_spec p (lc_cache s) K) as [A B].
    destruct (build_config F p (lc_cache s)) as [c [cfg|]]; simpl in *; tauto.
  - rewrite lrun_app. simpl. set (s := fst (lrun F ops lconf0)) in *.
    inversion IH as [|cfg p' l ps' Q1 Q2 Q3]; subst. simpl. auto.
  - rewrite lrun_app. simpl. set (s := fst (lrun F ops lconf0)) in *.
    inversion IH as [Q|]; subst. simpl. rewrite <- Q. auto.
Qed.

(** What get_dict gives is what the innermost open path gives, however it came to be the innermost one; without open paths it raises *)
Theorem C50_get_dict ops ps : history ops ps ->
  match ps with
  | [] => get_dict (fst (lrun F ops lconf0)) = None
  | p :: _ => exists cfg, get_dict (fst (lrun F ops lconf0)) = Some cfg /\ shows cfg p
  end.
Proof.
  intros H. pose proof (C50_nearest ops ps H) as N. unfold get_dict. destruct N as [|cfg p l ps' S N]; [reflexivity|]. exists cfg. split; [reflexivity|exact S].
Qed.

(** A call of push_path succeeds iff the path exists and all slashconf files above
    can be imported: what was loaded before does not matter. *)
Theorem C50_cache_irrelevant ops ps p :
  history ops ps -> (snd (lstep F (Push p) (fst (lrun F ops lconf0))) = true <-> openable p).
Proof.
  intro H.
  assert (K : cache_ok (lc_cache (fst (lrun F ops lconf0)))).
  { induction H as [|ops ps q H K O|ops ps q H K O|ops ps q H K|ops H K].
    - intros d v. discriminate.
    - rewrite lrun_app. simpl. set (s := fst (lrun F ops lconf0)) in *.
      pose proof (build_spec q (lc_cache s) K) as [A B]. destruct (build_config F q (lc_cache s)) as [c [cfg|]]; auto.
    - rewrite lrun_app. simpl. set (s := fst (lrun F ops lconf0)) in *.
      pose proof (build_spec q (lc_cache s) K) as [A B]. destruct (build_config F q (lc_cache s)) as [c [cfg|]]; auto.
    - rewrite lrun_app. simpl. destruct (lc_configs (fst (lrun F ops lconf0))); auto.
    - rewrite lrun_app. simpl. destruct (lc_configs (fst (lrun F ops lconf0))); auto. }
  simpl. set (s := fst (lrun F ops lconf0)) in *.
  pose proof (build_spec p (lc_cache s) K) as [A B].
  destruct (build_config F p (lc_cache s)) as [c [cfg|]]; simpl in *; [tauto|].
  split; [discriminate|tauto].
Qed.
End S.

(** /1 defines 10, 11; /1/2 has two files defining 11; /3 has both a file and a directory *)
Definition ex_fs : fs := mkFs
  (fun d => match d with
            | [1] => CFiles [Some [(10, 1); (11, 1)]]
            | [2; 1] => CFiles [Some [(11, 2)]; Some [(11, 3); (12, 3)]]
            | [3] => CConflict
            | _ => CNone
            end)
  (fun d => match d with [] | [1] | [2; 1] | [3] => PDir | [5; 2; 1] => PFile | _ => PMissing end).

Example C50_ex_hyp : forall d l v, f_conf ex_fs d = CFiles l -> In (Some v) l -> d_ok v.
Proof.
  intros d l v H I. simpl in H.
  destruct d as [|[|[|[|[|]]]] [|[|[|]] [|]]]; try discriminate; injection H as <-;
    repeat (destruct I as [Q|I]; [injection Q as <-; repeat constructor; simpl; intuition discriminate|]); destruct I.
Qed.

Example C50_ex :
  lrun ex_fs [Push [5; 2; 1]; Push [3]; Push [7]; Push [1]] lconf0
  = (mkLc [([1], [(10, 1); (11, 1)]); ([1], [(10, 1); (11, 1)]); ([2; 1], [(11, 3); (12, 3)])]
          [[(10, 1); (11, 1)]; [(10, 1); (11, 3); (12, 3)]], [true; false; false; true]).
Proof. reflexivity. Qed.

Example C50_ex_visible : visible ex_fs [2; 1] 11 3 /\ visible ex_fs [2; 1] 10 1 /\ openable ex_fs [5; 2; 1].
Proof.
  pose proof (build_spec ex_fs C50_ex_hyp [5; 2; 1] []) as [_ B].
  { intros d v H. discriminate. }
  destruct B as [O B]. split; [|split; auto].
  - apply (B 11 3). reflexivity.
  - apply (B 10 1). reflexivity.
Qed.

Print Assumptions C50_nearest.
Print Assumptions C50_cache_irrelevant.
Print Assumptions C50_get_dict.
