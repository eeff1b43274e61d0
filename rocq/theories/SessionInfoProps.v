(** C138: what a session tells of itself.  C139: how variations are compared and written. *)

From Coq Require Import List Bool Arith ZArith Ascii String Lia Permutation Sorting.Sorted.
From Verif Require Import Str Loader LoaderProps Naming NamingProps Dict Variations SessionInfo.
Import ListNotations.
Local Open Scope list_scope.
Local Open Scope nat_scope.

(** ** C138 *)

(** calls that neither enter nor leave the context of the started session *)
Definition quiet (c : call) : Prop := match c with Enter _ _ | Leave _ => False | _ => True end.

Lemma quiet_times l : Forall quiet l -> forall s, i_start (fold_left called l s) = i_start s /\ i_end (fold_left called l s) = i_end s /\
  i_fqdn (fold_left called l s) = i_fqdn s /\ i_name (fold_left called l s) = i_name s.
Proof.
  induction 1 as [|c l Q _ IH]; intros s; [auto|]. cbn [fold_left]. destruct (IH (called s c)) as (-> & -> & -> & ->). destruct c; try contradiction; auto.
Qed.

(** the duration: zero before the start; while the session runs, the time since the start; when it has ended, the time from the
    start to the end, whenever it is asked for *)
Theorem C138_duration fqdn l1 l2 l3 a m b now : Forall quiet l1 -> Forall quiet l2 -> Forall quiet l3 -> a <> 0%Z ->
  let s0 := fold_left called l1 (new_session fqdn) in
  let s1 := fold_left called (Enter a m :: l2) s0 in
  let s2 := fold_left called (Leave b :: l3) s1 in
  duration s0 now = Some 0%Z /\ duration s1 now = Some (now - a)%Z /\ duration s2 now = Some (b - a)%Z.
Proof.
  intros Q1 Q2 Q3 N s0 s1 s2.
  assert (S0 : i_start s0 = None /\ i_end s0 = None) by (destruct (quiet_times l1 Q1 (new_session fqdn)) as (A & B & _); auto).
  assert (S1 : i_start s1 = Some a /\ i_end s1 = None).
  { destruct (quiet_times l2 Q2 (called s0 (Enter a m))) as (A & B & _). split; [exact A|]. transitivity (i_end s0); [exact B|apply S0]. }
  assert (S2 : i_start s2 = Some a /\ i_end s2 = Some b).
  { destruct (quiet_times l3 Q3 (called s1 (Leave b))) as (A & B & _). split; [transitivity (i_start s1); [exact A|apply S1]|exact B]. }
  unfold duration. destruct S0 as [-> ->], S1 as [-> ->], S2 as [-> ->]. apply Z.eqb_neq in N. rewrite N. repeat split. f_equal. lia.
Qed.

(** the duration can always be asked for if the context is only left after it was entered *)
Definition entered (l : list call) : Prop := forall l1 t l2, l = l1 ++ Leave t :: l2 -> exists a m, In (Enter a m) l1.

Theorem C138_no_error fqdn l now : entered l -> exists d, duration (fold_left called l (new_session fqdn)) now = Some d.
Proof.
  intros E.
  assert (H : i_end (fold_left called l (new_session fqdn)) <> None -> i_start (fold_left called l (new_session fqdn)) <> None).
  { revert E. induction l as [|c l IH] using rev_ind; intros E; [cbn; congruence|]. rewrite fold_left_app. cbn [fold_left].
    assert (E' : entered l). { intros l1 t l2 X. apply (E l1 t (l2 ++ [c])). rewrite X, <- app_assoc. reflexivity. }
    specialize (IH E'). destruct c; cbn [called i_start i_end]; try exact IH; [congruence|]. intros _.
    destruct (E l now0 [] eq_refl) as (a & m & I). clear - I. revert I. generalize (new_session fqdn).
    assert (G : forall l s, i_start s <> None -> i_start (fold_left called l s) <> None).
    { clear. induction l as [|c l IH]; intros s X; [exact X|]. cbn [fold_left]. apply IH. destruct c; cbn [called i_start]; congruence. }
    induction l as [|c l IH]; intros s I; [contradiction I|]. destruct I as [->|I].
    - cbn [fold_left]. apply G. cbn. congruence.
    - cbn [fold_left]. apply IH. exact I. }
  unfold duration. destruct (i_end _); [|destruct (i_start _); eexists; reflexivity]. destruct (i_start _); [eexists; reflexivity|]. exfalso. apply H; congruence.
Qed.

(** the numbers and types are those of all the calls *)
Theorem C138_counts fqdn l : let s := fold_left called l (new_session fqdn) in
  i_total s = list_sum (map (fun c => match c with Increment n => n | _ => 0 end) l) /\
  i_skips s = skip_test :: flat_map (fun c => match c with Register ty => [ty] | _ => [] end) l /\
  (i_complete s = true <-> In Complete l).
Proof.
  cbn zeta. induction l as [|c l IH] using rev_ind; [cbn; intuition congruence|]. rewrite fold_left_app, map_app, list_sum_app, flat_map_app. cbn [fold_left map list_sum fold_right flat_map].
  destruct IH as (I1 & I2 & I3). rewrite in_app_iff. cbn [In].
  destruct c; cbn [called i_total i_skips i_complete]; rewrite ?app_nil_r; (split; [rewrite I1; lia|split; [rewrite I2; reflexivity|]]); rewrite ?I3; intuition congruence.
Qed.

(** the number of tests is that of the tests that are going to run *)
Theorem C138_planned each all hook tests s : 
  match load each all false hook tests s with
  | (s', Some res) => i_total s' = i_total s + List.length res
  | (s', None) => True
  end.
Proof.
  unfold load. destruct (get_runnables each all false hook tests) as [res|] eqn:E; [|exact I]. cbn [called i_total]. f_equal.
  unfold get_runnables in E. apply allocate_some in E as (A & _ & _ & _).
  rewrite <- (map_length fst res), A, <- (Permutation_length (LoaderProps.sort_perm _)), map_length.
  rewrite <- (map_length (fun r => (r_round r, r_src r)) (set_pindex _ _)), set_pindex_map, map_length by auto. reflexivity.
Qed.

(** the name of the host: what stands before the first dot *)
Theorem C138_host fqdn l1 l2 a m : Forall quiet l2 ->
  exists f rest, i_name (fold_left called (l1 ++ Enter a m :: l2) (new_session fqdn)) = Some f /\ ~ In "."%char f /\
  (f ++ rest = match i_fqdn (fold_left called l1 (new_session fqdn)) with Some x => x | None => m end) /\
  (rest = [] \/ exists r, rest = "."%char :: r).
Proof.
  intros Q. rewrite fold_left_app. cbn [fold_left]. set (s := fold_left called l1 _). destruct (quiet_times l2 Q (called s (Enter a m))) as (_ & _ & _ & ->). cbn [called i_name].
  set (x := match i_fqdn s with Some x => x | None => m end). unfold first_label. destruct (split1 "."%char x) as [[h t]|] eqn:E.
  - apply split1_spec in E as [E N]. exists h, ("."%char :: t). split; [reflexivity|]. split; [exact N|]. split; [symmetry; exact E|]. right. eexists. reflexivity.
  - apply split1_none in E. exists x, []. rewrite app_nil_r. auto.
Qed.

(** a session that is started again has, while it runs, the time of its first end less that of its second start *)
Theorem C138_again_refuted : exists l now, entered l /\ duration (fold_left called l (new_session None)) now = Some (-10)%Z /\
  last l Complete = Enter 30 (lit "h") /\ now = 40%Z.
Proof.
  exists [Enter 10 (lit "h"); Leave 20; Enter 30 (lit "h")], 40%Z. split; [|repeat split].
  intros [|x l1] t l2 E; [discriminate E|]. exists 10%Z, (lit "h"). left. injection E as E _. symmetry. exact E.
Qed.

(** the interactive test is not counted *)
Theorem C138_interactive_refuted : exists tests res s, load 1 1 true r_key tests s = (called s (Increment 1), Some res) /\ List.length res = 2.
Proof. exists [mkSrc 7 3 1]. eexists. exists (new_session None). split; vm_compute; reflexivity. Qed.

(** a session of another machine name, in the same process, has the host of the first (the attribute is one of the class) *)
Theorem C138_host_refuted : exists f a m, i_fqdn (fold_left called [Enter a m] (new_session f)) <> Some m.
Proof. exists (Some (lit "old.net")), 1%Z, (lit "new.net"). cbn. discriminate. Qed.

Example C138_ex : let l := [Increment 3; Register 4; Enter 100 (lit "a.b.c"); Complete; Leave 130] in
  entered l /\ duration (fold_left called l (new_session None)) 500 = Some 30%Z /\ i_name (fold_left called l (new_session None)) = Some (lit "a").
Proof.
  split; [|split; reflexivity]. intros l1 t l2 E. destruct l1 as [|x1 [|x2 [|x3 l1]]]; try discriminate E.
  exists 100%Z, (lit "a.b.c"). right. right. left. injection E as _ _ E _. symmetry. exact E.
Qed.

(** ** C139 *)

Definition le_i (a b : item) : Prop := str_leb (fst a) (fst b) = true.

Lemma insert_item_perm b l : Permutation (b :: l) (insert_item b l).
Proof. induction l as [|c l IH]; cbn; auto. destruct (str_leb _ _); auto. rewrite perm_swap. constructor. auto. Qed.

Lemma sort_items_perm l : Permutation l (sort_items l).
Proof. induction l as [|b l IH]; cbn; auto. rewrite <- insert_item_perm. constructor. auto. Qed.

Lemma sort_items_sorted l : StronglySorted le_i (sort_items l).
Proof.
  induction l as [|b l IH]; cbn; [constructor|]. revert IH. generalize (sort_items l). clear l. induction 1 as [|c l S IH F]; cbn; [repeat constructor|].
  destruct (str_leb (fst b) (fst c)) eqn:E.
  - constructor; [constructor; auto|]. constructor; auto. revert F. apply Forall_impl. intros d. unfold le_i. eauto using str_leb_trans.
  - constructor; auto. apply Forall_forall. intros d Hd. apply (Permutation_in d (Permutation_sym (insert_item_perm b l))) in Hd. destruct Hd as [<-|Hd].
    + unfold le_i. destruct (str_leb_total (fst b) (fst c)); congruence.
    + rewrite Forall_forall in F. auto.
Qed.

Lemma items_unique l : forall l', Permutation l l' -> NoDup (map fst l) -> StronglySorted le_i l -> StronglySorted le_i l' -> l = l'.
Proof.
  induction l as [|b l IH]; intros l' P N S S'; [apply Permutation_nil in P; auto|].
  destruct l' as [|c l']; [apply Permutation_sym, Permutation_nil in P; discriminate|].
  inversion S as [|? ? S1 F]; subst. inversion S' as [|? ? S1' F']; subst. cbn in N. inversion N as [|? ? Ni N1]; subst.
  assert (Hc : b = c).
  { assert (Ic : In c (b :: l)) by (eapply Permutation_in; [apply Permutation_sym, P|left; reflexivity]).
    assert (Ib : In b (c :: l')) by (eapply Permutation_in; [apply P|left; reflexivity]).
    destruct Ic as [|Ic]; auto. destruct Ib as [|Ib]; auto. rewrite Forall_forall in F, F'.
    pose proof (str_leb_antisym _ _ (F c Ic) (F' b Ib)) as Q. destruct Ni. rewrite Q. apply in_map. auto. }
  subst c. f_equal. apply IH; auto. eapply Permutation_cons_inv. eauto.
Qed.

Definition digit_char (c : ascii) : Prop := In c (lit "0123456789").

Lemma digits_chars n : Forall digit_char (digits n).
Proof.
  unfold digits, lit. generalize (Nat.to_uint n). induction u; cbn; constructor; auto; unfold digit_char; cbn; tauto.
Qed.

Lemma number_end a : forall b c x d y, Forall digit_char a -> Forall digit_char b -> ~ digit_char c -> ~ digit_char d ->
  a ++ c :: x = b ++ d :: y -> a = b /\ c = d /\ x = y.
Proof.
  induction a as [|k a IH]; intros [|k' b] c x d y A B C D E; cbn in E.
  - injection E; auto.
  - injection E as -> E. inversion B; subst. contradiction.
  - injection E as <- E. inversion A; subst. contradiction.
  - injection E as -> E. inversion A; inversion B; subst. destruct (IH b c x d y) as (-> & -> & ->); auto.
Qed.

Lemma items_inj (l : list item) : forall l' : list item, (forall i, In i (l ++ l') -> ~ In quote (fst i)) ->
  join (lit ", ") (map dump_item l) ++ lit "}" = join (lit ", ") (map dump_item l') ++ lit "}" -> l = l'.
Proof.
  assert (T : forall i l, exists c x, join (lit ", ") (map dump_item (i :: l)) ++ lit "}" = quote :: fst i ++ quote :: ":"%char :: " "%char :: digits (snd i) ++ c :: x /\ ~ digit_char c /\
    (l = [] /\ c = "}"%char /\ x = [] \/ l <> [] /\ c = ","%char /\ x = " "%char :: join (lit ", ") (map dump_item l) ++ lit "}")).
  { intros i [|j l0].
    - exists "}"%char, []. split; [cbn [map join dump_item]; unfold dump_item; rewrite <- !app_assoc; reflexivity|]. split; [unfold digit_char; cbn; intuition discriminate|left; auto].
    - exists ","%char, (" "%char :: join (lit ", ") (map dump_item (j :: l0)) ++ lit "}"). split; [|split; [unfold digit_char; cbn; intuition discriminate|right; split; [discriminate|auto]]].
      change (join (lit ", ") (map dump_item (i :: j :: l0))) with (dump_item i ++ lit ", " ++ join (lit ", ") (map dump_item (j :: l0))).
      generalize (join (lit ", ") (map dump_item (j :: l0))). intros z. unfold dump_item. rewrite <- !app_assoc. reflexivity. }
  induction l as [|i l IH]; intros [|i' l'] N E; [reflexivity| | |].
  - destruct (T i' l') as (c & x & E1 & _). rewrite E1 in E. discriminate E.
  - destruct (T i l) as (c & x & E1 & _). rewrite E1 in E. discriminate E.
  - destruct (T i l) as (c & x & E1 & C & K). destruct (T i' l') as (c' & x' & E1' & C' & K'). rewrite E1, E1' in E. injection E as E.
    apply cut in E as [F E]; [|apply N; left; reflexivity|apply N; apply in_app_iff; right; left; reflexivity].
    injection E as E. apply number_end in E as (D & -> & X); auto using digits_chars. apply digits_inj in D.
    assert (i = i') as <- by (destruct i, i'; cbn in *; congruence). f_equal.
    destruct K as [(-> & K1 & K2)|(_ & K1 & K2)], K' as [(-> & K1' & K2')|(_ & K1' & K2')]; try congruence.
    apply IH; [|congruence]. intros j J. apply N. apply in_app_iff in J. apply in_app_iff. destruct J; [left; right|right; right]; assumption.
Qed.

(** the texts are equal exactly if the dictionaries are, whatever the order in which their items were put in *)
Theorem C139_dump a b : NoDup (map fst a) -> NoDup (map fst b) -> (forall i, In i (a ++ b) -> ~ In quote (fst i)) ->
  (dump a = dump b <-> forall i, In i a <-> In i b).
Proof.
  intros NA NB Q. split.
  - intros E. unfold dump in E. apply app_inv_head in E. apply items_inj in E.
    + intros i. rewrite (Permutation_in' (eq_refl i) (sort_items_perm a)), (Permutation_in' (eq_refl i) (sort_items_perm b)), E. tauto.
    + intros i I. apply Q. apply in_app_iff in I. apply in_app_iff. destruct I as [I|I]; [left|right]; (eapply Permutation_in; [apply Permutation_sym, sort_items_perm|exact I]).
  - intros E. assert (P : Permutation a b) by (apply NoDup_Permutation; eauto using NoDup_map_inv).
    unfold dump. do 3 f_equal. f_equal. apply items_unique; try apply sort_items_sorted.
    + rewrite <- sort_items_perm, P. apply sort_items_perm.
    + eapply Permutation_NoDup; [|exact NA]. apply Permutation_map, sort_items_perm.
Qed.

Lemma sub_spec (a b : @dict nat) : NoDup (map fst a) -> (forallb (fun i => match d_get (fst i) b with Some v => Nat.eqb v (snd i) | None => false end) a = true <->
  forall k v, d_get k a = Some v -> d_get k b = Some v).
Proof.
  intros N. rewrite forallb_forall. split.
  - intros H k v G.
    assert (I : In (k, v) a). { clear - G. induction a as [|[k' v'] a IH]; [discriminate|]. cbn in G. destruct (Nat.eqb_spec k k') as [->|]; [injection G as ->; left; reflexivity|right; auto]. }
    specialize (H _ I). cbn in H. destruct (d_get k b); [|discriminate]. apply Nat.eqb_eq in H. congruence.
  - intros H [k v] I. cbn [fst snd].
    assert (G : d_get k a = Some v).
    { clear H. induction a as [|[k' v'] a IH]; [contradiction|]. cbn in N. inversion N as [|? ? Ni N1]; subst. cbn [d_get]. destruct I as [E|I].
      - injection E as -> ->. cbn. rewrite Nat.eqb_refl. reflexivity.
      - cbn. destruct (Nat.eqb_spec k k') as [->|]; [exfalso; apply Ni; apply (in_map fst) in I; exact I|apply IH; auto]. }
    rewrite (H _ _ G). apply Nat.eqb_refl.
Qed.

(** variations are equal exactly if they choose the same values for the same parametrizations *)
Theorem C139_equal a b : NoDup (map fst (v_indices a)) -> NoDup (map fst (v_indices b)) ->
  (variation_eqb a b = true <-> forall p, d_get p (v_indices a) = d_get p (v_indices b)).
Proof.
  intros NA NB. unfold variation_eqb, dict_eqb. rewrite andb_true_iff, !sub_spec by assumption. split.
  - intros [H1 H2] p. destruct (d_get p (v_indices a)) eqn:E; [symmetry; auto|]. destruct (d_get p (v_indices b)) eqn:E2; [|reflexivity]. apply H2 in E2. congruence.
  - intros H. split; intros k v; rewrite H; auto.
Qed.

(** different variations can be written alike: parametrizations without a name of their own are not part of what is written (those
    of before methods of a class and its base class that have the same name, C90), so that workers and the server cannot tell the
    tests apart *)
Theorem C139_hidden_refuted : exists a b names, bind_names names (v_indices a) [] = Some (v_id a) /\ bind_names names (v_indices b) [] = Some (v_id b) /\
  variation_eqb a b = false /\ v_id a = v_id b.
Proof. exists (mkVar [(1, 0); (2, 0)] [(5, 0)]), (mkVar [(1, 0); (2, 1)] [(5, 0)]), [(5, 1)]. repeat split. Qed.

Example C139_ex : let a := [(lit "x", 10); (lit "a.b", 0)] in let b := [(lit "a.b", 0); (lit "x", 10)] in
  NoDup (map fst a) /\ (forall i, In i (a ++ b) -> ~ In quote (fst i)) /\ dump a = dump b /\
  dump a = [("{")%char; quote] ++ lit "a.b" ++ [quote] ++ lit ": 0, " ++ [quote] ++ lit "x" ++ [quote] ++ lit ": 10}".
Proof.
  split; [repeat constructor; cbn; intuition discriminate|]. split; [|split; reflexivity].
  intros i I. cbn in I. repeat (destruct I as [<-|I]; [cbn; intuition discriminate|]). contradiction.
Qed.

Print Assumptions C138_duration.
Print Assumptions C138_no_error.
Print Assumptions C138_counts.
Print Assumptions C138_planned.
Print Assumptions C138_host.
Print Assumptions C138_again_refuted.
Print Assumptions C138_interactive_refuted.
Print Assumptions C138_host_refuted.
Print Assumptions C139_dump.
Print Assumptions C139_equal.
Print Assumptions C139_hidden_refuted.
