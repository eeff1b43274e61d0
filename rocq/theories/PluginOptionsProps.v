(** C126: the options of plugins on the command line. *)

From Coq Require Import List Bool Arith Ascii String Permutation Lia.
From Verif Require Import Str Plugins PluginsProps ParPlugins ParPluginsProps PluginConf PluginOptions.
Import ListNotations.
Open Scope string_scope.
Open Scope list_scope.

(** ** What the groups should be *)

(** the part of a text before a dot *)
Fixpoint before_dot (s : str) : str := match s with [] => [] | c :: s' => if Ascii.eqb c "."%char then [] else c :: before_dot s' end.

(** the plugin a path of the configuration belongs to *)
Definition plugin_of (path : str) : option str := option_map before_dot (strip_prefix (lit "plugin_config.") path).

(** the options of a leaf *)
Definition given (o : option str) : list str := match o with Some f => [f] | None => [] end.
Definition options_of (x : leaf) : list str :=
  match l_cmdline x with
  | None => []
  | Some c => given (c_arg c) ++ given (c_append c) ++ given (c_on c) ++ given (c_off c) ++ given (c_increase c) ++ given (c_decrease c)
  end.

(** the distinct elements, in the order in which they first appear *)
Fixpoint firsts (l : list str) : list str :=
  match l with [] => [] | x :: l' => x :: filter (fun y => negb (str_eqb x y)) (firsts l') end.

(** the plugins of the leaves that have options *)
Definition sections (l : list leaf) : list str :=
  flat_map (fun x => match l_cmdline x, plugin_of (l_path x) with Some _, Some n => [n] | _, _ => [] end) l.

(** the options of the leaves of a plugin; those of no plugin *)
Definition options_in (n : str) (l : list leaf) : list str :=
  flat_map (fun x => match plugin_of (l_path x) with Some m => if str_eqb n m then options_of x else [] | None => [] end) l.
Definition options_outside (l : list leaf) : list str :=
  flat_map (fun x => match plugin_of (l_path x) with Some _ => [] | None => options_of x end) l.

(** ** Adding options *)

Lemma update_app {A} (f : A -> A) a x b : update (List.length a) f (a ++ x :: b) = a ++ f x :: b.
Proof. induction a as [|y a IH]; cbn; congruence. Qed.

Definition at_target (t : target) (fs : list str) (p : parser) : parser :=
  match t with
  | Direct => mkParser (direct p ++ fs) (groups p)
  | Group i => mkParser (direct p) (update i (fun g => (fst g, snd g ++ fs)) (groups p))
  end.

Definition fits (t : target) (p : parser) : Prop := match t with Direct => True | Group i => i < List.length (groups p) end.

Lemma update_len {A} i (f : A -> A) l : List.length (update i f l) = List.length l.
Proof. revert i. induction l; intros [|i]; cbn; auto. Qed.

Lemma fits_at t fs p u : fits u p -> fits u (at_target t fs p).
Proof. destruct u; cbn; auto. destruct t; cbn; rewrite ?update_len; auto. Qed.

Lemma taken_at t fs p : fits t p -> Permutation (taken (at_target t fs p)) (taken p ++ fs).
Proof.
  destruct t as [|i]; cbn [at_target]; unfold taken; cbn [direct groups]; intros F.
  - rewrite <- !app_assoc. apply Permutation_app_head, Permutation_app_comm.
  - cbn in F. rewrite <- app_assoc. apply Permutation_app_head. revert i F. induction (groups p) as [|g l IH]; intros i F; [cbn in F; lia|].
    destruct i as [|i]; cbn [update map List.concat snd].
    + rewrite <- !app_assoc. apply Permutation_app_head, Permutation_app_comm.
    + rewrite <- app_assoc. apply Permutation_app_head, IH. cbn in F. lia.
Qed.

Lemma update_update {A} i (f g : A -> A) l : update i g (update i f l) = update i (fun x => g (f x)) l.
Proof. revert i. induction l; intros [|i]; cbn; congruence. Qed.
Lemma update_ext {A} i (f g : A -> A) l : (forall x, f x = g x) -> update i f l = update i g l.
Proof. intros E. revert i. induction l; intros [|i]; cbn; congruence. Qed.
Lemma update_id {A} i (f : A -> A) l : (forall x, f x = x) -> update i f l = l.
Proof. intros E. revert i. induction l; intros [|i]; cbn; congruence. Qed.

Lemma at_nil t p : at_target t [] p = p.
Proof.
  destruct p, t; cbn; [rewrite app_nil_r; auto|]. f_equal. apply update_id. intros [a b]. cbn. rewrite app_nil_r. reflexivity.
Qed.
Lemma at_cons t f fs p : at_target t fs (at_target t [f] p) = at_target t (f :: fs) p.
Proof.
  destruct t; cbn; [rewrite <- app_assoc; auto|]. f_equal. rewrite update_update. apply update_ext. intros [a b]. cbn. rewrite <- app_assoc. reflexivity.
Qed.

Lemma add_argument_cases t f p : (In f (taken p) /\ add_argument t f p = (p, Some (Taken f))) \/ (~ In f (taken p) /\ add_argument t f p = (at_target t [f] p, None)).
Proof.
  unfold add_argument. destruct (s_mem f (taken p)) eqn:E; [apply s_mem_In in E; auto|]. apply s_mem_false in E. right. auto.
Qed.

Lemma NoDup_app {A} (a b : list A) : NoDup (a ++ b) <-> NoDup a /\ NoDup b /\ forall x, In x a -> ~ In x b.
Proof.
  induction a as [|x a IH]; cbn.
  - split; [intros; repeat split; auto; constructor|tauto].
  - rewrite !NoDup_cons_iff, IH, in_app_iff. split.
    + intros (N & H1 & H2 & H3). repeat split; auto. intros y [<-|I]; auto.
    + intros ((N & H1) & H2 & H3). repeat split; auto. intros [I|I]; [auto|]. apply (H3 x); auto.
Qed.

Lemma add_arguments_spec t fs : forall p, fits t p -> NoDup (taken p) ->
  match add_arguments t fs p with
  | (p', None) => p' = at_target t fs p /\ NoDup (taken p ++ fs)
  | (p', Some e) => (exists f, e = Taken f) /\ ~ NoDup (taken p ++ fs)
  end.
Proof.
  induction fs as [|f fs IH]; intros p F N; cbn [add_arguments].
  - rewrite at_nil, app_nil_r. auto.
  - destruct (add_argument_cases t f p) as [[I ->]|[I ->]].
    + split; [eauto|]. rewrite NoDup_app. intros (_ & _ & D). apply (D f I). left; auto.
    + assert (P : Permutation (taken (at_target t [f] p)) (taken p ++ [f])) by (apply taken_at; auto).
      assert (N1 : NoDup (taken (at_target t [f] p))).
      { apply (Permutation_NoDup (Permutation_sym P)). apply NoDup_app. repeat split; [auto|constructor; [auto|constructor]|].
        intros x Ix [->|[]]. auto. }
      specialize (IH _ (fits_at _ [f] _ _ F) N1).
      assert (P2 : Permutation (taken (at_target t [f] p) ++ fs) (taken p ++ f :: fs)).
      { change (f :: fs) with ([f] ++ fs). rewrite app_assoc. apply Permutation_app_tail; auto. }
      destruct (add_arguments t fs _) as [p' [e|]].
      * destruct IH as [A B]. split; auto. intros C. apply B. apply (Permutation_NoDup (Permutation_sym P2)); auto.
      * destruct IH as [A B]. rewrite at_cons in A. split; auto. apply (Permutation_NoDup P2); auto.
Qed.

(** ** The names of the groups *)

Lemma split_second a s : ~ In "."%char a -> nth_error (split_all "."%char (a ++ "."%char :: s)) 1 = Some (before_dot s).
Proof.
  intros N.
  assert (H : forall s, exists w, split_all "."%char s = before_dot s :: w).
  { clear. induction s as [|c s IH]; cbn; [eauto|]. destruct (Ascii.eqb c "."); [eauto|]. destruct IH as [w ->]. eauto. }
  induction a as [|c a IH]; cbn [app split_all].
  - rewrite Ascii.eqb_refl. cbn [nth_error]. destruct (H s) as [w ->]. auto.
  - cbn in N. destruct (Ascii.eqb_spec c "."%char) as [->|]; [destruct N; auto|].
    destruct (split_all "." (a ++ "."%char :: s)) as [|w ws] eqn:E.
    + assert (X : nth_error (@nil str) 1 = Some (before_dot s)) by (apply IH; tauto). discriminate.
    + apply IH. tauto.
Qed.

Lemma plugin_path path : (starts plugin_prefix path = false /\ plugin_of path = None)
  \/ exists n, starts plugin_prefix path = true /\ plugin_of path = Some n /\ nth_error (split_all "."%char path) 1 = Some n.
Proof.
  unfold starts, plugin_of, plugin_prefix. destruct (strip_prefix _ path) as [r|] eqn:E; [|auto]. right. exists (before_dot r).
  apply strip_prefix_spec in E. subst. repeat split.
  change (lit "plugin_config." ++ r) with (lit "plugin_config" ++ "."%char :: r). apply split_second. cbn. intuition discriminate.
Qed.

Lemma firsts_In x l : In x (firsts l) <-> In x l.
Proof.
  induction l as [|y l IH]; cbn; [tauto|]. rewrite filter_In, IH, negb_true_iff. destruct (str_eqb_spec y x) as [E|E]; intuition (congruence || auto).
Qed.
Lemma firsts_NoDup l : NoDup (firsts l).
Proof.
  induction l as [|y l IH]; cbn; constructor.
  - rewrite filter_In, negb_true_iff. intros [_ Q]. destruct (str_eqb_spec y y); congruence.
  - apply NoDup_filter. auto.
Qed.
Lemma filter_app_s {A} (f : A -> bool) a b : filter f (a ++ b) = filter f a ++ filter f b.
Proof. induction a as [|x a IH]; cbn; auto. destruct (f x); cbn; congruence. Qed.
Lemma firsts_snoc l x : firsts (l ++ [x]) = if s_mem x l then firsts l else firsts l ++ [x].
Proof.
  induction l as [|y l IH]; cbn; auto. rewrite IH. unfold s_mem in *. cbn [existsb].
  destruct (str_eqb_spec x y) as [->|E]; cbn [orb].
  - destruct (existsb (str_eqb y) l); [auto|]. rewrite filter_app_s. cbn. destruct (str_eqb_spec y y); [|congruence]. cbn. rewrite app_nil_r. auto.
  - destruct (existsb (str_eqb x) l); [auto|]. rewrite filter_app_s. cbn. destruct (str_eqb_spec y x) as [Q|_]; [congruence|]. auto.
Qed.

Lemma get_combine n : forall ns b, In n ns -> exists u w, ns = u ++ n :: w /\ s_get n (combine ns (List.seq b (List.length ns))) = Some (b + List.length u).
Proof.
  induction ns as [|m ns IH]; intros b I; [destruct I|]. cbn [List.length List.seq combine s_get]. destruct (str_eqb_spec n m) as [<-|E].
  - exists [], ns. cbn. rewrite Nat.add_0_r. auto.
  - destruct I as [->|I]; [congruence|]. destruct (IH (S b) I) as (u & w & -> & G). exists (m :: u), w. split; auto. rewrite G. cbn. f_equal. lia.
Qed.
Lemma get_combine_none n : forall ns b, ~ In n ns -> s_get n (combine ns (List.seq b (List.length ns))) = None.
Proof.
  induction ns as [|m ns IH]; intros b I; auto. cbn [List.length List.seq combine s_get]. cbn in I. destruct (str_eqb_spec n m) as [<-|E]; [tauto|]. apply IH. tauto.
Qed.
Lemma set_combine n : forall ns b, ~ In n ns -> s_set n (b + List.length ns) (combine ns (List.seq b (List.length ns))) = combine (ns ++ [n]) (List.seq b (List.length (ns ++ [n]))).
Proof.
  induction ns as [|m ns IH]; intros b I; [cbn; rewrite Nat.add_0_r; auto|]. cbn [List.length List.seq combine s_set app]. cbn in I. destruct (str_eqb_spec n m) as [<-|E]; [tauto|]. f_equal.
  rewrite <- IH by tauto. f_equal. lia.
Qed.

(** ** The state of the loop *)

Section Loop.
Variable p0 : parser.

Definition group_of (l : list leaf) (n : str) : str * list str := (config_title n, options_in n l).
Definition state_of (l : list leaf) : parser :=
  mkParser (direct p0 ++ options_outside l) (groups p0 ++ map (group_of l) (firsts (sections l))).
Definition dict_of (l : list leaf) : list (str * nat) :=
  combine (firsts (sections l)) (List.seq (List.length (groups p0)) (List.length (firsts (sections l)))).

Lemma options_in_snoc n l x : options_in n (l ++ [x]) = options_in n l ++ options_in n [x].
Proof. unfold options_in. rewrite flat_map_app. auto. Qed.
Lemma options_out_snoc l x : options_outside (l ++ [x]) = options_outside l ++ options_outside [x].
Proof. unfold options_outside. rewrite flat_map_app. auto. Qed.
Lemma sections_snoc l x : sections (l ++ [x]) = sections l ++ sections [x].
Proof. unfold sections. rewrite flat_map_app. auto. Qed.

Lemma options_in_none n l : ~ In n (sections l) -> options_in n l = [].
Proof.
  induction l as [|x l IH]; cbn; auto. unfold options_of at 1. intros N. rewrite in_app_iff in N.
  destruct (plugin_of (l_path x)) as [m|]; [|apply IH; tauto]. destruct (l_cmdline x).
  - destruct (str_eqb_spec n m) as [->|E]; [cbn in N; tauto|]. apply IH. tauto.
  - destruct (str_eqb n m); apply IH; tauto.
Qed.

Lemma state_of_group l x n c : l_cmdline x = Some c -> plugin_of (l_path x) = Some n -> ~ In n (sections l) ->
  state_of (l ++ [x]) = at_target (Group (List.length (groups p0 ++ map (group_of l) (firsts (sections l))))) (options_of x) (fst (add_group (config_title n) (state_of l)))
  /\ dict_of (l ++ [x]) = s_set n (List.length (groups (state_of l))) (dict_of l).
Proof.
  intros C P N.
  assert (S1 : sections [x] = [n]) by (cbn; rewrite C, P; auto).
  assert (F : firsts (sections (l ++ [x])) = firsts (sections l) ++ [n]).
  { rewrite sections_snoc, S1, firsts_snoc. rewrite <- s_mem_false in N. rewrite N. auto. }
  split.
  - unfold state_of at 1. rewrite F, options_out_snoc. replace (options_outside [x]) with (@nil str) by (cbn; rewrite P; auto). rewrite app_nil_r.
    cbn [at_target add_group fst state_of direct groups]. f_equal. rewrite update_app. cbn [fst snd app]. rewrite map_app, app_assoc. cbn [map]. f_equal.
    + f_equal. apply map_ext_in. intros m I. unfold group_of. rewrite options_in_snoc. f_equal.
      replace (options_in m [x]) with (@nil str); [rewrite app_nil_r; auto|]. cbn. rewrite P. destruct (str_eqb_spec m n) as [->|]; auto.
      rewrite firsts_In in I. tauto.
    + unfold group_of. rewrite options_in_snoc, (options_in_none n l N). cbn. rewrite P. destruct (str_eqb_spec n n); [|congruence]. rewrite app_nil_r. auto.
  - unfold dict_of. rewrite F. cbn [state_of groups]. rewrite (app_length (groups p0)), map_length. rewrite <- set_combine; [auto|]. rewrite firsts_In. auto.
Qed.

Lemma state_of_known l x n c : l_cmdline x = Some c -> plugin_of (l_path x) = Some n -> In n (sections l) ->
  exists i, s_get n (dict_of l) = Some i /\ i < List.length (groups (state_of l)) /\ state_of (l ++ [x]) = at_target (Group i) (options_of x) (state_of l) /\ dict_of (l ++ [x]) = dict_of l.
Proof.
  intros C P I.
  assert (S1 : sections [x] = [n]) by (cbn; rewrite C, P; auto).
  assert (F : firsts (sections (l ++ [x])) = firsts (sections l)).
  { rewrite sections_snoc, S1, firsts_snoc. rewrite <- s_mem_In in I. rewrite I. auto. }
  assert (I2 : In n (firsts (sections l))) by (apply firsts_In; auto).
  destruct (get_combine n _ (List.length (groups p0)) I2) as (u & w & Q & G). pose proof (firsts_NoDup (sections l)) as ND.
  exists (List.length (groups p0) + List.length u). split; [exact G|]. split.
  - cbn [state_of groups]. rewrite app_length, map_length, Q, app_length. cbn. lia.
  - split; [|unfold dict_of; rewrite F; auto]. unfold state_of. rewrite F, options_out_snoc. replace (options_outside [x]) with (@nil str) by (cbn; rewrite P; auto). rewrite app_nil_r.
    cbn [at_target direct groups]. f_equal. rewrite Q in ND |- *. rewrite !map_app, !app_assoc. cbn [map].
    replace (List.length (groups p0) + List.length u) with (List.length (groups p0 ++ map (group_of l) u)) by (rewrite app_length, map_length; auto).
    rewrite update_app. cbn [fst snd].
    assert (O : forall m, In m u \/ In m w -> group_of (l ++ [x]) m = group_of l m).
    { intros m Im. unfold group_of. rewrite options_in_snoc. f_equal. replace (options_in m [x]) with (@nil str); [rewrite app_nil_r; auto|].
      cbn. rewrite P. destruct (str_eqb_spec m n) as [->|]; auto. exfalso. apply NoDup_remove_2 in ND. rewrite in_app_iff in ND. tauto. }
    assert (Ou : map (group_of (l ++ [x])) u = map (group_of l) u) by (apply map_ext_in; auto).
    assert (Ow : map (group_of (l ++ [x])) w = map (group_of l) w) by (apply map_ext_in; auto).
    rewrite Ou, Ow. f_equal. f_equal. unfold group_of. cbn [fst snd]. f_equal. rewrite options_in_snoc. f_equal. cbn. rewrite P.
    destruct (str_eqb_spec n n); [|congruence]. apply app_nil_r.
Qed.

Lemma state_of_outside l x : plugin_of (l_path x) = None ->
  state_of (l ++ [x]) = at_target Direct (options_of x) (state_of l) /\ dict_of (l ++ [x]) = dict_of l.
Proof.
  intros P. assert (S1 : sections [x] = []) by (cbn; rewrite P; destruct (l_cmdline x); auto).
  assert (F : sections (l ++ [x]) = sections l) by (rewrite sections_snoc, S1, app_nil_r; auto).
  split; [|unfold dict_of; rewrite F; auto]. unfold state_of. cbn [at_target direct groups]. rewrite F, options_out_snoc, app_assoc.
  replace (options_outside [x]) with (options_of x) by (cbn; rewrite P, app_nil_r; auto). f_equal. f_equal. apply map_ext. intros m. unfold group_of. rewrite options_in_snoc.
  replace (options_in m [x]) with (@nil str); [rewrite app_nil_r; auto|]. cbn. rewrite P. auto.
Qed.

Lemma state_of_plain l x : l_cmdline x = None -> state_of (l ++ [x]) = state_of l /\ dict_of (l ++ [x]) = dict_of l /\ options_of x = [].
Proof.
  intros C. assert (O : options_of x = []) by (unfold options_of; rewrite C; auto).
  assert (S1 : sections [x] = []) by (cbn; rewrite C; auto).
  assert (F : sections (l ++ [x]) = sections l) by (rewrite sections_snoc, S1, app_nil_r; auto).
  split; [|split; [unfold dict_of; rewrite F; auto|auto]]. unfold state_of. rewrite F, options_out_snoc.
  replace (options_outside [x]) with (@nil str) by (cbn; rewrite O; destruct (plugin_of _); auto). rewrite app_nil_r. f_equal. f_equal. apply map_ext. intros m. unfold group_of. rewrite options_in_snoc.
  replace (options_in m [x]) with (@nil str); [rewrite app_nil_r; auto|]. cbn. rewrite O. destruct (plugin_of _) as [k|]; [destruct (str_eqb m k)|]; auto.
Qed.

Lemma loop_spec rest : forall l, NoDup (taken (state_of l)) ->
  match config_loop rest (dict_of l) (state_of l) with
  | (p', None) => p' = state_of (l ++ rest) /\ NoDup (taken (state_of l) ++ flat_map options_of rest)
  | (p', Some e) => (exists f, e = Taken f) /\ ~ NoDup (taken (state_of l) ++ flat_map options_of rest)
  end.
Proof.
  induction rest as [|x rest IH]; intros l N; cbn [config_loop flat_map].
  - rewrite !app_nil_r. auto.
  - assert (Step : forall t q, fits t q -> Permutation (taken q) (taken (state_of l)) -> state_of (l ++ [x]) = at_target t (options_of x) q ->
      match (match add_arguments t (options_of x) q with (p1, None) => config_loop rest (dict_of (l ++ [x])) p1 | (p1, e) => (p1, e) end) with
      | (p', None) => p' = state_of (l ++ x :: rest) /\ NoDup (taken (state_of l) ++ options_of x ++ flat_map options_of rest)
      | (p', Some e) => (exists f, e = Taken f) /\ ~ NoDup (taken (state_of l) ++ options_of x ++ flat_map options_of rest)
      end).
    { intros t q F P E. pose proof (add_arguments_spec t (options_of x) q F (Permutation_NoDup (Permutation_sym P) N)) as A.
      destruct (add_arguments t (options_of x) q) as [p1 [e|]].
      - destruct A as [A B]. split; auto. intros C. apply B. rewrite app_assoc in C. apply NoDup_app in C as [C _].
        apply (Permutation_NoDup (l := taken (state_of l) ++ options_of x)); auto. apply Permutation_app_tail, Permutation_sym. auto.
      - destruct A as [-> A]. rewrite <- E.
        assert (P2 : Permutation (taken (state_of (l ++ [x]))) (taken (state_of l) ++ options_of x)).
        { rewrite E. transitivity (taken q ++ options_of x); [apply taken_at; auto|apply Permutation_app_tail; auto]. }
        assert (N2 : NoDup (taken (state_of (l ++ [x])))).
        { apply (Permutation_NoDup (l := taken q ++ options_of x)); auto. rewrite E. apply Permutation_sym, taken_at. auto. }
        specialize (IH (l ++ [x]) N2). rewrite <- app_assoc in IH. cbn [app] in IH.
        assert (P3 : Permutation (taken (state_of (l ++ [x])) ++ flat_map options_of rest) (taken (state_of l) ++ options_of x ++ flat_map options_of rest)).
        { rewrite (app_assoc (taken (state_of l))). apply Permutation_app_tail. auto. }
        destruct (config_loop rest _ _) as [p' [e|]].
        + destruct IH as [I1 I2]. split; auto. intros C. apply I2. apply (Permutation_NoDup (Permutation_sym P3)). auto.
        + destruct IH as [I1 I2]. split; auto. apply (Permutation_NoDup P3). auto. }
    assert (CP : forall c t q, l_cmdline x = Some c -> configure_parser c t q = add_arguments t (options_of x) q).
    { intros c t q C. unfold configure_parser, options_of. rewrite C. reflexivity. }
    destruct (l_cmdline x) as [c|] eqn:C.
    + destruct (plugin_path (l_path x)) as [[S P]|(n & S & P & T)]; rewrite S.
      * destruct (state_of_outside l x P) as [E D]. rewrite (CP c) by auto. rewrite <- D. apply Step; cbn; auto.
      * rewrite T. destruct (in_dec str_dec n (sections l)) as [I|I].
        -- destruct (state_of_known l x n c C P I) as (i & G & L & E & D). rewrite G, (CP c) by auto. rewrite <- D. apply Step; cbn; auto.
        -- destruct (state_of_group l x n c C P I) as (E & D).
           replace (s_get n (dict_of l)) with (@None nat) by (symmetry; apply get_combine_none; rewrite firsts_In; auto).
           cbn [add_group]. rewrite (CP c) by auto. rewrite <- D. change (groups (state_of l)) with (groups p0 ++ map (group_of l) (firsts (sections l))).
           apply Step; [|unfold taken; cbn [direct groups]; rewrite map_app, concat_app; cbn; rewrite !app_nil_r; auto|exact E].
           cbn [fits groups]. rewrite (app_length _ [_]). cbn. lia.
    + destruct (state_of_plain l x C) as (E & D & O). specialize (IH (l ++ [x])). rewrite E, D in IH. rewrite <- app_assoc in IH. rewrite O. cbn [app] in *. apply IH. auto.
Qed.
End Loop.

(** ** C126 *)

(** The options of the configuration: after -o, each leaf's options in the order of the leaves, those of a plugin's configuration in
    one group for that plugin, the groups in the order in which their plugins first appear, the others directly in the
    parser.  ArgumentError is raised exactly when an option string would be there twice. *)
Theorem C126_by_config p l : NoDup (taken p) ->
  match by_config l p with
  | (p', None) => direct p' = direct p ++ lit "-o" :: options_outside l
      /\ groups p' = groups p ++ map (fun n => (lit "options for the " ++ n ++ lit " plugin (--with-" ++ n ++ lit ")", options_in n l)) (firsts (sections l))
      /\ NoDup (taken p ++ lit "-o" :: flat_map options_of l)
  | (_, Some e) => (exists f, e = Taken f) /\ ~ NoDup (taken p ++ lit "-o" :: flat_map options_of l)
  end.
Proof.
  intros N. unfold by_config. destruct (add_argument_cases Direct (lit "-o") p) as [[I ->]|[I ->]].
  - split; [eauto|]. rewrite NoDup_app. intros (_ & _ & D). apply (D _ I). left; auto.
  - set (p1 := at_target Direct [lit "-o"] p).
    assert (P : Permutation (taken p1) (taken p ++ [lit "-o"])) by (apply (taken_at Direct); exact Logic.I).
    assert (E : state_of p1 [] = p1) by (unfold state_of; cbn; rewrite !app_nil_r; reflexivity).
    assert (N1 : NoDup (taken p1)).
    { apply (Permutation_NoDup (Permutation_sym P)). apply NoDup_app. repeat split; [auto|constructor; [auto|constructor]|]. intros x Ix [<-|[]]. auto. }
    assert (P2 : Permutation (taken p1 ++ flat_map options_of l) (taken p ++ lit "-o" :: flat_map options_of l)).
    { change (lit "-o" :: flat_map options_of l) with ([lit "-o"] ++ flat_map options_of l). rewrite app_assoc. apply Permutation_app_tail. auto. }
    pose proof (loop_spec p1 l []) as L. rewrite E in L. specialize (L N1). change (dict_of p1 []) with (@nil (str * nat)) in L. cbn [app] in L.
    destruct (config_loop l [] p1) as [p' [e|]].
    + destruct L as [A B]. split; auto. intros C. apply B. apply (Permutation_NoDup (Permutation_sym P2)). auto.
    + destruct L as [-> B]. split; [|split].
      * unfold state_of, p1. cbn [direct at_target]. rewrite <- app_assoc. auto.
      * unfold state_of, p1. cbn [groups at_target]. auto.
      * apply (Permutation_NoDup P2). auto.
Qed.
Print Assumptions C126_by_config.

(** which plugins have a group, each one *)
Theorem C126_one_group l : NoDup (firsts (sections l))
  /\ forall n, In n (firsts (sections l)) <-> exists x, In x l /\ l_cmdline x <> None /\ plugin_of (l_path x) = Some n.
Proof.
  split; [apply firsts_NoDup|]. intros n. rewrite firsts_In. unfold sections. rewrite in_flat_map. split.
  - intros (x & I & Q). exists x. split; auto. destruct (l_cmdline x); [|destruct Q]. destruct (plugin_of _); [|destruct Q]. destruct Q as [->|[]]. split; [discriminate|auto].
  - intros (x & I & Q & P). exists x. split; auto. rewrite P. destruct (l_cmdline x); [left; auto|congruence].
Qed.
Print Assumptions C126_one_group.

(** the settings of an installed plugin belong to the group of its name in the configuration *)
Theorem C126_own_group n rest : forallb legal_char n = true ->
  plugin_of (lit "plugin_config." ++ config_name n ++ "."%char :: rest) = Some (config_name n).
Proof.
  intros L. unfold plugin_of. destruct (strip_prefix _ _) as [r|] eqn:E.
  - apply strip_prefix_spec in E. apply app_inv_head in E. subst r. cbn [option_map]. f_equal.
    induction n as [|c n IH]; [reflexivity|]. cbn [forallb] in L. apply andb_true_iff in L as [L1 L2]. cbn [config_name map app before_dot].
    destruct (Ascii.eqb_spec c " "%char) as [->|Ns].
    + cbn. f_equal. apply IH. auto.
    + destruct (Ascii.eqb_spec c "."%char) as [->|]; [discriminate|]. f_equal. apply IH. auto.
  - assert (X : strip_prefix (lit "plugin_config.") (lit "plugin_config." ++ config_name n ++ "."%char :: rest) = Some (config_name n ++ "."%char :: rest)) by (apply strip_prefix_spec; auto).
    congruence.
Qed.
Print Assumptions C126_own_group.

(** The groups of configure_argument_parser: one for each installed plugin, in order, with the options the plugin added. *)
Theorem C126_by_plugins options l p : NoDup (taken p) ->
  match by_plugins options l p with
  | (p', None) => direct p' = direct p
      /\ groups p' = groups p ++ map (fun e : str * (plugin * bool) => let (pl, internal) := snd e in
           (lit "Options for " ++ (if internal then [] else lit "--with-") ++ map (fun c => if Ascii.eqb c " "%char then "-"%char else c) (p_name pl), options (p_id pl))) l
      /\ NoDup (taken p ++ flat_map (fun e => options (p_id (fst (snd e)))) l)
  | (_, Some e) => (exists f, e = Taken f) /\ ~ NoDup (taken p ++ flat_map (fun e => options (p_id (fst (snd e)))) l)
  end.
Proof.
  revert p. induction l as [|[k [pl i]] l IH]; intros p N; cbn [by_plugins map flat_map fst snd].
  - rewrite !app_nil_r. auto.
  - cbn [add_group]. set (q := mkParser (direct p) (groups p ++ [(plugin_title pl i, [])])).
    assert (T : taken q = taken p) by (unfold taken, q; cbn [direct groups]; rewrite map_app, concat_app; cbn; rewrite !app_nil_r; auto).
    assert (F : fits (Group (List.length (groups p))) q) by (cbn; rewrite app_length; cbn; lia).
    rewrite <- T in N. pose proof (add_arguments_spec (Group (List.length (groups p))) (options (p_id pl)) q F N) as A.
    destruct (add_arguments _ _ q) as [p1 [e|]].
    + destruct A as [A B]. split; auto. rewrite T in B. intros C. apply B. rewrite app_assoc in C. apply NoDup_app in C. tauto.
    + destruct A as [-> A]. pose proof (taken_at _ (options (p_id pl)) q F) as P.
      specialize (IH _ (Permutation_NoDup (Permutation_sym P) A)).
      assert (P2 : forall m : list str, Permutation (taken (at_target (Group (List.length (groups p))) (options (p_id pl)) q) ++ m) (taken p ++ options (p_id pl) ++ m)).
      { intros m. rewrite app_assoc. apply Permutation_app_tail. rewrite <- T. auto. }
      destruct (by_plugins options l _) as [p' [e|]].
      * destruct IH as [B C]. split; auto. intros D. apply C. apply (Permutation_NoDup (Permutation_sym (P2 _))). auto.
      * destruct IH as (B & C & D). split; [rewrite B; auto|]. split; [|apply (Permutation_NoDup (P2 _)); auto].
        rewrite C. cbn [at_target groups q]. rewrite update_app. cbn [fst snd app]. rewrite <- app_assoc. reflexivity.
Qed.
Print Assumptions C126_by_plugins.

(** ** What the titles say *)

Section Univ.
Variable U : list plugin.
Hypothesis names : distinct_names U.
Variable order : list str -> list str.


Lemma asked_alone f m p : (exists n, In (f n) [arg_with m] /\ stands n p) <-> exists n, f n = arg_with m /\ stands n p.
Proof. cbn. split; intros (n & Q & S); exists n; split; auto. destruct Q as [->|[]]; auto. Qed.

(** the option --with-X of a group's title, X being the name of an installed plugin, or with dashes for its spaces, is an option
    that asks for this plugin and no other *)
Theorem C126_title_works calls p i m : Forall (uses U) calls ->
  let s := exec_all order calls pm0 in
  s_get (p_name p) (installed s) = Some (p, i) -> m = p_name p \/ m = map (fun c => if Ascii.eqb c " "%char then "-"%char else c) (p_name p) ->
  exists s', add_pending [lit "--with-" ++ m] s = (s', [], None)
    /\ (forall x, In x (pending_act s') <-> In x (pending_act s) \/ x = p_name p) /\ (forall x, In x (pending_deact s') <-> In x (pending_deact s)).
Proof.
  intros Us s G M. pose proof (C103_arguments U names order (fun _ => None) calls [arg_with m] Us) as A. cbv zeta in A. change (exec_all order calls pm0) with s in A.
  change (lit "--with-" ++ m) with (arg_with m). destruct (add_pending [arg_with m] s) as [[s' rest] e].
  destruct A as (_ & _ & _ & E & _ & R).
  assert (V : inv U s) by (apply exec_all_inv; [auto|apply inv0]).
  assert (St : stands m p) by exact M.
  assert (Inj : forall n, arg_with n = arg_with m -> n = m) by (intros n Q; apply app_inv_head in Q; auto).
  assert (E0 : e = None).
  { apply E. intros n [[Q|[]]|[Q|[]]]; [apply eq_sym, Inj in Q; subst n; exists p; split; [exists i|]; auto|].
    exfalso. discriminate. }
  subst e. exists s'. destruct (R eq_refl) as (Q1 & Q2 & Q3). split; [rewrite Q1; reflexivity|].
  assert (One : forall q, has s q -> stands m q -> q = p).
  { intros q [j Gq] Sq. destruct (i_inst _ _ V _ _ _ G) as (_ & Ip & _). destruct (i_inst _ _ V _ _ _ Gq) as (_ & Iq & _). apply names; auto.
    assert (K : forall r, stands m r -> normalize (p_name r) = normalize m) by (intros r [->| ->]; rewrite ?normalize_idem; auto).
    rewrite (K _ Sq), (K _ St). auto. }
  split; intros x.
  - rewrite Q2. split; [intros [H|(q & H & <- & n & [Hn|[]] & Sn)]|intros [H| ->]]; auto.
    + right. apply eq_sym, Inj in Hn. subst n. rewrite (One q); auto.
    + right. exists p. split; [exists i; auto|]. split; auto. exists m. split; [left|]; auto.
  - rewrite Q3. split; [intros [H|(q & H & _ & n & [Hn|[]] & _)]; [auto|discriminate]|auto].
Qed.

(** the title of a group of options of the configuration says the right option if the plugin's name has no spaces *)
Theorem C126_config_title calls p i : Forall (uses U) calls ->
  let s := exec_all order calls pm0 in
  s_get (p_name p) (installed s) = Some (p, i) -> ~ In " "%char (p_name p) ->
  exists s', add_pending [lit "--with-" ++ config_name (p_name p)] s = (s', [], None)
    /\ (forall x, In x (pending_act s') <-> In x (pending_act s) \/ x = p_name p) /\ (forall x, In x (pending_deact s') <-> In x (pending_deact s)).
Proof.
  intros Us s G N. apply C126_title_works with (i := i); auto. left.
  revert N. generalize (p_name p). intros n N. induction n as [|c n IH]; auto. cbn in *. destruct (Ascii.eqb_spec c " "%char) as [->|]; [tauto|]. f_equal. apply IH. tauto.
Qed.
End Univ.
Print Assumptions C126_title_works.
Print Assumptions C126_config_title.

(** ** Examples *)

Definition mk_plugin (i : nat) (n : str) : plugin := mkPlugin i n i [] [] false false false false.
Definition ex_options (i : nat) : list str := match i with 1 => [lit "--one"; lit "--two"] | _ => [] end.
Definition ex_calls : list pop := [OInstall (mk_plugin 1 (lit "my plugin")) false false false; OInstall (mk_plugin 2 (lit "other")) false false true].
Definition same (l : list str) : list str := l.
Definition ex_start : parser := mkParser [lit "-h"; lit "--help"] [].
Definition just (f : string) : option cmdline := Some (mkCmdline (Some (lit f)) None None None None None).
Definition ex_leaves : list leaf :=
  [mkLeaf (lit "debug.enabled") (Some (mkCmdline None None (Some (lit "--pdb")) (Some (lit "--no-pdb")) None None)); mkLeaf (lit "plugin_config.other.x") (just "--x");
   mkLeaf (lit "plugin_config.my_plugin.y") (just "--y"); mkLeaf (lit "plugin_config.my_plugin.z") None; mkLeaf (lit "plugin_config.other.w") (just "--w")].

Example ex_both : let s := exec_all same ex_calls pm0 in
  let (p1, e1) := by_plugins ex_options (installed s) ex_start in
  let (p2, e2) := by_config ex_leaves p1 in
  e1 = None /\ e2 = None /\ NoDup (taken ex_start) /\ direct p2 = map lit ["-h"; "--help"; "-o"; "--pdb"; "--no-pdb"]
  /\ groups p2 = [(lit "Options for --with-my-plugin", map lit ["--one"; "--two"]); (lit "Options for other", []);
       (lit "options for the other plugin (--with-other)", map lit ["--x"; "--w"]); (lit "options for the my_plugin plugin (--with-my_plugin)", [lit "--y"])].
Proof. vm_compute. repeat split. repeat constructor; cbn; intuition discriminate. Qed.

Example ex_conflict : by_config [mkLeaf (lit "a.b") (just "--x"); mkLeaf (lit "plugin_config.p.c") (just "--x")] ex_start
  = (mkParser (map lit ["-h"; "--help"; "-o"; "--x"]) [(config_title (lit "p"), [])], Some (Taken (lit "--x"))).
Proof. reflexivity. Qed.

Example ex_names : Forall (uses [mk_plugin 1 (lit "my plugin"); mk_plugin 2 (lit "other")]) ex_calls /\ distinct_names [mk_plugin 1 (lit "my plugin"); mk_plugin 2 (lit "other")]
  /\ add_pending [lit "--with-my-plugin"] (exec_all same ex_calls pm0) = (set_pending_act [lit "my plugin"] (exec_all same ex_calls pm0), [], None).
Proof.
  split; [constructor; [left; reflexivity|constructor; [right; left; reflexivity|constructor]]|]. split; [|reflexivity]. intros p q [<-|[<-|[]]] [<-|[<-|[]]]; cbn; intros H; try reflexivity; discriminate.
Qed.

(** A plugin with a space in its name: the title of the group of its settings says --with-my_plugin, which is refused. *)
Theorem C126_config_title_refuted : exists calls l title fs p i,
  let s := exec_all same calls pm0 in
  s_get (p_name p) (installed s) = Some (p, i) /\ In (title, fs) (groups (fst (by_config l ex_start))) /\ snd (by_config l ex_start) = None
  /\ title = lit "options for the my_plugin plugin (--with-my_plugin)" /\ fs = [lit "--y"]
  /\ l = [mkLeaf (lit "plugin_config." ++ config_name (p_name p) ++ lit ".y") (just "--y")]
  /\ snd (add_pending [lit "--with-my_plugin"] s) = Some UnknownPlugin.
Proof.
  exists ex_calls, [mkLeaf (lit "plugin_config.my_plugin.y") (just "--y")], (lit "options for the my_plugin plugin (--with-my_plugin)"), [lit "--y"], (mk_plugin 1 (lit "my plugin")), false.
  vm_compute. repeat split. left. reflexivity.
Qed.
Print Assumptions C126_config_title_refuted.

(** two plugins that use the same option string: ArgumentError *)
Example ex_port : snd (by_plugins (fun _ => [lit "--port"]) (installed (exec_all same ex_calls pm0)) ex_start) = Some (Taken (lit "--port")).
Proof. reflexivity. Qed.
