(** Theorems about Shown.v: C109, what list-config and list-plugins print. *)

From Coq Require Import List Bool Arith Ascii String Lia Sorted Permutation.
From Verif Require Import Str Naming NamingProps Collect CollectProps Plugins PluginsProps ParPlugins ParPluginsProps Shown.
Import ListNotations.
Open Scope string_scope.
Open Scope list_scope.

(** ** What the statements say *)

(** [c] is the part of a name before its first dot *)
Definition first_part (c s : str) : Prop :=
  ~ In "."%char c /\ (s = c \/ exists r, s = c ++ "."%char :: r).

(** the text without the escape sequences: from \x1b to the next "m" *)
Fixpoint erase (inside : bool) (s : str) : str :=
  match s with
  | [] => []
  | c :: s' =>
      if inside then erase (negb (Ascii.eqb c "m"%char)) s'
      else if Ascii.eqb c "027"%char then erase true s'
      else c :: erase false s'
  end.

(** no escape sequence *)
Definition clean (s : str) : Prop := ~ In "027"%char s.

(** the escape sequences that colour: \x1b, no "m" and an "m" *)
Inductive escapes : str -> Prop :=
| esc_nil : escapes []
| esc_cons a s : ~ In "m"%char a -> escapes s -> escapes ("027"%char :: a ++ "m"%char :: s).

(** a newline, a tabulator *)
Definition nl : ascii := "010"%char.
Definition tab : ascii := "009"%char.

(** what list-config shows of a leaf *)
Definition config_entry (e : str * leaf) : str :=
  fst e ++ lit " --" ++ nl :: lit "     default: " ++ l_value (snd e) ++ nl ::
  match l_doc (snd e) with Some d => lit "     " ++ d ++ [nl] | None => [] end.

(** what list-plugins shows of a plugin *)
Definition plugin_entry (doc : plugin -> list str) (active : bool) (p : plugin) : str :=
  p_name p ++ lit " "
  ++ (if active then lit "active (use --without-" ++ normalize (p_name p) ++ lit " to deactivate"
      else lit "inactive (use --with-" ++ normalize (p_name p) ++ lit " to activate)")
  ++ nl :: flat_map (fun line => match strip line with [] => [] | l => tab :: " "%char :: l ++ [nl] end) (doc p).

Definition clean_leaf (e : str * leaf) : Prop :=
  clean (fst e) /\ clean (l_value (snd e)) /\ forall d, l_doc (snd e) = Some d -> clean d.

(** ** Names and filters *)

Lemma first_unique c1 c2 s : first_part c1 s -> first_part c2 s -> c1 = c2.
Proof.
  revert c2 s. induction c1 as [|x c1 IH]; intros c2 s [N1 H1] [N2 H2].
  - destruct c2 as [|y c2]; [reflexivity|].
    destruct H1 as [->|(r & ->)]; destruct H2 as [H2|(r2 & H2)]; cbn in H2; try discriminate.
    + injection H2 as H2 _. subst y. destruct N2. left. reflexivity.
    + injection H2 as H2 _. subst y. destruct N2. left. reflexivity.
  - destruct c2 as [|y c2].
    + destruct H2 as [->|(r & ->)]; destruct H1 as [H1|(r2 & H1)]; cbn in H1; try discriminate.
      * injection H1 as H1 _. subst x. destruct N1. left. reflexivity.
      * injection H1 as H1 _. subst x. destruct N1. left. reflexivity.
    + destruct s as [|z s]; [destruct H1 as [H1|(r & H1)]; discriminate|].
      assert (E1 : x = z /\ first_part c1 s).
      { destruct H1 as [H1|(r & H1)]; injection H1 as -> ->; (split; [reflexivity|]);
        (split; [intros I; apply N1; right; exact I|]); [left|right; exists r]; reflexivity. }
      assert (E2 : y = z /\ first_part c2 s).
      { destruct H2 as [H2|(r & H2)]; injection H2 as -> ->; (split; [reflexivity|]);
        (split; [intros I; apply N2; right; exact I|]); [left|right; exists r]; reflexivity. }
      destruct E1 as [-> F1]. destruct E2 as [-> F2]. f_equal. exact (IH c2 s F1 F2).
Qed.

Lemma split_first s : exists c ws, split_all dot s = c :: ws /\ first_part c s.
Proof.
  induction s as [|x s (c & ws & E & N & H)]; [exists [], []; split; [reflexivity|split; [intros []|left; reflexivity]]|].
  cbn. destruct (Ascii.eqb_spec x dot) as [->|D].
  - exists [], (split_all dot s). split; [reflexivity|]. split; [intros []|]. right. exists s. reflexivity.
  - rewrite E. exists (x :: c), ws. split; [reflexivity|]. split; [intros [X|X]; [exact (D X)|exact (N X)]|].
    destruct H as [->|(r & ->)]; [left; reflexivity|right; exists r; reflexivity].
Qed.

Lemma join_first c ws : ~ In "."%char c -> first_part c (join (lit ".") (c :: ws)).
Proof. intros N. split; [exact N|]. destruct ws; [left; reflexivity|right; eexists; reflexivity]. Qed.

Lemma subpaths_first s sp c : first_part c s -> In sp (iter_subpaths s) -> first_part c sp.
Proof.
  intros F I. destruct (split_first s) as (c' & ws & E & F'). assert (c' = c) by eauto using first_unique. subst c'.
  unfold iter_subpaths in I. rewrite E in I. apply in_map_iff in I as (i & <- & _). cbn [firstn].
  apply join_first, F.
Qed.

Lemma subpaths_head s c : first_part c s -> In c (iter_subpaths s).
Proof.
  intros F. destruct (split_first s) as (c' & ws & E & F'). assert (c' = c) by eauto using first_unique. subst c'.
  unfold iter_subpaths. rewrite E. cbn. left. reflexivity.
Qed.

Lemma included_iff name paths : is_included name (parse_filters paths) = true <->
  paths = [] \/ exists f c, In f paths /\ first_part c f /\ first_part c name.
Proof.
  split.
  - intros H. destruct paths as [|f0 paths]; [left; reflexivity|right].
    assert (NE : parse_filters (f0 :: paths) <> []).
    { destruct (split_first f0) as (c & _ & _ & F). apply subpaths_head in F. cbn. intros X.
      apply app_eq_nil in X as [X _]. rewrite X in F. exact F. }
    unfold is_included in H. destruct (parse_filters (f0 :: paths)) eqn:P; [destruct NE; reflexivity|]. rewrite <- P in H.
    apply existsb_exists in H as (sp & I1 & I2). unfold s_mem in I2. apply existsb_exists in I2 as (sp' & I2 & E).
    apply str_eqb_eq in E. subst sp'. apply in_flat_map in I2 as (f & If & I2).
    destruct (split_first f) as (c & _ & _ & F). destruct (split_first name) as (c' & _ & _ & F').
    exists f, c. split; [exact If|]. split; [exact F|].
    assert (c = c') by eauto using first_unique, subpaths_first. subst c'. exact F'.
  - intros [->|(f & c & I & F & F')]; [reflexivity|]. unfold is_included.
    assert (IC : In c (parse_filters paths)) by (apply in_flat_map; exists f; split; [exact I|apply subpaths_head, F]).
    destruct (parse_filters paths) as [|x l] eqn:P; [reflexivity|]. rewrite <- P in *.
    apply existsb_exists. exists c. split; [apply subpaths_head, F'|].
    apply existsb_exists. exists c. split; [exact IC|apply str_eqb_refl].
Qed.

(** ** Colours *)

Lemma clean_app a b : clean (a ++ b) <-> clean a /\ clean b.
Proof. unfold clean. rewrite in_app_iff. tauto. Qed.

Lemma erase_clean a b : clean a -> erase false (a ++ b) = a ++ erase false b.
Proof.
  induction a as [|c a IH]; intros C; [reflexivity|]. cbn.
  destruct (Ascii.eqb_spec c "027"%char) as [->|N]; [destruct C; left; reflexivity|].
  f_equal. apply IH. intros I. apply C. right. exact I.
Qed.

Lemma erase_all a : clean a -> erase false a = a.
Proof. intros C. rewrite <- (app_nil_r a) at 1. rewrite erase_clean by exact C. apply app_nil_r. Qed.

Lemma erase_inside a b : ~ In "m"%char a -> erase true (a ++ "m"%char :: b) = erase false b.
Proof.
  induction a as [|c a IH]; intros N; [reflexivity|]. cbn.
  destruct (Ascii.eqb_spec c "m"%char) as [->|M]; [destruct N; left; reflexivity|].
  apply IH. intros I. apply N. right. exact I.
Qed.

Lemma erase_escapes e b : escapes e -> erase false (e ++ b) = erase false b.
Proof.
  induction 1 as [|a s N E IH]; [reflexivity|]. cbn. rewrite <- app_assoc. cbn. rewrite erase_inside by exact N. exact IH.
Qed.

Ltac escs := repeat match goal with
  | |- escapes [] => constructor
  | |- escapes (?e :: ?c1 :: "m"%char :: ?s) => apply (esc_cons [c1])
  | |- escapes (?e :: ?c1 :: ?c2 :: "m"%char :: ?s) => apply (esc_cons [c1; c2])
  | |- escapes (?e :: ?c1 :: ?c2 :: ?c3 :: "m"%char :: ?s) => apply (esc_cons [c1; c2; c3])
  | |- ~ In _ _ => cbn; intuition discriminate
  end.

Lemma reset_escapes : escapes COLOR_RESET.
Proof. vm_compute. escs. Qed.

(** a coloured argument reads, without the escape sequences, like the plain one *)
Definition good_piece (p : piece) : Prop :=
  clean (p_text p) /\ forall st, p_style p = Some st -> escapes st.

Lemma erase_colorize p b : good_piece p -> erase false (colorize p ++ b) = p_text p ++ erase false b.
Proof.
  intros [C S]. unfold colorize. destruct (p_style p) as [[|x st]|] eqn:E; try (apply erase_clean, C).
  specialize (S _ eq_refl). rewrite <- !app_assoc. rewrite (erase_escapes (x :: st)) by exact S.
  rewrite erase_clean by exact C. rewrite (erase_escapes COLOR_RESET) by exact reset_escapes. reflexivity.
Qed.

Lemma erase_join args b : Forall good_piece args ->
  erase false (join (lit " ") (map colorize args) ++ b) = join (lit " ") (map p_text args) ++ erase false b.
Proof.
  induction 1 as [|p args G Gs IH]; [reflexivity|].
  destruct args as [|q args]; [cbn; apply erase_colorize, G|].
  change (join (lit " ") (map colorize (p :: q :: args))) with (colorize p ++ lit " " ++ join (lit " ") (map colorize (q :: args))).
  change (join (lit " ") (map p_text (p :: q :: args))) with (p_text p ++ lit " " ++ join (lit " ") (map p_text (q :: args))).
  rewrite <- !app_assoc. rewrite erase_colorize by exact G. f_equal.
  rewrite erase_clean by (cbn; unfold clean; cbn; intuition discriminate). f_equal. exact IH.
Qed.

Lemma join_clean args : Forall good_piece args -> clean (join (lit " ") (map p_text args)).
Proof.
  induction 1 as [|p args G Gs IH]; [intros []|]. destruct args as [|q args]; [apply G|].
  change (clean (p_text p ++ lit " " ++ join (lit " ") (map p_text (q :: args)))).
  rewrite !clean_app. split; [apply G|]. split; [cbn; unfold clean; cbn; intuition discriminate|exact IH].
Qed.

Lemma text_app e a b : text e (a ++ b) = text e a ++ text e b.
Proof. unfold text. rewrite filter_app, map_app, concat_app. reflexivity. Qed.

(** a printer with the same output and without colours *)
Definition mono (pr : printer) : printer := mkPrinter (pr_output pr) false false (pr_tty pr).

Lemma call_erase pr args end_ err : Forall good_piece args -> clean end_ ->
  forall e b, erase false (text e (call pr args end_ err) ++ b) = text e (call (mono pr) args end_ err) ++ erase false b.
Proof.
  intros G C e b. unfold call. cbn [mono pr_output pr_force pr_color pr_tty orb andb]. destruct (pr_output pr); [|reflexivity].
  assert (EA : forall x y, Bool.eqb err e = true -> text e (raw_print x y err) = join (lit " ") x ++ y).
  { intros x y Q. unfold text, raw_print. cbn. rewrite Q. cbn. rewrite app_nil_r. reflexivity. }
  assert (EB : forall x y, Bool.eqb err e = false -> text e (raw_print x y err) = []).
  { intros x y Q. unfold text, raw_print. cbn. rewrite Q. reflexivity. }
  destruct (Bool.eqb err e) eqn:Q.
  - destruct (pr_force pr || pr_color pr && pr_tty pr); rewrite !EA by reflexivity; rewrite <- !app_assoc.
    + rewrite erase_join by exact G. f_equal. apply erase_clean, C.
    + rewrite erase_clean by (apply join_clean, G). f_equal. apply erase_clean, C.
  - destruct (pr_force pr || pr_color pr && pr_tty pr); rewrite !EB by reflexivity; reflexivity.
Qed.

(** One call of a printer: whatever its flags, what is written to each stream
    reads, without the escape sequences, like what it writes without colours:
    the arguments separated by spaces, and the end. *)
Theorem C109_print pr args end_ err : Forall good_piece args -> clean end_ ->
  forall e, erase false (text e (call pr args end_ err))
    = if pr_output pr && Bool.eqb e err then join (lit " ") (map p_text args) ++ end_ else [].
Proof.
  intros G C e. rewrite <- (app_nil_r (text _ _)), call_erase by assumption. cbn. rewrite app_nil_r.
  unfold call, mono. cbn. destruct (pr_output pr); [|reflexivity]. unfold text, raw_print. cbn.
  destruct err, e; cbn; rewrite ?app_nil_r; reflexivity.
Qed.

(** Escape sequences are written exactly if the printer writes at all, some
    argument has a style, and colours are forced, or enabled with a report
    stream that is a terminal; even on the error stream. *)
Theorem C109_coloured pr args end_ err : Forall good_piece args -> clean end_ ->
  In "027"%char (text err (call pr args end_ err)) <->
  pr_output pr = true /\ (pr_force pr = true \/ pr_color pr = true /\ pr_tty pr = true)
  /\ exists p st, In p args /\ p_style p = Some st /\ st <> [].
Proof.
  intros G C. unfold call. destruct (pr_output pr); [|split; [intros []|intros [X _]; discriminate]].
  assert (TE : forall x y, text err (raw_print x y err) = join (lit " ") x ++ y).
  { intros x y. unfold text, raw_print. cbn. rewrite Bool.eqb_reflx. cbn. apply app_nil_r. }
  destruct (pr_force pr || pr_color pr && pr_tty pr) eqn:SC; rewrite TE.
  - assert (SC' : pr_force pr = true \/ pr_color pr = true /\ pr_tty pr = true).
    { apply orb_true_iff in SC as [SC|SC]; [left; exact SC|right; apply andb_true_iff, SC]. }
    rewrite in_app_iff.
    assert (J : In "027"%char (join (lit " ") (map colorize args)) <-> exists p, In p args /\ In "027"%char (colorize p)).
    { clear. induction args as [|p args IH]; [cbn; split; [intros []|intros (p & [] & _)]|].
      destruct args as [|q args].
      - cbn. split; [intros I; exists p; auto|intros (p' & [<-|[]] & I); exact I].
      - change (join (lit " ") (map colorize (p :: q :: args))) with (colorize p ++ " "%char :: join (lit " ") (map colorize (q :: args))).
        rewrite in_app_iff. cbn [In]. rewrite IH. split.
        + intros [I|[I|(p' & Ip & I)]]; [exists p; auto|discriminate|exists p'; split; [right; exact Ip|exact I]].
        + intros (p' & [<-|Ip] & I); [left; exact I|right; right; exists p'; auto]. }
    rewrite J. split.
    + intros [(p & Ip & I)|I]; [|contradiction (C I)]. split; [reflexivity|]. split; [exact SC'|].
      rewrite Forall_forall in G. destruct (G _ Ip) as [Cp _]. unfold colorize in I.
      destruct (p_style p) as [[|x st]|] eqn:E; try contradiction (Cp I).
      exists p, (x :: st). repeat split; [exact Ip|exact E|discriminate].
    + intros (_ & _ & p & st & Ip & E & N). left. exists p. split; [exact Ip|]. unfold colorize. rewrite E.
      destruct st as [|x st]; [destruct N; reflexivity|].
      rewrite in_app_iff. right. apply in_app_iff. right. left. reflexivity.
  - split.
    + intros I. apply in_app_iff in I as [I|I]; [|contradiction (C I)]. destruct (join_clean args G I).
    + intros (_ & SC' & _). exfalso. destruct SC' as [X|[X Y]]; rewrite X in SC; [|rewrite Y, orb_true_r in SC]; discriminate.
Qed.

(** Whatever is coloured ends without colour: after the last escape sequence,
    which is the one that resets everything, there is only plain text. *)
Theorem C109_reset pr args end_ err : Forall good_piece args -> clean end_ ->
  forall e, clean (text e (call pr args end_ err))
    \/ exists a b, text e (call pr args end_ err) = a ++ "027"%char :: lit "[0m" ++ b /\ clean b.
Proof.
  intros G C e. unfold call. destruct (pr_output pr); [|left; intros []].
  assert (EA : forall x y, text e (raw_print x y err) = if Bool.eqb err e then join (lit " ") x ++ y else []).
  { intros x y. unfold text, raw_print. cbn. destruct (Bool.eqb err e); [|reflexivity]. cbn. rewrite app_nil_r. reflexivity. }
  destruct (pr_force pr || pr_color pr && pr_tty pr); rewrite EA; (destruct (Bool.eqb err e); [|left; intros []]).
  - induction G as [|p args Gp Gs IH]; [left; exact C|].
    assert (P : clean (colorize p) \/ exists a, colorize p = a ++ "027"%char :: lit "[0m").
    { unfold colorize. destruct (p_style p) as [[|x st]|]; try (left; apply Gp). right.
      exists ((x :: st) ++ p_text p ++ sgr "39" ++ sgr "49"). rewrite <- !app_assoc. reflexivity. }
    destruct args as [|q args].
    + cbn [map join]. destruct P as [P|(a & ->)]; [left; apply clean_app; split; assumption|]. right. exists a, end_. rewrite <- app_assoc. split; [reflexivity|exact C].
    + change (join (lit " ") (map colorize (p :: q :: args))) with (colorize p ++ lit " " ++ join (lit " ") (map colorize (q :: args))).
      rewrite <- !app_assoc. destruct IH as [IH|(a & b & IH & CB)].
      * assert (CS : clean (lit " " ++ join (lit " ") (map colorize (q :: args)) ++ end_)) by (apply clean_app; split; [unfold clean; cbn; intuition discriminate|exact IH]).
        destruct P as [P|(a & ->)]; [left; apply clean_app; split; assumption|]. right. exists a. eexists. rewrite <- app_assoc. split; [reflexivity|exact CS].
      * right. rewrite IH. exists (colorize p ++ lit " " ++ a), b. rewrite <- !app_assoc. split; [reflexivity|exact CB].
  - left. apply clean_app. split; [apply join_clean, G|exact C].
Qed.

(** ** list-config *)

Definition config_writes (pr : printer) (e : str * leaf) : list write :=
  call pr [styled name_style (fst e); plain (lit "--")] NL false
  ++ call pr [plain INDENT; plain (lit "default:"); styled default_style (l_value (snd e))] NL false
  ++ match l_doc (snd e) with
     | Some d => call pr [plain INDENT; plain d] NL false
     | None => []
     end.

Lemma flat_map_filter {A B} (q : A -> bool) (f : A -> list B) l :
  flat_map (fun x => if negb (q x) then [] else f x) l = flat_map f (filter q l).
Proof. induction l as [|x l IH]; [reflexivity|]. cbn. destruct (q x); cbn; rewrite IH; reflexivity. Qed.

Lemma list_config_eq paths f c t leaves : list_config paths f c t leaves =
  flat_map (config_writes (mkPrinter true f c t)) (filter (fun e => is_included (fst e) (parse_filters paths)) (sort_names leaves)).
Proof. unfold list_config. apply (flat_map_filter (fun e : str * leaf => is_included (fst e) (parse_filters paths))). Qed.

Lemma text_flat_map {A} e (f : A -> list write) l : text e (flat_map f l) = flat_map (fun x => text e (f x)) l.
Proof. induction l as [|x l IH]; [reflexivity|]. cbn [flat_map]. rewrite text_app, IH. reflexivity. Qed.

Lemma erase_flat_map {A} (f g : A -> str) l : (forall x, In x l -> forall b, erase false (f x ++ b) = g x ++ erase false b) ->
  erase false (flat_map f l) = flat_map g l.
Proof.
  induction l as [|x l IH]; intros H; [reflexivity|]. cbn. rewrite H by (left; reflexivity). f_equal. apply IH.
  intros y I. apply H. right. exact I.
Qed.

Lemma clean_lit_name : clean (lit "--") /\ clean INDENT /\ clean (lit "default:") /\ clean NL /\ clean (lit " ") /\ clean TAB.
Proof. unfold clean. cbn. intuition discriminate. Qed.

Lemma good_plain s : clean s -> good_piece (plain s).
Proof. intros C. split; [exact C|discriminate]. Qed.
Lemma good_styled st s : escapes st -> clean s -> good_piece (styled st s).
Proof. intros E C. split; [exact C|]. intros st' [= <-]. exact E. Qed.

Ltac goods := repeat (apply Forall_cons || apply Forall_nil); auto using good_plain, good_styled.

Lemma styles : escapes name_style /\ escapes default_style /\ escapes disabled_style /\ escapes enabled_style /\ escapes title_style.
Proof. vm_compute. repeat split; escs. Qed.

Lemma config_entry_erase pr x : clean_leaf x -> pr_output pr = true ->
  forall b, erase false (text false (config_writes pr x) ++ b) = config_entry x ++ erase false b.
Proof.
  intros (C1 & C2 & C3) O b. destruct clean_lit_name as (L1 & L2 & L3 & L4 & _). destruct styles as (S1 & S2 & _).
  unfold config_writes. rewrite !text_app, <- !app_assoc.
  rewrite call_erase; [|goods|exact L4].
  rewrite call_erase; [|goods|exact L4].
  assert (M : forall x y, text false (call (mono pr) x y false) = join (lit " ") (map p_text x) ++ y).
  { intros u v. unfold call, mono. cbn. rewrite O. cbn. rewrite app_nil_r. reflexivity. }
  unfold config_entry. destruct (l_doc (snd x)) as [d|] eqn:D.
  - rewrite call_erase; [|goods|exact L4].
    rewrite !M. cbn. repeat rewrite <- ?app_assoc, <- ?app_comm_cons. cbn. repeat rewrite <- ?app_assoc, <- ?app_comm_cons. reflexivity.
  - rewrite !M. cbn. repeat rewrite <- ?app_assoc, <- ?app_comm_cons. cbn. repeat rewrite <- ?app_assoc, <- ?app_comm_cons. reflexivity.
Qed.

Lemma config_plain f c t y : f || c && t = false -> text false (config_writes (mkPrinter true f c t) y) = config_entry y.
Proof.
  intros SC. unfold config_writes, call, config_entry. cbn [pr_output pr_force pr_color pr_tty]. rewrite SC, !text_app.
  destruct (l_doc (snd y)); cbn; repeat (rewrite <- ?app_assoc, <- ?app_comm_cons, ?app_nil_r; cbn); reflexivity.
Qed.

Lemma clean_cons a b : clean (a :: b) <-> a <> "027"%char /\ clean b.
Proof. unfold clean. cbn. split; [intros H; split; [intros E; apply H; left; exact E|tauto]|intros [H1 H2] [H|H]; tauto]. Qed.

Lemma config_entry_clean y : clean_leaf y -> clean (config_entry y).
Proof.
  intros (C1 & C2 & C3). unfold config_entry. rewrite !clean_app, !clean_cons, !clean_app, clean_cons.
  repeat split; auto; try discriminate; try (unfold clean; cbn; intuition discriminate).
  destruct (l_doc (snd y)) as [d|]; [|intros []]. rewrite !clean_app. repeat split; auto; unfold clean; cbn; intuition discriminate.
Qed.

Lemma filter_sorted {A} (R : A -> A -> Prop) q l : StronglySorted R l -> StronglySorted R (filter q l).
Proof.
  induction 1 as [|x l S IH F]; [constructor|]. cbn. destruct (q x); [|exact IH]. constructor; [exact IH|].
  rewrite Forall_forall in *. intros y I. apply filter_In in I as [I _]. auto.
Qed.

(** list-config shows, in the order of their names, exactly the leaves whose
    name has the same first part as one of the paths given (all if none is
    given), each once: its name, its value and its documentation.  With
    colours, the same between escape sequences. *)
Theorem C109_config paths force color tty leaves :
  NoDup (map fst leaves) -> Forall clean_leaf leaves ->
  exists l,
    erase false (text false (list_config paths force color tty leaves)) = flat_map config_entry l
    /\ (force = false /\ (color = false \/ tty = false) ->
        text false (list_config paths force color tty leaves) = flat_map config_entry l)
    /\ text true (list_config paths force color tty leaves) = []
    /\ (forall e, In e l <-> In e leaves
          /\ (paths = [] \/ exists f c, In f paths /\ first_part c f /\ first_part c (fst e)))
    /\ NoDup (map fst l)
    /\ StronglySorted (fun a b => str_leb (fst a) (fst b) = true) l.
Proof.
  intros ND CL. exists (filter (fun e => is_included (fst e) (parse_filters paths)) (sort_names leaves)).
  rewrite list_config_eq. split; [|split; [|split; [|split; [|split]]]].
  - rewrite text_flat_map. apply erase_flat_map. intros x I b. apply config_entry_erase; [|reflexivity].
    apply filter_In in I as [I _]. rewrite sort_in in I. rewrite Forall_forall in CL. auto.
  - intros [-> SC]. rewrite text_flat_map. apply flat_map_ext. intros x. apply config_plain.
    destruct SC as [->| ->]; [reflexivity|apply andb_false_r].
  - rewrite text_flat_map. induction (filter _ _) as [|x l IH]; [reflexivity|]. cbn [flat_map]. rewrite IH, app_nil_r.
    unfold config_writes, call. cbn. destruct (force || color && tty), (l_doc (snd x)); reflexivity.
  - intros e. rewrite filter_In, sort_in, included_iff. reflexivity.
  - assert (ND' : NoDup (map fst (sort_names leaves))).
    { eapply Permutation_NoDup; [apply Permutation_map, Permutation_sym, sort_perm|exact ND]. }
    revert ND'. generalize (sort_names leaves). induction l as [|x l IH]; intros N; [constructor|].
    inversion N; subst. cbn. destruct (is_included _ _); [|auto]. cbn. constructor; [|auto].
    intros I. apply in_map_iff in I as (y & E & I). apply filter_In in I as [I _]. apply H1. rewrite <- E. apply in_map, I.
  - apply filter_sorted, sort_sorted.
Qed.

(** the leaves at and below a path given are shown *)
Theorem C109_below paths force color tty leaves f e r :
  NoDup (map fst leaves) -> Forall clean_leaf leaves ->
  In f paths -> In e leaves -> fst e = f \/ fst e = f ++ "."%char :: r ->
  exists a b, erase false (text false (list_config paths force color tty leaves)) = a ++ config_entry e ++ b.
Proof.
  intros ND CL I Ie H. destruct (C109_config paths force color tty leaves ND CL) as (l & E & _ & _ & L & _).
  rewrite E. assert (X : In e l).
  { apply L. split; [exact Ie|]. right. destruct (split_first f) as (c & _ & _ & N & F). exists f, c. split; [exact I|]. split; [split; assumption|].
    split; [exact N|]. destruct H as [->| ->]; [exact F|].
    destruct F as [->|(q & ->)]; right; [exists r; reflexivity|]. exists (q ++ "."%char :: r). rewrite <- app_assoc. reflexivity. }
  apply in_split in X as (l1 & l2 & ->). exists (flat_map config_entry l1), (flat_map config_entry l2).
  rewrite flat_map_app. reflexivity.
Qed.

(** Without colours the text is exactly the entries, and colours appear only if
    asked for, or on a terminal. *)
Theorem C109_config_colours paths force color tty leaves : Forall clean_leaf leaves ->
  (clean (text false (list_config paths force color tty leaves)) <->
   (force = false /\ (color = false \/ tty = false)) \/ list_config paths force color tty leaves = []).
Proof.
  intros CL. rewrite list_config_eq. set (l := filter _ _).
  assert (CL' : Forall clean_leaf l).
  { apply Forall_forall. intros x I. apply filter_In in I as [I _]. rewrite sort_in in I. rewrite Forall_forall in CL. auto. }
  clearbody l. clear CL.
  destruct clean_lit_name as (L1 & L2 & L3 & L4 & _). destruct styles as (S1 & S2 & _).
  destruct l as [|x l]; [split; [right; reflexivity|intros _ []]|].
  destruct (force || color && tty) eqn:SC.
  - split; [intros C|intros [[-> [->| ->]]|H]; [discriminate SC|rewrite andb_false_r in SC; discriminate SC|]].
    + exfalso. apply C. cbn [flat_map]. rewrite text_app. apply in_app_iff. left. unfold config_writes. rewrite text_app.
      apply in_app_iff. left. inversion CL' as [|? ? [C1 _] _]; subst. apply C109_coloured; [goods|exact L4|].
      cbn. split; [reflexivity|]. split; [|exists (styled name_style (fst x)), name_style; repeat split; [left; reflexivity|discriminate]].
      apply orb_true_iff in SC as [SC|SC]; [left; exact SC|right; apply andb_true_iff, SC].
    + exfalso. unfold config_writes, call in H. cbn in H. rewrite SC in H. discriminate.
  - split; [intros _; left|intros _].
    + apply orb_false_iff in SC as [-> SC]. apply andb_false_iff in SC. auto.
    + rewrite text_flat_map. intros I. apply in_flat_map in I as (y & Iy & I). rewrite Forall_forall in CL'. apply CL' in Iy.
      rewrite config_plain in I by exact SC. exact (config_entry_clean y Iy I).
Qed.

(** ** list-plugins *)

(** active now or about to be, and not about to be deactivated *)
Definition to_be_active (s : pm) (n : str) : Prop :=
  (In n (active s) \/ In n (pending_act s)) /\ ~ In n (pending_deact s).

Definition plugin_writes (doc : plugin -> list str) (pr : printer) (on : bool) (p : plugin) : list write :=
  call pr [styled title_style (p_name p)] (lit " ") false
  ++ (if on then call pr [styled enabled_style (lit "active (use --without-" ++ normalize (p_name p) ++ lit " to deactivate")] NL false
      else call pr [styled disabled_style (lit "inactive (use --with-" ++ normalize (p_name p) ++ lit " to activate)")] NL false)
  ++ flat_map (fun line => match strip line with [] => [] | l => call pr [plain TAB; plain l] NL false end) (doc p).

Lemma normalize_clean n : clean n -> clean (normalize n).
Proof.
  intros C I. apply in_map_iff in I as (c & E & I). destruct (Ascii.eqb_spec c " "%char); [discriminate|]. subst c. exact (C I).
Qed.

Lemma lstrip_in c s : In c (lstrip s) -> In c s.
Proof. induction s as [|x s IH]; [auto|]. cbn. destruct (space x); [right; auto|auto]. Qed.
Lemma strip_clean s : clean s -> clean (strip s).
Proof. intros C I. unfold strip in I. apply in_rev in I. apply lstrip_in in I. apply in_rev in I. apply lstrip_in in I. exact (C I). Qed.

Definition clean_plugin (doc : plugin -> list str) (p : plugin) : Prop := clean (p_name p) /\ Forall clean (doc p).

Lemma call_mono pr x y : pr_output pr = true -> text false (call (mono pr) x y false) = join (lit " ") (map p_text x) ++ y.
Proof. intros O. unfold call, mono. cbn. rewrite O. cbn. rewrite app_nil_r. reflexivity. Qed.

Lemma plugin_entry_erase doc pr on p : clean_plugin doc p -> pr_output pr = true ->
  forall b, erase false (text false (plugin_writes doc pr on p) ++ b) = plugin_entry doc on p ++ erase false b.
Proof.
  intros (C1 & C2) O b. destruct clean_lit_name as (_ & _ & _ & L4 & L5 & L6). destruct styles as (_ & _ & S3 & S4 & S5).
  pose proof (normalize_clean _ C1) as CN.
  unfold plugin_writes. rewrite !text_app, <- !app_assoc. rewrite call_erase; [|goods|exact L5].
  assert (ST : forall b, erase false (text false (if on then call pr [styled enabled_style (lit "active (use --without-" ++ normalize (p_name p) ++ lit " to deactivate")] NL false
      else call pr [styled disabled_style (lit "inactive (use --with-" ++ normalize (p_name p) ++ lit " to activate)")] NL false) ++ b)
      = (if on then lit "active (use --without-" ++ normalize (p_name p) ++ lit " to deactivate"
      else lit "inactive (use --with-" ++ normalize (p_name p) ++ lit " to activate)") ++ nl :: erase false b).
  { intros b'. destruct on; (rewrite call_erase; [|goods; apply good_styled; [assumption|]; rewrite !clean_app; repeat split; auto; unfold clean; cbn; intuition discriminate|exact L4]);
    rewrite call_mono by exact O; cbn [map join p_text styled]; rewrite <- !app_assoc; reflexivity. }
  rewrite ST. rewrite call_mono by exact O. unfold plugin_entry. cbn [map join p_text styled]. rewrite <- !app_assoc. do 3 f_equal.
  cbn [app]. f_equal.
  rewrite text_flat_map. revert C2. generalize (doc p). induction l as [|line l IH]; intros C2; [reflexivity|].
  cbn [flat_map]. inversion C2; subst. rewrite <- !app_assoc.
  pose proof (strip_clean line) as SC. destruct (strip line) as [|x r]; [exact (IH H2)|].
  rewrite call_erase; [|goods|exact L4]. rewrite call_mono by exact O. rewrite IH by assumption.
  cbn [map join p_text plain]. repeat (rewrite <- ?app_assoc, <- ?app_comm_cons; cbn). reflexivity.
Qed.

Lemma future_In s l : get_future_active s = Some l -> forall n, In n l <-> to_be_active s n.
Proof.
  unfold get_future_active. destruct (forallb _ _); [|discriminate]. intros [= <-] n.
  rewrite fold_discard_In, fold_add_In. unfold to_be_active. tauto.
Qed.

(** list-plugins fails exactly if a plugin that is to be activated is not
    installed any more.  Otherwise it shows each installed plugin that is not
    internal, once, in the order of the names: its name, whether it is active
    or will be when the session starts, how to change that, and the non-empty
    lines of its documentation. *)
Theorem C109_plugins doc force color tty s :
  Forall (clean_plugin doc) (map (fun e => fst (snd e)) (installed s)) ->
  match list_plugins doc force color tty s with
  | None => exists n, In n (pending_act s) /\ s_get n (installed s) = None
  | Some w =>
      (forall n, In n (pending_act s) -> s_get n (installed s) <> None)
      /\ text true w = []
      /\ exists l,
        erase false (text false w) = flat_map (fun e => plugin_entry doc (snd e) (fst e)) l
        /\ (force = false /\ (color = false \/ tty = false) -> erase false (text false w) = text false w)
        /\ Permutation (map fst l) (map (fun e => fst (snd e)) (filter (fun e => negb (snd (snd e))) (installed s)))
        /\ StronglySorted (fun a b => str_leb (p_name (fst a)) (p_name (fst b)) = true) l
        /\ forall p on, In (p, on) l -> (on = true <-> to_be_active s (p_name p))
  end.
Proof.
  intros CP. unfold list_plugins. destruct (get_future_active s) as [act|] eqn:F.
  2:{ unfold get_future_active in F. destruct (forallb _ (pending_act s)) eqn:A; [discriminate|].
      clear F. induction (pending_act s) as [|n l IH]; [discriminate|]. cbn in A.
      destruct (s_get n (installed s)) eqn:G; [destruct (IH A) as (m & I & H); exists m; split; [right; exact I|exact H]|].
      exists n. split; [left; reflexivity|exact G]. }
  pose proof (future_In _ _ F) as FI. split; [|split].
  - intros n I. unfold get_future_active in F. destruct (forallb _ (pending_act s)) eqn:A; [|discriminate].
    rewrite forallb_forall in A. specialize (A n I). destruct (s_get n (installed s)); congruence.
  - rewrite text_flat_map. induction (sort_names _) as [|[k p] l IH]; [reflexivity|]. cbn [flat_map]. rewrite IH, app_nil_r.
    rewrite !text_app, text_flat_map. unfold call. cbn [pr_output pr_force pr_color pr_tty snd].
    replace (flat_map _ (doc p)) with (@nil ascii).
    + destruct (s_mem _ _), (force || color && tty); reflexivity.
    + induction (doc p) as [|line d IH']; [reflexivity|]. cbn [flat_map]. rewrite <- IH'.
      destruct (strip line); [reflexivity|]. destruct (force || color && tty); reflexivity.
  - set (L := sort_names (map (fun p => (p_name p, p)) (listed s))).
    assert (LE : flat_map (fun e : str * plugin => plugin_writes doc (mkPrinter true force color tty) (s_mem (p_name (snd e)) act) (snd e)) L
      = flat_map (fun e => plugin_writes doc (mkPrinter true force color tty) (snd e) (fst e)) (map (fun e : str * plugin => (snd e, s_mem (p_name (snd e)) act)) L)).
    { induction L as [|e L IH]; [reflexivity|]. cbn [map flat_map]. rewrite IH. reflexivity. }
    unfold plugin_writes at 1 in LE. rewrite LE. clear LE.
    assert (PL : Permutation (map snd L) (listed s)).
    { unfold L. transitivity (map snd (map (fun p => (p_name p, p)) (listed s))); [apply Permutation_map, sort_perm|].
      rewrite map_map, map_id. reflexivity. }
    assert (CL : forall e, In e L -> clean_plugin doc (snd e)).
    { intros e I. apply (in_map snd) in I. apply (Permutation_in _ PL) in I. unfold listed in I.
      rewrite Forall_forall in CP. apply CP. apply in_map_iff in I as (e' & <- & I). apply filter_In in I as [I _].
      apply (in_map (fun e => fst (snd e))), I. }
    exists (map (fun e : str * plugin => (snd e, s_mem (p_name (snd e)) act)) L). split; [|split; [|split; [|split]]].
    + rewrite text_flat_map. apply erase_flat_map. intros [p on] I b. apply plugin_entry_erase; [|reflexivity].
      apply in_map_iff in I as (e & [= <- _] & I). apply CL, I.
    + intros SC. apply erase_all. rewrite text_flat_map. intros I. apply in_flat_map in I as ([p on] & I & E).
      apply in_map_iff in I as (e & [= Ep _] & I). apply CL in I. rewrite Ep in I. clear Ep.
      assert (SC' : force || color && tty = false) by (destruct SC as [-> [->| ->]]; [reflexivity|apply andb_false_r]).
      assert (E' : text false (plugin_writes doc (mkPrinter true force color tty) on p)
                   = text false (plugin_writes doc (mkPrinter true false false false) on p)).
      { unfold plugin_writes, call. cbn [pr_output pr_force pr_color pr_tty]. rewrite SC'. reflexivity. }
      cbn [fst snd] in E. rewrite E' in E.
      assert (CC : clean (plugin_entry doc on p)).
      { destruct I as [C1 C2]. pose proof (normalize_clean _ C1). unfold plugin_entry. rewrite !clean_app, clean_cons. repeat split; auto;
        try discriminate; try (unfold clean; cbn; intuition discriminate).
        - destruct on; rewrite !clean_app; repeat split; auto; unfold clean; cbn; intuition discriminate.
        - intros X. apply in_flat_map in X as (line & Il & X). rewrite Forall_forall in C2. pose proof (strip_clean _ (C2 _ Il)) as SL.
          destruct (strip line); [destruct X|]. destruct X as [X|[X|X]]; try discriminate. apply in_app_iff in X as [X|X]; [exact (SL X)|]. cbn in X. intuition discriminate. }
      apply CC. clear - E. revert E. unfold plugin_writes, plugin_entry, call. cbn [pr_output pr_force pr_color pr_tty orb andb].
      rewrite !text_app, !in_app_iff. cbn [In].
      intros [E|[E|E]].
      * cbn in E. rewrite app_nil_r in E. apply in_app_iff in E. tauto.
      * right. right. destruct on; cbn [text raw_print filter fst map snd join p_text styled Bool.eqb List.concat app] in E; rewrite app_nil_r in E;
        apply in_app_iff in E as [E|E]; [left; exact E|destruct E as [E|[]]; discriminate|left; exact E|destruct E as [E|[]]; discriminate].
      * right. right. right. right. rewrite text_flat_map in E. apply in_flat_map in E as (line & Il & E). apply in_flat_map. exists line. split; [exact Il|].
        destruct (strip line) as [|x r]; [destruct E|]. cbn in E. rewrite app_nil_r in E.
        destruct E as [E|[E|E]]; [discriminate|discriminate|]. right. right. exact E.
    + rewrite map_map. cbn. exact PL.
    + assert (S : StronglySorted le_name L) by apply sort_sorted.
      assert (K : forall e, In e L -> fst e = p_name (snd e)).
      { intros e I. unfold L in I. rewrite sort_in in I. apply in_map_iff in I as (p & <- & _). reflexivity. }
      clear - S K. induction S as [|e L S IH FA]; [constructor|]. cbn. constructor.
      * apply IH. intros x I. apply K. right. exact I.
      * rewrite Forall_forall in *. intros x I. apply in_map_iff in I as (y & <- & I). cbn. specialize (FA _ I). unfold le_name in FA.
        rewrite <- (K e (or_introl eq_refl)), <- (K y (or_intror I)). exact FA.
    + intros p on I. apply in_map_iff in I as (e & [= <- <-] & I). rewrite s_mem_In. apply FI.
Qed.

Section Reach.
Variable U : list plugin.
Hypothesis names : distinct_names U.
Variable order : list str -> list str.
Hypothesis order_perm : forall l, Permutation (order l) l.

(** What list-plugins says is what happens: after any calls of the manager, if
    the plugins behave well, exactly those shown as active are active once the
    pending plugins have been activated. *)
Theorem C109_truth doc force color tty calls w :
  well_behaved U -> Forall (uses U) calls ->
  let s := exec_all order calls pm0 in
  list_plugins doc force color tty s = Some w ->
  exists s', activate_pending order s = (s', None) /\ forall n, In n (active s') <-> to_be_active s n.
Proof.
  intros W Us s L. unfold list_plugins in L. destruct (get_future_active s) as [l|] eqn:F; [|discriminate].
  destruct (C45_future_partial U names order order_perm W calls l Us F) as (s' & E & A & B & _).
  exists s'. split; [exact E|]. intros n. rewrite A. exact (B n).
Qed.

(** The option printed for a plugin that is shown as active is accepted, and
    then the plugin, and no other, will not be active. *)
Theorem C109_without calls p i :
  Forall (uses U) calls ->
  let s := exec_all order calls pm0 in
  s_get (p_name p) (installed s) = Some (p, i) ->
  let '(s', rest, e) := add_pending [lit "--without-" ++ normalize (p_name p)] s in
  e = None /\ rest = [] /\ active s' = active s
  /\ forall n, to_be_active s' n <-> to_be_active s n /\ n <> p_name p.
Proof.
  intros Us s G. pose proof (C103_arguments U names order (fun _ => None) calls [lit "--without-" ++ normalize (p_name p)] Us) as R.
  cbv zeta in R. fold s in R. destruct (add_pending _ s) as [[s' rest] e].
  destruct R as (A & _ & _ & E & _ & R).
  assert (H : has s p) by (exists i; exact G).
  assert (e = None) as ->.
  { apply E. intros m [[I|[]]|[I|[]]]; [discriminate I|]. apply app_inv_head in I. exists p. split; [exact H|]. right. symmetry. exact I. }
  destruct (R eq_refl) as (R1 & R2 & R3). split; [reflexivity|]. split; [rewrite R1; reflexivity|]. split; [exact A|].
  intros n. unfold to_be_active. rewrite A, R2, R3. split.
  - intros [P N]. split.
    + split; [|intros D; apply N; left; exact D].
      destruct P as [P|[P|(q & _ & _ & m & [I|[]] & _)]]; [left; exact P|right; exact P|discriminate I].
    + intros ->. apply N. right. exists p. split; [exact H|]. split; [reflexivity|].
      exists (normalize (p_name p)). split; [left; reflexivity|right; reflexivity].
  - intros [[P N] D]. split; [tauto|]. intros [X|(q & Hq & Eq & m & [I|[]] & St)]; [exact (N X)|].
    apply app_inv_head in I. subst m. apply D. rewrite <- Eq.
    assert (V : inv U s) by (apply exec_all_inv; [exact Us|apply inv0]).
    destruct Hq as [j Gq]. destruct (i_inst _ _ V _ _ _ Gq) as (_ & Iq & _). destruct (i_inst _ _ V _ _ _ G) as (_ & Ip & _).
    f_equal. apply names; [exact Iq|exact Ip|]. destruct St as [St|St]; rewrite <- St; [apply normalize_idem|reflexivity].
Qed.

(** The option printed for a plugin that is shown as inactive is accepted; then
    the plugin will be active, and nothing else changes, unless it was to be
    deactivated. *)
Theorem C109_with calls p i :
  Forall (uses U) calls ->
  let s := exec_all order calls pm0 in
  s_get (p_name p) (installed s) = Some (p, i) ->
  let '(s', rest, e) := add_pending [lit "--with-" ++ normalize (p_name p)] s in
  e = None /\ rest = [] /\ active s' = active s
  /\ forall n, to_be_active s' n <-> to_be_active s n \/ n = p_name p /\ ~ In n (pending_deact s).
Proof.
  intros Us s G. pose proof (C103_arguments U names order (fun _ => None) calls [lit "--with-" ++ normalize (p_name p)] Us) as R.
  cbv zeta in R. fold s in R. destruct (add_pending _ s) as [[s' rest] e].
  destruct R as (A & _ & _ & E & _ & R).
  assert (H : has s p) by (exists i; exact G).
  assert (e = None) as ->.
  { apply E. intros m [[I|[]]|[I|[]]]; [|discriminate I]. apply app_inv_head in I. exists p. split; [exact H|]. right. symmetry. exact I. }
  destruct (R eq_refl) as (R1 & R2 & R3). split; [reflexivity|]. split; [rewrite R1; reflexivity|]. split; [exact A|].
  intros n. unfold to_be_active. rewrite A, R2, R3.
  assert (K : (exists q, has s q /\ p_name q = n /\ asked arg_without [lit "--with-" ++ normalize (p_name p)] q) <-> False).
  { split; [|intros []]. intros (q & _ & _ & m & [I|[]] & _). discriminate I. }
  assert (K2 : (exists q, has s q /\ p_name q = n /\ asked arg_with [lit "--with-" ++ normalize (p_name p)] q) <-> n = p_name p).
  { split.
    - intros (q & Hq & Eq & m & [I|[]] & St). apply app_inv_head in I. subst m. rewrite <- Eq.
      assert (V : inv U s) by (apply exec_all_inv; [exact Us|apply inv0]).
      destruct Hq as [j Gq]. destruct (i_inst _ _ V _ _ _ Gq) as (_ & Iq & _). destruct (i_inst _ _ V _ _ _ G) as (_ & Ip & _).
      f_equal. apply names; [exact Iq|exact Ip|]. destruct St as [St|St]; rewrite <- St; [apply normalize_idem|reflexivity].
    - intros ->. exists p. split; [exact H|]. split; [reflexivity|]. exists (normalize (p_name p)).
      split; [left; reflexivity|right; reflexivity]. }
  rewrite K, K2. intuition.
Qed.
End Reach.

(** ** Cases, and what one might expect beyond it *)

Definition ex_leaves : list (str * leaf) :=
  [(lit "log.root", mkLeaf (lit "/tmp") (Some (lit "where logs go")));
   (lit "debug.enabled", mkLeaf (lit "False") None);
   (lit "log.format", mkLeaf (lit "None") None);
   (lit "logs", mkLeaf (lit "1") None)].

Example C109_ex_config :
  NoDup (map fst ex_leaves) /\ Forall clean_leaf ex_leaves
  /\ text false (list_config [lit "log.root"] false true false ex_leaves)
     = lit "log.format --" ++ NL ++ lit "     default: None" ++ NL
       ++ lit "log.root --" ++ NL ++ lit "     default: /tmp" ++ NL ++ lit "     where logs go" ++ NL
  /\ text false (list_config [lit "logs"] false true true ex_leaves)
     = sgr "37" ++ sgr "1" ++ lit "logs" ++ COLOR_RESET ++ lit " --" ++ NL
       ++ lit "     default: " ++ sgr "32" ++ sgr "1" ++ lit "1" ++ COLOR_RESET ++ NL.
Proof.
  split; [|split; [|split; reflexivity]].
  - repeat constructor; cbn; intuition discriminate.
  - repeat (apply Forall_cons || apply Forall_nil); unfold clean_leaf, clean; cbn;
    (split; [intuition discriminate|split; [intuition discriminate|intros d [= <-] || intros d E; try discriminate E; cbn; intuition discriminate]]).
Qed.

Example C109_ex_below : In (lit "log") [lit "debug"; lit "log"] /\ lit "log.root" = lit "log" ++ "."%char :: lit "root".
Proof. cbn. auto. Qed.

Example C109_ex_print :
  Forall good_piece [styled (sgr "32") (lit "ok"); plain (lit "done")] /\ clean NL
  /\ text true (call (mkPrinter true false true true) [styled (sgr "32") (lit "ok"); plain (lit "done")] NL true)
     = sgr "32" ++ lit "ok" ++ COLOR_RESET ++ lit " done" ++ NL.
Proof.
  split; [|split; [|reflexivity]].
  - repeat (apply Forall_cons || apply Forall_nil); [split; [unfold clean; cbn; intuition discriminate|]|split; [unfold clean; cbn; intuition discriminate|discriminate]].
    intros st [= <-]. vm_compute. escs.
  - unfold clean; cbn; intuition discriminate.
Qed.

Example C109_ex_plugins :
  let s := exec_all (@rev str) ex_calls pm0 in
  let doc := fun p => if Nat.eqb (p_id p) (p_id pA) then [lit "  Does it  "; []] else [] in
  Forall (clean_plugin doc) (map (fun e => fst (snd e)) (installed s))
  /\ option_map (text false) (list_plugins doc false true false s)
     = Some (lit "a b inactive (use --with-a-b to activate)" ++ NL ++ TAB ++ lit " Does it" ++ NL
             ++ lit "notify active (use --without-notify to deactivate" ++ NL).
Proof.
  split; [|reflexivity].
  repeat (apply Forall_cons || apply Forall_nil); split; try (unfold clean; cbn; intuition discriminate);
  repeat (apply Forall_cons || apply Forall_nil); unfold clean; cbn; intuition discriminate.
Qed.

Example C109_ex_hints :
  let s := exec_all (@rev str) ex_calls pm0 in
  distinct_names [pA; pC] /\ well_behaved [pA; pC] /\ Forall (uses [pA; pC]) ex_calls
  /\ s_get (p_name pC) (installed s) = Some (pC, false) /\ to_be_active s (p_name pC)
  /\ s_get (p_name pA) (installed s) = Some (pA, false) /\ ~ to_be_active s (p_name pA).
Proof.
  destruct C45_ex_universe as [A B]. destruct C45_ex_calls as [C _]. split; [exact A|]. split; [exact B|]. split; [exact C|].
  split; [reflexivity|]. split; [split; [vm_compute; auto|vm_compute; intuition discriminate]|].
  split; [reflexivity|]. intros [_ N]. apply N. vm_compute. auto.
Qed.

(** Not so: a path given shows only what is at it or below it. *)
Theorem C109_filter_refuted : exists paths leaves f e,
  paths = [f] /\ In e leaves /\ fst e <> f /\ (forall r, fst e <> f ++ "."%char :: r)
  /\ exists a b, text false (list_config paths false false false leaves) = a ++ fst e ++ lit " --" ++ b.
Proof.
  exists [lit "log.root"], ex_leaves, (lit "log.root"), (lit "log.format", mkLeaf (lit "None") None).
  split; [reflexivity|]. split; [cbn; auto|]. split; [discriminate|]. split; [intros r; discriminate|].
  exists []. eexists. reflexivity.
Qed.

(** Not so: the option printed for an inactive plugin makes it active.  A
    plugin that is to be deactivated stays so. *)
Theorem C109_with_refuted : exists calls p,
  distinct_names [p] /\ well_behaved [p] /\ Forall (uses [p]) calls
  /\ let s := exec_all ident calls pm0 in
     s_get (p_name p) (installed s) = Some (p, false)
     /\ let '(s', _, e) := add_pending [lit "--with-" ++ normalize (p_name p)] s in
        e = None /\ ~ to_be_active s' (p_name p).
Proof.
  exists [OInstall pC true false false; ODeactivateLater (ByName (lit "notify"))], pC.
  split; [intros p q [<-|[]] [<-|[]] _; reflexivity|]. split; [intros p [<-|[]]; auto|].
  split; [repeat constructor|]. split; [reflexivity|]. split; [reflexivity|]. intros [_ N]. apply N. vm_compute. auto.
Qed.

(** Not so: the option printed is about the plugin it is printed for.  With two
    plugins "a b" and "a-b", the option printed for the first deactivates the
    second. *)
Theorem C109_hint_refuted : exists calls p q,
  well_behaved [p; q] /\ Forall (uses [p; q]) calls
  /\ let s := exec_all ident calls pm0 in
     s_get (p_name p) (installed s) = Some (p, false) /\ to_be_active s (p_name p)
     /\ p_name p <> p_name q /\ to_be_active s (p_name q)
     /\ let '(s', _, e) := add_pending [lit "--without-" ++ normalize (p_name p)] s in
        e = None /\ to_be_active s' (p_name p) /\ ~ to_be_active s' (p_name q).
Proof.
  exists [OInstall pA true false false; OInstall pB true false false], pA, pB.
  split; [intros p [<-|[<-|[]]]; auto|]. split; [uses_tac|]. split; [reflexivity|].
  split; [split; [vm_compute; auto|intros []]|]. split; [discriminate|].
  split; [split; [vm_compute; auto|intros []]|]. split; [reflexivity|]. split; [split; [vm_compute; auto|vm_compute; intuition discriminate]|].
  intros [_ N]. apply N. vm_compute. auto.
Qed.

(** Not so: list-plugins can always list.  A plugin uninstalled while it is
    still to be activated makes it fail. *)
Theorem C109_fails_refuted : exists calls p,
  distinct_names [p] /\ well_behaved [p] /\ Forall (uses [p]) calls
  /\ list_plugins (fun _ => []) false true false (exec_all ident calls pm0) = None.
Proof.
  exists [OInstall pC false true false; OUninstall (ByName (lit "notify"))], pC.
  split; [intros p q [<-|[]] [<-|[]] _; reflexivity|]. split; [intros p [<-|[]]; auto|].
  split; [repeat constructor|]. reflexivity.
Qed.

(** Not so: colours are written only to a terminal, unless forced.  The error
    stream gets them if the report stream is a terminal. *)
Theorem C109_error_stream_refuted : exists pr args,
  pr_force pr = false /\ Forall good_piece args
  /\ In "027"%char (text true (call pr args NL true)) /\ text false (call pr args NL true) = [].
Proof.
  exists (mkPrinter true false true true), [styled (sgr "31") (lit "error")].
  split; [reflexivity|]. split; [|split; [left; reflexivity|reflexivity]].
  constructor; [|constructor]. split; [unfold clean; cbn; intuition discriminate|]. intros st [= <-]. vm_compute. escs.
Qed.

Print Assumptions C109_print.
Print Assumptions C109_coloured.
Print Assumptions C109_reset.
Print Assumptions C109_config.
Print Assumptions C109_below.
Print Assumptions C109_config_colours.
Print Assumptions C109_plugins.
Print Assumptions C109_truth.
Print Assumptions C109_without.
Print Assumptions C109_with.
Print Assumptions C109_filter_refuted.
Print Assumptions C109_with_refuted.
Print Assumptions C109_hint_refuted.
Print Assumptions C109_fails_refuted.
Print Assumptions C109_error_stream_refuted.
