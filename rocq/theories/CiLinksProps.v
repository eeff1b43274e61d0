(** C130: links to logs archived by a CI system. *)

From Coq Require Import List Bool Arith Ascii String Lia.
From Verif Require Import Str CiLinks.
Import ListNotations.

(** a detail of a result *)
Fixpoint detail (k : str) (d : details) : option str :=
  match d with
  | [] => None
  | (k', v) :: d' => if str_eqb k k' then Some v else detail k d'
  end.

(** a path as it is in links: with slashes *)
Definition slashes (sep : ascii) (p : str) : str := map (fun c => if Ascii.eqb c sep then "/"%char else c) p.

(** [base] is the url without slashes at its end *)
Definition stripped (url base : str) : Prop := (exists k, url = base ++ repeat "/"%char k) /\ forall b, base <> b ++ ["/"%char].

(** what a template consists of, how it is written and what it means *)
Inductive piece := Char (c : ascii) | BuildUrl | LogPath.
Definition written (p : piece) : str :=
  match p with
  | Char c => if Ascii.eqb c "%" then lit "%%" else [c]
  | BuildUrl => lit "%(build_url)s"
  | LogPath => lit "%(log_path)s"
  end.
Definition meant (url path : str) (p : piece) : str := match p with Char c => [c] | BuildUrl => url | LogPath => path end.

(** ** Lemmas *)

Lemma strip_spec c s : exists k, s = repeat c k ++ lstrip_char c s /\ forall b, lstrip_char c s <> c :: b.
Proof.
  induction s as [|x s (k & E & N)]; cbn; [exists 0; split; [reflexivity|discriminate]|].
  destruct (Ascii.eqb_spec x c) as [->|D].
  - exists (S k). split; [cbn; f_equal; exact E|exact N].
  - exists 0. split; [reflexivity|]. intros b X. inversion X. contradiction.
Qed.

Lemma repeat_rev {A} (c : A) k : rev (repeat c k) = repeat c k.
Proof. induction k as [|k IH]; [reflexivity|]. cbn. rewrite IH. clear. induction k as [|k IH]; [reflexivity|]. cbn. rewrite IH. reflexivity. Qed.

Lemma rstrip_spec s : stripped s (rstrip_char "/" s).
Proof.
  destruct (strip_spec "/" (rev s)) as (k & E & N). unfold rstrip_char. split.
  - exists k. rewrite <- (repeat_rev "/"%char k), <- rev_app_distr, <- E, rev_involutive. reflexivity.
  - intros b X. apply (N (rev b)). apply (f_equal (@rev ascii)) in X. rewrite rev_involutive, rev_app_distr in X. exact X.
Qed.

Lemma stripped_unique s b1 b2 : stripped s b1 -> stripped s b2 -> b1 = b2.
Proof.
  assert (W : forall b1 b2 k1 k2, k1 <= k2 -> b1 ++ repeat "/"%char k1 = b2 ++ repeat "/"%char k2 -> (forall b, b1 <> b ++ ["/"%char]) -> b1 = b2).
  { clear. intros b1 b2 k1 k2 L E N. replace k2 with ((k2 - k1) + k1) in E by lia. rewrite repeat_app, app_assoc in E.
    apply app_inv_tail in E. destruct (k2 - k1) as [|j]; [cbn in E; rewrite app_nil_r in E; exact E|]. exfalso.
    change (repeat "/"%char (S j)) with ("/"%char :: repeat "/"%char j) in E. rewrite repeat_cons, app_assoc in E. exact (N _ E). }
  intros [[k1 E1] N1] [[k2 E2] N2]. destruct (Nat.le_ge_cases k1 k2).
  - apply (W b1 b2 k1 k2); congruence.
  - symmetry. apply (W b2 b1 k2 k1); congruence.
Qed.

Lemma join_split c p : join (lit "/") (split_all c p) = slashes c p.
Proof.
  assert (NE : forall p, split_all c p <> []).
  { clear. intros p. destruct p as [|x p]; cbn; [discriminate|]. destruct (Ascii.eqb x c); [discriminate|]. destruct (split_all c p); discriminate. }
  induction p as [|x p IH]; [reflexivity|]. cbn [split_all slashes map]. destruct (Ascii.eqb x c).
  - cbn [join]. destruct (split_all c p) as [|w ws] eqn:E; [destruct (NE p E)|]. rewrite IH. reflexivity.
  - destruct (split_all c p) as [|w ws] eqn:E; [destruct (NE p E)|]. fold (slashes c p). rewrite <- IH.
    destruct ws; reflexivity.
Qed.

Definition put (s : str) (r : formatted) : formatted := match r with Text x => Text (s ++ x) | Fails e => Fails e end.

Lemma put_put a b r : put a (put b r) = put (a ++ b) r.
Proof. destruct r; cbn; [rewrite app_assoc|]; reflexivity. Qed.

Lemma fmt_piece u p x t : fmt (mapping u p) InText (written x ++ t) = put (meant u p x) (fmt (mapping u p) InText t).
Proof.
  destruct x as [c| |]; [|reflexivity|reflexivity]. cbn [written meant]. destruct (Ascii.eqb_spec c "%") as [->|N]; [reflexivity|].
  cbn [app fmt]. destruct (Ascii.eqb_spec c "%"); [contradiction|]. reflexivity.
Qed.

Lemma fmt_pieces u p l t :
  fmt (mapping u p) InText (flat_map written l ++ t) = put (flat_map (meant u p) l) (fmt (mapping u p) InText t).
Proof.
  induction l as [|x l IH]; cbn [flat_map]; [destruct (fmt _ _ _); reflexivity|].
  rewrite <- app_assoc, fmt_piece, IH, put_put. reflexivity.
Qed.

Lemma fmt_key u p k t : ~ In "("%char k -> ~ In ")"%char k -> k <> lit "build_url" -> k <> lit "log_path" ->
  fmt (mapping u p) InText (lit "%(" ++ k ++ lit ")" ++ t) = Fails (KeyError k).
Proof.
  intros N1 N2 B L. cbn [lit list_ascii_of_string app fmt]. change (Ascii.eqb "%" "%") with true. change (Ascii.eqb "(" "%") with false.
  change (Ascii.eqb "(" "(") with true. cbn iota.
  enough (G : forall k1 k0, k = k0 ++ k1 -> fmt (mapping u p) (InKey k0) (k1 ++ ")"%char :: t) = Fails (KeyError k)) by exact (G k [] eq_refl).
  induction k1 as [|c k1 IH]; intros k0 E.
  - rewrite app_nil_r in E. subst k0. cbn [app fmt]. change (Ascii.eqb ")" ")") with true. cbn iota. unfold mapping.
    destruct (str_eqb_spec k (lit "build_url")); [contradiction|]. destruct (str_eqb_spec k (lit "log_path")); [contradiction|]. reflexivity.
  - cbn [app fmt]. destruct (Ascii.eqb_spec c ")") as [->|]; [destruct N2; subst k; apply in_app_iff; cbn; auto|].
    destruct (Ascii.eqb_spec c "(") as [->|]; [destruct N1; subst k; apply in_app_iff; cbn; auto|].
    apply IH. rewrite <- app_assoc. exact E.
Qed.

Lemma detail_set k v d k' : detail k' (set k v d) = if str_eqb k' k then Some v else detail k' d.
Proof.
  induction d as [|[j w] d IH]; cbn [set detail]; [reflexivity|]. destruct (str_eqb_spec k j) as [->|N]; cbn [detail].
  - destruct (str_eqb k' j); reflexivity.
  - rewrite IH. destruct (str_eqb_spec k' j), (str_eqb_spec k' k); try reflexivity. congruence.
Qed.

(** ** Theorems *)

(** without the variable nothing is done *)
Theorem C130_unset c e sep path d : e (build_url_environment_variable c) = None -> test_end c e sep path d = (d, None).
Proof. intros E. unfold test_end, get_build_url. rewrite E. reflexivity. Qed.
Print Assumptions C130_unset.

(** with the default configuration the link is the url of the build, without slashes at its end, /artifact/ and the path of the log with
    slashes; the other details stay *)
Theorem C130_link e sep url base path d :
  e (lit "BUILD_URL") = Some url -> stripped url base ->
  snd (test_end default e sep (Some path) d) = None /\
  forall k, detail k (fst (test_end default e sep (Some path) d)) =
            if str_eqb k (lit "log_link") then Some (base ++ lit "/artifact/" ++ slashes sep path) else detail k d.
Proof.
  intros E S. unfold test_end, get_build_url. change (build_url_environment_variable default) with (lit "BUILD_URL"). rewrite E, join_split.
  rewrite (stripped_unique _ _ _ (rstrip_spec url) S).
  set (l := BuildUrl :: map Char (lit "/artifact/") ++ [LogPath]).
  replace (link_template default) with (flat_map written l ++ []) by reflexivity. rewrite fmt_pieces. cbn [fmt put].
  split; [reflexivity|]. intros k. cbn [fst]. rewrite detail_set. destruct (str_eqb k (lit "log_link")); [|reflexivity].
  f_equal. cbn. rewrite !app_nil_r. reflexivity.
Qed.
Print Assumptions C130_link.

(** with any variable and any template of characters, the url and the path *)
Theorem C130_template v l e sep url base path d :
  e v = Some url -> stripped url base ->
  snd (test_end (mkConf v (flat_map written l)) e sep (Some path) d) = None /\
  forall k, detail k (fst (test_end (mkConf v (flat_map written l)) e sep (Some path) d)) =
            if str_eqb k (lit "log_link") then Some (flat_map (meant base (slashes sep path)) l) else detail k d.
Proof.
  intros E S. unfold test_end, get_build_url. cbn [build_url_environment_variable link_template]. rewrite E, join_split.
  rewrite (stripped_unique _ _ _ (rstrip_spec url) S). rewrite <- (app_nil_r (flat_map written l)), fmt_pieces. cbn [fmt put].
  split; [reflexivity|]. intros k. cbn [fst]. rewrite detail_set, app_nil_r. reflexivity.
Qed.
Print Assumptions C130_template.

(** a template with another key raises KeyError with it, and a test without log file raises AttributeError, whatever the template; then no
    detail is changed *)
Theorem C130_fails c e sep url d :
  e (build_url_environment_variable c) = Some url ->
  test_end c e sep None d = (d, Some AttributeError) /\
  forall path l k t, link_template c = flat_map written l ++ lit "%(" ++ k ++ lit ")" ++ t ->
    ~ In "("%char k -> ~ In ")"%char k -> k <> lit "build_url" -> k <> lit "log_path" ->
    test_end c e sep (Some path) d = (d, Some (KeyError k)).
Proof.
  intros E. unfold test_end, get_build_url. rewrite E. split; [reflexivity|]. intros path l k t -> N1 N2 B L.
  rewrite fmt_pieces, fmt_key by assumption. reflexivity.
Qed.
Print Assumptions C130_fails.

(** ** Cases *)

Definition jenkins : environ := fun v => if str_eqb v (lit "BUILD_URL") then Some (lit "https://ci/job/7//") else None.

Example ex_link :
  stripped (lit "https://ci/job/7//") (lit "https://ci/job/7") /\
  test_end default jenkins "/" (Some (lit "logs/1.log")) [(lit "a", lit "b")] =
    ([(lit "a", lit "b"); (lit "log_link", lit "https://ci/job/7/artifact/logs/1.log")], None) /\
  test_end default jenkins "\" (Some (lit "logs\1.log")) [] = ([(lit "log_link", lit "https://ci/job/7/artifact/logs/1.log")], None) /\
  test_end (mkConf (lit "OTHER") (lit "x")) jenkins "/" (Some (lit "logs/1.log")) [] = ([], None).
Proof.
  split; [|repeat split]. split; [exists 2; reflexivity|]. intros b X. apply (f_equal (@rev ascii)) in X. rewrite rev_app_distr in X. discriminate X.
Qed.

Example ex_template :
  lit "100%% %(log_path)s" = flat_map written (map Char (lit "100% ") ++ [LogPath]) /\
  test_end (mkConf (lit "BUILD_URL") (lit "100%% %(log_path)s")) jenkins "/" (Some (lit "a/b")) [] = ([(lit "log_link", lit "100% a/b")], None) /\
  test_end (mkConf (lit "BUILD_URL") (lit "%(build_url)s/%(job)s")) jenkins "/" (Some (lit "a/b")) [] = ([], Some (KeyError (lit "job"))).
Proof. repeat split. Qed.

(** ** Stronger expectations that fail *)

(** the plugin does not leave tests alone for which there are no logs: with BUILD_URL set and no log.root, the hook raises at the end of
    every test *)
Theorem C130_no_logs_refuted : exists e, snd (test_end default e "/" None []) = Some AttributeError.
Proof. exists jenkins. reflexivity. Qed.
Print Assumptions C130_no_logs_refuted.

(** the path is not relative to the archive: of an absolute path the link has two slashes and the directories of the machine *)
Theorem C130_absolute_refuted :
  exists e path, detail (lit "log_link") (fst (test_end default e "/" (Some path) [])) = Some (lit "https://ci/job/7/artifact//home/ci/logs/1.log").
Proof. exists jenkins, (lit "/home/ci/logs/1.log"). reflexivity. Qed.
Print Assumptions C130_absolute_refuted.

(** a variable that is set but empty counts as set *)
Theorem C130_empty_refuted :
  exists e, e (lit "BUILD_URL") = Some [] /\ detail (lit "log_link") (fst (test_end default e "/" (Some (lit "1.log")) [])) = Some (lit "/artifact/1.log").
Proof. exists (fun _ => Some []). split; reflexivity. Qed.
Print Assumptions C130_empty_refuted.
