(** C104: the symlinks to log files. *)

From Coq Require Import List Bool Arith Ascii String Lia.
From Verif Require Import Str Events Core Results Links.
Import ListNotations.
Open Scope string_scope.
Open Scope list_scope.

Lemma put_same p n f : put p n f p = n.
Proof. unfold put. destruct (str_eqb_spec p p); congruence. Qed.
Lemma put_other p n f q : q <> p -> put p n f q = f q.
Proof. unfold put. destruct (str_eqb_spec q p); congruence. Qed.

(** the log files of a context, of an event, of a session *)
Definition paths (x : files) : list str :=
  match f_log x with
  | Some (p, Some raw) => [p; raw]
  | Some (p, None) => [p]
  | None => []
  end ++ match f_high x with Some h => [h] | None => [] end.
Definition event_paths (e : levent) : list str := match e with ETest x _ => paths x | EWorker _ _ _ => [] end.
Definition session_paths (x : files) (es : list levent) : list str := paths x ++ flat_map event_paths es.

(** the test failed or had an error *)
Definition failed (r : result) : Prop := r_errors r <> [] \/ r_failures r <> [].

Lemma failed_iff r : is_error r || is_failure r = true <-> failed r.
Proof.
  unfold failed, is_error, is_failure, nonempty. destruct (r_errors r), (r_failures r); simpl; intuition congruence.
Qed.

Section Props.
Variable expand : str -> str.
Variable dirname : str -> str.
Variables dirs_ok unlink_ok link_ok : fsys -> str -> bool.
Variable K : lcfg.

Local Notation try := (try_link expand dirs_ok unlink_ok link_ok K).
Local Notation make := (make_link dirs_ok unlink_ok link_ok).
Local Notation withlog := (with_log expand dirs_ok unlink_ok link_ok K).
Local Notation withfiles := (with_files expand dirs_ok unlink_ok link_ok K).
Local Notation event := (run_event expand dirs_ok unlink_ok link_ok K).
Local Notation session := (run_session expand dirname dirs_ok unlink_ok link_ok K).

(** the configured link [o] is at the place [q] *)
Definition at_place (o : option str) (q : str) : Prop :=
  exists root l, k_root K = Some root /\ o = Some l /\ q = place expand root l.

(** ** One link *)

Lemma make_other t l f q : q <> l -> fst (make t l f) q = f q.
Proof.
  intro N. unfold make_link. cbv zeta. destruct (dirs_ok f l); simpl; auto.
  destruct (f l) as [[| |t']|]; destruct t as [t|]; auto;
    try (destruct (unlink_ok f l); simpl; auto);
    try (match goal with |- context [link_ok ?g l] => destruct (link_ok g l) end; simpl; auto);
    rewrite ?put_other; auto.
Qed.

Lemma make_here t l f : fst (make t l f) l = f l \/ (f l <> Some Dir /\ fst (make t l f) l = None)
  \/ exists t', t = Some t' /\ f l <> Some Dir /\ fst (make t l f) l = Some (Link t').
Proof.
  unfold make_link. cbv zeta. destruct (dirs_ok f l); simpl; auto.
  destruct (f l) as [[| |t0]|] eqn:F; auto; destruct t as [t|];
    try (destruct (unlink_ok f l); simpl; auto; try (match goal with |- context [link_ok ?g l] => destruct (link_ok g l) end; simpl));
    try (match goal with |- context [link_ok ?g l] => destruct (link_ok g l) end; simpl);
    rewrite ?put_same; auto; try (right; left; split; [discriminate|auto]; fail);
    right; right; exists t; (split; [auto|split; [discriminate|auto]]).
Qed.

Lemma try_other t o f q : ~ at_place o q -> try t o f q = f q.
Proof.
  intro N. unfold try_link. destruct o as [l|]; auto. destruct (k_root K) as [root|] eqn:R; auto.
  destruct (k_worker K); auto. apply make_other. intros ->. apply N. exists root, l. auto.
Qed.

Lemma try_not_dir t o f q : f q <> Some Dir -> try t o f q <> Some Dir.
Proof.
  intro N. unfold try_link. destruct o as [l|]; auto. destruct (k_root K) as [root|] eqn:R; auto.
  destruct (k_worker K); auto. destruct (str_eqb_spec q (place expand root l)) as [->|D].
  - destruct (make_here t (place expand root l) f) as [->|[(_ & ->)|(t' & _ & _ & ->)]]; auto; discriminate.
  - rewrite make_other; auto.
Qed.

(** the operating system refuses nothing for a link at [q] *)
Definition fine (q : str) : Prop :=
  forall f, dirs_ok f q = true /\ unlink_ok f q = true /\ link_ok f q = true.

Lemma try_here t o f q : at_place o q -> k_worker K = false -> fine q -> f q <> Some Dir ->
  try t o f q = option_map Link t.
Proof.
  intros (root & l & R & -> & ->) W F N. unfold try_link. rewrite R, W. unfold make_link.
  set (q := place expand root l) in *. destruct (F f) as (D & U & L). rewrite D. simpl.
  destruct (f q) as [[| |t0]|] eqn:E; try congruence; rewrite ?U.
  - destruct t as [t|]; simpl; [|apply put_same]. destruct (F (put q None f)) as (_ & _ & ->). apply put_same.
  - destruct t as [t|]; simpl; [|apply put_same]. destruct (F (put q None f)) as (_ & _ & ->). apply put_same.
  - destruct t as [t|]; simpl; auto. rewrite L. apply put_same.
Qed.

(** ** Contexts *)

(** the state after a log file was opened *)
Definition opened (p : str) (o : option str) (s : lks) : lks :=
  if existsb (str_eqb p) (k_open s) then s
  else mkLks (put p (Some File) match o with
                                | Some (c :: l) => try (Some p) (Some (c :: l)) (k_fs s)
                                | _ => k_fs s
                                end) (p :: k_open s).
Definition opened_high (x : files) (s : lks) : lks :=
  match f_high x with Some h => opened h None s | None => s end.
Definition opened_files (x : files) (o : option str) (s : lks) : lks :=
  opened_high x match f_log x with
                | None => s
                | Some (p, None) => opened p o s
                | Some (p, Some raw) => opened raw o (opened p o s)
                end.

Lemma with_log_at p o b body s q : q <> p ->
  k_fs (withlog p o b body s) q = k_fs (body (opened p o s)) q.
Proof.
  intro N. unfold with_log, opened. destruct (existsb (str_eqb p) (k_open s)); auto. cbn [k_fs].
  destruct (k_cleanup K && should_del K b); auto. apply put_other. auto.
Qed.

Lemma with_files_at x o b body s q : ~ In q (paths x) -> k_root K <> None ->
  k_fs (withfiles x o b body s) q = k_fs (body (option_map fst (f_log x)) (opened_files x o s)) q.
Proof.
  intros N R. unfold with_files, opened_files, opened_high, paths in *.
  destruct (k_root K) as [root|]; [|congruence].
  destruct (f_log x) as [[p [raw|]]|]; destruct (f_high x) as [h|]; simpl in *;
    repeat (rewrite with_log_at by (intros ->; tauto)); auto.
Qed.

Lemma with_files_none x o b body s : k_root K = None -> withfiles x o b body s = body None s.
Proof. intro R. unfold with_files. rewrite R. auto. Qed.

Lemma filter_not_in p l : existsb (str_eqb p) l = false -> filter (fun q => negb (str_eqb p q)) l = l.
Proof.
  induction l as [|a l IH]; simpl; auto. destruct (str_eqb p a); simpl; [discriminate|].
  intro H. rewrite IH; auto.
Qed.
Lemma str_eqb_refl p : str_eqb p p = true.
Proof. destruct (str_eqb_spec p p); congruence. Qed.

Lemma with_log_open p o b body s : (forall s, k_open (body s) = k_open s) ->
  k_open (withlog p o b body s) = k_open s.
Proof.
  intro B. unfold with_log. destruct (existsb (str_eqb p) (k_open s)) eqn:E; auto. cbn [k_open].
  rewrite B. cbn [k_open filter]. rewrite str_eqb_refl. simpl. apply filter_not_in. auto.
Qed.

Lemma with_files_open x o b body s : (forall path s, k_open (body path s) = k_open s) ->
  k_open (withfiles x o b body s) = k_open s.
Proof.
  intro B. unfold with_files. destruct (k_root K) as [root|]; auto.
  assert (H : forall path s, k_open (match f_high x with
                         | Some h => withlog h None b (body path) s
                         | None => body path s
                         end) = k_open s).
  { intros path s0. destruct (f_high x); auto. apply with_log_open. auto. }
  destruct (f_log x) as [[p [raw|]]|]; auto.
  - apply with_log_open. intro s1. apply with_log_open. intro s2. apply H.
  - apply with_log_open. intro s1. apply H.
Qed.

Lemma event_open e s : k_open (event e s) = k_open s.
Proof.
  destruct e as [x r|i n w]; simpl; auto. apply with_files_open. intros path s0.
  destruct (is_error r || is_failure r); auto.
Qed.
Lemma events_open es s : k_open (fold_left (fun s e => event e s) es s) = k_open s.
Proof.
  revert s. induction es as [|e es IH]; intro s; simpl; auto. rewrite IH. apply event_open.
Qed.

Lemma opened_at p o s q : q <> p -> ~ at_place o q -> k_fs (opened p o s) q = k_fs s q.
Proof.
  intros N A. unfold opened. destruct (existsb _ _); auto. cbn [k_fs]. rewrite put_other by auto.
  destruct o as [[|c l]|]; auto. apply try_other. auto.
Qed.
Lemma no_place q : ~ at_place None q.
Proof. intros (root & l & _ & H & _). discriminate. Qed.

Lemma opened_files_at x o s q : ~ In q (paths x) -> ~ at_place o q -> k_fs (opened_files x o s) q = k_fs s q.
Proof.
  intros N A. unfold opened_files, opened_high, paths in *.
  destruct (f_log x) as [[p [raw|]]|]; destruct (f_high x) as [h|]; simpl in *;
    repeat (rewrite opened_at; [|intros ->; tauto|first [exact A|apply no_place]]); auto.
Qed.

Lemma opened_not_dir p o s q : q <> p -> k_fs s q <> Some Dir -> k_fs (opened p o s) q <> Some Dir.
Proof.
  intros N A. unfold opened. destruct (existsb _ _); auto. cbn [k_fs]. rewrite put_other by auto.
  destruct o as [[|c l]|]; auto. apply try_not_dir. auto.
Qed.
Lemma opened_files_not_dir x o s q : ~ In q (paths x) -> k_fs s q <> Some Dir -> k_fs (opened_files x o s) q <> Some Dir.
Proof.
  intros N A. unfold opened_files, opened_high, paths in *.
  destruct (f_log x) as [[p [raw|]]|]; destruct (f_high x) as [h|]; simpl in *;
    repeat (apply opened_not_dir; [intros ->; tauto|]); auto.
Qed.

(** a new link at the place [q] when a log is opened *)
Lemma opened_here p o s q : q <> p -> at_place o q -> o <> Some [] -> k_worker K = false -> fine q -> k_fs s q <> Some Dir ->
  ~ In p (k_open s) -> k_fs (opened p o s) q = Some (Link p) /\ k_open (opened p o s) = p :: k_open s.
Proof.
  intros N A E W F D O. unfold opened.
  assert (X : existsb (str_eqb p) (k_open s) = false).
  { apply not_true_is_false. intro H. apply existsb_exists in H as (y & I & Q).
    destruct (str_eqb_spec p y); [subst; auto|discriminate]. }
  rewrite X. cbn [k_fs k_open]. split; auto. rewrite put_other by auto.
  assert (exists c l, o = Some (c :: l)) as (c & l & ->).
  { destruct A as (root & l & _ & -> & _). destruct l as [|c l]; [congruence|eauto]. }
  rewrite try_here; auto.
Qed.

(** the file a link to the log of a context ends at: the raw one, if there is one *)
Definition target (x : files) : option str :=
  match f_log x with
  | None => None
  | Some (p, None) => Some p
  | Some (p, Some raw) => Some raw
  end.

Lemma opened_files_here x o s q : ~ In q (paths x) -> at_place o q -> o <> Some [] -> k_worker K = false -> fine q ->
  k_fs s q <> Some Dir -> (forall p, In p (paths x) -> ~ In p (k_open s)) ->
  (forall p raw, f_log x = Some (p, Some raw) -> p <> raw) ->
  k_fs (opened_files x o s) q = match target x with Some t => Some (Link t) | None => k_fs s q end.
Proof.
  intros N A E W F D O Nr.
  assert (H : forall s0, k_fs (opened_high x s0) q = k_fs s0 q).
  { intro s0. unfold opened_high, paths in *. destruct (f_high x) as [h|]; auto. apply opened_at; [|apply no_place].
    intros ->. apply N. apply in_app_iff. right. left. auto. }
  unfold opened_files, target. rewrite H. unfold paths in *.
  destruct (f_log x) as [[p [raw|]]|]; auto; simpl in *.
  - destruct (opened_here p o s q) as (X & Y); auto.
    apply opened_here; auto; [congruence|]. rewrite Y. simpl. specialize (Nr p raw eq_refl).
    intros [->|I]; auto. apply (O raw); auto.
  - apply opened_here; auto.
Qed.

(** ** Events *)

Definition links_of (e : levent) (q : str) : Prop :=
  match e with
  | ETest x r => at_place (k_test_link K) q \/ (failed r /\ at_place (k_failed_link K) q)
  | EWorker i n w => at_place (Some (join i n)) q
  end.

Lemma worker_try i n w f : worker_link expand dirs_ok unlink_ok link_ok K i n w f
  = try (match k_root K with Some root => Some (join (expand root) w) | None => None end) (Some (join i n)) f.
Proof. unfold worker_link, try_link. destruct (k_root K); auto. Qed.

Lemma test_at x r s q : ~ In q (paths x) -> k_root K <> None ->
  k_fs (event (ETest x r) s) q =
    if is_error r || is_failure r
    then try (option_map fst (f_log x)) (k_failed_link K) (k_fs (opened_files x (k_test_link K) s)) q
    else k_fs (opened_files x (k_test_link K) s) q.
Proof.
  intros N R. simpl. rewrite with_files_at by auto. destruct (is_error r || is_failure r); auto.
Qed.

Lemma event_none e s : k_root K = None -> k_fs (event e s) = k_fs s.
Proof.
  intro R. destruct e as [x r|i n w]; simpl.
  - rewrite with_files_none by auto. destruct (is_error r || is_failure r); auto. cbn [k_fs].
    unfold try_link. rewrite R. destruct (k_failed_link K); auto.
  - unfold worker_link. rewrite R. auto.
Qed.

Lemma root_dec : k_root K = None \/ k_root K <> None.
Proof. destruct (k_root K); [right; discriminate|left; auto]. Qed.

Lemma event_other e s q : ~ In q (event_paths e) -> ~ links_of e q -> k_fs (event e s) q = k_fs s q.
Proof.
  intros N L. destruct root_dec as [R|R]; [rewrite event_none; auto|].
  destruct e as [x r|i n w].
  - rewrite test_at by auto. simpl in L. destruct (is_error r || is_failure r) eqn:B.
    + rewrite try_other; [apply opened_files_at; auto|]. intro A. apply L. right. split; auto. apply failed_iff. auto.
    + apply opened_files_at; auto.
  - simpl. rewrite worker_try. apply try_other. auto.
Qed.

Lemma event_not_dir e s q : ~ In q (event_paths e) -> k_fs s q <> Some Dir -> k_fs (event e s) q <> Some Dir.
Proof.
  intros N D. destruct root_dec as [R|R]; [rewrite event_none; auto|].
  destruct e as [x r|i n w].
  - rewrite test_at by auto. pose proof (opened_files_not_dir x (k_test_link K) s q N D).
    destruct (is_error r || is_failure r); auto. apply try_not_dir. auto.
  - simpl. rewrite worker_try. apply try_not_dir. auto.
Qed.

Lemma events_other es s q : ~ In q (flat_map event_paths es) -> (forall e, In e es -> ~ links_of e q) ->
  k_fs (fold_left (fun s e => event e s) es s) q = k_fs s q.
Proof.
  revert s. induction es as [|e es IH]; intros s N L; simpl in *; auto.
  rewrite in_app_iff in N. rewrite IH; [apply event_other; auto|tauto|auto].
Qed.
Lemma events_not_dir es s q : ~ In q (flat_map event_paths es) -> k_fs s q <> Some Dir ->
  k_fs (fold_left (fun s e => event e s) es s) q <> Some Dir.
Proof.
  revert s. induction es as [|e es IH]; intros s N L; simpl in *; auto.
  rewrite in_app_iff in N. apply IH; [tauto|]. apply event_not_dir; [tauto|auto].
Qed.

(** the state in which the events begin *)
Definition begun (x : files) (s : lks) : lks :=
  let s0 := opened_files x (k_session_link K) s in
  match k_dir_link K, option_map fst (f_log x) with
  | Some d, Some p => mkLks (try (Some (dirname p)) (Some d) (k_fs s0)) (k_open s0)
  | _, _ => s0
  end.

Lemma session_at x R es s q : ~ In q (paths x) -> k_root K <> None ->
  k_fs (session x R es s) q = k_fs (fold_left (fun s e => event e s) es (begun x s)) q.
Proof. intros N H. unfold run_session. rewrite with_files_at by auto. reflexivity. Qed.

Lemma session_none x R es s : k_root K = None -> k_fs (session x R es s) = k_fs s.
Proof.
  intro H. unfold run_session. rewrite with_files_none by auto.
  assert (E : forall s0, k_fs (fold_left (fun s e => event e s) es s0) = k_fs s0).
  { induction es as [|e es' IH]; intro s0; simpl; auto. rewrite IH. apply event_none. auto. }
  rewrite E. destruct (k_dir_link K); auto.
Qed.

Lemma begun_at x s q : ~ In q (paths x) -> ~ at_place (k_session_link K) q -> ~ at_place (k_dir_link K) q ->
  k_fs (begun x s) q = k_fs s q.
Proof.
  intros N A B. unfold begun. cbv zeta. destruct (k_dir_link K) as [d|]; [|apply opened_files_at; auto].
  destruct (option_map fst (f_log x)) as [p|]; [|apply opened_files_at; auto]. cbn [k_fs].
  rewrite try_other by auto. apply opened_files_at; auto.
Qed.
Lemma begun_not_dir x s q : ~ In q (paths x) -> k_fs s q <> Some Dir -> k_fs (begun x s) q <> Some Dir.
Proof.
  intros N A. pose proof (opened_files_not_dir x (k_session_link K) s q N A). unfold begun. cbv zeta.
  destruct (k_dir_link K) as [d|]; auto. destruct (option_map fst (f_log x)) as [p|]; auto.
  cbn [k_fs]. apply try_not_dir. auto.
Qed.

Lemma opened_open p o s y : In y (k_open (opened p o s)) -> y = p \/ In y (k_open s).
Proof. unfold opened. destruct (existsb _ _); auto. cbn [k_open]. intros [->|]; auto. Qed.
Lemma begun_open x s y : In y (k_open (begun x s)) -> In y (paths x) \/ In y (k_open s).
Proof.
  intro I. assert (J : In y (k_open (opened_files x (k_session_link K) s))).
  { unfold begun in I. cbv zeta in I. destruct (k_dir_link K); auto. destruct (option_map fst (f_log x)); auto. }
  clear I. unfold opened_files, opened_high, paths in *. rewrite in_app_iff.
  destruct (f_high x) as [h|].
  - apply opened_open in J as [->|J]; [left; right; left; auto|].
    destruct (f_log x) as [[p [raw|]]|]; auto.
    + apply opened_open in J as [->|J]; [simpl; auto|]. apply opened_open in J as [->|J]; simpl; auto.
    + apply opened_open in J as [->|J]; simpl; auto.
  - destruct (f_log x) as [[p [raw|]]|]; auto.
    + apply opened_open in J as [->|J]; [simpl; auto|]. apply opened_open in J as [->|J]; simpl; auto.
    + apply opened_open in J as [->|J]; simpl; auto.
Qed.

(** ** C104 *)

(** Making a link never raises and changes nothing but the link's place; a directory
    there is left alone.  Where the system refuses nothing, the link is there
    afterwards. *)
Theorem C104_one t o f :
  (forall q, ~ at_place o q -> try t o f q = f q)
  /\ (forall q, f q = Some Dir -> try t o f q = Some Dir)
  /\ (forall q, try t o f q = f q \/ try t o f q = None \/ exists t', t = Some t' /\ try t o f q = Some (Link t'))
  /\ (k_worker K = true -> forall q, try t o f q = f q)
  /\ (forall q p, at_place o q -> k_worker K = false -> fine q -> f q <> Some Dir -> t = Some p ->
        try t o f q = Some (Link p)).
Proof.
  split; [intros q; apply try_other|]. split; [|split; [|split]].
  - intros q D. unfold try_link. destruct o as [l|]; auto. destruct (k_root K) as [root|]; auto.
    destruct (k_worker K); auto. destruct (str_eqb_spec q (place expand root l)) as [->|N].
    + unfold make_link. destruct (dirs_ok f _); simpl; auto. rewrite D. auto.
    + rewrite make_other; auto.
  - intro q. unfold try_link. destruct o as [l|]; auto. destruct (k_root K) as [root|]; auto.
    destruct (k_worker K); auto. destruct (str_eqb_spec q (place expand root l)) as [->|N].
    + destruct (make_here t (place expand root l) f) as [H|[(_ & H)|(t' & H1 & _ & H2)]]; eauto.
    + rewrite make_other; auto.
  - intros W q. unfold try_link. rewrite W. destruct o; auto. destruct (k_root K); auto.
  - intros q p A W F D ->. rewrite try_here; auto.
Qed.

(** Where a link is: "~" is expanded, and what is not absolute is below the log directory. *)
Theorem C104_place root l :
  (forall l', expand l = lit "/" ++ l' -> place expand root l = expand l)
  /\ ((forall l', expand l <> lit "/" ++ l') ->
      (forall b, expand root = b ++ lit "/" -> place expand root l = expand root ++ expand l)
      /\ ((forall b, expand root <> b ++ lit "/") -> place expand root l = expand root ++ lit "/" ++ expand l)).
Proof.
  assert (S : forall a b, strip_prefix a (a ++ b) = Some b).
  { induction a as [|c a IH]; intro b; simpl; auto. rewrite Ascii.eqb_refl. auto. }
  assert (S' : forall a x b, strip_prefix a x = Some b -> x = a ++ b).
  { induction a as [|c a IH]; intros x b H; simpl in *; [congruence|].
    destruct x as [|d x]; [discriminate|]. destruct (Ascii.eqb_spec c d) as [->|]; [|discriminate].
    f_equal. auto. }
  unfold place, starts. cbv zeta. split.
  - intros l' ->. rewrite S. auto.
  - intro N. destruct (strip_prefix (lit "/") (expand l)) as [l'|] eqn:E.
    { apply S' in E. destruct (N l' E). }
    unfold join, ends, starts. split.
    + intros b ->. rewrite rev_app_distr. rewrite S. rewrite <- app_assoc. auto.
    + intro M. destruct (strip_prefix (rev (lit "/")) (rev (expand root))) as [b|] eqn:B; auto.
      apply S' in B. apply (f_equal (@rev ascii)) in B. rewrite rev_involutive in B. rewrite rev_app_distr, rev_involutive in B.
      destruct (M (rev b) B).
Qed.

(** A session changes nothing but its log files and the places of its links. *)
Theorem C104_rest x R es s q :
  ~ In q (session_paths x es) ->
  ~ at_place (k_session_link K) q -> ~ at_place (k_dir_link K) q ->
  ~ at_place (k_test_link K) q -> ~ at_place (k_failed_link K) q ->
  (forall i n w, In (EWorker i n w) es -> ~ at_place (Some (join i n)) q) ->
  k_fs (session x R es s) q = k_fs s q.
Proof.
  intros N A B C D E. unfold session_paths in N. rewrite in_app_iff in N.
  destruct root_dec as [H|H]; [rewrite session_none; auto|]. rewrite session_at by tauto.
  rewrite events_other; [apply begun_at; tauto|tauto|].
  intros e I. destruct e as [y r|i n w]; simpl; [tauto|]. apply (E i n w). auto.
Qed.

(** A worker makes no links; without a log directory nothing is changed at all. *)
Theorem C104_worker x R es s q :
  k_worker K = true -> ~ In q (session_paths x es) -> k_fs (session x R es s) q = k_fs s q.
Proof.
  intros W N. unfold session_paths in N. rewrite in_app_iff in N.
  assert (T : forall t o f, try t o f = f).
  { intros t o f. unfold try_link. rewrite W. destruct o; auto. destruct (k_root K); auto. }
  assert (O : forall p o s0, q <> p -> k_fs (opened p o s0) q = k_fs s0 q).
  { intros p o s0 D. unfold opened. destruct (existsb _ _); auto. cbn [k_fs]. rewrite put_other by auto.
    destruct o as [[|c l]|]; rewrite ?T; auto. }
  assert (OF : forall y o s0, ~ In q (paths y) -> k_fs (opened_files y o s0) q = k_fs s0 q).
  { intros y o s0 D. unfold opened_files, opened_high, paths in *.
    destruct (f_log y) as [[p [raw|]]|]; destruct (f_high y) as [h|]; simpl in *;
      repeat (rewrite O; [|intros ->; tauto]); auto. }
  destruct root_dec as [H|H]; [rewrite session_none; auto|]. rewrite session_at by tauto.
  assert (B : k_fs (begun x s) q = k_fs s q).
  { unfold begun. cbv zeta. destruct (k_dir_link K); [|apply OF; tauto].
    destruct (option_map fst (f_log x)); [|apply OF; tauto]. cbn [k_fs]. rewrite T. apply OF. tauto. }
  rewrite <- B.
  assert (N' : ~ In q (flat_map event_paths es)) by tauto. clear N B.
  generalize (begun x s). induction es as [|e es' IH]; intro s0; simpl in *; auto.
  rewrite in_app_iff in N'. rewrite IH by tauto. destruct e as [y r|i n w].
  - rewrite test_at by (simpl in *; tauto). rewrite T. rewrite OF by (simpl in *; tauto). destruct (is_error r || is_failure r); auto.
  - simpl. rewrite worker_try, T. auto.
Qed.
Theorem C104_no_root x R es s q : k_root K = None -> k_fs (session x R es s) q = k_fs s q.
Proof. intro H. rewrite session_none; auto. Qed.

(** what is asked of the place of a link: no log file and no other link is there, it is
    no directory, and the system refuses nothing *)
Definition own_place (q : str) (x : files) (es : list levent) (s : lks) : Prop :=
  ~ In q (session_paths x es) /\ k_worker K = false /\ fine q /\ k_fs s q <> Some Dir.

Lemma no_place_workers q es : (forall i n w, In (EWorker i n w) es -> ~ at_place (Some (join i n)) q) ->
  ~ at_place (k_test_link K) q -> (forall y r, In (ETest y r) es -> failed r -> ~ at_place (k_failed_link K) q) ->
  forall e, In e es -> ~ links_of e q.
Proof.
  intros A B C e I. destruct e as [y r|i n w]; simpl; [|apply (A i n w); auto].
  intros [H|(H1 & H2)]; [auto|]. apply (C y r); auto.
Qed.

(** The link to the last session. *)
Theorem C104_last_session x R es s q p :
  own_place q x es s -> at_place (k_session_link K) q -> k_session_link K <> Some [] ->
  ~ at_place (k_dir_link K) q -> ~ at_place (k_test_link K) q -> ~ at_place (k_failed_link K) q ->
  (forall i n w, In (EWorker i n w) es -> ~ at_place (Some (join i n)) q) ->
  k_open s = [] -> (forall p raw, f_log x = Some (p, Some raw) -> p <> raw) ->
  target x = Some p ->
  k_fs (session x R es s) q = Some (Link p).
Proof.
  intros (N & W & F & D) A E B C G H O Nr T. unfold session_paths in N. rewrite in_app_iff in N.
  assert (Rt : k_root K <> None) by (destruct A as (root & l & -> & _); discriminate).
  rewrite session_at by tauto. rewrite events_other; [|tauto|].
  2: { apply no_place_workers; auto. }
  assert (X : k_fs (opened_files x (k_session_link K) s) q = Some (Link p)).
  { rewrite opened_files_here; auto; [rewrite T; auto|]. rewrite O. auto. }
  unfold begun. cbv zeta. destruct (k_dir_link K) as [d|]; auto.
  destruct (option_map fst (f_log x)); auto. cbn [k_fs]. rewrite try_other; auto.
Qed.

(** The link to the directory of the last session. *)
Theorem C104_last_session_dir x R es s q p raw :
  own_place q x es s -> at_place (k_dir_link K) q ->
  ~ at_place (k_test_link K) q -> ~ at_place (k_failed_link K) q ->
  (forall i n w, In (EWorker i n w) es -> ~ at_place (Some (join i n)) q) ->
  f_log x = Some (p, raw) ->
  k_fs (session x R es s) q = Some (Link (dirname p)).
Proof.
  intros (N & W & F & D) A C G H T. unfold session_paths in N. rewrite in_app_iff in N.
  assert (Rt : k_root K <> None) by (destruct A as (root & l & -> & _); discriminate).
  rewrite session_at by tauto. rewrite events_other; [|tauto|].
  2: { apply no_place_workers; auto. }
  unfold begun. cbv zeta. rewrite T. cbn [option_map fst].
  assert (X : exists d, k_dir_link K = Some d) by (destruct A as (root & l & _ & -> & _); eauto).
  destruct X as (d & X). rewrite X in *. cbn [k_fs].
  rewrite try_here; auto. apply opened_files_not_dir; auto.
Qed.

(** A session without a log leaves the two links of sessions as they are. *)
Theorem C104_no_session_log x R es s q :
  ~ In q (session_paths x es) -> f_log x = None ->
  ~ at_place (k_test_link K) q -> ~ at_place (k_failed_link K) q ->
  (forall i n w, In (EWorker i n w) es -> ~ at_place (Some (join i n)) q) ->
  k_fs (session x R es s) q = k_fs s q.
Proof.
  intros N L C G H. unfold session_paths in N. rewrite in_app_iff in N.
  destruct root_dec as [Rt|Rt]; [rewrite session_none; auto|]. rewrite session_at by tauto.
  rewrite events_other; [|tauto|apply no_place_workers; auto].
  unfold begun. cbv zeta. rewrite L. cbn [option_map].
  assert (X : k_fs (opened_files x (k_session_link K) s) q = k_fs s q).
  { unfold opened_files. rewrite L. unfold opened_high. unfold paths in N. rewrite L in N.
    destruct (f_high x) as [h|]; auto. apply opened_at; [|apply no_place]. intros ->. simpl in N. tauto. }
  destruct (k_dir_link K); auto.
Qed.

(** The link to the last test: to the log of the last test that had one. *)
Theorem C104_last_test x R es1 y r es2 s q p :
  let es := es1 ++ ETest y r :: es2 in
  own_place q x es s -> at_place (k_test_link K) q -> k_test_link K <> Some [] ->
  ~ at_place (k_failed_link K) q ->
  (forall i n w, In (EWorker i n w) es -> ~ at_place (Some (join i n)) q) ->
  k_open s = [] -> (forall z, In z (paths y) -> ~ In z (paths x)) ->
  (forall p raw, f_log y = Some (p, Some raw) -> p <> raw) ->
  target y = Some p -> (forall y' r', In (ETest y' r') es2 -> f_log y' = None) ->
  k_fs (session x R es s) q = Some (Link p).
Proof.
  intros es (N & W & F & D) A E G H O Dj Nr T L. unfold session_paths in N. rewrite in_app_iff in N.
  assert (Rt : k_root K <> None) by (destruct A as (root & l & -> & _); discriminate).
  rewrite session_at by tauto. unfold es. rewrite fold_left_app. cbn [fold_left].
  unfold es in N. rewrite flat_map_app in N. cbn [flat_map] in N. rewrite !in_app_iff in N.
  set (s1 := fold_left (fun s e => event e s) es1 (begun x s)).
  assert (D1 : k_fs s1 q <> Some Dir).
  { apply events_not_dir; [tauto|]. apply begun_not_dir; tauto. }
  assert (O1 : forall z, In z (paths y) -> ~ In z (k_open s1)).
  { intros z I J. unfold s1 in J. rewrite events_open in J. apply begun_open in J as [J|J].
    - apply (Dj z); auto.
    - rewrite O in J. auto. }
  assert (X : k_fs (event (ETest y r) s1) q = Some (Link p)).
  { rewrite test_at by (simpl in N; tauto).
    assert (X : k_fs (opened_files y (k_test_link K) s1) q = Some (Link p)).
    { rewrite opened_files_here; auto; [rewrite T; auto|]. simpl in N. tauto. }
    destruct (is_error r || is_failure r); auto. rewrite try_other; auto. }
  rewrite <- X.
  assert (N2 : ~ In q (flat_map event_paths es2)) by tauto.
  assert (H2 : forall i n w, In (EWorker i n w) es2 -> ~ at_place (Some (join i n)) q).
  { intros i n w I. apply (H i n w). unfold es. apply in_app_iff. right. right. auto. }
  clear - N2 H2 L G Rt. generalize (event (ETest y r) s1).
  induction es2 as [|e es2 IH]; intro s2; simpl; auto.
  simpl in N2. rewrite in_app_iff in N2. rewrite IH; [|intros y' r' I; apply (L y' r'); right; auto
    |tauto|intros i n w I; apply (H2 i n w); right; auto].
  destruct e as [y' r'|i n w].
  - assert (LN : f_log y' = None) by (apply (L y' r'); left; auto). rewrite test_at by (simpl in N2; tauto).
    assert (Z : k_fs (opened_files y' (k_test_link K) s2) q = k_fs s2 q).
    { unfold opened_files. rewrite LN. unfold opened_high. simpl in N2. unfold paths in N2. rewrite LN in N2.
      destruct (f_high y') as [h|]; auto. apply opened_at; [|apply no_place]. intros ->. simpl in N2. tauto. }
    destruct (is_error r' || is_failure r'); auto. rewrite try_other; auto.
  - simpl. rewrite worker_try. apply try_other. apply (H2 i n w). left. auto.
Qed.

Theorem C104_last_test_none x R es s q :
  ~ In q (session_paths x es) ->
  ~ at_place (k_session_link K) q -> ~ at_place (k_dir_link K) q -> ~ at_place (k_failed_link K) q ->
  (forall i n w, In (EWorker i n w) es -> ~ at_place (Some (join i n)) q) ->
  (forall y r, In (ETest y r) es -> f_log y = None) ->
  k_fs (session x R es s) q = k_fs s q.
Proof.
  intros N A B G H L. unfold session_paths in N. rewrite in_app_iff in N.
  destruct root_dec as [Rt|Rt]; [rewrite session_none; auto|]. rewrite session_at by tauto.
  rewrite <- (begun_at x s q) by tauto.
  assert (N2 : ~ In q (flat_map event_paths es)) by tauto. clear - N2 H L G Rt. generalize (begun x s).
  induction es as [|e es IH]; intro s2; simpl; auto.
  simpl in N2. rewrite in_app_iff in N2. rewrite IH; [|intros i n w I; apply (H i n w); right; auto
    |intros y' r' I; apply (L y' r'); right; auto|tauto].
  destruct e as [y' r'|i n w].
  - assert (LN : f_log y' = None) by (apply (L y' r'); left; auto). rewrite test_at by (simpl in N2; tauto).
    assert (Z : k_fs (opened_files y' (k_test_link K) s2) q = k_fs s2 q).
    { unfold opened_files. rewrite LN. unfold opened_high. simpl in N2. unfold paths in N2. rewrite LN in N2.
      destruct (f_high y') as [h|]; auto. apply opened_at; [|apply no_place]. intros ->. simpl in N2. tauto. }
    destruct (is_error r' || is_failure r'); auto. rewrite try_other; auto.
  - simpl. rewrite worker_try. apply try_other. apply (H i n w). left. auto.
Qed.

(** The link to the last failed test: it leads to the log of the last test that failed; if
    that has no log the link is removed; without failures it stays as it was. *)
Theorem C104_last_failed x R es1 y r es2 s q :
  let es := es1 ++ ETest y r :: es2 in
  own_place q x es s -> at_place (k_failed_link K) q -> ~ at_place (k_test_link K) q ->
  (forall i n w, In (EWorker i n w) es -> ~ at_place (Some (join i n)) q) ->
  failed r -> (forall y' r', In (ETest y' r') es2 -> ~ failed r') ->
  k_fs (session x R es s) q = match f_log y with Some (p, _) => Some (Link p) | None => None end.
Proof.
  intros es (N & W & F & D) A G H B L. unfold session_paths in N. rewrite in_app_iff in N.
  assert (Rt : k_root K <> None) by (destruct A as (root & l & -> & _); discriminate).
  rewrite session_at by tauto. unfold es. rewrite fold_left_app. cbn [fold_left].
  unfold es in N. rewrite flat_map_app in N. cbn [flat_map] in N. rewrite !in_app_iff in N.
  rewrite events_other; [|tauto|].
  2: { apply no_place_workers; auto.
       - intros i n w I. apply (H i n w). unfold es. apply in_app_iff. right. right. auto.
       - intros y' r' I K1. destruct (L y' r' I K1). }
  set (s1 := fold_left (fun s e => event e s) es1 (begun x s)).
  assert (D1 : k_fs s1 q <> Some Dir).
  { apply events_not_dir; [tauto|]. apply begun_not_dir; tauto. }
  apply failed_iff in B. rewrite test_at by (simpl in N; tauto). rewrite B. rewrite try_here; auto.
  - destruct (f_log y) as [[p o]|]; auto.
  - apply opened_files_not_dir; [simpl in N; tauto|auto].
Qed.

Theorem C104_last_failed_none x R es s q :
  ~ In q (session_paths x es) ->
  ~ at_place (k_session_link K) q -> ~ at_place (k_dir_link K) q -> ~ at_place (k_test_link K) q ->
  (forall i n w, In (EWorker i n w) es -> ~ at_place (Some (join i n)) q) ->
  (forall y r, In (ETest y r) es -> ~ failed r) ->
  k_fs (session x R es s) q = k_fs s q.
Proof.
  intros N A B C H L. unfold session_paths in N. rewrite in_app_iff in N.
  destruct root_dec as [Rt|Rt]; [rewrite session_none; auto|]. rewrite session_at by tauto.
  rewrite events_other; [apply begun_at; tauto|tauto|].
  apply no_place_workers; auto. intros y r I K1. destruct (L y r I K1).
Qed.

(** The directory of a worker is linked from the session's directory. *)
Theorem C104_worker_dir x R es1 i n w es2 s q root :
  let es := es1 ++ EWorker i n w :: es2 in
  own_place q x es s -> k_root K = Some root -> q = place expand root (join i n) ->
  ~ at_place (k_test_link K) q -> ~ at_place (k_failed_link K) q ->
  (forall i' n' w', In (EWorker i' n' w') es2 -> ~ at_place (Some (join i' n')) q) ->
  k_fs (session x R es s) q = Some (Link (join (expand root) w)).
Proof.
  intros es (N & W & F & D) Rt Q A G H. unfold session_paths in N. rewrite in_app_iff in N.
  assert (Rt' : k_root K <> None) by congruence.
  rewrite session_at by tauto. unfold es. rewrite fold_left_app. cbn [fold_left].
  unfold es in N. rewrite flat_map_app in N. cbn [flat_map] in N. rewrite !in_app_iff in N.
  rewrite events_other; [|tauto|].
  2: { apply no_place_workers; auto. }
  set (s1 := fold_left (fun s e => event e s) es1 (begun x s)).
  assert (D1 : k_fs s1 q <> Some Dir).
  { apply events_not_dir; [tauto|]. apply begun_not_dir; tauto. }
  simpl. rewrite worker_try, Rt. rewrite try_here; auto. exists root, (join i n). auto.
Qed.
End Props.

(** ** Cases *)

Definition same (p : str) : str := p.
Definition yes (_ : fsys) (_ : str) : bool := true.
Definition excfg (cleanup keep : bool) : lcfg :=
  mkLcfg (Some (lit "/logs")) false (Some (lit "last-test")) (Some (lit "last-failed"))
         (Some (lit "/home/last-session")) (Some (lit "last-dir")) cleanup keep.
Definition exdir (_ : str) : str := lit "/logs/7".
Definition exrun (c k : bool) := run_session same exdir yes yes yes (excfg c k).
Definition only (p : str) (h : option str) : files := mkFiles (Some (p, None)) h.
Definition sfiles := only (lit "/logs/7/session.log") (Some (lit "/logs/7/high.log")).
Definition good := mkResult [] [] [] true true false.
Definition bad := mkResult [] [mkEntry None false] [] true true false.
Definition exres := mkResults [] good false false.
Definition t1 := ETest (only (lit "/logs/7/1.log") (Some (lit "/logs/7/high.log"))) good.
Definition t2 := ETest (only (lit "/logs/7/2.log") None) bad.
Definition t3 := ETest (mkFiles (Some (lit "/logs/7/3.log.gz", Some (lit "/logs/7/3.log"))) None) good.
Definition exev := [EWorker (lit "7_0") (lit "worker_1") (lit "7_1"); t1; t2; t3].
(** an old link to a test, a file of somebody, a directory *)
Definition old : fsys := put (lit "/logs/last-failed") (Some (Link (lit "/logs/6/1.log")))
  (put (lit "/logs/last-test") (Some File) (put (lit "/logs/last-dir") (Some Dir) (fun _ => None))).

Example C104_ex_session :
  let f := k_fs (exrun true true sfiles exres exev (mkLks old [])) in
  f (lit "/logs/last-failed") = Some (Link (lit "/logs/7/2.log"))
  /\ f (lit "/logs/last-test") = Some (Link (lit "/logs/7/3.log"))
  /\ f (lit "/home/last-session") = Some (Link (lit "/logs/7/session.log"))
  /\ f (lit "/logs/last-dir") = Some Dir
  /\ f (lit "/logs/7_0/worker_1") = Some (Link (lit "/logs/7_1"))
  /\ f (lit "/logs/7/1.log") = None /\ f (lit "/logs/7/2.log") = Some File.
Proof. vm_compute. auto 10. Qed.

(** the hypotheses of the theorems are met in this session *)
Example C104_ex_place :
  let K := excfg true true in
  own_place yes yes yes K (lit "/logs/last-failed") sfiles exev (mkLks old [])
  /\ at_place same K (k_failed_link K) (lit "/logs/last-failed")
  /\ ~ at_place same K (k_test_link K) (lit "/logs/last-failed")
  /\ (forall i n w, In (EWorker i n w) exev -> ~ at_place same K (Some (join i n)) (lit "/logs/last-failed"))
  /\ own_place yes yes yes K (lit "/logs/last-test") sfiles exev (mkLks old [])
  /\ at_place same K (k_test_link K) (lit "/logs/last-test")
  /\ own_place yes yes yes K (lit "/home/last-session") sfiles exev (mkLks old [])
  /\ at_place same K (k_session_link K) (lit "/home/last-session").
Proof.
  assert (P : forall q, In q [lit "/logs/last-failed"; lit "/logs/last-test"; lit "/home/last-session"] ->
     own_place yes yes yes (excfg true true) q sfiles exev (mkLks old [])).
  { intros q I. split; [|split; [reflexivity|split; [intro f; auto|]]].
    - intro J. simpl in I, J. vm_compute in I, J.
      repeat (destruct I as [I|I]; [subst q; repeat (destruct J as [J|J]; [discriminate|]); auto|]). auto.
    - simpl in I. repeat (destruct I as [I|I]; [subst q; vm_compute; discriminate|]). destruct I. }
  cbv zeta. split; [apply P; simpl; auto|]. split; [exists (lit "/logs"), (lit "last-failed"); auto|].
  split. { intros (root & l & R & Q & E). injection R as <-. injection Q as <-. vm_compute in E. discriminate. }
  split. { intros i n w I (root & l & R & Q & E). injection R as <-. injection Q as <-.
    simpl in I. destruct I as [I|[I|[I|[I|[]]]]]; try discriminate. injection I as <- <- <-. vm_compute in E. discriminate. }
  split; [apply P; simpl; auto|]. split; [exists (lit "/logs"), (lit "last-test"); auto|].
  split; [apply P; simpl; auto|]. exists (lit "/logs"), (lit "/home/last-session"). auto.
Qed.

(** The link to the last failed test may lead nowhere: with cleanup.keep_failed off the
    log is removed after the link was made. *)
Theorem C104_dangling_refuted :
  exists K x R es s q p, own_place yes yes yes K q x es s /\ at_place same K (k_failed_link K) q
    /\ k_fs (run_session same exdir yes yes yes K x R es s) q = Some (Link p)
    /\ k_fs (run_session same exdir yes yes yes K x R es s) p = None.
Proof.
  exists (excfg true false), sfiles, exres, [t2], (mkLks old []), (lit "/logs/last-failed"), (lit "/logs/7/2.log").
  split; [|split; [exists (lit "/logs"), (lit "last-failed"); auto|vm_compute; auto]].
  split; [|split; [reflexivity|split; [intro f; auto|vm_compute; discriminate]]].
  vm_compute. intro J. repeat (destruct J as [J|J]; [discriminate|]). auto.
Qed.

(** A failing test without a log removes the link made in an earlier session. *)
Theorem C104_lost_refuted :
  exists K x R es s q p, own_place yes yes yes K q x es s /\ at_place same K (k_failed_link K) q
    /\ k_fs s q = Some (Link p)
    /\ k_fs (run_session same exdir yes yes yes K x R es s) q = None.
Proof.
  exists (excfg false true), sfiles, exres, [ETest (mkFiles None None) bad], (mkLks old []),
    (lit "/logs/last-failed"), (lit "/logs/6/1.log").
  split; [|split; [exists (lit "/logs"), (lit "last-failed"); auto|vm_compute; auto]].
  split; [|split; [reflexivity|split; [intro f; auto|vm_compute; discriminate]]].
  vm_compute. intro J. repeat (destruct J as [J|J]; [discriminate|]). auto.
Qed.

(** A file that is no link is deleted when the link gets its place. *)
Theorem C104_file_refuted :
  exists K x R es s q p, at_place same K (k_test_link K) q /\ k_fs s q = Some File
    /\ k_fs (run_session same exdir yes yes yes K x R es s) q = Some (Link p).
Proof.
  exists (excfg false true), sfiles, exres, [t1], (mkLks old []), (lit "/logs/last-test"), (lit "/logs/7/1.log").
  split; [exists (lit "/logs"), (lit "last-test"); auto|]. vm_compute. auto.
Qed.

(** With a raw file beside the compressed log, the link to the last test leads to another
    file than the log path of its result (and of the link to the last failed). *)
Theorem C104_raw_refuted :
  exists K x R y r s q p raw, f_log y = Some (p, Some raw) /\ p <> raw
    /\ at_place same K (k_test_link K) q
    /\ k_fs (run_session same exdir yes yes yes K x R [ETest y r] s) q = Some (Link raw).
Proof.
  exists (excfg false true), sfiles, exres, (mkFiles (Some (lit "/logs/7/3.log.gz", Some (lit "/logs/7/3.log"))) None),
    good, (mkLks old []), (lit "/logs/last-test"), (lit "/logs/7/3.log.gz"), (lit "/logs/7/3.log").
  split; [reflexivity|]. split; [vm_compute; discriminate|].
  split; [exists (lit "/logs"), (lit "last-test"); auto|]. vm_compute. auto.
Qed.

(** A test that logs to the session's file makes no link to the last test. *)
Theorem C104_shared_refuted :
  exists K x R y r s q p, f_log y = Some (p, None) /\ own_place yes yes yes K q x [ETest y r] s
    /\ at_place same K (k_test_link K) q
    /\ k_fs (run_session same exdir yes yes yes K x R [ETest y r] s) q = None.
Proof.
  exists (excfg false true), sfiles, exres, (only (lit "/logs/7/session.log") None), good,
    (mkLks (fun _ => None) []), (lit "/logs/last-test"), (lit "/logs/7/session.log").
  split; [reflexivity|]. split.
  { split; [|split; [reflexivity|split; [intro f; auto|vm_compute; discriminate]]].
    vm_compute. intro J. repeat (destruct J as [J|J]; [discriminate|]). auto. }
  split; [exists (lit "/logs"), (lit "last-test"); auto|]. vm_compute. auto.
Qed.

Print Assumptions C104_one.
Print Assumptions C104_place.
Print Assumptions C104_rest.
Print Assumptions C104_no_session_log.
Print Assumptions C104_worker.
Print Assumptions C104_no_root.
Print Assumptions C104_last_session.
Print Assumptions C104_last_session_dir.
Print Assumptions C104_last_test.
Print Assumptions C104_last_test_none.
Print Assumptions C104_last_failed.
Print Assumptions C104_last_failed_none.
Print Assumptions C104_worker_dir.
Print Assumptions C104_dangling_refuted.
Print Assumptions C104_lost_refuted.
Print Assumptions C104_file_refuted.
Print Assumptions C104_raw_refuted.
Print Assumptions C104_shared_refuted.
