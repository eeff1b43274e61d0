(** C111: which tests a command collects, who runs them, and what is remembered of it. *)

From Coq Require Import String List Bool Arith Ascii Permutation Lia.
From Verif Require Import Str Events Core Results Dict Resume ResumeProps Matcher Suite Gather.
Import ListNotations.
Open Scope list_scope.

(** ** Specification *)

Definition is_load (ev : event) : Prop := match ev with ELoad _ _ => True | _ => False end.

Definition is_execution (ev : event) : Prop :=
  match ev with EWork _ | EServe _ | ERun _ => True | _ => False end.

(** the sources a run is about: what was named on the command line and then what the
    suite files list; if that is nothing, the configured ones, unless a shell is wanted *)
Definition wanted (e : env) (paths : list str) (srcs : list source) : Prop :=
  exists more,
    (suite_files e = [] /\ more = [] \/ suite_files e <> [] /\ listed e = inl more)
    /\ let given := map Path paths ++ map Listed more in
       (given <> [] /\ srcs = given)
       \/ (given = [] /\ srcs = if interactive e then [] else map Path (defaults e)).

(** why a run collects nothing *)
Inductive refused (e : env) (paths : list str) : exn -> Prop :=
| R_shell : workers e <> 0 -> interactive e = true -> refused e paths NotAllowed
| R_tmux x : tmux e = true -> worker e = None -> f_tmux e = Some x -> refused e paths x
| R_workers x : workers e <> 0 -> worker e = None -> f_manager e = Some x -> refused e paths x
| R_connect x : worker e <> None -> f_connect e = Some x -> refused e paths x
| R_suite x : suite_files e <> [] -> listed e = inr x -> refused e paths x
| R_nothing : wanted e paths [] -> interactive e = false -> refused e paths NoTestsGiven
| R_load srcs x : wanted e paths srcs -> load e srcs (interactive e) = inr x -> refused e paths x
| R_empty srcs : wanted e paths srcs -> load e srcs (interactive e) = inl [] -> refused e paths NoneCollected.

(** who gets the tests *)
Definition handed (e : env) (l : list md) : event :=
  match worker e with
  | Some _ => EWork l
  | None => if Nat.eqb (workers e) 0 then ERun l else EServe l
  end.

(** what the texts of the server mean *)
Inductive means : str -> rstatus -> Prop :=
| M_failure : means (lit "FAILURE") Failed
| M_error : means (lit "ERROR") Failed
| M_interrupted : means (lit "INTERRUPTED") Failed
| M_success : means (lit "SUCCESS") Success
| M_skipped : means (lit "SKIPPED") Skipped
| M_other t : ~ In t [lit "FAILURE"; lit "ERROR"; lit "INTERRUPTED"; lit "SUCCESS"; lit "SKIPPED"] -> means t Planned.

(** ** Tools *)

Lemma bind_inl {A B} (m : M A) (f : A -> M B) t b :
  bind m f = (t, inl b) -> exists t1 a t2, m = (t1, inl a) /\ f a = (t2, inl b) /\ t = t1 ++ t2.
Proof.
  unfold bind. destruct m as [t1 [a|x]]; [|discriminate]. destruct (f a) as [t2 r] eqn:F.
  intro Q. injection Q as <- ->. exists t1, a, t2. auto.
Qed.

(** what happens before the collection, with nothing loaded and nothing run *)
Definition quiet (ev : event) : Prop := match ev with ETmux | EManager | EConnect => True | _ => False end.

Definition before (e : env) : M unit :=
  bind (if tmux e && negb (is_child e) then step ETmux (f_tmux e) else ret tt) (fun _ =>
  if is_parent e then step EManager (f_manager e)
  else if is_child e then step EConnect (f_connect e) else ret tt).

Definition choose (c : command) (e : env) (d : db) : M (list md) :=
  match c with
  | Run paths => collect_tests e paths
  | Resume sids => collect_previous e false sids d
  | Rerun sids => collect_previous e true sids d
  end.

Lemma gather_split c e d :
  gather c e d = if is_parallel e && interactive e then fail NotAllowed
                 else bind (before e) (fun _ => choose c e d).
Proof.
  unfold gather, before. destruct (is_parallel e && interactive e); auto.
  destruct (if tmux e && negb (is_child e) then step ETmux (f_tmux e) else ret tt) as [t1 [u|x]]; cbn [bind]; auto.
  fold (choose c e d).
  destruct (if is_parent e then step EManager (f_manager e)
            else if is_child e then step EConnect (f_connect e) else ret tt) as [t2 [v|x]]; cbn [bind]; auto.
  destruct (choose c e d) as [t3 r]. rewrite app_assoc. auto.
Qed.

Lemma before_quiet e : Forall quiet (fst (before e)).
Proof.
  unfold before, step, ret, bind. destruct (tmux e && negb (is_child e)), (f_tmux e), (is_parent e), (is_child e),
    (f_manager e), (f_connect e); cbn; repeat constructor.
Qed.

Lemma before_raise e paths t x : before e = (t, inr x) -> refused e paths x.
Proof.
  unfold before, step, ret, bind, is_parent, is_parallel, is_child.
  destruct (tmux e) eqn:T, (worker e) eqn:W; cbn.
  - destruct (Nat.eqb_spec (workers e) 0); cbn; destruct (f_connect e) eqn:F; try discriminate;
      intro Q; injection Q as <- <-; eapply R_connect; eauto; congruence.
  - destruct (f_tmux e) eqn:F1; [intro Q; injection Q as <- <-; eapply R_tmux; eauto|].
    destruct (Nat.eqb_spec (workers e) 0); cbn; try discriminate.
    destruct (f_manager e) eqn:F; try discriminate. intro Q; injection Q as <- <-. eapply R_workers; eauto.
  - destruct (Nat.eqb_spec (workers e) 0); cbn; destruct (f_connect e) eqn:F; try discriminate;
      intro Q; injection Q as <- <-; eapply R_connect; eauto; congruence.
  - destruct (Nat.eqb_spec (workers e) 0); cbn; try discriminate.
    destruct (f_manager e) eqn:F; try discriminate. intro Q; injection Q as <- <-. eapply R_workers; eauto.
Qed.

(** the choice: it loads at most once, at its end *)
Lemma choose_shape c e d :
  (exists x, choose c e d = ([], inr x))
  \/ exists srcs, fst (choose c e d) = [ELoad srcs (interactive e)]
     /\ match snd (choose c e d) with
        | inl l => load e srcs (interactive e) = inl l
        | inr x => load e srcs (interactive e) = inr x \/ load e srcs (interactive e) = inl [] /\ x = NoneCollected
        end.
Proof.
  assert (P : forall g sids, (exists x, collect_previous e g sids d = ([], inr x))
    \/ exists srcs, fst (collect_previous e g sids d) = [ELoad srcs (interactive e)]
       /\ match snd (collect_previous e g sids d) with
          | inl l => load e srcs (interactive e) = inl l
          | inr x => load e srcs (interactive e) = inr x \/ load e srcs (interactive e) = inl [] /\ x = NoneCollected
          end).
  { intros g sids. unfold collect_previous.
    destruct (match sids with [] => _ | _ => _ end) as [l|]; [|left; eexists; reflexivity].
    destruct (previous_all e g l d) as [ws|x]; [|left; eexists; reflexivity].
    right. eexists. split; [reflexivity|]. cbn. destruct (load e _ _); auto. }
  destruct c; cbn; auto.
  unfold collect_tests. destruct (extend_paths e paths) as [srcs|x]; [|left; eexists; reflexivity].
  set (s := match srcs with [] => _ | _ => _ end).
  assert (G : (exists x, match load e s (interactive e) with
          | inr x => ([ELoad s (interactive e)], inr x)
          | inl [] => ([ELoad s (interactive e)], inr NoneCollected)
          | inl l => ([ELoad s (interactive e)], inl l)
          end = (([] : list event), (inr x : list md + exn)))
    \/ exists srcs, fst (match load e s (interactive e) with
          | inr x => ([ELoad s (interactive e)], inr x)
          | inl [] => ([ELoad s (interactive e)], inr NoneCollected)
          | inl l => ([ELoad s (interactive e)], inl l)
          end) = [ELoad srcs (interactive e)]
     /\ match snd (match load e s (interactive e) with
          | inr x => ([ELoad s (interactive e)], inr x)
          | inl [] => ([ELoad s (interactive e)], inr NoneCollected)
          | inl l => ([ELoad s (interactive e)], inl l)
          end) with
        | inl l => load e srcs (interactive e) = inl l
        | inr x => load e srcs (interactive e) = inr x \/ load e srcs (interactive e) = inl [] /\ x = NoneCollected
        end).
  { right. exists s. destruct (load e s (interactive e)) as [[|m l]|x]; cbn; auto. }
  destruct s as [|y s']; [destruct (interactive e)|]; auto. left. eexists. reflexivity.
Qed.

Lemma wanted_intro e paths srcs : extend_paths e paths = inl srcs ->
  wanted e paths (match srcs with [] => if interactive e then [] else map Path (defaults e) | _ => srcs end).
Proof.
  unfold extend_paths, wanted. destruct (suite_files e) as [|f fs] eqn:S.
  - intro Q. injection Q as <-. exists []. split; auto. cbn [map]. rewrite app_nil_r.
    destruct (map Path paths); [right; auto|left; split; [discriminate|auto]].
  - destruct (listed e) as [more|] eqn:L; [|discriminate]. intro Q. injection Q as <-. exists more.
    split; [right; split; [discriminate|auto]|]. cbn zeta.
    destruct (map Path paths ++ map Listed more); [right; auto|left; split; [discriminate|auto]].
Qed.

(** ** What a run collects *)

(** The loader is called at most once, for the wanted sources and with a shell if one is
    wanted; what is collected is what it gives, at least one test. *)
Theorem C111_sources paths e d t r : gather (Run paths) e d = (t, r) ->
  (exists pre, Forall (fun ev => ~ is_load ev /\ ~ is_execution ev) pre
     /\ (t = pre \/ exists srcs, t = pre ++ [ELoad srcs (interactive e)]))
  /\ (forall srcs i, In (ELoad srcs i) t -> i = interactive e /\ wanted e paths srcs)
  /\ match r with
     | inl l => l <> [] /\ exists srcs, In (ELoad srcs (interactive e)) t /\ load e srcs (interactive e) = inl l
     | inr x => refused e paths x
     end.
Proof.
  rewrite gather_split. destruct (is_parallel e && interactive e) eqn:PI.
  { intro Q. injection Q as <- <-. apply andb_true_iff in PI as [P I]. split; [exists []; auto|].
    split; [intros ? ? []|]. apply R_shell; auto. unfold is_parallel in P.
    destruct (Nat.eqb_spec (workers e) 0); [discriminate|auto]. }
  pose proof (before_quiet e) as BQ. destruct (before e) as [t1 [u|x]] eqn:B; cbn [bind fst] in *.
  2: { intro Q. injection Q as <- <-. split; [|split].
       - exists t1. split; auto. eapply Forall_impl; [|exact BQ]. intros [] ?; cbn in *; tauto.
       - intros srcs i I. rewrite Forall_forall in BQ. destruct (BQ _ I).
       - eapply before_raise; eauto. }
  assert (BN : Forall (fun ev => ~ is_load ev /\ ~ is_execution ev) t1).
  { eapply Forall_impl; [|exact BQ]. intros [] ?; cbn in *; tauto. }
  assert (NL : forall srcs i, ~ In (ELoad srcs i) t1).
  { intros srcs i I. rewrite Forall_forall in BQ. destruct (BQ _ I). }
  cbn [choose]. unfold collect_tests. destruct (extend_paths e paths) as [srcs|x] eqn:EP.
  2: { intro Q. injection Q as <- <-. rewrite app_nil_r. split; [exists t1; auto|]. split; [intros; exfalso; eapply NL; eauto|].
       unfold extend_paths in EP. destruct (suite_files e) eqn:S; [discriminate|].
       destruct (listed e) eqn:L; [discriminate|]. injection EP as <-. apply R_suite; auto. congruence. }
  pose proof (wanted_intro _ _ _ EP) as W. set (s := match srcs with [] => _ | _ => _ end) in *. clearbody s.
  assert (G : (let '(t', r') := match load e s (interactive e) with
          | inr x => ([ELoad s (interactive e)], inr x)
          | inl [] => ([ELoad s (interactive e)], inr NoneCollected)
          | inl l => ([ELoad s (interactive e)], inl l)
          end in (t1 ++ t', r')) = (t, r) ->
    (exists pre, Forall (fun ev => ~ is_load ev /\ ~ is_execution ev) pre
     /\ (t = pre \/ exists srcs, t = pre ++ [ELoad srcs (interactive e)]))
  /\ (forall srcs i, In (ELoad srcs i) t -> i = interactive e /\ wanted e paths srcs)
  /\ match r with
     | inl l => l <> [] /\ exists srcs, In (ELoad srcs (interactive e)) t /\ load e srcs (interactive e) = inl l
     | inr x => refused e paths x
     end).
  { intro Q. assert (E : t = t1 ++ [ELoad s (interactive e)]).
    { destruct (load e s (interactive e)) as [[|m l]|x]; injection Q as <- <-; auto. }
    split; [exists t1; split; auto; right; exists s; auto|]. split.
    - intros s' i I. rewrite E in I. apply in_app_or in I as [I|[I|[]]]; [exfalso; eapply NL; eauto|].
      injection I as <- <-. auto.
    - destruct (load e s (interactive e)) as [[|m l]|x] eqn:L; injection Q as Q <-.
      + eapply R_empty; eauto.
      + split; [discriminate|]. exists s. split; auto. rewrite E. apply in_or_app. right. left. auto.
      + eapply R_load; eauto. }
  destruct s as [|y s']; [destruct (interactive e) eqn:I|]; auto.
  intro Q. injection Q as <- <-. rewrite app_nil_r. split; [exists t1; auto|]. split; [intros; exfalso; eapply NL; eauto|].
  apply R_nothing; auto.
Qed.

(** ** What resume and rerun collect *)

(** the tests that are known of a session: the saved ones, and if there are none those
    of the server *)
Definition known (e : env) (rerun : bool) (s : nat) (d : db) (l : list row) : Prop :=
  (get_tests_locally s d = l /\ l <> [])
  \/ (get_tests_locally s d = [] /\ get_tests_from_remote (plugin e) (version e) s rerun = inl l).

(** [l] are the rows of [all] whose status is asked for *)
Definition selected (e : env) (rerun : bool) (all l : list row) : Prop :=
  Forall (fun w => asked (sw e) rerun (w_status w)) l
  /\ exists other, Permutation (l ++ other) all /\ Forall (fun w => ~ asked (sw e) rerun (w_status w)) other.

Lemma previous_ok e rerun s d l : previous e rerun s d = inl l ->
  ~ contradictory (sw e) /\ exists all, known e rerun s d all /\ selected e rerun all l.
Proof.
  unfold previous.
  assert (G : forall all,
    match filter_tests (sw e) rerun all with
    | Some l0 => match sort_tests (sw e) l0 with Some l1 => inl l1 | None => inr CannotResume end
    | None => inr CannotResume
    end = inl l -> ~ contradictory (sw e) /\ selected e rerun all l).
  { intros all Q. destruct all as [|w0 a0] eqn:EA.
    - assert (l = [] /\ ~ contradictory (sw e)) as [-> N].
      { unfold filter_tests in Q. unfold contradictory.
        destruct (unstarted_only (sw e) && failed_only (sw e)) eqn:A; [discriminate|].
        destruct (no_skipped (sw e) && failed_only (sw e)) eqn:B; [discriminate|]. cbn [filter] in Q.
        unfold sort_tests in Q. destruct (unstarted_first (sw e) && failed_first (sw e)) eqn:C; [discriminate|].
        split.
        - destruct (failed_first (sw e) || unstarted_first (sw e)); cbn in Q; congruence.
        - intros [[R1 R2]|[[R1 R2]|[R1 R2]]]; [rewrite R1, R2 in A|rewrite R1, R2 in B|rewrite R1, R2 in C]; discriminate. }
      split; auto. split; [constructor|]. exists []. split; constructor.
    - rewrite <- EA in *.
      assert (Lc : get_tests_locally s (mkDb [mkSmeta s 0 0] (map (pair s) all)) = all).
      { unfold get_tests_locally. cbn. rewrite Nat.eqb_refl. cbn. clear. induction all as [|w a IH]; cbn; auto.
        rewrite Nat.eqb_refl. cbn. rewrite IH. auto. }
      assert (NE : all <> []) by congruence.
      pose proof (C39_selection (fun _ _ => None) (sw e) rerun s _ _ Lc NE) as S.
      unfold get_tests_from_previous_session in S. rewrite Lc in S.
      destruct all as [|w1 a1]; [congruence|].
      destruct (filter_tests (sw e) rerun (w1 :: a1)) as [l0|]; [|discriminate].
      destruct (sort_tests (sw e) l0) as [l1|]; [|discriminate]. injection Q as <-.
      destruct S as (N & O & F & _). split; auto. split; auto. }
  destruct (get_tests_locally s d) as [|w0 a0] eqn:L.
  - destruct (get_tests_from_remote (plugin e) (version e) s rerun) as [all|x] eqn:R; [|discriminate].
    intro Q. destruct (G _ Q) as [N S]. split; auto. exists all. split; auto. right. auto.
  - intro Q. destruct (G _ Q) as [N S]. split; auto. exists (w0 :: a0). split; auto. left. split; [auto|discriminate].
Qed.

Lemma previous_all_ok e rerun d : forall sids l, previous_all e rerun sids d = inl l ->
  exists ls, l = concat ls
    /\ Forall2 (fun s ws => ~ contradictory (sw e) /\ exists all, known e rerun s d all /\ selected e rerun all ws) sids ls.
Proof.
  induction sids as [|s sids IH]; cbn [previous_all]; intros l Q.
  - injection Q as <-. exists []. split; auto.
  - destruct (previous e rerun s d) as [a|] eqn:P; [|discriminate].
    destruct (previous_all e rerun sids d) as [b|]; [|discriminate]. injection Q as <-.
    destruct (IH b eq_refl) as (ls & -> & F). exists (a :: ls). split; auto. constructor; auto. apply previous_ok. auto.
Qed.

(** Resume loads, in the order of the sessions named, exactly the tests of each whose
    status is asked for; without a name these are those of the last session of the folder. *)
Theorem C111_previous (rerun : bool) sids e d t r :
  gather (if rerun then Rerun sids else Resume sids) e d = (t, r) ->
  (forall srcs i, In (ELoad srcs i) t ->
     i = interactive e /\ exists named ls,
       (sids <> [] /\ named = sids
        \/ sids = [] /\ exists s, get_last_resumeable_session_id (folder e) d = Some s /\ named = [s])
       /\ srcs = map Remembered (concat ls)
       /\ Forall2 (fun s ws => exists all, known e rerun s d all /\ selected e rerun all ws) named ls)
  /\ (contradictory (sw e) -> exists x, r = inr x)
  /\ match r with
     | inl l => exists srcs, In (ELoad srcs (interactive e)) t /\ load e srcs (interactive e) = inl l
     | inr _ => True
     end.
Proof.
  rewrite gather_split. destruct (is_parallel e && interactive e) eqn:PI.
  { intro Q. injection Q as <- <-. split; [intros ? ? []|]. split; eauto. }
  pose proof (before_quiet e) as BQ. destruct (before e) as [t1 [u|x]] eqn:B; cbn [bind fst] in *.
  2: { intro Q. injection Q as <- <-. split; [|split; eauto].
       intros srcs i I. rewrite Forall_forall in BQ. destruct (BQ _ I). }
  assert (NL : forall srcs i, ~ In (ELoad srcs i) t1).
  { intros srcs i I. rewrite Forall_forall in BQ. destruct (BQ _ I). }
  replace (choose (if rerun then Rerun sids else Resume sids) e d) with (collect_previous e rerun sids d)
    by (destruct rerun; reflexivity).
  unfold collect_previous.
  destruct (match sids with [] => _ | _ => _ end) as [named|] eqn:N.
  2: { intro Q. injection Q as <- <-. rewrite app_nil_r. split; [intros; exfalso; eapply NL; eauto|]. split; eauto. }
  destruct (previous_all e rerun named d) as [ws|x] eqn:P.
  2: { intro Q. injection Q as <- <-. rewrite app_nil_r. split; [intros; exfalso; eapply NL; eauto|]. split; eauto. }
  intro Q. injection Q as <- <-. destruct (previous_all_ok _ _ _ _ _ P) as (ls & -> & F). split; [|split].
  - intros srcs i I. apply in_app_or in I as [I|[I|[]]]; [exfalso; eapply NL; eauto|].
    injection I as <- <-. split; auto. exists named, ls. split; [|split; auto].
    + destruct sids as [|s0 ss]; [right|left; split; [discriminate|congruence]].
      destruct (get_last_resumeable_session_id (folder e) d) as [s|]; [|discriminate]. cbn in N.
      injection N as <-. eauto.
    + clear - F. induction F; constructor; auto. tauto.
  - intro C. exfalso. inversion F as [|s ws' ? ? [N' _] _]; subst; [|tauto].
    destruct sids; [|discriminate]. destruct (get_last_resumeable_session_id (folder e) d); discriminate.
  - destruct (load e _ _) eqn:L; auto. eexists. split; [apply in_or_app; right; left; reflexivity|]. auto.
Qed.

(** ** Who runs the tests *)

Lemma execute_handed e l : execute e l = step (handed e l) (f_execute e).
Proof.
  unfold execute, handed, is_parent, is_parallel, is_child. destruct (worker e); auto.
  destruct (Nat.eqb (workers e) 0); auto.
Qed.

Lemma gather_shape c e d :
  (exists y t, gather c e d = (t, inr y) /\ Forall (fun ev => ~ is_execution ev) t)
  \/ exists pre srcs l, Forall (fun ev => ~ is_load ev /\ ~ is_execution ev) pre
     /\ load e srcs (interactive e) = inl l /\ gather c e d = (pre ++ [ELoad srcs (interactive e)], inl l).
Proof.
  pose proof (before_quiet e) as BQ. rewrite gather_split.
  destruct (is_parallel e && interactive e); [left; exists NotAllowed, []; split; auto|].
  destruct (before e) as [t1 [u|y]] eqn:B; cbn [bind fst snd] in *.
  2: { left. exists y, t1. split; auto. eapply Forall_impl; [|exact BQ]. intros [] ?; cbn in *; tauto. }
  assert (BN : Forall (fun ev => ~ is_load ev /\ ~ is_execution ev) t1).
  { eapply Forall_impl; [|exact BQ]. intros [] ?; cbn in *; tauto. }
  assert (BX : Forall (fun ev => ~ is_execution ev) t1) by (eapply Forall_impl; [|exact BN]; cbn; tauto).
  destruct (choose_shape c e d) as [[y ->]|(srcs & F & R)].
  - left. exists y, t1. rewrite app_nil_r. auto.
  - destruct (choose c e d) as [t2 [l|y]]; cbn [fst snd] in *; subst t2.
    + right. exists t1, srcs, l. auto.
    + left. exists y, (t1 ++ [ELoad srcs (interactive e)]). split; auto. apply Forall_app. split; auto.
Qed.

(** Whatever the command, the tests are handed over at most once, at the end and to the
    one whose turn it is: all that was loaded, as it was loaded.  They are not handed
    over only if there is an exception. *)
Theorem C111_handed c e d d' t x : run_command c e d = (d', t, x) ->
  (Forall (fun ev => ~ is_execution ev) t /\ x <> None)
  \/ exists pre srcs l, Forall (fun ev => ~ is_load ev /\ ~ is_execution ev) pre
       /\ load e srcs (interactive e) = inl l
       /\ t = pre ++ [ELoad srcs (interactive e); handed e l].
Proof.
  unfold run_command. destruct (gather_shape c e d) as [(y & tg & -> & F)|(pre & srcs & l & F & L & ->)].
  - cbn [bind fst snd]. intro Q. left.
    destruct (is_child e); [injection Q as <- <- <-; split; auto; discriminate|].
    destruct (save_state e (collected (inr y)) d) as [d1 [z|]]; [injection Q as <- <- <-; split; auto; discriminate|].
    destruct (clean e d1) as [d2 [z|]]; injection Q as <- <- <-; split; auto; discriminate.
  - cbn [bind fst snd]. rewrite execute_handed. unfold step. rewrite <- app_assoc. cbn [app].
    intro Q. right. exists pre, srcs, l. split; auto. split; auto.
    destruct (is_child e); [injection Q as <- <- <-; auto|].
    destruct (save_state e (collected (inl l)) d) as [d1 [z|]]; [injection Q as <- <- <-; auto|].
    destruct (clean e d1) as [d2 [z|]]; injection Q as <- <- <-; auto.
Qed.

(** A shell is refused in a parallel session before anything is done. *)
Theorem C111_shell c e d d' t x : run_command c e d = (d', t, x) ->
  workers e <> 0 -> interactive e = true -> t = [] /\ (worker e <> None -> x = Some NotAllowed).
Proof.
  intros Q W I. unfold run_command, gather, is_parallel in Q. rewrite I in Q.
  destruct (Nat.eqb_spec (workers e) 0); [congruence|]. cbn [negb andb fail bind snd collected] in Q.
  unfold is_child in Q. destruct (worker e); [injection Q as <- <- <-; auto|].
  destruct (save_state e [] d) as [d1 [z|]]; [injection Q as <- <- <-; split; auto; congruence|].
  destruct (clean e d1) as [d2 [z|]]; injection Q as <- <- <-; split; auto; congruence.
Qed.

(** ** What is remembered *)

(** the tests a command got: those that were handed over, none otherwise *)
Inductive got (e : env) (t : list event) : list md -> Prop :=
| G_some l : In (handed e l) t -> got e t l
| G_none : Forall (fun ev => ~ is_execution ev) t -> got e t [].

Definition commits_work (f : nat -> commit) : Prop := f 0 = Done /\ f 1 = Done /\ f 2 = Done.

Lemma with_db_work f ch d d1 : commits_work f -> ch d = inl d1 -> with_db f ch d = (d1, None).
Proof. intros (A & B & C) E. unfold with_db, max_retries. rewrite E. cbn. rewrite A, B, C. auto. Qed.

Lemma save_some s fo n rows d : ~ In s (map q_sid (db_sessions d)) ->
  save s fo n rows d = Some (mkDb (db_sessions d ++ [mkSmeta s fo n]) (db_rows d ++ map (pair s) rows)).
Proof.
  intro N. unfold save. destruct (existsb (fun q => q_sid q =? s) (db_sessions d)) eqn:E; auto.
  exfalso. apply existsb_exists in E as (q & I & Q). apply Nat.eqb_eq in Q. apply N. rewrite <- Q. apply in_map. auto.
Qed.

(** the result of a command that is not a worker's, when the database works *)
Lemma run_command_db c e d : worker e = None -> ~ In (sid e) (map q_sid (db_sessions d)) ->
  commits_work (save_commits e) -> commits_work (clean_commits e) ->
  exists l t x d1, got e t l
    /\ save (sid e) (folder e) (now e) (saved_rows (order e) (results e) l) d = Some d1
    /\ run_command c e d = (clean_old_entries (limit e) d1, t, x).
Proof.
  intros W NI CS CC. unfold run_command.
  set (l := collected (snd (gather c e d))).
  destruct (bind (gather c e d) (execute e)) as [t r] eqn:B.
  set (x := match r with inl _ => None | inr x => Some x end). clearbody x.
  exists l, t, x. eexists. split; [|split; [apply save_some; exact NI|]].
  - unfold l. destruct (gather_shape c e d) as [(y & tg & G & F)|(pre & srcs & l0 & F & L & G)]; rewrite G in *; cbn [snd collected].
    + cbn in B. injection B as <- <-. apply G_none. auto.
    + cbn [bind] in B. rewrite execute_handed in B. unfold step in B. injection B as <- _.
      apply G_some. apply in_or_app. right. left. auto.
  - unfold is_child. rewrite W. unfold save_state.
    erewrite with_db_work; [|exact CS|rewrite save_some by exact NI; reflexivity].
    unfold clean. erewrite with_db_work; [|exact CC|reflexivity]. reflexivity.
Qed.

(** A worker leaves the database alone.  Any other command, however it ended, saves the
    state of its session (what it got, with the results) before it returns; the states of
    other sessions stay, unless they are too old. *)
Theorem C111_saved c e d d' t x : run_command c e d = (d', t, x) ->
  (worker e <> None -> d' = d)
  /\ (worker e = None -> db_ok d -> NoDup (map q_sid (db_sessions d)) -> ~ In (sid e) (map q_sid (db_sessions d)) ->
      limit e <= now e -> commits_work (save_commits e) -> commits_work (clean_commits e) ->
      (exists l, got e t l /\ get_tests_locally (sid e) d' = saved_rows (order e) (results e) l)
      /\ (forall q, In q (db_sessions d) ->
            get_tests_locally (q_sid q) d' = if Nat.ltb (q_created q) (limit e) then [] else get_tests_locally (q_sid q) d)
      /\ (forall q, In q (db_sessions d') <->
            In q (db_sessions d) /\ limit e <= q_created q \/ q = mkSmeta (sid e) (folder e) (now e))).
Proof.
  intro Q. split.
  - intro W. unfold run_command in Q. destruct (bind (gather c e d) (execute e)) as [t0 r].
    unfold is_child in Q. destruct (worker e); [|congruence]. injection Q as <- _ _. auto.
  - intros W OK ND NI LN CS CC.
    destruct (run_command_db c e d W NI CS CC) as (l & t' & x' & d1 & G & S & R). rewrite R in Q. injection Q as <- -> ->.
    destruct (C39_saved_and_read _ _ _ _ _ _ OK S) as (OK1 & L1 & L2).
    rewrite save_some in S by auto. injection S as S.
    assert (ND1 : NoDup (map q_sid (db_sessions d1))).
    { rewrite <- S. cbn. rewrite map_app. cbn. apply (Permutation_NoDup (l := sid e :: map q_sid (db_sessions d))); [apply Permutation_cons_append|].
      constructor; auto. }
    assert (I1 : In (mkSmeta (sid e) (folder e) (now e)) (db_sessions d1)).
    { rewrite <- S. cbn. apply in_or_app. right. left. auto. }
    split; [|split].
    + exists l. split; auto. rewrite (C39_clean_keeps _ _ _ _ ND1 I1 eq_refl). cbn [q_created].
      destruct (Nat.ltb_spec (now e) (limit e)); [lia|auto].
    + intros q I. assert (Iq : In q (db_sessions d1)) by (rewrite <- S; cbn; apply in_or_app; auto).
      rewrite (C39_clean_keeps _ _ _ _ ND1 Iq eq_refl). destruct (Nat.ltb (q_created q) (limit e)); auto.
      apply L2. intro E. apply NI. rewrite <- E. apply in_map. auto.
    + intro q. unfold clean_old_entries. cbn [db_sessions]. rewrite filter_In, <- S. cbn [db_sessions].
      rewrite in_app_iff. cbn [In]. rewrite negb_true_iff, Nat.ltb_ge. split.
      * intros [[I|[<-|[]]] C]; auto.
      * intros [[I C]| ->]; auto.
Qed.

(** ... so the next resume without a session id is about this session. *)
Theorem C111_last c e d d' t x : run_command c e d = (d', t, x) ->
  worker e = None -> ~ In (sid e) (map q_sid (db_sessions d)) ->
  limit e <= now e -> commits_work (save_commits e) -> commits_work (clean_commits e) ->
  (forall q, In q (db_sessions d) -> q_created q < now e) ->
  get_last_resumeable_session_id (folder e) d' = Some (sid e).
Proof.
  intros Q W NI LN CS CC NEW.
  destruct (run_command_db c e d W NI CS CC) as (l & t' & x' & d1 & _ & S & R). rewrite R in Q. injection Q as <- -> ->.
  rewrite save_some in S by auto. injection S as <-.
  assert (M : forall q, In q (db_sessions (clean_old_entries (limit e)
     (mkDb (db_sessions d ++ [mkSmeta (sid e) (folder e) (now e)])
        (db_rows d ++ map (pair (sid e)) (saved_rows (order e) (results e) l))))) ->
     q_created q < now e \/ q = mkSmeta (sid e) (folder e) (now e)).
  { intros q I. cbn in I. apply filter_In in I as [I _]. apply in_app_or in I as [I|[<-|[]]]; auto. }
  assert (I0 : In (mkSmeta (sid e) (folder e) (now e)) (db_sessions (clean_old_entries (limit e)
     (mkDb (db_sessions d ++ [mkSmeta (sid e) (folder e) (now e)])
        (db_rows d ++ map (pair (sid e)) (saved_rows (order e) (results e) l)))))).
  { cbn [clean_old_entries db_sessions]. apply filter_In. split; [apply in_or_app; right; left; auto|]. cbn [q_created].
    destruct (Nat.ltb_spec (now e) (limit e)); [lia|auto]. }
  pose proof (C39_last (folder e) (clean_old_entries (limit e)
     (mkDb (db_sessions d ++ [mkSmeta (sid e) (folder e) (now e)])
        (db_rows d ++ map (pair (sid e)) (saved_rows (order e) (results e) l))))) as L.
  destruct (get_last_resumeable_session_id _ _) as [s|].
  - destruct L as (q & I & <- & F & C). specialize (C _ I0 eq_refl). cbn in C.
    destruct (M q I) as [K| ->]; [lia|auto].
  - exfalso. eapply L; [exact I0|auto].
Qed.

(** ** The commits *)

(** The state is committed three times unless something else than OperationalError is
    raised; there is no exception exactly if the last of them works and none of the
    others raised anything else; the change is durable exactly if one of those made worked. *)
Theorem C111_commit f done x k : commits f 0 3 = (done, x, k) ->
  1 <= k <= 3
  /\ (x = None <-> f 2 = Done /\ forall i, i < 2 -> f i = Done \/ f i = Locked)
  /\ (x = None -> k = 3)
  /\ (done = true <-> exists i, i < k /\ f i = Done)
  /\ (forall y, x = Some y -> f (pred k) = Broken y \/ k = 3 /\ f 2 = Locked /\ y = Operational).
Proof.
  cbn. destruct (f 0) as [| |x0] eqn:F0, (f 1) as [| |x1] eqn:F1, (f 2) as [| |x2] eqn:F2; cbn;
    intro Q; injection Q as <- <- <-; (split; [lia|]); (split; [split|split; [|split; [split|]]]).
  all: try discriminate; try reflexivity.
  all: try (intros _; split; [auto|]; intros [|[|i]] Hi; [rewrite F0|rewrite F1|lia]; auto; fail).
  all: try (intros [A B]; try discriminate; pose proof (B 0) as B0; pose proof (B 1) as B1;
            rewrite F0 in B0; rewrite F1 in B1; destruct B0, B1; auto; discriminate).
  all: try (intros y E; injection E as <-; rewrite ?F0, ?F1, ?F2; auto; fail).
  all: try (intros _; solve [exists 0; split; [lia|auto]|exists 1; split; [lia|auto]|exists 2; split; [lia|auto]]).
  all: try (intros (i & Hi & Fi); destruct i as [|[|[|i]]]; try lia; congruence).
Qed.

(** What is done with the database lasts exactly if a commit worked, and if none did there
    is an exception. *)
Theorem C111_durable f change d d' x : with_db f change d = (d', x) ->
  match change d with
  | inr y => d' = d /\ x = Some y
  | inl d1 => (x = None -> d' = d1)
              /\ (f 0 = Done -> d' = d1)
              /\ ((forall i, i < 3 -> f i <> Done) -> d' = d /\ x <> None)
  end.
Proof.
  unfold with_db, max_retries. destruct (change d) as [d1|y]; [|intro Q; injection Q as <- <-; auto].
  destruct (commits f 0 3) as [[done y] k] eqn:C. intro Q. injection Q as <- <-.
  destruct (C111_commit _ _ _ _ C) as (K & N & K3 & D & _). split; [|split].
  - intro E. assert (done = true) as ->; auto. apply D. exists 2. split; [specialize (K3 E); lia|apply N; auto].
  - intro E. assert (done = true) as ->; auto. apply D. exists 0. split; [lia|auto].
  - intro A. split.
    + destruct done; auto. destruct (proj1 D eq_refl) as (i & Hi & E). exfalso. apply (A i); [lia|auto].
    + intro E. apply (A 2); [lia|]. apply N. auto.
Qed.

(** ** The server *)

(** The tests of the server are taken one for one, with the statuses they mean, successful
    ones asked for only to rerun; all else is refused, and a missing package is an error. *)
Theorem C111_remote p v s rerun :
  match get_tests_from_remote p v s rerun with
  | inl rows => exists b nums, p = Some b /\ v = Some nums /\ b_supports b = true /\ b_exists b s = true
      /\ exists new, Forall2 (fun w t => w_file w = t_file t /\ w_aif w = t_name t /\ w_var w = t_var t
                                         /\ means (t_status t) (w_status w)) rows (b_tests b s new rerun)
      /\ (new = true <-> exists a m rest, nums = a :: rest /\ (2 < a \/ a = 2 /\ rest <> [] /\ hd 0 rest = m /\ 38 <= m))
  | inr CannotResume => p = None \/ exists b, p = Some b /\ (b_supports b = false \/ b_exists b s = false)
  | inr AttrErr => v = None /\ exists b, p = Some b /\ b_supports b = true /\ b_exists b s = true
  | inr _ => False
  end.
Proof.
  unfold get_tests_from_remote. destruct p as [b|]; auto.
  destruct (b_supports b) eqn:S; cbn [negb]; [|right; exists b; auto].
  destruct (b_exists b s) eqn:X; cbn [negb]; [|right; exists b; auto].
  destruct v as [nums|]; [|split; auto; exists b; auto].
  exists b, nums. do 4 (split; auto). exists (tuple_leb [2; 38] (firstn 2 nums)). split.
  - induction (b_tests b s (tuple_leb [2; 38] (firstn 2 nums)) rerun) as [|t l IH]; cbn [map]; constructor; auto.
    cbn [w_file w_aif w_var w_status]. do 3 (split; auto). unfold remote_status. cbn [existsb].
    destruct (str_eqb_spec (t_status t) (lit "FAILURE")) as [->|N1]; [constructor|].
    destruct (str_eqb_spec (t_status t) (lit "ERROR")) as [->|N2]; [constructor|].
    destruct (str_eqb_spec (t_status t) (lit "INTERRUPTED")) as [->|N3]; [constructor|].
    destruct (str_eqb_spec (t_status t) (lit "SUCCESS")) as [->|N4]; [constructor|].
    destruct (str_eqb_spec (t_status t) (lit "SKIPPED")) as [->|N5]; [constructor|].
    cbn. apply M_other. intros [E|[E|[E|[E|[E|[]]]]]]; symmetry in E; auto.
  - destruct nums as [|a nums]; cbn [firstn tuple_leb].
    + split; [discriminate|]. intros (a & m & rest & E & _). discriminate.
    + destruct (Nat.eqb_spec 2 a) as [<-|N].
      * destruct nums as [|m nums]; cbn [firstn tuple_leb].
        -- split; [discriminate|]. intros (a & m & rest & E & [G|(_ & G & _)]); injection E as <- <-; [lia|congruence].
        -- split.
           ++ intro T. exists 2, m, (m :: nums). split; auto. right. split; auto. split; [discriminate|]. split; auto.
              destruct (Nat.eqb_spec 38 m); [lia|]. apply Nat.ltb_lt in T. lia.
           ++ intros (a & m' & rest & E & [G|(_ & G & H & K)]); injection E as <- <-; [lia|]. cbn [hd] in H. subst m'.
              destruct (Nat.eqb_spec 38 m); auto. apply Nat.ltb_lt. lia.
      * split.
        -- intro T. exists a, 0, nums. split; auto. left. apply Nat.ltb_lt in T. auto.
        -- intros (a' & m & rest & E & [G|(G & _)]); injection E as <- <-; [apply Nat.ltb_lt; auto|congruence].
Qed.

(** ** What does not hold *)

Definition works : nat -> commit := fun _ => Done.

Definition plain : switches := mkSw false false false false false.

(** an ordinary session with nothing special: one test, mB, in every file *)
Definition env0 (sw : switches) (s n : nat) (rs : list (md * result)) : env :=
  mkEnv 0 None false false [] (inl []) [] sw (fun srcs _ => inl (match srcs with [] => [] | _ => [mB] end))
    None None None None None None rs (fun l => l) s 1 n 0 works works.

(** A command that collects nothing is remembered as the last session: whatever it was
    that failed, resuming without a session id then finds nothing to resume. *)
Theorem C111_forgets c e d d' t x e2 :
  run_command c e d = (d', t, x) -> Forall (fun ev => ~ is_execution ev) t ->
  worker e = None -> db_ok d -> NoDup (map q_sid (db_sessions d)) -> ~ In (sid e) (map q_sid (db_sessions d)) ->
  limit e <= now e -> commits_work (save_commits e) -> commits_work (clean_commits e) ->
  (forall q, In q (db_sessions d) -> q_created q < now e) -> results e = [] -> (order e [] = []) ->
  folder e2 = folder e -> plugin e2 = None -> workers e2 = 0 -> worker e2 = None -> tmux e2 = false ->
  gather (Resume []) e2 d' = ([], inr CannotResume).
Proof.
  intros Q NX W OK ND NI LN CS CC NEW RE OE FE P2 W2 K2 T2.
  pose proof (C111_last _ _ _ _ _ _ Q W NI LN CS CC NEW) as L.
  destruct (C111_saved _ _ _ _ _ _ Q) as [_ S].
  destruct (S W OK ND NI LN CS CC) as ((l & G & R) & _).
  assert (l = []) as ->.
  { destruct G as [l I|]; auto. rewrite Forall_forall in NX. exfalso. apply (NX _ I).
    unfold handed. rewrite W. destruct (Nat.eqb (workers e) 0); cbn; auto. }
  assert (R0 : get_tests_locally (sid e) d' = []).
  { rewrite R. unfold saved_rows, without_results. rewrite RE. cbn. rewrite OE. auto. }
  unfold gather, is_parent, is_child, is_parallel. rewrite W2, K2, T2. cbn.
  unfold collect_previous. rewrite FE, L. cbn. unfold previous. rewrite R0. rewrite P2. reflexivity.
Qed.

Definition d_run : db := fst (fst (run_command (Run [lit "t.py"]) (env0 plain 7 5 [(mB, res_fail)]) (mkDb [] []))).
Definition d_typo : db := fst (fst (run_command (Resume []) (env0 (mkSw true true false false false) 8 6 []) d_run)).

(** For example: a test failed; `slash resume` with contradictory switches is refused;
    repeated without them it is refused too, though it would have run the failed test. *)
Theorem C111_resume_refuted : exists d e1 e2 d1 t1,
  run_command (Resume []) e1 d = (d1, t1, Some CannotResume)
  /\ In (ERun [mB]) (snd (fst (run_command (Resume []) e2 d)))
  /\ exists d2, run_command (Resume []) e2 d1 = (d2, [], Some CannotResume).
Proof.
  exists d_run, (env0 (mkSw true true false false false) 8 6 []), (env0 plain 9 7 [(mB, res_ok)]), d_typo, [].
  split; [reflexivity|]. split; [vm_compute; auto|]. eexists. reflexivity.
Qed.

(** A suite file that lists nothing makes the default sources run. *)
Theorem C111_default_refuted : exists e d f,
  suite_files e = [f] /\ listed e = inl []
  /\ In (ERun [mB]) (snd (fst (run_command (Run []) e d)))
  /\ In (ELoad [Path (lit "all")] false) (snd (fst (run_command (Run []) e d))).
Proof.
  exists (mkEnv 0 None false false [lit "s"] (inl []) [lit "all"] plain
            (fun srcs _ => inl (match srcs with [] => [] | _ => [mB] end))
            None None None None None None [(mB, res_ok)] (fun l => l) 7 1 5 0 works works), (mkDb [] []), (lit "s").
  vm_compute. auto 10.
Qed.

(** A state that was committed is reported as not saved if the last commit fails. *)
Theorem C111_commit_refuted : exists f, f 0 = Done /\ commits f 0 3 = (true, Some Operational, 3).
Proof. exists (fun i => if Nat.eqb i 0 then Done else Locked). split; reflexivity. Qed.

(** A run that collects no test is refused; a resume that collects none goes on without any. *)
Theorem C111_nothing_refuted : exists e d,
  (exists srcs, load e srcs (interactive e) = inl [] /\ In (ELoad srcs (interactive e)) (snd (fst (run_command (Resume [7]) e d))))
  /\ snd (run_command (Resume [7]) e d) = None
  /\ snd (run_command (Run [lit "t.py"]) (mkEnv 0 None false false [] (inl []) [] plain (fun _ _ => inl [])
            None None None None None None [] (fun l => l) 9 1 5 0 works works) d) = Some NoneCollected.
Proof.
  exists (env0 plain 8 6 []),
    (fst (fst (run_command (Run [lit "t.py"]) (env0 plain 7 5 [(mB, res_ok)]) (mkDb [] [])))).
  split; [exists []; split; [reflexivity|vm_compute; auto]|]. split; reflexivity.
Qed.

(** The exception of the run is replaced by that of saving the state. *)
Theorem C111_masked_refuted : exists e d y,
  f_execute e = Some (Other 1) /\ y <> Other 1
  /\ In (ERun [mB]) (snd (fst (run_command (Run [lit "t.py"]) e d)))
  /\ snd (run_command (Run [lit "t.py"]) e d) = Some y.
Proof.
  exists (mkEnv 0 None false false [] (inl []) [] plain (fun _ _ => inl [mB])
            None None None None None (Some (Other 1)) [(mB, res_fail)] (fun l => l) 7 1 5 0 (fun _ => Locked) works),
    (mkDb [] []), Operational.
  split; [reflexivity|]. split; [discriminate|]. split; [vm_compute; auto|reflexivity].
Qed.

(** ** Examples *)

(** a run with a path and a suite file by the parent of two workers *)
Example C111_ex_run :
  snd (fst (run_command (Run [lit "a"])
        (mkEnv 2 None false false [lit "s"] (inl [(lit "b", None)]) [lit "all"] plain (fun _ _ => inl [mA; mB])
            None None None None None None [(mB, res_fail)] (fun l => l) 7 1 5 0 works works) (mkDb [] [])))
  = [EManager; ELoad [Path (lit "a"); Listed (lit "b", None)] false; EServe [mA; mB]].
Proof. reflexivity. Qed.

(** the rows of the server *)
Example C111_ex_remote :
  get_tests_from_remote
    (Some (mkBackslash true (Nat.eqb 7) (fun _ new rerun => if new && rerun then [mkRtest 1 2 None (lit "ERROR"); mkRtest 1 3 None (lit "RUNNING")] else [])))
    (Some [2; 40; 1]) 7 true
  = inl [mkRow 1 2 None Failed; mkRow 1 3 None Planned].
Proof. vm_compute. reflexivity. Qed.

(** resuming: the failed test is loaded *)
Example C111_ex_resume :
  run_command (Resume []) (env0 plain 9 7 [(mB, res_ok)]) d_run
  = (fst (fst (run_command (Resume []) (env0 plain 9 7 [(mB, res_ok)]) d_run)),
     [ELoad [Remembered (mkRow 10 21 (Some [(5, 0)]) Failed)] false; ERun [mB]], None).
Proof. reflexivity. Qed.

(** the hypotheses of C111_saved, C111_last and C111_forgets are met *)
Example C111_ex_hyps :
  let e := env0 (mkSw true true false false false) 8 6 [] in
  worker e = None /\ db_ok d_run /\ NoDup (map q_sid (db_sessions d_run)) /\ ~ In (sid e) (map q_sid (db_sessions d_run))
  /\ limit e <= now e /\ commits_work (save_commits e) /\ commits_work (clean_commits e)
  /\ (forall q, In q (db_sessions d_run) -> q_created q < now e) /\ results e = [] /\ order e [] = []
  /\ snd (fst (run_command (Resume []) e d_run)) = [].
Proof.
  cbn zeta. split; [reflexivity|]. split; [intros s w I; vm_compute in I; destruct I as [Q|[]]; injection Q as <- _; vm_compute; auto|].
  split; [vm_compute; constructor; [intros []|constructor]|].
  split; [vm_compute; intros [Q|[]]; discriminate|]. split; [apply Nat.le_0_l|].
  split; [repeat split|]. split; [repeat split|].
  split; [intros q I; vm_compute in I; destruct I as [<-|[]]; cbn; lia|]. repeat split.
Qed.

Print Assumptions C111_sources.
Print Assumptions C111_previous.
Print Assumptions C111_handed.
Print Assumptions C111_shell.
Print Assumptions C111_durable.
Print Assumptions C111_saved.
Print Assumptions C111_last.
Print Assumptions C111_commit.
Print Assumptions C111_remote.
Print Assumptions C111_forgets.
Print Assumptions C111_resume_refuted.
Print Assumptions C111_default_refuted.
Print Assumptions C111_commit_refuted.
Print Assumptions C111_nothing_refuted.
Print Assumptions C111_masked_refuted.
