(** Further theorems of several areas: facts that the theorems of those areas took from a definition of the model, stated by themselves
    (C25, C39, C44, C45, C48, C53, C81, C89, C97, C98, C105, C110, C112, C114, C116, C119, C121, C131, C133, C134, C136).  Found by editing the definitions (seeded/LOG.jsonl). *)

From Coq Require Import List Bool Arith Ascii String Lia.
From Verif Require Import Str.
From Verif Require Dict Plugins PluginsProps Prelude PreludeProps LogRoute ReqCheck Resume Suite Matcher Summary Swallow Marks TmuxWorkers Trace Transfer
  Vars WarnCapture Warnings ColorStrings Interactive Terminal TerminalProps Messages Core Results ResultsProps ResultInfo CleanupProps Errors WorkerReports FixtureGraph ConsoleLines ConsoleLinesProps FrameSource FrameSourceProps.
Import ListNotations.
Open Scope list_scope.
Local Notation length := List.length.

(** ** C45: which names a plugin may have *)

Definition name_characters : str := lit "ABCDEFGHIJKLMNOPQRSTUVWXYZabcdefghijklmnopqrstuvwxyz0123456789_ -".

Lemma legal_in c : Plugins.legal_char c = true <-> In c name_characters.
Proof.
  assert (H : Plugins.legal_char c = existsb (Ascii.eqb c) name_characters).
  { destruct c as [[] [] [] [] [] [] [] []]; vm_compute; reflexivity. }
  rewrite H, existsb_exists. split.
  - intros (d & I & E). apply Ascii.eqb_eq in E. subst d. exact I.
  - intros I. exists c. split; [exact I|apply Ascii.eqb_refl].
Qed.

(** a plugin whose name has only letters, digits, underscores, blanks and dashes is installed; one whose name has another character is
    refused for its name, and nothing changes *)
Theorem C45_names p act later internal s :
  (Forall (fun c => In c name_characters) (Plugins.p_name p) ->
     snd (Plugins.install p false false internal s) = None /\
     Plugins.s_get (Plugins.p_name p) (Plugins.installed (fst (Plugins.install p false false internal s))) = Some (p, internal)) /\
  (~ Forall (fun c => In c name_characters) (Plugins.p_name p) ->
     Plugins.install p act later internal s = (s, Some Plugins.IllegalPluginName)).
Proof.
  assert (F : forallb Plugins.legal_char (Plugins.p_name p) = true <-> Forall (fun c => In c name_characters) (Plugins.p_name p)).
  { rewrite forallb_forall, Forall_forall. split; intros H c I; apply legal_in, H, I. }
  unfold Plugins.install. destruct (forallb Plugins.legal_char (Plugins.p_name p)) eqn:L; cbn [negb].
  - split; [intros _|intros N; exfalso; apply N, F; reflexivity]. cbn [fst snd Plugins.installed]. split; [reflexivity|].
    rewrite PluginsProps.s_get_set. rewrite str_eqb_refl. reflexivity.
  - split; [intros H; apply F in H; discriminate|reflexivity].
Qed.

(** ** C105: a start without a session *)

(** If no session was made before something ended the start well, the start succeeds: the warnings kept are added to nothing. *)
Theorem C105_no_session c raises hook_raises l :
  (forall d r, raises d r = false) -> ~ In Prelude.Make l -> (forall sub hi, ~ In (Prelude.Bind sub hi) l) ->
  snd (Prelude.enter c raises hook_raises l true Prelude.start) = true /\
  Prelude.kept_w (fst (Prelude.enter c raises hook_raises l true Prelude.start)) =
  Prelude.kept_w (Prelude.steps c raises hook_raises l Prelude.start).
Proof.
  intros OK M B.
  assert (S : Prelude.session (Prelude.steps c raises hook_raises l Prelude.start) = None).
  { assert (G : forall l s, ~ In Prelude.Make l -> (forall sub hi, ~ In (Prelude.Bind sub hi) l) -> Prelude.session (Prelude.steps c raises hook_raises l s) = Prelude.session s).
    { clear. induction l as [|a l IH]; intros s M B; [reflexivity|]. cbn [Prelude.steps fold_left]. fold (Prelude.steps c raises hook_raises l (Prelude.step c raises hook_raises a s)).
      rewrite IH; [|intros I; apply M; right; exact I|intros u v I; apply (B u v); right; exact I].
      destruct a; cbn [Prelude.step]; try reflexivity.
      - destruct (Prelude.captures_w s); [|reflexivity]. destruct (Prelude.filtered s w); [reflexivity|]. unfold Prelude.add. destruct (hook_raises w); reflexivity.
      - destruct M. left. reflexivity.
      - destruct (B sub hi). left. reflexivity. }
    apply G; assumption. }
  unfold Prelude.enter. cbv zeta. set (s := Prelude.steps c raises hook_raises l Prelude.start) in *. unfold Prelude.emit_logs. rewrite S.
  assert (F : forall h k, snd (Prelude.flush raises h k) = true) by (intros; apply PreludeProps.flush_ok; exact OK).
  specialize (F Prelude.app_console (Prelude.kept s)). destruct (Prelude.flush raises Prelude.app_console (Prelude.kept s)) as [o b]. cbn [snd] in F. subst b.
  unfold Prelude.emit_warnings. cbn [Prelude.session]. split; reflexivity.
Qed.

Example C105_no_session_case :
  let l := [Prelude.Warn 4; Prelude.Ignore (fun w => Nat.eqb w 9)] in
  ~ In Prelude.Make l /\ Prelude.kept_w (Prelude.steps (PreludeProps.cf true) PreludeProps.fine PreludeProps.quietly l Prelude.start) = [4].
Proof. split; [intros [H|[H|[]]]; discriminate|reflexivity]. Qed.

(** ** C121: what counts as met and how a message is written *)

(** bool() and str() of the answers: everything but None, False, the empty string and objects that say so is true *)
Theorem C121_truth v :
  (ReqCheck.truthy v = false <-> v = ReqCheck.PNone \/ v = ReqCheck.PBool false \/ v = ReqCheck.PStr "" \/ exists t, v = ReqCheck.PObj false t) /\
  (forall t, ReqCheck.shown v = t -> v = ReqCheck.PStr t \/ (exists b, v = ReqCheck.PObj b t) \/ (v = ReqCheck.PNone /\ t = "None"%string) \/
     (v = ReqCheck.PBool true /\ t = "True"%string) \/ (v = ReqCheck.PBool false /\ t = "False"%string)).
Proof.
  split.
  - destruct v as [|[|]|s|[|] t]; cbn [ReqCheck.truthy]; split; intros H; try discriminate; auto; try (destruct H as [H|[H|[H|[u H]]]]; discriminate).
    + right. right. left. f_equal. apply negb_false_iff in H. apply String.eqb_eq. exact H.
    + destruct H as [H|[H|[H|[u H]]]]; try discriminate. injection H as ->. reflexivity.
    + right. right. right. exists t. reflexivity.
  - intros t <-. destruct v as [|[|]|s|b u]; cbn [ReqCheck.shown]; eauto 10.
Qed.

(** ** C39: the same variation *)

(** A resumed row with a variation finds the tests of its file with the address whose variation binds the same parameters to the same
    values, and no others. *)
Theorem C39_variation load excluded w m x v :
  Resume.w_var w = Some (x :: v) -> Dict.d_ok (x :: v) -> Dict.d_ok (Resume.m_var m) ->
  (In m (Resume.iter_test_resume load excluded w) <->
   In m (load (Resume.w_file w)) /\ excluded m = false /\ Resume.w_aif w = Resume.m_aif m /\
   forall k, Dict.d_get k (x :: v) = Dict.d_get k (Resume.m_var m)).
Proof.
  intros W N1 N2. unfold Resume.iter_test_resume. rewrite filter_In, W, !andb_true_iff, negb_true_iff, Nat.eqb_eq.
  enough (Q : Resume.var_eqb (x :: v) (Resume.m_var m) = true <-> forall k, Dict.d_get k (x :: v) = Dict.d_get k (Resume.m_var m)) by (rewrite Q; tauto).
  clear W. generalize dependent (x :: v). intros a N1. set (b := Resume.m_var m) in *. clearbody b. unfold Resume.var_eqb.
  rewrite andb_true_iff, Nat.eqb_eq, forallb_forall. split.
  - intros [L F].
    assert (S : forall k i, Dict.d_get k a = Some i -> Dict.d_get k b = Some i).
    { intros k i G. apply Dict.d_get_pair in G. specialize (F _ G). cbn [fst snd] in F. destruct (Dict.d_get k b) as [j|]; [|discriminate].
      apply Nat.eqb_eq in F. congruence. }
    intros k. destruct (Dict.d_get k a) as [i|] eqn:G; [symmetry; apply S; exact G|].
    destruct (Dict.d_get k b) as [j|] eqn:G2; [exfalso|reflexivity].
    assert (I : incl (Dict.d_keys b) (Dict.d_keys a)).
    { apply NoDup_length_incl; [exact N1|unfold Dict.d_keys; rewrite !map_length; lia|]. intros k' K. apply Dict.d_get_In in K. apply Dict.d_get_In.
      destruct (Dict.d_get k' a) as [i|] eqn:E; [rewrite (S _ _ E); discriminate|congruence]. }
    assert (K : In k (Dict.d_keys a)) by (apply I, Dict.d_get_In; congruence). apply Dict.d_get_In in K. congruence.
  - intros E. split.
    + assert (A : incl (Dict.d_keys a) (Dict.d_keys b)) by (intros k K; apply Dict.d_get_In; apply Dict.d_get_In in K; rewrite <- E; exact K).
      assert (B : incl (Dict.d_keys b) (Dict.d_keys a)) by (intros k K; apply Dict.d_get_In; apply Dict.d_get_In in K; rewrite E; exact K).
      pose proof (NoDup_incl_length N1 A) as A'. pose proof (NoDup_incl_length N2 B) as B'. unfold Dict.d_keys in *. rewrite !map_length in *. lia.
    + intros [k i] I. cbn [fst snd]. rewrite <- E, (Dict.d_pair_get k i a N1 I). apply Nat.eqb_refl.
Qed.

(** the order of the parameters does not matter *)
Example C39_variation_case :
  let m := Resume.mkMd 3 10 21 [(6, 1); (5, 0)] 3 in
  Dict.d_ok (Resume.m_var m) /\ Dict.d_ok [(5, 0); (6, 1)] /\
  In m (Resume.iter_test_resume (fun _ => [m]) (fun _ => false) (Resume.mkRow 10 21 (Some [(5, 0); (6, 1)]) Resume.Failed)).
Proof. repeat split; [repeat constructor; cbn; intuition discriminate|repeat constructor; cbn; intuition discriminate|left; reflexivity]. Qed.

(** ** C44: several suite files *)

(** The suite files are read one after the other: if each of them can be read to its end, the tests are those of all of them, in their
    order; otherwise those of the files before the first that cannot, and those it lists before. *)
Theorem C44_files content isdir resolve int_of n fs its fin :
  let file := Suite.iter_file content isdir resolve int_of n in
  Suite.iter_files content isdir resolve int_of n fs = (its, fin) ->
  (fin = Suite.Finished /\ (forall f, In f fs -> snd (file f) = Suite.Finished) /\ its = List.concat (map (fun f => fst (file f)) fs)) \/
  (fin <> Suite.Finished /\ exists before f after, fs = before ++ f :: after /\ snd (file f) = fin /\
     (forall g, In g before -> snd (file g) = Suite.Finished) /\ its = List.concat (map (fun f => fst (file f)) before) ++ fst (file f)).
Proof.
  intros file. revert its fin. induction fs as [|f fs IH]; intros its fin; cbn [Suite.iter_files].
  - injection 1 as <- <-. left. split; [reflexivity|]. split; [intros g []|reflexivity].
  - fold file. destruct (file f) as [i [|e|]] eqn:F.
    + destruct (Suite.iter_files content isdir resolve int_of n fs) as [rest fin'] eqn:R. injection 1 as <- <-.
      destruct (IH _ _ eq_refl) as [(-> & A & ->)|(N & before & g & after & -> & B & C & ->)].
      * left. split; [reflexivity|]. split; [intros g [<-|I]; [rewrite F; reflexivity|auto]|]. cbn [map List.concat]. rewrite F. reflexivity.
      * right. split; [exact N|]. exists (f :: before), g, after. split; [reflexivity|]. split; [exact B|].
        split; [intros h [<-|I]; [rewrite F; reflexivity|auto]|]. cbn [map List.concat]. rewrite F. cbn [fst]. rewrite app_assoc. reflexivity.
    + injection 1 as <- <-. right. split; [discriminate|]. exists [], f, fs. rewrite F. repeat split; intros g [].
    + injection 1 as <- <-. right. split; [discriminate|]. exists [], f, fs. rewrite F. repeat split; intros g [].
Qed.

(** ** C98: which results show details, where frames are separated *)

(** Of a result that is a success (started, not interrupted, no error, failure or skip) no details are written, of any other all of
    them. *)
Theorem C98_details r :
  let ok := Summary.started r = true /\ Summary.interrupted r = false /\ Summary.errors r = [] /\ Summary.failures r = [] /\ Summary.skips r = [] in
  (ok -> Summary.report_details r = ([], None)) /\
  (~ ok -> forall k v, In (k, v) (Summary.details r) -> In (Summary.Detail k v) (fst (Summary.report_details r))).
Proof.
  cbv zeta. split.
  - intros (A & B & C & D & E). unfold Summary.report_details, Summary.is_success. rewrite A, B, C, D, E. reflexivity.
  - intros N k v I. unfold Summary.report_details. replace (Summary.is_success r) with false.
    + destruct (Summary.details r ++ _) as [|x l] eqn:Q; [destruct (Summary.details r); [destruct I|discriminate]|].
      cbn [fst Summary.write]. right. apply in_map_iff. exists (k, v). split; [reflexivity|]. rewrite <- Q. apply in_or_app. left. exact I.
    + symmetry. apply not_true_is_false. intros H. apply N. unfold Summary.is_success in H.
      destruct (Summary.errors r), (Summary.failures r), (Summary.interrupted r), (Summary.skips r); try discriminate. auto.
Qed.

Definition separators (l : list Summary.piece) : nat := length (filter (fun p => match p with Summary.FrameSep => true | _ => false end) l).

Lemma separators_app a b : separators (a ++ b) = separators a + separators b.
Proof. unfold separators. rewrite filter_app, app_length. reflexivity. Qed.

Lemma separators_code f b : separators (Summary.write_frame_code f b) = 0.
Proof. unfold Summary.write_frame_code. generalize (Summary.flagged (if b then Summary.code f else match rev (Summary.code f) with l :: _ => [l] | [] => [] end)).
  intros l. induction l as [|x l IH]; [reflexivity|exact IH]. Qed.

(** With variables (level 4 and above) there is a separator between each two frames, none before the first; below that there is none. *)
Theorem C98_separators c failure e f fs : Summary.frames e = f :: fs ->
  separators (fst (Summary.report_traceback c failure e)) = (if 4 <=? Summary.tb c then length fs else 0) /\
  (1 < Summary.tb c -> exists rest, fst (Summary.report_traceback c failure e) = Summary.Location (Summary.file f) (Summary.line f) :: rest).
Proof.
  intros Q.
  assert (W : forall x, separators (Summary.write_frame c failure e x) = if 4 <=? Summary.tb c then (if snd (fst x) then 0 else 1) else 0).
  { intros [[g a] b]. unfold Summary.write_frame. rewrite !separators_app, separators_code. cbn [fst snd].
    destruct (4 <=? Summary.tb c), a, b; reflexivity. }
  assert (G : forall l, separators (flat_map (Summary.write_frame c failure e) (Summary.flagged' false l)) = if 4 <=? Summary.tb c then length l else 0).
  { induction l as [|g l IH]; [destruct (4 <=? _); reflexivity|]. cbn [Summary.flagged' flat_map]. rewrite separators_app, IH, W. cbn [fst snd length].
    destruct (4 <=? Summary.tb c); reflexivity. }
  assert (K : forall g l, separators (flat_map (Summary.write_frame c failure e) (Summary.flagged (g :: l))) = if 4 <=? Summary.tb c then length l else 0).
  { intros g l. unfold Summary.flagged. cbn [Summary.flagged' flat_map]. rewrite separators_app, G, W. cbn [fst snd]. destruct (4 <=? Summary.tb c); reflexivity. }
  unfold Summary.report_traceback. rewrite Q. destruct (Summary.tb c) as [|[|t]] eqn:T.
  - cbn. split; [reflexivity|lia].
  - split; [|lia]. cbn [rev]. destruct (rev fs ++ [f]) as [|g l] eqn:R; [destruct (rev fs); discriminate|]. cbn [fst Summary.write]. rewrite K. reflexivity.
  - cbn [fst Summary.write]. split; [apply K|]. intros _. unfold Summary.flagged. cbn [Summary.flagged' flat_map Summary.write_frame]. rewrite T.
    destruct (4 <=? S (S t)); cbn [app]; eexists; reflexivity.
Qed.

(** ** C89: what is a false mark *)

(** the marks that are false: 0 (False) and the empty list *)
Theorem C89_truth v : Swallow.truthy v = false <-> v = Marks.MAtom 0 \/ v = Marks.MList [].
Proof.
  destruct v as [n|[|x l]]; cbn [Swallow.truthy]; split; intros H; try discriminate; auto; try (destruct H; discriminate).
  - left. f_equal. apply negb_false_iff, Nat.eqb_eq in H. exact H.
  - destruct H as [H|H]; [injection H as ->; reflexivity|discriminate].
Qed.

(** ** C112: a worker whose window was never made *)

(** In the mode of windows a worker without a window cannot be marked as timed out: the AttributeError of None ends the handling, and
    nothing was done. *)
Theorem C112_no_window E i t : TmuxWorkers.panes E = false -> ~ In (TmuxWorkers.Window i) t ->
  TmuxWorkers.worker_timeout E i t = (t, TmuxWorkers.Exn TmuxWorkers.Attribute).
Proof.
  intros P N. unfold TmuxWorkers.worker_timeout. rewrite P.
  replace (TmuxWorkers.opened E t i) with false; [reflexivity|]. symmetry. clear P.
  induction t as [|e t IH]; [reflexivity|]. assert (N' : ~ In (TmuxWorkers.Window i) t) by (intros I; apply N; right; exact I). specialize (IH N').
  destruct e; cbn [TmuxWorkers.opened]; try exact IH. destruct (Nat.eqb_spec i i0) as [<-|]; [|exact IH]. destruct N. left. reflexivity.
Qed.

(** ** C97: which frames are left out of a traceback *)

Theorem C97_muted m f n :
  Trace.is_muted (Trace.mkFrame (Some (lit m)) (lit f) n) = true <->
  In (m, f) [("slash.core.function_test", "run"); ("slash.core.test", "run"); ("slash.exception_handling", "handling_exceptions");
             ("slash.core.fixtures.fixture_store", "call_with_fixtures"); ("slash.frontend.main", "__main__"); ("slash.frontend.main", "main");
             ("slash.frontend.main", "main_entry_point"); ("slash.frontend.slash_run", "slash_run"); ("slash.runner", "run_tests");
             ("slash.runner", "_run_single_test"); ("slash.core.cleanup_manager", "call_cleanups"); ("slash.core.cleanup_manager", "__call__")]%string.
Proof.
  assert (L : forall a b, lit a = lit b -> a = b).
  { induction a as [|c a IH]; intros [|d b] H; try discriminate; [reflexivity|]. injection H as -> H. f_equal. apply IH. exact H. }
  set (l := [_; _; _; _; _; _; _; _; _; _; _; _]).
  assert (E : Trace.muted_locations = map (fun x => (lit (fst x), lit (snd x))) l) by reflexivity.
  unfold Trace.is_muted. cbn [Trace.f_module Trace.f_func]. rewrite E, existsb_exists. clearbody l. split.
  - intros (x & I & H). apply in_map_iff in I as ([a b] & <- & I). cbn [fst snd] in H. apply andb_true_iff in H as [A B].
    apply (reflect_iff _ _ (str_eqb_spec _ _)) in A. apply (reflect_iff _ _ (str_eqb_spec _ _)) in B. apply L in A. apply L in B. subst. exact I.
  - intros I. exists (lit m, lit f). split; [apply in_map_iff; exists (m, f); auto|]. cbn [fst snd]. rewrite !str_eqb_refl. reflexivity.
Qed.

(** ** C81: a value that cannot be unpickled for another reason than a TypeError *)

(** The exception leaves deserialize, nothing was reported, and the result holds what came before. *)
Theorem C81_raises loads rr before i after p :
  (forall j, In j before -> loads j <> Transfer.LRaises) -> loads i = Transfer.LRaises ->
  Transfer.deserialize loads rr (before ++ i :: after) p =
  (fst (Transfer.load_items loads before p), [], true) /\ snd (Transfer.load_items loads before p) = false.
Proof.
  intros B R. unfold Transfer.deserialize.
  enough (G : Transfer.load_items loads (before ++ i :: after) p = (fst (Transfer.load_items loads before p), true) /\ snd (Transfer.load_items loads before p) = false)
    by (destruct G as [-> ->]; split; reflexivity).
  revert p. induction before as [|j before IH]; intros p; cbn [app Transfer.load_items]; [rewrite R; split; reflexivity|].
  specialize (IH (fun k I => B k (or_intror I))). specialize (B j (or_introl eq_refl)). destruct (loads j); [apply IH|apply IH|congruence].
Qed.

(** ** C110: what is logged of an error *)

(** The line names the error by its message; its traceback follows on the next line. *)
Theorem C110_text variables append report hook_fails e :
  exists evs, fst (fst (fst (Vars.add_error variables append report hook_fails e))) =
    Vars.Logged ((lit "Error added: <Error: " ++ Vars.e_message e ++ lit ">") ++ [ascii_of_nat 10] ++ Vars.traceback_string variables (Vars.e_frames e)) :: evs.
Proof.
  unfold Vars.add_error, Vars.log_text. rewrite <- !app_assoc.
  destruct report, hook_fails; eexists; reflexivity.
Qed.

(** ** C119: classes of warnings and the filters put in front *)

(** [is_a a b]: class a is b or derived from it *)
Inductive is_a : WarnCapture.cat -> WarnCapture.cat -> Prop :=
| ia_same a : is_a a a
| ia_base a : is_a a WarnCapture.CWarning
| ia_logbook : is_a WarnCapture.CLogbook WarnCapture.CUser
| ia_sub n a b : is_a a b -> is_a (WarnCapture.CSub n a) b.

Lemma cat_eqb_iff a : forall b, WarnCapture.cat_eqb a b = true <-> a = b.
Proof.
  induction a as [| | | | |n a IH]; intros [| | | | |m b]; cbn [WarnCapture.cat_eqb]; try (split; [discriminate|congruence]); try tauto.
  rewrite andb_true_iff, Nat.eqb_eq, IH. split; [intros [-> ->]; reflexivity|]. intros H. injection H as -> ->. auto.
Qed.

Theorem C119_subclass a : forall b, WarnCapture.subclass a b = true <-> is_a a b.
Proof.
  assert (R : forall a, WarnCapture.cat_eqb a a = true) by (intros x; apply cat_eqb_iff; reflexivity).
  induction a as [| | | | |n a IH]; intros b; cbn [WarnCapture.subclass]; rewrite ?orb_true_iff, ?cat_eqb_iff.
  - split; [intros [<-|H]; [constructor|discriminate]|]. intros H. inversion H; auto.
  - split; [intros [<-|<-]; constructor|]. intros H. inversion H; auto.
  - split; [intros [<-|<-]; constructor|]. intros H. inversion H; auto.
  - split; [intros [<-|<-]; constructor|]. intros H. inversion H; auto.
  - split; [intros [<-|[<-|<-]]; constructor|]. intros H. inversion H; auto.
  - rewrite IH. split; [intros [<-|H]; constructor; exact H|]. intros H. inversion H; subst; auto. right. constructor.
Qed.

(** Putting slash's two filters in front leaves all other filters as they are, in their order. *)
Theorem C119_in_front l : ~ In (WarnCapture.Ignore, WarnCapture.CImport) l -> ~ In (WarnCapture.Always, WarnCapture.CWarning) l ->
  WarnCapture.capture_all l = (WarnCapture.Ignore, WarnCapture.CImport) :: (WarnCapture.Always, WarnCapture.CWarning) :: l.
Proof.
  assert (F : forall f g, WarnCapture.filter_eqb f g = true <-> f = g).
  { intros [a c] [b d]. unfold WarnCapture.filter_eqb. cbn [fst snd]. rewrite andb_true_iff, cat_eqb_iff.
    assert (A : WarnCapture.action_eqb a b = true <-> a = b) by (destruct a, b; cbn; split; congruence). rewrite A. split; [intros [-> ->]; reflexivity|]. intros H. injection H as -> ->. auto. }
  assert (R : forall f k, ~ In f k -> WarnCapture.remove1 f k = k).
  { intros f. induction k as [|g k IH]; intros N; [reflexivity|]. cbn [WarnCapture.remove1]. destruct (WarnCapture.filter_eqb f g) eqn:E.
    - apply F in E. subst g. destruct N. left. reflexivity.
    - f_equal. apply IH. intros I. apply N. right. exact I. }
  intros N1 N2. unfold WarnCapture.capture_all, WarnCapture.add_filter. rewrite (R (WarnCapture.Always, WarnCapture.CWarning) l N2), R; [reflexivity|].
  intros [H|H]; [discriminate|exact (N1 H)].
Qed.

Example C119_in_front_case :
  WarnCapture.capture_all [(WarnCapture.Ignore, WarnCapture.CWarning); (WarnCapture.Always, WarnCapture.CImport)] =
  [(WarnCapture.Ignore, WarnCapture.CImport); (WarnCapture.Always, WarnCapture.CWarning); (WarnCapture.Ignore, WarnCapture.CWarning); (WarnCapture.Always, WarnCapture.CImport)].
Proof. reflexivity. Qed.

(** ** C48: fields that are empty *)

(** A field of a filter that is an empty string or line 0 restricts nothing: the filter hides what it would hide without the field. *)
Definition given (f : Warnings.wfilter) : Warnings.wfilter :=
  let pat p := match p with Some (Warnings.PStr []) => None | _ => p end in
  Warnings.mkFilter (Warnings.f_category f) (pat (Warnings.f_filename f)) (match Warnings.f_lineno f with Some 0 => None | n => n end) (pat (Warnings.f_message f)).
Theorem C48_empty subclass re_match f w msg :
  Warnings.matches subclass re_match f w msg = Warnings.matches subclass re_match (given f) w msg.
Proof.
  destruct f as [c a n b]. unfold given, Warnings.matches. cbn [Warnings.f_category Warnings.f_filename Warnings.f_lineno Warnings.f_message].
  destruct a as [[[|]|]|]; destruct n as [[|]|]; destruct b as [[[|]|]|]; reflexivity.
Qed.

Example C48_empty_case : Warnings.matches (fun _ _ => true) (fun _ _ => false)
  (Warnings.mkFilter None (Some (Warnings.PStr [])) (Some 0) (Some (Warnings.PStr (lit "old")))) (Warnings.mkWarning 1 (lit "a.py") 7 None) (lit "old") = true.
Proof. reflexivity. Qed.

(** ** C131: % of plain strings *)

(** With a plain string on the left % does what Python does, and the result is plain. *)
Theorem C131_percent percent s : ColorStrings.modulo percent (ColorStrings.Plain s) = option_map ColorStrings.Plain (percent s).
Proof. cbn [ColorStrings.modulo]. destruct (percent s); reflexivity. Qed.

(** ** C134: names of files are compared without regard to case *)

Definition capitals : str := lit "ABCDEFGHIJKLMNOPQRSTUVWXYZ".
Definition smalls : str := lit "abcdefghijklmnopqrstuvwxyz".
Theorem C134_lower c :
  (forall i, nth_error capitals i = Some c -> nth_error smalls i = Some (Interactive.lower c)) /\
  (~ In c capitals -> Interactive.lower c = c).
Proof.
  split.
  - intros i. do 26 (destruct i as [|i]; [intros H; vm_compute in H; injection H as <-; reflexivity|]).
    intros H. exfalso. assert (L : nth_error capitals (26 + i) = None) by (apply nth_error_None; cbn; lia). cbn [Nat.add] in L. congruence.
  - intros N. assert (E : Interactive.lower c = c \/ existsb (Ascii.eqb c) capitals = true).
    { destruct c as [[] [] [] [] [] [] [] []]; vm_compute; auto. }
    destruct E as [E|E]; [exact E|]. exfalso. apply N. apply existsb_exists in E as (d & I & E). apply Ascii.eqb_eq in E. subst d. exact I.
Qed.

(** the colours of the shell: as configured; else by the background, slash/utils/interactive.py:27-29 *)
Theorem C134_colors : (forall c dark, Interactive.shell_colors (Some c) dark = c) /\
  Interactive.shell_colors None true = lit "Linux" /\ Interactive.shell_colors None false = lit "LightBG".
Proof. repeat split. Qed.

(** ** C136: others that write to the terminal between the two notifications *)

(** After a log record the line in progress is shown again if the terminal understands '\r', else the record is all that is written. *)
Theorem C136_notify w t record : 1 <= w -> TerminalProps.shows_line w t -> List.length (Terminal.line t) mod w <> 0 ->
  let t' markup := Messages.notify_after markup w (Terminal.other w (Messages.notify_before markup w t) (record ++ [Terminal.nl])) in
  Terminal.scr (t' false) = Terminal.do_write w (Terminal.scr t) (record ++ [Terminal.nl]) /\
  Terminal.row (Terminal.scr (t' true)) = skipn (List.length (Terminal.line t) - List.length (Terminal.line t) mod w) (Terminal.line t) /\
  Terminal.col (Terminal.scr (t' true)) = List.length (Terminal.line t) mod w.
Proof.
  intros W S N t'. split; [reflexivity|]. destruct (TerminalProps.C99_redraw_partial w t record W S N) as (_ & (rows & E) & _).
  cbn zeta in E. unfold t', Messages.notify_after, Messages.notify_before. cbv iota. rewrite E. split; reflexivity.
Qed.

Example C136_notify_case : let t := Terminal.write 20 TerminalProps.blank (lit "f.py ......") in
  TerminalProps.shows_line 20 t /\ List.length (Terminal.line t) mod 20 = 11.
Proof. split; [apply TerminalProps.write_shows; [lia|]; split; [intros c []|split; reflexivity]|reflexivity]. Qed.

(** ** C133: the numbers in the repr of the results of a session *)

(** Skips are those of all results, run or not; errors, failures and skips of the session itself are included. *)
Theorem C133_numbers R : exists s e f k, ResultInfo.numbers R = (s, e, f, k) /\
  let tests := map snd (Results.sr_dict R) in
  let all := tests ++ [Results.sr_global R] in
  ResultsProps.counted (fun r => Core.r_started r = true /\ Core.r_finished r = true /\ Core.r_interrupted r = false /\
    Core.r_errors r = [] /\ Core.r_failures r = [] /\ Core.r_skips r = []) tests s /\
  ResultsProps.counted (fun r => Core.r_errors r <> []) all e /\
  ResultsProps.counted (fun r => Core.r_failures r <> [] /\ Core.r_errors r = []) all f /\
  ResultsProps.counted (fun r => Core.r_skips r <> []) all k.
Proof.
  destruct (ResultsProps.C15_what_is_counted R) as (_ & _ & A & B & C & D & _). do 4 eexists. split; [reflexivity|]. cbv zeta. auto.
Qed.

Example C133_numbers_case : exists R, ResultInfo.numbers R = (0, 0, 0, 1) /\ Results.get_num_not_run R = 1.
Proof.
  exists (let s := fst (Core.run_session CleanupProps.env0 [ResultsProps.t_avoided]) in Results.mkResults (Core.st_results s) (Core.st_global s) false false).
  vm_compute. auto.
Qed.

(** ** Cases that meet the hypotheses *)

Example C45_names_case : Forall (fun c => In c name_characters) (lit "My plugin-2") /\ ~ Forall (fun c => In c name_characters) (lit "a.b").
Proof.
  split.
  - apply Forall_forall. intros c I. apply legal_in. revert c I. apply forallb_forall. reflexivity.
  - intros F. rewrite Forall_forall in F. specialize (F "."%char (or_intror (or_introl eq_refl))). apply legal_in in F. discriminate.
Qed.

(** the first of two files is read, the second has a line that is refused *)
Example C44_files_case :
  Suite.iter_files (fun f => if str_eqb f (lit "one") then Some [lit "a.py"] else None) (fun _ => false) (fun _ p => p) (fun _ => None) 3
    [lit "one"; lit "two"] = ([(lit "a.py", None)], Suite.Raised Suite.OpenErr).
Proof. reflexivity. Qed.

Example C98_separators_case :
  let f := Summary.mkFrame (lit "f.py") 3 [lit "x"] in
  separators (fst (Summary.report_traceback (Summary.mkConf 12 5 true) false (Summary.mkErr (lit "m") true false [f; f; f]))) = 2.
Proof. reflexivity. Qed.

Example C112_no_window_case :
  ~ In (TmuxWorkers.Window 2) [TmuxWorkers.Hook 2; TmuxWorkers.Window 1; TmuxWorkers.Hook 1].
Proof. intros H. repeat destruct H as [H|H]; try discriminate; exact H. Qed.

Example C81_raises_case :
  let p := Transfer.mkRes 1 0 [] [] [] false false false [] in
  Transfer.deserialize (fun i => match i with Transfer.IErrors _ => Transfer.LRaises | _ => Transfer.LValue end) (fun _ => false)
    [Transfer.ISkips [3]; Transfer.IErrors []; Transfer.IStarted true] p = (Transfer.mkRes 1 0 [] [] [3] false false false [], [], true).
Proof. reflexivity. Qed.

(** ** C116: which results are skipped and which interrupted *)

(** a result is skipped once for each skip exception that is handled in it and was not handled before, and interrupted likewise; nothing
    else does *)
Theorem C116_skips kind_of settable w o :
  Errors.skips (Errors.step kind_of settable w o) = Errors.skips w ++
    match o with
    | Errors.Handle r e _ => if Errors.m_added (Errors.exns w e) then [] else match kind_of e with Errors.Skip => [r] | _ => [] end
    | _ => []
    end /\
  Errors.interrupted (Errors.step kind_of settable w o) = Errors.interrupted w ++
    match o with
    | Errors.Handle r e _ => if Errors.m_added (Errors.exns w e) then [] else match kind_of e with Errors.Interruption => [r] | _ => [] end
    | _ => []
    end.
Proof.
  assert (M : forall e f w, Errors.skips (Errors.set_marks settable e f w) = Errors.skips w /\ Errors.interrupted (Errors.set_marks settable e f w) = Errors.interrupted w).
  { intros e f v. unfold Errors.set_marks. destruct (settable e); split; reflexivity. }
  assert (C : forall e w, Errors.skips (fst (Errors.capture kind_of settable e w)) = Errors.skips w /\
                          Errors.interrupted (fst (Errors.capture kind_of settable e w)) = Errors.interrupted w).
  { intros e v. unfold Errors.capture. destruct (Errors.m_captured (Errors.exns v e)); [split; reflexivity|]. cbn [Errors.new_error]. cbn [fst].
    destruct (M e (fun m => Errors.mkMarks (Errors.m_added m) (Errors.m_fatal m) (Some (length (Errors.errs v))))
      (fst (Errors.new_error kind_of (Some e) false v))) as [A B].
    cbn [Errors.new_error fst] in A, B. split; [exact A|exact B]. }
  assert (A : forall r f s w, Errors.skips (fst (Errors.add kind_of settable r f s w)) = Errors.skips w /\
                              Errors.interrupted (fst (Errors.add kind_of settable r f s w)) = Errors.interrupted w).
  { intros r f s v. unfold Errors.add. destruct s as [e| |e|].
    - destruct (C e v) as [A B]. destruct (Errors.capture kind_of settable e v) as [v' i]. destruct f; cbn [fst Errors.change Errors.skips Errors.interrupted] in *; auto.
    - destruct f; split; reflexivity.
    - destruct f; split; reflexivity.
    - split; reflexivity. }
  destruct o as [r f s|r e a|i|e]; cbn [Errors.step].
  - rewrite !app_nil_r. apply A.
  - unfold Errors.add_exception. destruct (Errors.m_added (Errors.exns w e)); [rewrite !app_nil_r; split; reflexivity|].
    set (v := Errors.set_marks settable e _ w). destruct (M e (fun m => Errors.mkMarks true (Errors.m_fatal m) (Errors.m_captured m)) w) as [P Q].
    fold v in P, Q. destruct (kind_of e); rewrite ?app_nil_r; rewrite <- P, <- Q.
    all: try apply A.
    all: try (split; reflexivity).
    cbn [fst Errors.skips Errors.interrupted]. destruct (C e v) as [-> ->]. split; reflexivity.
  - rewrite !app_nil_r. split; reflexivity.
  - rewrite !app_nil_r. apply M.
Qed.

Example C116_skips_case :
  let kinds := fun e => match e with 0 => Errors.Skip | _ => Errors.Interruption end in
  let w := Errors.run kinds (fun _ => true) Errors.world0 [Errors.Handle 4 0 (Some 0); Errors.Handle 4 0 (Some 0); Errors.Handle 5 1 (Some 1)] in
  Errors.skips w = [4] /\ Errors.interrupted w = [5].
Proof. split; reflexivity. Qed.

(** ** C114: a warning the parent cannot read or does not like is a Fault in the code of the worker that warned *)

Theorem C114_fault w own parent e : WorkerReports.w_dumps w = None ->
  WorkerReports.w_loads w = Some e \/ (WorkerReports.w_loads w = None /\ WorkerReports.w_parent w = Some e) ->
  (e <> WorkerReports.TypeErr -> WorkerReports.add None w (own, parent) = ((own, parent), WorkerReports.Exn WorkerReports.Fault)) /\
  (e = WorkerReports.TypeErr -> WorkerReports.add None w (own, parent) = ((own ++ [w], parent), WorkerReports.Ok)).
Proof.
  intros D L. unfold WorkerReports.add, WorkerReports.warning_added. rewrite D. unfold WorkerReports.remote_warning, WorkerReports.report_warning.
  destruct L as [-> |[-> ->]]; cbn [snd fst]; destruct e; split; intros N; try congruence; reflexivity.
Qed.

Example C114_fault_case : WorkerReports.add None (WorkerReports.mkW 1 None (Some WorkerReports.AttrErr) None) ([], []) =
  (([], []), WorkerReports.Exn WorkerReports.Fault).
Proof. reflexivity. Qed.

(** ** C25: a namespace for each push that was not popped *)

(** how often [o] occurs among pushes and pops *)
Definition pushes (ops : list FixtureGraph.op) : nat := length (filter (fun o => match o with FixtureGraph.OPush => true | _ => false end) ops).
Definition pops (ops : list FixtureGraph.op) : nat := length (filter (fun o => match o with FixtureGraph.OPop => true | _ => false end) ops).

Lemma define_stack d st st' : FixtureGraph.define d st = inl st' -> FixtureGraph.fs_stack st' = FixtureGraph.fs_stack st.
Proof.
  unfold FixtureGraph.define. destruct (FixtureGraph.current st) as [c|]; [|discriminate].
  destruct (Dict.d_get _ _).
  - destruct (FixtureGraph.add_name _ _ _ _); [|discriminate]. intros H. inversion H. reflexivity.
  - destruct (FixtureGraph.fd_testlike d); [discriminate|]. destruct (FixtureGraph.add_name _ _ _ _); [|discriminate].
    intros H. inversion H. reflexivity.
Qed.

Lemma resolve_stack order st st' : FixtureGraph.resolve_all order st = inl st' -> FixtureGraph.fs_stack st' = FixtureGraph.fs_stack st.
Proof.
  revert st. induction order as [|f order IH]; intros st; cbn [FixtureGraph.resolve_all].
  - destruct (FixtureGraph.fs_unresolved st); [|discriminate]. intros H. inversion H. reflexivity.
  - destruct (existsb _ _); [|discriminate]. unfold FixtureGraph.resolve_one. cbn [FixtureGraph.fs_fixtures FixtureGraph.fs_resolved].
    destruct (Dict.d_get f (FixtureGraph.fs_fixtures st)) as [[d own]|]; [|discriminate].
    destruct (Dict.d_get f (FixtureGraph.fs_resolved st)).
    + intros H. apply IH in H. exact H.
    + destruct (FixtureGraph.resolve_args _ _ _ _ _); [|discriminate]. intros H. apply IH in H. exact H.
Qed.

(** the number of namespaces in use, and what one push or pop more does when there is none *)
Theorem C25_unbalanced ops st : FixtureGraph.run ops FixtureGraph.store0 = inl st ->
  length (FixtureGraph.fs_stack st) + pops ops = 1 + pushes ops /\
  (FixtureGraph.pop_namespace st = inr FixtureGraph.IndexError <-> pops ops = 1 + pushes ops) /\
  (FixtureGraph.push_namespace st = inr FixtureGraph.IndexError <-> pops ops = 1 + pushes ops).
Proof.
  assert (G : forall ops s t, FixtureGraph.run ops s = inl t ->
    length (FixtureGraph.fs_stack t) + pops ops = length (FixtureGraph.fs_stack s) + pushes ops).
  { clear. induction ops as [|o ops IH]; intros s t; cbn [FixtureGraph.run].
    - intros H. inversion H. reflexivity.
    - destruct (FixtureGraph.step o s) as [u|] eqn:E; [|discriminate]. intros H. specialize (IH _ _ H).
      destruct o as [| |d|order|f]; cbn [FixtureGraph.step] in E; unfold pushes, pops in *; cbn [filter length].
      + unfold FixtureGraph.push_namespace in E. destruct (FixtureGraph.current s); [|discriminate]. inversion E; subst u. cbn [FixtureGraph.fs_stack length] in IH. lia.
      + unfold FixtureGraph.pop_namespace in E. destruct (FixtureGraph.fs_stack s); [discriminate|]. inversion E; subst u. cbn [FixtureGraph.fs_stack length] in *. lia.
      + apply define_stack in E. rewrite E in IH. exact IH.
      + apply resolve_stack in E. rewrite E in IH. exact IH.
      + inversion E; subst u. unfold FixtureGraph.get_all_needed in IH. destruct (FixtureGraph.fs_unresolved s); [|exact IH].
        destruct (Dict.d_get f (FixtureGraph.fs_memo s)); [exact IH|]. destruct (FixtureGraph.compute_needed s f); exact IH. }
  intros H. specialize (G _ _ _ H). cbn [FixtureGraph.store0 FixtureGraph.fs_stack length] in G. split; [exact G|].
  unfold FixtureGraph.pop_namespace, FixtureGraph.push_namespace, FixtureGraph.current.
  destruct (FixtureGraph.fs_stack st); cbn [length hd_error] in *; repeat split; intros K; try reflexivity; try discriminate; lia.
Qed.

Example C25_unbalanced_case : exists st,
  FixtureGraph.run [FixtureGraph.OPush; FixtureGraph.OPop; FixtureGraph.OPop] FixtureGraph.store0 = inl st /\
  FixtureGraph.pop_namespace st = inr FixtureGraph.IndexError.
Proof. eexists. split; reflexivity. Qed.

(** ** C53: the lines that are cut are those between the characters that end lines; the console splits the code of errors alike *)

Theorem C53_breaks : (forall c, ConsoleLines.is_brk c = true <-> In c ["010"; "011"; "012"; "013"; "028"; "029"; "030"; "133"]%char) /\
  (forall s, ConsoleLines.splitlines s = FrameSource.splitlines [] s).
Proof.
  assert (B : forall c, ConsoleLines.is_brk c = FrameSource.line_break c) by (intros [[] [] [] [] [] [] [] []]; vm_compute; reflexivity).
  split; [intros c; rewrite B; apply FrameSourceProps.breaks_iff|].
  assert (G : forall n s cur, length s <= n -> ConsoleLines.splitlines_from cur s = FrameSource.splitlines (rev cur) s).
  { induction n as [|n IH]; intros s cur L.
    - destruct s; [|cbn in L; lia]. cbn. destruct cur as [|c cur]; [reflexivity|].
      destruct (rev (c :: cur)) eqn:E; [apply (f_equal (@length _)) in E; rewrite rev_length in E; discriminate|]. rewrite <- E, rev_involutive. reflexivity.
    - destruct s as [|c s]; [apply IH; cbn; lia|]. cbn [length] in L. cbn [ConsoleLines.splitlines_from FrameSource.splitlines]. rewrite B, rev_involutive.
      destruct (FrameSource.line_break c).
      + f_equal. destruct s as [|d s]; [reflexivity|]. change ConsoleLines.CR with "013"%char. change ConsoleLines.LF with "010"%char.
        cbn [length] in L. destruct (Ascii.eqb c "013" && Ascii.eqb d "010"); rewrite IH by (cbn [length]; lia); reflexivity.
      + rewrite IH by lia. rewrite rev_app_distr. reflexivity. }
  intros s. apply (G (length s) s []). lia.
Qed.

Example C53_breaks_case : ConsoleLines.splitlines ["a"; "013"; "010"; "b"; "028"; "c"; "133"]%char = [["a"]; ["b"]; ["c"]]%char.
Proof. reflexivity. Qed.

Print Assumptions C45_names.
Print Assumptions C105_no_session.
Print Assumptions C121_truth.
Print Assumptions C39_variation.
Print Assumptions C44_files.
Print Assumptions C98_details.
Print Assumptions C98_separators.
Print Assumptions C89_truth.
Print Assumptions C112_no_window.
Print Assumptions C97_muted.
Print Assumptions C81_raises.
Print Assumptions C110_text.
Print Assumptions C119_subclass.
Print Assumptions C119_in_front.
Print Assumptions C48_empty.
Print Assumptions C131_percent.
Print Assumptions C134_lower.
Print Assumptions C134_colors.
Print Assumptions C136_notify.
Print Assumptions C133_numbers.
Print Assumptions C116_skips.
Print Assumptions C114_fault.
Print Assumptions C25_unbalanced.
Print Assumptions C53_breaks.
