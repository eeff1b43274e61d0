(** C124: the coverage plugin (Coverage.v; plugins/builtin/coverage.py). *)

From Coq Require Import List Bool Arith Ascii String Lia.
From Verif Require Import Str Coverage.
Import ListNotations.
Local Notation length := List.length.

(** names separated by commas *)
Fixpoint joined (l : list str) : str :=
  match l with [] => [] | [n] => n | n :: l' => (n ++ ","%char :: joined l')%list end.
Definition name (k : kind) : str := match k with Html => lit "html" | Xml => lit "xml" end.

Lemma split_plain c a : ~ In c a -> split_all c a = [a].
Proof.
  induction a as [|x a IH]; intros H; [reflexivity|]. cbn in H. cbn [split_all]. destruct (Ascii.eqb_spec x c); [subst; tauto|]. rewrite IH by tauto. reflexivity.
Qed.
Lemma split_cons c a b : ~ In c a -> split_all c (a ++ c :: b) = a :: split_all c b.
Proof.
  induction a as [|x a IH]; intros H.
  - cbn [app split_all]. rewrite Ascii.eqb_refl. reflexivity.
  - cbn in H. cbn [app split_all]. destruct (Ascii.eqb_spec x c); [subst; tauto|]. rewrite IH by tauto. reflexivity.
Qed.
Lemma split_joined l : l <> [] -> Forall (fun n => ~ In ","%char n) l -> split_all "," (joined l) = l.
Proof.
  induction l as [|n l IH]; intros N F; [congruence|]. inversion F; subst. destruct l as [|m l]; [apply split_plain; assumption|].
  change (joined (n :: m :: l)) with (n ++ ","%char :: joined (m :: l))%list. rewrite split_cons by assumption. rewrite IH; [reflexivity|discriminate|assumption].
Qed.
Lemma joined_split s : joined (split_all "," s) = s.
Proof.
  induction s as [|x s IH]; [reflexivity|]. cbn [split_all]. destruct (Ascii.eqb_spec x ","%char) as [->|].
  - destruct (split_all "," s) as [|a l] eqn:E; [|change (joined ([] :: a :: l)) with (","%char :: joined (a :: l))%list; rewrite IH; reflexivity].
    exfalso. destruct s as [|y s]; [discriminate|]. cbn in E. destruct (Ascii.eqb y ","); [discriminate|]. destruct (split_all "," s); discriminate.
  - destruct (split_all "," s) as [|a l]; [cbn in *; congruence|]. destruct l; cbn [joined app] in *; congruence.
Qed.
Lemma kind_of_name n k : kind_of n = Some k <-> n = name k.
Proof.
  split; [|intros ->; destruct k; reflexivity]. unfold kind_of.
  destruct (str_eqb_spec n (lit "html")) as [->|N]; [intros H; injection H as <-; reflexivity|]. destruct (str_eqb_spec n (lit "xml")) as [->|M]; [intros H; injection H as <-; reflexivity|discriminate].
Qed.
Lemma kinds_of_inl l ks : kinds_of l = inl ks <-> l = map name ks.
Proof.
  revert ks. induction l as [|n l IH]; intros ks; cbn [kinds_of].
  - split; [intros E; injection E as <-; reflexivity|]. destruct ks; [reflexivity|discriminate].
  - destruct (kind_of n) as [k|] eqn:K.
    + apply kind_of_name in K. subst n. destruct (kinds_of l) as [ks'|x] eqn:E.
      * destruct (IH ks') as [A _]. specialize (A eq_refl). subst l. split; [intros H; injection H as <-; reflexivity|]. destruct ks as [|k' ks]; [discriminate|]. cbn. intros H. injection H as H1 H2.
        assert (k = k') by (destruct k, k'; try reflexivity; discriminate). subst k'. f_equal. f_equal. destruct (IH ks) as [_ B]. specialize (B H2). congruence.
      * split; [discriminate|]. destruct ks as [|k' ks]; [discriminate|]. cbn. intros H. injection H as _ H2. destruct (IH ks) as [_ B]. specialize (B H2). discriminate.
    + split; [discriminate|]. destruct ks as [|k ks]; [discriminate|]. cbn. intros H. injection H as -> _. assert (kind_of (name k) = Some k) by (apply kind_of_name; reflexivity). congruence.
Qed.
Lemma name_plain k : ~ In ","%char (name k).
Proof. destruct k; cbn; intuition discriminate. Qed.

(** the calls of a list up to the first that raises *)
Definition stops (env : nat -> reply) (n : nat) (all t : list call) (o : outcome) : Prop :=
  (t = all /\ o = Done /\ (forall i, i < length all -> env (n + i) = Fine)) \/
  (exists m x rest, all = m ++ x :: rest /\ t = m ++ [x] /\ (forall i, i < length m -> env (n + i) = Fine) /\ env (n + length m) <> Fine /\ o = Raised (env (n + length m))).

Lemma calls_stops env all : forall n, let (t, o) := calls env n all in stops env n all t o.
Proof.
  induction all as [|x all IH]; intros n; cbn [calls]; [left; repeat split; intros i H; inversion H|].
  specialize (IH (S n)). destruct (env n) eqn:E;
    try (right; exists [], x, all; cbn [length app]; rewrite Nat.add_0_r, E; repeat split; try discriminate; intros i H; inversion H).
  destruct (calls env (S n) all) as [t o]. assert (Z : forall j m, (forall i, i < m -> env (S n + i) = Fine) -> j < S m -> env (n + j) = Fine).
  { intros j m A B. destruct j; [rewrite Nat.add_0_r; exact E|]. rewrite Nat.add_succ_r. apply (A j). lia. }
  destruct IH as [(-> & -> & A)|(m & y & r & -> & -> & A & B & ->)].
  - left. repeat split. intros i H. apply (Z i (length all)); [exact A|exact H].
  - right. exists (x :: m), y, r. cbn [length app]. replace (n + S (length m)) with (S n + length m) by lia. repeat split; try assumption. intros i H. apply (Z i (length m)); [exact A|exact H].
Qed.

Section Proofs.
Variable env : nat -> reply.

(** *** activate *)

(** the files of the workers and of the parent are different *)
Theorem C124_files c c' : data_file c = data_file c' <-> worker_id c = worker_id c'.
Proof.
  unfold data_file. destruct (worker_id c) as [w|], (worker_id c') as [w'|]; cbn [lit list_ascii_of_string app]; split; intros H; try congruence; discriminate.
Qed.

(** it succeeds if the package is there, none of its calls raises and all names of report types are known; then it has started *)
Theorem C124_activate found c n t ks : activate env found c n = (t, Done, ks) ->
  found = true /\ report_type c = joined (map name ks) /\ ks <> [] /\
  t = (New (data_file c) (match sources c with [] => None | l => Some l end) :: (if append c then [Load] else []) ++ [Start]) /\
  forall i, i < length t -> env (n + i) = Fine.
Proof.
  unfold activate. destruct found; [|discriminate]. cbn [negb]. set (first := New _ _ :: _). pose proof (calls_stops env first n) as S1. destruct (calls env n first) as [t1 o1].
  destruct S1 as [(-> & -> & A)|(m & x & r & _ & _ & _ & _ & ->)]; [|discriminate].
  destruct (kinds_of (split_all "," (report_type c))) as [ks'|x] eqn:K; [|discriminate]. apply kinds_of_inl in K.
  pose proof (calls_stops env [Start] (n + length first)) as S2. destruct (calls env (n + length first) [Start]) as [t2 o2]. intros H. injection H as <- -> <-.
  destruct S2 as [(-> & _ & B)|(m & x & r & _ & _ & _ & _ & H)]; [|discriminate]. split; [reflexivity|]. split; [rewrite <- K; symmetry; apply joined_split|].
  split; [|split; [reflexivity|]].
  - intros ->. cbn in K. destruct (report_type c) as [|y s]; [discriminate|]. cbn in K. destruct (Ascii.eqb y ","); [discriminate|]. destruct (split_all "," s); discriminate.
  - intros i L. assert (L2 : i < length (first ++ [Start])) by exact L. rewrite app_length in L2. clear L. rename L2 into L. cbn [length] in L. destruct (Nat.lt_ge_cases i (length first)) as [M|M]; [apply A, M|]. replace i with (length first + 0) by (clear -M L; lia). rewrite Nat.add_assoc. apply B. cbn. lia.
Qed.

Theorem C124_activated c n ks : ks <> [] -> report_type c = joined (map name ks) -> (forall i, env (n + i) = Fine) -> exists t, activate env true c n = (t, Done, ks).
Proof.
  intros N R A. unfold activate. cbn [negb]. set (first := New _ _ :: _). pose proof (calls_stops env first n) as S1. destruct (calls env n first) as [t1 o1].
  destruct S1 as [(-> & -> & _)|(m & x & r & _ & _ & _ & B & _)]; [|rewrite A in B; congruence].
  assert (K : split_all "," (report_type c) = map name ks) by (rewrite R; apply split_joined; [destruct ks; [congruence|discriminate]|apply Forall_forall; intros y Y; apply in_map_iff in Y; destruct Y as (k & <- & _); apply name_plain]).
  rewrite K. rewrite (proj2 (kinds_of_inl (map name ks) ks) eq_refl). cbn [calls]. rewrite A. eauto.
Qed.

(** if it does not succeed then nothing is measured *)
Theorem C124_not_started found c n t o ks : activate env found c n = (t, o, ks) -> o <> Done -> In Start t -> exists r, o = Raised r /\ r <> Fine /\ exists t', t = t' ++ [Start] /\ r = env (n + length t').
Proof.
  unfold activate. destruct found; [|intros H; injection H as <- <- <-; intros _ []]. cbn [negb]. set (first := New _ _ :: _).
  assert (NS : ~ In Start first) by (unfold first; destruct (append c); cbn; intuition discriminate).
  pose proof (calls_stops env first n) as S1. destruct (calls env n first) as [t1 o1]. destruct S1 as [(-> & -> & A)|(m & x & r & E & -> & _ & _ & ->)].
  - destruct (kinds_of _) as [ks'|x]; [|intros H; injection H as <- <- <-; intros _ I; contradiction].
    cbn [calls]. destruct (env (n + length first)) eqn:E; intros H; injection H as <- <- <-; [congruence|..]; intros _ _; rewrite <- E; eexists; (split; [reflexivity|]); (split; [congruence|]); exists first; auto.
  - intros H. injection H as <- <- <-. intros _ I. exfalso. apply NS. rewrite E. apply in_or_app. apply in_app_or in I. destruct I as [I|[I|[]]]; [auto|right; left; exact I].
Qed.

(** an unknown report type *)
Theorem C124_unknown c n l x : l <> [] -> Forall (fun m => ~ In ","%char m) l -> report_type c = joined l -> In x l -> (forall k, x <> name k) -> (forall i, env (n + i) = Fine) ->
  exists t y, activate env true c n = (t, UnknownType y, []) /\ In y l /\ (forall k, y <> name k) /\ ~ In Start t.
Proof.
  intros N F R I X A. unfold activate. cbn [negb]. set (first := New _ _ :: _). pose proof (calls_stops env first n) as S1. destruct (calls env n first) as [t1 o1].
  destruct S1 as [(-> & -> & _)|(m & z & r & _ & _ & _ & B & _)]; [|rewrite A in B; congruence]. rewrite R, split_joined by assumption.
  assert (K : exists y, kinds_of l = inr y /\ In y l /\ forall k, y <> name k).
  { clear -I X. induction l as [|m l IH]; [destruct I|]. cbn [kinds_of]. destruct (kind_of m) as [k|] eqn:E.
    - destruct I as [->|I]; [apply kind_of_name in E; destruct (X k E)|]. destruct (IH I) as (y & -> & Y1 & Y2). exists y. repeat split; auto. right. exact Y1.
    - exists m. repeat split; [left; reflexivity|]. intros k ->. assert (kind_of (name k) = Some k) by (apply kind_of_name; reflexivity). congruence. }
  destruct K as (y & -> & Y1 & Y2). exists first, y. repeat split; auto. unfold first. destruct (append c); cbn; intuition discriminate.
Qed.

(** *** session_end *)

(** what is called for one report if nothing raises *)
Definition full (c : cfg) (k : kind) : list call := if is_parent c then [Combine; Report k] else [Report k].

(** a report that ends with "no data" in its message is given up, the others are made *)
Inductive made (c : cfg) : list kind -> nat -> list call -> outcome -> Prop :=
| M0 n : made c [] n [] Done
| MFull k ks n t o : (forall i, i < length (full c k) -> env (n + i) = Fine) -> made c ks (n + length (full c k)) t o -> made c (k :: ks) n (full c k ++ t) o
| MNoData k ks n a x b t o : full c k = a ++ x :: b -> (forall i, i < length a -> env (n + i) = Fine) -> env (n + length a) = NoData ->
    made c ks (n + S (length a)) t o -> made c (k :: ks) n (a ++ x :: t) o
| MRaise k ks n a x b r : full c k = a ++ x :: b -> (forall i, i < length a -> env (n + i) = Fine) -> env (n + length a) = r -> r <> Fine -> r <> NoData ->
    made c (k :: ks) n (a ++ [x]) (Raised r).

Lemma reports_made c ks : is_child c = false -> forall n, let (t, o) := reports env c ks n in made c ks n t o.
Proof.
  intros NC. induction ks as [|k ks IH]; intros n; cbn [reports]; [constructor|]. rewrite NC. fold (full c k).
  pose proof (calls_stops env (full c k) n) as S1. destruct (calls env n (full c k)) as [t o]. destruct S1 as [(-> & -> & A)|(m & x & r & E & -> & A & B & ->)].
  - specialize (IH (n + length (full c k))). destruct (reports env c ks _) as [t' o']. apply MFull; assumption.
  - destruct (env (n + length m)) eqn:Ev; [congruence|..].
    + rewrite app_length. cbn [length]. rewrite Nat.add_1_r. specialize (IH (n + S (length m))). destruct (reports env c ks _) as [t' o']. rewrite <- app_assoc. cbn [app].
      eapply MNoData; eauto.
    + eapply MRaise; eauto; discriminate.
    + eapply MRaise; eauto; discriminate.
Qed.

Lemma child_none c ks n : is_child c = true -> reports env c ks n = ([], Done).
Proof. intros C. revert n. induction ks as [|k ks IH]; intros n; [reflexivity|]. cbn [reports]. rewrite C. apply IH. Qed.

(** the data are saved before any report; a worker and a session without reports save and do nothing more *)
Theorem C124_saved c ks n t o : session_end env c ks n = (t, o) -> env n = Fine -> env (S n) = Fine ->
  exists t', t = Stop :: Save :: t' /\
  (worker_id c <> None \/ report c = false -> t' = [] /\ o = Done) /\ (worker_id c = None -> report c = true -> made c ks (S (S n)) t' o).
Proof.
  intros H E1 E2. unfold session_end in H. cbn [calls] in H. rewrite E1, E2 in H. cbn [length] in H. replace (n + 2) with (S (S n)) in H by lia. destruct (report c) eqn:R.
  - destruct (is_child c) eqn:C.
    + rewrite child_none in H by exact C. injection H as <- <-. eexists. split; [reflexivity|]. split; [auto|]. intros W. unfold is_child in C. rewrite W in C. discriminate.
    + pose proof (reports_made c ks C (S (S n))) as M. destruct (reports env c ks (S (S n))) as [t' o']. injection H as <- <-. exists t'. split; [reflexivity|]. split; [|auto].
      intros [W|W]; [|discriminate]. unfold is_child in C. destruct (worker_id c); [discriminate|congruence].
  - injection H as <- <-. eexists. split; [reflexivity|]. split; [auto|]. intros _ X. discriminate.
Qed.

(** if stopping or saving raises there is no report *)
Theorem C124_unsaved c ks n : env n <> Fine \/ env (S n) <> Fine -> exists t r, session_end env c ks n = (t, Raised r) /\ r <> Fine /\ (t = [Stop] \/ t = [Stop; Save]).
Proof.
  intros H. unfold session_end. cbn [calls]. destruct (env n) eqn:E1; [destruct (env (S n)) eqn:E2; [destruct H; congruence|..]|..]; eexists; eexists; (split; [reflexivity|]); (split; [discriminate|auto]).
Qed.

Lemma made_fine c ks n t o : made c ks n t o -> (forall i, env i = Fine) -> t = List.concat (map (full c) ks) /\ o = Done.
Proof.
  intros M A. induction M as [|? ? ? ? ? ? ? IH|? ? ? ? ? ? ? ? ? ? E|]; [auto| | |].
  - destruct IH as [-> ->]. auto.
  - rewrite A in E. discriminate.
  - rewrite A in *. subst. congruence.
Qed.

(** if nothing raises, the reports are made in the order of the names, in the parent of a parallel session each after combining *)
Theorem C124_all c ks n : (forall i, env i = Fine) -> worker_id c = None -> report c = true ->
  session_end env c ks n = ([Stop; Save] ++ List.concat (map (fun k => if Nat.eqb (num_workers c) 0 then [Report k] else [Combine; Report k]) ks), Done).
Proof.
  intros A W R. destruct (session_end env c ks n) as [t o] eqn:E. destruct (C124_saved c ks n t o E (A _) (A _)) as (t' & -> & _ & B). destruct (made_fine _ _ _ _ _ (B W R) A) as [-> ->].
  unfold full, is_parent. rewrite W. rewrite andb_true_r. cbn [app]. do 4 f_equal. apply map_ext. intros k. destruct (Nat.eqb (num_workers c) 0); reflexivity.
Qed.

(** messages about no data do not end the session with an exception, and each report is tried or was given up for combining *)
Theorem C124_no_data c ks n t o : (forall i, env i = Fine \/ env i = NoData) -> worker_id c = None -> session_end env c ks n = (t, o) -> env n = Fine -> env (S n) = Fine -> report c = true ->
  o = Done /\ (num_workers c = 0 -> t = [Stop; Save] ++ map Report ks).
Proof.
  intros A W H E1 E2 R. destruct (C124_saved c ks n t o H E1 E2) as (t' & -> & _ & B). specialize (B W R). assert (Q : o = Done /\ (num_workers c = 0 -> t' = map Report ks)).
  { clear -B A W. induction B as [|k ks m t o F B IH|k ks m a x b t o E F G B IH|k ks m a x b r E F G N1 N2]; [auto| | |].
    - destruct IH as [-> IH]. split; [reflexivity|]. intros Z. rewrite (IH Z). unfold full, is_parent. rewrite Z. reflexivity.
    - destruct IH as [-> IH]. split; [reflexivity|]. intros Z. rewrite (IH Z). unfold full, is_parent in E. rewrite Z in E. cbn in E. destruct a as [|y a]; [injection E as <- _; reflexivity|injection E as _ E; destruct a; discriminate].
    - destruct (A (m + length a)); congruence. }
  destruct Q as [-> Q]. split; [reflexivity|]. intros Z. rewrite (Q Z). reflexivity.
Qed.

(** any other exception ends the reports and is raised *)
Theorem C124_raised c ks n t r : session_end env c ks n = (t, Raised r) -> exists t' x, t = t' ++ [x] /\ env (n + length t') = r /\ r <> Fine /\ (r = NoData -> t' = [] \/ t' = [Stop]).
Proof.
  intros H. assert (D : (env n = Fine /\ env (S n) = Fine) \/ (env n <> Fine \/ env (S n) <> Fine)) by (destruct (env n), (env (S n)); auto; right; (left; discriminate) || (right; discriminate)).
  destruct D as [[E1 E2]|D].
  - destruct (C124_saved c ks n t _ H E1 E2) as (t' & -> & B1 & B2). destruct (worker_id c) as [w|] eqn:W; [destruct B1 as [_ B1]; [left; discriminate|discriminate]|].
    destruct (report c) eqn:R; [|destruct B1 as [_ B1]; [auto|discriminate]]. specialize (B2 eq_refl eq_refl). clear -B2.
    assert (Q : exists u x, t' = u ++ [x] /\ env (S (S n) + length u) = r /\ r <> Fine /\ r <> NoData).
    { remember (Raised r) as o eqn:O. revert O. induction B2 as [|k ks m t o F B IH|k ks m a x b t o E F G B IH|k ks m a x b r' E F G N1 N2]; intros O; [discriminate| | |].
      - destruct (IH O) as (u & x & -> & U1 & U2). exists (full c k ++ u), x. rewrite app_assoc, app_length. split; [reflexivity|]. rewrite Nat.add_assoc. auto.
      - destruct (IH O) as (u & y & -> & U1 & U2). exists (a ++ x :: u), y. rewrite <- app_assoc. split; [reflexivity|]. rewrite app_length. cbn [length]. replace (m + (length a + S (length u))) with (m + S (length a) + length u) by lia. auto.
      - injection O as ->. exists a, x. auto. }
    destruct Q as (u & x & -> & U1 & U2 & U3). exists (Stop :: Save :: u), x. split; [reflexivity|]. cbn [length]. replace (n + S (S (length u))) with (S (S n) + length u) by lia. repeat split; try assumption. congruence.
  - unfold session_end in H. cbn [calls] in H. destruct (env n) eqn:E1.
    + destruct (env (S n)) eqn:E2; [destruct D; congruence|..]; injection H as <- <-; exists [Stop], Save; cbn [length app]; rewrite Nat.add_1_r, E2; repeat split; try discriminate; auto.
    + injection H as <- <-; exists [], Stop; cbn [length app]; rewrite Nat.add_0_r, E1; repeat split; try discriminate; auto.
    + injection H as <- <-; exists [], Stop; cbn [length app]; rewrite Nat.add_0_r, E1; repeat split; try discriminate; auto.
    + injection H as <- <-; exists [], Stop; cbn [length app]; rewrite Nat.add_0_r, E1; repeat split; try discriminate; auto.
Qed.

End Proofs.

Print Assumptions C124_files.
Print Assumptions C124_activate.
Print Assumptions C124_activated.
Print Assumptions C124_not_started.
Print Assumptions C124_unknown.
Print Assumptions C124_saved.
Print Assumptions C124_unsaved.
Print Assumptions C124_all.
Print Assumptions C124_no_data.
Print Assumptions C124_raised.

(** ** What is not so *)

Definition ex_cfg (r : string) : cfg := mkCfg (lit r) true true [] 2 None.
Definition fine (n : nat) : reply := Fine.

(** the data of the workers are combined once: they are combined again for each report *)
Theorem C124_once_refuted : exists c ks t, session_end fine c ks 0 = (t, Done) /\ In (Report Html) t /\ In (Report Xml) t /\
  exists a b d, t = a ++ Combine :: b ++ Combine :: d.
Proof.
  exists (ex_cfg "html,xml"), [Html; Xml]. eexists. split; [reflexivity|]. split; [cbn; tauto|]. split; [cbn; tauto|].
  exists [Stop; Save], [Report Html], [Report Xml]. reflexivity.
Qed.

(** ... and a report is not made if combining a second time finds no data *)
Theorem C124_skipped_refuted : exists env c ks t0 t, activate env true c 0 = (t0, Done, ks) /\ session_end env c ks (length t0) = (t, Done) /\ In Xml ks /\ ~ In (Report Xml) t.
Proof.
  exists (fun n => if Nat.eqb n 7 then NoData else Fine), (ex_cfg "html,xml"), [Html; Xml]. eexists. eexists. split; [reflexivity|]. split; [reflexivity|]. split; [cbn; tauto|].
  cbn. intuition discriminate.
Qed.

(** a report type with a blank before it is not known *)
Theorem C124_blank_refuted : exists c, report_type c = lit "html, xml" /\ exists t, activate fine true c 0 = (t, UnknownType (lit " xml"), []).
Proof. exists (ex_cfg "html, xml"). split; [reflexivity|]. eexists. reflexivity. Qed.

Print Assumptions C124_once_refuted.
Print Assumptions C124_skipped_refuted.
Print Assumptions C124_blank_refuted.

(** ** Examples *)

Example ex_activate : activate fine true (ex_cfg "html,xml") 0 = ([New (lit ".coverage") None; Load; Start], Done, [Html; Xml]) /\
  report_type (ex_cfg "html,xml") = joined (map name [Html; Xml]).
Proof. split; reflexivity. Qed.

Example ex_worker : data_file (mkCfg (lit "xml") true false [lit "pkg"] 0 (Some (lit "3"))) = lit ".coverage.3" /\
  activate fine true (mkCfg (lit "xml") true false [lit "pkg"] 0 (Some (lit "3"))) 0 = ([New (lit ".coverage.3") (Some [lit "pkg"]); Start], Done, [Xml]) /\
  session_end fine (mkCfg (lit "xml") true false [] 0 (Some (lit "3"))) [Xml] 2 = ([Stop; Save], Done).
Proof. repeat split. Qed.

Example ex_start_raises : activate (fun n => if Nat.eqb n 2 then Coverage else Fine) true (ex_cfg "html") 0 = ([New (lit ".coverage") None; Load; Start], Raised Coverage, [Html]).
Proof. reflexivity. Qed.

Example ex_no_data : session_end (fun n => if Nat.eqb n 5 then NoData else Fine) (mkCfg (lit "html,xml") true false [] 0 None) [Html; Xml] 3 = ([Stop; Save; Report Html; Report Xml], Done).
Proof. reflexivity. Qed.

Example ex_raised : session_end (fun n => if Nat.eqb n 5 then Coverage else Fine) (mkCfg (lit "html,xml") true false [] 0 None) [Html; Xml] 3 = ([Stop; Save; Report Html], Raised Coverage).
Proof. reflexivity. Qed.

Example ex_unsaved : session_end (fun n => if Nat.eqb n 4 then Other else Fine) (ex_cfg "html") [Html] 3 = ([Stop; Save], Raised Other).
Proof. reflexivity. Qed.
