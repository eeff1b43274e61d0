(** C142: the verdict of a session, the console and the xunit report agree.

    The models of results are separate for the runner (Core.v, Results.v), the
    results sent by workers (Transfer.v, ParVerdict.v), the console (Summary.v) and
    xunit (XUnit.v): each keeps of slash/core/result.py:32-49 what it needs.  The
    relations below say that two of them describe the same result. *)

From Coq Require Import List Bool Arith Lia String.
From Verif Require Import Str Core Results Transfer ParVerdict Summary SummaryProps XUnit.
Import ListNotations.
Local Open Scope list_scope.

(** a result of the runner and one of the console; slash/core/result.py:32-49 *)
Record on_console (r : Core.result) (s : Summary.result) : Prop := {
  con_errors : List.length (Summary.errors s) = List.length (Core.r_errors r);
  con_failures : List.length (Summary.failures s) = List.length (Core.r_failures r);
  con_skips : List.length (Summary.skips s) = List.length (Core.r_skips r);
  con_started : Summary.started s = Core.r_started r;
  con_interrupted : Summary.interrupted s = Core.r_interrupted r }.

(** a result of the runner and one of the xunit plugin; slash/core/result.py:32-49 *)
Record in_xunit (r : Core.result) (x : XUnit.result) : Prop := {
  xun_errors : List.length (XUnit.r_errors x) = List.length (Core.r_errors r);
  xun_failures : List.length (XUnit.r_failures x) = List.length (Core.r_failures r);
  xun_skips : List.length (XUnit.r_skips x) = List.length (Core.r_skips r);
  xun_started : XUnit.r_started x = Core.r_started r }.

(** a result of the runner and one that is sent by a worker; slash/core/result.py:32-49 *)
Record as_sent (r : Core.result) (t : Transfer.result) : Prop := {
  sen_errors : map Transfer.e_fatal (Transfer.r_errors t) = map Core.n_fatal (Core.r_errors r);
  sen_failures : map Transfer.e_fatal (Transfer.r_failures t) = map Core.n_fatal (Core.r_failures r);
  sen_skips : List.length (Transfer.r_skips t) = List.length (Core.r_skips r);
  sen_started : Transfer.r_started t = Core.r_started r;
  sen_interrupted : Transfer.r_interrupted t = Core.r_interrupted r }.

(** the result at the server, by what is empty; slash/core/result.py:32-49 *)
Definition at_server (r : Core.result) : ParVerdict.res :=
  ParVerdict.mkRes (negb (Nat.eqb (List.length (Core.r_errors r)) 0)) (negb (Nat.eqb (List.length (Core.r_failures r)) 0))
    (negb (Nat.eqb (List.length (Core.r_skips r)) 0)) (Core.r_started r) (Core.r_interrupted r).

Lemma length_cases {A B} (a : list A) (b : list B) : List.length a = List.length b ->
  (a = [] /\ b = []) \/ (exists x l y k, a = x :: l /\ b = y :: k).
Proof. destruct a, b; cbn; intros H; try discriminate; [left; auto|right; eauto 6]. Qed.

Lemma map_length_eq {A B C} (f : A -> C) (g : B -> C) a b : map f a = map g b -> List.length a = List.length b.
Proof. intros H. rewrite <- (map_length f a), H, map_length. reflexivity. Qed.

Lemma existsb_map {A} (f : A -> bool) l : existsb f l = existsb (fun b => b) (map f l).
Proof. induction l as [|x l IH]; [reflexivity|]. cbn. rewrite IH. reflexivity. Qed.

(** ** One result: the same verdict for everybody who asks *)
Theorem C142_result r s t : on_console r s -> as_sent r t ->
  (forall skips, Transfer.is_success skips t = Core.is_success skips r) /\
  (forall skips, ParVerdict.success skips (at_server r) = Core.is_success skips r) /\
  Summary.is_success s = Core.is_success false r /\
  Transfer.has_fatal t = Core.has_fatal r.
Proof.
  intros [A B C D E] [A' B' C' D' E']. repeat split.
  - intros k. unfold Transfer.is_success, Core.is_success, Core.is_error, Core.is_failure, Core.is_skip. rewrite D', E'.
    destruct (length_cases _ _ (map_length_eq _ _ _ _ A')) as [[-> ->]|(? & ? & ? & ? & -> & ->)]; [|reflexivity].
    destruct (length_cases _ _ (map_length_eq _ _ _ _ B')) as [[-> ->]|(? & ? & ? & ? & -> & ->)]; [|reflexivity].
    destruct (length_cases _ _ C') as [[-> ->]|(? & ? & ? & ? & -> & ->)]; destruct (Core.r_interrupted r); reflexivity.
  - intros k. unfold ParVerdict.success, at_server, Core.is_success, Core.is_error, Core.is_failure, Core.is_skip. cbn.
    destruct (Core.r_errors r), (Core.r_failures r), (Core.r_skips r), (Core.r_interrupted r); reflexivity.
  - unfold Summary.is_success, Core.is_success, Core.is_error, Core.is_failure, Core.is_skip. rewrite D, E.
    destruct (length_cases _ _ A) as [[-> ->]|(? & ? & ? & ? & -> & ->)]; [|reflexivity].
    destruct (length_cases _ _ B) as [[-> ->]|(? & ? & ? & ? & -> & ->)]; [|reflexivity].
    destruct (length_cases _ _ C) as [[-> ->]|(? & ? & ? & ? & -> & ->)]; destruct (Core.r_interrupted r); reflexivity.
  - unfold Transfer.has_fatal, Core.has_fatal. rewrite !existsb_app, !(existsb_map Transfer.e_fatal), !(existsb_map Core.n_fatal), A', B'. reflexivity.
Qed.

Lemma filter_forall2 {A B} (P : A -> B -> Prop) f g a b :
  (forall x y, P x y -> f x = g y) -> Forall2 P a b -> List.length (filter f a) = List.length (filter g b).
Proof.
  intros H F. induction F as [|x y a b X F IH]; [reflexivity|]. cbn. rewrite (H x y X). destruct (g y); cbn; rewrite IH; reflexivity.
Qed.

Lemma forall2_length {A B} (P : A -> B -> Prop) a b : Forall2 P a b -> List.length a = List.length b.
Proof. induction 1; cbn; congruence. Qed.

Lemma in_xunit_flags r x : in_xunit r x ->
  Core.is_error r = XUnit.is_error x /\ Core.is_just_failure r = XUnit.is_just_failure x /\
  Results.is_run_and_skip r = XUnit.is_run_and_skip x.
Proof.
  intros [A B C D]. unfold Core.is_just_failure, Core.is_error, Core.is_failure, Core.is_skip, Results.is_run_and_skip, Core.is_skip,
    XUnit.is_just_failure, XUnit.is_error, XUnit.is_run_and_skip. rewrite D.
  destruct (length_cases _ _ A) as [[-> ->]|(? & ? & ? & ? & -> & ->)];
  destruct (length_cases _ _ B) as [[-> ->]|(? & ? & ? & ? & -> & ->)];
  destruct (length_cases _ _ C) as [[-> ->]|(? & ? & ? & ? & -> & ->)]; repeat split; reflexivity.
Qed.

(** ** The numbers of the xunit report are those of the results, so those of the
    last line of the console *)
Theorem C142_numbers R xs g :
  Forall2 in_xunit (map snd (sr_dict R)) xs -> in_xunit (sr_global R) g ->
  let d := XUnit.document xs g in
  a_tests d = get_num_results R /\ a_errors d = get_num_errors R /\ a_failures d = get_num_failures R /\ a_skipped d = get_num_skipped false R.
Proof.
  intros F G. cbn. assert (H : Forall2 in_xunit (iter_all_results R) (xs ++ [g])) by (apply Forall2_app; auto).
  unfold get_num_results, get_num_errors, get_num_failures, get_num_skipped, Results.count, XUnit.count. repeat split.
  - rewrite <- (forall2_length _ _ _ F). apply map_length.
  - symmetry. apply (filter_forall2 in_xunit); [|exact H]. intros x y X. apply in_xunit_flags, X.
  - symmetry. apply (filter_forall2 in_xunit); [|exact H]. intros x y X. apply in_xunit_flags, X.
  - symmetry. apply (filter_forall2 in_xunit); [|exact H]. intros x y X. apply in_xunit_flags, X.
Qed.

(** a piece of the summary that tells of an error *)
Definition of_trouble (p : piece) : bool :=
  match p with
  | Manual _ | ErrHeader _ _ _ | Custom _ | FrameSep | Location _ _ | Variables _ | Code _ _ | Final _ _ => true
  | _ => false
  end.

(** an element of the report that tells of an error *)
Definition is_trouble (c : child) : bool := match c with CError _ | CFailure _ => true | _ => false end.

Lemma success_clean k r : Core.is_success k r = true -> Core.r_errors r = [] /\ Core.r_failures r = [].
Proof.
  unfold Core.is_success, Core.is_error, Core.is_failure. destruct (Core.r_errors r), (Core.r_failures r); cbn; intros H; auto; discriminate.
Qed.

Lemma all_in l p : In p (fst (all l)) -> exists o, In o l /\ In p (fst o).
Proof.
  induction l as [|a l IH]; [intros []|]. cbn [all]. unfold andthen. destruct (snd a).
  - intros I. exists a. split; [left; reflexivity|exact I].
  - cbn [fst]. intros I. apply in_app_iff in I as [I|I]; [exists a; split; [left; reflexivity|exact I]|].
    destruct (IH I) as (o & O & P). exists o. split; [right; exact O|exact P].
Qed.

Lemma numbered_member {A} n (l : list A) x : In x (numbered n l) -> In (snd x) l.
Proof. revert n. induction l as [|y l IH]; intros n; [intros []|]. intros [<-|I]; [left; reflexivity|right; apply (IH (S n) I)]. Qed.

Lemma clean_console c ss ws : Forall (fun s => Summary.errors s = [] /\ Summary.failures s = []) ss ->
  Forall (fun p => of_trouble p = false) (fst (report_session_end c ss ws)).
Proof.
  intros F. rewrite Forall_forall in *. intros p I. unfold report_session_end in I. apply all_in in I as (o & O & I).
  destruct O as [<-|O].
  { unfold write_if, write in I. destruct (negb (allows c WARNING)); [destruct I as [<-|[]]; reflexivity|destruct I]. }
  apply in_app_iff in O as [O|O].
  - apply in_map_iff in O as ([i [n s]] & <- & O). apply numbered_member in O. cbn [snd] in O. unfold reported in O.
    apply filter_In in O as [O _]. apply numbered_member in O. cbn [snd] in O. destruct (F s O) as [E G].
    unfold report_test in I. apply all_in in I as (o & P & I). destruct P as [<-|[<-|[<-|P]]].
    + unfold write_if, write in I. destruct (Nat.eqb i 0); [destruct I as [<-|[]]; reflexivity|destruct I].
    + destruct I as [<-|[]]. reflexivity.
    + unfold report_details in I. destruct (Summary.is_success s); [destruct I|]. cbn [fst write] in I.
      destruct (details s ++ _) as [|kv l]; [destruct I|]. destruct I as [<-|I]; [reflexivity|].
      apply in_map_iff in I as (y & <- & _). reflexivity.
    + apply in_map_iff in P as (f & <- & P). unfold infos, has_errors in P. rewrite E, G, andb_false_r in P. cbn [app] in P.
      destruct (allows c INFO && has_skips s); [|destruct P]. destruct P as [<-|[]]. unfold report_skips in I.
      destruct (reasons (skips s)); [destruct I as [<-|[]]; reflexivity|destruct I].
  - destruct O as [<-|[<-|[]]].
    + destruct (allows c WARNING); [|destruct I]. unfold report_warnings in I. cbn [fst write] in I.
      destruct (by_key ws) as [|g d]; [destruct I|]. destruct I as [<-|I]; [reflexivity|].
      apply in_flat_map in I as (w & _ & I). destruct w; [destruct I|]. destruct I as [<-|[]]. reflexivity.
    + destruct I as [<-|[]]. reflexivity.
Qed.

Lemma forall2_in_r {A B} (P : A -> B -> Prop) a b y : Forall2 P a b -> In y b -> exists x, In x a /\ P x y.
Proof. induction 1 as [|x z a b X F IH]; [intros []|]. intros [<-|I]; [exists x; split; [left|]; auto|]. destruct (IH I) as (w & W & Q). exists w. split; [right|]; auto. Qed.

Lemma forall2_in_l {A B} (P : A -> B -> Prop) a b x : Forall2 P a b -> In x a -> exists y, In y b /\ P x y.
Proof. induction 1 as [|u z a b X F IH]; [intros []|]. intros [<-|I]; [exists z; split; [left|]; auto|]. destruct (IH I) as (w & W & Q). exists w. split; [right|]; auto. Qed.

(** ** A session that is a success shows no error: not in the xunit report, not in
    the summary of the console, whatever its settings *)
Theorem C142_success R xs g ss c ws skips :
  Forall2 in_xunit (map snd (sr_dict R)) xs -> in_xunit (sr_global R) g -> Forall2 on_console (map snd (sr_dict R)) ss ->
  results_success skips R = true ->
  let d := XUnit.document xs g in
  a_errors d = 0 /\ a_failures d = 0 /\ s_errors d = [] /\
  Forall (fun k => Forall (fun e => is_trouble e = false) (t_children k)) (s_cases d) /\
  Forall (fun p => of_trouble p = false) (fst (report_session_end c ss ws)).
Proof.
  intros X G S Q. unfold results_success in Q. destruct (Core.is_success skips (sr_global R)) eqn:E; [|discriminate]. cbn in Q.
  destruct (sr_children R && sr_worker_error R); [discriminate|]. rewrite forallb_forall in Q.
  assert (K : forall x, In x (map snd (sr_dict R)) -> Core.r_errors x = [] /\ Core.r_failures x = []).
  { intros x I. apply (success_clean skips), Q. exact I. }
  assert (XK : forall x, In x (xs ++ [g]) -> XUnit.r_errors x = [] /\ XUnit.r_failures x = []).
  { intros x I. assert (exists r, (Core.r_errors r = [] /\ Core.r_failures r = []) /\ in_xunit r x) as (r & [A B] & [A' B' _ _]).
    - apply in_app_iff in I as [I|[<-|[]]].
      + destruct (forall2_in_r _ _ _ _ X I) as (r & I' & P). exists r. auto.
      + exists (sr_global R). split; [apply (success_clean skips), E|exact G].
    - rewrite A in A'. rewrite B in B'. destruct (XUnit.r_errors x), (XUnit.r_failures x); try discriminate; auto. }
  assert (N : forall f, (forall x, In x (xs ++ [g]) -> f x = false) -> XUnit.count f (xs ++ [g]) = 0).
  { intros f. unfold XUnit.count. induction (xs ++ [g]) as [|x l IH]; intros H; [reflexivity|]. cbn. rewrite (H x (or_introl eq_refl)).
    apply IH; [|intros y J; apply H; right; exact J]. intros y J. apply XK. right. exact J. }
  cbn. repeat split.
  - apply N. intros x I. unfold XUnit.is_error. rewrite (proj1 (XK x I)). reflexivity.
  - apply N. intros x I. unfold XUnit.is_just_failure. rewrite (proj2 (XK x I)). reflexivity.
  - unfold error_children. destruct (XK g) as [-> ->]; [apply in_app_iff; right; left; reflexivity|]. reflexivity.
  - apply Forall_forall. intros k I. apply in_map_iff in I as (x & <- & I). apply filter_In in I as [I _].
    apply Forall_forall. intros e J. cbn [case_of t_children] in J. unfold error_children in J.
    destruct (XK x) as [A B]; [apply in_app_iff; left; exact I|]. rewrite A, B in J. cbn [app map] in J.
    apply in_app_iff in J as [J|J].
    + apply in_map_iff in J as (s & <- & _). destruct s; reflexivity.
    + apply in_flat_map in J as (dd & _ & J). apply in_map_iff in J as (v & <- & _). destruct v; reflexivity.
  - apply clean_console. apply Forall_forall. intros s I. destruct (forall2_in_r _ _ _ _ S I) as (r & I' & [A B _ _ _]).
    destruct (K r I') as [A' B']. rewrite A' in A. rewrite B' in B. destruct (Summary.errors s), (Summary.failures s); try discriminate; auto.
Qed.

(** ** A session that is no success counts errors or failures in the report and, for
    errors of tests, has a section of the summary; if no test was interrupted or left
    unrun and no worker reported an error of its own *)
Theorem C142_failure R xs g ss c ws :
  Forall2 in_xunit (map snd (sr_dict R)) xs -> in_xunit (sr_global R) g -> Forall2 on_console (map snd (sr_dict R)) ss ->
  results_success true R = false ->
  (forall r, In r (sr_global R :: map snd (sr_dict R)) -> Core.r_interrupted r = false /\ (Core.r_started r = true \/ Core.r_skips r <> [])) ->
  (sr_children R = false \/ sr_worker_error R = false) ->
  let d := XUnit.document xs g in
  1 <= a_errors d + a_failures d /\
  (s_errors d = [] -> level c <= 14 -> snd (report_session_end c ss ws) = None ->
   headers (fst (report_session_end c ss ws)) <> []).
Proof.
  intros X G S Q RAN W.
  assert (E : exists r, In r (sr_global R :: map snd (sr_dict R)) /\ (Core.r_errors r <> [] \/ Core.r_failures r <> [])).
  { assert (T : forall r, In r (sr_global R :: map snd (sr_dict R)) -> Core.is_success true r = false -> Core.r_errors r <> [] \/ Core.r_failures r <> []).
    { intros r I. destruct (RAN r I) as [A B]. unfold Core.is_success, Core.is_error, Core.is_failure, Core.is_skip. rewrite A.
      destruct (Core.r_errors r); [|left; discriminate]. destruct (Core.r_failures r); [|right; discriminate]. cbn.
      destruct (Core.r_skips r); [|discriminate]. cbn. destruct B as [->|B]; [discriminate|congruence]. }
    unfold results_success in Q. destruct (Core.is_success true (sr_global R)) eqn:E.
    - cbn [negb] in Q. replace (sr_children R && sr_worker_error R) with false in Q by (destruct W as [->| ->]; [|rewrite andb_false_r]; reflexivity).
      unfold iter_test_results in Q.
      assert (exists r, In r (map snd (sr_dict R)) /\ Core.is_success true r = false) as (r & I & Z).
      { clear - Q. induction (map snd (sr_dict R)) as [|x l IH]; [discriminate|]. cbn in Q. destruct (Core.is_success true x) eqn:K.
        - destruct (IH Q) as (r & I & Z). exists r. split; [right|]; auto.
        - exists x. split; [left; reflexivity|exact K]. }
      exists r. split; [right; exact I|apply T; [right; exact I|exact Z]].
    - exists (sr_global R). split; [left; reflexivity|apply T; [left; reflexivity|exact E]]. }
  destruct (C142_numbers R xs g X G) as (_ & NE & NF & _). cbn in NE, NF.
  assert (POS : forall f (l : list Core.result) r, In r l -> f r = true -> 1 <= List.length (filter f l)).
  { intros f l r I H. assert (J : In r (filter f l)) by (apply filter_In; auto). destruct (filter f l); [destruct J|cbn; lia]. }
  destruct E as (r & I & T). split.
  - cbn. rewrite NE, NF. unfold get_num_errors, get_num_failures, Results.count.
    assert (J : In r (iter_all_results R)) by (apply in_app_iff; destruct I as [<-|I]; [right; left; reflexivity|left; exact I]).
    destruct (Core.is_error r) eqn:Z.
    + pose proof (POS Core.is_error _ _ J Z). lia.
    + assert (Z' : Core.is_just_failure r = true).
      { unfold Core.is_just_failure. rewrite Z. unfold Core.is_error in Z. unfold Core.is_failure. destruct (Core.r_errors r); [|discriminate].
        destruct T as [T|T]; [congruence|]. destruct (Core.r_failures r); [congruence|reflexivity]. }
      pose proof (POS Core.is_just_failure _ _ J Z'). lia.
  - intros SE L NX. rewrite (C98_headers c ss ws NX). destruct I as [<-|I].
    + exfalso. cbn in SE. unfold error_children in SE. destruct G as [A B _ _].
      destruct (XUnit.r_errors g), (XUnit.r_failures g); cbn in SE; try discriminate.
      cbn in A, B. destruct (Core.r_errors (sr_global R)), (Core.r_failures (sr_global R)); try discriminate. destruct T; congruence.
    + destruct (forall2_in_l _ _ _ _ S I) as (s & I' & [A B _ _ _]).
      assert (BEL : belongs c s = true).
      { unfold belongs. replace (level c <=? 14) with true by (symmetry; apply Nat.leb_le; exact L).
        replace (Nat.eqb (List.length (Summary.errors s) + List.length (Summary.failures s)) 0) with false; [reflexivity|].
        symmetry. apply Nat.eqb_neq. rewrite A, B. destruct T as [T|T]; [destruct (Core.r_errors r)|destruct (Core.r_failures r)]; try congruence; cbn; lia. }
      apply In_nth_error in I' as (i & I'). pose proof (numbered_nth 1 ss i s I') as J.
      assert (J' : In (1 + i, s) (filter (fun x => belongs c (snd x)) (numbered 1 ss))) by (apply filter_In; auto).
      destruct (filter (fun x => belongs c (snd x)) (numbered 1 ss)); [destruct J'|discriminate].
Qed.

(** ** Not every failing session shows an error *)

(** a passing test, for the console and for the report *)
Definition passed := Core.mkResult [] [] [] true true false.
Definition passed_x i := XUnit.mkRes i true [] [] [] [].
Definition passed_s := Summary.mkResult (lit "t.py:a") [] [] [] true false [] None.

(** the session failed, but the report has no error and the console, as verbose as it
    can be, no section: an interrupted test, a test that was not run, a worker's error *)
Theorem C142_failure_refuted :
  (exists R xs g ss, Forall2 in_xunit (map snd (sr_dict R)) xs /\ in_xunit (sr_global R) g /\ Forall2 on_console (map snd (sr_dict R)) ss /\
     results_success true R = false /\ (forall r, In r (map snd (sr_dict R)) -> Core.r_started r = true) /\ sr_children R = false /\
     a_errors (XUnit.document xs g) + a_failures (XUnit.document xs g) = 0 /\
     headers (fst (report_session_end (mkConf 0 4 true) ss [])) = []) /\
  (exists R xs g ss, Forall2 in_xunit (map snd (sr_dict R)) xs /\ in_xunit (sr_global R) g /\ Forall2 on_console (map snd (sr_dict R)) ss /\
     results_success true R = false /\ (forall r, In r (sr_global R :: map snd (sr_dict R)) -> Core.r_interrupted r = false) /\ sr_children R = false /\
     a_errors (XUnit.document xs g) + a_failures (XUnit.document xs g) = 0 /\
     headers (fst (report_session_end (mkConf 0 4 true) ss [])) = []) /\
  (exists R xs g ss, Forall2 in_xunit (map snd (sr_dict R)) xs /\ in_xunit (sr_global R) g /\ Forall2 on_console (map snd (sr_dict R)) ss /\
     results_success true R = false /\ (forall r, In r (sr_global R :: map snd (sr_dict R)) -> Core.is_success false r = true) /\
     a_errors (XUnit.document xs g) + a_failures (XUnit.document xs g) = 0 /\
     headers (fst (report_session_end (mkConf 0 4 true) ss [])) = []).
Proof.
  split; [|split].
  - exists (mkResults [(1, Core.mkResult [] [] [] true true true)] passed false false), [passed_x 1], (passed_x 0),
      [Summary.mkResult (lit "t.py:a") [] [] [] true true [] None].
    repeat split; try reflexivity; repeat constructor. intros r [<-|[]]. reflexivity.
  - exists (mkResults [(1, Core.result0)] passed false false), [XUnit.mkRes 1 false [] [] [] []], (passed_x 0),
      [Summary.mkResult (lit "t.py:a") [] [] [] false false [] None].
    repeat split; try reflexivity; repeat constructor. intros r [<-|[<-|[]]]; reflexivity.
  - exists (mkResults [(1, passed)] passed true true), [passed_x 1], (passed_x 0), [passed_s].
    repeat split; try reflexivity; repeat constructor. intros r [<-|[<-|[]]]; reflexivity.
Qed.

(** an error outside of the tests is counted but has no section in the summary *)
Theorem C142_global_refuted : exists R xs g ss, Forall2 in_xunit (map snd (sr_dict R)) xs /\ in_xunit (sr_global R) g /\
  Forall2 on_console (map snd (sr_dict R)) ss /\ results_success true R = false /\ get_num_errors R = 1 /\
  s_errors (XUnit.document xs g) = [CError 7] /\
  fst (report_session_end (mkConf 0 4 true) ss []) = [Ended].
Proof.
  exists (mkResults [(1, passed)] (Core.mkResult [Core.mkEntry None false] [] [] true true false) false false), [passed_x 1],
    (XUnit.mkRes 0 true [XUnit.mkErr 7 false] [] [] []), [passed_s].
  repeat split; try reflexivity; repeat constructor.
Qed.

(** ** The hypotheses are met: a failed and a skipped test *)

Definition ex_err := Summary.mkErr (lit "boom") true false [].

Example C142_ex_relations :
  on_console (Core.mkResult [Core.mkEntry None true] [] [] true true false) (Summary.mkResult (lit "t.py:b") [ex_err] [] [] true false [] None) /\
  as_sent (Core.mkResult [Core.mkEntry None true] [] [] true true false)
    (Transfer.mkRes 1 2 [Transfer.mkErr 3 false true] [] [] true true false []).
Proof. split; constructor; reflexivity. Qed.

Example C142_ex_failure :
  let R := mkResults [(1, passed); (2, Core.mkResult [Core.mkEntry None true] [] [] true true false)] passed false false in
  let xs := [passed_x 1; XUnit.mkRes 2 true [XUnit.mkErr 3 false] [] [] []] in
  let ss := [passed_s; Summary.mkResult (lit "t.py:b") [ex_err] [] [] true false [] None] in
  Forall2 in_xunit (map snd (sr_dict R)) xs /\ in_xunit (sr_global R) (passed_x 0) /\ Forall2 on_console (map snd (sr_dict R)) ss /\
  results_success true R = false /\
  (forall r, In r (sr_global R :: map snd (sr_dict R)) -> Core.r_interrupted r = false /\ (Core.r_started r = true \/ Core.r_skips r <> [])) /\
  a_errors (XUnit.document xs (passed_x 0)) = 1 /\
  headers (fst (report_session_end (mkConf 14 2 true) ss [])) = [(2, lit "t.py:b")].
Proof.
  repeat split; try reflexivity; repeat constructor; destruct H as [<-|[<-|[<-|[]]]]; cbn; auto.
Qed.

Example C142_ex_success :
  let R := mkResults [(1, passed); (2, Core.mkResult [] [] [Core.mkEntry None false] false true false)] passed false false in
  Forall2 in_xunit (map snd (sr_dict R)) [passed_x 1; XUnit.mkRes 2 false [] [] [RNone] []] /\
  Forall2 on_console (map snd (sr_dict R)) [passed_s; Summary.mkResult (lit "t.py:b") [] [] [NoReason] false false [] None] /\
  results_success true R = true /\ results_success false R = false.
Proof. repeat split; repeat constructor. Qed.

Print Assumptions C142_result.
Print Assumptions C142_numbers.
Print Assumptions C142_success.
Print Assumptions C142_failure.
Print Assumptions C142_failure_refuted.
Print Assumptions C142_global_refuted.
