(** C98: the summary of the console tells every error, skip and warning. *)

From Coq Require Import List Bool Arith Ascii String Lia.
From Verif Require Import Str Summary.
Import ListNotations.
Local Open Scope list_scope.

(** ** Pieces one after the other *)

Lemma all_none l : snd (all l) = None -> Forall (fun o => snd o = None) l /\ fst (all l) = List.concat (map fst l).
Proof.
  induction l as [|a l IH]; [intros _; split; [constructor|reflexivity]|]. cbn [all map List.concat]. unfold andthen. intros H.
  destruct (snd a) as [x|] eqn:E; [rewrite E in H; discriminate|]. cbn [fst snd] in *. destruct (IH H) as [F G].
  split; [constructor; assumption|rewrite G; reflexivity].
Qed.

Lemma all_quiet l : Forall (fun o => snd o = None) l -> snd (all l) = None.
Proof.
  induction 1 as [|a l E F IH]; [reflexivity|]. cbn [all]. unfold andthen. rewrite E. exact IH.
Qed.

Lemma numbered_app {A} n (a b : list A) : numbered n (a ++ b) = numbered n a ++ numbered (n + List.length a) b.
Proof.
  revert n. induction a as [|x a IH]; intros n; cbn [app numbered List.length]; [rewrite Nat.add_0_r; reflexivity|].
  rewrite IH, Nat.add_succ_r. reflexivity.
Qed.

Lemma numbered_nth {A} n (l : list A) i x : nth_error l i = Some x -> In (n + i, x) (numbered n l).
Proof.
  revert n i. induction l as [|y l IH]; intros n [|i] H; cbn [nth_error numbered] in *; try discriminate.
  - injection H as ->. rewrite Nat.add_0_r. left. reflexivity.
  - right. rewrite Nat.add_succ_r. apply (IH (S n)). exact H.
Qed.

Lemma numbered_in {A} n (l : list A) i x : In (i, x) (numbered n l) -> n <= i /\ nth_error l (i - n) = Some x.
Proof.
  revert n. induction l as [|y l IH]; intros n H; [destruct H|]. destruct H as [H|H].
  - injection H as <- <-. rewrite Nat.sub_diag. split; [lia|reflexivity].
  - apply IH in H as [H1 H2]. split; [lia|]. replace (i - n) with (S (i - S n)) by lia. exact H2.
Qed.

Lemma flagged'_split {A} b (l : list A) x : flagged' b (l ++ [x]) =
  map (fun y => (snd y, fst y, false)) (combine (b :: repeat false (List.length l)) l) ++ [(x, match l with [] => b | _ => false end, true)].
Proof.
  revert b. induction l as [|y l IH]; intros b; [reflexivity|]. cbn [app flagged' List.length combine repeat map fst snd].
  rewrite IH. destruct l as [|z l]; reflexivity.
Qed.

(** ** What is told of an error *)

(** a piece that shows a message *)
Definition shows (m : str) (p : piece) : Prop := p = Manual m \/ p = Custom m \/ exists k, p = Final k m.

(** the errors and then the failures of a test *)
Definition troubles (r : result) : list (bool * err) := map (pair false) (errors r) ++ map (pair true) (failures r).

(** a section of the summary has something of a test but no header *)
Definition headless (l : list piece) : Prop := forall p, In p l -> (forall n a, p <> Header n a) /\ p <> Ended /\ (forall n, p <> WarnTitle n).

Lemma headless_app a b : headless a -> headless b -> headless (a ++ b).
Proof. intros A B p I. apply in_app_iff in I as [I|I]; [apply A|apply B]; exact I. Qed.

Lemma headless_flat {A} (f : A -> list piece) l : (forall x, In x l -> headless (f x)) -> headless (flat_map f l).
Proof. intros H p I. apply in_flat_map in I as (x & I & J). apply (H x I p J). Qed.

Lemma headless_code f b : headless (write_frame_code f b).
Proof.
  intros p I. unfold write_frame_code in I. apply in_map_iff in I as (x & <- & _). repeat split; intros; discriminate.
Qed.

Ltac hl := intros p I; repeat (destruct I as [<-|I]; [repeat split; intros; discriminate|]); destruct I.

Lemma headless_frame c k e x : headless (write_frame c k e x).
Proof.
  destruct x as [[f b] l]. unfold write_frame.
  apply headless_app; [destruct (4 <=? tb c), b; hl|].
  apply headless_app; [hl|].
  apply headless_app; [destruct (4 <=? tb c); hl|].
  apply headless_app; [apply headless_code|]. destruct l; hl.
Qed.

Lemma headless_traceback c k e : headless (fst (report_traceback c k e)).
Proof.
  unfold report_traceback. destruct (match tb c with 0 => Some [] | 1 => _ | _ => _ end); [|hl].
  cbn [fst write]. apply headless_flat. intros x _. apply headless_frame.
Qed.

Lemma headless_error c n i x : headless (fst (report_error c n i x)).
Proof.
  destruct x as [k e]. unfold report_error. destruct (negb (of_exception e) && negb (manual_tb c)); [hl|].
  unfold andthen, write. cbn [fst snd]. apply headless_app; [|apply headless_traceback]. destruct (custom e); hl.
Qed.

Lemma headless_all l : (forall o, In o l -> headless (fst o)) -> headless (fst (all l)).
Proof.
  induction l as [|a l IH]; intros H; [hl|]. cbn [all]. unfold andthen. destruct (snd a); [apply H; left; reflexivity|].
  cbn [fst]. apply headless_app; [apply H; left; reflexivity|]. apply IH. intros o I. apply H. right. exact I.
Qed.

Lemma headless_errors c r : headless (fst (report_errors c r)).
Proof. apply headless_all. intros o I. apply in_map_iff in I as (x & <- & _). apply headless_error. Qed.

Lemma headless_skips r : headless (fst (report_skips r)).
Proof. unfold report_skips. destruct (reasons (skips r)); hl. Qed.

Lemma headless_details r : headless (fst (report_details r)).
Proof.
  unfold report_details. destruct (is_success r); [hl|]. destruct (details r ++ _) as [|x l]; [hl|]. cbn [fst write].
  intros p [<-|I]; [repeat split; intros; discriminate|]. apply in_map_iff in I as (y & <- & _). repeat split; intros; discriminate.
Qed.

Lemma traceback_shows c k e : snd (report_traceback c k e) = None -> 1 <= tb c -> frames e <> [] ->
  In (Final k (message e)) (fst (report_traceback c k e)).
Proof.
  intros Q T F. unfold report_traceback in *.
  assert (G : forall l x, In (Final k (message e)) (flat_map (write_frame c k e) (flagged (l ++ [x])))).
  { intros l x. unfold flagged. rewrite flagged'_split, flat_map_app. apply in_app_iff. right. cbn [flat_map]. rewrite app_nil_r.
    unfold write_frame. repeat (apply in_app_iff; right). left. reflexivity. }
  destruct (exists_last F) as (l & x & E). destruct (tb c) as [|[|n]]; [lia| |].
  - rewrite E, rev_app_distr in *. cbn [rev app fst write]. apply (G [] x).
  - cbn [fst write]. rewrite E. apply G.
Qed.

(** The errors and failures of a test are told one by one, numbered: the [i]-th of
    them with its number, the count and its kind, and its message, if there is a
    traceback to show or the message was given by the user.  Errors added by the
    user are told by the message alone if show_manual_errors_tb is not set. *)
Definition told (c : conf) (r : result) (l : list piece) : Prop :=
  forall i k e, nth_error (troubles r) i = Some (k, e) ->
    (of_exception e = true \/ manual_tb c = true -> In (ErrHeader (i + 1) (List.length (errors r) + List.length (failures r)) k) l) /\
    (of_exception e = false /\ manual_tb c = false \/ custom e = true \/ (1 <= tb c /\ frames e <> []) -> exists p, In p l /\ shows (message e) p).

Lemma errors_told c r : snd (report_errors c r) = None -> told c r (fst (report_errors c r)).
Proof.
  intros Q i k e N. unfold report_errors in *. fold (troubles r) in *. destruct (all_none _ Q) as [F ->].
  assert (L : List.length (troubles r) = List.length (errors r) + List.length (failures r)) by (unfold troubles; rewrite app_length, !map_length; reflexivity).
  pose proof (numbered_nth 0 _ _ _ N) as I. cbn [Nat.add] in I.
  set (o := report_error c (List.length (troubles r)) i (k, e)).
  assert (J : In o (map (fun x => report_error c (List.length (troubles r)) (fst x) (snd x)) (numbered 0 (troubles r)))).
  { apply in_map_iff. exists (i, (k, e)). split; [reflexivity|exact I]. }
  assert (K : forall p, In p (fst o) -> In p (List.concat (map fst (map (fun x => report_error c (List.length (troubles r)) (fst x) (snd x)) (numbered 0 (troubles r)))))).
  { intros p P. apply in_concat. exists (fst o). split; [apply in_map; exact J|exact P]. }
  rewrite Forall_forall in F. specialize (F o J). subst o. unfold report_error in *. rewrite <- L. split.
  - intros H. apply K. replace (negb (of_exception e) && negb (manual_tb c)) with false; [|destruct H as [-> | ->]; destruct (of_exception e); reflexivity].
    unfold andthen, write. cbn [fst snd]. left. reflexivity.
  - intros H. destruct (negb (of_exception e) && negb (manual_tb c)) eqn:M.
    + exists (Manual (message e)). split; [apply K; left; reflexivity|left; reflexivity].
    + destruct H as [[A B]|[C|[T G]]].
      * rewrite A, B in M. discriminate.
      * exists (Custom (message e)). split; [|right; left; reflexivity]. apply K. unfold andthen, write. cbn [fst snd]. rewrite C. right. left. reflexivity.
      * exists (Final k (message e)). split; [|right; right; exists k; reflexivity]. apply K. unfold andthen, write in *. cbn [fst snd] in *.
        apply in_app_iff. right. apply traceback_shows; assumption.
Qed.

(** ** The tests of the summary *)

(** a test that belongs in the summary: with errors or failures, or, if the reporter
    is verbose enough, with skips *)
Definition belongs (c : conf) (r : result) : bool :=
  (level c <=? 14) && negb (Nat.eqb (List.length (errors r) + List.length (failures r)) 0) ||
  (level c <=? 11) && negb (Nat.eqb (List.length (skips r)) 0).

Lemma belongs_spec c r : match infos c r with [] => false | _ => true end = belongs c r.
Proof.
  unfold infos, belongs, allows, has_errors, has_skips, ERROR, INFO.
  destruct (level c <=? 14), (level c <=? 11), (errors r), (failures r), (skips r); reflexivity.
Qed.

(** the headers in what is written *)
Definition headers (l : list piece) : list (nat * str) := flat_map (fun p => match p with Header n a => [(n, a)] | _ => [] end) l.

Lemma headers_headless l : headless l -> headers l = [].
Proof.
  induction l as [|p l IH]; intros H; [reflexivity|]. unfold headers. cbn [flat_map]. fold (headers l).
  rewrite IH by (intros q I; apply H; right; exact I). destruct (H p (or_introl eq_refl)) as [N _].
  destruct p; try reflexivity. exfalso. eapply N. reflexivity.
Qed.

Lemma headers_app a b : headers (a ++ b) = headers a ++ headers b.
Proof. apply flat_map_app. Qed.

(** what is written of a test, after its header *)
Definition section (c : conf) (r : result) : out := all (report_details r :: map (fun f => f r) (infos c r)).

Lemma headless_section c r : headless (fst (section c r)).
Proof.
  apply headless_all. intros o [<-|I]; [apply headless_details|]. apply in_map_iff in I as (f & <- & I). unfold infos in I.
  apply in_app_iff in I as [I|I].
  - destruct (allows c ERROR && has_errors r); [|destruct I]. destruct I as [<-|[]]. apply headless_errors.
  - destruct (allows c INFO && has_skips r); [|destruct I]. destruct I as [<-|[]]. apply headless_skips.
Qed.

Lemma titleless_all l : (forall o, In o l -> ~ In Title (fst o)) -> ~ In Title (fst (all l)).
Proof.
  induction l as [|a l IH]; intros H; [intros []|]. cbn [all]. unfold andthen. destruct (snd a); [apply H; left; reflexivity|].
  cbn [fst]. intros I. apply in_app_iff in I as [I|I]; [apply (H a (or_introl eq_refl) I)|]. revert I. apply IH. intros o I. apply H. right. exact I.
Qed.

Lemma titleless_section c r : ~ In Title (fst (section c r)).
Proof.
  apply titleless_all. intros o [<-|I].
  - unfold report_details. destruct (is_success r); [intros []|]. destruct (details r ++ _); [intros []|]. cbn [fst write].
    intros [I|I]; [discriminate|]. apply in_map_iff in I as (x & X & _). discriminate.
  - apply in_map_iff in I as (f & <- & I). unfold infos in I. apply in_app_iff in I as [I|I].
    + destruct (allows c ERROR && has_errors r); [|destruct I]. destruct I as [<-|[]]. apply titleless_all.
      intros o I. apply in_map_iff in I as ([j [k e]] & <- & _). cbn [fst snd]. unfold report_error.
      destruct (negb (of_exception e) && negb (manual_tb c)); [intros [I|[]]; discriminate|]. unfold andthen, write. cbn [fst snd].
      intros I. apply in_app_iff in I as [I|I].
      * destruct (custom e); repeat (destruct I as [I|I]; [discriminate|]); destruct I.
      * unfold report_traceback in I. destruct (match tb c with 0 => Some [] | 1 => _ | _ => _ end) as [fs|]; [|destruct I].
        cbn [fst write] in I. apply in_flat_map in I as ([[g b] l] & _ & I). unfold write_frame in I.
        repeat (apply in_app_iff in I as [I|I]).
        -- destruct (4 <=? tb c), b; repeat (destruct I as [I|I]; [discriminate|]); destruct I.
        -- destruct I as [I|[]]; discriminate.
        -- destruct (4 <=? tb c); repeat (destruct I as [I|I]; [discriminate|]); destruct I.
        -- unfold write_frame_code in I. apply in_map_iff in I as (y & Y & _). discriminate.
        -- destruct l; repeat (destruct I as [I|I]; [discriminate|]); destruct I.
    + destruct (allows c INFO && has_skips r); [|destruct I]. destruct I as [<-|[]]. unfold report_skips.
      destruct (reasons (skips r)); [intros [I|[]]; discriminate|intros []].
Qed.

Lemma report_test_eq c i n r : report_test c (i, (n, r)) =
  ((if Nat.eqb i 0 then [Title] else []) ++ Header (n + 1) (address r) :: fst (section c r), snd (section c r)).
Proof.
  unfold report_test, section. cbn [all]. unfold write_if, write. unfold andthen at 1 2. cbn [fst snd]. destruct (Nat.eqb i 0); reflexivity.
Qed.

Lemma session_pieces c rs ws : snd (report_session_end c rs ws) = None ->
  Forall (fun x => snd (report_test c x) = None) (numbered 0 (reported c rs)) /\
  fst (report_session_end c rs ws) =
    (if negb (allows c WARNING) then [Newline] else []) ++
    flat_map (fun x => fst (report_test c x)) (numbered 0 (reported c rs)) ++
    (if allows c WARNING then fst (report_warnings ws) else []) ++ [Ended].
Proof.
  unfold report_session_end. intros Q. destruct (all_none _ Q) as [F ->]. inversion F as [|? ? _ F' E]; subst.
  apply Forall_app in F' as [F1 _]. split.
  - rewrite Forall_forall in *. intros x I. apply F1. apply in_map. exact I.
  - cbn [map List.concat]. rewrite map_app, List.concat_app, map_map, <- flat_map_concat_map. cbn [map List.concat].
    destruct (allows c WARNING); reflexivity.
Qed.

(** The headers are those of the tests that belong, in the order of the tests and
    with their numbers. *)
Theorem C98_headers c rs ws : snd (report_session_end c rs ws) = None ->
  headers (fst (report_session_end c rs ws)) =
  map (fun x => (fst x, address (snd x))) (filter (fun x => belongs c (snd x)) (numbered 1 rs)).
Proof.
  intros Q. destruct (session_pieces c rs ws Q) as [_ ->]. do 2 rewrite headers_app.
  assert (W : headers ((if allows c WARNING then fst (report_warnings ws) else []) ++ [Ended]) = []).
  { rewrite headers_app. cbn [headers flat_map app]. rewrite app_nil_r. destruct (allows c WARNING); [|reflexivity].
    unfold report_warnings, write. cbn [fst]. destruct (by_key ws) as [|g d]; [reflexivity|]. unfold headers. cbn [flat_map].
    set (f := fun g : list warning => _). change (flat_map (fun p => match p with Header n a => [(n, a)] | _ => [] end) (flat_map f (g :: d)) = []).
    induction (g :: d) as [|x l IH]; [reflexivity|]. cbn [flat_map]. rewrite flat_map_app, IH. destruct x; reflexivity. }
  rewrite W, app_nil_r. replace (headers (if negb (allows c WARNING) then [Newline] else [])) with (@nil (nat * str)) by (destruct (allows c WARNING); reflexivity).
  cbn [app].
  assert (G : forall l k, headers (flat_map (fun x => fst (report_test c x)) (numbered k l)) = map (fun x => (fst x + 1, address (snd x))) l).
  { induction l as [|[n r] l IH]; intros k; [reflexivity|]. cbn [numbered flat_map map fst snd]. rewrite headers_app, IH, report_test_eq. cbn [fst].
    rewrite headers_app. destruct (Nat.eqb k 0); cbn [headers flat_map app];
    fold (headers (fst (section c r))); rewrite headers_headless by apply headless_section; reflexivity. }
  rewrite G. unfold reported. change 1 with (0 + 1) at 2.
  assert (H : forall l n m, map (fun x => (fst x + m, address (snd x))) (filter (fun x => match infos c (snd x) with [] => false | _ => true end) (numbered n l)) =
    map (fun x => (fst x, address (snd x))) (filter (fun x => belongs c (snd x)) (numbered (n + m) l))).
  { induction l as [|x l IH]; intros n m; [reflexivity|]. cbn [numbered filter snd]. rewrite belongs_spec.
    destruct (belongs c x); cbn [map fst snd]; [f_equal|]; apply (IH (S n)). }
  apply H.
Qed.

(** What follows the header of a test, up to the next header, tells all of its
    errors and failures, and its skips, and begins with its details and log. *)
Theorem C98_told_partial c rs ws i r : snd (report_session_end c rs ws) = None ->
  nth_error rs i = Some r -> belongs c r = true ->
  exists pre sec post, fst (report_session_end c rs ws) = pre ++ Header (i + 1) (address r) :: sec ++ post /\
    headless sec /\ (exists p post', post = p :: post' /\ ((exists n a, p = Header n a) \/ p = Ended \/ exists n, p = WarnTitle n)) /\
    (forall k v, In (k, v) (details r) -> In (Detail k v) sec) /\ (forall l, log_path r = Some l -> In (Detail (lit "Log") l) sec) /\
    (level c <= 14 -> told c r sec) /\
    (level c <= 11 -> skips r <> [] -> exists l, In (Skipped l) sec /\ forall s, In (Text s) (skips r) <-> In s l).
Proof.
  intros Q N B. destruct (session_pieces c rs ws Q) as [F ->].
  assert (I : In (i, r) (reported c rs)).
  { unfold reported. apply filter_In. split; [apply (numbered_nth 0 _ _ _ N)|]. cbn [snd]. rewrite belongs_spec. exact B. }
  apply in_split in I as (l1 & l2 & E). rewrite E in *. rewrite numbered_app in *. cbn [numbered Nat.add] in *.
  rewrite flat_map_app. cbn [flat_map]. apply Forall_app in F as [_ F]. inversion F as [|? ? S F' E1]; subst.
  rewrite report_test_eq in *. cbn [fst snd] in *.
  set (w := (if allows c WARNING then fst (report_warnings ws) else []) ++ [Ended]).
  set (rest := flat_map (fun x => fst (report_test c x)) (numbered (Datatypes.S (List.length l1)) l2)).
  set (first := if negb (allows c WARNING) then [Newline] else []).
  set (before := flat_map (fun x => fst (report_test c x)) (numbered 0 l1)).
  set (t := if Nat.eqb (List.length l1) 0 then [Title] else []).
  exists (first ++ before ++ t), (fst (section c r)), (rest ++ w).
  split; [rewrite <- ?app_assoc; cbn [app]; rewrite <- ?app_assoc; reflexivity|].
  split; [apply headless_section|]. split.
  { subst rest w. destruct l2 as [|[n r'] l2].
    - cbn [numbered flat_map app]. unfold report_warnings, write. destruct (allows c WARNING); cbn [fst app].
      + destruct (by_key ws); cbn [app]; eexists; eexists; (split; [reflexivity|]); [right; left; reflexivity|right; right; eexists; reflexivity].
      + eexists; eexists; (split; [reflexivity|]). right; left; reflexivity.
    - cbn [numbered flat_map]. rewrite report_test_eq. cbn [fst Nat.eqb app]. eexists; eexists; (split; [reflexivity|]). left. eexists; eexists. reflexivity. }
  unfold section in *. destruct (all_none _ S) as [G ->]. cbn [map List.concat].
  assert (A : forall f, In f (infos c r) -> snd (f r) = None /\ forall p, In p (fst (f r)) -> In p (fst (report_details r) ++ List.concat (map fst (map (fun f => f r) (infos c r))))).
  { intros f J. inversion G as [|? ? _ G' E2]; subst. rewrite Forall_forall in G'. split; [apply G'; apply (in_map (fun f => f r)); exact J|].
    intros p P. apply in_app_iff. right. apply in_concat. exists (fst (f r)). split; [|exact P]. apply in_map. apply (in_map (fun f => f r)). exact J. }
  assert (D : forall k v, In (k, v) (details r ++ match log_path r with Some p => [(lit "Log", p)] | None => [] end) -> In (Detail k v) (fst (report_details r))).
  { intros k v I. unfold report_details. replace (is_success r) with false.
    - cbn [fst write]. destruct (details r ++ _) as [|x l]; [destruct I|]. right. apply (in_map (fun kv => Detail (fst kv) (snd kv)) _ _ I).
    - unfold belongs in B. unfold is_success. destruct (errors r), (failures r), (interrupted r), (skips r); try reflexivity.
      cbn [List.length Nat.add Nat.eqb negb] in B. rewrite !andb_false_r in B. discriminate. }
  split; [intros k v I; apply in_app_iff; left; apply D; apply in_app_iff; left; exact I|].
  split; [intros l L; apply in_app_iff; left; apply D; rewrite L; apply in_app_iff; right; left; reflexivity|].
  split.
  - intros LV. destruct (has_errors r) eqn:HE.
    + assert (J : In (report_errors c) (infos c r)).
      { unfold infos, allows, ERROR. rewrite (proj2 (Nat.leb_le _ _) LV), HE. left. reflexivity. }
      destruct (A _ J) as [A1 A2]. pose proof (errors_told c r A1) as T. intros j k e M. destruct (T j k e M) as [T1 T2].
      split; [intros H; apply A2, T1, H|]. intros H. destruct (T2 H) as (p & P1 & P2). exists p. split; [apply A2; exact P1|exact P2].
    + intros j k e M. exfalso. unfold troubles, has_errors in *. destruct (errors r), (failures r); try discriminate. destruct j; discriminate.
  - intros LV SK. assert (J : In report_skips (infos c r)).
    { unfold infos, allows, INFO, has_skips. rewrite (proj2 (Nat.leb_le _ _) LV). apply in_app_iff. right. destruct (skips r); [contradiction|left; reflexivity]. }
    destruct (A _ J) as [A1 A2]. unfold report_skips in *. destruct (reasons (skips r)) as [l|] eqn:R; [|discriminate].
    exists l. split; [apply A2; left; reflexivity|]. clear - R. revert l R. induction (skips r) as [|x s IH]; intros l R s0; cbn [reasons] in R.
    + injection R as <-. split; intros [].
    + destruct x as [|t|].
      * rewrite <- (IH l R). split; [intros [H|H]; [discriminate|exact H]|intros H; right; exact H].
      * destruct (reasons s) as [l'|]; [|discriminate]. injection R as <-. specialize (IH l' eq_refl s0).
        split; intros [H|H]; [injection H as ->; left; reflexivity|right; apply IH; exact H|left; rewrite H; reflexivity|right; apply IH; exact H].
      * discriminate.
Qed.

(** No exception leaves the reporter if every error has a frame or not just one is
    to be shown, and all reasons of skips are strings or None. *)
Theorem C98_no_exception_partial c rs ws :
  (tb c = 1 -> forall r e, In r rs -> In e (errors r ++ failures r) -> frames e <> []) ->
  (forall r, In r rs -> ~ In Object (skips r)) ->
  snd (report_session_end c rs ws) = None.
Proof.
  intros H O. apply all_quiet. constructor; [reflexivity|]. apply Forall_app. split.
  - rewrite Forall_forall. intros o I. apply in_map_iff in I as ([k [n r]] & <- & I). rewrite report_test_eq. cbn [snd].
    apply numbered_in in I as [_ I]. apply nth_error_In in I. unfold reported in I. apply filter_In in I as [I _].
    apply numbered_in in I as [_ I]. apply nth_error_In in I. apply all_quiet. constructor.
    + unfold report_details. destruct (is_success r); reflexivity.
    + rewrite Forall_forall. intros o J. apply in_map_iff in J as (f & <- & J). unfold infos in J. apply in_app_iff in J as [J|J].
      * destruct (allows c ERROR && has_errors r); [|destruct J]. destruct J as [<-|[]]. apply all_quiet. rewrite Forall_forall.
        intros o J. apply in_map_iff in J as ([j [b e]] & <- & J). cbn [fst snd]. unfold report_error.
        destruct (negb (of_exception e) && negb (manual_tb c)); [reflexivity|]. unfold andthen, write. cbn [fst snd].
        unfold report_traceback. destruct (tb c) as [|[|m]] eqn:T; try reflexivity.
        assert (E : In e (errors r ++ failures r)).
        { apply numbered_in in J as [_ J]. apply nth_error_In in J. apply in_app_iff in J as [J|J]; apply in_map_iff in J as (x & X & J); injection X as _ <-; apply in_app_iff; auto. }
        specialize (H eq_refl r e I E). destruct (exists_last H) as (l & x & ->). rewrite rev_app_distr. reflexivity.
      * destruct (allows c INFO && has_skips r); [|destruct J]. destruct J as [<-|[]]. unfold report_skips. specialize (O r I).
        assert (R : exists l, reasons (skips r) = Some l).
        { clear - O. induction (skips r) as [|x s IH]; [eexists; reflexivity|]. destruct IH as [l E]; [intros J; apply O; right; exact J|].
          destruct x; cbn [reasons]; [exists l; exact E|rewrite E; eexists; reflexivity|exfalso; apply O; left; reflexivity]. }
        destruct R as [l ->]. reflexivity.
  - constructor; [destruct (allows c WARNING); reflexivity|]. constructor; [reflexivity|constructor].
Qed.

(** ** Code *)

(** Of the lines of code of a frame the last is marked, and it is the only one. *)
Theorem C98_code f l x : code f = l ++ [x] ->
  write_frame_code f true = map (Code false) l ++ [Code true x] /\ write_frame_code f false = [Code true x].
Proof.
  intros E. unfold write_frame_code. rewrite E. split.
  - unfold flagged. rewrite flagged'_split, map_app. cbn [map fst snd]. f_equal. rewrite map_map. cbn [fst snd].
    generalize true. clear E. induction l as [|y l IH]; intros b; [reflexivity|]. cbn [List.length repeat combine map snd fst]. f_equal. apply (IH false).
  - rewrite rev_app_distr. reflexivity.
Qed.

(** ** Warnings *)

(** the warnings written *)
Definition warned (l : list piece) : list (str * nat * str * nat) :=
  flat_map (fun p => match p with Warn f n m k => [(f, n, m, k)] | _ => [] end) l.

(** of one place *)
Definition at_place (f : str) (n : nat) (w : warning) : bool := str_eqb f (w_file w) && Nat.eqb n (w_line w).

Lemma str_eqb_spec a b : str_eqb a b = true <-> a = b.
Proof.
  revert b. induction a as [|x a IH]; intros [|y b]; cbn [str_eqb]; split; intros H; try discriminate; try reflexivity.
  - apply andb_true_iff in H as [H1 H2]. apply Ascii.eqb_eq in H1. apply IH in H2. subst. reflexivity.
  - injection H as -> ->. rewrite Ascii.eqb_refl. apply IH. reflexivity.
Qed.

Lemma at_place_spec f n w : at_place f n w = true <-> w_file w = f /\ w_line w = n.
Proof. unfold at_place. rewrite andb_true_iff, str_eqb_spec, Nat.eqb_eq. split; intros [A B]; split; congruence. Qed.

(** the invariant of the dictionary: groups are not empty, are the warnings of
    one place in their order, and different groups are of different places *)
Definition place (g : list warning) : option (str * nat) := match g with w :: _ => Some (w_file w, w_line w) | [] => None end.

Record grouped (d : list (list warning)) (ws : list warning) : Prop := {
  g_some : forall g, In g d -> exists f n, place g = Some (f, n) /\ g = filter (at_place f n) ws;
  g_all : forall w, In w ws -> exists g, In g d /\ place g = Some (w_file w, w_line w);
  g_once : NoDup (map place d) }.

Lemma nodup_snoc {A} (l : list A) x : NoDup l -> ~ In x l -> NoDup (l ++ [x]).
Proof.
  induction l as [|y l IH]; intros N I; [constructor; [intros []|constructor]|]. inversion N; subst. cbn [app]. constructor.
  - intros J. apply in_app_iff in J as [J|[<-|[]]]; [contradiction|]. apply I. left. reflexivity.
  - apply IH; [assumption|]. intros J. apply I. right. exact J.
Qed.

Lemma grouped_add d ws w : grouped d ws -> grouped (add_warning w d) (ws ++ [w]).
Proof.
  intros [S A O].
  assert (X : forall g, In g d -> (match g with x :: _ => same_key x w | [] => false end = true <-> place g = Some (w_file w, w_line w))).
  { intros [|x g] I; cbn [place]; [split; discriminate|]. unfold same_key. rewrite andb_true_iff, str_eqb_spec, Nat.eqb_eq.
    split; [intros [-> ->]; reflexivity|intros E; injection E as -> ->; split; reflexivity]. }
  assert (Y : (exists d1 g d2, d = d1 ++ g :: d2 /\ place g = Some (w_file w, w_line w) /\ add_warning w d = d1 ++ (g ++ [w]) :: d2) \/
              (~ In (Some (w_file w, w_line w)) (map place d) /\ add_warning w d = d ++ [[w]])).
  { clear - X. induction d as [|g d IH]; [right; split; [intros []|reflexivity]|]. cbn [add_warning].
    destruct (match g with x :: _ => same_key x w | [] => false end) eqn:E.
    - left. exists [], g, d. split; [reflexivity|]. split; [apply (X g (or_introl eq_refl)); exact E|reflexivity].
    - destruct IH as [(d1 & g' & d2 & -> & P & ->)|[N ->]]; [intros g' I; apply X; right; exact I| |].
      + left. exists (g :: d1), g', d2. split; [reflexivity|]. split; [exact P|reflexivity].
      + right. split; [|reflexivity]. cbn [map]. intros [I|I]; [|exact (N I)]. apply (X g (or_introl eq_refl)) in I. congruence. }
  assert (Z : forall f n, (f, n) <> (w_file w, w_line w) -> filter (at_place f n) (ws ++ [w]) = filter (at_place f n) ws).
  { intros f n D. rewrite filter_app. cbn [filter]. destruct (at_place f n w) eqn:E; [|apply app_nil_r].
    apply at_place_spec in E as [E1 E2]. exfalso. apply D. congruence. }
  assert (Wf : at_place (w_file w) (w_line w) w = true) by (apply at_place_spec; split; reflexivity).
  destruct Y as [(d1 & g & d2 & -> & P & ->)|[N ->]].
  - assert (PG : place (g ++ [w]) = place g) by (destruct g; [discriminate|reflexivity]).
    constructor.
    + intros h I. apply in_app_iff in I as [I|[<-|I]].
      * destruct (S h) as (f & n & P1 & P2); [apply in_app_iff; left; exact I|]. exists f, n. split; [exact P1|]. rewrite Z; [exact P2|].
        intros E. rewrite E in P1. rewrite map_app in O. cbn [map] in O. apply NoDup_remove_2 in O. apply O. apply in_app_iff. left. rewrite P, <- P1. apply in_map. exact I.
      * exists (w_file w), (w_line w). rewrite PG. split; [exact P|]. destruct (S g) as (f & n & P1 & P2); [apply in_app_iff; right; left; reflexivity|].
        rewrite P in P1. injection P1 as <- <-. rewrite filter_app. cbn [filter]. rewrite Wf, <- P2. reflexivity.
      * destruct (S h) as (f & n & P1 & P2); [apply in_app_iff; right; right; exact I|]. exists f, n. split; [exact P1|]. rewrite Z; [exact P2|].
        intros E. rewrite E in P1. rewrite map_app in O. cbn [map] in O. apply NoDup_remove_2 in O. apply O. apply in_app_iff. right. rewrite P, <- P1. apply in_map. exact I.
    + intros v I. apply in_app_iff in I as [I|[<-|[]]].
      * destruct (A v I) as (h & J & PH). apply in_app_iff in J as [J|[<-|J]].
        -- exists h. split; [apply in_app_iff; left; exact J|exact PH].
        -- exists (g ++ [w]). split; [apply in_app_iff; right; left; reflexivity|rewrite PG; exact PH].
        -- exists h. split; [apply in_app_iff; right; right; exact J|exact PH].
      * exists (g ++ [w]). split; [apply in_app_iff; right; left; reflexivity|rewrite PG; exact P].
    + rewrite map_app in *. cbn [map] in *. rewrite PG. exact O.
  - assert (NW : forall v, In v ws -> at_place (w_file w) (w_line w) v = false).
    { intros v I. destruct (at_place _ _ v) eqn:E; [|reflexivity]. apply at_place_spec in E as [E1 E2]. destruct (A v I) as (g & J & PG).
      exfalso. apply N. rewrite <- E1, <- E2, <- PG. apply in_map. exact J. }
    constructor.
    + intros h I. apply in_app_iff in I as [I|[<-|[]]].
      * destruct (S h I) as (f & n & P1 & P2). exists f, n. split; [exact P1|]. rewrite Z; [exact P2|]. intros E. apply N. rewrite E in P1. rewrite <- P1. apply in_map. exact I.
      * exists (w_file w), (w_line w). split; [reflexivity|]. rewrite filter_app. cbn [filter]. rewrite Wf.
        replace (filter (at_place (w_file w) (w_line w)) ws) with (@nil warning); [reflexivity|]. symmetry.
        clear - NW. induction ws as [|v ws IH]; [reflexivity|]. cbn [filter]. rewrite (NW v (or_introl eq_refl)). apply IH. intros u I. apply NW. right. exact I.
    + intros v I. apply in_app_iff in I as [I|[<-|[]]].
      * destruct (A v I) as (g & J & PG). exists g. split; [apply in_app_iff; left; exact J|exact PG].
      * exists [w]. split; [apply in_app_iff; right; left; reflexivity|reflexivity].
    + rewrite map_app. apply nodup_snoc; assumption.
Qed.

Lemma by_key_grouped ws : grouped (by_key ws) ws.
Proof.
  unfold by_key. assert (G : forall l d done, grouped d done -> grouped (fold_left (fun d w => add_warning w d) l d) (done ++ l)).
  { induction l as [|w l IH]; intros d done G; [rewrite app_nil_r; exact G|]. cbn [fold_left].
    replace (done ++ w :: l) with ((done ++ [w]) ++ l) by (rewrite <- app_assoc; reflexivity). apply IH. apply grouped_add. exact G. }
  apply (G ws [] []). constructor; [intros g []|intros w []|constructor].
Qed.

Lemma warned_none l : (forall p, In p l -> forall f n m k, p <> Warn f n m k) -> warned l = [].
Proof.
  induction l as [|p l IH]; intros H; [reflexivity|]. unfold warned. cbn [flat_map]. fold (warned l).
  rewrite IH by (intros q I; apply H; right; exact I). specialize (H p (or_introl eq_refl)). destruct p; try reflexivity. exfalso. eapply H. reflexivity.
Qed.

(** Warnings are told by their place: each place once, with the message of its
    first warning and the number of its warnings. *)
Theorem C98_warnings_partial ws :
  let l := warned (fst (report_warnings ws)) in
  NoDup (map (fun x => fst (fst x)) l) /\
  (forall f n m k, In (f, n, m, k) l ->
     k = List.length (filter (at_place f n) ws) /\ exists w rest, filter (at_place f n) ws = w :: rest /\ w_message w = m) /\
  (forall w, In w ws -> exists m k, In (w_file w, w_line w, m, k) l) /\
  (ws <> [] -> In (WarnTitle (List.length ws)) (fst (report_warnings ws))).
Proof.
  cbn zeta. destruct (by_key_grouped ws) as [S A O].
  assert (E : warned (fst (report_warnings ws)) =
    flat_map (fun g => match g with w :: _ => [(w_file w, w_line w, w_message w, List.length g)] | [] => [] end) (by_key ws)).
  { unfold report_warnings, write. cbn [fst]. destruct (by_key ws) as [|g d]; [reflexivity|].
    assert (G : forall l, warned (flat_map (fun g => match g with w :: _ => [Warn (w_file w) (w_line w) (w_message w) (List.length g)] | [] => [] end) l) =
      flat_map (fun g => match g with w :: _ => [(w_file w, w_line w, w_message w, List.length g)] | [] => [] end) l).
    { induction l as [|x l IH]; [reflexivity|]. cbn [flat_map]. unfold warned in *. rewrite flat_map_app, IH. destruct x; reflexivity. }
    apply (G (g :: d)). }
  rewrite E. split; [|split; [|split]].
  - clear E A. assert (S' : forall g, In g (by_key ws) -> g <> []) by (intros g I; destruct (S g I) as (f & n & P & _); destruct g; [discriminate|congruence]).
    clear S. induction (by_key ws) as [|g d IH]; [constructor|]. cbn [flat_map]. destruct g as [|w g]; [exfalso; apply (S' [] (or_introl eq_refl)); reflexivity|].
    cbn [app map fst place] in *. inversion O as [|? ? N O']; subst. constructor; [|apply IH; [exact O'|intros h I; apply S'; right; exact I]].
    intros I. apply N. apply in_map_iff in I as ([[[f n] m] k] & E & I). cbn [fst] in E. apply in_flat_map in I as (h & J & K).
    destruct h as [|v h]; [destruct K|]. destruct K as [K|[]]. injection K as K1 K2 _ _. apply in_map_iff. exists (v :: h). split; [|exact J].
    cbn [place]. injection E as E1 E2. congruence.
  - intros f n m k I. apply in_flat_map in I as (g & J & K). destruct g as [|w g]; [destruct K|]. destruct K as [K|[]]. injection K as K1 K2 K3 K4.
    destruct (S _ J) as (f' & n' & P & F). cbn [place] in P. injection P as P1 P2. rewrite <- P1, <- P2, K1, K2 in F.
    rewrite <- F. split; [symmetry; exact K4|]. exists w, g. split; [reflexivity|exact K3].
  - intros w I. destruct (A w I) as (g & J & P). destruct g as [|v g]; [discriminate|]. cbn [place] in P. injection P as P1 P2.
    exists (w_message v), (List.length (v :: g)). apply in_flat_map. exists (v :: g). split; [exact J|]. left. rewrite P1, P2. reflexivity.
  - intros N. unfold report_warnings, write. cbn [fst]. destruct ws as [|w ws]; [contradiction|]. destruct (A w (or_introl eq_refl)) as (g & J & _).
    destruct (by_key (w :: ws)); [destruct J|left; reflexivity].
Qed.

(** The title stands once, before the first header, if a test belongs in the
    summary; at the end come the warnings, if the reporter is verbose enough, and
    the last line. *)
Theorem C98_whole c rs ws : snd (report_session_end c rs ws) = None ->
  exists tests, fst (report_session_end c rs ws) =
    (if 13 <? level c then [Newline] else []) ++ tests ++ (if level c <=? 13 then fst (report_warnings ws) else []) ++ [Ended] /\
    (existsb (belongs c) rs = true -> exists n a rest, tests = Title :: Header n a :: rest /\ ~ In Title rest) /\
    (existsb (belongs c) rs = false -> tests = []).
Proof.
  intros Q. destruct (session_pieces c rs ws Q) as [_ E].
  exists (flat_map (fun x => fst (report_test c x)) (numbered 0 (reported c rs))). split.
  { rewrite E. unfold allows, WARNING. rewrite Nat.ltb_antisym. reflexivity. }
  assert (G : reported c rs = [] <-> existsb (belongs c) rs = false).
  { clear Q E. unfold reported. generalize 0. induction rs as [|r rs' IH]; intros n; [split; reflexivity|]. cbn [numbered filter existsb snd]. rewrite belongs_spec.
    destruct (belongs c r); cbn [orb]; [split; discriminate|]. apply IH. }
  assert (T : forall l k, k <> 0 -> ~ In Title (flat_map (fun x => fst (report_test c x)) (numbered k l))).
  { induction l as [|[n r] l IH]; intros k K I; [destruct I|]. cbn [numbered flat_map] in I. apply in_app_iff in I as [I|I]; [|apply (IH (S k)); [discriminate|exact I]].
    rewrite report_test_eq in I. cbn [fst] in I. destruct k; [contradiction|]. cbn [Nat.eqb app] in I. destruct I as [I|I]; [discriminate|].
    apply (titleless_section c r I). }
  destruct (reported c rs) as [|[n r] l].
  - split; [intros H; rewrite (proj1 G eq_refl) in H; discriminate|reflexivity].
  - split; [|intros H; apply G in H; discriminate]. intros _. cbn [numbered flat_map]. rewrite report_test_eq. cbn [fst Nat.eqb app].
    eexists; eexists; eexists. split; [reflexivity|]. intros I. apply in_app_iff in I as [I|I]; [apply (titleless_section c r I)|].
    apply (T l 1); [discriminate|exact I].
Qed.

(** ** What does not hold *)

Definition ex_frame := mkFrame (lit "f.py") 3 [lit "def test():"; lit "    x = 1"; lit "    raise A()"].
Definition ex_result (e : err) := mkResult (lit "f.py:test") [e] [] [] true false [] None.

(** Without tracebacks (console_traceback_level 0) the message of an exception is
    nowhere in the summary. *)
Theorem C98_told_refuted : exists c r e, level c <= 14 /\ In e (errors r) /\ frames e <> [] /\
  snd (report_session_end c [r] []) = None /\
  forall p, In p (fst (report_session_end c [r] [])) -> ~ shows (message e) p.
Proof.
  exists (mkConf 12 0 true), (ex_result (mkErr (lit "A: it broke") true false [ex_frame])), (mkErr (lit "A: it broke") true false [ex_frame]).
  split; [cbn; lia|]. split; [left; reflexivity|]. split; [discriminate|]. split; [reflexivity|].
  intros p I. cbn in I. repeat (destruct I as [<-|I]; [intros [H|[H|[k H]]]; discriminate|]). destruct I.
Qed.

(** With one frame to be shown (console_traceback_level 1), an error that has none
    ends the report with an IndexError; so does a skip whose reason is no string
    with a TypeError.  The last line is not written then. *)
Theorem C98_no_exception_refuted :
  (exists c r, snd (report_session_end c [r] []) = Some IndexError /\ ~ In Ended (fst (report_session_end c [r] []))) /\
  (exists c r, errors r = [] /\ snd (report_session_end c [r] []) = Some TypeError /\ ~ In Ended (fst (report_session_end c [r] []))).
Proof.
  split.
  - exists (mkConf 12 1 true), (ex_result (mkErr (lit "added") false true [])). split; [reflexivity|]. cbn. intros H. repeat destruct H as [H|H]; try discriminate; exact H.
  - exists (mkConf 11 2 true), (mkResult (lit "f.py:test") [] [] [Object] true false [] None). split; [reflexivity|]. split; [reflexivity|].
    cbn. intros H. repeat destruct H as [H|H]; try discriminate; exact H.
Qed.

(** Two warnings of one place with different messages are told as one repeated. *)
Theorem C98_warnings_refuted : exists a b, w_message a <> w_message b /\
  warned (fst (report_warnings [a; b])) = [(w_file a, w_line a, w_message a, 2)].
Proof. exists (mkWarning (lit "f") 1 (lit "a")), (mkWarning (lit "f") 1 (lit "b")). split; [discriminate|reflexivity]. Qed.

(** three tests: one passed, one with an error, a failure and a skip, one skipped *)
Example C98_ex :
  let e := mkErr (lit "A: it broke") true false [ex_frame; ex_frame] in
  let f := mkErr (lit "not equal") false true [ex_frame] in
  let ok := mkResult (lit "f.py:a") [] [] [] true false [] None in
  let bad := mkResult (lit "f.py:b") [e] [f] [Text (lit "later")] true false [(lit "k", lit "'v'")] (Some (lit "'b.log'")) in
  let skip := mkResult (lit "f.py:c") [] [] [NoReason] true false [] None in
  let w := mkWarning (lit "g.py") 7 (lit "old") in
  report_session_end (mkConf 12 2 false) [ok; bad; skip] [w; w] =
    ([Title; Header 2 (lit "f.py:b"); DetailsHeader; Detail (lit "k") (lit "'v'"); Detail (lit "Log") (lit "'b.log'");
      ErrHeader 1 2 false; Location (lit "f.py") 3; Code true (lit "    raise A()"); Location (lit "f.py") 3; Code true (lit "    raise A()");
      Final false (lit "A: it broke"); Manual (lit "not equal"); WarnTitle 2; Warn (lit "g.py") 7 (lit "old") 2; Ended], None) /\
  map (belongs (mkConf 11 2 false)) [ok; bad; skip] = [false; true; true].
Proof. split; reflexivity. Qed.

Print Assumptions C98_headers.
Print Assumptions C98_told_partial.
Print Assumptions C98_whole.
Print Assumptions C98_no_exception_partial.
Print Assumptions C98_code.
Print Assumptions C98_warnings_partial.
Print Assumptions C98_told_refuted.
Print Assumptions C98_no_exception_refuted.
Print Assumptions C98_warnings_refuted.
