(** C140: fixtures that are generators (GenFixture.v). *)

From Coq Require Import List Bool Arith Ascii String Lia.
From Verif Require Import Str GenFixture.
Import ListNotations.

Section Fails.
Variable fails : nat -> option nat.
Notation request := (request fails).
Notation give_up := (give_up fails).

Lemma call_own_fine l : (forall c, In c l -> fails c = None) -> call_own fails l = (map Called l, None).
Proof.
  induction l as [|c l IH]; intros F; [reflexivity|]. cbn [call_own map]. rewrite (F c (or_introl eq_refl)), IH by (intros d I; apply F; right; exact I).
  reflexivity.
Qed.

Lemma do_own l r : (forall c, In c l -> fails c = None) ->
  do_cleanups fails (map Own l ++ r) = (map Called l ++ fst (do_cleanups fails r), snd (do_cleanups fails r)).
Proof.
  induction l as [|c l IH]; intros F; [cbn [map app]; destruct (do_cleanups fails r); reflexivity|].
  cbn [map app do_cleanups]. rewrite (F c (or_introl eq_refl)), IH by (intros d I; apply F; right; exact I). reflexivity.
Qed.

Lemma do_own_all l : (forall c, In c l -> fails c = None) -> do_cleanups fails (map Own l) = (map Called l, None).
Proof. intros F. pose proof (do_own l [] F) as H. rewrite app_nil_r in H. rewrite H. cbn. rewrite app_nil_r. reflexivity. Qed.

(** A generator that yields: the code up to its first yield is run, no more, and no cleanup yet; what it yields is the value. *)
Theorem C140_value g pre v rest : g = (pre, Yields v) :: rest ->
  fst (fst (request g)) = seen pre /\ snd (request g) = inl v.
Proof. intros ->. split; reflexivity. Qed.

(** When it is given up, its code is run on to the end, then the cleanups it added meanwhile and then those it added before are
    called, each once, the last one first. *)
Theorem C140_end pre v post rest : (forall c, In c (added pre ++ added post) -> fails c = None) ->
  give_up (snd (fst (request ((pre, Yields v) :: (post, Returns) :: rest)))) =
  (seen post ++ map Called (rev (added post)) ++ map Called (rev (added pre)), None).
Proof.
  intros F. unfold GenFixture.request, GenFixture.give_up, start. cbn [next fst snd]. rewrite rev_app_distr. cbn [rev app do_cleanups finish next].
  rewrite call_own_fine by (intros c I; apply F, in_or_app; right; apply in_rev; exact I). rewrite <- map_rev, do_own_all
    by (intros c I; apply F, in_or_app; left; apply in_rev; exact I). reflexivity.
Qed.

(** A generator that has ended with its yield has nothing more to run. *)
Theorem C140_end_at_yield pre v : (forall c, In c (added pre) -> fails c = None) ->
  give_up (snd (fst (request [(pre, Yields v)]))) = (map Called (rev (added pre)), None).
Proof.
  intros F. unfold GenFixture.request, GenFixture.give_up, start. cbn [next fst snd]. rewrite rev_app_distr. cbn [rev app do_cleanups finish next added flat_map call_own seen].
  rewrite <- map_rev, do_own_all by (intros c I; apply F; apply in_rev; exact I). reflexivity.
Qed.

(** If its code raises or yields again instead, that is the end: nothing after it is run, and no cleanup it added is called. *)
Theorem C140_bad_end pre v post s rest : s <> Returns ->
  exists x, give_up (snd (fst (request ((pre, Yields v) :: (post, s) :: rest)))) = (seen post, Some x) /\
  match s with Yields _ => x = DidNotStop | Throws e => x = Other e | Returns => False end.
Proof.
  intros N. unfold GenFixture.request, GenFixture.give_up, start. cbn [next fst snd]. rewrite rev_app_distr. cbn [rev app do_cleanups finish].
  destruct s as [w| |e]; [|congruence|]; cbn [next]; eexists; split; reflexivity.
Qed.

(** A generator that does not yield but raises or returns: the request raises (StopIteration if it returns); the cleanups it added are
    called at once, the last one first, and nothing is left for later. *)
Theorem C140_no_value g pre s rest : g = (pre, s) :: rest -> (forall v, s <> Yields v) -> (forall c, In c (added pre) -> fails c = None) ->
  request g = (seen pre ++ map Called (rev (added pre)), [], inr (match s with Throws e => Other e | _ => StopIteration end)).
Proof.
  intros -> N F. unfold GenFixture.request, start.
  assert (D : do_cleanups fails (rev (map Own (added pre))) = (map Called (rev (added pre)), None)).
  { rewrite <- map_rev. apply do_own_all. intros c I. apply F, in_rev. exact I. }
  destruct s as [v| |e]; [destruct (N v); reflexivity| |]; cbn [next]; rewrite D; reflexivity.
Qed.

Lemma do_subset l : forall c, In (Called c) (fst (do_cleanups fails l)) ->
  In (Own c) l \/ exists g, In (Rest g) l /\ In c (added (fst (finish g))).
Proof.
  assert (S : forall a c, ~ In (Called c) (seen a)).
  { intros a c I. unfold seen in I. apply in_flat_map in I as ([n|d] & _ & I); [destruct I as [I|[]]; discriminate|destruct I]. }
  assert (O : forall l c, In (Called c) (fst (call_own fails l)) -> In c l).
  { induction l0 as [|d l0 IH]; intros c; cbn [call_own]; [intros []|]. destruct (fails d).
    - intros [H|[]]. injection H as ->. left. reflexivity.
    - destruct (call_own fails l0) as [t x]. intros [H|H]; [injection H as ->; left; reflexivity|right; apply IH; exact H]. }
  induction l as [|[d|g] l IH]; intros c; cbn [do_cleanups]; [intros []| |].
  - destruct (fails d).
    + intros [H|[]]. injection H as ->. left. left. reflexivity.
    + destruct (do_cleanups fails l) as [t x]. intros [H|H]; [injection H as ->; left; left; reflexivity|].
      destruct (IH c H) as [I|(g & I & J)]; [left; right; exact I|right; exists g; split; [right; exact I|exact J]].
  - destruct (finish g) as [a [x|]] eqn:Q; [intros H; destruct (S _ _ H)|].
    specialize (O (rev (added a)) c). destruct (call_own fails (rev (added a))) as [t [x|]].
    + intros H. apply in_app_iff in H as [H|H]; [destruct (S _ _ H)|]. right. exists g. split; [left; reflexivity|]. rewrite Q. apply in_rev, O, H.
    + destruct (do_cleanups fails l) as [u x]. intros H. apply in_app_iff in H as [H|H]; [destruct (S _ _ H)|].
      apply in_app_iff in H as [H|H]; [right; exists g; split; [left; reflexivity|]; rewrite Q; apply in_rev, O, H|].
      destruct (IH c H) as [I|(g' & I & J)]; [left; right; exact I|right; exists g'; split; [right; exact I|exact J]].
Qed.

(** Whatever raises, only cleanups are called that were added before the first yield or between that and the next. *)
Theorem C140_called g c :
  In (Called c) (fst (fst (request g)) ++ fst (give_up (snd (fst (request g))))) -> exists p, In p (firstn 2 g) /\ In c (added (fst p)).
Proof.
  assert (S : forall a c, ~ In (Called c) (seen a)).
  { intros a d I. unfold seen in I. apply in_flat_map in I as ([n|x] & _ & I); [destruct I as [I|[]]; discriminate|destruct I]. }
  assert (O : forall l d, In (Own d) (rev (map Own l)) -> In d l).
  { intros l d I. apply in_rev in I. apply in_map_iff in I as (x & E & I). injection E as ->. exact I. }
  assert (R : forall l g', ~ In (Rest g') (rev (map Own l))).
  { intros l g' I. apply in_rev in I. apply in_map_iff in I as (x & E & _). discriminate. }
  assert (D : forall l, In (Called c) (fst (do_cleanups fails (rev (map Own l)))) -> In c l).
  { intros l I. apply do_subset in I as [I|(g' & I & _)]; [apply O; exact I|destruct (R _ _ I)]. }
  unfold GenFixture.request, GenFixture.give_up, start. destruct g as [|[pre [v| |e]] rest]; cbn [next].
  - intros [].
  - cbn [fst snd]. rewrite in_app_iff. intros [I|I]; [destruct (S _ _ I)|]. rewrite rev_app_distr in I. apply do_subset in I as [I|(g' & I & J)].
    + destruct I as [I|I]; [discriminate|]. exists (pre, Yields v). split; [left; reflexivity|apply O; exact I].
    + destruct I as [I|I]; [|destruct (R _ _ I)]. injection I as <-. destruct rest as [|[post s] rest]; [destruct J|].
      exists (post, s). split; [right; left; reflexivity|]. destruct s; exact J.
  - specialize (D (added pre)). destruct (do_cleanups fails (rev (map Own (added pre)))) as [u y]. cbn [fst snd rev do_cleanups]. rewrite app_nil_r, in_app_iff.
    intros [I|I]; [destruct (S _ _ I)|]. exists (pre, Returns). split; [left; reflexivity|apply D, I].
  - specialize (D (added pre)). destruct (do_cleanups fails (rev (map Own (added pre)))) as [u y]. cbn [fst snd rev do_cleanups]. rewrite app_nil_r, in_app_iff.
    intros [I|I]; [destruct (S _ _ I)|]. exists (pre, Throws e). split; [left; reflexivity|apply D, I].
Qed.

(** Code after the second yield is never run, and what it would add is never called: what is seen depends on the first two pieces of
    the generator only. *)
Theorem C140_only_two p q rest rest' :
  fst (fst (request (p :: q :: rest))) = fst (fst (request (p :: q :: rest'))) /\
  snd (request (p :: q :: rest)) = snd (request (p :: q :: rest')) /\
  give_up (snd (fst (request (p :: q :: rest)))) = give_up (snd (fst (request (p :: q :: rest')))).
Proof.
  destruct p as [pre [v| |e]]; unfold GenFixture.request, GenFixture.give_up, start; cbn [next].
  - cbn [fst snd]. rewrite !rev_app_distr. cbn [rev app do_cleanups].
    replace (finish (q :: rest')) with (finish (q :: rest)) by (destruct q as [post [w| |e]]; reflexivity). auto.
  - destruct (do_cleanups fails (rev (map Own (added pre)))). auto.
  - destruct (do_cleanups fails (rev (map Own (added pre)))). auto.
Qed.
End Fails.

(** ** slash.generator_fixture *)

(** [gives g l]: the generator yields the values of l and ends *)
Inductive gives : gen -> list nat -> Prop :=
| gv_end : gives [] []
| gv_return a g : gives ((a, Returns) :: g) []
| gv_yield a v g l : gives g l -> gives ((a, Yields v) :: g) (v :: l).

(** The values of the parameter are those yielded, in order; the generator is run while decorating. *)
Theorem C140_generated fn name g p a : generator_fixture fn name g = (a, inl p) <->
  exists l, gives g l /\ (forall i, value_in p i = nth_error l i) /\ a = fst (values g) /\
    p_name p = match name with None => fn | Some (Some n) => n | Some None => lit "new_func" end.
Proof.
  assert (V : forall g l, snd (values g) = inl l <-> gives g l).
  { clear. induction g as [|[a [v| |e]] g IH]; intros l; cbn [values].
    - split; [intros H; injection H as <-; constructor|intros H; inversion H; reflexivity].
    - specialize (IH (tl l)). destruct (values g) as [b [k|e]]; cbn [snd] in *.
      + split; [intros H; injection H as <-; constructor; apply IH; reflexivity|].
        intros H. inversion H; subst. cbn [tl] in IH. apply IH in H4. injection H4 as ->. reflexivity.
      + split; [discriminate|]. intros H. inversion H; subst. cbn [tl] in IH. apply IH in H4. discriminate.
    - split; [intros H; injection H as <-; constructor|intros H; inversion H; reflexivity].
    - split; [discriminate|intros H; inversion H]. }
  unfold generator_fixture. specialize (V g). destruct (values g) as [b [l|e]]; cbn [fst snd] in *.
  - split.
    + intros H. injection H as <- <-. exists l. split; [apply V; reflexivity|]. split; [reflexivity|]. split; reflexivity.
    + intros (k & G & N & -> & P). apply V in G. injection G as <-. f_equal. f_equal. destruct p as [pn pv]. cbn [p_name] in P. subst pn. f_equal.
      unfold value_in in N. cbn [p_values] in N. symmetry. revert N. clear. revert l. induction pv as [|x pv IH]; intros [|y l] N; [reflexivity|specialize (N 0); discriminate|specialize (N 0); discriminate|].
      pose proof (N 0) as E. cbn in E. injection E as ->. f_equal. apply IH. intros i. exact (N (S i)).
  - split; [discriminate|]. intros (k & G & _). apply V in G. discriminate.
Qed.

(** If it raises, the exception leaves the decorator, however many values there were. *)
Theorem C140_generator_raises fn name before a e rest : (forall p, In p before -> exists v, snd p = Yields v) ->
  snd (generator_fixture fn name (before ++ (a, Throws e) :: rest)) = inr e.
Proof.
  intros B. unfold generator_fixture.
  enough (E : snd (values (before ++ (a, Throws e) :: rest)) = inr e) by (destruct (values _) as [b r]; cbn [snd] in *; rewrite E; reflexivity).
  induction before as [|[b s] before IH]; [reflexivity|]. destruct (B _ (or_introl eq_refl)) as [v H]. cbn [snd] in H. subst s. cbn [app values].
  specialize (IH (fun p I => B p (or_intror I))). destruct (values (before ++ (a, Throws e) :: rest)) as [c r]. cbn [snd] in *. rewrite IH. reflexivity.
Qed.

(** ** slash.use *)

(** Decorating runs the code of the generator, in order, up to its end or exception: all of it that can be reached. *)
Theorem C140_run fn name ys a s rest :
  (forall p, In p ys -> exists v, snd p = Yields v) -> (forall v, s <> Yields v) ->
  fst (generator_fixture fn name (ys ++ (a, s) :: rest)) = List.concat (map fst ys) ++ a /\
  fst (generator_fixture fn name ys) = List.concat (map fst ys).
Proof.
  intros Y N. assert (V : fst (values (ys ++ (a, s) :: rest)) = List.concat (map fst ys) ++ a /\ fst (values ys) = List.concat (map fst ys)).
  { induction ys as [|[b t] ys IH]; cbn [app map List.concat].
    - split; [destruct s as [v| |e]; [destruct (N v eq_refl)| |]; reflexivity|reflexivity].
    - destruct (Y (b, t) (or_introl eq_refl)) as [v E]. cbn [snd] in E. subst t. destruct IH as [I1 I2]; [intros p I; apply Y; right; exact I|].
      cbn [values fst]. destruct (values (ys ++ (a, s) :: rest)) as [b1 r1], (values ys) as [b2 r2]. cbn [fst] in *. subst. rewrite app_assoc. auto. }
  unfold generator_fixture. destruct (values (ys ++ (a, s) :: rest)), (values ys). exact V.
Qed.

Example C140_run_case : fst (generator_fixture (lit "f") None ([([Does 1], Yields 5); ([Does 2], Yields 6)] ++ ([Does 3], Throws 4) :: [([Does 9], Returns)])) = [Does 1; Does 2; Does 3].
Proof. reflexivity. Qed.

(** An argument stands for the fixture of its name, or of the name its annotation use(...) gives; names with an underscore in front
    cannot be given as an attribute. *)
Theorem C140_use arg a n :
  (real_name arg a = n <-> a = Use n \/ ((forall m, a <> Use m) /\ n = arg)) /\
  (use_attr n = Some (Use n) <-> forall r, n <> lit "_" ++ r) /\ (use_attr n = None <-> exists r, n = lit "_" ++ r).
Proof.
  split.
  - destruct a as [|m| |k]; cbn [real_name]; split; intros H.
    all: try (right; split; [discriminate|congruence]); try (destruct H as [H|[_ ->]]; [discriminate|reflexivity]).
    + left. congruence.
    + destruct H as [H|[H _]]; [congruence|destruct (H m); reflexivity].
  - unfold use_attr. destruct (starts (lit "_") n) eqn:E.
    + apply starts_spec in E. split; [split; [discriminate|intros H; destruct E as [r E]; destruct (H r E)]|split; auto].
    + assert (N : forall r, n <> lit "_" ++ r). { intros r H. assert (S : starts (lit "_") n = true) by (apply starts_spec; exists r; exact H). congruence. }
      split; [split; auto|]. split; [discriminate|]. intros [r H]. destruct (N r H).
Qed.

(** ** What is not true *)

(** A fixture that adds a cleanup and whose code after the yield raises: the cleanup is never called. *)
Theorem C140_cleanup_refuted : exists g c, request (fun _ => None) g = ([Did 1], [Own c; Rest (tl g)], inl 5) /\
  give_up (fun _ => None) [Own c; Rest (tl g)] = ([Did 2], Some (Other 9)).
Proof. exists [([Does 1; Adds 7], Yields 5); ([Does 2], Throws 9)], 7. split; reflexivity. Qed.

(** An exception of a fixture is lost if one of its cleanups raises as well. *)
Theorem C140_masked_refuted : exists fails g, snd (start g) = inr (Other 1) /\ snd (request fails g) = inr (Other 2).
Proof. exists (fun _ => Some 2), [([Adds 7], Throws 1)]. split; reflexivity. Qed.

(** A generator function that returns without a yield is no fixture with the value None. *)
Theorem C140_empty_refuted : exists g, fst (fst (next g)) = [Does 1] /\ snd (request (fun _ => None) g) = inr StopIteration.
Proof. exists [([Does 1], Returns)]. split; reflexivity. Qed.

(** A generator that yields nothing makes a fixture without variations. *)
Theorem C140_no_values_refuted : exists g p a, generator_fixture (lit "f") None g = (a, inl p) /\ forall i, value_in p i = None.
Proof. exists [([Does 1], Returns)], (mkP (lit "f") []), [Does 1]. split; [reflexivity|]. intros [|i]; reflexivity. Qed.

Example C140_case :
  let g := [([Does 1; Adds 7; Adds 8], Yields 5); ([Does 2; Adds 9], Returns)] in
  request (fun _ => None) g = ([Did 1], [Own 7; Own 8; Rest [([Does 2; Adds 9], Returns)]], inl 5) /\
  give_up (fun _ => None) (snd (fst (request (fun _ => None) g))) = ([Did 2; Called 9; Called 8; Called 7], None).
Proof. split; reflexivity. Qed.

Example C140_generated_case :
  generator_fixture (lit "f") None [([Does 1], Yields 5); ([], Yields 6); ([Does 2], Returns)] = ([Does 1; Does 2], inl (mkP (lit "f") [5; 6])).
Proof. reflexivity. Qed.

Print Assumptions C140_value.
Print Assumptions C140_end.
Print Assumptions C140_end_at_yield.
Print Assumptions C140_bad_end.
Print Assumptions C140_no_value.
Print Assumptions C140_called.
Print Assumptions C140_only_two.
Print Assumptions C140_generated.
Print Assumptions C140_run.
Print Assumptions C140_generator_raises.
Print Assumptions C140_use.
Print Assumptions C140_cleanup_refuted.
Print Assumptions C140_masked_refuted.
Print Assumptions C140_empty_refuted.
Print Assumptions C140_no_values_refuted.
