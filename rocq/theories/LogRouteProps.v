(** C96: where a log record goes. *)

From Coq Require Import List Bool Arith Lia.
From Verif Require Import LogRoute.
Import ListNotations.

(** ** Statements *)

Definition dest_dec (a b : dest) : {a = b} + {a <> b}.
Proof. repeat decide equality. Defined.

(** how often a place is in the list *)
Definition times (d : dest) (l : list dest) : nat := count_occ dest_dec l d.

Definition once (b : bool) : nat := if b then 1 else 0.

(** the logs of the core of slash are kept above a level only *)
Definition wanted (c : conf) (r : record) : bool := bypass r || negb (core r) || (core_level c <=? level r).

(** the logger is one of silence_loggers *)
Definition silent (c : conf) (r : record) : bool := existsb (Nat.eqb (channel r)) (silenced c).

(** handlers of users pass records on, and the four paths are different files
    (but the two highlights may be the same) *)
Definition usual (c : conf) (p : paths) : Prop :=
  (forall x, In x (extras c) -> x_bubble x = true) /\
  (forall n, ~ (s_log p = Some n /\ s_high p = Some n)) /\
  (forall n, ~ (s_log p = Some n /\ t_log p = Some n)) /\
  (forall n, ~ (s_log p = Some n /\ t_high p = Some n)) /\
  (forall n, ~ (t_log p = Some n /\ t_high p = Some n)) /\
  (forall n, ~ (t_log p = Some n /\ s_high p = Some n)).

(** ** Proofs *)

(** what one handler adds *)
Definition one (r : record) (h : handler) : list dest := if interested h r && filter h r then opt (feeds h r) else [].

Lemma dispatch_bubbles l k r : (forall h, In h l -> bubble h = true /\ blackhole h = false) ->
  dispatch (l ++ k) r = flat_map (one r) l ++ dispatch k r.
Proof.
  induction l as [|h l IH]; intros H; [reflexivity|]. cbn [app dispatch flat_map].
  destruct (H h (or_introl eq_refl)) as [B D]. unfold one at 1. destruct (interested h r && filter h r).
  - rewrite D, B, IH, app_assoc; [reflexivity|]. intros x X. apply H. right. exact X.
  - cbn [app]. apply IH. intros x X. apply H. right. exact X.
Qed.

(** the handlers above the silencer *)
Definition upper (c : conf) (session : option handler) : list handler :=
  only_if (captures c) [error_handler] ++
  only_if (unified c) (map bubbling (opt session)) ++
  rev (map extra_handler (extras c)) ++
  only_if (unittest c) [unittest_handler].

Lemma upper_bubbles c session : (forall x, In x (extras c) -> x_bubble x = true) ->
  forall h, In h (upper c session) -> bubble h = true /\ blackhole h = false.
Proof.
  intros X h. unfold upper, only_if. rewrite !in_app_iff. intros [H|[H|[H|H]]].
  - destruct (captures c); simpl in H; [destruct H as [<-|[]]; auto|contradiction].
  - destruct (unified c); simpl in H; [|contradiction]. destruct session; simpl in H; [destruct H as [<-|[]]; auto|contradiction].
  - apply in_rev in H. apply in_map_iff in H as (x & <- & I). simpl. auto.
  - destruct (unittest c); simpl in H; [destruct H as [<-|[]]; auto|contradiction].
Qed.

(** the handler of a log file *)
Definition log_handler (c : conf) (sub : option nat) : handler :=
  match sub, has_root c with
  | Some n, true => file_handler (slash_filter c) false (DFile (n, compressed c))
  | _, _ => null_handler c
  end.
(** the raw file beside a compressed one *)
Definition raw_handler (c : conf) (sub : option nat) : list handler :=
  match sub, has_root c, raw_too c with
  | Some n, true, true => [file_handler (slash_filter c) true (DRaw (n, false))]
  | _, _, _ => []
  end.
(** the handler of the highlights *)
Definition high_handler (c : conf) (hi : option nat) : list handler :=
  match hi, has_root c with
  | Some n, true => [file_handler highlight true (DFile (n, false))]
  | _, _ => []
  end.

(** the handlers below the silencer *)
Definition lower (c : conf) (sub hi : option nat) : list handler :=
  high_handler c hi ++ [warn_handler; console_handler c] ++ raw_handler c sub.

Definition quiet (c : conf) : list handler := only_if (negb (match silenced c with [] => true | _ => false end)) [silencer c].

(** a file that is not open yet, and the raw file beside it *)
Definition fresh (o : opened) (sub : option nat) : Prop := forall n b, sub = Some n -> look o (n, b) = None.
(** the highlights: not open, or open for the highlights *)
Definition fresh_high (o : opened) (hi : option nat) : Prop :=
  forall n h, hi = Some n -> look o (n, false) = Some h -> h = file_handler highlight true (DFile (n, false)).

Lemma stack_spec c o sub hi session : fresh o sub -> fresh_high o hi -> (forall n, ~ (sub = Some n /\ hi = Some n)) ->
  exists o', file_logging c o sub hi session =
    (upper c session ++ quiet c ++ lower c sub hi ++ [log_handler c sub], Some (log_handler c sub), o') /\
    (forall n b, sub <> Some n -> hi <> Some n -> look o' (n, b) = look o (n, b)) /\
    (forall n, hi = Some n -> forall h, look o' (n, false) = Some h -> h = file_handler highlight true (DFile (n, false))).
Proof.
  intros F G D. unfold file_logging, lower, quiet, upper, log_handler, raw_handler, high_handler.
  destruct (has_root c) eqn:ER.
  2: { unfold file_context. rewrite ER. exists o. split.
       - destruct sub, hi, (raw_too c); cbn [opt]; rewrite <- ?app_assoc; cbn [app]; reflexivity.
       - split; [reflexivity|]. intros n Hn h Hh. exact (G n h Hn Hh). }
  assert (Hs : forall o1, fresh_high o1 hi -> exists h3 o3, file_context c o1 hi false true highlight false = (h3, o3) /\
             opt h3 = match hi with Some n => [file_handler highlight true (DFile (n, false))] | None => [] end /\
             (forall n b, hi <> Some n -> look o3 (n, b) = look o1 (n, b)) /\
             (forall n, hi = Some n -> forall h, look o3 (n, false) = Some h -> h = file_handler highlight true (DFile (n, false)))).
  { intros o1 G1. unfold file_context. rewrite ER. destruct hi as [m|].
    - destruct (look o1 (m, false)) as [h|] eqn:L.
      + exists (Some h), o1. split; [reflexivity|]. split; [rewrite (G1 m h eq_refl L); reflexivity|]. split; [auto|].
        intros n E h' L'. exact (G1 n h' E L').
      + eexists _, _. split; [reflexivity|]. split; [reflexivity|]. split.
        * intros n b N. cbn [look]. unfold path_eqb. cbn [fst snd]. destruct (Nat.eqb_spec m n) as [->|]; [congruence|reflexivity].
        * intros n E h L'. injection E as <-. cbn [look] in L'. unfold path_eqb in L'. cbn [fst snd] in L'. rewrite Nat.eqb_refl in L'.
          cbn in L'. injection L' as <-. reflexivity.
    - exists None, o1. split; [reflexivity|]. split; [reflexivity|]. split; [auto|]. discriminate. }
  destruct sub as [n|].
  - unfold file_context at 1. rewrite ER, (F n (compressed c) eq_refl).
    set (h1 := file_handler (slash_filter c) false (DFile (n, compressed c))).
    set (o1 := (((n, compressed c), h1) :: o) : opened).
    assert (H2 : exists h2 o2, (if raw_too c then file_context c o1 (Some n) false true (slash_filter c) true else (None, o1)) = (h2, o2) /\
               opt h2 = (if raw_too c then [file_handler (slash_filter c) true (DRaw (n, false))] else []) /\
               (forall a b, n <> a -> look o2 (a, b) = look o (a, b))).
    { assert (N : forall a b, n <> a -> look o1 (a, b) = look o (a, b)).
      { intros a b X. unfold o1. cbn [look]. unfold path_eqb. cbn [fst snd]. destruct (Nat.eqb_spec n a); [contradiction|reflexivity]. }
      destruct (raw_too c) eqn:W; [|exists None, o1; auto].
      assert (EC : compressed c = true) by (unfold raw_too in W; apply andb_true_iff in W; tauto).
      unfold file_context. rewrite ER. assert (L : look o1 (n, false) = None).
      { unfold o1. cbn [look]. unfold path_eqb. cbn [fst snd]. rewrite EC, andb_false_r. apply F. reflexivity. }
      rewrite L. eexists _, _. split; [reflexivity|]. split; [reflexivity|]. intros a b X. cbn [look]. unfold path_eqb. cbn [fst snd].
      destruct (Nat.eqb_spec n a); [contradiction|]. apply N. exact X. }
    destruct H2 as (h2 & o2 & H2 & E2 & N2). rewrite H2.
    assert (G2 : fresh_high o2 hi).
    { intros m h E L. apply (G m h E). rewrite <- N2; [exact L|]. intros ->. exact (D m (conj eq_refl E)). }
    destruct (Hs o2 G2) as (h3 & o3 & -> & E3 & N3 & L3). exists o3. split.
    + rewrite E2, E3. cbn [opt]. rewrite <- !app_assoc. reflexivity.
    + split; [|exact L3]. intros a b X Y. rewrite N3 by exact Y. apply N2. congruence.
  - unfold file_context at 1.
    assert (H2 : (if raw_too c then file_context c o None false true (slash_filter c) true else (None, o)) = (None, o)).
    { destruct (raw_too c); reflexivity. }
    cbv beta iota zeta. rewrite H2. destruct (Hs o G) as (h3 & o3 & -> & E3 & N3 & L3). exists o3. split.
    + rewrite E3. cbn [opt app]. rewrite <- !app_assoc. reflexivity.
    + split; [|exact L3]. intros a b _ Y. apply N3; exact Y.
Qed.

Lemma in_session_stack c p r : usual c p ->
  in_session c p r = dispatch ((upper c None ++ quiet c ++ lower c (s_log p) (s_high p) ++ [log_handler c (s_log p)]) ++ below c) r.
Proof.
  intros (X & D1 & D2 & D3 & D4 & D5). unfold in_session.
  destruct (stack_spec c [] (s_log p) (s_high p) None) as (o & -> & _); try reflexivity; auto.
  - intros n b _. reflexivity.
  - intros n h _ L. discriminate.
Qed.

Lemma in_test_stack c p r : usual c p ->
  in_test c p r = dispatch ((upper c (Some (log_handler c (s_log p))) ++ quiet c ++ lower c (t_log p) (t_high p) ++ [log_handler c (t_log p)]) ++
                            (upper c None ++ quiet c ++ lower c (s_log p) (s_high p) ++ [log_handler c (s_log p)]) ++ below c) r.
Proof.
  intros (X & D1 & D2 & D3 & D4 & D5). unfold in_test.
  destruct (stack_spec c [] (s_log p) (s_high p) None) as (o & -> & N & L); auto.
  - intros n b _. reflexivity.
  - intros n h _ L. discriminate.
  - destruct (stack_spec c o (t_log p) (t_high p) (Some (log_handler c (s_log p)))) as (o' & -> & _); auto.
    + intros n b E. rewrite N; [reflexivity| |]; intros E'; [exact (D2 n (conj E' E))|exact (D5 n (conj E E'))].
    + intros n h E E'. destruct (s_high p) as [m|] eqn:EH.
      * destruct (Nat.eq_dec m n) as [->|NE]; [exact (L n eq_refl h E')|].
        rewrite N in E'; [discriminate| |congruence]. intros E2. exact (D3 n (conj E2 E)).
      * rewrite N in E'; [discriminate| |discriminate]. intros E2. exact (D3 n (conj E2 E)).
Qed.

Lemma lower_bubbles c sub hi h : In h (lower c sub hi) -> bubble h = true /\ blackhole h = false.
Proof.
  unfold lower, high_handler, raw_handler. rewrite !in_app_iff. intros [H|[H|H]].
  - destruct hi, (has_root c); simpl in H; try contradiction. destruct H as [<-|[]]. auto.
  - destruct H as [<-|[<-|[]]]; auto.
  - destruct sub, (has_root c), (raw_too c); simpl in H; try contradiction. destruct H as [<-|[]]. auto.
Qed.

(** one floor of the stack: what its handlers feed, and whether the record stops *)
Lemma floor_spec c session sub hi k r : (forall x, In x (extras c) -> x_bubble x = true) ->
  dispatch ((upper c session ++ quiet c ++ lower c sub hi ++ [log_handler c sub]) ++ k) r =
  flat_map (one r) (upper c session) ++
  (if silent c r then [] else
   flat_map (one r) (lower c sub hi) ++
   (if wanted c r then match sub, has_root c with Some n, true => [DFile (n, compressed c)] | _, _ => [] end
    else dispatch k r)).
Proof.
  intros X. rewrite <- !app_assoc, dispatch_bubbles by (apply upper_bubbles; exact X). f_equal.
  assert (Q : forall l, dispatch (quiet c ++ l) r = if silent c r then [] else dispatch l r).
  { intros l. unfold quiet, silent. destruct (silenced c) as [|a l'] eqn:E; [reflexivity|].
    cbn [negb only_if app dispatch]. unfold silencer at 1. cbn [interested filter yes]. rewrite E, andb_true_r.
    unfold silencer. cbn [blackhole feeds bubble opt app]. reflexivity. }
  rewrite Q. destruct (silent c r); [reflexivity|].
  rewrite dispatch_bubbles by (intros h; apply lower_bubbles). f_equal.
  cbn [app dispatch]. unfold log_handler, wanted. destruct sub as [n|], (has_root c); cbn [file_handler null_handler interested filter yes blackhole feeds bubble opt app andb];
    fold (slash_filter c r); destruct (slash_filter c r); reflexivity.
Qed.

Lemma times_app d a b : times d (a ++ b) = times d a + times d b.
Proof. apply count_occ_app. Qed.

Lemma times_one d r h : times d (one r h) = if interested h r && filter h r then match feeds h r with Some e => once (if dest_dec e d then true else false) | None => 0 end else 0.
Proof.
  unfold one. destruct (interested h r && filter h r); [|reflexivity]. destruct (feeds h r) as [e|]; [|reflexivity].
  unfold times. cbn [opt count_occ]. destruct (dest_dec e d); reflexivity.
Qed.

Lemma times_extras d r xs : (forall i, d <> DExtra i) -> times d (flat_map (one r) (rev (map extra_handler xs))) = 0.
Proof.
  intros N. induction xs as [|x xs IH]; [reflexivity|]. cbn [map rev]. rewrite flat_map_app, times_app, IH. cbn [flat_map]. rewrite app_nil_r, times_one.
  unfold extra_handler. cbn [interested filter feeds]. destruct (x_wants x r && yes r); [|reflexivity].
  destruct (dest_dec (DExtra (x_id x)) d) as [E|]; [destruct (N (x_id x)); auto|reflexivity].
Qed.

Lemma times_extra_id i r xs :
  times (DExtra i) (flat_map (one r) (rev (map extra_handler xs))) = length (List.filter (fun x => x_wants x r && Nat.eqb (x_id x) i) xs).
Proof.
  induction xs as [|x xs IH]; [reflexivity|]. cbn [map rev]. rewrite flat_map_app, times_app, IH. cbn [flat_map]. rewrite app_nil_r, times_one.
  unfold extra_handler. cbn [interested filter feeds List.filter]. unfold yes. rewrite andb_true_r. destruct (x_wants x r); cbn [andb]; [|lia].
  destruct (Nat.eqb_spec (x_id x) i) as [->|N].
  - destruct (dest_dec (DExtra i) (DExtra i)); [|congruence]. cbn [once length]. lia.
  - destruct (dest_dec (DExtra (x_id x)) (DExtra i)); [congruence|]. cbn [once]. lia.
Qed.

(** how often the handlers above the silencer feed each place *)
Lemma times_upper d c session r :
  times d (flat_map (one r) (upper c session)) =
  times d (only_if (captures c) (one r error_handler)) +
  times d (only_if (unified c) (flat_map (one r) (map bubbling (opt session)))) +
  times d (flat_map (one r) (rev (map extra_handler (extras c)))) +
  times d (only_if (unittest c) (one r unittest_handler)).
Proof.
  unfold upper. rewrite !flat_map_app, !times_app. destruct (captures c), (unified c), (unittest c); cbn [only_if flat_map]; rewrite ?app_nil_r; cbn [times count_occ]; lia.
Qed.

Lemma times_lower d c sub hi r :
  times d (flat_map (one r) (lower c sub hi)) =
  times d (flat_map (one r) (high_handler c hi)) + times d (one r warn_handler) + times d (one r (console_handler c)) +
  times d (flat_map (one r) (raw_handler c sub)).
Proof. unfold lower. rewrite !flat_map_app, !times_app. cbn [flat_map]. rewrite !app_nil_r, times_app. lia. Qed.

Lemma high_file c hi r : flat_map (one r) (high_handler c hi) =
  match hi, has_root c with Some n, true => if highlight r then [DFile (n, false)] else [] | _, _ => [] end.
Proof. unfold high_handler. destruct hi, (has_root c); try reflexivity. cbn. unfold one. cbn. destruct (highlight r); reflexivity. Qed.

Lemma raw_file c sub r : flat_map (one r) (raw_handler c sub) =
  match sub, has_root c, raw_too c with Some n, true, true => if wanted c r then [DRaw (n, false)] else [] | _, _, _ => [] end.
Proof. unfold raw_handler. destruct sub, (has_root c), (raw_too c); try reflexivity. cbn. unfold one. cbn. fold (slash_filter c r). change (slash_filter c r) with (wanted c r). destruct (wanted c r); reflexivity. Qed.

Lemma one_console c r : one r (console_handler c) = if (console_level c <=? level r) && wanted c r then [DConsole] else [].
Proof. reflexivity. Qed.

Lemma one_warn r : one r warn_handler = if negb (native r) && Nat.eqb (level r) WARNING then [DWarning] else [].
Proof. unfold one, warn_handler, yes. cbn [interested filter feeds opt]. rewrite andb_true_r. reflexivity. Qed.

Lemma one_error r : one r error_handler = if (ERROR <=? level r) && capture r then [DError] else [].
Proof. unfold one, error_handler, yes. cbn [interested filter feeds opt]. rewrite andb_true_r. destruct (ERROR <=? level r), (capture r); reflexivity. Qed.

Lemma one_unittest r : one r unittest_handler = if own_thread r then [DUnittest] else [].
Proof. unfold one, unittest_handler, yes. cbn [interested filter feeds opt]. rewrite andb_true_r. reflexivity. Qed.

Lemma one_session c sub r : flat_map (one r) (map bubbling (opt (Some (log_handler c sub)))) =
  match sub, has_root c with Some n, true => if own_thread r then [DFile (n, compressed c)] else [] | _, _ => [] end.
Proof.
  cbn [opt map flat_map]. rewrite app_nil_r. unfold one, log_handler, bubbling. destruct sub, (has_root c); cbn [interested filter feeds file_handler null_handler yes opt andb].
  - rewrite !andb_true_r. reflexivity.
  - destruct (own_thread r); reflexivity.
  - destruct (own_thread r); reflexivity.
  - destruct (own_thread r); reflexivity.
Qed.

Lemma below_spec c r : dispatch (below c) r = if terminal c <=? level r then [DStderr] else [].
Proof. unfold below. cbn. unfold yes. rewrite andb_true_r. destruct (terminal c <=? level r); reflexivity. Qed.

(** is it this place? *)
Definition is (d e : dest) : bool := if dest_dec e d then true else false.

Lemma times_if d e (b : bool) : times d (if b then [e] else []) = once (b && is d e).
Proof. destruct b; [|reflexivity]. unfold times, is. cbn [count_occ andb]. destruct (dest_dec e d); reflexivity. Qed.

Lemma times_only d b l : times d (only_if b l) = if b then times d l else 0.
Proof. destruct b; reflexivity. Qed.

Lemma up_spec d c session r :
  times d (flat_map (one r) (upper c session)) =
  once (captures c && ((ERROR <=? level r) && capture r && is d DError)) +
  times d (only_if (unified c) (flat_map (one r) (map bubbling (opt session)))) +
  times d (flat_map (one r) (rev (map extra_handler (extras c)))) +
  once (unittest c && (own_thread r && is d DUnittest)).
Proof. rewrite times_upper, one_error, one_unittest, !times_only, !times_if. destruct (captures c), (unittest c); reflexivity. Qed.

Lemma low_spec d c sub hi r :
  times d (flat_map (one r) (lower c sub hi)) =
  match hi, has_root c with Some n, true => once (highlight r && is d (DFile (n, false))) | _, _ => 0 end +
  once (negb (native r) && Nat.eqb (level r) WARNING && is d DWarning) +
  once ((console_level c <=? level r) && wanted c r && is d DConsole) +
  match sub, has_root c, raw_too c with Some n, true, true => once (wanted c r && is d (DRaw (n, false))) | _, _, _ => 0 end.
Proof.
  rewrite times_lower, one_warn, one_console, high_file, raw_file, !times_if. destruct hi, sub, (has_root c), (raw_too c); rewrite ?times_if; reflexivity.
Qed.

Lemma is_file a b : is (DFile a) (DFile b) = path_eqb b a.
Proof.
  unfold is, path_eqb. destruct a as [a x], b as [b y]. cbn [fst snd]. destruct (dest_dec (DFile (b, y)) (DFile (a, x))) as [E|N].
  - injection E as -> ->. rewrite Nat.eqb_refl, Bool.eqb_reflx. reflexivity.
  - destruct (Nat.eqb_spec b a) as [->|]; [|reflexivity]. destruct (Bool.eqb y x) eqn:E; [apply Bool.eqb_prop in E; congruence|reflexivity].
Qed.

Lemma other_file a b x y : a <> b -> is (DFile (a, x)) (DFile (b, y)) = false.
Proof. intros N. rewrite is_file. unfold path_eqb. cbn [fst snd]. destruct (Nat.eqb_spec b a); [congruence|reflexivity]. Qed.

Lemma same_file a x : is (DFile (a, x)) (DFile (a, x)) = true.
Proof. rewrite is_file. unfold path_eqb. cbn [fst snd]. rewrite Nat.eqb_refl, Bool.eqb_reflx. reflexivity. Qed.

(** what stands between a record and the places below a floor, in a test *)
Lemma test_spec d c p r : usual c p ->
  times d (in_test c p r) =
  times d (flat_map (one r) (upper c (Some (log_handler c (s_log p))))) +
  (if silent c r then 0 else
   times d (flat_map (one r) (lower c (t_log p) (t_high p))) +
   (if wanted c r then match t_log p, has_root c with Some n, true => once (is d (DFile (n, compressed c))) | _, _ => 0 end
    else times d (flat_map (one r) (upper c None)) +
         times d (flat_map (one r) (lower c (s_log p) (s_high p))) + once ((terminal c <=? level r) && is d DStderr))).
Proof.
  intros U. pose proof U as (X & _). rewrite (in_test_stack c p r U), !floor_spec, below_spec by exact X. rewrite times_app. f_equal.
  destruct (silent c r); [reflexivity|]. rewrite times_app. f_equal. destruct (wanted c r).
  - destruct (t_log p), (has_root c); try reflexivity. exact (times_if d _ true).
  - rewrite !times_app, times_if. lia.
Qed.

Lemma session_spec d c p r : usual c p ->
  times d (in_session c p r) =
  times d (flat_map (one r) (upper c None)) +
  (if silent c r then 0 else
   times d (flat_map (one r) (lower c (s_log p) (s_high p))) +
   (if wanted c r then match s_log p, has_root c with Some n, true => once (is d (DFile (n, compressed c))) | _, _ => 0 end
    else once ((terminal c <=? level r) && is d DStderr))).
Proof.
  intros U. pose proof U as (X & _). rewrite (in_session_stack c p r U), !floor_spec, below_spec by exact X. rewrite times_app. f_equal.
  destruct (silent c r); [reflexivity|]. rewrite times_app. f_equal. destruct (wanted c r).
  - destruct (s_log p), (has_root c); try reflexivity. exact (times_if d _ true).
  - rewrite times_if. reflexivity.
Qed.

Lemma session_file d c sub r :
  times d (only_if (unified c) (flat_map (one r) (map bubbling (opt (Some (log_handler c sub)))))) =
  match sub, has_root c with Some n, true => once (unified c && own_thread r && is d (DFile (n, compressed c))) | _, _ => 0 end.
Proof.
  rewrite times_only, one_session. destruct sub, (has_root c), (unified c); try reflexivity. rewrite times_if. reflexivity.
Qed.

Lemma no_session d c r : times d (only_if (unified c) (flat_map (one r) (map bubbling (opt None)))) = 0.
Proof. destruct (unified c); reflexivity. Qed.

Ltac elsewhere := repeat match goal with H : forall m b, Some ?x = Some m -> _ |- context [is _ (DFile (?x, ?b))] => rewrite (H x b eq_refl) end.
Ltac places := rewrite ?up_spec, ?low_spec, ?session_file, ?no_session.

(** the log of a test gets the records that are wanted and not silenced, once *)
Theorem C96_test_log c p r n : usual c p -> has_root c = true -> t_log p = Some n ->
  times (DFile (n, compressed c)) (in_test c p r) = once (wanted c r && negb (silent c r)).
Proof.
  intros U R T. pose proof U as (X & D1 & D2 & D3 & D4 & D5). rewrite (test_spec _ c p r U). places.
  rewrite !times_extras by discriminate. rewrite T, R in *. rewrite same_file.
  replace (is (DFile (n, compressed c)) DError) with false by reflexivity.
  replace (is (DFile (n, compressed c)) DUnittest) with false by reflexivity.
  replace (is (DFile (n, compressed c)) DWarning) with false by reflexivity.
  replace (is (DFile (n, compressed c)) DConsole) with false by reflexivity.
  replace (is (DFile (n, compressed c)) DStderr) with false by reflexivity.
  replace (is (DFile (n, compressed c)) (DRaw (n, false))) with false by reflexivity.
  rewrite !andb_false_r. cbn [once].
  assert (H1 : forall m b, t_high p = Some m -> is (DFile (n, compressed c)) (DFile (m, b)) = false).
  { intros m b E. apply other_file. intros ->. exact (D4 m (conj eq_refl E)). }
  assert (H2 : forall m b, s_high p = Some m -> is (DFile (n, compressed c)) (DFile (m, b)) = false).
  { intros m b E. apply other_file. intros ->. exact (D5 m (conj eq_refl E)). }
  assert (H3 : forall m b, s_log p = Some m -> is (DFile (n, compressed c)) (DFile (m, b)) = false).
  { intros m b E. apply other_file. intros ->. exact (D2 m (conj E eq_refl)). }
  destruct (s_log p) as [m|], (s_high p) as [m'|], (t_high p) as [m''|]; elsewhere;
    rewrite ?andb_false_r; destruct (silent c r), (wanted c r), (raw_too c); try reflexivity;
    replace (is (DFile (n, compressed c)) (DRaw (m, false))) with false by reflexivity; reflexivity.
Qed.

(** the console gets the records that are wanted, not silenced and of its level, once *)
Theorem C96_console c p r : usual c p ->
  times DConsole (in_test c p r) = once (wanted c r && negb (silent c r) && (console_level c <=? level r)) /\
  times DConsole (in_session c p r) = once (wanted c r && negb (silent c r) && (console_level c <=? level r)).
Proof.
  intros U. rewrite (test_spec _ c p r U), (session_spec _ c p r U). places. rewrite !times_extras by discriminate.
  assert (F : forall q, is DConsole (DFile q) = false) by reflexivity.
  assert (G : forall q, is DConsole (DRaw q) = false) by reflexivity.
  replace (is DConsole DError) with false by reflexivity. replace (is DConsole DUnittest) with false by reflexivity.
  replace (is DConsole DWarning) with false by reflexivity. replace (is DConsole DStderr) with false by reflexivity.
  replace (is DConsole DConsole) with true by reflexivity. rewrite !andb_false_r, !andb_true_r. cbn [once].
  destruct (s_log p), (s_high p), (t_log p), (t_high p), (has_root c), (raw_too c); rewrite ?F, ?G, ?andb_false_r; cbn [once];
    destruct (silent c r), (wanted c r), (console_level c <=? level r); split; reflexivity.
Qed.

(** outside of the tests the log of the session gets the records that are wanted
    and not silenced; in a test it gets all records of the test's thread if
    unified_session_log is set, and none otherwise *)
Theorem C96_session_log c p r n : usual c p -> has_root c = true -> s_log p = Some n ->
  times (DFile (n, compressed c)) (in_session c p r) = once (wanted c r && negb (silent c r)) /\
  times (DFile (n, compressed c)) (in_test c p r) = once (unified c && own_thread r).
Proof.
  intros U R T. pose proof U as (X & D1 & D2 & D3 & D4 & D5). rewrite (test_spec _ c p r U), (session_spec _ c p r U). places.
  rewrite !times_extras by discriminate. rewrite T, R in *. rewrite !same_file.
  replace (is (DFile (n, compressed c)) DError) with false by reflexivity.
  replace (is (DFile (n, compressed c)) DUnittest) with false by reflexivity.
  replace (is (DFile (n, compressed c)) DWarning) with false by reflexivity.
  replace (is (DFile (n, compressed c)) DConsole) with false by reflexivity.
  replace (is (DFile (n, compressed c)) DStderr) with false by reflexivity.
  assert (G : forall q, is (DFile (n, compressed c)) (DRaw q) = false) by reflexivity.
  rewrite !andb_false_r, !andb_true_r. cbn [once].
  assert (H1 : forall m b, s_high p = Some m -> is (DFile (n, compressed c)) (DFile (m, b)) = false).
  { intros m b E. apply other_file. intros ->. exact (D1 m (conj eq_refl E)). }
  assert (H2 : forall m b, t_log p = Some m -> is (DFile (n, compressed c)) (DFile (m, b)) = false).
  { intros m b E. apply other_file. intros ->. exact (D2 m (conj eq_refl E)). }
  assert (H3 : forall m b, t_high p = Some m -> is (DFile (n, compressed c)) (DFile (m, b)) = false).
  { intros m b E. apply other_file. intros ->. exact (D3 m (conj eq_refl E)). }
  destruct (s_high p), (t_log p), (t_high p), (raw_too c); elsewhere; rewrite ?G; rewrite ?andb_false_r; cbn [once];
    destruct (silent c r), (wanted c r), (unified c && own_thread r); split; reflexivity.
Qed.

(** a record of the error level is added as an error once, a record is handed to
    each handler of a user once, and nothing is written to the terminal of main:
    if the record is wanted (or silenced) *)
Theorem C96_once_partial c p r : usual c p -> wanted c r = true \/ silent c r = true ->
  times DError (in_test c p r) = once (captures c && (ERROR <=? level r) && capture r) /\
  (forall i, times (DExtra i) (in_test c p r) = length (List.filter (fun x => x_wants x r && Nat.eqb (x_id x) i) (extras c))) /\
  times DStderr (in_test c p r) = 0 /\
  (silent c r = false -> times DWarning (in_test c p r) = once (negb (native r) && Nat.eqb (level r) WARNING)).
Proof.
  intros U W. assert (E : forall d, (if silent c r then 0 else
      times d (flat_map (one r) (lower c (t_log p) (t_high p))) +
      (if wanted c r then match t_log p, has_root c with Some n, true => once (is d (DFile (n, compressed c))) | _, _ => 0 end
       else times d (flat_map (one r) (upper c None)) +
         times d (flat_map (one r) (lower c (s_log p) (s_high p))) + once ((terminal c <=? level r) && is d DStderr))) =
      (if silent c r then 0 else
       times d (flat_map (one r) (lower c (t_log p) (t_high p))) +
       match t_log p, has_root c with Some n, true => once (is d (DFile (n, compressed c))) | _, _ => 0 end)).
  { intros d. destruct (silent c r); [reflexivity|]. destruct W as [->|]; [reflexivity|discriminate]. }
  split; [|split; [|split]].
  - rewrite (test_spec _ c p r U), E. places. rewrite !times_extras by discriminate.
    assert (F : forall q, is DError (DFile q) = false) by reflexivity. assert (G : forall q, is DError (DRaw q) = false) by reflexivity.
    replace (is DError DUnittest) with false by reflexivity. replace (is DError DWarning) with false by reflexivity.
    replace (is DError DConsole) with false by reflexivity. replace (is DError DError) with true by reflexivity.
    rewrite !andb_false_r, !andb_true_r. cbn [once].
    destruct (s_log p), (t_log p), (t_high p), (has_root c), (raw_too c); rewrite ?F, ?G, ?andb_false_r; cbn [once];
      rewrite <- andb_assoc; destruct (captures c && ((ERROR <=? level r) && capture r)), (silent c r); reflexivity.
  - intros i. rewrite (test_spec _ c p r U), E. places. rewrite !times_extra_id.
    assert (F : forall q, is (DExtra i) (DFile q) = false) by reflexivity. assert (G : forall q, is (DExtra i) (DRaw q) = false) by reflexivity.
    replace (is (DExtra i) DUnittest) with false by reflexivity. replace (is (DExtra i) DWarning) with false by reflexivity.
    replace (is (DExtra i) DConsole) with false by reflexivity. replace (is (DExtra i) DError) with false by reflexivity.
    rewrite !andb_false_r. cbn [once].
    destruct (s_log p), (t_log p), (t_high p), (has_root c), (raw_too c); rewrite ?F, ?G, ?andb_false_r; cbn [once];
      destruct (silent c r); cbn [Nat.add]; lia.
  - rewrite (test_spec _ c p r U), E. places. rewrite !times_extras by discriminate.
    assert (F : forall q, is DStderr (DFile q) = false) by reflexivity. assert (G : forall q, is DStderr (DRaw q) = false) by reflexivity.
    replace (is DStderr DUnittest) with false by reflexivity. replace (is DStderr DWarning) with false by reflexivity.
    replace (is DStderr DConsole) with false by reflexivity. replace (is DStderr DError) with false by reflexivity.
    rewrite !andb_false_r. cbn [once].
    destruct (s_log p), (t_log p), (t_high p), (has_root c), (raw_too c); rewrite ?F, ?G, ?andb_false_r; cbn [once];
      destruct (silent c r); reflexivity.
  - intros S. rewrite (test_spec _ c p r U), E, S. places. rewrite !times_extras by discriminate.
    assert (F : forall q, is DWarning (DFile q) = false) by reflexivity. assert (G : forall q, is DWarning (DRaw q) = false) by reflexivity.
    replace (is DWarning DUnittest) with false by reflexivity. replace (is DWarning DWarning) with true by reflexivity.
    replace (is DWarning DConsole) with false by reflexivity. replace (is DWarning DError) with false by reflexivity.
    rewrite !andb_false_r, andb_true_r. cbn [once].
    destruct (s_log p), (t_log p), (t_high p), (has_root c), (raw_too c); rewrite ?F, ?G, ?andb_false_r; cbn [once];
      destruct (negb (native r) && (level r =? WARNING)); reflexivity.
Qed.

(** the highlights of a test, in a file of their own or in that of the session:
    the highlighted records, once *)
Theorem C96_highlights c p r n : usual c p -> has_root c = true -> t_high p = Some n -> wanted c r = true ->
  times (DFile (n, false)) (in_test c p r) = once (highlight r && negb (silent c r)).
Proof.
  intros U R T W. pose proof U as (X & D1 & D2 & D3 & D4 & D5). rewrite (test_spec _ c p r U), W. places.
  rewrite !times_extras by discriminate. rewrite T, R in *. rewrite !same_file.
  replace (is (DFile (n, false)) DError) with false by reflexivity.
  replace (is (DFile (n, false)) DUnittest) with false by reflexivity.
  replace (is (DFile (n, false)) DWarning) with false by reflexivity.
  replace (is (DFile (n, false)) DConsole) with false by reflexivity.
  assert (G : forall q, is (DFile (n, false)) (DRaw q) = false) by reflexivity.
  rewrite !andb_false_r, !andb_true_r. cbn [once].
  assert (H1 : forall m b, s_log p = Some m -> is (DFile (n, false)) (DFile (m, b)) = false).
  { intros m b E. apply other_file. intros ->. exact (D3 m (conj E eq_refl)). }
  assert (H2 : forall m b, t_log p = Some m -> is (DFile (n, false)) (DFile (m, b)) = false).
  { intros m b E. apply other_file. intros ->. exact (D4 m (conj E eq_refl)). }
  destruct (s_log p), (t_log p), (raw_too c); elsewhere; rewrite ?G; rewrite ?andb_false_r; cbn [once];
    destruct (silent c r), (highlight r); reflexivity.
Qed.

(** ** What does not hold *)

(** a session log and a test log, the logger 7 silenced, errors captured, one
    handler of a user *)
Definition ex_conf (core_lvl : nat) : conf :=
  mkConf true core_lvl WARNING [7] false false false true true [mkExtra 0 yes true] WARNING.
Definition ex_paths : paths := mkPaths (Some 1) None (Some 2) None.

Lemma ex_usual l : usual (ex_conf l) ex_paths.
Proof.
  split; [intros x [<-|[]]; reflexivity|]. repeat split; intros n [A B]; try discriminate; simpl in *; congruence.
Qed.

(** A record of the core at the error level, with the core logged from the
    critical level on: it is added as an error twice, handed to the handler of
    the user twice, and shown on the terminal though the console does not show it. *)
Theorem C96_once_refuted : exists c p r, usual c p /\ capture r = true /\
  times DError (in_test c p r) = 2 /\ times (DExtra 0) (in_test c p r) = 2 /\
  times DConsole (in_test c p r) = 0 /\ times DStderr (in_test c p r) = 1.
Proof.
  exists (ex_conf (S ERROR)), ex_paths, (mkRecord ERROR 1 true false false true false true).
  split; [apply ex_usual|]. repeat split; vm_compute; reflexivity.
Qed.

(** A silenced logger is written to the unified log of the session, its errors
    are added as errors. *)
Theorem C96_silenced_refuted : exists c p r n, usual c p /\ silent c r = true /\ s_log p = Some n /\
  times (DFile (n, compressed c)) (in_test c p r) = 1 /\ times DError (in_test c p r) = 1.
Proof.
  exists (ex_conf WARNING), ex_paths, (mkRecord ERROR 7 false false false true false true), 1.
  split; [apply ex_usual|]. repeat split; vm_compute; reflexivity.
Qed.

(** The unified log of the session "contains all logs, including from tests": not
    those of other threads; and it contains records of the core below the core log
    level, which the log of the test does not. *)
Theorem C96_unified_refuted :
  (exists c p r n m, usual c p /\ unified c = true /\ wanted c r = true /\ silent c r = false /\ s_log p = Some n /\ t_log p = Some m /\
     times (DFile (m, compressed c)) (in_test c p r) = 1 /\ times (DFile (n, compressed c)) (in_test c p r) = 0) /\
  (exists c p r n m, usual c p /\ unified c = true /\ wanted c r = false /\ s_log p = Some n /\ t_log p = Some m /\
     times (DFile (m, compressed c)) (in_test c p r) = 0 /\ times (DFile (n, compressed c)) (in_test c p r) = 1).
Proof.
  split.
  - exists (ex_conf WARNING), ex_paths, (mkRecord WARNING 1 false false false true false false), 1, 2.
    split; [apply ex_usual|]. repeat split; vm_compute; reflexivity.
  - exists (ex_conf WARNING), ex_paths, (mkRecord 10 1 true false false true false true), 1, 2.
    split; [apply ex_usual|]. repeat split; vm_compute; reflexivity.
Qed.

(** a warning of a test, with highlights and a compressed log beside the raw one *)
Example C96_ex :
  let c := mkConf true WARNING 10 [7] true true false false true [mkExtra 0 yes true] WARNING in
  let p := mkPaths (Some 1) (Some 3) (Some 2) (Some 3) in
  usual c p /\
  in_test c p (mkRecord WARNING 1 true false true true false true) =
    [DExtra 0; DFile (3, false); DWarning; DConsole; DRaw (2, false); DFile (2, true)].
Proof.
  cbv zeta. split; [|vm_compute; reflexivity]. split; [intros x [<-|[]]; reflexivity|].
  repeat split; intros n [A B]; simpl in *; congruence.
Qed.

Print Assumptions C96_test_log.
Print Assumptions C96_console.
Print Assumptions C96_session_log.
Print Assumptions C96_once_partial.
Print Assumptions C96_highlights.
Print Assumptions C96_once_refuted.
Print Assumptions C96_silenced_refuted.
Print Assumptions C96_unified_refuted.
