(** C105: the logs and warnings of the start of the application. *)

From Coq Require Import List Bool Arith Lia.
From Verif Require Import LogRoute LogRouteProps Prelude.
Import ListNotations.

(** ** Statements *)

(** the records logged, the warnings raised and the filters added, in order *)
Definition logs (l : list act) : list record := flat_map (fun a => match a with Log r => [r] | _ => [] end) l.
Definition warned (l : list act) : list warning := flat_map (fun a => match a with Warn w => [w] | _ => [] end) l.
Definition filters (l : list act) : list (warning -> bool) := flat_map (fun a => match a with Ignore f => [f] | _ => [] end) l.

Definition no_bind (l : list act) : Prop := forall sub hi, ~ In (Bind sub hi) l.
Definition no_make (l : list act) : Prop := ~ In Make l.
Definition no_capture (l : list act) : Prop := ~ In Capture l.

(** what was written to a place, in order *)
Definition at_place (d : dest) (o : list (dest * record)) : list record :=
  map snd (List.filter (fun e => if dest_dec (fst e) d then true else false) o).

Definition hidden (fs : list (warning -> bool)) (w : warning) : bool := existsb (fun f => f w) fs.

(** the warnings not hidden by the filters there were at the time *)
Fixpoint shown (fs : list (warning -> bool)) (l : list act) : list warning :=
  match l with
  | [] => []
  | Warn w :: l => (if hidden fs w then [] else [w]) ++ shown fs l
  | Ignore f :: l => shown (fs ++ [f]) l
  | _ :: l => shown fs l
  end.

(** handlers of users pass records on *)
Definition polite (c : conf) : Prop := forall x, In x (extras c) -> x_bubble x = true.

(** ** Proofs *)

Lemma at_place_app d a b : at_place d (a ++ b) = at_place d a ++ at_place d b.
Proof. unfold at_place. rewrite filter_app, map_app. reflexivity. Qed.

Lemma logs_app a b : logs (a ++ b) = logs a ++ logs b.
Proof. apply flat_map_app. Qed.
Lemma warned_app a b : warned (a ++ b) = warned a ++ warned b.
Proof. apply flat_map_app. Qed.
Lemma filters_app a b : filters (a ++ b) = filters a ++ filters b.
Proof. apply flat_map_app. Qed.

Lemma dispatch_app hs k r : dispatch (hs ++ k) r = dispatch hs r ++ (if reaches hs r then dispatch k r else []).
Proof.
  induction hs as [|h hs IH]; [reflexivity|]. cbn [app dispatch reaches]. destruct (interested h r && filter h r); [|exact IH].
  destruct (blackhole h); [reflexivity|]. destruct (bubble h); cbn [negb andb].
  - rewrite IH, app_assoc. reflexivity.
  - rewrite !app_nil_r. reflexivity.
Qed.

Lemma reaches_app hs k r : reaches (hs ++ k) r = reaches hs r && reaches k r.
Proof.
  induction hs as [|h hs IH]; [reflexivity|]. cbn [app reaches]. destruct (interested h r && filter h r); [|exact IH].
  rewrite IH, andb_assoc. reflexivity.
Qed.

Lemma reaches_bubbles hs r : (forall h, In h hs -> bubble h = true /\ blackhole h = false) -> reaches hs r = true.
Proof.
  induction hs as [|h hs IH]; intros H; [reflexivity|]. cbn [reaches]. rewrite IH by (intros x X; apply H; right; exact X).
  destruct (H h (or_introl eq_refl)) as [-> ->]. destruct (interested h r && filter h r); reflexivity.
Qed.

Lemma lower_bubbles c sub hi h : In h (lower c sub hi) -> bubble h = true /\ blackhole h = false.
Proof.
  unfold lower, high_handler, raw_handler. rewrite !in_app_iff. intros [H|[H|H]].
  - destruct hi, (has_root c); simpl in H; try contradiction. destruct H as [<-|[]]. auto.
  - simpl in H. destruct H as [<-|[<-|[]]]; auto.
  - destruct sub, (has_root c), (raw_too c); simpl in H; try contradiction. destruct H as [<-|[]]. auto.
Qed.

Lemma reaches_stack c sub hi r : polite c ->
  reaches (upper c None ++ quiet c ++ lower c sub hi ++ [log_handler c sub]) r = negb (silent c r) && negb (wanted c r).
Proof.
  intros P. rewrite !reaches_app. rewrite (reaches_bubbles (upper c None)) by (apply upper_bubbles; exact P).
  rewrite (reaches_bubbles (lower c sub hi)) by (apply lower_bubbles). cbn [andb]. f_equal.
  - unfold quiet, silent. destruct (silenced c) as [|x l] eqn:E; [reflexivity|]. cbn [negb only_if reaches silencer].
    unfold silencer, yes. cbn [interested filter blackhole bubble]. rewrite E, andb_true_r.
    destruct (existsb (Nat.eqb (channel r)) (x :: l)); reflexivity.
  - unfold log_handler, wanted. destruct sub, (has_root c); cbn [reaches]; unfold file_handler, null_handler, yes;
      cbn [interested filter blackhole bubble]; rewrite andb_true_l; unfold slash_filter;
      destruct (bypass r || negb (core r) || (core_level c <=? level r)); reflexivity.
Qed.

(** the handlers of the session, in one place *)
Lemma bound_stack c sub hi : (forall n, ~ (sub = Some n /\ hi = Some n)) ->
  exists o, file_logging c [] sub hi None =
    (upper c None ++ quiet c ++ lower c sub hi ++ [log_handler c sub], Some (log_handler c sub), o).
Proof.
  intros D. destruct (stack_spec c [] sub hi None) as (o & E & _); [| |exact D|exists o; exact E].
  - intros n b _. reflexivity.
  - intros n h _ L. discriminate.
Qed.

Lemma at_written raises d l r :
  at_place d (written raises l r) = if raises d r then [] else repeat r (times d l).
Proof.
  unfold written, at_place, times. induction l as [|x l IH].
  - destruct (raises d r); reflexivity.
  - cbn [List.filter count_occ]. destruct (dest_dec x d) as [->|N].
    + destruct (raises d r) eqn:E; cbn [negb map List.filter fst].
      * exact IH.
      * destruct (dest_dec d d) as [_|F]; [|congruence]. cbn [map snd repeat]. rewrite IH. reflexivity.
    + destruct (raises x r); cbn [negb map List.filter fst]; [exact IH|]. destruct (dest_dec x d) as [->|_]; [congruence|exact IH].
Qed.

Section World.
Variable c : conf.
Variable raises : dest -> record -> bool.
Variable hook_raises : warning -> bool.

Notation step := (step c raises hook_raises).
Notation steps := (steps c raises hook_raises).
Notation enter := (enter c raises hook_raises).
Notation emit_logs := (emit_logs raises).

Lemma steps_app a b s : steps (a ++ b) s = steps b (steps a s).
Proof. apply fold_left_app. Qed.
Lemma steps_cons a b s : steps (a :: b) s = steps b (step a s).
Proof. reflexivity. Qed.

Lemma add_same w s :
  enabled (fst (add hook_raises w s)) = enabled s /\ kept (fst (add hook_raises w s)) = kept s /\
  session (fst (add hook_raises w s)) = session s /\ stack (fst (add hook_raises w s)) = stack s /\
  out (fst (add hook_raises w s)) = out s /\ ignored (fst (add hook_raises w s)) = ignored s /\
  kept_w (fst (add hook_raises w s)) = kept_w s /\ captures_w (fst (add hook_raises w s)) = captures_w s.
Proof. unfold add. destruct (hook_raises w); repeat split. Qed.

Lemma warn_same w s :
  enabled (step (Warn w) s) = enabled s /\ kept (step (Warn w) s) = kept s /\
  session (step (Warn w) s) = session s /\ stack (step (Warn w) s) = stack s /\
  out (step (Warn w) s) = out s /\ ignored (step (Warn w) s) = ignored s /\ captures_w (step (Warn w) s) = captures_w s.
Proof.
  cbn [Prelude.step]. destruct (captures_w s) eqn:E; [|repeat split; auto].
  destruct (filtered s w); [repeat split; auto|]. destruct (add_same w s) as (A & B & C & D & F & G & _ & H). rewrite E in H. auto 10.
Qed.

(** a record before the handlers of the session are entered *)
Lemma below_dests r : dispatch (below c) r = if terminal c <=? level r then [DStderr] else [].
Proof. unfold below, yes. cbn [dispatch interested filter blackhole bubble feeds opt app]. rewrite andb_true_r. destruct (terminal c <=? level r); reflexivity. Qed.

(** steps without Bind, on an empty stack with retaining enabled *)
Lemma prelude_part l s : no_bind l -> stack s = [] -> enabled s = true ->
  stack (steps l s) = [] /\ enabled (steps l s) = true /\ kept (steps l s) = kept s ++ logs l /\
  (forall d, d <> DStderr -> at_place d (out (steps l s)) = at_place d (out s)) /\
  ((forall r, raises DStderr r = false) ->
   at_place DStderr (out (steps l s)) = at_place DStderr (out s) ++ List.filter (fun r => terminal c <=? level r) (logs l)).
Proof.
  revert s. induction l as [|a l IH]; intros s NB ES EN.
  - cbn. rewrite !app_nil_r. auto.
  - rewrite steps_cons. assert (NB' : no_bind l) by (intros x y I; exact (NB x y (or_intror I))).
    assert (K : stack (step a s) = [] /\ enabled (step a s) = true /\ kept (step a s) = kept s ++ logs [a] /\
                (forall d, d <> DStderr -> at_place d (out (step a s)) = at_place d (out s)) /\
                ((forall r, raises DStderr r = false) -> at_place DStderr (out (step a s)) =
                   at_place DStderr (out s) ++ List.filter (fun r => terminal c <=? level r) (logs [a]))).
    { destruct a as [r|w|f| |sub hi|]; cbn [logs flat_map List.filter app]; rewrite ?app_nil_r.
      - cbn [Prelude.step stack enabled kept out]. rewrite ES, EN. cbn [reaches dispatch andb app]. rewrite below_dests.
        split; [reflexivity|]. split; [reflexivity|]. split; [reflexivity|]. split.
        + intros d N. rewrite at_place_app, at_written. destruct (raises d r); [apply app_nil_r|].
          destruct (terminal c <=? level r); cbn [times count_occ]; [|apply app_nil_r].
          unfold times. cbn [count_occ]. destruct (dest_dec DStderr d) as [E|_]; [congruence|apply app_nil_r].
        + intros R. rewrite at_place_app, at_written, R. destruct (terminal c <=? level r); reflexivity.
      - destruct (warn_same w s) as (-> & -> & _ & -> & -> & _). auto.
      - auto.
      - auto.
      - exfalso. exact (NB sub hi (or_introl eq_refl)).
      - auto. }
    destruct K as (K1 & K2 & K3 & K4 & K5). destruct (IH _ NB' K1 K2) as (I1 & I2 & I3 & I4 & I5).
    change (logs (a :: l)) with (logs ([a] ++ l)). rewrite logs_app. repeat split; auto.
    + rewrite I3, K3, app_assoc. reflexivity.
    + intros d N. rewrite I4, K4 by exact N. reflexivity.
    + intros R. rewrite I5, K5 by exact R. rewrite filter_app, app_assoc. reflexivity.
Qed.

(** the session of the application does not change *)
Lemma session_same l s : no_bind l -> no_make l -> session (steps l s) = session s.
Proof.
  revert s. induction l as [|a l IH]; intros s NB NM; [reflexivity|]. rewrite steps_cons, IH.
  - destruct a as [r|w|f| |sub hi|]; try reflexivity.
    + apply warn_same.
    + exfalso. exact (NM (or_introl eq_refl)).
    + exfalso. exact (NB sub hi (or_introl eq_refl)).
  - intros x y I. exact (NB x y (or_intror I)).
  - intros I. exact (NM (or_intror I)).
Qed.

(** records after Bind *)
Lemma active_part n hi l s d :
  has_root c = true -> polite c -> hi <> Some n -> d = DFile (n, compressed c) -> (forall r, raises d r = false) ->
  no_bind l -> enabled s = true -> stack s = upper c None ++ quiet c ++ lower c (Some n) hi ++ [log_handler c (Some n)] ->
  enabled (steps l s) = true /\
  kept (steps l s) = kept s ++ List.filter (fun r => negb (wanted c r) && negb (silent c r)) (logs l) /\
  at_place d (out (steps l s)) = at_place d (out s) ++ List.filter (fun r => wanted c r && negb (silent c r)) (logs l).
Proof.
  intros R P H -> OK. revert s. induction l as [|a l IH]; intros s NB EN ES.
  - cbn. rewrite !app_nil_r. auto.
  - rewrite steps_cons. assert (NB' : no_bind l) by (intros x y I; exact (NB x y (or_intror I))).
    assert (K : stack (step a s) = stack s /\ enabled (step a s) = true /\
       kept (step a s) = kept s ++ List.filter (fun r => negb (wanted c r) && negb (silent c r)) (logs [a]) /\
       at_place (DFile (n, compressed c)) (out (step a s)) =
         at_place (DFile (n, compressed c)) (out s) ++ List.filter (fun r => wanted c r && negb (silent c r)) (logs [a])).
    { destruct a as [r|w|f| |sub hi'|]; cbn [logs flat_map List.filter app]; rewrite ?app_nil_r.
      - cbn [Prelude.step stack enabled kept out]. split; [reflexivity|]. split; [exact EN|].
        rewrite ES, EN, reaches_stack, andb_true_r, (andb_comm (negb (silent c r))) by exact P. split.
        + destruct (negb (wanted c r) && negb (silent c r)); [reflexivity|rewrite app_nil_r; reflexivity].
        + rewrite at_place_app, at_written, OK. f_equal.
          set (p := mkPaths (Some n) hi None None).
          assert (U : usual c p).
          { split; [exact P|]. cbn. repeat split; intros m [A B]; try discriminate; injection A as <-; congruence. }
          destruct (bound_stack c (Some n) hi) as (o & E); [intros m [A B]; injection A as <-; congruence|].
          assert (T : times (DFile (n, compressed c)) (in_session c p r) = once (wanted c r && negb (silent c r))).
          { exact (proj1 (C96_session_log c p r n U R eq_refl)). }
          unfold in_session in T. cbn [s_log s_high p] in T. rewrite E, dispatch_app, reaches_stack in T by exact P.
          rewrite (andb_comm (negb (wanted c r))), T. destruct (wanted c r && negb (silent c r)); reflexivity.
      - destruct (warn_same w s) as (-> & -> & _ & -> & -> & _). auto.
      - auto.
      - auto.
      - exfalso. exact (NB sub hi' (or_introl eq_refl)).
      - auto. }
    destruct K as (K1 & K2 & K3 & K4). rewrite <- K1 in ES. destruct (IH _ NB' K2 ES) as (I1 & I2 & I3).
    change (logs (a :: l)) with (logs ([a] ++ l)). rewrite logs_app, !filter_app. split; [exact I1|].
    rewrite I2, K3, I3, K4, <- !app_assoc. auto.
Qed.

(** flushing to a handler that does not fail *)
Lemma flush_file d h l : (forall r, interested h r = true) -> (forall r, feeds h r = Some d) -> (forall r, raises d r = false) ->
  flush raises h l = (map (fun r => (d, r)) l, true).
Proof.
  intros A B C. induction l as [|r l IH]; [reflexivity|]. cbn [flush map]. rewrite A, B, C, IH. reflexivity.
Qed.

Lemma flush_console l : (forall r, raises DConsole r = false) ->
  flush raises app_console l = (map (fun r => (DConsole, r)) (List.filter (fun r => ERROR <=? level r) l), true).
Proof.
  intros C. induction l as [|r l IH]; [reflexivity|]. cbn [flush List.filter]. unfold app_console at 1. cbn [interested].
  destruct (ERROR <=? level r); [|exact IH]. cbn [feeds app_console map]. rewrite C, IH. reflexivity.
Qed.

Lemma at_map d l : at_place d (map (fun r => (d, r)) l) = l.
Proof.
  unfold at_place. induction l as [|r l IH]; [reflexivity|]. cbn [map List.filter fst]. destruct (dest_dec d d); [|congruence].
  cbn [map snd]. rewrite IH. reflexivity.
Qed.
Lemma at_other d e l : d <> e -> at_place d (map (fun r => (e, r)) l) = [].
Proof.
  intros N. unfold at_place. induction l as [|r l IH]; [reflexivity|]. cbn [map List.filter fst]. destruct (dest_dec e d); [congruence|exact IH].
Qed.

Lemma add_all_same l s :
  kept (fst (add_all hook_raises l s)) = kept s /\ out (fst (add_all hook_raises l s)) = out s /\
  enabled (fst (add_all hook_raises l s)) = enabled s /\ session (fst (add_all hook_raises l s)) = session s.
Proof.
  revert s. induction l as [|w l IH]; intros s; [auto|]. cbn [add_all]. destruct (filtered s w); [apply IH|].
  destruct (add_same w s) as (A & B & C & _ & D & _). destruct (add hook_raises w s) as [s1 [|]]; cbn [fst] in *.
  - destruct (IH s1) as (E & F & G & H). rewrite E, F, G, H. auto.
  - auto.
Qed.

Lemma emit_warnings_same s :
  kept (fst (emit_warnings hook_raises s)) = kept s /\ out (fst (emit_warnings hook_raises s)) = out s /\
  enabled (fst (emit_warnings hook_raises s)) = enabled s /\ session (fst (emit_warnings hook_raises s)) = session s.
Proof. unfold emit_warnings. pose proof (add_all_same (kept_w s) s) as A. destruct (session s) eqn:E; [exact A|]. cbn [fst]. rewrite E. auto. Qed.

(** where a start ends: the first flush, and nothing after it *)
Lemma enter_out l ok s o h :
  match session (steps l s) with Some (Some h) => h | _ => app_console end = h ->
  flush raises h (kept (steps l s)) = (o, true) ->
  out (fst (enter l ok s)) = out (steps l s) ++ o /\ kept (fst (enter l ok s)) = [] /\ enabled (fst (enter l ok s)) = false.
Proof.
  intros H F. unfold Prelude.enter. cbv zeta. set (s0 := steps l s) in *.
  assert (E : exists s1, emit_logs s0 = (s1, true) /\ kept s1 = [] /\ enabled s1 = false /\ out s1 = out s0 ++ o).
  { unfold Prelude.emit_logs. cbv zeta. rewrite H, F. eexists. split; [reflexivity|]. auto. }
  destruct E as (s1 & E & K1 & K2 & K3). rewrite E. cbn [fst]. destruct ok; [|auto].
  destruct (emit_warnings_same s1) as (A & B & C & D). destruct (emit_warnings hook_raises s1) as [s2 [|]]; cbn [fst] in *.
  - rewrite A, B, C. auto.
  - unfold Prelude.emit_logs. rewrite A, K1. cbn [flush fst out kept enabled]. rewrite B, K3, app_nil_r. auto.
Qed.

(** ** Theorems *)

(** the log of the session has every record of the start once: first those that
    were logged while its handlers were entered, then, in their order, those
    logged before (and those the filter kept from it); whether or not the start
    succeeds in the end *)
Theorem C105_session_log pre n hi post ok :
  has_root c = true -> polite c -> hi <> Some n -> (forall r, raises (DFile (n, compressed c)) r = false) ->
  no_bind pre -> no_bind post -> no_make post ->
  at_place (DFile (n, compressed c)) (out (fst (enter (pre ++ Bind (Some n) hi :: post) ok start))) =
    List.filter (fun r => wanted c r && negb (silent c r)) (logs post) ++
    logs pre ++ List.filter (fun r => negb (wanted c r) && negb (silent c r)) (logs post).
Proof.
  intros R P H OK NB1 NB2 NM. set (d := DFile (n, compressed c)).
  destruct (prelude_part pre start NB1 eq_refl eq_refl) as (A1 & A2 & A3 & A4 & _).
  destruct (bound_stack c (Some n) hi) as (o & E); [intros m [A B]; injection A as <-; congruence|].
  set (s0 := steps pre start) in *. set (s1 := step (Bind (Some n) hi) s0).
  assert (S1 : stack s1 = upper c None ++ quiet c ++ lower c (Some n) hi ++ [log_handler c (Some n)]).
  { unfold s1. cbn [Prelude.step]. rewrite E. cbn [stack]. rewrite A1. apply app_nil_r. }
  assert (S2 : enabled s1 = true /\ kept s1 = kept s0 /\ out s1 = out s0 /\ session s1 = Some (Some (log_handler c (Some n)))).
  { unfold s1. cbn [Prelude.step]. rewrite E. auto. }
  destruct S2 as (S2 & S3 & S4 & S5).
  destruct (active_part n hi post s1 d R P H eq_refl OK NB2 S2 S1) as (B1 & B2 & B3).
  assert (ST : steps (pre ++ Bind (Some n) hi :: post) start = steps post s1) by (rewrite steps_app, steps_cons; reflexivity).
  assert (SE : session (steps post s1) = Some (Some (log_handler c (Some n)))) by (rewrite session_same by assumption; exact S5).
  destruct (enter_out (pre ++ Bind (Some n) hi :: post) ok start (map (fun r => (d, r)) (kept (steps post s1))) (log_handler c (Some n))) as (O & _).
  - rewrite ST, SE. reflexivity.
  - rewrite ST. unfold log_handler. rewrite R. apply flush_file; auto.
  - rewrite O, ST, at_place_app, at_map, B3, B2, S4, S3, A4, A3 by discriminate. reflexivity.
Qed.

(** a start that fails before the session has its log: the console has the
    errors, once and in order; no file has anything *)
Theorem C105_console l :
  no_bind l -> (forall r, raises DConsole r = false) ->
  at_place DConsole (out (fst (enter l false start))) = List.filter (fun r => ERROR <=? level r) (logs l) /\
  (forall p, at_place (DFile p) (out (fst (enter l false start))) = []) /\ snd (enter l false start) = false.
Proof.
  intros NB OK. destruct (prelude_part l start NB eq_refl eq_refl) as (A1 & A2 & A3 & A4 & _).
  assert (SE : match session (steps l start) with Some (Some h) => h | _ => app_console end = app_console).
  { clear - NB. assert (G : forall s, no_bind l -> match session s with Some (Some _) => False | _ => True end ->
             match session (steps l s) with Some (Some _) => False | _ => True end).
    { induction l as [|a l' IH]; intros s NB' X; [exact X|]. rewrite steps_cons. apply IH; [intros x y I; exact (NB x y (or_intror I))| |].
      - intros x y I. exact (NB' x y (or_intror I)).
      - destruct a as [r|w|f| |sub hi|]; try exact X; try exact I.
        + destruct (warn_same w s) as (_ & _ & -> & _). exact X.
        + exfalso. exact (NB' sub hi (or_introl eq_refl)). }
    specialize (G start NB I). destruct (session (steps l start)) as [[h|]|]; [contradiction|reflexivity|reflexivity]. }
  destruct (enter_out l false start _ _ SE (flush_console _ OK)) as (O & _).
  repeat split.
  - rewrite O, at_place_app, at_map, A4, A3 by discriminate. reflexivity.
  - intros p. rewrite O, at_place_app, at_other, A4 by discriminate. reflexivity.
Qed.

(** the terminal of main has the records of its level at once, as long as the
    session has no handlers; in a start that fails that early, nothing more *)
Theorem C105_terminal l :
  no_bind l -> (forall r, raises DStderr r = false) ->
  at_place DStderr (out (steps l start)) = List.filter (fun r => terminal c <=? level r) (logs l).
Proof. intros NB OK. apply (prelude_part l start NB eq_refl eq_refl). exact OK. Qed.

(** when the records were handed on nothing is retained, then or later *)
Lemma disabled l s : enabled s = false -> kept s = [] -> kept (steps l s) = [] /\ enabled (steps l s) = false.
Proof.
  revert s. induction l as [|a l IH]; intros s E K; [auto|]. rewrite steps_cons. apply IH.
  - destruct a as [r|w|f| |sub hi|]; try exact E.
    + destruct (warn_same w s) as (-> & _). exact E.
    + cbn [Prelude.step]. destruct (file_logging c [] sub hi None) as [[hs h] o]. exact E.
  - destruct a as [r|w|f| |sub hi|]; try exact K.
    + cbn [Prelude.step kept]. rewrite E, andb_false_r. exact K.
    + destruct (warn_same w s) as (_ & -> & _). exact K.
    + cbn [Prelude.step]. destruct (file_logging c [] sub hi None) as [[hs h] o]. exact K.
Qed.

Lemma flush_ok h l : (forall d r, raises d r = false) -> snd (flush raises h l) = true.
Proof.
  intros C. induction l as [|r l IH]; [reflexivity|]. cbn [flush]. destruct (interested h r); [|exact IH].
  destruct (feeds h r); [|exact IH]. rewrite C. destruct (flush raises h l). exact IH.
Qed.

Theorem C105_released l ok later : (forall d r, raises d r = false) ->
  kept (fst (enter l ok start)) = [] /\ kept (steps later (fst (enter l ok start))) = [].
Proof.
  intros OK. set (h := match session (steps l start) with Some (Some h) => h | _ => app_console end).
  pose proof (flush_ok h (kept (steps l start)) OK) as F. destruct (flush raises h (kept (steps l start))) as [o b] eqn:E. cbn [snd] in F. subst b.
  destruct (enter_out l ok start o h eq_refl E) as (_ & K & D). split; [exact K|]. apply disabled; assumption.
Qed.

(** *** warnings *)

Lemma filters_steps l s : ignored (steps l s) = ignored s ++ filters l.
Proof.
  revert s. induction l as [|a l IH]; intros s; [cbn; rewrite app_nil_r; reflexivity|]. rewrite steps_cons, IH.
  change (filters (a :: l)) with (filters ([a] ++ l)). rewrite filters_app, app_assoc. f_equal.
  destruct a as [r|w|f| |sub hi|]; cbn [filters flat_map app]; rewrite ?app_nil_r; try reflexivity.
  - apply warn_same.
  - cbn [Prelude.step]. destruct (file_logging c [] sub hi None) as [[hs h] o]. reflexivity.
Qed.

Lemma early_warnings l s : captures_w s = false -> no_capture l ->
  captures_w (steps l s) = false /\ kept_w (steps l s) = kept_w s ++ warned l /\ (no_make l -> warns (steps l s) = warns s) .
Proof.
  revert s. induction l as [|a l IH]; intros s E NC; [cbn; rewrite app_nil_r; auto|]. rewrite steps_cons.
  assert (NC' : no_capture l) by (intros I; exact (NC (or_intror I))).
  change (warned (a :: l)) with (warned ([a] ++ l)). rewrite warned_app, app_assoc.
  assert (K : captures_w (step a s) = false /\ kept_w (step a s) = kept_w s ++ warned [a] /\ (a <> Make -> warns (step a s) = warns s)).
  { destruct a as [r|w|f| |sub hi|]; cbn [warned flat_map app]; rewrite ?app_nil_r.
    - auto.
    - cbn [Prelude.step]. rewrite E. auto.
    - auto.
    - repeat split; auto. congruence.
    - cbn [Prelude.step]. destruct (file_logging c [] sub hi None) as [[hs h] o]. auto.
    - exfalso. exact (NC (or_introl eq_refl)). }
  destruct K as (K1 & K2 & K3). destruct (IH _ K1 NC') as (I1 & I2 & I3). repeat split; [exact I1|rewrite I2, K2; reflexivity|].
  intros NM. rewrite I3, K3; [reflexivity| |].
  - intros ->. exact (NM (or_introl eq_refl)).
  - intros I. exact (NM (or_intror I)).
Qed.

Lemma late_warnings l s : captures_w s = true -> no_make l -> (forall w, hook_raises w = false) ->
  kept_w (steps l s) = kept_w s /\ warns (steps l s) = warns s ++ shown (ignored s) l.
Proof.
  intros E NM HK. revert s E. induction l as [|a l IH]; intros s E; [cbn; rewrite app_nil_r; auto|]. rewrite steps_cons.
  assert (NM' : no_make l) by (intros I; exact (NM (or_intror I))). specialize (IH NM').
  destruct a as [r|w|f| |sub hi|]; cbn [shown].
  - exact (IH (step (Log r) s) E).
  - destruct (warn_same w s) as (_ & _ & _ & _ & _ & G & F). rewrite E in F. destruct (IH _ F) as (A & B). rewrite A, B, G.
    clear A B. cbn [Prelude.step]. rewrite E. unfold filtered, hidden. destruct (existsb (fun f => f w) (ignored s)); [auto|].
    unfold add. rewrite HK. cbn [fst kept_w warns]. rewrite <- app_assoc. auto.
  - destruct (IH (step (Ignore f) s) E) as (A & B). rewrite A, B. auto.
  - exfalso. exact (NM (or_introl eq_refl)).
  - cbn [Prelude.step]. destruct (file_logging c [] sub hi None) as [[hs h] o]. apply (IH (mkSt _ _ _ _ _ _ _ _ _)). exact E.
  - destruct (IH (step Capture s) eq_refl) as (A & B). rewrite A, B. auto.
Qed.

Lemma add_all_ok l s : (forall w, hook_raises w = false) ->
  snd (add_all hook_raises l s) = true /\
  warns (fst (add_all hook_raises l s)) = warns s ++ List.filter (fun w => negb (hidden (ignored s) w)) l.
Proof.
  intros HK. revert s. induction l as [|w l IH]; intros s; [cbn; rewrite app_nil_r; auto|]. cbn [add_all List.filter].
  unfold filtered. fold (hidden (ignored s) w). destruct (hidden (ignored s) w); cbn [negb]; [apply IH|]. unfold add. rewrite HK.
  destruct (IH (mkSt (enabled s) (kept s) (kept_w s) (ignored s) (session s) (stack s) (captures_w s) (out s) (warns s ++ [w]))) as (A & B).
  split; [exact A|]. rewrite B. cbn [warns ignored]. rewrite <- app_assoc. reflexivity.
Qed.

Lemma made l s x : session s = Some x -> session (steps l s) <> None.
Proof.
  revert s x. induction l as [|a l IH]; intros s x E; [cbn; congruence|]. rewrite steps_cons.
  assert (K : exists y, session (step a s) = Some y).
  { destruct a as [r|w|f| |sub hi|]; try (exists x; exact E).
    - exists x. destruct (warn_same w s) as (_ & _ & -> & _). exact E.
    - eexists. reflexivity.
    - cbn [Prelude.step]. destruct (file_logging c [] sub hi None) as [[hs h] o]. eexists. reflexivity. }
  destruct K as (y & K). exact (IH _ y K).
Qed.

(** a start that succeeds: the session has the warnings it captured itself (if not
    hidden by then), then all earlier ones, in order, except those hidden in the end *)
Theorem C105_warnings pre mid post :
  (forall d r, raises d r = false) -> (forall w, hook_raises w = false) ->
  no_make mid -> no_make post -> no_capture pre -> no_capture mid ->
  let l := pre ++ Make :: mid ++ Capture :: post in
  snd (enter l true start) = true /\
  warns (fst (enter l true start)) =
    shown (filters (pre ++ mid)) post ++
    List.filter (fun w => negb (hidden (filters (pre ++ mid ++ post)) w)) (warned (pre ++ mid)).
Proof.
  intros OK HK NM1 NM2 NC1 NC2 l.
  destruct (early_warnings pre start eq_refl NC1) as (A1 & A2 & _). set (s0 := steps pre start) in *.
  destruct (early_warnings mid (step Make s0) A1 NC2) as (B1 & B2 & B3). specialize (B3 NM1). set (s1 := steps mid (step Make s0)) in *.
  destruct (late_warnings post (step Capture s1) eq_refl NM2 HK) as (D1 & D2).
  assert (ST : steps l start = steps post (step Capture s1)).
  { unfold l. rewrite steps_app, steps_cons, steps_app, steps_cons. reflexivity. }
  assert (SE : session (steps l start) <> None).
  { unfold l. rewrite steps_app, steps_cons. apply (made _ _ None). reflexivity. }
  assert (IG : ignored (step Capture s1) = filters (pre ++ mid)).
  { cbn [Prelude.step ignored]. unfold s1. rewrite filters_steps. cbn [Prelude.step ignored]. unfold s0. rewrite filters_steps, filters_app. reflexivity. }
  assert (IG2 : ignored (steps l start) = filters (pre ++ mid ++ post)).
  { rewrite ST, filters_steps, IG, <- filters_app, <- app_assoc. reflexivity. }
  assert (KW : kept_w (steps l start) = warned (pre ++ mid)).
  { rewrite ST, D1. change (kept_w (step Capture s1)) with (kept_w s1). rewrite B2. change (kept_w (step Make s0)) with (kept_w s0).
    rewrite A2, warned_app. reflexivity. }
  assert (WN : warns (steps l start) = shown (filters (pre ++ mid)) post).
  { rewrite ST, D2, IG. change (warns (step Capture s1)) with (warns s1). rewrite B3. reflexivity. }
  unfold Prelude.enter. cbv zeta. set (s := steps l start) in *.
  set (h := match session s with Some (Some h) => h | _ => app_console end).
  pose proof (flush_ok h (kept s) OK) as F. unfold Prelude.emit_logs. cbv zeta. fold h.
  destruct (flush raises h (kept s)) as [o b]. cbn [snd] in F. subst b.
  unfold emit_warnings. cbn [session kept_w]. destruct (session s) as [x|]; [|congruence].
  match goal with |- context [add_all hook_raises _ ?t] => destruct (add_all_ok (kept_w s) t HK) as (E1 & E2) end.
  match goal with |- context [add_all hook_raises ?w ?t] => destruct (add_all hook_raises w t) as [s2 b] end.
  cbn [fst snd] in *. subst b. split; [reflexivity|]. transitivity (warns s2); [reflexivity|]. rewrite E2. cbn [warns ignored]. rewrite WN, IG2, KW. reflexivity.
Qed.

Lemma add_all_fails l s w : In w l -> hidden (ignored s) w = false -> hook_raises w = true -> snd (add_all hook_raises l s) = false.
Proof.
  intros I H K. revert s H. induction l as [|x l IH]; intros s H; [destruct I|]. cbn [add_all]. unfold filtered. fold (hidden (ignored s) x).
  destruct (hidden (ignored s) x) eqn:E.
  - destruct I as [->|I]; [congruence|]. apply IH; assumption.
  - destruct (hook_raises x) eqn:G.
    + unfold add. rewrite G. reflexivity.
    + destruct I as [->|I]; [congruence|]. unfold add. rewrite G. apply IH; assumption.
Qed.

(** a hook that raises for a warning of the start, however early it was raised,
    makes the start fail; unless the warning is hidden *)
Theorem C105_hook pre mid w : no_capture (pre ++ mid) -> In w (warned (pre ++ mid)) ->
  hidden (filters (pre ++ mid)) w = false -> hook_raises w = true -> snd (enter (pre ++ Make :: mid) true start) = false.
Proof.
  intros NC I H K. set (l := pre ++ Make :: mid).
  assert (NC' : no_capture l). { unfold l. intros X. apply NC. rewrite in_app_iff in *. destruct X as [X|[X|X]]; [auto|discriminate|auto]. }
  destruct (early_warnings l start eq_refl NC') as (_ & B & _).
  assert (W : warned l = warned (pre ++ mid)) by (unfold l; rewrite !warned_app; reflexivity).
  assert (F : ignored (steps l start) = filters (pre ++ mid)) by (rewrite filters_steps; unfold l; rewrite !filters_app; reflexivity).
  assert (SE : session (steps l start) <> None) by (unfold l; rewrite steps_app, steps_cons; apply (made _ _ None); reflexivity).
  unfold Prelude.enter. cbv zeta. set (s := steps l start) in *. unfold Prelude.emit_logs at 1. cbv zeta.
  destruct (flush raises _ (kept s)) as [o [|]]; [|reflexivity].
  unfold emit_warnings. cbn [session kept_w]. destruct (session s) as [x|]; [|congruence].
  match goal with |- context [add_all hook_raises ?a ?t] =>
    pose proof (add_all_fails a t w) as G; destruct (add_all hook_raises a t) as [s2 b] end.
  cbn [snd ignored] in G. rewrite G; [reflexivity| | |exact K].
  - rewrite B, W. exact I.
  - rewrite F. exact H.
Qed.

(** a start that fails adds none of the earlier warnings to a session *)
Theorem C105_warnings_failed l s : warns (fst (enter l false s)) = warns (steps l s).
Proof. unfold Prelude.enter, Prelude.emit_logs. cbv zeta. destruct (flush raises _ _) as [o b]. reflexivity. Qed.
End World.

(** ** Concrete cases and refuted expectations *)

(** a configuration: a root for logs, the core kept from level 12 on *)
Definition cf (root : bool) : conf := mkConf root 12 13 [7] false false false false false [] 13.
Definition rec (lvl ch : nat) (cr : bool) : record := mkRecord lvl ch cr false false false false true.
Definition fine (d : dest) (r : record) : bool := false.
Definition quietly (w : warning) : bool := false.
Definition even (w : warning) : bool := Nat.even w.

(** a start: records and warnings before the session, in between and after *)
Example C105_case :
  let l := [Log (rec 10 1 true); Warn 1; Log (rec 14 1 false); Ignore even; Make; Warn 2; Bind (Some 3) (Some 4);
            Log (rec 11 1 false); Log (rec 9 2 true); Capture; Warn 3; Warn 4] in
  let '(s, ok) := enter (cf true) fine quietly l true start in
  ok = true /\ at_place (DFile (3, false)) (out s) = [rec 11 1 false; rec 10 1 true; rec 14 1 false; rec 9 2 true] /\
  warns s = [3; 1] /\ at_place DStderr (out s) = [rec 14 1 false] /\ kept s = [].
Proof. vm_compute. auto 10. Qed.

Example C105_case_failed :
  let '(s, ok) := enter (cf true) fine quietly [Log (rec 12 1 false); Warn 1; Make; Log (rec 14 1 false)] false start in
  ok = false /\ at_place DConsole (out s) = [rec 14 1 false] /\ warns s = [] /\ kept_w s = [1].
Proof. vm_compute. auto 10. Qed.

Example C105_case_hook :
  snd (enter (cf true) fine even ([Warn 1; Warn 2] ++ Make :: [Warn 3]) true start) = false /\
  warns (fst (enter (cf true) fine even ([Warn 1; Warn 2] ++ Make :: [Warn 3]) true start)) = [1].
Proof. vm_compute. auto. Qed.

(** the records of the start are not filtered: what the log of the session
    would not take when logged in the session is there when logged before *)
Theorem C105_filter_refuted : exists c r,
  has_root c = true /\ wanted c r = false /\
  at_place (DFile (3, false)) (out (fst (enter c fine quietly [Log r; Make; Bind (Some 3) None] true start))) = [r] /\
  at_place (DFile (3, false)) (out (steps c fine quietly [Log r] (fst (enter c fine quietly [Make; Bind (Some 3) None] true start)))) = [].
Proof. exists (cf true), (rec 9 2 true). vm_compute. auto 10. Qed.

(** nor are the silenced loggers *)
Theorem C105_silenced_refuted : exists c r,
  has_root c = true /\ silent c r = true /\
  at_place (DFile (3, false)) (out (fst (enter c fine quietly [Log r; Make; Bind (Some 3) None] true start))) = [r].
Proof. exists (cf true), (rec 13 7 false). vm_compute. auto 10. Qed.

(** without a root for logs a successful start loses them, errors too: they are
    neither in a file nor on the console of the session or of the application *)
Theorem C105_no_root_refuted : exists c r,
  level r = ERROR /\ snd (enter c fine quietly [Log r; Make; Bind (Some 3) None] true start) = true /\
  (forall d, d <> DStderr -> at_place d (out (fst (enter c fine quietly [Log r; Make; Bind (Some 3) None] true start))) = []) /\
  kept (fst (enter c fine quietly [Log r; Make; Bind (Some 3) None] true start)) = [].
Proof.
  exists (cf false), (rec 14 1 false). split; [reflexivity|]. split; [vm_compute; reflexivity|]. split; [|vm_compute; reflexivity].
  intros d N. set (o := out _). assert (E : o = [(DStderr, rec 14 1 false)]) by (vm_compute; reflexivity). rewrite E. unfold at_place.
  cbn [List.filter fst]. destruct (dest_dec DStderr d) as [X|_]; [congruence|reflexivity].
Qed.

(** the log is not in the order of time: what is logged while the session is
    activated stands before what was logged earlier *)
Theorem C105_order_refuted : exists c r1 r2,
  at_place (DFile (3, false)) (out (fst (enter c fine quietly [Log r1; Make; Bind (Some 3) None; Log r2] true start))) = [r2; r1] /\
  r1 <> r2.
Proof. exists (cf true), (rec 13 1 false), (rec 13 2 false). split; [vm_compute; reflexivity|discriminate]. Qed.

(** in a start that fails early an error is on the terminal twice: by the handler
    of main at once, and by the console handler of the application at the end *)
Theorem C105_twice_refuted : exists c r,
  out (fst (enter c fine quietly [Log r] false start)) = [(DStderr, r); (DConsole, r)].
Proof. exists (cf true), (rec 14 1 false). vm_compute. reflexivity. Qed.

(** a handler that fails on a record: the records before it are written again *)
Theorem C105_again_refuted : exists c raises r1 r2,
  snd (enter c raises quietly [Log r1; Log r2; Make; Bind (Some 3) None] true start) = false /\
  at_place (DFile (3, false)) (out (fst (enter c raises quietly [Log r1; Log r2; Make; Bind (Some 3) None] true start))) = [r1; r1] /\
  kept (fst (enter c raises quietly [Log r1; Log r2; Make; Bind (Some 3) None] true start)) = [r1; r2].
Proof.
  exists (cf true), (fun d r => match d with DFile _ => Nat.eqb (channel r) 2 | _ => false end), (rec 13 1 false), (rec 13 2 false).
  vm_compute. auto 10.
Qed.

(** a start that fails loses the warnings: a session that was made does not get them *)
Theorem C105_lost_refuted : exists c l w,
  In (Warn w) l /\ In Make l /\ ~ In w (warns (fst (enter c fine quietly l false start))) /\
  out (fst (enter c fine quietly l false start)) = [].
Proof. exists (cf true), [Warn 1; Make], 1. vm_compute. auto 10. Qed.

(** a record of the level of warnings is a warning of the session when logged in
    it ([DWarning]), but not when it was logged before *)
Theorem C105_logged_refuted : exists c r,
  level r = WARNING /\
  at_place DWarning (out (fst (enter c fine quietly [Log r; Make; Bind (Some 3) None; Capture] true start))) = [] /\
  at_place DWarning (out (fst (enter c fine quietly [Make; Bind (Some 3) None; Capture; Log r] true start))) = [r].
Proof. exists (cf true), (rec 13 1 false). vm_compute. auto 10. Qed.

(** the filters of the end count for the warnings of the start: a warning raised
    before it was ignored is dropped, one raised in the session is kept *)
Theorem C105_late_filter_refuted : exists c w f, f w = true /\
  warns (fst (enter c fine quietly [Warn w; Make; Bind None None; Capture; Ignore f] true start)) = [] /\
  warns (fst (enter c fine quietly [Make; Bind None None; Capture; Warn w; Ignore f] true start)) = [w].
Proof. exists (cf true), 2, even. vm_compute. auto 10. Qed.

(** an Application used again: the second session gets the warnings of the first
    start again, and a second start that fails early writes to the log of the
    first session instead of the console *)
Theorem C105_reuse_refuted : exists c l w r,
  warned l = [w] /\
  let s := fst (enter c fine quietly l true start) in
  warns (fst (enter c fine quietly [Make; Bind (Some 5) None; Capture] true (reenter s))) = [w] /\
  at_place DConsole (out (fst (enter c fine quietly [Log r] false (reenter s)))) = [] /\
  at_place (DFile (3, false)) (out (fst (enter c fine quietly [Log r] false (reenter s)))) = [r].
Proof. exists (cf true), [Warn 1; Make; Bind (Some 3) None; Capture], 1, (rec 14 1 false). vm_compute. auto 10. Qed.

Print Assumptions C105_session_log.
Print Assumptions C105_console.
Print Assumptions C105_terminal.
Print Assumptions C105_released.
Print Assumptions C105_warnings.
Print Assumptions C105_hook.
Print Assumptions C105_warnings_failed.

Print Assumptions C105_filter_refuted.
Print Assumptions C105_silenced_refuted.
Print Assumptions C105_no_root_refuted.
Print Assumptions C105_order_refuted.
Print Assumptions C105_twice_refuted.
Print Assumptions C105_again_refuted.
Print Assumptions C105_lost_refuted.
Print Assumptions C105_logged_refuted.
Print Assumptions C105_late_filter_refuted.
Print Assumptions C105_reuse_refuted.
