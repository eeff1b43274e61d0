(** C153: what the function of a fixture finds when it is called. *)

From Coq Require Import List Bool Arith.
From Verif Require Import FixtureCall.
Import ListNotations.

(** [g] is [f] or one of the fixtures it needs, directly or not *)
Inductive needed : fx -> fx -> Prop :=
| n_self f : needed f f
| n_arg id scope this args body raises a g : In a args -> needed a g -> needed (Fx id scope this args body raises) g.

Section Ind.
Variable P : fx -> Prop.
Hypothesis H : forall id scope this args body raises, Forall P args -> P (Fx id scope this args body raises).
Fixpoint fx_rec (f : fx) : P f :=
  match f with
  | Fx id scope this args body raises => H id scope this args body raises
      ((fix all l : Forall P l := match l with [] => Forall_nil P | a :: l => Forall_cons a (fx_rec a) (all l) end) args)
  end.
End Ind.

(** an event of one of the fixtures [f] needs, as it has to be *)
Definition proper (session : bool) (before : option nat) (f : fx) (e : event) : Prop :=
  exists id scope this args body raises, needed f (Fx id scope this args body raises) /\
    let d := if session then Some scope else before in
    match e with
    | Body i t c s => i = id /\ t = (if this then Some id else None) /\ c = Some id /\ s = d
    | Added i s => i = id /\ s = d /\ In Cleanup body
    | AddedTo i t => i = id /\ t = Some id /\ In Own body
    end.

(** a call that leaves things as they were, whatever happened in between *)
Definition neat (session : bool) (P : event -> Prop) (st st' : state) : Prop :=
  ctx st' = ctx st /\ default st' = default st /\ computing st' = computing st /\ exists l, log st' = log st ++ l /\ Forall P l.

Lemma acts id (P : event -> Prop) body : forall st, (forall a, In a body -> P (match a with Cleanup => Added id (default st) | Own => AddedTo id (ctx st) end)) ->
  let st' := fold_left (do_act id) body st in
  active st' = active st /\ computing st' = computing st /\ ctx st' = ctx st /\ default st' = default st /\ exists l, log st' = log st ++ l /\ Forall P l.
Proof.
  induction body as [|a body IH]; intros st H st'; unfold st'.
  - cbn. repeat split. exists []. rewrite app_nil_r. auto.
  - cbn [fold_left]. destruct (IH (do_act id st a)) as (A & B & D & E & l & L & F); [intros x I; apply (H x); right; exact I|].
    cbn [do_act active computing ctx default log] in *. repeat split; auto. exists ([match a with Cleanup => Added id (default st) | Own => AddedTo id (ctx st) end] ++ l).
    rewrite app_assoc. split; [exact L|]. constructor; [apply H; left; reflexivity|exact F].
Qed.

Lemma remove_head id l : existsb (Nat.eqb id) l = false -> remove Nat.eq_dec id (id :: l) = l.
Proof.
  intros H. cbn. destruct (Nat.eq_dec id id) as [_|N]; [|congruence]. apply notin_remove. intros I.
  assert (existsb (Nat.eqb id) l = true) by (apply existsb_exists; exists id; split; [exact I|apply Nat.eqb_refl]). congruence.
Qed.

(** Whatever fixtures a fixture needs and whatever their functions do, each function that is called finds its own fixture as
    context.fixture and, if it asks for it, as "this"; the cleanups it adds without a scope are added to its fixture's scope (in a
    session), those it adds to the fixture to its own.  Afterwards, however it ended, context.fixture and the default scope are
    those before. *)
Theorem C153_found session f st st' ok : compute session f st = (st', ok) ->
  ctx st' = ctx st /\ default st' = default st /\ computing st' = computing st /\
  exists l, log st' = log st ++ l /\ Forall (proper session (default st) f) l.
Proof.
  change (compute session f st = (st', ok) -> neat session (proper session (default st) f) st st').
  revert st st' ok. induction f as [id scope this args body raises IH] using fx_rec. intros st st' ok. cbn [compute].
  assert (Z : forall P s, neat session P s s) by (intros P s; repeat split; exists []; rewrite app_nil_r; auto).
  destruct (existsb (Nat.eqb id) (computing st)) eqn:EC; [intros Q; injection Q as <- _; apply Z|].
  destruct (existsb (Nat.eqb id) (active st)) eqn:EA; [intros Q; injection Q as <- _; apply Z|].
  set (f := Fx id scope this args body raises) in *.
  set (all := fix all (l : list fx) (st : state) := match l with [] => (st, true) | a :: l => let '(st, ok) := compute session a st in if ok then all l st else (st, false) end).
  set (st0 := mkState (active st) (id :: computing st) (ctx st) (default st) (log st)).
  assert (A : forall l s s' o, Forall (fun a => forall st st' ok, compute session a st = (st', ok) -> neat session (proper session (default st) a) st st') l ->
    (forall a, In a l -> In a args) -> all l s = (s', o) -> default s = default st -> neat session (proper session (default st) f) s s').
  { induction l as [|a l IHl]; intros s s' o F I; cbn [all].
    - intros Q _. injection Q as <- _. apply Z.
    - inversion F as [|x y F1 F2]; subst. destruct (compute session a s) as [s1 o1] eqn:E1. specialize (F1 _ _ _ E1). intros Q D.
      assert (N1 : neat session (proper session (default st) f) s s1).
      { destruct F1 as (A1 & A2 & A3 & l1 & L1 & P1). repeat split; auto. exists l1. split; [exact L1|]. rewrite D in P1. revert P1. apply Forall_impl.
        intros e (i & sc & t & ar & b & r & N & R). exists i, sc, t, ar, b, r. split; [|exact R]. apply (n_arg _ _ _ _ _ _ a); [apply I; left; reflexivity|exact N]. }
      destruct o1; [|injection Q as <- _; exact N1].
      assert (N2 : neat session (proper session (default st) f) s1 s').
      { apply (IHl s1 s' o F2); [intros x J; apply I; right; exact J|exact Q|]. destruct N1 as (_ & D1 & _). congruence. }
      destruct N1 as (A1 & A2 & A3 & l1 & L1 & P1), N2 as (B1 & B2 & B3 & l2 & L2 & P2). repeat split; try congruence.
      exists (l1 ++ l2). rewrite app_assoc, <- L1. split; [exact L2|]. apply Forall_app. auto. }
  destruct (all args st0) as [s1 o1] eqn:E1. specialize (A args st0 s1 o1 IH (fun a I => I) E1 eq_refl).
  destruct A as (A1 & A2 & A3 & l1 & L1 & P1). cbn [st0 ctx default computing log] in A1, A2, A3, L1.
  assert (FIN : forall s2 o2, neat session (proper session (default st) f) s1 s2 -> neat session (proper session (default st) f) st (fst (finish id (s2, o2)))).
  { intros s2 o2 (B1 & B2 & B3 & l2 & L2 & P2). cbn [finish fst]. unfold neat. cbn [ctx default computing log]. split; [congruence|]. split; [congruence|].
    split; [rewrite B3, A3; apply remove_head; exact EC|]. exists (l1 ++ l2). rewrite app_assoc, <- L1. split; [exact L2|]. apply Forall_app. auto. }
  assert (BODY : forall s2 o2, (if o1 then call_body session id scope this body raises s1 else (s1, false)) = (s2, o2) -> neat session (proper session (default st) f) s1 s2).
  { intros s2 o2. destruct o1; [|intros Q; injection Q as <- _; apply Z]. unfold call_body. destruct (existsb (Nat.eqb id) (active s1)); [intros Q; injection Q as <- _; apply Z|].
    unfold get_value. cbn [active computing ctx default log].
    set (d := if session then Some scope else default s1).
    assert (Hd : d = if session then Some scope else default st) by (unfold d; rewrite A2; reflexivity).
    set (s3 := mkState (id :: active s1) (computing s1) (Some id) d (log s1 ++ [Body id (if this then Some id else None) (Some id) d])).
    assert (X : forall e, match e with Body i t c s => i = id /\ t = (if this then Some id else None) /\ c = Some id /\ s = d
       | Added i s => i = id /\ s = d /\ In Cleanup body | AddedTo i t => i = id /\ t = Some id /\ In Own body end -> proper session (default st) f e).
    { intros e Q. exists id, scope, this, args, body, raises. split; [constructor|]. rewrite <- Hd. exact Q. }
    destruct (acts id (proper session (default st) f) body s3) as (B1 & B2 & B3 & B4 & l2 & L2 & P2).
    { intros [|] I; apply X; cbn; auto. }
    intros Q. injection Q as <- _. unfold neat. cbn [ctx default computing log]. split; [reflexivity|]. split; [destruct session; [reflexivity|rewrite B4; reflexivity]|].
    split; [exact B2|]. exists ([Body id (if this then Some id else None) (Some id) d] ++ l2). rewrite app_assoc. split; [exact L2|]. constructor; [apply X; auto|exact P2]. }
  destruct (if o1 then call_body session id scope this body raises s1 else (s1, false)) as [s2 o2] eqn:E2. intros Q.
  specialize (FIN s2 o2 (BODY s2 o2 eq_refl)). rewrite Q in FIN. exact FIN.
Qed.
Print Assumptions C153_found.

(** If all goes well, the function of a fixture that was not active has been called, and has done all it does. *)
Theorem C153_called session id scope this args body raises st st' :
  ~ In id (active st) -> compute session (Fx id scope this args body raises) st = (st', true) ->
  raises = false /\ In id (active st') /\
  let d := if session then Some scope else default st in
  exists l, log st' = l ++ Body id (if this then Some id else None) (Some id) d :: map (fun a => match a with Cleanup => Added id d | Own => AddedTo id (Some id) end) body.
Proof.
  intros N. cbn [compute]. destruct (existsb (Nat.eqb id) (computing st)) eqn:EC; [discriminate|].
  destruct (existsb (Nat.eqb id) (active st)) eqn:EA; [apply existsb_exists in EA as (x & I & Q); apply Nat.eqb_eq in Q; subst; contradiction|].
  set (all := fix all (l : list fx) (st : state) := match l with [] => (st, true) | a :: l => let '(st, ok) := compute session a st in if ok then all l st else (st, false) end).
  set (st0 := mkState (active st) (id :: computing st) (ctx st) (default st) (log st)).
  assert (D : forall l s s' o, all l s = (s', o) -> default s' = default s).
  { induction l as [|a l IH]; intros s s' o; cbn [all]; [congruence|]. destruct (compute session a s) as [s1 o1] eqn:E. apply C153_found in E as (_ & E & _).
    destruct o1; [intros Q; rewrite <- E; exact (IH _ _ _ Q)|intros Q; injection Q as <- _; exact E]. }
  destruct (all args st0) as [s1 [|]] eqn:E1; [|discriminate]. apply D in E1. cbn [st0 default] in E1.
  unfold call_body. destruct (existsb (Nat.eqb id) (active s1)); [discriminate|]. unfold get_value. cbn [active computing ctx default log]. rewrite E1.
  set (d := if session then Some scope else default st). unfold finish. intros Q.
  assert (G : forall b s, log (fold_left (do_act id) b s) = log s ++ map (fun a => match a with Cleanup => Added id (default s) | Own => AddedTo id (ctx s) end) b /\ active (fold_left (do_act id) b s) = active s).
  { induction b as [|a b IH]; intros s; cbn [fold_left map]; [rewrite app_nil_r; auto|]. destruct (IH (do_act id s a)) as [-> ->]. cbn [do_act log default ctx active]. rewrite <- app_assoc. split; reflexivity. }
  injection Q as Q R. destruct raises; [discriminate|]. split; [reflexivity|]. subst st'. cbn [active log negb].
  match goal with |- context [fold_left (do_act id) body ?s] => destruct (G body s) as [L A] end. rewrite L, A. cbn [active log default ctx].
  split; [left; reflexivity|]. exists (log s1). rewrite <- app_assoc. reflexivity.
Qed.
Print Assumptions C153_called.

(** A computation that ends well called no function that raises. *)
Theorem C153_none_raised session f st st' : compute session f st = (st', true) ->
  exists l, log st' = log st ++ l /\
    forall i t c d, In (Body i t c d) l -> exists scope this args body, needed f (Fx i scope this args body false).
Proof.
  revert st st'. induction f as [id scope this args body raises IH] using fx_rec. intros st st'. cbn [compute].
  destruct (existsb (Nat.eqb id) (computing st)) eqn:EC; [discriminate|].
  destruct (existsb (Nat.eqb id) (active st)) eqn:EA; [intros Q; injection Q as <-; exists []; rewrite app_nil_r; split; [reflexivity|intros i t c d []]|].
  set (f := Fx id scope this args body raises) in *.
  set (all := fix all (l : list fx) (st : state) := match l with [] => (st, true) | a :: l => let '(st, ok) := compute session a st in if ok then all l st else (st, false) end).
  set (st0 := mkState (active st) (id :: computing st) (ctx st) (default st) (log st)).
  assert (A : forall l s s', Forall (fun a => forall st st', compute session a st = (st', true) -> exists l, log st' = log st ++ l /\
      forall i t c d, In (Body i t c d) l -> exists scope this args body, needed a (Fx i scope this args body false)) l ->
    (forall a, In a l -> In a args) -> all l s = (s', true) -> exists k, log s' = log s ++ k /\
      forall i t c d, In (Body i t c d) k -> exists scope this args body, needed f (Fx i scope this args body false)).
  { induction l as [|a l IHl]; intros s s' F I; cbn [all].
    - intros Q. injection Q as <-. exists []. rewrite app_nil_r. split; [reflexivity|intros i t c d []].
    - inversion F as [|x y F1 F2]; subst. destruct (compute session a s) as [s1 [|]] eqn:E1; [|discriminate]. destruct (F1 _ _ E1) as (k1 & L1 & P1). intros Q.
      destruct (IHl s1 s' F2 (fun x J => I x (or_intror J)) Q) as (k2 & L2 & P2). exists (k1 ++ k2). rewrite app_assoc, <- L1. split; [exact L2|].
      intros i t c d J. apply in_app_iff in J as [J|J]; [|exact (P2 _ _ _ _ J)]. destruct (P1 _ _ _ _ J) as (sc & th & ar & b & N). exists sc, th, ar, b.
      apply (n_arg _ _ _ _ _ _ a); [apply I; left; reflexivity|exact N]. }
  destruct (all args st0) as [s1 [|]] eqn:E1; [|discriminate]. destruct (A args st0 s1 IH (fun a I => I) E1) as (k1 & L1 & P1). cbn [st0 log] in L1.
  unfold call_body. destruct (existsb (Nat.eqb id) (active s1)); [discriminate|]. unfold get_value, finish. cbn [active computing ctx default log].
  set (d := if session then Some scope else default s1).
  set (s3 := mkState (id :: active s1) (computing s1) (Some id) d (log s1 ++ [Body id (if this then Some id else None) (Some id) d])).
  destruct (acts id (fun e => match e with Body _ _ _ _ => False | _ => True end) body s3) as (_ & _ & _ & _ & k2 & L2 & P2); [intros [|] _; exact Logic.I|].
  intros Q. injection Q as Q R. subst st'. cbn [log]. destruct raises; [discriminate|]. exists (k1 ++ [Body id (if this then Some id else None) (Some id) d] ++ k2).
  rewrite L2. cbn [s3 log]. rewrite L1, <- !app_assoc. split; [reflexivity|]. intros i t c d' J. apply in_app_iff in J as [J|[J|J]].
  - exact (P1 _ _ _ _ J).
  - injection J as <- _ _ _. exists scope, this, args, body. constructor.
  - rewrite Forall_forall in P2. destruct (P2 _ J).
Qed.
Print Assumptions C153_none_raised.

(** A fixture that could not be computed is not active. *)
Theorem C153_failed session id scope this args body raises st st' :
  ~ In id (computing st) -> compute session (Fx id scope this args body raises) st = (st', false) -> ~ In id (active st').
Proof.
  intros N. cbn [compute]. destruct (existsb (Nat.eqb id) (computing st)) eqn:EC; [apply existsb_exists in EC as (x & I & Q); apply Nat.eqb_eq in Q; subst; contradiction|].
  destruct (existsb (Nat.eqb id) (active st)); [discriminate|].
  match goal with |- finish id ?r = _ -> _ => destruct r as [s [|]] end; unfold finish; [discriminate|]. intros Q. injection Q as <-. cbn [active]. apply remove_In.
Qed.
Print Assumptions C153_failed.

(** without a session the cleanups of a fixture are added to the scope that happens to be the default *)
Theorem C153_scope_refuted : exists f st, log (fst (compute false f st)) = [Body 1 None (Some 1) None; Added 1 None] /\
  log (fst (compute true f st)) = [Body 1 None (Some 1) (Some 2); Added 1 (Some 2)].
Proof. exists (Fx 1 2 false [] [Cleanup] false), (mkState [] [] None None []). split; reflexivity. Qed.
Print Assumptions C153_scope_refuted.

(** a fixture of a test (scope 0) that needs one of the session (scope 2), both asking for "this"; then one whose argument raises *)
Example C153_ex :
  let inner := Fx 1 2 true [] [Cleanup; Own] false in
  let st := mkState [] [] (Some 9) (Some 1) [] in
  compute true (Fx 2 0 true [inner; inner] [Own; Cleanup] false) st =
    (mkState [2; 1] [] (Some 9) (Some 1)
      [Body 1 (Some 1) (Some 1) (Some 2); Added 1 (Some 2); AddedTo 1 (Some 1); Body 2 (Some 2) (Some 2) (Some 0); AddedTo 2 (Some 2); Added 2 (Some 0)], true) /\
  compute true (Fx 2 0 true [Fx 3 0 false [] [Cleanup] true; inner] [Own; Cleanup] false) st = (mkState [] [] (Some 9) (Some 1) [Body 3 None (Some 3) (Some 0); Added 3 (Some 0)], false).
Proof. split; reflexivity. Qed.
