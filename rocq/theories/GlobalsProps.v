(** C115: what slash.g, slash.session and the other proxies stand for. *)

From Coq Require Import List Bool Arith Ascii String Lia.
From Verif Require Import Str Plugins PluginsProps Globals.
Import ListNotations.
Open Scope list_scope.

(** the names of slash/ctx.py:132-136 *)
Definition NAMES : list str := [lit "session"; lit "test"; lit "test_id"; lit "g"; lit "internal_globals"].

(** without a context nothing can be read or written, and nothing is changed *)
Theorem C115_null w name a x : stack w = [] -> In name NAMES ->
  proxy_eq name None_ w = Some true /\ proxy_get name a w = AttributeErr /\ proxy_set name a x w = (w, AttributeErr) /\ context_set a x w = (w, AttributeErr).
Proof.
  intros S I. unfold proxy_eq, proxy_get, proxy_set, context_set, context_get. rewrite S.
  destruct I as [<-|[<-|[<-|[<-|[<-|[]]]]]]; repeat split.
Qed.

(** in a new context there is no session and no test, and slash.g is empty *)
Theorem C115_fresh w a : proxy_get (lit "g") a (push w) = AttributeErr /\ proxy_get (lit "internal_globals") a (push w) = AttributeErr /\
  forall name, In name [lit "session"; lit "test"; lit "test_id"] -> proxy_eq name None_ (push w) = Some true.
Proof.
  assert (G : context_get (lit "g") (push w) = Val (Obj (S (fresh w)))).
  { unfold context_get, push. cbn [stack]. unfold ctx_get, plain. cbn [dicts]. rewrite Nat.eqb_refl. reflexivity. }
  assert (I : context_get (lit "internal_globals") (push w) = Val (Obj (S (S (fresh w))))).
  { unfold context_get, push. cbn [stack]. unfold ctx_get, plain. cbn [dicts]. rewrite Nat.eqb_refl. reflexivity. }
  split; [|split].
  - unfold proxy_get. rewrite G. unfold get_attr, push. cbn [dicts]. destruct (Nat.eqb_spec (S (fresh w)) (fresh w)); [lia|]. destruct (Nat.ltb_spec (fresh w) (S (fresh w))); [reflexivity|lia].
  - unfold proxy_get. rewrite I. unfold get_attr, push. cbn [dicts]. destruct (Nat.eqb_spec (S (S (fresh w))) (fresh w)); [lia|]. destruct (Nat.ltb_spec (fresh w) (S (S (fresh w)))); [reflexivity|lia].
  - intros name J. unfold proxy_eq, context_get, push. cbn [stack]. unfold ctx_get, plain. cbn [dicts]. rewrite Nat.eqb_refl.
    destruct J as [<-|[<-|[<-|[]]]]; reflexivity.
Qed.

(** ** A session within a session *)

(** operations that leave as many contexts as there were, and never fewer *)
Inductive balanced : list op -> Prop :=
| bal_nil : balanced []
| bal_one o l : o <> Push -> o <> Pop -> balanced l -> balanced (o :: l)
| bal_pair l m : balanced l -> balanced m -> balanced (Push :: l ++ Pop :: m).

(** the objects that operations mention *)
Definition mentions (o : op) (p : nat) : Prop := match o with SetContext _ x | Set_ _ _ x => x = Obj p | _ => False end.

(** the world is closed: objects that exist only know objects that exist *)
Definition closed (w : world) : Prop :=
  (forall c, In c (stack w) -> c < fresh w) /\ (forall o a p, o < fresh w -> In (a, Obj p) (dicts w o) -> p < fresh w) /\ (forall o, fresh w <= o -> dicts w o = []).

Lemma s_set_in {V} k (v : V) d x : In x (s_set k v d) -> x = (k, v) \/ In x d.
Proof.
  induction d as [|[j w] d IH]; cbn [s_set]; [intros [<-|[]]; left; reflexivity|]. destruct (str_eqb k j); intros [<-|I].
  - left. reflexivity.
  - right. right. exact I.
  - right. left. reflexivity.
  - destruct (IH I) as [->|J]; [left; reflexivity|right; right; exact J].
Qed.

Lemma s_get_entry {V} k (v : V) d : s_get k d = Some v -> exists k', In (k', v) d.
Proof.
  induction d as [|[j w] d IH]; cbn [s_get]; [discriminate|]. destruct (str_eqb k j).
  - intros H. injection H as ->. exists j. left. reflexivity.
  - intros H. destruct (IH H) as (k' & I). exists k'. right. exact I.
Qed.

(** what can be read: values of a predicate, if all entries of the objects that satisfy it do *)
Lemma get_attr_ok (P : nat -> Prop) w v a x : (forall o a p, P o -> In (a, Obj p) (dicts w o) -> P p) -> (forall p, v = Obj p -> P p) ->
  get_attr v a w = Val x -> forall p, x = Obj p -> P p.
Proof.
  intros C H G p ->. destruct v as [|n|s| |o]; try discriminate. cbn [get_attr] in G. destruct (s_get a (dicts w o)) as [y|] eqn:E; [|discriminate].
  injection G as ->. destruct (s_get_entry _ _ _ E) as (k & I). apply (C o k p); [apply H; reflexivity|exact I].
Qed.

Lemma context_get_ok (P : nat -> Prop) w name v : (forall o a p, P o -> In (a, Obj p) (dicts w o) -> P p) -> (forall c s, stack w = c :: s -> P c) ->
  context_get name w = Val v -> forall p, v = Obj p -> P p.
Proof.
  intros C S. unfold context_get. destruct (stack w) as [|c s].
  { destruct (str_eqb name (lit "reporter")); [intros X p ->; discriminate X|]. destruct (s_mem name null_none); [intros X p ->; discriminate X|discriminate]. }
  specialize (S c s eq_refl). unfold ctx_get.
  assert (PL : forall a x, plain c w a = Val x -> forall p, x = Obj p -> P p).
  { intros a x H p ->. unfold plain in H. destruct (s_get a (dicts w c)) as [y|] eqn:E; [|destruct (s_mem a class_none); discriminate].
    injection H as ->. destruct (s_get_entry _ _ _ E) as (k & I). apply (C c k p S I). }
  destruct (str_eqb name (lit "session_id")).
  { destruct (plain c w (lit "session")) as [u| | |] eqn:E; try discriminate. destruct u; [intros X p ->; discriminate X|..]; apply (get_attr_ok P w _ _ v C (PL _ _ E)). }
  destruct (str_eqb name (lit "reporter")).
  { destruct (plain c w (lit "session")) as [u| | |] eqn:E; try discriminate. destruct u; [intros X p ->; discriminate X|..]; apply (get_attr_ok P w _ _ v C (PL _ _ E)). }
  destruct (str_eqb name (lit "test_filename")).
  { destruct (plain c w (lit "test")) as [u| | |] eqn:E; try discriminate. destruct u as [|k|t| |o]; [intros X p ->; discriminate X|..];
    match goal with |- context [get_attr ?u (lit "__slash__") w] => destruct (get_attr u (lit "__slash__") w) as [m| | |] eqn:G end; try discriminate; apply (get_attr_ok P w _ _ v C (get_attr_ok P w _ _ m C (PL _ _ E) G)). }
  apply PL.
Qed.

Lemma put_closed o a x w : closed w -> o < fresh w -> (forall p, x = Obj p -> p < fresh w) -> closed (put o a x w).
Proof.
  intros (A & B & D) L X. unfold put. split; [exact A|]. cbn [dicts fresh]. split.
  - intros q b p Q I. destruct (Nat.eqb_spec q o) as [->|]; [|apply (B q b p Q I)]. apply s_set_in in I as [I|I]; [|apply (B o b p L I)]. injection I as _ I. apply X. symmetry. exact I.
  - intros q Q. destruct (Nat.eqb_spec q o) as [->|]; [lia|apply D; exact Q].
Qed.

(** a step that mentions only objects that exist leaves a closed world, with no fewer objects *)
Lemma step_closed w o : closed w -> (forall p, mentions o p -> p < fresh w) -> closed (fst (step w o)) /\ fresh w <= fresh (fst (step w o)).
Proof.
  intros C M. pose proof C as (A & B & D). destruct o as [| | |a x|name a|name a x]; cbn [step fst].
  - split; [|cbn; lia]. unfold push, closed. cbn [stack dicts fresh]. split; [intros c [<-|I]; [lia|specialize (A c I); lia]|]. split.
    + intros o a p L I. destruct (Nat.eqb_spec o (fresh w)) as [->|N]; [destruct I as [I|[I|[]]]; injection I as _ <-; lia|].
      destruct (Nat.ltb_spec (fresh w) o); [destruct I|]. assert (X : p < fresh w) by (apply (B o a p); [lia|exact I]). lia.
    + intros o L. destruct (Nat.eqb_spec o (fresh w)); [lia|]. destruct (Nat.ltb_spec (fresh w) o); [reflexivity|lia].
  - unfold pop. destruct (stack w) as [|c s] eqn:S; cbn [fst]; [split; [exact C|lia]|]. split; [|cbn; lia]. split; [|split; assumption]. intros d I. apply A. right. exact I.
  - split; [|cbn; lia]. unfold closed. cbn [stack dicts fresh]. split; [intros c I; specialize (A c I); lia|]. split.
    + intros o a p L I. destruct (Nat.eqb_spec o (fresh w)) as [->|N]; [destruct I|]. assert (X : p < fresh w) by (apply (B o a p); [lia|exact I]). lia.
    + intros o L. destruct (Nat.eqb_spec o (fresh w)); [reflexivity|]. apply D. lia.
  - unfold context_set. destruct (stack w) as [|c s] eqn:S; cbn [fst]; [split; [exact C|lia]|]. destruct (s_mem a computed); cbn [fst]; [split; [exact C|lia]|].
    split; [|cbn; lia]. apply put_closed; [exact C|apply A; left; reflexivity|]. intros p ->. apply M. reflexivity.
  - split; [exact C|lia].
  - unfold proxy_set. destruct (context_get name w) as [v| | |] eqn:G; cbn [fst]; try (split; [exact C|lia]). unfold set_attr. destruct v as [|n|t| |o]; cbn [fst]; try (split; [exact C|lia]).
    split; [|cbn; lia]. apply put_closed; [exact C| |intros p ->; apply M; reflexivity].
    apply (context_get_ok (fun o => o < fresh w) w name (Obj o)); [intros; eapply B; eassumption|intros c s S; apply A; rewrite S; left; reflexivity|exact G|reflexivity].
Qed.

(** histories: every operation mentions only objects that exist at that time *)
Fixpoint proper (w : world) (ops : list op) : Prop :=
  match ops with [] => True | o :: ops => (forall p, mentions o p -> p < fresh w) /\ proper (fst (step w o)) ops end.

Lemma run_app w a b : run w (a ++ b) = run (run w a) b.
Proof. apply fold_left_app. Qed.

Lemma proper_app w a b : proper w (a ++ b) <-> proper w a /\ proper (run w a) b.
Proof. revert w. induction a as [|o a IH]; intros w; cbn [app proper run fold_left]; [tauto|]. rewrite IH. unfold run. tauto. Qed.

Lemma run_closed ops w : closed w -> proper w ops -> closed (run w ops).
Proof. revert w. induction ops as [|o ops IH]; intros w C P; [exact C|]. destruct P as [P Q]. apply IH; [|exact Q]. apply step_closed; assumption. Qed.

Lemma closed0 : closed world0.
Proof. split; [intros c []|]. split; [intros o a p _ []|reflexivity]. Qed.

(** what an inner context is while it runs: the objects from [n] on never know an older one, and the older ones are as they were *)
Record inside (n : nat) (w w' : world) : Prop := mkInside {
  in_old : forall o, o < n -> dicts w' o = dicts w o;
  in_new : forall o a p, n <= o -> In (a, Obj p) (dicts w' o) -> n <= p;
  in_fresh : n <= fresh w';
  in_closed : closed w' }.

Lemma inside_step n w w' o : inside n w w' -> (forall c s, stack w' = c :: s -> n <= c) -> (forall p, mentions o p -> n <= p < fresh w') -> inside n w (fst (step w' o)).
Proof.
  intros [IO IN IF IC] T M. destruct (step_closed w' o IC) as [C F]; [intros p X; apply (M p X)|]. split; [| |lia|exact C].
  - intros q Q. destruct o as [| | |a x|name a|name a x]; cbn [step fst].
    + unfold push. cbn [dicts]. destruct (Nat.eqb_spec q (fresh w')); [lia|]. destruct (Nat.ltb_spec (fresh w') q); [lia|apply IO; exact Q].
    + unfold pop. destruct (stack w'); apply IO; exact Q.
    + cbn [dicts]. destruct (Nat.eqb_spec q (fresh w')); [lia|apply IO; exact Q].
    + unfold context_set. destruct (stack w') as [|c s] eqn:S; [apply IO; exact Q|]. destruct (s_mem a computed); [apply IO; exact Q|]. unfold put. cbn [fst dicts].
      destruct (Nat.eqb_spec q c) as [->|]; [specialize (T c s eq_refl); lia|apply IO; exact Q].
    + apply IO. exact Q.
    + unfold proxy_set. destruct (context_get name w') as [v| | |] eqn:G; try (apply IO; exact Q). unfold set_attr. destruct v as [|k|t| |o]; try (apply IO; exact Q).
      unfold put. cbn [fst dicts]. destruct (Nat.eqb_spec q o) as [->|]; [|apply IO; exact Q].
      assert (X : n <= o) by (apply (context_get_ok (fun o => n <= o) w' name (Obj o) IN T G); reflexivity). lia.
  - intros q b p Q I. destruct o as [| | |a x|name a|name a x]; cbn [step fst] in I.
    + unfold push in I. cbn [dicts] in I. destruct (Nat.eqb_spec q (fresh w')); [destruct I as [I|[I|[]]]; injection I as _ <-; lia|].
      destruct (Nat.ltb_spec (fresh w') q); [destruct I|apply (IN q b p Q I)].
    + unfold pop in I. destruct (stack w'); apply (IN q b p Q I).
    + cbn [dicts] in I. destruct (Nat.eqb_spec q (fresh w')); [destruct I|apply (IN q b p Q I)].
    + unfold context_set in I. destruct (stack w') as [|c s] eqn:S; [apply (IN q b p Q I)|]. destruct (s_mem a computed); [apply (IN q b p Q I)|]. unfold put in I. cbn [fst dicts] in I.
      destruct (Nat.eqb_spec q c) as [->|]; [|apply (IN q b p Q I)]. apply s_set_in in I as [I|I]; [injection I as _ I; apply M; symmetry; exact I|apply (IN c b p Q I)].
    + apply (IN q b p Q I).
    + unfold proxy_set in I. destruct (context_get name w') as [v| | |] eqn:G; try apply (IN q b p Q I). unfold set_attr in I. destruct v as [|k|t| |o]; try apply (IN q b p Q I).
      unfold put in I. cbn [fst dicts] in I. destruct (Nat.eqb_spec q o) as [->|]; [|apply (IN q b p Q I)].
      apply s_set_in in I as [I|I]; [injection I as _ I; apply M; symmetry; exact I|apply (IN o b p Q I)].
Qed.

Lemma step_stack w o : o <> Push -> o <> Pop -> stack (fst (step w o)) = stack w.
Proof.
  intros N M. destruct o as [| | |a x|name a|name a x]; try contradiction; cbn [step fst]; [reflexivity| |reflexivity|].
  - unfold context_set. destruct (stack w) eqn:S; cbn [fst]; [exact S|]. destruct (s_mem a computed); cbn [fst]; exact S.
  - unfold proxy_set. destruct (context_get name w); try reflexivity. unfold set_attr. destruct v; reflexivity.
Qed.

Lemma balanced_stack ops : balanced ops -> forall w, stack (run w ops) = stack w.
Proof.
  intros B. induction B as [|o l N M B IH|l m B1 IH1 B2 IH2]; intros w; [reflexivity| |].
  - unfold run. cbn [fold_left]. fold (run (fst (step w o)) l). rewrite IH. apply step_stack; assumption.
  - change (Push :: l ++ Pop :: m) with ([Push] ++ l ++ [Pop] ++ m). rewrite !run_app, IH2. unfold run at 1. cbn [fold_left step]. unfold pop. rewrite IH1. reflexivity.
Qed.

Lemma inside_run n w ops : balanced ops -> forall w', inside n w w' -> (forall c s, stack w' = c :: s -> n <= c) -> proper w' ops ->
  (forall o p, In o ops -> mentions o p -> n <= p) -> inside n w (run w' ops).
Proof.
  intros B. induction B as [|o l N M B IH|l m B1 IH1 B2 IH2]; intros w' I T P O; [exact I| |].
  - destruct P as [P Q]. unfold run. cbn [fold_left]. apply IH.
    + apply inside_step; [exact I|exact T|]. intros p X. split; [apply (O o p); [left; reflexivity|exact X]|apply P; exact X].
    + rewrite step_stack by assumption. exact T.
    + exact Q.
    + intros q p J. apply O. right. exact J.
  - change (Push :: l ++ Pop :: m) with ([Push] ++ l ++ [Pop] ++ m) in *. rewrite !run_app. rewrite !proper_app in P. destruct P as (P1 & P2 & P3 & P4).
    assert (I1 : inside n w (run w' [Push])) by (apply (inside_step n w w' Push I T); intros p []).
    assert (T1 : forall c s, stack (run w' [Push]) = c :: s -> n <= c) by (intros c s X; cbn in X; injection X as <- _; apply (in_fresh _ _ _ I)).
    assert (I2 : inside n w (run (run w' [Push]) l)).
    { apply IH1; [exact I1|exact T1|exact P2|]. intros o p J. apply O. apply in_app_iff. right. apply in_app_iff. left. exact J. }
    assert (S2 : stack (run (run w' [Push]) l) = fresh w' :: stack w') by (rewrite (balanced_stack l B1); reflexivity).
    assert (I3 : inside n w (run (run (run w' [Push]) l) [Pop])) by (apply inside_step; [exact I2|intros c s X; rewrite S2 in X; injection X as <- _; apply (in_fresh _ _ _ I)|intros p []]).
    apply IH2; [exact I3| |exact P4|].
    + intros c s X. apply (T c s). rewrite <- X. unfold run at 1. cbn [fold_left step]. unfold pop. rewrite S2. reflexivity.
    + intros o p J. apply O. apply in_app_iff. right. apply in_app_iff. right. right. exact J.
Qed.

(** two worlds with the same stack whose old objects agree read the same, if the old objects know only old objects *)
Lemma get_attr_same n w w' v a : (forall o, o < n -> dicts w' o = dicts w o) -> (forall p, v = Obj p -> p < n) -> get_attr v a w' = get_attr v a w.
Proof. intros D H. destruct v; try reflexivity. cbn [get_attr]. rewrite D; [reflexivity|apply H; reflexivity]. Qed.

Lemma ctx_get_same n w w' c name : (forall o, o < n -> dicts w' o = dicts w o) -> (forall o a p, o < n -> In (a, Obj p) (dicts w o) -> p < n) -> c < n -> ctx_get c name w' = ctx_get c name w.
Proof.
  intros D C L. assert (PE : forall a, plain c w' a = plain c w a) by (intros a; unfold plain; rewrite (D c L); reflexivity). unfold ctx_get. rewrite !PE.
  assert (PL : forall a x, plain c w a = Val x -> forall p, x = Obj p -> p < n).
  { intros a x H p ->. unfold plain in H. destruct (s_get a (dicts w c)) as [y|] eqn:E; [|destruct (s_mem a class_none); discriminate].
    injection H as ->. destruct (s_get_entry _ _ _ E) as (k & I). apply (C c k p L I). }
  destruct (str_eqb name (lit "session_id")).
  { destruct (plain c w (lit "session")) as [u| | |] eqn:E; try reflexivity. destruct u; try reflexivity. apply (get_attr_same n); [exact D|apply (PL _ _ E)]. }
  destruct (str_eqb name (lit "reporter")).
  { destruct (plain c w (lit "session")) as [u| | |] eqn:E; try reflexivity. destruct u; try reflexivity. apply (get_attr_same n); [exact D|apply (PL _ _ E)]. }
  destruct (str_eqb name (lit "test_filename")); [|reflexivity].
  destruct (plain c w (lit "test")) as [u| | |] eqn:E; try reflexivity. destruct u; try reflexivity. rewrite (get_attr_same n w w'); [|exact D|apply (PL _ _ E)].
  destruct (get_attr (Obj o) (lit "__slash__") w) as [m| | |] eqn:G; try reflexivity. apply (get_attr_same n); [exact D|].
  apply (get_attr_ok (fun p => p < n) w (Obj o) (lit "__slash__") m C (PL _ _ E) G).
Qed.

(** whatever a session within a session does to its contexts and through the proxies, with its own objects: when it is
    over every attribute of every proxy reads as before *)
Theorem C115_isolated before ops : proper world0 before -> balanced ops -> let w := run world0 before in
  proper (push w) ops -> (forall o p, In o ops -> mentions o p -> fresh w <= p) ->
  let w2 := run w (Push :: ops ++ [Pop]) in
  stack w2 = stack w /\ forall name a, context_get name w2 = context_get name w /\ proxy_get name a w2 = proxy_get name a w.
Proof.
  intros P0 B w P O w2. assert (C : closed w) by (apply run_closed; [exact closed0|exact P0]). pose proof C as (A & K & E).
  assert (I0 : inside (fresh w) w (push w)).
  { destruct (step_closed w Push C) as [CP FP]; [intros p []|]. split; [| |exact FP|exact CP].
    - intros o L. unfold push. cbn [dicts]. destruct (Nat.eqb_spec o (fresh w)); [lia|]. destruct (Nat.ltb_spec (fresh w) o); [lia|reflexivity].
    - intros o a p L I. unfold push in I. cbn [dicts] in I. destruct (Nat.eqb_spec o (fresh w)); [destruct I as [I|[I|[]]]; injection I as _ <-; lia|].
      destruct (Nat.ltb_spec (fresh w) o); [destruct I|lia]. }
  assert (I1 : inside (fresh w) w (run (push w) ops)) by (apply inside_run; [exact B|exact I0|intros c s X; cbn in X; injection X as <- _; lia|exact P|exact O]).
  assert (S1 : stack (run (push w) ops) = fresh w :: stack w) by (rewrite (balanced_stack ops B); reflexivity).
  assert (E2 : w2 = mkWorld (stack w) (dicts (run (push w) ops)) (fresh (run (push w) ops))).
  { unfold w2. change (Push :: ops ++ [Pop]) with ([Push] ++ ops ++ [Pop]). rewrite !run_app. change (run w [Push]) with (push w). unfold run at 1. cbn [fold_left step]. unfold pop. rewrite S1. reflexivity. }
  assert (D : forall o, o < fresh w -> dicts w2 o = dicts w o) by (rewrite E2; cbn [dicts]; apply (in_old _ _ _ I1)).
  assert (S2 : stack w2 = stack w) by (rewrite E2; reflexivity).
  assert (G : forall name, context_get name w2 = context_get name w).
  { intros name. unfold context_get. rewrite S2. destruct (stack w) as [|c s] eqn:S; [reflexivity|]. apply (ctx_get_same (fresh w)); [exact D|exact K|apply A; left; reflexivity]. }
  split; [exact S2|]. intros name a. split; [apply G|]. unfold proxy_get. rewrite G. destruct (context_get name w) as [v| | |] eqn:X; try reflexivity.
  apply (get_attr_same (fresh w)); [exact D|]. apply (context_get_ok (fun p => p < fresh w) w name v); [exact K|intros c s S; apply A; rewrite S; left; reflexivity|exact X].
Qed.

(** what is written through a proxy is what is read through it and through the object itself *)
Theorem C115_written w name a x o : context_get name w = Val (Obj o) -> exists w', proxy_set name a x w = (w', Val None_) /\ stack w' = stack w /\
  get_attr (Obj o) a w' = Val x /\ (forall b, b <> a -> get_attr (Obj o) b w' = get_attr (Obj o) b w) /\
  (forall p b, p <> o -> get_attr (Obj p) b w' = get_attr (Obj p) b w) /\ (~ In o (stack w) -> In name NAMES -> proxy_get name a w' = Val x).
Proof.
  intros G. unfold proxy_set. rewrite G. cbn [set_attr]. eexists. split; [reflexivity|]. split; [reflexivity|].
  assert (R : get_attr (Obj o) a (put o a x w) = Val x).
  { cbn [get_attr put dicts]. rewrite Nat.eqb_refl, s_get_set. destruct (str_eqb_spec a a); [reflexivity|contradiction]. }
  split; [exact R|]. split; [|split].
  - intros b N. cbn [get_attr put dicts]. rewrite Nat.eqb_refl, s_get_set. destruct (str_eqb_spec b a); [contradiction|reflexivity].
  - intros p b N. cbn [get_attr put dicts]. destruct (Nat.eqb_spec p o); [contradiction|reflexivity].
  - intros N I. unfold proxy_get. assert (X : context_get name (put o a x w) = Val (Obj o)); [|rewrite X; exact R].
    rewrite <- G. unfold context_get. cbn [put stack]. destruct (stack w) as [|c s] eqn:S; [reflexivity|].
    assert (DC : dicts (put o a x w) c = dicts w c) by (cbn [put dicts]; destruct (Nat.eqb_spec c o) as [->|]; [destruct N; left; reflexivity|reflexivity]).
    unfold put in DC. cbn [dicts] in DC. unfold ctx_get, plain, put. cbn [dicts]. rewrite DC.
    destruct I as [<-|[<-|[<-|[<-|[<-|[]]]]]]; reflexivity.
Qed.

(** a proxy is equal to exactly the value it stands for, whatever is not equal to it is told apart *)
Theorem C115_equal w name v : context_get name w = Val v -> forall x, exists b, proxy_eq name x w = Some b /\ (b = true <-> x = v).
Proof.
  intros G x. unfold proxy_eq. rewrite G. exists (value_eqb v x). split; [reflexivity|].
  destruct v, x; cbn [value_eqb]; try (split; congruence); rewrite ?Nat.eqb_eq, ?str_eqb_eq; split; congruence.
Qed.

(** what is computed: in a context with a session, its id and its reporter are the session's; with a test, its file is that
    of the test's metadata; without them the id and the file are None and the reporter does nothing.  None of the three can be written *)
Theorem C115_computed w c rest : stack w = c :: rest ->
  (forall s, context_get (lit "session") w = Val (Obj s) ->
     context_get (lit "session_id") w = get_attr (Obj s) (lit "id") w /\ context_get (lit "reporter") w = get_attr (Obj s) (lit "reporter") w) /\
  (context_get (lit "session") w = Val None_ -> context_get (lit "session_id") w = Val None_ /\ context_get (lit "reporter") w = Val NullReporter) /\
  (forall t m, context_get (lit "test") w = Val (Obj t) -> get_attr (Obj t) (lit "__slash__") w = Val (Obj m) ->
     context_get (lit "test_filename") w = get_attr (Obj m) (lit "file_path") w) /\
  (context_get (lit "test") w = Val None_ -> context_get (lit "test_filename") w = Val None_) /\
  (forall a x, In a [lit "session_id"; lit "reporter"; lit "test_filename"] -> context_set a x w = (w, AttributeErr)).
Proof.
  intros S. unfold context_get, context_set. rewrite S.
  change (ctx_get c (lit "session") w) with (plain c w (lit "session")). change (ctx_get c (lit "test") w) with (plain c w (lit "test")).
  unfold ctx_get. split; [intros s ->; split; reflexivity|]. split; [intros ->; split; reflexivity|].
  split; [intros t m -> M; cbn [str_eqb]; cbv beta iota; change (str_eqb (lit "test_filename") (lit "session_id")) with false; change (str_eqb (lit "test_filename") (lit "reporter")) with false;
    change (str_eqb (lit "test_filename") (lit "test_filename")) with true; cbv iota; rewrite M; reflexivity|].
  split; [intros ->; reflexivity|]. intros a x [<-|[<-|[<-|[]]]]; reflexivity.
Qed.

(** bool() of a proxy is that of what it stands for exactly if this is not None, 0 or an empty text *)
Theorem C115_truth w name v : context_get name w = Val v -> (proxy_truth name w = truth v <-> v <> None_ /\ v <> Int 0 /\ v <> Text []).
Proof.
  intros _. unfold proxy_truth. destruct v as [|[|n]|[|a s]| |o]; cbn [truth]; split; intros H; try (repeat split; discriminate); try reflexivity; try discriminate; destruct H as (A & B & C); contradiction.
Qed.

(** a test for a session is always true: without a session slash.session is equal to None and yet true *)
Theorem C115_truth_refuted : exists name, In name NAMES /\ proxy_eq name None_ world0 = Some true /\ truth None_ = false /\ proxy_truth name world0 = true.
Proof. exists (lit "session"). repeat split. left. reflexivity. Qed.

(** a proxy of a text cannot be a key of a dictionary, though it is equal to it *)
Theorem C115_hash_refuted : exists w name t, proxy_eq name (Text t) w = Some true /\ proxy_hash name w = TypeErr.
Proof. exists (run world0 [Push; SetContext (lit "test_id") (Text (lit "id_1"))]), (lit "test_id"), (lit "id_1"). split; reflexivity. Qed.

(** without a session the session's id is not None but an AttributeError, and None in a context without a session *)
Theorem C115_session_id_refuted : context_get (lit "session") world0 = Val None_ /\ context_get (lit "session_id") world0 = AttributeErr /\ context_get (lit "session_id") (push world0) = Val None_.
Proof. repeat split. Qed.

(** an object that both sessions know is not isolated *)
Theorem C115_shared_refuted : exists before ops, proper world0 before /\ balanced ops /\ proper (push (run world0 before)) ops /\
  proxy_get (lit "g") (lit "x") (run world0 before) = AttributeErr /\
  proxy_get (lit "g") (lit "x") (run (run world0 before) (Push :: ops ++ [Pop])) = Val (Int 5).
Proof.
  exists [Push], [SetContext (lit "g") (Obj 1); Set_ (lit "g") (lit "x") (Int 5)]. split; [split; [intros p []|exact I]|].
  split; [repeat constructor; discriminate|]. split; [|split; reflexivity].
  split; [intros p H; injection H as <-; cbn; lia|]. split; [intros p H; discriminate|exact I].
Qed.

(** ** Cases of the theorems *)

Definition outer_ops : list op := [Push; New; SetContext (lit "session") (Obj 3); Set_ (lit "session") (lit "id") (Text (lit "s1")); Set_ (lit "g") (lit "x") (Int 7)].
Definition inner_ops : list op := [New; SetContext (lit "session") (Obj 7); Set_ (lit "session") (lit "id") (Text (lit "s2")); Set_ (lit "g") (lit "x") (Int 8); Push; Set_ (lit "g") (lit "x") (Int 9); Pop].

Example C115_ex : proper world0 outer_ops /\ balanced inner_ops /\ proper (push (run world0 outer_ops)) inner_ops /\
  (forall o p, In o inner_ops -> mentions o p -> fresh (run world0 outer_ops) <= p) /\
  proxy_get (lit "g") (lit "x") (run world0 outer_ops) = Val (Int 7) /\
  proxy_get (lit "g") (lit "x") (run (push (run world0 outer_ops)) inner_ops) = Val (Int 8) /\
  context_get (lit "session_id") (run (push (run world0 outer_ops)) inner_ops) = Val (Text (lit "s2")) /\
  context_get (lit "session_id") (run (run world0 outer_ops) (Push :: inner_ops ++ [Pop])) = Val (Text (lit "s1")).
Proof.
  split; [repeat (split; [intros p H; first [discriminate H|injection H as <-; cbn; lia|destruct H]|]); exact I|].
  split.
  { unfold inner_ops. do 4 (apply bal_one; [discriminate|discriminate|]). apply (bal_pair [Set_ (lit "g") (lit "x") (Int 9)] []); repeat constructor; discriminate. }
  split; [repeat (split; [intros p H; first [discriminate H|injection H as <-; cbn; lia|destruct H]|]); exact I|].
  split; [|repeat split]. intros o p I M. cbn in I. repeat (destruct I as [<-|I]; [first [discriminate M|injection M as <-; cbn; lia|destruct M]|]). destruct I.
Qed.

(** a session, a test with metadata and a computed file name *)
Example C115_computed_ex : let w := run world0 [Push; New; Set_ (lit "g") (lit "x") (Int 1); SetContext (lit "session") (Obj 3); Set_ (lit "session") (lit "id") (Text (lit "s1"));
    New; SetContext (lit "test") (Obj 4); New; Set_ (lit "test") (lit "__slash__") (Obj 5); SetContext (lit "result") (Obj 5)] in
  context_get (lit "session") w = Val (Obj 3) /\ context_get (lit "session_id") w = Val (Text (lit "s1")) /\
  context_get (lit "test") w = Val (Obj 4) /\ get_attr (Obj 4) (lit "__slash__") w = Val (Obj 5) /\
  context_get (lit "test_filename") (put 5 (lit "file_path") (Text (lit "t.py")) w) = Val (Text (lit "t.py")) /\
  proxy_eq (lit "session") (Obj 4) w = Some false.
Proof. repeat split. Qed.

Print Assumptions C115_null.
Print Assumptions C115_fresh.
Print Assumptions C115_isolated.
Print Assumptions C115_written.
Print Assumptions C115_equal.
Print Assumptions C115_computed.
Print Assumptions C115_truth.
Print Assumptions C115_truth_refuted.
Print Assumptions C115_hash_refuted.
Print Assumptions C115_session_id_refuted.
Print Assumptions C115_shared_refuted.
