(** C147: a cleanup is called with what it was registered with. *)

From Coq Require Import List Bool Arith Lia Ascii String.
From Verif Require Import Str CleanupArgs.
Import ListNotations.
Local Open Scope list_scope.

(** ** The specification: cleanups are values, nothing is shared *)

(** what the program made, and of every cleanup the function, its positional and its keyword arguments and whether it is
    critical or for success only *)
Record world := mkWorld { objs : list cell; waiting : list (nat * list obj * cell * bool * bool); open : bool }.

(** whether a value counts as true, what it gives when it is iterated, what it gives when it is copied, and what can be seen of it *)
Definition counts (w : world) (v : val) : bool :=
  match v with
  | VNone => false | VBool b => b | VStr t => negb (Nat.eqb (List.length t) 0) | VTuple l => negb (Nat.eqb (List.length l) 0) | VOther => true
  | VVar i => match nth_error (objs w) i with
              | Some (CList l) => negb (Nat.eqb (List.length l) 0) | Some (CDict d) => negb (Nat.eqb (List.length d) 0) | None => false end
  end.
Definition items (w : world) (v : val) : option (list obj) :=
  match v with
  | VTuple l => Some l
  | VStr t => Some (map (fun c => OStr [c]) t)
  | VVar i => match nth_error (objs w) i with Some (CList l) => Some l | Some (CDict d) => Some (map (fun p => OStr (fst p)) d) | None => None end
  | _ => None
  end.
Definition a_copy (w : world) (v : val) : option cell := match v with VVar i => nth_error (objs w) i | _ => None end.
Definition visible (w : world) (o : obj) : seen := match o with OVar i => Inside (nth_error (objs w) i) | ONum n => Itself (ONum n) | OStr t => Itself (OStr t) end.

(** the value given for a keyword *)
Definition given (k : string) (c : call) : option val := option_map snd (find (fun p => str_eqb (fst p) (lit k)) (keywords c)).
Definition known : list str := map lit ["scope"; "critical"; "success_only"; "args"; "kwargs"]%string.

Section Spec.
Variable bad_repr : obj -> bool.

Definition spec_add (crit succ : option bool) (f : nat) (c : call) (w : world) : world * option exn :=
  let flag o k := match o with Some b => b | None => match given k c with Some v => counts w v | None => false end end in
  if negb (open w) then (w, Some RuntimeErr) else
  match (match given "kwargs" c with Some v => a_copy w v | None => Some (CDict []) end) with
  | None => (w, Some AttrErr)
  | Some k =>
      match (match given "args" c with Some v => items w v | None => Some [] end) with
      | None => (w, Some TypeErr)
      | Some a =>
          if negb (Nat.eqb (List.length (positional c)) 0) || existsb (fun p => negb (existsb (str_eqb (fst p)) known)) (keywords c) then (w, Some AssertErr)
          else if flag crit "critical"%string && flag succ "success_only"%string then (w, Some AssertErr)
          else if bad_text bad_repr a k then (w, Some ReprErr)
          else (mkWorld (objs w) ((f, a, k, flag crit "critical"%string, flag succ "success_only"%string) :: waiting w) (open w), None)
      end
  end.

Definition spec_register (h : how) (f : nat) (c : call) (w : world) : world * option exn :=
  match h with
  | Plain => spec_add None None f c w
  | Critical => match given "critical" c with Some _ => (w, Some TypeErr) | None => spec_add (Some true) None f c w end
  | SuccessOnly => match given "success_only" c with Some _ => (w, Some TypeErr) | None => spec_add None (Some true) f c w end
  end.

Definition spec_step (o : op) (w : world) : world * output :=
  match o with
  | New c => (mkWorld (objs w ++ [c]) (waiting w) (open w), Quiet)
  | Change i c => match nth_error (objs w) i with
                  | Some c' => if same_kind c c' then (mkWorld (put i c (objs w)) (waiting w) (open w), Quiet) else (w, Quiet)
                  | None => (w, Quiet) end
  | Register h f c => let '(w, r) := spec_register h f c w in (w, match r with None => Added | Some e => Refused e end)
  | CallLast => match waiting w with
                | [] => (w, Quiet)
                | (f, a, k, _, _) :: l =>
                    (mkWorld (objs w) l (open w),
                     match k with CDict d => Called f (map (visible w) a) (map (fun p => (fst p, visible w (snd p))) d)
                                | CList _ => NotCalled f end)
                end
  | Session b => (mkWorld (objs w) (waiting w) b, Quiet)
  end.

Fixpoint spec_run (l : list op) (w : world) : world * list output :=
  match l with
  | [] => (w, [])
  | o :: l => let '(w, r) := spec_step o w in let '(w, rs) := spec_run l w in (w, r :: rs)
  end.

(** ** Refinement *)

Definition holds (s : state) (c : cleanup) (t : nat * list obj * cell * bool * bool) : Prop :=
  let '(f, a, k, crit, succ) := t in
  func c = f /\ nth_error (heap s) (args_at c) = Some (CList a) /\ nth_error (heap s) (kwargs_at c) = Some k /\
  ~ In (args_at c) (vars s) /\ ~ In (kwargs_at c) (vars s) /\ critical c = crit /\ success_only c = succ.

Record refines (s : state) (w : world) : Prop := {
  r_open : session s = open w;
  r_objs : forall i, deref s i = nth_error (objs w) i;
  r_len : List.length (vars s) = List.length (objs w);
  r_nodup : NoDup (vars s);
  r_bound : forall a, In a (vars s) -> a < List.length (heap s);
  r_stack : Forall2 (holds s) (stack s) (waiting w) }.

Section Same.
Variables (s : state) (w : world).
Hypothesis D : forall i, deref s i = nth_error (objs w) i.
Lemma truth_same v : truth s v = counts w v.
Proof.
  destruct v as [|b|t|l|i|]; cbn; try reflexivity; [destruct t; reflexivity|destruct l; reflexivity|].
  rewrite D. destruct (nth_error (objs w) i) as [[[|? ?]|[|? ?]]|]; reflexivity.
Qed.
Lemma to_list_same v : to_list s v = items w v.
Proof. destruct v; cbn; try reflexivity. rewrite D. reflexivity. Qed.
Lemma copied_same v : copied s v = a_copy w v.
Proof. destruct v; cbn; try reflexivity. apply D. Qed.
Lemma look_same o : look s o = visible w o.
Proof. destruct o; cbn; try reflexivity. rewrite D. reflexivity. Qed.
End Same.

Lemma find_filter (k k' : str) (kw : list (str * val)) : str_eqb k k' = false ->
  find (fun p => str_eqb (fst p) k) (filter (fun p => negb (str_eqb (fst p) k')) kw) = find (fun p => str_eqb (fst p) k) kw.
Proof.
  intros N. induction kw as [|[x v] l IH]; [reflexivity|]. cbn [filter find fst]. destruct (str_eqb_spec x k') as [->|M]; cbn [negb].
  - rewrite IH. destruct (str_eqb_spec k' k) as [->|_]; [|reflexivity]. destruct (str_eqb_spec k k); congruence.
  - cbn [find fst]. rewrite IH. reflexivity.
Qed.

Lemma find_none (k : str) (kw : list (str * val)) : find (fun p => str_eqb (fst p) k) kw = None ->
  filter (fun p => negb (str_eqb (fst p) k)) kw = kw.
Proof.
  induction kw as [|p l IH]; [reflexivity|]. cbn. destruct (str_eqb (fst p) k); [discriminate|]. cbn. intros H. rewrite IH by exact H. reflexivity.
Qed.

(** what is left when the five known keywords are taken out *)
Lemma left_over (kw : list (str * val)) :
  match (filter (fun p => negb (str_eqb (fst p) (lit "args")))
        (filter (fun p => negb (str_eqb (fst p) (lit "kwargs")))
        (filter (fun p => negb (str_eqb (fst p) (lit "success_only")))
        (filter (fun p => negb (str_eqb (fst p) (lit "critical")))
        (filter (fun p => negb (str_eqb (fst p) (lit "scope"))) kw))))) with [] => true | _ => false end
  = negb (existsb (fun p => negb (existsb (str_eqb (fst p)) known)) kw).
Proof.
  induction kw as [|p l IH]; [reflexivity|]. unfold known in *. cbn [map existsb] in *. cbn [filter].
  destruct (str_eqb (fst p) (lit "scope")); [cbn [negb orb]; exact IH|]. cbn [negb orb filter].
  destruct (str_eqb (fst p) (lit "critical")); [cbn [negb orb]; exact IH|]. cbn [negb orb filter].
  destruct (str_eqb (fst p) (lit "success_only")); [cbn [negb orb]; exact IH|]. cbn [negb orb filter].
  destruct (str_eqb (fst p) (lit "kwargs")); [cbn [negb orb]; rewrite orb_true_r; exact IH|]. cbn [negb orb filter].
  destruct (str_eqb (fst p) (lit "args")); [cbn [negb orb]; exact IH|]. reflexivity.
Qed.

Lemma add_spec f c s : add bad_repr f c s =
  let flag k := match given k c with Some v => truth s v | None => false end in
  match (match given "kwargs" c with Some v => copied s v | None => Some (CDict []) end) with
  | None => (s, Some AttrErr)
  | Some k =>
      match (match given "args" c with Some v => to_list s v | None => Some [] end) with
      | None => (s, Some TypeErr)
      | Some a =>
          if negb (Nat.eqb (List.length (positional c)) 0) || existsb (fun p => negb (existsb (str_eqb (fst p)) known)) (keywords c) then (s, Some AssertErr)
          else if flag "critical"%string && flag "success_only"%string then (s, Some AssertErr)
          else if bad_text bad_repr a k then (s, Some ReprErr)
          else (mkState (heap s ++ [CList a; k]) (vars s)
                  (mkCleanup f (List.length (heap s)) (S (List.length (heap s))) (flag "critical"%string) (flag "success_only"%string) :: stack s) (session s), None)
      end
  end.
Proof.
  pose proof (left_over (keywords c)) as L. unfold add, pop, given. cbn [fst snd].
  set (kw := keywords c) in *. cbv zeta.
  set (k1 := filter (fun p => negb (str_eqb (fst p) (lit "scope"))) kw) in *.
  set (k2 := filter (fun p => negb (str_eqb (fst p) (lit "critical"))) k1) in *.
  set (k3 := filter (fun p => negb (str_eqb (fst p) (lit "success_only"))) k2) in *.
  set (k4 := filter (fun p => negb (str_eqb (fst p) (lit "kwargs"))) k3) in *.
  assert (E1 : find (fun p => str_eqb (fst p) (lit "critical")) k1 = find (fun p => str_eqb (fst p) (lit "critical")) kw) by (apply find_filter; reflexivity).
  assert (E2 : find (fun p => str_eqb (fst p) (lit "success_only")) k2 = find (fun p => str_eqb (fst p) (lit "success_only")) kw)
    by (unfold k2, k1; rewrite !find_filter by reflexivity; reflexivity).
  assert (E3 : find (fun p => str_eqb (fst p) (lit "kwargs")) k3 = find (fun p => str_eqb (fst p) (lit "kwargs")) kw)
    by (unfold k3, k2, k1; rewrite !find_filter by reflexivity; reflexivity).
  assert (E4 : find (fun p => str_eqb (fst p) (lit "args")) k4 = find (fun p => str_eqb (fst p) (lit "args")) kw)
    by (unfold k4, k3, k2, k1; rewrite !find_filter by reflexivity; reflexivity).
  rewrite E1, E2.
  assert (Q : (match find (fun p => str_eqb (fst p) (lit "kwargs")) k3 with
               | Some _ => (copied s match find (fun p => str_eqb (fst p) (lit "kwargs")) k3 with Some p => snd p | None => VNone end, k4)
               | None => (Some (CDict []), k3) end)
              = (match option_map snd (find (fun p => str_eqb (fst p) (lit "kwargs")) kw) with Some v => copied s v | None => Some (CDict []) end, k4)).
  { rewrite <- E3. destruct (find (fun p => str_eqb (fst p) (lit "kwargs")) k3) eqn:F; [reflexivity|]. unfold k4. rewrite (find_none _ _ F). reflexivity. }
  rewrite Q. rewrite E4. clearbody k4. clear Q E1 E2 E3 E4.
  destruct (match option_map snd (find (fun p => str_eqb (fst p) (lit "kwargs")) kw) with Some v => copied s v | None => Some (CDict []) end) as [k|]; [|reflexivity].
  assert (A : to_list s match find (fun p => str_eqb (fst p) (lit "args")) kw with Some p => snd p | None => VTuple [] end
            = match option_map snd (find (fun p => str_eqb (fst p) (lit "args")) kw) with Some v => to_list s v | None => Some [] end)
    by (destruct (find (fun p => str_eqb (fst p) (lit "args")) kw); reflexivity).
  rewrite A. destruct (match option_map snd (find (fun p => str_eqb (fst p) (lit "args")) kw) with Some v => to_list s v | None => Some [] end) as [a|]; [|reflexivity].
  assert (F : forall k, truth s match find (fun p : str * val => str_eqb (fst p) k) kw with Some p => snd p | None => VBool false end
            = match option_map snd (find (fun p => str_eqb (fst p) k) kw) with Some v => truth s v | None => false end)
    by (intros x; destruct (find (fun p => str_eqb (fst p) x) kw); reflexivity).
  rewrite !F. destruct (positional c) as [|p l]; [|reflexivity]. cbn [List.length Nat.eqb negb orb].
  destruct (filter (fun p => negb (str_eqb (fst p) (lit "args"))) k4); destruct (existsb (fun p => negb (existsb (str_eqb (fst p)) known)) kw); try discriminate L; [|reflexivity].
  rewrite (andb_comm (match option_map snd (find (fun p => str_eqb (fst p) (lit "success_only")) kw) with Some v => truth s v | None => false end)). reflexivity.
Qed.

Lemma nth_app_some {A} (l m : list A) i x : nth_error l i = Some x -> nth_error (l ++ m) i = Some x.
Proof. intros H. rewrite nth_error_app1; [exact H|]. apply nth_error_Some. congruence. Qed.

Lemma holds_grows h m v st o c t : holds (mkState h v st o) c t -> holds (mkState (h ++ m) v st o) c t.
Proof. destruct t as [[[[f a] k] p] q]. intros (A & B & C & D). cbn in *. repeat split; try tauto; apply nth_app_some; assumption. Qed.

Lemma holds_other h v st o st' o' c t : holds (mkState h v st o) c t -> holds (mkState h v st' o') c t.
Proof. destruct t as [[[[f a] k] p] q]. exact (fun x => x). Qed.

Lemma forall2_impl {A B} (P Q : A -> B -> Prop) a b : (forall x y, P x y -> Q x y) -> Forall2 P a b -> Forall2 Q a b.
Proof. intros H F. induction F; constructor; auto. Qed.

Lemma deref_bound s i c : deref s i = Some c -> exists a, nth_error (vars s) i = Some a /\ nth_error (heap s) a = Some c.
Proof. unfold deref. destruct (nth_error (vars s) i) as [a|]; [|discriminate]. eauto. Qed.

(** the flags a wrapper sets *)
Lemma given_cons k v c : given k (mkCall (positional c) ((lit k, v) :: keywords c)) = Some v.
Proof. unfold given. cbn [keywords find fst]. destruct (str_eqb_spec (lit k) (lit k)); [reflexivity|congruence]. Qed.
Lemma given_other k k' v c : str_eqb (lit k') (lit k) = false -> given k (mkCall (positional c) ((lit k', v) :: keywords c)) = given k c.
Proof. intros N. unfold given. cbn [keywords find fst]. rewrite N. reflexivity. Qed.
Lemma given_exists k c : existsb (fun p => str_eqb (fst p) (lit k)) (keywords c) = match given k c with Some _ => true | None => false end.
Proof. unfold given. induction (keywords c) as [|p l IH]; [reflexivity|]. cbn. destruct (str_eqb (fst p) (lit k)); [reflexivity|exact IH]. Qed.

Lemma add_cleanup_refines (crit succ : option bool) c' f c s w : refines s w ->
  positional c' = positional c ->
  existsb (fun p => negb (existsb (str_eqb (fst p)) known)) (keywords c') = existsb (fun p => negb (existsb (str_eqb (fst p)) known)) (keywords c) ->
  given "args" c' = given "args" c -> given "kwargs" c' = given "kwargs" c ->
  (match given "critical" c' with Some v => truth s v | None => false end) =
    match crit with Some b => b | None => match given "critical" c with Some v => truth s v | None => false end end ->
  (match given "success_only" c' with Some v => truth s v | None => false end) =
    match succ with Some b => b | None => match given "success_only" c with Some v => truth s v | None => false end end ->
  refines (fst (add_cleanup bad_repr f c' s)) (fst (spec_add crit succ f c w)) /\ snd (add_cleanup bad_repr f c' s) = snd (spec_add crit succ f c w).
Proof.
  intros R P K GA GK GC GS. pose proof R as [O Q N D B F]. unfold add_cleanup, spec_add. rewrite O. destruct (open w) eqn:Op; cbn [negb]; [|split; [exact R|reflexivity]].
  rewrite add_spec. cbv zeta. rewrite GA, GK, GC, GS, P, K.
  assert (T : forall o k, match o with Some b => b | None => match given k c with Some v => truth s v | None => false end end =
                          match o with Some b => b | None => match given k c with Some v => counts w v | None => false end end).
  { intros [b|] k; [reflexivity|]. destruct (given k c); [apply truth_same; exact Q|reflexivity]. }
  rewrite !T.
  assert (A1 : match given "kwargs" c with Some v => copied s v | None => Some (CDict []) end =
               match given "kwargs" c with Some v => a_copy w v | None => Some (CDict []) end).
  { destruct (given "kwargs" c); [apply copied_same; exact Q|reflexivity]. }
  assert (A2 : match given "args" c with Some v => to_list s v | None => Some [] end =
               match given "args" c with Some v => items w v | None => Some [] end).
  { destruct (given "args" c); [apply to_list_same; exact Q|reflexivity]. }
  rewrite A1. destruct (match given "kwargs" c with Some v => a_copy w v | None => Some (CDict []) end) as [k|]; [|split; [exact R|reflexivity]].
  rewrite A2. destruct (match given "args" c with Some v => items w v | None => Some [] end) as [a|]; [|split; [exact R|reflexivity]].
  destruct (_ || _); [split; [exact R|reflexivity]|].
  destruct (_ && _); [split; [exact R|reflexivity]|].
  destruct (bad_text bad_repr a k); [split; [exact R|reflexivity]|].
  split; [|reflexivity]. cbn [fst]. constructor; cbn [session open vars objs heap stack waiting]; auto.
  - intros i. rewrite <- Q. unfold deref. cbn [vars heap]. destruct (nth_error (vars s) i) as [x|] eqn:X; [|reflexivity].
    apply nth_error_app1. apply B. eapply nth_error_In. exact X.
  - intros x I. rewrite app_length. specialize (B x I). lia.
  - constructor.
    + cbn [holds func args_at kwargs_at heap vars critical success_only]. split; [reflexivity|]. split; [rewrite nth_error_app2, Nat.sub_diag by lia; reflexivity|].
      split; [rewrite nth_error_app2 by lia; replace (S (List.length (heap s)) - List.length (heap s)) with 1 by lia; reflexivity|].
      split; [intros I; specialize (B _ I); lia|]. split; [intros I; specialize (B _ I); lia|]. split; reflexivity.
    + eapply forall2_impl; [|exact F]. intros x y H. apply (holds_other _ _ (stack s) (session s)). apply holds_grows. destruct s. exact H.
Qed.

Lemma register_refines h f c s w : refines s w ->
  refines (fst (register bad_repr h f c s)) (fst (spec_register h f c w)) /\ snd (register bad_repr h f c s) = snd (spec_register h f c w).
Proof.
  intros R. destruct h; cbn [register spec_register].
  - apply (add_cleanup_refines None None c); auto.
  - unfold with_keyword. rewrite given_exists. destruct (given "critical" c); [split; [exact R|reflexivity]|].
    apply (add_cleanup_refines (Some true) None); auto; rewrite ?given_other by reflexivity; rewrite ?given_cons; reflexivity.
  - unfold with_keyword. rewrite given_exists. destruct (given "success_only" c); [split; [exact R|reflexivity]|].
    apply (add_cleanup_refines None (Some true)); auto; rewrite ?given_other by reflexivity; rewrite ?given_cons; reflexivity.
Qed.

Lemma put_length {A} i (x : A) l : List.length (put i x l) = List.length l.
Proof. revert i. induction l as [|y l IH]; destruct i; cbn; auto. Qed.
Lemma nth_put_same {A} i (x y : A) l : nth_error l i = Some y -> nth_error (put i x l) i = Some x.
Proof. revert i. induction l as [|z l IH]; destruct i; cbn; intros H; try discriminate; auto. Qed.
Lemma nth_put_other {A} i j (x : A) l : i <> j -> nth_error (put i x l) j = nth_error l j.
Proof. revert i j. induction l as [|z l IH]; destruct i, j; cbn; intros H; auto; congruence. Qed.

Lemma step_refines o s w : refines s w ->
  refines (fst (step bad_repr o s)) (fst (spec_step o w)) /\ snd (step bad_repr o s) = snd (spec_step o w).
Proof.
  intros R. destruct o as [c|i c|h f c| |b]; cbn [step spec_step].
  - destruct R as [O Q N D B F]. split; [|reflexivity]. cbn [fst]. constructor; cbn [session open vars objs heap stack waiting]; auto.
    + intros i. unfold deref. cbn [vars heap]. destruct (Nat.lt_trichotomy i (List.length (vars s))) as [L|[->|L]].
      * rewrite !nth_error_app1 by lia. rewrite <- Q. unfold deref. destruct (nth_error (vars s) i) as [x|] eqn:X; [|reflexivity].
        apply nth_error_app1. apply B. eapply nth_error_In. exact X.
      * rewrite nth_error_app2, Nat.sub_diag by lia. cbn [nth_error]. rewrite nth_error_app2, Nat.sub_diag by lia. cbn [nth_error].
        rewrite N, nth_error_app2, Nat.sub_diag by lia. reflexivity.
      * rewrite (proj2 (nth_error_None _ _)) by (rewrite app_length; cbn; lia). symmetry. apply nth_error_None. rewrite app_length. cbn. lia.
    + rewrite !app_length. cbn. lia.
    + apply (NoDup_Add (a := List.length (heap s)) (l := vars s)); [rewrite <- (app_nil_r (vars s)) at 1; apply Add_app|].
      split; [exact D|]. intros I. specialize (B _ I). lia.
    + intros a I. rewrite app_length. cbn. apply in_app_or in I as [I|[<-|[]]]; [specialize (B a I)|]; lia.
    + eapply forall2_impl; [|exact F]. intros x y H. destruct y as [[[[g a] k] p] q]. destruct H as (H1 & H2 & H3 & H4 & H5 & H6 & H7). cbn.
      assert (X : args_at x < List.length (heap s)) by (apply nth_error_Some; congruence).
      assert (Y : kwargs_at x < List.length (heap s)) by (apply nth_error_Some; congruence).
      repeat split; auto; try (apply nth_app_some; assumption); intros I; apply in_app_or in I as [I|[I|[]]]; auto; lia.
  - pose proof R as [O Q N D B F]. specialize (Q i) as Qi. unfold deref in Qi. destruct (nth_error (vars s) i) as [a|] eqn:V.
    2:{ rewrite <- Qi. split; [exact R|reflexivity]. }
    rewrite <- Qi. destruct (nth_error (heap s) a) as [c'|] eqn:H; [|split; [exact R|reflexivity]].
    destruct (same_kind c c'); [|split; [exact R|reflexivity]]. split; [|reflexivity]. cbn [fst].
    constructor; cbn [session open vars objs heap stack waiting]; auto.
    + intros j. unfold deref. cbn [vars heap]. destruct (Nat.eq_dec i j) as [<-|X].
      * rewrite V, (nth_put_same _ _ _ _ H). symmetry. eapply nth_put_same. rewrite <- Qi. reflexivity.
      * rewrite nth_put_other by exact X. rewrite <- Q. unfold deref. destruct (nth_error (vars s) j) as [y|] eqn:Y; [|reflexivity].
        apply nth_put_other. intros ->. apply X. apply (proj1 (NoDup_nth_error _) D); [apply nth_error_Some; congruence|congruence].
    + rewrite put_length. exact N.
    + intros x I. rewrite put_length. auto.
    + apply nth_error_In in V. eapply forall2_impl; [|exact F]. intros x y G. destruct y as [[[[g b] k] p] q].
      destruct G as (G1 & G2 & G3 & G4 & G5 & G6 & G7). cbn.
      rewrite !nth_put_other by (intros E; rewrite E in *; contradiction). repeat split; auto.
  - destruct (register_refines h f c s w R) as [A E]. destruct (register bad_repr h f c s) as [s1 r1], (spec_register h f c w) as [w1 r2].
    cbn in *. subst. split; [exact A|reflexivity].
  - pose proof R as [O Q N D B F]. inversion F as [E1 E2|c t l m H L E1 E2]; [split; [exact R|reflexivity]|].
    destruct t as [[[[g a] k] p] q]. split.
    + cbn [fst]. constructor; cbn [session open vars objs heap stack waiting]; auto.
    + cbn [snd]. destruct H as (H1 & H2 & H3 & _). unfold call_cleanup. rewrite H2, H3, H1. destruct k as [k|k]; [reflexivity|].
      f_equal; [apply map_ext; intros o; apply look_same; exact Q|]. apply map_ext. intros o. f_equal. apply look_same. exact Q.
  - destruct R as [O Q N D B F]. split; [|reflexivity]. constructor; auto.
Qed.

(** ** Whatever a program does with its lists and dictionaries, its cleanups are registered, refused and called as if each had been
    handed its own copy of the arguments: they get what was in args and kwargs when they were registered *)
Theorem C147_own l : snd (run bad_repr l start) = snd (spec_run l (mkWorld [] [] true)).
Proof.
  assert (H : forall s w, refines s w -> snd (run bad_repr l s) = snd (spec_run l w)).
  { induction l as [|o l IH]; intros s w R; [reflexivity|]. cbn [run spec_run]. destruct (step_refines o s w R) as [A E].
    destruct (step bad_repr o s) as [s1 r1], (spec_step o w) as [w1 r2]. cbn in *. specialize (IH s1 w1 A).
    destruct (run bad_repr l s1), (spec_run l w1). cbn in *. congruence. }
  apply H. constructor; cbn; auto.
  - intros [|i]; reflexivity.
  - constructor.
  - contradiction.
Qed.
End Spec.

(** ** A refused registration changes nothing *)
Theorem C147_refused bad_repr h f c s e : snd (register bad_repr h f c s) = Some e -> fst (register bad_repr h f c s) = s.
Proof.
  assert (A : forall c, snd (add_cleanup bad_repr f c s) = Some e -> fst (add_cleanup bad_repr f c s) = s).
  { clear c. intros c. unfold add_cleanup. destruct (session s); [|reflexivity]. rewrite add_spec. cbv zeta.
    destruct (match given "kwargs" c with Some v => copied s v | None => Some (CDict []) end); [|reflexivity].
    destruct (match given "args" c with Some v => to_list s v | None => Some [] end); [|reflexivity].
    destruct (_ || _); [reflexivity|]. destruct (_ && _); [reflexivity|]. destruct (bad_text bad_repr l c0); [reflexivity|discriminate]. }
  destruct h; cbn [register].
  - apply A.
  - destruct (with_keyword (lit "critical") (VBool true) c); [apply A|reflexivity].
  - destruct (with_keyword (lit "success_only") (VBool true) c); [apply A|reflexivity].
Qed.

(** ** A registration is accepted exactly if there is a session, nothing is given by position, no keyword is unknown, args can be iterated,
    kwargs can be copied, not both flags are set (nor one of them twice), and all arguments can be shown *)
Theorem C147_accepted bad_repr h f c s :
  snd (register bad_repr h f c s) = None <->
  (session s = true /\ positional c = [] /\
   (forall k v, In (k, v) (keywords c) -> In k (map lit ["scope"; "critical"; "success_only"; "args"; "kwargs"]%string)) /\
   (match h with Plain => True | Critical => given "critical" c = None | SuccessOnly => given "success_only" c = None end) /\
   (let crit := match h with Critical => true | _ => match given "critical" c with Some v => truth s v | None => false end end in
    let succ := match h with SuccessOnly => true | _ => match given "success_only" c with Some v => truth s v | None => false end end in
    ~ (crit = true /\ succ = true)) /\
   exists a k, match given "args" c with Some v => to_list s v = Some a | None => a = [] end /\
               match given "kwargs" c with Some v => copied s v = Some k | None => k = CDict [] end /\
               (forall o, In o a \/ (match k with CList l => In o l | CDict d => In o (map snd d) end) -> bad_repr o = false)).
Proof.
  assert (KN : forall kw : list (str * val), existsb (fun p => negb (existsb (str_eqb (fst p)) known)) kw = false <->
                (forall k v, In (k, v) kw -> In k (map lit ["scope"; "critical"; "success_only"; "args"; "kwargs"]%string))).
  { intros kw. rewrite <- not_true_iff_false, existsb_exists. fold known. split.
    - intros H k v I. destruct (existsb (str_eqb k) known) eqn:E.
      + apply existsb_exists in E as (x & X & Y). destruct (str_eqb_spec k x) as [->|]; [exact X|discriminate].
      + destruct H. exists (k, v). split; [exact I|]. cbn [fst]. rewrite E. reflexivity.
    - intros H ([k v] & I & E). apply H in I. cbn [fst] in E. apply negb_true_iff in E.
      assert (Z : existsb (str_eqb k) known = true); [|congruence]. apply existsb_exists. exists k. split; [exact I|]. destruct (str_eqb_spec k k); congruence. }
  assert (BT : forall a k, bad_text bad_repr a k = false <->
                (forall o, In o a \/ (match k with CList l => In o l | CDict d => In o (map snd d) end) -> bad_repr o = false)).
  { intros a k. unfold bad_text. rewrite orb_false_iff. split.
    - intros [X Y] o [I|I].
      + destruct (bad_repr o) eqn:E; [|reflexivity]. rewrite <- X. symmetry. apply existsb_exists. eauto.
      + destruct (bad_repr o) eqn:E; [|reflexivity]. rewrite <- Y. symmetry. destruct k as [l|d].
        * apply existsb_exists. eauto.
        * apply in_map_iff in I as (p & <- & I). apply existsb_exists. eauto.
    - intros H. split.
      + apply not_true_iff_false. rewrite existsb_exists. intros (o & I & E). rewrite H in E; [discriminate|auto].
      + destruct k as [l|d]; apply not_true_iff_false; rewrite existsb_exists; intros (o & I & E).
        * rewrite H in E; [discriminate|auto].
        * rewrite H in E; [discriminate|]. right. apply in_map. exact I. }
  assert (A : forall c' crit succ, positional c' = positional c ->
     existsb (fun p => negb (existsb (str_eqb (fst p)) known)) (keywords c') = existsb (fun p => negb (existsb (str_eqb (fst p)) known)) (keywords c) ->
     given "args" c' = given "args" c -> given "kwargs" c' = given "kwargs" c ->
     (match given "critical" c' with Some v => truth s v | None => false end) = crit ->
     (match given "success_only" c' with Some v => truth s v | None => false end) = succ ->
     (snd (add_cleanup bad_repr f c' s) = None <->
      (session s = true /\ positional c = [] /\
       (forall k v, In (k, v) (keywords c) -> In k (map lit ["scope"; "critical"; "success_only"; "args"; "kwargs"]%string)) /\ True /\ ~ (crit = true /\ succ = true) /\
       exists a k, match given "args" c with Some v => to_list s v = Some a | None => a = [] end /\
               match given "kwargs" c with Some v => copied s v = Some k | None => k = CDict [] end /\
               (forall o, In o a \/ (match k with CList l => In o l | CDict d => In o (map snd d) end) -> bad_repr o = false)))).
  { intros c' crit succ P K GA GK GC GS. unfold add_cleanup. destruct (session s); [|split; [discriminate|intros [X _]; discriminate]].
    rewrite add_spec. cbv zeta. rewrite GA, GK, GC, GS, P, K.
    assert (VK : forall k, match given "kwargs" c with Some v => copied s v = Some k | None => k = CDict [] end <->
                   match given "kwargs" c with Some v => copied s v | None => Some (CDict []) end = Some k).
    { intros k. destruct (given "kwargs" c); [tauto|]. split; [intros ->; reflexivity|]. intros H. injection H as <-. reflexivity. }
    assert (VA : forall a, match given "args" c with Some v => to_list s v = Some a | None => a = [] end <->
                   match given "args" c with Some v => to_list s v | None => Some [] end = Some a).
    { intros a. destruct (given "args" c); [tauto|]. split; [intros ->; reflexivity|]. intros H. injection H as <-. reflexivity. }
    destruct (match given "kwargs" c with Some v => copied s v | None => Some (CDict []) end) as [k|].
    2:{ split; [discriminate|]. intros (_ & _ & _ & _ & _ & a & k & _ & X & _). apply VK in X. discriminate. }
    destruct (match given "args" c with Some v => to_list s v | None => Some [] end) as [a|].
    2:{ split; [discriminate|]. intros (_ & _ & _ & _ & _ & a & k' & X & _). apply VA in X. discriminate. }
    destruct (negb (Nat.eqb (List.length (positional c)) 0) || existsb (fun p => negb (existsb (str_eqb (fst p)) known)) (keywords c)) eqn:X.
    { split; [discriminate|]. intros (_ & Y & Z & _). apply KN in Z. rewrite Y, Z in X. discriminate. }
    apply orb_false_iff in X as [X Y]. destruct (positional c); [|discriminate].
    destruct (crit && succ) eqn:Z.
    { apply andb_true_iff in Z. split; [discriminate|]. intros (_ & _ & _ & _ & W & _). contradiction. }
    destruct (bad_text bad_repr a k) eqn:T.
    { split; [discriminate|]. intros (_ & _ & _ & _ & _ & a' & k' & W1 & W2 & W3). apply VA in W1. apply VK in W2. injection W1 as <-. injection W2 as <-.
      apply BT in W3. congruence. }
    split; [intros _|reflexivity]. split; [reflexivity|]. split; [reflexivity|]. split; [apply KN; exact Y|]. split; [trivial|].
    split; [intros [-> ->]; discriminate|]. exists a, k. split; [apply VA; reflexivity|]. split; [apply VK; reflexivity|]. apply BT. exact T. }
  destruct h; cbn [register]; cbv zeta.
  - apply A; reflexivity.
  - unfold with_keyword. rewrite given_exists. destruct (given "critical" c) eqn:G.
    + split; [discriminate|]. intros (_ & _ & _ & X & _). discriminate.
    + rewrite (A _ true (match given "success_only" c with Some v => truth s v | None => false end));
        rewrite ?given_other by reflexivity; rewrite ?given_cons; try reflexivity. intuition.
  - unfold with_keyword. rewrite given_exists. destruct (given "success_only" c) eqn:G.
    + split; [discriminate|]. intros (_ & _ & _ & X & _). discriminate.
    + rewrite (A _ (match given "critical" c with Some v => truth s v | None => false end) true);
        rewrite ?given_other by reflexivity; rewrite ?given_cons; try reflexivity. intuition.
Qed.

(** ** What is registered: the flags are those asked for *)
Theorem C147_flags bad_repr h f c s : snd (register bad_repr h f c s) = None ->
  exists x, stack (fst (register bad_repr h f c s)) = x :: stack s /\ func x = f /\
    critical x = (match h with Critical => true | _ => match given "critical" c with Some v => truth s v | None => false end end) /\
    success_only x = (match h with SuccessOnly => true | _ => match given "success_only" c with Some v => truth s v | None => false end end).
Proof.
  assert (A : forall c, snd (add_cleanup bad_repr f c s) = None ->
    exists x, stack (fst (add_cleanup bad_repr f c s)) = x :: stack s /\ func x = f /\
      critical x = (match given "critical" c with Some v => truth s v | None => false end) /\
      success_only x = (match given "success_only" c with Some v => truth s v | None => false end)).
  { clear c. intros c. unfold add_cleanup. destruct (session s); [|discriminate]. rewrite add_spec. cbv zeta.
    destruct (match given "kwargs" c with Some v => copied s v | None => Some (CDict []) end) as [k|]; [|discriminate].
    destruct (match given "args" c with Some v => to_list s v | None => Some [] end) as [a|]; [|discriminate].
    destruct (_ || _); [discriminate|]. destruct (_ && _); [discriminate|]. destruct (bad_text bad_repr a k); [discriminate|].
    intros _. eexists. repeat split. }
  destruct h; cbn [register].
  - apply A.
  - unfold with_keyword. destruct (existsb _ _); [discriminate|]. intros H. destruct (A _ H) as (x & X & Y & Z & W). exists x.
    rewrite given_cons in Z. rewrite given_other in W by reflexivity. auto.
  - unfold with_keyword. destruct (existsb _ _); [discriminate|]. intros H. destruct (A _ H) as (x & X & Y & Z & W). exists x.
    rewrite given_cons in W. rewrite given_other in Z by reflexivity. auto.
Qed.

(** a list and a dictionary that are changed after they were given, cleanups called last to first; refused registrations in between *)
Definition fine (_ : obj) : bool := false.
Definition by_kw (l : list (string * val)) : call := mkCall [] (map (fun p => (lit (fst p), snd p)) l).
Definition ex_program : list op :=
  [New (CList [ONum 1; ONum 2]); New (CDict [(lit "k", ONum 3)]);
   Register Plain 10 (by_kw [("args", VVar 0); ("kwargs", VVar 1)])%string;
   Change 0 (CList []); Change 1 (CDict [(lit "k", ONum 4)]);
   Register Critical 11 (by_kw [("kwargs", VVar 1)])%string;
   Register Critical 12 (by_kw [("success_only", VBool true)])%string;
   Register Plain 13 (mkCall [VNone] []);
   Register Plain 14 (by_kw [("arg", VVar 0)])%string;
   Register SuccessOnly 15 (by_kw [("success_only", VBool true)])%string;
   CallLast; CallLast].
Example C147_ex : snd (run fine ex_program start) =
  [Quiet; Quiet; Added; Quiet; Quiet; Added; Refused AssertErr; Refused AssertErr; Refused AssertErr; Refused TypeErr;
   Called 11 [] [(lit "k", Itself (ONum 4))]; Called 10 [Itself (ONum 1); Itself (ONum 2)] [(lit "k", Itself (ONum 3))]].
Proof. vm_compute. reflexivity. Qed.

(** ** Not so: that the function sees its arguments as they were: a list in args is not copied *)
Theorem C147_deep_refuted : exists before after, snd (run fine
    [New (CList before); Register Plain 10 (by_kw [("args", VTuple [OVar 0])])%string; Change 0 (CList after); CallLast] start) =
    [Quiet; Added; Quiet; Called 10 [Inside (Some (CList after))] []] /\ before <> after.
Proof. exists [ONum 1], [ONum 2]. split; [vm_compute; reflexivity|discriminate]. Qed.

(** ... that args of the wrong kind are noticed: a text (a tuple without its comma) becomes one argument for each of its letters,
    a dictionary its keys *)
Theorem C147_args_refuted : snd (run fine
    [Register Plain 10 (by_kw [("args", VStr (lit "db"))])%string; CallLast;
     New (CDict [(lit "k", ONum 3)]); Register Plain 11 (by_kw [("args", VVar 0)])%string; CallLast] start) =
    [Added; Called 10 [Itself (OStr (lit "d")); Itself (OStr (lit "b"))] []; Quiet; Added; Called 11 [Itself (OStr (lit "k"))] []].
Proof. vm_compute. reflexivity. Qed.

(** ... that what is accepted can be called: with a list for kwargs the cleanup only fails when its scope ends *)
Theorem C147_kwargs_refuted : exists l, snd (run fine
    [New (CList l); Register Plain 10 (by_kw [("kwargs", VVar 0)])%string; CallLast] start) = [Quiet; Added; NotCalled 10].
Proof. exists []. vm_compute. reflexivity. Qed.

(** ... that arguments do not matter for being registered: a cleanup is refused if one of them cannot be shown *)
Theorem C147_shown_refuted : exists bad o, snd (run bad [Register Critical 10 (by_kw [("args", VTuple [o])])%string; CallLast] start) = [Refused ReprErr; Quiet].
Proof. exists (fun o => match o with ONum 0 => true | _ => false end), (ONum 0). vm_compute. reflexivity. Qed.

Print Assumptions C147_own.
Print Assumptions C147_refused.
Print Assumptions C147_accepted.
Print Assumptions C147_flags.
Print Assumptions C147_deep_refuted.
Print Assumptions C147_args_refuted.
Print Assumptions C147_kwargs_refuted.
Print Assumptions C147_shown_refuted.
