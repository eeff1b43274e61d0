(** C108: how the loader finds tests. *)

From Coq Require Import List Bool Arith Ascii String Sorted Permutation Lia.
From Verif Require Import Str Naming NamingProps Loader Collect.
Import ListNotations.
Open Scope list_scope.

(** ** Statements *)

(** this is found when going down these names *)
Inductive at_ : node -> list str -> node -> Prop :=
| at_here n : at_ n [] n
| at_below es d m p k : In (d, m) es -> at_ m p k -> at_ (Dir es) (d :: p) k.

(** the names in a directory differ *)
Inductive wf : node -> Prop :=
| wf_file : wf File
| wf_dir es : NoDup (map fst es) -> (forall d m, In (d, m) es -> wf m) -> wf (Dir es).

(** the order of files: those of a directory before those below it, otherwise by name *)
Fixpoint before (p q : list str) : Prop :=
  match p, q with
  | a :: p', b :: q' =>
      match p', q' with
      | [], [] => a <> b /\ str_leb a b = true
      | [], _ :: _ => True
      | _ :: _, [] => False
      | _ :: _, _ :: _ => (a <> b /\ str_leb a b = true) \/ (a = b /\ before p' q')
      end
  | _, _ => False
  end.

(** the tests a module has *)
Inductive made (f : file) (m : module) (n : list ns) : test -> Prop :=
| made_function name fn g v r : In (name, AFunction fn g) (m_things m) -> fn = lit "test_" ++ r -> In v (g_vars g) ->
    made f m n (mkTest f (m_name m) name None None v false n)
| made_method name cn skipped attrs mn g v r : In (name, AClass cn false skipped attrs) (m_things m) -> In (mn, g) attrs ->
    mn = lit "test" ++ r -> In v (g_vars g) ->
    made f m n (mkTest f (m_name m) name (Some cn) (Some mn) v skipped n).

(** a generator of variations that is asked for *)
Inductive asked (m : module) : gen -> Prop :=
| asked_function name fn g r : In (name, AFunction fn g) (m_things m) -> fn = lit "test_" ++ r -> asked m g
| asked_method name cn skipped attrs mn g r : In (name, AClass cn false skipped attrs) (m_things m) -> In (mn, g) attrs ->
    mn = lit "test" ++ r -> asked m g.

(** nothing goes wrong with this file *)
Definition loads (w : world) (f : file) (m : module) : Prop :=
  import_ w f = IModule m /\ conf_err w f = None /\ conf_fixtures_err w f = None /\ module_fixtures_err w f = None /\
  resolve_err w f = None /\ forall g, asked m g -> g_err g = None.

(** an address after the colon names this test *)
Definition named_by (a : str) (t : test) : Prop :=
  a = t_factory t \/ a = address_in_file t \/ (exists r, address_in_file t = a ++ lit "(" ++ r /\ ~ In "("%char a).

(** ** Proofs: sorting and walking *)

Section Sort.
Context {A : Type}.
Definition le_name (x y : str * A) : Prop := str_leb (fst x) (fst y) = true.

Lemma insert_perm (x : str * A) l : Permutation (insert_name x l) (x :: l).
Proof.
  induction l as [|y l IH]; [reflexivity|]. cbn. destruct (str_leb (fst x) (fst y)); [reflexivity|].
  rewrite IH. apply perm_swap.
Qed.

Lemma sort_perm (l : list (str * A)) : Permutation (sort_names l) l.
Proof. induction l as [|x l IH]; [reflexivity|]. cbn. rewrite insert_perm, IH. reflexivity. Qed.

Lemma sort_in x (l : list (str * A)) : In x (sort_names l) <-> In x l.
Proof. split; apply Permutation_in; [|symmetry]; apply sort_perm. Qed.

Lemma insert_sorted (x : str * A) l : StronglySorted le_name l -> StronglySorted le_name (insert_name x l).
Proof.
  induction l as [|y l IH]; intros S; [repeat constructor|]. cbn. inversion S as [|? ? S1 F]; subst. destruct (str_leb (fst x) (fst y)) eqn:E.
  - constructor; [exact S|]. constructor; [exact E|]. revert F. apply Forall_impl. intros z. unfold le_name. eauto using str_leb_trans.
  - constructor; [apply IH, S1|]. apply Forall_forall. intros z I. apply (Permutation_in _ (insert_perm x l)) in I.
    destruct I as [<-|I].
    + destruct (str_leb_total (fst x) (fst y)) as [X|X]; [congruence|exact X].
    + rewrite Forall_forall in F. apply F, I.
Qed.

Lemma sort_sorted (l : list (str * A)) : StronglySorted le_name (sort_names l).
Proof. induction l as [|x l IH]; [constructor|]. apply insert_sorted, IH. Qed.
End Sort.

Section NodeInd.
Variable P : node -> Prop.
Hypothesis HF : P File.
Hypothesis HD : forall es, (forall d m, In (d, m) es -> P m) -> P (Dir es).
Fixpoint node_ind' (n : node) : P n :=
  match n with
  | File => HF
  | Dir es => HD es ((fix go es : forall d m, In (d, m) es -> P m :=
      match es with
      | [] => fun d m (H : In (d, m) []) => match H with end
      | (d0, m0) :: es' => fun d m H =>
          match H with
          | or_introl E => match E in _ = y return P (snd y) with eq_refl => node_ind' m0 end
          | or_intror H' => go es' d m H'
          end
      end) es)
  end.
End NodeInd.

Definition sub (e : str * node) : str * (bool * list (list str)) := let '(name, m) := e in (name, (is_file m, walk m)).

Lemma sub_in es name b l : In (name, (b, l)) (map sub es) <-> exists m, In (name, m) es /\ b = is_file m /\ l = walk m.
Proof.
  rewrite in_map_iff. split.
  - intros ([d m] & E & I). injection E as <- <- <-. eauto.
  - intros (m & I & -> & ->). exists (name, m). auto.
Qed.

Lemma walk_dir es p : In p (walk (Dir es)) <->
  (exists d, p = [d] /\ In (d, File) es) \/
  (exists d m q, p = d :: q /\ In (d, m) es /\ is_file m = false /\ hidden d = false /\ In q (walk m)).
Proof.
  cbn [walk]. fold sub. rewrite in_app_iff, in_map_iff, in_flat_map. split.
  - intros [([d [b l]] & <- & I)|([d [b l]] & I & Q)].
    + left. exists d. split; [reflexivity|]. apply sort_in, filter_In in I. destruct I as [I B]. apply sub_in in I. destruct I as (m & I & -> & ->).
      cbn in B. destruct m; [exact I|discriminate].
    + right. apply sort_in, filter_In in I. destruct I as [I B]. apply sub_in in I. destruct I as (m & I & -> & ->). cbn [fst snd] in *.
      apply andb_true_iff in B. destruct B as [B1 B2]. apply in_map_iff in Q. destruct Q as (q & <- & Q).
      exists d, m, q. rewrite negb_true_iff in B1, B2. auto.
  - intros [(d & -> & I)|(d & m & q & -> & I & F & H & Q)].
    + left. exists (d, (true, [[]])). split; [reflexivity|]. apply sort_in, filter_In. split; [|reflexivity]. apply sub_in. exists File. auto.
    + right. exists (d, (false, walk m)). split; [|apply in_map, Q]. apply sort_in, filter_In. cbn [fst snd]. rewrite H. split; [|reflexivity].
      apply sub_in. exists m. auto.
Qed.

Lemma walk_nonempty es p : In p (walk (Dir es)) -> p <> [].
Proof. rewrite walk_dir. intros [(d & -> & _)|(d & m & q & -> & _)]; discriminate. Qed.

(** the files found are those that are there, but not below a hidden directory *)
Theorem C108_walk n p : In p (walk n) <-> at_ n p File /\ forall d, In d (removelast p) -> hidden d = false.
Proof.
  revert p. induction n as [|es IH] using node_ind'; intros p.
  - cbn [walk]. split.
    + intros [<-|[]]. split; [constructor|intros d []].
    + intros [H _]. inversion H; subst; cbn; auto.
  - rewrite walk_dir. split.
    + intros [(d & -> & I)|(d & m & q & -> & I & F & H & Q)].
      * split; [apply (at_below _ _ _ _ _ I); constructor|intros x []].
      * apply (IH d m I) in Q as Q'. destruct Q' as [A V]. split; [apply (at_below _ _ _ _ _ I A)|].
        destruct m as [|es']; [discriminate|]. pose proof (walk_nonempty _ _ Q) as NE. destruct q as [|c q]; [congruence|].
        intros x [<-|X]; auto.
    + intros [A V]. inversion A as [|? d m q ? I A']; subst. destruct m as [|es'].
      * left. inversion A'; subst. eauto.
      * right. exists d, (Dir es'), q. destruct q as [|c q]; [inversion A'|]. split; [reflexivity|]. split; [exact I|]. split; [reflexivity|].
        split; [apply V; left; reflexivity|]. apply (IH d _ I). split; [exact A'|]. intros x X. apply V. right. exact X.
Qed.

Lemma sorted_app {A} (R : A -> A -> Prop) a b : StronglySorted R a -> StronglySorted R b -> (forall x y, In x a -> In y b -> R x y) -> StronglySorted R (a ++ b).
Proof.
  induction a as [|x a IH]; intros SA SB H; [exact SB|]. inversion SA as [|? ? S F]; subst. cbn. constructor.
  - apply IH; auto. intros y z Y Z. apply H; [right; exact Y|exact Z].
  - apply Forall_app. split; [exact F|]. apply Forall_forall. intros y Y. apply H; [left; reflexivity|exact Y].
Qed.

Lemma sorted_map {A B} (f : A -> B) (R : A -> A -> Prop) (Q : B -> B -> Prop) l :
  StronglySorted R l -> (forall x y, In x l -> In y l -> R x y -> Q (f x) (f y)) -> StronglySorted Q (map f l).
Proof.
  induction 1 as [|x l S IH F]; intros H; [constructor|]. cbn. constructor.
  - apply IH. intros y z Y Z. apply H; right; assumption.
  - apply Forall_forall. intros y Y. apply in_map_iff in Y. destruct Y as (z & <- & Z). apply H; [left; reflexivity|right; exact Z|].
    rewrite Forall_forall in F. apply F, Z.
Qed.

Lemma filter_sub_nodup {A} (p : str * A -> bool) l : NoDup (map fst l) -> NoDup (map fst (sort_names (filter p l))).
Proof.
  intros N. apply (Permutation_NoDup (l := map fst (filter p l))); [apply Permutation_map, Permutation_sym, sort_perm|].
  induction l as [|x l IH]; [constructor|]. cbn in N. inversion N as [|? ? N1 N2]; subst. cbn. destruct (p x); [|apply IH, N2]. cbn. constructor; [|apply IH, N2].
  intros I. apply N1. apply in_map_iff in I. destruct I as (y & E & Y). rewrite <- E. apply in_map. apply filter_In in Y. apply Y.
Qed.

Lemma sorted_strict {A} (l : list (str * A)) : StronglySorted le_name l -> NoDup (map fst l) ->
  StronglySorted (fun x y => fst x <> fst y /\ str_leb (fst x) (fst y) = true) l.
Proof.
  induction 1 as [|x l S IH F]; intros N; [constructor|]. cbn in N. inversion N as [|? ? N1 N2]; subst. constructor; [apply IH, N2|].
  apply Forall_forall. intros y Y. rewrite Forall_forall in F. split; [|apply F, Y]. intros E. apply N1. rewrite E. apply in_map, Y.
Qed.

(** they are found in this order; so none is found twice *)
Theorem C108_order n : wf n -> StronglySorted before (walk n).
Proof.
  induction n as [|es IH] using node_ind'; intros W; [repeat constructor|]. inversion W as [|? N WE]; subst. cbn [walk]. fold sub.
  assert (NS : NoDup (map fst (map sub es))).
  { rewrite map_map. erewrite map_ext; [exact N|]. intros [d m]. reflexivity. }
  apply sorted_app.
  - apply (sorted_map _ (fun x y => fst x <> fst y /\ str_leb (fst x) (fst y) = true)).
    + apply sorted_strict; [apply sort_sorted|apply filter_sub_nodup, NS].
    + intros x y _ _ H. exact H.
  - set (l := sort_names _). assert (SL : StronglySorted (fun x y => fst x <> fst y /\ str_leb (fst x) (fst y) = true) l).
    { apply sorted_strict; [apply sort_sorted|apply filter_sub_nodup, NS]. }
    assert (LI : forall d b q, In (d, (b, q)) l -> StronglySorted before q /\ forall c, In c q -> c <> []).
    { intros d b q I. apply sort_in, filter_In in I. destruct I as [I B]. apply sub_in in I. destruct I as (m & I & -> & ->). split; [apply (IH d m I), (WE d m I)|].
      intros c C. cbn in B. destruct m; [discriminate|]. exact (walk_nonempty _ _ C). }
    clearbody l. clear - SL LI. induction SL as [|[d [b q]] l S IHl F]; [constructor|]. cbn [flat_map]. apply sorted_app.
    + destruct (LI d b q (or_introl eq_refl)) as [SQ NE]. apply (sorted_map _ before); [exact SQ|]. intros x y X Y H. cbn [fst].
      apply NE in X, Y. destruct x as [|x0 x], y as [|y0 y]; try congruence. right. auto.
    + apply IHl. intros d' b' q' I. apply (LI d' b' q'). right. exact I.
    + intros x y X Y. apply in_map_iff in X. destruct X as (c & <- & C). apply in_flat_map in Y. destruct Y as ([d' [b' q']] & I & Y).
      apply in_map_iff in Y. destruct Y as (c' & <- & C'). rewrite Forall_forall in F. specialize (F _ I). cbn [fst snd] in *.
      apply (proj2 (LI d b q (or_introl eq_refl))) in C. apply (proj2 (LI d' b' q' (or_intror I))) in C'.
      destruct c, c'; try congruence. left. exact F.
  - intros x y X Y. apply in_map_iff in X. destruct X as (e & <- & _). apply in_flat_map in Y. destruct Y as ([d' [b' q']] & I & Y).
    apply in_map_iff in Y. destruct Y as (c' & <- & C'). apply sort_in, filter_In in I. destruct I as [I B]. apply sub_in in I. destruct I as (m & I & -> & ->).
    cbn in B. destruct m; [discriminate|]. apply walk_nonempty in C'. destruct c'; [congruence|]. exact Logic.I.
Qed.

Lemma before_irrefl p : ~ before p p.
Proof.
  induction p as [|a p IH]; [intros []|]. cbn. destruct p as [|b p]; [intros [H _]; congruence|]. intros [[H _]|[_ H]]; [congruence|exact (IH H)].
Qed.

Theorem C108_once n : wf n -> NoDup (walk n).
Proof.
  intros W. pose proof (C108_order n W) as S. induction S as [|p l S IH F]; constructor; [|exact IH].
  intros I. rewrite Forall_forall in F. exact (before_irrefl p (F p I)).
Qed.

(** ** Proofs: generators *)

(** it leaves the namespaces and configurations, only adds imports to the trace, and
    depends on the namespaces only *)
Definition steady (g : G) : Prop := exists F : list ns -> list file * (list test * option exn),
  forall s, g s = (mkSt (namespaces s) (configs s) (map EImport (fst (F (namespaces s))) ++ trace s), snd (F (namespaces s))).

Lemma steady_nothing : steady nothing.
Proof. exists (fun _ => ([], ([], None))). intros [n c t]. reflexivity. Qed.

Lemma steady_fail e : steady (fail e).
Proof. exists (fun _ => ([], ([], Some e))). intros [n c t]. reflexivity. Qed.

Lemma steady_followed a b : steady a -> steady b -> steady (followed a b).
Proof.
  intros [F HF] [H HH].
  exists (fun n => match F n with
                   | (i, (l, Some e)) => (i, (l, Some e))
                   | (i, (l, None)) => (fst (H n) ++ i, (l ++ fst (snd (H n)), snd (snd (H n))))
                   end).
  intros s. unfold followed. rewrite HF. destruct (F (namespaces s)) as [i [l [e|]]]; cbn [fst snd]; [reflexivity|].
  rewrite HH. cbn [namespaces configs trace]. destruct (H (namespaces s)) as [j [l' e']]. cbn [fst snd]. rewrite map_app, <- app_assoc. reflexivity.
Qed.

Lemma steady_each {A} (l : list A) f : (forall x, In x l -> steady (f x)) -> steady (each l f).
Proof.
  induction l as [|x l IH]; intros H; [apply steady_nothing|]. cbn. apply steady_followed; [apply H; left; reflexivity|].
  apply IH. intros y Y. apply H. right. exact Y.
Qed.

Lemma steady_only p g : steady g -> steady (only p g).
Proof.
  intros [F HF]. exists (fun n => (fst (F n), (filter p (fst (snd (F n))), snd (snd (F n))))). intros s. unfold only. rewrite HF.
  destruct (F (namespaces s)) as [i [l e]]. reflexivity.
Qed.

Lemma steady_variations make g : steady (variations make g).
Proof. exists (fun n => ([], (map (fun v => make v n) (g_vars g), option_map Other (g_err g)))). intros [n c t]. reflexivity. Qed.

Lemma steady_in_namespace n g : steady g -> steady (in_namespace n g).
Proof. intros [F HF]. exists (fun m => F (n :: m)). intros s. unfold in_namespace. rewrite HF. reflexivity. Qed.

Lemma steady_factory f mod_ given t g : factory f mod_ given t = Some g -> steady g.
Proof.
  destruct t as [|name abstract skipped attrs|name g'|]; cbn; try discriminate.
  - intros [= <-]. unfold class_tests. destruct abstract; [apply steady_nothing|]. apply steady_each. intros a _.
    destruct (starts _ _); [apply steady_variations|apply steady_nothing].
  - destruct (starts _ _); [|discriminate]. intros [= <-]. apply steady_variations.
Qed.

Lemma steady_module f m : steady (module_tests f m).
Proof.
  unfold module_tests. apply steady_each. intros [name t] _. cbn [fst snd]. destruct t; try apply steady_nothing;
    destruct (factory _ _ _ _) eqn:E; try apply steady_nothing; apply (steady_factory _ _ _ _ _ E).
Qed.

Lemma steady_may_fail e : steady (may_fail e).
Proof. destruct e; [apply steady_fail|apply steady_nothing]. Qed.

Section Load.
Variable w : world.

Lemma steady_adding f g : steady g -> steady (adding_local_fixtures w f g).
Proof.
  intros S. unfold adding_local_fixtures. apply steady_in_namespace. destruct (conf_err w f); [apply steady_fail|].
  destruct (steady_followed _ _ (steady_may_fail (conf_fixtures_err w f))
    (steady_in_namespace (NModule f) _ (steady_followed _ _ (steady_may_fail (module_fixtures_err w f)) (steady_followed _ _ (steady_may_fail (resolve_err w f)) S)))) as [F HF].
  exists F. intros s. rewrite HF. reflexivity.
Qed.

Lemma steady_file f : steady (load_file w f).
Proof.
  unfold load_file. destruct (wanted f); [|apply steady_nothing]. destruct (import_ w f) as [m|n|n].
  - destruct (steady_adding f _ (steady_module f m)) as [F HF]. exists (fun n => (fst (F n) ++ [f], snd (F n))). intros s. rewrite HF. cbn [fst snd emit namespaces configs trace].
    rewrite map_app, <- app_assoc. reflexivity.
  - exists (fun _ => ([f], ([], Some (NotLoaded f n)))). intros s. reflexivity.
  - exists (fun _ => ([f], ([], Some (Other n)))). intros s. reflexivity.
Qed.

Lemma steady_path p : steady (iter_path w p).
Proof. unfold iter_path. destruct (fs w p); [|apply steady_fail]. apply steady_each. intros l _. apply steady_file. Qed.

Lemma steady_address a : steady (iter_test_address w a).
Proof.
  unfold iter_test_address. destruct (match split1 ":"%char a with Some (p, a) => (p, Some a) | None => (a, None) end) as [p b].
  destruct (steady_path p) as [F HF].
  exists (fun n => (fst (F n),
    match snd (F n) with
    | (_, Some e) => ([], Some e)
    | ([], None) => match b with None => ([], None) | Some _ => ([], Some (NotFound a)) end
    | (tests, None) =>
       let l := filter (fun t => match b with Some a => matches a t | None => true end) tests in
       (filter (fun t => negb (excluded w t)) l, match l with [] => Some (NotFound a) | _ => None end)
    end)).
  intros s. rewrite HF. destruct (F (namespaces s)) as [i [l e]]. cbn [fst snd]. destruct l, e, b; reflexivity.
Qed.

Section SourceInd.
Variable P : source -> Prop.
Hypothesis HT : forall x m, P x -> P (STuple x m).
Hypothesis HL : forall l, (forall x, In x l -> P x) -> P (SList l).
Hypothesis HO : forall x, (forall y m, x <> STuple y m) -> (forall l, x <> SList l) -> P x.
Fixpoint source_ind' (x : source) : P x.
Proof.
  destruct x as [y m|l|a|t|p a v|f m t|].
  - apply HT, source_ind'.
  - apply HL. induction l as [|y l IH]; intros x I; [destruct I|]. destruct I as [<-|I]; [apply source_ind'|apply IH, I].
  - apply HO; discriminate.
  - apply HO; discriminate.
  - apply HO; discriminate.
  - apply HO; discriminate.
  - apply HO; discriminate.
Defined.
End SourceInd.

Lemma sources_list l : sources w (SList l) = each l (sources w).
Proof. cbn. induction l as [|x l IH]; [reflexivity|]. cbn. rewrite IH. reflexivity. Qed.

Lemma steady_sources x : steady (sources w x).
Proof.
  induction x as [x m IH|l IH|x NT NL] using source_ind'.
  - cbn. apply steady_only, IH.
  - rewrite sources_list. apply steady_each, IH.
  - destruct x as [y m|l|a|t|p a v|f m t|]; cbn.
    + destruct (NT y m eq_refl).
    + destruct (NL l eq_refl).
    + apply steady_address.
    + exists (fun _ => ([], ([t], None))). intros [n c tr]. reflexivity.
    + apply steady_only, steady_path.
    + destruct (factory f m None t) eqn:E; [apply (steady_factory _ _ _ _ _ E)|apply steady_fail].
    + apply steady_fail.
Qed.

(** whatever is loaded and whatever goes wrong: the namespaces and the local
    configurations are as before, and nothing happened but imports *)
Theorem C108_restored x s : namespaces (fst (sources w x s)) = namespaces s /\ configs (fst (sources w x s)) = configs s /\
  exists l, trace (fst (sources w x s)) = map EImport l ++ trace s.
Proof. destruct (steady_sources x) as [F HF]. rewrite HF. cbn. eauto. Qed.

(** what is found does not depend on what was loaded before *)
Theorem C108_independent x s s' : namespaces s = namespaces s' -> snd (sources w x s) = snd (sources w x s').
Proof. destruct (steady_sources x) as [F HF]. rewrite !HF. cbn. intros ->. reflexivity. Qed.

(** a loop without an error gives what its parts give *)
Lemma each_spec {A} (l : list A) f s : (forall x, In x l -> steady (f x)) ->
  (snd (snd (each l f s)) = None <-> forall x, In x l -> snd (snd (f x s)) = None) /\
  (snd (snd (each l f s)) = None -> fst (snd (each l f s)) = flat_map (fun x => fst (snd (f x s))) l).
Proof.
  revert s. induction l as [|x l IH]; intros s H; [cbn; split; [split; [intros _ ? []|reflexivity]|reflexivity]|].
  assert (H' : forall y, In y l -> steady (f y)) by (intros y Y; apply H; right; exact Y).
  destruct (H x (or_introl eq_refl)) as [F HF]. cbn [each flat_map]. unfold followed. rewrite HF.
  pose proof (HF s) as HFs. destruct (F (namespaces s)) as [i [a [e|]]]; cbn [fst snd].
  - split; [|discriminate]. split; [discriminate|]. intros Q. specialize (Q x (or_introl eq_refl)). rewrite HFs in Q. discriminate.
  - set (s1 := mkSt _ _ _). specialize (IH s1 H'). destruct IH as [I1 I2].
    assert (E : forall y, In y l -> snd (f y s1) = snd (f y s)) by (intros y Y; destruct (H' y Y) as [Fy HFy]; rewrite !HFy; reflexivity).
    destruct (each l f s1) as [s2 [b e]]. cbn [fst snd] in *. split.
    + rewrite I1. split.
      * intros Q y [<-|Y]; [rewrite HFs; reflexivity|]. rewrite <- E; auto.
      * intros Q y Y. rewrite E; auto. apply Q. right. exact Y.
    + intros N. rewrite (I2 N). f_equal. rewrite !flat_map_concat_map. f_equal. apply map_ext_in. intros y Y. rewrite E; auto.
Qed.

(** with an error, some part has it, and what was given is what the parts give *)
Lemma each_some {A} (l : list A) f s : (forall x, In x l -> steady (f x)) -> forall t, In t (fst (snd (each l f s))) -> exists x, In x l /\ In t (fst (snd (f x s))).
Proof.
  revert s. induction l as [|x l IH]; intros s H t; [intros []|].
  assert (H' : forall y, In y l -> steady (f y)) by (intros y Y; apply H; right; exact Y).
  destruct (H x (or_introl eq_refl)) as [F HF]. cbn [each]. unfold followed. pose proof (HF s) as HFs. rewrite HF.
  destruct (F (namespaces s)) as [i [a [e|]]]; cbn [fst snd].
  - intros I. exists x. rewrite HFs. split; [left; reflexivity|exact I].
  - set (s1 := mkSt _ _ _). specialize (IH s1 H' t). destruct (each l f s1) as [s2 [b e]]. cbn [fst snd] in *. rewrite in_app_iff.
    intros [I|I]; [exists x; rewrite HFs; split; [left; reflexivity|exact I]|].
    destruct (IH I) as (y & Y & J). exists y. split; [right; exact Y|]. destruct (H' y Y) as [Fy HFy]. rewrite !HFy in *. exact J.
Qed.

(** *** The tests of a module *)

Lemma starts_iff p s : starts (lit p) s = true <-> exists r, s = lit p ++ r.
Proof. apply starts_spec. Qed.

Lemma module_spec f m s :
  (snd (snd (module_tests f m s)) = None <-> forall g, asked m g -> g_err g = None) /\
  (snd (snd (module_tests f m s)) = None -> forall t, In t (fst (snd (module_tests f m s))) <-> made f m (namespaces s) t).
Proof.
  unfold module_tests.
  assert (SE : forall x : str * thing, In x (sort_names (m_things m)) -> steady ((fun a => match snd a with AFactoryClass => nothing | t => match factory f (m_name m) (Some (fst a)) t with Some g => g | None => nothing end end) x)).
  { intros [name t] _. cbn [fst snd]. destruct t; try apply steady_nothing; destruct (factory _ _ _ _) eqn:E; try apply steady_nothing; apply (steady_factory _ _ _ _ _ E). }
  destruct (each_spec _ _ s SE) as [E1 E2]. clear SE.
  assert (CS : forall attrs : list (str * gen), forall name cn skipped, forall x : str * gen, In x (sort_names attrs) -> steady ((fun a => if starts (lit "test") (fst a) then variations (fun v n => mkTest f (m_name m) (factory_name (Some name) cn) (Some cn) (Some (fst a)) v skipped n) (snd a) else nothing) x)).
  { intros attrs name cn skipped x _. cbn. destruct (starts _ _); [apply steady_variations|apply steady_nothing]. }
  split.
  - rewrite E1. clear E1 E2. split.
    + intros H g A. destruct A as [name fn g r I R|name cn skipped attrs mn g r I J R].
      * specialize (H (name, AFunction fn g) (proj2 (sort_in _ _) I)). cbn [fst snd factory] in H. rewrite (proj2 (starts_iff "test_" fn)) in H by eauto. cbn in H. destruct (g_err g); [discriminate|reflexivity].
      * specialize (H (name, AClass cn false skipped attrs) (proj2 (sort_in _ _) I)). cbn [fst snd factory class_tests] in H.
        rewrite (proj1 (each_spec _ _ s (CS attrs name cn skipped))) in H. specialize (H (mn, g) (proj2 (sort_in _ _) J)). cbn [fst snd] in H.
        rewrite (proj2 (starts_iff "test" mn)) in H by eauto. cbn in H. destruct (g_err g); [discriminate|reflexivity].
    + intros H [name t] I. rewrite sort_in in I. destruct t as [|cn abstract skipped attrs|fn g|]; try reflexivity; cbn [fst snd factory class_tests].
      * destruct abstract; [reflexivity|]. unfold class_tests. rewrite (proj1 (each_spec _ _ s (CS attrs name cn skipped))). intros [mn g] J. rewrite sort_in in J. cbn [fst snd].
        destruct (starts (lit "test") mn) eqn:S; [|reflexivity]. apply starts_iff in S. destruct S as [r R]. cbn.
        rewrite (H g (asked_method _ _ _ _ _ _ _ _ I J R)). reflexivity.
      * destruct (starts (lit "test_") fn) eqn:S; [|reflexivity]. apply starts_iff in S. destruct S as [r R]. cbn. rewrite (H g (asked_function _ _ _ _ _ I R)). reflexivity.
  - intros N t. rewrite (E2 N). rewrite E1 in N. clear E1 E2. rewrite in_flat_map. split.
    + intros ([name th] & I & T). specialize (N _ I). rewrite sort_in in I. destruct th as [|cn abstract skipped attrs|fn g|]; cbn [fst snd factory] in *; try destruct T.
      * unfold class_tests in *. destruct abstract; [destruct T|]. destruct (each_spec _ _ s (CS attrs name cn skipped)) as [_ C2]. rewrite (C2 N) in T. apply in_flat_map in T.
        destruct T as ([mn g] & J & T). rewrite sort_in in J. cbn [fst snd] in T. destruct (starts (lit "test") mn) eqn:S; [|destruct T]. apply starts_iff in S. destruct S as [r R].
        cbn in T. apply in_map_iff in T. destruct T as (v & <- & V). apply (made_method _ _ _ _ _ _ _ _ _ _ _ I J R V).
      * destruct (starts (lit "test_") fn) eqn:S; [|destruct T]. apply starts_iff in S. destruct S as [r R]. cbn in T. apply in_map_iff in T. destruct T as (v & <- & V).
        apply (made_function _ _ _ _ _ _ _ _ I R V).
    + intros M. destruct M as [name fn g v r I R V|name cn skipped attrs mn g v r I J R V].
      * exists (name, AFunction fn g). split; [apply sort_in, I|]. cbn [fst snd factory]. rewrite (proj2 (starts_iff "test_" fn)) by eauto. cbn. apply in_map_iff. eauto.
      * exists (name, AClass cn false skipped attrs). pose proof (proj2 (sort_in _ _) I) as I'. specialize (N _ I'). split; [exact I'|]. cbn [fst snd factory] in *. unfold class_tests in *.
        destruct (each_spec _ _ s (CS attrs name cn skipped)) as [_ C2]. rewrite (C2 N). apply in_flat_map. exists (mn, g). split; [apply sort_in, J|]. cbn [fst snd].
        rewrite (proj2 (starts_iff "test" mn)) by eauto. cbn. apply in_map_iff. eauto.
Qed.

(** *** Files *)

Definition mute (g : G) : Prop := forall s, trace (fst (g s)) = trace s.

Lemma mute_followed a b : mute a -> mute b -> mute (followed a b).
Proof.
  intros A B s. unfold followed. specialize (A s). destruct (a s) as [s1 [l [e|]]]; [exact A|]. specialize (B s1). destruct (b s1) as [s2 [l' e']].
  cbn [fst] in *. congruence.
Qed.

Lemma mute_each {A} (l : list A) f : (forall x, In x l -> mute (f x)) -> mute (each l f).
Proof.
  induction l as [|x l IH]; intros H; [intros s; reflexivity|]. apply mute_followed; [apply H; left; reflexivity|]. apply IH. intros y Y. apply H. right. exact Y.
Qed.

Lemma mute_in n g : mute g -> mute (in_namespace n g).
Proof. intros H s. unfold in_namespace. specialize (H (push_ns n s)). destruct (g (push_ns n s)). exact H. Qed.

Lemma mute_may e : mute (may_fail e).
Proof. destruct e; intros s; reflexivity. Qed.

Lemma mute_module f m : mute (module_tests f m).
Proof.
  apply mute_each. intros [name t] _. destruct t as [|cn abstract skipped attrs|fn g|]; try (intros s; reflexivity); cbn [fst snd factory].
  - unfold class_tests. destruct abstract; [intros s; reflexivity|]. apply mute_each. intros a _. destruct (starts _ _); intros s; reflexivity.
  - destruct (starts _ _); intros s; reflexivity.
Qed.

Lemma mute_adding f g : mute g -> mute (adding_local_fixtures w f g).
Proof.
  intros H. apply mute_in. intros s. destruct (conf_err w f); [reflexivity|].
  pose proof (mute_followed _ _ (mute_may (conf_fixtures_err w f)) (mute_in (NModule f) _ (mute_followed _ _ (mute_may (module_fixtures_err w f)) (mute_followed _ _ (mute_may (resolve_err w f)) H))) (push_conf f s)) as K.
  destruct (followed _ _ (push_conf f s)) as [s1 r]. exact K.
Qed.

Lemma file_trace f s : trace (fst (load_file w f s)) = (if wanted f then [EImport f] else []) ++ trace s.
Proof.
  unfold load_file. destruct (wanted f); [|reflexivity]. destruct (import_ w f) as [m|n|n]; [|reflexivity|reflexivity].
  rewrite (mute_adding f _ (mute_module f m)). reflexivity.
Qed.

(** a file that is not wanted is left alone; another one loads without an error exactly if
    nothing goes wrong with it, and then it gives the tests it has, made below the
    namespaces of its local configuration and of itself *)
Theorem C108_file f s :
  (wanted f = false -> load_file w f s = (s, ([], None))) /\
  (wanted f = true ->
    (snd (snd (load_file w f s)) = None <-> exists m, loads w f m) /\
    (forall m, loads w f m -> forall t, In t (fst (snd (load_file w f s))) <-> made f m (NModule f :: NConf f :: namespaces s) t)).
Proof.
  split; [intros W; unfold load_file; rewrite W; reflexivity|]. intros W. unfold load_file. rewrite W.
  destruct (import_ w f) as [m|n|n] eqn:I.
  2,3: cbn [fail fst snd]; split; [split; [discriminate|intros (m & L & _); congruence]|intros m (L & _); congruence].
  assert (K : let s2 := mkSt (NModule f :: NConf f :: namespaces s) (f :: configs s) (EImport f :: trace s) in
     snd (adding_local_fixtures w f (module_tests f m) (emit (EImport f) s)) =
     match conf_err w f, conf_fixtures_err w f, module_fixtures_err w f, resolve_err w f with
     | None, None, None, None => snd (module_tests f m s2)
     | Some e, _, _, _ | None, Some e, _, _ | None, None, Some e, _ | None, None, None, Some e => ([], Some (Other e))
     end).
  { cbn zeta. unfold adding_local_fixtures, in_namespace. destruct (conf_err w f); [reflexivity|]. unfold followed.
    destruct (conf_fixtures_err w f); [reflexivity|]. cbn [may_fail nothing]. destruct (module_fixtures_err w f); [reflexivity|]. cbn [may_fail nothing].
    destruct (resolve_err w f); [reflexivity|]. cbn [may_fail nothing]. unfold push_conf, push_ns, emit. cbn [namespaces configs trace].
    destruct (module_tests f m _) as [s3 [l e]]. reflexivity. }
  cbn zeta in K. rewrite K. clear K. set (s2 := mkSt _ _ _). destruct (module_spec f m s2) as [M1 M2]. split.
  - split.
    + intros N. exists m. unfold loads. destruct (conf_err w f); [discriminate|]. destruct (conf_fixtures_err w f); [discriminate|].
      destruct (module_fixtures_err w f); [discriminate|]. destruct (resolve_err w f); [discriminate|]. repeat (split; [auto|]). apply M1, N.
    + intros (m' & L1 & -> & -> & -> & -> & L). rewrite I in L1. injection L1 as <-. apply M1, L.
  - intros m' (L1 & -> & -> & -> & -> & L). rewrite I in L1. injection L1 as <-. apply M2, M1, L.
Qed.

(** files whose name ends in .py are wanted *)
Theorem C108_wanted p l : wanted (p, l) = true <-> exists b, last l p = b ++ lit ".py".
Proof. apply ends_spec. Qed.

(** how a file ends that does not load: an Exception of the import becomes an error of loading
    that file; anything else is passed on *)
Theorem C108_file_error f s n : wanted f = true ->
  (import_ w f = IException n -> snd (load_file w f s) = ([], Some (NotLoaded f n))) /\
  (import_ w f = INotException n -> snd (load_file w f s) = ([], Some (Other n))) /\
  (forall m, import_ w f = IModule m ->
     conf_err w f = Some n \/ (conf_err w f = None /\ conf_fixtures_err w f = Some n) \/
     (conf_err w f = None /\ conf_fixtures_err w f = None /\ module_fixtures_err w f = Some n) \/
     (conf_err w f = None /\ conf_fixtures_err w f = None /\ module_fixtures_err w f = None /\ resolve_err w f = Some n) ->
     snd (load_file w f s) = ([], Some (Other n))).
Proof.
  intros W. unfold load_file. rewrite W. split; [intros ->; reflexivity|]. split; [intros ->; reflexivity|]. intros m -> H.
  unfold adding_local_fixtures, in_namespace, followed.
  destruct H as [->|[[-> ->]|[(-> & -> & ->)|(-> & -> & -> & ->)]]]; reflexivity.
Qed.

(** *** Paths *)

(** a path that is not there: no file is imported *)
Theorem C108_no_path p s : fs w p = None -> iter_path w p s = (s, ([], Some (NoPath p))).
Proof. intros H. unfold iter_path. rewrite H. reflexivity. Qed.

(** a path that is there: if all its files load, they are all imported, in order, and give
    their tests one after the other; otherwise the first file that does not load is the
    last one imported, and the error is its error *)
Theorem C108_path p n s : fs w p = Some n ->
  let files := filter wanted (map (pair p) (walk n)) in
  ((forall f, In f files -> exists m, loads w f m) ->
     iter_path w p s = (mkSt (namespaces s) (configs s) (rev (map EImport files) ++ trace s), (flat_map (fun f => fst (snd (load_file w f s))) files, None))) /\
  (forall before_ f after, files = before_ ++ f :: after -> (forall g, In g before_ -> exists m, loads w g m) -> (~ exists m, loads w f m) ->
     exists tests e, snd (snd (load_file w f s)) = Some e /\
     iter_path w p s = (mkSt (namespaces s) (configs s) (rev (map EImport (before_ ++ [f])) ++ trace s), (tests, Some e))).
Proof.
  intros H files. unfold iter_path. rewrite H.
  assert (E : forall l s, each l (fun x => load_file w (p, x)) s = each (filter wanted (map (pair p) l)) (load_file w) s).
  { clear. induction l as [|x l IH]; intros s; [reflexivity|]. cbn [map filter each]. destruct (wanted (p, x)) eqn:W.
    - cbn [each]. unfold followed. destruct (load_file w (p, x) s) as [s1 [a [e|]]]; [reflexivity|]. rewrite IH. reflexivity.
    - unfold followed. rewrite (proj1 (C108_file (p, x) s) W). rewrite IH. destruct (each _ _ s) as [s2 [a e]]. reflexivity. }
  rewrite E. fold files. assert (AW : forall f, In f files -> wanted f = true) by (intros f I; apply filter_In in I; apply I).
  clearbody files. clear E H n.
  assert (ST : forall f s, exists tr, load_file w f s = (mkSt (namespaces s) (configs s) tr, snd (load_file w f s))).
  { clear. intros f s. destruct (steady_file f) as [F HF]. eexists. rewrite HF. reflexivity. }
  assert (OK : forall f s, In f files -> (exists m, loads w f m) ->
     load_file w f s = (mkSt (namespaces s) (configs s) (EImport f :: trace s), (fst (snd (load_file w f s)), None))).
  { intros f s0 I L. destruct (C108_file f s0) as [_ C]. destruct (C (AW f I)) as [C1 _]. apply C1 in L. destruct (ST f s0) as [tr T]. pose proof (file_trace f s0) as FT.
    rewrite (AW f I) in FT. rewrite T in FT. cbn in FT. subst tr. rewrite T at 1. destruct (snd (load_file w f s0)) as [a e]. cbn in L. subst e. reflexivity. }
  assert (SAME : forall f s s', namespaces s = namespaces s' -> snd (load_file w f s) = snd (load_file w f s')).
  { clear. intros f s s' Q. destruct (steady_file f) as [F HF]. rewrite !HF. cbn. rewrite Q. reflexivity. }
  split.
  - revert s. induction files as [|f files IH]; intros s L; [destruct s; reflexivity|]. cbn [each]. unfold followed.
    rewrite (OK f s (or_introl eq_refl) (L f (or_introl eq_refl))). rewrite IH.
    + cbn [namespaces configs trace map rev flat_map]. rewrite <- app_assoc. cbn. f_equal. f_equal. f_equal. rewrite !flat_map_concat_map. f_equal. apply map_ext. intros g. f_equal. apply SAME. reflexivity.
    + intros g I. apply AW. right. exact I.
    + intros g s0 I. apply OK. right. exact I.
    + intros g I. apply L. right. exact I.
  - intros b f a -> LB NL. destruct (C108_file f s) as [_ C]. assert (WF : wanted f = true) by (apply AW, in_app_iff; right; left; reflexivity).
    destruct (C WF) as [C1 _]. destruct (snd (snd (load_file w f s))) as [e|] eqn:EF; [|destruct NL; apply C1; reflexivity]. clear C C1.
    enough (G : exists tests, each (b ++ f :: a) (load_file w) s = (mkSt (namespaces s) (configs s) (rev (map EImport (b ++ [f])) ++ trace s), (tests, Some e))).
    { destruct G as [tests G]. exists tests, e. auto. }
    revert s EF. induction b as [|g b IH]; intros s EF.
    + cbn [app each map rev]. unfold followed. destruct (ST f s) as [tr T]. pose proof (file_trace f s) as FT. rewrite WF, T in FT. cbn in FT. subst tr. rewrite T.
      destruct (snd (load_file w f s)) as [l e']. cbn in EF. subst e'. exists l. reflexivity.
    + cbn [app each map rev]. unfold followed. rewrite (OK g s (or_introl eq_refl) (LB g (or_introl eq_refl))). set (s1 := mkSt _ _ _).
      destruct (IH (fun h I => AW h (or_intror I)) (fun h s0 I => OK h s0 (or_intror I)) (fun h I => LB h (or_intror I)) s1) as [tests E].
      { rewrite (SAME f s1 s eq_refl). exact EF. }
      rewrite E. eexists. unfold s1. cbn [namespaces configs trace]. rewrite <- app_assoc. reflexivity.
Qed.

(** the tests of a file come in the order of the names in the module, those of a class in
    the order of the names of the methods *)
Definition le_test (a b : test) : Prop :=
  str_leb (t_factory a) (t_factory b) = true /\
  (t_factory a = t_factory b -> match t_method a, t_method b with Some x, Some y => str_leb x y = true | _, _ => True end).

Lemma str_leb_refl a : str_leb a a = true.
Proof. destruct (str_leb_total a a); assumption. Qed.

Lemma sorted_flat {A} (R : A -> A -> Prop) (Q : test -> test -> Prop) (g : A -> list test) l : StronglySorted R l ->
  (forall x, In x l -> StronglySorted Q (g x)) -> (forall x y a b, In x l -> In y l -> R x y -> In a (g x) -> In b (g y) -> Q a b) ->
  StronglySorted Q (flat_map g l).
Proof.
  induction 1 as [|x l S IH F]; intros H1 H2; [constructor|]. cbn. apply sorted_app; [apply H1; left; reflexivity| |].
  - apply IH; [intros y Y; apply H1; right; exact Y|]. intros y z a b Y Z. apply H2; right; assumption.
  - intros a b IA IB. apply in_flat_map in IB. destruct IB as (y & Y & IB). rewrite Forall_forall in F. apply (H2 x y); auto; [left; reflexivity|right; exact Y].
Qed.

Lemma each_prefix {A} (l : list A) f s : (forall x, In x l -> steady (f x)) -> exists l1 l2, l = l1 ++ l2 /\
  fst (snd (each l f s)) = flat_map (fun x => fst (snd (f x s))) l1.
Proof.
  revert s. induction l as [|x l IH]; intros s H; [exists [], []; auto|].
  assert (H' : forall y, In y l -> steady (f y)) by (intros y Y; apply H; right; exact Y).
  destruct (H x (or_introl eq_refl)) as [F HF]. cbn [each]. unfold followed. pose proof (HF s) as HFs. rewrite HF.
  destruct (F (namespaces s)) as [i [a [e|]]]; cbn [fst snd].
  - exists [x], l. split; [reflexivity|]. cbn. rewrite HFs, app_nil_r. reflexivity.
  - set (s1 := mkSt _ _ _). destruct (IH s1 H') as (l1 & l2 & -> & E). exists (x :: l1), l2. split; [reflexivity|]. destruct (each _ f s1) as [s2 [b e]]. cbn [fst snd flat_map] in *.
    rewrite HFs, E. cbn. f_equal. rewrite !flat_map_concat_map. f_equal. apply map_ext_in. intros y Y. destruct (H' y (in_or_app _ _ _ (or_introl Y))) as [Fy HFy]. rewrite !HFy. reflexivity.
Qed.

Lemma sorted_prefix {A} (R : A -> A -> Prop) a b : StronglySorted R (a ++ b) -> StronglySorted R a.
Proof.
  induction a as [|x a IH]; intros S; [constructor|]. cbn in S. inversion S as [|? ? S1 F]; subst. constructor; [apply IH, S1|]. apply Forall_app in F. apply F.
Qed.

Theorem C108_test_order f m s : NoDup (map fst (m_things m)) -> StronglySorted le_test (fst (snd (module_tests f m s))).
Proof.
  intros ND. unfold module_tests.
  set (body := fun a : str * thing => match snd a with AFactoryClass => nothing | t => match factory f (m_name m) (Some (fst a)) t with Some g => g | None => nothing end end).
  assert (SE : forall x : str * thing, In x (sort_names (m_things m)) -> steady (body x)).
  { intros [name t] _. unfold body. cbn [fst snd]. destruct t; try apply steady_nothing; destruct (factory _ _ _ _) eqn:E; try apply steady_nothing; apply (steady_factory _ _ _ _ _ E). }
  destruct (each_prefix _ _ s SE) as (l1 & l2 & EL & ->).
  assert (SS : StronglySorted (fun x y : str * thing => fst x <> fst y /\ str_leb (fst x) (fst y) = true) l1).
  { apply (sorted_prefix _ l1 l2). rewrite <- EL. apply sorted_strict; [apply sort_sorted|].
    apply (Permutation_NoDup (l := map fst (m_things m))); [apply Permutation_map, Permutation_sym, sort_perm|exact ND]. }
  assert (NAME : forall x t, In t (fst (snd (body x s))) -> t_factory t = fst x).
  { clear. intros [name th] t. unfold body. destruct th as [|cn abstract skipped attrs|fn g|]; cbn [fst snd factory]; try (intros []; fail).
    - unfold class_tests. destruct abstract; [intros []|]. intros I. apply each_some in I.
      + destruct I as (a & _ & I). destruct (starts _ _); [|destruct I]. cbn in I. apply in_map_iff in I. destruct I as (v & <- & _). reflexivity.
      + intros x _. destruct (starts _ _); [apply steady_variations|apply steady_nothing].
    - destruct (starts _ _); [|intros []]. cbn. intros I. apply in_map_iff in I. destruct I as (v & <- & _). reflexivity. }
  apply (sorted_flat (fun x y : str * thing => fst x <> fst y /\ str_leb (fst x) (fst y) = true)); [exact SS| |].
  - clear - NAME. intros x _. assert (AL : forall l make, (forall v v' : nat, le_test (make v) (make v')) -> StronglySorted le_test (map make l)).
    { clear. intros l make H. induction l as [|v l IH]; [constructor|]. cbn. constructor; [exact IH|]. apply Forall_forall. intros t T. apply in_map_iff in T. destruct T as (v' & <- & _). apply H. }
    destruct x as [name th]. unfold body. destruct th as [|cn abstract skipped attrs|fn g|]; cbn [fst snd factory]; try constructor.
    + unfold class_tests. destruct abstract; [constructor|]. set (each_ := fun a : str * gen => _).
      destruct (each_prefix (sort_names attrs) each_ s) as (a1 & a2 & EA & E); [intros a _; unfold each_; destruct (starts (lit "test") (fst a)); [apply steady_variations|apply steady_nothing]|].
      rewrite E. unfold each_.
      apply (sorted_flat le_name).
      * apply (sorted_prefix _ a1 a2). rewrite <- EA. apply sort_sorted.
      * intros a _. destruct (starts _ _); [|constructor]. apply AL. intros v v'. split; cbn; [apply str_leb_refl|intros _; apply str_leb_refl].
      * intros a b ta tb _ _ R IA IB. destruct (starts _ (fst a)); [|destruct IA]. destruct (starts _ (fst b)); [|destruct IB]. cbn in IA, IB.
        apply in_map_iff in IA, IB. destruct IA as (v & <- & _), IB as (v' & <- & _). split; cbn; [apply str_leb_refl|intros _; exact R].
    + destruct (starts _ _); [|constructor]. apply AL. intros v v'. split; cbn; auto using str_leb_refl.
  - intros x y a b _ _ [NE R] IA IB. apply NAME in IA, IB. unfold le_test. rewrite IA, IB. split; [exact R|]. intros E. congruence.
Qed.

(** *** Addresses and sources *)

Lemma matches_spec a t : matches a t = true <-> named_by a t.
Proof.
  unfold matches, address_matches, named_by. cbn [f_factory f_address]. destruct (str_eqb_spec a (t_factory t)) as [E|E]; [tauto|].
  destruct (str_eqb_spec a (address_in_file t)) as [E2|E2]; [tauto|]. destruct (split1 "("%char (address_in_file t)) as [[b r]|] eqn:S.
  - apply split1_spec in S. destruct S as [S NI]. rewrite str_eqb_eq. split.
    + intros ->. right. right. exists r. auto.
    + intros [X|[X|(r' & X & NI')]]; try congruence. rewrite S in X. assert (Q : split1 "("%char (a ++ lit "(" ++ r') = Some (b, r)) by (apply split1_spec; split; [congruence|exact NI]).
      assert (Q' : split1 "("%char (a ++ lit "(" ++ r') = Some (a, r')) by (apply split1_spec; auto). rewrite Q in Q'. congruence.
  - apply split1_none in S. split; [discriminate|]. intros [X|[X|(r & X & _)]]; try congruence. exfalso. apply S. rewrite X. apply in_app_iff. right. left. reflexivity.
Qed.

(** an address without a colon gives the tests of the path that are not excluded; one with a
    colon those named by what follows it; if there is none of that name, though perhaps
    excluded, the address is not found *)
Theorem C108_address p s s1 tests : ~ In ":"%char p -> iter_path w p s = (s1, (tests, None)) ->
  iter_test_address w p s = (s1, (filter (fun t => negb (excluded w t)) tests, None)) /\
  (forall a, exists l e, iter_test_address w (p ++ lit ":" ++ a) s = (s1, (l, e)) /\
    (forall t, In t l <-> In t tests /\ named_by a t /\ excluded w t = false) /\
    (e = None <-> exists t, In t tests /\ named_by a t) /\ (e <> None -> e = Some (NotFound (p ++ lit ":" ++ a)))).
Proof.
  intros NC E. split.
  - unfold iter_test_address. rewrite (proj2 (split1_none _ _) NC), E. destruct tests as [|t tests]; [reflexivity|].
    assert (T : forall l : list test, filter (fun _ => true) l = l) by (induction l as [|x l IH]; cbn; congruence). rewrite T. reflexivity.
  - intros a. unfold iter_test_address. rewrite (proj2 (split1_spec ":"%char (p ++ lit ":" ++ a) p a)) by auto. rewrite E. destruct tests as [|t0 tests].
    + exists [], (Some (NotFound (p ++ lit ":" ++ a))). split; [reflexivity|]. split; [intros t; split; [intros []|intros [[] _]]|]. split; [|auto].
      split; [discriminate|intros (t & [] & _)].
    + set (l := t0 :: tests). eexists. eexists. split; [reflexivity|].
      assert (M : forall t, In t (filter (matches a) l) <-> In t l /\ named_by a t) by (intros t; rewrite filter_In, matches_spec; reflexivity).
      split; [|split].
      * intros t. rewrite filter_In, M, negb_true_iff. tauto.
      * destruct (filter (matches a) l) as [|t1 r] eqn:F.
        -- split; [discriminate|]. intros (t & T). apply M in T. destruct T.
        -- split; [|reflexivity]. intros _. exists t1. apply M. left. reflexivity.
      * destruct (filter (matches a) l); congruence.
Qed.

(** an error of the path is the error of the address *)
Theorem C108_address_error p s s1 tests e : ~ In ":"%char p -> iter_path w p s = (s1, (tests, Some e)) ->
  iter_test_address w p s = (s1, ([], Some e)) /\ forall a, iter_test_address w (p ++ lit ":" ++ a) s = (s1, ([], Some e)).
Proof.
  intros NC E. split; [|intros a]; unfold iter_test_address.
  - rewrite (proj2 (split1_none _ _) NC), E. destruct tests; reflexivity.
  - rewrite (proj2 (split1_spec ":"%char (p ++ lit ":" ++ a) p a)) by auto. rewrite E. destruct tests; reflexivity.
Qed.

(** an object of which no test can be made is an error *)
Theorem C108_no_test f mod_ t s : (forall name abstract skipped attrs, t <> AClass name abstract skipped attrs) ->
  (forall r g, t <> AFunction (lit "test_" ++ r) g) -> sources w (SThing f mod_ t) s = (s, ([], Some NoAttribute)).
Proof.
  intros NC NF. cbn [sources]. destruct t as [|cn abstract skipped attrs|fn g|]; try reflexivity; [destruct (NC _ _ _ _ eq_refl)|]. cbn [factory].
  destruct (starts (lit "test_") fn) eqn:S; [|reflexivity]. apply starts_iff in S. destruct S as [r ->]. destruct (NF _ _ eq_refl).
Qed.

(** what a source gives, if nothing goes wrong *)
Inductive gives (s : st) : source -> test -> Prop :=
| gives_test t : gives s (STest t) t
| gives_list l x t : In x l -> gives s x t -> gives s (SList l) t
| gives_tuple x m t : gives s x t -> m t = true -> gives s (STuple x m) t
| gives_address a t : In t (fst (snd (iter_test_address w a s))) -> gives s (SAddress a) t
| gives_resume p a v t : In t (fst (snd (iter_path w p s))) -> excluded w t = false -> address_in_file t = a ->
    (v = None \/ v = Some (t_var t)) -> gives s (SResume p a v) t
| gives_function f mod_ name g v r : name = lit "test_" ++ r -> In v (g_vars g) ->
    gives s (SThing f mod_ (AFunction name g)) (mkTest f mod_ name None None v false (namespaces s))
| gives_class f mod_ name skipped attrs mn g v r : In (mn, g) attrs -> mn = lit "test" ++ r -> In v (g_vars g) ->
    gives s (SThing f mod_ (AClass name false skipped attrs)) (mkTest f mod_ name (Some name) (Some mn) v skipped (namespaces s)).

Theorem C108_gives x s : snd (snd (sources w x s)) = None -> forall t, In t (fst (snd (sources w x s))) <-> gives s x t.
Proof.
  revert s. induction x as [x m IH|l IH|x NT NL] using source_ind'; intros s N t.
  - cbn [sources] in *. unfold only in *. specialize (IH s). destruct (sources w x s) as [s1 [l e]]. cbn [fst snd] in *. rewrite filter_In, (IH N). split.
    + intros [A B]. constructor; assumption.
    + intros G. inversion G; subst. auto.
  - rewrite sources_list in *. destruct (each_spec l (sources w) s (fun x _ => steady_sources x)) as [E1 E2]. rewrite (E2 N). rewrite E1 in N. rewrite in_flat_map. split.
    + intros (x & I & T). apply (gives_list _ _ x); [exact I|]. apply (IH x I s (N x I)), T.
    + intros G. inversion G as [|? x ? I G'| | | | |]; subst. exists x. split; [exact I|]. apply (IH x I s (N x I)), G'.
  - destruct x as [y m|l|a|t0|p a v|f m th|]; [destruct (NT y m eq_refl)|destruct (NL l eq_refl)| | | | |]; cbn [sources] in *.
    + split; [apply gives_address|]. intros G. inversion G; subst. assumption.
    + cbn. split; [intros [<-|[]]; constructor|]. intros G. inversion G; subst. auto.
    + unfold iter_test_resume, only in *. destruct (iter_path w p s) as [s1 [l e]] eqn:E. cbn [fst snd] in *. rewrite filter_In, !andb_true_iff, negb_true_iff, str_eqb_eq. split.
      * intros (I & (X & A) & V). constructor; [rewrite E; exact I|exact X|congruence|]. destruct v as [v|]; [|auto]. apply Nat.eqb_eq in V. subst. auto.
      * intros G. inversion G as [| | | |? ? ? ? G1 G2 G3 G4| |]; subst. rewrite E in G1. split; [exact G1|]. split; [auto|].
        destruct G4 as [->| ->]; [reflexivity|apply Nat.eqb_refl].
    + destruct th as [|cn abstract skipped attrs|fn g|]; cbn [factory] in *; try discriminate.
      * unfold class_tests in *. destruct abstract; [cbn; split; [intros []|intros G; inversion G]|].
        assert (CS : forall x : str * gen, In x (sort_names attrs) -> steady ((fun a => if starts (lit "test") (fst a) then variations (fun v n => mkTest f m (factory_name None cn) (Some cn) (Some (fst a)) v skipped n) (snd a) else nothing) x)).
        { intros x _. cbn. destruct (starts _ _); [apply steady_variations|apply steady_nothing]. }
        destruct (each_spec _ _ s CS) as [E1 E2]. rewrite (E2 N), in_flat_map. split.
        -- intros ([mn g] & J & T). rewrite sort_in in J. cbn [fst snd] in T. destruct (starts (lit "test") mn) eqn:S; [|destruct T]. apply starts_iff in S. destruct S as [r R].
           cbn in T. apply in_map_iff in T. destruct T as (v & <- & V). apply (gives_class s f m cn skipped attrs mn g v r J R V).
        -- intros G. inversion G as [| | | | | |f' m' n' sk' at' mn g v r J R V]; subst. exists (lit "test" ++ r, g). split; [apply sort_in, J|]. cbn [fst snd].
           rewrite (proj2 (starts_iff "test" (lit "test" ++ r))) by eauto. cbn. apply in_map_iff. eauto.
      * destruct (starts (lit "test_") fn) eqn:S; [|discriminate]. apply starts_iff in S. destruct S as [r R]. cbn. rewrite in_map_iff. split.
        -- intros (v & <- & V). apply (gives_function s f m fn g v r R V).
        -- intros G. inversion G; subst. eauto.
    + discriminate.
Qed.

(** in a list every element is loaded as if it were alone; the list has an error exactly if
    an element has *)
Theorem C108_list l s : (snd (snd (sources w (SList l) s)) = None <-> forall x, In x l -> snd (snd (sources w x s)) = None) /\
  (snd (snd (sources w (SList l) s)) = None -> fst (snd (sources w (SList l) s)) = flat_map (fun x => fst (snd (sources w x s))) l).
Proof. rewrite sources_list. apply each_spec. intros x _. apply steady_sources. Qed.

(** *** Collecting *)

(** if something cannot be loaded no test is collected, and the collection is not even
    announced; otherwise it is announced after the imports, and all tests are reported, in order *)
Theorem C108_collected x s : let '(s1, (l, e)) := sources w x s in
  (e <> None -> get_runnables w x s = (s1, ([], e)) /\ exists i, trace s1 = map EImport i ++ trace s) /\
  (e = None -> exists s2, get_runnables w x s = (s2, (l, None)) /\
     exists i, trace s2 = EEnd (List.length l) :: rev (map ECollected l) ++ [EStart] ++ map EImport i ++ trace s).
Proof.
  destruct (C108_restored x s) as (_ & _ & i & T). unfold get_runnables. destruct (sources w x s) as [s1 [l e]]. cbn [fst] in T. split.
  - destruct e; [|congruence]. intros _. eauto.
  - intros ->. eexists. split; [reflexivity|]. exists i. unfold collect. cbn [emit trace]. f_equal.
    assert (G : forall l s, trace (fold_left (fun s t => emit (ECollected t) s) l s) = rev (map ECollected l) ++ trace s).
    { clear. induction l as [|t l IH]; intros s; [reflexivity|]. cbn. rewrite IH. cbn. rewrite <- app_assoc. reflexivity. }
    rewrite G. cbn. rewrite T. reflexivity.
Qed.

(** the name of the function of a test of a module, if a class is known there by its own name *)
Theorem C108_function_name f m n t : made f m n t -> (forall c, t_class t = Some c -> t_factory t = c /\ c <> []) ->
  exists r, function_name t = Some r /\ (forall mn, t_method t = Some mn -> ~ In "("%char mn -> r = mn).
Proof.
  intros M C. destruct M as [name fn g v r I R V|name cn skipped attrs mn g v r I J R V].
  - eexists. split; [reflexivity|]. intros mn E. discriminate.
  - destruct (C cn eq_refl) as [E NE]. cbn in E. subst name. destruct cn as [|c0 cn]; [congruence|]. unfold function_name, address_in_file. cbn [t_class t_factory t_method].
    assert (X : strip_prefix ((c0 :: cn) ++ lit ".") ((c0 :: cn) ++ lit "." ++ mn) = Some mn) by (apply strip_prefix_spec; rewrite <- app_assoc; reflexivity).
    rewrite X. cbn [option_map]. eexists. split; [reflexivity|]. intros mn' [= <-] NI. rewrite (proj2 (split1_none _ _) NI). reflexivity.
Qed.
End Load.

(** ** Concrete cases and refuted expectations *)

Definition a_tree : node :=
  Dir [(lit "b.py", File); (lit ".h", Dir [(lit "x.py", File)]); (lit "sub", Dir [(lit "a.py", File)]); (lit "README", File); (lit ".z.py", File)].

Lemma a_tree_wf : wf a_tree.
Proof.
  assert (ND : forall l : list str, (fix go (l : list str) : bool := match l with [] => true | x :: l => negb (existsb (str_eqb x) l) && go l end) l = true -> NoDup l).
  { intros l. induction l as [|x l IH]; intros H; [constructor|]. apply andb_true_iff in H. destruct H as [H1 H2]. constructor; [|apply IH, H2].
    intros I. rewrite negb_true_iff in H1. assert (Q : existsb (str_eqb x) l = true) by (apply existsb_exists; exists x; split; [exact I|apply str_eqb_refl]). congruence. }
  constructor.
  - apply ND; vm_compute; reflexivity.
  - intros d m I. cbn [In] in I. repeat (destruct I as [I|I]; [injection I as <- <-; try constructor; try (apply ND; vm_compute; reflexivity); try (intros d m [J|[]]; injection J as <- <-; constructor)|]). destruct I.
Qed.

Example C108_walk_case : walk a_tree = [[lit ".z.py"]; [lit "README"]; [lit "b.py"]; [lit "sub"; lit "a.py"]].
Proof. vm_compute. reflexivity. Qed.

Definition one (v : nat) : gen := mkGen [v] None.

Definition a_module : module :=
  mkModule (lit "m") [(lit "test_f", AFunction (lit "test_f") (mkGen [1; 2] None)); (lit "Factory", AFactoryClass); (lit "x", AnOther);
    (lit "Cases", AClass (lit "Cases") false false [(lit "testb", one 3); (lit "run", one 0); (lit "test_a", one 4)]);
    (lit "Base", AClass (lit "Base") true false [(lit "test_a", one 4)])].

Definition a_world : world :=
  mkWorld (fun p => if str_eqb p (lit "d") then Some a_tree else None)
    (fun f => if str_eqb (last (snd f) []) (lit "a.py") then IModule a_module else IModule (mkModule [] []))
    (fun _ => None) (fun _ => None) (fun _ => None) (fun _ => None) (fun t => Nat.eqb (t_var t) 2).

Definition an_st : st := mkSt [NBase 0] [] [].

Example C108_file_case : wanted (lit "d", [lit "sub"; lit "a.py"]) = true /\ loads a_world (lit "d", [lit "sub"; lit "a.py"]) a_module.
Proof.
  split; [vm_compute; reflexivity|]. split; [vm_compute; reflexivity|]. repeat (split; [reflexivity|]). intros g A.
  destruct A as [name fn g r I R|name cn skipped attrs mn g r I J R]; cbn in I.
  - repeat (destruct I as [I|I]; [try discriminate; injection I as <- <- <-; reflexivity|]). destruct I.
  - repeat (destruct I as [I|I]; [try discriminate; injection I as <- <- <- <-; cbn in J; repeat (destruct J as [J|J]; [injection J as <- <-; reflexivity|]); destruct J|]). destruct I.
Qed.

Example C108_case : map (fun t => (address_in_file t, t_var t)) (fst (snd (sources a_world (SAddress (lit "d")) an_st))) =
  [(lit "Cases.test_a", 4); (lit "Cases.testb", 3); (lit "test_f", 1)] /\
  snd (snd (sources a_world (SList [SAddress (lit "d:test_f"); STuple (SAddress (lit "d")) (fun t => Nat.eqb (t_var t) 3)]) an_st)) = None /\
  snd (snd (sources a_world (SList [SAddress (lit "d"); SAddress (lit "d:test_g")]) an_st)) = Some (NotFound (lit "d:test_g")) /\
  snd (snd (sources a_world (SList [SAddress (lit "d"); SAddress (lit "e")]) an_st)) = Some (NoPath (lit "e")).
Proof. vm_compute. auto. Qed.

Example C108_test_order_case : NoDup (map fst (m_things a_module)).
Proof. repeat (constructor; [cbn; intros H; repeat (destruct H as [H|H]; [discriminate|]); exact H|]). constructor. Qed.

(** a hidden file is loaded, though hidden directories are not *)
Theorem C108_hidden_file_refuted : exists n f, wf n /\ In [f] (walk n) /\ hidden f = true /\ wanted (lit "d", [f]) = true.
Proof. exists a_tree, (lit ".z.py"). split; [exact a_tree_wf|]. vm_compute. auto. Qed.

(** a RunnableTestFactory cannot be given to the loader, though it is asked for: the local
    variable has no value *)
Theorem C108_factory_refuted : exists w s, snd (sources w SFactory s) = ([], Some Unbound).
Proof. exists a_world, an_st. reflexivity. Qed.

(** the name in the module does not make the test, that of the function does: one function
    under two names is two tests, and what is bound to a name like test_x need not be one *)
Theorem C108_alias_refuted : exists m s, In (lit "test_x") (map fst (m_things m)) /\
  map t_factory (fst (snd (module_tests (lit "d", []) m s))) = [lit "again"; lit "test_f"].
Proof.
  exists (mkModule [] [(lit "test_f", AFunction (lit "test_f") (one 1)); (lit "again", AFunction (lit "test_f") (one 1)); (lit "test_x", AFunction (lit "helper") (one 2))]), an_st.
  split; [cbn; auto|]. vm_compute. reflexivity.
Qed.

(** a class known in the module by another name: asking for the name of the function of its
    tests fails *)
Theorem C108_function_name_refuted : exists f m n t, made f m n t /\ function_name t = None.
Proof.
  exists (lit "d", []), (mkModule [] [(lit "Alias", AClass (lit "Cases") false false [(lit "test_a", one 1)])]), [].
  eexists. split.
  - apply (made_method _ _ _ (lit "Alias") (lit "Cases") false [(lit "test_a", one 1)] (lit "test_a") (one 1) 1 (lit "_a")); cbn; auto.
  - vm_compute. reflexivity.
Qed.

(** the collection is announced when all files have been imported, not before *)
Theorem C108_announced_refuted : exists w x s before_ f after, rev (trace (fst (get_runnables w x s))) = before_ ++ EImport f :: after /\ ~ In EStart before_.
Proof.
  exists a_world, (SAddress (lit "d")), an_st, []. eexists. eexists. split; [vm_compute; reflexivity|intros []].
Qed.

Print Assumptions C108_walk.
Print Assumptions C108_order.
Print Assumptions C108_once.
Print Assumptions C108_restored.
Print Assumptions C108_independent.
Print Assumptions C108_file.
Print Assumptions C108_path.
Print Assumptions C108_wanted.
Print Assumptions C108_file_error.
Print Assumptions C108_address_error.
Print Assumptions C108_no_test.
Print Assumptions C108_test_order.
Print Assumptions C108_address.
Print Assumptions C108_gives.
Print Assumptions C108_list.
Print Assumptions C108_collected.
Print Assumptions C108_function_name.

Print Assumptions C108_no_path.
Print Assumptions C108_hidden_file_refuted.
Print Assumptions C108_factory_refuted.
Print Assumptions C108_alias_refuted.
Print Assumptions C108_function_name_refuted.
Print Assumptions C108_announced_refuted.
