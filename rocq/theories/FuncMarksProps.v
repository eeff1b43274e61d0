(** C102: marks on functions are what was put on them *)

From Coq Require Import List Bool Arith Ascii String Lia.
From Verif Require Import Str FuncMarks.
Import ListNotations.
Open Scope string_scope.
Open Scope list_scope.

Section Heap.
Variable kinds : nat -> kind.

Notation getattr := (getattr kinds).
Notation setattr := (setattr kinds).
Notation normalize := (normalize kinds).
Notation call := (call kinds).
Notation is_marked := (is_marked kinds).
Notation get_value := (get_value kinds).

Lemma str_eqb_refl s : str_eqb s s = true.
Proof. induction s as [|c s IH]; [reflexivity|]. cbn [str_eqb]. rewrite Ascii.eqb_refl. exact IH. Qed.

Lemma str_eqb_true s t : str_eqb s t = true -> s = t.
Proof.
  revert t. induction s as [|c s IH]; intros [|d t] Q; try discriminate; [reflexivity|].
  cbn [str_eqb] in Q. destruct (Ascii.eqb_spec c d) as [->|]; [|discriminate]. f_equal. apply IH. exact Q.
Qed.

(** the objects whose attributes are seen through [o] *)
Definition seen (o : nat) : list nat :=
  match kinds o with Cls mro => o :: mro | Bound f => [f] | _ => [o] end.

Lemma set_own a o n v a' : setattr a o n v = Some a' -> a' o n = Some v.
Proof.
  unfold FuncMarks.setattr. destruct (kinds o); intros H; try discriminate; injection H as <-; rewrite Nat.eqb_refl, str_eqb_refl; reflexivity.
Qed.

Lemma set_get a o n v a' : setattr a o n v = Some a' -> getattr a' o n = Some v.
Proof.
  intros H. pose proof (set_own _ _ _ _ _ H) as S. unfold FuncMarks.getattr. unfold FuncMarks.setattr in H. destruct (kinds o) eqn:K; try exact S; [|discriminate].
  cbn [first_of]. rewrite S. reflexivity.
Qed.

Lemma set_other a o n v a' o' n' : setattr a o n v = Some a' -> n' <> n \/ ~ In o (seen o') -> getattr a' o' n' = getattr a o' n'.
Proof.
  intros H N. assert (A : forall x, n' <> n \/ x <> o -> a' x n' = a x n').
  { intros x X. unfold FuncMarks.setattr in H. assert (E : (Nat.eqb x o && str_eqb n' n)%bool = false).
    { destruct (Nat.eqb_spec x o) as [->|]; [|reflexivity]. destruct X as [X|X]; [|contradiction]. cbn [andb].
      destruct (str_eqb n' n) eqn:Q; [|reflexivity]. destruct X. apply str_eqb_true. exact Q. }
    destruct (kinds o); try discriminate; injection H as <-; rewrite E; reflexivity. }
  assert (B : forall l, n' <> n \/ ~ In o l -> first_of l n' a' = first_of l n' a).
  { induction l as [|x l IH]; intros X; [reflexivity|]. cbn [first_of]. rewrite A by (destruct X as [X|X]; [left; exact X|right; intros ->; apply X; left; reflexivity]).
    rewrite IH by (destruct X as [X|X]; [left; exact X|right; intros Y; apply X; right; exact Y]). reflexivity. }
  unfold FuncMarks.getattr. unfold seen in N. destruct (kinds o') as [|mro|f|f|].
  - apply A. destruct N as [N|N]; [left; exact N|right; intros ->; apply N; left; reflexivity].
  - apply B. exact N.
  - apply A. destruct N as [N|N]; [left; exact N|right; intros ->; apply N; left; reflexivity].
  - apply A. destruct N as [N|N]; [left; exact N|right; intros ->; apply N; left; reflexivity].
  - apply A. destruct N as [N|N]; [left; exact N|right; intros ->; apply N; left; reflexivity].
Qed.

(** what a marker puts on an object can be read from it: the value, or for an append
    marker the values before and then the value *)
Theorem C102_value m o a f a' : call m o a = Marked f a' ->
  is_marked m o a' = true /\
  (mk_append m = false -> forall d, get_value m o d a' = Some (mk_value m)) /\
  (mk_append m = true -> exists l, (get_value m o None a = Some (Vals l) \/ get_value m o None a = None /\ l = []) /\
     forall d, get_value m o d a' = Some (Vals (l ++ [mk_value m]))).
Proof.
  unfold FuncMarks.call. intros H.
  assert (K : exists v, (if mk_append m then match getattr a (normalize o) (mk_name m) with None => Some (Vals [mk_value m]) | Some (Vals l) => Some (Vals (l ++ [mk_value m])) | Some _ => None end
    else Some (mk_value m)) = Some v /\ f = normalize o /\ setattr a (normalize o) (mk_name m) v = Some a').
  { destruct (kinds o); try discriminate H;
      (destruct (if mk_append m then _ else _) as [v|]; [|discriminate H]; exists v; split; [reflexivity|];
       destruct (setattr a (normalize o) (mk_name m) v) as [x|]; [|discriminate H]; injection H as <- <-; split; reflexivity). }
  destruct K as (v & V & -> & S). pose proof (set_get _ _ _ _ _ S) as G. unfold FuncMarks.is_marked, FuncMarks.get_value. rewrite G.
  split; [reflexivity|]. split.
  - intros A d. rewrite A in V. congruence.
  - intros A. rewrite A in V. destruct (getattr a (normalize o) (mk_name m)) as [[n|l|x]|].
    + discriminate.
    + exists l. split; [left; reflexivity|]. intros d. congruence.
    + discriminate.
    + exists []. split; [right; split; reflexivity|]. intros d. symmetry. exact V.
Qed.

(** nothing else changes: other marks, and the marks of objects that do not see the
    marked one's *)
Theorem C102_others m o a f a' m' o' d : call m o a = Marked f a' ->
  mk_name m' <> mk_name m \/ ~ In (normalize o) (seen (normalize o')) ->
  get_value m' o' d a' = get_value m' o' d a /\ is_marked m' o' a' = is_marked m' o' a.
Proof.
  unfold FuncMarks.call. intros H N.
  assert (K : exists v, setattr a (normalize o) (mk_name m) v = Some a').
  { destruct (kinds o); try discriminate H;
      (destruct (if mk_append m then _ else _) as [v|]; [|discriminate H]; exists v;
       destruct (setattr a (normalize o) (mk_name m) v) as [x|]; [|discriminate H]; injection H as _ <-; reflexivity). }
  destruct K as (v & S). unfold FuncMarks.get_value, FuncMarks.is_marked. rewrite (set_other _ _ _ _ _ _ _ S N). split; reflexivity.
Qed.

(** a mark on a class is seen on its subclasses; an append on the subclass leaves the
    class as it was *)
Theorem C102_subclass m sub mro base a f a' d : kinds sub = Cls mro -> kinds base = Cls (tl mro) -> hd_error mro = Some base -> ~ In sub mro ->
  (a sub (mk_name m) = None -> get_value m sub d a = get_value m base d a) /\
  (call m sub a = Marked f a' -> get_value m base d a' = get_value m base d a).
Proof.
  intros K1 K2 K3 N. destruct mro as [|b mro]; [discriminate|]. injection K3 as ->. cbn [tl] in K2.
  assert (N1 : normalize sub = sub) by (unfold FuncMarks.normalize; rewrite K1; reflexivity).
  assert (N2 : normalize base = base) by (unfold FuncMarks.normalize; rewrite K2; reflexivity).
  split.
  - intros O. unfold FuncMarks.get_value. rewrite N1, N2. unfold FuncMarks.getattr. rewrite K1, K2. cbn [first_of]. rewrite O. reflexivity.
  - intros C. apply (C102_others _ _ _ _ _ m base d C). right. rewrite N1, N2. unfold seen. rewrite K2. exact N.
Qed.

(** marking a function, a class, or a classmethod or staticmethod over a function, works *)
Theorem C102_works m o a : (kinds o = Fn \/ (exists l, kinds o = Cls l) \/ (exists g, kinds o = Method g /\ kinds g = Fn)) ->
  (mk_append m = true -> forall v, get_value m o None a = Some v -> exists l, v = Vals l) -> exists a', call m o a = Marked (normalize o) a'.
Proof.
  intros K L. unfold FuncMarks.get_value in L. unfold FuncMarks.call.
  assert (V : exists v, (if mk_append m then match getattr a (normalize o) (mk_name m) with None => Some (Vals [mk_value m]) | Some (Vals l) => Some (Vals (l ++ [mk_value m])) | Some _ => None end
    else Some (mk_value m)) = Some v).
  { destruct (mk_append m); [|exists (mk_value m); reflexivity]. specialize (L eq_refl). destruct (getattr a (normalize o) (mk_name m)) as [v|]; [|eexists; reflexivity].
    destruct (L v eq_refl) as (l & ->). eexists. reflexivity. }
  destruct V as (v & V). assert (S : exists a', setattr a (normalize o) (mk_name m) v = Some a').
  { unfold FuncMarks.normalize. destruct K as [K|[(l & K)|(g & K & K2)]]; rewrite K; unfold FuncMarks.setattr; [rewrite K|rewrite K|rewrite K2]; eexists; reflexivity. }
  destruct S as (a' & S). exists a'. destruct K as [K|[(l & K)|(g & K & K2)]]; rewrite K; cbv zeta; rewrite V, S; reflexivity.
Qed.

(** several applications of a marker to one function, in their order *)
Fixpoint apply_all (name : str) (app : bool) (vs : list val) (o : nat) (a : attrs) : option attrs :=
  match vs with
  | [] => Some a
  | v :: vs => match call (mkMarker name v app) o a with Marked _ a => apply_all name app vs o a | _ => None end
  end.

(** an append marker collects all values in the order of the applications; another
    marker keeps the last one *)
Theorem C102_applications name vs o a : kinds o = Fn ->
  (forall l, a o name = Some (Vals l) \/ a o name = None /\ l = [] ->
     vs <> [] -> exists a', apply_all name true vs o a = Some a' /\ get_value (append_function_marker name) o None a' = Some (Vals (l ++ vs))) /\
  (forall v, exists a', apply_all name false (vs ++ [v]) o a = Some a' /\ get_value (function_marker name) o None a' = Some v).
Proof.
  intros K. assert (N : normalize o = o) by (unfold FuncMarks.normalize; rewrite K; reflexivity).
  assert (G : forall a, getattr a o name = a o name) by (intros; unfold FuncMarks.getattr; rewrite K; reflexivity).
  split.
  - revert a. induction vs as [|v vs IH]; intros a l L X; [contradiction|]. cbn [apply_all].
    destruct (C102_works (mkMarker name v true) o a (or_introl K)) as (a' & C).
    { intros _ w. unfold FuncMarks.get_value. rewrite N. cbn [mk_name]. rewrite G. intros E. destruct L as [L|[L _]]; rewrite L in E; [injection E as <-; exists l; reflexivity|discriminate]. }
    rewrite C. destruct (C102_value _ _ _ _ _ C) as (_ & _ & V). destruct (V eq_refl) as (l' & L' & V'). specialize (V' None).
    unfold FuncMarks.get_value in L', V'. rewrite N in L', V'. cbn [mk_name mk_value] in L', V'. rewrite G in L', V'.
    assert (l' = l) as ->.
    { destruct L as [L|[L ->]]; rewrite L in L'; destruct L' as [E|[E E2]]; try discriminate; congruence. }
    assert (A : a' o name = Some (Vals (l ++ [v]))) by (destruct (a' o name); [exact V'|discriminate]).
    destruct vs as [|w vs].
    + exists a'. split; [reflexivity|]. unfold FuncMarks.get_value. rewrite N. cbn [mk_name append_function_marker]. rewrite G, A. reflexivity.
    + destruct (IH a' (l ++ [v]) (or_introl A) ltac:(discriminate)) as (a2 & B & C2). exists a2. split; [exact B|]. rewrite <- app_assoc in C2. exact C2.
  - revert a. induction vs as [|w vs IH]; intros a v; cbn [app apply_all].
    + destruct (C102_works (mkMarker name v false) o a (or_introl K) ltac:(discriminate)) as (a' & C). rewrite C. exists a'. split; [reflexivity|].
      destruct (C102_value _ _ _ _ _ C) as (_ & V & _). specialize (V eq_refl None). exact V.
    + destruct (C102_works (mkMarker name w false) o a (or_introl K) ltac:(discriminate)) as (a' & C). rewrite C. apply IH.
Qed.

(** the two kinds of markers there are: what is made by function_marker puts True on a
    function in place of what was there, what is made by append_function_marker puts it
    behind what was there *)
Theorem C102_two_kinds name o a f a' d :
  (call (function_marker name) o a = Marked f a' -> get_value (function_marker name) o d a' = Some (Any 1)) /\
  (call (append_function_marker name) o a = Marked f a' ->
     get_value (append_function_marker name) o None a = None /\ get_value (append_function_marker name) o d a' = Some (Vals [Any 1]) \/
     exists l, get_value (append_function_marker name) o None a = Some (Vals l) /\ get_value (append_function_marker name) o d a' = Some (Vals (l ++ [Any 1]))).
Proof.
  split; intros C; destruct (C102_value _ _ _ _ _ C) as (_ & A & B).
  - exact (A eq_refl d).
  - destruct (B eq_refl) as (l & [L|[L ->]] & V); [right; exists l; split; [exact L|apply V]|left; split; [exact L|apply V]].
Qed.

(** a wrapper made by wraps has the marks of the function; from then on each has its own *)
Theorem C102_wraps m new old a d f a' : kinds new = Fn -> kinds old = Fn -> new <> old -> a new (mk_name m) = None ->
  get_value m new d (wraps new old a) = get_value m old d a /\ get_value m old d (wraps new old a) = get_value m old d a /\
  (call m new (wraps new old a) = Marked f a' -> get_value m old d a' = get_value m old d a) /\
  (call m old (wraps new old a) = Marked f a' -> get_value m new d a' = get_value m old d a).
Proof.
  intros K1 K2 N F. assert (N1 : normalize new = new) by (unfold FuncMarks.normalize; rewrite K1; reflexivity).
  assert (N2 : normalize old = old) by (unfold FuncMarks.normalize; rewrite K2; reflexivity).
  assert (A : get_value m new d (wraps new old a) = get_value m old d a).
  { unfold FuncMarks.get_value. rewrite N1, N2. unfold FuncMarks.getattr. rewrite K1, K2. unfold wraps. rewrite Nat.eqb_refl. destruct (a old (mk_name m)); [reflexivity|]. rewrite F. reflexivity. }
  assert (B : get_value m old d (wraps new old a) = get_value m old d a).
  { unfold FuncMarks.get_value. rewrite N2. unfold FuncMarks.getattr. rewrite K2. unfold wraps. destruct (Nat.eqb_spec old new) as [E|_]; [symmetry in E; contradiction|reflexivity]. }
  split; [exact A|]. split; [exact B|]. split.
  - intros C. rewrite <- B. apply (C102_others _ _ _ _ _ m old d C). right. rewrite N1, N2. unfold seen. rewrite K2. intros [E|[]]. symmetry in E. contradiction.
  - intros C. rewrite <- A. apply (C102_others _ _ _ _ _ m new d C). right. rewrite N1, N2. unfold seen. rewrite K1. intros [E|[]]. contradiction.
Qed.

(** a marker called with a value gives a marker that puts this value on functions, in the
    way the marker itself does *)
Theorem C102_with_value name v app t o a f a' : kinds t = Thing -> exists m', call (mkMarker name v app) t a = NewMarker m' /\
  (call m' o a = Marked f a' -> forall d,
   (app = false -> get_value (mkMarker name v app) o d a' = Some (TheObject t)) /\
   (app = true -> exists l, (get_value (mkMarker name v app) o None a = Some (Vals l) \/ get_value (mkMarker name v app) o None a = None /\ l = []) /\
      get_value (mkMarker name v app) o d a' = Some (Vals (l ++ [TheObject t])))).
Proof.
  intros K. exists (mkMarker name (TheObject t) app). split; [unfold FuncMarks.call; rewrite K; reflexivity|]. intros C d.
  destruct (C102_value _ _ _ _ _ C) as (_ & A & B). split.
  - intros ->. apply (A eq_refl d).
  - intros ->. destruct (B eq_refl) as (l & L & V). exists l. split; [exact L|apply V].
Qed.

(** what was never marked has no mark: the default, or LookupError *)
Theorem C102_unmarked m o a : (forall x, In x (seen (normalize o)) -> a x (mk_name m) = None) ->
  is_marked m o a = false /\ forall d, get_value m o d a = d.
Proof.
  intros H. assert (G : getattr a (normalize o) (mk_name m) = None).
  { unfold FuncMarks.getattr. unfold seen in H. destruct (kinds (normalize o)) as [|mro|f|f|]; try (apply H; left; reflexivity).
    revert H. generalize (normalize o :: mro). intros l H. induction l as [|x l IH]; [reflexivity|]. cbn [first_of]. rewrite (H x (or_introl eq_refl)). apply IH.
    intros y I. apply H. right. exact I. }
  unfold FuncMarks.is_marked, FuncMarks.get_value. rewrite G. split; reflexivity.
Qed.

End Heap.

(** ** Refuted *)

(** objects of the witnesses: 0 a function, 1 a classmethod over it, 2 a bound method, 3 a class *)
Definition kinds0 (o : nat) : kind := match o with 1 => Method 0 | 2 => Bound 0 | 3 => Cls [4] | 4 => Cls [] | 5 => Thing | _ => Fn end.
Definition none : attrs := fun _ _ => None.

(** a decorated classmethod is not given back: the function is, which is no classmethod
    any more *)
Theorem C102_method_refuted : exists m o f a, call kinds0 m o none = Marked f a /\ kinds0 o = Method 0 /\ f <> o /\ kinds0 f = Fn.
Proof.
  exists (append_function_marker (lit "exclude")), 1, 0. eexists. split; [reflexivity|]. split; [reflexivity|]. split; [discriminate|reflexivity].
Qed.

(** a value that can be called cannot be the value of a mark: it is marked itself *)
Theorem C102_callable_refuted : exists value, (forall m', call kinds0 (function_marker (lit "x")) value none <> NewMarker m') /\ exists a, call kinds0 (function_marker (lit "x")) value none = Marked value a.
Proof. exists 7. split; [intros m' H; discriminate|]. eexists. reflexivity. Qed.

(** ** A case of every theorem *)
Example C102_ex :
  (exists a, apply_all kinds0 (lit "exclude") true [Any 4; Any 5] 1 none = Some a /\
     get_value kinds0 (append_function_marker (lit "exclude")) 0 None a = Some (Vals [Any 4; Any 5]) /\
     get_value kinds0 (append_function_marker (lit "exclude")) 2 None a = Some (Vals [Any 4; Any 5]) /\
     get_value kinds0 (function_marker (lit "repeat")) 0 (Some (Any 1)) a = Some (Any 1)) /\
  kinds0 3 = Cls [4] /\ kinds0 4 = Cls (tl [4]) /\ call kinds0 (function_marker (lit "repeat")) 5 none = NewMarker (mkMarker (lit "repeat") (TheObject 5) false) /\
  call kinds0 (function_marker (lit "repeat")) 2 none = Raised.
Proof. split; [eexists; split; [reflexivity|]; split; [reflexivity|]; split; reflexivity|]. repeat split. Qed.

Print Assumptions C102_value.
Print Assumptions C102_others.
Print Assumptions C102_subclass.
Print Assumptions C102_works.
Print Assumptions C102_applications.
Print Assumptions C102_two_kinds.
Print Assumptions C102_wraps.
Print Assumptions C102_with_value.
Print Assumptions C102_unmarked.
Print Assumptions C102_method_refuted.
Print Assumptions C102_callable_refuted.
