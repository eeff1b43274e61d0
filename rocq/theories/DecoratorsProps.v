(** What is proved about the decorators that make fixtures (Decorators.v): C117. *)

From Coq Require Import List Bool Arith Lia Ascii String.
From Verif Require Import Str Plugins PluginsProps Decorators.
Import ListNotations.
Open Scope list_scope.

(** ** What is being talked about *)

(** the options of a decorator that makes fixtures *)
Definition options_of (d : decorator) : option options := match d with Fixture o | YieldFixture o => Some o | _ => None end.
(** the innermost of them *)
Fixpoint first_options (ds : list decorator) : option options :=
  match ds with [] => None | d :: ds => match options_of d with Some o => Some o | None => first_options ds end end.
(** how many of a stack are slash.fixture, how many are slash.yield_fixture *)
Definition plain_count (ds : list decorator) : nat := List.length (filter (fun d => match d with Fixture _ => true | _ => false end) ds).
Definition yield_count (ds : list decorator) : nat := List.length (filter (fun d => match d with YieldFixture _ => true | _ => false end) ds).
(** the scope asked for *)
Definition scope_of (o : options) : str := match o_scope o with Some s => s | None => lit "test" end.

(** ** Wrappers *)

Fixpoint bottom (f : fn) : bool := match fn_code f with Def _ g _ => g | Wrapper _ h => bottom h end.
Fixpoint layers (f : fn) : nat := match fn_code f with Def _ _ _ => 0 | Wrapper Yields g => S (layers g) | Wrapper _ g => layers g end.

Lemma call_spec f : call f = if bottom f then match layers f with 0 => Generator | 1 => Yielded | _ => TypeErr end else match layers f with 0 => Returned | _ => TypeErr end.
Proof.
  revert f. fix IH 1. intros [c i w]. destruct c as [n g ps|l g]; [cbn; destruct g; reflexivity|]. specialize (IH g). destruct l; cbn [call bottom layers fn_code]; try exact IH.
  rewrite IH. destruct (bottom g), (layers g) as [|[|k]]; reflexivity.
Qed.

Definition visible (f : fn) : bool := is_generator (underlying f).

Lemma visible_wraps l f : visible (slash_wraps l f) = visible f.
Proof. reflexivity. Qed.

Lemma visible_custom f : visible (functools_wraps f) = match fn_wraps f with Some _ => visible f | None => false end.
Proof. destruct f as [c i [g|]]; reflexivity. Qed.

Lemma visible_info c i j w : visible (Fn c i w) = visible (Fn c j w).
Proof. destruct w; reflexivity. Qed.

Lemma ensure_spec f o f' : ensure_info f o = Some f' -> fn_code f' = fn_code f /\ fn_wraps f' = fn_wraps f /\ visible f' = visible f /\ bottom f' = bottom f /\ layers f' = layers f /\
  name_of f' = name_of f /\ params_of f' = params_of f /\ fn_info f' = match fn_info f with Some i => Some i | None => make_info f o end.
Proof.
  destruct f as [c i w]. unfold ensure_info. cbn [fn_info]. destruct i as [i|]; [intros H; injection H as <-; tauto|]. destruct (make_info (Fn c None w) o) as [i|]; [|discriminate].
  intros H. injection H as <-. cbn [fn_code fn_wraps fn_info]. split; [reflexivity|]. split; [reflexivity|]. split; [apply visible_info|]. destruct c; repeat split.
Qed.

Lemma ensure_none f o : ensure_info f o = None <-> fn_info f = None /\ make_info f o = None.
Proof. unfold ensure_info. destruct (fn_info f); [split; [discriminate|intros [H _]; discriminate]|]. destruct (make_info f o); split; try discriminate; auto. intros [_ H]. discriminate. Qed.

Lemma make_info_same f g o : name_of f = name_of g -> params_of f = params_of g -> make_info f o = make_info g o.
Proof. intros N P. unfold make_info, arguments. rewrite N, P. reflexivity. Qed.

(** ** One decorator *)

Lemma decorate_spec f d f' : decorate f d = Some f' -> bottom f' = bottom f /\ name_of f' = name_of f /\ params_of f' = params_of f /\
  layers f' = layers f + (match d with YieldFixture _ => 1 | Fixture _ => if visible f then 1 else 0 | _ => 0 end) /\
  visible f' = (match d, fn_wraps f with Custom, None => false | _, _ => visible f end) /\
  (fn_wraps f' = None -> fn_wraps f = None) /\
  fn_info f' = match fn_info f with Some i => Some i | None => match options_of d with Some o => make_info f o | None => None end end.
Proof.
  destruct d as [o|o| |]; cbn [decorate options_of].
  - unfold fixture. fold (visible f). destruct (visible f) eqn:V.
    + unfold yield_fixture. destruct (ensure_info f o) as [g|] eqn:E; [|discriminate]. intros H. injection H as <-. apply ensure_spec in E. destruct E as (A & B & C & D & F & G & I & J).
      rewrite visible_wraps. cbn. repeat split; try assumption; try congruence; lia.
    + intros E. apply ensure_spec in E. destruct E as (A & B & C & D & F & G & I & J). repeat split; try assumption; try congruence. lia.
  - unfold yield_fixture. destruct (ensure_info f o) as [g|] eqn:E; [|discriminate]. intros H. injection H as <-. apply ensure_spec in E. destruct E as (A & B & C & D & F & G & I & J).
    rewrite visible_wraps. cbn. repeat split; try assumption; try congruence; lia.
  - intros H. injection H as <-. rewrite visible_wraps. cbn. repeat split; try congruence; try lia. destruct (fn_info f); reflexivity.
  - intros H. injection H as <-. rewrite visible_custom. cbn. repeat split; try congruence; try lia. destruct (fn_info f); reflexivity.
Qed.

Lemma decorate_none f d : decorate f d = None <-> exists o, options_of d = Some o /\ fn_info f = None /\ make_info f o = None.
Proof.
  assert (Y : forall o, yield_fixture f o = None <-> fn_info f = None /\ make_info f o = None).
  { intros o. unfold yield_fixture. rewrite <- ensure_none. destruct (ensure_info f o); split; intros; try discriminate; reflexivity. }
  destruct d as [o|o| |]; cbn [decorate options_of].
  - unfold fixture. destruct (is_generator (underlying f)); [rewrite Y|rewrite ensure_none]; (split; [intros H; exists o; auto|intros (o' & H & K); injection H as <-; exact K]).
  - rewrite Y. split; [intros H; exists o; auto|intros (o' & H & K); injection H as <-; exact K].
  - split; [discriminate|intros (o & H & _); discriminate].
  - split; [discriminate|intros (o & H & _); discriminate].
Qed.

(** ** Stacks *)

Lemma plain_cons d ds : plain_count (d :: ds) = (match d with Fixture _ => 1 | _ => 0 end) + plain_count ds.
Proof. destruct d; reflexivity. Qed.
Lemma yield_cons d ds : yield_count (d :: ds) = (match d with YieldFixture _ => 1 | _ => 0 end) + yield_count ds.
Proof. destruct d; reflexivity. Qed.

(** once hidden, or wrapped by slash, nothing changes what is seen *)
Lemma stack_steady ds f f' : (visible f = false \/ fn_wraps f <> None) -> decorate_all f ds = Some f' ->
  bottom f' = bottom f /\ layers f' = layers f + yield_count ds + if visible f then plain_count ds else 0.
Proof.
  revert f. induction ds as [|d ds IH]; intros f S H; [injection H as <-; split; [reflexivity|]; cbn; destruct (visible f); lia|]. cbn [decorate_all] in H. destruct (decorate f d) as [g|] eqn:D; [|discriminate].
  apply decorate_spec in D. destruct D as (A & _ & _ & L & V & W & _).
  assert (V' : visible g = visible f).
  { rewrite V. destruct d; try reflexivity. destruct (fn_wraps f); [reflexivity|]. destruct S as [S|S]; [symmetry; exact S|destruct S; reflexivity]. }
  assert (S' : visible g = false \/ fn_wraps g <> None) by (destruct S as [S|S]; [left; congruence|right; auto]).
  destruct (IH g S' H) as [B C]. split; [congruence|]. rewrite C, L, V', plain_cons, yield_cons. destruct d, (visible f); lia.
Qed.

Definition def (n : str) (g : bool) (ps : list param) : fn := Fn (Def n g ps) None None.

(** what a fixture gives: the value of the function, the value a generator yields, or not *)
Theorem C117_value n g ps ds f : decorate_all (def n g ps) ds = Some f ->
  call f = if g
           then match (match ds with Custom :: _ => 0 | _ => plain_count ds end) + yield_count ds with 0 => Generator | 1 => Yielded | _ => TypeErr end
           else match yield_count ds with 0 => Returned | _ => TypeErr end.
Proof.
  intros H. rewrite call_spec. destruct g.
  - destruct ds as [|d ds]; [injection H as <-; reflexivity|]. cbn [decorate_all] in H. destruct (decorate (def n true ps) d) as [h|] eqn:D; [|discriminate].
    pose proof D as D0. apply decorate_spec in D. destruct D as (A & _ & _ & L & V & W & _).
    assert (S : visible h = false \/ fn_wraps h <> None).
    { destruct d as [o|o| |]; cbn in D0.
      - right. unfold fixture, yield_fixture in D0. cbn [underlying def is_generator fn_code] in D0. destruct (ensure_info (def n true ps) o); [|discriminate]. injection D0 as <-. discriminate.
      - right. unfold yield_fixture in D0. destruct (ensure_info (def n true ps) o); [|discriminate]. injection D0 as <-. discriminate.
      - right. injection D0 as <-. discriminate.
      - left. injection D0 as <-. reflexivity. }
    destruct (stack_steady ds h f S H) as [B C]. rewrite B, A, C, L, V, plain_cons, yield_cons. cbn [bottom layers def fn_code fn_wraps visible underlying is_generator].
    destruct d; cbn [Nat.add]; rewrite ?Nat.add_0_r; try (rewrite (Nat.add_comm (plain_count ds) (yield_count ds))); try reflexivity.
    f_equal. rewrite Nat.add_succ_r, (Nat.add_comm (plain_count ds)). reflexivity.
  - destruct (stack_steady ds (def n false ps) f) as [B C]; [left; reflexivity|exact H|]. rewrite B, C. cbn [bottom layers def fn_code visible underlying is_generator]. rewrite Nat.add_0_r. reflexivity.
Qed.

(** the innermost decorator that makes fixtures says what fixture it is; the others are ignored *)
Theorem C117_info n g ps ds f o : decorate_all (def n g ps) ds = Some f -> first_options ds = Some o ->
  exists i, fn_info f = Some i /\ i_name i = (match o_name o with Some m => m | None => n end) /\ i_scope i = scope_of o /\ In (i_scope i) [lit "test"; lit "module"; lit "session"] /\ i_autouse i = o_autouse o /\
    (i_this i = true <-> In (lit "this") (map p_name ps)) /\
    (NoDup (map p_name ps) -> i_required i = filter (fun x => if str_dec x (lit "this") then false else if str_dec x (lit "self") then (match ps with p :: _ => if str_dec (p_name p) (lit "self") then false else true | [] => true end) else true) (map p_name ps)).
Proof.
  intros H O.
  assert (Q : forall ds f f', fn_info f = None -> decorate_all f ds = Some f' -> first_options ds = Some o -> fn_info f' = make_info f o).
  { clear. induction ds as [|d ds IH]; intros f f' N H O; [discriminate|]. cbn [decorate_all first_options] in *. destruct (decorate f d) as [h|] eqn:D; [|discriminate].
    pose proof D as D0. apply decorate_spec in D. destruct D as (_ & A & B & _ & _ & _ & I). rewrite N in I. destruct (options_of d) as [o'|] eqn:P.
    - injection O as ->. assert (K : forall ds f f' i, fn_info f = Some i -> decorate_all f ds = Some f' -> fn_info f' = Some i).
      { clear. induction ds as [|d ds IH]; intros f f' i I H; [injection H as <-; exact I|]. cbn [decorate_all] in H. destruct (decorate f d) as [h|] eqn:D; [|discriminate].
        apply decorate_spec in D. destruct D as (_ & _ & _ & _ & _ & _ & J). rewrite I in J. apply (IH h f' i J H). }
      destruct (make_info f o) as [i|] eqn:M; [apply (K ds h f' i I H)|]. exfalso. assert (X : decorate f d = None) by (apply decorate_none; exists o; auto). congruence.
    - rewrite (IH h f' I H O). apply make_info_same; assumption. }
  specialize (Q ds (def n g ps) f eq_refl H O). assert (M : make_info (def n g ps) o <> None).
  { intros M. assert (Z : forall ds f, fn_info f = None -> make_info f o = None -> first_options ds = Some o -> decorate_all f ds = None).
    { clear. induction ds as [|d ds IH]; intros f N M O; [discriminate|]. cbn [decorate_all first_options] in *. destruct (decorate f d) as [h|] eqn:D; [|reflexivity]. destruct (options_of d) as [o'|] eqn:P.
      - injection O as ->. exfalso. assert (X : decorate f d = None) by (apply decorate_none; exists o; auto). congruence.
      - apply decorate_spec in D. destruct D as (_ & A & B & _ & _ & _ & I). rewrite N, P in I. apply IH; [exact I| |exact O]. rewrite <- M. apply make_info_same; assumption. }
    rewrite (Z ds (def n g ps) eq_refl M O) in H. discriminate. }
  unfold make_info in Q, M. fold (scope_of o) in Q, M. destruct (s_mem (scope_of o) scopes) eqn:S; [|contradiction]. eexists. split; [exact Q|]. cbn [i_name i_scope i_autouse i_this i_required name_of def fn_code].
  split; [reflexivity|]. split; [reflexivity|]. split; [apply s_mem_In; exact S|]. split; [reflexivity|].
  assert (AR : arguments (def n g ps) = match ps with p :: l => if str_eqb (p_name p) (lit "self") then map p_name l else p_name p :: map p_name l | [] => [] end) by (unfold arguments; cbn [params_of def fn_code]; destruct ps; reflexivity).
  split.
  - rewrite s_mem_In, AR. destruct ps as [|p ps]; [reflexivity|]. cbn [map]. destruct (str_eqb_spec (p_name p) (lit "self")) as [E|_]; [|reflexivity].
    rewrite E. split; [right; assumption|intros [X|X]; [discriminate|exact X]].
  - intros ND. rewrite AR. destruct ps as [|p ps]; [reflexivity|]. cbn [map]. destruct (str_eqb_spec (p_name p) (lit "self")) as [E|E].
    + destruct (str_dec (p_name p) (lit "self")) as [_|X]; [|contradiction]. cbn [filter]. destruct (str_dec (p_name p) (lit "this")) as [X|_]; [rewrite E in X; discriminate|].
      destruct (str_dec (p_name p) (lit "self")) as [_|X]; [|contradiction]. cbn [map] in ND. inversion_clear ND as [|? ? NI _]. apply filter_ext_in. intros x I.
      destruct (str_eqb_spec x (lit "this")) as [T|T], (str_dec x (lit "this")) as [T'|T']; try contradiction; [reflexivity|]. destruct (str_dec x (lit "self")) as [X|_]; [|reflexivity]. exfalso. apply NI. congruence.
    + destruct (str_dec (p_name p) (lit "self")) as [X|_]; [contradiction|]. apply filter_ext_in. intros x I.
      destruct (str_eqb_spec x (lit "this")) as [T|T], (str_dec x (lit "this")) as [T'|T']; try contradiction; [reflexivity|]. destruct (str_dec x (lit "self")); reflexivity.
Qed.

(** a function no decorator made a fixture of is none *)
Theorem C117_none n g ps ds f : decorate_all (def n g ps) ds = Some f -> first_options ds = None -> fn_info f = None.
Proof.
  assert (Q : forall ds f f', fn_info f = None -> decorate_all f ds = Some f' -> first_options ds = None -> fn_info f' = None); [|apply Q; reflexivity].
  clear. induction ds as [|d ds IH]; intros f f' N H O; [injection H as <-; exact N|]. cbn [decorate_all first_options] in *. destruct (decorate f d) as [h|] eqn:D; [|discriminate].
  apply decorate_spec in D. destruct D as (_ & _ & _ & _ & _ & _ & I). rewrite N in I. destruct (options_of d); [discriminate|]. apply (IH h f' I H O).
Qed.

(** decorating fails exactly if the innermost decorator that makes fixtures asks for an unknown scope *)
Theorem C117_scope n g ps ds : decorate_all (def n g ps) ds = None <-> exists o, first_options ds = Some o /\ ~ In (scope_of o) [lit "test"; lit "module"; lit "session"].
Proof.
  assert (MI : forall f o, make_info f o = None <-> ~ In (scope_of o) [lit "test"; lit "module"; lit "session"]).
  { intros f o. unfold make_info. fold (scope_of o). destruct (s_mem (scope_of o) scopes) eqn:S.
    - split; [discriminate|]. intros N. exfalso. apply N. apply s_mem_In. exact S.
    - split; [|reflexivity]. intros _ I. change (In (scope_of o) scopes) in I. apply s_mem_In in I. congruence. }
  assert (K : forall ds f i, fn_info f = Some i -> decorate_all f ds <> None).
  { clear. induction ds as [|d ds IH]; intros f i I; [discriminate|]. cbn [decorate_all]. destruct (decorate f d) as [h|] eqn:D.
    - apply decorate_spec in D. destruct D as (_ & _ & _ & _ & _ & _ & J). rewrite I in J. apply (IH h i J).
    - apply decorate_none in D. destruct D as (o & _ & N & _). congruence. }
  assert (Q : forall ds f, fn_info f = None -> decorate_all f ds = None <-> exists o, first_options ds = Some o /\ ~ In (scope_of o) [lit "test"; lit "module"; lit "session"]); [|apply Q; reflexivity].
  induction ds0 as [|d ds0 IH]; intros f N; [split; [discriminate|intros (o & O & _); discriminate]|]. cbn [decorate_all first_options]. destruct (decorate f d) as [h|] eqn:D.
  - pose proof D as D0. apply decorate_spec in D. destruct D as (_ & _ & _ & _ & _ & _ & I). rewrite N in I. destruct (options_of d) as [o|] eqn:P; [|apply IH; exact I].
    split; [intros H; exfalso|intros (o' & O & X); injection O as <-; exfalso].
    + destruct (make_info f o) as [i|] eqn:M; [apply (K ds0 h i I H)|]. assert (X : decorate f d = None) by (apply decorate_none; exists o; auto). congruence.
    + apply (MI f) in X. assert (Y : decorate f d = None) by (apply decorate_none; exists o; auto). congruence.
  - split; [|reflexivity]. intros _. apply decorate_none in D. destruct D as (o & P & _ & M). rewrite P. exists o. split; [reflexivity|]. apply (MI f o), M.
Qed.

(** the functions reported are those written with def on the level of the file after one of the same name *)
Theorem C117_duplicates body n l : In (n, l) (duplicates [] body) <-> exists a b l', body = a ++ Function n l :: b /\ In (Function n l') a.
Proof.
  assert (Q : forall known, In (n, l) (duplicates known body) <-> exists a b, body = a ++ Function n l :: b /\ (In n known \/ exists l', In (Function n l') a)).
  { induction body as [|s body IH]; intros known; [split; [intros []|intros (a & b & H & _); destruct a; discriminate]|]. destruct s as [m k|inside]; cbn [duplicates].
    - destruct (s_mem m known) eqn:S.
      + apply s_mem_In in S. cbn [In]. rewrite IH. split.
        * intros [H|(a & b & H & K)]; [injection H as <- <-; exists [], body; split; [reflexivity|left; exact S]|].
          exists (Function m k :: a), b. split; [rewrite H; reflexivity|]. destruct K as [K|[l' K]]; [left; exact K|right; exists l'; right; exact K].
        * intros ([|x a] & b & H & K); [injection H as -> -> _; left; reflexivity|]. injection H as <- H. right. exists a, b. split; [exact H|].
          destruct K as [K|[l' [K|K]]]; [left; exact K|injection K as <- _; left; exact S|right; exists l'; exact K].
      + assert (NS : ~ In m known) by (intros I; apply s_mem_In in I; congruence). rewrite IH. split.
        * intros (a & b & H & K). exists (Function m k :: a), b. split; [rewrite H; reflexivity|].
          destruct K as [[->|K]|[l' K]]; [right; exists k; left; reflexivity|left; exact K|right; exists l'; right; exact K].
        * intros ([|x a] & b & H & K); [injection H as -> _ _; destruct K as [K|[l' []]]; contradiction|]. injection H as <- H. exists a, b. split; [exact H|].
          destruct K as [K|[l' [K|K]]]; [left; right; exact K|injection K as <- _; left; left; reflexivity|right; exists l'; exact K].
    - rewrite IH. split.
      + intros (a & b & H & K). exists (Block inside :: a), b. split; [rewrite H; reflexivity|]. destruct K as [K|[l' K]]; [left; exact K|right; exists l'; right; exact K].
      + intros ([|x a] & b & H & K); [discriminate|]. injection H as <- H. exists a, b. split; [exact H|]. destruct K as [K|[l' [K|K]]]; [left; exact K|discriminate|right; exists l'; exact K]. }
  rewrite Q. split; [intros (a & b & H & [[]|[l' K]]); exists a, b, l'; auto|intros (a & b & l' & H & K); exists a, b; split; [exact H|right; exists l'; exact K]].
Qed.

(** ** What is not so *)

Definition no_options : options := mkOptions None None false.

(** every slash.parametrize and every other decorator is one wrapper around the function, in their order *)
Fixpoint wrappers (f : fn) : list layer := match fn_code f with Def _ _ _ => [] | Wrapper l g => l :: wrappers g end.

Theorem C117_layers n g ps ds f : decorate_all (def n g ps) ds = Some f ->
  filter (fun l => match l with Yields => false | _ => true end) (wrappers f) =
  rev (flat_map (fun d => match d with Parametrize => [Parametrizes] | Custom => [Other] | _ => [] end) ds).
Proof.
  assert (Q : forall ds f f', decorate_all f ds = Some f' ->
    filter (fun l => match l with Yields => false | _ => true end) (wrappers f') =
    rev (flat_map (fun d => match d with Parametrize => [Parametrizes] | Custom => [Other] | _ => [] end) ds)
    ++ filter (fun l => match l with Yields => false | _ => true end) (wrappers f)).
  { clear. assert (E : forall f o f', ensure_info f o = Some f' -> wrappers f' = wrappers f).
    { intros f o f'. unfold ensure_info. destruct f as [c i w]. cbn [fn_info fn_code fn_wraps]. destruct i; [intros H; injection H as <-; reflexivity|].
      destruct (make_info _ o); [|discriminate]. intros H. injection H as <-. reflexivity. }
    assert (Y : forall f o f', yield_fixture f o = Some f' -> wrappers f' = Yields :: wrappers f).
    { intros f o f'. unfold yield_fixture. destruct (ensure_info f o) as [h|] eqn:H; [|discriminate]. intros X. injection X as <-.
      cbn [slash_wraps wrappers fn_code]. rewrite (E f o h H). reflexivity. }
    induction ds as [|d ds IH]; intros f f' H; [injection H as <-; reflexivity|]. cbn [decorate_all] in H. destruct (decorate f d) as [h|] eqn:D; [|discriminate].
    rewrite (IH h f' H). cbn [flat_map]. rewrite rev_app_distr, <- app_assoc. f_equal. destruct d as [o|o| |]; cbn [decorate] in D.
    - unfold fixture in D. destruct (is_generator (underlying f)); [rewrite (Y f o h D)|rewrite (E f o h D)]; reflexivity.
    - rewrite (Y f o h D). reflexivity.
    - injection D as <-. reflexivity.
    - injection D as <-. reflexivity. }
  intros H. rewrite (Q _ _ _ H). cbn. apply app_nil_r.
Qed.

(** a generator that is decorated twice is a fixture no test can use *)
Theorem C117_twice_refuted : exists f, decorate_all (def (lit "f") true []) [Fixture no_options; Fixture no_options] = Some f /\ call f = TypeErr /\
  exists g, decorate_all (def (lit "f") true []) [Fixture no_options] = Some g /\ call g = Yielded.
Proof. eexists. split; [reflexivity|]. split; [reflexivity|]. eexists. split; reflexivity. Qed.

(** a decorator between slash.fixture and a generator makes the generator itself the value, and what comes after the yield is not a cleanup;
    with slash.parametrize below it, it does not *)
Theorem C117_custom_refuted : exists f g, decorate_all (def (lit "f") true []) [Custom; Fixture no_options] = Some f /\ call f = Generator /\
  decorate_all (def (lit "f") true []) [Parametrize; Custom; Fixture no_options] = Some g /\ call g = Yielded.
Proof. eexists. eexists. repeat split. Qed.

(** options of a second decorator are ignored, also if they are wrong *)
Theorem C117_options_refuted : exists f i, decorate_all (def (lit "f") false []) [Fixture no_options; Fixture (mkOptions (Some (lit "g")) (Some (lit "nonsense")) true)] = Some f /\
  fn_info f = Some i /\ i_name i = lit "f" /\ i_scope i = lit "test" /\ i_autouse i = false.
Proof. eexists. eexists. repeat split. Qed.

(** a parameter with a default value is required like any other, and so are *args; the cls of a class method is, but a first parameter that
    happens to be called self is not *)
Theorem C117_parameters_refuted : exists ps qs f g i j, decorate_all (def (lit "f") false ps) [Fixture no_options] = Some f /\ fn_info f = Some i /\
  ps = [mkParam (lit "cls") false false; mkParam (lit "x") true false; mkParam (lit "args") false true] /\ i_required i = [lit "cls"; lit "x"; lit "args"] /\
  decorate_all (def (lit "g") false qs) [Fixture no_options] = Some g /\ fn_info g = Some j /\ qs = [mkParam (lit "self") false false; mkParam (lit "x") false false] /\ i_required j = [lit "x"].
Proof. do 6 eexists. split; [reflexivity|]. split; [reflexivity|]. split; [reflexivity|]. split; [reflexivity|]. split; [reflexivity|]. split; [reflexivity|]. split; reflexivity. Qed.

(** two methods of one class with one name are not reported *)
Theorem C117_methods_refuted : exists body inside, In (Block inside) body /\ inside = [(lit "test_a", 2); (lit "test_a", 4)] /\ duplicates [] body = [].
Proof. exists [Block [(lit "test_a", 2); (lit "test_a", 4)]]. eexists. split; [left; reflexivity|]. split; reflexivity. Qed.

(** ** Cases of the theorems *)

Definition ex_params : list param := [mkParam (lit "self") false false; mkParam (lit "a") false false; mkParam (lit "this") false false; mkParam (lit "b") true false].

Example C117_ex : exists f i, decorate_all (def (lit "fix") true ex_params) [Parametrize; Custom; Fixture (mkOptions None (Some (lit "module")) true); Custom; Parametrize] = Some f /\ fn_info f = Some i /\
  call f = Yielded /\ i_name i = lit "fix" /\ i_scope i = lit "module" /\ i_required i = [lit "a"; lit "b"] /\ i_this i = true /\
  first_options [Parametrize; Custom; Fixture (mkOptions None (Some (lit "module")) true); Custom; Parametrize] = Some (mkOptions None (Some (lit "module")) true) /\ NoDup (map p_name ex_params).
Proof.
  eexists. eexists. repeat (split; [reflexivity|]). cbn. repeat constructor; cbn; intros X; repeat (destruct X as [X|X]; [discriminate X|]); exact X.
Qed.

Example C117_scope_ex : decorate_all (def (lit "f") false []) [Custom; Fixture (mkOptions None (Some (lit "suite")) false)] = None /\
  duplicates [] [Function (lit "a") 1; Function (lit "b") 3; Block [(lit "a", 6)]; Function (lit "a") 9; Function (lit "a") 12] = [(lit "a", 9); (lit "a", 12)].
Proof. split; reflexivity. Qed.

Print Assumptions C117_value.
Print Assumptions C117_layers.
Print Assumptions C117_info.
Print Assumptions C117_none.
Print Assumptions C117_scope.
Print Assumptions C117_duplicates.
Print Assumptions C117_twice_refuted.
Print Assumptions C117_custom_refuted.
Print Assumptions C117_options_refuted.
Print Assumptions C117_parameters_refuted.
Print Assumptions C117_methods_refuted.
