(** Theorems about Vars.v: C110, the variables an error remembers. *)

From Coq Require Import List Bool Arith Ascii String Lia.
From Verif Require Import Str Naming Plugins PluginsProps ConsoleLines ConsoleLinesProps Vars.
Import ListNotations.
Open Scope string_scope.
Open Scope list_scope.

(** ** What the statements say *)

(** the text for a value: its repr; something else if it is of a blacklisted
    type or has no repr *)
Definition reads (v : value) (r : str) : Prop :=
  match v with
  | Val _ true _ tname id _ => r = lit "<'" ++ tname ++ lit "' object " ++ id ++ lit ">"
  | Val _ false (Some s) _ _ _ => r = s
  | Val _ false None tname _ _ => r = lit "[Unprintable '" ++ tname ++ lit "' object]"
  end.

(** at most 100 characters of it *)
Definition short (r s : str) : Prop :=
  List.length r <= 100 /\ s = r \/
  100 < List.length r /\ exists p q, List.length p = 97 /\ r = p ++ q /\ s = p ++ lit "...".

(** an attribute that is looked at *)
Definition visible (o : value) (a : str) (v : value) : Prop :=
  In (a, Some v) (v_attrs o) /\ ~ ((exists r, a = lit "__" ++ r) /\ exists r, a = r ++ lit "__")
  /\ v_kind v <> KMethod /\ v_kind v <> KFunction /\ v_kind v <> KClass.

(** attributes of self, under the name "self.a" *)
Definition of_self (l : list (str * value)) (n : str) (v : value) : Prop :=
  exists o a, In (lit "self", o) l /\ v_black o = false /\ n = lit "self." ++ a /\ visible o a v.

(** local variables of a function: distinct names, which do not look like
    attributes of self, whose attributes are distinct *)
Definition locals_ok (l : list (str * value)) : Prop :=
  NoDup (map fst l) /\ (forall n v a, In (n, v) l -> n <> lit "self." ++ a)
  /\ forall o, In (lit "self", o) l -> NoDup (map fst (v_attrs o)).

(** ** Lemmas *)

Lemma reads_repr v s t : repr_of t v = s <-> exists r, reads v r /\ s = if t then (if Nat.ltb 100 (List.length r) then firstn 97 r ++ lit "..." else r) else r.
Proof.
  destruct v as [k b rep tn id at_]. cbn. unfold safe_repr, cut, MAX_REPR, dots, quoted.
  destruct b; [|destruct rep as [r|]]; split; try (intros <-; eexists; split; [reflexivity|]; destruct t; repeat rewrite <- app_assoc; reflexivity);
  intros (r' & -> & ->); destruct t; repeat rewrite <- app_assoc; reflexivity.
Qed.

Lemma short_iff r s : short r s <-> s = if Nat.ltb 100 (List.length r) then firstn 97 r ++ lit "..." else r.
Proof.
  unfold short. destruct (Nat.ltb_spec 100 (List.length r)) as [L|L]; split.
  - intros [[X _]|(_ & p & q & Lp & -> & ->)]; [lia|]. rewrite firstn_app, Lp. replace (97 - 97) with 0 by reflexivity.
    rewrite <- Lp at 1. rewrite firstn_all. cbn [firstn]. rewrite app_nil_r. reflexivity.
  - intros ->. right. split; [exact L|]. exists (firstn 97 r), (skipn 97 r). split; [rewrite firstn_length; lia|].
    split; [symmetry; apply firstn_skipn|reflexivity].
  - intros [[_ X]|[X _]]; [exact X|lia].
  - intros ->. left. auto.
Qed.

Lemma repr_short v s : repr_of true v = s <-> exists r, reads v r /\ short r s.
Proof. rewrite reads_repr. split; intros (r & R & S); exists r; (split; [exact R|]); apply short_iff, S. Qed.
Lemma repr_full v s : repr_of false v = s <-> reads v s.
Proof. rewrite reads_repr. split; [intros (r & R & ->); exact R|intros R; exists s; auto]. Qed.

Lemma dunder_iff a : dunder a = true <-> (exists r, a = lit "__" ++ r) /\ exists r, a = r ++ lit "__".
Proof. unfold dunder. rewrite andb_true_iff, starts_spec, ends_spec. reflexivity. Qed.

Lemma iter_In o a v : In (a, v) (iter_attributes o) <-> visible o a v.
Proof.
  unfold iter_attributes, visible. rewrite in_flat_map, <- dunder_iff. split.
  - intros ([a' [v'|]] & I & H); cbn [fst snd] in H; [|destruct (dunder a'); destruct H].
    destruct (dunder a') eqn:D; [destruct H|]. destruct (filtered_member v') eqn:F; [destruct H|]. destruct H as [H|[]]. injection H as -> ->.
    split; [exact I|]. split; [congruence|]. unfold filtered_member in F. destruct (v_kind v); try discriminate; repeat split; discriminate.
  - intros (I & D & K1 & K2 & K3). exists (a, Some v). split; [exact I|]. cbn [fst snd].
    destruct (dunder a); [destruct D; reflexivity|]. unfold filtered_member. destruct (v_kind v); try contradiction; left; reflexivity.
Qed.

Lemma iter_nodup o : NoDup (map fst (v_attrs o)) -> NoDup (map fst (iter_attributes o)).
Proof.
  unfold iter_attributes. induction (v_attrs o) as [|[a x] l IH]; intros N; [constructor|]. inversion N; subst.
  cbn [flat_map fst snd]. destruct (dunder a); [apply IH; assumption|]. destruct x as [v|]; [|apply IH; assumption].
  destruct (filtered_member v); [apply IH; assumption|]. cbn. constructor; [|apply IH; assumption].
  intros I. apply H1. apply in_map_iff in I as ([a' v'] & E & I). cbn in E. subst a'.
  apply in_flat_map in I as ([a' x'] & I & H). cbn [fst snd] in H. destruct (dunder a'); [destruct H|]. destruct x' as [w|]; [|destruct H].
  destruct (filtered_member w); [destruct H|]. destruct H as [[= -> _]|[]]. apply (in_map fst) in I. exact I.
Qed.

Lemma set_new {A} k (v : A) d : ~ In k (map fst d) -> s_set k v d = d ++ [(k, v)].
Proof.
  induction d as [|[k' v'] d IH]; intros N; [reflexivity|]. cbn. destruct (str_eqb_spec k k') as [->|D]; [destruct N; left; reflexivity|].
  rewrite IH; [reflexivity|]. intros I. apply N. right. exact I.
Qed.

Lemma dict_of_nodup {A} (l : list (str * A)) : NoDup (map fst l) -> dict_of l = l.
Proof.
  unfold dict_of. assert (G : forall d, NoDup (map fst (d ++ l)) -> fold_left (fun d e => s_set (fst e) (snd e) d) l d = d ++ l); [|intros N; apply (G [] N)].
  induction l as [|[k v] l IH]; intros d N; [cbn; symmetry; apply app_nil_r|]. cbn [fold_left fst snd].
  rewrite map_app in N. cbn [map fst] in N. pose proof (NoDup_remove_2 _ _ _ N) as ND.
  rewrite set_new by (intros I; apply ND, in_app_iff; left; exact I).
  rewrite IH; [rewrite <- app_assoc; reflexivity|]. rewrite <- app_assoc, map_app. exact N.
Qed.

Lemma nodup_app {A} (a b : list A) : NoDup a -> NoDup b -> (forall x, In x a -> ~ In x b) -> NoDup (a ++ b).
Proof.
  induction a as [|x a IH]; intros Na Nb D; [exact Nb|]. inversion Na; subst. cbn. constructor.
  - rewrite in_app_iff. intros [I|I]; [contradiction|]. apply (D x (or_introl eq_refl) I).
  - apply IH; [assumption|assumption|]. intros y I. apply D. right. exact I.
Qed.

Lemma contains_at n : contains (lit "@") n = true <-> In "@"%char n.
Proof.
  rewrite contains_spec. split.
  - intros (a & b & ->). apply in_app_iff. right. left. reflexivity.
  - intros I. apply in_split in I as (a & b & ->). exists a, b. reflexivity.
Qed.

Lemma unwrap_In n v x w : In (x, w) (unwrap_local n v) <->
  (x = n /\ w = v) \/ (n = lit "self" /\ v_black v = false /\ exists a, x = lit "self." ++ a /\ visible v a w).
Proof.
  unfold unwrap_local, SELF. cbn [In]. destruct (str_eqb_spec n (lit "self")) as [->|N]; cbn [negb orb].
  - destruct (v_black v).
    + split; [intros [[= <- <-]|[]]; auto|intros [[-> ->]|(_ & X & _)]; [auto|discriminate]].
    + rewrite in_map_iff. split.
      * intros [[= <- <-]|([a u] & [= <- <-] & I)]; [auto|]. right. split; [reflexivity|]. split; [reflexivity|]. exists a. split; [reflexivity|apply iter_In, I].
      * intros [[-> ->]|(_ & _ & a & -> & V)]; [auto|]. right. exists (a, w). split; [reflexivity|apply iter_In, V].
  - split; [intros [[= <- <-]|[]]; auto|intros [[-> ->]|(X & _)]; [auto|contradiction]].
Qed.

Lemma unwrap_nodup n v : (n = lit "self" -> NoDup (map fst (v_attrs v))) -> NoDup (map fst (unwrap_local n v)).
Proof.
  intros H. unfold unwrap_local, SELF. cbn [map fst]. destruct (str_eqb_spec n (lit "self")) as [->|N]; cbn [negb orb]; [|repeat constructor; intros []].
  destruct (v_black v); [repeat constructor; intros []|]. constructor.
  - intros I. rewrite map_map in I. cbn in I. apply in_map_iff in I as (a & E & _). discriminate E.
  - rewrite map_map. cbn. assert (ND := iter_nodup v (H eq_refl)). clear H. induction (iter_attributes v) as [|e l IH]; [constructor|].
    inversion ND; subst. cbn. constructor; [|apply IH; assumption]. intros I. apply in_map_iff in I as (e' & E & I).
    apply (app_inv_head (lit "self.")) in E. apply H1. rewrite <- E. apply in_map, I.
Qed.

Definition local_items (l : list (str * value)) : list (str * str) :=
  flat_map (fun e => if contains (lit "@") (fst e) then []
    else map (fun x => (fst x, repr_of true (snd x))) (unwrap_local (fst e) (snd e))) l.

Lemma items_In l n s : In (n, s) (local_items l) <->
  exists v, repr_of true v = s /\ ((In (n, v) l /\ ~ In "@"%char n) \/ of_self l n v).
Proof.
  unfold local_items. rewrite in_flat_map. split.
  - intros ([k v] & I & H). cbn [fst snd] in H. destruct (contains (lit "@") k) eqn:C; [destruct H|].
    apply in_map_iff in H as ([x w] & [= -> <-] & H). apply unwrap_In in H as [[-> ->]|(-> & B & a & -> & V)].
    + exists v. split; [reflexivity|]. left. split; [exact I|]. rewrite <- contains_at, C. discriminate.
    + exists w. split; [reflexivity|]. right. exists v, a. auto.
  - intros (v & R & [[I N]|(o & a & I & B & -> & V)]).
    + exists (n, v). split; [exact I|]. cbn [fst snd]. destruct (contains (lit "@") n) eqn:C; [apply contains_at in C; contradiction|].
      apply in_map_iff. exists (n, v). split; [cbn; rewrite R; reflexivity|]. apply unwrap_In. auto.
    + exists (lit "self", o). split; [exact I|]. cbn [fst snd]. apply in_map_iff. exists (lit "self." ++ a, v).
      split; [cbn; rewrite R; reflexivity|]. apply unwrap_In. right. split; [reflexivity|]. split; [exact B|]. exists a. auto.
Qed.

Lemma items_nodup l : locals_ok l -> NoDup (map fst (local_items l)).
Proof.
  unfold locals_ok. induction l as [|[k v] l IH]; intros (ND & NS & NA); [constructor|].
  inversion ND as [|? ? NI ND']; subst.
  assert (OK : locals_ok l).
  { split; [exact ND'|]. split; [intros n w a I; apply (NS n w a); right; exact I|intros o I; apply NA; right; exact I]. }
  unfold local_items. cbn [flat_map fst snd]. rewrite map_app. apply nodup_app; [|apply IH, OK|].
  - destruct (contains _ _); [constructor|]. rewrite map_map. cbn [fst].
    apply unwrap_nodup. intros ->. apply NA. left. reflexivity.
  - intros x I1 I2. destruct (contains (lit "@") k) eqn:C; [destruct I1|].
    rewrite map_map in I1. cbn [fst] in I1. apply in_map_iff in I1 as ([x' w] & E & I1). cbn in E. subst x'.
    apply unwrap_In in I1. apply in_map_iff in I2 as ([x' s] & E & I2). cbn in E. subst x'.
    apply items_In in I2 as (u & _ & I2).
    destruct I1 as [[-> ->]|(-> & B & a & -> & V)], I2 as [[I2 _]|(o & a' & I2 & B' & E & V')].
    + apply NI. apply (in_map fst) in I2. exact I2.
    + apply (NS k v a'); [left; reflexivity|exact E].
    + apply (NS (lit "self." ++ a) u a); [right; exact I2|reflexivity].
    + apply NI. apply (in_map fst) in I2. exact I2.
Qed.

(** ** C110 *)

(** Of the local variables of a frame exactly these are remembered, once each:
    those without "@" in their name, and the attributes of self (if self is
    not of a blacklisted type) that can be read, are not special and not
    methods, functions or classes; each as at most 100 characters of its repr. *)
Theorem C110_locals l : locals_ok l ->
  NoDup (map fst (capture_locals l))
  /\ forall n s, In (n, s) (capture_locals l) <->
       exists v r, reads v r /\ short r s /\ ((In (n, v) l /\ ~ In "@"%char n) \/ of_self l n v).
Proof.
  intros OK. pose proof (items_nodup l OK) as ND.
  assert (E : capture_locals l = local_items l) by (unfold capture_locals; apply dict_of_nodup, ND).
  rewrite E. split; [exact ND|]. intros n s. rewrite items_In. split.
  - intros (v & R & H). apply repr_short in R as (r & R & S). exists v, r. auto.
  - intros (v & r & R & S & H). exists v. split; [apply repr_short; exists r; auto|exact H].
Qed.

(** Of the global variables those the function names, except functions,
    methods, modules and classes. *)
Theorem C110_globals names g : NoDup (map fst g) ->
  NoDup (map fst (capture_globals names g))
  /\ forall n s, In (n, s) (capture_globals names g) <->
       In n names /\ exists v r, In (n, v) g /\ reads v r /\ short r s
         /\ v_kind v <> KFunction /\ v_kind v <> KMethod /\ v_kind v <> KModule /\ v_kind v <> KClass.
Proof.
  intros ND. unfold capture_globals. set (L := flat_map _ g).
  assert (LI : forall n s, In (n, s) L <-> In n names /\ exists v r, In (n, v) g /\ reads v r /\ short r s
         /\ v_kind v <> KFunction /\ v_kind v <> KMethod /\ v_kind v <> KModule /\ v_kind v <> KClass).
  { intros n s. unfold L. rewrite in_flat_map. split.
    - intros ([k v] & I & H). cbn [fst snd] in H. destruct (s_mem k names) eqn:M; [|destruct H]. destruct (global_included v) eqn:G; [|destruct H].
      destruct H as [[= -> <-]|[]]. split; [apply s_mem_In, M|]. destruct (proj1 (repr_short v _) eq_refl) as (r & R & S).
      exists v, r. split; [exact I|]. split; [exact R|]. split; [exact S|]. unfold global_included in G. destruct (v_kind v); try discriminate; repeat split; discriminate.
    - intros (M & v & r & I & R & S & K1 & K2 & K3 & K4). exists (n, v). split; [exact I|]. cbn [fst snd].
      rewrite (proj2 (s_mem_In n names) M). unfold global_included. assert (E : repr_of true v = s) by (apply repr_short; exists r; auto). rewrite E.
      destruct (v_kind v); try contradiction; left; reflexivity. }
  assert (NL : NoDup (map fst L)).
  { unfold L. clear LI L. induction g as [|[k v] g IH]; [constructor|]. inversion ND; subst. cbn [flat_map fst snd].
    destruct (s_mem k names && global_included v); [|apply IH; assumption]. cbn. constructor; [|apply IH; assumption].
    intros I. apply H1. apply in_map_iff in I as ([k' s] & E & I). cbn in E. subst k'. apply in_flat_map in I as ([k' w] & I & H). cbn [fst snd] in H.
    destruct (_ && _); [|destruct H]. destruct H as [[= -> _]|[]]. apply (in_map fst) in I. exact I. }
  rewrite dict_of_nodup by exact NL. split; [exact NL|exact LI].
Qed.

(** The attributes of an exception (and of any object): numbers and strings as
    they are, others as text, in full or at most 100 characters of it. *)
Theorem C110_attributes t o : NoDup (map fst (v_attrs o)) ->
  NoDup (map fst (object_attributes t o))
  /\ forall a x, In (a, x) (object_attributes t o) <->
       exists v, visible o a v
         /\ (v_kind v = KSimple /\ x = inl v
             \/ v_kind v <> KSimple /\ exists r s, reads v r /\ x = inr s /\ (if t then short r s else s = r)).
Proof.
  intros ND. unfold object_attributes. set (f := fun e : str * value => _).
  assert (FM : map fst (map f (iter_attributes o)) = map fst (iter_attributes o)) by (rewrite map_map; reflexivity).
  assert (NL : NoDup (map fst (map f (iter_attributes o)))) by (rewrite FM; apply iter_nodup, ND).
  rewrite dict_of_nodup by exact NL. split; [exact NL|]. intros a x. rewrite in_map_iff. split.
  - intros ([a' v] & E & I). unfold f in E. cbn [fst snd] in E. injection E as -> E. exists v. split; [apply iter_In, I|].
    assert (T : forall s, repr_of t v = s -> exists r, reads v r /\ (if t then short r s else s = r)).
    { intros s R. destruct t; [apply repr_short in R; exact R|]. apply repr_full in R. exists s. auto. }
    destruct (v_kind v) eqn:K; try (right; split; [discriminate|]; destruct (T _ eq_refl) as (r & R & S); exists r; eexists; split; [exact R|]; split; [symmetry; exact E|exact S]).
    left. auto.
  - intros (v & V & H). exists (a, v). split; [|apply iter_In, V]. unfold f. cbn [fst snd]. f_equal.
    destruct H as [[K ->]|(K & r & s & R & -> & S)]; [rewrite K; reflexivity|].
    assert (E : repr_of t v = s). { destruct t; [apply repr_short; exists r; auto|]. subst s. apply repr_full, R. }
    rewrite E. destruct (v_kind v); try reflexivity. contradiction.
Qed.

(** the first two lines of a frame *)
Definition frame_head (d : dframe) : str :=
  lit "  " ++ df_file d ++ lit ", line " ++ df_line d ++ lit ":" ++ "010"%char :: lit "    " ++ df_code d.

(** In the log, a frame is followed by a line for each of its local variables,
    whatever their names, and the attributes of self, in full; not if that
    is not configured, nor if the frame has been forgotten. *)
Theorem C110_log d vars :
  match df_python d with
  | Some f =>
      vars = true -> exists l,
        frame_string vars d = frame_head d
          ++ flat_map (fun e => "010"%char :: "009"%char :: lit "- " ++ fst e ++ lit ": " ++ snd e) l ++ ["010"%char]
        /\ forall n r, In (n, r) l <-> exists v, reads v r /\ (In (n, v) (pf_locals f) \/ of_self (pf_locals f) n v)
  | None => frame_string vars d = frame_head d
  end
  /\ (vars = false -> frame_string vars d = frame_head d).
Proof.
  assert (H0 : forall z, lit "  " ++ df_file d ++ lit ", line " ++ df_line d ++ lit ":" ++ LF ++ lit "    " ++ df_code d ++ z = frame_head d ++ z).
  { intros z. unfold frame_head, LF. repeat (rewrite <- ?app_assoc, <- ?app_comm_cons; cbn [app]). reflexivity. }
  split.
  - unfold frame_string. destruct (df_python d) as [f|]; [|rewrite H0; apply app_nil_r].
    intros ->. exists (map (fun e => (fst e, repr_of false (snd e))) (unwrap_self_locals (pf_locals f))). split.
    + rewrite H0. f_equal. f_equal. induction (unwrap_self_locals _) as [|e l IH]; [reflexivity|]. cbn [flat_map map fst snd]. rewrite IH. reflexivity.
    + intros n r. rewrite in_map_iff. unfold unwrap_self_locals. split.
      * intros ([n' v] & [= -> R] & I). exists v. split; [apply repr_full, R|]. apply in_flat_map in I as ([k w] & I & H).
        cbn [fst snd] in H. destruct H as [[= -> ->]|H]; [left; exact I|]. right.
        unfold SELF in H. destruct (str_eqb_spec k (lit "self")) as [->|]; [|destruct H]. destruct (v_black w) eqn:B; [destruct H|]. cbn [negb andb] in H.
        apply in_map_iff in H as ([a u] & [= <- <-] & H). exists w, a. split; [exact I|]. split; [exact B|]. split; [reflexivity|apply iter_In, H].
      * intros (v & R & H). exists (n, v). split; [cbn; f_equal; apply repr_full, R|]. apply in_flat_map.
        destruct H as [I|(o & a & I & B & -> & V)]; [exists (n, v); split; [exact I|left; reflexivity]|].
        exists (lit "self", o). split; [exact I|]. cbn [fst snd]. right. rewrite B. cbn. apply in_map_iff. exists (a, v). split; [reflexivity|apply iter_In, V].
  - intros ->. unfold frame_string. destruct (df_python d); rewrite H0; apply app_nil_r.
Qed.

(** An error that is added is logged first, then (where that is reported) the
    callbacks of error_added get it with its frames; if none of them raises, it
    keeps no frame and no exception afterwards, and everything it remembers
    of the variables. *)
Theorem C110_added vars append report e :
  let '(evs, e', appended, raises) := add_error vars append report false e in
  evs = Logged (log_text vars e) :: (if report then [Hook e] else [])
  /\ appended = append /\ raises = false
  /\ e_exc_info e' = false /\ (forall d, In d (e_frames e') -> df_python d = None)
  /\ e_message e' = e_message e
  /\ Forall2 (fun d d' => df_file d' = df_file d /\ df_line d' = df_line d /\ df_code d' = df_code d
                          /\ df_locals d' = df_locals d /\ df_globals d' = df_globals d) (e_frames e) (e_frames e').
Proof.
  assert (A : (forall d, In d (map forget_frame (e_frames e)) -> df_python d = None)
    /\ Forall2 (fun d d' => df_file d' = df_file d /\ df_line d' = df_line d /\ df_code d' = df_code d
                          /\ df_locals d' = df_locals d /\ df_globals d' = df_globals d) (e_frames e) (map forget_frame (e_frames e))).
  { split; [intros d I; apply in_map_iff in I as (d' & <- & _); reflexivity|].
    induction (e_frames e) as [|d l IH]; constructor; [repeat split|exact IH]. }
  destruct A as [A B]. unfold add_error. destruct report; cbn; auto 10.
Qed.

(** What is logged about the variables of an error that was added before is
    nothing. *)
Theorem C110_again vars append report e :
  let '(_, e', _, _) := add_error vars append report false e in
  forall v, traceback_string v (e_frames e') = traceback_string false (e_frames e).
Proof.
  assert (A : forall v l, traceback_string v (map forget_frame l) = traceback_string false l).
  { intros v l. unfold traceback_string. rewrite map_map. f_equal. apply map_ext. intros d. unfold frame_string. cbn. destruct (df_python d); reflexivity. }
  unfold add_error. destruct report; cbn [e_frames forget]; intros v; apply A.
Qed.

(** ** Cases, and what one might expect beyond it *)

Definition num (s : string) : value := Val KSimple false (Some (lit s)) (lit "int") (lit "1") [].
Definition ex_self : value :=
  Val KOther false (Some (lit "<T>")) (lit "T") (lit "2")
    [(lit "x", Some (num "1")); (lit "__doc__", Some (num "2")); (lit "broken", None);
     (lit "run", Some (Val KMethod false (Some (lit "m")) (lit "method") (lit "3") []))].
Definition ex_locals : list (str * value) :=
  [(lit "self", ex_self); (lit "@py_assert", num "5");
   (lit "bad", Val KOther false None (lit "Bad") (lit "4") []);
   (lit "secret", Val KOther true (Some (lit "password")) (lit "Secret") (lit "ff") []);
   (lit "long", Val KOther false (Some (repeat "a"%char 200)) (lit "str") (lit "6") [])].

Example C110_ex_locals :
  locals_ok ex_locals
  /\ capture_locals ex_locals =
     [(lit "self", lit "<T>"); (lit "self.x", lit "1"); (lit "bad", lit "[Unprintable 'Bad' object]");
      (lit "secret", lit "<'Secret' object ff>"); (lit "long", repeat "a"%char 97 ++ lit "...")].
Proof.
  split; [|vm_compute; reflexivity]. split; [|split].
  - repeat constructor; cbn; intuition discriminate.
  - intros n v a [E|[E|[E|[E|[E|[]]]]]]; injection E as <- _; discriminate.
  - intros o [E|[E|[E|[E|[E|[]]]]]]; injection E; intros; subst; try discriminate. repeat constructor; cbn; intuition discriminate.
Qed.

Example C110_ex_globals :
  NoDup (map fst [(lit "a", num "1"); (lit "b", num "2"); (lit "os", Val KModule false (Some (lit "m")) (lit "module") (lit "7") [])])
  /\ capture_globals [lit "a"; lit "os"; lit "zzz"]
       [(lit "a", num "1"); (lit "b", num "2"); (lit "os", Val KModule false (Some (lit "m")) (lit "module") (lit "7") [])]
     = [(lit "a", lit "1")].
Proof. split; [repeat constructor; cbn; intuition discriminate|reflexivity]. Qed.

Example C110_ex_attributes :
  NoDup (map fst (v_attrs ex_self)) /\ object_attributes false ex_self = [(lit "x", inl (num "1"))].
Proof. split; [repeat constructor; cbn; intuition discriminate|reflexivity]. Qed.

Definition ex_frame : pframe := mkPf (lit "/t.py") (lit "3") (lit "assert x") [(lit "x", num "0"); (lit "@y", num "9")] [] [].

Example C110_ex_log :
  df_python (distill ex_frame) = Some ex_frame
  /\ frame_string true (distill ex_frame) =
     lit "  /t.py, line 3:" ++ LF ++ lit "    assert x" ++ LF ++ HT ++ lit "- x: 0" ++ LF ++ HT ++ lit "- @y: 9" ++ LF.
Proof. split; reflexivity. Qed.

Example C110_ex_added :
  let e := mkErr (lit "E") true [distill ex_frame] in
  add_error true true true false e =
  ([Logged (log_text true e); Hook e],
   mkErr (lit "E") false [mkDf None (lit "/t.py") (lit "3") (lit "assert x") [(lit "x", lit "0")] []], true, false).
Proof. reflexivity. Qed.

(** Not so: an error in a result keeps no frame.  It does, and its exception,
    if a callback of error_added raises. *)
Theorem C110_forget_refuted : exists e,
  let '(_, e', appended, raises) := add_error false true true true e in
  appended = true /\ raises = true /\ e_exc_info e' = true /\ exists d, In d (e_frames e') /\ df_python d <> None.
Proof.
  exists (mkErr (lit "E") true [distill ex_frame]). cbn. repeat split. eexists. split; [left; reflexivity|discriminate].
Qed.

(** Not so: what the log shows of a variable is what the error remembers of it.
    A variable with "@" in its name is shown and not remembered. *)
Theorem C110_names_refuted : exists f n v,
  locals_ok (pf_locals f) /\ In (n, v) (pf_locals f)
  /\ (exists a b, frame_string true (distill f) = a ++ lit "- " ++ n ++ lit ": " ++ b)
  /\ forall s, ~ In (n, s) (df_locals (distill f)).
Proof.
  exists ex_frame, (lit "@y"), (num "9"). split; [|split; [cbn; auto|split]].
  - split; [repeat constructor; cbn; intuition discriminate|]. split.
    + intros n v a [E|[E|[]]]; injection E as <- _; discriminate.
    + intros o [E|[E|[]]]; injection E; intros; discriminate.
  - exists (lit "  /t.py, line 3:" ++ LF ++ lit "    assert x" ++ LF ++ HT ++ lit "- x: 0" ++ LF ++ HT), (lit "9" ++ LF). reflexivity.
  - intros s [E|[]]. discriminate.
Qed.

(** Not so: what is remembered of a local variable called n is the variable.
    If there is a variable called "self.x" (which eval can make), the later of
    the two is. *)
Theorem C110_clash_refuted : exists l v,
  NoDup (map fst l) /\ In (lit "self.x", v) l
  /\ forall s, In (lit "self.x", s) (capture_locals l) -> ~ reads v s.
Proof.
  exists [(lit "self.x", num "7"); (lit "self", ex_self)], (num "7").
  split; [repeat constructor; cbn; intuition discriminate|]. split; [left; reflexivity|].
  intros s [E|[E|[]]]; [injection E as <-; discriminate|discriminate].
Qed.

Print Assumptions C110_locals.
Print Assumptions C110_globals.
Print Assumptions C110_attributes.
Print Assumptions C110_log.
Print Assumptions C110_added.
Print Assumptions C110_again.
Print Assumptions C110_forget_refuted.
Print Assumptions C110_names_refuted.
Print Assumptions C110_clash_refuted.
