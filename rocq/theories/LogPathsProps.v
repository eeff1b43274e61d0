(** Where log files are (C118): the directories of a log are those of the template,
    a file is open once, records go to the file of the block they are written in. *)

From Coq Require Import List Bool Arith Ascii String Lia.
From Verif Require Import Str LogPaths.
Import ListNotations.
Open Scope string_scope.
Open Scope list_scope.

Notation slash := ("/"%char) (only parsing).

(** * Specification *)

(** the components of a template: its parts split at the slashes of its text *)
Fixpoint pieces (ps : list part) : list (list part) :=
  match ps with
  | [] => [[]]
  | Text t :: ps' =>
      match pieces ps', split_all slash t with
      | q :: qs, w :: ws =>
          (* the last word of the text is joined with the first component of the rest *)
          let fix glue (w : str) (ws : list str) :=
            match ws with
            | [] => (Text w :: q) :: qs
            | w' :: ws' => [Text w] :: glue w' ws'
            end in
          glue w ws
      | _, _ => []
      end
  | f :: ps' => match pieces ps' with q :: qs => (f :: q) :: qs | [] => [] end
  end.

(** no slash in any text of a value *)
Definition slashless (o : obj) : Prop :=
  let '(Obj _ s r f _) := o in
  ~ In slash s /\ ~ In slash r /\ forall u, f [] = Some u -> ~ In slash u.

(** fields of the context without specification, and without values that are not normalized and have slashes *)
Definition tame (ctx : obj) (ps : list part) : Prop :=
  forall n ns c spec, In (Field n ns c spec) ps ->
    n = lit "context" /\ spec = [] /\
    forall o, get_attrs (Normalized ctx) ns = Some (Raw o) -> slashless o.

(** the writes of code: the files they should go to, up to the first exception *)
Section Spec.
Variable can_open : str -> bool.
Fixpoint writes (cur : option str) (opened : list str) (c : code) : list (str * nat) * bool :=
  match c with
  | Stop => ([], false)
  | Raise => ([], true)
  | Write n k => let '(l, x) := writes cur opened k in
                 (match cur with Some p => [(p, n)] | None => [] end ++ l, x)
  | Ask k => writes cur opened k
  | With p b k =>
      if existsb (str_eqb p) opened || can_open p then
        let '(l, x) := writes (Some p) (p :: opened) b in
        if x then (l, true)
        else let '(l', x') := writes cur opened k in (l ++ l', x')
      else ([], true)
  end.
End Spec.

(** watching the events: the files open and the file whose closing is to be told *)
Definition watch := (list (str * nat) * option str)%type.
Definition see (s : watch) (e : event) : option watch :=
  match e, s with
  | Opened p h, (l, None) =>
      if existsb (fun q => str_eqb p (fst q) || Nat.eqb h (snd q)) l then None else Some ((p, h) :: l, None)
  | Wrote h n, (l, None) => if existsb (fun q => Nat.eqb h (snd q)) l then Some s else None
  | Answered ps, (l, None) =>
      (* exactly the files open, each once *)
      if forallb (fun p => existsb (fun q => str_eqb p (fst q)) l) ps && forallb (fun q => existsb (str_eqb (fst q)) ps) l
         && Nat.eqb (List.length ps) (List.length l) then Some s else None
  | Closed p h, ((q, g) :: l, None) => if str_eqb p q && Nat.eqb h g then Some (l, Some p) else None
  | Told p, (l, Some q) => if str_eqb p q then Some (l, None) else None
  | CannotOpen p, (l, None) => if existsb (fun q => str_eqb p (fst q)) l then None else Some s
  | _, _ => None
  end.
Fixpoint see_all (s : watch) (l : list event) : option watch :=
  match l with
  | [] => Some s
  | e :: l => match see s e with Some s' => see_all s' l | None => None end
  end.

(** the file a handler was opened for, told by the events *)
Fixpoint owner (l : list event) (h : nat) : option str :=
  match l with
  | [] => None
  | Opened p g :: l => if Nat.eqb h g then Some p else owner l h
  | _ :: l => owner l h
  end.
(** what was written to which file *)
Definition written_to (own : nat -> option str) (e : event) : list (str * nat) :=
  match e with
  | Wrote h n => match own h with Some p => [(p, n)] | None => [] end
  | _ => []
  end.
Definition written (l : list event) : list (str * nat) := flat_map (written_to (owner l)) l.

(** * The path *)

Lemma escape_slash s : ~ In slash (escape s).
Proof.
  unfold escape. intros H. apply in_map_iff in H. destruct H as [c [H _]].
  destruct (Ascii.eqb_spec c "092"%char); [discriminate|].
  destruct (Ascii.eqb_spec c slash); [discriminate|]. contradiction.
Qed.

Lemma escape_backslash s : ~ In "092"%char (escape s).
Proof.
  unfold escape. intros H. apply in_map_iff in H. destruct H as [c [H _]].
  destruct (Ascii.eqb_spec c "092"%char); [discriminate|].
  destruct (Ascii.eqb_spec c slash); [discriminate|]. contradiction.
Qed.

Lemma split_all_none c s : ~ In c s -> split_all c s = [s].
Proof.
  induction s as [|x s IH]; intros H; [reflexivity|].
  cbn. destruct (Ascii.eqb_spec x c); [exfalso; apply H; left; auto|].
  rewrite IH; [reflexivity|]. intros K. apply H. right; auto.
Qed.

Lemma split_all_ne c s : split_all c s <> [].
Proof.
  induction s as [|x s IH]; [discriminate|]. cbn. destruct (Ascii.eqb x c); [discriminate|].
  destruct (split_all c s); [discriminate|discriminate].
Qed.

(** splitting a text put after another *)
Fixpoint glued (ws : list str) (w' : str) (ws' : list str) : list str :=
  match ws with
  | [] => w' :: ws'
  | [w] => (w ++ w') :: ws'
  | w :: ws => w :: glued ws w' ws'
  end.

Lemma split_all_app c s t w' ws' :
  split_all c t = w' :: ws' -> split_all c (s ++ t) = glued (split_all c s) w' ws'.
Proof.
  intros Ht. induction s as [|x s IH]; [exact Ht|].
  cbn. pose proof (split_all_ne c s) as N. destruct (split_all c s) as [|u us] eqn:E; [contradiction|].
  destruct (Ascii.eqb x c).
  - rewrite IH. reflexivity.
  - rewrite IH. destruct us; reflexivity.
Qed.

Section Path.
Variable sf : str -> str -> option str.

Lemma pieces_ne ps : pieces ps <> [].
Proof.
  induction ps as [|p ps IH]; [discriminate|].
  cbn. destruct (pieces ps) as [|q qs]; [contradiction|].
  destruct p; [|discriminate].
  pose proof (split_all_ne slash t) as N. destruct (split_all slash t) as [|w ws]; [contradiction|].
  destruct ws; discriminate.
Qed.

Lemma field_slashless w u c :
  (forall o, Some w = Some (Raw o) -> slashless o) -> field sf w c [] = Some u -> ~ In slash u.
Proof.
  intros H F. destruct w as [o|o].
  - specialize (H o eq_refl). destruct o as [nm s r f l]. destruct H as [H1 [H2 H3]].
    destruct c; cbn in F.
    + apply H3. exact F.
    + inversion F; subst; assumption.
    + inversion F; subst; assumption.
  - destruct o as [nm s r f l]. destruct c; cbn in F; inversion F; subst; apply escape_slash.
Qed.

Lemma format_glue ctx ts pr q qs w ws us :
  Forall2 (fun piece u => format_log_path sf ctx ts pr piece = Done u) (q :: qs) us ->
  match us with
  | u :: us' =>
      Forall2 (fun piece u => format_log_path sf ctx ts pr piece = Done u)
        ((fix glue (w : str) (ws : list str) :=
            match ws with
            | [] => (Text w :: q) :: qs
            | w' :: ws' => [Text w] :: glue w' ws'
            end) w ws)
        (glued (w :: ws) u us')
  | [] => True
  end.
Proof.
  intros F. inversion F as [|q0 u qs0 us' Hq Hqs]; subst.
  revert w. induction ws as [|w' ws IH]; intros w.
  - cbn. constructor; [|exact Hqs]. cbn. rewrite Hq. reflexivity.
  - cbn [glued]. constructor; [|exact (IH w')]. cbn. rewrite app_nil_r. reflexivity.
Qed.

Theorem C118_components ctx ts pr ps t :
  tame ctx ps -> format_log_path sf ctx ts pr ps = Done t ->
  Forall2 (fun piece u => format_log_path sf ctx ts pr piece = Done u) (pieces ps) (split_all slash t).
Proof.
  revert t. induction ps as [|p ps IH]; intros t T H.
  { cbn in H. inversion H; subst. cbn. constructor; [reflexivity|constructor]. }
  cbn [format_log_path] in H.
  destruct (format_part sf ctx ts pr p) as [a| | |] eqn:P; try discriminate H.
  destruct (format_log_path sf ctx ts pr ps) as [b| | |] eqn:B; try discriminate H.
  inversion H; subst t; clear H.
  assert (T' : tame ctx ps) by (intros n ns c spec I; apply (T n ns c spec); right; exact I).
  specialize (IH b T' eq_refl).
  pose proof (pieces_ne ps) as NP. pose proof (split_all_ne slash b) as NB.
  destruct (split_all slash b) as [|u us] eqn:SB; [contradiction|].
  rewrite (split_all_app slash a b u us SB).
  cbn [pieces]. destruct (pieces ps) as [|q qs]; [contradiction|].
  destruct p as [txt|n ns c spec].
  - cbn in P. inversion P; subst a.
    pose proof (split_all_ne slash txt) as NT. destruct (split_all slash txt) as [|w ws]; [contradiction|].
    exact (format_glue ctx ts pr q qs w ws (u :: us) IH).
  - destruct (T n ns c spec (or_introl eq_refl)) as [-> [-> R]].
    assert (A : ~ In slash a).
    { cbn in P. destruct (get_attrs (Normalized ctx) ns) as [w|] eqn:G; [|discriminate P].
      destruct (field sf w c []) as [x|] eqn:F; [|discriminate P]. inversion P; subst x.
      exact (field_slashless w a c R F). }
    rewrite (split_all_none slash a A). cbn [glued].
    inversion IH as [|q0 u0 qs0 us0 Hq Hqs]; subst.
    constructor; [|exact Hqs]. cbn [format_log_path]. rewrite P, Hq. reflexivity.
Qed.

Lemma split_all_length t : List.length (split_all slash t) = S (count_occ ascii_dec t slash).
Proof.
  induction t as [|x t IH]; [reflexivity|]. cbn [split_all count_occ].
  destruct (Ascii.eqb_spec x slash) as [->|Hx].
  - destruct (ascii_dec slash slash); [|contradiction]. cbn. rewrite IH. reflexivity.
  - destruct (ascii_dec x slash); [contradiction|].
    destruct (split_all slash t); [discriminate IH|exact IH].
Qed.

Lemma glue_length q (qs : list (list part)) w ws :
  List.length ((fix glue (w : str) (ws : list str) :=
            match ws with
            | [] => (Text w :: q) :: qs
            | w' :: ws' => [Text w] :: glue w' ws'
            end) w ws) = List.length ws + S (List.length qs).
Proof. revert w. induction ws as [|w' ws IH]; intros w; [reflexivity|]. cbn [List.length]. rewrite IH. reflexivity. Qed.

Lemma pieces_length ps :
  List.length (pieces ps) =
  S (list_sum (map (fun p => match p with Text t => count_occ ascii_dec t slash | _ => 0 end) ps)).
Proof.
  induction ps as [|p ps IH]; [reflexivity|].
  pose proof (pieces_ne ps) as NP.
  cbn [pieces map list_sum fold_right]. destruct (pieces ps) as [|q qs] eqn:E; [contradiction|].
  destruct p as [t|n ns c spec].
  - pose proof (split_all_length t) as L. destruct (split_all slash t) as [|w ws]; [discriminate L|].
    rewrite glue_length. cbn [List.length] in L, IH. inversion L as [L']. inversion IH as [I']. rewrite I'.
    unfold list_sum. cbn [fold_right]. lia.
  - cbn [List.length] in *. exact IH.
Qed.

Lemma F2_length {A B} (R : A -> B -> Prop) l l' : Forall2 R l l' -> List.length l = List.length l'.
Proof. induction 1; cbn; congruence. Qed.

(** the directories do not depend on the values: as many as slashes in the template *)
Theorem C118_depth ctx ts pr ps t :
  tame ctx ps -> format_log_path sf ctx ts pr ps = Done t ->
  count_occ ascii_dec t slash =
  list_sum (map (fun p => match p with Text x => count_occ ascii_dec x slash | _ => 0 end) ps).
Proof.
  intros T H. pose proof (F2_length _ _ _ (C118_components ctx ts pr ps t T H)) as L.
  rewrite pieces_length, split_all_length in L. inversion L. reflexivity.
Qed.

(** texts without separators are used as they are *)
Theorem C118_kept s : ~ In slash s -> ~ In "092"%char s -> escape s = s.
Proof.
  induction s as [|c s IH]; intros A B; [reflexivity|].
  cbn. destruct (Ascii.eqb_spec c "092"%char); [exfalso; apply B; left; auto|].
  destruct (Ascii.eqb_spec c slash); [exfalso; apply A; left; auto|].
  f_equal. apply IH; [intros K; apply A; right; auto|intros K; apply B; right; auto].
Qed.

(** the file is below the root, if the path does not begin with a slash *)
Theorem C118_below home ctx ts pr root compress alg ps t p :
  format_log_path sf ctx ts pr ps = Done t -> starts (lit "/") t = false ->
  starts (lit "/") root = true -> ends (lit "/") root = false ->
  get_log_file_path sf home ctx ts pr root compress alg ps = Path p ->
  exists suffix, p = root ++ lit "/" ++ t ++ suffix /\
    suffix = (if compress then match alg with Gzip => lit ".gz" | Brotli => lit ".br" | OtherAlgorithm => [] end else []).
Proof.
  intros F S R N H. unfold get_log_file_path in H. rewrite F in H.
  assert (J : join root t = root ++ lit "/" ++ t).
  { unfold join. rewrite S. destruct root; [discriminate R|]. rewrite N. reflexivity. }
  rewrite J in H.
  assert (X : expanduser home (root ++ lit "/" ++ t) = root ++ lit "/" ++ t).
  { apply starts_spec in R. destruct R as [r ->]. reflexivity. }
  rewrite X in H.
  destruct compress.
  - destruct alg; inversion H; subst; (eexists; split; [|reflexivity]); rewrite <- !app_assoc; reflexivity.
  - inversion H; subst. exists []. rewrite app_nil_r. split; reflexivity.
Qed.

(** with a first field that is not empty the path does not begin with a slash *)
Theorem C118_relative ctx ts pr ns c ps t u :
  tame ctx (Field (lit "context") ns c [] :: ps) ->
  format_log_path sf ctx ts pr (Field (lit "context") ns c [] :: ps) = Done t ->
  format_log_path sf ctx ts pr [Field (lit "context") ns c []] = Done u -> u <> [] ->
  starts (lit "/") t = false.
Proof.
  intros T H U N.
  cbn [format_log_path] in H, U.
  destruct (format_part sf ctx ts pr (Field (lit "context") ns c [])) as [a| | |] eqn:P; try discriminate H.
  destruct (format_log_path sf ctx ts pr ps) as [b| | |]; try discriminate H.
  inversion H; subst t. inversion U as [U']. rewrite app_nil_r in U'. subst u.
  destruct (T _ _ _ _ (or_introl eq_refl)) as [_ [_ R]].
  assert (A : ~ In slash a).
  { cbn in P. destruct (get_attrs (Normalized ctx) ns) as [w|] eqn:G; [|discriminate P].
    destruct (field sf w c []) as [x|] eqn:F; [|discriminate P]. inversion P; subst x.
    exact (field_slashless w a c R F). }
  destruct a as [|x a]; [contradiction|].
  destruct (starts (lit "/") ((x :: a) ++ b)) eqn:E; [|reflexivity].
  exfalso. apply A. apply starts_spec in E. destruct E as [r E]. cbn in E. inversion E. left. reflexivity.
Qed.

(** what stands for a value of the context that is normalized: its text, or its repr, without slashes *)
Theorem C118_value ctx ts pr ns num s r f l :
  get_attrs (Normalized ctx) ns = Some (Normalized (Obj num s r f l)) ->
  let shown c := format_log_path sf ctx ts pr [Field (lit "context") ns c []] in
  shown NoConv = Done (escape s) /\ shown ConvS = Done (escape s) /\ shown ConvR = Done (escape r).
Proof.
  intros G shown. unfold shown. cbn [format_log_path format_part]. change (argument ctx ts pr (lit "context")) with (Some (Normalized ctx)). cbv iota beta. rewrite G.
  repeat split; cbn; rewrite app_nil_r; reflexivity.
Qed.

(** a template with a field that is not there: an unknown name is a KeyError, an unknown attribute of a known name an AttributeError; the first such field counts *)
Theorem C118_unknown ctx ts pr pre u n ns c spec post :
  format_log_path sf ctx ts pr pre = Done u ->
  let res := format_log_path sf ctx ts pr (pre ++ Field n ns c spec :: post) in
  (~ In n [lit "context"; lit "timestamp"; lit "project_name"] -> res = KeyError) /\
  (n = lit "context" -> get_attrs (Normalized ctx) ns = None -> res = AttributeError) /\
  (n = lit "timestamp" -> get_attrs (Raw ts) ns = None -> res = AttributeError) /\
  (n = lit "project_name" -> get_attrs (Raw pr) ns = None -> res = AttributeError).
Proof.
  intros P res. assert (K : forall e, (forall t, e <> Done t) -> format_part sf ctx ts pr (Field n ns c spec) = e -> res = e).
  { intros e N E. unfold res. clear res. revert u P. induction pre as [|q pre IH]; intros u P; cbn [app format_log_path] in *.
    - rewrite E. destruct e; [destruct (N t eq_refl)|reflexivity..].
    - destruct (format_part sf ctx ts pr q); try discriminate. destruct (format_log_path sf ctx ts pr pre) as [b| | |] eqn:B; try discriminate.
      rewrite (IH b eq_refl). destruct e; [destruct (N t0 eq_refl)|reflexivity..]. }
  repeat split.
  - intros N. apply K; [discriminate|]. cbn [format_part]. unfold argument.
    destruct (str_eqb_spec n (lit "context")) as [->|_]; [destruct N; left; reflexivity|].
    destruct (str_eqb_spec n (lit "timestamp")) as [->|_]; [destruct N; right; left; reflexivity|].
    destruct (str_eqb_spec n (lit "project_name")) as [->|_]; [destruct N; right; right; left; reflexivity|].
    reflexivity.
  - intros -> G. apply K; [discriminate|]. cbn [format_part]. change (argument ctx ts pr (lit "context")) with (Some (Normalized ctx)). cbv iota beta. rewrite G. reflexivity.
  - intros -> G. apply K; [discriminate|]. cbn [format_part]. change (argument ctx ts pr (lit "timestamp")) with (Some (Raw ts)). cbv iota beta. rewrite G. reflexivity.
  - intros -> G. apply K; [discriminate|]. cbn [format_part]. change (argument ctx ts pr (lit "project_name")) with (Some (Raw pr)). cbv iota beta. rewrite G. reflexivity.
Qed.

(** a root in the directory of a user is below this directory, if the system knows it, and is taken as it is otherwise *)
Theorem C118_home home ctx ts pr user rest ps t p :
  format_log_path sf ctx ts pr ps = Done t -> starts (lit "/") t = false ->
  ~ In slash user -> ends (lit "/") (lit "~" ++ user ++ lit "/" ++ rest) = false ->
  get_log_file_path sf home ctx ts pr (lit "~" ++ user ++ lit "/" ++ rest) false Gzip ps = Path p ->
  p = match home user with Some h => h | None => lit "~" ++ user end ++ lit "/" ++ rest ++ lit "/" ++ t.
Proof.
  intros F S U N H. unfold get_log_file_path in H. rewrite F in H.
  assert (J : join (lit "~" ++ user ++ lit "/" ++ rest) t = (lit "~" ++ user ++ lit "/" ++ rest) ++ lit "/" ++ t).
  { unfold join. rewrite S, N. reflexivity. }
  rewrite J in H. injection H as H. rewrite <- H. clear H J N.
  change ((lit "~" ++ user ++ lit "/" ++ rest) ++ lit "/" ++ t) with ("~"%char :: (user ++ slash :: rest) ++ lit "/" ++ t).
  unfold expanduser. change (Ascii.eqb "~"%char "~"%char) with true. cbv iota.
  assert (X : forall x, split1 "/"%char ((user ++ slash :: rest) ++ x) = Some (user, rest ++ x)).
  { intros x. apply split1_spec. split; [rewrite <- app_assoc; reflexivity|exact U]. }
  rewrite X. destruct (home user) as [h|].
  - cbn [app lit]. reflexivity.
  - cbn. rewrite <- app_assoc. reflexivity.
Qed.

End Path.

(** ** Cases *)

(** a value that is only text *)
Definition text (s : string) : obj := Obj false (lit s) (lit "'" ++ lit s ++ lit "'") (fun _ => Some (lit s)) [].
(** a number *)
Definition number (s : string) : obj := Obj true (lit s) (lit s) (fun _ => Some (lit s)) [].
Definition a_context (test_id : string) : obj :=
  Obj false (lit "<ctx>") (lit "<ctx>") (fun _ => None)
    [(lit "session", Obj false (lit "<Session>") (lit "<Session>") (fun _ => None) [(lit "id", text "17_0")]);
     (lit "test_id", text test_id); (lit "number", number "3")].
(** the default of log.subpath, conf.py:59 *)
Definition subpath : list part :=
  [Field (lit "context") [lit "session"; lit "id"] NoConv []; Text (lit "/");
   Field (lit "context") [lit "test_id"] NoConv []; Text (lit "/debug.log")].
Definition no_format (a b : str) : option str := None.

Example case_tame : tame (a_context "dir/test.py:f(a=x/y)") subpath.
Proof.
  intros n ns c spec [H|[H|[H|[H|[]]]]]; inversion H; subst; (split; [reflexivity|split; [reflexivity|intros o; cbn; discriminate]]).
Qed.
Example case_path :
  get_log_file_path no_format (fun _ => None) (a_context "dir/test.py:f(a=x/y)") (text "now") (text "p")
    (lit "/var/log") true Gzip subpath
  = Path (lit "/var/log/17_0/dir_test.py:f(a=x_y)/debug.log.gz").
Proof. reflexivity. Qed.
Example case_unknown :
  format_log_path (fun _ s => Some s) (a_context "t.py:f") (a_context "x") (a_context "p") [Text (lit "a/"); Field (lit "session") [] NoConv []] = KeyError.
Proof. reflexivity. Qed.

Example case_home :
  get_log_file_path no_format (fun u => match u with [] => Some (lit "/home/me") | _ => None end)
    (a_context "1") (text "now") (text "p") (lit "~/logs") false Gzip subpath
  = Path (lit "/home/me/logs/17_0/1/debug.log").
Proof. reflexivity. Qed.

(** ** What does not hold *)

(** fractions.Fraction is a number: its slash makes a directory *)
Theorem C118_fraction_refuted :
  exists ctx t, format_log_path no_format ctx (text "now") (text "p")
      [Field (lit "context") [lit "ratio"] NoConv []; Text (lit ".log")] = Done t /\
    split_all slash t = [lit "1"; lit "2.log"].
Proof.
  exists (Obj false (lit "c") (lit "c") (fun _ => None) [(lit "ratio", number "1/2")]), (lit "1/2.log").
  split; reflexivity.
Qed.

(** project_name is used as it is *)
Theorem C118_project_refuted :
  exists pr t, format_log_path no_format (a_context "1") (text "now") pr
      [Field (lit "project_name") [] NoConv []; Text (lit ".log")] = Done t /\
    get_log_file_path no_format (fun _ => None) (a_context "1") (text "now") pr (lit "/var/log") false Gzip
      [Field (lit "project_name") [] NoConv []; Text (lit ".log")] = Path (lit "/etc/x.log").
Proof. exists (text "/etc/x"), (lit "/etc/x.log"). split; reflexivity. Qed.

(** ".." is not changed *)
Theorem C118_outside_refuted :
  get_log_file_path no_format (fun _ => None) (a_context "..") (text "now") (text "p")
    (lit "/var/log") false Gzip [Field (lit "context") [lit "test_id"] NoConv []; Text (lit "/debug.log")]
  = Path (lit "/var/log/../debug.log").
Proof. reflexivity. Qed.

(** an empty value at the beginning makes the path absolute *)
Theorem C118_empty_refuted :
  get_log_file_path no_format (fun _ => None) (a_context "") (text "now") (text "p")
    (lit "/var/log") false Gzip [Field (lit "context") [lit "test_id"] NoConv []; Text (lit "/debug.log")]
  = Path (lit "/debug.log").
Proof. reflexivity. Qed.

(** different values may give one path *)
Theorem C118_collide_refuted :
  exists a b, a <> b /\
    format_log_path no_format (a_context a) (text "now") (text "p") subpath =
    format_log_path no_format (a_context b) (text "now") (text "p") subpath.
Proof. exists "a/b", "a_b". split; [discriminate|reflexivity]. Qed.

(** a field of the context cannot have a specification *)
Theorem C118_spec_refuted :
  forall sf ctx ts pr ns spec ps o,
    get_attrs (Normalized ctx) ns = Some (Normalized o) -> spec <> [] ->
    format_log_path sf ctx ts pr (Field (lit "context") ns NoConv spec :: ps) = TypeError.
Proof.
  intros sf ctx ts pr ns spec ps o H N. cbn. rewrite H. destruct spec; [contradiction|].
  destruct o. reflexivity.
Qed.

(** * Open files *)

Section Files.
Variable can_open : str -> bool.
Notation run := (LogPaths.run can_open).

Lemma t_get_set p q h t : t_get p (t_set q h t) = if str_eqb p q then h else t_get p t.
Proof.
  induction t as [|[r g] t IH]; cbn.
  - destruct (str_eqb_spec p q); reflexivity.
  - destruct (str_eqb_spec q r) as [->|Hqr]; cbn.
    + destruct (str_eqb_spec p r); reflexivity.
    + rewrite IH. destruct (str_eqb_spec p r) as [->|]; [|reflexivity].
      destruct (str_eqb_spec r q) as [->|]; [contradiction|reflexivity].
Qed.

Lemma t_set_keys p h t : forall q, In q (map fst (t_set p h t)) <-> In q (map fst t) \/ q = p.
Proof.
  induction t as [|[r g] t IH]; intros q; cbn.
  - split; [intros [->|[]]; right; reflexivity|intros [[]| ->]; left; reflexivity].
  - destruct (str_eqb_spec p r) as [->|Hpr]; cbn.
    + split; [intros [->|H]; [right; reflexivity|left; right; exact H]|intros [H| ->]; [exact H|left; reflexivity]].
    + rewrite IH. tauto.
Qed.

Lemma t_set_NoDup p h t : NoDup (map fst t) -> NoDup (map fst (t_set p h t)).
Proof.
  induction t as [|[r g] t IH]; intros N; cbn.
  - constructor; [intros []|constructor].
  - inversion N as [|a b Ha Hb]; subst. destruct (str_eqb_spec p r) as [->|Hpr]; cbn.
    + constructor; assumption.
    + constructor; [|exact (IH Hb)]. intros K. apply t_set_keys in K. destruct K as [K|K]; [contradiction|congruence].
Qed.

Lemma active_spec t p : NoDup (map fst t) -> (In p (active t) <-> t_get p t <> None).
Proof.
  unfold active. induction t as [|[r g] t IH]; intros N; cbn; [split; [intros []|contradiction]|].
  inversion N as [|a b Ha Hb]; subst. specialize (IH Hb).
  assert (Hr : t_get r t = None).
  { clear -Ha. induction t as [|[x y] t IHt]; [reflexivity|]. cbn in *.
    destruct (str_eqb_spec r x) as [->|]; [exfalso; apply Ha; left; reflexivity|].
    apply IHt. intros K. apply Ha. right. exact K. }
  destruct g as [g|]; cbn; destruct (str_eqb_spec p r) as [->|Hpr].
  - split; [discriminate|intros _; left; reflexivity].
  - rewrite <- IH. split; [intros [K|K]; [congruence|exact K]|intros K; right; exact K].
  - rewrite IH, Hr. split; [intros K; exact K|intros K; exact K].
  - exact IH.
Qed.

Lemma run_keys c : forall cur w, NoDup (map fst (w_table w)) -> NoDup (map fst (w_table (run cur c w))).
Proof.
  induction c as [| |n k IHk|k IHk|p b IHb k IHk]; intros cur w N; cbn; auto.
  set (w1 := match t_get p (w_table w) with Some _ => _ | None => _ end).
  assert (N1 : NoDup (map fst (w_table w1))).
  { subst w1. destruct (t_get p (w_table w)); [apply IHb; exact N|].
    destruct (can_open p); [|exact N]. cbn. apply t_set_NoDup. apply IHb. cbn. apply t_set_NoDup. exact N. }
  destruct (w_raised w1); [exact N1|apply IHk; exact N1].
Qed.

Lemma run_get c : forall cur w p, t_get p (w_table (run cur c w)) = t_get p (w_table w).
Proof.
  induction c as [| |n k IHk|k IHk|p b IHb k IHk]; intros cur w q; cbn; auto.
  { rewrite IHk. reflexivity. }
  { rewrite IHk. reflexivity. }
  set (w1 := match t_get p (w_table w) with Some _ => _ | None => _ end).
  assert (N1 : t_get q (w_table w1) = t_get q (w_table w)).
  { subst w1. destruct (t_get p (w_table w)) eqn:G; [apply IHb|].
    destruct (can_open p); [|reflexivity]. cbn. rewrite t_get_set, IHb. cbn. rewrite t_get_set.
    destruct (str_eqb_spec q p) as [->|]; [symmetry; exact G|reflexivity]. }
  destruct (w_raised w1); [exact N1|]. rewrite IHk. exact N1.
Qed.

(** after any code, and whatever it raised, the files open are those open before *)
Theorem C118_restored cur c w :
  NoDup (map fst (w_table w)) ->
  forall p, In p (active (w_table (run cur c w))) <-> In p (active (w_table w)).
Proof.
  intros N p. rewrite !active_spec by (try apply run_keys; exact N). rewrite run_get. reflexivity.
Qed.

(** ** the events *)

Lemma see_all_app s l l' :
  see_all s (l ++ l') = match see_all s l with Some s' => see_all s' l' | None => None end.
Proof. revert s; induction l as [|e l IH]; intros s; cbn; [reflexivity|]. destruct (see s e); [apply IH|reflexivity]. Qed.

(** what is open agrees with the table *)
Definition agree (o : list (str * nat)) (w : world) : Prop :=
  (forall p h, t_get p (w_table w) = Some h <-> In (p, h) o) /\
  (forall p h, In (p, h) o -> h < w_next w) /\
  NoDup (map snd o) /\ NoDup (map fst o) /\ NoDup (map fst (w_table w)).

Lemma run_next c : forall cur w, w_next w <= w_next (run cur c w).
Proof.
  induction c as [| |n k IHk|k IHk|p b IHb k IHk]; intros cur w; cbn; auto.
  { specialize (IHk cur (mkW (w_table w) (w_next w) (w_events w ++ match cur with Some h => [Wrote h n] | None => [] end) false)). exact IHk. }
  { specialize (IHk cur (mkW (w_table w) (w_next w) (w_events w ++ [Answered (active (w_table w))]) false)). exact IHk. }
  set (w1 := match t_get p (w_table w) with Some _ => _ | None => _ end).
  assert (N1 : w_next w <= w_next w1).
  { subst w1. destruct (t_get p (w_table w)); [apply IHb|]. destruct (can_open p); [|cbn; lia].
    cbn. pose proof (IHb (Some (w_next w)) (mkW (t_set p (Some (w_next w)) (w_table w)) (S (w_next w)) (w_events w ++ [Opened p (w_next w)]) false)) as K.
    cbn in K. lia. }
  destruct (w_raised w1); [exact N1|]. specialize (IHk cur w1). lia.
Qed.

Lemma agree_run o c cur w : agree o w -> agree o (run cur c w).
Proof.
  intros [A [B [C [D F]]]]. split; [|split; [|split; [exact C|split; [exact D|apply run_keys; exact F]]]].
  - intros p h. rewrite run_get. apply A.
  - intros p h H. pose proof (run_next c cur w). specialize (B p h H). lia.
Qed.

Lemma existsb_opened o w p : agree o w ->
  existsb (str_eqb p) (map fst o) = match t_get p (w_table w) with Some _ => true | None => false end.
Proof.
  intros [A _]. destruct (t_get p (w_table w)) as [h|] eqn:G.
  - apply existsb_exists. exists p. split; [|apply str_eqb_refl].
    apply A in G. apply (in_map fst) in G. exact G.
  - destruct (existsb (str_eqb p) (map fst o)) eqn:E; [|reflexivity].
    apply existsb_exists in E. destruct E as [q [I E]]. apply str_eqb_eq in E. subst q.
    apply in_map_iff in I. destruct I as [[q h] [E I]]. cbn in E. subst q. apply A in I. congruence.
Qed.

(** the handlers opened *)
Definition handlers (l : list event) : list nat :=
  flat_map (fun e => match e with Opened _ h => [h] | _ => [] end) l.

Lemma handlers_in l h : In h (handlers l) <-> exists p, In (Opened p h) l.
Proof.
  unfold handlers. rewrite in_flat_map. split.
  - intros [e [I H]]. destruct e; try contradiction. destruct H as [->|[]]. exists path. exact I.
  - intros [p I]. exists (Opened p h). split; [exact I|left; reflexivity].
Qed.

Lemma handlers_app l l' : handlers (l ++ l') = handlers l ++ handlers l'.
Proof. unfold handlers. apply flat_map_app. Qed.

Lemma NoDup_apart l l' a b c :
  NoDup l -> NoDup l' -> (forall x, In x l -> a <= x < b) -> (forall x, In x l' -> b <= x < c) -> NoDup (l ++ l').
Proof.
  intros N N' H H'. induction N as [|x l Hx N IH]; [exact N'|].
  cbn. constructor.
  - rewrite in_app_iff. intros [K|K]; [contradiction|]. specialize (H x (or_introl eq_refl)). specialize (H' x K). lia.
  - apply IH. intros y I. apply H. right. exact I.
Qed.

Lemma writes_ext c : forall cur o o', (forall p, existsb (str_eqb p) o = existsb (str_eqb p) o') ->
  writes can_open cur o c = writes can_open cur o' c.
Proof.
  induction c as [| |n k IHk|k IHk|p b IHb k IHk]; intros cur o o' H; cbn; auto.
  - rewrite (IHk cur o o' H). reflexivity.
  - rewrite (H p), (IHb (Some p) (p :: o) (p :: o')), (IHk cur o o' H); [reflexivity|].
    intros q. cbn. rewrite H. reflexivity.
Qed.

(** the handler records go to is that of the file *)
Definition handled (o : list (str * nat)) (cur : option nat) (pc : option str) : Prop :=
  match cur, pc with
  | None, None => True
  | Some h, Some p => In (p, h) o
  | _, _ => False
  end.

(** everything about a piece of code at once: the events it adds, what they look like and what they write *)
Definition fine (o : list (str * nat)) (w w' : world) (spec : list (str * nat) * bool) : Prop :=
  exists l, w_events w' = w_events w ++ l /\
    see_all (o, None) l = Some (o, None) /\
    w_raised w' = snd spec /\
    (forall own, (forall p h, In (p, h) o -> own h = Some p) ->
                 (forall p h, In (Opened p h) l -> own h = Some p) ->
                 flat_map (written_to own) l = fst spec) /\
    (forall h, In h (handlers l) -> w_next w <= h < w_next w') /\
    NoDup (handlers l).

Lemma fine_seq o w w1 w2 s1 s2 :
  fine o w w1 s1 -> fine o w1 w2 s2 -> snd s1 = false -> w_next w <= w_next w1 -> w_next w1 <= w_next w2 ->
  fine o w w2 (fst s1 ++ fst s2, snd s2).
Proof.
  intros [l [E [S [X [W [H N]]]]]] [l' [E' [S' [X' [W' [H' N']]]]]] F L L'.
  exists (l ++ l'). split; [rewrite E', E, app_assoc; reflexivity|].
  split; [rewrite see_all_app, S; exact S'|]. split; [exact X'|].
  split.
  { intros own A B. rewrite flat_map_app, W, W'; auto; intros p h I; apply B; apply in_app_iff; auto. }
  rewrite handlers_app. split.
  - intros h I. apply in_app_iff in I. destruct I as [I|I]; [specialize (H h I)|specialize (H' h I)]; lia.
  - apply (NoDup_apart _ _ (w_next w) (w_next w1) (w_next w2)); assumption.
Qed.

Lemma active_NoDup t : NoDup (map fst t) -> NoDup (active t).
Proof.
  unfold active. induction t as [|[r g] t IH]; intros N; [constructor|].
  inversion N as [|a b Ha Hb]; subst. cbn. destruct g; cbn; [|exact (IH Hb)].
  constructor; [|exact (IH Hb)]. intros K. apply Ha. apply in_map_iff in K. destruct K as [x [E K]].
  apply filter_In in K. destruct K as [K _]. apply in_map_iff. exists x. split; assumption.
Qed.

Lemma answer_right o w : agree o w ->
  forallb (fun p => existsb (fun q : str * nat => str_eqb p (fst q)) o) (active (w_table w)) &&
  forallb (fun q : str * nat => existsb (str_eqb (fst q)) (active (w_table w))) o &&
  Nat.eqb (List.length (active (w_table w))) (List.length o) = true.
Proof.
  intros [A [B [C [D F]]]].
  assert (E : forall p, In p (active (w_table w)) <-> In p (map fst o)).
  { intros p. rewrite (active_spec _ p F). destruct (t_get p (w_table w)) as [h|] eqn:G.
    - split; [|discriminate]. intros _. apply A in G. apply (in_map fst) in G. exact G.
    - split; [intros K; contradiction|]. intros K. apply in_map_iff in K. destruct K as [[q h] [E K]].
      cbn in E. subst q. apply A in K. congruence. }
  rewrite !andb_true_iff. split; [split|].
  - apply forallb_forall. intros p I. apply E in I. apply in_map_iff in I. destruct I as [q [<- I]].
    apply existsb_exists. exists q. split; [exact I|apply str_eqb_refl].
  - apply forallb_forall. intros q I. apply existsb_exists. exists (fst q). split; [|apply str_eqb_refl].
    apply E. apply in_map. exact I.
  - apply Nat.eqb_eq. rewrite <- (map_length fst o). apply Nat.le_antisymm.
    + apply NoDup_incl_length; [apply active_NoDup; exact F|intros p I; apply E; exact I].
    + apply NoDup_incl_length; [exact D|intros p I; apply E; exact I].
Qed.

Lemma run_fine c : forall cur pc o w,
  w_raised w = false -> agree o w -> handled o cur pc ->
  fine o w (run cur c w) (writes can_open pc (map fst o) c).
Proof.
  induction c as [| |n k IHk|k IHk|p b IHb k IHk]; intros cur pc o w R A Hc.
  - exists []. cbn. rewrite app_nil_r. repeat split; try assumption; try constructor; intros; contradiction.
  - exists []. cbn. rewrite app_nil_r. repeat split; try assumption; try constructor; intros; contradiction.
  - cbn [LogPaths.run].
    set (w' := mkW _ _ _ _).
    assert (A' : agree o w') by exact A.
    pose proof (IHk cur pc o w' eq_refl A' Hc) as K.
    assert (F : fine o w w' (match pc with Some q => [(q, n)] | None => [] end, false)).
    { destruct cur as [h|]; destruct pc as [q|]; try contradiction Hc.
      - exists [Wrote h n]. split; [reflexivity|]. cbn in Hc.
        assert (EX : existsb (fun q0 => Nat.eqb h (snd q0)) o = true).
        { apply existsb_exists. exists (q, h). split; [exact Hc|apply Nat.eqb_refl]. }
        split; [cbn [see_all see]; rewrite EX; reflexivity|]. split; [reflexivity|].
        split; [intros own B _; cbn; rewrite (B q h Hc); reflexivity|].
        split; [intros x []|constructor].
      - exists []. split; [reflexivity|]. split; [reflexivity|]. split; [reflexivity|].
        split; [reflexivity|]. split; [intros x []|constructor]. }
    pose proof (fine_seq o w w' _ _ _ F K eq_refl (le_n _) (run_next k cur w')) as G.
    cbn [writes]. destruct (writes can_open pc (map fst o) k) as [x y]. exact G.
  - cbn [LogPaths.run].
    set (w' := mkW _ _ _ _).
    assert (A' : agree o w') by exact A.
    pose proof (IHk cur pc o w' eq_refl A' Hc) as K.
    assert (F : fine o w w' ([], false)).
    { exists [Answered (active (w_table w))]. split; [reflexivity|].
      split; [cbn [see_all see]; rewrite (answer_right o w A); reflexivity|]. split; [reflexivity|].
      split; [reflexivity|]. split; [intros x []|constructor]. }
    pose proof (fine_seq o w w' _ _ _ F K eq_refl (le_n _) (run_next k cur w')) as G.
    cbn [writes]. destruct (writes can_open pc (map fst o) k) as [x y]. exact G.
  - cbn [LogPaths.run writes].
    rewrite (existsb_opened o w p A).
    set (w1 := match t_get p (w_table w) with Some _ => _ | None => _ end).
    assert (F : fine o w w1 (if match t_get p (w_table w) with Some _ => true | None => false end || can_open p
                             then writes can_open (Some p) (p :: map fst o) b else ([], true))
                /\ agree o w1 /\ w_next w <= w_next w1).
    { subst w1. destruct (t_get p (w_table w)) as [h|] eqn:G; cbn [orb].
      - assert (I : In (p, h) o) by (apply A; exact G).
        split; [|split; [apply agree_run; exact A|apply run_next]].
        rewrite (writes_ext b (Some p) (p :: map fst o) (map fst o)); [apply IHb; assumption|].
        intros q. cbn. destruct (str_eqb_spec q p) as [->|]; [|reflexivity]. symmetry. cbn.
        apply existsb_exists. exists p. split; [apply (in_map fst) in I; exact I|apply str_eqb_refl].
      - destruct (can_open p) eqn:CO; cbn [orb].
        + set (h := w_next w). set (w2 := mkW (t_set p (Some h) (w_table w)) (S h) (w_events w ++ [Opened p h]) false).
          destruct A as [A1 [A2 [A3 [A4 A5]]]].
          assert (P : ~ In p (map fst o)).
          { intros K. apply in_map_iff in K. destruct K as [[q g] [E K]]. cbn in E. subst q. apply A1 in K. congruence. }
          assert (Hh : ~ In h (map snd o)).
          { intros K. apply in_map_iff in K. destruct K as [[q g] [E K]]. cbn in E. subst g. specialize (A2 q h K). unfold h in A2. lia. }
          assert (A' : agree ((p, h) :: o) w2).
          { split; [|split; [|split; [|split]]].
            - intros q g. cbn [w_table w2]. rewrite t_get_set. destruct (str_eqb_spec q p) as [->|Hq]; cbn.
              + split; [intros K; inversion K; left; reflexivity|intros [K|K]; [inversion K; reflexivity|]].
                exfalso. apply P. apply (in_map fst) in K. exact K.
              + rewrite A1. split; [intros K; right; exact K|intros [K|K]; [inversion K; congruence|exact K]].
            - intros q g [K|K]; cbn; [inversion K; lia|]. specialize (A2 q g K). unfold h. lia.
            - cbn. constructor; assumption.
            - cbn. constructor; assumption.
            - cbn. apply t_set_NoDup. exact A5. }
          destruct (IHb (Some h) (Some p) ((p, h) :: o) w2 eq_refl A' (or_introl eq_refl)) as [l [E [S [X [W [Hl N]]]]]].
          pose proof (run_next b (Some h) w2) as L. cbn [w_next w2] in L.
          split; [|split].
          * exists (Opened p h :: l ++ [Closed p h; Told p]). cbn [w_events].
            split; [rewrite E; cbn [w_events w2]; rewrite <- !app_assoc; reflexivity|].
            assert (EX : existsb (fun q => str_eqb p (fst q) || Nat.eqb h (snd q)) o = false).
            { destruct (existsb _ o) eqn:EX; [|reflexivity]. exfalso. apply existsb_exists in EX.
              destruct EX as [[q g] [I J]]. cbn in J. apply orb_true_iff in J. destruct J as [J|J].
              - apply str_eqb_eq in J. subst q. apply P. apply (in_map fst) in I. exact I.
              - apply Nat.eqb_eq in J. subst g. apply Hh. apply (in_map snd) in I. exact I. }
            split.
            { cbn [see_all see]. rewrite EX. rewrite see_all_app, S. cbn [see_all see].
              rewrite str_eqb_refl, Nat.eqb_refl. cbn [andb see_all see]. rewrite str_eqb_refl. reflexivity. }
            cbn [w_raised]. split; [exact X|].
            split.
            { intros own B1 B2. cbn [flat_map written_to app]. rewrite flat_map_app. cbn [flat_map written_to app].
              rewrite app_nil_r. apply W.
              - intros q g [K|K]; [inversion K; subst; apply B2; left; reflexivity|apply B1; exact K].
              - intros q g K. apply B2. right. apply in_app_iff. left. exact K. }
            assert (HH : handlers (Opened p h :: l ++ [Closed p h; Told p]) = h :: handlers l).
            { unfold handlers. cbn [flat_map app]. rewrite flat_map_app. cbn. rewrite app_nil_r. reflexivity. }
            rewrite HH. cbn [w_next]. split.
            { intros x [<-|I]; [unfold h in *; lia|]. specialize (Hl x I). cbn [w_next w2] in Hl. unfold h in *. lia. }
            constructor; [|exact N]. intros I. specialize (Hl h I). cbn [w_next w2] in Hl. lia.
          * split; [|split; [|split; [exact A3|split; [exact A4|]]]].
            -- intros q g. cbn [w_table]. rewrite t_get_set, run_get. cbn [w_table w2]. rewrite t_get_set.
               destruct (str_eqb_spec q p) as [->|Hq]; [|apply A1].
               split; [discriminate|]. intros K. exfalso. apply P. apply (in_map fst) in K. exact K.
            -- intros q g K. cbn [w_next]. specialize (A2 q g K). unfold h in *. lia.
            -- cbn [w_table]. apply t_set_NoDup, run_keys. cbn. apply t_set_NoDup. exact A5.
          * cbn [w_next]. unfold h in *. lia.
        + split; [|split; [exact A|cbn; lia]].
          exists [CannotOpen p]. split; [reflexivity|].
          assert (EX : existsb (fun q : str * nat => str_eqb p (fst q)) o = false).
          { pose proof (existsb_opened o w p A) as EX. rewrite G in EX. rewrite <- EX.
            clear. induction o as [|q o IH]; [reflexivity|]. cbn. rewrite IH. reflexivity. }
          split; [cbn [see_all see]; rewrite EX; reflexivity|]. split; [reflexivity|].
          split; [reflexivity|]. split; [intros x []|constructor]. }
    destruct F as [F [A1 L]].
    set (spec1 := if match t_get p (w_table w) with Some _ => true | None => false end || can_open p
                  then writes can_open (Some p) (p :: map fst o) b else ([], true)) in F.
    assert (R1 : w_raised w1 = snd spec1) by (destruct F as [l [_ [_ [X _]]]]; exact X).
    assert (T : (if match t_get p (w_table w) with Some _ => true | None => false end || can_open p
                 then let '(l, x) := writes can_open (Some p) (p :: map fst o) b in
                      if x then (l, true)
                      else let '(l', x') := writes can_open pc (map fst o) k in (l ++ l', x')
                 else ([], true))
                = if snd spec1 then spec1
                  else (fst spec1 ++ fst (writes can_open pc (map fst o) k), snd (writes can_open pc (map fst o) k))).
    { subst spec1. destruct (match t_get p (w_table w) with Some _ => true | None => false end || can_open p); [|reflexivity].
      destruct (writes can_open (Some p) (p :: map fst o) b) as [x y]. cbn. destruct y; [reflexivity|].
      destruct (writes can_open pc (map fst o) k) as [x' y']. reflexivity. }
    rewrite T. destruct (w_raised w1) eqn:RW; rewrite <- R1; [exact F|].
    apply (fine_seq o w w1 _ spec1 _ F); [apply IHk; assumption|symmetry; exact R1|exact L|apply run_next].
Qed.

Lemma agree0 : agree [] world0.
Proof.
  split; [|split; [|split; [constructor|split; constructor]]].
  - intros p h. cbn. split; [discriminate|intros []].
  - intros p h [].
Qed.

(** no file is opened while it is open, no handler is used before it is opened or after it is closed, blocks
    close what they opened (innermost first) and tell it, whatever was raised *)
Theorem C118_once c : see_all ([], None) (w_events (run None c world0)) = Some ([], None).
Proof.
  destruct (run_fine c None None [] world0 eq_refl agree0 I) as [l [E [S _]]].
  rewrite E. exact S.
Qed.

Lemma owner_in l p h : NoDup (handlers l) -> In (Opened p h) l -> owner l h = Some p.
Proof.
  induction l as [|e l IH]; intros N H; [contradiction|].
  destruct e as [q g|g n|qs|q g|q|q]; cbn in *; try (destruct H as [H|H]; [discriminate H|apply IH; assumption]).
  inversion N as [|a b Ha Hb]; subst. destruct H as [H|H].
  - inversion H; subst. rewrite Nat.eqb_refl. reflexivity.
  - destruct (Nat.eqb_spec h g) as [->|]; [|apply IH; assumption].
    exfalso. apply Ha. apply handlers_in. exists p. exact H.
Qed.

(** every record is in the file of the block it was written in, in order, until an exception, which is raised on *)
Theorem C118_written c :
  written (w_events (run None c world0)) = fst (writes can_open None [] c) /\
  w_raised (run None c world0) = snd (writes can_open None [] c).
Proof.
  destruct (run_fine c None None [] world0 eq_refl agree0 I) as [l [E [_ [X [W [_ N]]]]]].
  cbn [w_events world0 app] in E. rewrite E. split; [|exact X].
  unfold written. apply W; [intros p h []|]. intros p h K. apply owner_in; assumption.
Qed.

End Files.

Example case_files :
  let c := With (lit "session.log") (Write 1 (With (lit "t1/debug.log") (Write 2 (With (lit "session.log") (Write 3 (Ask Stop)) Raise)) (Write 4 Stop))) (Write 5 Stop) in
  w_events (LogPaths.run (fun _ => true) None c world0) =
    [Opened (lit "session.log") 0; Wrote 0 1; Opened (lit "t1/debug.log") 1; Wrote 1 2; Wrote 0 3;
     Answered [lit "session.log"; lit "t1/debug.log"];
     Closed (lit "t1/debug.log") 1; Told (lit "t1/debug.log"); Closed (lit "session.log") 0; Told (lit "session.log")]
  /\ writes (fun _ => true) None [] c = ([(lit "session.log", 1); (lit "t1/debug.log", 2); (lit "session.log", 3)], true).
Proof. split; reflexivity. Qed.

(** * Colours *)

(** the colour given last for the channel and the level, if it is one; otherwise that of the level *)
Theorem C118_colour calls dark ch lv :
  get_color (fold_left set_log_color calls []) dark ch lv =
  match last (filter (fun c => if str_dec (fst (fst c)) ch then if Nat.eq_dec (snd (fst c)) lv then true else false else false) calls)
             ((ch, lv), None) with
  | (_, Some c) => Some c
  | (_, None) =>
      if le_lt_dec 14 lv then Some Red
      else if Nat.eq_dec lv 13 then Some Yellow
      else if Nat.eq_dec lv 12 then Some (if dark then White else Black) else None
  end.
Proof.
  assert (H : custom ch lv (fold_left set_log_color calls []) =
    snd (last (filter (fun c : str * nat * option colour => if str_dec (fst (fst c)) ch then if Nat.eq_dec (snd (fst c)) lv then true else false else false) calls)
             ((ch, lv), None))).
  { induction calls as [|[[c v] x] calls IH] using rev_ind; [reflexivity|].
    rewrite fold_left_app, filter_app. cbn [fold_left set_log_color custom filter fst snd].
    destruct (str_eqb_spec ch c) as [->|Hc]; destruct (Nat.eqb_spec lv v) as [->|Hv]; cbn [andb].
    - destruct (str_dec c c); [|contradiction]. destruct (Nat.eq_dec v v); [|contradiction].
      rewrite last_last. reflexivity.
    - destruct (str_dec c c); [|contradiction]. destruct (Nat.eq_dec v lv); [congruence|]. rewrite app_nil_r. exact IH.
    - destruct (str_dec c ch); [congruence|]. rewrite app_nil_r. exact IH.
    - destruct (str_dec c ch); [congruence|]. rewrite app_nil_r. exact IH. }
  unfold get_color. rewrite H. destruct (last _ _) as [k [x|]]; [reflexivity|]. cbn [snd].
  unfold ERROR, WARNING, NOTICE.
  destruct (le_lt_dec 14 lv) as [L|L].
  - destruct (Nat.leb_spec 14 lv); [reflexivity|lia].
  - destruct (Nat.leb_spec 14 lv); [lia|].
    destruct (Nat.eq_dec lv 13) as [->|N]; [reflexivity|].
    destruct (Nat.leb_spec 13 lv); [lia|].
    destruct (Nat.eq_dec lv 12) as [->|N']; [reflexivity|].
    destruct (Nat.leb_spec 12 lv); [lia|reflexivity].
Qed.

(** taking back the colour of errors does not make them colourless *)
Theorem C118_no_colour_refuted :
  exists ch, get_color (set_log_color [] ((ch, 14), None)) false ch 14 = Some Red.
Proof. exists (lit "x"). reflexivity. Qed.

Print Assumptions C118_components.
Print Assumptions C118_depth.
Print Assumptions C118_kept.
Print Assumptions C118_below.
Print Assumptions C118_relative.
Print Assumptions C118_value.
Print Assumptions C118_home.
Print Assumptions C118_restored.
Print Assumptions C118_once.
Print Assumptions C118_written.
Print Assumptions C118_colour.
Print Assumptions C118_spec_refuted.

Print Assumptions C118_fraction_refuted.
Print Assumptions C118_project_refuted.
Print Assumptions C118_outside_refuted.
Print Assumptions C118_empty_refuted.
Print Assumptions C118_collide_refuted.
Print Assumptions C118_no_colour_refuted.
Print Assumptions C118_unknown.
