(** C106: imports of slash.ext. *)

From Coq Require Import List Bool Arith Ascii String Lia.
From Verif Require Import Str Ext.
Import ListNotations.
Open Scope list_scope.

(** ** Names *)

Lemma after_dots_app w rest : after_dots (S (count_dots w)) (w ++ [dot] ++ rest) = Some rest.
Proof.
  unfold count_dots. induction w as [|a w IH].
  - reflexivity.
  - cbn [count_occ app]. destruct (ascii_dec a dot) as [->|N].
    + transitivity (after_dots (S (count_occ ascii_dec w dot)) (w ++ [dot] ++ rest)); [reflexivity|exact IH].
    + rewrite <- IH. cbn [after_dots app]. cbn [split1]. destruct (Ascii.eqb_spec a dot) as [E|_]; [congruence|].
      destruct (split1 dot (w ++ dot :: rest)) as [[x y]|]; reflexivity.
Qed.

(** every name the importer takes is the wrapper, a dot and the rest, and the rest
    is what the choices are asked for; never an IndexError *)
Theorem C106_name i fullname : find_module i fullname = true ->
  exists rest, fullname = wrapper i ++ [dot] ++ rest /\ after_dots (cutoff i) fullname = Some rest.
Proof.
  unfold find_module, prefix, cutoff. intros F. apply starts_spec in F. destruct F as (r & ->). exists r. rewrite <- app_assoc.
  split; [reflexivity|]. apply after_dots_app.
Qed.

Theorem C106_no_index_error imp i fullname s : find_module i fullname = true -> snd (load_module imp i fullname s) <> IndexError.
Proof.
  intros F. destruct (C106_name i fullname F) as (r & _ & E). unfold load_module. destruct (modules s fullname); [discriminate|]. rewrite E.
  clear. generalize (choices i). intros l. revert s. induction l as [|p l IH]; intros s; [discriminate|]. cbn [try_choices].
  destruct (imp (realname p r) s) as [s1 [|tb|n]].
  - destruct (modules s1 (realname p r)); [|discriminate]. cbv zeta. destruct (existsb (Ascii.eqb dot) r); [discriminate|].
    destruct (modules _ (wrapper i)); discriminate.
  - cbv zeta. destruct (important (realname p r) tb); [discriminate|apply IH].
  - discriminate.
Qed.

(** ** Loading *)

(** a module already there is given, and nothing happens *)
Theorem C106_cached imp i fullname s m : modules s fullname = Some m -> load_module imp i fullname s = (s, Loaded m).
Proof. intros E. unfold load_module. rewrite E. reflexivity. Qed.

(** the choices passed over one after the other: each was asked for once, with an
    ImportError not of its own making; nothing is left under the full name *)
Inductive skipped (imp : str -> st -> st * imported) (fullname rest : str) : list choice -> st -> st -> Prop :=
| skip_none s : skipped imp fullname rest [] s s
| skip_one p l s s1 tb s2 : imp (realname p rest) s = (s1, NoImport tb) -> important (realname p rest) tb = false ->
    skipped imp fullname rest l (put fullname None s1) s2 -> skipped imp fullname rest (p :: l) s s2.

Section World.
Variable imp : str -> st -> st * imported.
Variable i : importer.

Lemma put_same n m s : modules (put n m s) n = m.
Proof. unfold put. cbn [modules]. rewrite str_eqb_refl. reflexivity. Qed.

Lemma split_choices fullname rest l s :
  let '(s', r) := try_choices imp i fullname rest l s in
  (r = NotFound /\ skipped imp fullname rest l s s') \/
  exists before p after s1 s2, l = before ++ p :: after /\ skipped imp fullname rest before s s1 /\
    ((exists n, imp (realname p rest) s1 = (s2, Raises n) /\ r = Raised n /\ s' = s2) \/
     (exists tb, imp (realname p rest) s1 = (s2, NoImport tb) /\ important (realname p rest) tb = true /\ r = Reraised (tl tb) /\
                 s' = put fullname None s2) \/
     (imp (realname p rest) s1 = (s2, Done) /\
      ((modules s2 (realname p rest) = None /\ r = KeyError /\ s' = s2) \/
       exists m, modules s2 (realname p rest) = Some m /\
         ((In dot rest /\ r = Loaded m /\ s' = put fullname (Some m) s2) \/
          (~ In dot rest /\ modules (put fullname (Some m) s2) (wrapper i) = None /\ r = KeyError /\ s' = put fullname (Some m) s2) \/
          (~ In dot rest /\ modules (put fullname (Some m) s2) (wrapper i) <> None /\ r = Loaded m /\
           modules s' = modules (put fullname (Some m) s2) /\ attrs s' = (rest, m) :: attrs s2))))).
Proof.
  revert s. induction l as [|p l IH]; intros s; cbn [try_choices].
  - left. split; [reflexivity|constructor].
  - destruct (imp (realname p rest) s) as [s1 [|tb|n]] eqn:E.
    + destruct (modules s1 (realname p rest)) as [m|] eqn:M.
      * assert (D : existsb (Ascii.eqb dot) rest = true <-> In dot rest).
        { rewrite existsb_exists. split; [intros (x & I & X); apply Ascii.eqb_eq in X; subst; exact I|].
          intros I. exists dot. split; [exact I|apply Ascii.eqb_refl]. }
        cbv zeta. destruct (existsb (Ascii.eqb dot) rest) eqn:G.
        -- right. exists [], p, l, s, s1. split; [reflexivity|]. split; [constructor|]. right. right. split; [exact E|]. right. exists m.
           split; [exact M|]. left. split; [apply D; reflexivity|auto].
        -- assert (ND : ~ In dot rest) by (intros X; apply D in X; discriminate).
           destruct (modules (put fullname (Some m) s1) (wrapper i)) eqn:W.
           ++ right. exists [], p, l, s, s1. split; [reflexivity|]. split; [constructor|]. right. right. split; [exact E|]. right. exists m.
              split; [exact M|]. right. right. rewrite W. repeat split; [exact ND|discriminate].
           ++ right. exists [], p, l, s, s1. split; [reflexivity|]. split; [constructor|]. right. right. split; [exact E|]. right. exists m.
              split; [exact M|]. right. left. auto.
      * right. exists [], p, l, s, s1. split; [reflexivity|]. split; [constructor|]. right. right. split; [exact E|]. left. auto.
    + cbv zeta. destruct (important (realname p rest) tb) eqn:G.
      * right. exists [], p, l, s, s1. split; [reflexivity|]. split; [constructor|]. right. left. exists tb. auto.
      * specialize (IH (put fullname None s1)). destruct (try_choices imp i fullname rest l (put fullname None s1)) as [s' r].
        destruct IH as [[-> S]|(before & q & after & a & b & -> & S & R)].
        -- left. split; [reflexivity|]. econstructor; eassumption.
        -- right. exists (p :: before), q, after, a, b. split; [reflexivity|]. split; [econstructor; eassumption|exact R].
    + right. exists [], p, l, s, s1. split; [reflexivity|]. split; [constructor|]. left. exists n. auto.
Qed.

(** a module is given: it is the one the first importable choice left under its
    own name; it is known under the full name too, and for a name without a dot it
    is an attribute of the wrapper *)
Theorem C106_first rest s s' m : modules s (wrapper i ++ [dot] ++ rest) = None ->
  load_module imp i (wrapper i ++ [dot] ++ rest) s = (s', Loaded m) ->
  exists before p after s1 s2, choices i = before ++ p :: after /\ skipped imp (wrapper i ++ [dot] ++ rest) rest before s s1 /\
    imp (realname p rest) s1 = (s2, Done) /\ modules s2 (realname p rest) = Some m /\
    modules s' (wrapper i ++ [dot] ++ rest) = Some m /\ modules s' (realname p rest) = Some m /\
    (forall n, n <> wrapper i ++ [dot] ++ rest -> modules s' n = modules s2 n) /\
    attrs s' = (if existsb (Ascii.eqb dot) rest then [] else [(rest, m)]) ++ attrs s2.
Proof.
  intros N L. unfold load_module in L. rewrite N in L. unfold cutoff in L. rewrite after_dots_app in L.
  pose proof (split_choices (wrapper i ++ [dot] ++ rest) rest (choices i) s) as P. rewrite L in P.
  set (full := wrapper i ++ [dot] ++ rest) in *.
  destruct P as [[? _]|(before & p & after & s1 & s2 & E & S & [(n & _ & X & _)|[(tb & _ & _ & X & _)|(D & R)]])]; try discriminate.
  destruct R as [(_ & X & _)|(m' & M & R)]; [discriminate|]. exists before, p, after, s1, s2.
  assert (O : forall k v, k <> full -> modules (put full v s2) k = modules s2 k).
  { intros k v K. unfold put. cbn [modules]. apply str_eqb_neq in K. rewrite K. reflexivity. }
  assert (RN : forall v, v = Some m -> modules s2 (realname p rest) = Some m -> modules (put full v s2) (realname p rest) = Some m).
  { intros v V Q. destruct (str_dec (realname p rest) full) as [K|K]; [rewrite K; rewrite put_same; exact V|rewrite O by exact K; exact Q]. }
  assert (DD : forall b : bool, existsb (Ascii.eqb dot) rest = b -> if b then In dot rest else ~ In dot rest).
  { intros [|] H.
    - apply existsb_exists in H. destruct H as (x & I & X). apply Ascii.eqb_eq in X. subst. exact I.
    - intros I. assert (existsb (Ascii.eqb dot) rest = true) by (apply existsb_exists; exists dot; split; [exact I|apply Ascii.eqb_refl]). congruence. }
  specialize (DD _ eq_refl).
  destruct R as [(I & X & ->)|[(_ & _ & X & _)|(I & _ & X & F & A)]]; [|discriminate|]; injection X as <-;
    (split; [exact E|]); (split; [exact S|]); (split; [exact D|]); (split; [exact M|]).
  - split; [apply put_same|]. split; [apply RN; auto|]. split; [intros k K; apply O; exact K|]. destruct (existsb (Ascii.eqb dot) rest); [reflexivity|contradiction].
  - split; [rewrite F; apply put_same|]. split; [rewrite F; apply RN; auto|]. split; [intros k K; rewrite F; apply O; exact K|]. destruct (existsb (Ascii.eqb dot) rest); [contradiction|exact A].
Qed.

Lemma skipped_gone full rest l s s' : skipped imp full rest l s s' -> modules s full = None -> modules s' full = None.
Proof. induction 1; auto. intros _. apply IHskipped. apply put_same. Qed.

(** No module named ...: every choice was tried once, in order, none of the errors
    was made by the module itself, and nothing is left under the full name *)
Theorem C106_not_found rest s s' : modules s (wrapper i ++ [dot] ++ rest) = None ->
  load_module imp i (wrapper i ++ [dot] ++ rest) s = (s', NotFound) ->
  skipped imp (wrapper i ++ [dot] ++ rest) rest (choices i) s s' /\ modules s' (wrapper i ++ [dot] ++ rest) = None.
Proof.
  intros N L. unfold load_module in L. rewrite N in L. unfold cutoff in L. rewrite after_dots_app in L.
  pose proof (split_choices (wrapper i ++ [dot] ++ rest) rest (choices i) s) as P. rewrite L in P.
  destruct P as [[_ S]|(before & p & after & s1 & s2 & E & S & [(n & _ & X & _)|[(tb & _ & _ & X & _)|(D & [(_ & X & _)|(m & _ & [(_ & X & _)|[(_ & _ & X & _)|(_ & _ & X & _)]])])]])];
    try discriminate. split; [exact S|]. exact (skipped_gone _ _ _ _ _ S N).
Qed.

(** an error made by the module itself ends the search, is passed on, and leaves
    nothing under the full name *)
Theorem C106_broken rest s s' tb : modules s (wrapper i ++ [dot] ++ rest) = None ->
  load_module imp i (wrapper i ++ [dot] ++ rest) s = (s', Reraised tb) ->
  modules s' (wrapper i ++ [dot] ++ rest) = None /\
  exists before p after s1 s2 f, choices i = before ++ p :: after /\ skipped imp (wrapper i ++ [dot] ++ rest) rest before s s1 /\
    imp (realname p rest) s1 = (s2, NoImport f) /\ tb = tl f /\ exists x, In x f /\ important_frame (realname p rest) x = true.
Proof.
  intros N L. unfold load_module in L. rewrite N in L. unfold cutoff in L. rewrite after_dots_app in L.
  pose proof (split_choices (wrapper i ++ [dot] ++ rest) rest (choices i) s) as P. rewrite L in P.
  destruct P as [[X _]|(before & p & after & s1 & s2 & E & S & [(n & _ & X & _)|[(f & A & B & X & ->)|(D & [(_ & X & _)|(m & _ & [(_ & X & _)|[(_ & _ & X & _)|(_ & _ & X & _)]])])]])];
    try discriminate. injection X as ->. split; [apply put_same|]. exists before, p, after, s1, s2, f.
  split; [exact E|]. split; [exact S|]. split; [exact A|]. split; [reflexivity|].
  apply existsb_exists in B. exact B.
Qed.

(** conversely, the first choice with an error of its own, or importable, decides *)
Theorem C106_decides rest before p after s s1 : modules s (wrapper i ++ [dot] ++ rest) = None ->
  choices i = before ++ p :: after -> skipped imp (wrapper i ++ [dot] ++ rest) rest before s s1 ->
  match imp (realname p rest) s1 with
  | (s2, Done) => forall m, modules s2 (realname p rest) = Some m -> modules s2 (wrapper i) <> None ->
      snd (load_module imp i (wrapper i ++ [dot] ++ rest) s) = Loaded m
  | (_, NoImport tb) => important (realname p rest) tb = true ->
      snd (load_module imp i (wrapper i ++ [dot] ++ rest) s) = Reraised (tl tb)
  | (_, Raises n) => snd (load_module imp i (wrapper i ++ [dot] ++ rest) s) = Raised n
  end.
Proof.
  intros N E S. unfold load_module. rewrite N. unfold cutoff. rewrite after_dots_app, E.
  assert (G : try_choices imp i (wrapper i ++ [dot] ++ rest) rest (before ++ p :: after) s =
              try_choices imp i (wrapper i ++ [dot] ++ rest) rest (p :: after) s1).
  { clear - S. induction S; [reflexivity|]. cbn [app try_choices]. rewrite H. cbv zeta. rewrite H0. exact IHS. }
  rewrite G. clear G S. cbn [try_choices]. destruct (imp (realname p rest) s1) as [s2 [|tb|n]].
  - intros m M W. rewrite M. cbv zeta. destruct (existsb (Ascii.eqb dot) rest); [reflexivity|].
    assert (X : modules (put (wrapper i ++ [dot] ++ rest) (Some m) s2) (wrapper i) <> None).
    { unfold put. cbn [modules]. destruct (str_eqb (wrapper i) (wrapper i ++ [dot] ++ rest)); [discriminate|exact W]. }
    destruct (modules (put (wrapper i ++ [dot] ++ rest) (Some m) s2) (wrapper i)); [reflexivity|congruence].
  - intros B. cbv zeta. rewrite B. reflexivity.
  - reflexivity.
Qed.
End World.

(** a frame counts as one of the module, if it has a name at all and that is the
    name of the module, or its file is that of the module (or of the package), anywhere
    in its path *)
Theorem C106_frame m f : important_frame m f = true <->
  exists n, f_name f = Some n /\
    (n = m \/ exists a b, f_file f = a ++ lit "/" ++ map (fun x => if Ascii.eqb x "." then "/" else x)%char m ++ lit ".py" ++ b \/
                          f_file f = a ++ lit "/" ++ map (fun x => if Ascii.eqb x "." then "/" else x)%char m ++ lit "/__init__.py" ++ b).
Proof.
  unfold important_frame. destruct (f_name f) as [n|]; [|split; [discriminate|intros (n & X & _); discriminate]].
  destruct (str_eqb_spec n m) as [->|N]; [split; [intros _; exists m; auto|auto]|]. cbv zeta.
  rewrite orb_true_iff, !contains_spec. unfold replaced, dot, sep. split.
  - intros [(a & b & E)|(a & b & E)]; exists n; (split; [reflexivity|]); right; exists a, b; rewrite E; [left|right];
      cbn [app lit list_ascii_of_string]; rewrite <- ?app_assoc; reflexivity.
  - intros (n' & E & [->|(a & b & [X|X])]); injection E as <-; [congruence|left|right]; exists a, b; rewrite X;
      cbn [app lit list_ascii_of_string]; rewrite <- ?app_assoc; reflexivity.
Qed.

(** slash.ext.NAME is slash_NAME, and nothing else is imported for it *)
Theorem C106_slash imp rest s : modules s (lit "slash.ext." ++ rest) = None ->
  match imp (lit "slash_" ++ rest) s with
  | (s2, Done) => forall m, modules s2 (lit "slash_" ++ rest) = Some m -> modules s2 (lit "slash.ext") <> None ->
      snd (load_module imp slash_ext (lit "slash.ext." ++ rest) s) = Loaded m
  | (_, NoImport tb) => snd (load_module imp slash_ext (lit "slash.ext." ++ rest) s) =
      if important (lit "slash_" ++ rest) tb then Reraised (tl tb) else NotFound
  | (_, Raises n) => snd (load_module imp slash_ext (lit "slash.ext." ++ rest) s) = Raised n
  end.
Proof.
  intros N. assert (R : realname (lit "slash_", []) rest = lit "slash_" ++ rest) by (unfold realname; cbn [fst snd]; rewrite app_nil_r; reflexivity).
  pose proof (C106_decides imp slash_ext rest [] (lit "slash_", []) [] s s N eq_refl (skip_none _ _ _ _)) as D.
  rewrite R in D. destruct (imp (lit "slash_" ++ rest) s) as [s2 [|tb|n]] eqn:E; [exact D| |exact D].
  destruct (important (lit "slash_" ++ rest) tb) eqn:I; [exact (D eq_refl)|].
  unfold load_module. rewrite N. change (lit "slash.ext." ++ rest) with (wrapper slash_ext ++ [dot] ++ rest).
  unfold cutoff. rewrite after_dots_app. cbn [choices slash_ext try_choices]. rewrite R, E. cbv zeta. rewrite I. reflexivity.
Qed.

(** ** Installing *)

Lemma choices_eqb_spec a b : choices_eqb a b = true <-> a = b.
Proof.
  revert b. induction a as [|[x y] a IH]; intros [|[x' y'] b]; cbn [choices_eqb fst snd]; split; try discriminate; try reflexivity.
  - rewrite !andb_true_iff, !str_eqb_eq, IH. intros [[-> ->] ->]. reflexivity.
  - intros E. injection E as -> -> ->. rewrite !andb_true_iff, !str_eqb_eq, IH. auto.
Qed.

Lemma same_spec i f : same i f = true <-> f = Ours i.
Proof.
  destruct f as [j|n]; cbn [same]; [|split; discriminate]. rewrite andb_true_iff, str_eqb_eq, choices_eqb_spec.
  destruct i as [ci wi], j as [cj wj]; cbn [wrapper choices]. split; [intros [-> ->]; reflexivity|intros E; injection E as -> ->; auto].
Qed.

(** installing: the importer is there once, as the last; the others keep their
    order; installing again changes nothing *)
Theorem C106_install i p :
  exists others, install i p = others ++ [Ours i] /\ ~ In (Ours i) others /\
    (forall f, f <> Ours i -> (In f (install i p) <-> In f p)) /\
    others = filter (fun f => negb (same i f)) p /\ install i (install i p) = install i p.
Proof.
  exists (filter (fun f => negb (same i f)) p). split; [reflexivity|]. split.
  - intros I. apply filter_In in I. destruct I as [_ X]. assert (same i (Ours i) = true) by (apply same_spec; reflexivity). rewrite H in X. discriminate.
  - split; [|split; [reflexivity|]].
    + intros f N. unfold install. rewrite in_app_iff, filter_In. split.
      * intros [[I _]|[X|[]]]; [exact I|congruence].
      * intros I. left. split; [exact I|]. destruct (same i f) eqn:E; [apply same_spec in E; congruence|reflexivity].
    + unfold install. rewrite filter_app. cbn [filter]. assert (E : same i (Ours i) = true) by (apply same_spec; reflexivity). rewrite E. cbn [negb].
      rewrite app_nil_r. f_equal. induction p as [|f p IH]; [reflexivity|]. cbn [filter]. destruct (negb (same i f)) eqn:F; [|exact IH].
      cbn [filter]. rewrite F, IH. reflexivity.
Qed.

(** ** Concrete cases and refuted expectations *)

(** slash_good is there; slash_bad fails in its own code; slash_lib fails without
    a frame (an extension module of C); slash_pkg is a package failing in its __init__ *)
Definition world (n : str) (s : st) : st * imported :=
  if str_eqb n (lit "slash_good") then (put n (Some 7) s, Done)
  else if str_eqb n (lit "slash_bad") then (s, NoImport [mkFrame (Some (lit "slash.exthook")) (lit "/s/exthook.py"); mkFrame (Some n) (lit "/s/slash_bad.py")])
  else if str_eqb n (lit "slash_pkg.sub") then (s, NoImport [mkFrame (Some (lit "slash.exthook")) (lit "/s/exthook.py");
                                                  mkFrame (Some (lit "slash_pkg")) (lit "/s/slash_pkg/__init__.py")])
  else if str_eqb n (lit "slash_c") then (s, NoImport [mkFrame (Some (lit "slash.exthook")) (lit "/s/exthook.py")])
  else if str_eqb n (lit "slash_typo") then (put (lit "slash.ext.typo") (Some 9) s, Raises 4)
  else (s, NoImport [mkFrame (Some (lit "slash.exthook")) (lit "/s/exthook.py")]).

Definition world0 : st := mkSt (fun n => if str_eqb n (lit "slash.ext") then Some 1 else None) [].

Example C106_case :
  let '(s, r) := load_module world slash_ext (lit "slash.ext.good") world0 in
  r = Loaded 7 /\ modules s (lit "slash.ext.good") = Some 7 /\ attrs s = [(lit "good", 7)] /\
  snd (load_module world slash_ext (lit "slash.ext.none") world0) = NotFound /\
  snd (load_module world slash_ext (lit "slash.ext.bad") world0) = Reraised [mkFrame (Some (lit "slash_bad")) (lit "/s/slash_bad.py")] /\
  find_module slash_ext (lit "slash.ext.good") = true /\ find_module slash_ext (lit "slash.exterior") = false.
Proof. vm_compute. auto 10. Qed.

(** an extension that is there, but whose import fails without a frame of its own
    (a module written in C), is reported as missing *)
Theorem C106_native_refuted : exists imp fullname s s1,
  imp (lit "slash_c") s = (s1, NoImport [mkFrame (Some (lit "slash.exthook")) (lit "/s/exthook.py")]) /\
  fullname = lit "slash.ext.c" /\ snd (load_module imp slash_ext fullname s) = NotFound.
Proof. exists world, (lit "slash.ext.c"), world0, world0. vm_compute. auto. Qed.

(** so is a module of a package whose own import fails: the error of the package
    is hidden *)
Theorem C106_package_refuted : exists imp s tb,
  snd (imp (lit "slash_pkg.sub") s) = NoImport tb /\ In (mkFrame (Some (lit "slash_pkg")) (lit "/s/slash_pkg/__init__.py")) tb /\
  snd (load_module imp slash_ext (lit "slash.ext.pkg.sub") s) = NotFound.
Proof.
  exists world, world0, [mkFrame (Some (lit "slash.exthook")) (lit "/s/exthook.py"); mkFrame (Some (lit "slash_pkg")) (lit "/s/slash_pkg/__init__.py")].
  vm_compute. auto 10.
Qed.

(** an exception that is no ImportError does not take back what a recursive import
    left under the full name *)
Theorem C106_left_refuted : exists imp s, modules s (lit "slash.ext.typo") = None /\
  snd (load_module imp slash_ext (lit "slash.ext.typo") s) = Raised 4 /\
  modules (fst (load_module imp slash_ext (lit "slash.ext.typo") s)) (lit "slash.ext.typo") <> None.
Proof. exists world, world0. vm_compute. repeat split. discriminate. Qed.

(** a missing extension is taken for a broken one, if slash itself is in a place
    with a matching name: the search ends there *)
Theorem C106_place_refuted : exists imp i s s1,
  choices i = [(lit "slash_", []); (lit "my_slash_", [])] /\
  imp (lit "slash_x") s = (s1, NoImport [mkFrame (Some (lit "slash.exthook")) (lit "/envs/slash_x.py38/slash/exthook.py")]) /\
  snd (imp (lit "my_slash_x") s) = Done /\
  snd (load_module imp i (lit "slash.ext.x") s) = Reraised [].
Proof.
  exists (fun n s => if str_eqb n (lit "my_slash_x") then (put n (Some 7) s, Done) else
    (s, NoImport [mkFrame (Some (lit "slash.exthook")) (lit "/envs/slash_x.py38/slash/exthook.py")])),
    (mkImporter [(lit "slash_", []); (lit "my_slash_", [])] (lit "slash.ext")), world0, world0. vm_compute. auto 10.
Qed.

Print Assumptions C106_name.
Print Assumptions C106_no_index_error.
Print Assumptions C106_cached.
Print Assumptions C106_first.
Print Assumptions C106_not_found.
Print Assumptions C106_broken.
Print Assumptions C106_decides.
Print Assumptions C106_frame.
Print Assumptions C106_slash.
Print Assumptions C106_install.

Print Assumptions C106_native_refuted.
Print Assumptions C106_package_refuted.
Print Assumptions C106_left_refuted.
Print Assumptions C106_place_refuted.
