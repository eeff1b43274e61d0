(** Suite files: C44 (nested filters, repeats, comments), C62 (directories of
    suite files). *)

From Coq Require Import List Bool Arith PeanoNat ZArith Lia Ascii String.
From Verif Require Import Str Matcher Suite.
Import ListNotations.

(** a test passes an optional filter *)
Definition passes (o : option matcher) (md : metadata) : Prop :=
  match o with None => True | Some m => matches m md = true end.

Lemma passes_and a b md : passes (and_matchers a b) md <-> passes a md /\ passes b md.
Proof.
  destruct a as [a|], b as [b|]; cbn [and_matchers passes]; try tauto.
  cbn [matches forallb]. rewrite !andb_true_iff. tauto.
Qed.

Section Props.
Variable content : str -> option (list str).
Variable isdir : str -> bool.
Variable resolve : str -> str -> str.
Variable int_of : str -> option Z.

Notation parse_line := (parse_line int_of).
Notation names_tests := (names_tests isdir).
Notation iter_lines := (iter_lines isdir resolve int_of).
Notation iter_file := (iter_file content isdir resolve int_of).
Notation iter_files := (iter_files content isdir resolve int_of).

(** ** Specification *)

(** [line f e]: suite file [f] has a line, not a comment and not blank, that
    reads as entry [e] *)
Definition line (f : str) (e : entry) : Prop :=
  exists ls l, content f = Some ls /\ In l ls
    /\ strip l <> [] /\ ~ (exists r, strip l = "#"%char :: r)
    /\ parse_line (strip l) = inl e.

(** [chain f p fs]: [f] lists path [p], directly or through suite files that
    include each other, and [fs] are the filters on the way *)
Inductive chain : str -> str -> list (option matcher) -> Prop :=
| ch_direct f e : line f e -> names_tests (resolve f (e_path e)) = true -> (e_repeat e >= 1)%Z ->
    chain f (resolve f (e_path e)) [e_matcher e]
| ch_through f e p fs : line f e -> names_tests (resolve f (e_path e)) = false ->
    chain (resolve f (e_path e)) p fs ->
    chain f p (e_matcher e :: fs).

(** ** Proofs *)

Lemma skipped_spec l : skipped l = true <-> strip l = [] \/ exists r, strip l = "#"%char :: r.
Proof.
  unfold skipped. destruct (strip l) as [|c s].
  - split; auto.
  - rewrite starts_spec. split.
    + intros [r H]. simpl in H. right. exists r. auto.
    + intros [H|[r H]]; [discriminate|]. exists r. auto.
Qed.

Lemma skipped_false l : skipped l = false <-> strip l <> [] /\ ~ exists r, strip l = "#"%char :: r.
Proof.
  pose proof (skipped_spec l) as H. destruct (skipped l); split; intros Q; auto; try discriminate.
  - destruct Q as [Q1 Q2]. exfalso. destruct (proj1 H eq_refl) as [K|K]; auto.
  - split; intros K; assert (false = true) by (apply H; auto); discriminate.
Qed.

(** soundness on the lines of a file *)
Lemma lines_sound nested f : forall ls its fin,
  (forall p m its fin g, nested g = (its, fin) -> In (p, m) its ->
     exists fs, chain g p fs /\ forall md, passes m md <-> forall o, In o fs -> passes o md) ->
  (forall l, In l ls -> exists all, content f = Some all /\ In l all) ->
  iter_lines nested f ls = (its, fin) -> forall p m, In (p, m) its ->
  exists fs, chain f p fs /\ forall md, passes m md <-> forall o, In o fs -> passes o md.
Proof.
  intros ls. induction ls as [|l ls IH]; intros its fin N C H p m Hi; cbn [Suite.iter_lines] in H.
  - inversion H; subst. destruct Hi.
  - destruct (skipped l) eqn:S; [eapply IH; eauto; intros; apply C; simpl; auto|].
    destruct (parse_line (strip l)) as [e|e] eqn:P; [|inversion H; subst; destruct Hi].
    assert (line f e) as L.
    { destruct (C l ltac:(simpl; auto)) as (all & Ca & Il). apply skipped_false in S as [S1 S2].
      exists all, l. auto. }
    assert (forall its1 fin1,
      (if names_tests (resolve f (e_path e))
       then (List.repeat (resolve f (e_path e), e_matcher e) (Z.to_nat (e_repeat e)), Finished)
       else let (its, fin) := nested (resolve f (e_path e)) in
            (map (fun i : str * option matcher => (fst i, and_matchers (e_matcher e) (snd i))) its, fin)) = (its1, fin1) ->
      In (p, m) its1 -> exists fs, chain f p fs /\ forall md, passes m md <-> forall o, In o fs -> passes o md) as A.
    { intros its1 fin1 E Hi1. destruct (names_tests (resolve f (e_path e))) eqn:T.
      - inversion E; subst. pose proof (repeat_spec _ _ _ Hi1) as Q. inversion Q; subst.
        exists [e_matcher e]. split.
        + constructor; auto. destruct (e_repeat e); try (simpl in Hi1; contradiction); lia.
        + intros md. simpl. split; [intros Hp o [<-|[]]; auto|auto].
      - destruct (nested (resolve f (e_path e))) as [its2 fin2] eqn:Nn. inversion E; subst.
        apply in_map_iff in Hi1 as ([p' m'] & Q & Hi2). simpl in Q. inversion Q; subst.
        destruct (N _ _ _ _ _ Nn Hi2) as (fs & Ch & Eq). exists (e_matcher e :: fs). split; [apply ch_through; auto|].
        intros md. rewrite passes_and, Eq. simpl. split.
        + intros [H1 H2] o [<-|Ho]; auto.
        + intros Ho; split; [|intros o Hio]; apply Ho; auto. }
    cbv zeta in H.
    destruct (if names_tests (resolve f (e_path e)) then _ else _) as [its1 fin1] eqn:E.
    destruct fin1.
    + destruct (iter_lines nested f ls) as [rest fin2] eqn:R. inversion H; subst.
      apply in_app_iff in Hi as [Hi|Hi]; [eapply A; eauto|eapply IH; eauto; intros; apply C; simpl; auto].
    + inversion H; subst. eapply A; eauto.
    + inversion H; subst. eapply A; eauto.
Qed.

Lemma file_sound n : forall f its fin p m, iter_file n f = (its, fin) -> In (p, m) its ->
  exists fs, chain f p fs /\ forall md, passes m md <-> forall o, In o fs -> passes o md.
Proof.
  induction n as [|n IH]; intros f its fin p m H Hi; simpl in H.
  - inversion H; subst. destruct Hi.
  - destruct (content f) as [ls|] eqn:C; [|inversion H; subst; destruct Hi].
    eapply lines_sound; eauto.
Qed.

(** The filter of every listed test is the conjunction of the filters of the
    lines through which it was included. *)
Theorem C44_filters_are_conjoined : forall n f its fin p m,
  iter_file n f = (its, fin) -> In (p, m) its ->
  exists fs, chain f p fs /\ forall md, passes m md <-> forall o, In o fs -> passes o md.
Proof. exact file_sound. Qed.

(** completeness on the lines of a file *)
Lemma lines_complete nested f : forall ls its,
  iter_lines nested f ls = (its, Finished) ->
  forall l e, In l ls -> skipped l = false -> parse_line (strip l) = inl e ->
  (names_tests (resolve f (e_path e)) = true -> (e_repeat e >= 1)%Z ->
     In (resolve f (e_path e), e_matcher e) its)
  /\ (names_tests (resolve f (e_path e)) = false ->
      exists its1, nested (resolve f (e_path e)) = (its1, Finished)
        /\ forall p m, In (p, m) its1 -> In (p, and_matchers (e_matcher e) m) its).
Proof.
  intros ls. induction ls as [|l0 ls IH]; intros its H l e Hl S P; [destruct Hl|].
  cbn [Suite.iter_lines] in H. destruct (skipped l0) eqn:S0.
  - destruct Hl as [->|Hl]; [congruence|]. eapply IH; eauto.
  - destruct (parse_line (strip l0)) as [e0|] eqn:P0; [|discriminate]. cbv zeta in H.
    destruct (if names_tests (resolve f (e_path e0)) then _ else _) as [its1 fin1] eqn:E.
    destruct fin1; try discriminate.
    destruct (iter_lines nested f ls) as [rest fin2] eqn:R. inversion H; subst.
    destruct Hl as [->|Hl].
    + rewrite P0 in P. inversion P; subst e0. split.
      * intros T G. rewrite T in E. inversion E; subst. apply in_or_app. left.
        destruct (e_repeat e); try lia. simpl. destruct (Pos.to_nat p) eqn:Q; [lia|]. simpl; auto.
      * intros T. rewrite T in E. destruct (nested (resolve f (e_path e))) as [its2 fin2] eqn:Nn.
        inversion E; subst. exists its2. split; auto. intros p m Hi. apply in_or_app. left.
        apply in_map_iff. exists (p, m). auto.
    + destruct (IH rest eq_refl l e Hl S P) as [A B]. split.
      * intros T G. apply in_or_app. right. auto.
      * intros T. destruct (B T) as (its2 & Nn & Q). exists its2. split; auto.
        intros p m Hi. apply in_or_app. right. auto.
Qed.

(** If the suite file can be read to the end, nothing reachable is missing. *)
Theorem C44_nothing_missing : forall f p fs, chain f p fs ->
  forall n its, iter_file n f = (its, Finished) ->
  exists m, In (p, m) its /\ forall md, passes m md <-> forall o, In o fs -> passes o md.
Proof.
  induction 1 as [f e (ls & l & C & Il & S1 & S2 & P) T G|f e p fs (ls & l & C & Il & S1 & S2 & P) T Ch IH];
    intros n its H; destruct n as [|n]; simpl in H; try discriminate; rewrite C in H.
  - destruct (lines_complete _ _ _ _ H l e Il ltac:(apply skipped_false; auto) P) as [A _].
    exists (e_matcher e). split; auto. intros md. simpl. split; [intros Hp o [<-|[]]; auto|auto].
  - destruct (lines_complete _ _ _ _ H l e Il ltac:(apply skipped_false; auto) P) as [_ B].
    destruct (B T) as (its1 & Nn & Q). destruct (IH n its1 Nn) as (m & Hi & Eq).
    exists (and_matchers (e_matcher e) m). split; auto.
    intros md. rewrite passes_and, Eq. simpl. split.
    + intros [H1 H2] o [<-|Ho]; auto.
    + intros Ho; split; [|intros o Hio]; apply Ho; auto.
Qed.

(** Comments and blank lines are ignored: removing them changes nothing. *)
Theorem C44_comments_ignored : forall nested f ls,
  iter_lines nested f ls = iter_lines nested f (filter (fun l => negb (skipped l)) ls).
Proof.
  intros nested f ls. induction ls as [|l ls IH]; auto. cbn [Suite.iter_lines filter].
  destruct (skipped l) eqn:S; cbn [negb]; auto. cbn [Suite.iter_lines]. rewrite S, IH. auto.
Qed.

(** Lines that name tests are repeated as requested, in the order of the file. *)
Theorem C44_repeats_partial : forall nested f ls es,
  Forall2 (fun l e => skipped l = false /\ parse_line (strip l) = inl e
                      /\ names_tests (resolve f (e_path e)) = true) ls es ->
  iter_lines nested f ls
  = (flat_map (fun e => List.repeat (resolve f (e_path e), e_matcher e) (Z.to_nat (e_repeat e))) es, Finished).
Proof.
  intros nested f ls es H. induction H as [|l e ls es (S & P & T) H IH]; auto.
  cbn [Suite.iter_lines flat_map]. rewrite S, P. cbv zeta. rewrite T, IH. auto.
Qed.

(** A suite file that includes itself is never read to the end. *)
Theorem C44_self_inclusion_never_ends : forall f ls l e,
  content f = Some ls -> In l ls -> skipped l = false -> parse_line (strip l) = inl e ->
  resolve f (e_path e) = f -> names_tests f = false ->
  forall n its, iter_file n f <> (its, Finished).
Proof.
  intros f ls l e C Il S P R T n. induction n as [|n IH]; intros its H; simpl in H; [discriminate|].
  rewrite C in H. destruct (lines_complete _ _ _ _ H l e Il S P) as [_ B]. rewrite R in B.
  destruct (B T) as (its1 & Q & _). exact (IH _ Q).
Qed.
End Props.

(** ** Examples *)

(** relative paths stand for themselves, int() reads one digit *)
Definition ex_int (s : str) : option Z :=
  match s with
  | [c] => if between "0" "9" c then Some (Z.of_nat (nat_of_ascii c - 48)) else None
  | _ => None
  end.

Definition ex_content (f : str) : option (list str) :=
  if str_eqb f (lit "main") then Some [lit "# tests"; lit ""; lit "  a.py # repeat:2, filter:x "; lit "sub # filter:y"]
  else if str_eqb f (lit "sub") then Some [lit "b.py:t#filter:not z"; lit "c.py"]
  else if str_eqb f (lit "twice") then Some [lit "sub # repeat:2"]
  else if str_eqb f (lit "self") then Some [lit "self"]
  else None.

Definition ex_iter := iter_file ex_content (fun _ => false) (fun _ p => p) ex_int.

Example ex_main : exists m1 m2,
  ex_iter 5 (lit "main") = ([(lit "a.py", Some m1); (lit "a.py", Some m1);
                             (lit "b.py:t", Some m2); (lit "c.py", Some (Include false (lit "y")))], Finished)
  /\ matches m2 (mkMeta None (lit "xy")) = true
  /\ matches m2 (mkMeta None (lit "xyz")) = false /\ matches m2 (mkMeta None (lit "x")) = false.
Proof. eexists _, _. split; [vm_compute; reflexivity|]. vm_compute. auto. Qed.

Example ex_self : exists its, ex_iter 20 (lit "self") = (its, NoFuel).
Proof. eexists. vm_compute. reflexivity. Qed.

(** Repeats are not honoured for lines that include other suite files. *)
Theorem C44_repeats_refuted : exists content isdir resolve int_of f g e its,
  line content int_of f e /\ resolve f (e_path e) = g
  /\ e_repeat e = 2%Z
  /\ iter_file content isdir resolve int_of 9 g = (its, Finished) /\ its <> []
  /\ e_matcher e = None
  /\ iter_file content isdir resolve int_of 9 f = (its, Finished).
Proof.
  exists ex_content, (fun _ => false), (fun _ p => p), ex_int, (lit "twice"), (lit "sub"),
    (mkEntry (lit "sub") None 2). eexists. split.
  - exists [lit "sub # repeat:2"], (lit "sub # repeat:2"). split; [reflexivity|]. split; [simpl; auto|].
    split; [vm_compute; discriminate|]. split; [intros [r H]; vm_compute in H; discriminate|vm_compute; reflexivity].
  - split; [reflexivity|]. split; [reflexivity|]. split; [vm_compute; reflexivity|]. split; [discriminate|].
    split; [reflexivity|]. vm_compute. reflexivity.
Qed.

(** ** C62: the suite files of a directory *)

Fixpoint files (x : node) : list nat :=
  match x with File f => [f] | Dir _ sub => flat_map files sub end.

Fixpoint depth (x : node) : nat :=
  match x with File _ => 0 | Dir _ sub => S (list_max (map depth sub)) end.

(** the closed form: every directory below the given ones doubles its files *)
Fixpoint doubled (x : node) : list nat :=
  match x with
  | File f => [f]
  | Dir _ sub => flat_map (fun c => match c with File f => [f] | Dir _ _ => doubled c ++ doubled c end) sub
  end.

Lemma extract_cons n x l : extract (S n) (x :: l) =
  match match x with File f => Some [f] | Dir _ sub => extract n (rglob sub) end, extract (S n) l with
  | Some a, Some b => Some (a ++ b)
  | _, _ => None
  end.
Proof. reflexivity. Qed.

Lemma extract_app n l l' : extract (S n) (l ++ l') =
  match extract (S n) l, extract (S n) l' with Some a, Some b => Some (a ++ b) | _, _ => None end.
Proof.
  induction l as [|x l IH].
  - cbn [app]. change (extract (S n) []) with (Some (@nil nat)). destruct (extract (S n) l'); auto.
  - rewrite <- app_comm_cons, !extract_cons, IH.
    destruct x as [f|k sub]; [destruct (extract (S n) l), (extract (S n) l'); auto|].
    destruct (extract n (rglob sub)); auto.
    destruct (extract (S n) l), (extract (S n) l'); auto. rewrite app_assoc. auto.
Qed.

Lemma depth_le sub c : In c sub -> depth c <= list_max (map depth sub).
Proof.
  intros H. pose proof (proj1 (list_max_le (map depth sub) (list_max (map depth sub))) (le_n _)) as F.
  rewrite Forall_forall in F. apply F, in_map, H.
Qed.

(** with enough fuel, the files of an entity and of everything below it *)
Lemma extract_tree n : forall x, depth x <= n ->
  extract (S n) (entity_tree x)
  = Some (match x with File f => [f] | Dir _ _ => doubled x ++ doubled x end).
Proof.
  induction n as [|n IH].
  - intros [f|k sub] H; [reflexivity|simpl in H; lia].
  - assert (forall sub, (forall c, In c sub -> depth c <= n) ->
      extract (S n) (rglob sub) = Some (flat_map (fun c => match c with File f => [f] | Dir _ _ => doubled c ++ doubled c end) sub)) as R.
    { induction sub as [|c sub IHs]; intros D; [reflexivity|].
      unfold rglob. cbn [flat_map]. rewrite extract_app, IH by (apply D; simpl; auto).
      fold (rglob sub). rewrite IHs by (intros; apply D; simpl; auto). destruct c; auto. }
    assert (forall x, depth x <= S n -> extract (S (S n)) (entity_tree x)
              = Some (match x with File f => [f] | Dir _ _ => doubled x ++ doubled x end)) as Q; auto.
    fix Rec 1. intros [f|k sub] H; [reflexivity|].
    cbn [entity_tree]. rewrite extract_cons. simpl in H.
    rewrite R by (intros c Hc; pose proof (depth_le _ _ Hc); lia).
    assert (extract (S (S n)) (flat_map entity_tree sub) = Some (doubled (Dir k sub))) as ->; [|reflexivity].
    assert (forall c, In c sub -> depth c <= n) as D by (intros c Hc; pose proof (depth_le _ _ Hc); lia).
    cbn [doubled]. clear H. revert D.
    induction sub as [|c sub IHs]; intros D; [reflexivity|].
    cbn [flat_map]. rewrite extract_app. rewrite (Rec c) by (specialize (D c ltac:(simpl; auto)); lia).
    rewrite IHs by (intros; apply D; simpl; auto). destruct c; auto.
Qed.

Theorem C62_extraction_ends : forall k sub n, list_max (map depth sub) < n ->
  extract (S n) [Dir k sub] = Some (doubled (Dir k sub)).
Proof.
  intros k sub n H. rewrite extract_cons. destruct n as [|n]; [lia|].
  assert (extract (S n) (rglob sub) = Some (doubled (Dir k sub))) as ->.
  - assert (forall c, In c sub -> depth c <= n) as D by (intros c Hc; pose proof (depth_le _ _ Hc); lia).
    clear H. unfold rglob. cbn [doubled]. induction sub as [|c sub IHs]; [reflexivity|].
    cbn [flat_map]. rewrite extract_app, extract_tree by (apply D; simpl; auto).
    rewrite IHs by (intros; apply D; simpl; auto). destruct c; auto.
  - transitivity (Some (doubled (Dir k sub) ++ [])); [reflexivity|rewrite app_nil_r; auto].
Qed.

(** A suite file in a subdirectory of a directory given with -f is used twice. *)
Theorem C62_each_file_once_refuted : exists k sub its,
  NoDup (files (Dir k sub)) /\ extract 9 [Dir k sub] = Some its /\ ~ NoDup its.
Proof.
  exists 0, [File 1; Dir 2 [File 3]], [1; 3; 3]. split; [simpl; repeat constructor; simpl; intuition discriminate|].
  split; [reflexivity|]. rewrite !NoDup_cons_iff. simpl. tauto.
Qed.

(** It holds for directories without subdirectories, and in general no file
    is left out and nothing else is found. *)
Theorem C62_each_file_once_partial : forall k sub n,
  (forall c, In c sub -> exists f, c = File f) -> 1 <= n ->
  extract (S n) [Dir k sub] = Some (files (Dir k sub)).
Proof.
  intros k sub n H L. rewrite C62_extraction_ends.
  - f_equal. cbn [doubled files]. induction sub as [|c sub IH]; auto. cbn [flat_map].
    rewrite IH by (intros; apply H; simpl; auto). destruct (H c) as [f ->]; [simpl; auto|]. auto.
  - apply Nat.le_lt_trans with 0; [|lia]. apply list_max_le. apply Forall_forall. intros d Hd.
    apply in_map_iff in Hd as (c & <- & Hc). destruct (H c Hc) as [f ->]. auto.
Qed.

Theorem C62_same_files : forall k sub n its, list_max (map depth sub) < n ->
  extract (S n) [Dir k sub] = Some its -> forall f, In f its <-> In f (files (Dir k sub)).
Proof.
  intros k sub n its L H f. rewrite C62_extraction_ends in H by auto. inversion H; subst. clear.
  revert k sub. assert (forall x, In f (doubled x) <-> In f (files x)) as Q; [|intros; apply (Q (Dir k sub))].
  fix Rec 1. intros [g|k sub]; [reflexivity|]. cbn [doubled files].
  induction sub as [|c sub IH]; [reflexivity|]. cbn [flat_map]. rewrite !in_app_iff, IH.
  rewrite <- (Rec c). destruct c as [g|k' sub']; [reflexivity|]. rewrite in_app_iff. tauto.
Qed.

Print Assumptions C44_filters_are_conjoined.
Print Assumptions C44_nothing_missing.
Print Assumptions C44_comments_ignored.
Print Assumptions C44_repeats_partial.
Print Assumptions C44_repeats_refuted.
Print Assumptions C44_self_inclusion_never_ends.
Print Assumptions C62_extraction_ends.
Print Assumptions C62_each_file_once_refuted.
Print Assumptions C62_each_file_once_partial.
Print Assumptions C62_same_files.

(** ** Malformed lines *)

(** a line is refused exactly if one of the comma separated parts of its comment is a
    malformed filter or repeat count *)
Theorem C44_malformed_iff int_of line :
  (exists e, parse_line int_of line = inr e) <->
  exists path rest x t, split1 "#"%char line = Some (path, rest) /\ In x (split_all ","%char rest)
    /\ ((strip_prefix (lit "filter:") (strip x) = Some t /\ parse_filter t = None)
        \/ (strip_prefix (lit "repeat:") (strip x) = Some t /\ int_of t = None)).
Proof.
  assert (G : forall l m r, (exists e, remainders int_of l m r = inr e) <->
    exists x t, In x l /\ ((strip_prefix (lit "filter:") (strip x) = Some t /\ parse_filter t = None)
        \/ (strip_prefix (lit "repeat:") (strip x) = Some t /\ int_of t = None))).
  { induction l as [|x l IH]; intros m r.
    - simpl. split; [intros [e H]; discriminate|intros (x & t & [] & _)].
    - cbn [remainders]. cbv zeta.
      assert (Go : forall m r, (exists e, remainders int_of l m r = inr e) -> exists y t, In y (x :: l) /\ ((strip_prefix (lit "filter:") (strip y) = Some t /\ parse_filter t = None)
        \/ (strip_prefix (lit "repeat:") (strip y) = Some t /\ int_of t = None))).
      { intros m' r' H. apply IH in H as (y & t & I & H). exists y, t. split; [right; auto|auto]. }
      destruct (strip_prefix (lit "filter:") (strip x)) as [t|] eqn:Ft.
      + destruct (parse_filter t) as [m'|] eqn:Pt.
        * destruct (strip_prefix (lit "repeat:") (strip x)) as [u|] eqn:Ru.
          { destruct (int_of u) as [z|] eqn:Iu.
            - split; [apply Go|]. intros (y & w & [<-|I] & [[A B]|[A B]]); try congruence; apply IH; exists y, w; auto.
            - split; [intros _|eauto]. exists x, u. split; [left; auto|auto]. }
          { split; [apply Go|]. intros (y & w & [<-|I] & [[A B]|[A B]]); try congruence; apply IH; exists y, w; auto. }
        * split; [intros _|eauto]. exists x, t. split; [left; auto|auto].
      + destruct (strip_prefix (lit "repeat:") (strip x)) as [u|] eqn:Ru.
        { destruct (int_of u) as [z|] eqn:Iu.
          - split; [apply Go|]. intros (y & w & [<-|I] & [[A B]|[A B]]); try congruence; apply IH; exists y, w; auto.
          - split; [intros _|eauto]. exists x, u. split; [left; auto|auto]. }
        { split; [apply Go|]. intros (y & w & [<-|I] & [[A B]|[A B]]); try congruence; apply IH; exists y, w; auto. } }
  unfold parse_line. destruct (split1 "#"%char line) as [[path rest]|] eqn:Sp.
  - specialize (G (split_all ","%char rest) None 1%Z). destruct (remainders int_of (split_all ","%char rest) None 1%Z) as [[m r]|e] eqn:Re.
    + split; [intros [e H]; discriminate|]. intros (p & q & x & t & Q & I & H). inversion Q; subst.
      destruct (proj2 G) as [e H2]; [eauto|discriminate].
    + split; [|eauto]. intros _. destruct (proj1 G) as (x & t & I & H); [eauto|]. exists path, rest, x, t. auto.
  - split; [intros [e H]; discriminate|]. intros (p & q & x & t & Q & _). discriminate.
Qed.
Print Assumptions C44_malformed_iff.

(** and then the listing does not end regularly *)
Theorem C44_malformed_refused content isdir resolve int_of n f ls l e its :
  content f = Some ls -> In l ls -> skipped l = false -> parse_line int_of (strip l) = inr e ->
  iter_file content isdir resolve int_of n f <> (its, Finished).
Proof.
  intros C I S P. destruct n as [|n]; simpl; [discriminate|]. rewrite C.
  generalize (iter_file content isdir resolve int_of n) as nested. intros nested. revert its.
  clear C. induction ls as [|x ls IH]; intros its H; [destruct I|]. cbn [Suite.iter_lines] in H.
  destruct I as [->|I].
  - rewrite S, P in H. discriminate.
  - destruct (skipped x); [apply (IH I its H)|]. destruct (parse_line int_of (strip x)) as [e'|e']; [|discriminate].
    cbv zeta in H. destruct (if names_tests isdir (resolve f (e_path e')) then _ else _) as [items fin].
    destruct fin; try discriminate. destruct (iter_lines isdir resolve int_of nested f ls) as [rest fin2] eqn:Er.
    inversion H; subst. apply (IH I rest). auto.
Qed.
Print Assumptions C44_malformed_refused.

Example C44_malformed_ex : exists e1 e2, parse_line ex_int (lit "a.py # repeat:2, filter:(x") = inr e1
  /\ parse_line ex_int (lit "a.py # repeat:many") = inr e2 /\ e1 = ParseErr /\ e2 = ValueErr.
Proof. exists ParseErr, ValueErr. vm_compute. auto. Qed.

(** the exception tells which of the two it was: a malformed filter, or a repeat count
    that is no number *)
Theorem C44_malformed_kind int_of line e : parse_line int_of line = inr e ->
  exists path rest x t, split1 "#"%char line = Some (path, rest) /\ In x (split_all ","%char rest)
    /\ ((e = ParseErr /\ strip_prefix (lit "filter:") (strip x) = Some t /\ parse_filter t = None)
        \/ (e = ValueErr /\ strip_prefix (lit "repeat:") (strip x) = Some t /\ int_of t = None)).
Proof.
  assert (G : forall l m r, remainders int_of l m r = inr e ->
    exists x t, In x l /\ ((e = ParseErr /\ strip_prefix (lit "filter:") (strip x) = Some t /\ parse_filter t = None)
        \/ (e = ValueErr /\ strip_prefix (lit "repeat:") (strip x) = Some t /\ int_of t = None))).
  { induction l as [|x l IH]; intros m r H; cbn [remainders] in H; cbv zeta in H; [discriminate|].
    assert (Go : forall m r, remainders int_of l m r = inr e -> exists y t, In y (x :: l) /\ ((e = ParseErr /\ strip_prefix (lit "filter:") (strip y) = Some t /\ parse_filter t = None)
        \/ (e = ValueErr /\ strip_prefix (lit "repeat:") (strip y) = Some t /\ int_of t = None))).
    { intros m' r' Q. apply IH in Q as (y & t & I & Q). exists y, t. split; [right; exact I|exact Q]. }
    destruct (strip_prefix (lit "filter:") (strip x)) as [t|] eqn:Ft.
    - destruct (parse_filter t) as [m'|] eqn:Pt.
      + destruct (strip_prefix (lit "repeat:") (strip x)) as [u|] eqn:Ru; [|exact (Go _ _ H)].
        destruct (int_of u) as [z|] eqn:Iu; [exact (Go _ _ H)|]. injection H as <-. exists x, u. split; [left; reflexivity|auto].
      + injection H as <-. exists x, t. split; [left; reflexivity|auto].
    - destruct (strip_prefix (lit "repeat:") (strip x)) as [u|] eqn:Ru; [|exact (Go _ _ H)].
      destruct (int_of u) as [z|] eqn:Iu; [exact (Go _ _ H)|]. injection H as <-. exists x, u. split; [left; reflexivity|auto]. }
  unfold parse_line. destruct (split1 "#"%char line) as [[path rest]|]; [|discriminate].
  destruct (remainders int_of (split_all ","%char rest) None 1%Z) as [[m r]|e'] eqn:Re; [discriminate|]. intros H. injection H as ->.
  destruct (G _ _ _ Re) as (x & t & I & Q). exists path, rest, x, t. auto.
Qed.
Print Assumptions C44_malformed_kind.
