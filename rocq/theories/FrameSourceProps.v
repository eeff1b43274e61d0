(** C141: what a frame says of its source. *)

From Coq Require Import List Bool Arith Ascii String Lia.
From Verif Require Import Str FrameSource.
Import ListNotations.
Local Open Scope list_scope.
Local Open Scope nat_scope.

(** ** The line *)

Lemma lstrip_spec s : exists w, s = w ++ lstrip s /\ (forall c, In c w -> space c = true) /\ match lstrip s with c :: _ => space c = false | [] => True end.
Proof.
  induction s as [|c s (w & E & F & H)]; [exists []; cbn; intuition|]. cbn [lstrip]. destruct (space c) eqn:S.
  - exists (c :: w). split; [cbn; congruence|]. split; [intros d [<-|I]; auto|exact H].
  - exists []. split; [reflexivity|]. split; [intros d []|exact S].
Qed.

(** [l] is [x] with white space behind it, and [x] does not end with white space *)
Definition without_end (l x : str) : Prop :=
  (exists w, l = x ++ w /\ forall c, In c w -> space c = true) /\ forall y c, x = y ++ [c] -> space c = false.

Lemma rstrip_spec s : without_end s (rstrip s).
Proof.
  destruct (lstrip_spec (rev s)) as (w & E & F & H). unfold rstrip. split.
  - exists (rev w). split; [rewrite <- rev_app_distr, <- E, rev_involutive; reflexivity|]. intros c I. apply F. apply in_rev. exact I.
  - intros y c Q. apply (f_equal (@rev ascii)) in Q. rewrite rev_involutive, rev_app_distr in Q. cbn in Q. rewrite Q in H. exact H.
Qed.

(** code_line is the line of the file, without the white space at its end *)
Theorem C141_line files name ls n l : files name = Some ls -> nth_error ls n = Some l -> without_end l (code_line files name (S n)).
Proof.
  intros F N. unfold code_line, getline. rewrite F. rewrite (nth_error_nth _ _ [] N). apply rstrip_spec.
Qed.

(** ** The code up to the line *)

Lemma concat_nth {A} (ls : list (list A)) : forall a k, a + k <= List.length ls ->
  List.concat (map (fun m => nth m ls []) (seq a k)) = List.concat (firstn k (skipn a ls)).
Proof.
  intros a k. revert a. induction k as [|k IH]; intros a L; [reflexivity|]. cbn [seq map List.concat]. rewrite IH by lia.
  destruct (skipn a ls) as [|x r] eqn:Sk; [apply (f_equal (@List.length _)) in Sk; rewrite skipn_length in Sk; cbn in Sk; lia|].
  cbn [firstn List.concat]. assert (N : nth a ls [] = x).
  { rewrite <- (firstn_skipn a ls), Sk, app_nth2; rewrite firstn_length_le by lia; [rewrite Nat.sub_diag; reflexivity|lia]. }
  assert (R : skipn (S a) ls = r).
  { rewrite <- (firstn_skipn a ls), Sk at 1. rewrite skipn_app, firstn_length_le by lia. rewrite skipn_all2 by (rewrite firstn_length_le; lia).
    replace (S a - a) with 1 by lia. reflexivity. }
  rewrite N, R. reflexivity.
Qed.

(** The text of the file is what stands before the function, code_string, and what stands behind the line. *)
Theorem C141_code files name ls first lineno : files name = Some ls -> (forall l, In l ls -> l <> []) ->
  1 <= first <= lineno -> lineno <= List.length ls ->
  exists s, code_string files name first lineno = Some s /\
    List.concat ls = List.concat (firstn (first - 1) ls) ++ s ++ List.concat (skipn lineno ls).
Proof.
  intros F NE B L. unfold code_string. destruct first as [|a]; [lia|].
  assert (E : map (getline files name) (seq (S a) (lineno + 1 - S a)) = map (fun m => nth m ls []) (seq a (lineno - a))).
  { replace (lineno + 1 - S a) with (lineno - a) by lia. rewrite <- seq_shift, map_map. apply map_ext. intros m. unfold getline. rewrite F. reflexivity. }
  rewrite E, concat_nth by lia.
  assert (D : firstn (lineno - a) (skipn a ls) <> []).
  { intros H. apply (f_equal (@List.length _)) in H. rewrite firstn_length, skipn_length in H. cbn in H. lia. }
  assert (C : List.concat (firstn (lineno - a) (skipn a ls)) <> []).
  { destruct (firstn (lineno - a) (skipn a ls)) as [|x r] eqn:H; [congruence|]. cbn. intros Q. apply app_eq_nil in Q as [Q _].
    apply (NE x); [|exact Q]. assert (I : In x (firstn (lineno - a) (skipn a ls))) by (rewrite H; cbn; auto).
    rewrite <- (firstn_skipn a ls). apply in_app_iff. right. rewrite <- (firstn_skipn (lineno - a) (skipn a ls)). apply in_app_iff. auto. }
  exists (List.concat (firstn (lineno - a) (skipn a ls))). split; [destruct (List.concat _); [congruence|reflexivity]|].
  replace (S a - 1) with a by lia. rewrite <- (firstn_skipn a ls) at 1. rewrite concat_app. f_equal.
  rewrite <- (firstn_skipn (lineno - a) (skipn a ls)) at 1. rewrite concat_app. f_equal.
  replace (skipn lineno ls) with (skipn (lineno - a) (skipn a ls)); [reflexivity|].
  assert (G : forall k (l : list str) n, skipn n (skipn k l) = skipn (k + n) l).
  { induction k as [|k IH]; intros l n; [reflexivity|]. destruct l; [rewrite !skipn_nil; reflexivity|apply IH]. }
  rewrite G. f_equal. lia.
Qed.

(** No code is shown exactly if the file has none of the lines (it cannot be read, it became shorter). *)
Theorem C141_no_code files name first lineno : code_string files name first lineno = None <-> forall n, first <= n <= lineno -> getline files name n = [].
Proof.
  unfold code_string. assert (Q : List.concat (map (getline files name) (seq first (lineno + 1 - first))) = [] <-> forall n, first <= n <= lineno -> getline files name n = []).
  { rewrite concat_nil_Forall, Forall_map, Forall_forall. split; intros H n I; [apply H, in_seq; lia|apply in_seq in I; apply H; lia]. }
  rewrite <- Q. destruct (List.concat _); split; congruence.
Qed.

Theorem C141_unreadable files name first lineno : files name = None -> code_string files name first lineno = None /\ code_line files name lineno = [].
Proof.
  intros F. split; [apply C141_no_code|]; unfold code_line, getline; rewrite F; reflexivity.
Qed.

(** ** Code of the test *)

(** slash's own wrappers around a function *)
Inductive around : func -> func -> Prop :=
| Itself f : around f f
| Layer c w f g : around f g -> around (Fn c w (Some f)) g.

(** a frame is one of the test exactly if it runs the code of the current test's function, below what slash put around it *)
Theorem C141_in_test test code : in_test_code test code = true <->
  exists f c w, test = Some f /\ around f (Fn c w None) /\ code = c.
Proof.
  assert (A : forall f, exists c w, underlying f = Fn c w None /\ around f (Fn c w None)).
  { fix IH 1. intros [c w [g|]]; [destruct (IH g) as (c' & w' & U & R); exists c', w'; split; [exact U|constructor; exact R]|].
    exists c, w. split; [reflexivity|constructor]. }
  assert (B : forall f g, around f g -> forall c w, g = Fn c w None -> underlying f = g).
  { induction 1; intros c0 w0 E; [subst; reflexivity|cbn [underlying]; eauto]. }
  destruct test as [f|]; cbn [in_test_code]; [|split; [discriminate|intros (f & c & w & E & _); discriminate]]. rewrite Nat.eqb_eq. split.
  - intros ->. destruct (A f) as (c & w & U & R). exists f, c, w. rewrite U. auto.
  - intros (f' & c & w & E & R & ->). injection E as <-. rewrite (B _ _ R c w eq_refl). reflexivity.
Qed.

(** ** What the console shows *)

(** the characters at which Python's splitlines breaks lines (of those up to 255) *)
Definition breaks : list ascii := ["010"; "011"; "012"; "013"; "028"; "029"; "030"; "133"]%char.
Lemma breaks_iff c : line_break c = true <-> In c breaks.
Proof.
  assert (E : line_break c = existsb (Ascii.eqb c) breaks) by (destruct c as [[] [] [] [] [] [] [] []]; reflexivity).
  rewrite E, existsb_exists. split; [intros (d & I & Q); apply Ascii.eqb_eq in Q; subst; exact I|intros I; exists c; rewrite Ascii.eqb_refl; auto].
Qed.

(** a break ends a line, "\r\n" being one; a line without a break at the end of the text is one too *)
Theorem C141_breaks x : (forall d, In d x -> ~ In d breaks) ->
  (splitlines [] x = match x with [] => [] | _ => [x] end) /\
  (forall rest, splitlines [] (x ++ "013"%char :: "010"%char :: rest) = x :: splitlines [] rest) /\
  (forall c rest, In c breaks -> (forall r, c = "013"%char -> rest <> "010"%char :: r) -> splitlines [] (x ++ c :: rest) = x :: splitlines [] rest).
Proof.
  intros P.
  assert (G : forall rest cur, splitlines cur (x ++ rest) = splitlines (rev x ++ cur) rest).
  { intros rest. induction x as [|d x IH]; intros cur; cbn [app splitlines rev]; [reflexivity|].
    destruct (line_break d) eqn:E; [apply breaks_iff in E; destruct (P d (or_introl eq_refl) E)|].
    rewrite IH by (intros e I; apply P; right; exact I). rewrite <- app_assoc. reflexivity. }
  split; [|split].
  - rewrite <- (app_nil_r x) at 1. rewrite G. cbn [splitlines]. rewrite app_nil_r. destruct x as [|c x]; [reflexivity|].
    destruct (rev (c :: x)) eqn:E; [apply (f_equal (@List.length _)) in E; rewrite rev_length in E; discriminate|]. rewrite <- E, rev_involutive. reflexivity.
  - intros rest. rewrite G. cbn [splitlines]. change (line_break "013") with true. cbn [Ascii.eqb andb Bool.eqb]. rewrite app_nil_r, rev_involutive. reflexivity.
  - intros c rest B N. rewrite G. cbn [splitlines]. rewrite (proj2 (breaks_iff c) B), app_nil_r, rev_involutive. f_equal.
    destruct rest as [|d rest]; [reflexivity|]. destruct (Ascii.eqb_spec c "013"%char) as [->|]; cbn [andb]; [|reflexivity].
    destruct (Ascii.eqb_spec d "010"%char) as [->|]; [|reflexivity]. destruct (N rest eq_refl eq_refl).
Qed.

Lemma splitlines_app cur x rest : (forall c, In c x -> line_break c = false) -> splitlines cur (x ++ "010"%char :: rest) = (rev cur ++ x) :: splitlines [] rest.
Proof.
  revert cur. induction x as [|c x IH]; intros cur P.
  - cbn [app splitlines]. change (line_break "010") with true. cbv iota. rewrite app_nil_r. f_equal. destruct rest; reflexivity.
  - cbn [app splitlines]. rewrite (P c) by (cbn; auto). rewrite IH by (intros d I; apply P; cbn; auto). cbn [rev]. rewrite <- app_assoc. reflexivity.
Qed.

Lemma splitlines_lines xs : (forall x, In x xs -> forall c, In c x -> line_break c = false) ->
  splitlines [] (List.concat (map (fun x => x ++ ["010"%char]) xs)) = xs.
Proof.
  induction xs as [|x xs IH]; intros P; [reflexivity|]. cbn [map List.concat]. rewrite <- app_assoc. cbn [app].
  rewrite splitlines_app by (apply P; cbn; auto). cbn [rev app]. f_equal. apply IH. intros y I. apply P. cbn. auto.
Qed.

Lemma write_snoc t xs x : write_lines t (xs ++ [x]) = map (fun y => (false, if t then TestLine else Line, y)) xs ++ [(true, if t then TestLine else LineCause, x)].
Proof.
  induction xs as [|y xs IH]; [reflexivity|]. cbn [app map]. rewrite <- IH. destruct xs; reflexivity.
Qed.

(** With context, the lines of the function up to the line of the error are shown as they stand in the file; exactly the last one is
    marked; without, only that one. *)
Theorem C141_shown files name texts first n x t :
  files name = Some (map (fun x => x ++ ["010"%char]) texts) -> (forall y, In y texts -> forall c, In c y -> ~ In c breaks) ->
  first <= n -> nth_error texts n = Some x ->
  write_frame_code true t (code_string files name (S first) (S n)) (code_line files name (S n)) =
    map (fun y => (false, if t then TestLine else Line, y)) (firstn (n - first) (skipn first texts)) ++ [(true, if t then TestLine else LineCause, x)] /\
  exists s, write_frame_code false t (code_string files name (S first) (S n)) (code_line files name (S n)) = [(true, if t then TestLine else LineCause, s)] /\
    without_end x s.
Proof.
  intros F P' L N. assert (P : forall y, In y texts -> forall c, In c y -> line_break c = false).
  { intros y I c J. destruct (line_break c) eqn:E; [apply breaks_iff in E; destruct (P' y I c J E)|reflexivity]. }
  clear P'. assert (LN : n < List.length texts) by (apply nth_error_Some; congruence).
  assert (C : code_string files name (S first) (S n) = Some (List.concat (map (fun x => x ++ ["010"%char]) (firstn (S n - first) (skipn first texts))))).
  { unfold code_string. replace (S n + 1 - S first) with (S n - first) by lia.
    assert (E : map (getline files name) (seq (S first) (S n - first)) = map (fun m => nth m (map (fun x => x ++ ["010"%char]) texts) []) (seq first (S n - first))).
    { rewrite <- seq_shift, map_map. apply map_ext. intros m. unfold getline. rewrite F. reflexivity. }
    rewrite E, concat_nth by (rewrite map_length; lia). rewrite skipn_map, firstn_map.
    destruct (firstn (S n - first) (skipn first texts)) as [|y r] eqn:Q; [apply (f_equal (@List.length _)) in Q; rewrite firstn_length, skipn_length in Q; cbn [List.length] in Q; lia|].
    cbn [map List.concat]. destruct y; reflexivity. }
  rewrite C. assert (D : firstn (S n - first) (skipn first texts) = firstn (n - first) (skipn first texts) ++ [x]).
  { replace (S n - first) with ((n - first) + 1) by lia. rewrite <- (firstn_skipn (n - first) (skipn first texts)) at 1.
    rewrite firstn_app. rewrite firstn_length_le by (rewrite skipn_length; lia). rewrite firstn_firstn. rewrite Nat.min_r by lia. f_equal.
    replace (n - first + 1 - (n - first)) with 1 by lia.
    assert (G : forall k (l : list str) m, skipn m (skipn k l) = skipn (k + m) l).
    { induction k as [|k IH]; intros l m; [reflexivity|]. destruct l; [rewrite !skipn_nil; reflexivity|apply IH]. }
    rewrite G. replace (first + (n - first)) with n by lia. clear - N. revert texts N. induction n as [|n IH]; intros [|y l] N; try discriminate; [injection N as <-; reflexivity|exact (IH l N)]. }
  split.
  - cbn [write_frame_code]. rewrite splitlines_lines.
    + rewrite D. apply write_snoc.
    + intros y I. apply P. rewrite <- (firstn_skipn first texts). apply in_app_iff. right. rewrite <- (firstn_skipn (S n - first) (skipn first texts)). apply in_app_iff. auto.
  - eexists. split; [reflexivity|].
    assert (W : without_end (x ++ ["010"%char]) (code_line files name (S n))).
    { apply (C141_line files name (map (fun x => x ++ ["010"%char]) texts)); [exact F|]. rewrite nth_error_map, N. reflexivity. }
    destruct W as ((w & E & S) & NE). split; [|exact NE]. destruct w as [|c w _] using rev_ind.
    + rewrite app_nil_r in E. exfalso. specialize (NE x "010"%char (eq_sym E)). discriminate.
    + rewrite app_assoc in E. apply app_inj_tail in E as [E _]. exists w. split; [exact E|]. intros d I. apply S. apply in_app_iff. auto.
Qed.

(** ** What does not hold *)

(** A test in a wrapper made with functools.wraps: the frame of the wrapper is taken for that of the test, the test's own is not. *)
Theorem C141_wrapped_refuted : exists wrapper test, wrapper = Fn 1 (Some test) None /\ f_code test = 2 /\
  in_test_code (Some wrapper) 1 = true /\ in_test_code (Some wrapper) (f_code test) = false.
Proof. exists (Fn 1 (Some (Fn 2 None None)) None), (Fn 2 None None). repeat split. Qed.

(** The name of the file is made absolute when the error is made: code with a relative name, after a change of the directory, is shown with
    the lines of another file. *)
Theorem C141_directory_refuted : exists files before now name, starts (lit "/") name = false /\
  code_line files (abspath before name) 1 = lit "raise Exception()" /\ code_line files (abspath now name) 1 = lit "pass".
Proof.
  exists (fun n => if str_eqb n (lit "/a/t.py") then Some [lit "raise Exception()"] else if str_eqb n (lit "/b/t.py") then Some [lit "pass"] else None),
    (lit "/a"), (lit "/b"), (lit "t.py"). repeat split.
Qed.

(** A form feed in the line: the marked line is not the line of the error but what follows the form feed. *)
Theorem C141_form_feed_refuted : exists files name x, files name = Some [x ++ ["012"%char] ++ lit "y" ++ ["010"%char]] /\
  write_frame_code true false (code_string files name 1 1) (code_line files name 1) = [(false, Line, x); (true, LineCause, lit "y")].
Proof. exists (fun _ => Some [lit "x" ++ ["012"%char] ++ lit "y" ++ ["010"%char]]), (lit "/f.py"), (lit "x"). repeat split. Qed.

(** ** Cases *)

Definition source : list str := [lit "import slash"; lit "def test_a():"; lit "    x = 1  "; lit "    f(x)   "; lit "    g()"].
Example C141_case :
  let files n := if str_eqb n (lit "/t.py") then Some (map (fun x => x ++ ["010"%char]) source) else None in
  nth_error source 3 = Some (lit "    f(x)   ") /\ code_line files (lit "/t.py") 4 = lit "    f(x)" /\
  write_frame_code true true (code_string files (lit "/t.py") 2 4) (code_line files (lit "/t.py") 4) =
    [(false, TestLine, lit "def test_a():"); (false, TestLine, lit "    x = 1  "); (true, TestLine, lit "    f(x)   ")] /\
  (forall y, In y source -> forall c, In c y -> ~ In c breaks) /\
  code_string files (lit "/gone.py") 2 4 = None /\
  in_test_code (Some (Fn 7 None (Some (Fn 8 None None)))) 8 = true /\ in_test_code (Some (Fn 7 None (Some (Fn 8 None None)))) 7 = false.
Proof.
  cbv zeta. repeat split. intros y I c J. assert (B : forallb (fun y => forallb (fun c => negb (line_break c)) y) source = true) by reflexivity.
  rewrite forallb_forall in B. specialize (B y I). rewrite forallb_forall in B. specialize (B c J). apply negb_true_iff in B. rewrite <- breaks_iff. congruence.
Qed.

Print Assumptions C141_line.
Print Assumptions C141_code.
Print Assumptions C141_no_code.
Print Assumptions C141_unreadable.
Print Assumptions C141_in_test.
Print Assumptions C141_breaks.
Print Assumptions C141_shown.
Print Assumptions C141_wrapped_refuted.
Print Assumptions C141_directory_refuted.
Print Assumptions C141_form_feed_refuted.
