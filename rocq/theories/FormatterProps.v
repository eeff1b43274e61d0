(** Properties of the indenting writer (Formatter.v): C79, C80. *)

From Coq Require Import List Bool Arith Lia.
From Verif Require Import Formatter.
Import ListNotations.

(** * C79 *)

(** the text without one newline at its end *)
Fixpoint chop (t : text) : text :=
  match t with
  | [] => []
  | c :: t' => match t' with [] => if Nat.eqb c nl then [] else [c] | _ => c :: chop t' end
  end.

(** the text with [ind] after every newline *)
Definition after_newlines (ind t : text) : text := flat_map (fun c => if Nat.eqb c nl then c :: ind else [c]) t.

(** lines with a separator between them *)
Fixpoint join (sep : text) (l : list text) : text :=
  match l with
  | [] => []
  | x :: l' => x ++ match l' with [] => [] | _ => sep ++ join sep l' end
  end.

Lemma lines_nonempty t : forall cur, cur <> [] \/ t <> [] -> lines_from cur t <> [].
Proof.
  induction t as [|e t IH]; intros cur N; simpl.
  - destruct cur; [destruct N; contradiction|discriminate].
  - destruct (Nat.eqb e nl); [discriminate|]. apply IH. left; discriminate.
Qed.

Lemma lines_join ind t : forall cur, (cur <> [] \/ t <> []) ->
  join (nl :: ind) (lines_from cur t) = rev cur ++ after_newlines ind (chop t).
Proof.
  induction t as [|c t IH]; intros cur N.
  - simpl. destruct cur as [|a cur]; [destruct N; contradiction|]. simpl. rewrite !app_nil_r. auto.
  - cbn [lines_from]. destruct (Nat.eqb_spec c nl) as [->|NC].
    + destruct t as [|d t]; [simpl; rewrite !app_nil_r; auto|].
      assert (L : lines_from [] (d :: t) <> []) by (apply lines_nonempty; right; discriminate).
      assert (N2 : @nil nat <> [] \/ d :: t <> []) by (right; discriminate).
      assert (E := IH [] N2). clear N2.
      cbn [join]. destruct (lines_from [] (d :: t)) as [|x l]; [contradiction|].
      rewrite E. cbn [chop]. unfold after_newlines. cbn [flat_map]. rewrite Nat.eqb_refl. simpl. auto.
    + rewrite IH by (left; discriminate). simpl. rewrite <- app_assoc. simpl. f_equal.
      apply Nat.eqb_neq in NC. destruct t as [|d t]; unfold after_newlines; cbn [chop flat_map]; rewrite ?NC; simpl; rewrite ?NC; auto.
Qed.

Lemma write_lines_out l : forall f, l <> [] ->
  f_out (write_lines l f) = f_out f ++ (if f_empty f then indentation f else []) ++ join (nl :: indentation f) l
  /\ f_indent (write_lines l f) = f_indent f /\ f_log (write_lines l f) = f_log f.
Proof.
  induction l as [|line l IH]; intros f N; [contradiction|]. cbn [write_lines].
  set (f1 := if f_empty f then track (indentation f) f else f).
  assert (F1 : f_out f1 = f_out f ++ (if f_empty f then indentation f else []) /\ f_indent f1 = f_indent f /\ f_log f1 = f_log f).
  { unfold f1. destruct (f_empty f); simpl; rewrite ?app_nil_r; auto. }
  destruct F1 as (A & B & C).
  destruct l as [|line2 l].
  - simpl. rewrite A, app_nil_r, <- app_assoc. auto.
  - set (f3 := track [nl] (track line f1)).
    destruct (IH f3) as (D & E & G); [discriminate|].
    assert (I3 : indentation f3 = indentation f) by (unfold indentation; simpl; rewrite B; auto).
    split; [|split].
    + rewrite D, I3. replace (f_empty f3) with true by reflexivity.
      unfold f3. cbn [track f_out]. rewrite A. cbn [join]. rewrite <- !app_assoc. simpl. auto.
    + rewrite E. simpl. auto.
    + rewrite G. simpl. auto.
Qed.

(** ** The text is written with the indentation at the beginning of each of its lines; only
    a newline at its very end is lost *)
Theorem C79_write_partial t f : t <> [] ->
  f_out (write [t] [] f) =
    f_out f ++ (if f_empty f then indentation f else []) ++ after_newlines (indentation f) (chop t).
Proof.
  intros N. unfold write. cbn [fold_left track f_out]. rewrite app_nil_r.
  set (g := mkFmt _ _ _ _).
  assert (L : splitlines t <> []) by (apply lines_nonempty; auto).
  destruct (write_lines_out _ g L) as (A & _ & _). rewrite A. unfold splitlines. rewrite lines_join by auto. reflexivity.
Qed.

(** text ending with a newline is not ended: the next text follows on the same line *)
Theorem C79_write_refuted : exists t u f,
  last t 0 = nl /\ f_out (write [u] [] (write [t] [] f)) = [65; 66] /\ t = [65; nl] /\ u = [66].
Proof. exists [65; nl], [66], fmt0. repeat split. Qed.

(** ** writeln of a text without a newline at the beginning of a line writes one line:
    indentation, text, newline; and the next write begins a line *)
Theorem C79_writeln t f : t <> [] -> chop t = t -> f_empty f = true ->
  let f' := write [t] [nl] f in
  f_out f' = f_out f ++ indentation f ++ after_newlines (indentation f) t ++ [nl] /\ f_empty f' = true.
Proof.
  intros N NN E. cbv zeta. split; [|reflexivity]. unfold write. cbn [fold_left track f_out].
  set (g := mkFmt _ _ _ _).
  assert (L : splitlines t <> []) by (apply lines_nonempty; auto).
  destruct (write_lines_out _ g L) as (A & _ & _). rewrite A. unfold splitlines. rewrite lines_join by auto.
  rewrite NN. unfold g. cbn [f_empty f_out]. rewrite E. rewrite <- !app_assoc. reflexivity.
Qed.

Definition at_begin (f : fmt) : Prop := f_empty f = Nat.eqb (last (nl :: f_out f) 0) nl.

Lemma last_app_ne (a b : text) d : b <> [] -> last (a ++ b) d = last b d.
Proof.
  intros N. induction a as [|x a IH]; auto. simpl. rewrite IH.
  destruct (a ++ b) eqn:E; auto. apply app_eq_nil in E. destruct E; contradiction.
Qed.

Lemma track_begin o f : at_begin f -> at_begin (track o f).
Proof.
  unfold at_begin. intros A. destruct o as [|c o]; cbn [track f_empty f_out].
  - rewrite app_nil_r. auto.
  - change (nl :: f_out f ++ c :: o) with ((nl :: f_out f) ++ c :: o). rewrite last_app_ne by discriminate. auto.
Qed.

Lemma write_lines_begin l : forall f, at_begin f -> at_begin (write_lines l f).
Proof.
  induction l as [|line l IH]; intros f A; cbn [write_lines]; auto.
  apply IH. assert (B : at_begin (if f_empty f then track (indentation f) f else f)).
  { destruct (f_empty f); auto using track_begin. }
  destruct l; auto using track_begin.
Qed.

Lemma exec_begin unit p : forall f, at_begin f -> at_begin (fst (exec unit p f)).
Proof.
  induction p; intros f A; cbn [exec]; auto.
  - cbn [fst]. unfold write. apply track_begin.
    set (g := mkFmt _ _ _ _). assert (G : at_begin g) by exact A. clearbody g. revert g G.
    induction args as [|a args IH]; intros g G; cbn [fold_left]; auto. apply IH. apply write_lines_begin. auto.
  - specialize (IHp (deeper n s f) A). destruct (exec unit p (deeper n s f)); auto.
  - specialize (IHp1 f A). destruct (exec unit p1 f) as [f1 []]; auto.
Qed.

(** ** Indentation is written exactly at the beginnings of lines: a Formatter takes itself
    to be at one iff nothing was written yet or the stream last received a newline *)
Theorem C79_line_begins unit p f : exec unit p fmt0 = (f, false) \/ exec unit p fmt0 = (f, true) ->
  (f_empty f = true <-> f_out f = [] \/ exists o, f_out f = o ++ [nl]).
Proof.
  intros H. assert (A : at_begin f).
  { assert (E : f = fst (exec unit p fmt0)) by (destruct H as [-> | ->]; auto). rewrite E. apply exec_begin. reflexivity. }
  unfold at_begin in A. rewrite A, Nat.eqb_eq. destruct (f_out f) as [|c o]; [simpl; tauto|].
  change (nl :: c :: o) with ([nl] ++ c :: o). rewrite last_app_ne by discriminate. split.
  - intros L. right. exists (removelast (c :: o)). rewrite <- L. apply app_removelast_last. discriminate.
  - intros [D|[o' E]]; [discriminate|]. rewrite E. apply last_last.
Qed.

Example C79_line_begins_ex :
  exec [32] (FIndented 1 [32] (FSeq (FWrite [[65]; []] [nl]) (FWrite [[]; [66]] []))) fmt0 =
    (mkFmt [] [32; 65; nl; 32; 66] false [(1, [[65]; []]); (1, [[]; [66]])], false).
Proof. reflexivity. Qed.

(** no bare indent() or dedent() *)
Fixpoint scoped (p : prog) : Prop :=
  match p with
  | FWrite _ _ | FSkip | FRaise => True
  | FIndent | FDedent => False
  | FIndented _ _ p => scoped p
  | FSeq p q => scoped p /\ scoped q
  end.

Lemma write_indent args ending f : f_indent (write args ending f) = f_indent f.
Proof.
  unfold write. cbn [track f_indent].
  assert (G : forall args g, f_indent (fold_left (fun f a => write_lines (splitlines a) f) args g) = f_indent g).
  { clear. induction args as [|a args IH]; simpl; intros g; auto. rewrite IH.
    destruct (splitlines a) as [|x l] eqn:E; [auto|]. rewrite <- E.
    apply write_lines_out. rewrite E. discriminate. }
  rewrite G. auto.
Qed.

(** ** The indentation is restored by indented blocks, also when an exception leaves them *)
Theorem C79_restored unit p : scoped p -> forall f, f_indent (fst (exec unit p f)) = f_indent f.
Proof.
  induction p as [args e| | |n s p IH|p IHp q IHq| |]; simpl; intros S f; try contradiction; auto.
  - exact (write_indent args e f).
  - specialize (IH S (deeper n s f)). destruct (exec unit p (deeper n s f)) as [f' r]. simpl in *. rewrite IH.
    rewrite app_length, repeat_length. replace (length (f_indent f) + n - n) with (length (f_indent f)) by lia.
    rewrite firstn_app, Nat.sub_diag, firstn_all. simpl. apply app_nil_r.
  - destruct S as [S1 S2]. specialize (IHp S1 f). destruct (exec unit p f) as [f' []]; simpl in *; auto. rewrite IHq; auto.
Qed.

Example C79_ex :
  let p := FIndented 1 [32] (FSeq (writeln [[65; nl; 66]]) (FIndented 2 [33] (FSeq (writeln [[67]]) FRaise))) in
  scoped p /\ exec [32] p fmt0 = (mkFmt [] [32; 65; nl; 32; 66; nl; 32; 33; 33; 67; nl] true
                                     [(1, [[65; nl; 66]]); (3, [[67]])], true).
Proof. vm_compute. tauto. Qed.

(** * C80: detailed tracebacks *)

(** the intended layout of a frame: depth and text of each line *)
Definition layout_vars (title : text) (vars : list text) : list (nat * list text) :=
  match vars with [] => [] | _ => (3, [title]) :: map (fun v => (4, [v])) vars end.

Definition layout_frame (gt lt prompt : text) (fr : frame) : list (nat * list text) :=
  (1, [fr_header fr]) :: (2, [prompt; fr_code fr]) :: layout_vars gt (fr_globals fr) ++ layout_vars lt (fr_locals fr).

(** exactly one of globals and locals is shown *)
Definition one_kind (fr : frame) : Prop :=
  (fr_globals fr = [] /\ fr_locals fr <> []) \/ (fr_globals fr <> [] /\ fr_locals fr = []).

Section T.
Variable unit : text.
Variables first_line gt lt prompt : text.

(** a program that does not fail, and what it does to depth and log *)
Definition does (p : prog) (f : fmt) (ind : list text) (l : list (nat * list text)) : Prop :=
  exists f', exec unit p f = (f', false) /\ f_indent f' = ind /\ f_log f' = f_log f ++ l.

Lemma does_seq p q f i1 l1 i2 l2 :
  does p f i1 l1 -> (forall f', f_indent f' = i1 -> does q f' i2 l2) -> does (FSeq p q) f i2 (l1 ++ l2).
Proof.
  intros (f1 & E & I & L) H. destruct (H f1 I) as (f2 & E2 & I2 & L2). exists f2. simpl. rewrite E, E2.
  split; auto. split; auto. rewrite L2, L. rewrite app_assoc. auto.
Qed.

Lemma write_log args ending f : f_log (write args ending f) = f_log f ++ [(length (f_indent f), args)].
Proof.
  unfold write. cbn [track f_log].
  assert (G : forall args g, f_log (fold_left (fun f a => write_lines (splitlines a) f) args g) = f_log g).
  { clear. induction args as [|a args IH]; simpl; intros g; auto. rewrite IH.
    destruct (splitlines a) as [|x l] eqn:E; [auto|]. rewrite <- E.
    apply write_lines_out. rewrite E. discriminate. }
  rewrite G. auto.
Qed.

Lemma does_writeln args f : does (writeln args) f (f_indent f) [(length (f_indent f), args)].
Proof. exists (write args [nl] f). split; auto. split; [apply write_indent|apply write_log]. Qed.

Lemma does_skip f : does FSkip f (f_indent f) [].
Proof. exists f. rewrite app_nil_r. auto. Qed.

Lemma does_vars title vars f : length (f_indent f) = 3 ->
  does (vars_prog title vars) f (match vars with [] => f_indent f | _ => f_indent f ++ [unit] end) (layout_vars title vars).
Proof.
  intros L. destruct vars as [|v vs]; [apply does_skip|]. unfold vars_prog, layout_vars.
  assert (W : forall vs f, length (f_indent f) = 4 ->
     does (seqs (map (fun v => writeln [v]) vs)) f (f_indent f) (map (fun v => (4, [v])) vs)).
  { clear. induction vs as [|v vs IH]; intros f L; [apply does_skip|].
    cbn [map seqs fold_right]. change ((4, [v]) :: map (fun v => (4, [v])) vs) with ([(4, [v])] ++ map (fun v => (4, [v])) vs).
    eapply does_seq; [rewrite <- L; apply does_writeln|].
    intros f' I. fold (seqs (map (fun v => writeln [v]) vs)). rewrite <- I. apply IH. rewrite I. auto. }
  change (seqs (writeln [title] :: FIndent :: map (fun v => writeln [v]) (v :: vs)))
    with (FSeq (writeln [title]) (FSeq FIndent (seqs (map (fun v => writeln [v]) (v :: vs))))).
  change ((3, [title]) :: map (fun v => (4, [v])) (v :: vs)) with ([(3, [title])] ++ ([] ++ map (fun v => (4, [v])) (v :: vs))).
  eapply does_seq; [rewrite <- L; apply does_writeln|]. intros f' I.
  eapply does_seq with (i1 := f_indent f ++ [unit]).
  - exists (deeper 1 unit f'). split; auto. split; [simpl; rewrite I; auto|simpl; rewrite app_nil_r; auto].
  - intros f2 I2. rewrite <- I2. apply W. rewrite I2, app_length. simpl. lia.
Qed.

Lemma does_indented p f i l : does p (deeper 1 unit f) i l -> does (FIndented 1 unit p) f (firstn (length i - 1) i) l.
Proof.
  intros (f' & E & I & L). exists (shallower 1 f'). simpl. rewrite E. split; auto. rewrite I. split; auto.
Qed.

Lemma does_frame fr f : one_kind fr -> length (f_indent f) = 1 ->
  does (frame_prog unit gt lt prompt fr) f (f_indent f) (layout_frame gt lt prompt fr).
Proof.
  intros K L. unfold frame_prog, layout_frame.
  set (lv := layout_vars gt (fr_globals fr) ++ layout_vars lt (fr_locals fr)).
  change ((1, [fr_header fr]) :: (2, [prompt; fr_code fr]) :: lv) with ([(1, [fr_header fr])] ++ ([(2, [prompt; fr_code fr])] ++ lv)).
  eapply does_seq; [rewrite <- L; apply does_writeln|]. intros f1 I1.
  assert (Z : f_indent f = firstn (length (f_indent f ++ [unit]) - 1) (f_indent f ++ [unit])).
  { rewrite app_length. simpl. rewrite L. simpl. destruct (f_indent f) as [|a [|]]; simpl in L; try discriminate. auto. }
  rewrite Z. apply does_indented. 
  assert (L2 : length (f_indent (deeper 1 unit f1)) = 2) by (simpl; rewrite I1, app_length, L; auto).
  eapply does_seq; [rewrite <- L2; apply does_writeln|]. intros f2 I2. simpl in I2.
  assert (Z2 : f_indent f ++ [unit] = firstn (length (f_indent f ++ [unit] ++ [unit]) - 1) (f_indent f ++ [unit] ++ [unit])).
  { destruct (f_indent f) as [|a [|]]; simpl in L; try discriminate. auto. }
  rewrite Z2. apply does_indented.
  assert (L3 : length (f_indent (deeper 1 unit f2)) = 3) by (simpl; rewrite I2, I1, !app_length, L; auto).
  assert (I3 : f_indent (deeper 1 unit f2) = f_indent f ++ [unit] ++ [unit]) by (simpl; rewrite I2, I1, <- app_assoc; auto).
  unfold lv. eapply does_seq; [apply does_vars; auto|]. intros f3 J3.
  rewrite <- (app_nil_r (layout_vars lt (fr_locals fr))).
  destruct K as [[G NL]|[NG LO]].
  - rewrite G in J3. eapply does_seq; [apply does_vars; rewrite J3; auto|]. intros f4 J4.
    destruct (fr_locals fr); [contradiction|]. exists (shallower 1 f4). split; auto. split; [|simpl; rewrite app_nil_r; auto].
    simpl. rewrite J4, J3, I3. destruct (f_indent f) as [|a [|]]; simpl in L; try discriminate. auto.
  - rewrite LO. change (vars_prog lt []) with FSkip. change (layout_vars lt [] ++ []) with (@nil (nat * list text) ++ []).
    eapply does_seq; [apply does_skip|]. intros f4 J4.
    destruct (fr_globals fr); [contradiction|]. exists (shallower 1 f4). split; auto. split; [|simpl; rewrite app_nil_r; auto].
    simpl. rewrite J4, J3, I3. destruct (f_indent f) as [|a [|]]; simpl in L; try discriminate. auto.
Qed.

(** ** All frames are laid out alike, if each shows either globals or locals *)
Theorem C80_layout_partial l : (forall fr, In fr l -> one_kind fr) ->
  f_log (fst (exec unit (traceback_prog unit first_line gt lt prompt l) fmt0)) =
    (0, [first_line]) :: flat_map (layout_frame gt lt prompt) l
  /\ f_indent (fst (exec unit (traceback_prog unit first_line gt lt prompt l) fmt0)) = [].
Proof.
  intros K.
  assert (W : forall l f, (forall fr, In fr l -> one_kind fr) -> length (f_indent f) = 1 ->
     does (seqs (map (frame_prog unit gt lt prompt) l)) f (f_indent f) (flat_map (layout_frame gt lt prompt) l)).
  { clear. induction l as [|fr l IH]; intros f K L; [apply does_skip|].
    cbn [map flat_map seqs fold_right]. eapply does_seq; [apply does_frame; auto; apply K; left; auto|].
    intros f' I. fold (seqs (map (frame_prog unit gt lt prompt) l)). rewrite <- I. apply IH; [|rewrite I; auto].
    intros fr' J. apply K. right; auto. }
  assert (D : does (traceback_prog unit first_line gt lt prompt l) fmt0 [] ((0, [first_line]) :: flat_map (layout_frame gt lt prompt) l)).
  { unfold traceback_prog. change ((0, [first_line]) :: flat_map (layout_frame gt lt prompt) l)
      with ([(0, [first_line])] ++ flat_map (layout_frame gt lt prompt) l).
    eapply does_seq; [apply (does_writeln [first_line] fmt0)|]. intros f I. simpl in I.
    change (@nil text) with (firstn (length [unit] - 1) [unit]). apply does_indented.
    replace [unit] with (f_indent (deeper 1 unit f)) by (simpl; rewrite I; auto). apply W; auto. simpl. rewrite I. auto. }
  destruct D as (f' & -> & A & B). simpl in *. auto.
Qed.
End T.

(** Frames with both globals and locals drift to the right, frames with neither to the
    left *)
Theorem C80_layout_refuted : exists unit first_line gt lt prompt fr,
  fr_globals fr <> [] /\ fr_locals fr <> [] /\
  exists d1 d2 t rest, 
    f_log (fst (exec unit (traceback_prog unit first_line gt lt prompt [fr; fr]) fmt0)) = rest ++ t /\
    In (d1, [fr_header fr]) rest /\ In (d2, [fr_header fr]) t /\ d1 = 1 /\ d2 = 2.
Proof.
  exists [32], [1], [2], [3], [4], (mkFrame [5] [6] [[7]] [[8]]). split; [discriminate|]. split; [discriminate|].
  exists 1, 2, [(2, [[5]]); (3, [[4]; [6]]); (4, [[2]]); (5, [[7]]); (5, [[3]]); (6, [[8]])],
    [(0, [[1]]); (1, [[5]]); (2, [[4]; [6]]); (3, [[2]]); (4, [[7]]); (4, [[3]]); (5, [[8]])].
  split; [reflexivity|]. simpl. auto 10.
Qed.

Theorem C80_left_refuted : exists unit first_line gt lt prompt fr,
  fr_globals fr = [] /\ fr_locals fr = [] /\
  f_log (fst (exec unit (traceback_prog unit first_line gt lt prompt [fr; fr]) fmt0)) =
    [(0, [first_line]); (1, [fr_header fr]); (2, [prompt; fr_code fr]); (0, [fr_header fr]); (1, [prompt; fr_code fr])].
Proof. exists [32], [1], [2], [3], [4], (mkFrame [5] [6] [] []). repeat split. Qed.

Example C80_ex : one_kind (mkFrame [5] [6] [] [[7]; [8]]) /\ one_kind (mkFrame [5] [6] [[7]; [8]] []).
Proof. split; [left|right]; split; auto; discriminate. Qed.

Print Assumptions C79_write_partial.
Print Assumptions C79_write_refuted.
Print Assumptions C79_writeln.
Print Assumptions C79_line_begins.
Print Assumptions C79_restored.
Print Assumptions C80_layout_partial.
Print Assumptions C80_layout_refuted.
Print Assumptions C80_left_refuted.
