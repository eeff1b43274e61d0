(** C53: console lines are bounded and keep their beginning. *)

From Coq Require Import List Bool Arith Ascii String Lia.
From Verif Require Import Str ConsoleLines.
Import ListNotations.

Definition no_break (l : str) : Prop := forall c, In c l -> is_brk c = false.

(** the lines of a text *)
Inductive lines_of : str -> list str -> Prop :=
| lo_end : lines_of [] []
| lo_last l : l <> [] -> no_break l -> lines_of l [l]
| lo_crlf l rest ls : no_break l -> lines_of rest ls -> lines_of (l ++ CR :: LF :: rest) (l :: ls)
| lo_break l c rest ls : no_break l -> is_brk c = true -> (c = CR -> hd_error rest <> Some LF) ->
    lines_of rest ls -> lines_of (l ++ c :: rest) (l :: ls).

Lemma no_break_snoc l c : no_break l -> is_brk c = false -> no_break (l ++ [c]).
Proof. intros H E x I. apply in_app_or in I as [I|[<-|[]]]; auto. Qed.

Lemma splitlines_from_spec n : forall s cur, List.length s <= n -> no_break cur -> lines_of (cur ++ s) (splitlines_from cur s).
Proof.
  induction n as [|n IH]; intros s cur L N.
  - destruct s; simpl in L; [|lia]. rewrite app_nil_r. simpl. destruct cur as [|c cur]; constructor; auto. discriminate.
  - destruct s as [|c s]; simpl.
    + rewrite app_nil_r. destruct cur as [|c cur]; constructor; auto. discriminate.
    + simpl in L. destruct (is_brk c) eqn:B.
      * destruct s as [|d s'].
        -- apply lo_break; auto; try discriminate; try constructor.
        -- destruct (Ascii.eqb_spec c CR) as [->|Nc]; simpl.
           ++ destruct (Ascii.eqb_spec d LF) as [->|Nd]; simpl.
              ** apply lo_crlf; auto. apply (IH s' []); [simpl in L; lia|]. intros x [].
              ** apply lo_break; [exact N|exact B|intros _ Q; injection Q; exact Nd|]. apply (IH (d :: s') []); [lia|]. intros x [].
           ++ apply lo_break; [exact N|exact B|congruence|]. apply (IH (d :: s') []); [lia|]. intros x [].
      * replace (cur ++ c :: s) with ((cur ++ [c]) ++ s) by (rewrite <- app_assoc; auto).
        apply IH; [lia|]. apply no_break_snoc; auto.
Qed.

Lemma splitlines_spec s : lines_of s (splitlines s).
Proof. apply (splitlines_from_spec (List.length s) s []); auto. intros x []. Qed.

Lemma lines_no_break s ls : lines_of s ls -> Forall no_break ls.
Proof. induction 1; auto. Qed.

Lemma lines_length s ls : lines_of s ls -> forall l, In l ls -> List.length l <= List.length s.
Proof.
  induction 1 as [|l N B|l rest ls B H IH|l c rest ls B K Q H IH]; intros x I.
  - destruct I.
  - destruct I as [<-|[]]; auto.
  - rewrite app_length. simpl. destruct I as [<-|I]; [lia|]. specialize (IH x I). lia.
  - rewrite app_length. simpl. destruct I as [<-|I]; [lia|]. specialize (IH x I). lia.
Qed.

Lemma cut_length max l : 3 <= max -> List.length (cut max l) <= max.
Proof.
  intro M. unfold cut. destruct (Nat.ltb_spec max (List.length l)); [|auto].
  rewrite app_length, firstn_length. simpl. lia.
Qed.

Lemma cut_no_break max l : no_break l -> no_break (cut max l).
Proof.
  intro N. unfold cut. destruct (max <? List.length l); auto. intros c I.
  apply in_app_or in I as [I|I].
  - apply N. rewrite <- (firstn_skipn (max - 3) l). apply in_or_app. auto.
  - simpl in I. repeat (destruct I as [<-|I]; [reflexivity|]). destruct I.
Qed.

Lemma app_split {A} (a b x y : list A) : a ++ b = x ++ y ->
  (exists m, a = x ++ m /\ y = m ++ b) \/ (exists m, x = a ++ m /\ b = m ++ y).
Proof.
  revert x. induction a as [|h a IH]; intros x E; simpl in *.
  - right. exists x. auto.
  - destruct x as [|k x]; simpl in *.
    + left. exists (h :: a). auto.
    + injection E as -> E. destruct (IH x E) as [(m & -> & ->)|(m & -> & ->)]; [left|right]; eauto.
Qed.

(** a piece without line break lies inside one line *)
Lemma piece_in_line ls a seg b :
  join_lines ls = a ++ seg ++ b -> no_break seg -> seg <> [] ->
  exists l, In l ls /\ List.length seg <= List.length l.
Proof.
  revert a. induction ls as [|l ls IH]; intros a E N Z.
  - destruct a, seg; try discriminate. congruence.
  - destruct ls as [|l2 ls].
    + simpl in E. exists l. split; [left; auto|]. rewrite E, !app_length. lia.
    + change (join_lines (l :: l2 :: ls)) with (l ++ LF :: join_lines (l2 :: ls)) in E.
      destruct (app_split _ _ _ _ E) as [(m & E1 & E2)|(m & E1 & E2)].
      * (* a is a prefix of l *)
        destruct (app_split seg b m (LF :: join_lines (l2 :: ls)) E2) as [(m' & E3 & E4)|(m' & E3 & E4)].
        -- destruct m' as [|c m']; simpl in E4.
           ++ rewrite app_nil_r in E3. subst. exists (a ++ m). split; [left; auto|]. rewrite app_length. lia.
           ++ injection E4 as <- E4. exfalso.
              assert (X : is_brk LF = false) by (apply N; rewrite E3; apply in_or_app; right; left; auto).
              vm_compute in X. discriminate.
        -- subst. exists (a ++ seg ++ m'). split; [left; auto|]. rewrite !app_length. lia.
      * destruct m as [|c m]; simpl in E2.
        -- destruct seg as [|c seg]; [congruence|]. injection E2 as <- E2. exfalso.
           assert (X : is_brk LF = false) by (apply N; left; auto). vm_compute in X. discriminate.
        -- injection E2 as <- E2. destruct (IH m E2 N Z) as (x & I & L). exists x. split; [right; auto|auto].
Qed.

(** Lines of the message part of the console output: any piece of it without a line
    break has at most 160 characters. *)
Theorem C53_bounded T is_error msg a seg b :
  t_lines T = true -> t_errors T = true \/ is_error = false ->
  console_message T is_error msg = a ++ seg ++ b -> no_break seg ->
  List.length seg <= 160.
Proof.
  intros HT HE E N. destruct seg as [|c seg]; [simpl; lia|]. unfold console_message in E. rewrite HT in E.
  replace (t_errors T || negb is_error) with true in E
    by (destruct HE as [-> | ->]; [auto|rewrite orb_true_r; auto]).
  simpl andb in E. destruct (Nat.ltb_spec MAX_LINE (List.length msg)) as [L|L]; simpl andb in E; cbv iota in E.
  - destruct (piece_in_line _ _ _ _ E N ltac:(discriminate)) as (l & I & Q).
    apply in_map_iff in I as (l0 & <- & I). etransitivity; [exact Q|]. apply (cut_length MAX_LINE). unfold MAX_LINE. lia.
  - unfold MAX_LINE in L. rewrite E, !app_length in L. lia.
Qed.

(** Line by line: what is printed are the lines of the message, the long ones cut. *)
Theorem C53_lines T is_error msg :
  t_lines T = true -> t_errors T = true \/ is_error = false ->
  (List.length msg <= 160 -> console_message T is_error msg = msg)
  /\ (160 < List.length msg ->
      exists ls ls', lines_of msg ls /\ console_message T is_error msg = join_lines ls'
        /\ Forall2 (fun l l' => (List.length l <= 160 -> l' = l)
                                /\ (160 < List.length l -> List.length l' = 160
                                    /\ exists p q, List.length p = 157 /\ l = p ++ q /\ l' = p ++ dots)) ls ls').
Proof.
  intros HT HE. unfold console_message. rewrite HT.
  replace (t_errors T || negb is_error) with true
    by (destruct HE as [-> | ->]; [auto|rewrite orb_true_r; auto]).
  rewrite andb_true_r. simpl andb.
  destruct (Nat.ltb_spec MAX_LINE (List.length msg)) as [L|L]; unfold MAX_LINE in L; split; intro Q; try lia; auto.
  exists (splitlines msg), (map (cut MAX_LINE) (splitlines msg)).
  split; [apply splitlines_spec|]. split; auto.
  induction (splitlines msg) as [|l ls IH]; simpl; constructor; auto.
  unfold cut, MAX_LINE. destruct (Nat.ltb_spec 160 (List.length l)) as [K|K]; split; intro; try lia; auto.
  assert (F : List.length (firstn (160 - 3) l) = 157) by (rewrite firstn_length; lia).
  split; [rewrite app_length, F; reflexivity|].
  exists (firstn (160 - 3) l), (skipn (160 - 3) l). split; auto. split; [symmetry; apply firstn_skipn|auto].
Qed.

(** Without truncation, or for errors when they are exempt, nothing is changed. *)
Theorem C53_untouched T is_error msg :
  t_lines T = false \/ (t_errors T = false /\ is_error = true) -> console_message T is_error msg = msg.
Proof.
  unfold console_message. intros [-> | [-> ->]]; auto. rewrite andb_false_r. auto.
Qed.

(** The whole console line is not bounded: the time stamp comes on top. *)
Theorem C53_whole_line_refuted :
  exists pre T msg, t_lines T = true /\ no_break (console_output pre [] T false msg)
    /\ 160 < List.length (console_output pre [] T false msg).
Proof.
  exists (lit "[2020-01-01 00:00:00] "%string), (mkT true false), (List.repeat "a"%char 161).
  split; [auto|]. split.
  - intros c I. destruct (in_app_or _ _ _ I) as [J|J].
    + vm_compute in J. repeat (destruct J as [<-|J]; [reflexivity|]). destruct J.
    + vm_compute in J. repeat (destruct J as [<-|J]; [reflexivity|]). destruct J.
  - vm_compute. lia.
Qed.

(** Values in tracebacks. *)
Theorem C53_repr r :
  List.length (safe_repr true r) <= 100
  /\ (List.length r <= 100 -> safe_repr true r = r)
  /\ (100 < List.length r -> exists p q, List.length p = 97 /\ r = p ++ q /\ safe_repr true r = p ++ dots)
  /\ safe_repr false r = r.
Proof.
  unfold safe_repr. split; [apply cut_length; unfold MAX_REPR; lia|].
  unfold cut, MAX_REPR. destruct (Nat.ltb_spec 100 (List.length r)).
  - split; [lia|]. split; auto. intros _. exists (firstn (100 - 3) r), (skipn (100 - 3) r).
    split; [rewrite firstn_length; lia|]. split; [symmetry; apply firstn_skipn|auto].
  - split; auto. split; auto. lia.
Qed.

(** a message of a short and a long line *)
Definition ex_msg : str := lit "ab"%string ++ CR :: LF :: List.repeat "x"%char 200.
Example C53_ex :
  console_message (mkT true false) false ex_msg = lit "ab"%string ++ LF :: List.repeat "x"%char 157 ++ dots
  /\ console_message (mkT true false) true ex_msg = ex_msg.
Proof. split; vm_compute; reflexivity. Qed.

Print Assumptions C53_bounded.
Print Assumptions C53_lines.
Print Assumptions C53_untouched.
Print Assumptions C53_whole_line_refuted.
Print Assumptions C53_repr.
