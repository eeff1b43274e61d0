(** C136: messages of the console reporter.  C137: the number of collected tests. *)

From Coq Require Import List Bool Arith Ascii String Lia.
From Coq Require Decimal DecimalFacts DecimalNat.
From Verif Require Import Str Loader Terminal TerminalProps Messages.
Import ListNotations.
Local Open Scope list_scope.
Local Open Scope nat_scope.

Lemma write_nl w t : write w t [nl] = mkTerm (mkScreen (row (scr t) :: above (scr t)) [] 0) [].
Proof.
  unfold write, do_write. cbn [fold_left]. unfold put. change (Ascii.eqb nl cr) with false. change (Ascii.eqb nl nl) with true. cbv iota.
  f_equal. rewrite remainder_snoc. unfold step. change (Ascii.eqb nl nl) with true. rewrite orb_true_r. reflexivity.
Qed.

Lemma restore_nothing w s : restore w (mkTerm s []) = mkTerm s [].
Proof. unfold restore. cbn [line scr]. rewrite skipn_nil. reflexivity. Qed.

(** ** C136 *)

(** after a message the cursor is at the beginning of an empty row, and the reporter knows it *)
Theorem C136_ends markup w t msg : 1 <= w ->
  let t' := report_message markup w t msg in
  row (scr t') = [] /\ col (scr t') = 0 /\ line t' = [] /\ shows_line w t'.
Proof.
  intros W t'. unfold t', report_message, notify_after. rewrite write_nl. destruct markup; rewrite ?restore_nothing; cbn [scr row col line];
    (split; [reflexivity|split; [reflexivity|split; [reflexivity|split; [intros c []|split; reflexivity]]]]).
Qed.

(** a terminal whose row ends at the cursor *)
Definition nothing_behind (t : term) : Prop := skipn (col (scr t)) (row (scr t)) = [].

Lemma clear_row w t : 1 <= w -> shows_line w t -> nothing_behind t -> (line t = [] \/ List.length (line t) mod w <> 0) ->
  scr (clear w t) = mkScreen (above (scr t)) (blanks (List.length (line t) mod w)) 0 /\ line (clear w t) = line t.
Proof.
  intros W S B [E|N].
  - destruct S as (_ & C & R). rewrite E in C. cbn [List.length in_row] in C. unfold nothing_behind in B. rewrite C in B. cbn [skipn] in B.
    unfold clear. rewrite E. cbn [List.length]. rewrite Nat.mod_0_l by lia. split; [|exact E]. destruct (scr t) as [a r c]. cbn [row col above] in *. subst. reflexivity.
  - destruct (C99_redraw_partial w t [] W S N) as ((rest & R1 & R2) & _ & _).
    assert (CN : col (scr t) = List.length (line t) mod w).
    { destruct S as (_ & C & _). rewrite C. destruct (List.length (line t)) as [|m]; [cbn [in_row]; symmetry; apply Nat.mod_0_l; lia|]. cbn [in_row].
      clear - W N. pose proof (Nat.mod_upper_bound m w ltac:(lia)). pose proof (Nat.div_mod m w ltac:(lia)). destruct (Nat.eq_dec (Datatypes.S (m mod w)) w) as [E|E].
      - exfalso. apply N. symmetry. apply (Nat.mod_unique _ _ (Datatypes.S (m / w))); [lia|]. nia.
      - apply (Nat.mod_unique _ _ (m / w)); [lia|]. lia. }
    assert (rest = []) as ->.
    { unfold nothing_behind in B. rewrite R1, CN in B. rewrite skipn_app, skipn_length in B.
      pose proof (Nat.mod_le (List.length (line t)) w ltac:(lia)). apply app_eq_nil in B as [_ B].
      replace (_ - _) with 0 in B by lia. exact B. }
    rewrite List.app_nil_r in R2. split; [exact R2|]. unfold clear. destruct (line t) eqn:L; [exact L|reflexivity].
Qed.

Lemma skipn_blanks n k : skipn n (blanks k) = blanks (k - n).
Proof. unfold blanks. revert k. induction n as [|n IH]; intros [|k]; try reflexivity. cbn [repeat skipn]. rewrite IH. reflexivity. Qed.

(** on a terminal that understands '\r' a message has a row of its own: it begins in the first column, only blanks are behind
    it, and the rows above are as they were *)
Theorem C136_row w t msg : 1 <= w -> shows_line w t -> nothing_behind t -> (line t = [] \/ List.length (line t) mod w <> 0) ->
  plain msg -> List.length msg <= w ->
  exists n, scr (report_message true w t msg) = mkScreen ((msg ++ blanks n) :: above (scr t)) [] 0 /\ n <= List.length (line t).
Proof.
  intros W S B L P M. destruct (clear_row w t W S B L) as [C1 C2]. exists (List.length (line t) mod w - List.length msg).
  split; [|pose proof (Nat.mod_le (List.length (line t)) w ltac:(lia)); lia].
  unfold report_message, notify_before, notify_after. rewrite write_nl, restore_nothing. unfold write. cbn [scr]. rewrite C1, do_write_row by assumption.
  cbn [row above]. rewrite skipn_blanks. reflexivity.
Qed.

(** several messages, each in a row of its own, in their order *)
Theorem C136_messages w ms t : 1 <= w -> row (scr t) = [] -> col (scr t) = 0 -> line t = [] ->
  (forall m, In m ms -> plain m /\ List.length m <= w) ->
  scr (fold_left (report_message true w) ms t) = mkScreen (rev ms ++ above (scr t)) [] 0.
Proof.
  intros W. revert t. induction ms as [|m ms IH]; intros t R C L P; [destruct t as [[a r c] l]; cbn in *; subst; reflexivity|]. cbn [fold_left].
  destruct (P m (or_introl eq_refl)) as [P1 P2].
  assert (S : shows_line w t). { rewrite <- L in *. split; [rewrite L; intros c []|]. rewrite C, R, L. split; reflexivity. }
  destruct (C136_row w t m W S) as (n & E & N); auto; [unfold nothing_behind; rewrite R; apply skipn_nil|]. rewrite L in N. cbn in N. assert (n = 0) as -> by lia.
  cbn [blanks repeat] in E. rewrite List.app_nil_r in E. destruct (C136_ends true w t m W) as (E1 & E2 & E3 & _).
  rewrite IH; auto; [|intros x I; apply P; right; exact I]. rewrite E. cbn [above rev]. rewrite <- List.app_assoc. reflexivity.
Qed.

(** error messages and the notice of the debugger are messages with a text in front *)
Theorem C136_errors markup w t msg : report_error_message markup w t msg = report_message markup w t (lit "ERROR: " ++ msg).
Proof. reflexivity. Qed.

Theorem C136_debugger w t type value : 1 <= w -> shows_line w t ->
  report_before_debugger true w t type value = report_message true w t (lit "Exception caught in debugger: " ++ type ++ lit " " ++ value).
Proof.
  intros W S. unfold report_before_debugger, report_message. f_equal.
  replace (lit "Exception caught in debugger: " ++ type ++ lit " " ++ value ++ [nl]) with ((lit "Exception caught in debugger: " ++ type ++ lit " " ++ value) ++ [nl]) by (rewrite <- !List.app_assoc; reflexivity).
  set (m := lit "Exception caught in debugger: " ++ type ++ lit " " ++ value). unfold write at 1 2. cbn [scr line]. f_equal.
  - apply do_write_app.
  - unfold write. cbn [line]. rewrite List.app_assoc, !remainder_snoc. unfold step. change (Ascii.eqb nl nl) with true. rewrite !orb_true_r. reflexivity.
Qed.

(** ** What does not hold *)

(** the line in progress is not drawn again after a message (unlike after a log record, C99): the reporter writes the message as
    a part of the line; the results of the next tests of the file stand in a row without the name of the file *)
Theorem C136_lost_refuted : exists t, shows_line 80 t /\ nothing_behind t /\ row (scr t) = lit "f.py .." /\
  row (scr (restore 80 (other 80 (clear 80 t) (lit "log record" ++ [nl])))) = lit "f.py .." /\
  let t' := write 80 (report_message true 80 t (lit "Pausing")) (lit ".") in
  row (scr t') = lit "." /\ above (scr t') = [lit "Pausing"].
Proof.
  exists (write 80 blank (lit "f.py ..")). split; [apply write_shows; [lia|]; split; [intros c []|split; reflexivity]|]. repeat split.
Qed.

(** on a terminal that does not understand '\r' the message is not in a row of its own *)
Theorem C136_glued_refuted : exists t, shows_line 80 t /\ above (scr (report_message false 80 t (lit "Pausing"))) = [lit "f.py ..Pausing"].
Proof.
  exists (write 80 blank (lit "f.py ..")). split; [apply write_shows; [lia|]; split; [intros c []|split; reflexivity]|]. reflexivity.
Qed.

(** a line in progress that fills its row is not blanked before the message *)
Theorem C136_full_refuted : exists t, shows_line 10 t /\ nothing_behind t /\ above (scr (report_message true 10 t (lit "Paused"))) = [lit "Paused...."].
Proof.
  exists (write 10 blank (lit "f.py:.....")). split; [apply write_shows; [lia|]; split; [intros c []|split; reflexivity]|]. repeat split.
Qed.

Example C136_ex : let t := write 20 blank (lit "f.py ......") in
  shows_line 20 t /\ nothing_behind t /\ List.length (line t) mod 20 <> 0 /\ plain (lit "Paused") /\
  scr (report_message true 20 t (lit "Paused")) = mkScreen [lit "Paused     "] [] 0.
Proof.
  split; [apply write_shows; [lia|]; split; [intros c []|split; reflexivity]|]. split; [reflexivity|]. split; [vm_compute; discriminate|].
  split; [|reflexivity]. intros c I. cbn in I. intuition (subst; discriminate).
Qed.

(** ** C137 *)

Lemma digits_length n : List.length (digits n) = Decimal.nb_digits (Nat.to_uint n).
Proof. unfold digits, lit. generalize (Nat.to_uint n). induction u; cbn; congruence. Qed.

Lemma lsucc_digits d : Decimal.nb_digits d <= Decimal.nb_digits (Decimal.Little.succ d).
Proof. induction d; cbn [Decimal.Little.succ Decimal.nb_digits]; lia. Qed.

Lemma digits_S n : List.length (digits n) <= List.length (digits (S n)).
Proof. rewrite !digits_length, !DecimalNat.Unsigned.to_uint_alt, !DecimalFacts.nb_digits_rev. cbn [DecimalNat.Unsigned.to_lu]. apply lsucc_digits. Qed.

Lemma digits_le n m : n <= m -> List.length (digits n) <= List.length (digits m).
Proof. induction 1 as [|m L IH]; [lia|]. pose proof (digits_S m). lia. Qed.

Lemma digits_plain n : plain (digits n).
Proof. unfold digits, lit. generalize (Nat.to_uint n). induction u; cbn; intros c I; try contradiction; destruct I as [<-|I]; try (split; discriminate); apply (IHu c I). Qed.

(** the number that stands in the row while tests are collected, and at the end *)
Definition counting (n : nat) : str := digits n ++ lit " tests collected...".
Definition counted (n : nat) : str := digits n ++ lit " tests collected   ".

Lemma plain_app a b : plain a -> plain b -> plain (a ++ b).
Proof. intros A B c I. apply in_app_iff in I as [I|I]; auto. Qed.

Lemma counting_plain n : plain (counting n).
Proof. apply plain_app; [apply digits_plain|]. intros c I. cbn in I. intuition (subst; discriminate). Qed.
Lemma counted_plain n : plain (counted n).
Proof. apply plain_app; [apply digits_plain|]. intros c I. cbn in I. intuition (subst; discriminate). Qed.

Lemma counting_length n : List.length (counting n) = List.length (digits n) + 19.
Proof. unfold counting. rewrite app_length. reflexivity. Qed.
Lemma counted_length n : List.length (counted n) = List.length (digits n) + 19.
Proof. unfold counted. rewrite app_length. reflexivity. Qed.

Lemma overwrite w t x a : scr t = mkScreen a x (List.length x) \/ scr t = mkScreen a x 0 -> forall y, plain y -> List.length y <= w -> List.length x <= List.length y ->
  scr (write w (write w t [cr]) y) = mkScreen a y (List.length y).
Proof.
  intros E y P L M. unfold write. cbn [scr]. assert (C : do_write w (scr t) [cr] = mkScreen a x 0) by (destruct E as [-> | ->]; reflexivity).
  rewrite C, do_write_row by assumption. rewrite skipn_all2 by assumption. rewrite List.app_nil_r. reflexivity.
Qed.

(** on a terminal: while tests are collected one row shows the number of those collected so far, and nothing else is changed *)
Theorem C137_progress w t n : row (scr t) = [] -> col (scr t) = 0 -> List.length (counting n) <= w ->
  scr (collected true w t n) = mkScreen (above (scr t)) (counting n) (List.length (counting n)).
Proof.
  intros R C L. induction n as [|n IH].
  - cbn [collected]. unfold report_num_collected. apply (overwrite w t [] (above (scr t))); [left; destruct (scr t); cbn in *; subst; reflexivity|apply counting_plain|exact L|cbn; lia].
  - cbn [collected]. unfold report_num_collected at 1. pose proof (digits_S n). pose proof (counting_length n). pose proof (counting_length (S n)).
    apply (overwrite w _ (counting n) (above (scr t))) with (y := counting (S n)); [left; apply IH; lia|apply counting_plain|exact L|lia].
Qed.

(** when all are collected there is one row more, with the number of collected tests and nothing left of
    what stood there; the same if the output is no terminal *)
Theorem C137_end tty w t n : row (scr t) = [] -> col (scr t) = 0 -> List.length (counted n) <= w ->
  collect tty w t n = mkTerm (mkScreen (counted n :: above (scr t)) [] 0) [].
Proof.
  intros R C W. unfold collect, report_num_collected.
  replace (digits n ++ lit " tests collected" ++ lit "   " ++ [nl]) with (counted n ++ [nl]) by (unfold counted; rewrite <- !List.app_assoc; reflexivity).
  assert (X : forall u, write w u (counted n ++ [nl]) = write w (write w u (counted n)) [nl]).
  { intros u. unfold write. cbn [scr line]. f_equal; [apply do_write_app|]. rewrite List.app_assoc, !remainder_snoc. unfold step. change (Ascii.eqb nl nl) with true. rewrite !orb_true_r. reflexivity. }
  rewrite X, write_nl, X, write_nl. destruct tty.
  - rewrite (overwrite w _ (counting n) (above (scr t))); [reflexivity| |apply counted_plain|exact W|rewrite counting_length, counted_length; lia].
    left. apply C137_progress; auto. rewrite counting_length, <- counted_length. exact W.
  - assert (collected false w t n = t) as -> by (clear; induction n as [|m IH]; [reflexivity|exact IH]).
    unfold write. cbn [scr]. destruct (scr t) as [a r c]. cbn [row col above] in *. subst r c. rewrite do_write_row by (try apply counted_plain; assumption). cbn [row above].
    rewrite skipn_nil, List.app_nil_r. reflexivity.
Qed.

(** on a narrow terminal every test adds a row *)
Theorem C137_narrow_refuted : exists w, above (scr (collected true w blank 2)) = [lit "2 tests col"; lit "1 tests col"; lit "0 tests col"].
Proof. exists 11. vm_compute. reflexivity. Qed.

(** the row is that of the line in progress: what was written there before is overwritten *)
Theorem C137_line_refuted : exists t, shows_line 80 t /\ line t = lit "Loading:" /\ above (scr (collect true 80 t 3)) = [lit "3 tests collected   "].
Proof. exists (write 80 blank (lit "Loading:")). split; [apply write_shows; [lia|]; split; [intros c []|split; reflexivity]|]. split; reflexivity. Qed.

Example C137_ex : row (scr (report_message true 80 blank (lit "start"))) = [] /\ List.length (counted 12) <= 80 /\
  collect true 80 (report_message true 80 blank (lit "start")) 12 = mkTerm (mkScreen [lit "12 tests collected   "; lit "start"] [] 0) [].
Proof. split; [reflexivity|]. split; [vm_compute; lia|]. vm_compute. reflexivity. Qed.

Print Assumptions C136_ends.
Print Assumptions C136_row.
Print Assumptions C136_messages.
Print Assumptions C136_errors.
Print Assumptions C136_debugger.
Print Assumptions C136_lost_refuted.
Print Assumptions C136_glued_refuted.
Print Assumptions C136_full_refuted.
Print Assumptions C137_progress.
Print Assumptions C137_end.
Print Assumptions C137_narrow_refuted.
Print Assumptions C137_line_refuted.
