(** C151: log records between the pieces of a line in progress. *)

From Coq Require Import List Bool Arith Ascii String Lia.
From Verif Require Import Str Loader Terminal TerminalProps Messages MessagesProps Emit.
Import ListNotations.
Local Open Scope list_scope.
Local Open Scope nat_scope.

(** the pieces the reporter wrote, together *)
Definition pieces (acts : list act) : str := List.concat (map (fun a => match a with Progress s => s | Log _ => [] end) acts).

Lemma line_clear w t : line (clear w t) = line t.
Proof. unfold clear. destruct (line t) eqn:E; [exact E|reflexivity]. Qed.

Lemma line_emit session markup w t record : line (fst (emit session markup w t record)) = line t.
Proof.
  unfold emit, tell_before, tell_after, notify_before, notify_after, other, restore.
  destruct (told session) as [[|]|], markup, record; cbn [fst line]; rewrite ?line_clear; reflexivity.
Qed.

Lemma remainder_twice l s s' : plain l -> remainder (remainder (l ++ s) ++ s') = remainder (l ++ s ++ s').
Proof.
  intros P. assert (Q : plain (remainder (l ++ s))).
  { rewrite remainder_fold by exact P. revert l P. induction s as [|c s IH]; intros l P; [exact P|]. cbn [fold_left]. apply IH.
    unfold step. destruct (Ascii.eqb c cr) eqn:E1; [intros x []|]. destruct (Ascii.eqb c nl) eqn:E2; [intros x []|]. cbn [orb].
    apply Ascii.eqb_neq in E1, E2. intros x I. apply in_app_iff in I as [I|[<-|[]]]; [apply P; exact I|split; assumption]. }
  rewrite (remainder_fold _ s' Q), (remainder_fold l (s ++ s') P), (remainder_fold l s P), fold_left_app. reflexivity.
Qed.

(** Whoever is told and whatever is logged, in whatever order: the reporter's note of the line in progress is what it
    would be without the records. *)
Theorem C151_noted session markup w acts t : plain (line t) ->
  line (fold_left (act_on session markup w) acts t) = remainder (line t ++ pieces acts).
Proof.
  revert t. induction acts as [|a acts IH]; intros t P.
  - cbn. rewrite app_nil_r. symmetry. apply remainder_plain. exact P.
  - cbn [fold_left]. destruct a as [s|record].
    + change (pieces (Progress s :: acts)) with (s ++ pieces acts).
      rewrite IH; cbn [act_on]; unfold write; cbn [line]; [apply remainder_twice; exact P|].
      assert (G : shows_line 1 (write 1 (mkTerm (mkScreen [] [] 0) []) (line t ++ s))) by (apply write_shows; [lia|]; split; [intros c []|split; reflexivity]).
      destruct G as (G & _). exact G.
    + change (pieces (Log record :: acts)) with (pieces acts). rewrite IH; cbn [act_on]; rewrite line_emit; [reflexivity|exact P].
Qed.
Print Assumptions C151_noted.

(** no record is logged when the line in progress just fills a row, and all can be formatted *)
Definition room (w : nat) (l : str) (acts : list act) : Prop :=
  forall before record after, acts = before ++ Log record :: after ->
    record <> None /\ (let l' := remainder (l ++ pieces before) in l' = [] \/ List.length l' mod w <> 0).

Lemma emit_shows w t text : 1 <= w -> shows_line w t -> line t = [] \/ List.length (line t) mod w <> 0 ->
  shows_line w (restore w (other w (clear w t) (text ++ [nl]))).
Proof.
  intros W S [E|N].
  - destruct t as [s l]. cbn [line] in E. subst l. unfold clear. cbn [line]. unfold other. cbn [scr line]. rewrite restore_nothing, do_write_app.
    split; [intros c []|]. split; reflexivity.
  - destruct (C99_redraw_partial w t text W S N) as (_ & (rows & R) & L). cbn zeta in *. set (t' := restore w _) in *.
    assert (M : List.length (line t) mod w <= List.length (line t)) by (apply Nat.mod_le; lia).
    assert (I : in_row w (List.length (line t)) = List.length (line t) mod w).
    { destruct (List.length (line t)) as [|m]; [exfalso; apply N; apply Nat.mod_0_l; lia|]. cbn [in_row].
      clear - W N. pose proof (Nat.div_mod m w ltac:(lia)) as D. pose proof (Nat.mod_upper_bound m w ltac:(lia)) as B.
      destruct (Nat.eq_dec (S (m mod w)) w) as [E|E].
      - exfalso. apply N. symmetry. apply (Nat.mod_unique _ _ (S (m / w))); [lia|]. nia.
      - apply (Nat.mod_unique _ _ (m / w)); [lia|]. lia. }
    unfold shows_line. rewrite L, R. cbn [col row]. split; [apply S|]. split; [symmetry; exact I|].
    rewrite firstn_all2; [reflexivity|]. rewrite skipn_length. lia.
Qed.

(** The records that come in between leave the line in progress on the screen: after each of them its last row is drawn
    again and the cursor stands behind it. *)
Theorem C151_shown w acts t : 1 <= w -> shows_line w t -> room w (line t) acts ->
  shows_line w (fold_left (act_on (Some (Some Console)) true w) acts t).
Proof.
  intros W. revert t. induction acts as [|a acts IH]; intros t S R; [exact S|]. cbn [fold_left]. apply IH.
  - destruct a as [s|record]; [apply write_shows; assumption|].
    destruct (R [] record acts eq_refl) as [F N]. destruct record as [text|]; [|congruence]. cbn in N. rewrite app_nil_r, remainder_plain in N by apply S.
    cbn [act_on fst emit told tell_before tell_after notify_before notify_after]. apply emit_shows; assumption.
  - intros before record after E. destruct (R (a :: before) record after) as [F N]; [rewrite E; reflexivity|]. split; [exact F|].
    cbn zeta in *. destruct a as [s|r].
    + change (pieces (Progress s :: before)) with (s ++ pieces before) in N. cbn [act_on]. unfold write. cbn [line]. rewrite remainder_twice by apply S. exact N.
    + cbn [act_on]. rewrite line_emit. exact N.
Qed.
Print Assumptions C151_shown.

(** A record that fits in a row has a row of its own, directly above the line in progress: nothing of that line is left
    in it. *)
Theorem C151_row w t text : 1 <= w -> shows_line w t -> nothing_behind t -> (line t = [] \/ List.length (line t) mod w <> 0) ->
  plain text -> List.length text <= w ->
  exists n, above (scr (fst (emit (Some (Some Console)) true w t (Some text)))) = (text ++ blanks n) :: above (scr t).
Proof.
  intros W S B L P M. destruct (clear_row w t W S B L) as [C1 C2]. exists (List.length (line t) mod w - List.length text).
  cbn [emit told tell_before tell_after notify_before notify_after fst]. unfold other.
  assert (K : do_write w (scr (clear w t)) (text ++ [nl]) = mkScreen ((text ++ blanks (List.length (line t) mod w - List.length text)) :: above (scr t)) [] 0).
  { rewrite C1, do_write_app, do_write_row by (try exact P; cbn; lia). unfold do_write. cbn [fold_left]. unfold put.
    change (Ascii.eqb nl cr) with false. change (Ascii.eqb nl nl) with true. cbn [row above]. f_equal. f_equal. f_equal.
    unfold blanks. remember (List.length (line t) mod w) as k. clear. generalize (List.length text) as j. intros j. revert k. induction j as [|j IH]; intros [|k]; cbn; try reflexivity. apply IH. }
  rewrite K. unfold restore. cbn [scr line]. rewrite line_clear. set (n := List.length (line t) mod w).
  assert (NL : n <= List.length (line t)) by (apply Nat.mod_le; lia). assert (NW : n < w) by (apply Nat.mod_upper_bound; lia).
  rewrite do_write_row.
  - reflexivity.
  - intros c I. apply S. rewrite <- (firstn_skipn (List.length (line t) - n) (line t)). apply in_app_iff. right. exact I.
  - cbn. rewrite skipn_length. lia.
Qed.
Print Assumptions C151_row.

(** emit returns exactly if the record can be formatted *)
Theorem C151_returns session markup w t record : snd (emit session markup w t record) = true <-> record <> None.
Proof. destruct record; cbn; split; congruence. Qed.

(** Without a session, or with one that has no reporter or one that does not care, the terminal gets the text and nothing
    else; a console's reporter without '\r' adds nothing to it either. *)
Theorem C151_plain session markup w t text : session <> Some (Some Console) \/ markup = false ->
  fst (emit session markup w t (Some text)) = mkTerm (do_write w (scr t) (text ++ [nl])) (line t).
Proof. intros H. unfold emit, tell_before, tell_after, notify_before, notify_after, other. destruct session as [[[|]|]|], markup; cbn; try reflexivity. destruct H; congruence. Qed.
Print Assumptions C151_plain.

(** ... so that the record is glued to the line in progress, which is not drawn again: without '\r', *)
Theorem C151_glued_refuted : exists t, shows_line 80 t /\
  let t' := fst (emit (Some (Some Console)) false 80 t (Some (lit "record"))) in
  above (scr t') = [lit "f.py ..record"] /\ row (scr t') = [] /\ line t' = lit "f.py .." /\ ~ shows_line 80 t'.
Proof.
  exists (write 80 blank (lit "f.py ..")). split; [apply write_shows; [lia|]; split; [intros c []|split; reflexivity]|].
  split; [reflexivity|]. split; [reflexivity|]. split; [reflexivity|]. intros (_ & C & _). vm_compute in C. discriminate.
Qed.
Print Assumptions C151_glued_refuted.

(** A record that cannot be formatted takes the line in progress from the screen: the reporter is told before it but not
    after it.  It comes back with the next record that can be; what the reporter writes until then is at the place of the line's beginning. *)
Theorem C151_failing_refuted : exists t, shows_line 80 t /\
  let t1 := fst (emit (Some (Some Console)) true 80 t None) in
  ~ shows_line 80 t1 /\ row (scr t1) = blanks 7 /\ row (scr (write 80 t1 (lit "."))) = lit "." ++ blanks 6 /\
  row (scr (fst (emit (Some (Some Console)) true 80 t1 (Some (lit "record"))))) = lit "f.py ..".
Proof.
  exists (write 80 blank (lit "f.py ..")). split; [apply write_shows; [lia|]; split; [intros c []|split; reflexivity]|].
  split; [intros (_ & C & _); vm_compute in C; discriminate|]. repeat split; reflexivity.
Qed.
Print Assumptions C151_failing_refuted.

(** the hypotheses are met *)
Definition ex_acts : list act := [Progress (lit "f.py "); Log (Some (lit "one")); Progress (lit ".."); Log (Some (lit "two")); Progress (lit ".")].

Example C151_ex : shows_line 20 blank /\ room 20 (line blank) ex_acts /\
  scr (fold_left (act_on (Some (Some Console)) true 20) ex_acts blank) = mkScreen [lit "two    "; lit "one  "] (lit "f.py ...") 8 /\
  remainder (line blank ++ pieces ex_acts) = lit "f.py ...".
Proof.
  split; [split; [intros c []|split; reflexivity]|]. split.
  - intros before record after E. unfold ex_acts in E.
    destruct before as [|a [|b [|c [|d [|e [|f before]]]]]]; cbn in E; try discriminate; injection E; intros; subst;
      (split; [discriminate|]; cbn zeta; right; vm_compute; discriminate).
  - split; vm_compute; reflexivity.
Qed.
