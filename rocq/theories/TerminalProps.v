(** C99: boxes are rectangular, the line in progress is drawn again, durations are
    hours, minutes and seconds. *)

From Coq Require Import List Bool Arith ZArith QArith Qround Ascii String Lia Lqa.
From Verif Require Import Str Terminal.
Import ListNotations.
Local Open Scope list_scope.
Local Open Scope nat_scope.

(** ** Boxes *)

Lemma box_line_length w l : List.length l + 3 <= w -> List.length (box_line w l) = w.
Proof.
  intros H. unfold box_line, blanks. rewrite !app_length, repeat_length. change (List.length (lit "* ")) with 2. change (List.length (lit "*")) with 1. lia.
Qed.

(** Every line of a box is as wide as the box (and so fits the terminal), if the
    headline is not more than twice as long as the space for it; the lines of the
    message are in it, in their order, with stars on both sides. *)
Theorem C99_box_partial wrap fullwidth headline msg :
  (forall l n x, In x (wrap l n) -> List.length x <= n) -> 7 <= fullwidth -> List.length headline <= 2 * (box_width fullwidth - 6) ->
  exists top rows bottom,
    write_box wrap fullwidth headline msg = nl :: flat_map (fun l => l ++ [nl]) (top :: rows ++ [bottom]) ++ [nl] /\
    (forall l, In l (top :: rows ++ [bottom]) -> List.length l = box_width fullwidth /\ List.length l <= fullwidth) /\
    (forall i l, nth_error rows i = Some l -> exists x b, l = lit "* " ++ x ++ b ++ lit "*" /\ (forall c, In c b -> c = " "%char) /\
       nth_error (flat_map (fun l => match l with [] => [[]] | _ => wrap l (box_width fullwidth - 4) end) (split_all nl msg)) i = Some x) /\
    List.length rows = List.length (flat_map (fun l => match l with [] => [[]] | _ => wrap l (box_width fullwidth - 4) end) (split_all nl msg)).
Proof.
  intros W F H. set (w := box_width fullwidth) in *. assert (w7 : 7 <= w) by (unfold w, box_width; lia). assert (wf : w <= fullwidth) by (unfold w, box_width; lia).
  set (g := fun l : str => match l with [] => [[]] | _ => wrap l (w - 4) end).
  assert (E : flat_map (fun l => match l with [] => [box_line w []] | _ => map (box_line w) (wrap l (w - 4)) end) (split_all nl msg) =
              map (box_line w) (flat_map g (split_all nl msg))).
  { induction (split_all nl msg) as [|l ls IH]; [reflexivity|]. cbn [flat_map]. rewrite map_app, IH. destruct l; reflexivity. }
  assert (G : forall x, In x (flat_map g (split_all nl msg)) -> List.length x + 3 <= w).
  { intros x I. apply in_flat_map in I as (l & _ & I). unfold g in I. destruct l; [destruct I as [<-|[]]; cbn; lia|]. apply W in I. lia. }
  exists (lit "** " ++ cut_headline w headline ++ lit " " ++ stars (w - (List.length (cut_headline w headline) + 4))),
    (map (box_line w) (flat_map g (split_all nl msg))), (stars w).
  split; [unfold write_box, box_lines; fold w; rewrite E; cbn [app]; reflexivity|]. split; [|split].
  - intros l I. assert (List.length l = w); [|lia]. destruct I as [<-|I].
    + rewrite !app_length. change (List.length (lit "** ")) with 3. change (List.length (lit " ")) with 1. unfold stars. rewrite repeat_length.
      assert (C : List.length (cut_headline w headline) <= w - 6).
      { unfold cut_headline. destruct (Nat.ltb_spec (w - 6) (List.length headline)); [rewrite skipn_length|]; lia. }
      lia.
    + apply in_app_iff in I as [I|[<-|[]]]; [|apply repeat_length]. apply in_map_iff in I as (x & <- & I). apply box_line_length. apply G. exact I.
  - intros i l N. rewrite nth_error_map in N. destruct (nth_error (flat_map g (split_all nl msg)) i) as [x|]; [|discriminate]. injection N as <-.
    exists x, (blanks (w - (List.length x + 3))). split; [reflexivity|]. split; [|reflexivity]. intros c I. apply repeat_spec in I. exact I.
  - apply map_length.
Qed.

(** Of a headline that is too long it is the beginning that is lost; and one more
    than twice too long makes the first line wider than the box. *)
Theorem C99_box_refuted :
  (exists h, cut_headline 60 (h ++ lit "!") = lit "!" /\ 50 <= List.length h) /\
  (exists wrap h l rest, box_lines wrap (box_width 80) h [] = l :: rest /\ box_width 80 < List.length l).
Proof.
  split.
  - exists (repeat "a"%char 54). split; [reflexivity|]. rewrite repeat_length. lia.
  - exists (fun l _ => [l]), (repeat "a"%char 120), (lit "** " ++ repeat "a"%char 66 ++ lit " "), [box_line 60 []; stars 60].
    split; [vm_compute; reflexivity|]. vm_compute. lia.
Qed.

(** A left-justified line fits the terminal, if its text does. *)
Theorem C99_lsep fullwidth sep msg : sep <> [] -> List.length msg + 1 <= fullwidth ->
  exists l, lsep fullwidth sep msg = l ++ [nl] /\ List.length l <= fullwidth /\ fullwidth < List.length l + List.length sep.
Proof.
  intros S H. unfold lsep. exists (msg ++ [" "%char] ++ List.concat (repeat sep ((fullwidth - 1 - List.length msg) / List.length sep))).
  split; [rewrite <- !app_assoc; reflexivity|].
  assert (L : 0 < List.length sep) by (destruct sep; [contradiction|cbn; lia]).
  rewrite !app_length. cbn [List.length].
  assert (C : forall k, List.length (List.concat (repeat sep k)) = k * List.length sep).
  { induction k as [|k IH]; [reflexivity|]. cbn [repeat List.concat]. rewrite app_length, IH. reflexivity. }
  rewrite C. pose proof (Nat.div_mod (fullwidth - 1 - List.length msg) (List.length sep)) as D.
  pose proof (Nat.mod_upper_bound (fullwidth - 1 - List.length msg) (List.length sep)) as M. nia.
Qed.

(** ** The line in progress *)

(** one character more of the line in progress: '\r' and '\n' begin a new one *)
Definition step (l : str) (c : ascii) : str := if Ascii.eqb c cr || Ascii.eqb c nl then [] else l ++ [c].

(** no line end in it *)
Definition plain (l : str) : Prop := forall c, In c l -> c <> cr /\ c <> nl.

Lemma before_app c a b : before c (a ++ b) = if existsb (fun x => Ascii.eqb x c) a then before c a else a ++ before c b.
Proof.
  induction a as [|x a IH]; [reflexivity|]. cbn [app before existsb]. destruct (Ascii.eqb x c); [reflexivity|]. cbn [orb]. rewrite IH.
  destruct (existsb _ a); reflexivity.
Qed.

Lemma after_last_snoc c s x : after_last c (s ++ [x]) = if Ascii.eqb x c then [] else after_last c s ++ [x].
Proof.
  unfold after_last. rewrite rev_app_distr. cbn [rev app before]. destruct (Ascii.eqb x c); reflexivity.
Qed.

Lemma remainder_snoc s x : remainder (s ++ [x]) = step (remainder s) x.
Proof.
  unfold remainder, step. rewrite after_last_snoc. destruct (Ascii.eqb x cr) eqn:E; [reflexivity|]. rewrite after_last_snoc.
  destruct (Ascii.eqb x nl); reflexivity.
Qed.

Lemma remainder_plain l : plain l -> remainder l = l.
Proof.
  induction l as [|x l IH] using rev_ind; intros P; [reflexivity|]. rewrite remainder_snoc.
  rewrite IH by (intros c I; apply P; apply in_app_iff; left; exact I).
  unfold step. destruct (P x) as [A B]; [apply in_app_iff; right; left; reflexivity|].
  apply Ascii.eqb_neq in A, B. rewrite A, B. reflexivity.
Qed.

Lemma remainder_fold l s : plain l -> remainder (l ++ s) = fold_left step s l.
Proof.
  intros P. revert s. assert (G : forall s, remainder (l ++ s) = fold_left step s l).
  { induction s as [|x s IH] using rev_ind; [rewrite app_nil_r; apply remainder_plain; exact P|].
    rewrite app_assoc, remainder_snoc, IH, fold_left_app. reflexivity. }
  exact G.
Qed.

(** the number of characters of the line in progress that are in the current row *)
Definition in_row (w n : nat) : nat := match n with 0 => 0 | S m => S (m mod w) end.

(** the screen shows the line in progress: the current row begins with its last
    part, and the cursor stands behind it *)
Definition shows_line (w : nat) (t : term) : Prop :=
  plain (line t) /\ col (scr t) = in_row w (List.length (line t)) /\
  firstn (col (scr t)) (row (scr t)) = skipn (List.length (line t) - col (scr t)) (line t).

Lemma in_row_le w n : in_row w n <= n.
Proof. destruct n as [|n]; [reflexivity|]. cbn [in_row]. destruct w as [|w]; [reflexivity|]. pose proof (Nat.mod_le n (S w)). lia. Qed.

Lemma in_row_S w n : 1 <= w -> in_row w (S n) = if w <=? in_row w n then 1 else S (in_row w n).
Proof.
  intros W. cbn [in_row]. destruct n as [|n].
  - cbn [in_row]. rewrite Nat.mod_0_l by lia. destruct (Nat.leb_spec w 0); [lia|reflexivity].
  - cbn [in_row]. pose proof (Nat.div_mod n w ltac:(lia)) as D. pose proof (Nat.mod_upper_bound n w ltac:(lia)) as M.
    destruct (Nat.leb_spec w (S (n mod w))) as [L|L].
    + f_equal. symmetry. apply (Nat.mod_unique _ _ (S (n / w))); [lia|]. nia.
    + f_equal. symmetry. apply (Nat.mod_unique _ _ (n / w)); [lia|]. lia.
Qed.

Lemma put_shows w s l c : 1 <= w -> shows_line w (mkTerm s l) -> shows_line w (mkTerm (put w s c) (step l c)).
Proof.
  intros W (P & C & R). cbn [scr line] in *. unfold shows_line, put, step. cbn [scr line].
  destruct (Ascii.eqb c cr) eqn:E1; [cbn [orb col row List.length in_row]; repeat split; intros; destruct H|].
  destruct (Ascii.eqb c nl) eqn:E2; [cbn [orb col row List.length in_row]; repeat split; intros; destruct H|]. cbn [orb].
  apply Ascii.eqb_neq in E1, E2. split.
  { intros x I. apply in_app_iff in I as [I|[<-|[]]]; [apply P; exact I|split; assumption]. }
  rewrite app_length. cbn [List.length]. rewrite Nat.add_1_r, in_row_S, <- C by exact W. destruct (w <=? col s); cbn [col row].
  - split; [reflexivity|]. cbn [firstn]. replace (S (List.length l) - 1) with (List.length l) by lia. rewrite skipn_app, skipn_all, Nat.sub_diag. reflexivity.
  - split; [reflexivity|]. pose proof (in_row_le w (List.length l)) as LE. rewrite <- C in LE.
    assert (F : List.length (firstn (col s) (row s)) = col s) by (rewrite R, skipn_length; lia).
    replace (S (col s)) with (List.length (firstn (col s) (row s) ++ [c]) + 0) at 1 by (rewrite app_length, F; cbn; lia).
    rewrite app_assoc, firstn_app_2. cbn [firstn]. rewrite app_nil_r, R. replace (S (List.length l) - S (col s)) with (List.length l - col s) by lia.
    rewrite skipn_app. replace (List.length l - col s - List.length l) with 0 by lia. reflexivity.
Qed.

Lemma write_shows w t s : 1 <= w -> shows_line w t -> shows_line w (write w t s).
Proof.
  intros W H. unfold write, do_write. rewrite remainder_fold by apply H. destruct t as [sc l]. cbn [scr line]. revert sc l H.
  induction s as [|c s IH]; intros sc l H; [exact H|]. cbn [fold_left]. apply IH. apply put_shows; assumption.
Qed.

(** a blank screen *)
Definition blank : term := mkTerm (mkScreen [] [] 0) [].

(** However the reporter writes, the line it has noted is the one in progress on
    the terminal. *)
Theorem C99_in_progress w ss : 1 <= w -> shows_line w (fold_left (write w) ss blank).
Proof.
  intros W. assert (B : shows_line w blank) by (split; [intros c []|split; reflexivity]). revert B. generalize blank.
  induction ss as [|s ss IH]; intros t B; [exact B|]. cbn [fold_left]. apply IH. apply write_shows; assumption.
Qed.

Lemma do_write_app w s a b : do_write w s (a ++ b) = do_write w (do_write w s a) b.
Proof. apply fold_left_app. Qed.

Lemma skipn_1_skipn {A} n (l : list A) : skipn 1 (skipn n l) = skipn (S n) l.
Proof. revert l. induction n as [|n IH]; intros [|x l]; try reflexivity. cbn [skipn]. apply IH. Qed.

(** plain characters from the beginning of a row that has space for them *)
Lemma do_write_row w ab r x : plain x -> List.length x <= w ->
  do_write w (mkScreen ab r 0) x = mkScreen ab (x ++ skipn (List.length x) r) (List.length x).
Proof.
  induction x as [|c x IH] using rev_ind; intros P L; [reflexivity|]. rewrite app_length in *. cbn [List.length] in *.
  rewrite do_write_app, IH; [|intros y I; apply P; apply in_app_iff; left; exact I|lia].
  destruct (P c) as [A B]; [apply in_app_iff; right; left; reflexivity|]. apply Ascii.eqb_neq in A, B.
  unfold do_write. cbn [fold_left]. unfold put. cbn [col row above]. rewrite A, B. destruct (Nat.leb_spec w (List.length x)); [lia|].
  rewrite firstn_app, firstn_all, Nat.sub_diag. cbn [firstn]. rewrite app_nil_r, skipn_app, (skipn_all2 x) by lia. cbn [app].
  replace (S (List.length x) - List.length x) with 1 by lia. rewrite <- app_assoc. cbn [app].
  rewrite skipn_1_skipn, Nat.add_1_r. reflexivity.
Qed.

Lemma plain_blanks n : plain (blanks n).
Proof. intros c I. apply repeat_spec in I. subst c. split; discriminate. Qed.

(** A log record that is written over the line in progress: the line is blanked
    first, the record begins at the beginning of its row, and afterwards the line
    stands in a row of its own with the cursor behind it, unless it filled its row
    to the last column. *)
Theorem C99_redraw_partial w t record : 1 <= w -> shows_line w t -> List.length (line t) mod w <> 0 ->
  let n := List.length (line t) mod w in
  let shown := skipn (List.length (line t) - n) (line t) in
  (exists rest, row (scr t) = shown ++ rest /\ scr (clear w t) = mkScreen (above (scr t)) (blanks n ++ rest) 0) /\
  (exists rows, scr (restore w (other w (clear w t) (record ++ [nl]))) = mkScreen rows shown n) /\
  line (restore w (other w (clear w t) (record ++ [nl]))) = line t.
Proof.
  intros W (P & C & R) N. cbn zeta. set (n := List.length (line t) mod w) in *.
  assert (NL : n <= List.length (line t)) by (apply Nat.mod_le; lia).
  assert (NW : n < w) by (apply Nat.mod_upper_bound; lia).
  assert (CN : col (scr t) = n).
  { rewrite C. unfold n in *. destruct (List.length (line t)) as [|m]; [exfalso; apply N; apply Nat.mod_0_l; lia|]. cbn [in_row].
    clear - W N. pose proof (Nat.div_mod m w ltac:(lia)) as D. pose proof (Nat.mod_upper_bound m w ltac:(lia)) as M.
    destruct (Nat.eq_dec (S (m mod w)) w) as [E|E].
    - exfalso. apply N. symmetry. apply (Nat.mod_unique _ _ (S (m / w))); [lia|]. nia.
    - apply (Nat.mod_unique _ _ (m / w)); [lia|]. lia. }
  assert (Hn : List.length (line t) mod w = n) by reflexivity. clearbody n.
  set (shown := skipn (List.length (line t) - n) (line t)).
  assert (LS : List.length shown = n) by (unfold shown; rewrite skipn_length; lia).
  assert (PS : plain shown) by (intros c I; apply P; rewrite <- (firstn_skipn (List.length (line t) - n) (line t)); apply in_app_iff; right; exact I).
  assert (CL : scr (clear w t) = mkScreen (above (scr t)) (blanks n ++ skipn n (row (scr t))) 0 /\ line (clear w t) = line t).
  { clearbody shown. unfold clear. destruct (line t) as [|x l] eqn:E; [exfalso; apply N; rewrite <- Hn; apply Nat.mod_0_l; lia|]. cbn [scr line]. split; [|reflexivity].
    rewrite Hn. replace (do_write w (scr t) [cr]) with (mkScreen (above (scr t)) (row (scr t)) 0) by reflexivity.
    rewrite do_write_row; [|apply plain_blanks|unfold blanks; rewrite repeat_length; lia].
    unfold blanks at 2. rewrite repeat_length. reflexivity. }
  destruct CL as [CL1 CL2]. split; [|split].
  - exists (skipn n (row (scr t))). split; [|exact CL1]. rewrite <- (firstn_skipn n (row (scr t))) at 1. f_equal. rewrite <- CN at 1. rewrite R, CN. reflexivity.
  - unfold restore, other. cbn [scr line]. rewrite CL2, Hn. fold shown. rewrite do_write_app.
    set (s := do_write w (scr (clear w t)) record). unfold do_write at 2. cbn [fold_left]. unfold put.
    change (Ascii.eqb nl cr) with false. change (Ascii.eqb nl nl) with true. cbn iota. cbv iota.
    rewrite do_write_row by (try exact PS; lia). exists (row s :: above s). rewrite LS, skipn_nil, app_nil_r. reflexivity.
  - unfold restore, other. cbn [line]. exact CL2.
Qed.

(** A line that fills its row to the last column is neither blanked nor drawn
    again: what it showed is overwritten. *)
Theorem C99_redraw_refuted : exists t record, shows_line 3 t /\ line t = lit "abc" /\
  scr (clear 3 t) = mkScreen [] (lit "abc") 0 /\
  scr (restore 3 (other 3 (clear 3 t) (record ++ [nl]))) = mkScreen [lit "xbc"] [] 0.
Proof.
  exists (write 3 blank (lit "abc")), (lit "x"). split; [|repeat split; reflexivity].
  apply write_shows; [lia|]. split; [intros c []|split; reflexivity].
Qed.

(** A box is written past the line noted: it is drawn again though it is not in
    progress any more. *)
Theorem C99_box_redraw_refuted : exists t msg, shows_line 80 t /\
  let t' := other 80 t (write_box (fun l _ => [l]) 80 (lit "headline") msg) in
  row (scr t') = [] /\ row (scr (restore 80 (clear 80 t'))) = lit "abc".
Proof.
  exists (write 80 blank (lit "abc")), (lit "message"). split; [|split; vm_compute; reflexivity].
  apply write_shows; [lia|]. split; [intros c []|split; reflexivity].
Qed.

(** ** Durations *)

Lemma floor_unique (x : Q) (z : Z) : (inject_Z z <= x)%Q -> (x < inject_Z (z + 1))%Q -> Qfloor x = z.
Proof.
  intros A B. pose proof (Qfloor_le x) as C. pose proof (Qlt_floor x) as D.
  assert (E : (inject_Z z < inject_Z (Qfloor x + 1))%Q) by (eapply Qle_lt_trans; eassumption).
  assert (F : (inject_Z (Qfloor x) < inject_Z (z + 1))%Q) by (eapply Qle_lt_trans; eassumption).
  rewrite <- Zlt_Qlt in E, F. lia.
Qed.

Lemma mod60_bounds x : (0 <= mod60 x)%Q /\ (mod60 x < 60)%Q.
Proof.
  unfold mod60. pose proof (Qfloor_le (x / 60)) as A. pose proof (Qlt_floor (x / 60)) as B. rewrite inject_Z_plus in B.
  change (inject_Z 1) with 1%Q in B. set (f := inject_Z (Qfloor (x / 60))) in *. unfold Qdiv in *. change (/ 60)%Q with (1 # 60)%Q in *. split; lra.
Qed.

Lemma int_floor x : (0 <= x)%Q -> int x = Qfloor x.
Proof. intros H. unfold int. destruct (Qlt_le_dec x 0) as [L|L]; [exfalso; apply (Qlt_irrefl 0); eapply Qle_lt_trans; eassumption|reflexivity]. Qed.

(** The hours, minutes and seconds of a duration add up to its whole seconds, and
    there are less than 60 minutes and 60 seconds. *)
Theorem C99_duration_partial d h m s : (0 <= d)%Q -> format_duration d = (h, m, s) ->
  (3600 * h + 60 * m + s = Qfloor d)%Z /\ (0 <= h)%Z /\ (0 <= m < 60)%Z /\ (0 <= s < 60)%Z.
Proof.
  intros D E. unfold format_duration in E. injection E as Eh Em Es.
  destruct (mod60_bounds d) as [S0 S1]. destruct (mod60_bounds (d / 60)) as [M0 M1].
  rewrite int_floor in Em by exact M0. rewrite int_floor in Es by exact S0.
  assert (D1 : (0 <= d / 60)%Q) by (unfold Qdiv; change (/ 60)%Q with (1 # 60)%Q; lra).
  assert (D2 : (0 <= d / 60 / 60)%Q) by (unfold Qdiv in *; change (/ 60)%Q with (1 # 60)%Q in *; lra).
  rewrite int_floor in Eh by exact D2.
  pose proof (Qfloor_le (mod60 d)) as A1. pose proof (Qlt_floor (mod60 d)) as A2. rewrite Es in A1, A2.
  pose proof (Qfloor_le (mod60 (d / 60))) as B1. pose proof (Qlt_floor (mod60 (d / 60))) as B2. rewrite Em in B1, B2.
  assert (F1 : Qfloor (d / 60) = (m + 60 * h)%Z).
  { apply floor_unique; unfold mod60 in B1, B2; rewrite Eh in B1, B2; rewrite !inject_Z_plus, ?inject_Z_mult in *;
    change (inject_Z 1) with 1%Q in *; change (inject_Z 60) with 60%Q; lra. }
  assert (F2 : Qfloor d = (s + 60 * (m + 60 * h))%Z).
  { apply floor_unique; unfold mod60 in A1, A2; rewrite F1 in A1, A2; rewrite !inject_Z_plus, ?inject_Z_mult, ?inject_Z_plus, ?inject_Z_mult in *;
    change (inject_Z 1) with 1%Q in *; change (inject_Z 60) with 60%Q in *; lra. }
  assert (Z0 : forall x z, (0 <= x)%Q -> Qfloor x = z -> (0 <= z)%Z).
  { intros x z H <-. change 0%Z with (Qfloor 0). apply Qfloor_resp_le. exact H. }
  assert (Z1 : forall x z, (x < 60)%Q -> Qfloor x = z -> (z < 60)%Z).
  { intros x z H <-. rewrite Zlt_Qlt. eapply Qle_lt_trans; [apply Qfloor_le|exact H]. }
  split; [lia|]. split; [apply (Z0 _ _ D2 Eh)|].
  split; (split; [first [apply (Z0 _ _ M0 Em)|apply (Z0 _ _ S0 Es)]|first [apply (Z1 _ _ M1 Em)|apply (Z1 _ _ S1 Es)]]).
Qed.

(** A clock that is set back during the session: one second less than nothing is
    almost an hour. *)
Theorem C99_duration_refuted : exists d, (d < 0)%Q /\ format_duration d = (0, 59, 59)%Z.
Proof. exists (-1 # 1)%Q. split; reflexivity. Qed.

Example C99_ex :
  format_duration (37230 # 10)%Q = (1, 2, 3)%Z /\
  write_box (fun l _ => [l]) 20 (lit "Headline") (lit "text") =
    nl :: lit "** Headline ********" ++ nl :: lit "* text             *" ++ nl :: lit "********************" ++ [nl; nl] /\
  (let t := fold_left (write 10) [lit "f.py: "; lit ".E"; lit "....."] blank in
   line t = lit "f.py: .E....." /\ scr t = mkScreen [lit "f.py: .E.."] (lit "...") 3 /\ List.length (line t) mod 10 <> 0) /\
  List.length (lit "Headline") <= 2 * (box_width 20 - 6).
Proof.
  split; [reflexivity|]. split; [reflexivity|]. split; [|vm_compute; lia]. split; [reflexivity|]. split; [reflexivity|]. vm_compute. discriminate.
Qed.

Print Assumptions C99_box_partial.
Print Assumptions C99_box_refuted.
Print Assumptions C99_lsep.
Print Assumptions C99_in_progress.
Print Assumptions C99_redraw_partial.
Print Assumptions C99_redraw_refuted.
Print Assumptions C99_box_redraw_refuted.
Print Assumptions C99_duration_partial.
Print Assumptions C99_duration_refuted.
