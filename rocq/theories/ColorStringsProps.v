(** C131: coloured strings; C132: themes of the console. *)

From Coq Require Import List Bool Arith Ascii String Lia.
From Verif Require Import Str ColorStrings.
Import ListNotations.

(** ** C131 *)

(** the characters of an object, each with the colour it is to have *)
Fixpoint cells (o : obj) : list (ascii * option str) :=
  match o with
  | Plain s => map (fun c => (c, None)) s
  | Color s col => map (fun c => (c, Some col)) s
  | Compound a b => cells a ++ cells b
  end.
(** the colours of an object *)
Fixpoint colours (o : obj) : list str :=
  match o with
  | Plain _ => []
  | Color _ c => [c]
  | Compound a b => colours a ++ colours b
  end.

(** a terminal: the characters with the colours they appear in, and the colour it is left in *)
Fixpoint screen (now : option str) (l : list token) : list (ascii * option str) * option str :=
  match l with
  | [] => ([], now)
  | Chr c :: l' => let (x, e) := screen now l' in ((c, now) :: x, e)
  | Fore c :: l' => screen (Some c) l'
  | Reset :: l' => screen None l'
  end.

(** the characters alone *)
Definition visible (l : list token) : str := flat_map (fun t => match t with Chr c => [c] | _ => [] end) l.

Definition NL : ascii := "010"%char.

Lemma screen_app now a b : screen now (a ++ b) = (fst (screen now a) ++ fst (screen (snd (screen now a)) b), snd (screen (snd (screen now a)) b)).
Proof.
  revert now. induction a as [|t a IH]; intros now; [cbn; destruct (screen now b); reflexivity|].
  destruct t as [c|c|]; cbn [app screen]; rewrite ?IH; try reflexivity. destruct (screen now a); reflexivity.
Qed.

Lemma screen_chars now s : screen now (chars s) = (map (fun c => (c, now)) s, now).
Proof. induction s as [|c s IH]; [reflexivity|]. cbn [chars map screen]. fold (chars s). rewrite IH. reflexivity. Qed.

Lemma visible_screen now l : map fst (fst (screen now l)) = visible l.
Proof.
  revert now. induction l as [|t l IH]; intros now; [reflexivity|]. destruct t as [c|c|]; cbn [screen visible flat_map]; fold (visible l); try apply IH.
  specialize (IH now). destruct (screen now l). cbn in *. congruence.
Qed.

(** get_colored shows every character in its colour, the uncoloured ones in none, and leaves the terminal without colour; it raises exactly
    if one of the colours does not exist *)
Theorem C131_colored known o :
  (get_colored known o <> None <-> forall c, In c (colours o) -> known c = true) /\
  forall l, get_colored known o = Some l -> screen None l = (cells o, None).
Proof.
  induction o as [s|s c|a [IHa IHa'] b [IHb IHb']]; cbn [get_colored cells colours].
  - split; [split; [intros _ c []|discriminate]|]. intros l E. inversion E. apply screen_chars.
  - split.
    + destruct (known c) eqn:K; split; try congruence; [intros _ x [<-|[]]; exact K|]. intros H. specialize (H c (or_introl eq_refl)). congruence.
    + destruct (known c); [|discriminate]. intros l E. inversion E. cbn [screen]. rewrite screen_app, screen_chars. cbn.
      rewrite app_nil_r. reflexivity.
  - split.
    + destruct (get_colored known a), (get_colored known b); (split; [try congruence|]); try congruence.
      * intros _ c H. apply in_app_iff in H as [H|H]; [apply IHa|apply IHb]; congruence || assumption.
      * intros H. exfalso. apply IHb; [|reflexivity]. intros c J. apply H, in_app_iff. auto.
      * intros H. exfalso. apply IHa; [|reflexivity]. intros c J. apply H, in_app_iff. auto.
      * intros H. exfalso. apply IHa; [|reflexivity]. intros c J. apply H, in_app_iff. auto.
    + destruct (get_colored known a) as [x|], (get_colored known b) as [y|]; try discriminate. intros l E. inversion E.
      rewrite screen_app, (IHa' x eq_refl). cbn [fst snd]. rewrite (IHb' y eq_refl). reflexivity.
Qed.
Print Assumptions C131_colored.

(** otherwise an object is as its string: str and len are those of the characters; + puts strings and colours together, in whatever
    order they are added; ljust and % of a coloured string are those of the string, in its colour *)
Theorem C131_string :
  (forall o, to_str o = map fst (cells o) /\ len o = List.length (to_str o)) /\
  (forall a b, cells (add a b) = cells a ++ cells b) /\
  (forall a b c, cells (add (add a b) c) = cells (add a (add b c))) /\
  (forall n fill s c, exists o, ljust n fill (Color s c) = Some o /\ to_str o = s ++ repeat fill (n - List.length s) /\
     forall x, In x (cells o) -> snd x = Some c) /\
  (forall percent s c, modulo percent (Color s c) = None <-> percent s = None) /\
  (forall percent s c o, modulo percent (Color s c) = Some o -> percent s = Some (to_str o) /\ forall x, In x (cells o) -> snd x = Some c).
Proof.
  assert (A : forall a b, cells (add a b) = cells a ++ cells b).
  { intros a b. destruct a as [s|s c|a1 a2], b as [t|t d|b1 b2]; try reflexivity. cbn. apply map_app. }
  assert (Col : forall s c x, In x (cells (Color s c)) -> snd x = Some c).
  { intros s c x H. cbn in H. apply in_map_iff in H as (y & <- & _). reflexivity. }
  repeat split.
  - induction o as [s|s c|a IHa b IHb]; cbn; rewrite ?map_map; cbn [fst]; rewrite ?map_id; try reflexivity. rewrite map_app. congruence.
  - induction o as [s|s c|a IHa b IHb]; cbn; try reflexivity. rewrite app_length. congruence.
  - exact A.
  - intros a b c. rewrite !A. symmetry. apply app_assoc.
  - intros n fill s c. exists (Color (str_ljust n fill s) c). repeat split. apply Col.
  - intros H. cbn in H. destruct (percent s); congruence.
  - intros H. cbn. rewrite H. reflexivity.
  - intros. cbn in H. destruct (percent s); inversion H. reflexivity.
  - cbn in H. destruct (percent s) as [t|]; inversion H. subst o. apply Col.
Qed.
Print Assumptions C131_string.

Lemma join_lines l : forall cur,
  (exists x, l = x ++ [Chr NL] /\ joined (splitlines cur l) = cur ++ x) \/
  ((forall x, l <> x ++ [Chr NL]) /\ joined (splitlines cur l) = cur ++ l).
Proof.
  assert (E : forall l, splitlines [] l = [] -> l = []).
  { clear l. assert (G : forall l cur, cur <> [] -> splitlines cur l <> []).
    { induction l as [|t l IH]; intros cur N; cbn; [destruct cur; [destruct (N eq_refl)|discriminate]|]. destruct (newline t); [discriminate|]. apply IH.
      destruct cur; discriminate. }
    intros [|t l]; [reflexivity|]. cbn. destruct (newline t); [discriminate|]. intros H. destruct (G l [t]); [discriminate|exact H]. }
  induction l as [|t l IH]; intros cur.
  - right. split; [intros [|? ?]; discriminate|]. cbn. destruct cur; cbn; rewrite ?app_nil_r; reflexivity.
  - cbn [splitlines]. destruct (newline t) eqn:N.
    + assert (t = Chr NL) as ->. { destruct t as [c|c|]; try discriminate. cbn in N. apply Ascii.eqb_eq in N. subst. reflexivity. }
      destruct l as [|u l]; [left; exists []; split; [reflexivity|cbn; rewrite app_nil_r; reflexivity]|].
      assert (NE : splitlines [] (u :: l) <> []) by (intros H; apply E in H; discriminate).
      cbn [joined]. destruct (splitlines [] (u :: l)) as [|y ys] eqn:S; [congruence|]. rewrite <- S in *. clear NE.
      destruct (IH []) as [(x & -> & J)|[H J]].
      * left. exists (Chr NL :: x). split; [reflexivity|]. rewrite J. reflexivity.
      * right. split; [|rewrite J; reflexivity]. intros [|z x] X; inversion X; subst; eapply H; eassumption.
    + destruct (IH (cur ++ [t])) as [(x & -> & J)|[H J]].
      * left. exists (t :: x). split; [reflexivity|]. rewrite J, <- app_assoc. reflexivity.
      * right. split; [|rewrite J, <- app_assoc; reflexivity]. intros [|z x] X; inversion X; subst; [discriminate|exact (H x eq_refl)].
Qed.

Lemma whole l : (forall x, l <> x ++ [Chr NL]) -> joined (splitlines [] l) = l.
Proof. intros H. destruct (join_lines l []) as [(x & E & _)|[_ J]]; [destruct (H x E)|exact J]. Qed.

Lemma chars_end s : (forall x, s <> x ++ [NL]) -> forall y, chars s <> y ++ [Chr NL].
Proof.
  intros H y E. apply (f_equal (@rev token)) in E. unfold chars in E. rewrite <- map_rev, rev_app_distr in E. cbn in E.
  destruct (rev s) as [|c r] eqn:R; [discriminate|]. cbn in E. inversion E; subst. apply (H (rev r)).
  apply (f_equal (@rev ascii)) in R. rewrite rev_involutive in R. exact R.
Qed.

Lemma visible_chars s : visible (chars s) = s.
Proof. induction s as [|c s IH]; [reflexivity|]. cbn. f_equal. exact IH. Qed.

(** of an object whose string does not end with a newline, write writes the string to what is no terminal; to a terminal too, a coloured string
    in its colour, all else in no colour, and the terminal is left without colour *)
Theorem C131_write known o : (forall x, to_str o <> x ++ [NL]) -> (forall c, In c (colours o) -> known c = true) ->
  write known false o = Some (chars (to_str o)) /\
  exists l, write known true o = Some l /\
    screen None l = (match o with Color _ _ => cells o | _ => cells (Plain (to_str o)) end, None) /\ visible l = to_str o.
Proof.
  intros N K.
  assert (P : joined (splitlines [] (chars (to_str o))) = chars (to_str o)) by (apply whole, chars_end, N).
  split; [unfold write; destruct o; cbn iota; rewrite P; reflexivity|].
  destruct o as [s|s c|a b]; unfold write.
  - cbn iota. rewrite P. eexists. repeat split; [apply screen_chars|apply visible_chars].
  - cbn [get_colored]. rewrite (K c) by (cbn; auto). rewrite whole.
    + eexists. split; [reflexivity|]. assert (S : screen None (Fore c :: chars s ++ [Reset]) = (cells (Color s c), None)).
      { cbn [screen]. rewrite screen_app, screen_chars. cbn. rewrite app_nil_r. reflexivity. }
      split; [exact S|]. rewrite <- (visible_screen None), S. cbn. rewrite map_map. apply map_id.
    + intros x X. rewrite app_comm_cons in X. apply app_inj_tail in X as [_ X]. discriminate.
  - cbn iota. rewrite P. eexists. repeat split; [apply screen_chars|apply visible_chars].
Qed.
Print Assumptions C131_write.

(** cases *)
Definition fore (c : str) : bool := str_eqb c (lit "red") || str_eqb c (lit "green").
Definition warning : obj := add (Plain (lit "a ")) (add (Color (lit "red") (lit "red")) (Color (lit "!") (lit "green"))).

Example ex_colored :
  get_colored fore warning =
    Some (chars (lit "a ") ++ [Fore (lit "red")] ++ chars (lit "red") ++ [Reset; Fore (lit "green")] ++ chars (lit "!") ++ [Reset]) /\
  to_str warning = lit "a red!" /\ len warning = 6 /\ get_colored fore (Color (lit "x") (lit "pink")) = None.
Proof. repeat split. Qed.

Example ex_write :
  (forall x, to_str (Color (lit "x") (lit "red")) <> x ++ [NL]) /\ (forall c, In c (colours (Color (lit "x") (lit "red"))) -> fore c = true) /\
  write fore true (Color (lit "x") (lit "red")) = Some [Fore (lit "red"); Chr "x"; Reset].
Proof.
  split; [|split; [|reflexivity]]; [|intros c [<-|[]]; reflexivity].
  intros x X. apply (f_equal (@rev ascii)) in X. rewrite rev_app_distr in X. discriminate X.
Qed.

(** writing to a terminal does not show the colours of strings that were put together with + *)
Theorem C131_compound_refuted :
  exists known o l, get_colored known o <> None /\ write known true o = Some l /\ In (Some (lit "red")) (map snd (cells o)) /\
    forall c, In c (map snd (fst (screen None l))) -> c = None.
Proof.
  exists fore, warning, (chars (lit "a red!")). split; [discriminate|]. split; [reflexivity|]. split; [cbn; auto 10|].
  cbn. intros c H. repeat (destruct H as [<-|H]; [reflexivity|]). destruct H.
Qed.
Print Assumptions C131_compound_refuted.

(** a newline at the end of a coloured string is written to a terminal, but not elsewhere (and not without colour) *)
Theorem C131_newline_refuted :
  exists known o l l', write known true o = Some l /\ write known false o = Some l' /\ visible l = to_str o /\ visible l' <> visible l.
Proof.
  exists fore, (Color (lit "a" ++ [NL]) (lit "red")), [Fore (lit "red"); Chr "a"; Chr NL; Reset], [Chr "a"]. repeat split. discriminate.
Qed.
Print Assumptions C131_newline_refuted.

(** strings put together with + are not as strings for % and ljust: both raise *)
Theorem C131_methods_refuted :
  exists percent o, percent (to_str o) <> None /\ modulo percent o = None /\ ljust 9 " " o = None.
Proof. exists Some, warning. repeat split. discriminate. Qed.
Print Assumptions C131_methods_refuted.

(** ** C132 *)

(** the string of a theme *)
Fixpoint slashed (parts : list str) : str :=
  match parts with
  | [] => []
  | [p] => p
  | p :: parts' => p ++ "/"%char :: slashed parts'
  end.

Lemma split_slashed parts : parts <> [] -> (forall p, In p parts -> ~ In "/"%char p) -> split_all "/" (slashed parts) = parts.
Proof.
  assert (One : forall p t, ~ In "/"%char p -> split_all "/" (p ++ "/"%char :: t) = p :: split_all "/" t).
  { induction p as [|c p IH]; intros t N; [reflexivity|]. cbn [app split_all]. destruct (Ascii.eqb_spec c "/") as [->|]; [destruct N; cbn; auto|].
    rewrite IH by (intros J; apply N; cbn; auto). reflexivity. }
  assert (Last : forall p, ~ In "/"%char p -> split_all "/" p = [p]).
  { induction p as [|c p IH]; intros N; [reflexivity|]. cbn [split_all]. destruct (Ascii.eqb_spec c "/") as [->|]; [destruct N; cbn; auto|].
    rewrite IH by (intros J; apply N; cbn; auto). reflexivity. }
  induction parts as [|p parts IH]; intros NE H; [congruence|]. destruct parts as [|q parts].
  - apply Last, H. cbn. auto.
  - cbn [slashed]. rewrite One by (apply H; cbn; auto). f_equal. apply IH; [discriminate|]. intros r J. apply H. cbn. auto.
Qed.

Lemma get_dict_set k k' v d : dict_get k (dict_set k' v d) = if str_eqb k k' then v else dict_get k d.
Proof.
  induction d as [|[j w] d IH]; cbn [dict_set dict_get]; [reflexivity|]. destruct (str_eqb_spec k' j) as [->|N]; cbn [dict_get].
  - destruct (str_eqb k j); reflexivity.
  - rewrite IH. destruct (str_eqb_spec k j), (str_eqb_spec k k'); try reflexivity. congruence.
Qed.

Lemma get_dict_del k k' d : dict_get k (dict_del k' d) = if str_eqb k k' then false else dict_get k d.
Proof.
  induction d as [|[j w] d IH]; cbn [dict_del dict_get]; [destruct (str_eqb k k'); reflexivity|].
  destruct (str_eqb_spec k' j) as [->|N]; cbn [dict_get].
  - rewrite IH. destruct (str_eqb k j); reflexivity.
  - rewrite IH. destruct (str_eqb_spec k j), (str_eqb_spec k k'); try reflexivity. congruence.
Qed.

Lemma keys_set k v d x : In x (map fst (dict_set k v d)) <-> x = k \/ In x (map fst d).
Proof.
  induction d as [|[j w] d IH]; cbn; [intuition|]. destruct (str_eqb_spec k j) as [->|]; cbn; [intuition|]. rewrite IH. intuition.
Qed.
Lemma keys_del k d x : In x (map fst (dict_del k d)) <-> x <> k /\ In x (map fst d).
Proof.
  induction d as [|[j w] d IH]; cbn; [intuition|]. destruct (str_eqb_spec k j) as [->|]; cbn; rewrite IH; intuition congruence.
Qed.

Lemma start l : forall d k,
  dict_get k (fold_left (fun d x => dict_set x true d) l d) = (if in_dec (list_eq_dec ascii_dec) k l then true else dict_get k d).
Proof.
  induction l as [|x l IH]; intros d k; [reflexivity|]. cbn [fold_left]. rewrite IH, get_dict_set.
  destruct (in_dec (list_eq_dec ascii_dec) k l) as [J|J], (in_dec (list_eq_dec ascii_dec) k (x :: l)) as [K|K]; try reflexivity.
  - destruct K. cbn. auto.
  - destruct K as [->|K]; [|contradiction]. destruct (str_eqb_spec k k); congruence.
  - destruct (str_eqb_spec k x); [|reflexivity]. destruct K. cbn. auto.
Qed.
Lemma start_keys l : forall d k, In k (map fst (fold_left (fun d x => dict_set x true d) l d)) <-> In k l \/ In k (map fst d).
Proof. induction l as [|x l IH]; intros d k; cbn [fold_left In]; [intuition|]. rewrite IH, keys_set. intuition. Qed.

(** on a dark background the attributes that are on are those of the theme, and no others are mentioned; on a light one white is black, nothing is
    white, and the rest is that of the theme *)
Theorem C132_theme parts : parts <> [] -> (forall p, In p parts -> ~ In "/"%char p) ->
  (forall k, dict_get k (theme true (slashed parts)) = true <-> In k parts) /\
  (forall k, In k (map fst (theme true (slashed parts))) <-> In k parts) /\
  (forall k, k <> lit "black" -> (dict_get k (theme false (slashed parts)) = true <-> In k parts /\ k <> lit "white")) /\
  (dict_get (lit "black") (theme false (slashed parts)) = true <-> In (lit "white") parts) /\
  (forall k, In k (map fst (theme false (slashed parts))) <-> k = lit "black" \/ (In k parts /\ k <> lit "white")).
Proof.
  intros NE H. unfold theme. rewrite split_slashed by assumption. repeat split.
  - rewrite start. destruct (in_dec _ k parts); [auto|discriminate].
  - rewrite start. intros J. destruct (in_dec _ k parts); [auto|contradiction].
  - rewrite start_keys. intros [J|[]]. exact J.
  - rewrite start_keys. auto.
  - rewrite get_dict_set in H1. destruct (str_eqb_spec k (lit "black")); [contradiction|]. rewrite get_dict_del in H1.
    destruct (str_eqb_spec k (lit "white")); [discriminate|]. rewrite start in H1. destruct (in_dec _ k parts); [assumption|discriminate].
  - intros ->. rewrite get_dict_set in H1. destruct (str_eqb_spec (lit "white") (lit "black")); [discriminate|]. rewrite get_dict_del in H1. discriminate.
  - intros [J W]. rewrite get_dict_set. destruct (str_eqb_spec k (lit "black")); [contradiction|]. rewrite get_dict_del.
    destruct (str_eqb_spec k (lit "white")); [contradiction|]. rewrite start. destruct (in_dec _ k parts); [reflexivity|contradiction].
  - rewrite get_dict_set. change (str_eqb (lit "black") (lit "black")) with true. cbn iota. rewrite start.
    destruct (in_dec _ (lit "white") parts); [auto|discriminate].
  - intros J. rewrite get_dict_set. change (str_eqb (lit "black") (lit "black")) with true. cbn iota. rewrite start.
    destruct (in_dec _ (lit "white") parts); [reflexivity|contradiction].
  - rewrite keys_set, keys_del, start_keys. cbn. intuition.
  - rewrite keys_set, keys_del, start_keys. intuition.
Qed.
Print Assumptions C132_theme.

Example ex_theme :
  lit "white/bold" = slashed [lit "white"; lit "bold"] /\ (forall p, In p [lit "white"; lit "bold"] -> ~ In "/"%char p) /\
  theme true (lit "white/bold") = [(lit "white", true); (lit "bold", true)] /\
  theme false (lit "white/bold") = [(lit "bold", true); (lit "black", true)].
Proof. repeat split. intros p [<-|[<-|[]]]; cbn; intuition discriminate. Qed.

(** a theme that is black, as that of the lines of tracebacks and of additional details (slash/conf.py:38-44), is not black on a light
    background *)
Theorem C132_black_refuted : exists parts, In (lit "black") parts /\ slashed parts = lit "black/bold" /\
  dict_get (lit "black") (theme true (slashed parts)) = true /\ dict_get (lit "black") (theme false (slashed parts)) = false.
Proof. exists [lit "black"; lit "bold"]. cbn. auto. Qed.
Print Assumptions C132_black_refuted.
