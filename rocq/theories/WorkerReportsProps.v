(** C114: what a worker tells its parent. *)

From Coq Require Import List Bool Arith Ascii String Permutation Lia.
From Verif Require Import Str Plugins PluginsProps WorkerReports.
Import ListNotations.
Open Scope list_scope.

(** ** Signs of life *)

(** the last sign of a client *)
Definition last_sign (l : list (str * nat)) (c : str) (t : nat) : Prop := exists a b, l = a ++ (c, t) :: b /\ forall t', ~ In (c, t') b.

(** the table holds the time of the last sign of every client and nothing else, and the time of the last sign of all *)
Theorem C114_table l now :
  let k := beats l (new_keeper now) in
  (forall c t, s_get c (k_times k) = Some t <-> last_sign l c t) /\
  (k_last k = match rev l with [] => now | e :: _ => snd e end).
Proof.
  cbv zeta. unfold beats. assert (Hl : l = rev (rev l)) by (symmetry; apply rev_involutive). revert Hl. generalize (rev l). intros m ->.
  rewrite <- fold_left_rev_right, rev_involutive.
  induction m as [|[c0 t0] m [IH1 IH2]].
  { split; [|reflexivity]. intros c t. split; [discriminate|intros (a & b & X & _); destruct a; discriminate]. }
  cbn [fold_right rev]. split; [|reflexivity]. intros c t. unfold beat at 1. cbn [k_times fst snd]. rewrite s_get_set.
  destruct (str_eqb_spec c c0) as [->|N].
  - split.
    + intros H. injection H as <-. exists (rev m), []. split; [reflexivity|intros t' []].
    + intros (a & b & X & Y). destruct b as [|e b] using rev_ind.
      * apply app_inj_tail in X as [_ X]. injection X as ->. reflexivity.
      * change (a ++ (c0, t) :: b ++ [e]) with (a ++ ((c0, t) :: b) ++ [e]) in X. rewrite app_assoc in X. apply app_inj_tail in X as [_ <-].
        destruct (Y t0). apply in_app_iff. right. left. reflexivity.
  - rewrite IH1. split; intros (a & b & X & Y).
    + exists a, (b ++ [(c0, t0)]). split; [rewrite X, <- app_assoc; reflexivity|]. intros t' I. apply in_app_iff in I as [I|[I|[]]]; [apply (Y t' I)|].
      injection I as -> _. contradiction.
    + destruct b as [|e b] using rev_ind.
      * apply app_inj_tail in X as [_ X]. injection X as -> _. contradiction.
      * change (a ++ (c, t) :: b ++ [e]) with (a ++ ((c, t) :: b) ++ [e]) in X. rewrite app_assoc in X. apply app_inj_tail in X as [X _].
        exists a, b. split; [exact X|]. intros t' I. apply (Y t'). apply in_app_iff. left. exact I.
Qed.

(** the thread sends a sign in every round until it is stopped or a call raises, whichever is first *)
Theorem C114_rounds calls stop fuel : let (l, r) := keep_alive calls stop fuel 0 in
  l = seq 0 (List.length l) /\ (forall k, In k l -> stop k = false /\ calls k = None) /\
  match r with
  | Stopped => stop (List.length l) = true
  | Died e => stop (List.length l) = false /\ calls (List.length l) = Some e
  | Alive => List.length l = fuel
  end.
Proof.
  assert (G : forall fuel k, let (l, r) := keep_alive calls stop fuel k in
    l = seq k (List.length l) /\ (forall j, In j l -> stop j = false /\ calls j = None) /\
    match r with Stopped => stop (k + List.length l) = true | Died e => stop (k + List.length l) = false /\ calls (k + List.length l) = Some e | Alive => List.length l = fuel end).
  { clear fuel. intros fuel. induction fuel as [|f IH]; intros k; [split; [reflexivity|split; [intros j []|reflexivity]]|]. cbn [keep_alive].
    destruct (stop k) eqn:SK; [split; [reflexivity|split; [intros j []|]]; cbn [List.length]; rewrite Nat.add_0_r; exact SK|].
    destruct (calls k) as [e|] eqn:C; [split; [reflexivity|split; [intros j []|]]; cbn [List.length]; rewrite Nat.add_0_r; split; assumption|].
    specialize (IH (S k)). destruct (keep_alive calls stop f (S k)) as [l r]. destruct IH as (A & B & D). cbn [List.length seq]. split; [f_equal; exact A|]. split.
    - intros j [<-|J]; [split; assumption|apply B; exact J].
    - rewrite Nat.add_succ_r. cbn [Nat.add] in D. destruct r; [exact D|exact D|lia]. }
  apply (G fuel 0).
Qed.

(** a single call that fails ends the signs of life for good: all later calls would have arrived *)
Theorem C114_one_lost_refuted : exists calls, (forall k, k <> 3 -> calls k = None) /\
  forall fuel, 4 <= fuel -> keep_alive calls (fun _ => false) fuel 0 = ([0; 1; 2], Died OsErr).
Proof.
  exists (fun k => if Nat.eqb k 3 then Some OsErr else None). split.
  - intros k N. destruct (Nat.eqb_spec k 3); [contradiction|reflexivity].
  - intros fuel L. do 4 (destruct fuel as [|fuel]; [lia|]). reflexivity.
Qed.

(** ** The files of errors *)

Lemma readlines_concat s : List.concat (readlines s) = s.
Proof.
  induction s as [|c s IH]; [reflexivity|]. cbn [readlines]. destruct (Ascii.eqb c "010"%char); [cbn [List.concat app]; rewrite IH; reflexivity|].
  destruct (readlines s) as [|l ls]; cbn [List.concat app] in *; rewrite <- IH; reflexivity.
Qed.

Lemma error_file_inj p a b : error_file p a = error_file p b -> a = b.
Proof.
  unfold error_file. intros H. apply app_inv_head in H. apply app_inv_head in H. apply app_inv_tail in H. exact H.
Qed.

Lemma starts_file p c : starts p (error_file p c) = true.
Proof.
  unfold starts, error_file. set (t := lit "-" ++ c ++ lit ".log"). clearbody t. assert (X : strip_prefix p (p ++ t) = Some t); [|rewrite X; reflexivity].
  induction p as [|x p IH]; [reflexivity|]. cbn [app strip_prefix]. rewrite Ascii.eqb_refl. exact IH.
Qed.

(** the messages of a worker *)
Definition messages (c : str) (l : list (str * str)) : list str := map snd (filter (fun e => str_eqb c (fst e)) l).

Lemma s_set_NoDup {V} k (v : V) d : NoDup (map fst d) -> NoDup (map fst (s_set k v d)).
Proof.
  induction d as [|[j w] d IH]; intros N; [repeat constructor; intros []|]. cbn [s_set]. destruct (str_eqb_spec k j) as [->|Ne]; [exact N|].
  cbn [map fst] in *. inversion N; subst. constructor; [|apply IH; assumption]. intros I. apply s_get_key in I. rewrite s_get_set in I.
  destruct (str_eqb_spec j k); [congruence|]. apply s_get_key in I. contradiction.
Qed.

Lemma s_get_in {V} k (v : V) d : NoDup (map fst d) -> s_get k d = Some v <-> In (k, v) d.
Proof.
  intros N. induction d as [|[j w] d IH]; [split; [discriminate|intros []]|]. cbn [s_get map fst] in *. inversion N; subst.
  destruct (str_eqb_spec k j) as [->|Ne].
  - split; [intros H; injection H as ->; left; reflexivity|]. intros [H|H]; [injection H as ->; reflexivity|]. destruct H1. apply in_map_iff. exists (j, v). split; [reflexivity|exact H].
  - rewrite IH by assumption. split; [right; assumption|]. intros [H|H]; [congruence|exact H].
Qed.

Lemma write1 prefix c m fs : fst (fst (write_error prefix true None c m fs)) =
  s_set (error_file prefix c) (match s_get (error_file prefix c) fs with Some t => t | None => [] end ++ m) fs.
Proof. reflexivity. Qed.

Lemma write_all_spec prefix l : let files := write_all prefix l [] in
  NoDup (map fst files) /\
  (forall c, s_get (error_file prefix c) files = match messages c l with [] => None | ms => Some (List.concat ms) end) /\
  (forall f, In f (map fst files) -> exists c, f = error_file prefix c /\ In c (map fst l)).
Proof.
  cbv zeta. unfold write_all. rewrite <- (rev_involutive l). set (m := rev l). rewrite <- fold_left_rev_right, rev_involutive. clearbody m. clear l.
  induction m as [|[c0 m0] m (IH1 & IH2 & IH3)]; [split; [constructor|split; [reflexivity|intros f []]]|]. cbn [fold_right rev fst snd].
  set (fs := fold_right _ _ m) in *. rewrite write1. split; [apply s_set_NoDup; exact IH1|]. split.
  - intros c. rewrite s_get_set. unfold messages. rewrite filter_app, map_app. cbn [filter fst]. fold (messages c (rev m)).
    destruct (str_eqb_spec (error_file prefix c) (error_file prefix c0)) as [E|E].
    + apply error_file_inj in E as ->. destruct (str_eqb_spec c0 c0); [|contradiction]. cbn [map snd].
      rewrite IH2. destruct (messages c0 (rev m)) as [|x xs]; [cbn; rewrite app_nil_r; reflexivity|]. cbn [app].
      f_equal. cbn [List.concat]. rewrite concat_app. cbn [List.concat]. rewrite app_nil_r, app_assoc. reflexivity.
    + destruct (str_eqb_spec c c0) as [->|]; [contradiction|]. cbn [map]. rewrite app_nil_r. apply IH2.
  - intros f I. apply s_get_key in I. rewrite s_get_set in I. destruct (str_eqb_spec f (error_file prefix c0)) as [Ef|Nf].
    + exists c0. split; [exact Ef|]. rewrite map_app. apply in_app_iff. right. left. reflexivity.
    + apply s_get_key in I. destruct (IH3 f I) as (c & -> & J). exists c. split; [reflexivity|]. rewrite map_app. apply in_app_iff. left. exact J.
Qed.

(** the lines that were logged of a file *)
Definition of_file (f : str) (l : list logged) : list str := flat_map (fun e => match e with Line g t => if str_eqb f g then [t] else [] | NoFiles => [] end) l.

Lemma of_file_one f g t : of_file f (map (Line g) t) = if str_eqb f g then t else [].
Proof.
  unfold of_file. induction t as [|x t IH]; [destruct (str_eqb f g); reflexivity|]. cbn [map flat_map]. rewrite IH. destruct (str_eqb f g); reflexivity.
Qed.

(** whatever the workers wrote, the parent logs under the name of the worker's file: its texts, whole and in order; it logs
    nothing else, and it says that there are no files exactly when nobody wrote *)
Theorem C114_texts prefix l listing : Permutation listing (write_all prefix l []) ->
  (forall c, List.concat (of_file (error_file prefix c) (report_logs prefix listing)) = List.concat (messages c l)) /\
  (forall f t, In (Line f t) (report_logs prefix listing) -> exists c, f = error_file prefix c /\ In c (map fst l)) /\
  (In NoFiles (report_logs prefix listing) <-> l = []).
Proof.
  intros P. destruct (write_all_spec prefix l) as (N & G & K).
  assert (NL : NoDup (map fst listing)) by (apply (Permutation_NoDup (Permutation_map fst (Permutation_sym P))); exact N).
  assert (IL : forall e, In e listing <-> In e (write_all prefix l [])) by (intros e; split; apply Permutation_in; [exact P|apply Permutation_sym; exact P]).
  assert (F : filter (fun e => starts prefix (fst e)) listing = listing).
  { assert (A : forall e, In e listing -> starts prefix (fst e) = true).
    { intros e I. apply IL in I. destruct (K (fst e)) as (c & -> & _); [apply in_map; exact I|apply starts_file]. }
    clear -A. induction listing as [|e r IH]; [reflexivity|]. cbn [filter]. rewrite (A e (or_introl eq_refl)). f_equal. apply IH. intros x I. apply A. right. exact I. }
  assert (Z : listing = [] <-> l = []).
  { split.
    - intros ->. destruct l as [|[c m] l]; [reflexivity|]. specialize (G c). apply Permutation_nil in P. rewrite P in G. cbn [s_get] in G.
      unfold messages in G. cbn [filter fst] in G. destruct (str_eqb_spec c c); [|contradiction]. discriminate.
    - intros ->. apply Permutation_nil. apply Permutation_sym. exact P. }
  unfold report_logs. rewrite F. split; [|split].
  - intros c.
    assert (X : List.concat (of_file (error_file prefix c) (match listing with [] => [NoFiles] | _ => flat_map (fun e => map (Line (fst e)) (readlines (snd e))) listing end)) =
                match s_get (error_file prefix c) listing with Some t => t | None => [] end).
    { assert (Y : List.concat (of_file (error_file prefix c) (flat_map (fun e => map (Line (fst e)) (readlines (snd e))) listing)) =
                match s_get (error_file prefix c) listing with Some t => t | None => [] end).
      { clear -NL. induction listing as [|[f t] r IH]; [reflexivity|]. cbn [flat_map fst snd s_get]. unfold of_file at 1. rewrite flat_map_app.
        fold (of_file (error_file prefix c) (map (Line f) (readlines t))). fold (of_file (error_file prefix c) (flat_map (fun e => map (Line (fst e)) (readlines (snd e))) r)).
        rewrite of_file_one, concat_app. cbn [map fst] in NL. inversion NL; subst. rewrite (IH H2). destruct (str_eqb_spec (error_file prefix c) f) as [<-|]; [|reflexivity].
        rewrite readlines_concat. destruct (s_get (error_file prefix c) r) eqn:S; [|apply app_nil_r]. destruct H1. apply s_get_key. congruence. }
      destruct listing as [|e r]; [reflexivity|exact Y]. }
    rewrite X. assert (S : s_get (error_file prefix c) listing = s_get (error_file prefix c) (write_all prefix l [])).
    { destruct (s_get (error_file prefix c) (write_all prefix l [])) as [t|] eqn:S.
      - apply s_get_in; [exact NL|]. apply IL, s_get_in; assumption.
      - destruct (s_get (error_file prefix c) listing) as [t|] eqn:S2; [|reflexivity]. apply s_get_in in S2; [|exact NL]. apply IL in S2. apply s_get_in in S2; [|exact N]. congruence. }
    rewrite S, G. destruct (messages c l); reflexivity.
  - intros f t I. assert (J : exists e, In e listing /\ f = fst e).
    { destruct listing as [|e0 r0]; [destruct I as [I|[]]; discriminate|]. apply in_flat_map in I as (e & I & J). apply in_map_iff in J as (x & J & _). injection J as <- _. exists e. split; [exact I|reflexivity]. }
    destruct J as (e & J & ->). apply K, in_map, IL, J.
  - rewrite <- Z. destruct listing as [|e0 r0]; [split; [reflexivity|left; reflexivity]|]. split; [|discriminate]. intros I. apply in_flat_map in I as (e & _ & J).
    apply in_map_iff in J as (x & J & _). discriminate.
Qed.

(** two messages of a worker are one line of the log *)
Theorem C114_glued_refuted : exists l, messages (lit "1") l = [lit "first"; lit "second"] /\
  report_logs (lit "errors-worker") (write_all (lit "errors-worker") l []) = [Line (lit "errors-worker-1.log") (lit "firstsecond")].
Proof. exists [(lit "1", lit "first"); (lit "1", lit "second")]. split; reflexivity. Qed.

(** writing changes no file of another worker; a file that cannot be opened is only logged *)
Theorem C114_write prefix dir open_ c m files files' logged r : write_error prefix dir open_ c m files = (files', logged, r) ->
  (forall f, f <> error_file prefix c -> s_get f files' = s_get f files) /\
  (s_get (error_file prefix c) files' <> s_get (error_file prefix c) files -> r = Ok /\ logged = false) /\
  (logged = true <-> dir = true /\ open_ = Some OsErr) /\
  (r = Ok <-> dir = true /\ (open_ = None \/ open_ = Some OsErr)).
Proof.
  unfold write_error. destruct dir; cbn [negb].
  - intros H. destruct open_ as [e|].
    + assert (D : e = OsErr \/ e <> OsErr) by (destruct e; [left; reflexivity|right; discriminate..]). destruct D as [->|D].
      * injection H as <- <- <-. split; [reflexivity|]. split; [contradiction|]. split; split; auto.
      * assert (Y : (files, false, Exn e) = (files', logged, r)) by (destruct e; [contradiction|exact H..]). injection Y as <- <- <-.
        split; [reflexivity|]. split; [contradiction|]. split; (split; [discriminate|]).
        -- intros [_ X]. congruence.
        -- intros [_ [X|X]]; congruence.
    + injection H as <- <- <-. split; [intros f Ne; rewrite s_get_set; destruct (str_eqb_spec f (error_file prefix c)); [contradiction|reflexivity]|].
      split; [split; reflexivity|]. split; split; auto; try discriminate. intros [_ X]. discriminate.
  - intros H. injection H as <- <- <-. split; [reflexivity|]. split; [contradiction|]. split; split; try discriminate; intros [X _]; discriminate.
Qed.

(** a worker that was not given a directory for errors raises TypeError where it should write: the error it wanted to write is lost *)
Theorem C114_no_directory_refuted : exists open_, open_ = None /\ forall prefix c m files, write_error prefix false open_ c m files = (files, false, Exn TypeErr).
Proof. exists None. split; reflexivity. Qed.

(** ** Connecting *)

(** a worker that is refused by the server goes on without a sign of life, and its parent can read why; an
    exception at the server (a hook that raises, for example) ends it, and there is nothing to read *)
Theorem C114_connect prefix open_ c text connect files files' life r : connect_to_server prefix true open_ c text connect files = (files', life, r) ->
  (life = Keeping <-> connect = None) /\ life <> Ended /\
  (connect = None -> files' = files /\ r = Ok) /\
  (connect = Some OsErr -> open_ = None -> r = Ok /\
     s_get (error_file prefix c) files' = Some (match s_get (error_file prefix c) files with Some t => t | None => [] end ++ lit "Failed to connect to server, error: " ++ text)) /\
  (forall e, connect = Some e -> e <> OsErr -> files' = files /\ r = Exn e).
Proof.
  unfold connect_to_server. destruct connect as [e|].
  2:{ intros H. injection H as <- <- <-. repeat split; try discriminate; intros; discriminate. }
  assert (G : e = OsErr \/ e <> OsErr) by (destruct e; [left; reflexivity|right; discriminate..]). destruct G as [->|N].
  - unfold write_error. cbn [negb]. intros H.
    destruct open_ as [[]|]; injection H as <- <- <-; (split; [split; discriminate|]); (split; [discriminate|]); (split; [discriminate|]); (split; [intros _ O; try discriminate O|intros e X Y; congruence]).
    split; [reflexivity|]. rewrite s_get_set. destruct (str_eqb_spec (error_file prefix c) (error_file prefix c)); [reflexivity|contradiction].
  - intros H. assert (Y : (files, NoThread, Exn e) = (files', life, r)) by (destruct e; [contradiction|exact H..]). injection Y as <- <- <-.
    split; [split; discriminate|]. split; [discriminate|]. split; [discriminate|]. split; [intros X; congruence|].
    intros e' X _. injection X as <-. split; reflexivity.
Qed.

(** the thread is joined once *)
Theorem C114_stopped l : fst (stop_keepalive (fst (stop_keepalive l))) = fst (stop_keepalive l) /\ snd (stop_keepalive (fst (stop_keepalive l))) = false /\
  (snd (stop_keepalive l) = true <-> l = Keeping) /\ fst (stop_keepalive l) <> Keeping.
Proof. destruct l; repeat split; discriminate. Qed.

(** ** Warnings *)

(** a warning that gets to the parent *)
Definition arrives (up : warning -> option exn) (w : warning) : Prop := w_dumps w = None /\ up w = None /\ w_loads w = None /\ w_parent w = None.

(** a warning that cannot be sent, or read, for one of the reasons that are thought of *)
Definition given_up (up : warning -> option exn) (w : warning) : Prop :=
  w_dumps w = Some Pickling \/ w_dumps w = Some TypeErr \/
  (w_dumps w = None /\ up w = None /\ (w_loads w = Some TypeErr \/ w_loads w = None /\ w_parent w = Some TypeErr)).

Lemma add_spec up w own parent :
  (arrives up w /\ add (up w) w (own, parent) = ((own ++ [w], parent ++ [w]), Ok)) \/
  (~ arrives up w /\ given_up up w /\ add (up w) w (own, parent) = ((own ++ [w], parent), Ok)) \/
  (~ arrives up w /\ ~ given_up up w /\ exists e, add (up w) w (own, parent) = ((own, parent), Exn e)).
Proof.
  unfold add, warning_added, remote_warning, report_warning, arrives, given_up. cbn [fst snd].
  destruct (w_dumps w) as [[]|].
  all: try (right; right; split; [intros (X & _); discriminate|]; split; [intros [X|[X|(X & _)]]; discriminate|eexists; reflexivity]).
  1-2: right; left; split; [intros (X & _); discriminate|split; [auto|reflexivity]].
  destruct (up w) as [[]|].
  all: try (right; right; split; [intros (_ & X & _); discriminate|]; split; [intros [X|[X|(_ & X & _)]]; discriminate|eexists; reflexivity]).
  destruct (w_loads w) as [[]|].
  all: try (right; right; split; [intros (_ & _ & X & _); discriminate|]; split; [intros [X|[X|(_ & _ & [X|(X & _)])]]; discriminate|eexists; reflexivity]).
  1: right; left; split; [intros (_ & _ & X & _); discriminate|split; [auto 8|reflexivity]].
  destruct (w_parent w) as [[]|].
  all: try (right; right; split; [intros (_ & _ & _ & X); discriminate|]; split; [intros [X|[X|(_ & _ & [X|(_ & X)])]]; discriminate|eexists; reflexivity]).
  1: right; left; split; [intros (_ & _ & _ & X); discriminate|split; [auto 10|reflexivity]].
  left. split; [auto|reflexivity].
Qed.

(** what of a list was kept: the elements with a property, in their order *)
Inductive keeps {A} (P : A -> Prop) : list A -> list A -> Prop :=
| keeps_nil : keeps P [] []
| keeps_yes x l m : P x -> keeps P l m -> keeps P (x :: l) (x :: m)
| keeps_no x l m : ~ P x -> keeps P l m -> keeps P (x :: l) m.

(** the parent has, after its own, exactly the warnings that can be sent, read and heard there, in their order; the worker has these and the ones that are
    given up; each other warning is an exception where the code warned, and is remembered by nobody *)
Theorem C114_warnings up l own parent : exists own' parent' rs,
  add_all up l (own, parent) = ((own ++ own', parent ++ parent'), rs) /\
  keeps (arrives up) l parent' /\ keeps (fun w => arrives up w \/ given_up up w) l own' /\ List.length rs + List.length own' = List.length l.
Proof.
  revert own parent. induction l as [|w l IH]; intros own parent.
  { exists [], [], []. rewrite !app_nil_r. split; [reflexivity|]. repeat split; constructor. }
  cbn [add_all]. destruct (add_spec up w own parent) as [(A & ->)|[(A & G & ->)|(A & G & e & ->)]].
  - destruct (IH (own ++ [w]) (parent ++ [w])) as (o & p & rs & -> & P & O & L). exists (w :: o), (w :: p), rs. rewrite <- !app_assoc. split; [reflexivity|].
    split; [constructor; assumption|]. split; [constructor; [left; exact A|exact O]|cbn; lia].
  - destruct (IH (own ++ [w]) parent) as (o & p & rs & -> & P & O & L). exists (w :: o), p, rs. rewrite <- !app_assoc. split; [reflexivity|].
    split; [apply keeps_no; assumption|]. split; [constructor; [right; exact G|exact O]|cbn; lia].
  - destruct (IH own parent) as (o & p & rs & -> & P & O & L). exists o, p, (e :: rs). split; [reflexivity|]. split; [apply keeps_no; assumption|].
    split; [apply keeps_no; [tauto|exact O]|cbn; lia].
Qed.

(** a warning that cannot be pickled because its category is a local class (AttributeError) is an exception in the code that warns, and nobody remembers it *)
Theorem C114_local_refuted : exists w, w_dumps w = Some AttrErr /\ forall up own parent, add up w (own, parent) = ((own, parent), Exn AttrErr).
Proof. exists (mkW 1 (Some AttrErr) None None). split; reflexivity. Qed.

(** the clause that should log a failure raises, when it was the call that failed *)
Theorem C114_log_refuted : exists w up, w_dumps w = None /\ up = Some TypeErr /\ forall own parent, add up w (own, parent) = ((own, parent), Exn AttrErr).
Proof. exists (mkW 1 None None None), (Some TypeErr). repeat split. Qed.

(** ** Errors *)

(** the server knows of an error of a worker exactly when it was an error of a session; it logs each with the number of the worker *)
Theorem C114_errors l flag log : let s := errors_added l (flag, log) in
  (fst s = true <-> flag = true \/ exists c m, In (c, m, true) l) /\
  exists more, snd s = log ++ more /\ List.length more = List.length (filter snd l) /\
  forall t, In t more <-> exists c m, In (c, m, true) l /\ t = lit "Session error in client id " ++ c ++ lit ": " ++ m.
Proof.
  cbv zeta. unfold errors_added. set (ms := flat_map _ l).
  assert (M : forall t, In t ms <-> exists c m, In (c, m, true) l /\ t = lit "Session error in client id " ++ c ++ lit ": " ++ m).
  { intros t. unfold ms. rewrite in_flat_map. split.
    - intros ([[c m] g] & I & J). unfold error_added in J. cbn [fst snd] in J. destruct g; [|destruct J]. destruct J as [<-|[]]. exists c, m. split; [exact I|reflexivity].
    - intros (c & m & I & ->). exists (c, m, true). split; [exact I|left; reflexivity]. }
  assert (L : List.length ms = List.length (filter snd l)).
  { unfold ms. clear. induction l as [|[[c m] g] l IH]; [reflexivity|]. cbn [flat_map filter snd fst]. rewrite app_length, IH. destruct g; reflexivity. }
  assert (X : forall ms flag log, fold_left (fun s m => report_session_error m s) ms (flag, log) = (match ms with [] => flag | _ => true end, log ++ ms)).
  { clear. induction ms as [|m ms IH]; intros flag log; [cbn; rewrite app_nil_r; reflexivity|]. cbn [fold_left]. unfold report_session_error at 2. cbn [snd].
    rewrite IH. rewrite <- app_assoc. destruct ms; reflexivity. }
  rewrite X. cbn [fst snd]. split; [|exists ms; split; [reflexivity|split; [exact L|exact M]]].
  destruct ms as [|t ms'] eqn:Y.
  - split; [left; assumption|]. intros [H|(c & m & I)]; [exact H|]. exfalso. apply (proj2 (M (lit "Session error in client id " ++ c ++ lit ": " ++ m))). exists c, m. split; [exact I|reflexivity].
  - split; [|reflexivity]. intros _. right. destruct (proj1 (M t) (or_introl eq_refl)) as (c & m & I & _). exists c, m. exact I.
Qed.

(** ** Cases of the theorems *)

Example C114_ex_table : beats [(lit "1", 5); (lit "2", 6); (lit "1", 7)] (new_keeper 3) = mkKeeper [(lit "1", 7); (lit "2", 6)] 7 /\ last_sign [(lit "1", 5); (lit "2", 6); (lit "1", 7)] (lit "2") 6.
Proof. split; [reflexivity|]. exists [(lit "1", 5)], [(lit "1", 7)]. split; [reflexivity|]. intros t' [X|[]]. discriminate. Qed.

Definition some_errors : list (str * str) := [(lit "2", lit "b
"); (lit "10", lit "x"); (lit "2", lit "c
d")].

Example C114_ex_texts : report_logs (lit "errors-worker") (rev (write_all (lit "errors-worker") some_errors [])) =
  [Line (lit "errors-worker-10.log") (lit "x"); Line (lit "errors-worker-2.log") (lit "b
"); Line (lit "errors-worker-2.log") (lit "c
"); Line (lit "errors-worker-2.log") (lit "d")] /\ Permutation (rev (write_all (lit "errors-worker") some_errors [])) (write_all (lit "errors-worker") some_errors []).
Proof. split; [reflexivity|]. apply Permutation_sym, Permutation_rev. Qed.

Example C114_ex_warnings : let a := mkW 1 None None None in let b := mkW 2 (Some Pickling) None None in let c := mkW 3 None (Some AttrErr) None in let d := mkW 4 None None None in
  add_all (fun _ => None) [a; b; c; d] ([], []) = (([a; b; d], [a; d]), [Fault]).
Proof. reflexivity. Qed.

Example C114_ex_errors : errors_added [(lit "1", lit "boom", true); (lit "2", lit "x", false)] (false, []) = (true, [lit "Session error in client id 1: boom"]).
Proof. reflexivity. Qed.

Example C114_ex_connect : connect_to_server (lit "e") true None (lit "1") (lit "refused") (Some OsErr) [] = ([(lit "e-1.log", lit "Failed to connect to server, error: refused")], NoThread, Ok).
Proof. reflexivity. Qed.

Print Assumptions C114_table.
Print Assumptions C114_rounds.
Print Assumptions C114_one_lost_refuted.
Print Assumptions C114_texts.
Print Assumptions C114_glued_refuted.
Print Assumptions C114_write.
Print Assumptions C114_no_directory_refuted.
Print Assumptions C114_connect.
Print Assumptions C114_stopped.
Print Assumptions C114_warnings.
Print Assumptions C114_local_refuted.
Print Assumptions C114_log_refuted.
Print Assumptions C114_errors.
