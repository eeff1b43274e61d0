(** C113: the command line of a worker, and slash in tmux. *)

From Coq Require Import List Bool Arith Ascii String Lia.
From Verif Require Import Str Naming WorkerCommand.
Import ListNotations.
Open Scope list_scope.

(** ** Options *)

(** the value an option has for a parser that takes the last one: what follows the last
    occurrence of its name *)
Definition has_value (name v : str) (l : list str) : Prop := exists a b, l = a ++ name :: v :: b /\ ~ In name b /\ v <> name.

Definition NAMES : list str := [lit "--parallel-port"; lit "--keepalive-port"; lit "--workers-error-dir"; lit "--parallel-worker-id"].

(** whatever the user wrote on the command line and whatever the hook changed, the worker
    is told the ports of the two servers and the directory of the errors *)
Theorem C113_servers executable sid wid port keepalive dir hook a :
  (forall v, In v [port; keepalive; dir] -> ~ In v NAMES) ->
  let l := process_argv executable sid wid port keepalive dir hook a in
  has_value (lit "--parallel-port") port l /\ has_value (lit "--keepalive-port") keepalive l /\ has_value (lit "--workers-error-dir") dir l.
Proof.
  intros N l. unfold l, process_argv, started_argv. set (h := hook _).
  assert (Np := N port (or_introl eq_refl)). assert (Nk := N keepalive (or_intror (or_introl eq_refl))). assert (Nd := N dir (or_intror (or_intror (or_introl eq_refl)))).
  cbn [In NAMES] in Np, Nk, Nd. unfold has_value. repeat split.
  - exists h, [lit "--keepalive-port"; keepalive; lit "--workers-error-dir"; dir]. split; [reflexivity|]. split; [|intros ->; tauto].
    intros [X|[X|[X|[X|[]]]]]; try discriminate X; [apply Nk|apply Nd]; rewrite X; tauto.
  - exists (h ++ [lit "--parallel-port"; port]), [lit "--workers-error-dir"; dir]. split; [rewrite <- app_assoc; reflexivity|]. split; [|intros ->; tauto].
    intros [X|[X|[]]]; try discriminate X. apply Nd. rewrite X. tauto.
  - exists (h ++ [lit "--parallel-port"; port; lit "--keepalive-port"; keepalive]), []. split; [rewrite <- app_assoc; reflexivity|]. split; [intros []|intros ->; tauto].
Qed.

(** a hook that only adds arguments, none of them the name of the worker's number, leaves
    the worker its number and the user's arguments, whole and in order *)
Theorem C113_number executable sid wid port keepalive dir hook more a :
  (forall l, hook l = l ++ more) -> ~ In (lit "--parallel-worker-id") more -> (forall v, In v [wid; port; keepalive; dir] -> ~ In v NAMES) ->
  let l := process_argv executable sid wid port keepalive dir hook a in
  has_value (lit "--parallel-worker-id") wid l /\
  exists b, l = [executable; lit "-m"; lit "slash.frontend.main"; a_cmd a] ++ [lit "--parallel-parent-session-id"; sid] ++ a_argv a ++ b.
Proof.
  intros H M N l. unfold l, process_argv, started_argv. rewrite H. unfold base_argv.
  assert (Nw := N wid (or_introl eq_refl)). assert (Np := N port (or_intror (or_introl eq_refl))). assert (Nk := N keepalive (or_intror (or_intror (or_introl eq_refl)))).
  assert (Nd := N dir (or_intror (or_intror (or_intror (or_introl eq_refl))))). cbn [In NAMES] in Nw, Np, Nk, Nd. split.
  - exists ([executable; lit "-m"; lit "slash.frontend.main"; a_cmd a; lit "--parallel-parent-session-id"; sid] ++ a_argv a),
      (more ++ [lit "--parallel-port"; port; lit "--keepalive-port"; keepalive; lit "--workers-error-dir"; dir]).
    split; [rewrite <- !app_assoc; reflexivity|]. split; [|intros ->; tauto]. intros I. apply in_app_iff in I as [I|I]; [exact (M I)|].
    destruct I as [X|[X|[X|[X|[X|[X|[]]]]]]]; try discriminate X; [apply Np|apply Nk|apply Nd]; rewrite X; tauto.
  - eexists. rewrite <- !app_assoc. reflexivity.
Qed.

(** the parent's session, unlike the worker's number, can be overridden by the command line of the user *)
Theorem C113_parent_refuted : exists a, In (lit "other") (a_argv a) /\
  has_value (lit "--parallel-parent-session-id") (lit "other") (process_argv (lit "python") (lit "id1") (lit "1") (lit "80") (lit "81") (lit "/tmp") (fun l => l) a).
Proof.
  exists (mkArgs (lit "run") [lit "--parallel-parent-session-id"; lit "other"] 0). split; [cbn; tauto|].
  exists [lit "python"; lit "-m"; lit "slash.frontend.main"; lit "run"; lit "--parallel-parent-session-id"; lit "id1"],
    [lit "--parallel-worker-id"; lit "1"; lit "--parallel-port"; lit "80"; lit "--keepalive-port"; lit "81"; lit "--workers-error-dir"; lit "/tmp"].
  split; [reflexivity|]. split; [|discriminate]. cbn [In]. intros X. repeat (destruct X as [X|X]; [discriminate X|]). exact X.
Qed.

(** a -v before the command is not handed to the workers *)
Theorem C113_verbosity_refuted : exists a b, a_cmd a = a_cmd b /\ a_argv a = a_argv b /\ a_verbosity a <> a_verbosity b /\
  forall executable sid wid port keepalive dir hook,
    process_argv executable sid wid port keepalive dir hook a = process_argv executable sid wid port keepalive dir hook b.
Proof.
  exists (mkArgs (lit "run") [lit "t.py"] 0), (mkArgs (lit "run") [lit "t.py"] 2). repeat split. discriminate.
Qed.

(** ** The text for a shell *)

Lemma split_word (w : str) (s : str) : ~ In " "%char w -> split_all " "%char (w ++ " "%char :: s) = w :: split_all " "%char s.
Proof.
  induction w as [|x w IH]; intros N; [reflexivity|]. cbn [app split_all]. destruct (Ascii.eqb_spec x " "%char) as [->|_]; [destruct N; left; reflexivity|].
  rewrite IH by (intros I; apply N; right; exact I). reflexivity.
Qed.

Lemma split_last (w : str) : ~ In " "%char w -> split_all " "%char w = [w].
Proof.
  induction w as [|x w IH]; intros N; [reflexivity|]. cbn [split_all]. destruct (Ascii.eqb_spec x " "%char) as [->|_]; [destruct N; left; reflexivity|].
  rewrite IH by (intros I; apply N; right; exact I). reflexivity.
Qed.

Lemma split_join l : l <> [] -> (forall w, In w l -> ~ In " "%char w) -> split_all " "%char (join (lit " ") l) = l.
Proof.
  induction l as [|w [|v l] IH]; intros N H; [contradiction| |].
  - cbn [join]. apply split_last, H. left. reflexivity.
  - change (join (lit " ") (w :: v :: l)) with (w ++ " "%char :: join (lit " ") (v :: l)). rewrite split_word by (apply H; left; reflexivity).
    rewrite IH; [reflexivity|discriminate|intros x I; apply H; right; exact I].
Qed.

(** without a space in them, the arguments can be read back from the text, word by word *)
Theorem C113_words argv : (forall w, In w argv -> ~ In " "%char w) -> split_all " "%char (tmux_command argv) = argv ++ [lit ";$SHELL"].
Proof.
  intros H. unfold tmux_command. apply split_join; [destruct argv; discriminate|]. intros w I. apply in_app_iff in I as [I|[<-|[]]]; [apply H; exact I|].
  cbn. intros X. repeat (destruct X as [X|X]; [discriminate X|]). exact X.
Qed.

(** with a space in them they cannot: two workers that differ in their arguments run the same
    text, so whatever the shell does, one of them is wrong *)
Theorem C113_words_refuted : exists a b, a <> b /\ List.length a <> List.length b /\ forall executable sid wid port keepalive dir,
  tmux_command (process_argv executable sid wid port keepalive dir (fun l => l) (mkArgs (lit "run") a 0)) =
  tmux_command (process_argv executable sid wid port keepalive dir (fun l => l) (mkArgs (lit "run") b 0)).
Proof.
  exists [lit "-k"; lit "a b"], [lit "-k"; lit "a"; lit "b"]. split; [discriminate|]. split; [discriminate|]. reflexivity.
Qed.

(** ** The search for tmux *)

(** the candidates *)
Definition candidate (program dir : str) : str := path_join (strip_quotes dir) program.

(** what file an entry of PATH means: quotes around it do not count, an empty entry is the
    directory one is in, and there is one slash between the directory and the program *)
Definition means (program dir f : str) : Prop := exists q core q', dir = q ++ core ++ q' /\
  (forall c, In c (q ++ q') -> c = """"%char) /\ (forall x, core <> """"%char :: x) /\ (forall x, core <> x ++ [""""%char]) /\
  ((core = [] /\ f = program) \/ (exists x, core = x ++ lit "/" /\ f = core ++ program) \/
   (core <> [] /\ (forall x, core <> x ++ lit "/") /\ f = core ++ lit "/" ++ program)).

Lemma lstrip_app q s : (forall c, In c q -> c = """"%char) -> lstrip_quotes (q ++ s) = lstrip_quotes s.
Proof. induction q as [|c q IH]; intros H; [reflexivity|]. rewrite (H c (or_introl eq_refl)). apply IH. intros d I. apply H. right. exact I. Qed.

Lemma quote_dec (c : ascii) : c = """"%char \/ c <> """"%char.
Proof. destruct (ascii_dec c """"%char); [left|right]; assumption. Qed.

Lemma lstrip_other c s : c <> """"%char -> lstrip_quotes (c :: s) = c :: s.
Proof. intros N. destruct c as [[] [] [] [] [] [] [] []]; try reflexivity. contradiction. Qed.

Lemma lstrip_id s : (forall x, s <> """"%char :: x) -> lstrip_quotes s = s.
Proof. destruct s as [|c s]; intros H; [reflexivity|]. apply lstrip_other. intros ->. apply (H s). reflexivity. Qed.

Lemma lstrip_split s : exists q, s = q ++ lstrip_quotes s /\ (forall c, In c q -> c = """"%char) /\ forall x, lstrip_quotes s <> """"%char :: x.
Proof.
  induction s as [|c s (q & A & B & D)]; [exists []; repeat split; [intros c []|discriminate]|]. destruct (quote_dec c) as [->|N].
  - exists (""""%char :: q). cbn [lstrip_quotes app]. split; [f_equal; exact A|]. split; [|exact D]. intros c [<-|I]; [reflexivity|apply B; exact I].
  - exists []. rewrite lstrip_other by exact N. repeat split; [intros x []|]. intros x X. injection X as X _. contradiction.
Qed.

Lemma strip_split s : exists q q', s = q ++ strip_quotes s ++ q' /\ (forall c, In c (q ++ q') -> c = """"%char) /\
  (forall x, strip_quotes s <> """"%char :: x) /\ (forall x, strip_quotes s <> x ++ [""""%char]).
Proof.
  unfold strip_quotes. destruct (lstrip_split s) as (q & A & B & D). set (t := lstrip_quotes s) in *. destruct (lstrip_split (rev t)) as (q' & A' & B' & D').
  set (u := lstrip_quotes (rev t)) in *. exists q, (rev q'). assert (T : t = rev u ++ rev q') by (rewrite <- rev_app_distr, <- A', rev_involutive; reflexivity).
  split; [rewrite <- T; exact A|]. split; [|split].
  - intros c I. apply in_app_iff in I as [I|I]; [apply B; exact I|apply B', in_rev; exact I].
  - intros x X. apply (D (x ++ rev q')). rewrite T, X. reflexivity.
  - intros x X. apply (D' (rev x)). rewrite <- (rev_involutive u), X, rev_app_distr. reflexivity.
Qed.

Lemma strip_unique q core q' : (forall c, In c (q ++ q') -> c = """"%char) -> (forall x, core <> """"%char :: x) -> (forall x, core <> x ++ [""""%char]) -> strip_quotes (q ++ core ++ q') = core.
Proof.
  intros H B E. unfold strip_quotes. rewrite lstrip_app by (intros c I; apply H, in_app_iff; left; exact I). destruct core as [|c core].
  - cbn [app]. rewrite <- (app_nil_r q'). rewrite lstrip_app by (intros c I; apply H, in_app_iff; right; exact I). reflexivity.
  - cbn [app]. rewrite lstrip_other by (intros ->; apply (B core); reflexivity). change (c :: core ++ q') with ((c :: core) ++ q'). rewrite rev_app_distr.
    rewrite lstrip_app by (intros d I; apply H, in_app_iff; right; apply in_rev; exact I). rewrite lstrip_id; [apply rev_involutive|].
    intros x X. apply (E (rev x)). rewrite <- (rev_involutive (c :: core)), X. reflexivity.
Qed.

(** the candidate is the file that the entry means *)
Theorem C113_means program dir f : means program dir f <-> f = candidate program dir.
Proof.
  assert (J : forall core f, ((core = [] /\ f = program) \/ (exists x, core = x ++ lit "/" /\ f = core ++ program) \/
     (core <> [] /\ (forall x, core <> x ++ lit "/") /\ f = core ++ lit "/" ++ program)) <-> f = path_join core program).
  { clear. intros core f. unfold path_join. assert (EN : ends (lit "/") core = true <-> exists x, core = x ++ lit "/") by (apply ends_spec).
    destruct core as [|c core].
    - split; [intros [[_ ->]|[(x & X & _)|(X & _)]]; [reflexivity|destruct x; discriminate|contradiction]|intros ->; left; split; reflexivity].
    - destruct (ends (lit "/") (c :: core)).
      + destruct EN as [EN _]. specialize (EN eq_refl). split.
        * intros [[X _]|[(x & X & ->)|(_ & X & _)]]; [discriminate|reflexivity|]. destruct EN as (x & EN). destruct (X x EN).
        * intros ->. right. left. destruct EN as (x & EN). exists x. split; [exact EN|reflexivity].
      + split.
        * intros [[X _]|[(x & X & ->)|(_ & _ & ->)]]; [discriminate| |reflexivity]. assert (Y : false = true) by (apply EN; exists x; exact X). discriminate.
        * intros ->. right. right. split; [discriminate|]. split; [|reflexivity]. intros x X. assert (Y : false = true) by (apply EN; exists x; exact X). discriminate. }
  unfold candidate. split.
  - intros (q & core & q' & -> & H & B & E & X). rewrite strip_unique by assumption. apply J. exact X.
  - intros X. destruct (strip_split dir) as (q & q' & A & H & B & E). exists q, (strip_quotes dir), q'. repeat (split; [assumption|]). apply J. exact X.
Qed.

(** which gives the first candidate of PATH that can be executed, and nothing only when there is none *)
Theorem C113_which is_exe path program : ~ In "/"%char program ->
  match which is_exe path program with
  | NoPath => path = None
  | Found f => exists p before d after, path = Some p /\ split_all ":"%char p = before ++ d :: after /\
      f = candidate program d /\ is_exe f = true /\ forall x, In x before -> is_exe (candidate program x) = false
  | NotFound => exists p, path = Some p /\ forall x, In x (split_all ":"%char p) -> is_exe (candidate program x) = false
  end.
Proof.
  intros N. unfold which. destruct (contains (lit "/") program) eqn:C.
  { apply contains_spec in C as (a & b & ->). destruct N. apply in_app_iff. right. left. reflexivity. }
  destruct path as [p|]; [|reflexivity].
  assert (G : forall l, match search is_exe program l with
    | NoPath => False
    | Found f => exists before d after, l = before ++ d :: after /\ f = candidate program d /\ is_exe f = true /\ forall x, In x before -> is_exe (candidate program x) = false
    | NotFound => forall x, In x l -> is_exe (candidate program x) = false end).
  { induction l as [|d l IH]; [intros x []|]. cbn [search]. fold (candidate program d). destruct (is_exe (candidate program d)) eqn:X.
    - exists [], d, l. repeat split; [exact X|intros x []].
    - destruct (search is_exe program l) as [f| |].
      + destruct IH as (be & d' & af & -> & A & B & D). exists (d :: be), d', af. split; [reflexivity|]. split; [exact A|]. split; [exact B|].
        intros x [<-|I]; [exact X|apply D; exact I].
      + intros x [<-|I]; [exact X|apply IH; exact I].
      + exact IH. }
  specialize (G (split_all ":"%char p)). destruct (search is_exe program (split_all ":"%char p)) as [f| |].
  - destruct G as (be & d & af & A & B & D & F). exists p, be, d, af. repeat split; assumption.
  - exists p. split; [reflexivity|exact G].
  - destruct G.
Qed.

(** a program with a slash is looked for where it says *)
Theorem C113_which_path is_exe path program : In "/"%char program ->
  which is_exe path program = if is_exe program then Found program else NotFound.
Proof.
  intros I. unfold which. apply in_split in I as (a & b & ->).
  assert (C : contains (lit "/") (a ++ "/"%char :: b) = true) by (apply contains_spec; exists a, b; reflexivity). rewrite C. reflexivity.
Qed.

(** ** slash in tmux *)

Lemma rename_in old new l : In old l -> In new (rename old new l).
Proof.
  induction l as [|x l IH]; intros I; [destruct I|]. cbn [rename]. destruct (str_eqb_spec old x) as [E|E]; [left; reflexivity|].
  right. apply IH. destruct I as [->|I]; [contradiction|exact I].
Qed.

Lemma has_in name t : has_session name t = true <-> exists l, t = Some l /\ In name l.
Proof.
  unfold has_session. destruct t as [l|]; [|split; [discriminate|intros (l & X & _); discriminate]]. rewrite existsb_exists. split.
  - intros (x & I & X). destruct (str_eqb_spec name x) as [->|]; [|discriminate]. exists l. split; [reflexivity|exact I].
  - intros (l' & X & I). injection X as <-. exists name. split; [exact I|]. destruct (str_eqb_spec name name); [reflexivity|contradiction].
Qed.

Lemma rename_split l new : In DEFAULT l -> exists b d, l = b ++ DEFAULT :: d /\ rename DEFAULT new l = b ++ new :: d.
Proof.
  induction l as [|x l IH]; intros I; [destruct I|]. cbn [rename]. destruct (str_eqb_spec DEFAULT x) as [<-|N].
  - exists [], l. split; reflexivity.
  - destruct I as [I|I]; [congruence|]. destruct (IH I) as (b & d & -> & ->). exists (x :: b), d. split; reflexivity.
Qed.

(** slash goes on in this process only inside a session of tmux that now bears the name of this
    session, so that windows for workers can be opened *)
Theorem C113_goes is_exe path executable sid inside a t t' : run_in_tmux is_exe path executable sid inside a t = Goes t' ->
  (exists before after, t = Some (before ++ DEFAULT :: after) /\ t' = Some (before ++ sid :: after)) /\ can_open sid t' = true.
Proof.
  unfold run_in_tmux. destruct (has_session DEFAULT t) eqn:H.
  - intros X. injection X as <-. apply has_in in H as (l & -> & I). split; [cbn [option_map]; destruct (rename_split l sid I) as (b & d & A & B); exists b, d; rewrite <- B, <- A; split; reflexivity|]. apply has_in. exists (rename DEFAULT sid l).
    split; [reflexivity|apply rename_in; exact I].
  - destruct (which is_exe path (lit "tmux")); discriminate.
Qed.

(** otherwise the process becomes tmux with a session of that name, which runs the same command: the
    new process goes on *)
Theorem C113_again is_exe path executable sid inside a t p l : run_in_tmux is_exe path executable sid inside a t = Exec p l ->
  (forall s, t = Some s -> ~ In DEFAULT s) /\ is_exe p = true /\
  (exists command before, l = p :: before ++ [command] /\ (exists c d, before = c ++ lit "-s" :: DEFAULT :: d) /\
    ((forall w, In w (executable :: a_cmd a :: a_argv a) -> ~ In " "%char w) -> split_all " "%char command = [executable; lit "-m"; lit "slash.frontend.main"; a_cmd a] ++ a_argv a)) /\
  forall s sid2 inside2 a2, In DEFAULT s -> exists t', run_in_tmux is_exe path executable sid2 inside2 a2 (Some s) = Goes t'.
Proof.
  unfold run_in_tmux. destruct (has_session DEFAULT t) eqn:H; [discriminate|]. pose proof (C113_which is_exe path (lit "tmux")) as W.
  destruct (which is_exe path (lit "tmux")) as [q| |]; try discriminate. intros X. injection X as <- <-. split; [|split; [|split]].
  - intros s -> I. assert (Y : has_session DEFAULT (Some s) = true) by (apply has_in; exists s; split; [reflexivity|exact I]). rewrite Y in H. discriminate.
  - destruct W as (p & be & d & af & _ & _ & _ & Y & _); [|exact Y]. cbn. intros Z. repeat (destruct Z as [Z|Z]; [discriminate Z|]). exact Z.
  - exists (join (lit " ") (executable :: lit "-m" :: lit "slash.frontend.main" :: a_cmd a :: a_argv a)),
      ([lit "new-session"; lit "-s"; DEFAULT; lit "-n"; lit "master"] ++ if inside then [lit "-Ad"] else []).
    split; [rewrite <- app_assoc; reflexivity|]. split; [exists [lit "new-session"], ([lit "-n"; lit "master"] ++ if inside then [lit "-Ad"] else []); reflexivity|].
    intros S. rewrite split_join; [reflexivity|discriminate|]. intros w [<-|[<-|[<-|[<-|I]]]].
    + apply S. left. reflexivity.
    + cbn. intros Z. repeat (destruct Z as [Z|Z]; [discriminate Z|]). exact Z.
    + cbn. intros Z. repeat (destruct Z as [Z|Z]; [discriminate Z|]). exact Z.
    + apply S. right. left. reflexivity.
    + apply S. right. right. exact I.
  - intros s sid2 inside2 a2 I. assert (Y : has_session DEFAULT (Some s) = true) by (apply has_in; exists s; split; [reflexivity|exact I]). rewrite Y. eexists. reflexivity.
Qed.

(** the name of the new session is taken: a session of that name that is not ours is renamed, and slash goes on though it
    does not run there *)
Theorem C113_stolen_refuted : exists is_exe path executable sid a t t', run_in_tmux is_exe path executable sid false a t = Goes t' /\
  has_session DEFAULT t = true /\ has_session DEFAULT t' = false.
Proof.
  exists (fun _ => true), None, (lit "python"), (lit "id1"), (mkArgs (lit "run") [] 0), (Some [DEFAULT]), (Some [lit "id1"]). repeat split.
Qed.

(** ** Cases of the theorems *)

Example C113_ex_argv :
  let hook := fun l => l ++ [lit "-v"] in
  process_argv (lit "python") (lit "id1") (lit "2") (lit "80") (lit "81") (lit "/tmp/e") hook (mkArgs (lit "run") [lit "t.py"] 0) =
    [lit "python"; lit "-m"; lit "slash.frontend.main"; lit "run"; lit "--parallel-parent-session-id"; lit "id1"; lit "t.py"; lit "--parallel-worker-id"; lit "2"; lit "-v";
     lit "--parallel-port"; lit "80"; lit "--keepalive-port"; lit "81"; lit "--workers-error-dir"; lit "/tmp/e"] /\
  ~ In (lit "--parallel-worker-id") [lit "-v"] /\ (forall v, In v [lit "2"; lit "80"; lit "81"; lit "/tmp/e"] -> ~ In v NAMES).
Proof.
  split; [reflexivity|]. split; [intros [X|[]]; discriminate|]. intros v I J. cbn [In NAMES] in I, J.
  repeat (destruct I as [<-|I]; [repeat (destruct J as [J|J]; [discriminate J|]); exact J|]). exact I.
Qed.

Example C113_ex_which :
  let e := fun f => str_eqb f (lit "/opt/tmux") in
  which e (Some (lit "/bin:""/opt"":/usr/bin")) (lit "tmux") = Found (lit "/opt/tmux") /\ which e (Some []) (lit "tmux") = NotFound /\
  which e None (lit "/opt/tmux") = Found (lit "/opt/tmux") /\
  run_in_tmux e (Some (lit "/opt/")) (lit "python") (lit "id1") true (mkArgs (lit "run") [lit "t.py"] 0) None =
    Exec (lit "/opt/tmux") [lit "/opt/tmux"; lit "new-session"; lit "-s"; lit "slash_session"; lit "-n"; lit "master"; lit "-Ad"; lit "python -m slash.frontend.main run t.py"] /\
  run_in_tmux e (Some (lit "/opt/")) (lit "python") (lit "id1") true (mkArgs (lit "run") [lit "t.py"] 0) (Some [lit "w"; lit "slash_session"]) = Goes (Some [lit "w"; lit "id1"]) /\
  run_in_tmux e (Some (lit "/x")) (lit "python") (lit "id1") true (mkArgs (lit "run") [lit "t.py"] 0) (Some [lit "w"]) = NoTmux.
Proof. repeat split. Qed.

Print Assumptions C113_servers.
Print Assumptions C113_number.
Print Assumptions C113_parent_refuted.
Print Assumptions C113_verbosity_refuted.
Print Assumptions C113_words.
Print Assumptions C113_words_refuted.
Print Assumptions C113_means.
Print Assumptions C113_which.
Print Assumptions C113_which_path.
Print Assumptions C113_goes.
Print Assumptions C113_again.
Print Assumptions C113_stolen_refuted.
