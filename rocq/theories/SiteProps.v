(** C101: customization files are run in order, with their directories importable *)

From Coq Require Import List Bool Ascii String Lia.
From Verif Require Import Str Site.
Import ListNotations.
Open Scope string_scope.
Open Scope list_scope.

Section Site.
Variable W : Type.
Variable exec : source -> vis W -> vis W * option exn.
Variable isfile : W -> str -> bool.
Variable environ : W -> str -> option str.
Variable entries : W -> list nat.
Variable expanduser abspath dirname basename : str -> str.
Variable isabs : str -> bool.
Variable join : str -> str -> str.

Notation run := (run W exec).
Notation seq := (seq W).
Notation ret := (ret W).
Notation load_file_if_exists := (load_file_if_exists W exec isfile dirname).
Notation load_slashrc := (load_slashrc W exec isfile environ expanduser dirname).
Notation load_local_slashrc := (load_local_slashrc W exec isfile expanduser abspath dirname basename isabs join).
Notation load_environment := (load_environment W exec isfile environ).
Notation load_entry_points := (load_entry_points W exec entries).
Notation load_defaults := (load_defaults W exec isfile environ entries expanduser abspath dirname basename isabs join).
Notation M := (M W).

(** ** The order *)

(** of the whole run: the place of a role *)
Definition rank (o : role) : nat := match o with User => 0 | Project => 1 | Settings => 2 | EntryPoint => 3 end.

(** the exception of the whole is the one of the last event, no other event raised *)
Definition outcome (l : list event) (r : option exn) : Prop :=
  match r with
  | None => Forall (fun e => ev_exn e = None) l
  | Some x => exists l' e, l = l' ++ [e] /\ ev_exn e = Some x /\ Forall (fun e => ev_exn e = None) l'
  end.

Definition honest (m : M) : Prop := forall v v' l r, m v = (v', l, r) -> outcome l r.

Lemma honest_ret : honest ret.
Proof. intros v v' l r H. injection H as <- <- <-. constructor. Qed.

Lemma honest_run o s : honest (run o s).
Proof.
  intros v v' l r H. unfold Site.run in H. destruct (exec s v) as [v1 r1]. injection H as <- <- <-. destruct r1 as [x|]; cbn [outcome].
  - eexists [], _. split; [reflexivity|]. split; [reflexivity|constructor].
  - constructor; [reflexivity|constructor].
Qed.

Lemma honest_seq a b : honest a -> honest b -> honest (seq a b).
Proof.
  intros A B v v' l r H. unfold Site.seq in H. destruct (a v) as [[v1 l1] r1] eqn:E1. specialize (A _ _ _ _ E1).
  destruct r1 as [x|]; [injection H as <- <- <-; exact A|]. destruct (b v1) as [[v2 l2] r2] eqn:E2. specialize (B _ _ _ _ E2). injection H as <- <- <-.
  destruct r2 as [x|]; cbn [outcome] in *.
  - destruct B as (l' & e & -> & X & Y). exists (l1 ++ l'), e. split; [apply app_assoc|]. split; [exact X|]. apply Forall_app. split; assumption.
  - apply Forall_app. split; assumption.
Qed.

Lemma honest_file o p : honest (load_file_if_exists o p).
Proof.
  intros v v' l r H. unfold Site.load_file_if_exists in H. destruct p as [p|]; [|apply (honest_ret _ _ _ _ H)].
  destruct (isfile (rest W v) p); [|apply (honest_ret _ _ _ _ H)].
  destruct (run o (File p) (with_path W (dirname p :: sys_path W v) v)) as [[v1 l1] r1] eqn:E. injection H as <- <- <-. apply (honest_run _ _ _ _ _ _ E).
Qed.

Lemma honest_local wd : honest (load_local_slashrc wd).
Proof.
  intros v. apply honest_seq; [apply honest_file|]. intros v1 v' l r H. destruct (project_name W v1); apply (honest_ret _ _ _ _ H).
Qed.

Lemma honest_env : honest load_environment.
Proof.
  intros v v' l r H. unfold Site.load_environment in H. destruct (environ (rest W v) (lit "SLASH_SETTINGS")) as [[|c s]|]; try apply (honest_ret _ _ _ _ H).
  apply (honest_run _ _ _ _ _ _ H).
Qed.

Lemma honest_entries l : honest (run_entries W exec l).
Proof. induction l as [|i l IH]; [apply honest_ret|]. cbn [run_entries]. apply honest_seq; [apply honest_run|exact IH]. Qed.

(** the exception of a load is the one of the customization that was run last, and no
    other customization raised *)
Theorem C101_exception wd v v' l r : load_defaults wd v = (v', l, r) ->
  match r with
  | None => forall e, In e l -> ev_exn e = None
  | Some x => exists l' e, l = l' ++ [e] /\ ev_exn e = Some x /\ forall e, In e l' -> ev_exn e = None
  end.
Proof.
  intros H. assert (O : outcome l r).
  { revert H. unfold Site.load_defaults. apply honest_seq; [intros u; apply honest_file|]. apply honest_seq; [apply honest_local|].
    apply honest_seq; [apply honest_env|intros u; apply honest_entries]. }
  destruct r as [x|]; cbn [outcome] in O.
  - destruct O as (l' & e & A & B & C). exists l', e. split; [exact A|]. split; [exact B|]. rewrite Forall_forall in C. exact C.
  - rewrite Forall_forall in O. exact O.
Qed.

(** ** What each part runs *)

Lemma file_events o p v v' l r : load_file_if_exists o p v = (v', l, r) ->
  (exists f, p = Some f /\ isfile (rest W v) f = true /\ l = [mkEvent o (File f) (dirname f :: sys_path W v) r] /\ sys_path W v' = sys_path W v) \/
  ((forall f, p = Some f -> isfile (rest W v) f = false) /\ l = [] /\ v' = v /\ r = None).
Proof.
  unfold Site.load_file_if_exists. destruct p as [p|].
  - destruct (isfile (rest W v) p) eqn:F.
    + unfold Site.run. destruct (exec (File p) _) as [v1 r1]. intros H. injection H as <- <- <-. left. exists p.
      split; [reflexivity|]. split; [exact F|]. split; reflexivity.
    + intros H. injection H as <- <- <-. right. split; [intros f X; injection X as <-; exact F|]. split; [reflexivity|]. split; reflexivity.
  - intros H. injection H as <- <- <-. right. split; [discriminate|]. split; [reflexivity|]. split; reflexivity.
Qed.

Lemma local_events wd v v' l r : load_local_slashrc wd v = (v', l, r) ->
  sys_path W v' = sys_path W v /\ (r = None -> project_name W v' <> None) /\
  (l = [] \/ exists f, l = [mkEvent Project (File f) (dirname f :: sys_path W v) r]).
Proof.
  unfold Site.load_local_slashrc. set (p := local_path W expanduser abspath isabs join wd v). unfold Site.seq.
  destruct (load_file_if_exists Project (Some p) v) as [[v1 l1] r1] eqn:E1. destruct (file_events _ _ _ _ _ _ E1) as [(f & _ & _ & L & S)|(_ & L & -> & ->)].
  - destruct r1 as [x|].
    + intros H. injection H as <- <- <-. split; [exact S|]. split; [discriminate|]. right. exists f. exact L.
    + destruct (project_name W v1) as [n|] eqn:N; cbn [Site.ret]; intros H; injection H as <- <- <-; rewrite app_nil_r.
      * split; [exact S|]. split; [intros _; rewrite N; discriminate|]. right. exists f. exact L.
      * split; [exact S|]. split; [intros _; discriminate|]. right. exists f. exact L.
  - destruct (project_name W v) as [n|] eqn:N; cbn [Site.ret]; intros H; injection H as <- <- <-; rewrite app_nil_r.
    + split; [reflexivity|]. split; [intros _; rewrite N; discriminate|]. left. exact L.
    + split; [reflexivity|]. split; [intros _; discriminate|]. left. exact L.
Qed.

Lemma env_events v v' l r : load_environment v = (v', l, r) ->
  (l = [] /\ v' = v /\ r = None) \/ exists s, (s = File (match s with File f => f | _ => [] end) \/ exists u, s = Url u) /\ l = [mkEvent Settings s (sys_path W v) r] /\ (v', r) = exec s v.
Proof.
  unfold Site.load_environment. destruct (environ (rest W v) (lit "SLASH_SETTINGS")) as [[|c s]|];
    [intros H; injection H as <- <- <-; left; split; [reflexivity|split; reflexivity]| |intros H; injection H as <- <- <-; left; split; [reflexivity|split; reflexivity]].
  unfold load_filename_or_url, Site.run. destruct (exec (if isfile (rest W v) (c :: s) then File (c :: s) else Url (c :: s)) v) as [v1 r1] eqn:X.
  intros H. injection H as <- <- <-. right. exists (if isfile (rest W v) (c :: s) then File (c :: s) else Url (c :: s)).
  split; [|split; [reflexivity|symmetry; exact X]]. destruct (isfile (rest W v) (c :: s)); [left; reflexivity|right; exists (c :: s); reflexivity].
Qed.

Lemma entry_events l0 v v' l r : run_entries W exec l0 v = (v', l, r) ->
  exists k, k <= List.length l0 /\ map ev_source l = map Entry (firstn k l0) /\ Forall (fun e => ev_role e = EntryPoint) l /\ (r = None -> k = List.length l0).
Proof.
  revert v l. induction l0 as [|i l0 IH]; intros v l H.
  - injection H as <- <- <-. exists 0. split; [cbn; lia|]. split; [reflexivity|]. split; [constructor|reflexivity].
  - cbn [run_entries] in H. unfold Site.seq in H. unfold Site.run in H at 1. destruct (exec (Entry i) v) as [v1 r1]. destruct r1 as [x|].
    + injection H as <- <- <-. exists 1. split; [cbn; lia|]. split; [reflexivity|]. split; [constructor; [reflexivity|constructor]|discriminate].
    + destruct (run_entries W exec l0 v1) as [[v2 l2] r2] eqn:E2. injection H as <- <- <-. destruct (IH _ _ E2) as (k & L & Q & F & R).
      exists (S k). split; [cbn; lia|]. split; [cbn [map firstn app ev_source]; rewrite Q; reflexivity|].
      split; [constructor; [reflexivity|exact F]|]. intros X. rewrite (R X). reflexivity.
Qed.

(** the shape of a whole load *)
Lemma load_cases wd v v' l r : load_defaults wd v = (v', l, r) ->
  exists v1 l1 r1, load_slashrc v = (v1, l1, r1) /\
  match r1 with
  | Some x => v' = v1 /\ l = l1 /\ r = Some x
  | None => exists v2 l2 r2, load_local_slashrc wd v1 = (v2, l2, r2) /\
    match r2 with
    | Some x => v' = v2 /\ l = l1 ++ l2 /\ r = Some x
    | None => exists v3 l3 r3, load_environment v2 = (v3, l3, r3) /\
      match r3 with
      | Some x => v' = v3 /\ l = l1 ++ l2 ++ l3 /\ r = Some x
      | None => exists l4, load_entry_points v3 = (v', l4, r) /\ l = l1 ++ l2 ++ l3 ++ l4
      end
    end
  end.
Proof.
  unfold Site.load_defaults. unfold Site.seq. destruct (load_slashrc v) as [[v1 l1] r1]. intros H. exists v1, l1, r1. split; [reflexivity|].
  destruct r1 as [x|]; [injection H as <- <- <-; split; [reflexivity|split; reflexivity]|].
  destruct (load_local_slashrc wd v1) as [[v2 l2] r2]. exists v2, l2, r2. split; [reflexivity|].
  destruct r2 as [x|]; [injection H as <- <- <-; split; [reflexivity|split; reflexivity]|].
  destruct (load_environment v2) as [[v3 l3] r3]. exists v3, l3, r3. split; [reflexivity|].
  destruct r3 as [x|]; [injection H as <- <- <-; split; [reflexivity|split; reflexivity]|].
  destruct (load_entry_points v3) as [[v4 l4] r4]. injection H as <- <- <-. exists l4. split; reflexivity.
Qed.

(** the user's file, the project's file, SLASH_SETTINGS, the entry points: at most one
    of each of the first three, in this order *)
Theorem C101_order wd v v' l r : load_defaults wd v = (v', l, r) ->
  exists l1 l2 l3 l4, l = l1 ++ l2 ++ l3 ++ l4 /\
    Forall (fun e => ev_role e = User) l1 /\ Forall (fun e => ev_role e = Project) l2 /\
    Forall (fun e => ev_role e = Settings) l3 /\ Forall (fun e => ev_role e = EntryPoint) l4 /\
    List.length l1 <= 1 /\ List.length l2 <= 1 /\ List.length l3 <= 1.
Proof.
  intros H. destruct (load_cases _ _ _ _ _ H) as (v1 & l1 & r1 & E1 & H1).
  assert (A1 : Forall (fun e => ev_role e = User) l1 /\ List.length l1 <= 1).
  { destruct (file_events _ _ _ _ _ _ E1) as [(f & _ & _ & -> & _)|(_ & -> & _)]; (split; [repeat constructor|cbn; lia]). }
  destruct A1 as [A1 L1]. destruct r1 as [x|].
  { destruct H1 as (-> & -> & ->). exists l1, [], [], []. rewrite !app_nil_r. split; [reflexivity|]. repeat (split; [assumption || (cbn; lia) || constructor|]). cbn; lia. }
  destruct H1 as (v2 & l2 & r2 & E2 & H2).
  assert (A2 : Forall (fun e => ev_role e = Project) l2 /\ List.length l2 <= 1).
  { destruct (local_events _ _ _ _ _ E2) as (_ & _ & [->|(f & ->)]); (split; [repeat constructor|cbn; lia]). }
  destruct A2 as [A2 L2]. destruct r2 as [x|].
  { destruct H2 as (-> & -> & ->). exists l1, l2, [], []. rewrite !app_nil_r. split; [reflexivity|]. repeat (split; [assumption || (cbn; lia) || constructor|]). cbn; lia. }
  destruct H2 as (v3 & l3 & r3 & E3 & H3).
  assert (A3 : Forall (fun e => ev_role e = Settings) l3 /\ List.length l3 <= 1).
  { destruct (env_events _ _ _ _ E3) as [(-> & _)|(s & _ & -> & _)]; (split; [repeat constructor|cbn; lia]). }
  destruct A3 as [A3 L3]. destruct r3 as [x|].
  { destruct H3 as (-> & -> & ->). exists l1, l2, l3, []. rewrite !app_nil_r. split; [reflexivity|]. repeat (split; [assumption || (cbn; lia) || constructor|]). exact L3. }
  destruct H3 as (l4 & E4 & ->). destruct (entry_events _ _ _ _ _ E4) as (k & _ & _ & F & _).
  exists l1, l2, l3, l4. split; [reflexivity|]. repeat (split; [assumption|]). exact L3.
Qed.

(** the user's file is the one SLASH_USER_SETTINGS names, else the configured one; it
    is run exactly when it is there *)
Theorem C101_user wd v v' l r : load_defaults wd v = (v', l, r) -> forall f,
  (exists e, In e l /\ ev_role e = User /\ ev_source e = File f) <->
  isfile (rest W v) f = true /\
  (environ (rest W v) (lit "SLASH_USER_SETTINGS") = Some f \/
   environ (rest W v) (lit "SLASH_USER_SETTINGS") = None /\ exists p, user_path W v = Some p /\ f = expanduser p).
Proof.
  intros H f. destruct (load_cases _ _ _ _ _ H) as (v1 & l1 & r1 & E1 & H1).
  assert (P : exists l', l = l1 ++ l' /\ forall e, In e l' -> ev_role e <> User).
  { assert (A2 : forall v2 l2 r2, load_local_slashrc wd v1 = (v2, l2, r2) -> forall e, In e l2 -> ev_role e <> User).
    { intros v2 l2 r2 E2 e I. destruct (local_events _ _ _ _ _ E2) as (_ & _ & [->|(g & ->)]); [destruct I|]. destruct I as [<-|[]]. discriminate. }
    assert (A3 : forall v2 v3 l3 r3, load_environment v2 = (v3, l3, r3) -> forall e, In e l3 -> ev_role e <> User).
    { intros v2 v3 l3 r3 E3 e I. destruct (env_events _ _ _ _ E3) as [(-> & _)|(s & _ & -> & _)]; [destruct I|]. destruct I as [<-|[]]. discriminate. }
    destruct r1 as [x|]; [destruct H1 as (_ & -> & _); exists []; split; [symmetry; apply app_nil_r|intros e []]|].
    destruct H1 as (v2 & l2 & r2 & E2 & H2). destruct r2 as [x|]; [destruct H2 as (_ & -> & _); exists l2; split; [reflexivity|apply (A2 _ _ _ E2)]|].
    destruct H2 as (v3 & l3 & r3 & E3 & H3). destruct r3 as [x|].
    - destruct H3 as (_ & -> & _). exists (l2 ++ l3). split; [reflexivity|]. intros e I. apply in_app_iff in I as [I|I]; [apply (A2 _ _ _ E2 e I)|apply (A3 _ _ _ _ E3 e I)].
    - destruct H3 as (l4 & E4 & ->). exists (l2 ++ l3 ++ l4). split; [reflexivity|]. destruct (entry_events _ _ _ _ _ E4) as (k & _ & _ & F & _). rewrite Forall_forall in F.
      intros e I. apply in_app_iff in I as [I|I]; [apply (A2 _ _ _ E2 e I)|]. apply in_app_iff in I as [I|I]; [apply (A3 _ _ _ _ E3 e I)|]. rewrite (F e I). discriminate. }
  destruct P as (l' & -> & N).
  assert (Q : (exists e, In e (l1 ++ l') /\ ev_role e = User /\ ev_source e = File f) <-> exists e, In e l1 /\ ev_source e = File f).
  { split; [intros (e & I & R & S); exists e; apply in_app_iff in I as [I|I]; [split; assumption|destruct (N e I R)]|].
    intros (e & I & S). exists e. split; [apply in_app_iff; left; exact I|]. split; [|exact S].
    destruct (file_events _ _ _ _ _ _ E1) as [(g & _ & _ & -> & _)|(_ & -> & _)]; [destruct I as [<-|[]]; reflexivity|destruct I]. }
  rewrite Q. set (p := match environ (rest W v) (lit "SLASH_USER_SETTINGS") with Some p => Some p | None => option_map expanduser (user_path W v) end).
  assert (Pf : p = Some f <-> environ (rest W v) (lit "SLASH_USER_SETTINGS") = Some f \/
     environ (rest W v) (lit "SLASH_USER_SETTINGS") = None /\ exists p, user_path W v = Some p /\ f = expanduser p).
  { unfold p. destruct (environ (rest W v) (lit "SLASH_USER_SETTINGS")) as [g|].
    - split; [intros X; left; exact X|intros [X|(X & _)]; [exact X|discriminate]].
    - split; [intros X; right; split; [reflexivity|]|intros [X|(_ & q & U & ->)]; [discriminate|rewrite U; reflexivity]].
      destruct (user_path W v) as [q|]; [|discriminate]. injection X as <-. exists q. split; reflexivity. }
  rewrite <- Pf. unfold Site.load_slashrc in E1. fold p in E1. destruct (file_events _ _ _ _ _ _ E1) as [(g & G & F & -> & _)|(F & -> & _)].
  - split.
    + intros (e & [<-|[]] & S). injection S as <-. split; assumption.
    + intros (_ & S). rewrite G in S. injection S as <-. eexists. split; [left; reflexivity|reflexivity].
  - split; [intros (e & [] & _)|]. intros (T & S). rewrite (F f S) in T. discriminate.
Qed.

(** ** sys.path *)

(** the directory of the user's file and of the project's file is the first place to
    import from while they run *)
Theorem C101_importable wd v v' l r : load_defaults wd v = (v', l, r) ->
  forall e, In e l -> ev_role e = User \/ ev_role e = Project -> exists f, ev_source e = File f /\ ev_path e = dirname f :: sys_path W v.
Proof.
  intros H e I R. destruct (load_cases _ _ _ _ _ H) as (v1 & l1 & r1 & E1 & H1).
  assert (A1 : (In e l1 -> exists f, ev_source e = File f /\ ev_path e = dirname f :: sys_path W v) /\ (r1 = None -> sys_path W v1 = sys_path W v)).
  { destruct (file_events _ _ _ _ _ _ E1) as [(f & _ & _ & -> & S)|(_ & -> & -> & _)]; (split; [|intros _; assumption || reflexivity]).
    - intros [<-|[]]. exists f. split; reflexivity.
    - intros []. }
  destruct A1 as [A1 S1]. destruct r1 as [x|]; [destruct H1 as (_ & -> & _); apply A1; exact I|].
  destruct H1 as (v2 & l2 & r2 & E2 & H2).
  assert (A2 : In e l2 -> exists f, ev_source e = File f /\ ev_path e = dirname f :: sys_path W v).
  { destruct (local_events _ _ _ _ _ E2) as (_ & _ & [->|(f & ->)]); [intros []|]. intros [<-|[]]. exists f. rewrite <- (S1 eq_refl). split; reflexivity. }
  destruct r2 as [x|]; [destruct H2 as (_ & -> & _); apply in_app_iff in I as [I|I]; [apply A1; exact I|apply A2; exact I]|].
  destruct H2 as (v3 & l3 & r3 & E3 & H3).
  assert (A3 : ~ In e l3).
  { intros J. destruct (env_events _ _ _ _ E3) as [(-> & _)|(s & _ & -> & _)]; [destruct J|]. destruct J as [<-|[]]. destruct R; discriminate. }
  destruct r3 as [x|].
  - destruct H3 as (_ & -> & _). apply in_app_iff in I as [I|I]; [apply A1; exact I|]. apply in_app_iff in I as [I|I]; [apply A2; exact I|contradiction].
  - destruct H3 as (l4 & E4 & ->). destruct (entry_events _ _ _ _ _ E4) as (k & _ & _ & F & _). rewrite Forall_forall in F.
    apply in_app_iff in I as [I|I]; [apply A1; exact I|]. apply in_app_iff in I as [I|I]; [apply A2; exact I|]. apply in_app_iff in I as [I|I]; [contradiction|].
    rewrite (F e I) in R. destruct R; discriminate.
Qed.

(** whatever the user's and the project's file do to sys.path, and however they end, it
    is as before after each of them *)
Theorem C101_restored wd v : sys_path W (fst (fst (load_slashrc v))) = sys_path W v /\ sys_path W (fst (fst (load_local_slashrc wd v))) = sys_path W v.
Proof.
  split.
  - destruct (load_slashrc v) as [[v1 l1] r1] eqn:E1. destruct (file_events _ _ _ _ _ _ E1) as [(f & _ & _ & _ & S)|(_ & _ & -> & _)]; [exact S|reflexivity].
  - destruct (load_local_slashrc wd v) as [[v2 l2] r2] eqn:E2. destruct (local_events _ _ _ _ _ E2) as (S & _). exact S.
Qed.

(** and after the whole load, if SLASH_SETTINGS and the entry points leave it *)
Theorem C101_restored_whole wd v v' l r : (forall i u, sys_path W (fst (exec (Entry i) u)) = sys_path W u) ->
  (forall s u, environ (rest W u) (lit "SLASH_SETTINGS") <> None -> (s = File (match environ (rest W u) (lit "SLASH_SETTINGS") with Some x => x | None => [] end) \/ exists x, s = Url x) -> sys_path W (fst (exec s u)) = sys_path W u) ->
  load_defaults wd v = (v', l, r) -> sys_path W v' = sys_path W v.
Proof.
  intros Ent Env H. destruct (load_cases _ _ _ _ _ H) as (v1 & l1 & r1 & E1 & H1).
  assert (S1 : sys_path W v1 = sys_path W v) by (destruct (file_events _ _ _ _ _ _ E1) as [(f & _ & _ & _ & S)|(_ & _ & -> & _)]; [exact S|reflexivity]).
  destruct r1 as [x|]; [destruct H1 as (-> & _); exact S1|]. destruct H1 as (v2 & l2 & r2 & E2 & H2).
  assert (S2 : sys_path W v2 = sys_path W v) by (rewrite <- S1; destruct (local_events _ _ _ _ _ E2) as (S & _); exact S).
  destruct r2 as [x|]; [destruct H2 as (-> & _); exact S2|]. destruct H2 as (v3 & l3 & r3 & E3 & H3).
  assert (S3 : sys_path W v3 = sys_path W v).
  { rewrite <- S2. unfold Site.load_environment in E3. specialize (Env) with (u := v2). destruct (environ (rest W v2) (lit "SLASH_SETTINGS")) as [[|c s]|];
      [injection E3 as <- _ _; reflexivity| |injection E3 as <- _ _; reflexivity].
    unfold load_filename_or_url, Site.run in E3. specialize (Env (if isfile (rest W v2) (c :: s) then File (c :: s) else Url (c :: s)) ltac:(discriminate)).
    destruct (exec (if isfile (rest W v2) (c :: s) then File (c :: s) else Url (c :: s)) v2) as [u w]. injection E3 as <- _ _. apply Env.
    destruct (isfile (rest W v2) (c :: s)); [left; reflexivity|right; exists (c :: s); reflexivity]. }
  destruct r3 as [x|]; [destruct H3 as (-> & _); exact S3|]. destruct H3 as (l4 & E4 & _). rewrite <- S3.
  unfold Site.load_entry_points in E4. revert E4. generalize (entries (rest W v3)). intros l0. clear - Ent. revert v3 l4. induction l0 as [|i l0 IH]; intros v3 l4 H.
  - injection H as <- _ _. reflexivity.
  - cbn [run_entries] in H. unfold Site.seq in H. unfold Site.run in H at 1. pose proof (Ent i v3) as X. destruct (exec (Entry i) v3) as [u w]. cbn [fst] in X.
    destruct w as [w|]; [injection H as <- _ _; exact X|]. destruct (run_entries W exec l0 u) as [[v5 l5] r5] eqn:E5. injection H as <- _ <-.
    rewrite <- X. apply (IH _ _ E5).
Qed.

(** ** The name of the project *)

(** after the project's file was looked for, the project has a name: the one that the
    customizations gave it, else the name of the directory *)
Theorem C101_project_name wd v v' l : load_local_slashrc wd v = (v', l, None) ->
  let path := local_path W expanduser abspath isabs join wd v in
  let seen := if isfile (rest W v) path then fst (exec (File path) (with_path W (dirname path :: sys_path W v) v)) else v in
  project_name W v' = Some (match project_name W seen with Some n => n | None => basename (dirname path) end).
Proof.
  cbv zeta. unfold Site.load_local_slashrc, Site.seq. set (p := local_path W expanduser abspath isabs join wd v).
  unfold Site.load_file_if_exists, Site.run. destruct (isfile (rest W v) p).
  - destruct (exec (File p) (with_path W (dirname p :: sys_path W v) v)) as [u w]. destruct w as [w|]; [discriminate|]. cbn [fst].
    change (project_name W (with_path W (sys_path W v) u)) with (project_name W u).
    destruct (project_name W u) as [n|] eqn:N; cbn [Site.ret]; intros H; injection H as <- _; [exact N|reflexivity].
  - cbn [Site.ret]. destruct (project_name W v) as [n|] eqn:N; cbn [Site.ret]; intros H; injection H as <- _; [exact N|reflexivity].
Qed.

(** apart from that name, loading changes nothing but what the file itself changes (and sys.path, which is put back) *)
Theorem C101_rest wd v v' l r : load_local_slashrc wd v = (v', l, r) ->
  let path := local_path W expanduser abspath isabs join wd v in
  let seen := if isfile (rest W v) path then fst (exec (File path) (with_path W (dirname path :: sys_path W v) v)) else v in
  user_path W v' = user_path W seen /\ project_path W v' = project_path W seen /\ rest W v' = rest W seen /\ sys_path W v' = sys_path W v.
Proof.
  cbv zeta. unfold Site.load_local_slashrc, Site.seq. set (p := local_path W expanduser abspath isabs join wd v).
  unfold Site.load_file_if_exists, Site.run. destruct (isfile (rest W v) p).
  - destruct (exec (File p) (with_path W (dirname p :: sys_path W v) v)) as [u w]. cbn [fst].
    destruct w as [w|]; [intros H; injection H as <- _ _; repeat split|].
    change (project_name W (with_path W (sys_path W v) u)) with (project_name W u).
    destruct (project_name W u) as [n|]; cbn [Site.ret]; intros H; injection H as <- _ _; repeat split.
  - cbn [Site.ret]. destruct (project_name W v) as [n|]; cbn [Site.ret]; intros H; injection H as <- _ _; repeat split.
Qed.

(** the project's file: the configured path, from the working directory if one is given
    and the path is relative; it is run exactly when it is there *)
Theorem C101_project wd v v' l r : load_local_slashrc wd v = (v', l, r) ->
  forall path, (isabs (expanduser (project_path W v)) = true \/ wd = None -> path = abspath (expanduser (project_path W v))) ->
    (forall d, isabs (expanduser (project_path W v)) = false -> wd = Some d -> path = abspath (join d (expanduser (project_path W v)))) ->
  map ev_source l = if isfile (rest W v) path then [File path] else [].
Proof.
  intros H path A B. assert (P : path = local_path W expanduser abspath isabs join wd v).
  { unfold local_path. destruct wd as [d|]; [|apply A; right; reflexivity]. destruct (isabs (expanduser (project_path W v))); [apply A; left; reflexivity|apply (B d); reflexivity]. }
  unfold Site.load_local_slashrc, Site.seq in H. rewrite <- P in H. clear P A B.
  destruct (load_file_if_exists Project (Some path) v) as [[v1 l1] r1] eqn:E1. destruct (file_events _ _ _ _ _ _ E1) as [(f & X & F & -> & _)|(F & -> & _ & _)].
  - injection X as <-. rewrite F. destruct r1 as [x|]; [injection H as _ <- _; reflexivity|]. destruct (project_name W v1); cbn [Site.ret] in H; injection H as _ <- _; reflexivity.
  - rewrite (F _ eq_refl). destruct r1 as [x|]; [injection H as _ <- _; reflexivity|]. destruct (project_name W v1); cbn [Site.ret] in H; injection H as _ <- _; reflexivity.
Qed.

Definition of_role (o : role) (l : list event) : list event := filter (fun e => Nat.eqb (rank (ev_role e)) (rank o)) l.

(** what SLASH_SETTINGS names is run as a file if it is one, else as a URL; then every
    entry point, in their order *)
Theorem C101_settings_entries wd v v' l settings es : load_defaults wd v = (v', l, None) ->
  (forall w, environ w (lit "SLASH_SETTINGS") = settings) -> (forall w, entries w = es) -> (forall w w' f, isfile w f = isfile w' f) ->
  map ev_source (of_role Settings l) = match settings with None => [] | Some s => if str_eqb s [] then [] else if isfile (rest W v) s then [File s] else [Url s] end /\
  map ev_source (of_role EntryPoint l) = map Entry es.
Proof.
  intros H Hs He Hf. destruct (load_cases _ _ _ _ _ H) as (v1 & l1 & r1 & E1 & H1). destruct r1 as [x|]; [destruct H1 as (_ & _ & X); discriminate|].
  destruct H1 as (v2 & l2 & r2 & E2 & H2). destruct r2 as [x|]; [destruct H2 as (_ & _ & X); discriminate|].
  destruct H2 as (v3 & l3 & r3 & E3 & H3). destruct r3 as [x|]; [destruct H3 as (_ & _ & X); discriminate|].
  destruct H3 as (l4 & E4 & ->). unfold Site.load_entry_points in E4. rewrite He in E4. destruct (entry_events _ _ _ _ _ E4) as (k & _ & S & F & R).
  unfold of_role. rewrite !filter_app.
  assert (N1 : forall o, o = Settings \/ o = EntryPoint -> of_role o l1 = []) by (intros o [->| ->]; destruct (file_events _ _ _ _ _ _ E1) as [(f & _ & _ & -> & _)|(_ & -> & _)]; reflexivity).
  assert (N2 : forall o, o = Settings \/ o = EntryPoint -> of_role o l2 = []) by (intros o [->| ->]; destruct (local_events _ _ _ _ _ E2) as (_ & _ & [->|(f & ->)]); reflexivity).
  fold (of_role Settings l1) (of_role Settings l2) (of_role Settings l3) (of_role Settings l4).
  fold (of_role EntryPoint l1) (of_role EntryPoint l2) (of_role EntryPoint l3) (of_role EntryPoint l4).
  rewrite !N1, !N2 by (first [left; reflexivity|right; reflexivity]). cbn [app]. split.
  - assert (N4 : of_role Settings l4 = []).
    { clear - F. induction l4 as [|e l4 IH]; [reflexivity|]. inversion F as [|? ? A B]. subst. unfold of_role. cbn [filter]. rewrite A. cbn. apply IH. exact B. }
    rewrite N4, app_nil_r. unfold Site.load_environment in E3. rewrite Hs in E3. destruct settings as [[|c s]|]; [injection E3 as _ <-; reflexivity| |injection E3 as _ <-; reflexivity].
    unfold load_filename_or_url, Site.run in E3. cbn [str_eqb]. rewrite (Hf (rest W v) (rest W v2)).
    destruct (exec (if isfile (rest W v2) (c :: s) then File (c :: s) else Url (c :: s)) v2) as [u w]. injection E3 as _ <- _. cbn. destruct (isfile (rest W v2) (c :: s)); reflexivity.
  - assert (N3 : of_role EntryPoint l3 = []) by (destruct (env_events _ _ _ _ E3) as [(-> & _)|(s & _ & -> & _)]; reflexivity).
    rewrite N3. cbn [app]. rewrite (R eq_refl), firstn_all in S. rewrite <- S. f_equal. clear - F. induction l4 as [|e l4 IH]; [reflexivity|].
    inversion F as [|? ? A B]. subst. unfold of_role. cbn [filter]. rewrite A. cbn. f_equal. apply IH. exact B.
Qed.

End Site.

(** ** Refuted *)

(** a world of two files, no environment but what is given *)
Definition exec0 (s : source) (v : vis unit) : vis unit * option exn :=
  match s with
  | File f => (mkVis unit (lit "/added" :: sys_path unit v) (user_path unit v) (project_path unit v) (project_name unit v) tt, None)
  | _ => (v, None)
  end.
Definition dirname0 (s : str) : str := if str_eqb s (lit "/etc/settings.py") then lit "/etc" else lit "/proj".
Definition isfile0 (_ : unit) (s : str) : bool := str_eqb s (lit "/etc/settings.py") || str_eqb s (lit "/home/u/rc").
Definition expand0 (s : str) : str := if str_eqb s (lit "~/rc") then lit "/home/u/rc" else s.
Definition v0 : vis unit := mkVis unit [lit "/lib"] None (lit "./.slashrc") (Some (lit "p")) tt.

(** a file given by SLASH_SETTINGS is run without its directory on sys.path, and what it
    does to sys.path stays *)
Theorem C101_settings_path_refuted : exists environ v' l,
  load_defaults unit exec0 isfile0 environ (fun _ => []) expand0 (fun s => s) dirname0 (fun s => s) (fun _ => true) (fun a b => a ++ b) None v0 = (v', l, None) /\
  (exists e, In e l /\ ev_source e = File (lit "/etc/settings.py") /\ ~ In (dirname0 (lit "/etc/settings.py")) (ev_path e)) /\
  sys_path unit v' <> sys_path unit v0.
Proof.
  exists (fun _ x => if str_eqb x (lit "SLASH_SETTINGS") then Some (lit "/etc/settings.py") else None).
  exists (mkVis unit [lit "/added"; lit "/lib"] None (lit "./.slashrc") (Some (lit "p")) tt), [mkEvent Settings (File (lit "/etc/settings.py")) [lit "/lib"] None].
  split; [reflexivity|]. split; [|discriminate]. eexists. split; [left; reflexivity|]. split; [reflexivity|]. intros [X|[]]. discriminate.
Qed.

(** SLASH_USER_SETTINGS is not expanded: ~/rc is there, and not run *)
Theorem C101_tilde_refuted : exists environ v' l,
  environ tt (lit "SLASH_USER_SETTINGS") = Some (lit "~/rc") /\ isfile0 tt (expand0 (lit "~/rc")) = true /\
  load_defaults unit exec0 isfile0 environ (fun _ => []) expand0 (fun s => s) dirname0 (fun s => s) (fun _ => true) (fun a b => a ++ b) None v0 = (v', l, None) /\ l = [].
Proof.
  exists (fun _ x => if str_eqb x (lit "SLASH_USER_SETTINGS") then Some (lit "~/rc") else None), v0, [].
  split; [reflexivity|]. split; [reflexivity|]. split; reflexivity.
Qed.

(** ** A case of every theorem: all four kinds, the second entry point raises *)
Definition exec1 (s : source) (v : vis unit) : vis unit * option exn :=
  match s with
  | File f => (mkVis unit (lit "/added" :: sys_path unit v) (user_path unit v) (project_path unit v) (project_name unit v) tt, None)
  | Entry 2 => (v, Some 5)
  | _ => (v, None)
  end.

Example C101_ex :
  load_defaults unit exec1 (fun _ s => negb (str_eqb s (lit "http://x"))) (fun _ x => if str_eqb x (lit "SLASH_SETTINGS") then Some (lit "http://x") else None)
    (fun _ => [1; 2; 3]) (fun s => s) (fun s => s) (fun _ => lit "/d") (fun _ => lit "d") (fun _ => false) (fun a b => a ++ lit "/" ++ b) (Some (lit "/w"))
    (mkVis unit [lit "/lib"] (Some (lit "/u")) (lit ".slashrc") None tt) =
  (mkVis unit [lit "/lib"] (Some (lit "/u")) (lit ".slashrc") (Some (lit "d")) tt,
   [mkEvent User (File (lit "/u")) [lit "/d"; lit "/lib"] None; mkEvent Project (File (lit "/w/.slashrc")) [lit "/d"; lit "/lib"] None;
    mkEvent Settings (Url (lit "http://x")) [lit "/lib"] None; mkEvent EntryPoint (Entry 1) [lit "/lib"] None; mkEvent EntryPoint (Entry 2) [lit "/lib"] (Some 5)], Some 5).
Proof. reflexivity. Qed.

Print Assumptions C101_exception.
Print Assumptions C101_order.
Print Assumptions C101_user.
Print Assumptions C101_importable.
Print Assumptions C101_restored.
Print Assumptions C101_restored_whole.
Print Assumptions C101_project_name.
Print Assumptions C101_project.
Print Assumptions C101_settings_entries.
Print Assumptions C101_settings_path_refuted.
Print Assumptions C101_tilde_refuted.
Print Assumptions C101_rest.
