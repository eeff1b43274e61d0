(** C145: what an application is set up with. *)

From Coq Require Import List Bool Arith Ascii String Lia.
From Verif Require Import Str AppSetup.
Import ListNotations.
Local Open Scope list_scope.

(** ** The program name *)

Lemma basename_from_spec s : forall acc, ~ In "/"%char acc ->
  ~ In "/"%char (basename_from acc s) /\
  exists p, acc ++ s = p ++ basename_from acc s /\ (p = [] \/ exists q, p = q ++ ["/"%char]).
Proof.
  induction s as [|c s IH]; intros acc N; cbn [basename_from].
  - split; [exact N|]. exists []. rewrite app_nil_r. auto.
  - destruct (Ascii.eqb_spec c "/"%char) as [-> | E].
    + destruct (IH []) as (A & p & B & C); [auto|]. split; [exact A|]. cbn [app] in B. exists (acc ++ ["/"%char] ++ p). split.
      * rewrite <- !app_assoc. cbn [app]. rewrite <- B. reflexivity.
      * right. destruct C as [-> | (q & ->)]; [exists acc; rewrite app_nil_r; reflexivity|].
        exists (acc ++ "/"%char :: q). rewrite <- app_assoc. reflexivity.
    + destruct (IH (acc ++ [c])) as (A & p & B & C).
      { intros I. apply in_app_iff in I as [I|[I|[]]]; [exact (N I)|congruence]. }
      split; [exact A|]. exists p. split; [|exact C]. rewrite <- B, <- app_assoc. reflexivity.
Qed.

Theorem C145_program sys_argv n : program_name sys_argv = Some n ->
  exists dir base, hd_error sys_argv = Some (dir ++ base) /\ ~ In "/"%char base /\ (dir = [] \/ exists q, dir = q ++ ["/"%char]) /\
    ((n = base /\ List.length sys_argv = 1) \/ exists a, nth_error sys_argv 1 = Some a /\ n = base ++ " "%char :: a).
Proof.
  destruct sys_argv as [|p [|a l]]; cbn [program_name]; intros E; [discriminate| |];
    injection E as <-; destruct (basename_from_spec p []) as (A & d & B & C); auto; exists d, (basename p); cbn [hd_error]; cbn [app] in B;
    (split; [f_equal; exact B|]); (split; [exact A|]); (split; [exact C|]).
  - left. auto.
  - right. exists a. auto.
Qed.

Section P.
Variable sys_argv : list str.
Variable stderr : nat.

(** ** What was said last counts *)

Inductive last_of {A B} (f : A -> option B) (d : B) : list A -> B -> Prop :=
| last_none l : Forall (fun x => f x = None) l -> last_of f d l d
| last_some a x l b : f x = Some b -> Forall (fun x => f x = None) l -> last_of f d (a ++ x :: l) b.

Definition says_argv (o : op) : option (list str) := match o with SetArgv l => Some l | _ => None end.
Definition says_stream (o : op) : option nat := match o with SetStream s => s | _ => None end.
Definition says_reporter (o : op) : option (option nat) := match o with SetReporter r => Some r | _ => None end.

Lemma last_snoc {A B} (f : A -> option B) d l x b : last_of f d l b -> last_of f d (l ++ [x]) (match f x with Some c => c | None => b end).
Proof.
  intros H. destruct (f x) as [c|] eqn:E; [apply last_some; auto|]. destruct H as [l F|a y l b G F].
  - apply last_none. apply Forall_app. auto.
  - rewrite <- app_assoc. cbn [app]. apply last_some; [exact G|]. apply Forall_app. auto.
Qed.

Lemma steps_app l o a : steps sys_argv (l ++ [o]) a = match steps sys_argv l a with Some b => step sys_argv o b | None => None end.
Proof.
  revert a. induction l as [|x l IH]; intros a; cbn [steps app].
  - destruct (step sys_argv o a); reflexivity.
  - destruct (step sys_argv x a); [apply IH|reflexivity].
Qed.

Lemma after_app l o : after sys_argv stderr (l ++ [o]) = match after sys_argv stderr l with Some b => step sys_argv o b | None => None end.
Proof. unfold after. destruct (new_app sys_argv stderr); [apply steps_app|reflexivity]. Qed.

Theorem C145_settings l a : after sys_argv stderr l = Some a ->
  last_of says_argv (tl sys_argv) l (get_argv sys_argv a) /\
  last_of says_stream stderr l (a_stream a) /\ a_handler a = a_stream a /\
  exists r, last_of says_reporter None l r /\
    get_reporter a = match r with Some r => Given r | None => ConsoleOn (a_stream a) end.
Proof.
  revert a. induction l as [|o l IH] using rev_ind; intros a.
  - unfold after, new_app. destruct (new_parser sys_argv); [|discriminate]. cbn. intros E. injection E as <-. cbn.
    repeat split; try (apply last_none; constructor). exists None. split; [apply last_none; constructor|reflexivity].
  - rewrite after_app. destruct (after sys_argv stderr l) as [b|]; [|discriminate]. destruct (IH b eq_refl) as (A & S & H & r & R & G). clear IH.
    intros E. pose proof (last_snoc _ _ _ o _ A) as A'. pose proof (last_snoc _ _ _ o _ S) as S'. pose proof (last_snoc _ _ _ o _ R) as R'.
    destruct o as [v|[s|]|q|m pl|d| | |]; cbn in E, A', S', R'; unfold get_argv in *; unfold get_reporter in *;
      try (injection E as <-; cbn in *; repeat split; auto; eexists; split; [exact R'|]; try exact G; try reflexivity;
           destruct (a_reporter b), r; congruence).
    + destruct (p_interactive (a_parser b)); [discriminate|]. injection E as <-. cbn in *. repeat split; auto. eexists. split; [exact R'|exact G].
    + destruct (new_parser sys_argv); [|discriminate]. injection E as <-. cbn in *. repeat split; auto. eexists. split; [exact R'|exact G].
Qed.

(** ** The usage names the metavars given since the application was made or left *)

Fixpoint since_exit (l : list op) : list op :=
  match l with [] => [] | o :: l' => if existsb (fun o => match o with Exit => true | _ => false end) l then since_exit l' else l end.

Definition usage_part (o : op) : str :=
  match o with
  | Metavar m true => lit " " ++ m ++ lit " [" ++ m ++ lit " [...]]"
  | Metavar m false => lit " " ++ m
  | _ => []
  end.

Definition is_exit (o : op) := match o with Exit => true | _ => false end.

Lemma since_exit_snoc l o : since_exit (l ++ [o]) = if is_exit o then [] else since_exit l ++ [o].
Proof.
  induction l as [|x l IH].
  - cbn. destruct o; reflexivity.
  - change ((x :: l) ++ [o]) with (x :: (l ++ [o])). cbn [since_exit]. fold is_exit.
    change (existsb is_exit (x :: l ++ [o])) with (existsb is_exit ((x :: l) ++ [o])). rewrite existsb_app. cbn [existsb]. rewrite orb_false_r, IH.
    destruct (is_exit o); [rewrite orb_true_r; reflexivity|]. rewrite orb_false_r.
    change (existsb is_exit (x :: l)) with (is_exit x || existsb is_exit l). cbn [existsb]. destruct (is_exit x || existsb is_exit l); reflexivity.
Qed.

Theorem C145_parser l a n : program_name sys_argv = Some n -> after sys_argv stderr l = Some a ->
  p_prog (a_parser a) = n /\
  p_usage (a_parser a) = n ++ lit " [options]" ++ List.concat (map usage_part (since_exit l)) /\
  (p_interactive (a_parser a) = true <-> In Interactive (since_exit l)) /\
  last_of (fun o => match o with Describe d => Some (Some d) | _ => None end) None (since_exit l) (p_description (a_parser a)).
Proof.
  intros N. revert a. induction l as [|o l IH] using rev_ind; intros a.
  - unfold after, new_app, new_parser. rewrite N. cbn. intros E. injection E as <-. cbn. repeat split; auto; try discriminate; try tauto.
    apply last_none. constructor.
  - rewrite after_app, since_exit_snoc. destruct (after sys_argv stderr l) as [b|]; [|discriminate]. destruct (IH b eq_refl) as (P & U & I & D). clear IH.
    intros E.
    assert (K : is_exit o = false -> List.concat (map usage_part (since_exit l ++ [o])) = List.concat (map usage_part (since_exit l)) ++ usage_part o).
    { intros _. rewrite map_app, concat_app. cbn. rewrite app_nil_r. reflexivity. }
    assert (J : In Interactive (since_exit l ++ [o]) <-> In Interactive (since_exit l) \/ o = Interactive).
    { rewrite in_app_iff. cbn. intuition congruence. }
    pose proof (last_snoc _ _ _ o _ D) as D'.
    destruct o as [v|[s|]|q|m pl|d| | |]; cbn [is_exit] in *; cbn in E; try rewrite (K eq_refl);
      try (injection E as <-; cbn in *; rewrite ?app_nil_r; repeat split; auto; try (rewrite J; rewrite I; intuition discriminate);
           try (intros X; apply J; left; apply I; exact X); try (intros X; apply J in X as [X|X]; [apply I; exact X|discriminate])).
    + rewrite U, <- !app_assoc. destruct pl; reflexivity.
    + destruct (p_interactive (a_parser b)); [discriminate|]. injection E as <-. cbn in *. rewrite app_nil_r. repeat split; auto.
      intros _. apply J. auto.
    + unfold new_parser in E. rewrite N in E. cbn in E. injection E as <-. cbn. repeat split; auto; try discriminate; try tauto.
      apply last_none. constructor.
Qed.

(** an application can be used if sys.argv has something and -i is not enabled twice without leaving the application *)
Theorem C145_usable l : sys_argv <> [] ->
  (after sys_argv stderr l <> None <-> forall a b, l = a ++ Interactive :: b -> ~ In Interactive (since_exit a)).
Proof.
  intros N. assert (M : exists n, program_name sys_argv = Some n) by (destruct sys_argv as [|p [|q r]]; [contradiction| |]; eexists; reflexivity).
  destruct M as (n & M). induction l as [|o l IH] using rev_ind.
  - unfold after, new_app, new_parser. rewrite M. cbn. split; [|discriminate]. intros _ a b E. destruct a; discriminate.
  - rewrite after_app. destruct (after sys_argv stderr l) as [x|] eqn:E.
    + pose proof (C145_parser l x n M E) as (_ & _ & I & _).
      assert (H : forall a b, l = a ++ Interactive :: b -> ~ In Interactive (since_exit a)) by (apply IH; discriminate).
      assert (Q : step sys_argv o x <> None <-> (o = Interactive -> ~ In Interactive (since_exit l))).
      { destruct o as [v|[s|]|q|m pl|d| | |]; cbn; try (split; [intros _ X; discriminate|intros _ X; discriminate]).
        - destruct (p_interactive (a_parser x)) eqn:P.
          + split; [intros X; destruct X; reflexivity|]. intros X. destruct (X eq_refl). apply I. reflexivity.
          + split; [|discriminate]. intros _ _ X. apply I in X. discriminate.
        - unfold new_parser. rewrite M. cbn. split; [intros _ X; discriminate|discriminate]. }
      rewrite Q. split.
      * intros K a b F. destruct b as [|y b] using rev_ind.
        -- apply app_inj_tail in F as [-> F]. apply K. exact F.
        -- change (a ++ Interactive :: (b ++ [y])) with (a ++ (Interactive :: b) ++ [y]) in F. rewrite app_assoc in F. apply app_inj_tail in F as [F _].
           apply (H a b F).
      * intros K ->. apply (K l []). reflexivity.
    + split; [intros X; destruct X; reflexivity|]. intros K. exfalso. apply IH; [|reflexivity]. intros a b F. apply (K a (b ++ [o])). rewrite F, <- app_assoc. reflexivity.
Qed.

(** ** slash_run *)
Theorem C145_slash_run resume argv stream n : program_name sys_argv = Some n ->
  exists a, after sys_argv stderr (slash_run_setup stderr resume argv stream ++ [Enter]) = Some a /\
    get_argv sys_argv a = argv /\ p_interactive (a_parser a) = true /\
    a_session a = Some (ConsoleOn (match stream with Some s => s | None => stderr end), match stream with Some s => s | None => stderr end) /\
    p_usage (a_parser a) = n ++ lit (if resume then " [options] SESSION-ID" else " [options] TEST [TEST [...]]").
Proof.
  intros N. set (st := match stream with Some s => s | None => stderr end).
  assert (G : exists b, after sys_argv stderr (slash_run_setup stderr resume argv stream) = Some b /\ a_reporter b = None /\ a_stream b = st /\ a_argv b = Some argv).
  { unfold after, new_app, new_parser. rewrite N. cbn [option_map]. unfold slash_run_setup. fold st.
    assert (T : forall x, p_interactive (a_parser x) = false -> a_reporter x = None -> exists b, steps sys_argv [SetArgv argv; SetStream (Some st); Interactive] x = Some b
      /\ a_reporter b = None /\ a_stream b = st /\ a_argv b = Some argv).
    { intros x X Y. cbn [steps step a_parser]. rewrite X. eexists. split; [reflexivity|]. auto. }
    set (q := mkParser n (n ++ lit " [options]") None false). assert (Q : p_interactive q = false) by reflexivity. clearbody q.
    destruct resume; cbn [List.app].
    - set (d := lit "Resumes a previously run session by running only unsuccessful on unfinished tests"). set (m := lit "SESSION-ID"). clearbody d m.
      change (steps sys_argv (Metavar m false :: Describe d :: ?l) ?x) with (steps sys_argv l (mkApp (a_argv x) (a_reporter x) (a_stream x) (a_handler x)
        (set_description d (set_metavar m false (a_parser x))) (a_session x))). apply T; [exact Q|reflexivity].
    - set (m := lit "TEST"). clearbody m.
      change (steps sys_argv (Metavar m true :: ?l) ?x) with (steps sys_argv l (mkApp (a_argv x) (a_reporter x) (a_stream x) (a_handler x)
        (set_metavar m true (a_parser x)) (a_session x))). apply T; [exact Q|reflexivity]. }
  destruct G as (b & B & R & S & V). pose proof (C145_parser _ b n N B) as (_ & U & I & _).
  rewrite after_app, B. eexists. split; [reflexivity|]. unfold get_argv, get_reporter. cbn [a_argv a_parser a_session]. rewrite V, R, S.
  split; [reflexivity|]. split; [apply I; unfold slash_run_setup; destruct resume; cbn; tauto|]. split; [reflexivity|].
  rewrite U. f_equal. unfold slash_run_setup. destruct resume; vm_compute; reflexivity.
Qed.
End P.

(** ** Stronger readings that are wrong *)

(** an application that was left is not as it was set up: used again, it has no -i and its usage tells nothing of the tests *)
Theorem C145_again_refuted : exists sys_argv l a b, after sys_argv 2 l = Some a /\ after sys_argv 2 (l ++ [Enter; Exit]) = Some b /\
  get_argv sys_argv a = get_argv sys_argv b /\ p_interactive (a_parser a) = true /\ p_interactive (a_parser b) = false /\
  p_usage (a_parser a) <> p_usage (a_parser b).
Proof.
  exists [lit "/bin/slash"; lit "run"], (slash_run_setup 2 false [lit "-i"] None). eexists. eexists.
  split; [vm_compute; reflexivity|]. split; [vm_compute; reflexivity|]. repeat (split; [vm_compute; reflexivity|]). vm_compute. discriminate.
Qed.

(** a reporter set by app_callback (slash_run.py:36-37) is not that of the session *)
Theorem C145_callback_refuted : exists sys_argv l a, after sys_argv 2 (l ++ [Enter; SetReporter (Some 7)]) = Some a /\
  get_reporter a = Given 7 /\ a_session a = Some (ConsoleOn 2, 2).
Proof. exists [lit "slash"], (slash_run_setup 2 false [] None). eexists. split; [vm_compute; reflexivity|]. split; vm_compute; reflexivity. Qed.

(** the name in the usage is that of the process, whatever the arguments of the application; an option may be part of it *)
Theorem C145_name_refuted : exists sys_argv a, after sys_argv 2 (slash_run_setup 2 false [lit "t.py"] None) = Some a /\
  p_usage (a_parser a) = lit "pytest -v [options] TEST [TEST [...]]".
Proof. exists [lit "/usr/bin/pytest"; lit "-v"; lit "tests"]. eexists. split; [vm_compute; reflexivity|]. vm_compute. reflexivity. Qed.

(** without sys.argv no application can be made *)
Theorem C145_embedded_refuted : exists l, after [] 2 l = None.
Proof. exists []. reflexivity. Qed.

(** ** The hypotheses are met *)

Example C145_ex : let argv := [lit "/usr/bin/slash"; lit "run"; lit "a.py"] in
  let l := [SetStream None; Interactive; SetReporter (Some 3); Exit; Metavar (lit "X") false; SetReporter None; SetStream (Some 9); Interactive] in
  exists a, after argv 2 l = Some a /\ program_name argv = Some (lit "slash run") /\ p_usage (a_parser a) = lit "slash run [options] X" /\
    get_argv argv a = [lit "run"; lit "a.py"] /\ get_reporter a = ConsoleOn 9.
Proof. cbv zeta. eexists. split; [vm_compute; reflexivity|]. repeat split; vm_compute; reflexivity. Qed.

Print Assumptions C145_program.
Print Assumptions C145_settings.
Print Assumptions C145_parser.
Print Assumptions C145_usable.
Print Assumptions C145_slash_run.
Print Assumptions C145_again_refuted.
Print Assumptions C145_callback_refuted.
Print Assumptions C145_name_refuted.
Print Assumptions C145_embedded_refuted.
