(** C134: the interactive shell; C135: loading plugins from search paths. *)

From Coq Require Import List Bool Arith Ascii String Lia.
From Verif Require Import Str Dict Interactive.
Import ListNotations.

(** ** C134 *)

(** the exception was raised by what was typed itself: the innermost frame is one of the input *)
Definition typed (e : exc) : Prop :=
  exists fs f rest, x_first e :: x_rest e = fs ++ [f] /\ map lower f = lit "<ipython" ++ rest.

Lemma innermost_app f l g : innermost f (l ++ [g]) = g.
Proof. revert f. induction l as [|x l IH]; intros f; [reflexivity|]. apply IH. Qed.

Lemma starts_iff p s : starts p s = true <-> exists t, s = p ++ t.
Proof.
  unfold starts. revert s. induction p as [|c p IH]; intros s; cbn.
  - split; [intros _; exists s; reflexivity|reflexivity].
  - destruct s as [|d s]; [split; [discriminate|intros (t & H); discriminate]|]. destruct (Ascii.eqb_spec c d) as [->|N].
    + rewrite IH. split; intros (t & H); exists t; [rewrite H; reflexivity|inversion H; reflexivity].
    + split; [discriminate|]. intros (t & H). inversion H. congruence.
Qed.

Lemma typed_iff e : in_eval e = true <-> typed e.
Proof.
  unfold in_eval. rewrite starts_iff. unfold typed. destruct e as [k f l]. cbn. destruct l as [|g l _] using rev_ind; cbn.
  - split.
    + intros (t & H). exists [], f, t. auto.
    + intros (fs & h & t & E & H). exists t. destruct fs as [|x fs]; [inversion E; subst; exact H|]. destruct fs; discriminate.
  - rewrite innermost_app. split.
    + intros (t & H). exists (f :: l), g, t. auto.
    + intros (fs & h & t & E & H). exists t. rewrite app_comm_cons in E. apply app_inj_tail in E as [_ ->]. exact H.
Qed.

(** the exceptions raised until the shell ends: up to the first TerminatedException *)
Fixpoint until (l : list (option exc)) : list exc :=
  match l with
  | [] => []
  | None :: l' => until l'
  | Some e :: l' => e :: match x_kind e with Terminated => [] | _ => until l' end
  end.


Definition handled (e : exc) : bool := match x_kind e with Base => false | _ => negb (in_eval e) end.
Definition terminates (e : exc) : bool := match x_kind e with Terminated => true | _ => false end.

Lemma shell_some e l : shell (Some e :: l) =
  Shows e :: (if handled e then [Handles e] else []) ++ (if terminates e then [AddsTerminated] else shell l).
Proof. cbn [shell]. unfold handle, handled, terminates. destruct (x_kind e), (in_eval e); reflexivity. Qed.

Lemma until_some e l : until (Some e :: l) = e :: if terminates e then [] else until l.
Proof. cbn [until]. unfold terminates. destruct (x_kind e); reflexivity. Qed.

Lemma handled_iff e : handled e = true <-> x_kind e <> Base /\ ~ typed e.
Proof. rewrite <- typed_iff. unfold handled. destruct (x_kind e), (in_eval e); cbn; intuition congruence. Qed.

Lemma terminates_iff e : terminates e = true <-> x_kind e = Terminated.
Proof. unfold terminates. destruct (x_kind e); intuition congruence. Qed.

(** the exceptions raised are shown, in order, up to the first TerminatedException, with which the shell ends; handle_exception gets those
    that are Exceptions (or TerminatedException) and come from code that was called, not from what was typed itself; the result gets the
    error 'Terminated' exactly if the shell was terminated, once, as the last thing *)
Theorem C134_shell l :
  flat_map (fun a => match a with Shows e => [e] | _ => [] end) (shell l) = until l /\
  (forall e, In (Handles e) (shell l) <-> In e (until l) /\ x_kind e <> Base /\ ~ typed e) /\
  (In AddsTerminated (shell l) <-> exists e, In (Some e) l /\ x_kind e = Terminated) /\
  (forall a b, shell l = a ++ AddsTerminated :: b -> b = []).
Proof.
  induction l as [|[e|] l (IH1 & IH2 & IH3 & IH4)].
  - split; [reflexivity|]. split; [|split].
    + intros e. split; [intros []|intros [[] _]].
    + split; [intros []|intros (e & [] & _)].
    + intros [|? a] b E; discriminate.
  - rewrite shell_some, until_some. split; [|split; [|split]].
    + cbn [flat_map app]. f_equal. rewrite flat_map_app. destruct (handled e), (terminates e); cbn; auto.
    + intros e'. cbn [In]. rewrite in_app_iff. split.
      * intros [H|[H|H]]; [discriminate| |].
        -- destruct (handled e) eqn:D; [|destruct H]. destruct H as [H|[]]. inversion H; subst. apply handled_iff in D. auto.
        -- destruct (terminates e); [destruct H as [H|[]]; discriminate|]. apply IH2 in H as [H H']. auto.
      * intros [[->|H] H'].
        -- apply handled_iff in H'. rewrite H'. right. left. cbn. auto.
        -- destruct (terminates e); [destruct H|]. right. right. apply IH2. auto.
    + cbn [In]. rewrite in_app_iff. split.
      * intros [H|[H|H]]; [discriminate|destruct (handled e); [destruct H as [H|[]]; discriminate|destruct H]|].
        destruct (terminates e) eqn:D; [exists e; split; [auto|apply terminates_iff, D]|]. apply IH3 in H as (e' & H & H'). exists e'. auto.
      * intros (e' & [H|H] & H').
        -- inversion H; subst. apply terminates_iff in H'. rewrite H'. right. right. cbn. auto.
        -- destruct (terminates e); [right; right; cbn; auto|]. right. right. apply IH3. exists e'. auto.
    + intros a b E. destruct a as [|x a]; [discriminate|]. injection E as _ E1.
      assert (R : forall a, (if terminates e then [AddsTerminated] else shell l) = a ++ AddsTerminated :: b -> b = []).
      { intros a' E. destruct (terminates e); [|exact (IH4 _ _ E)]. destruct a' as [|x' [|y a']]; inversion E; auto. }
      destruct (handled e); [|exact (R _ E1)]. destruct a as [|x' a]; [discriminate|]. injection E1 as _ E'. exact (R _ E').
  - cbn [shell until In]. split; [exact IH1|]. split; [exact IH2|]. split; [|exact IH4]. rewrite IH3. split; intros (e & H & H'); exists e; [auto|].
    destruct H as [H|H]; [discriminate|auto].
Qed.
Print Assumptions C134_shell.

(** a name of the shell's namespace is bound, before the hook's handlers, to the attribute of slash.g with that name if these are
    exposed and there is one, else to the keyword argument *)
Theorem C134_namespace kw g expose n :
  NoDup (map fst g) ->
  d_get n (namespace kw (Some g) expose (fun d => d)) =
    match (if expose then d_get n g else None) with Some v => Some v | None => d_get n kw end /\
  d_get n (namespace kw None expose (fun d => d)) = d_get n kw.
Proof.
  intros ND. split; [|reflexivity]. unfold namespace. destruct expose; [|reflexivity]. unfold d_update.
  revert kw. induction g as [|[k v] g IH]; intros kw; [reflexivity|]. cbn [fold_left fst snd]. inversion ND; subst. rewrite IH by assumption.
  cbn [d_get]. rewrite d_get_set. destruct (Nat.eqb_spec n k) as [->|N]; [|reflexivity].
  destruct (d_get k g) as [w|] eqn:E; [|reflexivity]. apply d_get_pair in E. destruct H1. apply (in_map fst) in E. exact E.
Qed.
Print Assumptions C134_namespace.

Definition frame_of_input : str := lit "<IPython-input-1>".
Definition boom : exc := mkExc Ordinary (lit "<ipython-input-1>") [lit "/repo/tests.py"].
Definition typo : exc := mkExc Ordinary frame_of_input [].
Definition sigterm : exc := mkExc Terminated frame_of_input [lit "signal_utils.py"].

Example ex_shell :
  shell [Some typo; None; Some boom; Some sigterm; Some boom] =
    [Shows typo; Shows boom; Handles boom; Shows sigterm; Handles sigterm; AddsTerminated] /\
  until [Some typo; None; Some boom; Some sigterm; Some boom] = [typo; boom; sigterm] /\ typed typo /\ ~ typed boom.
Proof. split; [reflexivity|]. split; [reflexivity|]. rewrite <- !typed_iff. split; [reflexivity|discriminate]. Qed.

Example ex_namespace : NoDup (map fst [(1, 10); (2, 20)]) /\ namespace [(2, 5); (3, 6)] (Some [(1, 10); (2, 20)]) true (fun d => d) = [(2, 20); (3, 6); (1, 10)].
Proof. split; [repeat constructor; cbn; intuition discriminate|reflexivity]. Qed.

(** a keyword argument of start_interactive_shell is not always available in the shell as it was given, as documented
    (slash/utils/interactive.py:44): an attribute of slash.g of that name hides it *)
Theorem C134_hidden_refuted : exists kw g n v, d_get n kw = Some v /\ d_get n (namespace kw (Some g) true (fun d => d)) <> Some v.
Proof. exists [(2, 5)], [(2, 20)], 2, 5. split; [reflexivity|discriminate]. Qed.
Print Assumptions C134_hidden_refuted.

(** not every exception that the tested code raises is handled as in tests (debugger, hooks, result): KeyboardInterrupt and SystemExit are not *)
Theorem C134_interrupt_refuted : exists e, ~ typed e /\ shell [Some e] = [Shows e].
Proof. exists (mkExc Base frame_of_input [lit "/repo/tests.py"]). rewrite <- typed_iff. split; [discriminate|reflexivity]. Qed.
Print Assumptions C134_interrupt_refuted.

(** ** C135 *)

Definition python (f : file) : Prop := exists n, f_name f = n ++ lit ".py".
Definition fine (f : file) : Prop := f_load f = NoInstall \/ f_load f = Installs false.

Lemma ends_iff p s : ends p s = true <-> exists t, s = t ++ p.
Proof.
  unfold ends. rewrite starts_iff. split; intros (t & H).
  - exists (rev t). apply (f_equal (@rev ascii)) in H. rewrite rev_involutive, rev_app_distr, rev_involutive in H. exact H.
  - exists (rev t). rewrite H. apply rev_app_distr.
Qed.

(** what is done with a file *)
Definition done (f : file) : list found :=
  if ends (lit ".py") (f_name f) then Imports f :: match f_load f with Installs _ => [CallsInstall f] | _ => [] end else [].

(** if no file fails, exactly the files whose name ends with .py are imported, in order, and install_plugins of each is called after its import if it
    has one; if one fails, everything before is done and nothing after, and the exception is raised *)
Theorem C135_discover l :
  ((forall f, In f l -> python f -> fine f) -> discover l = (flat_map done l, false)) /\
  (forall l1 f l2, l = l1 ++ f :: l2 -> (forall f', In f' l1 -> python f' -> fine f') -> python f -> ~ fine f ->
     discover l = (flat_map done l1 ++ done f, true)) /\
  (forall f, In (Imports f) (flat_map done l) <-> In f l /\ python f) /\
  (forall f, In (CallsInstall f) (flat_map done l) <-> In f l /\ python f /\ exists r, f_load f = Installs r).
Proof.
  assert (P : forall f, python f <-> ends (lit ".py") (f_name f) = true) by (intros f; symmetry; apply ends_iff).
  assert (Step : forall f l, (python f -> fine f) -> discover (f :: l) = (done f ++ fst (discover l), snd (discover l))).
  { intros f l' H. cbn [discover]. unfold done. rewrite P in H. destruct (ends (lit ".py") (f_name f)); cbn [negb].
    - destruct (H eq_refl) as [->| ->]; destruct (discover l'); reflexivity.
    - destruct (discover l'); reflexivity. }
  split; [|split; [|split]].
  - induction l as [|f l IH]; intros H; [reflexivity|]. rewrite Step by (apply H; cbn; auto). rewrite IH by (intros f' J; apply H; cbn; auto). reflexivity.
  - intros l1 f l2 -> H Pf Nf. induction l1 as [|g l1 IH]; cbn [app flat_map].
    + cbn [discover]. unfold done. apply P in Pf. rewrite Pf. cbn [negb]. unfold fine in Nf. destruct (f_load f) as [| |[|]]; try reflexivity; destruct Nf; auto.
    + rewrite Step by (apply H; cbn; auto). rewrite IH by (intros f' J; apply H; cbn; auto). cbn [fst snd]. rewrite app_assoc. reflexivity.
  - intros f. rewrite in_flat_map. split.
    + intros (g & J & K). unfold done in K. destruct (ends (lit ".py") (f_name g)) eqn:E; [|destruct K]. destruct K as [K|K].
      * inversion K; subst. split; [exact J|apply P, E].
      * destruct (f_load g); cbn in K; intuition discriminate.
    + intros [J Q]. exists f. split; [exact J|]. unfold done. apply P in Q. rewrite Q. cbn. auto.
  - intros f. rewrite in_flat_map. split.
    + intros (g & J & K). unfold done in K. destruct (ends (lit ".py") (f_name g)) eqn:E; [|destruct K]. destruct K as [K|K]; [discriminate|].
      destruct (f_load g) as [| |r] eqn:L; [destruct K|destruct K|]. destruct K as [K|[]]. inversion K; subst. split; [exact J|]. split; [apply P, E|eauto].
    + intros (J & Q & r & L). exists f. split; [exact J|]. unfold done. apply P in Q. rewrite Q, L. cbn. auto.
Qed.
Print Assumptions C135_discover.

Definition plugin : file := mkFile 1 (lit "a.py") (Installs false).
Definition helper : file := mkFile 1 (lit "b.py") NoInstall.
Definition readme : file := mkFile 1 (lit "readme") ImportFails.
Definition broken : file := mkFile 2 (lit "c.py") ImportFails.

Example ex_discover :
  discover [plugin; readme; helper] = ([Imports plugin; CallsInstall plugin; Imports helper], false) /\
  discover [plugin; broken; helper] = ([Imports plugin; CallsInstall plugin; Imports broken], true) /\
  (forall f, In f [plugin; readme; helper] -> python f -> fine f) /\ python broken /\ ~ fine broken.
Proof.
  split; [reflexivity|]. split; [reflexivity|]. split; [|split; [exists (lit "c"); reflexivity|intros [H|H]; discriminate]].
  intros f [<-|[<-|[<-|[]]]] Q; [right; reflexivity| |left; reflexivity]. destruct Q as (n & Q). apply (f_equal (@rev ascii)) in Q.
  rewrite rev_app_distr in Q. discriminate Q.
Qed.

(** a plugin file that cannot be loaded is not skipped: the plugins after it are not installed *)
Theorem C135_others_refuted : exists l f, In f l /\ python f /\ fine f /\ ~ In (Imports f) (fst (discover l)).
Proof.
  exists [broken; plugin], plugin. split; [cbn; auto|]. split; [exists (lit "a"); reflexivity|]. split; [right; reflexivity|].
  cbn. intros [H|[]]. discriminate.
Qed.
Print Assumptions C135_others_refuted.
