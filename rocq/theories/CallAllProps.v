(** C11: call_all_raise_first (utils/python.py:101-109), modelled by
    [Core.call_all None]. *)

From Coq Require Import List Bool Arith PeanoNat.
From Verif Require Import Events Core.
Import ListNotations.

(** Calling the functions one after the other, whatever they raise: the states
    in between and how each of them ended. *)
Fixpoint each (fs : list M) (s : state) : state * list outcome :=
  match fs with
  | [] => (s, [])
  | f :: fs => let (s1, o) := f s in let (s2, os) := each fs s1 in (s2, o :: os)
  end.

Definition ordinary (o : outcome) : Prop :=
  match o with ONormal => True | ORaise x => isinstance (x_kind x) TException = true | OFuel => False end.

(** the exceptions among some endings *)
Definition raised (os : list outcome) : list exn :=
  flat_map (fun o => match o with ORaise x => [x] | _ => [] end) os.

Lemma call_all_each fs : forall sv s, Forall ordinary (snd (each fs s)) ->
  call_all sv fs s = (fst (each fs s),
    match raised (snd (each fs s)) with
    | [] => match sv with None => ONormal | Some x => ORaise x end
    | x :: xs => ORaise (last xs x)
    end).
Proof.
  induction fs as [|f fs IH]; intros sv s H; cbn [call_all each] in *.
  - destruct sv; reflexivity.
  - destruct (f s) as [s1 o]. specialize (IH sv s1) as IH0.
    destruct (each fs s1) as [s2 os] eqn:Ee. cbn [fst snd] in *. apply Forall_cons_iff in H as [Ho Hos].
    destruct o as [|x|]; [apply IH0; auto| |destruct Ho].
    cbn [ordinary] in Ho. rewrite Ho. specialize (IH (Some x) s1). rewrite Ee in IH. cbn [fst snd] in IH. rewrite (IH Hos).
    f_equal. cbn [raised flat_map app]. fold (raised os). destruct (raised os) as [|y ys]; auto.
    destruct ys as [|z ys]; auto. f_equal. simpl. generalize z. induction ys as [|w ys IHy]; intros v; auto. simpl in *. destruct ys; auto.
Qed.

(** If the functions raise ordinary exceptions only, all of them are called, in
    order, and an exception is raised iff one of them raised one. *)
Theorem C11_all_called : forall fs s,
  Forall ordinary (snd (each fs s)) ->
  fst (call_all None fs s) = fst (each fs s) /\ length (snd (each fs s)) = length fs /\
  (snd (call_all None fs s) = ONormal <-> raised (snd (each fs s)) = []).
Proof.
  intros fs s H. rewrite (call_all_each fs None s H). cbn [fst snd]. split; auto. split.
  - clear. revert s. induction fs as [|f fs IH]; intros s; simpl; auto. destruct (f s) as [s1 o].
    specialize (IH s1). destruct (each fs s1). simpl in *. auto.
  - destruct (raised _); split; auto; discriminate.
Qed.

(** The exception raised is that of the last failing function ... *)
Theorem C11_raises_the_last : forall fs s x xs,
  Forall ordinary (snd (each fs s)) -> raised (snd (each fs s)) = xs ++ [x] ->
  snd (call_all None fs s) = ORaise x.
Proof.
  intros fs s x xs H Hr. rewrite (call_all_each fs None s H). cbn [snd]. rewrite Hr.
  destruct xs as [|y ys]; auto. cbn [app]. rewrite last_last. reflexivity.
Qed.

(** ... and not, as the function's name says, of the first. *)
Theorem C11_raises_the_first_refuted : exists fs s x y,
  Forall ordinary (snd (each fs s)) /\ raised (snd (each fs s)) = [x; y] /\
  snd (call_all None fs s) <> ORaise x.
Proof.
  exists [raise_new (KUser 1) false; raise_new (KUser 2) false], state0, (mkExn (XFresh 0) (KUser 1) false), (mkExn (XFresh 1) (KUser 2) false).
  split; [repeat constructor|]. split; [reflexivity|]. discriminate.
Qed.

(** An exception that is not an Exception ends it at once, is raised itself and
    hides earlier ones. *)
Theorem C11_others_propagate_at_once : forall fs gs f s s1 x,
  Forall ordinary (snd (each fs s)) -> f (fst (each fs s)) = (s1, ORaise x) ->
  isinstance (x_kind x) TException = false ->
  call_all None (fs ++ f :: gs) s = (s1, ORaise x).
Proof.
  intros fs gs f s s1 x. generalize (@None exn) as sv. revert s.
  induction fs as [|g fs IH]; intros s sv H Hf Hx; cbn [call_all each app] in *.
  - cbn [fst] in Hf. rewrite Hf, Hx. reflexivity.
  - destruct (g s) as [s' o]. specialize (IH s'). destruct (each fs s') as [s2 os]. cbn [fst snd] in *.
    apply Forall_cons_iff in H as [Ho Hos]. destruct o as [|y|]; [auto| |destruct Ho]. cbn [ordinary] in Ho. rewrite Ho. auto.
Qed.

Example C11_hypotheses_met :
  Forall ordinary (snd (each [raise_new (KUser 1) false; upd (emit (EvUser 3)); raise_new KAssertion false] state0)) /\
  length (raised (snd (each [raise_new (KUser 1) false; upd (emit (EvUser 3)); raise_new KAssertion false] state0))) = 2.
Proof. split; [repeat constructor|reflexivity]. Qed.

Example C11_interrupted :
  snd (call_all None [raise_new (KUser 1) false; raise_new KKeyboard false; upd (emit (EvUser 3))] state0) =
  ORaise (mkExn (XFresh 1) KKeyboard false).
Proof. reflexivity. Qed.

Print Assumptions C11_all_called.
Print Assumptions C11_raises_the_last.
Print Assumptions C11_raises_the_first_refuted.
Print Assumptions C11_others_propagate_at_once.
