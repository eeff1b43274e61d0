(** Classes of tests that are skipped as a whole or are abstract
    (slash/core/test.py:23-40, 84-92, 147-162).  Classes are numbers, Test is 0; how their methods give
    variations and in which order is in VarNames.v and Collect.v, what running a test calls is in TestCall.v. *)

From Coq Require Import List Bool Arith.
From Verif Require Import Dict.
Import ListNotations.

(** what run of a test is: SkipTest.throw with a reason (None: None), or Test.run; slash/core/test.py:38-40, 115 *)
Inductive running := Throws (reason : option nat) | Runs.

(** a generated test: its class, its method, its run; slash/core/test.py:32-40 *)
Record test := mkTest { t_class : nat; t_method : nat; t_run : running }.

(** what a program does: cls.skip_all(reason), abstract_test_class(cls), collecting the tests of a class with such
    methods; slash/core/test.py:23-40, 89-92, 147-154 *)
Inductive op := SkipAll (c : nat) (reason : option nat) | Abstract (c : nat) | Collect (c : nat) (methods : list nat).

(** own __slash_skipped_reason__ of the classes with an own __slash_skipped__ of True, classes with an own
    __slash_abstract__, the collected tests, for each abstract_test_class whether it was accepted; slash/core/test.py:84-92, 147-162 *)
Record state := mkState { own : dict (option nat); abstract : list nat; collected : list test; accepted : list bool }.
(** the class Test itself is not skipped; slash/core/test.py:84-85 *)
Definition state0 := mkState [] [] [] [].

Section Classes.
(** cls.__mro__; a Python operation, no code of /repo *)
Variable mro : nat -> list nat.

(** cls.__slash_skipped__ and cls.__slash_skipped_reason__, looked up in the classes of the mro: None: not skipped;
    slash/core/test.py:38-39, 84-85 *)
Fixpoint skipped (l : list nat) (own : dict (option nat)) : option (option nat) :=
  match l with
  | [] => None
  | c :: l => match d_get c own with Some r => Some r | None => skipped l own end
  end.

(** one of the operations; slash/core/test.py:23-40, 89-92, 147-162 *)
Definition step (s : state) (o : op) : state :=
  match o with
  | SkipAll c r => mkState (d_set c r (own s)) (abstract s) (collected s) (accepted s)
  | Abstract c =>
      if existsb (Nat.eqb 0) (mro c) then mkState (own s) (c :: abstract s) (collected s) (accepted s ++ [true])
      else mkState (own s) (abstract s) (collected s) (accepted s ++ [false])
  | Collect c methods =>
      if existsb (Nat.eqb c) (abstract s) then s
      else
        let r := match skipped (mro c) (own s) with Some r => Throws r | None => Runs end in
        mkState (own s) (abstract s) (collected s ++ map (fun m => mkTest c m r) methods) (accepted s)
  end.

(** one after the other; plumbing of the model, no code of its own *)
Definition exec (ops : list op) : state := fold_left step ops state0.
End Classes.
