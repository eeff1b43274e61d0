(** Model of how requirements are checked before a test is run: core/requirements.py:47-78,
    core/runnable_test.py:47-53, 61-65, core/function_test.py:39-43, core/test.py:109-113, runner.py:129-156.

    Requirement objects have a number (they are compared by identity).  What a requirement's function answers may
    differ from call to call. *)

From Coq Require Import List Bool Arith String.
Import ListNotations.
Open Scope string_scope.
Open Scope list_scope.

(** Python values that matter here; PObj: any other object, by its truth and its str(); a Python operation, no code of /repo *)
Inductive pv := PNone | PBool (b : bool) | PStr (s : string) | PObj (truth : bool) (shown : string).

(** bool(x); a Python operation, no code of /repo *)
Definition truthy (v : pv) : bool :=
  match v with PNone => false | PBool b => b | PStr s => negb (String.eqb s "") | PObj t _ => t end.
(** '{}'.format(x); a Python operation, no code of /repo *)
Definition shown (v : pv) : string :=
  match v with PNone => "None" | PBool true => "True" | PBool false => "False" | PStr s => s | PObj _ r => r end.

(** what a call answers: a tuple, something else, or an exception; a Python operation, no code of /repo *)
Inductive reply := RTuple (l : list pv) | RValue (v : pv) | RRaise (x : nat).
(** the exceptions: raised by the function, by unpacking a tuple (core/runnable_test.py:50), by calling what cannot be called
    (core/requirements.py:66) *)
Inductive failure := FRaised (x : nat) | FUnpack | FNotCallable.

(** self._req: a bool, a function (by the name in its repr, core/requirements.py:59-61), or something that cannot be called;
    core/requirements.py:49-52 *)
Inductive rkind := QBool (b : bool) | QCall (r : string) | QOther (r : string).
(** a Requirement, core/requirements.py:49-52; [q_skip]: it is a Skip, whose message is its reason (76-78) *)
Record req := mkReq { q_id : nat; q_req : rkind; q_msg : option string; q_skip : bool }.

(** Skip(reason), core/requirements.py:72-78 *)
Definition skip_req (i : nat) (reason : option string) : req := mkReq i (QBool false) reason true.

(** Requirement.__repr__, core/requirements.py:54-61 *)
Definition req_repr (q : req) : string :=
  match q_msg q with
  | Some m => m
  | None => match q_req q with QBool _ => "?" | QCall r => r | QOther r => r end
  end.

(** the message as a value, core/requirements.py:65, 68 *)
Definition msg_val (m : option string) : pv := match m with Some s => PStr s | None => PNone end.

Section C.
(** what the function of requirement number i answers when it is called after n other calls; users' code *)
Variable answer : nat -> nat -> reply.
(** the order in which a set of requirements is gone through, core/runnable_test.py:65; any *)
Variable order : list req -> list req.

(** Requirement.is_met with the unpacking of its result, core/requirements.py:63-69, core/runnable_test.py:50; the list of calls made
    so far is carried along *)
Definition is_met (q : req) (calls : list nat) : list nat * (bool * pv + failure) :=
  match q_req q with
  | QBool b => (calls, inl (b, msg_val (q_msg q)))
  | QOther _ => (calls, inr FNotCallable)
  | QCall _ =>
      (calls ++ [q_id q],
       match answer (q_id q) (List.length calls) with
       | RRaise x => inr (FRaised x)
       | RValue v => inl (truthy v, msg_val (q_msg q))
       | RTuple [v; m] => inl (truthy v, m)
       | RTuple _ => inr FUnpack
       end)
  end.

(** RunnableTest.get_unmet_requirements, core/runnable_test.py:47-53 *)
Fixpoint get_unmet (qs : list req) (calls : list nat) : list nat * (list (req * pv) + failure) :=
  match qs with
  | [] => (calls, inl [])
  | q :: qs' =>
      match is_met q calls with
      | (calls, inr x) => (calls, inr x)
      | (calls, inl (met, m)) =>
          match get_unmet qs' calls with
          | (calls, inl l) => (calls, inl (if met then l else (q, m) :: l))
          | r => r
          end
      end
  end.

(** a set of objects, each once; a Python operation, no code of /repo *)
Definition req_in (q : req) (l : list req) : bool := existsb (fun p => Nat.eqb (q_id p) (q_id q)) l.
(** set(l); a Python operation, no code of /repo *)
Fixpoint once (l : list req) : list req :=
  match l with
  | [] => []
  | q :: l' => if req_in q l' then once l' else q :: once l'
  end.

(** get_requirements of a test, core/function_test.py:39-43, core/test.py:109-113, with _get_fixtures_requirements,
    core/runnable_test.py:61-65: its own (for a method: those of the class before), and unless it is marked with nofixtures those of its
    fixtures and of the autouse fixtures *)
Definition test_requirements (nofix : bool) (own fixtures autouse : list req) : list req :=
  if nofix then own else order (once (own ++ order (once (fixtures ++ autouse)))).

(** the text of an unmet requirement, runner.py:139-144; what is recorded as the reason of the skip *)
Definition skip_text (q : req) (m : pv) : option string :=
  if q_skip q then q_msg q
  else Some (String.append "Unmet requirement: " (if truthy m then shown m else req_repr q)).
(** what test_avoided is told, runner.py:141-145 *)
Definition avoid_text (q : req) (m : pv) : string :=
  if q_skip q then match q_msg q with Some s => if String.eqb s "" then "Skipped" else s | None => "Skipped" end
  else String.append "Unmet requirement: " (if truthy m then shown m else req_repr q).

(** set(messages); a Python operation, no code of /repo *)
Fixpoint uniq (l : list string) : list string :=
  match l with
  | [] => []
  | s :: l' => if existsb (String.eqb s) l' then uniq l' else s :: uniq l'
  end.

(** whether the test is to be run, or an exception left; runner.py:129-156 *)
Inductive verdict := VRun | VAvoid | VError (x : failure).
(** the calls made, the reasons of the skips recorded, the reasons test_avoided was told (None: not fired), the verdict; runner.py:129-156 *)
Record checked := mkChecked { k_calls : list nat; k_skips : list (option string); k_avoided : option (list string); k_verdict : verdict }.

(** runner.py:152 *)
Definition excluded_text := "Excluded due to parameter combination exclusion rules".

(** _process_requirements_and_exclusions, runner.py:129-156.  The reasons are joined in the order of a set, which is not modelled. *)
Definition process (qs : list req) (excluded : bool) : checked :=
  match get_unmet qs [] with
  | (c, inr x) => mkChecked c [] None (VError x)
  | (c, inl []) =>
      if excluded then mkChecked c [Some excluded_text] (Some [excluded_text]) VAvoid
      else mkChecked c [] None VRun
  | (c, inl un) =>
      mkChecked c (map (fun p => skip_text (fst p) (snd p)) un) (Some (uniq (map (fun p => avoid_text (fst p) (snd p)) un))) VAvoid
  end.
End C.
