(** Model of how the result of a test goes from a worker to its parent: Result.serialize
    and Result.deserialize (core/result.py:57-80), add_error, add_failure and add_skip with
    append=False (core/result.py:205-217, 224-250), as Server.finished_test uses them
    (parallel/server.py:183-189) on the result made by _get_test_context.

    Pickle and xmlrpc are a part of the environment: what happens to each attribute is given.
    Simplifications: a value that can be pickled and unpickled arrives unchanged; the errors
    are given by an identity, whether they are failures and whether they are fatal; the log
    messages of deserialize and sentry are left out; in the parent has_children() holds, so
    the error_added hook is not triggered (core/result.py:239). *)

From Coq Require Import List Bool Arith.
Import ListNotations.

(** core/error.py:20-50: the object, _is_failure, _fatal *)
Record error := mkErr { e_id : nat; e_failure : bool; e_fatal : bool }.

(** an attribute of a result and its value, core/result.py:32-49: those that decide about
    success, the others by name ([IOther]: data, _start_time, _end_time, details, _log_path,
    _extra_logs and whatever plugins set), and the two that are not sent, 30 *)
Inductive item :=
| IErrors (l : list error) | IFailures (l : list error) | ISkips (l : list nat)
| IStarted (b : bool) | IFinished (b : bool) | IInterrupted (b : bool)
| IOther (name value : nat)
| IMetadata (v : nat) | IFacts (v : nat).

(** Result, core/result.py:32-49 *)
Record result := mkRes {
  r_metadata : nat; r_facts : nat;
  r_errors : list error; r_failures : list error; r_skips : list nat;
  r_started : bool; r_finished : bool; r_interrupted : bool;
  r_others : list (nat * nat) }.

(** vars(self).items(); a Python operation, used by core/result.py:59 *)
Definition items (r : result) : list item :=
  IMetadata (r_metadata r) :: IErrors (r_errors r) :: IFailures (r_failures r) :: ISkips (r_skips r)
  :: IFacts (r_facts r) :: IStarted (r_started r) :: IFinished (r_finished r) :: IInterrupted (r_interrupted r)
  :: map (fun x => IOther (fst x) (snd x)) (r_others r).

(** d[key] = value; a Python operation, no code of /repo *)
Fixpoint put (k v : nat) (d : list (nat * nat)) : list (nat * nat) :=
  match d with
  | [] => [(k, v)]
  | (k', v') :: d' => if Nat.eqb k k' then (k, v) :: d' else (k', v') :: put k v d'
  end.

(** self.__dict__[key] = …, core/result.py:71 *)
Definition set_item (i : item) (r : result) : result :=
  match i with
  | IErrors l => mkRes (r_metadata r) (r_facts r) l (r_failures r) (r_skips r) (r_started r) (r_finished r) (r_interrupted r) (r_others r)
  | IFailures l => mkRes (r_metadata r) (r_facts r) (r_errors r) l (r_skips r) (r_started r) (r_finished r) (r_interrupted r) (r_others r)
  | ISkips l => mkRes (r_metadata r) (r_facts r) (r_errors r) (r_failures r) l (r_started r) (r_finished r) (r_interrupted r) (r_others r)
  | IStarted b => mkRes (r_metadata r) (r_facts r) (r_errors r) (r_failures r) (r_skips r) b (r_finished r) (r_interrupted r) (r_others r)
  | IFinished b => mkRes (r_metadata r) (r_facts r) (r_errors r) (r_failures r) (r_skips r) (r_started r) b (r_interrupted r) (r_others r)
  | IInterrupted b => mkRes (r_metadata r) (r_facts r) (r_errors r) (r_failures r) (r_skips r) (r_started r) (r_finished r) b (r_others r)
  | IOther k v => mkRes (r_metadata r) (r_facts r) (r_errors r) (r_failures r) (r_skips r) (r_started r) (r_finished r) (r_interrupted r) (put k v (r_others r))
  | IMetadata v => mkRes v (r_facts r) (r_errors r) (r_failures r) (r_skips r) (r_started r) (r_finished r) (r_interrupted r) (r_others r)
  | IFacts v => mkRes (r_metadata r) v (r_errors r) (r_failures r) (r_skips r) (r_started r) (r_finished r) (r_interrupted r) (r_others r)
  end.

(** key not in pickle_key_blacklist, core/result.py:30, 60 *)
Definition sent (i : item) : bool := match i with IMetadata _ | IFacts _ => false | _ => true end.

(** pickle.dumps: bytes; PicklingError or TypeError; another exception (AttributeError for
    local classes, RecursionError, what __reduce__ of the user raises); core/result.py:62-63 *)
Inductive dumped := DBytes | DRefused | DRaises.
(** unpickle: the value; TypeError; another exception; core/result.py:70-72 *)
Inductive loaded := LValue | LTypeError | LRaises.

(** what is observed in the parent: report_test_failure_added, report_test_error_added,
    report_test_skip_added; core/result.py:209, 216, 250 *)
Inductive event := EFailure (e : error) | EError (e : error) | ESkip (reason : nat).

Section Env.
Variable dumps : item -> dumped.
Variable loads : item -> loaded.
(** whether reporting this raises an exception *)
Variable report_raises : event -> bool.

(** Result.serialize core/result.py:57-66; None: an exception leaves it *)
Fixpoint serialize_items (l : list item) : option (list item) :=
  match l with
  | [] => Some []
  | i :: l' =>
      if sent i then
        match dumps i with
        | DBytes => match serialize_items l' with Some d => Some (i :: d) | None => None end
        | DRefused => serialize_items l'
        | DRaises => None
        end
      else serialize_items l'
  end.
(** Result.serialize core/result.py:57-66 *)
Definition serialize (r : result) : option (list item) := serialize_items (items r).

(** the first loop of deserialize, core/result.py:69-74; the boolean: an exception leaves it *)
Fixpoint load_items (d : list item) (r : result) : result * bool :=
  match d with
  | [] => (r, false)
  | i :: d' =>
      match loads i with
      | LValue => load_items d' (set_item i r)
      | LTypeError => load_items d' r
      | LRaises => (r, true)
      end
  end.

(** error.mark_as_failure(), core/result.py:232-234, core/error.py:70-71 *)
Definition mark_failure (e : error) : error := mkErr (e_id e) true (e_fatal e).

(** for x in l: report, core/result.py:75-80; what was reported, and whether an exception leaves the loop *)
Fixpoint report_all (l : list event) : list event * bool :=
  match l with
  | [] => ([], false)
  | e :: l' => if report_raises e then ([e], true) else let '(t, x) := report_all l' in (e :: t, x)
  end.

(** the three loops of deserialize, core/result.py:75-80 *)
Definition announcements (r : result) : list event :=
  map (fun e => EFailure (mark_failure e)) (r_failures r) ++ map EError (r_errors r) ++ map ESkip (r_skips r).
(** the failures that were gone through are marked, core/result.py:75-76 *)
Definition mark_failures (n : nat) (r : result) : result :=
  set_item (IFailures (map mark_failure (firstn n (r_failures r)) ++ skipn n (r_failures r))) r.

(** Result.deserialize, core/result.py:68-80 *)
Definition deserialize (d : list item) (r : result) : result * list event * bool :=
  let '(r', x) := load_items d r in
  if x then (r', [], true)
  else let '(t, x') := report_all (announcements r') in (mark_failures (length t) r', t, x').
End Env.

(** Result.is_success, core/result.py:182-187 *)
Definition is_success (allow_skips : bool) (r : result) : bool :=
  match r_errors r, r_failures r, r_interrupted r with
  | [], [], false => match r_skips r with [] => r_started r | _ => allow_skips end
  | _, _, _ => false
  end.
(** has_fatal_errors, core/result.py:285-287 *)
Definition has_fatal (r : result) : bool := existsb e_fatal (r_errors r ++ r_failures r).
