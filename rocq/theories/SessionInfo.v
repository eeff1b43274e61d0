(** What a session tells of itself: how long it takes, its host, how many tests it has, the exceptions that skip
    (slash/core/session.py:25, 53-65, 105-116, 134, 156-170, slash/loader.py:55-65, 94-104); and how variations are compared and
    written for the comparison of the collections of workers (slash/core/variation.py:74-96).

    Simplified: times are numbers; the other effects of starting a session are in Core.v; names of parameters are identifiers joined
    by dots, for which json.dumps has nothing to escape. *)

From Coq Require Import List Bool Arith ZArith Ascii String.
From Verif Require Import Str Loader Naming Dict Variations.
Import ListNotations.
Local Open Scope list_scope.
Local Open Scope nat_scope.

(** the attributes of a session; host_fqdn is one of the class; slash/core/session.py:25, 53, 162 *)
Record info := mkInfo { i_start : option Z; i_end : option Z; i_fqdn : option str; i_name : option str; i_total : nat; i_skips : list nat; i_complete : bool }.

(** the type of SkipTest; slash/core/session.py:53 *)
Definition skip_test : nat := 0.

(** a new session; slash/core/session.py:25, 38, 53, 162; [fqdn]: the attribute of the class *)
Definition new_session (fqdn : option str) : info := mkInfo None None fqdn None 0 [skip_test] false.

(** what is called: get_started_context is entered at a time, on a machine; is left at a time; increment_total_num_tests;
    register_skip_exception; mark_complete; slash/core/session.py:61-62, 111-116, 132-134, 156-157, 169-170 *)
Inductive call := Enter (now : Z) (machine : str) | Leave (now : Z) | Increment (n : nat) | Register (ty : nat) | Complete.

(** host_fqdn.split('.')[0]; slash/core/session.py:115 *)
Definition first_label (s : str) : str := match split1 "."%char s with Some (a, _) => a | None => s end.

(** slash/core/session.py:61-62, 111-116, 132-134, 156-157, 169-170 *)
Definition called (s : info) (c : call) : info :=
  match c with
  | Enter now machine =>
      let fqdn := match i_fqdn s with Some f => f | None => machine end in
      mkInfo (Some now) (i_end s) (Some fqdn) (Some (first_label fqdn)) (i_total s) (i_skips s) (i_complete s)
  | Leave now => mkInfo (i_start s) (Some now) (i_fqdn s) (i_name s) (i_total s) (i_skips s) (i_complete s)
  | Increment n => mkInfo (i_start s) (i_end s) (i_fqdn s) (i_name s) (i_total s + n) (i_skips s) (i_complete s)
  | Register ty => mkInfo (i_start s) (i_end s) (i_fqdn s) (i_name s) (i_total s) (i_skips s ++ [ty]) (i_complete s)
  | Complete => mkInfo (i_start s) (i_end s) (i_fqdn s) (i_name s) (i_total s) (i_skips s) true
  end.

(** duration at the time [now]; None: TypeError; slash/core/session.py:105-110 *)
Definition duration (s : info) (now : Z) : option Z :=
  match i_end s with
  | Some e => match i_start s with Some b => Some (e - b)%Z | None => None end
  | None => match i_start s with
            | Some b => Some (now - (if Z.eqb b 0 then now else b))%Z
            | None => Some (now - now)%Z
            end
  end.

(** get_runnables with what it adds to the number of tests; slash/loader.py:55-76, 103 *)
Definition load (each all : nat) (interactive : bool) (hook : run -> nat) (tests : list src) (s : info)
  : info * option (list (run * nat)) :=
  (called s (Increment (List.length (generate_repeats each all tests))), get_runnables each all interactive hook tests).

(** ** Variations *)

(** an item of Variation.id; slash/core/variation.py:36-41 *)
Definition item := (str * nat)%type.

(** sorted() of items with different names; a Python operation, no code of /repo *)
Fixpoint insert_item (b : item) (l : list item) : list item :=
  match l with
  | [] => [b]
  | c :: l' => if str_leb (fst b) (fst c) then b :: l else c :: insert_item b l'
  end.
(** a Python operation, no code of /repo *)
Fixpoint sort_items (l : list item) : list item :=
  match l with [] => [] | b :: l' => insert_item b (sort_items l') end.

(** the double quote; no code of /repo *)
Definition quote : ascii := "034"%char.

(** an item as json.dumps writes it; slash/core/variation.py:78 *)
Definition dump_item (i : item) : str := [quote] ++ fst i ++ [quote] ++ lit ": " ++ digits (snd i).

(** dump_variation_dict; slash/core/variation.py:74-78 *)
Definition dump (id : list item) : str := lit "{" ++ join (lit ", ") (map dump_item (sort_items id)) ++ lit "}".

(** equality of dictionaries; a Python operation, no code of /repo *)
Definition dict_eqb (a b : @dict nat) : bool :=
  let sub a b := forallb (fun i => match d_get (fst i) b with Some v => Nat.eqb v (snd i) | None => false end) a in
  sub a b && sub b a.

(** __eq__ of two variations; slash/core/variation.py:80-85 *)
Definition variation_eqb (a b : variation) : bool := dict_eqb (v_indices a) (v_indices b).
