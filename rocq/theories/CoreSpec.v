(** Specification of scopes and cleanups as a small acceptor of event traces,
    and the trace-level vocabulary used by the property theorems.  Independent
    of the model (imports only the event type). *)

From Coq Require Import List Bool Arith PeanoNat.
From Verif Require Import Events.
Import ListNotations.

(** ** What must run at the end of a scope *)

(** The decision table: on interruption only critical cleanups; on failure all
    but the success_only ones; otherwise all. *)
Definition must_run (fail intr crit succ : bool) : bool :=
  if intr then crit else if fail then negb succ else true.

(** ** Trace vocabulary *)

(** event [a] happens before event [b] *)
Definition before (a b : event) (tr : list event) : Prop :=
  exists p q r, tr = p ++ a :: q ++ b :: r.

(** the cleanup calls of a trace, in order *)
Definition runs (tr : list event) : list nat :=
  flat_map (fun e => match e with EvRun c => [c] | _ => [] end) tr.

Definition is_push (e : event) : bool := match e with EvPush _ _ => true | _ => false end.

(** Cleanup [cid] belongs to scope [sid]: registered on it, or registered when
    no scope was open and [sid] was the first scope opened afterwards. *)
Definition belongs (cid sid : nat) (tr : list event) : Prop :=
  (exists req crit succ r, In (EvAdd cid req (Some sid) crit succ r) tr) \/
  (exists req crit succ r nm p q t,
      tr = p ++ EvAdd cid req None crit succ r :: q ++ EvPush sid nm :: t /\
      forallb (fun e => negb (is_push e)) q = true).

(** The open scopes (innermost first) after a trace. *)
Fixpoint open_after (acc : list (nat * sname)) (tr : list event) : list (nat * sname) :=
  match tr with
  | [] => acc
  | EvPush sid nm :: tr => open_after ((sid, nm) :: acc) tr
  | EvPopEnd sid _ _ :: tr => open_after (filter (fun p => negb (Nat.eqb sid (fst p))) acc) tr
  | _ :: tr => open_after acc tr
  end.

Definition open_scopes (tr : list event) := open_after [] tr.

(** innermost open scope with a given name *)
Definition innermost (n : sname) (l : list (nat * sname)) : option nat :=
  option_map fst (find (fun p => sname_eqb n (snd p)) l).

(** ** The acceptor *)

(** a registered, not yet treated cleanup: id, critical, success_only *)
Definition item := (nat * bool * bool)%type.

Definition it_id (i : item) : nat := fst (fst i).
Definition it_must (fail intr : bool) (i : item) : bool := must_run fail intr (snd (fst i)) (snd i).

Record sscope := mkSS {
  ss_id : nat; ss_nm : sname;
  ss_pop : option (bool * bool);   (* being closed, with (fail, intr) *)
  ss_items : list item }.          (* newest first *)

Record sst := mkSst {
  q_stack : list sscope;           (* innermost first *)
  q_pend : list item;              (* registered with no scope open, newest first *)
  q_cids : list nat;               (* cleanup ids seen *)
  q_sids : list nat }.             (* scope ids seen *)

Definition sst0 := mkSst [] [] [] [].

Definition memb (n : nat) (l : list nat) : bool := existsb (Nat.eqb n) l.

(** the newest cleanup that must run, if it is [cid], and what is below it *)
Fixpoint take (fail intr : bool) (cid : nat) (l : list item) : option (list item) :=
  match l with
  | [] => None
  | i :: l' => if it_must fail intr i then (if Nat.eqb cid (it_id i) then Some l' else None)
               else take fail intr cid l'
  end.

Definition add_item (sid : nat) (i : item) (l : list sscope) : list sscope :=
  map (fun x => if Nat.eqb sid (ss_id x) then mkSS (ss_id x) (ss_nm x) (ss_pop x) (i :: ss_items x) else x) l.

Definition opt_nat_eqb (a b : option nat) : bool :=
  match a, b with
  | None, None => true
  | Some x, Some y => Nat.eqb x y
  | _, _ => false
  end.

(** where a registration has to go: no name -> innermost open scope (or pending
    when there is none), a name -> innermost open scope of that name *)
Definition target (req : option sname) (l : list sscope) : option nat :=
  match req with
  | None => option_map ss_id (hd_error l)
  | Some n => option_map ss_id (find (fun x => sname_eqb n (ss_nm x)) l)
  end.

Definition top_idle (l : list sscope) : bool :=
  match l with [] => true | x :: _ => match ss_pop x with None => true | _ => false end end.

Definition spec_step (q : sst) (e : event) : option sst :=
  match e with
  | EvPush sid nm =>
      if memb sid (q_sids q) || negb (top_idle (q_stack q)) then None
      else Some (mkSst (mkSS sid nm None (q_pend q) :: q_stack q) [] (q_cids q) (sid :: q_sids q))
  | EvAdd cid req tgt crit succ _ =>
      if memb cid (q_cids q) || (crit && succ) then None
      else if negb (opt_nat_eqb tgt (target req (q_stack q))) then None
      else match tgt, req with
           | Some sid, _ => Some (mkSst (add_item sid (cid, crit, succ) (q_stack q)) (q_pend q) (cid :: q_cids q) (q_sids q))
           | None, None => Some (mkSst (q_stack q) ((cid, crit, succ) :: q_pend q) (cid :: q_cids q) (q_sids q))
           | None, Some _ => None
           end
  | EvPopBegin sid nm f i =>
      match q_stack q with
      | mkSS sid' nm' None items :: rest =>
          if Nat.eqb sid sid' && sname_eqb nm nm'
          then Some (mkSst (mkSS sid' nm' (Some (f, i)) items :: rest) (q_pend q) (q_cids q) (q_sids q))
          else None
      | _ => None
      end
  | EvRun cid =>
      match q_stack q with
      | mkSS sid nm (Some (f, i)) items :: rest =>
          match take f i cid items with
          | Some items' => Some (mkSst (mkSS sid nm (Some (f, i)) items' :: rest) (q_pend q) (q_cids q) (q_sids q))
          | None => None
          end
      | _ => None
      end
  | EvPopEnd sid nm ok =>
      match q_stack q with
      | mkSS sid' nm' (Some (f, i)) items :: rest =>
          if Nat.eqb sid sid' && sname_eqb nm nm' &&
             (negb ok || forallb (fun x => negb (it_must f i x)) items)
          then Some (mkSst rest (q_pend q) (q_cids q) (q_sids q))
          else None
      | _ => None
      end
  | _ => Some q
  end.

Fixpoint spec_run (q : sst) (tr : list event) : option sst :=
  match tr with
  | [] => Some q
  | e :: tr => match spec_step q e with Some q' => spec_run q' tr | None => None end
  end.

Definition accepted (tr : list event) : Prop := exists q, spec_run sst0 tr = Some q.

(** ** Recorded exceptions *)

(** what a result was given of one kind, in order: source exception and fatal mark *)
Definition rref_eqb (a b : rref) : bool :=
  match a, b with
  | RGlobal, RGlobal => true
  | RTest x, RTest y => Nat.eqb x y
  | _, _ => false
  end.

Definition rkind_eqb (a b : rkind) : bool :=
  match a, b with
  | RKError, RKError | RKFailure, RKFailure | RKSkip, RKSkip
  | RKInterrupt, RKInterrupt | RKNothing, RKNothing => true
  | _, _ => false
  end.

Definition recorded (r : rref) (k : rkind) (tr : list event) : list (option xid * bool) :=
  flat_map (fun e => match e with
                     | EvRecord r' k' src f => if rref_eqb r r' && rkind_eqb k k' then [(src, f)] else []
                     | _ => [] end) tr.

(** exception objects given to a result, in order *)
Definition sources (tr : list event) : list xid :=
  flat_map (fun e => match e with EvRecord _ _ (Some x) _ => [x] | _ => [] end) tr.

(** kind of record prescribed for an exception class; [skips] are the
    registered skip exception types besides SkipTest *)
Definition prescribed (skips : list etype) (k : ekind) : rkind :=
  match k with
  | KAssertion => RKFailure
  | _ =>
    if isinstance_any k (TSkip :: skips) then RKSkip
    else match k with
         | KKeyboard | KTerminated => RKInterrupt
         | KGenExit => RKNothing
         | _ => RKError
         end
  end.
