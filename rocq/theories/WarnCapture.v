(** Capturing the warnings of Python's warnings module (warnings.py:17-36, 44-54, utils/warning_capture.py:4-26).
    The warnings module is a list of filters and the function that shows a warning. *)

From Coq Require Import List Bool Arith.
Import ListNotations.

(** Classes of warnings.  LogbookWarning is a UserWarning (warnings.py:21-22); [CSub n c] is any other subclass of [c]. *)
Inductive cat := CWarning | CUser | CDeprecation | CImport | CLogbook | CSub (n : nat) (c : cat).

(** the same class; a Python operation, no code of /repo *)
Fixpoint cat_eqb (a b : cat) : bool :=
  match a, b with
  | CWarning, CWarning | CUser, CUser | CDeprecation, CDeprecation | CImport, CImport | CLogbook, CLogbook => true
  | CSub n a, CSub m b => Nat.eqb n m && cat_eqb a b
  | _, _ => false
  end.

(** issubclass(a, b); warnings.py:21-22 for LogbookWarning *)
Fixpoint subclass (a b : cat) : bool :=
  cat_eqb a b ||
  match a with
  | CWarning => false
  | CUser | CDeprecation | CImport => cat_eqb CWarning b
  | CLogbook => cat_eqb CUser b || cat_eqb CWarning b
  | CSub _ c => subclass c b
  end.

(** What a filter of the warnings module says.  The actions that remember what was shown ("default", "once", "module") are
    not modelled: the filters slash puts in front are these (warnings.py:18-19), "error" is one a user may have. *)
Inductive action := Always | Ignore | AsError.
(** the same action; a Python operation, no code of /repo *)
Definition action_eqb (a b : action) : bool :=
  match a, b with Always, Always | Ignore, Ignore | AsError, AsError => true | _, _ => false end.
(** a filter: an action and the class it is for; warnings.py:18-19 *)
Definition filter_ := (action * cat)%type.
(** the same filter; a Python operation, no code of /repo *)
Definition filter_eqb (a b : filter_) : bool := action_eqb (fst a) (fst b) && cat_eqb (snd a) (snd b).

(** warnings.simplefilter and warnings.filterwarnings: an equal filter is taken out, the new one goes first
    (as called by warnings.py:18-19) *)
Fixpoint remove1 (f : filter_) (l : list filter_) : list filter_ :=
  match l with
  | [] => []
  | g :: l => if filter_eqb f g then l else g :: remove1 f l
  end.
(** the new filter goes first; a Python operation, as called by warnings.py:18-19 *)
Definition add_filter (f : filter_) (l : list filter_) : list filter_ := f :: remove1 f l.

(** capture_all_warnings, warnings.py:17-19 *)
Definition capture_all (l : list filter_) : list filter_ :=
  add_filter (Ignore, CImport) (add_filter (Always, CWarning) l).

(** the function warnings.showwarning is: Python's own, some other, or the one of a session (warnings.py:35) *)
Inductive shower := ShDefault | ShOther (n : nat) | ShSession (s : nat).

(** [w_shown]: what was shown and by whom, oldest first.  [w_ctx]: the contexts that were entered and what they found
    (utils/warning_capture.py:15-21). *)
Record wstate := mkWs {
  w_filters : list filter_;
  w_show : shower;
  w_ctx : list (nat * shower);
  w_shown : list (shower * (nat * cat)) }.

(** assignment to the filters; plumbing of the model, no code of its own *)
Definition set_filters (v : list filter_) (s : wstate) : wstate := mkWs v (w_show s) (w_ctx s) (w_shown s).
(** assignment to showwarning, utils/warning_capture.py:21, 26 *)
Definition set_show (v : shower) (s : wstate) : wstate := mkWs (w_filters s) v (w_ctx s) (w_shown s).

(** Steps of a program: a session's capture_context is entered (warnings.py:33-35: [Start c s], c the new
    warning_callback_context) and left ([Leave c]); a warning is issued; someone adds a filter or assigns showwarning. *)
Inductive step :=
| Start (c s : nat)
| Leave (c : nat)
| Warn (n : nat) (k : cat)
| Filter (f : filter_)
| Assign (h : shower).

(** the end of a step: normal, the RuntimeError of utils/warning_capture.py:18, 25, a warning raised as an error *)
Inductive wout := Fine | Runtime | Warned.

(** _entered and _showwarning of a context, utils/warning_capture.py:14, 20 *)
Fixpoint find_ctx (c : nat) (l : list (nat * shower)) : option shower :=
  match l with
  | [] => None
  | (d, h) :: l => if Nat.eqb c d then Some h else find_ctx c l
  end.

(** the action for a warning: the first filter that matches; without one it is shown.
    (the warnings module, as used by warnings.py:17-19) *)
Fixpoint decide (l : list filter_) (k : cat) : action :=
  match l with
  | [] => Always
  | (a, c) :: l => if subclass k c then a else decide l k
  end.

(** one step: utils/warning_capture.py:16-26, warnings.py:17-19, 33-36 *)
Definition wstep (e : step) (s : wstate) : wstate * wout :=
  match e with
  | Start c i =>
      let s := set_filters (capture_all (w_filters s)) s in
      match find_ctx c (w_ctx s) with
      | Some _ => (s, Runtime)
      | None => (mkWs (w_filters s) (ShSession i) ((c, w_show s) :: w_ctx s) (w_shown s), Fine)
      end
  | Leave c =>
      match find_ctx c (w_ctx s) with
      | None => (s, Runtime)
      | Some h => (set_show h s, Fine)
      end
  | Warn n k =>
      match decide (w_filters s) k with
      | Always => (mkWs (w_filters s) (w_show s) (w_ctx s) (w_shown s ++ [(w_show s, (n, k))]), Fine)
      | Ignore => (s, Fine)
      | AsError => (s, Warned)
      end
  | Filter f => (set_filters (add_filter f (w_filters s)) s, Fine)
  | Assign h => (set_show h s, Fine)
  end.

(** the steps one after the other; users' code *)
Fixpoint wrun (l : list step) (s : wstate) : wstate :=
  match l with
  | [] => s
  | e :: l => wrun l (fst (wstep e s))
  end.

(** What a session keeps of the warnings shown to it: those no ignored pattern matches, warnings.py:44-54
    ([ignored]: warning_should_be_filtered, warnings.py:38-42) *)
Definition kept (ignored : nat -> bool) (i : nat) (s : wstate) : list nat :=
  flat_map (fun p => match fst p with
                     | ShSession j => if Nat.eqb i j && negb (ignored (fst (snd p))) then [fst (snd p)] else []
                     | _ => []
                     end) (w_shown s).

(** the state a fresh interpreter is in, with the given filters; Python's *)
Definition ws0 (l : list filter_) : wstate := mkWs l ShDefault [] [].
