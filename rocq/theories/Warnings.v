(** Model of the warnings part of slash: warnings.py 38-54 (capture), 112-122
    (from_native_warning), 143-175 (_IgnoredWarning), 191-224 (ignore_warnings,
    ignored_warnings, clear_ignored_warnings).  A warning is raised by
    warnings.warn in the program and delivered to _capture_native_warning.
    Simplified: categories are numbers with a given subclass relation; a compiled
    regular expression is a number with a given matching relation; messages are
    strings (a Warning object is its first argument, None if it has none). *)

From Coq Require Import List Bool Arith Ascii.
From Verif Require Import Str.
Import ListNotations.

(** a string or a compiled regular expression; warnings.py:143-175 *)
Inductive pat := PStr (s : str) | PRe (r : nat).

(** _IgnoredWarning.__init__ warnings.py:145-149 *)
Record wfilter := mkFilter {
  f_category : option nat; f_filename : option pat; f_lineno : option nat; f_message : option pat }.

(** a native warning as warnings.warn delivers it (44); [v_message] the arguments
    of the Warning object, None if there is none; warnings.py:38-54 *)
Record warning := mkWarning { v_category : nat; v_filename : str; v_lineno : nat; v_message : option str }.

Section Oracles.
(** issubclass *)
Variable subclass : nat -> nat -> bool.
(** pattern.match(string) *)
Variable re_match : nat -> str -> bool.

(** truth value of a pattern argument: a non-empty string, or a pattern object; a Python operation, no code of /repo, used by warnings.py:143-175 *)
Definition truthy (p : pat) : bool := match p with PStr [] => false | _ => true end.

(** _pattern_matches warnings.py:151-160 *)
Definition pattern_matches (p : pat) (s : str) : bool :=
  match p with PStr t => str_eqb t s | PRe r => re_match r s end.

(** matches warnings.py:162-175, on a warning with message [msg] *)
Definition matches (f : wfilter) (w : warning) (msg : str) : bool :=
  if match f_category f with Some c => negb (subclass (v_category w) c) | None => false end then false
  else if match f_filename f with Some p => truthy p && negb (pattern_matches p (v_filename w)) | None => false end then false
  else if match f_lineno f with Some n => negb (Nat.eqb n 0) && negb (Nat.eqb (v_lineno w) n) | None => false end then false
  else if match f_message f with Some p => truthy p && negb (pattern_matches p msg) | None => false end then false
  else true.

(** a program: ignore_warnings(f), clear_ignored_warnings(), warnings.warn(w),
    [with ignored_warnings(f): body], try: body except: pass, raise; warnings.py:191-224 *)
Inductive wprog :=
| WDone
| WIgnore (f : wfilter) (k : wprog)
| WClear (k : wprog)
| WWarn (w : warning) (k : wprog)
| WWith (f : wfilter) (body k : wprog)
| WTry (body k : wprog)
| WRaise.

(** what happened, in order; filters are identified by the object ([id]).
    [ERaised w]: the capture raised IndexError; ghost, no code of /repo *)
Inductive wev :=
| EReg (id : nat) (f : wfilter)
| EExit (id : nat) (raised : bool)
| EClear
| EWarn (w : warning) (msg : str) (recorded : bool)
| EBad (w : warning).

(** _ignored_warnings (188) and the warnings recorded (29); the trace is a ghost; warnings.py:29, 188 *)
Record wst := mkWst { ignored : list (nat * wfilter); recorded : list warning; fresh : nat; wtrace : list wev }.

(** ignore_warnings warnings.py:194-208 *)
Definition ignore (f : wfilter) (s : wst) : wst :=
  mkWst (ignored s ++ [(fresh s, f)]) (recorded s) (S (fresh s)) (wtrace s ++ [EReg (fresh s) f]).

(** clear_ignored_warnings warnings.py:223-224 *)
Definition clear (s : wst) : wst := mkWst [] (recorded s) (fresh s) (wtrace s ++ [EClear]).

(** _ignored_warnings.remove(iw) warnings.py:216-220: filters are compared by identity *)
Definition unignore (id : nat) (l : list (nat * wfilter)) : list (nat * wfilter) :=
  filter (fun e => negb (Nat.eqb (fst e) id)) l.

(** _capture_native_warning warnings.py:44-50 with warning_should_be_filtered 38-42; the
    second component: IndexError of [message.args[0]], 115 *)
Definition capture (w : warning) (s : wst) : wst * bool :=
  match v_message w with
  | None => (mkWst (ignored s) (recorded s) (fresh s) (wtrace s ++ [EBad w]), true)
  | Some msg =>
      if existsb (fun e => matches (snd e) w msg) (ignored s) then
        (mkWst (ignored s) (recorded s) (fresh s) (wtrace s ++ [EWarn w msg false]), false)
      else (mkWst (ignored s) (recorded s ++ [w]) (fresh s) (wtrace s ++ [EWarn w msg true]), false)
  end.

(** ignored_warnings 211-220: the filter is removed only when the body did not
    raise (handling_exceptions re-raises, exception_handling.py:71-100) *)
Fixpoint run (p : wprog) (s : wst) : wst * bool :=
  match p with
  | WDone => (s, false)
  | WRaise => (s, true)
  | WIgnore f k => run k (ignore f s)
  | WClear k => run k (clear s)
  | WWarn w k => match capture w s with
                 | (s1, true) => (s1, true)
                 | (s1, false) => run k s1
                 end
  | WTry body k => run k (fst (run body s))
  | WWith f body k =>
      let id := fresh s in
      match run body (ignore f s) with
      | (s1, true) => (mkWst (ignored s1) (recorded s1) (fresh s1) (wtrace s1 ++ [EExit id true]), true)
      | (s1, false) =>
          run k (mkWst (unignore id (ignored s1)) (recorded s1) (fresh s1) (wtrace s1 ++ [EExit id false]))
      end
  end.
End Oracles.
