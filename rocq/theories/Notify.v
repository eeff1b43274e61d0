(** The notifications plugin: what is sent, to whom, when, and what a failing
    notifier does (slash/plugins/builtin/notifications.py).

    Not modelled: the HTTP and SMTP traffic ([deliver] says how a delivery ends),
    the rendering of the HTML template ([render]), handlers of the
    prepare_notification hook that raise ([prepare] is what the handlers leave
    of the message), the deprecation warning for legacy keys. *)

From Coq Require Import List Bool Arith Ascii String.
From Verif Require Import Str.
Import ListNotations.
Local Open Scope list_scope.

(** ** str.format *)

(** the keyword arguments, name and text; slash/plugins/builtin/notifications.py:195-205 *)
Notation kwargs := (list (str * str)).

(** the value of a replacement field; a Python operation, no code of /repo.
    Only plain names: attribute access, conversions and format specifications
    count as a failing lookup (no template of the plugin uses them) *)
Fixpoint field (kw : kwargs) (n : str) : option str :=
  match kw with
  | [] => None
  | (k, v) :: r => if str_eqb k n then Some v else field r n
  end.

(** a Python operation, no code of /repo: opening and closing brace *)
Definition lb : ascii := "{"%char.
(** a Python operation, no code of /repo *)
Definition rb : ascii := "}"%char.

(** [s.format( **kw)] (None: it raises); [acc]: inside a replacement field, its
    name read so far, backwards.  A Python operation, used in
    slash/plugins/builtin/notifications.py:63, :66, :181 and :216 *)
Fixpoint fmt (kw : kwargs) (acc : option str) (s : str) {struct s} : option str :=
  match s with
  | [] => match acc with None => Some [] | Some _ => None end
  | c :: s1 =>
      match acc with
      | Some n =>
          if Ascii.eqb c rb
          then match field kw (rev n) with Some v => option_map (app v) (fmt kw None s1) | None => None end
          else if Ascii.eqb c lb then None
          else fmt kw (Some (c :: n)) s1
      | None =>
          if Ascii.eqb c lb
          then match s1 with
               | d :: s2 => if Ascii.eqb d lb then option_map (cons c) (fmt kw None s2) else fmt kw (Some []) s1
               | [] => None
               end
          else if Ascii.eqb c rb
          then match s1 with
               | d :: s2 => if Ascii.eqb d rb then option_map (cons c) (fmt kw None s2) else None
               | [] => None
               end
          else option_map (cons c) (fmt kw None s1)
      end
  end.

(** a Python operation, no code of /repo *)
Definition format (kw : kwargs) (s : str) : option str := fmt kw None s.

(** [s.replace(c, r)] for a single character; a Python operation, no code of /repo *)
Definition replace1 (c : ascii) (r s : str) : str := flat_map (fun x => if Ascii.eqb x c then r else [x]) s.

(** slash/plugins/builtin/notifications.py:245-246 *)
Definition escape_format (s : str) : str := replace1 rb [rb; rb] (replace1 lb [lb; lb] s).

(** ** The plugin *)

(** the notifiers, in the order they are added; slash/plugins/builtin/notifications.py:98-107 *)
Inductive notifier := Prowl | Nma | Pushbullet | Email | Slack.
(** slash/plugins/builtin/notifications.py:98-107 *)
Definition notifiers : list notifier := [Prowl; Nma; Pushbullet; Email; Slack].

(** the configuration; slash/plugins/builtin/notifications.py:90-107.  [to_list]
    is in the state: it is changed (slash/plugins/builtin/notifications.py:208).
    [debugs]: debug.enabled, and no filter against the exceptions of notifiers;
    slash/utils/debug.py:57-73 *)
Record conf := mkConf {
  enabled : notifier -> bool;
  legacy_key : notifier -> option str;
  api_key : notifier -> option str;
  from_email : option str;
  smtp_server : option str;
  cc_list : option (list str);
  slack_url : option str;
  slack_channel : option str;
  threshold : nat;
  only_on_failures : bool;
  on_pdb : bool;
  debugs : bool
}.

(** what the plugin sees of the session and of the backslash plugin (its web
    address and the user's address); slash/plugins/builtin/notifications.py:195-214.
    [others]: the keyword arguments whose text is not modelled
    (duration, success, the two counts, full_name) *)
Record sess := mkSess {
  s_id : str;
  host : str;
  duration : nat;
  summary : str;
  others : kwargs;
  backslash : option (str * str)
}.

(** slash/plugins/builtin/notifications.py:54-60 *)
Record message := mkMessage { title : str; body : str; kw : kwargs; is_pdb : bool }.

(** slash/plugins/builtin/notifications.py:177 *)
Inductive color := Blue | Good | Danger.

(** something handed to a provider; slash/plugins/builtin/notifications.py:136-142, :155-156, :160-169 and :178-188 *)
Record delivery := mkDelivery {
  d_to : notifier; d_title : str; d_text : str; d_color : option color; d_addr : list str }.

(** how a notifier may fail: an ordinary exception
    and its text, an exception of a skip type,
    an interruption (KeyboardInterrupt, SystemExit, …);
    slash/exception_handling.py:131-138 *)
Inductive exc := XOrdinary (repr : str) | XSkip | XInterrupt.

(** how a call ends; [TooDeep]: the calls are nested too deeply (RecursionError);
    slash/exception_handling.py:117-138 *)
Inductive outcome := Fine | Raised (e : exc) | TooDeep.

(** the exception of [str.format] or of a template, its text not modelled; a Python
    operation, no code of /repo *)
Definition key_error : exc := XOrdinary (lit "KeyError").

(** [ok]: the results so far, without what the notifiers themselves add, are
    successful; [bad]: errors recorded for failing notifiers; [to_list]: the
    addresses in the configuration; [sent]: everything handed to a provider *)
Record state := mkState { ok : bool; bad : nat; to_list : list str; sent : list delivery }.

(** slash/plugins/builtin/notifications.py:190-191.  An error or failure on the
    global result makes the results unsuccessful; a skip or an interruption is
    not counted here (simplified: an interruption also ends the session) *)
Definition finished_successfully (s : state) : bool := ok s && Nat.eqb (bad s) 0.

(** truth value of an optional string; a Python operation, no code of /repo *)
Definition truthy (v : option str) : bool := match v with Some (_ :: _) => true | _ => false end.

(** slash/plugins/builtin/notifications.py:124-131 *)
Definition key_of (c : conf) (n : notifier) : option str :=
  if truthy (legacy_key c n) then legacy_key c n else api_key c n.

(** the text of the result; slash/plugins/builtin/notifications.py:194 *)
Definition result_str (pdb : bool) (s : state) : str :=
  if pdb then lit "entered PDB" else if finished_successfully s then lit "Succeeded" else lit "Failed".

(** a line break; a Python operation, no code of /repo *)
Definition nl : ascii := ascii_of_nat 10.

(** slash/plugins/builtin/notifications.py:193-218; None: building the message raises *)
Definition get_message (z : sess) (short : str) (pdb : bool) (s : state) : option message * state :=
  let kw0 := [(lit "session_id", s_id z); (lit "host_name", host z);
              (lit "result", result_str pdb s); (lit "results_summary", summary z)] in
  let '(kw1, info, s1) :=
    match backslash z with
    | Some (link, user) =>
        (kw0 ++ [(lit "backslash_link", link ++ lit "sessions/" ++ s_id z)], lit "Backslash: {backslash_link}",
         mkState (ok s) (bad s) (to_list s ++ [user]) (sent s))
    | None => (kw0, lit "Session ID: {session_id}", s)
    end in
  let kw1 := kw1 ++ others z in
  match format kw1 (lit "Slash Session on {host_name} has {result}") with
  | None => (None, s1)
  | Some t => (Some (mkMessage t (short ++ nl :: nl :: info) ((lit "title", t) :: kw1) pdb), s1)
  end.

(** [get_title]; slash/plugins/builtin/notifications.py:62-63 *)
Definition get_title (m : message) : option str := format (kw m) (title m).
(** slash/plugins/builtin/notifications.py:65-66 *)
Definition get_short_message (m : message) : option str := format (kw m) (body m).

Section External.

(** how handing something to a provider ends (None: well); the other side of
    slash/plugins/builtin/notifications.py:21-24 and :27-51 *)
Variable deliver : delivery -> option exc.
(** the HTML text of a message (None: rendering raises); slash/plugins/builtin/notifications.py:70-78 *)
Variable render : message -> option str.
(** what the handlers of the hook make of the message; slash/plugins/builtin/notifications.py:235 *)
Variable prepare : message -> message.

(** hand something over; slash/plugins/builtin/notifications.py:21-24 *)
Definition hand (d : delivery) (s : state) : state * outcome :=
  (mkState (ok s) (bad s) (to_list s) (sent s ++ [d]),
   match deliver d with None => Fine | Some e => Raised e end).

(** one notifier; slash/plugins/builtin/notifications.py:133-188 *)
Definition run_notifier (c : conf) (n : notifier) (m : message) (s : state) : state * outcome :=
  match n with
  | Prowl | Nma | Pushbullet =>
      if truthy (key_of c n)
      then match get_title m, get_short_message m with
           | Some t, Some b => hand (mkDelivery n t b None []) s
           | _, _ => (s, Raised key_error)
           end
      else (s, Fine)
  | Email =>
      match get_title m, render m with
      | Some t, Some b =>
          match from_email c, smtp_server c, to_list s, cc_list c with
          | Some _, Some _, _ :: _, Some cc => hand (mkDelivery n t b None (to_list s ++ cc)) s
          | _, _, _, _ => (s, Fine)
          end
      | _, _ => (s, Raised key_error)
      end
  | Slack =>
      match slack_url c, slack_channel c with
      | Some _, Some _ =>
          match get_title m, format (kw m) (lit "Session {session_id} {result}"), get_short_message m with
          | Some t, Some _, Some b =>
              hand (mkDelivery n t b (Some (if is_pdb m then Blue else if finished_successfully s then Good else Danger)) []) s
          | _, _, _ => (s, Raised key_error)
          end
      | _, _ => (s, Fine)
      end
  end.

(** [with handling_exceptions(swallow=True)]: the exception is recorded on the
    current result and the debugger is entered if it is configured, which calls
    the hook of this plugin again ([dbg]); then the exception is swallowed unless
    it is a skip or an interruption; slash/exception_handling.py:117-138,
    :141-164 and :42-47, slash/utils/debug.py:57-79.  What the user does in the
    debugger is left out, and the filter strings of the debugger are part of
    [debugs].  A skip or an interruption is not debugged (simplified:
    debug.debug_skips) *)
Definition guarded (c : conf) (dbg : str -> state -> state * outcome) (x : state * outcome) : state * outcome :=
  match x with
  | (s, Raised (XOrdinary r)) =>
      let s := mkState (ok s) (S (bad s)) (to_list s) (sent s) in
      if debugs c then dbg r s else (s, Fine)
  | _ => x
  end.

(** slash/plugins/builtin/notifications.py:238-242 *)
Fixpoint notify_each (c : conf) (dbg : str -> state -> state * outcome) (ns : list notifier) (m : message) (s : state)
  : state * outcome :=
  match ns with
  | [] => (s, Fine)
  | n :: ns =>
      if enabled c n
      then match guarded c dbg (run_notifier c n m s) with
           | (s, Fine) => notify_each c dbg ns m s
           | x => x
           end
      else notify_each c dbg ns m s
  end.

(** slash/plugins/builtin/notifications.py:233-242 *)
Definition notify_all (c : conf) (dbg : str -> state -> state * outcome) (z : sess) (short : str) (pdb : bool) (s : state)
  : state * outcome :=
  match get_message z short pdb s with
  | (None, s) => (s, Raised (XOrdinary []))
  | (Some m, s) => notify_each c dbg notifiers (prepare m) s
  end.

(** slash/plugins/builtin/notifications.py:220-223; [repr]: the text of the
    exception; [depth]: how deep calls may still be nested *)
Fixpoint entering_debugger (depth : nat) (c : conf) (z : sess) (repr : str) (s : state) : state * outcome :=
  match depth with
  | 0 => (s, TooDeep)
  | S d =>
      if on_pdb c then notify_all c (entering_debugger d c z) z (escape_format repr) true s else (s, Fine)
  end.

(** slash/plugins/builtin/notifications.py:225-230 *)
Definition session_end (depth : nat) (c : conf) (z : sess) (s : state) : state * outcome :=
  if Nat.ltb (duration z) (threshold c) then (s, Fine)
  else if finished_successfully s && only_on_failures c then (s, Fine)
  else notify_all c (entering_debugger depth c z) z (lit "{results_summary}") false s.

End External.
