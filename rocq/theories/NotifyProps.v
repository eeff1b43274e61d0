(** C95: who is told what by the notifications plugin, and what a failing
    notifier does to the session. *)

From Coq Require Import List Bool Arith Ascii String Lia.
From Verif Require Import Str Notify.
Import ListNotations.
Local Open Scope list_scope.

(** ** Texts *)

(** no character of the text is a brace *)
Definition plain (s : str) : Prop := ~ In lb s /\ ~ In rb s.

(** Text passed through _escape_format stands in the formatted text as it was,
    whatever is formatted after it and whatever the arguments are. *)
Theorem C95_escaped (kws : kwargs) (s t : str) :
  format kws (escape_format s ++ t) = option_map (app s) (format kws t).
Proof.
  unfold format, escape_format, replace1. induction s as [|c s IH].
  - simpl. destruct (fmt kws None t); reflexivity.
  - cbn [flat_map]. destruct (Ascii.eqb_spec c lb) as [->|N].
    + cbn. fold lb. rewrite IH. destruct (fmt kws None t); reflexivity.
    + cbn [flat_map app]. destruct (Ascii.eqb_spec c rb) as [->|N'].
      * cbn. fold rb. rewrite IH. destruct (fmt kws None t); reflexivity.
      * cbn [app fmt]. rewrite (proj2 (Ascii.eqb_neq c lb) N), (proj2 (Ascii.eqb_neq c rb) N').
        cbn [app] in IH. rewrite IH. destruct (fmt kws None t); reflexivity.
Qed.

Lemma plain_format kws s t : plain s -> format kws (s ++ t) = option_map (app s) (format kws t).
Proof.
  unfold format. intros [A B]. induction s as [|c s IH].
  - simpl. destruct (fmt kws None t); reflexivity.
  - cbn [app fmt].
    rewrite (proj2 (Ascii.eqb_neq c lb)) by (intros ->; apply A; left; reflexivity).
    rewrite (proj2 (Ascii.eqb_neq c rb)) by (intros ->; apply B; left; reflexivity).
    rewrite IH; [destruct (fmt kws None t); reflexivity| |]; intros X; [apply A|apply B]; right; exact X.
Qed.

(** the line under the message: where the session is found *)
Definition where_found (z : sess) : str :=
  match backslash z with
  | Some (link, _) => lit "Backslash: " ++ link ++ lit "sessions/" ++ s_id z
  | None => lit "Session ID: " ++ s_id z
  end.

(** the user of backslash gets mail too *)
Definition user (z : sess) : list str := match backslash z with Some (_, u) => [u] | None => [] end.

(** the title says where the session ran and how it ended *)
Definition the_title (z : sess) (r : str) : str := lit "Slash Session on " ++ host z ++ lit " has " ++ r.

(** the arguments of a message for the session *)
Definition args (z : sess) (r : str) : kwargs :=
  (lit "title", the_title z r) ::
  ([(lit "session_id", s_id z); (lit "host_name", host z); (lit "result", r); (lit "results_summary", summary z)] ++
   match backslash z with Some (l, _) => [(lit "backslash_link", l ++ lit "sessions/" ++ s_id z)] | None => [] end) ++ others z.

(** the template of that line *)
Definition info (z : sess) : str :=
  match backslash z with Some _ => lit "Backslash: {backslash_link}" | None => lit "Session ID: {session_id}" end.

Lemma get_message_spec z short pdb s :
  get_message z short pdb s =
  (Some (mkMessage (the_title z (result_str pdb s)) (short ++ nl :: nl :: info z) (args z (result_str pdb s)) pdb),
   mkState (ok s) (bad s) (to_list s ++ user z) (sent s)).
Proof.
  unfold get_message, the_title, args, info, user. destruct s as [o b tl se]. destruct (backslash z) as [[l u]|]; cbn -[result_str].
  - rewrite ?app_nil_r. reflexivity.
  - rewrite ?app_nil_r. reflexivity.
Qed.

Lemma result_plain pdb s : plain (result_str pdb s).
Proof. unfold result_str. destruct pdb; [|destruct (finished_successfully s)]; split; vm_compute; intuition discriminate. Qed.

Lemma plain_app a b : plain a -> plain b -> plain (a ++ b).
Proof. intros [A B] [C D]. split; rewrite in_app_iff; tauto. Qed.

Lemma title_spec z r pdb b kws : plain (host z) -> plain r ->
  get_title (mkMessage (the_title z r) b kws pdb) = Some (the_title z r).
Proof.
  intros H R. unfold get_title. cbn [title Notify.kw]. rewrite <- (app_nil_r (the_title z r)) at 1.
  rewrite plain_format; [cbn; rewrite app_nil_r; reflexivity|]. unfold the_title.
  apply plain_app; [split; vm_compute; intuition discriminate|]. apply plain_app; [exact H|].
  apply plain_app; [split; vm_compute; intuition discriminate|exact R].
Qed.

Lemma info_spec z r : format (args z r) (nl :: nl :: info z) = Some (nl :: nl :: where_found z).
Proof.
  unfold args, info, where_found. destruct (backslash z) as [[l u]|]; cbn -[the_title]; rewrite ?app_nil_r; reflexivity.
Qed.

Lemma escaped_body z r t pdb ti :
  get_short_message (mkMessage ti (escape_format t ++ nl :: nl :: info z) (args z r) pdb) = Some (t ++ nl :: nl :: where_found z).
Proof. unfold get_short_message. cbn [body Notify.kw]. rewrite C95_escaped, info_spec. reflexivity. Qed.

Lemma summary_body z r pdb ti :
  get_short_message (mkMessage ti (lit "{results_summary}" ++ nl :: nl :: info z) (args z r) pdb) = Some (summary z ++ nl :: nl :: where_found z).
Proof.
  unfold get_short_message. cbn [body Notify.kw].
  assert (E : format (args z r) (lit "{results_summary}" ++ nl :: nl :: info z) =
              option_map (app (summary z)) (format (args z r) (nl :: nl :: info z))).
  { unfold args. cbn -[the_title info nl fmt]. unfold format. reflexivity. }
  rewrite E, info_spec. reflexivity.
Qed.

(** ** Deliveries *)

(** has the notifier what it needs, and is it switched on? *)
Definition set_up (c : conf) (addresses : list str) (n : notifier) : bool :=
  enabled c n &&
  match n with
  | Prowl | Nma | Pushbullet =>
      match legacy_key c n, api_key c n with
      | Some (_ :: _), _ => true
      | _, Some (_ :: _) => true
      | _, _ => false
      end
  | Email => match from_email c, smtp_server c, cc_list c, addresses with
             | Some _, Some _, Some _, _ :: _ => true | _, _, _, _ => false end
  | Slack => match slack_url c, slack_channel c with Some _, Some _ => true | _, _ => false end
  end.

Section Deliveries.
Variable deliver : delivery -> option exc.
Variable render : message -> option str.

(** no notifier is interrupted or skips *)
Definition orderly : Prop := forall d e, deliver d = Some e -> exists r, e = XOrdinary r.

(** the deliveries that failed *)
Definition lost (ds : list delivery) : nat :=
  List.length (filter (fun d => match deliver d with Some _ => true | None => false end) ds).

Variables (c : conf) (m : message) (T B H : str).
Hypothesis (HT : get_title m = Some T) (HB : get_short_message m = Some B) (HH : render m = Some H).
Hypothesis (HF : exists f, format (kw m) (lit "Session {session_id} {result}") = Some f).

(** what is handed to a notifier *)
Definition expected (n : notifier) (s : state) : delivery :=
  mkDelivery n T (match n with Email => H | _ => B end)
    (match n with Slack => Some (if is_pdb m then Blue else if finished_successfully s then Good else Danger) | _ => None end)
    (match n with Email => to_list s ++ match cc_list c with Some l => l | None => [] end | _ => [] end).

Lemma run_spec n s : enabled c n = true ->
  run_notifier deliver render c n m s = if set_up c (to_list s) n then hand deliver (expected n s) s else (s, Fine).
Proof.
  intros E. unfold set_up. rewrite E. destruct HF as [f HF']. unfold run_notifier, expected, key_of. rewrite HT, HB, HH, HF'.
  destruct n; cbn [andb].
  - destruct (legacy_key c Prowl) as [[|? ?]|], (api_key c Prowl) as [[|? ?]|]; reflexivity.
  - destruct (legacy_key c Nma) as [[|? ?]|], (api_key c Nma) as [[|? ?]|]; reflexivity.
  - destruct (legacy_key c Pushbullet) as [[|? ?]|], (api_key c Pushbullet) as [[|? ?]|]; reflexivity.
  - destruct (from_email c), (smtp_server c), (to_list s), (cc_list c); reflexivity.
  - destruct (slack_url c), (slack_channel c); reflexivity.
Qed.

Lemma each_spec dbg : orderly -> (debugs c = false \/ forall d, deliver d = None) -> forall ns s,
  exists new, notify_each deliver render c dbg ns m s =
    (mkState (ok s) (bad s + lost new) (to_list s) (sent s ++ new), Fine) /\
    map d_to new = filter (set_up c (to_list s)) ns /\
    (forall d, In d new -> exists b, d = expected (d_to d) (mkState (ok s) b (to_list s) []) /\
        bad s <= b <= bad s + lost new).
Proof.
  intros O D. induction ns as [|n ns IH]; intros s; cbn [notify_each filter].
  - exists []. unfold lost; simpl. rewrite Nat.add_0_r, app_nil_r. destruct s; simpl. repeat split; contradiction.
  - destruct (enabled c n) eqn:E.
    + rewrite (run_spec n s E). destruct (set_up c (to_list s) n) eqn:U.
      * unfold hand. destruct (deliver (expected n s)) as [e|] eqn:X.
        -- destruct (O _ _ X) as [r ->]. cbn [guarded]. destruct D as [D|D]; [|rewrite D in X; discriminate]. rewrite D. cbn [ok bad to_list sent].
           destruct (IH (mkState (ok s) (S (bad s)) (to_list s) (sent s ++ [expected n s]))) as (new & E1 & E2 & E3).
           cbn [ok bad to_list sent] in *. exists (expected n s :: new). cbn [map]. rewrite E1, E2. unfold lost in *. cbn [filter]. rewrite X.
           cbn [List.length map filter]. rewrite <- app_assoc. split; [rewrite Nat.add_succ_r; reflexivity|]. split; [reflexivity|].
           intros d [<-|I]; [exists (bad s); split; [reflexivity|lia]|]. destruct (E3 d I) as (b & -> & Hb). exists b. split; [reflexivity|lia].
        -- cbn [guarded].
           destruct (IH (mkState (ok s) (bad s) (to_list s) (sent s ++ [expected n s]))) as (new & E1 & E2 & E3).
           cbn [ok bad to_list sent] in *. exists (expected n s :: new). cbn [map]. rewrite E1, E2. unfold lost in *. cbn [filter]. rewrite X.
           cbn [map]. rewrite <- app_assoc. split; [reflexivity|]. split; [reflexivity|].
           intros d [<-|I]; [exists (bad s); split; [reflexivity|lia]|]. destruct (E3 d I) as (b & -> & Hb). exists b. split; [reflexivity|lia].
      * cbn [guarded]. destruct (IH s) as (new & E1 & E2 & E3). exists new. rewrite E1, E2. auto.
    + unfold set_up at 1. rewrite E. cbn [andb]. apply IH.
Qed.

End Deliveries.

Section Occasions.
Variable deliver : delivery -> option exc.
Variable render : message -> option str.
Variables (c : conf) (z : sess).

Lemma all_spec dbg short pdb s : orderly deliver -> (debugs c = false \/ forall d, deliver d = None) ->
  (forall m, render m <> None) -> plain (host z) ->
  forall B, (forall r ti, get_short_message (mkMessage ti (short ++ nl :: nl :: info z) (args z r) pdb) = Some B) ->
  exists new, notify_all deliver render (fun m => m) c dbg z short pdb s =
    (mkState (ok s) (bad s + lost deliver new) (to_list s ++ user z) (sent s ++ new), Fine) /\
    map d_to new = filter (set_up c (to_list s ++ user z)) [Prowl; Nma; Pushbullet; Email; Slack] /\
    (forall d, In d new ->
       d_title d = the_title z (result_str pdb s) /\ (d_to d <> Email -> d_text d = B) /\
       (d_to d = Email -> exists cc, cc_list c = Some cc /\ d_addr d = to_list s ++ user z ++ cc) /\
       (d_to d = Slack -> (lost deliver new = 0 \/ pdb = true) ->
          d_color d = Some (if pdb then Blue else if finished_successfully s then Good else Danger))).
Proof.
  intros O D R P B HB. unfold notify_all. rewrite get_message_spec.
  set (m := mkMessage (the_title z (result_str pdb s)) (short ++ nl :: nl :: info z) (args z (result_str pdb s)) pdb).
  destruct (render m) as [h|] eqn:Eh; [|destruct (R m Eh)].
  assert (HT : get_title m = Some (the_title z (result_str pdb s))) by (apply title_spec; [exact P|apply result_plain]).
  assert (HB' : get_short_message m = Some B) by apply HB.
  assert (HF : exists f, format (kw m) (lit "Session {session_id} {result}") = Some f).
  { subst m. cbn [Notify.kw]. unfold args. eexists. cbn -[the_title result_str]. reflexivity. }
  destruct (each_spec deliver render c m _ B h HT HB' Eh HF dbg O D notifiers (mkState (ok s) (bad s) (to_list s ++ user z) (sent s)))
    as (new & E1 & E2 & E3).
  cbn [ok bad to_list sent] in *. exists new. split; [exact E1|]. split; [exact E2|].
  intros d I. destruct (E3 d I) as (b & Ed & Hb).
  assert (Ic : set_up c (to_list s ++ user z) (d_to d) = true).
  { assert (J : In (d_to d) (map d_to new)) by (apply in_map; exact I). rewrite E2 in J. apply filter_In in J. tauto. }
  rewrite Ed. cbn [expected d_title d_to d_text d_addr d_color to_list ok bad].
  split; [reflexivity|]. split; [|split].
  - intros N. destruct (d_to d); try reflexivity. congruence.
  - intros N. rewrite N in *. unfold set_up in Ic. apply andb_true_iff in Ic as [_ Ic].
    destruct (cc_list c) as [cc|]; [|destruct (from_email c), (smtp_server c); discriminate].
    exists cc. rewrite app_assoc. auto.
  - intros N. rewrite N. subst m. cbn [is_pdb]. destruct pdb; [reflexivity|]. intros [L|L]; [|discriminate].
    unfold finished_successfully. cbn [ok bad]. replace b with (bad s) by lia. reflexivity.
Qed.

(** At the end of a session that is not too short (and not successful, if only
    failures are of interest) every notifier that is switched on and set up is
    handed one message, in a fixed order, whatever becomes of the others; the
    title tells how the session ended, the text is the summary.  Otherwise
    nobody is told anything. *)
Theorem C95_session_end depth s : orderly deliver -> debugs c = false -> (forall m, render m <> None) -> plain (host z) ->
  exists new, session_end deliver render (fun m => m) depth c z s =
    (mkState (ok s) (bad s + lost deliver new)
       (if (threshold c <=? duration z) && negb (finished_successfully s && only_on_failures c) then to_list s ++ user z else to_list s)
       (sent s ++ new), Fine) /\
    (duration z < threshold c \/ (ok s = true /\ bad s = 0 /\ only_on_failures c = true) -> new = []) /\
    (threshold c <= duration z -> (ok s = false \/ 0 < bad s \/ only_on_failures c = false) ->
       map d_to new = filter (set_up c (to_list s ++ user z)) [Prowl; Nma; Pushbullet; Email; Slack]) /\
    (forall d, In d new ->
       d_title d = lit "Slash Session on " ++ host z ++ lit " has " ++ (if ok s && (bad s =? 0) then lit "Succeeded" else lit "Failed") /\
       (d_to d <> Email -> d_text d = summary z ++ nl :: nl :: where_found z) /\
       (d_to d = Email -> exists cc, cc_list c = Some cc /\ d_addr d = to_list s ++ user z ++ cc)).
Proof.
  intros O D R P. unfold session_end. destruct (Nat.ltb_spec (duration z) (threshold c)) as [L|L].
  - exists []. rewrite (proj2 (Nat.leb_gt _ _) L). cbn [andb]. unfold lost; simpl. rewrite Nat.add_0_r, app_nil_r. destruct s; simpl.
    split; [reflexivity|]. split; [auto|]. split; [intros; lia|contradiction].
  - rewrite (proj2 (Nat.leb_le _ _) L). destruct (finished_successfully s && only_on_failures c) eqn:F; cbn [andb negb].
    + exists []. unfold lost; simpl. rewrite Nat.add_0_r, app_nil_r. unfold finished_successfully in F. destruct s as [o b tl se]; simpl in *.
      apply andb_true_iff in F as [F1 F2]. apply andb_true_iff in F1 as [F3 F4]. apply Nat.eqb_eq in F4.
      split; [reflexivity|]. split; [auto|]. split; [|contradiction]. intros _ [X|[X|X]]; [congruence|lia|congruence].
    + destruct (all_spec (entering_debugger deliver render (fun m => m) depth c z) (lit "{results_summary}") false s O (or_introl D) R P _
                  (fun r ti => summary_body z r false ti)) as (new & E1 & E2 & E3).
      exists new. split; [exact E1|]. split.
      { unfold finished_successfully in F. intros [X|(X1 & X2 & X3)]; [lia|]. rewrite X1, X2, X3 in F. discriminate. }
      split; [intros _ _; exact E2|]. intros d I. destruct (E3 d I) as (A1 & A2 & A3 & _). split; [exact A1|]. auto.
Qed.

(** When a debugger is entered the message is the exception, whatever
    characters its text has. *)
Theorem C95_debugger depth r s : orderly deliver -> debugs c = false \/ (forall d, deliver d = None) ->
  (forall m, render m <> None) -> plain (host z) -> on_pdb c = true ->
  exists new, entering_debugger deliver render (fun m => m) (S depth) c z r s =
    (mkState (ok s) (bad s + lost deliver new) (to_list s ++ user z) (sent s ++ new), Fine) /\
    map d_to new = filter (set_up c (to_list s ++ user z)) [Prowl; Nma; Pushbullet; Email; Slack] /\
    (forall d, In d new ->
       d_title d = lit "Slash Session on " ++ host z ++ lit " has entered PDB" /\
       (d_to d <> Email -> d_text d = r ++ nl :: nl :: where_found z) /\
       (d_to d = Email -> exists cc, cc_list c = Some cc /\ d_addr d = to_list s ++ user z ++ cc) /\
       (d_to d = Slack -> d_color d = Some Blue)).
Proof.
  intros O D R P N. cbn [entering_debugger]. rewrite N.
  destruct (all_spec (entering_debugger deliver render (fun m => m) depth c z) (escape_format r) true s O D R P _
              (fun r' ti => escaped_body z r' r true ti)) as (new & E1 & E2 & E3).
  exists new. split; [exact E1|]. split; [exact E2|]. intros d I. destruct (E3 d I) as (A1 & A2 & A3 & A4).
  split; [|split; [exact A2|split; [exact A3|intros X; exact (A4 X (or_intror eq_refl))]]].
  rewrite A1. reflexivity.
Qed.

(** With the switch off nothing is sent when a debugger is entered. *)
Theorem C95_debugger_off prepare depth r s : on_pdb c = false -> entering_debugger deliver render prepare (S depth) c z r s = (s, Fine).
Proof. intros N. cbn [entering_debugger]. rewrite N. reflexivity. Qed.

(** Telling people does not change the outcome of the session, and the colour of
    the message agrees with its title: so when every delivery is accepted. *)
Theorem C95_outcome_partial depth s : (forall d, deliver d = None) -> (forall m, render m <> None) -> plain (host z) ->
  exists new, sent (fst (session_end deliver render (fun m => m) depth c z s)) = sent s ++ new /\
    snd (session_end deliver render (fun m => m) depth c z s) = Fine /\
    finished_successfully (fst (session_end deliver render (fun m => m) depth c z s)) = finished_successfully s /\
    (forall d, In d new -> d_to d = Slack ->
       (d_color d = Some Good <-> d_title d = lit "Slash Session on " ++ host z ++ lit " has Succeeded")).
Proof.
  intros A R P. assert (O : orderly deliver) by (intros d e X; rewrite A in X; discriminate).
  assert (L0 : forall ds, lost deliver ds = 0).
  { intros ds. unfold lost. induction ds as [|d ds IH]; [reflexivity|]. simpl. rewrite A. exact IH. }
  unfold session_end. destruct (Nat.ltb (duration z) (threshold c)); [exists []; rewrite app_nil_r; split; [reflexivity|repeat split; try reflexivity; contradiction]|].
  destruct (finished_successfully s && only_on_failures c); [exists []; rewrite app_nil_r; split; [reflexivity|repeat split; try reflexivity; contradiction]|].
  destruct (all_spec (entering_debugger deliver render (fun m => m) depth c z) (lit "{results_summary}") false s O (or_intror A) R P _
              (fun r ti => summary_body z r false ti)) as (new & E1 & E2 & E3).
  exists new. rewrite E1. cbn [fst snd sent]. split; [reflexivity|]. split; [reflexivity|]. split.
  { unfold finished_successfully. cbn [ok bad]. rewrite L0, Nat.add_0_r. reflexivity. }
  intros d I N. destruct (E3 d I) as (A1 & _ & _ & A4). rewrite (A4 N (or_introl (L0 new))), A1. unfold the_title, result_str.
  destruct (finished_successfully s); split; intros X; try reflexivity; try discriminate.
  apply app_inv_head in X. apply app_inv_head in X. vm_compute in X. discriminate.
Qed.

(** What the plugin does at the end of a session comes to an end: so unless the
    debugger is entered for the failures of notifiers (C95_endless_refuted). *)
Theorem C95_ends_partial depth r s : orderly deliver -> debugs c = false \/ (forall d, deliver d = None) ->
  (forall m, render m <> None) -> plain (host z) ->
  snd (entering_debugger deliver render (fun m => m) (S depth) c z r s) = Fine /\
  snd (session_end deliver render (fun m => m) depth c z s) = Fine.
Proof.
  intros O D R P. split.
  - destruct (on_pdb c) eqn:N; [|rewrite C95_debugger_off by exact N; reflexivity].
    destruct (C95_debugger depth r s O D R P N) as (new & E & _). rewrite E. reflexivity.
  - unfold session_end. destruct (Nat.ltb (duration z) (threshold c)); [reflexivity|].
    destruct (finished_successfully s && only_on_failures c); [reflexivity|].
    destruct (all_spec (entering_debugger deliver render (fun m => m) depth c z) (lit "{results_summary}") false s O D R P _
              (fun r ti => summary_body z r false ti)) as (new & E1 & _). rewrite E1. reflexivity.
Qed.

(** one entry of the debugger after the other *)
Fixpoint entries (rs : list str) (s : state) : state :=
  match rs with [] => s | r :: rs => entries rs (fst (entering_debugger deliver render (fun m => m) 1 c z r s)) end.

(** The mail goes to the configured addresses and, with backslash, to its user:
    once for every message there has been. *)
Theorem C95_addresses rs s : orderly deliver -> debugs c = false ->
  (forall m, render m <> None) -> plain (host z) -> on_pdb c = true ->
  to_list (entries rs s) = to_list s ++ List.concat (repeat (user z) (List.length rs)).
Proof.
  intros O D R P N. revert s. induction rs as [|r rs IH]; intros s; cbn [entries List.length repeat List.concat]; [rewrite app_nil_r; reflexivity|].
  destruct (C95_debugger 0 r s O (or_introl D) R P N) as (new & E & _). rewrite E. cbn [fst]. rewrite IH. cbn [to_list]. rewrite app_assoc. reflexivity.
Qed.

End Occasions.

(** ** What does not hold *)

(** everything switched on; keys for prowl, slack and mail set up *)
Definition ex_conf (dbg : bool) : conf :=
  mkConf (fun _ => true) (fun _ => None) (fun n => match n with Prowl => Some (lit "key") | _ => None end)
         (Some (lit "slash")) (Some (lit "smtp")) (Some []) (Some (lit "url")) (Some (lit "channel")) 5 false true dbg.

Definition ex_sess (h : str) (b : option (str * str)) : sess := mkSess (lit "id_0") h 10 (lit "Results: 3 successful, 0 errors") [] b.

Definition ex_state : state := mkState true 0 [lit "qa@example.com"] [].

Definition ex_render (m : message) : option str := Some (lit "<html>").

(** prowl cannot be reached *)
Definition ex_deliver (d : delivery) : option exc :=
  match d_to d with Prowl => Some (XOrdinary (lit "ConnectionError()")) | _ => None end.

(** A notification that cannot be delivered makes a successful session an
    unsuccessful one; the slack message sent after it is coloured as a failure
    though its title says the session has succeeded. *)
Theorem C95_outcome_refuted : exists deliver c z s,
  finished_successfully s = true /\ orderly deliver /\ plain (host z) /\
  let s' := fst (session_end deliver ex_render (fun m => m) 1 c z s) in
  finished_successfully s' = false /\
  exists d, In d (sent s') /\ d_color d = Some Danger /\ d_title d = lit "Slash Session on h has Succeeded".
Proof.
  exists ex_deliver, (ex_conf false), (ex_sess (lit "h") None), ex_state. split; [reflexivity|]. split.
  { intros d e. unfold ex_deliver. destruct (d_to d); try discriminate. intros X. injection X as <-. eauto. }
  split; [split; vm_compute; intuition discriminate|]. split; [vm_compute; reflexivity|].
  exists (nth 2 (sent (fst (session_end ex_deliver ex_render (fun m => m) 1 (ex_conf false) (ex_sess (lit "h") None) ex_state)))
            (mkDelivery Prowl [] [] None [])).
  split; [vm_compute; tauto|]. split; vm_compute; reflexivity.
Qed.

(** A brace in the name of the host: the title is formatted twice, no notifier
    gets anything, and the session becomes unsuccessful. *)
Theorem C95_title_refuted : exists c z s,
  finished_successfully s = true /\ filter (set_up c (to_list s)) notifiers = [Prowl; Email; Slack] /\
  let s' := fst (session_end (fun _ => None) ex_render (fun m => m) 1 c z s) in
  sent s' = [] /\ finished_successfully s' = false.
Proof.
  exists (ex_conf false), (ex_sess (lit "h{1}") None), ex_state. repeat split; vm_compute; reflexivity.
Qed.

(** With the debugger switched on and a notifier that cannot be reached, entering
    the debugger never gets to the debugger: however deep calls may be nested,
    the plugin calls itself until that depth. *)
Theorem C95_endless_refuted : exists deliver c z, orderly deliver /\ plain (host z) /\
  forall depth r s, snd (entering_debugger deliver ex_render (fun m => m) depth c z r s) = TooDeep /\
    List.length (sent (fst (entering_debugger deliver ex_render (fun m => m) depth c z r s))) = List.length (sent s) + depth.
Proof.
  exists ex_deliver, (ex_conf true), (ex_sess (lit "h") None). split.
  { intros d e. unfold ex_deliver. destruct (d_to d); try discriminate. intros X. injection X as <-. eauto. }
  split; [split; vm_compute; intuition discriminate|].
  assert (C1 : on_pdb (ex_conf true) = true) by reflexivity.
  assert (C2 : enabled (ex_conf true) Prowl = true) by reflexivity.
  assert (C3 : debugs (ex_conf true) = true) by reflexivity.
  assert (C4 : truthy (key_of (ex_conf true) Prowl) = true) by reflexivity.
  generalize dependent (ex_conf true). intros cf C1 C2 C3 C4.
  induction depth as [|depth IH]; intros r s; [cbn; split; [reflexivity|lia]|].
  cbn [entering_debugger]. rewrite C1.
  match goal with |- snd ?x = _ /\ _ => enough (G : exists s3, x = (s3, TooDeep) /\ List.length (sent s3) = List.length (sent s) + S depth) end.
  { destruct G as (s3 & -> & G). split; [reflexivity|exact G]. }
  unfold notify_all. rewrite get_message_spec.
  set (m := mkMessage _ _ _ _). set (s1 := mkState _ _ _ _).
  assert (HT : get_title m = Some (the_title (ex_sess (lit "h") None) (result_str true s))).
  { apply title_spec; [split; vm_compute; intuition discriminate|apply result_plain]. }
  assert (HB : get_short_message m = Some (r ++ nl :: nl :: where_found (ex_sess (lit "h") None))) by apply escaped_body.
  unfold notifiers. cbn [notify_each]. rewrite C2.
  unfold run_notifier at 1. rewrite C4, HT, HB. unfold hand at 1. cbn [ex_deliver d_to]. unfold guarded at 1. rewrite C3. cbn [ok bad to_list sent].
  set (s2 := mkState _ _ _ _). destruct (IH (lit "ConnectionError()") s2) as [I1 I2].
  destruct (entering_debugger ex_deliver ex_render (fun m0 => m0) depth cf _ (lit "ConnectionError()") s2) as [s3 o].
  cbn [fst snd] in *. subst o. exists s3. split; [reflexivity|]. rewrite I2. subst s2 s1. cbn [sent]. rewrite app_length. cbn [List.length]. lia.
Qed.

(** A mail may name an address more than once. *)
Theorem C95_addresses_refuted : exists c z s d,
  NoDup (to_list s ++ user z) /\
  In d (sent (fst (session_end (fun _ => None) ex_render (fun m => m) 1 c z (entries (fun _ => None) ex_render c z [lit "ValueError()"] s)))) /\
  ~ NoDup (d_addr d).
Proof.
  set (z := ex_sess (lit "h") (Some (lit "http://bs/", lit "me@example.com"))).
  set (st := fst (session_end (fun _ => None) ex_render (fun m => m) 1 (ex_conf false) z
                   (entries (fun _ => None) ex_render (ex_conf false) z [lit "ValueError()"] ex_state))).
  exists (ex_conf false), z, ex_state, (nth 4 (sent st) (mkDelivery Prowl [] [] None [])).
  split; [|split].
  - repeat constructor; vm_compute; intuition discriminate.
  - vm_compute; tauto.
  - assert (E : d_addr (nth 4 (sent st) (mkDelivery Prowl [] [] None [])) =
              [lit "qa@example.com"; lit "me@example.com"; lit "me@example.com"]) by (vm_compute; reflexivity).
    rewrite E. intros X. inversion X as [|? ? _ Y]. inversion Y as [|? ? Z _]. apply Z. left. reflexivity.
Qed.

(** an exception with braces in its text; the session ends well after it *)
Example C95_ex :
  let z := ex_sess (lit "h") (Some (lit "http://bs/", lit "me@example.com")) in
  let s := entries (fun _ => None) ex_render (ex_conf false) z [lit "KeyError('{x}')"] ex_state in
  let s' := fst (session_end (fun _ => None) ex_render (fun m => m) 1 (ex_conf false) z s) in
  orderly ex_deliver /\ plain (host z) /\ on_pdb (ex_conf false) = true /\ debugs (ex_conf false) = false /\
  map (fun d => (d_to d, d_text d)) (sent s) =
    [(Prowl, lit "KeyError('{x}')" ++ nl :: nl :: lit "Backslash: http://bs/sessions/id_0");
     (Email, lit "<html>");
     (Slack, lit "KeyError('{x}')" ++ nl :: nl :: lit "Backslash: http://bs/sessions/id_0")] /\
  map d_to (sent s') = [Prowl; Email; Slack; Prowl; Email; Slack] /\
  map d_color (sent s') = [None; None; Some Blue; None; None; Some Good].
Proof.
  cbv zeta. split; [intros d e; unfold ex_deliver; destruct (d_to d); try discriminate; intros X; injection X as <-; eauto|].
  split; [split; vm_compute; intuition discriminate|]. repeat split; vm_compute; reflexivity.
Qed.

Print Assumptions C95_escaped.
Print Assumptions C95_session_end.
Print Assumptions C95_debugger.
Print Assumptions C95_debugger_off.
Print Assumptions C95_outcome_partial.
Print Assumptions C95_ends_partial.
Print Assumptions C95_addresses.
Print Assumptions C95_outcome_refuted.
Print Assumptions C95_title_refuted.
Print Assumptions C95_endless_refuted.
Print Assumptions C95_addresses_refuted.
