(** Model of what slash list-config and slash list-plugins print:
    frontend/list_config.py:21-59, frontend/slash_list_plugins.py:24-47, and
    the printer they use, utils/cli_utils.py:124-166.
    Simplified: argparse gives the paths and the two flags; the leaves of the
    configuration are given as name, str() of the value and the entry 'doc' of
    the metadata, with distinct names (sorted() then never compares two
    values); a write to a stream never fails; the escape sequences are those
    of colorama (outside /repo); slash.site.load() and the session opened by
    list_config are left out. *)

From Coq Require Import List Bool Arith Ascii String.
From Verif Require Import Str Naming Collect Plugins.
Import ListNotations.
Open Scope string_scope.
Open Scope list_scope.

(** ** The printer *)

(** the character \x1b; colorama, outside /repo *)
Definition ESC : ascii := "027"%char.
(** "\x1b[" code "m"; colorama, outside /repo *)
Definition sgr (code : string) : str := ESC :: lit "[" ++ lit code ++ lit "m".

(** COLOR_RESET, utils/cli_utils.py:124 *)
Definition COLOR_RESET : str := sgr "39" ++ sgr "49" ++ sgr "0".

(** an argument of the printer: a str (no style) or a ColorizedString,
    utils/cli_utils.py:127-133, 140-141 *)
Record piece := mkPiece { p_text : str; p_style : option str }.
(** a plain str; utils/cli_utils.py:162 *)
Definition plain (s : str) : piece := mkPiece s None.
(** make_styler(style)(s), utils/cli_utils.py:140-141 *)
Definition styled (style s : str) : piece := mkPiece s (Some style).

(** ColorizedString.colorize, utils/cli_utils.py:135-138, or str.__str__ of a plain str (155) *)
Definition colorize (p : piece) : str :=
  match p_style p with
  | Some ((_ :: _) as st) => st ++ p_text p ++ COLOR_RESET
  | _ => p_text p
  end.

(** Printer.__init__, utils/cli_utils.py:147-152; [pr_tty]: isatty() of the report stream *)
Record printer := mkPrinter { pr_output : bool; pr_force : bool; pr_color : bool; pr_tty : bool }.

(** a write: whether it goes to the error stream, and the text; utils/cli_utils.py:157-160 *)
Definition write : Type := bool * str.

(** print(args, end=end, file=...), utils/cli_utils.py:157-160 *)
Definition raw_print (args : list str) (end_ : str) (error : bool) : list write :=
  [(error, join (lit " ") args ++ end_)].

(** "\n"; a Python operation, no code of /repo *)
Definition NL : str := ["010"%char].
(** "\t"; a Python operation, no code of /repo *)
Definition TAB : str := ["009"%char].

(** Printer.__call__ with _colored_print, utils/cli_utils.py:154-155, 162-166 *)
Definition call (pr : printer) (args : list piece) (end_ : str) (error : bool) : list write :=
  if pr_output pr then
    if pr_force pr || (pr_color pr && pr_tty pr)
    then raw_print (map colorize args) end_ error
    else raw_print (map p_text args) end_ error
  else [].

(** the text a stream gets; plumbing of the model, no code of its own *)
Definition text (error : bool) (l : list write) : str :=
  List.concat (map snd (filter (fun w => Bool.eqb (fst w) error) l)).

(** ** slash list-config *)

(** the character between the parts of a name, frontend/list_config.py:48 *)
Definition dot : ascii := "."%char.

(** _iter_subpaths, frontend/list_config.py:47-50: '.'.join(p[:i+1]) for i in range(len(p)) *)
Definition iter_subpaths (p : str) : list str :=
  let ps := split_all dot p in
  map (fun i => join (lit ".") (firstn (S i) ps)) (seq 0 (List.length ps)).

(** _parse_filters, frontend/list_config.py:41-45; a set, as a list *)
Definition parse_filters (paths : list str) : list str := flat_map iter_subpaths paths.

(** _is_included, frontend/list_config.py:53-59 *)
Definition is_included (name : str) (filters : list str) : bool :=
  match filters with
  | [] => true
  | _ => existsb (fun sp => s_mem sp filters) (iter_subpaths name)
  end.

(** a leaf of the configuration: str(value.get_value()) and metadata['doc'];
    frontend/list_config.py:31-37 *)
Record leaf := mkLeaf { l_value : str; l_doc : option str }.

(** frontend/list_config.py:9 *)
Definition name_style : str := sgr "37" ++ sgr "1".
(** frontend/list_config.py:10 *)
Definition default_style : str := sgr "32" ++ sgr "1".
(** _INDENT, frontend/list_config.py:11 *)
Definition INDENT : str := lit "    ".

(** the loop of list_config, frontend/list_config.py:31-37; the Printer of line 24 *)
Definition list_config (paths : list str) (force color tty : bool) (leaves : list (str * leaf)) : list write :=
  let pr := mkPrinter true force color tty in
  let filters := parse_filters paths in
  flat_map (fun e =>
    if negb (is_included (fst e) filters) then []
    else call pr [styled name_style (fst e); plain (lit "--")] NL false
         ++ call pr [plain INDENT; plain (lit "default:"); styled default_style (l_value (snd e))] NL false
         ++ match l_doc (snd e) with
            | Some d => call pr [plain INDENT; plain d] NL false
            | None => []
            end)
    (sort_names leaves).

(** ** slash list-plugins *)

(** frontend/slash_list_plugins.py:10 *)
Definition title_style : str := sgr "37" ++ sgr "1".
(** frontend/slash_list_plugins.py:11 *)
Definition disabled_style : str := sgr "30" ++ sgr "1".
(** frontend/slash_list_plugins.py:12 *)
Definition enabled_style : str := sgr "32".

(** get_installed_plugins(include_internals=False).values(), plugins/plugin_manager.py:77-83 *)
Definition listed (s : pm) : list plugin :=
  map (fun e => fst (snd e)) (filter (fun e => negb (snd (snd e))) (installed s)).

Section Plug.
(** plugin.__doc__.splitlines(); no line for a plugin without documentation *)
Variable doc : plugin -> list str.

(** the loop of slash_list_plugins, frontend/slash_list_plugins.py:32-45; None: the KeyError
    of get_future_active_plugins *)
Definition list_plugins (force color tty : bool) (s : pm) : option (list write) :=
  let pr := mkPrinter true force color tty in
  match get_future_active s with
  | None => None
  | Some active =>
      Some (flat_map (fun e =>
        let name := p_name (snd e) in
        let norm := normalize name in
        call pr [styled title_style name] (lit " ") false
        ++ (if s_mem name active
            then call pr [styled enabled_style (lit "active (use --without-" ++ norm ++ lit " to deactivate")] NL false
            else call pr [styled disabled_style (lit "inactive (use --with-" ++ norm ++ lit " to activate)")] NL false)
        ++ flat_map (fun line =>
             match strip line with
             | [] => []
             | l => call pr [plain TAB; plain l] NL false
             end) (doc (snd e)))
        (sort_names (map (fun p => (p_name p, p)) (listed s))))
  end.
End Plug.
