(** Model of the options of plugins on the command line: utils/cli_utils.py:28-55, 61-66 and utils/conf_utils.py:41-75, on top of the
    plugin manager (Plugins.v) and of the names of plugins in the configuration (PluginConf.v).

    A parser of argparse (outside /repo) is the options added to it directly and its groups of options, each with a title; an option
    string that is taken already, by the parser or by any of its groups, is refused with ArgumentError.  Not modelled: destinations,
    metavars and help texts, option strings that do not start with a dash, plugins whose configure_argument_parser does
    anything but add options. *)

From Coq Require Import List Bool Arith Ascii String.
From Verif Require Import Str Plugins PluginConf.
Import ListNotations.

(** a parser of argparse: the option strings in the order they were added, the groups with their titles and option strings; no code of /repo, used by utils/cli_utils.py:28-55 *)
Record parser := mkParser { direct : list str; groups : list (str * list str) }.

(** the option strings taken; argparse, no code of /repo *)
Definition taken (p : parser) : list str := direct p ++ List.concat (map snd (groups p)).

(** change of an element of a list; no code of /repo *)
Fixpoint update {A} (i : nat) (f : A -> A) (l : list A) : list A :=
  match l, i with
  | [], _ => []
  | x :: l', O => f x :: l'
  | x :: l', S i' => x :: update i' f l'
  end.

(** where options are added: to the parser, or to one of its groups; utils/cli_utils.py:46-54 *)
Inductive target := Direct | Group (i : nat).

(** what is raised: the option is taken (argparse); path.split('.')[1] without a second part (utils/cli_utils.py:48) *)
Inductive oerr := Taken (f : str) | NoPart.

(** add_argument of argparse, no code of /repo *)
Definition add_argument (t : target) (f : str) (p : parser) : parser * option oerr :=
  if s_mem f (taken p) then (p, Some (Taken f)) else
  (match t with
   | Direct => mkParser (direct p ++ [f]) (groups p)
   | Group i => mkParser (direct p) (update i (fun g => (fst g, snd g ++ [f])) (groups p))
   end, None).

(** several options in turn; utils/conf_utils.py:45-70 *)
Fixpoint add_arguments (t : target) (fs : list str) (p : parser) : parser * option oerr :=
  match fs with
  | [] => (p, None)
  | f :: fs' => match add_argument t f p with
                | (p1, None) => add_arguments t fs' p1
                | (p1, e) => (p1, e)
                end
  end.

(** add_argument_group of argparse, no code of /repo *)
Definition add_group (title : str) (p : parser) : parser * nat :=
  (mkParser (direct p) (groups p ++ [(title, [])]), List.length (groups p)).

(** Cmdline, utils/conf_utils.py:19-35 *)
Record cmdline := mkCmdline { c_arg : option str; c_append : option str; c_on : option str; c_off : option str; c_increase : option str; c_decrease : option str }.

(** an argument that may be None; utils/conf_utils.py:46, 53, 72-73 *)
Definition flag (o : option str) : list str := match o with Some f => [f] | None => [] end.

(** configure_parser and _add_arg, utils/conf_utils.py:41-75 *)
Definition configure_parser (c : cmdline) (t : target) (p : parser) : parser * option oerr :=
  add_arguments t (flag (c_arg c) ++ flag (c_append c) ++ flag (c_on c) ++ flag (c_off c) ++ flag (c_increase c) ++ flag (c_decrease c)) p.

(** a leaf of the configuration: its path, the metadata 'cmdline'; utils/cli_utils.py:61-66 *)
Record leaf := mkLeaf { l_path : str; l_cmdline : option cmdline }.

(** utils/cli_utils.py:47 *)
Definition plugin_prefix : str := lit "plugin_config.".

(** the title of a group of options of the configuration, utils/cli_utils.py:51-52 *)
Definition config_title (n : str) : str := lit "options for the " ++ n ++ lit " plugin (--with-" ++ n ++ lit ")".

(** the loop of configure_arg_parser_by_config with _iter_cmdline_config, utils/cli_utils.py:46-55, 61-66; [d]: plugin_groups *)
Fixpoint config_loop (l : list leaf) (d : list (str * nat)) (p : parser) : parser * option oerr :=
  match l with
  | [] => (p, None)
  | x :: l' =>
      match l_cmdline x with
      | None => config_loop l' d p
      | Some c =>
          if starts plugin_prefix (l_path x) then
            match nth_error (split_all "."%char (l_path x)) 1 with
            | None => (p, Some NoPart)
            | Some n =>
                match s_get n d with
                | Some i =>
                    match configure_parser c (Group i) p with
                    | (p1, None) => config_loop l' d p1
                    | (p1, e) => (p1, e)
                    end
                | None =>
                    let (p0, i) := add_group (config_title n) p in
                    match configure_parser c (Group i) p0 with
                    | (p1, None) => config_loop l' (s_set n i d) p1
                    | (p1, e) => (p1, e)
                    end
                end
            end
          else
            match configure_parser c Direct p with
            | (p1, None) => config_loop l' d p1
            | (p1, e) => (p1, e)
            end
      end
  end.

(** configure_arg_parser_by_config, utils/cli_utils.py:35-55 *)
Definition by_config (l : list leaf) (p : parser) : parser * option oerr :=
  match add_argument Direct (lit "-o") p with
  | (p1, None) => config_loop l [] p1
  | (p1, e) => (p1, e)
  end.

Section Plugins.
(** the option strings configure_argument_parser of a plugin adds, plugins/interface.py:51-55 *)
Variable options : nat -> list str.

(** the title of a plugin's group, utils/cli_utils.py:30-32, with normalize_command_line_name, plugins/plugin_manager.py:255-256 *)
Definition plugin_title (p : plugin) (internal : bool) : str :=
  lit "Options for " ++ (if internal then [] else lit "--with-") ++ normalize (p_name p).

(** configure_arg_parser_by_plugins, utils/cli_utils.py:28-33, over the installed plugins (is_internal_plugin: plugins/plugin_manager.py:113-118) *)
Fixpoint by_plugins (l : list (str * (plugin * bool))) (p : parser) : parser * option oerr :=
  match l with
  | [] => (p, None)
  | (_, (pl, internal)) :: l' =>
      let (p0, i) := add_group (plugin_title pl internal) p in
      match add_arguments (Group i) (options (p_id pl)) p0 with
      | (p1, None) => by_plugins l' p1
      | (p1, e) => (p1, e)
      end
  end.
End Plugins.
