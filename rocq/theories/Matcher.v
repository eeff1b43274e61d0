(** Model of utils/pattern_matching.py and of the filtering in loader.py:40-53,
    228-232.

    The grammar (70-81) is interpreted by pyparsing, which is outside /repo.
    Its behaviour is modelled as pyparsing documents it: elements skip white
    space (blank, tab, newline, return) before matching, [Literal] matches its
    text whatever follows, [Keyword] only if neither neighbour is an identifier
    character, [Word] matches as many of its characters as possible, [|] takes
    the first alternative that matches, and [infixNotation] builds one level
    per operator, the base level being [matcher | "(" bool_expr ")"].
    parseString does not require the whole text to be consumed. *)

From Coq Require Import List Bool Arith Ascii String.
From Verif Require Import Str.
Import ListNotations.

(** ** Matchers *)

(** the objects built by the parse actions: Include (utils/pattern_matching.py:12-21), AndMatching and
    OrMatching (37-58), Exclude (61-64) *)
Inductive matcher :=
| Include (only_tags : bool) (pattern : str)
| AndM (ms : list matcher)
| OrM (ms : list matcher)
| Exclude (m : matcher).

(** the value of a tag: NOTHING or a value, of which only str(value) matters;
    core/tagging.py:34, 94-98 *)
Definition tagval := option str.

(** what of a test's metadata filters look at: [tags] (None for NO_TAGS,
    core/tagging.py:113-129; else the dict of Tags) and [address] *)
Record metadata := mkMeta { md_tags : option (list (str * tagval)); md_address : str }.

(** dict.get on the tags, tagging.py:91-92, 97 *)
Fixpoint tag_get (k : str) (l : list (str * tagval)) : option tagval :=
  match l with
  | [] => None
  | (k', v) :: l' => if str_eqb k k' then Some v else tag_get k l'
  end.

(** Tags.matches_pattern, tagging.py:94-107, and _NoTags.matches_pattern, 122-123 *)
Definition tags_match (tags : option (list (str * tagval))) (pattern : str) (exact : bool) : bool :=
  match tags with
  | None => false
  | Some l =>
      match split1 "="%char pattern with
      | Some (key, predicate) =>
          match tag_get key l with
          | Some (Some v) => str_eqb v predicate
          | _ => false
          end
      | None => existsb (fun kv => if exact then str_eqb pattern (fst kv) else contains pattern (fst kv)) l
      end
  end.

(** matches: Include utils/pattern_matching.py:23-31 (of metadata; exact = only_tags, 15-20), BinaryMatching
    48-50 with all/any, Exclude 66-67 *)
Fixpoint matches (m : matcher) (md : metadata) : bool :=
  match m with
  | Include only_tags p =>
      if tags_match (md_tags md) p only_tags then true
      else if only_tags then false
      else contains p (md_address md)
  | AndM ms => forallb (fun m => matches m md) ms
  | OrM ms => existsb (fun m => matches m md) ms
  | Exclude m => negb (matches m md)
  end.

(** matches of a plain string, utils/pattern_matching.py:24-25: Include looks for the pattern in it *)
Fixpoint matches_str (m : matcher) (s : str) : bool :=
  match m with
  | Include _ p => contains p s
  | AndM ms => forallb (fun m => matches_str m s) ms
  | OrM ms => existsb (fun m => matches_str m s) ms
  | Exclude m => negb (matches_str m s)
  end.

(** ** The grammar *)

(** a Python operation, no code of /repo *)
Definition between (a b : ascii) (c : ascii) : bool :=
  Nat.leb (nat_of_ascii a) (nat_of_ascii c) && Nat.leb (nat_of_ascii c) (nat_of_ascii b).

(** pyparsing's alphanums; pyparsing, outside /repo; used by pattern_matching.py:70-81 *)
Definition alphanum (c : ascii) : bool :=
  between "a" "z" c || between "A" "Z" c || between "0" "9" c.

(** the characters of [word], utils/pattern_matching.py:70 *)
Definition word_char (c : ascii) : bool :=
  alphanum c || existsb (Ascii.eqb c) (lit "._,-=/:").

(** Keyword.DEFAULT_KEYWORD_CHARS; pyparsing, outside /repo; used by pattern_matching.py:70-81 *)
Definition ident_char (c : ascii) : bool := alphanum c || existsb (Ascii.eqb c) (lit "_$").

(** the white space skipped before every element; pyparsing, outside /repo; used by pattern_matching.py:70-81 *)
Definition blank (c : ascii) : bool :=
  let n := nat_of_ascii c in Nat.eqb n 32 || Nat.eqb n 9 || Nat.eqb n 10 || Nat.eqb n 13.

(** position in the text: the character before it (a blank at the start) and
    the remaining text; pyparsing, outside /repo; used by pattern_matching.py:70-81 *)
Definition inp := (ascii * str)%type.

(** pyparsing, outside /repo; used by pattern_matching.py:70-81 *)
Fixpoint skip (p : ascii) (s : str) : inp :=
  match s with
  | c :: s' => if blank c then skip c s' else (p, s)
  | [] => (p, [])
  end.

(** the element Literal(w); pyparsing, outside /repo; used by pattern_matching.py:70-81 *)
Definition p_lit (w : str) (i : inp) : option inp :=
  let (p, s) := skip (fst i) (snd i) in
  match strip_prefix w s with
  | Some r => Some (last w p, r)
  | None => None
  end.

(** the element Keyword(w); pyparsing, outside /repo; used by pattern_matching.py:70-81 *)
Definition p_keyword (w : str) (i : inp) : option inp :=
  let (p, s) := skip (fst i) (snd i) in
  match strip_prefix w s with
  | Some r => if ident_char p || match r with c :: _ => ident_char c | [] => false end then None
              else Some (last w p, r)
  | None => None
  end.

(** the longest run of word characters; pyparsing, outside /repo; used by pattern_matching.py:70-81 *)
Fixpoint take (s : str) : str * str :=
  match s with
  | c :: s' => if word_char c then let (w, r) := take s' in (c :: w, r) else ([], s)
  | [] => ([], [])
  end.

(** the element [word], utils/pattern_matching.py:70 *)
Definition p_word (i : inp) : option (str * inp) :=
  let (p, s) := skip (fst i) (snd i) in
  match take s with
  | ([], _) => None
  | (w, r) => Some (w, (last w p, r))
  end.

(** [matcher], utils/pattern_matching.py:71-72, with the parse action Include, 13-21.  ZeroOrMore(" ")
    never matches anything: the blanks are skipped before it tries. *)
Definition p_matcher (i : inp) : option (matcher * inp) :=
  match match p_lit (lit "tag:") i with Some i1 => p_word i1 | None => None end with
  | Some (w, i2) => Some (Include true w, i2)
  | None => match p_word i with
            | Some (w, i2) => Some (Include false w, i2)
            | None => None
            end
  end.

(** outcome of an element: a matcher and the position after it, no match, or
    (never, see MatcherProps) exhausted fuel; pyparsing, outside /repo; used by pattern_matching.py:70-81 *)
Inductive pres := POk (m : matcher) (i : inp) | PFail | PFuel.
(** pyparsing, outside /repo; used by pattern_matching.py:70-81 *)
Inductive prest := ROk (ms : list matcher) (i : inp) | RFuel.

(** the levels of infixNotation, utils/pattern_matching.py:74-81 *)
Inductive level := LBase | LNot | LAnd | LOr.

(** the group of a binary level: one operand gives itself, more give
    AndMatching / OrMatching of the operands, utils/pattern_matching.py:44-46, 78-79 *)
Definition group (mk : list matcher -> matcher) (m : matcher) (ms : list matcher) : matcher :=
  match ms with [] => m | _ => mk (m :: ms) end.

(** one level of infixNotation, utils/pattern_matching.py:74-81.  [more] is OneOrMore(op + operand),
    which stops before an operator not followed by an operand. *)
Fixpoint parse (n : nat) (l : level) (i : inp) {struct n} : pres :=
  match n with
  | O => PFuel
  | S n =>
      match l with
      | LBase =>
          match p_matcher i with
          | Some (m, i') => POk m i'
          | None =>
              match p_lit (lit "(") i with
              | Some i1 =>
                  match parse n LOr i1 with
                  | POk m i2 => match p_lit (lit ")") i2 with Some i3 => POk m i3 | None => PFail end
                  | r => r
                  end
              | None => PFail
              end
          end
      | LNot =>
          match p_keyword (lit "not") i with
          | Some i1 =>
              match parse n LNot i1 with
              | POk m i2 => POk (Exclude m) i2
              | PFail => parse n LBase i
              | PFuel => PFuel
              end
          | None => parse n LBase i
          end
      | LAnd =>
          match parse n LNot i with
          | POk m i1 => match more n LNot (lit "and") i1 with
                        | ROk ms i2 => POk (group AndM m ms) i2
                        | RFuel => PFuel
                        end
          | r => r
          end
      | LOr =>
          match parse n LAnd i with
          | POk m i1 => match more n LAnd (lit "or") i1 with
                        | ROk ms i2 => POk (group OrM m ms) i2
                        | RFuel => PFuel
                        end
          | r => r
          end
      end
  end
with more (n : nat) (l : level) (op : str) (i : inp) {struct n} : prest :=
  match n with
  | O => RFuel
  | S n =>
      match p_lit op i with
      | None => ROk [] i
      | Some i1 =>
          match parse n l i1 with
          | POk m i2 => match more n l op i2 with
                        | ROk ms i3 => ROk (m :: ms) i3
                        | RFuel => RFuel
                        end
          | PFail => ROk [] i
          | PFuel => RFuel
          end
      end
  end.

(** Matcher.__init__, utils/pattern_matching.py:84-87: bool_expr.parseString(pattern)[0]; None is
    ParseException.  The fuel suffices for every text (MatcherProps). *)
Definition fuel_for (s : str) : nat := 8 * List.length s + 8.

(** Matcher, pattern_matching.py:84-93 *)
Definition parse_filter (s : str) : option matcher :=
  match parse (fuel_for s) LOr (" "%char, s) with
  | POk m _ => Some m
  | _ => None
  end.

(** ** Filters of a session *)

(** [Matcher(s) for s in filter_strings], loader.py:44-53; None: ParseException *)
Fixpoint parse_all (l : list str) : option (list matcher) :=
  match l with
  | [] => Some []
  | s :: l' => match parse_filter s, parse_all l' with
               | Some m, Some ms => Some (m :: ms)
               | _, _ => None
               end
  end.

(** Loader._is_excluded, loader.py:228-232; the matchers are None when there are no
    filter strings *)
Definition is_excluded (matchers : option (list matcher)) (md : metadata) : bool :=
  match matchers with
  | None => false
  | Some ms => negb (forallb (fun m => matches m md) ms)
  end.
