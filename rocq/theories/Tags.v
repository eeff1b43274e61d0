(** Model of core/tagging.py (the pattern matching of tags is in Matcher.v) and
    of the places that combine tags: runnable_test.py:55-59, function_test.py:
    18-22, test.py:76-82, fixtures/fixture.py:30-36, variation.py:39-44.
    Tag names and values are numbers; [None] as a value is NOTHING, the value of
    a tag given without one. *)

From Coq Require Import List Bool Arith.
From Verif Require Import Dict.
Import ListNotations.

(** tag values, tagging.py:34 *)
Definition tval := option nat.

(** a Tags object's dict, core/tagging.py:44-49, or NO_TAGS, 113-129 *)
Definition tags := option (dict tval).

(** a Python operation, no code of /repo *)
Definition tval_eqb (a b : tval) : bool :=
  match a, b with
  | None, None => true
  | Some x, Some y => Nat.eqb x y
  | _, _ => false
  end.

(** [self.get(name, NOTHING) not in (value, NOTHING)], core/tagging.py:28, 67 *)
Definition conflicting (self : dict tval) (name : nat) (value : tval) : bool :=
  match d_get name self with
  | Some (Some v) => negb (tval_eqb (Some v) value)
  | _ => false
  end.

(** _check_conflicting_tags, core/tagging.py:62-72: true is TaggingConflict *)
Definition check_conflicts (self other : dict tval) : bool :=
  existsb (fun kv => conflicting self (fst kv) (snd kv)) other.

(** __add__ of Tags, core/tagging.py:74-80, and of _NoTags, 117-118; None is TaggingConflict *)
Definition tags_add (a b : tags) : option tags :=
  match a, b with
  | None, _ => Some b
  | Some _, None => Some a
  | Some d, Some d' => if check_conflicts d d' then None else Some (Some (d_update d d'))
  end.

(** update of Tags, core/tagging.py:85-89 *)
Definition tags_update (d : dict tval) (b : tags) : option (dict tval) :=
  match b with
  | None => Some d
  | Some d' => if check_conflicts d d' then None else Some (d_update d d')
  end.

(** sums may raise; plumbing of the model, no code of its own *)
Definition bind {A B} (x : option A) (f : A -> option B) : option B :=
  match x with Some a => f a | None => None end.

(** Variation.tags, variation.py:39-44: the tags of the chosen parameter values
    (parameters.py:150-151, 180-191) *)
Fixpoint update_all (d : dict tval) (l : list tags) : option (dict tval) :=
  match l with
  | [] => Some d
  | t :: l' => bind (tags_update d t) (fun d => update_all d l')
  end.

(** variation.py:39-44 *)
Definition variation_tags (params : list tags) : option tags :=
  bind (update_all [] params) (fun d => Some (Some d)).

(** a fixture: its own tags and the fixtures it requires (the dependency graph
    is acyclic, see the fixture model, and is unfolded here); fixtures/fixture.py:30-36 *)
Inductive fx := Fx (own : tags) (required : list fx).

(** Fixture.get_tags, fixture.py:30-36 *)
Fixpoint fixture_tags (f : fx) : option tags :=
  match f with
  | Fx own required =>
      let returned := match own with Some d => d | None => [] end in
      bind ((fix all l := match l with
                          | [] => Some []
                          | f :: l' => bind (fixture_tags f) (fun t => bind (all l') (fun ts => Some (t :: ts)))
                          end) required)
           (fun ts => bind (update_all returned ts) (fun d => Some (Some d)))
  end.

(** RunnableTest._get_fixture_tags, runnable_test.py:55-59 *)
Definition sum_fixture_tags (fs : list fx) : option tags :=
  fold_left (fun acc f => bind acc (fun t => bind (fixture_tags f) (fun t' => tags_add t t'))) fs (Some None).

(** FunctionTest.get_tags, function_test.py:18-22 *)
Definition function_test_tags (func : tags) (params : list tags) (nofixtures : bool) (fs : list fx) : option tags :=
  bind (variation_tags params) (fun v =>
  bind (tags_add func v) (fun t =>
  if nofixtures then Some t else bind (sum_fixture_tags fs) (fun ft => tags_add t ft))).

(** Test.get_tags, test.py:76-82 *)
Definition method_test_tags (cls meth : tags) (params : list tags) (nofixtures : bool) (fs : list fx) : option tags :=
  bind (tags_add cls meth) (fun cm =>
  bind (variation_tags params) (fun v =>
  bind (tags_add cm v) (fun t =>
  if nofixtures then Some t else bind (sum_fixture_tags fs) (fun ft => tags_add t ft)))).

(** ** Tagging objects *)

Section Heap.
(** attribute lookup order of a taggable object: a function has only itself, a
    class its method resolution order (starting with itself) *)
Variable mro : nat -> list nat.

(** own __slash_tags__ attributes (references) and the Tags objects they refer to; tagging.py:23-32 *)
Record heap := mkHeap { h_own : dict nat; h_obj : dict (dict tval); h_next : nat }.

(** getattr(test, _TAGS_NAME, NO_TAGS), tagging.py:40-41 *)
Fixpoint find_attr (h : heap) (l : list nat) : option nat :=
  match l with
  | [] => None
  | c :: l' => match d_get c (h_own h) with Some r => Some r | None => find_attr h l' end
  end.

(** tagging.py:40-41 *)
Definition get_tags (h : heap) (o : nat) : tags :=
  match find_attr h (mro o) with
  | Some r => d_get r (h_obj h)
  | None => None
  end.

(** tag_test, core/tagging.py:23-31: returns, raises TaggingConflict, or (never, see TagsProps)
    follows a reference to nothing *)
Inductive tagged := Tagged | Conflict | Dangling.

(** tagging.py:23-32 *)
Definition tag_test (o name : nat) (value : tval) (h : heap) : heap * tagged :=
  let (r, h) := match find_attr h (mro o) with
                | Some r => (r, h)
                | None => (h_next h, mkHeap (d_set o (h_next h) (h_own h)) (d_set (h_next h) [] (h_obj h)) (S (h_next h)))
                end in
  match d_get r (h_obj h) with
  | None => (h, Dangling)
  | Some d => if conflicting d name value then (h, Conflict)
              else (mkHeap (h_own h) (d_set r (d_set name value d) (h_obj h)) (h_next h), Tagged)
  end.

(** nothing is tagged yet *)
Definition heap0 : heap := mkHeap [] [] 0.

(** a sequence of decorations; plumbing of the model, no code of its own *)
Fixpoint tag_all (l : list (nat * nat * tval)) (h : heap) : heap :=
  match l with
  | [] => h
  | (o, name, value) :: l' => tag_all l' (fst (tag_test o name value h))
  end.
End Heap.
