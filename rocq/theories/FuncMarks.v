(** Marks on functions: slash/utils/function_marker.py and slash/core/markers.py.

    Python's attributes are a function from objects and names to values, with the
    lookup rules for functions, classes (own attributes, then those of the bases in
    the order of the MRO) and bound methods (the attributes of the function).  Not
    modelled: objects with their own attribute protocol. *)

From Coq Require Import List Bool Arith.
From Verif Require Import Str.
Import ListNotations.

(** an object that is given to a marker: a function, a class with the rest of its MRO,
    a classmethod or staticmethod object over a function, a bound method of a
    function, a thing that cannot be called; slash/utils/function_marker.py:22 and :46 *)
Inductive kind := Fn | Cls (mro : list nat) | Method (f : nat) | Bound (f : nat) | Thing.

(** the value of a mark: anything, or a list of values (append markers);
    slash/utils/function_marker.py:27-30 *)
Inductive val := Any (n : nat) | Vals (l : list val) | TheObject (o : nat).

(** the attributes of all objects that marks use: object, name of the marker; the name
    of the attribute is a one-to-one image of it; slash/utils/function_marker.py:18 *)
Definition attrs := nat -> str -> option val.

(** Marker: the name, the value, append; slash/utils/function_marker.py:14-19 *)
Record marker := mkMarker { mk_name : str; mk_value : val; mk_append : bool }.

(** function_marker and append_function_marker; slash/utils/function_marker.py:6-10; the
    value True is [Any 1] *)
Definition function_marker (name : str) : marker := mkMarker name (Any 1) false.
(** slash/utils/function_marker.py:9-10 *)
Definition append_function_marker (name : str) : marker := mkMarker name (Any 1) true.

Section Heap.
(** the kinds of the objects; no code of /repo *)
Variable kinds : nat -> kind.

(** the first of a list of objects that has the attribute; Python's lookup along the MRO *)
Fixpoint first_of (l : list nat) (n : str) (a : attrs) : option val :=
  match l with [] => None | o :: l => match a o n with Some v => Some v | None => first_of l n a end end.

(** getattr; Python's *)
Definition getattr (a : attrs) (o : nat) (n : str) : option val :=
  match kinds o with
  | Cls mro => first_of (o :: mro) n a
  | Bound f => a f n
  | _ => a o n
  end.

(** setattr: not possible on a bound method; Python's *)
Definition setattr (a : attrs) (o : nat) (n : str) (v : val) : option attrs :=
  match kinds o with
  | Bound _ => None
  | _ => Some (fun o' n' => if Nat.eqb o' o && str_eqb n' n then Some v else a o' n')
  end.

(** _normalize; slash/utils/function_marker.py:44-48 and slash/utils/python.py:134-135 *)
Definition normalize (o : nat) : nat := match kinds o with Method f => f | _ => o end.

(** what the call of a marker does: a new marker; a marked object; an exception
    (AttributeError: nothing can be set; TypeError: the value before is no list); utils/function_marker.py:20-33 *)
Inductive outcome := NewMarker (m : marker) | Marked (o : nat) (a : attrs) | Raised.

(** __call__; slash/utils/function_marker.py:21-33 *)
Definition call (m : marker) (o : nat) (a : attrs) : outcome :=
  match kinds o with
  | Thing => NewMarker (mkMarker (mk_name m) (TheObject o) (mk_append m))
  | _ =>
      let f := normalize o in
      let value :=
        if mk_append m
        then match getattr a f (mk_name m) with
             | None => Some (Vals [mk_value m])
             | Some (Vals l) => Some (Vals (l ++ [mk_value m]))
             | Some _ => None
             end
        else Some (mk_value m) in
      match value with
      | None => Raised
      | Some v => match setattr a f (mk_name m) v with Some a => Marked f a | None => Raised end
      end
  end.

(** is_marked; slash/utils/function_marker.py:35-36 *)
Definition is_marked (m : marker) (o : nat) (a : attrs) : bool :=
  match getattr a (normalize o) (mk_name m) with Some _ => true | None => false end.

(** get_value: [None] is LookupError; slash/utils/function_marker.py:38-42 *)
Definition get_value (m : marker) (o : nat) (default : option val) (a : attrs) : option val :=
  match getattr a (normalize o) (mk_name m) with Some v => Some v | None => default end.

(** functools.wraps: the attributes of the wrapped function are set on the new one, a
    new object; slash/utils/python.py:36-40 *)
Definition wraps (new old : nat) (a : attrs) : attrs :=
  fun o n => if Nat.eqb o new then match a old n with Some v => Some v | None => a new n end else a o n.

End Heap.
