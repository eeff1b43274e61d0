(** Model of utils/traceback_proxy.py: tracebacks made and linked by writing into their memory, with the reference counts of all
    objects.  The memory of CPython is a list of objects; an object is known by its place.

    Simplified: objects whose count gets 0 keep their place and their fields (what CPython frees, and when, is not modelled);
    references of the variable tb of create_traceback_proxy are left out.  Not modelled: PyPy, 32 bit counts, printing. *)

From Coq Require Import List Bool Arith ZArith.
Import ListNotations.

(** the objects: a frame (the references of its variables, f_lasti, f_lineno), a traceback (the four fields of
    utils/traceback_proxy.py:62-67), a TracebackProxy (its _tb, utils/traceback_proxy.py:71), anything else *)
Inductive obj :=
| OFrame (locals : list nat) (lasti lineno : nat)
| OTb (next frame : option nat) (lasti lineno : nat)
| OProxy (tb : nat)
| OOther.

(** a reference that may be NULL; plumbing of the model, no code of its own *)
Definition opt (o : option nat) : list nat := match o with Some i => [i] | None => [] end.
(** the references an object has; Python's, utils/traceback_proxy.py:62-67, 71 *)
Definition children (o : obj) : list nat :=
  match o with
  | OFrame l _ _ => l
  | OTb n f _ _ => opt n ++ opt f
  | OProxy t => [t]
  | OOther => []
  end.

(** the objects, ob_refcnt of each (utils/traceback_proxy.py:41, 46), and the references running code has *)
Record state := mkState { objs : list obj; count : nat -> Z; held : list nat }.

(** how a call ends; Stuck: it is given something it is never given *)
Inductive outcome := Done | Assertion | IndexErr | Stuck.

(** the object at an address; plumbing of the model, no code of its own *)
Definition at_ (s : state) (i : nat) : option obj := nth_error (objs s) i.
(** writing an object; plumbing of the model, no code of its own *)
Fixpoint put_nth (i : nat) (o : obj) (l : list obj) : list obj :=
  match l, i with
  | [], _ => []
  | _ :: l', 0 => o :: l'
  | x :: l', S j => x :: put_nth j o l'
  end.
(** the same; plumbing of the model, no code of its own *)
Definition put (i : nat) (o : obj) (s : state) : state := mkState (put_nth i o (objs s)) (count s) (held s).
(** ob_refcnt += z, utils/traceback_proxy.py:94, 99, 112, 116 *)
Definition add (i : nat) (z : Z) (s : state) : state :=
  mkState (objs s) (fun j => if Nat.eqb j i then (count s j + z)%Z else count s j) (held s).
(** running code gets a reference; Python's *)
Definition hold (i : nat) (s : state) : state :=
  let s := add i 1 s in mkState (objs s) (count s) (i :: held s).
(** one occurrence less; plumbing of the model, no code of its own *)
Fixpoint remove1 (i : nat) (l : list nat) : list nat :=
  match l with [] => [] | j :: l' => if Nat.eqb i j then l' else j :: remove1 i l' end.
(** running code gives a reference up; Python's *)
Definition drop (i : nat) (s : state) : state :=
  let s := add i (-1) s in mkState (objs s) (count s) (remove1 i (held s)).

(** the traceback a traceback or a proxy reads its attributes from, utils/traceback_proxy.py:86-88, 104-106, 121-123, 129-131; a proxy
    says it is a traceback (151-153) *)
Definition real (s : state) (i : nat) : option nat :=
  match at_ s i with Some (OTb _ _ _ _) => Some i | Some (OProxy t) => Some t | _ => None end.
(** tb_next, tb_frame, tb_lasti, tb_lineno of a traceback or a proxy, utils/traceback_proxy.py:86-88, 104-106, 121-123, 129-131 *)
Definition fields (s : state) (i : nat) : option (option nat * option nat * nat * nat) :=
  match real s i with
  | Some t => match at_ s t with Some (OTb n f a b) => Some (n, f, a, b) | _ => None end
  | None => None
  end.
(** isinstance(tb, (TracebackType, TracebackProxy)), utils/traceback_proxy.py:96 *)
Definition is_tb (s : state) (i : nat) : bool := match real s i with Some _ => true | None => false end.
(** isinstance(frame, FrameType), utils/traceback_proxy.py:114 *)
Definition is_frame (s : state) (i : nat) : bool := match at_ s i with Some (OFrame _ _ _) => true | _ => false end.

(** create_traceback, utils/traceback_proxy.py:143-149: the new traceback has the frame of this call, whose variable tb is the
    traceback; the reference that is returned is held *)
Definition create_traceback (s : state) : state * nat :=
  let f := length (objs s) in
  let t := S f in
  (mkState (objs s ++ [OFrame [t] 0 0; OTb None (Some f) 0 0])
     (fun j => if Nat.eqb j f then 1%Z else if Nat.eqb j t then 2%Z else count s j) (t :: held s), t).

(** tb_next = v of proxy p, utils/traceback_proxy.py:90-102 *)
Definition set_next (p : nat) (v : option nat) (s : state) : state * outcome :=
  match at_ s p with
  | Some (OProxy t) =>
      match at_ s t with
      | Some (OTb n f a b) =>
          let s1 := match n with Some o => add o (-1) s | None => s end in
          match v with
          | None => (put t (OTb None f a b) s1, Done)
          | Some w => if is_tb s w then (put t (OTb (Some w) f a b) (add w 1 s1), Done) else (s1, Assertion)
          end
      | _ => (s, Stuck)
      end
  | _ => (s, Stuck)
  end.

(** tb_frame = v of proxy p, utils/traceback_proxy.py:108-119 *)
Definition set_frame (p : nat) (v : option nat) (s : state) : state * outcome :=
  match at_ s p with
  | Some (OProxy t) =>
      match at_ s t with
      | Some (OTb n f a b) =>
          let s1 := match f with Some o => add o (-1) s | None => s end in
          match v with
          | None => (put t (OTb n None a b) s1, Done)
          | Some w => if is_frame s w then (put t (OTb n (Some w) a b) (add w 1 s1), Done) else (s1, Assertion)
          end
      | _ => (s, Stuck)
      end
  | _ => (s, Stuck)
  end.

(** tb_lasti = a; tb_lineno = b, utils/traceback_proxy.py:125-127, 133-135 *)
Definition set_numbers (p a b : nat) (s : state) : state * outcome :=
  match at_ s p with
  | Some (OProxy t) => match at_ s t with Some (OTb n f _ _) => (put t (OTb n f a b) s, Done) | _ => (s, Stuck) end
  | _ => (s, Stuck)
  end.

(** one after the other; plumbing of the model, no code of its own *)
Definition andthen (r : state * outcome) (g : state -> state * outcome) : state * outcome :=
  match r with (s, Done) => g s | _ => r end.

(** TracebackProxy(tb=tb) and TracebackProxy(frame=frame), utils/traceback_proxy.py:69-81; None: the assertion of 70.  The new proxy
    is held: it takes over the reference create_traceback returned. *)
Inductive source := FromTb (t : option nat) | FromFrame (f : nat).
(** the same, utils/traceback_proxy.py:69-81 *)
Definition new_proxy (src : source) (s : state) : state * outcome * nat :=
  match src with
  | FromTb None => (s, Assertion, 0)
  | _ =>
      let '(s1, t) := create_traceback s in
      let p := length (objs s1) in
      let s2 := mkState (objs s1 ++ [OProxy t]) (fun j => if Nat.eqb j p then 1%Z else count s1 j) (p :: held s) in
      let r := andthen (set_next p None s2) (fun s3 =>
        match src with
        | FromTb None => (s3, Stuck)
        | FromTb (Some tb) =>
            match fields s3 tb with
            | Some (_, f, a, b) => andthen (set_frame p f s3) (set_numbers p a b)
            | None => (s3, Stuck)
            end
        | FromFrame f =>
            match at_ s3 f with
            | Some (OFrame _ a b) => andthen (set_frame p (Some f) s3) (set_numbers p a b)
            | _ => (s3, Stuck)
            end
        end) in
      (r, p)
  end.

(** tb.tb_next; None for None, which the code asks only after having made a proxy of tb, utils/traceback_proxy.py:167, 170 *)
Definition next_of (s : state) (t : nat) : option nat :=
  match fields s t with Some (n, _, _, _) => n | None => None end.

(** first and current; plumbing of the model, no code of its own *)
Definition result := (state * outcome * (nat * nat))%type.

(** for i in range(frame_correction + 1): utils/traceback_proxy.py:165-167; [prev]: what first and current were *)
Fixpoint skip_loop (k : nat) (tb : option nat) (prev : option nat) (s : state) : result * option nat :=
  match new_proxy (FromTb tb) s with
  | (s1, Done, p) =>
      let s2 := hold p s1 in
      let s3 := match prev with Some q => drop q (drop q s2) | None => s2 end in
      let nx := match tb with Some t => next_of s3 t | None => None end in
      match k with
      | 0 => ((s3, Done, (p, p)), nx)
      | S k' => skip_loop k' nx (Some p) s3
      end
  | (s1, o, _) => ((s1, o, (0, 0)), None)
  end.

(** current.tb_next = TracebackProxy(...); current = current.tb_next, utils/traceback_proxy.py:169-171, 178-179 *)
Definition link (src : source) (current : nat) (s : state) : state * outcome * nat :=
  match new_proxy src s with
  | (s1, Done, p) =>
      match set_next current (Some p) s1 with
      | (s2, Done) =>
          match next_of s2 current with
          | Some c => (drop current (hold c (drop p s2)), Done, c)
          | None => (s2, Stuck, 0)
          end
      | (s2, o) => (s2, o, 0)
      end
  | r => r
  end.

(** while tb: utils/traceback_proxy.py:168-171; Stuck if the traceback has more than [fuel] links left *)
Fixpoint rest_loop (fuel : nat) (tb : option nat) (first current : nat) (s : state) : result :=
  match tb with
  | None => (s, Done, (first, current))
  | Some t =>
      match fuel with
      | 0 => (s, Stuck, (first, current))
      | S fuel' =>
          match link (FromTb (Some t)) current s with
          | (s1, Done, c) => rest_loop fuel' (next_of s1 t) first c s1
          | (s1, o, _) => (s1, o, (first, current))
          end
      end
  end.

(** create_traceback_proxy(tb, frame_correction) for a traceback, utils/traceback_proxy.py:163-171, 181 *)
Definition proxy_of_tb (fuel : nat) (tb : nat) (k : nat) (s : state) : result :=
  match skip_loop k (Some tb) None s with
  | ((s1, Done, (first, current)), nx) => rest_loop fuel nx first current s1
  | (r, _) => r
  end.

(** for frame in frames[1:], utils/traceback_proxy.py:177-179 *)
Fixpoint frames_loop (fs : list nat) (first current : nat) (s : state) : result :=
  match fs with
  | [] => (s, Done, (first, current))
  | f :: fs' =>
      match link (FromFrame f) current s with
      | (s1, Done, c) => frames_loop fs' first c s1
      | (s1, o, _) => (s1, o, (first, current))
      end
  end.

(** create_traceback_proxy(None, frame_correction), utils/traceback_proxy.py:173-181; [stack]: the frames of inspect.stack() without
    that of create_traceback_proxy itself, the innermost first *)
Definition proxy_of_stack (stack : list nat) (k : nat) (s : state) : result :=
  match rev (skipn k stack) with
  | [] => (s, IndexErr, (0, 0))
  | f :: fs =>
      match new_proxy (FromFrame f) s with
      | (s1, Done, p) => frames_loop fs p p (hold p s1)
      | (s1, o, _) => (s1, o, (0, 0))
      end
  end.
