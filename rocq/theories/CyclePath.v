(** The error about a cycle of fixtures: which fixtures it names
    (slash/core/fixtures/fixture_store.py:168-195).  The store is that of FixtureGraph.v, whose
    computation does not keep what the error says; names are numbers, the name of the file is not modelled. *)

From Coq Require Import List Bool Arith.
From Verif Require Import Dict FixtureGraph.
Import ListNotations.

(** how the computation ends: the parametrizations, the path of the error, another exception;
    slash/core/fixtures/fixture_store.py:168-195 *)
Inductive outcome := Needed (l : list nat) | Cycle (path : list nat) | Failed (e : exn).

(** the arguments of a fixture are put on the stack, or the path and the argument that is on it already;
    slash/core/fixtures/fixture_store.py:181-187 *)
Fixpoint push_or_path (deps : list dep) (path : list nat) (stack : list (nat * list nat)) : list (nat * list nat) + list nat :=
  match deps with
  | [] => inl stack
  | DParam _ :: deps => push_or_path deps path stack
  | DFix g :: deps => if existsb (Nat.eqb g) path then inr (path ++ [g]) else push_or_path deps path ((g, path ++ [g]) :: stack)
  end.

(** _compute_all_needed_parametrization_ids; slash/core/fixtures/fixture_store.py:168-188 *)
Fixpoint walk (n : nat) (st : store) (stack : list (nat * list nat)) (returned : list nat) : outcome :=
  match n with
  | 0 => Failed NoFuel
  | S n =>
      match stack with
      | [] => Needed returned
      | (f, path) :: rest =>
          match d_get f (fs_memo st) with
          | Some s => walk n st rest (oset_update returned s)
          | None =>
              match d_get f (fs_fixtures st) with
              | None => Failed KeyError
              | Some _ =>
                  let r := match d_get f (fs_resolved st) with Some r => r | None => mkRes [] [] end in
                  match push_or_path (map snd (r_kwargs r)) path rest with
                  | inr path => Cycle path
                  | inl stack => walk n st stack (oset_update returned (r_pids r))
                  end
              end
          end
      end
  end.

(** get_all_needed_fixture_ids of a fixture; slash/core/fixtures/fixture_store.py:146-155 *)
Definition ask (st : store) (f : nat) : outcome :=
  match fs_unresolved st with
  | _ :: _ => Failed UnresolvedFixtureStore
  | [] => match d_get f (fs_memo st) with Some s => Needed s | None => walk (enough st) st [(f, [f])] [] end
  end.

(** the names in the message, in its order (None: KeyError); slash/core/fixtures/fixture_store.py:190-195 *)
Fixpoint shown (st : store) (path : list nat) : option (list nat) :=
  match path with
  | [] => Some []
  | f :: path => match d_get f (fs_fixtures st), shown st path with
                 | Some (d, _), Some l => Some (fd_name d :: l)
                 | _, _ => None end
  end.
