(** One path traced with rays and with Gaussian beams: the shared one-place cache of groups (matrixgroup.py 430-443), the identity of
    the beam objects and of the lists that are returned.  Store.v has the same cache for rays only, with lists as values. *)
From Coq Require Import ZArith List Bool String.
From Verif Require Import Base Optics Store Beam.
Import ListNotations.
Open Scope list_scope.

Section Model.
Context {T : Type} {N : Num T}.
Local Notation mat := (@mat T).
Local Notation kind := (@kind T).
Local Notation gkind := (@gkind T).
Local Notation elem := (@elem T).
Local Notation heap := (@heap T).
Local Notation beam := (@beam T).

(** a ray object or a beam object *)
Inductive light := LRay (i : nat) | LBeam (i : nat).
(** the objects of a session: rays, beams and the lists returned by trace() *)
Record world := mkWorld { wr : heap; wb : list beam; wl : list (list light) }.
Definition bget (w : world) (i : nat) : beam := nth i (wb w) (mkBeam (cof c0) c0 c0 c0 false).
Definition lget (w : world) (i : nat) : list light := nth i (wl w) [].
Definition new_list (w : world) (l : list light) : nat * world := (List.length (wl w), mkWorld (wr w) (wb w) (wl w ++ [l])).
Definition new_beam (w : world) (b : beam) : nat * world := (List.length (wb w), mkWorld (wr w) (wb w ++ [b]) (wl w)).

(** matrixgroup.py 19-36: elements, _lastRayToBeTraced and _lastRayTrace *)
Inductive mobj :=
| MLeaf (k : kind) (m : mat)
| MGroup (gk : gkind) (m : mat) (kids : list nat) (cache : option (light * nat)).
Definition mstore := list mobj.
(** the element an object stands for (as [tree] in Store.v) *)
Fixpoint mtree (fuel : nat) (s : mstore) (i : nat) : option elem :=
  match fuel with
  | O => None
  | S fuel =>
      match nth_error s i with
      | None => None
      | Some (MLeaf k m) => Some (Leaf k m)
      | Some (MGroup gk m kids _) =>
          match all_some (mtree fuel s) kids with
          | None => None
          | Some es => Some (Group gk m es)
          end
      end
  end.

(** matrixgroup.py 433: ray != self._lastRayToBeTraced.  Rays compare their height and angle now (ray.py 258-268), a ray is never
    equal to a beam, GaussianBeam has no __eq__: beams are equal when they are the same object *)
Definition hit (w : world) (x : light) (cache : option (light * nat)) : option nat :=
  match cache, x with
  | Some (LRay j, l), LRay i => if ray_eq (hget (wr w) i) (hget (wr w) j) then Some l else None
  | Some (LBeam j, l), LBeam i => if Nat.eqb i j then Some l else None
  | _, _ => None
  end.
Definition set_mcache (s : mstore) (i : nat) (x : light) (l : nat) : mstore :=
  match nth_error s i with
  | Some (MGroup gk m kids _) => set_nth i (MGroup gk m kids (Some (x, l))) s
  | _ => s
  end.
(** matrix.py 655-666: the trace of one element, a new list *)
Definition mleaf (k : kind) (m : mat) (x : light) (w : world) : world * res nat :=
  match x with
  | LRay i =>
      let (tr, h) := trace_leaf k m i (wr w) in
      let (l, w') := new_list (mkWorld h (wb w) (wl w)) (map LRay tr) in (w', Ok l)
  | LBeam i =>
      match leaf_beam k m (bget w i) with
      | Err e => (w, Err e)
      | Ok b => let (j, w1) := new_beam w b in let (l, w2) := new_list w1 [LBeam j] in (w2, Ok l)
      end
  end.
Section Loop.
  Variable trace1 : mstore -> nat -> light -> world -> mstore * world * res nat.
  (** matrixgroup.py 434-438; [-1] of an empty list raises IndexError *)
  Fixpoint mloop (s : mstore) (kids : list nat) (cur : light) (acc : list light) (w : world) : mstore * world * res (list light) :=
    match kids with
    | [] => (s, w, Ok acc)
    | i :: t =>
        match trace1 s i cur w with
        | (s1, w1, Err e) => (s1, w1, Err e)
        | (s1, w1, Ok l) =>
            match lget w1 l with
            | [] => (s1, w1, Err IndexError)
            | a :: r => mloop s1 t (List.last (a :: r) cur) (acc ++ a :: r) w1
            end
        end
    end.
End Loop.
(** matrixgroup.py 430-443; the number of the list returned *)
Fixpoint mtrace (fuel : nat) (s : mstore) (i : nat) (x : light) (w : world) : mstore * world * res nat :=
  match fuel with
  | O => (s, w, Err OutOfFuel)
  | S fuel =>
      match nth_error s i with
      | None => (s, w, Err OutOfFuel)
      | Some (MLeaf k m) => let (w', r) := mleaf k m x w in (s, w', r)
      | Some (MGroup gk m kids cache) =>
          match hit w x cache with
          | Some l => (s, w, Ok l)
          | None =>
              match mloop (mtrace fuel) s kids x [x] w with
              | (s1, w1, Err e) => (s1, w1, Err e)
              | (s1, w1, Ok tr) => let (l, w2) := new_list w1 tr in (set_mcache s1 i x l, w2, Ok l)
              end
          end
      end
  end.
(** a session: calls of trace() on any objects, with any rays and beams *)
Fixpoint msession (fuel : nat) (s : mstore) (w : world) (calls : list (nat * light)) : mstore * world * list (res nat) :=
  match calls with
  | [] => (s, w, [])
  | (i, x) :: t =>
      match mtrace fuel s i x w with
      | (s1, w1, r) => match msession fuel s1 w1 t with (s2, w2, rs) => (s2, w2, r :: rs) end
      end
  end.
End Model.
Arguments world : clear implicits.
Arguments mobj : clear implicits.
Arguments mstore : clear implicits.
