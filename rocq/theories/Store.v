(** Element objects with identity: sharing of elements between paths, the trace cache of groups
    and equality.  Objects are numbers into a store; a group holds the numbers of its elements
    and its last traced ray with the trace returned for it (ray objects are numbers into the
    heap of Optics.v).  Everything else mirrors matrixgroup.py as Group.v does, but on objects. *)
From Coq Require Import ZArith List Bool String.
From Verif Require Import Base Optics.
Import ListNotations.
Open Scope list_scope.

Section Model.
Context {T : Type} {N : Num T}.
Local Notation ray := (@ray T).
Local Notation mat := (@mat T).
Local Notation kind := (@kind T).
Local Notation gkind := (@gkind T).
Local Notation elem := (@elem T).
Local Notation heap := (@heap T).

(** matrix.py 118-163 and subclasses; matrixgroup.py 19-36: elements, _lastRayToBeTraced and
    _lastRayTrace ([None] before the first trace) and the iteration counter *)
Inductive obj :=
| OLeaf (k : kind) (m : mat)
| OGroup (gk : gkind) (m : mat) (kids : list nat) (cache : option (nat * list nat)) (iteration : nat).
Definition store := list obj.

Definition omat (o : obj) : mat := match o with OLeaf _ m => m | OGroup _ m _ _ _ => m end.
Definition oget (s : store) (i : nat) : option obj := nth_error s i.
Definition oset (s : store) (i : nat) (o : obj) : store := set_nth i o s.
(** a new object *)
Definition onew (s : store) (o : obj) : nat * store := (List.length s, s ++ [o]).

(** the element an object stands for: its attributes and those of everything below it; [None]
    if a group contains itself or an element does not exist *)
Fixpoint all_some {A B} (f : A -> option B) (l : list A) : option (list B) :=
  match l with
  | [] => Some []
  | x :: t =>
      match f x, all_some f t with
      | Some y, Some r => Some (y :: r)
      | _, _ => None
      end
  end.
Fixpoint tree (fuel : nat) (s : store) (i : nat) : option elem :=
  match fuel with
  | O => None
  | S fuel =>
      match oget s i with
      | None => None
      | Some (OLeaf k m) => Some (Leaf k m)
      | Some (OGroup gk m kids _ _) =>
          match all_some (tree fuel s) kids with
          | None => None
          | Some es => Some (Group gk m es)
          end
      end
  end.

(** ** Tracing with the cache (matrixgroup.py 404-444) *)
(** ray.py 258-268: rays are equal when height and angle are *)
Definition ray_eq (r r' : ray) : bool := neqb (ry r) (ry r') && neqb (rth r) (rth r').

(** line 433: [Some tr] when the cached trace is returned *)
Definition cached (h : heap) (rid : nat) (cache : option (nat * list nat)) : option (list nat) :=
  match cache with
  | Some (last, tr) => if ray_eq (hget h rid) (hget h last) then Some tr else None
  | None => None
  end.

Definition set_cache (s : store) (i rid : nat) (tr : list nat) : store :=
  match oget s i with
  | Some (OGroup gk m kids _ it) => oset s i (OGroup gk m kids (Some (rid, tr)) it)
  | _ => s
  end.

(** [None]: a group contains itself (Python's recursion limit) or an element does not exist *)
Fixpoint strace (fuel : nat) (s : store) (i rid : nat) (h : heap)
    : option (list nat * store * heap) :=
  match fuel with
  | O => None
  | S fuel =>
      match oget s i with
      | None => None
      | Some (OLeaf k m) => let (tr, h') := trace_leaf k m rid h in Some (tr, s, h')
      | Some (OGroup gk m kids cache it) =>
          match cached h rid cache with
          | Some tr => Some (tr, s, h)
          | None =>
              match
                (fix go (s : store) (l : list nat) (cur : nat) (acc : list nat) (h : heap) :=
                   match l with
                   | [] => Some (acc, s, h)
                   | x :: t =>
                       match strace fuel s x cur h with
                       | None => None
                       | Some (tr, s', h') => go s' t (List.last tr cur) (acc ++ tr) h'
                       end
                   end) s kids rid [rid] h
              with
              | None => None
              | Some (tr, s', h') => Some (tr, set_cache s' i rid tr, h')
              end
          end
      end
  end.

(** the loop of lines 434-438 as a top-level function *)
Fixpoint strace_loop (fuel : nat) (s : store) (l : list nat) (cur : nat) (acc : list nat) (h : heap)
    : option (list nat * store * heap) :=
  match l with
  | [] => Some (acc, s, h)
  | x :: t =>
      match strace fuel s x cur h with
      | None => None
      | Some (tr, s', h') => strace_loop fuel s' t (List.last tr cur) (acc ++ tr) h'
      end
  end.

(** ** Building and modifying groups *)
(** matrixgroup.py 75-76: the Space object itself is changed *)
Definition set_oindex (o : obj) (n : T) : obj :=
  match o with
  | OLeaf k m => OLeaf k (mkMat (mA m) (mB m) (mC m) (mD m) (mL m) (mfv m) (mbv m)
                                n n (mdiam m) (mna m) (mflip m) (mlabel m))
  | OGroup _ _ _ _ _ => o
  end.
Definition is_space_obj (o : obj) : bool := match o with OLeaf KSpace _ => true | _ => false end.

(** an element as seen by the product of lines 316-319, which reads its attributes only (its
    elements are read in line 321, when L is not a finite number; not modelled) *)
Definition shallow (o : obj) : elem :=
  match o with OLeaf k m => Leaf k m | OGroup gk m _ _ _ => Group gk m [] end.

(** matrixgroup.py 70-79 *)
Definition oappend_check (s : store) (kids : list nat) (i : nat) : res store :=
  match oget s i, last_opt kids with
  | None, _ => Err AttributeError
  | Some _, None => Ok s
  | Some o, Some l =>
      match oget s l with
      | None => Err AttributeError
      | Some lo =>
          if neqb (mbi (omat lo)) (mfi (omat o)) then Ok s
          else if is_space_obj o then Ok (oset s i (set_oindex o (mbi (omat lo))))
          else Err ValueError
      end
  end.

(** matrixgroup.py 38-91; the store afterwards and the exception raised *)
Definition oappend (s : store) (g i : nat) : store * option exn :=
  match oget s g with
  | Some (OGroup gk m kids c it) =>
      match oappend_check s kids i with
      | Err x => (s, Some x)
      | Ok s1 =>
          let kids' := kids ++ [i] in
          let s2 := oset s1 g (OGroup gk m kids' c it) in
          match all_some (oget s2) kids' with
          | None => (s2, Some AttributeError)
          | Some os =>
              match group_transfer (map shallow os) ninf with
              | Err x => (s2, Some x)
              | Ok tm => (oset s2 g (OGroup gk (copy_attrs m tm) kids' c it), None)
              end
          end
      end
  | _ => (s, Some AttributeError)
  end.

Fixpoint oappend_all (s : store) (g : nat) (l : list nat) : store * option exn :=
  match l with
  | [] => (s, None)
  | i :: t =>
      match oappend s g i with
      | (s', None) => oappend_all s' g t
      | (s', Some x) => (s', Some x)
      end
  end.

Definition kids_of (s : store) (g : nat) : list nat :=
  match oget s g with Some (OGroup _ _ kids _ _) => kids | _ => [] end.
Definition set_kids (s : store) (g : nat) (kids : list nat) : store :=
  match oget s g with
  | Some (OGroup gk m _ c it) => oset s g (OGroup gk m kids c it)
  | _ => s
  end.

(** matrixgroup.py 174-176 *)
Definition orebuild (s : store) (g : nat) (l : list nat) : store * option exn :=
  oappend_all (set_kids s g []) g l.

(** matrixgroup.py 19-36: a new group of existing elements *)
Definition onew_group (s : store) (l : list nat) : nat * (store * option exn) :=
  match Matrix_init c1 c0 c0 c1 c0 None None c1 c1 ninf ninf ""%string with
  | Err x => (List.length s, (s, Some x))
  | Ok m =>
      let (g, s1) := onew s (OGroup GGroup m [] None 0) in (g, oappend_all s1 g l)
  end.

(** matrixgroup.py 147-177 *)
Definition opop (s : store) (g : nat) (i : Z) : store * option exn :=
  match pyindex (List.length (kids_of s g)) i with
  | None => (s, Some IndexError)
  | Some k => orebuild s g (remove_nth k (kids_of s g))
  end.

(** matrixgroup.py 179-224; the temporary group is a new object *)
Definition oinsert (s : store) (g : nat) (i : Z) (l : list nat) : store * option exn :=
  match onew_group s l with
  | (_, (s1, Some x)) => (s1, Some x)
  | (tmp, (s1, None)) =>
      orebuild s1 g (pytake i (kids_of s1 g) ++ kids_of s1 tmp ++ pydrop i (kids_of s1 g))
  end.

(** matrixgroup.py 226-271 *)
Definition osetitem (s : store) (g : nat) (i : Z) (l : list nat) : store * option exn :=
  match opop s g i with
  | (s', None) => oinsert s' g i l
  | (s', Some x) => (s', Some x)
  end.
Definition osetslice (s : store) (g : nat) (start stop : option Z) (l : list nat)
    : store * option exn :=
  let kids := kids_of s g in
  let start := match start with Some z => z | None => 0%Z end in
  let stop := match stop with Some z => z | None => Z.of_nat (List.length kids) end in
  oinsert (set_kids s g (pytake start kids ++ pydrop stop kids)) g start l.

(** matrixgroup.py 142-143: group[start:stop], a new group of the same element objects *)
Definition ogetslice (s : store) (g : nat) (start stop : Z) : nat * (store * option exn) :=
  let kids := kids_of s g in
  onew_group s (pydrop start (pytake stop kids)).

(** imagingpath.py 928-950: the new Space is an object, the other elements are shared *)
Fixpoint osubPath_loop (s : store) (before l : list nat) (z zStart : T) (backwards : bool)
    : nat * (store * option exn) :=
  match l with
  | [] => (0%nat, (s, Some ValueError))
  | x :: t =>
      match oget s x with
      | None => (0%nat, (s, Some AttributeError))
      | Some o =>
          let L := mL (omat o) in
          if nltb z zStart && nltb zStart (nadd z L) then
            if is_space_obj o then
              match Space (if backwards then nsub zStart z else nsub (nadd z L) zStart) c1 ninf with
              | Err e => (0%nat, (s, Some e))
              | Ok sp =>
                  let (n, s1) := onew s (OLeaf KSpace (emat sp)) in
                  onew_group s1 (n :: if backwards then before else t)
              end
            else (0%nat, (s, Some AssertionError))
          else osubPath_loop s (x :: before) t (nadd z L) zStart backwards
      end
  end.
Definition osubPath (s : store) (g : nat) (zStart : T) (backwards : bool) :=
  osubPath_loop s [] (kids_of s g) c0 zStart backwards.

(** matrixgroup.py 470-483, specialtylenses.py 415-432, matrix.py 1386-1397 and subclasses; the
    element objects are changed in place *)
Definition leaf_obj (e : elem) : obj :=
  match e with Leaf k m => OLeaf k m | Group gk m _ => OGroup gk m [] None 0 end.
Definition ofinish (s : store) (g : nat) : store :=
  match oget s g with
  | Some (OGroup (GObjective a b) m kids c it) =>
      match all_some (oget s) kids with
      | Some os => oset s g (OGroup (GObjective a b) (objective_vertices (map shallow os) m c0) kids c it)
      | None => s
      end
  | _ => s
  end.
Fixpoint oflip (fuel : nat) (s : store) (i : nat) : store * option exn :=
  match fuel with
  | O => (s, Some OutOfFuel)
  | S fuel =>
      match oget s i with
      | None => (s, Some AttributeError)
      | Some (OLeaf k m) =>
          match flip_leaf k m with
          | Err x => (s, Some x)
          | Ok e => (oset s i (leaf_obj e), None)
          end
      | Some (OGroup gk m kids c it) =>
          match
            (fix go (s : store) (l : list nat) : store * option exn :=
               match l with
               | [] => (s, None)
               | x :: t =>
                   match oflip fuel s x with
                   | (s', Some e) => (s', Some e)
                   | (s', None) =>
                       match oappend s' i x with
                       | (s'', Some e) => (s'', Some e)
                       | (s'', None) => go s'' t
                       end
                   end
               end) (oset s i (OGroup gk (set_flip m (negb (mflip m))) [] c it)) (rev kids)
          with
          | (s', None) => (ofinish s' i, None)
          | (s', Some e) => (s', Some e)
          end
      end
  end.

(** ** Equality (matrix.py 1437-1440): the attribute dictionaries are compared, not the classes *)
Definition opt_eq {A} (f : A -> A -> bool) (a b : option A) : bool :=
  match a, b with
  | None, None => true
  | Some x, Some y => f x y
  | _, _ => false
  end.
Fixpoint list_eq {A} (f : A -> A -> bool) (a b : list A) : bool :=
  match a, b with
  | [], [] => true
  | x :: a, y :: b => f x y && list_eq f a b
  | _, _ => false
  end.
Definition mat_eq (m m' : mat) : bool :=
  neqb (mA m) (mA m') && neqb (mB m) (mB m') && neqb (mC m) (mC m') && neqb (mD m) (mD m') &&
  neqb (mL m) (mL m') && opt_eq neqb (mfv m) (mfv m') && opt_eq neqb (mbv m) (mbv m') &&
  neqb (mfi m) (mfi m') && neqb (mbi m) (mbi m') && neqb (mdiam m) (mdiam m') &&
  neqb (mna m) (mna m') && Bool.eqb (mflip m) (mflip m') && String.eqb (mlabel m) (mlabel m').
(** the attributes a subclass adds: Lens f and _physicalHalfHeight (matrix.py 1476-1477),
    DielectricInterface n1, n2, R (1732-1734), ThickLens and DielectricSlab n, R1, R2
    (1813-1815), Axicon n, alpha (axicon.py 32-33) *)
Definition kind_dict (k : kind) : list (string * T) :=
  match k with
  | KLens f h => [("f", f); ("_physicalHalfHeight", h)]
  | KInterface n1 n2 R => [("n1", n1); ("n2", n2); ("R", R)]
  | KThickLens n R1 R2 | KSlab n R1 R2 => [("n", n); ("R1", R1); ("R2", R2)]
  | KAxicon n a => [("n", n); ("alpha", a)]
  | KMatrix | KCurvedMirror | KSpace | KAperture => []
  end%string.
Definition kind_eq (k k' : kind) : bool :=
  list_eq (fun a b => String.eqb (fst a) (fst b) && neqb (snd a) (snd b)) (kind_dict k) (kind_dict k').
Definition gkind_eq (g g' : gkind) : bool :=
  match g, g' with
  | GGroup, GGroup => true
  | GObjective a b, GObjective a' b' => neqb a a' && neqb b b'
  | _, _ => false
  end.

Fixpoint oeq (fuel : nat) (s : store) (h : heap) (i j : nat) : option bool :=
  match fuel with
  | O => None
  | S fuel =>
      match oget s i, oget s j with
      | Some (OLeaf k m), Some (OLeaf k' m') => Some (kind_eq k k' && mat_eq m m')
      | Some (OGroup gk m kids c it), Some (OGroup gk' m' kids' c' it') =>
          if gkind_eq gk gk' && mat_eq m m' && Nat.eqb it it' &&
             opt_eq (fun a b => ray_eq (hget h (fst a)) (hget h (fst b)) &&
               list_eq (fun p q => ray_eq (hget h p) (hget h q)) (snd a) (snd b)) c c' then
            (fix go (l l' : list nat) :=
               match l, l' with
               | [], [] => Some true
               | x :: t, y :: t' =>
                   match oeq fuel s h x y with
                   | Some true => go t t'
                   | r => r
                   end
               | _, _ => Some false
               end) kids kids'
          else Some false
      | Some _, Some _ => Some false
      | _, _ => None
      end
  end.

(** for e in group: (matrixgroup.py 485-496) leaves the counter at the number of elements *)
Definition oiterate (s : store) (g : nat) : store :=
  match oget s g with
  | Some (OGroup gk m kids c _) => oset s g (OGroup gk m kids c (List.length kids))
  | _ => s
  end.

End Model.
