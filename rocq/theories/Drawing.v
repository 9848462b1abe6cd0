(** Model of the drawing-related parts of /repo/raytracing that return data: surfaces of
    elements (interface.py, matrix.py, specialtylenses.py) and the points drawn for a ray
    (figure.py). *)
From Coq Require Import ZArith List Bool.
From Verif Require Import Base Optics.
Import ListNotations.
Open Scope num_scope.
Open Scope list_scope.

Section Model.
Context {T : Type} {N : Num T}.
Local Notation ray := (@ray T).
Local Notation elem := (@elem T).

(** ** Surfaces *)
(** interface.py 1-21; the exact class matters to [surfaces] *)
Inductive shape := Spherical (R : T) | Flat | Conical (alpha : T) | Plain.
Record surface := mkSurf { su_shape : shape; su_n : T; su_L : T }.
Definition SphericalInterface (R n L : T) : surface := mkSurf (Spherical R) n L.
Definition FlatInterface (n L : T) : surface := mkSurf Flat n L.

(** what an element needs to list its surfaces: a leaf, a group read as a CompoundLens, or a
    catalogue lens that stores its own radii, indices and thicknesses *)
Inductive lens_kind :=
| LLeaf (k : @kind T) (m : @mat T)
| LCompound (m : @mat T) (es : list elem)
| LDoublet (m : @mat T) (es : list elem) (R1 R2 R3 tc1 tc2 n1 n2 : T)
| LSinglet (m : @mat T) (es : list elem) (R1 R2 tc n : T).

(** specialtylenses.py 46-55: surfaces of a CompoundLens, built from the last element *)
Fixpoint compound_surfaces_rev (es : list elem) (spaceLength : T) : list surface :=
  match es with
  | [] => []
  | Leaf KSpace m :: t => compound_surfaces_rev t (mL m)
  | Leaf (KInterface n1 n2 R) m :: t =>
      SphericalInterface R n2 spaceLength :: compound_surfaces_rev t spaceLength
  | _ :: t => compound_surfaces_rev t spaceLength
  end.

(** matrix.py 184-187, 1479-1486, 1581-1585, 1749-1753, 1830-1834, 1941-1944;
    specialtylenses.py 45-55, 223-227, 334-337.  (CurvedMirror: 2/C raises on a flat mirror.
    The surfaces of Axicon, axicon.py 134-140, need tan and are not modelled.) *)
Definition forwardSurfaces (l : lens_kind) : res (list surface) :=
  match l with
  | LLeaf (KLens _ _) m =>
      Ok [SphericalInterface (nofZ 100) c1 c0; SphericalInterface (- nofZ 100) c1 c0]
  | LLeaf KCurvedMirror m => R <- pdiv c2 (mC m);; Ok [SphericalInterface R c1 c0]
  | LLeaf (KInterface n1 n2 R) m => Ok [SphericalInterface R n2 c0]
  | LLeaf (KThickLens n R1 R2) m =>
      Ok [SphericalInterface R1 n (mL m); SphericalInterface R2 c1 c0]
  | LLeaf (KSlab n _ _) m => Ok [FlatInterface n (mL m); FlatInterface c1 c0]
  | LLeaf _ _ => Ok []
  | LCompound m es => Ok (rev (compound_surfaces_rev (rev es) c0))
  | LDoublet m es R1 R2 R3 tc1 tc2 n1 n2 =>
      Ok [SphericalInterface R1 n1 tc1; SphericalInterface R2 n2 tc2; SphericalInterface R3 c1 c0]
  | LSinglet m es R1 R2 tc n =>
      Ok [SphericalInterface R1 n tc; SphericalInterface R2 c1 c0]
  end.

Definition lens_mat (l : lens_kind) : @mat T :=
  match l with
  | LLeaf _ m | LCompound m _ | LDoublet m _ _ _ _ _ _ _ _ | LSinglet m _ _ _ _ _ => m
  end.

(** matrix.py 195-203: the loop over the reversed list; each surface takes the index and the
    spacing of the next one, the last one those of a plain Interface() *)
Definition turn (s : surface) (n L : T) : surface :=
  mkSurf (match su_shape s with Spherical R => Spherical (- R) | x => x end) n L.
Fixpoint turn_all (l : list surface) : list surface :=
  match l with
  | [] => []
  | [s] => [turn s c1 c0]
  | s :: ((nx :: _) as t) => turn s (su_n nx) (su_L nx) :: turn_all t
  end.

(** matrix.py 189-205 *)
Definition surfaces (l : lens_kind) : res (list surface) :=
  fs <- forwardSurfaces l;;
  Ok (if mflip (lens_mat l) then turn_all (rev fs) else fs).

(** flipOrientation of each of these (matrix.py 1881-1904, matrixgroup.py 470-483): catalogue
    lenses keep the stored radii and only flip their elements *)
Definition flip_lens (l : lens_kind) : res lens_kind :=
  match l with
  | LLeaf k m => e <- flip (Leaf k m);;
      match e with Leaf k' m' => Ok (LLeaf k' m') | _ => Err TypeError end
  | LCompound m es => e <- flip (Group GGroup m es);;
      match e with Group _ m' es' => Ok (LCompound m' es') | _ => Err TypeError end
  | LDoublet m es R1 R2 R3 tc1 tc2 n1 n2 => e <- flip (Group GGroup m es);;
      match e with Group _ m' es' => Ok (LDoublet m' es' R1 R2 R3 tc1 tc2 n1 n2)
                 | _ => Err TypeError end
  | LSinglet m es R1 R2 tc n => e <- flip (Group GGroup m es);;
      match e with Group _ m' es' => Ok (LSinglet m' es' R1 R2 tc n) | _ => Err TypeError end
  end.

(** specialtylenses.py 157-193 and 274-304 as surfaces see them *)
Definition DoubletLens (R1 R2 R3 tc1 tc2 n1 n2 diam : T) : res lens_kind :=
  e <- AchromatDoublet R1 R2 R3 tc1 tc2 n1 n2 diam;;
  match e with Group _ m es => Ok (LDoublet m es R1 R2 R3 tc1 tc2 n1 n2) | _ => Err TypeError end.
Definition SingletLensL (R1 R2 tc n diam : T) : res lens_kind :=
  e <- SingletLens R1 R2 tc n diam;;
  match e with Group _ m es => Ok (LSinglet m es R1 R2 tc n) | _ => Err TypeError end.

(** ** Points drawn for a ray (figure.py 493-510) *)
Fixpoint rearrange_loop (removeBlocked : bool) (l : list ray) (x y : list T)
    : list T * list T :=
  match l with
  | [] => (x, y)
  | r :: t =>
      if negb (rblk r) then rearrange_loop removeBlocked t (x ++ [rz r]) (y ++ [ry r])
      else if removeBlocked then ([], [])
      else rearrange_loop removeBlocked t x y
  end.
Definition rearrangeRayTraceForPlotting (removeBlocked : bool) (l : list ray)
    : list T * list T := rearrange_loop removeBlocked l [] [].

(** ** Displaying a lens (matrix.py 1513-1527): displayHalfHeight remembers the half height,
    which largestDiameter (1529-1539) then returns *)
Definition show_lens (e : elem) : elem :=
  match e with
  | Leaf (KLens f hh) m =>
      Leaf (KLens f (if negb (mdiam m =? ninf) then ndiv (mdiam m) c2 else hh)) m
  | _ => e
  end.

(** axicon.py 55-78: focalLineLength *)
Definition focalLineLength (n alpha diam : T) (yMax : option T) : res T :=
  let yMax := match yMax with Some v => v | None => ndiv diam c2 end in
  x <- pdiv (nabs yMax) (n - c1);; pdiv x alpha.
End Model.
