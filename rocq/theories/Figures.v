(** What is drawn for the elements of a path: graphicComponents.py and graphics.py as lists of curves in data
    coordinates, and the placement done by figure.py.  Colours, labels and line styles are left out. *)
From Coq Require Import ZArith List Bool String.
From Verif Require Import Base Optics Drawing Materials Catalogue.
Import ListNotations.
Open Scope num_scope.
Open Scope list_scope.

Section Model.
Context {T : Type} {N : Num T}.
(** np.tan *)
Variable tan : T -> T.
Local Notation elem := (@elem T).
Local Notation surface := (@surface T).

(** ** Curves (graphicComponents.py 11-36): two control points make a line, three a quadratic Bezier curve *)
Definition point := (T * T)%type.
Definition curve := list point.
(** a Component: its curves and hasFixedWidth *)
Record component := mkComp { co_curves : list curve; co_fixed : bool }.
(** graphicComponents.py 111-125 *)
Fixpoint linearBezierCurvesFrom (l : list point) : list curve :=
  match l with
  | a :: ((b :: _) as t) => [a; b] :: linearBezierCurvesFrom t
  | _ => []
  end.
(** BezierCurve.xy and Component.xy (25-28, 60-67): the end points; duplicates are kept here, only the maximum
    of the absolute heights is taken of them *)
Definition ends (c : curve) : list point :=
  match c with
  | [] => []
  | p :: t => [p; last t p]
  end.
Definition xy (c : component) : list point := flat_map ends (co_curves c).

(** graphicComponents.py 142-167 with width 0.002 and headLengthRatio 0.1 *)
Definition Arrow (dy y : T) : component :=
  let width := ndec 2 3 in
  let dx0 := ndiv width c2 in
  let dx1 := ndiv (width * nofZ 5) c2 in
  let top := y + dy in
  let dy1 := top - dy * ndec 1 1 in
  mkComp (linearBezierCurvesFrom
    [(- dx0, y); (- dx0, dy1); (- dx1, dy1); (c0, top); (dx1, dy1); (dx0, dy1); (dx0, y); (- dx0, y)]) false.
(** graphicComponents.py 174-189 *)
Definition Rectangle (x y width height : T) : component :=
  mkComp (linearBezierCurvesFrom
    [(x, y); (x, y + height); (x + width, y + height); (x + width, y); (x, y)]) true.
(** graphicComponents.py 319-342 with headWidth 0.01 and headLengthRatio 0.12 *)
Definition DoubleThinArrow (height : T) : component :=
  let dy := ndiv height c2 in
  let dx1 := ndiv (ndec 1 2) c2 in
  let dy1 := dy - dy * ndec 12 2 in
  mkComp ([(c0, - dy); (c0, dy)] ::
          linearBezierCurvesFrom [(- dx1, dy1); (c0, dy); (dx1, dy1)] ++
          linearBezierCurvesFrom [(- dx1, - dy1); (c0, - dy); (dx1, - dy1)]) false.
(** graphicComponents.py 345-368 *)
Definition ApertureBars (y x width : T) : component :=
  let fixed := negb (width =? c0) in
  let width := if width =? c0 then ndec 1 2 else width in
  mkComp
    (if width <=? ndec 1 2
     then [[(x - ndec 5 3, y); (x + ndec 5 3, y)]; [(x - ndec 5 3, - y); (x + ndec 5 3, - y)]]
     else [[(x, y); (x + width, y)]; [(x, - y); (x + width, - y)]]) fixed.
(** graphicComponents.py 371-378 *)
Definition Polygon (l : list point) : component := mkComp (linearBezierCurvesFrom l) true.

(** np.isfinite *)
Definition isfinite (x : T) : bool := (x - x =? c0).

(** the sag of the edge and the height of the control point of a sphere of radius R: graphicComponents.py
    210-217, 265-272, 302-309.  math.cos(math.asin(q)) is modelled as sqrt(1 - q*q), math.sin(math.asin(q)) as q,
    math.cos(np.pi/2) as 0. *)
Definition sag (R h : T) : res (T * T) :=
  q <- pdiv h (nabs R);;
  cs <- (if q <=? c1 then if q <? - c1 then Err ValueError else Ok (nsqrt (c1 - q * q), q) else Ok (c0, c1));;
  k <- pdiv (c1 - fst cs) (snd cs);;
  Ok (R * (c1 - fst cs), nabs (k * R)).

(** graphicComponents.py 192-221 *)
Definition SurfaceC (s : surface) (h x : T) : res component :=
  if negb (isfinite h) then Err ValueError
  else match su_shape s with
       | Flat => Ok (mkComp [[(x, - h); (x, h)]] true)
       | Spherical R =>
           if R =? ninf then Ok (mkComp [[(x, - h); (x, h)]] true)
           else d <- sag R h;;
                Ok (mkComp [[(x + fst d, - h); (x, - snd d); (x, c0)]; [(x, c0); (x, snd d); (x + fst d, h)]] true)
       | _ => Err AttributeError     (* no attribute R *)
       end.

(** graphicComponents.py 251-280: the curves of the first surface, its corner, and the distance to the second
    surface, which is set when it was 0 *)
Definition getPathA (s : surface) (h v1 : T) : res (list curve * T * T) :=
  let flat := ([[(v1, - h); (v1, h)]], v1, su_L s) in
  match su_shape s with
  | Conical a =>
      let corner := v1 - tan a * h in
      Ok ([[(corner, - h); (v1, c0)]; [(v1, c0); (corner, h)]], corner, su_L s)
  | Flat => Ok flat
  | Spherical R =>
      if R =? ninf then Ok flat
      else d <- sag R h;;
           let corner := v1 + fst d in
           let L := if su_L s =? c0 then fst d * c2 else su_L s in
           Ok ([[(corner, - h); (v1, - snd d); (v1, c0)]; [(v1, c0); (v1, snd d); (corner, h)]], corner, L)
  | Plain => Err AttributeError
  end.
(** graphicComponents.py 282-316 *)
Definition getPathB (s : surface) (h v2 corner1 : T) : res (list curve * T) :=
  let flat := ([[(corner1, h); (v2, h)]; [(v2, h); (v2, - h)]; [(v2, - h); (corner1, - h)]], v2) in
  match su_shape s with
  | Conical a =>
      let corner2 := v2 + tan a * h in
      Ok ([[(corner1, h); (corner2, h)]; [(corner2, h); (v2, c0)]; [(v2, c0); (corner2, - h)];
           [(corner2, - h); (corner1, - h)]], corner2)
  | Flat => Ok flat
  | Spherical R =>
      if R =? ninf then Ok flat
      else d <- sag R h;;
           let corner2 := v2 + fst d in
           Ok ([[(corner1, h); (corner2, h)]; [(corner2, h); (v2, snd d); (v2, c0)];
                [(v2, c0); (v2, - snd d); (corner2, - h)]; [(corner2, - h); (corner1, - h)]], corner2)
  | Plain => Err AttributeError
  end.
(** graphicComponents.py 224-249 *)
Record pair := mkPair { pa_comp : component; pa_first : T; pa_last : T; pa_L : T }.
Definition SurfacePair (a b : surface) (h x : T) : res pair :=
  if negb (isfinite h) then Err ValueError
  else pa <- getPathA a h x;;
       match pa with
       | (ca, corner1, L) =>
           pb <- getPathB b h (x + L) corner1;;
           Ok (mkPair (mkComp (ca ++ fst pb) true) corner1 (snd pb) L)
       end.

(** ** Graphics *)
(** graphics.py 9-35: components, position x (y is always 0) *)
Record graphic := mkGraphic { gr_comp : list component; gr_x : T }.
(** graphics.py 58-71; np.max of an empty list raises ValueError *)
Definition comp_height (c : component) : res T :=
  match xy c with
  | [] => Err ValueError
  | p :: t => Ok (fold_left (fun m q => if m <? nabs (snd q) then nabs (snd q) else m) t (nabs (snd p)))
  end.
Fixpoint half_loop (l : list component) (h : T) : res T :=
  match l with
  | [] => Ok h
  | c :: t => y <- comp_height c;; half_loop t (if h <? y then y else h)
  end.
Definition halfHeight (g : graphic) : res T :=
  h <- half_loop (gr_comp g) c0;;
  if h =? ninf then Err ValueError else Ok h.
(** graphics.py 21-35, 130-134: a matrix always has a label (possibly empty), so that the centroid and the half
    height are computed at once; the mean of no points is not a pair *)
Definition labelled (cs : list component) (x : T) : res graphic :=
  match flat_map xy cs with
  | [] => Err IndexError
  | _ => let g := mkGraphic cs x in _ <- halfHeight g;; Ok g
  end.

(** matrix.py 1399-1418, 1513-1527 *)
Definition displayHalfHeightOf (l : lens_kind) : T :=
  match l with
  | LLeaf (KLens f hh) m => displayHalfHeight (Leaf (KLens f hh) m)
  | _ => displayHalfHeight (Leaf KMatrix (lens_mat l))
  end.
(** graphics.py 159-165 *)
Definition apertureComponents (m : @mat T) : list component :=
  if negb (mdiam m =? ninf) then [ApertureBars (ndiv (mdiam m) c2) c0 (mL m)] else [].
(** graphics.py 143-157; [ld] is largestDiameter, [dh] displayHalfHeight() *)
Definition rectangle (m : @mat T) (ld dh x : T) : component :=
  let h := ndiv ld c2 in
  let h := if h =? ninf then dh else h in
  Rectangle x (- h) (mL m) (c2 * h).
(** graphics.py 130-141 *)
Definition MatrixGraphic (m : @mat T) (ld dh x : T) : res graphic :=
  labelled (rectangle m ld dh x :: apertureComponents m) x.
(** graphics.py 283-292 *)
Definition LensGraphic (m : @mat T) (f hh minSize x : T) : res graphic :=
  let hh := if (mdiam m =? ninf) && (hh <? minSize) then minSize else hh in
  labelled (DoubleThinArrow (displayHalfHeight (Leaf (KLens f hh) m) * c2) :: apertureComponents m) x.
(** graphics.py 295-301 *)
Definition ApertureGraphic (m : @mat T) (x : T) : res graphic := labelled (apertureComponents m) x.

(** graphics.py 311-327: the pairs, each one starting where the previous one ends *)
Fixpoint pairs (l : list surface) (h z : T) : res (list pair) :=
  match l with
  | a :: ((b :: _) as t) =>
      p <- SurfacePair a b h z;;
      r <- pairs t h (z + pa_L p);;
      Ok (p :: r)
  | _ => Ok []
  end.
(** graphics.py 304-337 *)
Definition SurfacesGraphic (ss : list surface) (h x : T) : res graphic :=
  match ss with
  | [s] => c <- SurfaceC s h c0;; labelled [c] x
  | _ =>
      ps <- pairs ss h c0;;
      match ps with
      | [] => Err IndexError
      | p :: t =>
          let width := pa_last (last t p) - pa_first p in
          labelled (map pa_comp ps ++ [ApertureBars h (pa_first p) width]) x
      end
  end.
(** graphics.py 340-357: a group inside a group *)
Definition MatrixGroupGraphic (m : @mat T) (es : list elem) (x : T) : res graphic :=
  labelled [rectangle m (largestDiameter (Group GGroup m es)) (displayHalfHeight (Leaf KMatrix m)) x] x.

(** axicon.py 134-140 *)
Definition surfacesOf (l : lens_kind) : res (list surface) :=
  match l with
  | LLeaf (KAxicon n alpha) m =>
      let ss := [FlatInterface n (- (tan alpha * displayHalfHeightOf l)); mkSurf (Conical alpha) c1 c0] in
      Ok (if mflip m then turn_all (rev ss) else ss)
  | _ => surfaces l
  end.
(** graphics.py 458-475 for everything but groups: None for spaces *)
Definition GraphicOf (l : lens_kind) (x minSize : T) : res (option graphic) :=
  match l with
  | LLeaf (KLens f hh) m => g <- LensGraphic m f hh minSize x;; Ok (Some g)
  | LLeaf KSpace m => Ok None
  | LLeaf KAperture m => g <- ApertureGraphic m x;; Ok (Some g)
  | _ =>
      ss <- surfacesOf l;;
      match ss with
      | [] => g <- match l with
                   | LCompound m es => MatrixGroupGraphic m es x
                   | _ => MatrixGraphic (lens_mat l) (mdiam (lens_mat l)) (displayHalfHeightOf l) x
                   end;; Ok (Some g)
      | _ => g <- SurfacesGraphic ss (displayHalfHeightOf l) x;; Ok (Some g)
      end
  end.

(** a lens of thorlabs.py or eo.py as it is drawn: specialtylenses.py 158-193, 274-304 keep the radii, the
    thicknesses and the indices *)
Definition lens_object (c : lens_class T (dispersion T)) (wavelength : option T) : res lens_kind :=
  b <- construct c wavelength;;
  match c, b_elem b with
  | LDoubletD d _, Group _ m es =>
      n <- doublet_indices d wavelength;;
      Ok (LDoublet m es (radius (d_R1 d)) (radius (d_R2 d)) (radius (d_R3 d)) (d_tc1 d) (d_tc2 d) (fst n) (snd n))
  | LSingletD s _, Group _ m es =>
      n <- singlet_index s wavelength;;
      Ok (LSinglet m es (radius (s_R1 s)) (radius (s_R2 s)) (s_tc s) n)
  | _, _ => Err TypeError
  end.

(** ** Objectives (graphics.py 413-455); [es] the elements in the group, [group_diam] its apertureDiameter *)
Fixpoint objective_bars (es : list elem) (group_diam z : T) : list component :=
  match es with
  | [] => []
  | e :: t =>
      (if negb (mdiam (emat e) =? ninf) then [ApertureBars (ndiv group_diam c2) z (mL (emat e))] else [])
      ++ objective_bars t group_diam (z + mL (emat e))
  end.
Definition objective_outline (ftf wd back front na : T) (flipped : bool) : res (list point) :=
  let h := ndiv back c2 in
  shoulder <- pdiv h na;;
  let ps := [(c0, h); (ftf - shoulder, h); (ftf - wd, ndiv front c2); (ftf - wd, - ndiv front c2);
             (ftf - shoulder, - h); (c0, - h); (c0, h)] in
  Ok (if flipped then map (fun p => (- fst p + ftf, snd p)) ps else ps).
Definition ObjectiveGraphic (m : @mat T) (es : list elem) (ftf wd back front na x : T) : res graphic :=
  ps <- objective_outline ftf wd back front na (mflip m);;
  labelled (Polygon ps :: objective_bars es (mdiam m) c0) x.

(** ** In a figure *)
(** an element of a path as GraphicOf tells them apart *)
Inductive drawable :=
| DLens (l : @lens_kind T)
| DGroup (m : @mat T) (es : list elem)
| DObjective (m : @mat T) (es : list elem) (ftf wd back front na : T).
Definition drawable_L (d : drawable) : T :=
  match d with DLens l => mL (lens_mat l) | DGroup m _ | DObjective m _ _ _ _ _ _ => mL m end.

(** graphics.py 359-368; an element that is itself a group is drawn as one rectangle.  (Catalogue lenses and
    objectives inside a group are not distinguished from other groups here.) *)
Fixpoint standAloneGraphics (es : list elem) (z : T) : res (list graphic) :=
  match es with
  | [] => Ok []
  | e :: t =>
      g <- match e with
           | Leaf k m => GraphicOf (LLeaf k m) z c0
           | Group _ m es' => g <- MatrixGroupGraphic m es' z;; Ok (Some g)
           end;;
      r <- standAloneGraphics t (z + mL (emat e));;
      Ok (match g with Some g => g :: r | None => r end)
  end.
(** figure.py 189-198 with minSize = [maxRayHeight].  The positions in a group are z + self.x. *)
Fixpoint graphics_loop (ds : list drawable) (maxRayHeight z : T) : res (list graphic) :=
  match ds with
  | [] => Ok []
  | d :: t =>
      gs <- match d with
            | DLens l => g <- GraphicOf l z maxRayHeight;; Ok (match g with Some g => [g] | None => [] end)
            | DGroup m es => _ <- MatrixGroupGraphic m es z;; standAloneGraphics es (c0 + z)
            | DObjective m es ftf wd back front na => g <- ObjectiveGraphic m es ftf wd back front na z;; Ok [g]
            end;;
      r <- graphics_loop t maxRayHeight (z + drawable_L d);;
      Ok (gs ++ r)
  end.

(** figure.py 721-733: where a point of a component appears; [s] is the first value of scalingOfGraphic (822-828),
    which depends on the zoom and not on useAutoScale *)
Definition place (s : T) (g : graphic) (c : component) (p : point) : point :=
  ((if co_fixed c then fst p else fst p * s) + gr_x g, snd p).
Definition drawn (s : T) (g : graphic) : list (list curve) :=
  map (fun c => map (map (place s g c)) (co_curves c)) (gr_comp g).
End Model.
Arguments graphic T : clear implicits.
Arguments component T : clear implicits.
Arguments drawable T : clear implicits.
