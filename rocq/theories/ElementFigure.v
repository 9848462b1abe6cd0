(** Model of the figure of a single element (Matrix.display): graphics.py 167-281, 370-410 and matrix.py 1420-1422 in
    /repo/raytracing.  What is drawn for the element itself is in Figures.v; the colours, fonts and the title are left out. *)
From Coq Require Import ZArith List Bool String.
From Verif Require Import Base Optics Drawing Figures Scene Labels.
Import ListNotations.
Open Scope num_scope.
Open Scope string_scope.
Open Scope list_scope.

Section Model.
Context {T : Type} {N : Num T}.
Variable tan : T -> T.
(** "{0:0.1f}".format, "{0:3.3f}".format and float() *)
Variable fmt1 fmt3 : T -> string.
Variable parse : string -> T.
Local Notation drawable := (drawable T).

(** a Point (graphicComponents.py 464-467): where it is marked, at which height its text is, and the text *)
Record mark := mkMark { k_x : T; k_y : T; k_text : option string }.
(** graphics.py 167-173 *)
Definition cardinalPoints (m : @mat T) (x : T) : res (list mark) :=
  f <- focusPositions m x;;
  Ok (match f with Some (f1, f2) => [mkMark f1 c0 None; mkMark f2 c0 None] | None => [] end).
(** graphics.py 175-178: x + None raises *)
Definition verticesPoints (m : @mat T) (x h : T) : res (list mark) :=
  match mfv m, mbv m with
  | Some vf, Some vb => Ok [mkMark (x + vf) (h * ndec 1 1) (Some "$V_f$"); mkMark (x + vb) (h * ndec 1 1) (Some "$V_b$")]
  | _, _ => Err TypeError
  end.
(** graphics.py 180-194 *)
Definition marks_of (h : T) (es : list (string * string)) : list mark :=
  map (fun p => mkMark (parse (fst p)) h (Some (snd p))) (gather es).
Definition own_points (d : drawable) (x h : T) : res (list mark) :=
  l <- pointsOfInterest d x;;
  es <- entries_of fmt3 false 0 l;;
  Ok (marks_of (- (h * ndec 2 1)) es).
(** graphics.py 370-410: the points of the group, then those of its elements.  A group inside a group is taken to be a
    MatrixGroup, as in Figures.v. *)
Definition as_drawable (e : @elem T) : drawable :=
  match e with Leaf k m => DLens (LLeaf k m) | Group _ m es => DGroup m es end.
Definition group_points (d : drawable) (es : list (@elem T)) (diam x : T) : res (list mark) :=
  l <- pointsOfInterest d x;;
  a <- entries_of fmt3 false 0 l;;
  b <- entries fmt3 false (map as_drawable es) c0 0;;
  Ok (marks_of (- (ndiv diam c2 * ndec 5 1)) (a ++ b)).

(** graphics.py 196-233: dashed vertical lines (abscissa and half height), captions and arrows *)
Record planes := mkPlanes { pl_lines : list (T * T); pl_marks : list mark; pl_arrows : list ((T * T) * (T * T)) }.
Definition addPrincipalPlanes (m : @mat T) (x hh : T) : res planes :=
  p <- principalPlanePositions m x;;
  match p with
  | None => Ok (mkPlanes [] [] [])
  | Some (p1, p2) =>
      f <- effectiveFocalLengths m;;
      ffl <- frontFocalLength m;;
      bfl <- backFocalLength m;;
      F <- focusPositions m x;;
      let h4 := hh * ndec 4 1 in
      let h7 := hh * ndec 7 1 in
      match ffl, bfl, F, mfv m, mbv m with
      | Some FFL, Some BFL, Some (F1, F2), Some vf, Some vb =>
          Ok (mkPlanes [(p1, hh); (p2, hh)]
            [mkMark p1 (hh * ndec 11 1) (Some "$P_f$"); mkMark p2 (hh * ndec 11 1) (Some "$P_b$");
             mkMark (p1 - ndiv (fst f) c2) (h4 * ndec 11 1) (Some ("EFL = " ++ fmt1 (fst f))%string);
             mkMark (p2 + ndiv (snd f) c2) (- (h4 * ndec 9 1)) (Some ("EFL = " ++ fmt1 (snd f))%string);
             mkMark (ndiv (vf + F1) c2) (h7 * ndec 106 2) (Some ("FFL = " ++ fmt1 FFL)%string);
             mkMark (ndiv (vb + F2) c2) (- (ndec 94 2 * h7)) (Some ("BFL = " ++ fmt1 BFL)%string)]
            [((p1, h4), (F1, h4)); ((p2, - h4), (F2, - h4)); ((vf, h7), (F1, h7)); ((vb, - h7), (F2, - h7))])
      | _, _, _, _, _ => Err TypeError       (* None in an arithmetic expression or in a format *)
      end
  end.

(** graphics.py 262-270, for a graphic at x *)
Definition createFigure (m : @mat T) (points : T -> res (list mark)) (g : graphic T) : res (list mark * planes) :=
  c <- cardinalPoints m (gr_x g);;
  hh <- halfHeight g;;
  v <- (if negb (neqb (mL m) c0) then verticesPoints m (gr_x g) hh else Ok []);;
  p <- points hh;;
  pl <- addPrincipalPlanes m (gr_x g) hh;;
  Ok (c ++ v ++ p, pl).
(** matrix.py 1420-1422: GraphicOf gives None for a Space, and None has no display *)
Definition display (d : drawable) : res (list mark * planes) :=
  match d with
  | DLens l =>
      g <- GraphicOf tan l c0 c0;;
      match g with
      | None => Err AttributeError
      | Some g =>
          match l with
          | LCompound m es =>
              ss <- surfacesOf tan l;;
              (* graphics.py 471-473: drawn by its surfaces, or as a group *)
              createFigure m (fun hh => match ss with [] => group_points d es (largestDiameter (Group GGroup m es)) (gr_x g)
                                                 | _ => own_points d (gr_x g) hh end) g
          | _ => createFigure (lens_mat l) (fun hh => own_points d (gr_x g) hh) g
          end
      end
  | DGroup m es =>
      g <- MatrixGroupGraphic m es c0;;
      createFigure m (fun _ => group_points d es (largestDiameter (Group GGroup m es)) (gr_x g)) g
  | DObjective m es ftf wd back front na =>
      g <- ObjectiveGraphic m es ftf wd back front na c0;;
      createFigure m (fun _ => group_points d es (largestDiameter (Group (GObjective ftf wd) m es)) (gr_x g)) g
  end.
End Model.
Arguments mark T : clear implicits.
Arguments planes T : clear implicits.
