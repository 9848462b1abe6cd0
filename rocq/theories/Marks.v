(** Model of the marks of the stops, of the entrance pupil and of the field of view in a figure: figure.py 149-178,
    259-266 and 313-328 in /repo/raytracing. The images of the field of view are in Scene.v, the lines of the rays in
    RayLines.v. *)
From Coq Require Import ZArith List Bool String.
From Verif Require Import Base Optics Group Imaging.
Import ListNotations.
Open Scope num_scope.
Open Scope string_scope.
Open Scope list_scope.

Section Model.
Context {T : Type} {N : Num T}.

(** figure.py 149-168: the diameter of the arrow of the field of view and the rays whose lines are drawn *)
Definition setPrincipalAndAxialRays (fuel : nat) (e : @elem T) : res (option T * list (@ray T)) :=
  s <- apertureStop e;;
  match st_z s with
  | None => Ok (None, [])
  | Some _ =>
      p <- principalRay fuel e;;
      a <- axialRay e;;
      Ok (option_map (fun r => ry r * c2) p,
          (match p with Some r => [r] | None => [] end) ++ (match a with Some r => [r] | None => [] end))
  end.
(** figure.py 259-266: x and half height of the bars of the entrance pupil *)
Definition graphicOfEntrancePupil (e : @elem T) : res (option (T * T)) :=
  p <- entrancePupil e;;
  match st_z p, st_d p with
  | None, _ => Ok None
  | Some z, Some d => Ok (Some (z, ndiv d c2))
  | Some _, None => Err TypeError
  end.
(** figure.py 313-328: text, x and y *)
Definition stopsLabels (fuel : nat) (e : @elem T) (displayRange : T) : res (list (string * T * T)) :=
  let halfHeight := ndiv displayRange c2 in
  a <- apertureStop e;;
  f <- fieldStop fuel e;;
  Ok ((match st_z a with Some z => [("AS", z, halfHeight * ndec 11 1)] | None => [] end)
      ++ (match st_z f with Some z => [("FS", z, halfHeight * ndec 11 1)] | None => [] end)).

Record marks := mkMarks { k_arrow : option T; k_rays : list (@ray T); k_pupil : option (T * T); k_labels : list (string * T * T) }.
(** figure.py 538-540 and 170-178: [showPupil] and [showPoints] are showEntrancePupil and showPointsOfInterest of the path *)
Definition displayMarks (fuel : nat) (e : @elem T) (showPupil showPoints : bool) (displayRange : T) : res marks :=
  r <- setPrincipalAndAxialRays fuel e;;
  p <- (if showPupil then graphicOfEntrancePupil e else Ok None);;
  l <- (if showPoints then stopsLabels fuel e displayRange else Ok []);;
  Ok (mkMarks (fst r) (snd r) p l).
End Model.
