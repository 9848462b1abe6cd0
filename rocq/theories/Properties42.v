(** Property theorems: field of view of a camera (C137). *)
From Coq Require Import Reals Lra List String.
From Verif Require Import Base Nums Optics Group Spec Samples Imaging Efficiency CameraField.
Import ListNotations.
Open Scope list_scope.
Open Scope R_scope.

(** a lens of focal length f and diameter D1 forms on a detector of diameter D2, at the distance b, the image of the object at the
    distance a: whatever the diameter of the lens (also when it blocks the ray used to look for the aperture stop) the aperture stop is
    the lens, the field stop is the detector, the field of view is the size of the detector divided by the magnification b / a up to the
    precision of the search, and the size of the image is the size of the detector *)
Theorem C137_field : forall a b f D1 D2, / 100000 <= a -> 0 < b -> 0 < D1 -> 0 < D2 -> f <> 0 -> / a + / b = / f ->
  3 / 80000 <= D2 * a / (2 * b) <= 7000 ->
  exists s1 l s2 ap g, Space (Fin a) c1 PInf = Ok s1 /\ Lens (Fin f) (Fin D1) = Ok l /\ Space (Fin b) c1 PInf = Ok s2 /\ Aperture (Fin D2) PInf = Ok ap /\
  MatrixGroup_new [s1; l; s2; ap] "" = Ok g /\
  apertureStop (Group GGroup (gmat g) (gelems g)) = Ok (mkStop (Some (Fin a)) (Some (Fin D1))) /\
  exists n v, v <= D2 * (a / b) < v + 4 / 1000000 /\ forall fuel, (n <= fuel)%nat ->
    fieldOfView fuel (Group GGroup (gmat g) (gelems g)) = Ok (Fin v) /\
    fieldStop fuel (Group GGroup (gmat g) (gelems g)) = Ok (mkStop (Some (Fin (a + b))) (Some (Fin D2))) /\
    exists s, (forall h, imageSize fuel (Group GGroup (gmat g) (gelems g)) false h = Ok (Fin s)) /\ s <= D2 < s + 4 / 1000000 * (b / a).
Proof. exact camera_field. Qed.
Print Assumptions C137_field.
(** object at 300, detector of 20 at 60, lens of focal length 50 and diameter 25: a field of view of 100 *)
Example C137_example : / 100000 <= 300 /\ 0 < 60 /\ 0 < 25 /\ 0 < 20 /\ 50 <> 0 /\ / 300 + / 60 = / 50 /\
  3 / 80000 <= 20 * 300 / (2 * 60) <= 7000 /\ 20 * (300 / 60) = 100.
Proof. repeat split; lra. Qed.

(** the same camera: the axial ray goes to the edge of the lens, the rays lost are the steeper ones, NA is the sine of that angle, the
    entrance pupil is the lens and the f-number is f / D1 *)
Theorem C137_numbers : forall a b f D1 D2, / 100000 <= a -> 0 < b -> 0 < D1 -> 0 < D2 -> f <> 0 -> / a + / b = / f -> f < 100000 ->
  exists s1 l s2 ap g, Space (Fin a) c1 PInf = Ok s1 /\ Lens (Fin f) (Fin D1) = Ok l /\ Space (Fin b) c1 PInf = Ok s2 /\ Aperture (Fin D2) PInf = Ok ap /\
  MatrixGroup_new [s1; l; s2; ap] "" = Ok g /\
  axialRay (Group GGroup (gmat g) (gelems g)) = Ok (Some (Ray_new (Fin 0) (Fin (D1 / (2 * a))))) /\
  (forall th, rblk (traceThrough (Group GGroup (gmat g) (gelems g)) (Ray_new (Fin 0) (Fin th))) = true <-> D1 / (2 * a) < Rabs th) /\
  (forall sin, NA sin (Group GGroup (gmat g) (gelems g)) = Ok (nmul (Fin 1) (sin (Fin (D1 / (2 * a)))))) /\
  entrancePupil (Group GGroup (gmat g) (gelems g)) = Ok (mkStop (Some (Fin a)) (Some (Fin D1))) /\
  fNumber (Group GGroup (gmat g) (gelems g)) = Ok (Some (Fin (f / D1))).
Proof. exact camera_numbers. Qed.
Print Assumptions C137_numbers.
(** the camera above is an f/2 camera *)
Example C137_numbers_example : 50 < 100000 /\ 50 / 25 = 2.
Proof. lra. Qed.
