(** Property theorems: 4f relays with a diaphragm and a detector (C138). *)
From Coq Require Import Reals Lra List Bool String.
From Verif Require Import Base Nums Optics Group Spec Imaging RelayField.
Import ListNotations.
Open Scope list_scope.
Open Scope R_scope.

(** lenses of focal lengths f1 and f2 one behind the other, a diaphragm D1 in the focal plane between them and a detector D2 on the image:
    the aperture stop is the diaphragm, the relay is telecentric, the axial ray goes to the edge of the diaphragm, a ray gets through
    exactly when it is not steeper than the axial ray and starts inside the field, the field of view is the detector divided by the
    magnification f2 / f1 up to the precision of the search, the field stop is the detector and its size is the image size *)
Theorem C138_relay : forall f1 f2 D1 D2, / 100000 <= f1 -> 0 < f2 -> 0 < D1 -> 0 < D2 -> 3 / 80000 <= D2 * f1 / (2 * f2) <= 7000 ->
  exists s1 l1 d s2 l2 ap g, Space (Fin f1) c1 PInf = Ok s1 /\ Lens (Fin f1) PInf = Ok l1 /\ Aperture (Fin D1) PInf = Ok d /\
  Space (Fin f2) c1 PInf = Ok s2 /\ Lens (Fin f2) PInf = Ok l2 /\ Aperture (Fin D2) PInf = Ok ap /\
  MatrixGroup_new [s1; l1; s1; d; s2; l2; s2; ap] "" = Ok g /\ let e := Group GGroup (gmat g) (gelems g) in
  apertureStop e = Ok (mkStop (Some (Fin (2 * f1))) (Some (Fin D1))) /\
  entrancePupil e = Ok (mkStop (Some NInf) (Some PInf)) /\
  axialRay e = Ok (Some (Ray_new (Fin 0) (Fin (D1 / (2 * f1))))) /\
  (forall y, chiefRayAt e (Fin y) = Ok (Some (Ray_new (Fin y) (Fin 0)))) /\
  (forall y th, rblk (traceThrough e (Ray_new (Fin y) (Fin th))) = true <-> D1 / (2 * f1) < Rabs th \/ D2 * f1 / (2 * f2) < Rabs y) /\
  exists n v, v <= D2 * (f1 / f2) < v + 4 / 1000000 /\ forall fuel, (n <= fuel)%nat ->
    fieldOfView fuel e = Ok (Fin v) /\
    fieldStop fuel e = Ok (mkStop (Some (Fin (2 * f1 + 2 * f2))) (Some (Fin D2))) /\
    exists s, (forall h, imageSize fuel e false h = Ok (Fin s)) /\ s <= D2 < s + 4 / 1000000 * (f2 / f1).
Proof. exact relay_field. Qed.
Print Assumptions C138_relay.
(** focal lengths 10 and 200, diaphragm 5, detector 20: rays up to 1/4 and a field of view of 1 *)
Example C138_example : / 100000 <= 10 /\ 0 < 200 /\ 0 < 5 /\ 0 < 20 /\ 3 / 80000 <= 20 * 10 / (2 * 200) <= 7000 /\
  5 / (2 * 10) = 1 / 4 /\ 20 * (10 / 200) = 1.
Proof. repeat split; lra. Qed.
