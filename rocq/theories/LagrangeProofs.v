(** The Lagrange invariant of paths without stops. *)
From Coq Require Import ZArith List Bool String Lia Reals Lra.
From Verif Require Import Base Nums Optics Imaging.
Import ListNotations.

Theorem lagrange_unlimited fuel (e : @elem XR) : hasFiniteApertureDiameter e = false ->
  axialRay e = Ok None /\ principalRay fuel e = Ok None /\ lagrangeInvariant fuel e = Ok PInf.
Proof.
  intros H. assert (apertureStop e = Ok (mkStop None (Some PInf))) as E by (unfold apertureStop; now rewrite H).
  assert (axialRay e = Ok None) as E1 by (unfold axialRay, marginalRays; now rewrite E).
  assert (principalRay fuel e = Ok None) as E2.
  { unfold principalRay, halfFieldOfView, fieldStop. rewrite E, H. reflexivity. }
  split; [exact E1|]. split; [exact E2|]. unfold lagrangeInvariant. now rewrite E1, E2.
Qed.
(** an aperture in front, anything behind it: no field stop is looked for *)
Theorem lagrange_front_stop fuel (e : @elem XR) d a : apertureStop e = Ok (mkStop (Some (Fin 0)) d) ->
  axialRay e = Ok a -> principalRay fuel e = Ok None /\ lagrangeInvariant fuel e = Ok PInf.
Proof.
  intros E E1. assert (principalRay fuel e = Ok None) as E2.
  { unfold principalRay, halfFieldOfView, fieldStop. rewrite E. cbn [bind st_z]. change (@c0 XR _) with (Fin 0).
    cbn [neqb NumXR xeqb]. rewrite Reqb_refl. rewrite andb_false_r. reflexivity. }
  split; [exact E2|]. unfold lagrangeInvariant. rewrite E1, E2. cbn [bind]. now destruct a.
Qed.
