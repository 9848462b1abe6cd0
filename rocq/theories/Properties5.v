(** Property theorems C32-C40: stops, pupils, special rays, field of view, sub-paths of imaging
    paths.  Each theorem is closed by a lemma proved elsewhere; the examples show that its
    hypotheses can be met (the path of Samples3.v).  [ps] lists the pieces of the path,
    [depth ps (S i)] is the position of the back of element [i], [upto ps i] the matrix of the
    elements before element [i], [matrix_to ps z] the matrix of everything before depth [z]. *)
From Coq Require Import ZArith Reals Lra Lia List Bool String Floats.
From Verif Require Import Base Nums Optics Group Spec MatrixProofs ElementProofs GroupProofs
  TraceProofs RayProofs CardinalProofs StrictProofs FlipProofs TransferProofs CardinalMore Samples
  Samples2 Imaging SearchProofs ImagingProofs FieldProofs FieldMore Samples3 GroupRefutations
  ImagingRefutations.
Import ListNotations.
Open Scope list_scope.
Open Scope R_scope.

(** ** C32 *)
(** [axis_height ps i th]: height behind element [i] of the on-axis ray with angle [th] *)
Theorem C32_stop_partial :
  forall (e : @elem XR) o ps,
  canon e o -> Forall2 is_piece (leaves e) ps -> Forall not_axicon (leaves e) ->
  hasFiniteApertureDiameter e = true -> rblk (traceThrough e probe) = false ->
  (apertureStop e = Ok (mkStop (Some (Fin 0)) (Some PInf)) /\
   forall j km, nth_error (leaves e) j = Some km ->
     ratio (probe_height ps j) (mdiam (snd km)) = 0) \/
  (exists i km, nth_error (leaves e) i = Some km /\
     apertureStop e = Ok (mkStop (Some (Fin (depth ps (S i)))) (Some (mdiam (snd km)))) /\
     0 < ratio (probe_height ps i) (mdiam (snd km)) /\
     forall j km', nth_error (leaves e) j = Some km' ->
       ratio (probe_height ps j) (mdiam (snd km')) <= ratio (probe_height ps i) (mdiam (snd km)) /\
       ((j < i)%nat ->
        ratio (probe_height ps j) (mdiam (snd km')) < ratio (probe_height ps i) (mdiam (snd km)))).
Proof. exact stop_spec. Qed.
Print Assumptions C32_stop_partial.

Theorem C32_stop_limits_partial :
  forall (e : @elem XR) o ps,
  canon e o -> Forall2 is_piece (leaves e) ps -> Forall not_axicon (leaves e) ->
  Forall2 thin_aperture (leaves e) ps ->
  hasFiniteApertureDiameter e = true -> rblk (traceThrough e probe) = false ->
  (apertureStop e = Ok (mkStop (Some (Fin 0)) (Some PInf)) /\
   forall th z (d : XR) w, rblk (traceThrough e (fray 0 th z false d w)) = false) \/
  (exists i D, (exists km, nth_error (leaves e) i = Some km /\ mdiam (snd km) = Fin D) /\ 0 < D /\
     apertureStop e = Ok (mkStop (Some (Fin (depth ps (S i)))) (Some (Fin D))) /\
     forall th z (d : XR) w,
       rblk (traceThrough e (fray 0 th z false d w)) = Rltb (D / 2) (Rabs (axis_height ps i th))).
Proof. exact stop_limits. Qed.
Print Assumptions C32_stop_limits_partial.
Example C32_example : exists e, canon e camera_optic /\ Forall2 is_piece (leaves e) camera_pieces /\
  Forall not_axicon (leaves e) /\ Forall2 thin_aperture (leaves e) camera_pieces /\
  hasFiniteApertureDiameter e = true /\ rblk (traceThrough e probe) = false /\
  apertureStop e = Ok (mkStop (Some (Fin 30)) (Some (Fin 10))).
Proof.
  destruct camera_exists as (e & C). exists e. split; [apply (ca_canon e C)|].
  split; [apply (ca_pieces e C)|]. split; [apply (ca_lin e C)|]. split; [apply (ca_thin e C)|].
  split; [apply (ca_finite e C)|]. split; [now apply camera_probe|now apply camera_stop].
Qed.

(** when the probe ray is lost, the stop returned is the aperture on which it is lost, not the
    one that limits the light *)
Theorem C32_probe_blocked_partial :
  forall (e : @elem XR) o ps,
  canon e o -> Forall2 is_piece (leaves e) ps -> Forall not_axicon (leaves e) ->
  Forall2 thin_aperture (leaves e) ps ->
  hasFiniteApertureDiameter e = true -> rblk (traceThrough e probe) = true ->
  exists i D, (exists km, nth_error (leaves e) i = Some km /\ mdiam (snd km) = Fin D) /\
    apertureStop e = Ok (mkStop (Some (Fin (depth ps (S i)))) (Some (Fin D))) /\
    D / 2 < Rabs (axis_height ps i (/ 10)) /\
    forall j km' D', (j < i)%nat -> nth_error (leaves e) j = Some km' -> mdiam (snd km') = Fin D' ->
      Rabs (axis_height ps j (/ 10)) <= D' / 2.
Proof. exact stop_when_blocked. Qed.
Print Assumptions C32_probe_blocked_partial.
Example C32_probe_blocked_example : exists e, canon e (hole_optic 10) /\
  Forall2 is_piece (leaves e) (hole_pieces 10) /\ Forall not_axicon (leaves e) /\
  Forall2 thin_aperture (leaves e) (hole_pieces 10) /\
  hasFiniteApertureDiameter e = true /\ rblk (traceThrough e probe) = true.
Proof.
  destruct (hole_exists 10 1 ltac:(lra) ltac:(lra)) as (e & C). exists e.
  split; [apply (ho_canon _ _ _ C)|]. split; [apply (ho_pieces _ _ _ C)|].
  split; [apply (ho_lin _ _ _ C)|]. split; [apply (ho_thin _ _ _ C)|].
  split; [apply (ho_finite _ _ _ C)|]. rewrite probe_fray, (hole_passes 10 1 e) by (auto; lra).
  apply Rltb_lt. rewrite Rabs_pos_eq; lra.
Qed.

Theorem C32_probe_refuted :
  exists (e : @elem float) s a1 a2 a,
    Space (fz 10) c1 ninf = Ok s /\ Aperture (ndec 19 1) ninf = Ok a1 /\
    Aperture (ndec 1 1) ninf = Ok a2 /\ built [s; a1; s; a2] e /\
    apertureStop e = Ok (mkStop (Some (fz 10)) (Some (ndec 19 1))) /\
    axialRay e = Ok (Some a) /\ rblk (traceThrough e a) = true /\
    rblk (traceThrough e (Ray_new c0 (ndec 1 2))) = true /\
    rdiam (traceThrough e (Ray_new c0 (ndec 1 2))) = ndec 1 1.
Proof. exact stop_not_limiting. Qed.
Print Assumptions C32_probe_refuted.

Theorem C32_image_plane_refuted :
  exists (e : @elem float) s l a,
    Space (fz 20) c1 ninf = Ok s /\ Lens (fz 10) ninf = Ok l /\ Aperture (fz 10) ninf = Ok a /\
    built [s; l; s; a] e /\ hasFiniteApertureDiameter e = true /\
    apertureStop e = Ok (mkStop (Some c0) (Some ninf)).
Proof. exact stop_at_the_object. Qed.
Print Assumptions C32_image_plane_refuted.

(** ** C33 *)
Theorem C33_chief_ray :
  forall (e : @elem XR) o ps z d y,
  canon e o -> Forall2 is_piece (leaves e) ps ->
  apertureStop e = Ok (mkStop (Some (Fin z)) d) ->
  (Rabs (B_ (matrix_to ps z)) < / 100000 -> chiefRayAt e (Fin y) = Ok None) /\
  (/ 100000 <= Rabs (B_ (matrix_to ps z)) -> exists th,
     chiefRayAt e (Fin y) = Ok (Some (fray y th 0 false PInf None)) /\
     th = - A_ (matrix_to ps z) / B_ (matrix_to ps z) * y /\
     fst (mapp (matrix_to ps z) (y, th)) = 0).
Proof. exact chief_ray. Qed.
Print Assumptions C33_chief_ray.

Theorem C33_marginal_rays :
  forall (e : @elem XR) o ps z D y,
  canon e o -> Forall2 is_piece (leaves e) ps ->
  apertureStop e = Ok (mkStop (Some (Fin z)) (Some (Fin D))) ->
  (Rabs (B_ (matrix_to ps z)) < / 100000 -> marginalRays e (Fin y) = Ok None) /\
  (/ 100000 <= Rabs (B_ (matrix_to ps z)) -> exists up down,
     marginalRays e (Fin y) = Ok (Some (fray y up 0 false PInf None, fray y down 0 false PInf None)) /\
     down <= up /\
     let M := matrix_to ps z in
     fst (mapp M (y, up)) = D / 2 /\ fst (mapp M (y, down)) = - (D / 2) \/
     fst (mapp M (y, up)) = - (D / 2) /\ fst (mapp M (y, down)) = D / 2).
Proof. exact marginal_rays_spec. Qed.
Print Assumptions C33_marginal_rays.

Theorem C33_axial_ray :
  forall (e : @elem XR) o ps z D,
  canon e o -> Forall2 is_piece (leaves e) ps ->
  apertureStop e = Ok (mkStop (Some (Fin z)) (Some (Fin D))) -> 0 < D ->
  / 100000 <= Rabs (B_ (matrix_to ps z)) -> exists th,
  axialRay e = Ok (Some (fray 0 th 0 false PInf None)) /\ 0 < th /\
  Rabs (fst (mapp (matrix_to ps z) (0, th))) = D / 2.
Proof. exact axial_ray. Qed.
Print Assumptions C33_axial_ray.
Example C33_example : exists e, canon e camera_optic /\ Forall2 is_piece (leaves e) camera_pieces /\
  apertureStop e = Ok (mkStop (Some (Fin 30)) (Some (Fin 10))) /\
  matrix_to camera_pieces 30 = mk2 (3/5) 26 (-1/50) (4/5) /\
  / 100000 <= Rabs (B_ (matrix_to camera_pieces 30)).
Proof.
  destruct camera_exists as (e & C). exists e. split; [apply (ca_canon e C)|].
  split; [apply (ca_pieces e C)|]. split; [now apply camera_stop|].
  split; [apply camera_matrix|]. apply (am_B _ _ _ _ (camera_aimed e C)).
Qed.

(** ** C34 *)
Theorem C34_axial_ray_partial :
  forall (e : @elem XR) o ps,
  canon e o -> Forall2 is_piece (leaves e) ps -> Forall not_axicon (leaves e) ->
  Forall2 thin_aperture (leaves e) ps ->
  hasFiniteApertureDiameter e = true -> rblk (traceThrough e probe) = false ->
  forall r, axialRay e = Ok (Some r) ->
  apertureStop e <> Ok (mkStop (Some (Fin 0)) (Some PInf)) ->
  exists th, r = fray 0 th 0 false PInf None /\ 0 < th /\ rblk (traceThrough e r) = false /\
    forall th' z (d : XR) w,
      rblk (traceThrough e (fray 0 th' z false d w)) = Rltb th (Rabs th').
Proof. exact axial_ray_steepest. Qed.
Print Assumptions C34_axial_ray_partial.
Example C34_example : exists e r, canon e camera_optic /\ Forall2 is_piece (leaves e) camera_pieces /\
  Forall2 thin_aperture (leaves e) camera_pieces /\ rblk (traceThrough e probe) = false /\
  axialRay e = Ok (Some r) /\ apertureStop e <> Ok (mkStop (Some (Fin 0)) (Some PInf)).
Proof.
  destruct camera_exists as (e & C).
  destruct (axial_ray e _ _ 30 10 (ca_canon e C) (ca_pieces e C) (camera_stop e C) ltac:(lra)
    (am_B _ _ _ _ (camera_aimed e C))) as (th & Ea & _).
  exists e, (fray 0 th 0 false PInf None). split; [apply (ca_canon e C)|].
  split; [apply (ca_pieces e C)|]. split; [apply (ca_thin e C)|]. split; [now apply camera_probe|].
  split; auto. rewrite (camera_stop e C). intros [= H1 H2].
Qed.

Theorem C34_angle_limited_refuted :
  exists (e : @elem float) s a r,
    Space (fz 10) c1 ninf = Ok s /\ Aperture (fz 10) (ndec 1 1) = Ok a /\ built [s; a] e /\
    axialRay e = Ok (Some r) /\ rblk (traceThrough e r) = true.
Proof. exact axial_ray_blocked_na. Qed.
Print Assumptions C34_angle_limited_refuted.

Theorem C34_rounding_refuted :
  exists (e : @elem float) s a r,
    Space (fz 7) c1 ninf = Ok s /\ Aperture (fz 29) ninf = Ok a /\ built [s; a] e /\
    axialRay e = Ok (Some r) /\ rblk (traceThrough e r) = true.
Proof. exact axial_ray_blocked_rounding. Qed.
Print Assumptions C34_rounding_refuted.

(** ** C35 *)
(** free space [-zp] in front of the path images the pupil on the stop with magnification A *)
Theorem C35_entrance_pupil_partial :
  forall (e : @elem XR) o ps z D,
  canon e o -> Forall2 is_piece (leaves e) ps -> onf o = 1 ->
  hasFiniteApertureDiameter e = true ->
  apertureStop e = Ok (mkStop (Some (Fin z)) (Some (Fin D))) -> A_ (matrix_to ps z) <> 0 ->
  exists zp Dp, entrancePupil e = Ok (mkStop (Some (Fin zp)) (Some (Fin Dp))) /\
    (forall y th, fst (mapp (mmul (matrix_to ps z) (free (- zp))) (y, th)) = A_ (matrix_to ps z) * y) /\
    Rabs (A_ (matrix_to ps z)) * Dp = D.
Proof. exact entrance_pupil. Qed.
Print Assumptions C35_entrance_pupil_partial.
Example C35_example : exists e, canon e camera_optic /\ Forall2 is_piece (leaves e) camera_pieces /\
  onf camera_optic = 1 /\ hasFiniteApertureDiameter e = true /\
  apertureStop e = Ok (mkStop (Some (Fin 30)) (Some (Fin 10))) /\ A_ (matrix_to camera_pieces 30) <> 0.
Proof.
  destruct camera_exists as (e & C). exists e. split; [apply (ca_canon e C)|].
  split; [apply (ca_pieces e C)|]. split; [reflexivity|]. split; [apply (ca_finite e C)|].
  split; [now apply camera_stop|]. rewrite camera_matrix. cbn. lra.
Qed.

Theorem C35_glass_refuted :
  exists (e : @elem float) s i,
    Space (fz 10) n15 ninf = Ok s /\ DielectricInterface n15 c1 ninf (fz 4) = Ok i /\
    built [s; i] e /\ apertureStop e = Ok (mkStop (Some (fz 10)) (Some (fz 4))) /\
    entrancePupil e = Err ValueError.
Proof. exact entrance_pupil_glass. Qed.
Print Assumptions C35_glass_refuted.

(** ** C36 *)
(** [aimed e o ps z]: the path is well-formed, its stop is at [z], and it is not imaged on the
    object; [field_edge e h]: the chief ray from [y] is blocked iff [h < |y|] *)
Theorem C36_search_partial :
  forall (e : @elem XR) o ps z, aimed e o ps z -> z <> 0 ->
  (exists n f v, forall fuel, (n <= fuel)%nat ->
     fieldStop fuel e = Ok f /\ halfFieldOfView fuel e = Ok v /\
     (exists x, fieldOfView fuel e = Ok x) /\ (exists r, principalRay fuel e = Ok r)) \/
  (exists h, 0 < h < 3 / 80000 /\ field_edge e h /\ forall fuel,
     fieldStop fuel e = Err OutOfFuel /\ halfFieldOfView fuel e = Err OutOfFuel).
Proof. exact search_outcomes. Qed.
Print Assumptions C36_search_partial.
Example C36_example : exists e, aimed e camera_optic camera_pieces 30.
Proof. destruct camera_exists as (e & C). exists e. now apply camera_aimed. Qed.

Theorem C36_no_search_partial :
  forall T (N : Num T) fuel (e : @elem T) s, apertureStop e = Ok s ->
  hasFiniteApertureDiameter e = false \/ (exists z, st_z s = Some z /\ neqb z c0 = true) ->
  fieldStop fuel e = Ok (mkStop None (Some ninf)) /\ halfFieldOfView fuel e = Ok ninf.
Proof. exact @field_not_searched. Qed.
Print Assumptions C36_no_search_partial.

Theorem C36_hangs_refuted :
  exists (e : @elem float) a1 s a2,
    Aperture (ndec 5 5) ninf = Ok a1 /\ Space (fz 10) c1 ninf = Ok s /\ Aperture (fz 10) ninf = Ok a2 /\
    built [a1; s; a2] e /\
    forall fuel, fieldStop fuel e = Err OutOfFuel /\ halfFieldOfView fuel e = Err OutOfFuel /\
      fieldOfView fuel e = Err OutOfFuel /\ principalRay fuel e = Err OutOfFuel.
Proof. exact field_search_hangs. Qed.
Print Assumptions C36_hangs_refuted.

Theorem C36_raises_refuted :
  exists (e : @elem float) s1 l s2 a,
    Space n15 c1 ninf = Ok s1 /\ Lens c1 ninf = Ok l /\ Space (fz 3) c1 ninf = Ok s2 /\
    Aperture (fz 10) ninf = Ok a /\ built [s1; l; s2; a] e /\
    forall fuel, fieldStop (S fuel) e = Err TypeError /\ halfFieldOfView (S fuel) e = Err TypeError /\
      fieldOfView (S fuel) e = Err TypeError /\ principalRay (S fuel) e = Err TypeError.
Proof. exact field_search_raises. Qed.
Print Assumptions C36_raises_refuted.

(** in exact arithmetic the error arises for every stop within 1e-5 of an image of the object *)
Theorem C36_raises_near_image :
  forall (e : @elem XR) o ps z d,
  canon e o -> Forall2 is_piece (leaves e) ps ->
  apertureStop e = Ok (mkStop (Some (Fin z)) d) -> z <> 0 ->
  Rabs (B_ (matrix_to ps z)) < / 100000 ->
  forall fuel, fieldStop (S fuel) e = Err TypeError /\ halfFieldOfView (S fuel) e = Err TypeError.
Proof. exact field_raises. Qed.
Print Assumptions C36_raises_near_image.
Example C36_near_image_example : exists e, canon e (hole_optic (/ 1000000)) /\
  Forall2 is_piece (leaves e) (hole_pieces (/ 1000000)) /\
  apertureStop e = Ok (mkStop (Some (Fin (/ 1000000))) (Some (Fin 10))) /\
  Rabs (B_ (matrix_to (hole_pieces (/ 1000000)) (/ 1000000))) < / 100000.
Proof.
  destruct (hole_exists (/ 1000000) 10 ltac:(lra) ltac:(lra)) as (e & C). exists e.
  split; [apply (ho_canon _ _ _ C)|]. split; [apply (ho_pieces _ _ _ C)|].
  split; [apply (hole_stop _ _ _ C); lra|]. rewrite hole_matrix by lra. cbn. rewrite Rabs_pos_eq; lra.
Qed.

(** ** C37 *)
(** on any numbers, doubles included, the height returned is transmitted *)
Theorem C37_transmitted :
  forall T (N : Num T) fuel (e : @elem T) v, precise_start ->
  halfFieldOfView fuel e = Ok v ->
  v = ninf \/ exists r, chiefRayAt e v = Ok (Some r) /\ ry r = v /\ rblk (traceThrough e r) = false.
Proof. exact @half_field_transmitted. Qed.
Print Assumptions C37_transmitted.
Example C37_precise : @precise_start float _.
Proof. exact precise_start_float. Qed.

(** and it is maximal up to twice the precision 1e-6 *)
Theorem C37_maximal :
  forall (e : @elem XR) o ps z, aimed e o ps z -> z <> 0 ->
  forall h v fuel, field_edge e h -> 3 / 80000 <= h < tried 42 ->
  halfFieldOfView fuel e = Ok v -> exists x, v = Fin x /\ x <= h < x + 2 * prec.
Proof. exact half_field_edge. Qed.
Print Assumptions C37_maximal.

Theorem C37_returned :
  forall (e : @elem XR) o ps z, aimed e o ps z -> z <> 0 ->
  forall h, field_edge e h -> 3 / 80000 <= h < tried 42 ->
  exists n v, v <= h < v + 2 * prec /\
    forall fuel, (n <= fuel)%nat -> halfFieldOfView fuel e = Ok (Fin v).
Proof. exact half_field_found. Qed.
Print Assumptions C37_returned.
Example C37_example : exists e, aimed e camera_optic camera_pieces 30 /\ field_edge e (65/4) /\
  3 / 80000 <= 65 / 4 < tried 42.
Proof.
  destruct camera_exists as (e & C). exists e. split; [now apply camera_aimed|].
  split; [now apply camera_edge|]. pose proof tried_42. lra.
Qed.

(** fields without edge, but also those beyond [tried 42] (about 7463), are reported infinite *)
Theorem C37_infinite :
  forall (e : @elem XR) o ps z, aimed e o ps z -> z <> 0 ->
  no_field_edge e \/ (exists h, field_edge e h /\ tried 42 <= h) ->
  exists n, forall fuel, (n <= fuel)%nat ->
    fieldStop fuel e = Ok (mkStop None (Some PInf)) /\ halfFieldOfView fuel e = Ok PInf.
Proof. exact field_unlimited. Qed.
Print Assumptions C37_infinite.
Example C37_infinite_example : exists e, aimed e (hole_optic 10) (hole_pieces 10) 10 /\ no_field_edge e.
Proof.
  destruct (hole_exists 10 4 ltac:(lra) ltac:(lra)) as (e & C). exists e.
  split; [apply (hole_aimed 10 4 e C); lra|apply (hole_no_edge 10 4 e C); lra].
Qed.

Theorem C37_large_field_refuted :
  exists (e : @elem float) a1 s a2 r,
    Aperture (fz 16000) ninf = Ok a1 /\ Space (fz 10) c1 ninf = Ok s /\ Aperture (fz 10) ninf = Ok a2 /\
    built [a1; s; a2] e /\
    halfFieldOfView 100 e = Ok ninf /\
    chiefRayAt e (fz 8001) = Ok (Some r) /\ rblk (traceThrough e r) = true.
Proof. exact large_field_infinite. Qed.
Print Assumptions C37_large_field_refuted.

(** ** C38 *)
(** for paths whose limited elements are thin; [after l r i] is [r] in front of element [i] as if
    nothing had blocked it *)
Theorem C38_field_stop_partial :
  forall (e : @elem XR) o ps z, aimed e o ps z -> z <> 0 ->
  forall h, Forall2 thin_if_limiting (leaves e) ps -> field_edge e h -> 3 / 80000 <= h < tried 42 ->
  exists n v i km, h < v <= h + 2 * prec /\ nth_error (leaves e) i = Some km /\
    misses (snd km) (after (leaves e) (chief ps z v) i) = true /\
    (forall j km', (j < i)%nat -> nth_error (leaves e) j = Some km' ->
       misses (snd km') (after (leaves e) (chief ps z v) j) = false) /\
    forall fuel, (n <= fuel)%nat ->
      fieldStop fuel e = Ok (mkStop (Some (Fin (depth ps (S i)))) (Some (mdiam (snd km)))).
Proof. exact field_stop_element. Qed.
Print Assumptions C38_field_stop_partial.
Example C38_example : exists e, aimed e camera_optic camera_pieces 30 /\ field_edge e (65/4) /\
  Forall2 thin_if_limiting (leaves e) camera_pieces.
Proof.
  destruct camera_exists as (e & C). exists e. split; [now apply camera_aimed|].
  split; [now apply camera_edge|apply (ca_limit e C)].
Qed.

(** on any numbers: a stop that is found blocks some chief ray at the reported position *)
Theorem C38_blocks_partial :
  forall T (N : Num T) fuel (e : @elem T) z d, precise_start ->
  fieldStop fuel e = Ok (mkStop (Some z) d) ->
  exists y r, chiefRayAt e y = Ok (Some r) /\ rblk (traceThrough e r) = true /\
    z = rz (traceThrough e r) /\ d = Some (rdiam (traceThrough e r)).
Proof. exact @field_stop_blocks. Qed.
Print Assumptions C38_blocks_partial.

Theorem C38_thick_refuted :
  exists (e : @elem float) s a t v r,
    Space (fz 10) c1 ninf = Ok s /\ Aperture (fz 4) ninf = Ok a /\ Space (fz 5) c1 (fz 10) = Ok t /\
    built [s; a; s; t] e /\
    fieldStop 100 e = Ok (mkStop (Some (fz 20)) (Some ninf)) /\
    halfFieldOfView 100 e = Ok v /\ chiefRayAt e (nadd v (ndec 1 5)) = Ok (Some r) /\
    rblk (traceThrough (fpath [s; a; s]) r) = false /\ rblk (traceThrough e r) = true.
Proof. exact field_stop_wrong_diameter. Qed.
Print Assumptions C38_thick_refuted.

(** ** C39 *)
Theorem C39_lagrange_partial :
  forall (e : @elem XR) o ps z, aimed e o ps z -> z <> 0 ->
  forall D h, (exists gk m es, e = Group gk m es) -> onf o = 1 ->
  apertureStop e = Ok (mkStop (Some (Fin z)) (Some (Fin D))) -> 0 < D ->
  field_edge e h -> 3 / 80000 <= h < tried 42 ->
  exists n a p th y, forall fuel, (n <= fuel)%nat ->
    axialRay e = Ok (Some a) /\ rth a = Fin th /\ ry a = Fin 0 /\
    principalRay fuel e = Ok (Some p) /\ ry p = Fin y /\
    lagrangeInvariant fuel e = Ok (Fin (th * y)) /\
    forall z', 0 <= z' -> opticalInvariant e a p (Fin z') = Ok (Fin (th * y)).
Proof. exact lagrange_invariant. Qed.
Print Assumptions C39_lagrange_partial.
Example C39_example : exists e, aimed e camera_optic camera_pieces 30 /\
  (exists gk m es, e = Group gk m es) /\ onf camera_optic = 1 /\
  apertureStop e = Ok (mkStop (Some (Fin 30)) (Some (Fin 10))) /\ field_edge e (65/4).
Proof.
  destruct camera_exists as (e & C). exists e. split; [now apply camera_aimed|].
  split; [destruct (ca_group e C) as (g & _ & ->); eauto|]. split; [reflexivity|].
  split; [now apply camera_stop|now apply camera_edge].
Qed.

Theorem C39_glass_refuted :
  exists (e : @elem float) s i a2 s2 a p v v5,
    Space (fz 10) n15 ninf = Ok s /\ DielectricInterface n15 c1 ninf (fz 4) = Ok i /\
    Space (fz 10) c1 ninf = Ok s2 /\ Aperture (fz 10) ninf = Ok a2 /\ built [s; i; s2; a2] e /\
    axialRay e = Ok (Some a) /\ principalRay 100 e = Ok (Some p) /\
    lagrangeInvariant 100 e = Ok v /\ v = nmul (rth a) (ry p) /\ nltb c0 v = true /\
    opticalInvariant e a p (fz 5) = Ok v5 /\ nltb (nmul (ndec 149 2) v) v5 = true.
Proof. exact lagrange_invariant_glass. Qed.
Print Assumptions C39_glass_refuted.

(** ** C40 *)
Theorem C40_subPath_partial :
  forall (pre : list (@elem XR)) x post pos o qos zs,
  Forall2 (fun e o => describes (emat e) o) (pre ++ x :: post) (pos ++ o :: qos) ->
  List.length pre = List.length pos -> chain (pos ++ o :: qos) ->
  Forall (fun o => 0 <= oL o) pos -> is_Space x = true -> oM o = free (oL o) ->
  onf o = 1 -> onb o = 1 ->
  total_length pos < zs < total_length pos + oL o ->
  let rest := total_length pos + oL o - zs in
  exists g, subPath (pre ++ x :: post) (Fin zs) false = Ok g /\
    gelems g = space1 rest 1 :: post /\
    tracks (gmat g) (path_optic (o_space rest 1) qos) /\
    oL (path_optic (o_space rest 1) qos) = total_length (pos ++ o :: qos) - zs /\
    mprod (map oM (pos ++ o :: qos)) =
      mmul (oM (path_optic (o_space rest 1) qos))
           (mmul (free (zs - total_length pos)) (mprod (map oM pos))).
Proof. exact subPath_forward. Qed.
Print Assumptions C40_subPath_partial.

(** backwards, for paths of elements that are their own mirror images *)
Theorem C40_backwards_partial :
  forall (pre : list (@elem XR)) x post pos o qos zs,
  Forall2 (fun e o => describes (emat e) o) (pre ++ x :: post) (pos ++ o :: qos) ->
  List.length pre = List.length pos ->
  Forall (fun o => 0 <= oL o) pos -> is_Space x = true ->
  Forall (fun o => physical o /\ onf o = 1 /\ onb o = 1 /\ mrev (oM o) = oM o) pos ->
  total_length pos < zs < total_length pos + oL o ->
  let d := zs - total_length pos in
  exists g, subPath (pre ++ x :: post) (Fin zs) true = Ok g /\
    gelems g = space1 d 1 :: rev pre /\
    tracks (gmat g) (path_optic (o_space d 1) (rev pos)) /\
    oL (path_optic (o_space d 1) (rev pos)) = zs /\
    oM (path_optic (o_space d 1) (rev pos)) = mrev (mmul (free d) (mprod (map oM pos))).
Proof. exact subPath_backward. Qed.
Print Assumptions C40_backwards_partial.

(** the path of Samples3.v cut at 15, inside its second space *)
Example C40_example :
  Forall2 (fun (e : @elem XR) o => describes (emat e) o)
    ([x_space 10 1; x_lens 50 25] ++ x_space 20 1 :: [x_aperture 10; x_space 30 1])
    ([o_space 10 1; o_lens 50] ++ o_space 20 1 :: [o_aperture; o_space 30 1]) /\
  chain ([o_space 10 1; o_lens 50] ++ o_space 20 1 :: [o_aperture; o_space 30 1]) /\
  Forall (fun o => 0 <= oL o) [o_space 10 1; o_lens 50] /\
  Forall (fun o => physical o /\ onf o = 1 /\ onb o = 1 /\ mrev (oM o) = oM o)
    [o_space 10 1; o_lens 50] /\
  is_Space (x_space 20 1) = true /\ oM (o_space 20 1) = free (oL (o_space 20 1)) /\
  total_length [o_space 10 1; o_lens 50] < 15 < total_length [o_space 10 1; o_lens 50] + oL (o_space 20 1).
Proof.
  split; [repeat apply Forall2_cons; try apply Forall2_nil; apply mat_of_describes|].
  split; [exact camera_chain|].
  split; [repeat apply Forall_cons; try apply Forall_nil; cbn; lra|].
  split.
  { repeat apply Forall_cons; try apply Forall_nil.
    - split; [apply p_space; lra|]. split; [reflexivity|]. split; [reflexivity|].
      apply mrev_sym; [reflexivity|unfold mdet; cbn; field].
    - split; [apply p_lens|]. split; [reflexivity|]. split; [reflexivity|].
      apply mrev_sym; [reflexivity|unfold mdet; cbn; field]. }
  split; [reflexivity|]. split; [reflexivity|]. unfold total_length; cbn. lra.
Qed.

Theorem C40_glass_refuted :
  exists (i1 s i2 : @elem float) g g' x,
    DielectricInterface c1 n15 ninf ninf = Ok i1 /\ Space (fz 10) n15 ninf = Ok s /\
    DielectricInterface n15 c1 ninf ninf = Ok i2 /\
    subPath [i1; s; i2] (fz 5) false = Err ValueError /\
    subPath [i1; s; i2] (fz 5) true = Ok g' /\ gelems g' = [x; i1] /\
    subPath [i1; s] (fz 5) false = Ok g /\ gelems g = [x] /\
    mfi (emat s) = n15 /\ mfi (emat x) = c1.
Proof. exact subPath_glass. Qed.
Print Assumptions C40_glass_refuted.

Theorem C40_backwards_refuted :
  exists (s t s2 : @elem float) g r,
    Space (fz 10) c1 ninf = Ok s /\ ThickLens n15 (fz 10) ninf (fz 5) ninf = Ok t /\
    Space (fz 20) c1 ninf = Ok s2 /\
    subPath [s; t; s2] (fz 25) true = Ok g /\
    traceThrough (fpath [s; t; s]) (Ray_new c1 c0) = r /\ rz r = fz 25 /\
    let back := traceThrough (Group GGroup (gmat g) (gelems g)) (Ray_new (ry r) (nopp (rth r))) in
    nltb (ndec 1 3) (nabs (nsub (rth back) c0)) = true /\ nltb (ndec 1 2) (nsub c1 (ry back)) = true.
Proof. exact subPath_backwards_not_reversed. Qed.
Print Assumptions C40_backwards_refuted.

Theorem C40_boundary_refuted :
  exists (s l : @elem float), Space (fz 10) c1 ninf = Ok s /\ Lens (fz 5) ninf = Ok l /\
    subPath [s; l; s] (fz 10) false = Err ValueError.
Proof. exact subPath_boundary. Qed.
Print Assumptions C40_boundary_refuted.
