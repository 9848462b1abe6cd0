(** Property theorems C120: the f-number.  Each theorem is closed by a lemma proved elsewhere; the examples show that its
    hypotheses can be met. *)
From Coq Require Import Reals Lra Lia List Bool String ZArith Floats.
From Verif Require Import Base Nums Optics Group Spec MatrixProofs ElementProofs GroupProofs TraceProofs RayProofs CardinalProofs StrictProofs
  FlipProofs TransferProofs CardinalMore Samples Samples2 Imaging SearchProofs ImagingProofs FieldProofs FieldMore Samples3 FNumberProofs Samples4
  GroupRefutations ImagingRefutations FNumberRefutations.
Import ListNotations.
Set Warnings "-inexact-float".
Open Scope list_scope.
Open Scope R_scope.

(** ** C120 *)
(** fNumber is the opening of the cone of light that leaves the path when parallel light fills it up to the edge of the stop:
    a ray parallel to the axis at the edge of the entrance pupil meets the edge of the stop and leaves with the (reduced) angle
    -1/(2N) *)
Theorem C120_cone :
  forall e o ps z D, canon e o -> Forall2 is_piece (leaves e) ps -> onf o = 1 -> hasFiniteApertureDiameter e = true ->
  apertureStop e = Ok (mkStop (Some (Fin z)) (Some (Fin D))) -> 0 < D -> A_ (matrix_to ps z) <> 0 -> power o ->
  exists n zp Dp, fNumber e = Ok (Some (Fin n)) /\ entrancePupil e = Ok (mkStop (Some (Fin zp)) (Some (Fin Dp))) /\ 0 < Dp /\
    Rabs (fst (mapp (matrix_to ps z) (Dp / 2, 0))) = D / 2 /\
    2 * n * (onb o * snd (mapp (oM o) (Dp / 2, 0))) = -1.
Proof. exact f_number_cone. Qed.
Print Assumptions C120_cone.

(** without power it is infinite *)
Theorem C120_afocal :
  forall e o ps z D, canon e o -> Forall2 is_piece (leaves e) ps -> onf o = 1 -> hasFiniteApertureDiameter e = true ->
  apertureStop e = Ok (mkStop (Some (Fin z)) (Some (Fin D))) -> 0 < D -> A_ (matrix_to ps z) <> 0 -> ~ power o ->
  fNumber e = Ok (Some PInf).
Proof. exact f_number_afocal. Qed.
Print Assumptions C120_afocal.

(** when the stop also limits parallel light, exactly the parallel rays inside the entrance pupil get through *)
Theorem C120_parallel :
  forall e ps i km D, Forall2 is_piece (leaves e) ps -> Forall not_axicon (leaves e) -> Forall2 thin_aperture (leaves e) ps ->
  nth_error (leaves e) i = Some km -> mdiam (snd km) = Fin D -> A_ (upto ps (S i)) <> 0 ->
  (forall j km' D', nth_error (leaves e) j = Some km' -> mdiam (snd km') = Fin D' ->
     Rabs (A_ (upto ps (S j))) * D <= Rabs (A_ (upto ps (S i))) * D') ->
  forall y z (d : XR) w, rblk (traceThrough e (fray y 0 z false d w)) = Rltb (D / Rabs (A_ (upto ps (S i))) / 2) (Rabs y).
Proof. exact pupil_of_parallel_light. Qed.
Print Assumptions C120_parallel.

(** an aperture met outside by the ray of apertureStop is the stop, whatever comes behind *)
Theorem C120_first :
  forall e o ps i km D, canon e o -> Forall2 is_piece (leaves e) ps ->
  Forall not_axicon (leaves e) -> Forall2 thin_aperture (leaves e) ps -> hasFiniteApertureDiameter e = true ->
  nth_error (leaves e) i = Some km -> mdiam (snd km) = Fin D ->
  (forall j km', (j < i)%nat -> nth_error (leaves e) j = Some km' -> mdiam (snd km') = PInf) ->
  5 * D < Rabs (B_ (upto ps (S i))) ->
  apertureStop e = Ok (mkStop (Some (Fin (depth ps (S i)))) (Some (Fin D))).
Proof. exact first_aperture_is_stop. Qed.
Print Assumptions C120_first.

(** for an object far enough the stop is the first aperture of the path, and the f-number that of this aperture *)
Theorem C120_far :
  forall qs i D, A_ (upto qs (S i)) <> 0 ->
  exists d0, forall d e o km, d0 <= d -> canon e o -> Forall2 is_piece (leaves e) (before d qs) ->
    Forall not_axicon (leaves e) -> Forall2 thin_aperture (leaves e) (before d qs) -> hasFiniteApertureDiameter e = true ->
    nth_error (leaves e) (S i) = Some km -> mdiam (snd km) = Fin D ->
    (forall j km', (j <= i)%nat -> nth_error (leaves e) j = Some km' -> mdiam (snd km') = PInf) ->
    onf o = 1 -> power o ->
    apertureStop e = Ok (mkStop (Some (Fin (depth (before d qs) (S (S i))))) (Some (Fin D))) /\
    exists n f, fNumber e = Ok (Some (Fin n)) /\ effectiveFocalLengths (emat e) = Ok (Fin f, Fin (onb o * f)) /\
      n * (D / Rabs (A_ (upto qs (S i)))) = f.
Proof. exact far_objects. Qed.
Print Assumptions C120_far.

(** FALSE: the f-number of a lens is not that of the light of a distant object.  A lens f=50 of diameter 25 with an aperture of
    10 at 20 behind it is f/3 for an object at 10 and f/2 for an object at 200, although the aperture stops a parallel ray at
    height 9, inside the reported entrance pupil of 25. *)
Theorem C120_f_number_of_distance_refuted :
  exists (e1 e2 : @elem float) s1 s2 l s a r,
  Space (fz 10) c1 ninf = Ok s1 /\ Space (fz 200) c1 ninf = Ok s2 /\ Lens (fz 50) (fz 25) = Ok l /\ Space (fz 20) c1 ninf = Ok s /\ Aperture (fz 10) ninf = Ok a /\
  built [s1; l; s; a] e1 /\ built [s2; l; s; a] e2 /\
  fNumber e1 = Ok (Some r) /\ neqb r (fz 3) = true /\ fNumber e2 = Ok (Some (fz 2)) /\
  entrancePupil e2 = Ok (mkStop (Some (fz 200)) (Some (fz 25))) /\
  rblk (traceThrough e2 (Ray_new (fz 9) c0)) = true /\ rblk (traceThrough e2 (Ray_new (fz 8) c0)) = false.
Proof. exact f_number_of_distance. Qed.
Print Assumptions C120_f_number_of_distance_refuted.

(** *** Examples *)
(** the camera of [Samples3] is an f/3 and parallel rays get through up to 50/6 *)
Example C120_ex_camera : exists e, is_camera e /\ fNumber e = Ok (Some (Fin 3)) /\
  forall y z (d : XR) w, rblk (traceThrough e (fray y 0 z false d w)) = Rltb (25 / 3) (Rabs y).
Proof.
  destruct camera_exists as [e C]. exists e. split; [exact C|].
  assert (power camera_optic) as Hp.
  { unfold power, camera_optic, path_optic. cbn. match goal with |- context [Rabs ?c] => replace c with (- (/ 50)) by field end. rewrite Rabs_Ropp, Rabs_pos_eq by lra. lra. }
  split.
  - destruct (C120_cone e camera_optic camera_pieces 30 10 (ca_canon e C) (ca_pieces e C) eq_refl (ca_finite e C) (camera_stop e C) ltac:(lra)
      ltac:(rewrite camera_matrix; cbn; lra) Hp) as (n & zp & Dp & En & _ & Hpos & H1 & H2).
    rewrite En. do 3 f_equal. rewrite camera_matrix in H1. unfold mapp in H1, H2. cbn [fst snd A_ B_ C_ D_] in H1.
    rewrite Rabs_pos_eq in H1 by lra. assert (Dp = 50 / 3) as -> by lra.
    unfold camera_optic, path_optic in H2. cbn in H2. lra.
  - intros y z d w.
    rewrite (C120_parallel e camera_pieces 3 (KAperture, emat (x_aperture 10)) 10 (ca_pieces e C) (ca_lin e C) (ca_thin e C)
      ltac:(rewrite (ca_leaves e C); reflexivity) eq_refl).
    + f_equal. unfold upto, mprod. cbn. match goal with |- context [Rabs ?c] => replace c with (3 / 5) by field end. rewrite Rabs_pos_eq by lra. lra.
    + unfold upto, mprod. cbn. lra.
    + intros j km' D' Ej ED. rewrite (ca_leaves e C) in Ej.
      destruct j as [|[|[|[|[|j]]]]]; cbn in Ej; try (injection Ej as <-; cbn in ED; try discriminate ED; injection ED as <-); try (destruct j; discriminate Ej).
      all: unfold upto, mprod; cbn; repeat match goal with |- context [Rabs ?c] => rewrite (Rabs_pos_eq c) by lra end; lra.
Qed.
(** the same lens is an f/2 for all distant objects *)
Example C120_ex_far : exists d0, forall d, d0 <= d -> 0 <= d -> exists e, is_shot d e /\ fNumber e = Ok (Some (Fin 2)).
Proof.
  destruct (C120_far shot_lens 0 25) as [d0 H]; [rewrite shot_A1; lra|].
  exists d0. intros d Hd Hd0. destruct (shot_exists d Hd0) as [e C]. exists e. split; [exact C|].
  destruct (H d e (shot_optic d) (KLens (Fin 50) (Fin 4), emat (x_lens 50 25)) Hd (sh_canon d e C) (sh_pieces d e C) (sh_lin d e C) (sh_thin d e C) (sh_finite d e C)
    ltac:(rewrite (sh_leaves d e C); reflexivity) eq_refl) as (_ & n & f & En & Ef & Enf).
  - intros j km' Hj Ej. rewrite (sh_leaves d e C) in Ej. assert (j = 0%nat) as -> by lia. injection Ej as <-. reflexivity.
  - reflexivity.
  - apply (sh_power d e C).
  - rewrite En. do 3 f_equal. rewrite shot_A1, Rabs_R1 in Enf.
    rewrite (focal_ok _ _ (canon_describes _ _ (sh_canon d e C)) (canon_physical _ _ (sh_canon d e C)) (sh_power d e C)) in Ef.
    injection Ef as Ef _. cbn in Ef. lra.
Qed.
(** with the object at 200 the lens is the stop *)
Example C120_ex_first : exists e, is_shot 200 e /\ apertureStop e = Ok (mkStop (Some (Fin (depth (before 200 shot_lens) 2))) (Some (Fin 25))).
Proof.
  destruct (shot_exists 200 ltac:(lra)) as [e C]. exists e. split; [exact C|].
  apply (C120_first e (shot_optic 200) (before 200 shot_lens) 1 (KLens (Fin 50) (Fin 4), emat (x_lens 50 25)) 25 (sh_canon _ e C) (sh_pieces _ e C) (sh_lin _ e C) (sh_thin _ e C) (sh_finite _ e C)
    ltac:(rewrite (sh_leaves _ e C); reflexivity) eq_refl).
  - intros j km' Hj Ej. rewrite (sh_leaves _ e C) in Ej. assert (j = 0%nat) as -> by lia. injection Ej as <-. reflexivity.
  - unfold upto, mprod. cbn. rewrite Rabs_pos_eq; lra.
Qed.
