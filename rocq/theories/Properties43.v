(** Property theorems: telecentric systems (C35, C120). *)
From Coq Require Import Reals Lra List Bool String ZArith Floats.
From Verif Require Import Base Nums Optics Group Spec TraceProofs StrictProofs TransferProofs Samples2 Imaging ImagingProofs TeleProofs GroupRefutations TeleRefutations.
Import ListNotations.
Open Scope list_scope.
Open Scope R_scope.

(** ** C35 *)
(** the entrance pupil is at infinity, infinitely large, exactly when the chief rays from all heights are parallel to the axis;
    otherwise its place and size are numbers *)
Theorem C35_telecentric : forall (e : @elem XR) o ps z D, canon e o -> Forall2 is_piece (leaves e) ps -> onf o = 1 ->
  hasFiniteApertureDiameter e = true ->
  apertureStop e = Ok (mkStop (Some (Fin z)) (Some (Fin D))) -> / 100000 <= Rabs (B_ (matrix_to ps z)) ->
  (entrancePupil e = Ok (mkStop (Some NInf) (Some PInf)) <-> forall y, chiefRayAt e (Fin y) = Ok (Some (Ray_new (Fin y) (Fin 0)))) /\
  ((exists zp Dp, entrancePupil e = Ok (mkStop (Some (Fin zp)) (Some (Fin Dp)))) \/ entrancePupil e = Ok (mkStop (Some NInf) (Some PInf))).
Proof. exact telecentric. Qed.
Print Assumptions C35_telecentric.
(** an object in the front focal plane of a lens and a diaphragm in its back focal plane: all focal lengths and diameters *)
Theorem C35_diaphragm : forall f D, / 100000 <= f -> 0 < D ->
  exists s l ap g, Space (Fin f) c1 PInf = Ok s /\ Lens (Fin f) PInf = Ok l /\ Aperture (Fin D) PInf = Ok ap /\
  MatrixGroup_new [s; l; s; ap] "" = Ok g /\
  apertureStop (Group GGroup (gmat g) (gelems g)) = Ok (mkStop (Some (Fin (2 * f))) (Some (Fin D))) /\
  entrancePupil (Group GGroup (gmat g) (gelems g)) = Ok (mkStop (Some NInf) (Some PInf)) /\
  forall y, chiefRayAt (Group GGroup (gmat g) (gelems g)) (Fin y) = Ok (Some (Ray_new (Fin y) (Fin 0))).
Proof. exact tele_lens. Qed.
Print Assumptions C35_diaphragm.
(** the hypotheses of both, for a lens of focal length 10 and a diaphragm of 2 *)
Example C35_telecentric_example : / 100000 <= 10 /\ 0 < 2 /\
  exists g, MatrixGroup_new (tele 10 2) "" = Ok g /\ let e := Group GGroup (gmat g) (gelems g) in
  canon e (tele_optic 10) /\ Forall2 is_piece (leaves e) (tele_pieces 10) /\ onf (tele_optic 10) = 1 /\ hasFiniteApertureDiameter e = true /\
  apertureStop e = Ok (mkStop (Some (Fin (2 * 10))) (Some (Fin 2))) /\ / 100000 <= Rabs (B_ (matrix_to (tele_pieces 10) (2 * 10))).
Proof.
  split; [lra|]. split; [lra|]. destruct (tele_exists 10 2 ltac:(lra) ltac:(lra)) as (g & G & H1 & H2 & H3 & H4). exists g. split; [exact G|].
  cbv zeta. repeat (split; [assumption || reflexivity|]). rewrite (proj2 (tele_matrix 10 ltac:(lra))), Rabs_pos_eq; lra.
Qed.

(** ** C120 *)
(** the f-number of a telecentric 4f system with a diaphragm between the lenses is not a number: infinity over infinity *)
Theorem C120_telecentric_refuted : exists (e : @elem float) s l a r, Space (fz 10) c1 ninf = Ok s /\ Lens (fz 10) ninf = Ok l /\
  Aperture (fz 2) ninf = Ok a /\ ImagingRefutations.built [s; l; s; a; s; l; s] e /\ fNumber e = Ok (Some r) /\ neqb r r = false.
Proof. exact f_number_nan. Qed.
Print Assumptions C120_telecentric_refuted.
