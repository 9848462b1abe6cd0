(** Property theorems C114-C115: the size of the image, and the unit of length.  Each theorem is closed by a lemma proved elsewhere;
    the examples show that its hypotheses can be met. *)
From Coq Require Import Reals Lra List Bool String ZArith Floats Lia.
From Verif Require Import Base Nums Optics Group Imaging Spec MatrixProofs ElementProofs GroupProofs TraceProofs RayProofs CardinalProofs StrictProofs
  TransferProofs Samples Samples3 SearchProofs ImagingProofs FieldProofs FieldMore GroupRefutations StopQueries ImageProofs Units ScaleProofs ScaleRefutations.
Import ListNotations.
Set Warnings "-inexact-float".
Open Scope list_scope.
Open Scope R_scope.

(** ** C114 *)
(** imageSize is the distance of the points where the rays from the two ends of the object, or of the field of view, arrive
    in the image plane, whatever their angles *)
Theorem C114_image_size :
  forall fuel e o (use : bool) h v d c,
  canon e o -> Forall not_axicon (leaves e) -> forwardConjugate (emat e) = Ok (Fin d, Some c) ->
  (if use then v = h else fieldOfView fuel e = Ok (Fin v)) ->
  exists s sp y1 y2, imageSize fuel e use (Fin h) = Ok (Fin s) /\ Space (Fin d) (Fin (onb o)) PInf = Ok sp /\
    lands e sp (v / 2) y1 /\ lands e sp (- (v / 2)) y2 /\ s = Rabs (y1 - y2).
Proof. exact image_size. Qed.
Print Assumptions C114_image_size.

(** the image of an unlimited field is unlimited *)
Theorem C114_unlimited :
  forall fuel e o h d c,
  canon e o -> forwardConjugate (emat e) = Ok (d, Some c) -> fieldOfView fuel e = Ok PInf ->
  imageSize fuel e false h = Ok PInf.
Proof. exact image_unlimited. Qed.
Print Assumptions C114_unlimited.

(** when the rays from a point leave parallel there is no image plane, and the size is infinite *)
Theorem C114_infinity :
  forall fuel e o use h,
  canon e o -> Forall not_axicon (leaves e) -> forwardConjugate (emat e) = Ok (PInf, None) ->
  imageSize fuel e use h = Ok PInf /\
  forall r1 r2 y t1 t2 z1 z2, ry r1 = Fin y -> ry r2 = Fin y -> rth r1 = Fin t1 -> rth r2 = Fin t2 -> rz r1 = Fin z1 -> rz r2 = Fin z2 ->
    rblk (traceThrough e r1) = false -> rblk (traceThrough e r2) = false -> rth (traceThrough e r1) = rth (traceThrough e r2).
Proof. exact image_at_infinity. Qed.
Print Assumptions C114_infinity.

Example C114_example : exists e fuel v d c, canon e camera_optic /\ Forall not_axicon (leaves e) /\
  forwardConjugate (emat e) = Ok (Fin d, Some c) /\ fieldOfView fuel e = Ok (Fin v) /\ 32 < v.
Proof.
  destruct camera_exists as (e & C). pose proof tried_42 as T42.
  destruct (proj1 (has_field_stop e _ _ _ (camera_aimed e C) ltac:(lra)) (65/4) (camera_edge e C) ltac:(lra)) as (n & v & Hv & _ & Hn).
  destruct (forward_ok (emat e) camera_optic (canon_describes _ _ (ca_canon e C)) (canon_physical _ _ (ca_canon e C))) as (c & Ec & _); [cbn; lra|].
  exists e, n. do 3 eexists. split; [apply (ca_canon e C)|]. split; [apply (ca_lin e C)|]. split; [exact Ec|]. split; [apply Hn; auto|].
  unfold prec in Hv. lra.
Qed.
Example C114_unlimited_example : exists e fuel d c, canon e (hole_optic 10) /\ forwardConjugate (emat e) = Ok (Fin d, Some c) /\ fieldOfView fuel e = Ok PInf.
Proof.
  destruct (hole_exists 10 4 ltac:(lra) ltac:(lra)) as (e & C).
  destruct (proj2 (has_field_stop e _ _ _ (hole_aimed 10 4 e C ltac:(lra) ltac:(lra) ltac:(lra)) ltac:(lra)) (or_introl (hole_no_edge 10 4 e C ltac:(lra) ltac:(lra) ltac:(lra)))) as (n & Hn).
  destruct (forward_ok (emat e) (hole_optic 10) (canon_describes _ _ (ho_canon _ _ e C)) (canon_physical _ _ (ho_canon _ _ e C))) as (c & Ec & _); [cbn; lra|].
  exists e, n. do 2 eexists. split; [apply (ho_canon _ _ e C)|]. split; [exact Ec|]. apply Hn; auto.
Qed.
Example C114_infinity_example : exists e o, canon e o /\ Forall not_axicon (leaves e) /\ forwardConjugate (emat e) = Ok (PInf, None) /\
  rblk (traceThrough e (fray 1 (1/10) 0 false PInf None)) = false.
Proof.
  destruct (MatrixGroup_canon [x_space 50 1; x_lens 50 25] [o_space 50 1; o_lens 50] "") as (g & _ & Eg & _ & _ & _ & _ & Hc);
    [repeat apply Forall2_cons; try apply Forall2_nil; [apply c_space; lra|apply c_lens]|split; [apply p_space; lra|split; [reflexivity|split; [apply p_lens|exact I]]]
    |right; intros o t [= <- _]; reflexivity|discriminate|].
  specialize (Hc _ _ eq_refl). exists (grp_elem g). eexists. split; [exact Hc|]. unfold grp_elem at 1. cbn [leaves]. rewrite Eg. split; [repeat constructor|]. split.
  - apply (forward_none _ _ (canon_describes _ _ Hc) (canon_physical _ _ Hc)). cbn. field.
  - rewrite traceThrough_through. unfold grp_elem. rewrite Eg. cbn [through fold_left x_space x_lens]. unfold through_leaf, mat_of, o_lens, o_space, free, thin, fray. cbn. unfold Rltb.
    assert (forall x, 0 <= x -> x < 1000 -> Rabs x = x) as K by (intros; apply Rabs_pos_eq; lra).
    repeat (match goal with |- context [Rlt_dec ?a ?b] => destruct (Rlt_dec a b) end; cbn); try reflexivity; try lra.
    destruct (Req_EM_T 2 0); [lra|]. cbn. rewrite K by lra. unfold Rltb. destruct (Rlt_dec _ _); [lra|reflexivity].
Qed.

(** ** C115 *)
(** a list of calls and the same list with all lengths in another unit: both build a system, with the same A and D, or both
    raise the same exception *)
Theorem C115_systems :
  forall k ps,
  0 < k ->
  match assemble ps, assemble (map (in_unit (Fin k)) ps) with
  | Ok e, Ok e' => matrix_in_unit (Fin k) (emat e) (emat e')
  | Err x, Err y => x = y
  | _, _ => False
  end.
Proof. exact units_build. Qed.
Print Assumptions C115_systems.

(** rays take the same path, and are blocked at the same places *)
Theorem C115_rays :
  forall k ps e e' r,
  0 < k -> assemble ps = Ok e -> assemble (map (in_unit (Fin k)) ps) = Ok e' ->
  trace_values e' (ray_in_unit (Fin k) r) = map (ray_in_unit (Fin k)) (trace_values e r).
Proof. exact units_rays. Qed.
Print Assumptions C115_rays.

(** the aperture stop is the same *)
Theorem C115_stop :
  forall k ps e e',
  0 < k -> assemble ps = Ok e -> assemble (map (in_unit (Fin k)) ps) = Ok e' ->
  answer (stop_in_unit (Fin k)) (apertureStop e) (apertureStop e').
Proof. exact units_stop. Qed.
Print Assumptions C115_stop.

(** images are at the same places and have the same magnification *)
Theorem C115_images :
  forall k ps e e',
  0 < k -> assemble ps = Ok e -> assemble (map (in_unit (Fin k)) ps) = Ok e' ->
  match forwardConjugate (emat e), forwardConjugate (emat e') with
  | Ok (d, None), Ok (d', None) => d' = nmul (Fin k) d
  | Ok (d, Some c), Ok (d', Some c') => d' = nmul (Fin k) d /\ matrix_in_unit (Fin k) c c'
  | Err x, Err y => x = y
  | _, _ => False
  end /\
  match backwardConjugate (emat e), backwardConjugate (emat e') with
  | Ok (d, c), Ok (d', c') => d' = nmul (Fin k) d /\ matrix_in_unit (Fin k) c c'
  | Err x, Err y => x = y
  | _, _ => False
  end.
Proof. exact units_images. Qed.
Print Assumptions C115_images.

(** a system can be turned around in one unit when it can in the other, with the same result *)
Theorem C115_flip :
  forall k ps e e' r,
  0 < k -> assemble ps = Ok e -> assemble (map (in_unit (Fin k)) ps) = Ok e' ->
  match flip e, flip e' with
  | Ok f, Ok f' => matrix_in_unit (Fin k) (emat f) (emat f') /\ trace_values f' (ray_in_unit (Fin k) r) = map (ray_in_unit (Fin k)) (trace_values f r)
  | Err x, Err y => x = y
  | _, _ => False
  end.
Proof. exact units_flip. Qed.
Print Assumptions C115_flip.

(** partial: the focal lengths and the cardinal points are the same only while hasPower answers the same in both units *)
Theorem C115_focal_partial :
  forall k ps e e' z,
  0 < k -> assemble ps = Ok e -> assemble (map (in_unit (Fin k)) ps) = Ok e' -> hasPower (emat e') = hasPower (emat e) ->
  answer (pair_in_unit (Fin k)) (effectiveFocalLengths (emat e)) (effectiveFocalLengths (emat e')) /\
  answer (option_map (pair_in_unit (Fin k))) (principalPlanePositions (emat e) z) (principalPlanePositions (emat e') (nmul (Fin k) z)) /\
  answer (option_map (pair_in_unit (Fin k))) (focusPositions (emat e) z) (focusPositions (emat e') (nmul (Fin k) z)) /\
  answer (length_in_unit (Fin k)) (backFocalLength (emat e)) (backFocalLength (emat e')) /\
  answer (length_in_unit (Fin k)) (frontFocalLength (emat e)) (frontFocalLength (emat e')).
Proof. exact units_focal. Qed.
Print Assumptions C115_focal_partial.

(** partial: the chief and marginal rays are the same only while isImaging, asked about the path up to the stop, answers the
    same in both units *)
Theorem C115_chief_partial :
  forall k ps e e' y s z d q q',
  0 < k -> assemble ps = Ok e -> assemble (map (in_unit (Fin k)) ps) = Ok e' ->
  apertureStop e = Ok s -> st_z s = Some z -> st_d s = Some d ->
  transferMatrix e z = Ok q -> transferMatrix e' (nmul (Fin k) z) = Ok q' -> isImaging (emat q') = isImaging (emat q) ->
  answer (option_map (ray_in_unit (Fin k))) (chiefRayAt e y) (chiefRayAt e' (nmul (Fin k) y)) /\
  answer (option_map (fun p => (ray_in_unit (Fin k) (fst p), ray_in_unit (Fin k) (snd p)))) (marginalRays e y) (marginalRays e' (nmul (Fin k) y)).
Proof. exact units_chief. Qed.
Print Assumptions C115_chief_partial.

(** a lens of 150 metres has a focal length in metres and none in millimetres *)
Theorem C115_focal_refuted :
  exists (ps : list (part float)) e e',
  assemble ps = Ok e /\ assemble (map (in_unit (fz 1000)) ps) = Ok e' /\
  effectiveFocalLengths (emat e) = Ok (fz 150, fz 150) /\ effectiveFocalLengths (emat e') = Ok (ninf, ninf) /\
  mC (emat e') <> c0.
Proof. exact focal_depends. Qed.
Print Assumptions C115_focal_refuted.

(** an aperture 5 micrometres behind the object: there is a chief ray in millimetres and none in metres *)
Theorem C115_chief_refuted :
  exists (ps : list (part float)) e e' r,
  assemble ps = Ok e /\ assemble (map (in_unit (fz 1000)) ps) = Ok e' /\
  chiefRayAt e (ndec 1 3) = Ok None /\ chiefRayAt e' (fz 1) = Ok (Some r).
Proof. exact chief_depends. Qed.
Print Assumptions C115_chief_refuted.

(** a camera with a field of 20 mm has an unlimited field when it is described in micrometres *)
Theorem C115_field_refuted :
  exists (ps : list (part float)) e e' v,
  assemble ps = Ok e /\ assemble (map (in_unit (fz 1000)) ps) = Ok e' /\
  fieldOfView 100 e = Ok v /\ nltb (fz 19) v = true /\ nltb v (fz 20) = true /\ fieldOfView 100 e' = Ok ninf.
Proof. exact field_depends. Qed.
Print Assumptions C115_field_refuted.

Definition camera_parts : list (part XR) :=
  [PSpace (Fin 10) (Fin 1) PInf; PLens (Fin 50) (Fin 25); PSpace (Fin 20) (Fin 1) PInf; PAperture (Fin 10) PInf; PSpace (Fin 30) (Fin 1) PInf].
Lemma camera_assembled : exists e, assemble camera_parts = Ok e /\ is_camera e.
Proof.
  destruct camera_exists as (e & C). pose proof C as C'. destruct C' as [(g & Eg & ->) _ _ _ _ _ _ _ _]. eexists. split; [|exact C].
  unfold assemble, camera_parts. cbn [piece]. rewrite !x_space_ok, x_lens_ok, x_aperture_ok by lra. cbn [bind]. unfold MatrixGroupE. fold camera. rewrite Eg. reflexivity.
Qed.
Example C115_example : exists e e', assemble camera_parts = Ok e /\ assemble (map (in_unit (Fin 1000)) camera_parts) = Ok e' /\
  (exists s, apertureStop e = Ok s /\ st_z s = Some (Fin 30)) /\ (exists d c, forwardConjugate (emat e) = Ok (Fin d, Some c)).
Proof.
  destruct camera_assembled as (e & A & C). pose proof (units_build 1000 camera_parts ltac:(lra)) as U. rewrite A in U.
  destruct (assemble (map (in_unit (Fin 1000)) camera_parts)) as [e'|] eqn:E; [|contradiction].
  exists e, e'. split; [exact A|]. split; [reflexivity|]. split; [eexists; split; [apply (camera_stop e C)|reflexivity]|].
  destruct (forward_ok (emat e) camera_optic (canon_describes _ _ (ca_canon e C)) (canon_physical _ _ (ca_canon e C))) as (c & Ec & _); [cbn; lra|]. eauto.
Qed.
Lemma eps_scaled a : 1 < Rabs a -> isAlmostZero (Fin a) eps5 = false.
Proof.
  intros Ha. unfold isAlmostZero. rewrite eps5_val. cbn [nabs NumXR xabs nltb xltb]. apply Rltb_false. lra.
Qed.
Example C115_focal_example : exists e e', assemble camera_parts = Ok e /\ assemble (map (in_unit (Fin 2)) camera_parts) = Ok e' /\
  hasPower (emat e') = true /\ hasPower (emat e) = true.
Proof.
  destruct camera_assembled as (e & A & C). pose proof (units_build 2 camera_parts ltac:(lra)) as U. rewrite A in U.
  destruct (assemble (map (in_unit (Fin 2)) camera_parts)) as [e'|] eqn:E; [|contradiction].
  exists e, e'. split; [exact A|]. split; [reflexivity|]. destruct U as (_ & _ & U & _).
  pose proof (d_C _ _ (canon_describes _ _ (ca_canon e C))) as DC.
  assert (C_ (oM camera_optic) = - / 50) as K by (cbn; field). rewrite K in DC.
  unfold hasPower, isNotZero. rewrite U, DC, eps5_val. cbn [ndiv NumXR xdiv]. destruct (Req_EM_T 2 0); [lra|]. cbn [nabs NumXR xabs nltb xltb].
  split; apply Rltb_true; rewrite Rabs_left; lra.
Qed.
Example C115_chief_example : exists e e' s q q', assemble camera_parts = Ok e /\ assemble (map (in_unit (Fin 1000)) camera_parts) = Ok e' /\
  apertureStop e = Ok s /\ st_z s = Some (Fin 30) /\ st_d s = Some (Fin 10) /\
  transferMatrix e (Fin 30) = Ok q /\ transferMatrix e' (nmul (Fin 1000) (Fin 30)) = Ok q' /\ isImaging (emat q') = false /\ isImaging (emat q) = false.
Proof.
  destruct camera_assembled as (e & A & C). pose proof (units_build 1000 camera_parts ltac:(lra)) as U. rewrite A in U.
  destruct (assemble (map (in_unit (Fin 1000)) camera_parts)) as [e'|] eqn:E; [|contradiction].
  destruct (transfer_upto e _ _ 30 (ca_canon e C) (ca_pieces e C) ltac:(lra)) as (q & Eq & _ & _ & _ & _ & EB & _ & _ & EM & _).
  assert (mB (emat q) = Fin 26) as B26. { rewrite EB, EM. pose proof camera_matrix as K. unfold matrix_to in K. rewrite K. reflexivity. }
  assert (0 < / 1000) as Hi by lra.
  exists e, e'. eexists. exists q, (selem 1000 q). split; [exact A|]. split; [reflexivity|]. split; [apply (camera_stop e C)|]. split; [reflexivity|]. split; [reflexivity|].
  split; [exact Eq|]. rewrite (units_elem 1000 _ _ _ ltac:(lra) A E), (unit_st 1000) by lra. rewrite (s_transfer 1000 ltac:(lra) Hi), Eq. split; [reflexivity|].
  rewrite s_emat. unfold isImaging. cbn [smat mB]. rewrite B26. split; apply eps_scaled; rewrite Rabs_pos_eq; lra.
Qed.
