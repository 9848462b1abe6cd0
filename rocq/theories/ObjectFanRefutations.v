(** Runs in which the object that display() draws is not what the documentation says (C133). *)
From Coq Require Import ZArith List Bool String Floats Reals Lra.
From Verif Require Import Base Nums Optics Group Spec GroupProofs TraceProofs RaysModel Imaging GroupRefutations Samples
  ImagingRefutations EfficiencyRefutations Display DisplayProofs DisplayRefutations ObjectFan ObjectFanProofs.
Import ListNotations.
Set Warnings "-inexact-float".
Open Scope list_scope.

(** fanAngle is "the full fan angle": 0.1 gives fans of 0.2 *)
Lemma twice_the_fan : exists e, is_two_apertures e /\ forall fuel tan dr,
  let q := irun e fuel tan [IAngle (Some (ndec 1 1)); IFans 1; IRays 2] in
  exists r1 r2, default_object e tan dr q = Ok [r1; r2] /\ ry r1 = ry r2 /\
    neqb (nsub (rth r2) (rth r1)) (ndec 2 1) = true.
Proof.
  exists two_apertures. split; [exact two_apertures_built|]. intros fuel tan dr. cbv zeta.
  do 2 eexists. split; [vm_compute; reflexivity|]. split; vm_compute; reflexivity.
Qed.

(** with one ray per fan all the rays go down, at the edge of the fan *)
Lemma one_ray_down : exists e, is_two_apertures e /\ forall fuel tan dr,
  let q := irun e fuel tan [IAngle (Some (ndec 1 1)); IRays 1] in
  exists l, default_object e tan dr q = Ok l /\ List.length l = 3%nat /\
    Forall (fun r => neqb (rth r) (nopp (ndec 1 1)) = true) l.
Proof.
  exists two_apertures. split; [exact two_apertures_built|]. intros fuel tan dr. cbv zeta.
  eexists. split; [vm_compute; reflexivity|]. split; [reflexivity|].
  repeat (constructor; [vm_compute; reflexivity|]). constructor.
Qed.

(** displayWithObject(d, fanNumber=5, rayNumber=2): fanNumber is documented as the number of rays from a point and
    rayNumber as the number of points; there are 5 points with 2 rays each *)
Lemma numbers_swapped : exists e, is_two_apertures e /\ forall tan dr,
  exists l, given_object e tan dr ipath_new (fz 8) (Some (ndec 1 1)) 5 2 = Ok l /\
    map ry l = [fz (-4); fz (-4); fz (-2); fz (-2); fz 0; fz 0; fz 2; fz 2; fz 4; fz 4].
Proof.
  exists two_apertures. split; [exact two_apertures_built|]. intros tan dr.
  eexists. split; [vm_compute; reflexivity|]. vm_compute. reflexivity.
Qed.

(** displayWithObject() accepts a diameter that objectHeight refuses *)
Lemma negative_height : exists e, is_two_apertures e /\ forall tan dr,
  let q := irun e 100 tan [IWith dr (fz (-7)) (Some (ndec 1 1)) true] in
  p_height (i_path q) = fz (-7) /\ forall p, set_objectHeight p (fz (-7)) = Err ValueError.
Proof.
  exists two_apertures. split; [exact two_apertures_built|]. intros tan dr. cbv zeta.
  split; [vm_compute; reflexivity|]. intros p. reflexivity.
Qed.

Open Scope R_scope.
(** in a path that is short for its object the fan angle that is chosen is negative *)
Lemma negative_fan : exists s : @elem XR, Space (Fin (2 / 5)) (Fin 1) PInf = Ok s /\
  forall e : @elem XR, mL (emat e) = mL (emat s) ->
  exists a, default_fan e (Ok (Fin 10)) xtan ImagingPath_new = Ok (Fin a) /\ a < 0.
Proof.
  exists (x_space (2 / 5) 1). split; [apply x_space_ok; lra|]. intros e HL. cbn in HL.
  exists (tan (10 / 10 / (2 / 5))). split.
  - rewrite (fan_chosen e xtan _ 10 (2 / 5)); [reflexivity|reflexivity|exact HL|lra].
  - replace (10 / 10 / (2 / 5)) with (5 / 2) by lra. pose proof PI2_3_2. pose proof PI_4.
    assert (cos (5 / 2) < 0) as C by (apply cos_lt_0; lra).
    assert (0 < sin (5 / 2)) as S by (apply sin_gt_0; lra).
    unfold tan, Rdiv. apply Ropp_lt_cancel. rewrite Ropp_0, Ropp_mult_distr_r.
    apply Rmult_lt_0_compat; [exact S|]. apply Ropp_0_gt_lt_contravar. now apply Rinv_lt_0_compat.
Qed.
