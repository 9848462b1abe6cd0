(** Property theorems C116-: what the settings of the field search do.  Each theorem is closed by a lemma proved elsewhere;
    the examples show that its hypotheses can be met. *)
From Coq Require Import Reals Lra List Bool String ZArith Floats Lia.
From Verif Require Import Base Nums Optics Group Imaging Spec MatrixProofs ElementProofs GroupProofs TraceProofs RayProofs CardinalProofs StrictProofs
  TransferProofs Samples Samples3 ImagingProofs FieldProofs FieldMore Units ScaleProofs Properties19 Limits LimitProofs LimitRefutations.
Import ListNotations.
Set Warnings "-inexact-float".
Open Scope list_scope.
Open Scope R_scope.

(** ** C116 *)
(** with the values of the constructor these are the functions of all the other theorems *)
Theorem C116_default :
  forall {T} {N : Num T} fuel (e : @elem T),
  fieldStop_with precision maxHeight fuel e = fieldStop fuel e /\
  halfFieldOfView_with precision maxHeight fuel e = halfFieldOfView fuel e /\
  fieldOfView_with precision maxHeight fuel e = fieldOfView fuel e.
Proof. exact @field_default. Qed.
Print Assumptions C116_default.

(** the field of view is found to four times the precision that was asked for, when its edge is far enough below maxHeight *)
Theorem C116_field :
  forall P Hm e o ps z h, aimed e o ps z -> z <> 0 ->
  0 < P -> field_edge e h -> 75 / 2 * P <= h -> 2 * h + 300 * P <= Hm ->
  exists n v, 2 * h - 4 * P < v <= 2 * h /\ forall fuel, (n <= fuel)%nat -> fieldOfView_with (Fin P) (Fin Hm) fuel e = Ok (Fin v).
Proof. intros P Hm e o ps z h A Z. exact (field_found_with P Hm e o ps z A Z h). Qed.
Print Assumptions C116_field.

(** the field stop is what stops the chief ray from a point just outside the field *)
Theorem C116_stop :
  forall P Hm e o ps z h, aimed e o ps z -> z <> 0 ->
  0 < P -> field_edge e h -> 75 / 2 * P <= h -> 2 * h + 300 * P <= Hm ->
  exists n v, h < v <= h + 2 * P /\ forall fuel, (n <= fuel)%nat ->
    fieldStop_with (Fin P) (Fin Hm) fuel e =
      Ok (mkStop (Some (rz (traceThrough e (chief ps z v)))) (Some (rdiam (traceThrough e (chief ps z v))))).
Proof. intros P Hm e o ps z h A Z. exact (field_stop_found_with P Hm e o ps z A Z h). Qed.
Print Assumptions C116_stop.

(** a field that has no edge below maxHeight is unlimited *)
Theorem C116_unlimited :
  forall P Hm e o ps z, aimed e o ps z -> z <> 0 ->
  0 < P -> 150 * P <= Hm -> no_field_edge e \/ (exists h, field_edge e h /\ Hm <= h) ->
  exists n, forall fuel, (n <= fuel)%nat ->
    fieldStop_with (Fin P) (Fin Hm) fuel e = Ok (mkStop None (Some PInf)) /\ fieldOfView_with (Fin P) (Fin Hm) fuel e = Ok PInf.
Proof. exact field_unlimited_with. Qed.
Print Assumptions C116_unlimited.

(** a field smaller than 37.5 times the precision: neither fieldStop nor fieldOfView ever returns *)
Theorem C116_too_small :
  forall P Hm e o ps z h, aimed e o ps z -> z <> 0 ->
  0 < P -> 150 * P <= Hm -> 0 < h < 75 / 2 * P -> field_edge e h ->
  forall fuel, fieldStop_with (Fin P) (Fin Hm) fuel e = Err OutOfFuel /\ fieldOfView_with (Fin P) (Fin Hm) fuel e = Err OutOfFuel.
Proof. intros P Hm e o ps z h A Z. exact (field_too_small_with P Hm e o ps z A Z h). Qed.
Print Assumptions C116_too_small.

(** precision = 0: neither ever returns *)
Theorem C116_perfect :
  forall P Hm e o ps z, aimed e o ps z -> z <> 0 ->
  P = 0 -> 0 <= Hm -> no_field_edge e \/ (exists h, 0 < h /\ field_edge e h) ->
  forall fuel, fieldStop_with (Fin P) (Fin Hm) fuel e = Err OutOfFuel /\ fieldOfView_with (Fin P) (Fin Hm) fuel e = Err OutOfFuel.
Proof. exact field_zero_precision. Qed.
Print Assumptions C116_perfect.

(** the field of view does not depend on the unit of length when precision and maxHeight are given in that unit too *)
Theorem C116_units :
  forall k ps e e' s z q q' prec high fuel,
  0 < k -> assemble ps = Ok e -> assemble (map (in_unit (Fin k)) ps) = Ok e' ->
  apertureStop e = Ok s -> st_z s = Some z -> transferMatrix e z = Ok q -> transferMatrix e' (nmul (Fin k) z) = Ok q' -> isImaging (emat q') = isImaging (emat q) ->
  answer (nmul (Fin k)) (fieldOfView_with prec high fuel e) (fieldOfView_with (nmul (Fin k) prec) (nmul (Fin k) high) fuel e').
Proof. exact units_field. Qed.
Print Assumptions C116_units.

(** a coarser precision does not give a coarser answer: there may be none *)
Theorem C116_coarse_refuted :
  exists e h P Hm, 0 < P /\ 32 * P < h /\ h < Hm /\ field_edge e h /\
  forall fuel, fieldOfView_with (Fin P) (Fin Hm) fuel e = Err OutOfFuel.
Proof. exact coarse_never_ends. Qed.
Print Assumptions C116_coarse_refuted.

(** an edge below maxHeight may be overlooked *)
Theorem C116_height_refuted :
  exists e h P Hm n, 0 < P /\ 75 / 2 * P <= h /\ h < Hm /\ field_edge e h /\
  forall fuel, (n <= fuel)%nat -> fieldOfView_with (Fin P) (Fin Hm) fuel e = Ok PInf.
Proof. exact below_maximum_missed. Qed.
Print Assumptions C116_height_refuted.

Example C116_field_example : exists e n v, aimed e camera_optic camera_pieces 30 /\ field_edge e (65 / 4) /\ 32 < v < 33 /\
  forall fuel, (n <= fuel)%nat -> fieldOfView_with (Fin (/ 1000)) (Fin 100) fuel e = Ok (Fin v).
Proof.
  destruct camera_exists as (e & C). destruct (field_found_with (/ 1000) 100 e _ _ _ (camera_aimed e C) ltac:(lra) (65 / 4) ltac:(lra) (camera_edge e C) ltac:(lra) ltac:(lra)) as (n & v & Hv & H).
  exists e, n, v. split; [apply (camera_aimed e C)|]. split; [apply (camera_edge e C)|]. split; [lra|exact H].
Qed.
Example C116_unlimited_example : exists e n, no_field_edge e /\
  forall fuel, (n <= fuel)%nat -> fieldOfView_with (Fin (/ 1000)) (Fin 100) fuel e = Ok PInf.
Proof.
  destruct (hole_exists 10 4 ltac:(lra) ltac:(lra)) as (e & C). pose proof (hole_no_edge 10 4 e C ltac:(lra) ltac:(lra) ltac:(lra)) as NE.
  destruct (field_unlimited_with (/ 1000) 100 e _ _ _ (hole_aimed 10 4 e C ltac:(lra) ltac:(lra) ltac:(lra)) ltac:(lra) ltac:(lra) ltac:(lra) (or_introl NE)) as (n & H).
  exists e, n. split; [exact NE|]. intros fuel Hf. apply (H fuel Hf).
Qed.
Example C116_perfect_example : exists e, field_edge e (65 / 4) /\ forall fuel, fieldOfView_with (Fin 0) (Fin 10000) fuel e = Err OutOfFuel.
Proof.
  destruct camera_exists as (e & C). exists e. split; [apply (camera_edge e C)|]. intros fuel.
  apply (field_zero_precision 0 10000 e _ _ _ (camera_aimed e C) ltac:(lra) eq_refl ltac:(lra)). right. exists (65 / 4). split; [lra|]. apply (camera_edge e C).
Qed.
(** the camera in micrometres, with precision and maxHeight in micrometres *)
Example C116_units_example : exists e e' n v, assemble camera_parts = Ok e /\ assemble (map (in_unit (Fin 1000)) camera_parts) = Ok e' /\ 32 < v < 33 /\
  forall fuel, (n <= fuel)%nat -> fieldOfView_with (nmul (Fin 1000) (Fin (/ 1000))) (nmul (Fin 1000) (Fin 100)) fuel e' = Ok (Fin (1000 * v)).
Proof.
  destruct C115_chief_example as (e & e' & s & q & q' & A & A' & S & Z & _ & T & T' & I' & I). exists e, e'.
  assert (is_camera e) as C. { destruct camera_assembled as (e0 & E0 & C0). rewrite A in E0. now injection E0 as <-. }
  destruct (field_found_with (/ 1000) 100 e _ _ _ (camera_aimed e C) ltac:(lra) (65 / 4) ltac:(lra) (camera_edge e C) ltac:(lra) ltac:(lra)) as (n & v & Hv & H).
  exists n, v. split; [exact A|]. split; [exact A'|]. split; [lra|]. intros fuel Hf.
  pose proof (units_field 1000 camera_parts e e' s (Fin 30) q q' (Fin (/ 1000)) (Fin 100) fuel ltac:(lra) A A' S Z T T' ltac:(congruence)) as U.
  rewrite (H fuel Hf) in U. unfold answer in U. destruct (fieldOfView_with _ _ fuel e'); [|contradiction]. now rewrite U.
Qed.
