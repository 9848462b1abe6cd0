(** Settings of the field search that do not do what they say, on the camera of [Samples3] (field of 32.5 mm). *)
From Coq Require Import Reals Lra List.
From Verif Require Import Base Nums Optics Group Imaging Spec TransferProofs Samples3 FieldProofs Limits LimitProofs.
Open Scope R_scope.

(** a precision of 0.5: the call never returns *)
Lemma coarse_never_ends : exists e h P Hm, 0 < P /\ 32 * P < h /\ h < Hm /\ field_edge e h /\
  forall fuel, fieldOfView_with (Fin P) (Fin Hm) fuel e = Err OutOfFuel.
Proof.
  destruct camera_exists as (e & C). exists e, (65 / 4), (1 / 2), 10000. split; [lra|]. split; [lra|]. split; [lra|].
  split; [apply (camera_edge e C)|]. intros fuel.
  apply (field_too_small_with (1 / 2) 10000 e _ _ _ (camera_aimed e C) ltac:(lra) (65 / 4)); try lra. apply (camera_edge e C).
Qed.
(** a maximum height of 20, and an edge at 16.25: reported as unlimited *)
Lemma below_maximum_missed : exists e h P Hm n, 0 < P /\ 75 / 2 * P <= h /\ h < Hm /\ field_edge e h /\
  forall fuel, (n <= fuel)%nat -> fieldOfView_with (Fin P) (Fin Hm) fuel e = Ok PInf.
Proof.
  destruct camera_exists as (e & C).
  destruct (field_overlooked_with (1 / 10) 20 e _ _ _ (65 / 4) (camera_aimed e C) ltac:(lra) ltac:(lra) ltac:(lra) (camera_edge e C) ltac:(lra)) as (n & Hn).
  exists e, (65 / 4), (1 / 10), 20, n. repeat split; try lra; try apply (camera_edge e C). exact Hn.
Qed.
