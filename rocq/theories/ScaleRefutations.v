(** Bit-exact runs in which the answer depends on the unit of length: the library compares lengths and inverse lengths
    with the fixed numbers 1e-5 (isImaging, hasPower), 1e-6 (precision of the field search) and 10000 (maxHeight). *)
From Coq Require Import ZArith List Bool String Floats.
From Verif Require Import Base Nums Optics Imaging Units GroupRefutations.
Import ListNotations.

(** a camera in millimetres: object, lens f = 50, sensor of 20 mm *)
Definition camera_mm : list (part float) := [PSpace (fz 100) c1 ninf; PLens (fz 50) (fz 25); PSpace (fz 100) c1 ninf; PAperture (fz 20) ninf].
Lemma field_depends : exists (ps : list (part float)) e e' v,
  assemble ps = Ok e /\ assemble (map (in_unit (fz 1000)) ps) = Ok e' /\
  fieldOfView 100 e = Ok v /\ nltb (fz 19) v = true /\ nltb v (fz 20) = true /\ fieldOfView 100 e' = Ok ninf.
Proof.
  exists camera_mm, (the (assemble camera_mm)), (the (assemble (map (in_unit (fz 1000)) camera_mm))).
  eexists. do 2 (split; [vm_compute; reflexivity|]). split; [vm_compute; reflexivity|]. repeat split; vm_compute; reflexivity.
Qed.
(** a lens of 150 metres, in metres and in millimetres *)
Lemma focal_depends : exists (ps : list (part float)) e e',
  assemble ps = Ok e /\ assemble (map (in_unit (fz 1000)) ps) = Ok e' /\
  effectiveFocalLengths (emat e) = Ok (fz 150, fz 150) /\ effectiveFocalLengths (emat e') = Ok (ninf, ninf) /\
  mC (emat e') <> c0.
Proof.
  exists [PLens (fz 150) ninf], (the (assemble [PLens (fz 150) ninf])), (the (assemble (map (in_unit (fz 1000)) [PLens (fz 150) ninf]))).
  do 4 (split; [vm_compute; reflexivity|]). intros E. apply (f_equal (fun x => neqb x c0)) in E. vm_compute in E. discriminate.
Qed.
(** an aperture 5 micrometres behind the object, in metres and in millimetres *)
Definition close_up : list (part float) := [PSpace (ndec 5 6) c1 ninf; PAperture (ndec 1 3) ninf].
Lemma chief_depends : exists (ps : list (part float)) e e' r,
  assemble ps = Ok e /\ assemble (map (in_unit (fz 1000)) ps) = Ok e' /\
  chiefRayAt e (ndec 1 3) = Ok None /\ chiefRayAt e' (fz 1) = Ok (Some r).
Proof.
  exists close_up, (the (assemble close_up)), (the (assemble (map (in_unit (fz 1000)) close_up))). eexists. repeat split; vm_compute; reflexivity.
Qed.
