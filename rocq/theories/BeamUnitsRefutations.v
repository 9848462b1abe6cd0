(** Bit-exact runs in which the modes of a laser cavity depend on the unit of length: the wavelength of a mode is always
    632.8e-6, the number for millimetres, and hasPower compares C with the fixed number 1e-5. *)
From Coq Require Import ZArith List Bool String Floats.
From Verif Require Import Base Nums Optics Imaging Units Beam GroupRefutations.
Import ListNotations.

(** two concave mirrors of radius 1000 mm, 500 mm apart, one round trip *)
Definition cavity_mm : list (part float) := [PSpace (fz 500) c1 ninf; PMirror (fz (-1000)) ninf; PSpace (fz 500) c1 ninf; PMirror (fz (-1000)) ninf].
Lemma cavity_unstable : exists (ps : list (part float)) e e',
  assemble ps = Ok e /\ assemble (map (in_unit (fz 1000)) ps) = Ok e' /\ isStable (emat e) = Ok true /\ isStable (emat e') = Ok false.
Proof.
  exists cavity_mm, (the (assemble cavity_mm)), (the (assemble (map (in_unit (fz 1000)) cavity_mm))).
  split; [vm_compute; reflexivity|]. split; [vm_compute; reflexivity|]. split; vm_compute; reflexivity.
Qed.
Definition got {A} (d : A) (r : res A) : A := match r with Ok x => x | Err _ => d end.
(** the same mirrors, in metres: the mode is more than 30 times too wide *)
Lemma cavity_wide : exists (ps : list (part float)) e e' b b' w w',
  assemble ps = Ok e /\ assemble (map (in_unit (ndec 1 3)) ps) = Ok e' /\ laserModes (emat e) = Ok [b] /\ laserModes (emat e') = Ok [b'] /\
  bw b = Ok w /\ bw b' = Ok w' /\ nltb (fz 30 * (ndec 1 3 * w)) w' = true.
Proof.
  set (e := the (assemble cavity_mm)). set (e' := the (assemble (map (in_unit (ndec 1 3)) cavity_mm))).
  set (b := hd (beam_of_q (cof c0) c0) (got [] (laserModes (emat e)))). set (b' := hd (beam_of_q (cof c0) c0) (got [] (laserModes (emat e')))).
  exists cavity_mm, e, e', b, b', (got c0 (bw b)), (got c0 (bw b')). do 6 (split; [vm_compute; reflexivity|]). vm_compute; reflexivity.
Qed.
