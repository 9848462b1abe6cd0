(** A resonator of two flat mirrors and a lens: stable seen from one mirror, unstable and without a mode seen from the
    other one. *)
From Coq Require Import ZArith List Bool String Floats.
From Verif Require Import Base Nums Optics Group GroupRefutations Beam BeamRefutations.
Import ListNotations.
Open Scope string_scope.
Open Scope list_scope.

Lemma depends_on_start :
  exists (s1 s2 l : @elem float) g g' b, Space (fz 200) c1 ninf = Ok s1 /\ Space (ndec 10001 2) c1 ninf = Ok s2 /\ Lens (fz 100) ninf = Ok l /\
    MatrixGroup_new ([s1; l; s2] ++ [s2; l; s1]) "" = Ok g /\ MatrixGroup_new ([s2; l; s1] ++ [s1; l; s2]) "" = Ok g' /\
    isStable (gmat g) = Ok false /\ laserModes (gmat g) = Ok [] /\ isStable (gmat g') = Ok true /\ laserModes (gmat g') = Ok [b].
Proof.
  pose (s1 := fspace 200). pose (s2 := the (Space (ndec 10001 2) c1 ninf)). pose (l := flens 100).
  pose (g' := theg (MatrixGroup_new ([s2; l; s1] ++ [s1; l; s2]) "")).
  exists s1, s2, l, (theg (MatrixGroup_new ([s1; l; s2] ++ [s2; l; s1]) "")), g',
    (match laserModes (gmat g') with Ok (x :: _) => x | _ => theb (Err RuntimeError) end).
  vm_compute. repeat split.
Qed.
