(** A resonator of a metre with mirrors of a kilometre: stable by its mirrors, unstable for isStable. *)
From Coq Require Import ZArith List Bool String Floats.
From Verif Require Import Base Nums Optics Group GroupRefutations Beam BeamRefutations.
Import ListNotations.
Open Scope string_scope.
Open Scope list_scope.

Lemma long_mirrors : exists (s m1 m2 : @elem float) g, let L := fz 1000 in let r := fz (-1000000) in
  Space L c1 ninf = Ok s /\ CurvedMirror r ninf = Ok m1 /\ CurvedMirror r ninf = Ok m2 /\ MatrixGroup_new [s; m2; s; m1] "" = Ok g /\
  (let g1 := nadd c1 (ndiv L r) in nltb c0 (nmul g1 g1) = true /\ nltb (nmul g1 g1) c1 = true) /\ isStable (gmat g) = Ok false.
Proof.
  pose (s := fspace 1000). pose (m := the (CurvedMirror (fz (-1000000)) ninf)).
  exists s, m, m, (theg (MatrixGroup_new [s; m; s; m] "")). vm_compute. repeat split.
Qed.
