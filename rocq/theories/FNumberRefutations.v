(** f-numbers that are not those of the light of a distant object. *)
From Coq Require Import ZArith List Bool Floats String.
From Verif Require Import Base Nums Optics Group Imaging GroupRefutations ImagingRefutations.
Import ListNotations.
Open Scope list_scope.
Set Warnings "-inexact-float".

(** a lens f=50 of diameter 25 with an aperture of 10 at 20 behind it: f/3 with the object at 10, f/2 with the object at 200,
    although a parallel ray at 9 is stopped by the aperture *)
Lemma f_number_of_distance : exists (e1 e2 : @elem float) s1 s2 l s a r,
  Space (fz 10) c1 ninf = Ok s1 /\ Space (fz 200) c1 ninf = Ok s2 /\ Lens (fz 50) (fz 25) = Ok l /\ Space (fz 20) c1 ninf = Ok s /\ Aperture (fz 10) ninf = Ok a /\
  built [s1; l; s; a] e1 /\ built [s2; l; s; a] e2 /\
  fNumber e1 = Ok (Some r) /\ neqb r (fz 3) = true /\ fNumber e2 = Ok (Some (fz 2)) /\
  entrancePupil e2 = Ok (mkStop (Some (fz 200)) (Some (fz 25))) /\
  rblk (traceThrough e2 (Ray_new (fz 9) c0)) = true /\ rblk (traceThrough e2 (Ray_new (fz 8) c0)) = false.
Proof.
  pose (s1 := fspace 10). pose (s2 := fspace 200). pose (l := the (Lens (fz 50) (fz 25))). pose (s := fspace 20). pose (a := the (Aperture (fz 10) ninf)).
  do 2 eexists. exists s1, s2, l, s, a. eexists.
  split; [reflexivity|]. split; [reflexivity|]. split; [reflexivity|]. split; [reflexivity|]. split; [reflexivity|].
  split; [is_built|]. split; [is_built|]. split; [vm_compute; reflexivity|]. split; [vm_compute; reflexivity|]. split; [vm_compute; reflexivity|].
  split; [vm_compute; reflexivity|]. split; vm_compute; reflexivity.
Qed.
