(** A bit-exact run: the f-number of a telecentric 4f system. *)
From Coq Require Import ZArith List Bool String Floats.
From Verif Require Import Base Nums Optics Group Imaging GroupRefutations ImagingRefutations.
Import ListNotations.

Lemma f_number_nan : exists (e : @elem float) s l a r, Space (fz 10) c1 ninf = Ok s /\ Lens (fz 10) ninf = Ok l /\
  Aperture (fz 2) ninf = Ok a /\ built [s; l; s; a; s; l; s] e /\ fNumber e = Ok (Some r) /\ neqb r r = false.
Proof.
  pose (l := the (Lens (fz 10) ninf)). pose (e := fpath [fspace 10; l; fspace 10; fap (fz 2); fspace 10; l; fspace 10]).
  exists e, (fspace 10), l, (fap (fz 2)), (match fNumber e with Ok (Some r) => r | _ => c0 end).
  split; [vm_compute; reflexivity|]. split; [vm_compute; reflexivity|]. split; [vm_compute; reflexivity|].
  split; [is_built|]. split; vm_compute; reflexivity.
Qed.
