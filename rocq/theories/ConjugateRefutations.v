(** A concrete case in doubles for the absolute tolerance of [isImaging] (matrix.py 899-926). *)
From Coq Require Import List Bool String ZArith Floats.
From Verif Require Import Base Nums Optics.
Import ListNotations.

Lemma metres_imaging :
  exists (e : @elem float) d c, Space (ndec 9 6) c1 ninf = Ok e /\ magnification (emat e) = Some (c1, c1) /\
    neqb (ry (traceThrough e (Ray_new c0 c1))) c0 = false /\
    forwardConjugate (emat e) = Ok (d, Some c) /\ neqb d c0 = false.
Proof.
  pose (s := @Space float _ (ndec 9 6) c1 ninf).
  destruct s as [e|] eqn:E; [|discriminate E].
  destruct (forwardConjugate (emat e)) as [[d [c|]]|] eqn:F; subst s.
  - exists e, d, c. vm_compute in E. injection E as <-. vm_compute in F. injection F as <- <-.
    repeat apply conj; vm_compute; reflexivity.
  - exfalso. vm_compute in E. injection E as <-. vm_compute in F. discriminate F.
  - exfalso. vm_compute in E. injection E as <-. vm_compute in F. discriminate F.
Qed.
