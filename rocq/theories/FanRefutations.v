(** Concrete cases in doubles where UniformRays and fanGroup differ. *)
From Coq Require Import List Bool String ZArith Floats.
From Verif Require Import Base Nums Optics RaysModel GroupRefutations.
Import ListNotations.

Definition okl (x : res (list (@ray float))) : list (@ray float) := match x with Ok l => l | Err _ => [] end.
Lemma one_height :
  exists l l' r r', UniformRays (fz 5) (Some (fz 3)) (fz 1) (Some (fz (-1))) 1 2 = Ok l /\
    fanGroup (fz 3) (fz 5) 1 (fz (-1)) (fz 1) 2 = Ok l' /\ nth_error l 0 = Some r /\ nth_error l' 0 = Some r' /\
    ry r = c0 /\ ry r' = fz 3.
Proof.
  exists (okl (UniformRays (fz 5) (Some (fz 3)) (fz 1) (Some (fz (-1))) 1 2)), (okl (fanGroup (fz 3) (fz 5) 1 (fz (-1)) (fz 1) 2)).
  do 2 eexists. repeat apply conj; vm_compute; reflexivity.
Qed.
Lemma last_differs :
  exists l l' r r', UniformRays (fz 5) (Some (fz 3)) (ndec 1 1) (Some c0) 2 12 = Ok l /\
    fanGroup (fz 3) (fz 5) 2 c0 (ndec 1 1) 12 = Ok l' /\ nth_error l 11 = Some r /\ nth_error l' 11 = Some r' /\
    rth r = ndec 1 1 /\ nltb (ndec 1 1) (rth r') = true.
Proof.
  exists (okl (UniformRays (fz 5) (Some (fz 3)) (ndec 1 1) (Some c0) 2 12)), (okl (fanGroup (fz 3) (fz 5) 2 c0 (ndec 1 1) 12)).
  do 2 eexists. repeat apply conj; vm_compute; reflexivity.
Qed.
