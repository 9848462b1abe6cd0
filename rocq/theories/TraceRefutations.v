(** Bit-exact runs of the model on IEEE doubles in which a property of tracing fails. *)
From Coq Require Import ZArith List Bool String Floats.
From Verif Require Import Base Nums Optics Group GroupProofs TraceProofs GroupRefutations.
Import ListNotations.

(** C12: a ray leaving a finite-length element outside its aperture is not blocked *)
Lemma exit_not_checked :
  exists (e : @elem float) r,
    Space (fz 10) c1 c1 = Ok e /\ r = Ray_new c0 c1 /\
    nltb (ndiv (mdiam (emat e)) c2) (nabs (ry (traceThrough e r))) = true /\
    rblk (traceThrough e r) = false.
Proof.
  exists (the (Space (fz 10) c1 c1)), (Ray_new c0 c1). vm_compute. repeat split.
Qed.

(** C15: tracing marks the caller's ray as blocked, and it then stays blocked in another path *)
Lemma caller_ray_marked :
  exists (e e' : @elem float) r r',
    Space (fz 10) c1 c1 = Ok e /\ Space (fz 10) c1 ninf = Ok e' /\ r = Ray_new (fz 5) c0 /\
    r' = hget (snd (trace e 0 [r])) 0 /\
    rblk r = false /\ rblk r' = true /\
    rblk (traceThrough e' r) = false /\ rblk (traceThrough e' r') = true.
Proof.
  exists (the (Space (fz 10) c1 c1)), (the (Space (fz 10) c1 ninf)), (Ray_new (fz 5) c0).
  eexists. split; [vm_compute; reflexivity|]. split; [vm_compute; reflexivity|].
  split; [reflexivity|]. split; [reflexivity|]. vm_compute. repeat split.
Qed.
