(** Property theorems: rays that compare equal (C129). *)
From Coq Require Import Reals Lra List Bool String Floats.
From Verif Require Import Base Nums Optics TraceProofs Group RaysModel GroupRefutations RaysRefutations Samples EqualProofs EqualRays.
Import ListNotations.
Open Scope string_scope.
Open Scope list_scope.

(** == of rays is an equivalence (of rays with finite numbers) *)
Theorem C129_equivalence : (forall (r : @ray XR) y th, ry r = Fin y -> rth r = Fin th -> ray_eqb r r = true) /\
  (forall r s : @ray XR, ray_eqb r s = ray_eqb s r) /\
  (forall r s t : @ray XR, ray_eqb r s = true -> ray_eqb s t = true -> ray_eqb r t = true).
Proof.
  split; [|split; [exact ray_eqb_sym|exact ray_eqb_trans]]. intros r y th E1 E2. unfold ray_eqb. rewrite E1, E2. cbn.
  now rewrite (proj2 (Reqb_true y y) eq_refl), (proj2 (Reqb_true th th) eq_refl).
Qed.
Print Assumptions C129_equivalence.
(** rays that compare equal, both blocked or both not, have the same trace through every element and every path: the same
    number of rays, equal one by one and blocked at the same places *)
Theorem C129_equal : forall (e : @elem XR) (r r' : @ray XR), ray_eqb r r' = true -> rblk r = rblk r' ->
  Forall2 (fun a b => ry a = ry b /\ rth a = rth b /\ rblk a = rblk b) (trace_values e r) (trace_values e r') /\
  (let o := traceThrough e r in let o' := traceThrough e r' in ry o = ry o' /\ rth o = rth o' /\ rblk o = rblk o').
Proof. exact equal_traced. Qed.
Print Assumptions C129_equal.
Example C129_example : let r z := @mkRay XR (Fin 1) (Fin 2) (Fin z) false PInf None in
  ray_eqb (r 0%R) (r 5%R) = true /\ rblk (r 0%R) = rblk (r 5%R) /\ r 0%R <> r 5%R.
Proof.
  cbv zeta. split; [|split; [reflexivity|]].
  - exact (proj1 C129_equivalence (mkRay (Fin 1) (Fin 2) (Fin 0) false PInf None) 1%R 2%R eq_refl eq_refl).
  - intros E. injection E. lra.
Qed.
(** the comparison does not look at isBlocked: a blocked ray equals one that is not, and only the latter is traced on *)
Theorem C129_blocked_refuted : exists (e : @elem float) r r', ray_eqb r r' = true /\ ray_eqb (traceThrough e r) (traceThrough e r') = false.
Proof.
  exists (the (Lens (fz 10) infinity)), (fr 1 0), (set_blk (fr 1 0)). split; vm_compute; reflexivity.
Qed.
Print Assumptions C129_blocked_refuted.
