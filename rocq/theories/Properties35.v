(** Property theorems: what each element stops, equal rays and mirror images in double precision (C12, C129, C131). *)
From Coq Require Import Reals Lra List Bool String Floats.
From Verif Require Import Base Nums Optics Imaging Units GroupRefutations RaysRefutations ScaleRefutations MirrorRays MirrorQueries StopEach.
Import ListNotations.
Open Scope list_scope.

(** C129 in double precision, bit for bit up to the sign of zeros *)
Theorem C129_doubles : forall (e : @elem float) (r r' : @ray float), ray_eqb r r' = true -> rblk r = rblk r' ->
  Forall2 (fun a b => same_float (ry a) (ry b) /\ same_float (rth a) (rth b) /\ rblk a = rblk b) (trace_values e r) (trace_values e r') /\
  (let o := traceThrough e r in let o' := traceThrough e r' in same_float (ry o) (ry o') /\ same_float (rth o) (rth o') /\ rblk o = rblk o').
Proof. exact equal_traced_float. Qed.
Print Assumptions C129_doubles.
Example C129_doubles_example : let r := fr 0 1 in let r' := mkRay (nopp 0%float) 1%float 3%float false infinity None in
  ray_eqb r r' = true /\ rblk r = rblk r' /\ r <> r'.
Proof. cbv zeta. do 2 (split; [vm_compute; reflexivity|]). intros E. apply (f_equal (fun r => neqb (rz r) c0)) in E. vm_compute in E. discriminate. Qed.

(** ** C131 *)
(** the ray on the other side of the axis takes the path on the other side of the axis and is blocked at the same places *)
Theorem C131_exact : forall (e : @elem XR) (r r' : @ray XR), ry r' = nopp (ry r) -> rth r' = nopp (rth r) -> rblk r = rblk r' ->
  Forall2 (fun a b => ry b = nopp (ry a) /\ rth b = nopp (rth a) /\ rblk a = rblk b) (trace_values e r) (trace_values e r') /\
  (let o := traceThrough e r in let o' := traceThrough e r' in ry o' = nopp (ry o) /\ rth o' = nopp (rth o) /\ rblk o = rblk o').
Proof. exact mirror_traced. Qed.
Print Assumptions C131_exact.
(** in double precision nothing is lost: the numbers are exactly opposite, whatever was rounded, overflowed or became nan *)
Theorem C131_doubles : forall (e : @elem float) (r r' : @ray float), opposite_float (ry r) (ry r') -> opposite_float (rth r) (rth r') -> rblk r = rblk r' ->
  Forall2 (fun a b => opposite_float (ry a) (ry b) /\ opposite_float (rth a) (rth b) /\ rblk a = rblk b) (trace_values e r) (trace_values e r') /\
  (let o := traceThrough e r in let o' := traceThrough e r' in opposite_float (ry o) (ry o') /\ opposite_float (rth o) (rth o') /\ rblk o = rblk o').
Proof. exact mirror_traced_float. Qed.
Print Assumptions C131_doubles.
Example C131_example : opposite_float 3%float (-3)%float /\ opposite_float 0%float 0%float /\ ~ opposite_float 3%float 3%float /\
  opposite_float nan nan /\ ~ opposite_float nan 1%float.
Proof.
  split; [left; vm_compute; reflexivity|]. split; [left; vm_compute; reflexivity|]. split; [intros [H|[H _]]; vm_compute in H; discriminate|].
  split; [right; split; vm_compute; reflexivity|]. intros [H|[_ H]]; vm_compute in H; discriminate.
Qed.

(** opposite points of the object have opposite chief rays ... *)
Theorem C131_chief :
  (forall (e : @elem XR) y, alike_res (opposite_chief mirror_x) (chiefRayAt e y) (chiefRayAt e (nopp y))) /\
  (forall (e : @elem float) y y', opposite_float y y' -> alike_res (opposite_chief opposite_float) (chiefRayAt e y) (chiefRayAt e y')).
Proof. exact (conj chief_mirror chief_mirror_float). Qed.
Print Assumptions C131_chief.
(** ... and opposite marginal rays: the upper ray of one point is the mirror image of the lower ray of the other *)
Theorem C131_marginal :
  (forall (e : @elem XR) y, alike_res (opposite_pair mirror_x) (marginalRays e y) (marginalRays e (nopp y))) /\
  (forall (e : @elem float) y y', opposite_float y y' -> alike_res (opposite_pair opposite_float) (marginalRays e y) (marginalRays e y')).
Proof. exact (conj marginal_mirror marginal_mirror_float). Qed.
Print Assumptions C131_marginal.
Example C131_marginal_example : let e := the (assemble camera_mm) in
  match chiefRayAt e (fz 3), marginalRays e (fz 3), marginalRays e (fz (-3)) with
  | Ok (Some r), Ok (Some (u, d)), Ok (Some (u', d')) => nltb (rth r) c0 && nltb (rth d) (rth u) && neqb (rth u') (nopp (rth d)) && negb (neqb (rth u') (nopp (rth u)))
  | _, _, _ => false
  end = true.
Proof. vm_compute. reflexivity. Qed.

(** ** C12 for the public constructors: an element stops the rays outside its diameter or steeper than its numerical aperture, and no others *)
Theorem C12_each : forall T (N : Num T) (p : part T) e r, single p -> piece p = Ok e ->
  (rblk (traceThrough e r) = true <->
   rblk r = true \/ nltb (ndiv (fst (opening p)) c2) (nabs (ry r)) = true \/ nltb (snd (opening p)) (nabs (rth r)) = true).
Proof. exact @each_stops. Qed.
Print Assumptions C12_each.
Example C12_each_example : exists e, piece (PAperture (fz 10) (ndec 2 1)) = Ok e /\
  rblk (traceThrough e (fr 4 0)) = false /\ rblk (traceThrough e (fr 6 0)) = true /\ rblk (traceThrough e (fr 4 1)) = true.
Proof. eexists. split; [vm_compute; reflexivity|]. split; [vm_compute; reflexivity|]. split; vm_compute; reflexivity. Qed.

(** ** C10 for any numbers: a path sends a ray through the elements it was given one after the other, with their own apertures *)
Theorem C10_given : forall T (N : Num T),
  (forall (l : list (@elem T)) lab g r, MatrixGroup_new l lab = Ok g -> traceThrough (grp_elem g) r = fold_left (fun r e => traceThrough e r) l r) /\
  (forall (g g' : @grp T) e r, append g e = Ok g' -> traceThrough (grp_elem g') r = traceThrough e (traceThrough (grp_elem g) r)).
Proof. exact (fun T N => conj path_of_given append_given). Qed.
Print Assumptions C10_given.
(** glass, then a space of 10 mm with an opening of 2 mm that was said to be air: the path makes it glass and keeps the opening *)
Example C10_given_example : exists a s g, DielectricInterface c1 (ndec 15 1) (fz 100) ninf = Ok a /\ Space (fz 10) c1 (fz 2) = Ok s /\ MatrixGroup_new [a; s] "" = Ok g /\
  rblk (traceThrough (grp_elem g) (fr 3 0)) = true /\ rblk (traceThrough (grp_elem g) (mkRay (ndec 5 1) c0 c0 false ninf None)) = false /\
  map (fun e => mfi (emat e)) (gelems g) = [fz 1; ndec 15 1].
Proof. do 3 eexists. do 5 (split; [vm_compute; reflexivity|]). vm_compute. reflexivity. Qed.
