(** Property theorems C121: what rounding does to traces.  Each theorem is closed by a lemma proved elsewhere; the examples
    show that its hypotheses can be met. *)
From Coq Require Import Reals Lra Lia List Bool String ZArith Floats.
From Verif Require Import Base Nums Optics Spec MatrixProofs GroupProofs TraceProofs Rounding RoundingOps Exact FloatTrace FloatGroup FloatSamples.
Import ListNotations.
Set Warnings "-inexact-float".
Open Scope list_scope.
Open Scope R_scope.

(** ** C121 *)
(** A ray that gets to the end of a path traced in doubles is where the product of the matrices puts it, up to one part in
    2^50 for every element met, of the sum of the absolute values of all the terms that are added on the way. *)
Theorem C121_arrives_where_it_should :
  forall (e : @elem float) (r : @ray float), let l := leaves e in let n := List.length l in let s := sizes l (size0 r) in
  Forall tame l -> ffin (ry r) -> ffin (rth r) -> ffin (rz r) -> INR n <= p2 50 -> modest l r ->
  let f := traceThrough e r in let v := mapp (mprod (map rmat l)) (FR (ry r), FR (rth r)) in
  rblk f = false -> ffin (ry f) /\ ffin (rth f) /\ ffin (rz f) /\
    Rabs (FR (ry f) - fst v) <= part n * szy s /\ Rabs (FR (rth f) - snd v) <= part n * szt s /\
    Rabs (FR (rz f) - (rlength l + FR (rz r))) <= part n * szz s.
Proof. exact arrived_product. Qed.
Print Assumptions C121_arrives_where_it_should.

(** Unless the exact ray is at the very edge of an opening, the trace in doubles and the exact trace of the same system agree
    on whether the ray is blocked, and a ray that is not blocked is where the exact one is, to the same accuracy. *)
Theorem C121_blocked_alike :
  forall (e : @elem float) (r : @ray float), let n := List.length (leaves e) in let s := sizes (leaves e) (size0 r) in
  Forall tame (leaves e) -> ffin (ry r) -> ffin (rth r) -> ffin (rz r) -> INR n <= p2 50 -> modest (leaves e) r -> off_the_edges e r ->
  let f := traceThrough e r in let x := traceThrough (xelem e) (xray r) in
  rblk f = rblk x /\
  (rblk f = false -> exists y t z, ry x = Fin y /\ rth x = Fin t /\ rz x = Fin z /\
    ffin (ry f) /\ ffin (rth f) /\ ffin (rz f) /\
    Rabs (FR (ry f) - y) <= part n * szy s /\ Rabs (FR (rth f) - t) <= part n * szt s /\ Rabs (FR (rz f) - z) <= part n * szz s).
Proof. exact trace_near. Qed.
Print Assumptions C121_blocked_alike.

(** The matrix of a group, as it is kept up to date by append, insert, pop and the others ([in_step]), is the product of the
    matrices of its elements, to the same accuracy. *)
Theorem C121_group_matrix :
  forall (g : @grp float), let l := members (gelems g) in let n := List.length l in
  in_step g -> gelems g <> [] -> Forall tame l -> INR n <= p2 50 -> modest l unit_y -> modest l unit_th ->
  let M := mprod (map rmat l) in let m := gmat g in
  let s := sizes l (size0 unit_y) in let s' := sizes l (size0 unit_th) in
  (ffin (mA m) /\ ffin (mB m) /\ ffin (mC m) /\ ffin (mD m) /\ ffin (mL m)) /\
  Rabs (FR (mA m) - A_ M) <= part n * szy s /\ Rabs (FR (mC m) - C_ M) <= part n * szt s /\
  Rabs (FR (mB m) - B_ M) <= part n * szy s' /\ Rabs (FR (mD m) - D_ M) <= part n * szt s' /\
  Rabs (FR (mL m) - rlength l) <= part n * szz s.
Proof. exact group_matrix_near. Qed.
Print Assumptions C121_group_matrix.

(** So the matrix of a group and a trace through its elements tell the same. *)
Theorem C121_matrix_tells_the_trace :
  forall (g : @grp float) (r : @ray float), let l := leaves (grp_elem g) in let n := List.length l in
  in_step g -> gelems g <> [] -> Forall is_leaf (gelems g) ->
  Forall tame l -> INR n <= p2 50 -> modest l unit_y -> modest l unit_th -> modest l r ->
  ffin (ry r) -> ffin (rth r) -> ffin (rz r) ->
  let f := traceThrough (grp_elem g) r in let m := gmat g in
  let s := sizes l (size0 unit_y) in let s' := sizes l (size0 unit_th) in let sr := sizes l (size0 r) in
  rblk f = false ->
  Rabs (FR (ry f) - (FR (mA m) * FR (ry r) + FR (mB m) * FR (rth r))) <=
    part n * (szy sr + szy s * Rabs (FR (ry r)) + szy s' * Rabs (FR (rth r))) /\
  Rabs (FR (rth f) - (FR (mC m) * FR (ry r) + FR (mD m) * FR (rth r))) <=
    part n * (szt sr + szt s * Rabs (FR (ry r)) + szt s' * Rabs (FR (rth r))).
Proof. exact matrix_against_trace. Qed.
Print Assumptions C121_matrix_tells_the_trace.

(** Nothing overflows when the numbers are not absurd: entries, lengths and the ray below 10^9 and thirty elements will do
    (a = b = 30). *)
Theorem C121_no_overflow :
  forall (a b : Z) l (r : @ray float), (0 <= a)%Z -> (0 <= b)%Z -> Forall (small a) l ->
  Rabs (FR (ry r)) < p2 b -> Rabs (FR (rth r)) < p2 b -> Rabs (FR (rz r)) < p2 b ->
  (b + 1 + (a + 2) * Z.of_nat (List.length l) <= 1020)%Z -> modest l r.
Proof. exact small_modest. Qed.
Print Assumptions C121_no_overflow.

(** At the very edge the two do differ: a ray that exactly arithmetic stops passes in doubles. *)
Theorem C121_at_the_edge :
  exists (e : @elem float) (r : @ray float), Forall tame (leaves e) /\
  rblk (traceThrough e r) = false /\ rblk (traceThrough (xelem e) (xray r)) = true.
Proof.
  exists (grp_elem edge), edge_ray. split; [|exact edge_differs].
  cbn [grp_elem edge gelems leaves flat_map app]. repeat (apply Forall_cons; [constructor; [finite_float..|limit_float|limit_float|exact I]|]). apply Forall_nil.
Qed.
Print Assumptions C121_at_the_edge.

(** *** Cases: 8 mm, a lens of 64 mm with an opening of 25 mm, 128 mm *)
Example C121_case :
  bench_built = Ok bench /\ Forall tame (leaves (grp_elem bench)) /\ INR (List.length (leaves (grp_elem bench))) <= p2 50 /\
  modest (leaves (grp_elem bench)) bench_ray /\ off_the_edges (grp_elem bench) bench_ray /\
  rblk (traceThrough (grp_elem bench) bench_ray) = false.
Proof.
  split; [exact bench_ok|]. split; [exact bench_tame|]. split; [exact bench_few|]. split; [apply bench_modest|]. split; [exact bench_off|exact bench_arrives].
Qed.
Example C121_case_group :
  in_step bench /\ gelems bench <> [] /\ Forall is_leaf (gelems bench) /\
  modest (leaves (grp_elem bench)) unit_y /\ modest (leaves (grp_elem bench)) unit_th.
Proof.
  split; [exact bench_step|]. split; [discriminate|]. split; [repeat constructor|]. split; apply bench_modest.
Qed.
