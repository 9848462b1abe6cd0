(** Property theorems C135: the rays of the regular generators one by one.  Each theorem is closed by a lemma proved
    elsewhere; the examples show that its hypotheses can be met. *)
From Coq Require Import Reals Lra Lia List Bool String ZArith Floats.
From Verif Require Import Base Nums Optics Group Spec TraceProofs RayProofs RaysModel RaysMore MiscProofs SourceRegular
  ObjectFanProofs FanEven GroupRefutations FanRefutations.
Import ListNotations.
Open Scope list_scope.
Open Scope R_scope.

(** ** C135 *)
(** [spaced a b n i] is a + i (b - a) / (n - 1); [grid y1 y2 a b m n l]: [l] has m n rays, and ray i n + j is at the i-th
    of m heights from y1 to y2 and at the j-th of n angles from a to b *)
Theorem C135_fan : forall y a b n, (1 <= n)%Z ->
  exists l, @fan XR _ (Fin y) (Fin a) (Fin b) n = Ok l /\ Z.of_nat (List.length l) = n /\
    forall i, (0 <= i < n)%Z -> nth_error l (Z.to_nat i) = Some (Ray_new (Fin y) (Fin (spaced a b n i))).
Proof. exact fan_even. Qed.
Print Assumptions C135_fan.
Theorem C135_fanGroup : forall y1 y2 m a b n, (1 <= m)%Z -> (1 <= n)%Z ->
  exists l, @fanGroup XR _ (Fin y1) (Fin y2) m (Fin a) (Fin b) n = Ok l /\ grid y1 y2 a b m n l.
Proof. exact fanGroup_even. Qed.
Print Assumptions C135_fanGroup.
Theorem C135_uniform : forall y1 y2 a b m n, (2 <= m)%Z -> (2 <= n)%Z ->
  exists l, @UniformRays XR _ (Fin y2) (Some (Fin y1)) (Fin b) (Some (Fin a)) m n = Ok l /\ grid y1 y2 a b m n l.
Proof. exact uniform_even. Qed.
Print Assumptions C135_uniform.
(** without lower limits the ranges are symmetric *)
Theorem C135_symmetric : forall y b m n, (2 <= m)%Z -> (2 <= n)%Z ->
  exists l, @UniformRays XR _ (Fin y) None (Fin b) None m n = Ok l /\ grid (- y) y (- b) b m n l.
Proof. exact (fun y b => uniform_even (- y) y (- b) b). Qed.
Print Assumptions C135_symmetric.
Theorem C135_lamp : forall d a m n, (2 <= m)%Z -> (2 <= n)%Z ->
  exists l, @LampRays XR _ (Fin d) (Fin a) m n = Ok l /\ grid (- (d / 2)) (d / 2) (- a) a m n l.
Proof. exact lamp_even. Qed.
Print Assumptions C135_lamp.

(** so the class that replaces the deprecated function makes the same rays in the same order *)
Theorem C135_replacement : forall y1 y2 a b m n, (2 <= m)%Z -> (2 <= n)%Z ->
  @UniformRays XR _ (Fin y2) (Some (Fin y1)) (Fin b) (Some (Fin a)) m n = fanGroup (Fin y1) (Fin y2) m (Fin a) (Fin b) n.
Proof. exact generators_agree. Qed.
Print Assumptions C135_replacement.
Example C135_example : spaced (-1) 1 5 1 = - (1/2) /\ spaced 0 10 3 2 = 10 /\
  exists l, @fanGroup XR _ (Fin 0) (Fin 10) 3 (Fin (-1)) (Fin 1) 5 = Ok l /\ nth_error l 11 = Some (Ray_new (Fin 10) (Fin (- (1/2)))).
Proof.
  assert (spaced (-1) 1 5 1 = - (1/2)) as E1 by (unfold spaced; cbn; lra).
  assert (spaced 0 10 3 2 = 10) as E2 by (unfold spaced; cbn; lra).
  split; [exact E1|]. split; [exact E2|].
  destruct (fanGroup_even 0 10 3 (-1) 1 5 ltac:(lia) ltac:(lia)) as (l & E & _ & K). exists l. split; [exact E|].
  rewrite <- E1, <- E2. exact (K 2%Z 1%Z ltac:(lia) ltac:(lia)).
Qed.

(** a single height is on the axis for UniformRays, whatever the range, and at the lower end for fanGroup *)
Theorem C135_one_height_refuted :
  exists l l' r r', UniformRays (fz 5) (Some (fz 3)) (fz 1) (Some (fz (-1))) 1 2 = Ok l /\
    fanGroup (fz 3) (fz 5) 1 (fz (-1)) (fz 1) 2 = Ok l' /\ nth_error l 0 = Some r /\ nth_error l' 0 = Some r' /\
    ry r = c0 /\ ry r' = fz 3.
Proof. exact one_height. Qed.
Print Assumptions C135_one_height_refuted.
(** and in doubles the last rays differ: only those of fanGroup leave the range *)
Theorem C135_doubles_refuted :
  exists l l' r r', UniformRays (fz 5) (Some (fz 3)) (ndec 1 1) (Some c0) 2 12 = Ok l /\
    fanGroup (fz 3) (fz 5) 2 c0 (ndec 1 1) 12 = Ok l' /\ nth_error l 11 = Some r /\ nth_error l' 11 = Some r' /\
    rth r = ndec 1 1 /\ nltb (ndec 1 1) (rth r') = true.
Proof. exact last_differs. Qed.
Print Assumptions C135_doubles_refuted.
