(** Property theorems C26 and C134 for whole trees of elements and for the reported magnification.  Each theorem is closed
    by a lemma proved elsewhere; the examples show that its hypotheses can be met. *)
From Coq Require Import Reals Lra List Bool String ZArith Floats.
From Verif Require Import Base Nums Optics Group Spec MatrixProofs ElementProofs GroupProofs
  TraceProofs RayProofs CardinalProofs StrictProofs FlipProofs TransferProofs CardinalMore Samples Samples2
  ConjugateParts ConjugateRefutations.
Import ListNotations.
Open Scope list_scope.
Open Scope R_scope.

(** ** C26: the images are those after every element, inside nested groups too *)
Theorem C26_every_part :
  forall e o os, canon e o -> Forall2 (fun km o => describes (snd km) o) (leaves e) os ->
  oM o = mprod (map oM os) /\
  exists ps, intermediateConjugates e = Ok (map fin2 ps) /\
    (forall p, In p ps -> exists pre post, pre <> [] /\ os = pre ++ post /\ fst p <> 0 /\
                           image_after pre (fst p) (snd p)) /\
    ForallOrdPairs (fun p q => ~ near p q) ps /\
    (forall pre post pos mag, os = pre ++ post -> pre <> [] -> pos <> 0 ->
       image_after pre pos mag -> exists q, In q ps /\ (q = (pos, mag) \/ near q (pos, mag))).
Proof. exact conjugates_parts. Qed.
Print Assumptions C26_every_part.

(** space, then a group of a lens and a space: the image inside the inner group is listed *)
Example C26_every_part_example : exists g : @grp XR, exists o,
  MatrixGroup_new [x_lens 5 25; x_space 30 1] "" = Ok g /\
  (exists g', MatrixGroup_new [x_space 10 1; grp_elem g] "" = Ok g' /\ canon (grp_elem g') o /\
    Forall2 (fun km o => describes (snd km) o) (leaves (grp_elem g')) [o_space 10 1; o_lens 5; o_space 30 1] /\
    exists l, intermediateConjugates (grp_elem g') = Ok (map fin2 l) /\ exists q, In q l /\ (q = (20, -1) \/ near q (20, -1))).
Proof. exact nested_sample. Qed.

(** ** C134 *)
(** of an element that images its front face on its back face: the first number is the ratio of the heights of all
    rays, the second that of the angles of the rays from the axis, and their product is n1/n2; there is none when the
    element does not image *)
Theorem C134_magnification :
  forall m o, describes m o -> physical o ->
  (B_ (oM o) = 0 -> exists t a, magnification m = Some (Fin t, Fin a) /\
     (forall y th, fst (mapp (oM o) (y, th)) = t * y) /\
     (forall th, mapp (oM o) (0, th) = (0, a * th)) /\ t * a = onf o / onb o) /\
  (/ 100000 <= Rabs (B_ (oM o)) -> magnification m = None).
Proof. exact magnification_spec. Qed.
Print Assumptions C134_magnification.

(** the matrix that forwardConjugate returns always has one *)
Theorem C134_image :
  forall m o, describes m o -> physical o -> D_ (oM o) <> 0 ->
  exists d c t a, forwardConjugate m = Ok (Fin d, Some c) /\ magnification c = Some (Fin t, Fin a) /\
    (forall y th, fst (mapp (mmul (free d) (oM o)) (y, th)) = t * y) /\
    (forall th, mapp (mmul (free d) (oM o)) (0, th) = (0, a * th)) /\ t * a = onf o / onb o.
Proof. exact image_magnification. Qed.
Print Assumptions C134_image.

Example C134_example :
  (physical (path_optic (o_space 10 1) [o_lens 5; o_space 10 1]) /\ B_ (oM (path_optic (o_space 10 1) [o_lens 5; o_space 10 1])) = 0 /\
   A_ (oM (path_optic (o_space 10 1) [o_lens 5; o_space 10 1])) = -1) /\
  physical (o_space 10 1) /\ / 100000 <= Rabs (B_ (oM (o_space 10 1))) /\ D_ (oM (o_space 10 1)) <> 0.
Proof.
  split.
  - split; [|split; cbn; lra]. apply physical_path. split; [apply p_space; lra|]. split; [reflexivity|]. split; [apply p_lens|].
    split; [reflexivity|]. split; [apply p_space; lra|exact I].
  - split; [apply p_space; lra|]. cbn. rewrite Rabs_right by lra. split; lra.
Qed.

(** the test is absolute: whoever works in metres is told that nine micrometres of air form an image of everything at
    themselves, while a ray from the axis ends off the axis and forwardConjugate finds the image elsewhere *)
Theorem C134_in_metres_refuted :
  exists (e : @elem float) d c, Space (ndec 9 6) c1 ninf = Ok e /\ magnification (emat e) = Some (c1, c1) /\
    neqb (ry (traceThrough e (Ray_new c0 c1))) c0 = false /\
    forwardConjugate (emat e) = Ok (d, Some c) /\ neqb d c0 = false.
Proof. exact metres_imaging. Qed.
Print Assumptions C134_in_metres_refuted.
