(** Property theorems C124: focal lengths and images in double precision.  [exact_of g] is the
    product of the matrices of the elements in exact arithmetic; [sumA g] to [sumD g] are the
    terms added up for each of its entries, all counted as positive, and [share g] is one part
    in 2^50 for every element. *)
From Coq Require Import ZArith Reals Lra Lia List Bool String Floats.
From Verif Require Import Base Nums Optics Spec GroupProofs TraceProofs Rounding RoundingOps Exact FloatTrace FloatGroup FloatSamples FloatBuild BuildSamples FloatImage ImageSamples.
Import ListNotations.
Open Scope list_scope.
Open Scope R_scope.

(** A path whose power is above the threshold 1e-5, rounding included, has the focal length
    -1/C of the exact product: the relative error is that of C, threefold. *)
Theorem C124_focal_length :
  forall g, plain g -> let C := C_ (exact_of g) in
  101 / 10 ^ 7 + share g * sumC g <= Rabs C -> 2 * (share g * sumC g) <= Rabs C ->
  exists f, effectiveFocalLengths (gmat g) = Ok (f, f) /\ ffin f /\
    Rabs (FR f - -1 / C) <= 3 * share g * (1 + Rabs (-1 / C) * sumC g) / Rabs C + tiny.
Proof. exact focal_near. Qed.
Print Assumptions C124_focal_length.

(** Below the threshold the focal lengths are infinite. *)
Theorem C124_no_power :
  forall g, plain g -> Rabs (C_ (exact_of g)) + share g * sumC g <= 99 / 10 ^ 7 ->
  effectiveFocalLengths (gmat g) = Ok (infinity, infinity).
Proof. exact focal_none. Qed.
Print Assumptions C124_no_power.

(** The image of an object at the beginning of the path is at -B/D behind it, as in exact
    arithmetic, and the matrix to the image has a B that is rounding only; the call succeeds when
    the path with the space to the image could be assembled. *)
Theorem C124_image :
  forall g, plain g -> let B := B_ (exact_of g) in let D := D_ (exact_of g) in
  0 < Rabs D -> 2 * (share g * sumD g) <= Rabs D -> sumB g <= p2 1000 * Rabs D ->
  exists d, ffin d /\ Rabs (FR d - - B / D) <= 3 * share g * (sumB g + Rabs (- B / D) * sumD g) / Rabs D + tiny /\
    (forall d' oc, forwardConjugate (gmat g) = Ok (d', oc) -> d' = d /\
       exists c, oc = Some c /\ Rabs (FR (mB c)) <= p2 (-50) * sumB g + tiny * (1 + 2 * sumD g)) /\
    (forall e, Space d (@c1 float _) infinity = Ok e -> let l := members (gelems g ++ [e]) in
       INR (List.length l) <= p2 50 -> modest l unit_y -> modest l unit_th ->
       Rabs (exact_det (members (gelems g)) - 1) + slack l <= 99 / 10 ^ 7 ->
       exists c, forwardConjugate (gmat g) = Ok (d, Some c)).
Proof. exact image_near. Qed.
Print Assumptions C124_image.

(** The same for the object whose image is at the end of the path. *)
Theorem C124_object :
  forall g, plain g -> let A := A_ (exact_of g) in let B := B_ (exact_of g) in
  0 < Rabs A -> 2 * (share g * sumA g) <= Rabs A -> sumB g <= p2 1000 * Rabs A ->
  forall d c, backwardConjugate (gmat g) = Ok (d, c) ->
  ffin d /\ Rabs (FR d - - B / A) <= 3 * share g * (sumB g + Rabs (- B / A) * sumA g) / Rabs A + tiny /\ FR (mB c) = 0.
Proof. exact object_near. Qed.
Print Assumptions C124_object.

(** The image is said to be at infinity only when the exact D is zero, but for rounding. *)
Theorem C124_infinity :
  forall g, plain g -> forall d, forwardConjugate (gmat g) = Ok (d, None) -> d = infinity /\ Rabs (D_ (exact_of g)) <= share g * sumD g.
Proof. exact infinity_near. Qed.
Print Assumptions C124_infinity.

(** The converse fails: with exact numbers an object in the focal plane has its image at infinity
    (C106_newton); with a lens of 49 mm it is reported at a finite distance, on the side
    of the object. *)
Theorem C124_refuted : exists (s l : @elem float) g d c,
  Space (fofZ 49) (fofZ 1) infinity = Ok s /\ Lens (fofZ 49) infinity = Ok l /\ MatrixGroup_new [s; l] ""%string = Ok g /\
  forwardConjugate (gmat g) = Ok (d, Some c) /\ ffin d /\ (d <? fofZ (-400000000000000000))%float = true.
Proof.
  destruct focal_49_image as (s & l & c & H1 & H2 & H3 & H4 & H5). exists s, l, focal_49, image_49, c.
  repeat (split; [assumption|]). vm_compute. reflexivity.
Qed.
Print Assumptions C124_refuted.

(** the bench of C121 (8 mm, a lens of 64 mm, 128 mm): the focal length is 64, the image is
    960/7 before the end, the object is 120 behind the beginning *)
Example C124_example : plain bench /\
  (exists f, effectiveFocalLengths (gmat bench) = Ok (f, f) /\ Rabs (FR f - 64) <= / 10 ^ 6) /\
  (exists d c, forwardConjugate (gmat bench) = Ok (d, Some c) /\ Rabs (FR d - - (960 / 7)) <= / 10 ^ 6 /\ Rabs (FR (mB c)) <= / 10 ^ 6) /\
  (exists d c, backwardConjugate (gmat bench) = Ok (d, c) /\ Rabs (FR d - 120) <= / 10 ^ 6).
Proof.
  pose proof bench_plain as P. split; [exact P|]. destruct bench_values as (EM & HS & HA & HB & HC & HD).
  destruct (share_ok bench P) as (_ & _ & S0).
  assert (tiny <= / 10 ^ 12) as T.
  { pose proof (p2_le (-1022) (-50) ltac:(lia)) as T1. fold tiny in T1.
    assert (p2 (-50) = / 1125899906842624) as E by (change (-50)%Z with (- (50))%Z; rewrite p2_opp; f_equal; rewrite <- p2_IZR by lia; reflexivity). rewrite E in T1. cbn [pow] in *. lra. }
  assert (forall x k, 0 <= x <= k -> share bench * x <= / 10 ^ 12 * k) as SH by (intros x k Hx; apply Rmult_le_compat; lra).
  pose proof tiny_pos as T0.
  assert (p2 20 <= p2 1000) as P2 by (apply p2_le; lia). assert (p2 20 = 1048576) as P3 by (rewrite <- p2_IZR by lia; reflexivity). rewrite P3 in P2.
  pose proof (SH _ _ HA) as SA. pose proof (SH _ _ HB) as SB. pose proof (SH _ _ HC) as SC. pose proof (SH _ _ HD) as SD.
  split; [|split].
  - destruct (focal_near bench P) as (f & E & _ & N); rewrite EM in *; cbn [A_ B_ C_ D_] in *; rewrite ?Rabs_Ropp, ?(Rabs_pos_eq (/ 64)) in * by lra.
    + cbn [pow] in *. lra.
    + cbn [pow] in *. lra.
    + exists f. split; [exact E|]. replace (-1 / - / 64) with 64 in N by field. rewrite (Rabs_pos_eq 64) in N by lra.
      eapply Rle_trans; [exact N|]. replace (3 * share bench * (1 + 64 * sumC bench) / / 64) with (192 * (share bench * 1) + 12288 * (share bench * sumC bench)) by field. cbn [pow] in *. lra.
  - destruct (image_near bench P) as (d & Fd & N & U & _); rewrite EM in *; cbn [A_ B_ C_ D_] in *; rewrite ?(Rabs_pos_eq (7 / 8)) in * by lra.
    + lra.
    + cbn [pow] in *. lra.
    + apply Rle_trans with (1048576 * (7 / 8)); [lra|]. apply Rmult_le_compat_r; lra.
    + assert (exists d' c, forwardConjugate (gmat bench) = Ok (d', Some c)) as (d' & c & E) by (eexists _, _; vm_compute; reflexivity).
      destruct (U d' (Some c) E) as (-> & c' & [= <-] & NB). exists d, c. split; [exact E|]. 
      replace (- (120) / (7 / 8)) with (- (960 / 7)) in N by field. rewrite Rabs_Ropp, (Rabs_pos_eq (960 / 7)) in N by lra. split.
      * eapply Rle_trans; [exact N|]. replace (3 * share bench * (sumB bench + 960 / 7 * sumD bench) / (7 / 8)) with (24 / 7 * (share bench * sumB bench) + 23040 / 49 * (share bench * sumD bench)) by field. cbn [pow] in *. lra.
      * eapply Rle_trans; [exact NB|].
        assert (p2 (-50) = / 1125899906842624) as E50 by (change (-50)%Z with (- (50))%Z; rewrite p2_opp; f_equal; rewrite <- p2_IZR by lia; reflexivity). rewrite E50.
        assert (tiny * (1 + 2 * sumD bench) <= / 10 ^ 12 * 11) by (apply Rmult_le_compat; lra). cbn [pow] in *. lra.
  - assert (exists d c, backwardConjugate (gmat bench) = Ok (d, c)) as (d & c & E) by (eexists _, _; vm_compute; reflexivity).
    exists d, c. split; [exact E|].
    destruct (object_near bench P) with (d := d) (c := c) as (Fd & N & _); rewrite ?EM in *; cbn [A_ B_ C_ D_] in *; replace (-1) with (- (1)) in * by ring; rewrite ?Rabs_Ropp, ?Rabs_R1 in *; [lra| |lra|exact E|].
    + assert (/ 10 ^ 12 * 5 <= / 2) by (cbn; lra). lra.
    + replace (- (120) / - (1)) with 120 in N by field. rewrite (Rabs_pos_eq 120) in N by lra. eapply Rle_trans; [exact N|].
      replace (3 * share bench * (sumB bench + 120 * sumA bench) / 1) with (3 * (share bench * sumB bench) + 360 * (share bench * sumA bench)) by field. cbn [pow] in *. lra.
Qed.
(** two spaces have no power; an object in the focal plane of a lens of 64 mm is seen to be there *)
Example C124_limits_example : (plain gaps /\ Rabs (C_ (exact_of gaps)) + share gaps * sumC gaps <= 99 / 10 ^ 7) /\
  (plain focal_64 /\ forwardConjugate (gmat focal_64) = Ok (infinity, None)).
Proof. split; (split; [first [exact gaps_plain|exact focal_64_plain]|]); [exact gaps_power|vm_compute; reflexivity]. Qed.
