(** Property theorems C41-C47, C67: Gaussian beams and laser cavities.  Each theorem is closed by
    a lemma proved elsewhere; the examples show that its hypotheses can be met. *)
From Coq Require Import Reals Lra List Bool String ZArith Floats Lia.
From Verif Require Import Base Nums Optics Group Spec MatrixProofs ElementProofs GroupProofs
  TraceProofs RayProofs CardinalProofs StrictProofs FlipProofs Samples Beam BeamProofs BeamMore GroupRefutations BeamRefutations.
Import ListNotations.
Open Scope list_scope.
Open Scope R_scope.

(** the path of Samples.v: space, thick lens, space, lens with an aperture, space *)
Lemma sample_positive : Forall positive_leaf (flat_map leaves sample).
Proof.
  repeat apply Forall_cons; try apply Forall_nil; (split; [cbn; lra|split; [cbn; lra|exact I]]).
Qed.
Lemma sample_spaces : Forall2 true_space sample sample_o.
Proof.
  repeat apply Forall2_cons; try apply Forall2_nil; intros H; try discriminate; reflexivity.
Qed.

(** ** C41 *)
(** [mobius M q] is (Aq+B)/(Cq+D); [b1]: through the matrix of the group, [b2]: through the
    matrices of the elements one after the other, [b3]: at the end of the trace *)
Theorem C41_beams_compose :
  forall (es : list (@elem XR)) os lab,
  Forall2 canon es os -> chain os -> good os -> os <> [] ->
  Forall positive_leaf (flat_map leaves es) ->
  exists g, MatrixGroup_new es lab = Ok g /\
    forall q wl z cl o t, os = o :: t -> 0 < snd q -> 0 < wl ->
    exists b1 b2 b3,
      mul_beam (gmat g) (fbeam q wl z (onf o) cl) = Ok b1 /\
      mul_beams (map emat es) (fbeam q wl z (onf o) cl) = Ok b2 /\
      beam_through (grp_elem g) (fbeam q wl z (onf o) cl) = Ok b3 /\
      bq b1 = fcx (mobius (mprod (map oM os)) q) /\
      bz b1 = Fin (total_length os + z) /\
      same_place b1 b2 /\ same_place b1 b3.
Proof. exact beams_compose. Qed.
Print Assumptions C41_beams_compose.
Example C41_example : Forall2 canon sample sample_o /\ chain sample_o /\ good sample_o /\
  sample_o <> [] /\ Forall positive_leaf (flat_map leaves sample).
Proof.
  split; [exact sample_canon|]. split; [exact sample_chain|]. split; [exact sample_good|].
  split; [discriminate|exact sample_positive].
Qed.

(** ** C42 *)
Theorem C42_stays_finite :
  forall (es : list (@elem XR)) os lab,
  Forall2 canon es os -> chain os -> good os -> os <> [] ->
  Forall positive_leaf (flat_map leaves es) ->
  exists g, MatrixGroup_new es lab = Ok g /\
    forall q wl z cl, 0 < wl -> isFinite (fbeam q wl z (onf (hd o_aperture os)) cl) = Ok true ->
    exists l, beam_trace (grp_elem g) (fbeam q wl z (onf (hd o_aperture os)) cl) = Ok l /\
      l <> [] /\
      Forall (fun b => isFinite b = Ok true /\ exists w, bw b = Ok (Fin w) /\ 0 < w) l.
Proof. exact stays_finite. Qed.
Print Assumptions C42_stays_finite.
Example C42_example : isFinite (fbeam (-20, 5) (1/1000) 0 (onf (hd o_aperture sample_o)) false) = Ok true.
Proof. rewrite isFinite_fin. cbn [snd]. destruct (Rlt_dec 0 5); [reflexivity|lra]. Qed.

(** ** C43 *)
Theorem C43_reports_w_and_R :
  forall w r n wl z, 0 < w -> flat_or_curved r -> 0 < n -> 0 < wl ->
  exists b, GaussianBeam None (Some (Fin w)) r (Fin n) (Fin wl) (Fin z) = Ok b /\
    b = waist_beam w r n wl z /\
    isFinite b = Ok true /\ bw b = Ok (Fin w) /\ bR b = Ok r /\
    bwl b = Fin wl /\ bn b = Fin n /\ bz b = Fin z /\ bclip b = false.
Proof. exact beam_reports. Qed.
Print Assumptions C43_reports_w_and_R.
Example C43_example : 0 < 1/2 /\ flat_or_curved (Fin (-30)) /\ flat_or_curved PInf /\ 0 < 3/2.
Proof. cbn. lra. Qed.

(** wo is w exactly when n = 1 *)
Theorem C43_waist :
  forall w n wl z, 0 < w -> 0 < n -> 0 < wl ->
  rayleighRange (waist_beam w PInf n wl z) = Fin (n * PI * w * w / wl) /\
  confocalParameter (waist_beam w PInf n wl z) = Fin (n * PI * w * w / wl) /\
  waistPosition (waist_beam w PInf n wl z) = Fin 0 /\
  bwo (waist_beam w PInf n wl z) = Ok (Some (Fin (R_sqrt.sqrt n * w))).
Proof. exact waist_zo. Qed.
Print Assumptions C43_waist.

Theorem C43_spreads_from_waist :
  forall w n wl z d, 0 < w -> 0 < n -> 0 < wl ->
  exists e b', Space (Fin d) (Fin n) PInf = Ok e /\
    beam_through e (waist_beam w PInf n wl z) = Ok b' /\
    bw b' = Ok (Fin (w * R_sqrt.sqrt (1 + (d / (n * PI * w * w / wl)) * (d / (n * PI * w * w / wl))))) /\
    rayleighRange b' = Fin (n * PI * w * w / wl) /\ waistPosition b' = Fin (- d).
Proof. exact waist_spreads. Qed.
Print Assumptions C43_spreads_from_waist.

Theorem C43_waist_refuted :
  exists (b : @beam float) w wo, GaussianBeam None (Some c1) ninf n15 wl_default c0 = Ok b /\
    bw b = Ok w /\ bwo b = Ok (Some wo) /\
    nltb w (ndec 101 2) = true /\ nltb (ndec 12 1) wo = true.
Proof. exact waist_in_glass. Qed.
Print Assumptions C43_waist_refuted.

(** ** C44 *)
(** for any number type; [spared] says that the beam after a leaf was not wider than the leaf *)
Theorem C44_clipping_permanent :
  forall T (N : Num T) (e : @elem T) b l, beam_trace e b = Ok l ->
  (bclip b = true -> Forall (fun b' => bclip b' = true) l) /\
  (bclip (last l b) = false ->
     Forall (fun b' => bclip b' = false) (b :: l) /\
     exists outs, incl outs l /\ Forall2 spared (leaves e) outs).
Proof. exact @clip_trace. Qed.
Print Assumptions C44_clipping_permanent.
(** a beam clipped by a lens stays clipped in the space after it *)
Example C44_example :
  exists a s g b l, Lens (fz 50) (fz 1) = Ok a /\ Space (fz 10) c1 ninf = Ok s /\
    MatrixGroup_new [s; a; s] "" = Ok g /\ GaussianBeam None (Some c1) ninf c1 wl_default c0 = Ok b /\
    beam_trace (grp_elem g) b = Ok l /\ map bclip l = [false; false; true; true].
Proof.
  pose (a := the (Lens (fz 50) (fz 1))). pose (s := fspace 10).
  pose (g := theg (MatrixGroup_new [s; a; s] "")).
  pose (b := theb (GaussianBeam None (Some c1) ninf c1 wl_default c0)).
  exists a, s, g, b, (match beam_trace (grp_elem g) b with Ok l => l | _ => [] end).
  vm_compute. repeat split.
Qed.

Theorem C44_index_tracked :
  forall (es : list (@elem XR)) os o t, os = o :: t ->
  Forall2 canon es os -> chain os -> Forall positive_leaf (flat_map leaves es) ->
  exists g, MatrixGroup_new es "" = Ok g /\
    (forall q wl z cl, 0 < snd q -> 0 < wl ->
     exists b, beam_through (grp_elem g) (fbeam q wl z (onf o) cl) = Ok b /\
       bn b = Fin (onb (last t o))) /\
    (good os -> mfi (gmat g) = Fin (onf o) /\ mbi (gmat g) = Fin (onb (last t o))).
Proof. exact index_tracked. Qed.
Print Assumptions C44_index_tracked.

Theorem C44_index_refuted :
  exists (s : @elem float) g b, Space c0 n15 ninf = Ok s /\ MatrixGroup_new [s] "" = Ok g /\
    neqb (mfi (gmat g)) c1 = true /\
    GaussianBeam None (Some c1) ninf (mfi (gmat g)) wl_default c0 = Ok b /\
    beam_through (grp_elem g) b = Err RuntimeError.
Proof. exact index_lost. Qed.
Print Assumptions C44_index_refuted.

(** ** C45 *)
(** [round_trip M q]: Cq+D is not zero and q = (Aq+B)/(Cq+D) *)
Theorem C45_modes :
  forall (m : @mat XR) M, matrix_is m M -> 1 / 100000 < Rabs (C_ M) -> mdet M <> 0 ->
  exists q1 q2 l, eigenModes m = Ok (Some (mode q1, mode q2)) /\
    round_trip M q1 /\ round_trip M q2 /\
    (forall q, round_trip M q -> q = q1 \/ q = q2) /\
    laserModes m = Ok l /\ (List.length l <= 1)%nat /\
    (forall b, In b l <-> (b = mode q1 \/ b = mode q2) /\ isFinite b = Ok true) /\
    (forall b, mfi m = Fin 1 -> mbi m = Fin 1 -> 0 < mdet M -> In b l ->
       exists b', mul_beam m b = Ok b' /\ bq b' = bq b).
Proof. exact modes_ok. Qed.
Print Assumptions C45_modes.
Example C45_example : let M := mk2 1 30 (-1/50) (2/5) in
  matrix_is (mat_of (mkO M 30 1 1 None None) PInf PInf false "") M /\
  1 / 100000 < Rabs (C_ M) /\ mdet M = 1.
Proof.
  cbv zeta. split; [repeat split|]. split.
  - cbn [C_]. rewrite Rabs_left; lra.
  - unfold mdet; cbn. lra.
Qed.

Theorem C45_glass_refuted :
  exists (s m : @elem float) g b, Space (fz 10) n15 ninf = Ok s /\
    MatrixE c1 c0 (ndec (-1) 1) c1 c0 None None n15 n15 = Ok m /\
    MatrixGroup_new [s; m] "" = Ok g /\
    laserModes (gmat g) = Ok [b] /\ mul_beam (gmat g) b = Err RuntimeError /\
    beam_through (grp_elem g) b = Err RuntimeError.
Proof. exact glass_cavity. Qed.
Print Assumptions C45_glass_refuted.

(** ** C46 *)
Theorem C46_stability_partial :
  forall (m : @mat XR) M, matrix_is m M -> 1 / 100000 < Rabs (C_ M) -> mdet M = 1 ->
  (isStable m = Ok true <-> (A_ M + D_ M) * (A_ M + D_ M) < 4) /\
  (isStable m = Ok false <-> 4 <= (A_ M + D_ M) * (A_ M + D_ M)).
Proof. exact stable_iff. Qed.
Print Assumptions C46_stability_partial.

Theorem C46_refuted :
  exists (a r b : @elem float) g, Space (fz 1000) c1 ninf = Ok a /\
    CurvedMirror (fz (-1000000)) ninf = Ok r /\
    Space (fz 1000) c1 ninf = Ok b /\ MatrixGroup_new [a; r; b] "" = Ok g /\
    nltb ((mA (gmat g) + mD (gmat g)) * (mA (gmat g) + mD (gmat g)))%num (ndec 3985 3) = true /\
    neqb (determinant (gmat g)) c1 = true /\
    isStable (gmat g) = Ok false.
Proof. exact weak_mirrors. Qed.
Print Assumptions C46_refuted.

(** ** C47 *)
(** the elements met by light, and what tracing through them does when every element looks the
    same from both sides *)
Theorem C47_elements :
  forall T (g : @grp T),
  gelems (appendElementsInReverse g false false) = gelems g ++ rev (gelems g) /\
  gelems (appendElementsInReverse g true false) = gelems g ++ rev (tl (gelems g)) /\
  gelems (appendElementsInReverse g false true) = gelems g ++ rev (removelast (gelems g)) /\
  gelems (appendElementsInReverse g true true) = gelems g ++ rev (tl (removelast (gelems g))).
Proof. exact @close_elements. Qed.
Print Assumptions C47_elements.

Theorem C47_trace_partial :
  forall (es : list (@elem XR)) os n, Forall2 canon es os -> os <> [] ->
  Forall (fun o => physical o /\ onf o = n /\ onb o = n /\ mrev (oM o) = oM o) os ->
  Forall positive_leaf (flat_map leaves es) ->
  exists g, MatrixGroup_new es "" = Ok g /\
    forall q wl z cl, 0 < snd q -> 0 < wl ->
    exists b, beam_through (grp_elem (appendElementsInReverse g false false)) (fbeam q wl z n cl) = Ok b /\
      bq b = fcx (mobius (mmul (mprod (map (fun o => mrev (oM o)) (rev os))) (mprod (map oM os))) q) /\
      bz b = Fin (2 * total_length os + z) /\ bn b = Fin n.
Proof. exact close_trace. Qed.
Print Assumptions C47_trace_partial.
Example C47_example :
  Forall2 canon [x_space 30 1; x_lens 50 25] [o_space 30 1; o_lens 50] /\
  Forall (fun o => physical o /\ onf o = 1 /\ onb o = 1 /\ mrev (oM o) = oM o) [o_space 30 1; o_lens 50].
Proof.
  split.
  - repeat apply Forall2_cons; try apply Forall2_nil; [apply c_space; lra|apply c_lens].
  - apply Forall_cons; [|apply Forall_cons; [|apply Forall_nil]].
    + split; [apply p_space; lra|]. split; [reflexivity|]. split; [reflexivity|].
      unfold mrev, mdet; cbn. unfold free. f_equal; field.
    + split; [apply p_lens|]. split; [reflexivity|]. split; [reflexivity|].
      unfold mrev, mdet; cbn. unfold thin. f_equal; field.
Qed.

(** the next append() computes the matrix of all the elements *)
Theorem C47_append_after :
  forall T (N : Num T) (g : @grp T) a b e g',
  append (appendElementsInReverse g a b) e = Ok g' ->
  exists e' p, gelems g' = gelems (appendElementsInReverse g a b) ++ [e'] /\
    group_transfer (gelems g') ninf = Ok p /\
    mA (gmat g') = mA p /\ mB (gmat g') = mB p /\ mC (gmat g') = mC p /\ mD (gmat g') = mD p.
Proof. exact @close_then_append. Qed.
Print Assumptions C47_append_after.

Theorem C47_matrix_refuted :
  exists (r1 s r2 : @elem float) g t, CurvedMirror (fz (-100)) ninf = Ok r1 /\
    Space (fz 30) c1 ninf = Ok s /\
    CurvedMirror (fz (-200)) ninf = Ok r2 /\ MatrixGroup_new [r1; s; r2] "" = Ok g /\
    gelems (appendElementsInReverse g false true) = [r1; s; r2; s; r1] /\
    gmat (appendElementsInReverse g false true) = gmat g /\
    group_transfer [r1; s; r2; s; r1] ninf = Ok t /\
    neqb (mB t) (mB (gmat (appendElementsInReverse g false true))) = false /\
    laserModes (gmat (appendElementsInReverse g false true)) = laserModes (gmat g) /\
    match laserModes (gmat g), laserModes t with
    | Ok [x], Ok [y] => neqb (im (bq x)) (im (bq y)) = false
    | _, _ => False
    end.
Proof. exact not_closed. Qed.
Print Assumptions C47_matrix_refuted.

Theorem C47_flip_refuted :
  exists (i : @elem float) g, DielectricInterface c1 n15 (fz 100) ninf = Ok i /\
    MatrixGroup_new [i] "" = Ok g /\
    gelems (appendElementsInReverse g false false) = [i; i] /\
    (exists b, GaussianBeam None (Some c1) ninf c1 wl_default c0 = Ok b /\
       beam_through (grp_elem (appendElementsInReverse g false false)) b = Err RuntimeError).
Proof. exact not_flipped. Qed.
Print Assumptions C47_flip_refuted.

(** ** C67 *)
(** [true_space]: the matrix of a Space moves light over the length of the Space *)
Theorem C67_pieces_same_beam :
  forall N (es : list (@elem XR)) os, (1 <= N)%nat ->
  Forall2 canon es os -> Forall2 true_space es os -> chain os -> os <> [] ->
  Forall positive_leaf (flat_map leaves es) ->
  exists g, MatrixGroup_new es "" = Ok g /\
    forall q wl z cl, 0 < snd q -> 0 < wl ->
    exists l b, drawn_beams N g (fbeam q wl z (onf (hd o_aperture os)) cl) = Ok l /\
      beam_through (grp_elem g) (fbeam q wl z (onf (hd o_aperture os)) cl) = Ok b /\
      same_place (last l (fbeam q wl z (onf (hd o_aperture os)) cl)) b.
Proof. exact drawn_same. Qed.
Print Assumptions C67_pieces_same_beam.
Example C67_example : Forall2 canon sample sample_o /\ Forall2 true_space sample sample_o /\
  chain sample_o /\ sample_o <> [] /\ Forall positive_leaf (flat_map leaves sample).
Proof.
  split; [exact sample_canon|]. split; [exact sample_spaces|]. split; [exact sample_chain|].
  split; [discriminate|exact sample_positive].
Qed.
