(** Property theorems: the image of a Gaussian beam (C139). *)
From Coq Require Import Reals Lra List Bool String.
From Verif Require Import Base Nums Optics Group Spec MatrixProofs ElementProofs GroupProofs TraceProofs StrictProofs Samples Beam BeamProofs BeamMore
  LawProofs CavityProofs ResonatorProofs ResonatorRefutations BeamImage.
Import ListNotations.
Open Scope list_scope.
Open Scope R_scope.

(** behind any path that images its input plane on its output plane, the beam is the input beam times the magnification of the rays,
    whatever its wavelength, and the curvature of its wavefront is (C + D / R) / A *)
Theorem C139_image : forall e o w r wl z b, canon e o -> Forall positive_leaf (leaves e) -> 0 < w -> 0 < wl -> flat_or_curved r ->
  GaussianBeam None (Some (Fin w)) r (Fin (onf o)) (Fin wl) (Fin z) = Ok b -> B_ (oM o) = 0 ->
  exists b' mt ma, beam_through e b = Ok b' /\ magnification (emat e) = Some (Fin mt, Fin ma) /\
    bw b' = Ok (Fin (Rabs mt * w)) /\
    forall r', flat_or_curved r' -> curv r' = (C_ (oM o) + ma * curv r) / mt -> bR b' = Ok r'.
Proof. exact beam_image. Qed.
Print Assumptions C139_image.

(** one lens with the object and the image at the distances s and s' of the lens formula: the waist at the object is imaged s'/s times
    as large, and the wavefront there has the radius f s' / s *)
Theorem C139_lens : forall w wl z s s' f, 0 < w -> 0 < wl -> 0 < s -> 0 < s' -> f <> 0 -> / s + / s' = / f ->
  exists sp l sp' g b b', Space (Fin s) (Fin 1) PInf = Ok sp /\ Lens (Fin f) PInf = Ok l /\ Space (Fin s') (Fin 1) PInf = Ok sp' /\
    MatrixGroup_new [sp; l; sp'] "" = Ok g /\ GaussianBeam None (Some (Fin w)) PInf (Fin 1) (Fin wl) (Fin z) = Ok b /\
    beam_through (grp_elem g) b = Ok b' /\ bw b' = Ok (Fin (s' / s * w)) /\ bR b' = Ok (Fin (f * s' / s)).
Proof. exact beam_image_lens. Qed.
Print Assumptions C139_lens.

(** a path of three elements with B = 0: object at 150, lens of 50, image at 75 *)
Example C139_example : exists e o b, canon e o /\ Forall positive_leaf (leaves e) /\ onf o = 1 /\ B_ (oM o) = 0 /\ C_ (oM o) = - / 50 /\
  GaussianBeam None (Some (Fin (1/10))) PInf (Fin (onf o)) (Fin (6328/10000000)) (Fin 0) = Ok b.
Proof.
  destruct (image_path 150 75 50) as (g & o & _ & Hc & HP & E1 & _ & E3 & E4 & _); [lra..|].
  destruct (beam_reports (1/10) PInf 1 (6328/10000000) 0 ltac:(lra) I Rlt_0_1 ltac:(lra)) as (b & Eb & _).
  exists (grp_elem g), o, b. rewrite E1. auto 10.
Qed.
Example C139_lens_example : 0 < 1/10 /\ 0 < 6328/10000000 /\ 0 < 150 /\ 0 < 75 /\ 50 <> 0 /\ / 150 + / 75 = / 50 /\ 75 / 150 * (1/10) = 1/20.
Proof. repeat split; lra. Qed.
