(** Property theorems: Gaussian beams in the back focal plane (C140). *)
From Coq Require Import Reals Lra List Bool String.
From Verif Require Import Base Nums Optics Group Spec MatrixProofs ElementProofs GroupProofs TraceProofs StrictProofs Samples Beam BeamProofs BeamMore
  LawProofs CavityProofs ResonatorProofs BeamFourier.
Import ListNotations.
Open Scope list_scope.
Open Scope R_scope.

(** behind any path that ends in its back focal plane (A = 0), a waist w gives a beam whose radius is B times its angle of
    diffraction in front, wl / (n pi w), and whose wavefront has the curvature D / B *)
Theorem C140_focal_plane : forall e o w wl z b, canon e o -> Forall positive_leaf (leaves e) -> 0 < w -> 0 < wl ->
  GaussianBeam None (Some (Fin w)) PInf (Fin (onf o)) (Fin wl) (Fin z) = Ok b -> A_ (oM o) = 0 ->
  exists b', beam_through e b = Ok b' /\ bw b' = Ok (Fin (Rabs (B_ (oM o)) * (wl / (onf o * PI * w)))) /\
    forall r', flat_or_curved r' -> curv r' = D_ (oM o) / B_ (oM o) -> bR b' = Ok r'.
Proof. exact beam_fourier. Qed.
Print Assumptions C140_focal_plane.

(** one lens: in the back focal plane the radius is f wl / (pi w) wherever the waist w is in front of the lens, and the wavefront is
    flat exactly when the waist is in the front focal plane *)
Theorem C140_lens : forall w wl z s f, 0 < w -> 0 < wl -> 0 < f ->
  exists sp l sp' g b b', Space (Fin s) (Fin 1) PInf = Ok sp /\ Lens (Fin f) PInf = Ok l /\ Space (Fin f) (Fin 1) PInf = Ok sp' /\
    MatrixGroup_new [sp; l; sp'] "" = Ok g /\ GaussianBeam None (Some (Fin w)) PInf (Fin 1) (Fin wl) (Fin z) = Ok b /\
    beam_through (grp_elem g) b = Ok b' /\ bw b' = Ok (Fin (f * wl / (PI * w))) /\
    (s = f -> bR b' = Ok PInf) /\ (s <> f -> bR b' = Ok (Fin (f * f / (f - s)))).
Proof. exact beam_fourier_lens. Qed.
Print Assumptions C140_lens.

(** a waist 30 in front of a lens of focal length 50, seen 50 behind it *)
Example C140_example : exists e o b, canon e o /\ Forall positive_leaf (leaves e) /\ onf o = 1 /\ A_ (oM o) = 0 /\ B_ (oM o) = 50 /\
  GaussianBeam None (Some (Fin (1/10))) PInf (Fin (onf o)) (Fin (6328/10000000)) (Fin 0) = Ok b.
Proof.
  destruct (fourier_path 30 50) as (g & o & _ & Hc & HP & E1 & E2 & E3 & _); [lra|].
  destruct (beam_reports (1/10) PInf 1 (6328/10000000) 0 ltac:(lra) I Rlt_0_1 ltac:(lra)) as (b & Eb & _).
  exists (grp_elem g), o, b. rewrite E1. auto 10.
Qed.
Example C140_lens_example : 0 < 1/10 /\ 0 < 6328/10000000 /\ 0 < 50 /\ 30 <> 50 /\ 50 * 50 / (50 - 30) = 125.
Proof. repeat split; lra. Qed.
