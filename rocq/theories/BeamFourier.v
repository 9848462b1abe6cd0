(** Gaussian beams in back focal planes. *)
From Coq Require Import Reals Lra Lia List Bool String ZArith.
From Verif Require Import Base Nums Optics Spec MatrixProofs ElementProofs GroupProofs TraceProofs RayProofs CardinalProofs StrictProofs Samples
  Beam BeamProofs BeamMore LawProofs CavityProofs ResonatorProofs.
Import ListNotations.
Open Scope list_scope.
Open Scope R_scope.

Lemma fourier_curvature M q : A_ M = 0 -> B_ M <> 0 -> 0 < snd q -> mdet M <> 0 ->
  fst (mobius M q) = (C_ M * fst q + D_ M) / B_ M * normsq (mobius M q).
Proof.
  intros HA HB Hy Hd. pose proof (den_nonzero M (fst q) (snd q) ltac:(lra) ltac:(exact Hd)) as ND. rewrite <- (surjective_pairing q) in ND.
  unfold mobius. set (dn := c2add (c2scale (C_ M) q) (c2real (D_ M))) in *. rewrite HA.
  assert (normsq (c2div (c2add (c2scale 0 q) (c2real (B_ M))) dn) = B_ M * B_ M / normsq dn) as ->.
  { unfold c2div, normsq at 1. cbn [fst snd]. unfold c2add, c2scale, c2real. cbn [fst snd]. unfold normsq in *. field. lra. }
  unfold c2div, c2add, c2scale, c2real. cbn [fst snd]. unfold dn at 1 2, c2add, c2scale, c2real. cbn [fst snd]. field. split; [lra|exact HB].
Qed.
Theorem beam_fourier e o w wl z b : canon e o -> Forall positive_leaf (leaves e) -> 0 < w -> 0 < wl ->
  GaussianBeam None (Some (Fin w)) PInf (Fin (onf o)) (Fin wl) (Fin z) = Ok b -> A_ (oM o) = 0 ->
  exists b', beam_through e b = Ok b' /\ bw b' = Ok (Fin (Rabs (B_ (oM o)) * (wl / (onf o * PI * w)))) /\
    forall r', flat_or_curved r' -> curv r' = D_ (oM o) / B_ (oM o) -> bR b' = Ok r'.
Proof.
  intros Hc HP Hw Hl Eb HA. destruct (beam_trace_ok e o Hc HP) as [So K]. pose proof (canon_physical _ _ Hc) as Ph.
  destruct (beam_reports w PInf (onf o) wl z Hw I (proj1 So) Hl) as (b0 & E0 & -> & _). rewrite E0 in Eb. injection Eb as <-.
  destruct (q_spec_facts w PInf (onf o) wl Hw (proj1 So) Hl) as (HY & HQ & HI & _).
  unfold waist_beam. destruct (K (q_spec w PInf (onf o) wl) wl z false HY Hl) as (l & cl' & E & Nl & _ & El & _).
  pose proof (sign_det o Ph So) as Hd. pose proof (mobius_up _ _ HY Hd) as HU.
  assert (B_ (oM o) <> 0) as HB by (intros EB; unfold mdet in Hd; rewrite EB, HA in Hd; lra).
  eexists. split; [unfold beam_through; rewrite E; cbn [bind]; rewrite El; reflexivity|]. split.
  - rewrite bw_fin by (exact HU || exact Hl || apply So). do 2 f_equal. pose proof (width_behind o w PInf wl Ph So Hw Hl) as W. cbv zeta in W.
    set (v := w_spec _ _ _) in *. assert (0 < v) as Hv by (apply w_spec_pos; [exact HU|exact Hl|apply So]).
    rewrite HA in W. cbn [curv] in W. set (u := wl / (onf o * PI * w)) in *.
    assert (0 < u) as Hu by (pose proof PI_RGT_0; apply Rdiv_lt_0_compat; [exact Hl|]; apply Rmult_lt_0_compat; [apply Rmult_lt_0_compat; [exact (proj1 So)|assumption]|exact Hw]).
    assert (v * v = Rabs (B_ (oM o)) * u * (Rabs (B_ (oM o)) * u)) as W2.
    { rewrite W. unfold Rabs. destruct (Rcase_abs _); ring. }
    assert (0 < Rabs (B_ (oM o)) * u) by (apply Rmult_lt_0_compat; [now apply Rabs_pos_lt|exact Hu]). nra.
  - intros r' Hr' Ec. apply bR_fin; [intros E1; rewrite E1 in HU; cbn in HU; lra|exact Hr'|]. rewrite Ec.
    rewrite (fourier_curvature _ _ HA HB HY) at 1 by lra. do 2 f_equal.
    unfold q_spec. cbn [curv fst]. unfold Rdiv. ring.
Qed.

(** ** The back focal plane of a lens *)
Lemma fourier_path s f : f <> 0 ->
  exists g o, MatrixGroup_new [x_space s 1; xl f; x_space f 1] "" = Ok g /\ canon (grp_elem g) o /\ Forall positive_leaf (leaves (grp_elem g)) /\
    onf o = 1 /\ A_ (oM o) = 0 /\ B_ (oM o) = f /\ D_ (oM o) = 1 - s / f.
Proof.
  intros Hf.
  destruct (MatrixGroup_canon [x_space s 1; xl f; x_space f 1] [o_space s 1; o_lens f; o_space f 1] "") as (g & Eg & Eel & _ & _ & _ & _ & Hc).
  { apply Forall2_cons; [apply c_space; lra|]. apply Forall2_cons; [apply c_xl|]. apply Forall2_cons; [apply c_space; lra|apply Forall2_nil]. }
  { cbn. unfold physical, mdet. cbn. repeat split; try lra; field; auto. }
  { right. intros o t E0. injection E0 as <- _. reflexivity. }
  { discriminate. }
  specialize (Hc _ _ eq_refl). exists g. eexists. split; [exact Eg|]. split; [exact Hc|]. split.
  { unfold grp_elem. cbn [leaves]. rewrite Eel. cbn. repeat constructor; cbn; lra. }
  cbn. repeat split; field; exact Hf.
Qed.
Theorem beam_fourier_lens w wl z s f : 0 < w -> 0 < wl -> 0 < f ->
  exists sp l sp' g b b', Space (Fin s) (Fin 1) PInf = Ok sp /\ Lens (Fin f) PInf = Ok l /\ Space (Fin f) (Fin 1) PInf = Ok sp' /\
    MatrixGroup_new [sp; l; sp'] "" = Ok g /\ GaussianBeam None (Some (Fin w)) PInf (Fin 1) (Fin wl) (Fin z) = Ok b /\
    beam_through (grp_elem g) b = Ok b' /\ bw b' = Ok (Fin (f * wl / (PI * w))) /\
    (s = f -> bR b' = Ok PInf) /\ (s <> f -> bR b' = Ok (Fin (f * f / (f - s)))).
Proof.
  intros Hw Hl Hf. destruct (fourier_path s f ltac:(lra)) as (g & o & Eg & Hc & HP & E1 & E2 & E3 & E4).
  destruct (beam_reports w PInf 1 wl z Hw I Rlt_0_1 Hl) as (b & Eb & _).
  destruct (beam_fourier _ o w wl z b Hc HP Hw Hl ltac:(rewrite E1; exact Eb) E2) as (b' & Et & Ew & ER).
  exists (x_space s 1), (xl f), (x_space f 1), g, b, b'.
  split; [apply x_space_ok; lra|]. split; [apply Lens_ok; [lra|exact I]|]. split; [apply x_space_ok; lra|].
  repeat (split; [assumption|]). pose proof PI_RGT_0. split; [|split].
  - rewrite Ew. do 2 f_equal. rewrite E1, E3, Rabs_right by lra. field. lra.
  - intros ->. apply ER; [exact I|]. cbn [curv]. rewrite E3, E4. field. lra.
  - intros Hs. apply ER; [cbn; unfold Rdiv; apply Rmult_integral_contrapositive_currified; [nra|apply Rinv_neq_0_compat; lra]|].
    cbn [curv]. rewrite E3, E4. field. split; lra.
Qed.
