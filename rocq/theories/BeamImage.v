(** Gaussian beams in image planes. *)
From Coq Require Import Reals Lra Lia List Bool String ZArith.
From Verif Require Import Base Nums Optics Spec MatrixProofs ElementProofs GroupProofs TraceProofs RayProofs CardinalProofs StrictProofs Samples
  Beam BeamProofs BeamMore LawProofs CavityProofs ResonatorProofs.
Import ListNotations.
Open Scope list_scope.
Open Scope R_scope.

Lemma image_curvature M q k : B_ M = 0 -> A_ M <> 0 -> 0 < snd q -> mdet M <> 0 -> fst q = k * normsq q ->
  fst (mobius M q) = (C_ M + D_ M * k) / A_ M * normsq (mobius M q).
Proof.
  intros HB HA Hy Hd Ek. pose proof (den_nonzero M (fst q) (snd q) ltac:(lra) ltac:(exact Hd)) as ND. rewrite <- (surjective_pairing q) in ND.
  unfold mobius. set (dn := c2add (c2scale (C_ M) q) (c2real (D_ M))) in *. rewrite HB.
  assert (normsq (c2div (c2add (c2scale (A_ M) q) (c2real 0)) dn) = A_ M * A_ M * normsq q / normsq dn) as ->.
  { unfold c2div, normsq at 1. cbn [fst snd]. unfold c2add, c2scale, c2real. cbn [fst snd]. unfold normsq in *. field. lra. }
  replace ((C_ M + D_ M * k) / A_ M * (A_ M * A_ M * normsq q / normsq dn)) with (A_ M * (C_ M * normsq q + D_ M * (k * normsq q)) / normsq dn) by (field; split; [lra|exact HA]).
  rewrite <- Ek. unfold c2div, c2add, c2scale, c2real. cbn [fst snd]. unfold dn at 1 2, c2add, c2scale, c2real. cbn [fst snd].
  replace (normsq q) with (fst q * fst q + snd q * snd q) by reflexivity. field. lra.
Qed.
Theorem beam_image e o w r wl z b : canon e o -> Forall positive_leaf (leaves e) -> 0 < w -> 0 < wl -> flat_or_curved r ->
  GaussianBeam None (Some (Fin w)) r (Fin (onf o)) (Fin wl) (Fin z) = Ok b -> B_ (oM o) = 0 ->
  exists b' mt ma, beam_through e b = Ok b' /\ magnification (emat e) = Some (Fin mt, Fin ma) /\
    bw b' = Ok (Fin (Rabs mt * w)) /\
    forall r', flat_or_curved r' -> curv r' = (C_ (oM o) + ma * curv r) / mt -> bR b' = Ok r'.
Proof.
  intros Hc HP Hw Hl Hr Eb HB. destruct (beam_trace_ok e o Hc HP) as [So K]. pose proof (canon_physical _ _ Hc) as Ph.
  destruct (beam_reports w r (onf o) wl z Hw Hr (proj1 So) Hl) as (b0 & E0 & -> & _). rewrite E0 in Eb. injection Eb as <-.
  destruct (q_spec_facts w r (onf o) wl Hw (proj1 So) Hl) as (HY & HQ & HI & _).
  unfold waist_beam. destruct (K (q_spec w r (onf o) wl) wl z false HY Hl) as (l & cl' & E & Nl & _ & El & _).
  pose proof (sign_det o Ph So) as Hd. pose proof (mobius_up _ _ HY Hd) as HU.
  assert (A_ (oM o) <> 0) as HA by (intros EA; unfold mdet in Hd; rewrite EA, HB in Hd; lra).
  eexists. exists (A_ (oM o)), (D_ (oM o)). split; [unfold beam_through; rewrite E; cbn [bind]; rewrite El; reflexivity|]. split.
  { pose proof (canon_describes _ _ Hc) as De. unfold magnification, isImaging, isAlmostZero. dsc De. rewrite HB. rewrite eps5_val.
    cbn [nabs NumXR xabs nltb xltb]. rewrite Rabs_R0, Rltb_lt by lra. reflexivity. }
  split.
  - rewrite bw_fin by (exact HU || exact Hl || apply So). do 2 f_equal. pose proof (width_behind o w r wl Ph So Hw Hl) as W. cbv zeta in W.
    set (v := w_spec _ _ _) in *. assert (0 < v) as Hv by (apply w_spec_pos; [exact HU|exact Hl|apply So]).
    rewrite HB in W.
    assert (v * v = Rabs (A_ (oM o)) * w * (Rabs (A_ (oM o)) * w)) as W2.
    { rewrite W. unfold Rabs. destruct (Rcase_abs _); unfold Rdiv; ring. }
    assert (0 < Rabs (A_ (oM o)) * w) by (apply Rmult_lt_0_compat; [now apply Rabs_pos_lt|exact Hw]). nra.
  - intros r' Hr' Ec. apply bR_fin; [intros E1; rewrite E1 in HU; cbn in HU; lra|exact Hr'|]. rewrite Ec.
    apply image_curvature; auto; [lra|].
    pose proof (f_equal fst HI) as I1. unfold c2div in I1. cbn [fst snd] in I1. pose proof (normsq_pos _ HQ) as N0. rewrite <- I1. field. lra.
Qed.

(** ** One lens *)
Lemma image_path s s' f : 0 < s -> 0 < s' -> f <> 0 -> / s + / s' = / f ->
  exists g o, MatrixGroup_new [x_space s 1; xl f; x_space s' 1] "" = Ok g /\ canon (grp_elem g) o /\ Forall positive_leaf (leaves (grp_elem g)) /\
    onf o = 1 /\ A_ (oM o) = - (s' / s) /\ B_ (oM o) = 0 /\ C_ (oM o) = - / f /\ D_ (oM o) = - (s / s').
Proof.
  intros H1 H2 Hf E.
  destruct (MatrixGroup_canon [x_space s 1; xl f; x_space s' 1] [o_space s 1; o_lens f; o_space s' 1] "") as (g & Eg & Eel & _ & _ & _ & _ & Hc).
  { apply Forall2_cons; [apply c_space; lra|]. apply Forall2_cons; [apply c_xl|]. apply Forall2_cons; [apply c_space; lra|apply Forall2_nil]. }
  { cbn. unfold physical, mdet. cbn. repeat split; try lra; field; auto. }
  { right. intros o t E0. injection E0 as <- _. reflexivity. }
  { discriminate. }
  specialize (Hc _ _ eq_refl). exists g. eexists. split; [exact Eg|]. split; [exact Hc|]. split.
  { unfold grp_elem. cbn [leaves]. rewrite Eel. cbn. repeat constructor; cbn; lra. }
  assert (f = s * s' / (s + s')) as -> by (rewrite <- (Rinv_involutive f), <- E by exact Hf; field; repeat split; lra).
  cbn. repeat split; field; repeat split; lra.
Qed.
Theorem beam_image_lens w wl z s s' f : 0 < w -> 0 < wl -> 0 < s -> 0 < s' -> f <> 0 -> / s + / s' = / f ->
  exists sp l sp' g b b', Space (Fin s) (Fin 1) PInf = Ok sp /\ Lens (Fin f) PInf = Ok l /\ Space (Fin s') (Fin 1) PInf = Ok sp' /\
    MatrixGroup_new [sp; l; sp'] "" = Ok g /\ GaussianBeam None (Some (Fin w)) PInf (Fin 1) (Fin wl) (Fin z) = Ok b /\
    beam_through (grp_elem g) b = Ok b' /\ bw b' = Ok (Fin (s' / s * w)) /\ bR b' = Ok (Fin (f * s' / s)).
Proof.
  intros Hw Hl H1 H2 Hf E. destruct (image_path s s' f H1 H2 Hf E) as (g & o & Eg & Hc & HP & E1 & E2 & E3 & E4 & E5).
  destruct (beam_reports w PInf 1 wl z Hw I Rlt_0_1 Hl) as (b & Eb & _).
  destruct (beam_image _ o w PInf wl z b Hc HP Hw Hl I ltac:(rewrite E1; exact Eb) E3) as (b' & mt & ma & Et & Em & Ew & ER).
  assert (mt = - (s' / s)) as ->.
  { pose proof (canon_describes _ _ Hc) as De. unfold magnification in Em. destruct (isImaging _); [|discriminate]. revert Em. dsc De. intros Em. injection Em as <- _. exact E2. }
  assert (0 < s' / s) as Hm by (apply Rdiv_lt_0_compat; assumption).
  exists (x_space s 1), (xl f), (x_space s' 1), g, b, b'.
  split; [apply x_space_ok; lra|]. split; [apply Lens_ok; [exact Hf|exact I]|]. split; [apply x_space_ok; lra|].
  repeat (split; [assumption|]). split.
  - rewrite Ew. do 2 f_equal. rewrite Rabs_Ropp, Rabs_right by lra. reflexivity.
  - apply ER; [cbn; apply Rmult_integral_contrapositive_currified; [apply Rmult_integral_contrapositive_currified; lra|apply Rinv_neq_0_compat; lra]|].
    cbn [curv]. rewrite E4. field. repeat split; lra.
Qed.
