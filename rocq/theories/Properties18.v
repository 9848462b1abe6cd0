(** Property theorems C110-C113: the glass of the catalogue lenses, resonators of two mirrors, the lens formula of beams, and
    beams as pairs of rays.  Each theorem is closed by a lemma proved elsewhere; the examples show that its hypotheses can
    be met. *)
From Coq Require Import Reals Lra List Bool String Ascii ZArith NArith Floats Lia.
From Verif Require Import Base Nums Optics Spec MatrixProofs ElementProofs GroupProofs TraceProofs RayProofs CardinalProofs StrictProofs Samples
  GroupRefutations Beam BeamProofs BeamMore LawProofs CavityProofs ResonatorProofs ResonatorRefutations Materials Zemax Catalogue CatalogueProofs CatalogueLens CatalogueChecks
  EdgeProofs EdgeRefutations.
Import ListNotations.
Set Warnings "-inexact-float".
Open Scope string_scope.
Open Scope list_scope.
Open Scope R_scope.

(** ** C110 *)
(** at every height up to half the diameter each surface of a catalogue lens has one point, and neighbouring surfaces are
    in order there; the distance of the outer surfaces at the edge is within 5 % of the edge thickness of the class
    except for the lenses listed in [off_edge] *)
Theorem C110_glass :
  forall name c,
  In (name, c) (@lenses XR _) ->
  exists D te, diameter c = Fin D /\ edge c = Fin te /\ 0 < D /\ te <> 0 /\
    (forall s y, In s (glass_surfaces c) -> Rabs y <= D / 2 -> exists! z, on_surface s z y) /\
    (forall s s' y z z', neighbours s s' (glass_surfaces c) -> Rabs y <= D / 2 -> on_surface s z y -> on_surface s' z' y -> z < z') /\
    (forall first mid last z z', glass_surfaces c = first :: mid ++ [last] -> on_surface first z (D / 2) -> on_surface last z' (D / 2) ->
       (In name off_edge <-> 5/100 < Rabs ((z' - z) / te - 1))).
Proof. exact glass. Qed.
Print Assumptions C110_glass.

(** and these are the ones for which the constructor warns, at every wavelength *)
Theorem C110_warned :
  forall name c wl,
  In (name, c) (@lenses XR _) -> match wl with None => True | Some w => takes c = true /\ 35/100 <= w <= 5/2 end ->
  exists b, construct c (option_map Fin wl) = Ok b /\ (In WEdge (b_warn b) <-> In name off_edge).
Proof. exact edge_warned. Qed.
Print Assumptions C110_warned.

(** there is a lens whose edge thickness is not that of its surfaces *)
Theorem C110_refuted :
  exists name c D te first mid last z z', In (name, c) (@lenses XR _) /\ diameter c = Fin D /\ edge c = Fin te /\
  glass_surfaces c = first :: mid ++ [last] /\ on_surface first z (D / 2) /\ on_surface last z' (D / 2) /\ 5/100 < Rabs ((z' - z) / te - 1).
Proof. exact edge_contradicts. Qed.
Print Assumptions C110_refuted.

(** the edge of a plano-convex lens is never checked: LA1608_A with an edge of 20.0 mm, five times its thickness in the
    middle, is accepted without a warning *)
Theorem C110_plane_refuted :
  In ("LA1608_A", la1608 (dec 20 1)) lens_data /\
  exists b : built float, construct (resolve_class lit (material catalogue) (la1608 (dec 200 1))) None = Ok b /\ b_warn b = [].
Proof. exact plane_unnoticed. Qed.
Print Assumptions C110_plane_refuted.

Example C110_example : exists c, In ("AC254_050_A", c) (@lenses XR _) /\ takes c = true /\ exists a b d, glass_surfaces c = [a; b; d] /\ neighbours a b (glass_surfaces c) /\
  ~ In "AC254_050_A" off_edge.
Proof.
  assert (existsb (fun p => String.eqb (fst p) "AC254_050_A" && match snd p with LDoubletD _ t => t | _ => false end) lens_data = true) as K by (vm_compute; reflexivity).
  apply existsb_exists in K as ([n [d t|]] & H & E); cbn in E; rewrite ?andb_false_r in E; try discriminate. apply andb_true_iff in E as [E1 E2].
  apply String.eqb_eq in E1. subst n t. exists (resolved (LDoubletD d true)). split; [exact (in_map (fun p => (fst p, resolved (snd p))) _ _ H)|].
  split; [reflexivity|]. do 3 eexists. split; [reflexivity|]. split; [exists []; eexists; reflexivity|]. cbn. intros [K|[K|[K|[]]]]; discriminate K.
Qed.

(** ** C111 *)
(** two mirrors of radii [r1] and [r2] (negative when concave, infinite when flat), [L] apart, with power: stable exactly when
    0 < g1 g2 < 1; the mode at the first mirror has the curvature of the mirror, and its Rayleigh range and the place of its
    waist are those of the textbooks *)
Theorem C111_two_mirrors :
  forall L r1 r2,
  0 < L -> flat_or_curved r1 -> flat_or_curved r2 ->
  exists s m1 m2 g, Space (Fin L) (Fin 1) PInf = Ok s /\ CurvedMirror r1 PInf = Ok m1 /\ CurvedMirror r2 PInf = Ok m2 /\
    MatrixGroup_new [s; m2; s; m1] "" = Ok g /\
    let g1 := 1 + L * curv r1 in let g2 := 1 + L * curv r2 in
    (hasPower (gmat g) = true -> isStable (gmat g) = Ok true <-> 0 < g1 * g2 < 1) /\
    (hasPower (gmat g) = true -> 0 < g1 * g2 < 1 -> exists b zo, laserModes (gmat g) = Ok [b] /\ bR b = Ok r1 /\
       rayleighRange b = Fin zo /\ zo = L * R_sqrt.sqrt (g1 * g2 * (1 - g1 * g2)) / Rabs (g1 + g2 - 2 * (g1 * g2)) /\
       waistPosition b = Fin (L * (g2 * (1 - g1)) / (g1 + g2 - 2 * (g1 * g2)))).
Proof. exact two_mirrors. Qed.
Print Assumptions C111_two_mirrors.

(** mirrors with a radius of a kilometre, a metre apart: 0 < g1 g2 < 1 and isStable is False *)
Theorem C111_weak_refuted :
  exists (s m1 m2 : @elem float) g, let L := fz 1000 in let r := fz (-1000000) in
  Space L c1 ninf = Ok s /\ CurvedMirror r ninf = Ok m1 /\ CurvedMirror r ninf = Ok m2 /\ MatrixGroup_new [s; m2; s; m1] "" = Ok g /\
  (let g1 := nadd c1 (ndiv L r) in nltb c0 (nmul g1 g1) = true /\ nltb (nmul g1 g1) c1 = true) /\ isStable (gmat g) = Ok false.
Proof. exact long_mirrors. Qed.
Print Assumptions C111_weak_refuted.

Example C111_example : flat_or_curved (Fin (-300)) /\ flat_or_curved PInf /\ 0 < (1 + 100 * curv (Fin (-300))) * (1 + 100 * curv PInf) < 1 /\
  exists s m1 m2 g, Space (Fin 100) (Fin 1) PInf = Ok s /\ CurvedMirror (Fin (-300)) PInf = Ok m1 /\ CurvedMirror PInf PInf = Ok m2 /\
    MatrixGroup_new [s; m2; s; m1] "" = Ok g /\ hasPower (gmat g) = true.
Proof.
  split; [cbn; lra|]. split; [exact I|]. split; [cbn; lra|].
  destruct (mirror_any (Fin (-300))) as (m1 & E1 & D1); [cbn; lra|]. destruct (mirror_any PInf) as (m2 & E2 & D2); [exact I|].
  destruct (group_matrix [x_space 100 1; m2; x_space 100 1; m1] [o_space 100 1; o_mir PInf; o_space 100 1; o_mir (Fin (-300))]) as (g & Eg & _ & _ & EC & _).
  { do 4 (apply Forall2_cons; [assumption || apply mat_of_describes|]). apply Forall2_nil. }
  { cbn. unfold physical, mdet. cbn. repeat split; try lra; field. }
  { discriminate. }
  exists (x_space 100 1), m1, m2, g. split; [apply Space_ok; [lra|exact I]|]. do 3 (split; [assumption|]).
  unfold hasPower, isNotZero. rewrite eps5_val, EC. cbn. apply Rltb_true. rewrite Rabs_left; lra.
Qed.

(** ** C112 *)
(** a waist [w] at [s] in front of a lens: the waist behind the lens is [m] times as large and m^2 times as far from the back
    focus as the first one is from the front focus, m = |f|/sqrt((s-f)^2 + zo^2); the Rayleigh range is m^2 times as large *)
Theorem C112_lens_formula :
  forall w wl s f z,
  0 < w -> 0 < wl -> f <> 0 ->
  exists sp l g b b', Space (Fin s) (Fin 1) PInf = Ok sp /\ Lens (Fin f) PInf = Ok l /\ MatrixGroup_new [sp; l] "" = Ok g /\
    GaussianBeam None (Some (Fin w)) PInf (Fin 1) (Fin wl) (Fin z) = Ok b /\ beam_through (grp_elem g) b = Ok b' /\
    exists zo s' zo' wo, rayleighRange b = Fin zo /\ zo = PI * w * w / wl /\ waistPosition b' = Fin s' /\ rayleighRange b' = Fin zo' /\ bwo b' = Ok (Some (Fin wo)) /\
      let m := Rabs f / R_sqrt.sqrt ((s - f) * (s - f) + zo * zo) in
      wo = m * w /\ s' - f = m * m * (s - f) /\ zo' = m * m * zo.
Proof. exact beam_lens. Qed.
Print Assumptions C112_lens_formula.

Example C112_example : 0 < 1/10 /\ 0 < 6328/10000000 /\ (50 <> 0)%R.
Proof. repeat split; lra. Qed.

(** ** C113 *)
(** a beam of radius [w] and curvature 1/[r]: trace one ray from its edge along its wavefront normal, and one from the axis
    at the angle of diffraction; everywhere behind, the square of the beam radius is the sum of the squares of their heights *)
Theorem C113_rays :
  forall e o w r wl z b,
  canon e o -> Forall positive_leaf (leaves e) -> 0 < w -> 0 < wl -> flat_or_curved r ->
  GaussianBeam None (Some (Fin w)) r (Fin (onf o)) (Fin wl) (Fin z) = Ok b ->
  forall r1 r2, ry r1 = Fin w -> rth r1 = Fin (w * curv r) -> ry r2 = Fin 0 -> rth r2 = Fin (wl / (onf o * PI * w)) ->
    rz r1 = Fin z -> rz r2 = Fin z -> rblk (traceThrough e r1) = false -> rblk (traceThrough e r2) = false ->
  exists b' w' y1 y2, beam_through e b = Ok b' /\ bw b' = Ok (Fin w') /\ 0 < w' /\ ry (traceThrough e r1) = Fin y1 /\ ry (traceThrough e r2) = Fin y2 /\
    w' * w' = y1 * y1 + y2 * y2.
Proof. exact beam_rays. Qed.
Print Assumptions C113_rays.

Example C113_example : exists e o b, canon e o /\ Forall positive_leaf (leaves e) /\ onf o = 1 /\
  GaussianBeam None (Some (Fin 1)) PInf (Fin (onf o)) (Fin (6328/10000000)) (Fin 0) = Ok b /\
  rblk (traceThrough e (fray 1 0 0 false PInf None)) = false /\ rblk (traceThrough e (fray 0 (6328/10000000 / (1 * PI * 1)) 0 false PInf None)) = false.
Proof.
  assert (canon (xl 50) (o_lens 50)) as Hc by apply c_xl.
  destruct (beam_reports 1 PInf 1 (6328/10000000) 0 Rlt_0_1 I Rlt_0_1 ltac:(lra)) as (b & Eb & _).
  exists (xl 50), (o_lens 50), b. split; [exact Hc|]. split; [repeat constructor; cbn; lra|]. split; [reflexivity|]. split; [exact Eb|].
  split; unfold traceThrough, trace, xl, trace_leaf; cbn [mL mat_of o_lens oL]; replace (nltb c0 (Fin 0)) with false by (symmetry; apply Rltb_false; lra); cbn;
    (destruct (Rlt_dec 2 0); [lra|reflexivity]).
Qed.
