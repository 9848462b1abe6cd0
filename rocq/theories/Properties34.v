(** Property theorems C130: Gaussian beams and laser cavities in another unit of length.  Each theorem is closed by a lemma proved
    elsewhere; the examples show that its hypotheses can be met. *)
From Coq Require Import Reals Lra List Bool String ZArith Floats Lia.
From Verif Require Import Base Nums Optics Imaging Units Spec MatrixProofs ElementProofs GroupProofs Beam ScaleProofs BeamUnits BeamUnitsRefutations
  StrictProofs Samples BeamProofs BeamMore GroupRefutations Properties4 Properties19.
Import ListNotations.
Open Scope list_scope.
Open Scope R_scope.

(** GaussianBeam(q, w, R, n, wavelength, z) with every length in another unit makes the same beam, or refuses it for the same reason *)
Theorem C130_created :
  forall k q w r n l z, 0 < k ->
  answer (beam_in_unit (Fin k)) (GaussianBeam q w r n l z)
    (GaussianBeam (option_map (q_in_unit (Fin k)) q) (length_in_unit (Fin k) w) (nmul (Fin k) r) n (nmul (Fin k) l) (nmul (Fin k) z)).
Proof. exact units_beam_created. Qed.
Print Assumptions C130_created.

(** the trace of a beam through any system of constructors is the same trace in the new unit: same beams, same clipping, same exceptions *)
Theorem C130_trace :
  forall k ps e e' b, 0 < k -> assemble ps = Ok e -> assemble (map (in_unit (Fin k)) ps) = Ok e' ->
  answer (map (beam_in_unit (Fin k))) (beam_trace e b) (beam_trace e' (beam_in_unit (Fin k) b)).
Proof. exact units_beam_trace. Qed.
Print Assumptions C130_trace.

(** what is read from the beam: isFinite stays; w, R, the waist, zo and waistPosition are lengths *)
Theorem C130_sizes :
  forall k b, 0 < k -> let b' := beam_in_unit (Fin k) b in
  isFinite b' = isFinite b /\ answer (nmul (Fin k)) (bw b) (bw b') /\ answer (nmul (Fin k)) (bR b) (bR b') /\
  answer (length_in_unit (Fin k)) (bwo b) (bwo b') /\ bzo b' = nmul (Fin k) (bzo b) /\ waistPosition b' = nmul (Fin k) (waistPosition b).
Proof. exact units_beam_sizes. Qed.
Print Assumptions C130_sizes.

(** the q parameters of the modes of a cavity, and whether it is stable, while hasPower answers the same in both units *)
Theorem C130_modes :
  forall k ps e e', 0 < k -> assemble ps = Ok e -> assemble (map (in_unit (Fin k)) ps) = Ok e' -> hasPower (emat e) = hasPower (emat e') ->
  answer (map (q_in_unit (Fin k))) (mode_qs (laserModes (emat e))) (mode_qs (laserModes (emat e'))) /\ isStable (emat e') = isStable (emat e).
Proof. exact units_modes. Qed.
Print Assumptions C130_modes.

(** two mirrors of radius 1 m, 50 cm apart: stable in millimetres, unstable in micrometres *)
Theorem C130_stable_refuted :
  exists (ps : list (part float)) e e',
  assemble ps = Ok e /\ assemble (map (in_unit (fz 1000)) ps) = Ok e' /\ isStable (emat e) = Ok true /\ isStable (emat e') = Ok false.
Proof. exact cavity_unstable. Qed.
Print Assumptions C130_stable_refuted.

(** the same cavity in metres: its mode is more than 30 times too wide *)
Theorem C130_width_refuted :
  exists (ps : list (part float)) e e' b b' w w',
  assemble ps = Ok e /\ assemble (map (in_unit (ndec 1 3)) ps) = Ok e' /\ laserModes (emat e) = Ok [b] /\ laserModes (emat e') = Ok [b'] /\
  bw b = Ok w /\ bw b' = Ok w' /\ nltb (fz 30 * (ndec 1 3 * w))%num w' = true.
Proof. exact cavity_wide. Qed.
Print Assumptions C130_width_refuted.

(** *** examples: the path of Samples.v (space, thick lens, space, lens with an aperture, space), in micrometres *)
Definition sample_parts : list (part XR) :=
  [PSpace (Fin 10) (Fin 1) PInf; PThickLens (Fin (3/2)) (Fin 100) (Fin (-100)) (Fin 5) PInf; PSpace (Fin 20) (Fin 1) PInf; PLens (Fin 50) (Fin 25);
   PSpace (Fin 30) (Fin 1) PInf].
Example C130_trace_example : exists e e' l, assemble sample_parts = Ok e /\ assemble (map (in_unit (Fin 1000)) sample_parts) = Ok e' /\
  beam_trace e (fbeam (-20, 5) (1/1000) 0 1 false) = Ok l /\ l <> [].
Proof.
  destruct (stays_finite sample sample_o "" sample_canon sample_chain sample_good ltac:(discriminate) sample_positive) as (g & G & F).
  assert (assemble sample_parts = Ok (grp_elem g)) as A.
  { unfold assemble, sample_parts. cbn [piece]. rewrite !x_space_ok, x_thick_ok, x_lens_ok by lra. cbn [bind]. unfold MatrixGroupE. fold sample. rewrite G. reflexivity. }
  pose proof (units_build 1000 sample_parts ltac:(lra)) as U. rewrite A in U.
  destruct (assemble (map (in_unit (Fin 1000)) sample_parts)) as [e'|] eqn:E; [|contradiction].
  destruct (F (-20, 5) (1/1000) 0 false ltac:(lra) C42_example) as (l & L & N & _). exists (grp_elem g), e', l. auto.
Qed.
Example C130_created_example : exists b, GaussianBeam None (Some (Fin (1/2))) (Fin (-30)) (Fin 1) (Fin (1/1000)) (Fin 0) = Ok b /\ bw b = Ok (Fin (1/2)).
Proof.
  destruct (beam_reports (1/2) (Fin (-30)) 1 (1/1000) 0) as (b & B & _ & _ & W & _); [lra|cbn; lra|lra|lra|]. eauto.
Qed.
Example C130_modes_example : exists e e', assemble camera_parts = Ok e /\ assemble (map (in_unit (Fin 2)) camera_parts) = Ok e' /\
  hasPower (emat e) = hasPower (emat e').
Proof. destruct C115_focal_example as (e & e' & A & B & P & Q). exists e, e'. split; [exact A|]. split; [exact B|]. congruence. Qed.
