(** Property theorems C105-C109: the texts in which objects are printed, textbook laws of images and of combined
    elements, and cavities seen from different places.  Each theorem is closed by a lemma proved elsewhere; the examples
    show that its hypotheses can be met. *)
From Coq Require Import Reals Lra List Bool String Ascii ZArith NArith Floats Lia Permutation.
From Verif Require Import Base Nums Optics Group Spec MatrixProofs ElementProofs GroupProofs TraceProofs RayProofs CardinalProofs
  Beam BeamProofs BeamMore Materials Zemax Samples GroupRefutations BeamRefutations Format FormatProofs Printing PrintingProofs PrintingRefutations
  LawProofs CavityProofs CavityRefutations.
Import ListNotations.
Set Warnings "-inexact-float".
Open Scope string_scope.

(** ** C105 *)
(** the text of a ray says its height, its angle and its place, each to half a unit of the last of three decimals, and
    whether it is blocked; [says k t x]: the text [t] is a number with [k] decimals that close to [x] *)
Theorem C105_ray :
  forall (r : @ray float),
  finite (ry r) -> finite (rth r) -> finite (rz r) ->
  exists y t z, ray_str r = "y = " ++ y ++ newline ++ "theta = " ++ t ++ newline ++ "z = " ++ z ++ (if rblk r then " (blocked)" else "") /\
    says 3 y (ry r) /\ says 3 t (rth r) /\ says 3 z (rz r).
Proof. exact ray_printed. Qed.
Print Assumptions C105_ray.

(** rays with the same text are the same to a unit of the last decimal *)
Theorem C105_ray_alike :
  forall (r r' : @ray float),
  finite (ry r) -> finite (rth r) -> finite (rz r) -> finite (ry r') -> finite (rth r') -> finite (rz r') ->
  ray_str r = ray_str r' ->
  close 3 (ry r) (ry r') /\ close 3 (rth r) (rth r') /\ close 3 (rz r) (rz r') /\ rblk r = rblk r'.
Proof. exact rays_printed_alike. Qed.
Print Assumptions C105_ray_alike.

(** the text of a matrix says its four numbers and -1/C as its focal length, and that it is afocal when C is 0 *)
Theorem C105_matrix :
  forall (m : @mat float),
  finite (mA m) -> finite (mB m) -> finite (mC m) -> finite (mD m) ->
  exists a b c d f, matrix_str m = Ok ("| " ++ a ++ "   " ++ b ++ " |" ++ newline ++ "|                 |" ++ newline ++
      "| " ++ c ++ "   " ++ d ++ " |" ++ newline ++ f) /\
    says 3 a (mA m) /\ says 3 b (mB m) /\ says 3 c (mC m) /\ says 3 d (mD m) /\
    if PrimFloat.eqb (mC m) 0 then f = "f = +inf (afocal)"
    else exists t, f = "f=" ++ t /\ (finite (PrimFloat.div (-1) (mC m)) -> says 3 t (PrimFloat.div (-1) (mC m))).
Proof. exact matrix_printed. Qed.
Print Assumptions C105_matrix.

(** matrices with the same text are the same to a unit of the last decimal *)
Theorem C105_matrix_alike :
  forall (m m' : @mat float) s,
  finite (mA m) -> finite (mB m) -> finite (mC m) -> finite (mD m) ->
  finite (mA m') -> finite (mB m') -> finite (mC m') -> finite (mD m') ->
  matrix_str m = Ok s -> matrix_str m' = Ok s ->
  close 3 (mA m) (mA m') /\ close 3 (mB m) (mB m') /\ close 3 (mC m) (mC m') /\ close 3 (mD m) (mD m') /\
  (PrimFloat.eqb (mC m) 0 = PrimFloat.eqb (mC m') 0).
Proof. exact matrices_printed_alike. Qed.
Print Assumptions C105_matrix_alike.

(** when the element has power, the focal length in the text is that of effectiveFocalLengths() *)
Theorem C105_matrix_f :
  forall (m : @mat float) f1 f2,
  hasPower m = true -> effectiveFocalLengths m = Ok (f1, f2) ->
  exists pre, matrix_str m = Ok (pre ++ "f=" ++ fixed 3 f2).
Proof. exact matrix_printed_f. Qed.
Print Assumptions C105_matrix_f.

(** the text of a beam says its radius, its curvature, its place, its Rayleigh range, its waist and where the waist is *)
Theorem C105_beam :
  forall (cfmt3 cfmt : @cx float -> string) (b : @beam float) (wo w R : float),
  bwo b = Ok (Some wo) -> bw b = Ok w -> bR b = Ok R ->
  finite wo -> finite w -> finite (bz b) -> finite (bzo b) -> finite (waistPosition b) ->
  exists tw tR tz tl tzo two tp, beam_str cfmt3 cfmt b = Ok ("Complex radius: " ++ cfmt3 (bq b) ++ newline ++
      "w(z): " ++ tw ++ ", " ++ "R(z): " ++ tR ++ ", " ++ "z: " ++ tz ++ ", " ++ "λ: " ++ tl ++ " nm" ++ newline ++
      "zo: " ++ tzo ++ ", " ++ "wo: " ++ two ++ ", " ++ "wo position: " ++ tp) /\
    says 3 tw w /\ (finite R -> says 3 tR R) /\ says 3 tz (bz b) /\ says 3 tzo (bzo b) /\ says 3 two wo /\ says 3 tp (waistPosition b).
Proof. exact beam_printed. Qed.
Print Assumptions C105_beam.

(** a beam without a waist is printed as not finite *)
Theorem C105_beam_not_finite :
  forall (cfmt3 cfmt : @cx float -> string) (b : @beam float),
  bwo b = Ok None -> beam_str cfmt3 cfmt b = Ok ("Beam is not finite: q=" ++ cfmt (bq b)).
Proof. exact beam_not_finite. Qed.
Print Assumptions C105_beam_not_finite.

(** which, in exact arithmetic, is a beam for which isFinite is False *)
Theorem C105_not_finite :
  forall x y wl z n cl,
  (0 < wl)%R ->
  let b := mkBeam (mkC (Fin x) (Fin y)) (Fin wl) (Fin z) (Fin n) cl in
  (bwo b = Ok None <-> isFinite b = Ok false).
Proof. exact not_finite_iff. Qed.
Print Assumptions C105_not_finite.

(** the prescription of a lens has a line for each of its surfaces, in this order, with its radius, material, spacing and
    diameter *)
Theorem C105_prescription :
  forall z l,
  lensSurfaces z = Ok l ->
  exists ts, prescription z = Ok (prescription_head ++ String.concat "" ts) /\ Forall2 line_says ts l.
Proof. exact prescription_printed. Qed.
Print Assumptions C105_prescription.

(** the text of a beam says 632800.0 nm for a wavelength of 632.8 nm *)
Theorem C105_wavelength_refuted :
  exists b, GaussianBeam None (Some 0.1%float) ninf 1%float wl_default 0%float = Ok b /\
  bwl b = 632.8e-6%float /\
  forall cfmt3 cfmt, exists post,
    beam_str cfmt3 cfmt b = Ok ("Complex radius: " ++ cfmt3 (bq b) ++ newline ++
      "w(z): 0.100, R(z): inf, z: 0.000, λ: 632800.0 nm" ++ post).
Proof. exact wavelength_thousandfold. Qed.
Print Assumptions C105_wavelength_refuted.

(** a weak lens: the text has a focal length where effectiveFocalLengths() has none *)
Theorem C105_weak_refuted :
  exists e pre, Lens 200000%float ninf = Ok e /\
  matrix_str (emat e) = Ok (pre ++ "f=200000.000") /\ effectiveFocalLengths (emat e) = Ok (infinity, infinity).
Proof. exact weak_lens_both. Qed.
Print Assumptions C105_weak_refuted.

(** an afocal system that is not printed as afocal *)
Theorem C105_afocal_refuted :
  exists e pre, System4f 3%float 7%float ninf ninf = Ok e /\ hasPower (emat e) = false /\
  matrix_str (emat e) = Ok (pre ++ "f=18014398509481984.000").
Proof. exact afocal_with_f. Qed.
Print Assumptions C105_afocal_refuted.

Example C105_example : exists (e : @elem float), Lens 50%float ninf = Ok e /\ finite (mA (emat e)) /\ finite (mB (emat e)) /\ finite (mC (emat e)) /\
  finite (mD (emat e)) /\ hasPower (emat e) = true /\ effectiveFocalLengths (emat e) = Ok (50%float, 50%float) /\
  ray_str (mkRay (-12.3456)%float 0.0005%float 200%float true infinity None) =
    "y = -12.346" ++ newline ++ "theta =  0.001" ++ newline ++ "z = 200.000 (blocked)".
Proof. eexists. split; [vm_compute; reflexivity|]. repeat (split; [vm_compute; trivial|]). vm_compute; reflexivity. Qed.
Example C105_beam_example : exists (b : @beam float) wo w R, GaussianBeam None (Some 0.1%float) ninf 1%float wl_default 0%float = Ok b /\
  bwo b = Ok (Some wo) /\ bw b = Ok w /\ bR b = Ok R /\ finite wo /\ finite w /\ finite (bz b) /\ finite (bzo b) /\ finite (waistPosition b).
Proof. do 4 eexists. repeat (split; [vm_compute; reflexivity|]). repeat split; vm_compute; trivial. Qed.

Open Scope R_scope.
Open Scope list_scope.
(** ** C106 *)
(** Newton's formula: an object at [d] in front of an element with power, [x] behind its front focus; it has no image when
    it is in the focus, and otherwise the image is [x'] behind the back focus with x x' = f1 f2, and its magnification is
    -f1/x and -x'/f2 *)
Theorem C106_newton :
  forall m o d,
  describes m o -> physical o -> power o ->
  exists F1 F2 f1 f2 s p, focusPositions m (Fin 0) = Ok (Some (Fin F1, Fin F2)) /\
    effectiveFocalLengths m = Ok (Fin f1, Fin f2) /\
    SpaceM (Fin d) (Fin (onf o)) PInf = Ok s /\ mul_matrix m s = Ok p /\
    let x := F1 - (- d) in
    (x = 0 -> forwardConjugate p = Ok (PInf, None)) /\
    (x <> 0 -> exists d' c, forwardConjugate p = Ok (Fin d', Some c) /\
       let x' := (oL o + d') - F2 in
       x * x' = f1 * f2 /\ mA c = Fin (- (f1 / x)) /\ mA c = Fin (- (x' / f2))).
Proof. exact newton. Qed.
Print Assumptions C106_newton.

(** the object of the image is the object: backwardConjugate() of the path to the image leads back to the object *)
Theorem C106_reversed :
  forall m o d d' c s p,
  describes m o -> physical o -> onf o = 1 ->
  SpaceM (Fin d) (Fin 1) PInf = Ok s -> mul_matrix m s = Ok p -> forwardConjugate p = Ok (Fin d', Some c) ->
  exists s' q c', SpaceM (Fin d') (Fin (onb o)) PInf = Ok s' /\ mul_matrix s' m = Ok q /\ backwardConjugate q = Ok (Fin d, c') /\
    mA c' = mA c /\ mB c' = mB c /\ mC c' = mC c /\ mD c' = mD c.
Proof. exact conjugates_reversed. Qed.
Print Assumptions C106_reversed.

Example C106_example : describes (mat_of (o_lens 50) PInf PInf false "") (o_lens 50) /\ physical (o_lens 50) /\ power (o_lens 50) /\ onf (o_lens 50) = 1 /\
  exists s p c, SpaceM (Fin 150) (Fin 1) PInf = Ok s /\ mul_matrix (mat_of (o_lens 50) PInf PInf false "") s = Ok p /\
    forwardConjugate p = Ok (Fin 75, Some c).
Proof.
  assert (D : describes (mat_of (o_lens 50) PInf PInf false "") (o_lens 50)) by apply mat_of_describes.
  assert (P : physical (o_lens 50)) by apply p_lens.
  assert (W : power (o_lens 50)) by (unfold power; cbn; rewrite Rabs_left; lra).
  split; [exact D|]. split; [exact P|]. split; [exact W|]. split; [reflexivity|].
  destruct (with_object _ _ 150 D P) as (s & p & Es & Ep & Dp & Pp). exists s, p.
  destruct (forward_spec p _ Dp Pp) as (d' & c & oc & E & Dc & B0 & _ & _ & _ & Em & _); [cbn; lra|].
  exists c. split; [exact Es|]. split; [exact Ep|]. rewrite E. do 2 f_equal. f_equal. rewrite Em in B0. cbn in B0. f_equal. lra.
Qed.

(** ** C107 *)
(** two elements with power, [d] apart, the gap being from the back focus of the first one to the front focus of the second
    one: the focal lengths of the two together are -f1 f2/gap; without gap they are an afocal telescope with the
    magnification -f2/f1 *)
Theorem C107_two :
  forall e1 e2 o1 o2 d,
  describes (emat e1) o1 -> describes (emat e2) o2 -> physical o1 -> physical o2 ->
  power o1 -> power o2 -> onf o2 = onb o1 ->
  exists s g F1 F1' F2 F2' f1 f1' f2 f2', Space (Fin d) (Fin (onb o1)) PInf = Ok s /\ MatrixGroup_new [e1; s; e2] "" = Ok g /\
    focusPositions (emat e1) (Fin 0) = Ok (Some (Fin F1, Fin F1')) /\ effectiveFocalLengths (emat e1) = Ok (Fin f1, Fin f1') /\
    focusPositions (emat e2) (Fin (oL o1 + d)) = Ok (Some (Fin F2, Fin F2')) /\ effectiveFocalLengths (emat e2) = Ok (Fin f2, Fin f2') /\
    let gap := F2 - F1' in
    (1 / 100000 < Rabs (gap / (f1' * f2')) -> effectiveFocalLengths (gmat g) = Ok (Fin (- (f1 * f2 / gap)), Fin (- (f1' * f2' / gap)))) /\
    (gap = 0 -> effectiveFocalLengths (gmat g) = Ok (PInf, PInf) /\ mA (gmat g) = Fin (- (f2 / f1')) /\ mC (gmat g) = Fin 0 /\ mD (gmat g) = Fin (- (f1 / f2'))).
Proof. exact two_elements. Qed.
Print Assumptions C107_two.

(** the lensmaker's equation for thick lenses *)
Theorem C107_lensmaker :
  forall n r1 r2 t diam e,
  n <> 0 -> r1 <> 0 -> r2 <> 0 -> positive diam ->
  ThickLens (Fin n) (Fin r1) (Fin r2) (Fin t) diam = Ok e ->
  let P := (n - 1) * (/ r1 - / r2 + (n - 1) * t / (n * r1 * r2)) in
  mC (emat e) = Fin (- P) /\
  (1 / 10 ^ 5 < Rabs P -> effectiveFocalLengths (emat e) = Ok (Fin (/ P), Fin (/ P))) /\
  (Rabs P <= 1 / 10 ^ 5 -> effectiveFocalLengths (emat e) = Ok (PInf, PInf)).
Proof. exact lensmaker. Qed.
Print Assumptions C107_lensmaker.

Example C107_example : exists e1 e2, Lens (Fin 50) PInf = Ok e1 /\ Lens (Fin 20) PInf = Ok e2 /\
  describes (emat e1) (o_lens 50) /\ describes (emat e2) (o_lens 20) /\ physical (o_lens 50) /\ physical (o_lens 20) /\
  power (o_lens 50) /\ power (o_lens 20) /\ onf (o_lens 20) = onb (o_lens 50).
Proof.
  do 2 eexists. split; [apply Lens_ok; [lra|exact I]|]. split; [apply Lens_ok; [lra|exact I]|].
  split; [apply mat_of_describes|]. split; [apply mat_of_describes|]. split; [apply p_lens|]. split; [apply p_lens|].
  split; [unfold power; cbn; rewrite Rabs_left; lra|]. split; [unfold power; cbn; rewrite Rabs_left; lra|reflexivity].
Qed.
Example C107_lensmaker_example : exists e, ThickLens (Fin (3 / 2)) (Fin 100) (Fin (-100)) (Fin 3) PInf = Ok e /\
  1 / 10 ^ 5 < Rabs ((3 / 2 - 1) * (/ 100 - / -100 + (3 / 2 - 1) * 3 / (3 / 2 * 100 * -100))).
Proof.
  eexists. split; [apply ThickLens_ok; [lra|cbn; lra|cbn; lra|exact I]|]. rewrite Rabs_right; lra.
Qed.

(** ** C108 *)
(** thin lenses in contact, any number of them: their powers add up *)
Theorem C108_contact :
  forall fs es,
  fs <> [] -> Forall (fun p => fst p <> 0 /\ positive (snd p)) fs ->
  Forall2 (fun p e => Lens (Fin (fst p)) (snd p) = Ok e) fs es ->
  exists g, MatrixGroup_new es "" = Ok g /\
    mA (gmat g) = Fin 1 /\ mB (gmat g) = Fin 0 /\ mC (gmat g) = Fin (- rsum (map (fun p => / fst p) fs)) /\ mD (gmat g) = Fin 1 /\ mL (gmat g) = Fin 0.
Proof. exact lenses_in_contact. Qed.
Print Assumptions C108_contact.

(** in whatever order they are put *)
Theorem C108_order :
  forall fs fs' es es',
  fs <> [] -> Forall (fun p => fst p <> 0 /\ positive (snd p)) fs ->
  Forall2 (fun p e => Lens (Fin (fst p)) (snd p) = Ok e) fs es -> Forall2 (fun p e => Lens (Fin (fst p)) (snd p) = Ok e) fs' es' ->
  Permutation fs fs' -> exists g g', MatrixGroup_new es "" = Ok g /\ MatrixGroup_new es' "" = Ok g' /\
    mA (gmat g) = mA (gmat g') /\ mB (gmat g) = mB (gmat g') /\ mC (gmat g) = mC (gmat g') /\ mD (gmat g) = mD (gmat g').
Proof. exact contact_order. Qed.
Print Assumptions C108_order.

(** a relay of 4f systems, any number of them: the magnifications multiply, the lengths add up, and the relay is afocal *)
Theorem C108_relay :
  forall ps es,
  ps <> [] -> Forall (fun p => fst p <> 0 /\ snd p <> 0) ps ->
  Forall2 (fun p e => System4f (Fin (fst p)) (Fin (snd p)) PInf PInf = Ok e) ps es ->
  exists g, MatrixGroup_new es "" = Ok g /\
    magnification (gmat g) = Some (Fin (rprod (map (fun p => - snd p / fst p) ps)), Fin (rprod (map (fun p => - fst p / snd p) ps))) /\
    effectiveFocalLengths (gmat g) = Ok (PInf, PInf) /\ mL (gmat g) = Fin (rsum (map (fun p => 2 * (fst p + snd p)) ps)).
Proof. exact relay. Qed.
Print Assumptions C108_relay.

(** plane plates, any number of them: each moves the image as a distance of its thickness over its index *)
Theorem C108_plates :
  forall ps es,
  ps <> [] -> Forall (fun p => fst p <> 0) ps ->
  Forall2 (fun p e => DielectricSlab (Fin (fst p)) (Fin (snd p)) PInf = Ok e) ps es ->
  exists g, MatrixGroup_new es "" = Ok g /\
    mA (gmat g) = Fin 1 /\ mB (gmat g) = Fin (rsum (map (fun p => snd p / fst p) ps)) /\ mC (gmat g) = Fin 0 /\ mD (gmat g) = Fin 1 /\
    mL (gmat g) = Fin (rsum (map snd ps)).
Proof. exact plates. Qed.
Print Assumptions C108_plates.

Example C108_example : exists es, Forall2 (fun p e => Lens (Fin (fst p)) (snd p) = Ok e) [(100, PInf); (-50, Fin 10); (30, PInf)] es /\
  Forall (fun p => fst p <> 0 /\ positive (snd p)) [(100, PInf); (-50, Fin 10); (30, PInf)].
Proof.
  eexists. split.
  - constructor; [apply Lens_ok; [cbn; lra|exact I]|]. constructor; [apply Lens_ok; [cbn; lra|cbn; lra]|].
    constructor; [apply Lens_ok; [cbn; lra|exact I]|constructor].
  - constructor; [split; [cbn; lra|exact I]|]. constructor; [split; cbn; lra|]. constructor; [split; [cbn; lra|exact I]|constructor].
Qed.
Example C108_relay_example : exists es, Forall2 (fun p e => System4f (Fin (fst p)) (Fin (snd p)) PInf PInf = Ok e) [(10, 20); (30, 15)] es.
Proof.
  destruct (System4f_ok 10 20 PInf PInf) as (e & E & _); try (lra || exact I).
  destruct (System4f_ok 30 15 PInf PInf) as (e' & E' & _); try (lra || exact I).
  exists [e; e']. constructor; [exact E|]. constructor; [exact E'|constructor].
Qed.
Example C108_plates_example : exists es, Forall2 (fun p e => DielectricSlab (Fin (fst p)) (Fin (snd p)) PInf = Ok e) [(3 / 2, 10); (2, 5)] es.
Proof.
  eexists. constructor; [apply DielectricSlab_ok; [cbn; lra|exact I]|]. constructor; [apply DielectricSlab_ok; [cbn; lra|exact I]|constructor].
Qed.

(** ** C109 *)
(** a cavity is stable seen from any place of it, if it is seen from another one and has power seen from both *)
Theorem C109_stable :
  forall es1 os1 es2 os2,
  Forall2 (fun e o => describes (emat e) o) es1 os1 -> Forall2 (fun e o => describes (emat e) o) es2 os2 ->
  os1 <> [] -> os2 <> [] -> chain (os1 ++ os2) -> chain (os2 ++ os1) ->
  exists g g', MatrixGroup_new (es1 ++ es2) "" = Ok g /\ MatrixGroup_new (es2 ++ es1) "" = Ok g' /\
    (hasPower (gmat g) = true -> hasPower (gmat g') = true -> isStable (gmat g) = isStable (gmat g')).
Proof. exact cavity_start. Qed.
Print Assumptions C109_stable.

(** and its mode there is its mode here sent through the elements in between *)
Theorem C109_mode :
  forall es1 os1 es2 os2 b,
  Forall2 (fun e o => describes (emat e) o) es1 os1 -> Forall2 (fun e o => describes (emat e) o) es2 os2 ->
  os1 <> [] -> os2 <> [] -> chain (os1 ++ os2) -> chain (os2 ++ os1) -> forward_media (os1 ++ os2) -> 
  (forall o t, os1 = o :: t -> onf o = 1) ->
  exists g g' g1, MatrixGroup_new (es1 ++ es2) "" = Ok g /\ MatrixGroup_new (es2 ++ es1) "" = Ok g' /\ MatrixGroup_new es1 "" = Ok g1 /\
    (hasPower (gmat g) = true -> hasPower (gmat g') = true -> laserModes (gmat g) = Ok [b] ->
     exists b1 b', mul_beam (gmat g1) b = Ok b1 /\ laserModes (gmat g') = Ok [b'] /\ bq b' = bq b1).
Proof. exact cavity_mode. Qed.
Print Assumptions C109_mode.

(** two flat mirrors and a lens: stable seen from one mirror, not stable and without a mode seen from the other one *)
Theorem C109_start_refuted :
  exists (s1 s2 l : @elem float) g g' b, Space (fz 200) c1 ninf = Ok s1 /\ Space (ndec 10001 2) c1 ninf = Ok s2 /\ Lens (fz 100) ninf = Ok l /\
    MatrixGroup_new ([s1; l; s2] ++ [s2; l; s1]) "" = Ok g /\ MatrixGroup_new ([s2; l; s1] ++ [s1; l; s2]) "" = Ok g' /\
    isStable (gmat g) = Ok false /\ laserModes (gmat g) = Ok [] /\ isStable (gmat g') = Ok true /\ laserModes (gmat g') = Ok [b].
Proof. exact depends_on_start. Qed.
Print Assumptions C109_start_refuted.

Example C109_example : exists s m, Space (Fin 30) (Fin 1) PInf = Ok s /\ CurvedMirror (Fin (-100)) PInf = Ok m /\
  let es1 := [s; m] in let es2 := [s] in let os1 := [o_space 30 1; o_mirror (-100)] in let os2 := [o_space 30 1] in
  Forall2 (fun e o => describes (emat e) o) es1 os1 /\ Forall2 (fun e o => describes (emat e) o) es2 os2 /\
  chain (os1 ++ os2) /\ chain (os2 ++ os1) /\ forward_media (os1 ++ os2) /\ (forall o t, os1 = o :: t -> onf o = 1) /\
  exists g g' b, MatrixGroup_new (es1 ++ es2) "" = Ok g /\ MatrixGroup_new (es2 ++ es1) "" = Ok g' /\ hasPower (gmat g) = true /\ hasPower (gmat g') = true /\
    laserModes (gmat g) = Ok [b].
Proof.
  do 2 eexists. split; [apply Space_ok; [lra|exact I]|]. split; [apply CurvedMirror_ok; [lra|exact I]|]. cbn zeta.
  assert (physical (o_space 30 1)) as Ps by (apply p_space; lra).
  assert (physical (o_mirror (-100))) as Pm by (split; [cbn; lra|split; [cbn; lra|unfold mdet; cbn; lra]]).
  match goal with |- Forall2 ?P ?e1 ?o1 /\ Forall2 _ ?e2 ?o2 /\ _ =>
    assert (F1 : Forall2 P e1 o1) by (repeat (constructor; [apply mat_of_describes|]); constructor);
    assert (F2 : Forall2 P e2 o2) by (repeat (constructor; [apply mat_of_describes|]); constructor) end.
  split; [exact F1|]. split; [exact F2|].
  assert (C1 : chain ([o_space 30 1; o_mirror (-100)] ++ [o_space 30 1])) by (cbn; auto 10).
  assert (C2 : chain ([o_space 30 1] ++ [o_space 30 1; o_mirror (-100)])) by (cbn; auto 10).
  split; [exact C1|]. split; [exact C2|].
  split; [repeat (constructor; [split; [cbn; lra|split; [cbn; lra|assumption]]|]); constructor|].
  split; [intros o t [= <- _]; reflexivity|].
  destruct (group_matrix _ _ (Forall2_app F1 F2) C1 ltac:(discriminate)) as (g & E & HM).
  destruct (group_matrix _ _ (Forall2_app F2 F1) C2 ltac:(discriminate)) as (g' & E' & HM').
  exists g, g'.
  assert (forall m M, matrix_is m M -> C_ M = - (1 / 50) -> hasPower m = true) as HP.
  { intros m M (_ & _ & HC & _) EC. unfold hasPower, isNotZero. rewrite eps5_val, HC, EC. cbn. rewrite Rabs_left by lra. apply Rltb_lt. lra. }
  pose proof (HP _ _ HM ltac:(cbn; lra)) as H1. pose proof (HP _ _ HM' ltac:(cbn; lra)) as H2.
  assert (isStable (gmat g) = Ok true) as Hs.
  { apply (proj1 (stable_iff _ _ HM ltac:(cbn; rewrite Rabs_left; lra) ltac:(unfold mdet; cbn; lra))). cbn. lra. }
  destruct (modes_ok _ _ HM ltac:(cbn; rewrite Rabs_left; lra) ltac:(unfold mdet; cbn; lra)) as (q1 & q2 & l & _ & _ & _ & _ & EL & LL & _).
  unfold isStable in Hs. rewrite EL in Hs. cbn [bind] in Hs. destruct l as [|b [|]]; [discriminate| |cbn in LL; lia].
  exists b. auto 10.
Qed.
