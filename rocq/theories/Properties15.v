(** Property theorems C95-C98: the vertical range of figures, the points marked in them and the figures of single
    elements.  Each theorem is closed by a lemma proved elsewhere; the examples show that its hypotheses can be met. *)
From Coq Require Import Reals Lra List Bool String Ascii ZArith Floats Lia.
From Verif Require Import Base Nums Optics Group Spec MatrixProofs ElementProofs GroupProofs TraceProofs CardinalProofs
  CardinalMore StrictProofs Samples Drawing Figures FigurePlace FigureProofs FigureRefutations GroupRefutations Imaging ImagingRefutations
  RayLines Beam BeamRefutations BeamFigure Format FormatProofs Scene SceneProofs Range RangeProofs RangeRefutations Labels LabelProofs
  LabelRefutations ElementFigure ElementFigureProofs.
Import ListNotations.
Set Warnings "-inexact-float".
Open Scope string_scope.
Open Scope list_scope.
Open Scope R_scope.

(** ** C95 *)
(** the vertical axis goes from -t to t: the arrow of an object of height [oh] on the axis, those of its images in the
    path, and all elements as drawn are inside, and the range is no larger than one of them needs *)
Theorem C95_range :
  forall tan ds g lines oh rr m gs ps L,
  imagingDisplayRange tan ds g lines (Fin oh) = Ok rr ->
  0 <= oh -> maxRayHeight lines = Ok m -> graphics_loop tan ds m (Fin 0) = Ok gs -> Forall finite_graphic gs ->
  intermediateConjugates (grp_elem g) = Ok (map fin2 ps) -> mL (gmat g) = Fin L ->
  exists r t, rr = Fin r /\ ylim rr = (Fin (- t), Fin t) /\ t = 3 / 4 * r /\
    arrow_within oh t /\
    (forall p, In p ps -> 0 <= fst p <= L -> arrow_within (snd p * oh) t) /\
    (forall gr c q y, In gr gs -> In c (gr_comp gr) -> In q (xy c) -> snd q = Fin y -> - t <= y <= t) /\
    (r = oh \/ (exists gr h, In gr gs /\ as_tall_as gr h /\ r = 2 * h) \/
     exists p, In p ps /\ 0 <= fst p <= L /\ r = oh * Rabs (snd p)).
Proof. exact range_spec. Qed.
Print Assumptions C95_range.

(** there is a range for every path of spaces, thin lenses and apertures and all rays *)
Theorem C95_range_exists :
  forall tan ds g lines yss oh os,
  Forall simple ds -> Forall2 has_heights lines yss ->
  Forall2 (fun (x : @elem XR) o => describes (emat x) o) (transferMatrices (grp_elem g)) os -> chain os -> os <> [] ->
  exists rr m gs ps, imagingDisplayRange tan ds g lines (Fin oh) = Ok rr /\ maxRayHeight lines = Ok m /\
    graphics_loop tan ds m (Fin 0) = Ok gs /\ Forall finite_graphic gs /\
    intermediateConjugates (grp_elem g) = Ok (map fin2 ps).
Proof. exact range_exists. Qed.
Print Assumptions C95_range_exists.

(** of a laser path: all elements are inside; without visible elements it is three times the beam radius *)
Theorem C95_laser_range :
  forall tan ds lines w rr m gs,
  laserDisplayRange tan ds lines w = Ok rr -> maxRayHeight lines = Ok m -> graphics_loop tan ds m (Fin 0) = Ok gs ->
  Forall finite_graphic gs ->
  (exists r t, rr = Fin r /\ ylim rr = (Fin (- t), Fin t) /\ t = 3 / 4 * r /\
     (forall gr c q y, In gr gs -> In c (gr_comp gr) -> In q (xy c) -> snd q = Fin y -> - t <= y <= t) /\
     exists gr h, In gr gs /\ as_tall_as gr h /\ r = 2 * h) \/
  ((forall gr c q y, In gr gs -> In c (gr_comp gr) -> In q (xy c) -> snd q = Fin y -> y = 0) /\
   match w with Some w => rr = nmul w (Fin 3) | None => rr = Fin 100 end).
Proof. exact laser_range_spec. Qed.
Print Assumptions C95_laser_range.

(** an object shown with ObjectRays is not taken into account *)
Theorem C95_object_refuted :
  exists lens es g ds lines d r, Lens (fz 50) (fz 25) = Ok lens /\ es = [fspace 100; lens; fspace 100] /\
    MatrixGroup_new es "" = Ok g /\ all_drawn es = Some ds /\
    rayTraceLines round0 true rgb rgb (grp_elem g) es None false c0 [fray (fz (-100)); fray c0; fray (fz 100)] = Ok lines /\
    setGraphicsFromRaysList (fixed 1) (fixed 2) g true true "b" "r" graphicGroups0
      [mkSource SObject c0 (fz 100) None None lines] = Ok d /\
    In (PObject (fz 200) c0 "b" None) (all_of d) /\ arrow_ends (fz 200) = (fz (-100), fz 100) /\
    imagingDisplayRange no_tan ds g lines (fz 10) = Ok r /\ ylim r = (ndec (-1875) 2, ndec 1875 2).
Proof. exact object_outside. Qed.
Print Assumptions C95_object_refuted.

(** a beam that spreads is not taken into account *)
Theorem C95_beam_refuted :
  exists s g b r, Space (fz 1000) c1 ninf = Ok s /\ MatrixGroup_new [s] "" = Ok g /\
    GaussianBeam None (Some (ndec 1 1)) ninf c1 wl_default c0 = Ok b /\
    laserDisplayRange no_tan (thed (all_drawn [s])) [] (match bw b with Ok w => Some w | Err _ => None end) = Ok r /\
    nltb (snd (ylim r)) (ndec 23 2) = true /\
    nltb (fz 2) (last_of (LaserPath_display 100 c1 g (Some b) None)) = true.
Proof. exact beam_outside. Qed.
Print Assumptions C95_beam_refuted.

Example C95_example : exists ds (g : @grp XR) lines yss os, Forall simple ds /\ Forall2 has_heights lines yss /\
  Forall2 (fun (x : @elem XR) o => describes (emat x) o) (transferMatrices (grp_elem g)) os /\ chain os /\ os <> [] /\ (2 <= List.length ds)%nat.
Proof.
  exists [DLens (LLeaf KSpace (emat (x_space 100 1))); DLens (LLeaf (KLens (Fin 50) (Fin 4)) (emat (x_lens 50 25)))].
  exists (mkGrp (emat (x_space 100 1)) [x_space 100 1; x_lens 50 25]).
  exists [mkLine [Fin 0; Fin 100] [Fin 3; Fin 3] "b"], [[3; 3]], [o_space 100 1; o_lens 50].
  split. { constructor; [exists 100; reflexivity|]. constructor; [|constructor]. split; [reflexivity|].
    split; [exists 4; split; [reflexivity|lra]|]. right. exists 25. split; [reflexivity|lra]. }
  split. { constructor; [|constructor]. (split; [reflexivity|discriminate]). }
  split. { apply Forall2_cons; [apply mat_of_describes|]. apply Forall2_cons; [apply mat_of_describes|apply Forall2_nil]. }
  split. { split; [apply p_space; lra|]. split; [reflexivity|]. split; [apply p_lens|exact I]. }
  split; [discriminate|cbn; lia].
Qed.

(** ** C96 *)
(** a lens without edges is drawn up to the highest point of all rays, so over all rays when they come in pairs y and -y *)
Theorem C96_open_lens :
  forall tan f hh m lines yss x,
  mdiam m = PInf -> 0 < hh -> Forall2 has_heights lines yss ->
  exists v g, maxRayHeight lines = Ok (Fin v) /\
    GraphicOf tan (LLeaf (KLens f (Fin hh)) m) (Fin x) (Fin v) = Ok (Some g) /\ halfHeight g = Ok (Fin (Rmax hh v)) /\
    (forall ys y, In ys yss -> In y ys -> y <= Rmax hh v) /\
    ((forall ys y, In ys yss -> In y ys -> exists zs, In zs yss /\ In (- y) zs) ->
     forall ys y, In ys yss -> In y ys -> Rabs y <= Rmax hh v).
Proof. exact open_lens_over_rays. Qed.
Print Assumptions C96_open_lens.

(** rays below the axis only do not count *)
Theorem C96_below_refuted :
  exists es g ds a b m gs gr, es = [fspace 100; flens 50; fspace 50] /\ MatrixGroup_new es "" = Ok g /\ all_drawn es = Some ds /\
    rayTraceLines round0 true rgb rgb (grp_elem g) es None false c0 [fray (fz (-1)); fray c1] = Ok a /\
    rayTraceLines round0 true rgb rgb (grp_elem g) es None false c0 [fray (fz (-40))] = Ok b /\
    (exists l, In l b /\ nth_error (l_x l) 2%nat = Some (fz 100) /\ nth_error (l_y l) 2%nat = Some (fz (-40))) /\
    maxRayHeight (a ++ b) = Ok m /\ graphics_loop no_tan ds m c0 = Ok gs /\ gs = [gr] /\ gr_x gr = fz 100 /\
    halfHeight gr = Ok (fz 4).
Proof. exact rays_below. Qed.
Print Assumptions C96_below_refuted.

Example C96_example : exists (m : @mat XR) lines yss, mdiam m = PInf /\ Forall2 has_heights lines yss /\
  (forall ys y, In ys yss -> In y ys -> exists zs, In zs yss /\ In (- y) zs) /\ In 7 (List.concat yss).
Proof.
  exists (mat_of (o_lens 50) PInf PInf false ""), [mkLine [Fin 0] [Fin 7] "b"; mkLine [Fin 0] [Fin (-7)] "b"], [[7]; [-7]].
  split; [reflexivity|]. split. { constructor; [(split; [reflexivity|discriminate])|]. constructor; [(split; [reflexivity|discriminate])|constructor]. }
  split; [|now left]. intros ys y [<-|[<-|[]]] [<-|[]].
  - exists [-7]. split; [right; now left|now left].
  - exists [7]. split; [now left|left; lra].
Qed.

(** ** C97 *)
(** both focal points of every lens, curved mirror, thick lens and catalogue lens with power are marked and named *)
Theorem C97_focal_points :
  forall fmt3 parse show pre d post ls m o ps,
  Forall2 has_length pre ls ->
  focusing d = Some m -> describes m o -> physical o -> power o ->
  points fmt3 parse show (pre ++ d :: post) = Ok ps ->
  exists f1 f2, focal o (run ls) f1 f2 /\ forall F label, (F, label) = (f1, "$F_f$") \/ (F, label) = (f2, "$F_b$") ->
    exists labs, In (parse (fmt3 (Fin F)), if show then Some (String.concat ", " labs) else None) ps /\
      In (written (pre ++ d :: post) pre label) labs.
Proof. exact focal_points_marked. Qed.
Print Assumptions C97_focal_points.

(** nothing else is marked, and the names of points that are written in the same way are joined on one mark *)
Theorem C97_only_focal_points :
  forall fmt3 parse show ds ls,
  Forall2 has_length ds ls -> Forall plain ds ->
  exists marks, points fmt3 parse show ds = Ok (map (fun p => (parse (fst p), if show then Some (snd p) else None)) marks) /\
    NoDup (map fst marks) /\
    forall k text, In (k, text) marks -> exists labs, labs <> [] /\ text = String.concat ", " labs /\
      forall lab', In lab' labs -> exists pre d post m o f1 f2 F label, ds = pre ++ d :: post /\ focusing d = Some m /\
        describes m o /\ focal o (run (firstn (List.length pre) ls)) f1 f2 /\
        ((F, label) = (f1, "$F_f$") \/ (F, label) = (f2, "$F_b$")) /\ k = fmt3 (Fin F) /\ lab' = written ds pre label.
Proof. exact focal_marks_only. Qed.
Print Assumptions C97_only_focal_points.

(** both focal points of an objective are marked, F_b on the side of its back aperture *)
Theorem C97_objective :
  forall f na ftf ba wd (flipped : bool),
  f <> 0 -> 0 < na * wd -> 0 < ba ->
  exists e e' m es o, Objective (Fin f) (Fin na) (Fin ftf) (Fin ba) (Fin wd) = Ok e /\
    (if flipped then flip e else Ok e) = Ok e' /\ e' = Group (GObjective (Fin ftf) (Fin wd)) m es /\ describes m o /\
    (forall z, focal o z z (z + ftf)) /\
    forall fmt3 parse show pre ls post front ps,
      let ds := pre ++ DObjective m es (Fin ftf) (Fin wd) (Fin ba) front (Fin na) :: post in
      Forall2 has_length pre ls -> points fmt3 parse show ds = Ok ps ->
      forall F label,
        (F, label) = (run ls, if flipped then "$F_f$" else "$F_b$") \/
        (F, label) = (run ls + ftf, if flipped then "$F_b$" else "$F_f$") ->
        exists labs, In (parse (fmt3 (Fin F)), if show then Some (String.concat ", " labs) else None) ps /\
          In (written ds pre label) labs.
Proof. exact objective_marked. Qed.
Print Assumptions C97_objective.

(** on doubles: the mark of a point is at the decimal with three digits nearest to it *)
Theorem C97_where :
  forall parse show ds ps pre F label,
  points (fixed 3) parse show ds = Ok ps -> has_point ds pre F label -> finite F ->
  exists s labs neg n, In (parse s, if show then Some (String.concat ", " labs) else None) ps /\
    In (written ds pre label) labs /\ reads 3 s neg n /\
    Rabs ((if neg then - (IZR (Z.of_N n) / 1000) else IZR (Z.of_N n) / 1000) - value F) <= 1 / 2000.
Proof. exact marks_close. Qed.
Print Assumptions C97_where.

(** points named on the same mark are at most 0.001 apart *)
Theorem C97_joined :
  forall parse show ds ps,
  points (fixed 3) parse show ds = Ok ps ->
  exists marks, ps = map (fun p => (parse (fst p), if show then Some (snd p) else None)) marks /\ NoDup (map fst marks) /\
    forall k text, In (k, text) marks -> exists labs, labs <> [] /\ text = String.concat ", " labs /\
      forall a b, In a labs -> In b labs -> exists pre F label pre' F' label',
        has_point ds pre F label /\ a = written ds pre label /\ has_point ds pre' F' label' /\ b = written ds pre' label' /\
        (finite F -> finite F' -> Rabs (value F - value F') <= 1 / 1000).
Proof. exact marks_apart. Qed.
Print Assumptions C97_joined.

(** the name gets a number, counting the elements with points, exactly when the path has two elements that are not spaces *)
Theorem C97_names :
  forall {T} {N : Num T} (ds pre : list (drawable T)) label,
  ((exists a d b d' c, ds = a ++ d :: b ++ d' :: c /\ ~ is_space d /\ ~ is_space d') ->
     written ds pre label = numbered label (S (having_points pre c0))) /\
  ((forall a d b d' c, ds = a ++ d :: b ++ d' :: c -> is_space d \/ is_space d') -> written ds pre label = label).
Proof. intros T N. exact written_names. Qed.
Print Assumptions C97_names.

(** a compound lens without power: no figure *)
Theorem C97_window_refuted :
  exists a s b d, DielectricInterface c1 (ndec 15 1) ninf (fz 25) = Ok a /\ Space (fz 5) (ndec 15 1) ninf = Ok s /\
    DielectricInterface (ndec 15 1) c1 ninf (fz 25) = Ok b /\ compound [a; s; b] (fz 25) = Some d /\
    forall parse show, points (fixed 3) parse show [d] = Err TypeError.
Proof. exact window_raises. Qed.
Print Assumptions C97_window_refuted.

(** two marks at the same place *)
Theorem C97_zero_refuted :
  exists s1 l1 s2 l2 ds, Space (ndec 1 1) c1 ninf = Ok s1 /\ Lens (ndec 1 1) (fz 25) = Ok l1 /\
    Space (ndec 7 1) c1 ninf = Ok s2 /\ Lens (ndec 8 1) (fz 25) = Ok l2 /\ all_drawn [s1; l1; s2; l2] = Some ds /\
    forall parse, exists rest, points (fixed 3) parse true ds =
      Ok ((parse "0.000", Some "${F_f}_1$") :: (parse "0.200", Some "${F_b}_1$") :: (parse "-0.000", Some "${F_f}_2$") :: rest).
Proof. exact twice_at_zero. Qed.
Print Assumptions C97_zero_refuted.

Example C97_example : exists ds ls, Forall2 has_length ds ls /\ Forall plain ds /\ several ds = true /\
  exists pre d post m o, ds = pre ++ d :: post /\ focusing d = Some m /\ describes m o /\ physical o /\ power o.
Proof.
  exists [DLens (LLeaf KSpace (emat (x_space 100 1))); DLens (LLeaf (KLens (Fin 50) (Fin 4)) (emat (x_lens 50 25)));
          DLens (LLeaf (KLens (Fin 50) (Fin 4)) (emat (x_lens 50 25)))], [100; 0; 0].
  assert (power (o_lens 50)) as W. { unfold power. cbn. rewrite Rabs_left by lra. lra. }
  assert (plain (DLens (LLeaf (KLens (Fin 50) (Fin 4)) (emat (x_lens 50 25))))) as Pl.
  { cbn. exists (o_lens 50). split; [apply mat_of_describes|]. split; [apply p_lens|auto]. }
  split; [constructor; [reflexivity|]; constructor; [reflexivity|]; constructor; [reflexivity|constructor]|].
  split; [constructor; [exact I|]; constructor; [exact Pl|]; constructor; [exact Pl|constructor]|]. split; [reflexivity|].
  eexists [_], _, [_], _, (o_lens 50). split; [reflexivity|]. split; [reflexivity|]. split; [apply mat_of_describes|]. split; [apply p_lens|exact W].
Qed.
Example C97_example_doubles : exists ds pre (F : float) label, has_point ds pre F label /\ finite F /\ exists ps, points (fixed 3) (fun _ => c0) true ds = Ok ps.
Proof.
  pose (ds := thed (all_drawn [fspace 100; flens 50])).
  exists ds, (firstn 1 ds), (fz 50), "$F_f$". split.
  { do 3 eexists. split; [vm_compute; reflexivity|]. split; [vm_compute; reflexivity|]. left. reflexivity. }
  split; [vm_compute; exact I|]. eexists. vm_compute. reflexivity.
Qed.

(** ** C98 *)
(** the figure of a single element with power shows its focal points, its principal planes and its vertices where they are,
    and the arrows of its focal lengths between them with their values (written by [fmt1]) *)
Theorem C98_display :
  forall tan fmt1 fmt3 parse l m o vf vb g h,
  single l -> lens_mat l = m ->
  GraphicOf tan l (Fin 0) (Fin 0) = Ok (Some g) -> halfHeight g = Ok (Fin h) ->
  describes m o -> physical o -> power o -> ofv o = Some vf -> obv o = Some vb ->
  exists marks pl p1 p2 F1 F2, display tan fmt1 fmt3 parse (DLens l) = Ok (marks, pl) /\
    focal o 0 F1 F2 /\ principal o 0 p1 p2 (F2 - p2) /\
    In (mkMark (Fin F1) (Fin 0) None) marks /\ In (mkMark (Fin F2) (Fin 0) None) marks /\
    (oL o <> 0 -> exists y, In (mkMark (Fin vf) y (Some "$V_f$")) marks /\ In (mkMark (Fin vb) y (Some "$V_b$")) marks) /\
    (focusing (DLens l) = Some m -> plain_text fmt3 parse marks F1 "$F_f$" /\ plain_text fmt3 parse marks F2 "$F_b$") /\
    pl_lines pl = [(Fin p1, Fin h); (Fin p2, Fin h)] /\
    (exists y, In (mkMark (Fin p1) y (Some "$P_f$")) (pl_marks pl) /\ In (mkMark (Fin p2) y (Some "$P_b$")) (pl_marks pl)) /\
    spans pl p1 F1 ("EFL = " ++ fmt1 (Fin (p1 - F1))) /\ spans pl p2 F2 ("EFL = " ++ fmt1 (Fin (F2 - p2))) /\
    spans pl vf F1 ("FFL = " ++ fmt1 (Fin (vf - F1))) /\ spans pl vb F2 ("BFL = " ++ fmt1 (Fin (F2 - vb))).
Proof. exact display_spec. Qed.
Print Assumptions C98_display.

(** without power: only the vertices *)
Theorem C98_no_power :
  forall tan fmt1 fmt3 parse l m o g h vf vb,
  single l -> lens_mat l = m -> catalogue (DLens l) = false ->
  GraphicOf tan l (Fin 0) (Fin 0) = Ok (Some g) -> halfHeight g = Ok (Fin h) ->
  describes m o -> physical o -> ~ power o -> ofv o = Some vf -> obv o = Some vb ->
  exists marks, display tan fmt1 fmt3 parse (DLens l) = Ok (marks, mkPlanes [] [] []) /\
    (forall k, In k marks -> k_text k = Some "$V_f$" /\ k_x k = Fin vf \/ k_text k = Some "$V_b$" /\ k_x k = Fin vb).
Proof. exact display_without_power. Qed.
Print Assumptions C98_no_power.

(** without vertices: no figure *)
Theorem C98_no_vertices :
  forall tan fmt1 fmt3 parse l m o g h,
  single l -> lens_mat l = m -> catalogue (DLens l) = false ->
  GraphicOf tan l (Fin 0) (Fin 0) = Ok (Some g) -> halfHeight g = Ok (Fin h) ->
  describes m o -> physical o -> ofv o = None \/ obv o = None -> power o \/ oL o <> 0 ->
  display tan fmt1 fmt3 parse (DLens l) = Err TypeError.
Proof. exact display_without_vertices. Qed.
Print Assumptions C98_no_vertices.

(** the figure of an objective *)
Theorem C98_objective_refuted :
  exists m es, Objective (fz 9) (ndec 8 1) (fz 75) (fz 18) (fz 3) = Ok (Group (GObjective (fz 75) (fz 3)) m es) /\
    focusPositions m c0 = Ok (Some (c0, fz 75)) /\
    forall parse, exists marks pl,
      display no_tan (fixed 1) (fixed 3) parse (DObjective m es (fz 75) (fz 3) (fz 18) (ndec 48 1) (ndec 8 1)) = Ok (marks, pl) /\
      shown_at marks (parse "57.000") "$F_f$" /\ shown_at marks (parse "75.000") "$F_f$, $F_b$".
Proof. exact objective_display. Qed.
Print Assumptions C98_objective_refuted.

(** elements without a figure *)
Theorem C98_no_figure_refuted :
  exists s m k, Space (fz 100) c1 ninf = Ok (Leaf KSpace s) /\
    MatrixE c1 c0 (ndec (-1) 1) c1 c0 None None c1 c1 = Ok (Leaf k m) /\
    (forall parse, display no_tan (fixed 1) (fixed 3) parse (DLens (LLeaf KSpace s)) = Err AttributeError) /\
    (forall parse, display no_tan (fixed 1) (fixed 3) parse (DLens (LLeaf k m)) = Err TypeError).
Proof. exact no_figure. Qed.
Print Assumptions C98_no_figure_refuted.

Example C98_example : forall tan, exists l m o vf vb g h, single l /\ lens_mat l = m /\ GraphicOf tan l (Fin 0) (Fin 0) = Ok (Some g) /\ halfHeight g = Ok (Fin h) /\
  describes m o /\ physical o /\ power o /\ ofv o = Some vf /\ obv o = Some vb /\ focusing (DLens l) = Some m.
Proof.
  intros tan. destruct (lens_drawn tan (Fin 50) (Fin 4) (emat (x_lens 50 25)) 25 0 (Fin 0)) as (g & E & _ & H & _); [reflexivity|lra|reflexivity|].
  exists (LLeaf (KLens (Fin 50) (Fin 4)) (emat (x_lens 50 25))). do 2 eexists. exists 0, 0, g. eexists. split; [exact I|]. split; [reflexivity|].
  split; [exact E|]. split; [exact H|]. split; [apply mat_of_describes|]. split; [apply p_lens|]. split; [|split; [reflexivity|split; reflexivity]].
  unfold power. cbn. rewrite Rabs_left by lra. lra.
Qed.
