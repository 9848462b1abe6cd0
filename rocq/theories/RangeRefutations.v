(** Bit-exact runs of the model of the vertical range of a figure on IEEE doubles in which a property fails. *)
From Coq Require Import ZArith List Bool String Floats.
From Verif Require Import Base Nums Optics Group GroupRefutations Imaging ImagingRefutations Drawing Figures FigureRefutations
  RayLines Range Format Scene Beam BeamRefutations BeamFigure.
Import ListNotations.
Open Scope string_scope.
Open Scope list_scope.

(** a path as it is drawn: spaces and lenses only *)
Definition drawn_as (e : @elem float) : option (drawable float) :=
  match e with Leaf k m => Some (DLens (LLeaf k m)) | Group _ _ _ => None end.
Fixpoint all_drawn (es : list (@elem float)) : option (list (drawable float)) :=
  match es with
  | [] => Some []
  | e :: t => match drawn_as e, all_drawn t with Some d, Some ds => Some (d :: ds) | _, _ => None end
  end.
Definition thed (o : option (list (drawable float))) := match o with Some l => l | None => [] end.

(** int(np.round(x)) for the values met below *)
Definition round0 (x : float) : Z := 0%Z.
Definition rgb := Colours ["b"; "r"; "g"].
Definition the_lines (r : res (list (@line float))) := match r with Ok l => l | Err _ => [] end.
Definition fray (y : float) : @ray float := mkRay y c0 c0 false ninf None.

(** C95: an object of 200 mm in front of a lens of 25 mm: the arrow of the object is drawn from -100 to 100, all rays
    start on it, and the axis goes from -18.75 to 18.75 *)
Lemma object_outside :
  exists lens es g ds lines d r, Lens (fz 50) (fz 25) = Ok lens /\ es = [fspace 100; lens; fspace 100] /\
    MatrixGroup_new es "" = Ok g /\ all_drawn es = Some ds /\
    rayTraceLines round0 true rgb rgb (grp_elem g) es None false c0 [fray (fz (-100)); fray c0; fray (fz 100)] = Ok lines /\
    setGraphicsFromRaysList (fixed 1) (fixed 2) g true true "b" "r" graphicGroups0
      [mkSource SObject c0 (fz 100) None None lines] = Ok d /\
    In (PObject (fz 200) c0 "b" None) (all_of d) /\ arrow_ends (fz 200) = (fz (-100), fz 100) /\
    imagingDisplayRange no_tan ds g lines (fz 10) = Ok r /\ ylim r = (ndec (-1875) 2, ndec 1875 2).
Proof.
  pose (lens := the (Lens (fz 50) (fz 25))). pose (es := [fspace 100; lens; fspace 100]).
  pose (g := theg (MatrixGroup_new es "")).
  exists lens, es, g, (thed (all_drawn es)),
    (the_lines (rayTraceLines round0 true rgb rgb (grp_elem g) es None false c0 [fray (fz (-100)); fray c0; fray (fz 100)])).
  eexists. eexists. split; [vm_compute; reflexivity|]. split; [reflexivity|]. split; [vm_compute; reflexivity|].
  split; [vm_compute; reflexivity|]. split; [vm_compute; reflexivity|]. split; [vm_compute; reflexivity|].
  split; [vm_compute; auto|]. split; [vm_compute; reflexivity|]. split; vm_compute; reflexivity.
Qed.

(** C95: a beam of 0.1 mm after 1 m of air is 2 mm wide; the axis goes up to 0.225 mm *)
Definition last_of (r : res (list (list float * list float) * list (@arrow float))) : float :=
  match r with Ok ((_, y) :: _, _) => last y c0 | _ => c0 end.
Lemma beam_outside :
  exists s g b r, Space (fz 1000) c1 ninf = Ok s /\ MatrixGroup_new [s] "" = Ok g /\
    GaussianBeam None (Some (ndec 1 1)) ninf c1 wl_default c0 = Ok b /\
    laserDisplayRange no_tan (thed (all_drawn [s])) [] (match bw b with Ok w => Some w | Err _ => None end) = Ok r /\
    nltb (snd (ylim r)) (ndec 23 2) = true /\
    nltb (fz 2) (last_of (LaserPath_display 100 c1 g (Some b) None)) = true.
Proof.
  pose (s := the (Space (fz 1000) c1 ninf)). pose (g := theg (MatrixGroup_new [s] "")).
  pose (b := theb (GaussianBeam None (Some (ndec 1 1)) ninf c1 wl_default c0)).
  exists s, g, b. eexists. split; [vm_compute; reflexivity|]. split; [vm_compute; reflexivity|].
  split; [vm_compute; reflexivity|]. split; [vm_compute; reflexivity|]. split; vm_compute; reflexivity.
Qed.

(** C96: parallel rays 40 mm below the axis beside an object of 2 mm: the lens is drawn 4 mm high on each side *)
Lemma rays_below :
  exists es g ds a b m gs gr, es = [fspace 100; flens 50; fspace 50] /\ MatrixGroup_new es "" = Ok g /\ all_drawn es = Some ds /\
    rayTraceLines round0 true rgb rgb (grp_elem g) es None false c0 [fray (fz (-1)); fray c1] = Ok a /\
    rayTraceLines round0 true rgb rgb (grp_elem g) es None false c0 [fray (fz (-40))] = Ok b /\
    (exists l, In l b /\ nth_error (l_x l) 2%nat = Some (fz 100) /\ nth_error (l_y l) 2%nat = Some (fz (-40))) /\
    maxRayHeight (a ++ b) = Ok m /\ graphics_loop no_tan ds m c0 = Ok gs /\ gs = [gr] /\ gr_x gr = fz 100 /\
    halfHeight gr = Ok (fz 4).
Proof.
  pose (es := [fspace 100; flens 50; fspace 50]). pose (g := theg (MatrixGroup_new es "")).
  pose (a := the_lines (rayTraceLines round0 true rgb rgb (grp_elem g) es None false c0 [fray (fz (-1)); fray c1])).
  pose (b := the_lines (rayTraceLines round0 true rgb rgb (grp_elem g) es None false c0 [fray (fz (-40))])).
  pose (m := match maxRayHeight (a ++ b) with Ok m => m | Err _ => c0 end).
  pose (gs := match graphics_loop no_tan (thed (all_drawn es)) m c0 with Ok l => l | Err _ => [] end).
  exists es, g, (thed (all_drawn es)), a, b, m, gs, (hd (mkGraphic [] c0) gs).
  split; [reflexivity|]. split; [vm_compute; reflexivity|]. split; [vm_compute; reflexivity|]. split; [vm_compute; reflexivity|].
  split; [vm_compute; reflexivity|].
  split; [exists (hd (mkLine [] [] "") b); split; [left; vm_compute; reflexivity|split; vm_compute; reflexivity]|].
  split; [vm_compute; reflexivity|]. split; [vm_compute; reflexivity|]. split; [vm_compute; reflexivity|].
  split; vm_compute; reflexivity.
Qed.
