(** Property theorems C83-C85: how elements are drawn.  Each theorem is closed by a lemma proved elsewhere; the
    examples show that its hypotheses can be met. *)
From Coq Require Import Reals Lra List Bool String ZArith Floats Lia.
From Verif Require Import Base Nums Optics Drawing Materials Catalogue Objectives CatalogueLens Figures FigureProofs FigureLens FigureCatalogue
  FigurePlace FigureRefutations Spec ElementProofs Samples.
Import ListNotations.
Set Warnings "-inexact-float".
Open Scope list_scope.
Open Scope R_scope.
Local Notation pt a b := (Fin a, Fin b).

(** ** C83 *)
(** [placed x ss]: the surfaces with the positions of their vertices; [drawn_surface s v h cs]: a plane is a line from
    -h to h at v, a sphere two quadratic curves that leave v and end on the sphere at -h and h, every point of
    them being between r and 1.061 r from the centre *)
Theorem C83_surfaces : forall tan ss h x, good_list ss -> ss <> [] -> 0 < h ->
  exists g, SurfacesGraphic tan ss (Fin h) (Fin x) = Ok g /\ halfHeight g = Ok (Fin h) /\
  forall sc v s, In (v, s) (placed x ss) -> drawn_surface s v h (List.concat (drawn sc g)).
Proof. exact surfaces_drawn. Qed.
Print Assumptions C83_surfaces.
(** the outline between two surfaces is a closed line, whatever the numbers *)
Theorem C83_closed : forall (T : Type) (N : Num T) tan (a b : @surface T) h x p,
  SurfacePair tan a b h x = Ok p -> closed (co_curves (pa_comp p)).
Proof. exact @pair_closed. Qed.
Print Assumptions C83_closed.
Example C83_example : good_list [SphericalInterface (Fin 40) (Fin (3/2)) (Fin 5); FlatInterface (Fin 1) (Fin 0)].
Proof. cbn. split; [lra|]. split; [exists 5; split; [reflexivity|lra]|]. auto. Qed.

(** ** C84 *)
(** [lens_object c w]: the lens that Class() or Class(wavelength=w) makes; [flips k l]: turned over k times *)
Theorem C84_drawn : forall tan name c wl l k l' x ms, In (name, c) (@lenses XR _) -> lens_object c wl = Ok l -> flips k l = Ok l' ->
  (Nat.odd k = false \/ ~ plane_data c) ->
  exists ss d g, surfaces l' = Ok ss /\ diameter c = Fin d /\ GraphicOf tan l' (Fin x) ms = Ok (Some g) /\ halfHeight g = Ok (Fin (d / 2)) /\
  forall sc v s, In (v, s) (placed x ss) -> drawn_surface s v (d / 2) (List.concat (drawn sc g)).
Proof. exact catalogue_drawn. Qed.
Print Assumptions C84_drawn.
Theorem C84_exists : forall name c w, In (name, c) (@lenses XR _) -> takes c = true -> 35/100 <= w <= 5/2 ->
  exists l, lens_object c (Some (Fin w)) = Ok l.
Proof. exact wide_object. Qed.
Print Assumptions C84_exists.
(** every one of them that has a plane surface cannot be drawn turned over *)
Theorem C84_plane_turned : forall tan name c wl l k l' x ms, In (name, c) (@lenses XR _) -> lens_object c wl = Ok l -> flips k l = Ok l' ->
  Nat.odd k = true -> plane_data c -> GraphicOf tan l' (Fin x) ms = Err ZeroDivisionError.
Proof. exact catalogue_turned_fails. Qed.
Print Assumptions C84_plane_turned.
Theorem C84_turned_refuted : exists name c l l' g, In (name, c) (@lenses float _) /\ lens_object c None = Ok l /\
  GraphicOf no_tan l 0%float 0%float = Ok (Some g) /\ flip_lens l = Ok l' /\
  GraphicOf no_tan l' 0%float 0%float = Err ZeroDivisionError.
Proof. exact plano_turned. Qed.
Print Assumptions C84_turned_refuted.
Theorem C84_mirror_refuted : exists k m, CurvedMirror (@ninf float _) (@ninf float _) = Ok (Leaf k m) /\
  GraphicOf no_tan (LLeaf k m) 0%float 0%float = Err ZeroDivisionError.
Proof. exact plane_mirror. Qed.
Print Assumptions C84_mirror_refuted.
Theorem C84_aperture_refuted : exists k m, Aperture (@ninf float _) (@ninf float _) = Ok (Leaf k m) /\
  GraphicOf no_tan (LLeaf k m) 0%float 0%float = Err IndexError.
Proof. exact open_aperture. Qed.
Print Assumptions C84_aperture_refuted.

(** ** C85 *)
(** in a figure, an element is drawn at the sum of the lengths before it *)
Theorem C85_position : forall tan ms pre l post ls z gs, Forall2 has_length pre ls ->
  graphics_loop tan (pre ++ DLens l :: post) ms (Fin z) = Ok gs -> is_space l = false ->
  exists g, In g gs /\ GraphicOf tan l (Fin (z + run ls)) ms = Ok (Some g) /\ gr_x g = Fin (z + run ls).
Proof. exact lens_in_figure. Qed.
Print Assumptions C85_position.
(** an element of a group is drawn at the position of the group plus the lengths before it in the group *)
Theorem C85_group_position : forall tan ms pre mg epre k m epost post ls es_ls z gs,
  Forall2 has_length pre ls -> Forall2 elem_length epre es_ls ->
  graphics_loop tan (pre ++ DGroup mg (epre ++ Leaf k m :: epost) :: post) ms (Fin z) = Ok gs -> is_space (LLeaf k m) = false ->
  exists g, In g gs /\ GraphicOf tan (LLeaf k m) (Fin (z + run ls + run es_ls)) c0 = Ok (Some g) /\ gr_x g = Fin (z + run ls + run es_ls).
Proof. exact elem_in_group_in_figure. Qed.
Print Assumptions C85_group_position.
Theorem C85_count : forall tan ms ds z gs, graphics_loop tan ds ms z = Ok gs -> List.length gs = list_sum (map graphics_of ds).
Proof. exact figure_count. Qed.
Print Assumptions C85_count.
(** thin lenses: an arrow over the diameter, with bars at its ends *)
Theorem C85_lens : forall tan f hh m d x ms, mdiam m = Fin d -> 0 < d -> mL m = Fin 0 ->
  exists g, GraphicOf tan (LLeaf (KLens f hh) m) (Fin x) ms = Ok (Some g) /\ gr_x g = Fin x /\ halfHeight g = Ok (Fin (d / 2)) /\
  forall sc, line_in (pt x (- (d / 2))) (pt x (d / 2)) (List.concat (drawn (Fin sc) g)) /\ bars sc x (d / 2) (List.concat (drawn (Fin sc) g)).
Proof. exact lens_drawn. Qed.
Print Assumptions C85_lens.
Theorem C85_open_lens : forall tan f hh m x ms, mdiam m = PInf -> 0 < hh ->
  exists g, GraphicOf tan (LLeaf (KLens f (Fin hh)) m) (Fin x) (Fin ms) = Ok (Some g) /\ gr_x g = Fin x /\ halfHeight g = Ok (Fin (Rmax hh ms)) /\
  forall sc, line_in (pt x (- Rmax hh ms)) (pt x (Rmax hh ms)) (List.concat (drawn (Fin sc) g)).
Proof. exact open_lens_drawn. Qed.
Print Assumptions C85_open_lens.
Theorem C85_aperture : forall tan m d x ms, mdiam m = Fin d -> 0 < d -> mL m = Fin 0 ->
  exists g, GraphicOf tan (LLeaf KAperture m) (Fin x) ms = Ok (Some g) /\ gr_x g = Fin x /\ halfHeight g = Ok (Fin (d / 2)) /\
  forall sc, bars sc x (d / 2) (List.concat (drawn (Fin sc) g)).
Proof. exact aperture_drawn. Qed.
Print Assumptions C85_aperture.
(** a general matrix: the box appears at twice its position *)
Theorem C85_matrix_twice : forall tan m d l x ms, mdiam m = Fin d -> 0 < d -> mL m = Fin l ->
  exists g, GraphicOf tan (LLeaf KMatrix m) (Fin x) ms = Ok (Some g) /\ gr_x g = Fin x /\ halfHeight g = Ok (Fin (d / 2)) /\
  forall sc, hd_error (drawn sc g) = Some (box (2 * x) (2 * x + l) (d / 2)).
Proof. exact matrix_drawn_twice_as_far. Qed.
Print Assumptions C85_matrix_twice.
Theorem C85_matrix_refuted : exists k m gs g, MatrixE 1%float 0%float 0%float 1%float 20%float None None 1%float 1%float = Ok (Leaf k m) /\
  (exists s, Space 100%float 1%float ninf = Ok (Leaf KSpace s) /\
     graphics_loop no_tan [DLens (LLeaf KSpace s); DLens (LLeaf k m)] 0%float 0%float = Ok gs) /\ gs = [g] /\
  (forall sc cs cv p, In cs (drawn sc g) -> In cv cs -> In p cv -> PrimFloat.ltb 199 (fst p) = true).
Proof. exact matrix_elsewhere. Qed.
Print Assumptions C85_matrix_refuted.
(** objectives: the outline is where it should be, the bars of the front aperture are not *)
Theorem C85_objective_outline : forall ftf wd back front na fl, na <> 0 ->
  let h := back / 2 in let s := ftf - back / 2 / na in
  objective_outline (Fin ftf) (Fin wd) (Fin back) (Fin front) (Fin na) fl =
  Ok (map (fun p => pt (if fl then ftf - fst p else fst p) (snd p))
        [(0, h); (s, h); (ftf - wd, front / 2); (ftf - wd, - (front / 2)); (s, - h); (0, - h); (0, h)]).
Proof. exact objective_outline_ok. Qed.
Print Assumptions C85_objective_outline.
Theorem C85_objective_bars : forall sc x back pre e post ls z c d, Forall2 (fun e l => mL (@emat XR e) = Fin l) pre ls ->
  mdiam (emat e) = Fin d -> mL (emat e) = Fin 0 -> 0 < back ->
  bars sc (x + (z + run ls) * sc) (back / 2)
    (List.concat (drawn (Fin sc) (mkGraphic (c :: objective_bars (pre ++ e :: post) (Fin back) (Fin z)) (Fin x)))).
Proof. exact objective_bars_drawn. Qed.
Print Assumptions C85_objective_bars.
Theorem C85_objective_refuted : exists o m es k g, In ("LUMPlanFL40X"%string, o) (@objectives float _) /\
  build o = Ok (Group k m es) /\
  (exists e, nth_error es 5 = Some e /\ mdiam (emat e) = 3.2%float) /\
  ObjectiveGraphic m es (ob_ftf o) (ob_wd o) (ob_back o) (mul 2 (mul (ob_NA o) (ob_wd o))) (ob_NA o) 0%float = Ok g /\
  nth_error (drawn 1%float g) 2 = Some [[(37.995, 3.5); (38.005, 3.5)]; [(37.995, -3.5); (38.005, -3.5)]]%float /\
  nth_error (drawn 2%float g) 2 = Some [[(75.99, 3.5); (76.01, 3.5)]; [(75.99, -3.5); (76.01, -3.5)]]%float.
Proof. exact objective_bars_elsewhere. Qed.
Print Assumptions C85_objective_refuted.
(** a space of 10 followed by a group: a space of 5 and a lens *)
Example C85_group_example : exists mg m gs g, x_lens 50 20 = Leaf (KLens (Fin 50) (Fin 4)) m /\
  graphics_loop (fun x => x) [DLens (LLeaf KSpace (emat (x_space 10 1))); DGroup mg [x_space 5 1; Leaf (KLens (Fin 50) (Fin 4)) m]] (Fin 0) (Fin 0) = Ok gs /\
  gs = [g] /\ gr_x g = Fin (0 + 10 + 5).
Proof.
  destruct (lens_drawn (fun x => x) (Fin 50) (Fin 4) (emat (x_lens 50 20)) 20 (0 + (0 + 10) + 5) c0) as (g & E1 & E2 & _);
    [reflexivity|lra|reflexivity|].
  exists (mat_of (o_lens 50) (Fin 20) PInf false ""), (emat (x_lens 50 20)), [g], g. split; [reflexivity|].
  split; [|split; [reflexivity|rewrite E2; f_equal; ring]].
  cbn [graphics_loop]. change (GraphicOf _ (LLeaf KSpace _) _ _) with (@Ok (option (graphic XR)) None). cbn [bind drawable_L lens_mat].
  change (nadd (Fin 0) (mL (emat (x_space 10 1)))) with (Fin (0 + 10)).
  destruct (group_drawn (mat_of (o_lens 50) (Fin 20) PInf false "") [x_space 5 1; x_lens 50 20] 4 0 (0 + 10)) as (gg & E3 & _);
    [cbn; unfold xltb, xleb; cbn; rewrite ?(Rltb_lt 0 4) by lra; reflexivity|lra|reflexivity|].
  change (emat (x_lens 50 20)) with (mat_of (o_lens 50) (Fin 20) PInf false "") in *.
  change (x_lens 50 20) with (Leaf (KLens (Fin 50) (Fin 4)) (mat_of (o_lens 50) (Fin 20) PInf false "")) in E3.
  rewrite E3. cbn [bind standAloneGraphics]. change (x_space 5 1) with (Leaf KSpace (emat (x_space 5 1))).
  cbn [GraphicOf bind emat]. change (nadd (nadd c0 (Fin (0 + 10))) (mL (emat (x_space 5 1)))) with (Fin (0 + (0 + 10) + 5)).
  cbn [GraphicOf] in E1. rewrite E1. reflexivity.
Qed.
(** a space of 10 followed by a lens *)
Example C85_example : exists m gs g, x_lens 50 20 = Leaf (KLens (Fin 50) (Fin 4)) m /\
  graphics_loop (fun x => x) [DLens (LLeaf KSpace (emat (x_space 10 1))); DLens (LLeaf (KLens (Fin 50) (Fin 4)) m)] (Fin 0) (Fin 0) = Ok gs /\
  gs = [g] /\ gr_x g = Fin (0 + 10).
Proof.
  destruct (lens_drawn (fun x => x) (Fin 50) (Fin 4) (emat (x_lens 50 20)) 20 (0 + 10) (Fin 0)) as (g & E1 & E2 & _);
    [reflexivity|lra|reflexivity|].
  exists (emat (x_lens 50 20)), [g], g. split; [reflexivity|]. split; [|split; [reflexivity|exact E2]].
  cbn [graphics_loop]. change (GraphicOf _ (LLeaf KSpace _) _ _) with (@Ok (option (graphic XR)) None). cbn [bind drawable_L lens_mat].
  change (nadd (Fin 0) (mL (emat (x_space 10 1)))) with (Fin (0 + 10)).
  change (emat (x_lens 50 20)) with (mat_of (o_lens 50) (Fin 20) PInf false "") in *. rewrite E1. reflexivity.
Qed.
