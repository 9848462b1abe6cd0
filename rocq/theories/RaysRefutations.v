(** Bit-exact runs of the model on IEEE doubles in which a property of rays, lenses or saved
    groups fails. *)
From Coq Require Import ZArith List Bool String Floats.
From Verif Require Import Base Nums Optics Group GroupProofs TraceProofs RaysModel RaysProofs RaysMore
  Drawing MiscProofs GroupRefutations.
Import ListNotations.
Open Scope list_scope.

Definition fr (y th : Z) : @ray float := Ray_new (fz y) (fz th).

(** C19: two processes, three rays: the order differs from the serial one *)
Lemma parallel_order :
  let e := fspace 10 in let rays := [fr 1 0; fr 2 0; fr 3 0] in
  Space (fz 10) c1 ninf = Ok e /\
  exists a b c, survivors e rays = [a; b; c] /\ traceInParallel e false 2 [0; 1] rays = Ok [a; c; b] /\
    neqb (ry b) (ry c) = false.
Proof.
  cbv zeta. split; [reflexivity|].
  exists (traceThrough (fspace 10) (fr 1 0)), (traceThrough (fspace 10) (fr 2 0)),
    (traceThrough (fspace 10) (fr 3 0)).
  vm_compute. repeat split.
Qed.

(** C48: heights read, then other rays loaded: the old heights are returned *)
Lemma load_stale :
  forall hist, exists (s : @stats float) v,
    s = srun hist (stats_new [fr 1 0]) [SY; SLoad false [fr 2 0]] /\
    s_rays s = [fr 2 0] /\ fst (yValues s) = [v] /\ neqb v (ry (fr 2 0)) = false.
Proof.
  intros hist. exists (srun hist (stats_new [fr 1 0]) [SY; SLoad false [fr 2 0]]), (fz 1).
  vm_compute. repeat split.
Qed.

(** C49: the body reads the heights, which have not been read before: the loop ends at once *)
Lemma loop_stops :
  exists (l : list (@ray float)),
    l = [fr 1 0; fr 2 0; fr 3 0] /\
    fst (for_rays 10 (fun _ s => snd (yValues s)) (stats_new l)) = Ok [fr 1 0].
Proof. eexists; split; [reflexivity|]. vm_compute. reflexivity. Qed.

(** C49: a loop inside a loop *)
Lemma nested_loop_stops :
  exists (l : list (@ray float)),
    l = [fr 1 0; fr 2 0; fr 3 0] /\
    fst (for_rays 10 (fun _ s => snd (for_rays 10 (fun _ s => s) s)) (stats_new l)) = Ok [fr 1 0].
Proof. eexists; split; [reflexivity|]. vm_compute. reflexivity. Qed.

(** C49: the body tests [rays[0] in rays]: the loop never ends *)
Lemma member_loop_forever :
  exists (l : list (@ray float)),
    l = [fr 1 0; fr 2 0] /\
    forall fuel, fst (for_rays fuel (fun _ s => snd (member (fr 1 0) s)) (stats_new l)) = Err OutOfFuel.
Proof.
  eexists; split; [reflexivity|].
  set (l := [fr 1 0; fr 2 0]).
  set (body := fun (_ : @ray float) s => snd (member (fr 1 0) s)).
  set (at1 := mkStats l 1 None None None None None None).
  assert (forall fuel seen, fst (for_loop fuel stats_next body at1 seen) = Err OutOfFuel) as K.
  { induction fuel as [|fuel IH]; intros seen; [reflexivity|].
    cbn [for_loop].
    assert (stats_next at1 = Some (fr 2 0, mkStats l 2 None None None None None None)) as ->
      by (vm_compute; reflexivity).
    assert (body (fr 2 0) (mkStats l 2 None None None None None None) = at1) as ->
      by (vm_compute; reflexivity).
    apply IH. }
  intros [|fuel]; [reflexivity|]. unfold for_rays. cbn [for_loop].
  assert (stats_next (stats_iter (stats_new l)) = Some (fr 1 0, at1)) as -> by (vm_compute; reflexivity).
  assert (body (fr 1 0) at1 = at1) as -> by (vm_compute; reflexivity).
  apply K.
Qed.

(** C49: a loop over a group inside a loop over the same group *)
Lemma group_nested_stops :
  exists (es : list (@elem float)),
    es = [fspace 1; fspace 2; fspace 3] /\
    fst (for_group 10 (fun _ g => snd (for_group 10 (fun _ g => g) g)) (mkGit es 0)) = Ok [fspace 1].
Proof. eexists; split; [reflexivity|]. vm_compute. reflexivity. Qed.

(** C51: rounding puts the last ray of a fan outside the range *)
Lemma fan_overshoots :
  exists l r, fan c0 c0 (ndec 1 1) 12 = Ok l /\ last_opt l = Some r /\ nltb (ndec 1 1) (rth r) = true.
Proof.
  pose (l := match @fan float _ c0 c0 (ndec 1 1) 12 with Ok l => l | Err _ => [] end).
  exists l, (List.last l (fr 0 0)). vm_compute. repeat split.
Qed.
(** C51: UniformRays with M = 1 ignores the requested range of heights *)
Lemma uniform_one_outside :
  exists r, UniformRays (fz 5) (Some (fz 3)) (fz 1) None 1 1 = Ok [r] /\ nltb (ry r) (fz 3) = true.
Proof. exists (fr 0 (-1)). vm_compute. repeat split. Qed.
(** C51: no ray at all at the upper end when one angle is asked for *)
Lemma uniform_one_angle :
  exists r1 r2, UniformRays (fz 5) (Some (fz 3)) (fz 1) None 2 1 = Ok [r1; r2] /\
    nltb (rth r1) (fz 1) = true /\ nltb (rth r2) (fz 1) = true.
Proof. exists (fr 3 (-1)), (fr 5 (-1)). vm_compute. repeat split. Qed.

(** C52: a generator of rays gives an empty Rays, and nothing is traced *)
Lemma generator_lost :
  let e := fspace 10 in
  Space (fz 10) c1 ninf = Ok e /\
  Rays_new (OneShot [Some (fr 1 0); Some (fr 2 0)]) = Ok [] /\
  traceManyThrough_it e false (OneShot [Some (fr 1 0); Some (fr 2 0)]) = Ok [] /\
  List.length (survivors e [fr 1 0; fr 2 0]) = 2%nat.
Proof. cbv zeta. vm_compute. repeat split. Qed.

(** C54: a blocked ray is bent, and the caller's ray with it *)
Lemma axicon_bends_blocked :
  exists (e : @elem float) r, Axicon (ndec 1 1) n15 ninf = Ok e /\ r = set_blk (fr 1 0) /\
    neqb (rth (traceThrough e r)) (rth r) = false /\ rblk (traceThrough e r) = true /\
    neqb (rth (hget (snd (trace e 0 [r])) 0)) (rth r) = false.
Proof.
  exists (the (Axicon (ndec 1 1) n15 ninf)), (set_blk (fr 1 0)). vm_compute. repeat split.
Qed.

(** C61 *)
Definition thel (r : res (@lens_kind float)) : @lens_kind float :=
  match r with Ok e => e | Err _ => LLeaf KMatrix dummy end.
Definition leaf_lens (e : @elem float) : @lens_kind float :=
  match e with Leaf k m => LLeaf k m | Group _ m es => LCompound m es end.
Definition radii (r : res (list (@surface float))) : list float :=
  match r with
  | Ok l => flat_map (fun s => match su_shape s with Spherical x => [x] | _ => [] end) l
  | Err _ => []
  end.

(** radii 100 and -50 from left to right; flipped, they should be 50 and -100 *)
Lemma thick_lens_surfaces :
  exists e l', ThickLens n15 (fz 100) (fz (-50)) (fz 10) ninf = Ok e /\
    flip_lens (leaf_lens e) = Ok l' /\
    radii (surfaces (leaf_lens e)) = [fz 100; fz (-50)] /\
    radii (surfaces l') = [fz 100; fz (-50)].
Proof.
  pose (e := the (ThickLens n15 (fz 100) (fz (-50)) (fz 10) ninf)).
  exists e, (thel (flip_lens (leaf_lens e))). vm_compute. repeat split.
Qed.
Lemma compound_lens_surfaces :
  exists a s b e l', DielectricInterface c1 n15 (fz 100) ninf = Ok a /\ Space (fz 10) n15 ninf = Ok s /\
    DielectricInterface n15 c1 (fz (-50)) ninf = Ok b /\ CompoundLens [a; s; b] ninf = Ok e /\
    flip_lens (leaf_lens e) = Ok l' /\
    radii (surfaces (leaf_lens e)) = [fz 100; fz (-50)] /\
    radii (surfaces l') = [fz 100; fz (-50)].
Proof.
  pose (a := the (DielectricInterface c1 n15 (fz 100) ninf)). pose (s := the (Space (fz 10) n15 ninf)).
  pose (b := the (DielectricInterface n15 c1 (fz (-50)) ninf)).
  pose (e := the (CompoundLens [a; s; b] ninf)).
  exists a, s, b, e, (thel (flip_lens (leaf_lens e))). vm_compute. repeat split.
Qed.
Lemma interface_surfaces :
  exists e l', DielectricInterface c1 n15 (fz 100) ninf = Ok e /\ flip_lens (leaf_lens e) = Ok l' /\
    radii (surfaces (leaf_lens e)) = [fz 100] /\ radii (surfaces l') = [fz 100].
Proof.
  pose (e := the (DielectricInterface c1 n15 (fz 100) ninf)).
  exists e, (thel (flip_lens (leaf_lens e))). vm_compute. repeat split.
Qed.

(** C62: a lens of 20 mm says 4 before it is displayed and 10 afterwards *)
Lemma lens_diameter :
  exists e, Lens (fz 50) (fz 20) = Ok e /\ largestDiameter e = fz 4 /\
    largestDiameter (show_lens e) = fz 10.
Proof. exists (the (Lens (fz 50) (fz 20))). vm_compute. repeat split. Qed.
(** C62: an aperture of 2 mm beside a group without apertures: 8 *)
Lemma nested_diameter :
  exists a inner g, Aperture (fz 2) ninf = Ok a /\ MatrixGroupE [fspace 10] = Ok inner /\
    MatrixGroupE [a; inner] = Ok g /\ largestDiameter g = fz 8.
Proof.
  pose (a := the (Aperture (fz 2) ninf)). pose (i := the (MatrixGroupE [fspace 10])).
  exists a, i, (the (MatrixGroupE [a; i])). vm_compute. repeat split.
Qed.

(** C64: at the threshold a number is neither zero nor not zero *)
Lemma threshold_neither :
  exists v eps : float, isNotZero v eps = false /\ isAlmostZero v eps = false.
Proof. exists (fz 1), (fz 1). vm_compute. repeat split. Qed.

(** C66: the wavelength of the ray is lost in the first element *)
Lemma wavelength_dropped :
  exists (e : @elem float) r w, Space (fz 10) c1 ninf = Ok e /\
    r = mkRay c0 c0 c0 false ninf (Some w) /\ rwl (traceThrough e r) = None.
Proof. exists (fspace 10), (mkRay c0 c0 c0 false ninf (Some (ndec 5 1))), (ndec 5 1). vm_compute. repeat split. Qed.

(** C69: loading the file of an empty group leaves the old matrix *)
Lemma load_empty_stale :
  exists (g1 g2 g : @grp float), MatrixGroup_new [] "" = Ok g1 /\ MatrixGroup_new [fspace 10] "" = Ok g2 /\
    load_st g2 false (gelems g1) = (g, None) /\ gelems g = [] /\
    neqb (mB (gmat g)) (mB (gmat g1)) = false.
Proof.
  pose (g1 := theg (MatrixGroup_new [] "")). pose (g2 := theg (MatrixGroup_new [fspace 10] "")).
  exists g1, g2, (fst (load_st g2 false (gelems g1))). vm_compute. repeat split.
Qed.
(** C69: the diameter of a lens (CompoundLens, 20 mm) is not in the file *)
Lemma load_loses_diameter :
  exists (a s b e : @elem float) m es g0 g,
    DielectricInterface c1 n15 (fz 100) ninf = Ok a /\ Space (fz 10) n15 ninf = Ok s /\
    DielectricInterface n15 c1 (fz (-50)) ninf = Ok b /\
    CompoundLens [a; s; b] (fz 20) = Ok e /\ e = Group GGroup m es /\ mdiam m = fz 20 /\
    MatrixGroup_new [] "" = Ok g0 /\ load_st g0 false es = (g, None) /\ mdiam (gmat g) = ninf.
Proof.
  pose (a := the (DielectricInterface c1 n15 (fz 100) ninf)). pose (s := the (Space (fz 10) n15 ninf)).
  pose (b := the (DielectricInterface n15 c1 (fz (-50)) ninf)).
  pose (e := the (CompoundLens [a; s; b] (fz 20))).
  pose (m := emat e). pose (es := match e with Group _ _ es => es | _ => [] end).
  pose (g0 := theg (MatrixGroup_new [] "")).
  exists a, s, b, e, m, es, g0, (fst (load_st g0 false es)). vm_compute. repeat split.
Qed.

(** *** Histograms *)
(** a query that raised is answered with the previous histogram when it is repeated, and with
    nothing when there is none *)
Lemma failed_query_repeated : exists (l : list (@ray float)) h,
  fst (rayCountHistogram np_histogram (stats_new l) (Some 2%Z) None None) = Ok (Some h) /\
  fst (rayCountHistogram np_histogram (srun np_histogram (stats_new l) [SCount (Some 2%Z) None None]) (Some 0%Z) None None)
    = Err ValueError /\
  fst (rayCountHistogram np_histogram
    (srun np_histogram (stats_new l) [SCount (Some 2%Z) None None; SCount (Some 0%Z) None None]) (Some 0%Z) None None) =
    Ok (Some h) /\
  fst (rayAnglesHistogram np_histogram
    (srun np_histogram (stats_new l) [SAngles (Some 0%Z) None None]) (Some 0%Z) None None) = Ok None.
Proof.
  exists [fr 1 0; fr 2 1; fr 5 2]. eexists.
  split; [vm_compute; reflexivity|]. split; [vm_compute; reflexivity|].
  split; [vm_compute; reflexivity|]. vm_compute; reflexivity.
Qed.
