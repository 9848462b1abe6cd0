(** Property theorems C79-C82 and more of C39: equality, the text of Zemax files, objectives.  Each theorem
    is closed by a lemma proved elsewhere; the examples show that its hypotheses can be met. *)
From Coq Require Import Reals Lra List Bool String ZArith Floats Lia.
From Verif Require Import Base Nums Optics Imaging Spec ElementProofs Materials MaterialsProofs Zemax ZemaxProofs ZemaxRefutations ZemaxRead
  Store EqualProofs EqualRefutations GroupRefutations LagrangeProofs Objectives ObjectiveProofs ObjectiveRefutations Samples Properties6.
Import ListNotations.
Set Warnings "-inexact-float".
Open Scope list_scope.
Open Scope R_scope.

(** ** C39 *)
(** without apertures, or with the aperture stop in front, the invariant is infinite *)
Theorem C39_unlimited : forall fuel (e : @elem XR), hasFiniteApertureDiameter e = false ->
  axialRay e = Ok None /\ principalRay fuel e = Ok None /\ lagrangeInvariant fuel e = Ok PInf.
Proof. exact lagrange_unlimited. Qed.
Print Assumptions C39_unlimited.
Theorem C39_front_stop : forall fuel (e : @elem XR) d a, apertureStop e = Ok (mkStop (Some (Fin 0)) d) ->
  axialRay e = Ok a -> principalRay fuel e = Ok None /\ lagrangeInvariant fuel e = Ok PInf.
Proof. exact lagrange_front_stop. Qed.
Print Assumptions C39_front_stop.
Example C39_unlimited_example : hasFiniteApertureDiameter (x_space 10 1) = false.
Proof. reflexivity. Qed.

(** ** C79 *)
(** [oeq fuel s h i j]: objects i and j compare equal; [tree fuel s i]: the element that object is, with everything
    in it; [trace_values e r]: the rays of e.trace(r) *)
Theorem C79_same_rays : forall fuel (s : @store XR) h i j e e',
  oeq fuel s h i j = Some true -> tree fuel s i = Some e -> tree fuel s j = Some e' ->
  (forall r, trace_values e r = trace_values e' r) /\
  (forall m, emat e = m <-> emat e' = m) /\
  hasFiniteApertureDiameter e = hasFiniteApertureDiameter e' /\
  largestDiameter e = largestDiameter e' /\ displayHalfHeight e = displayHalfHeight e'.
Proof. exact equal_trace. Qed.
Print Assumptions C79_same_rays.
(** of the same classes: the same in every respect *)
Theorem C79_same_classes : forall fuel (s : @store XR) h i j e e',
  oeq fuel s h i j = Some true -> tree fuel s i = Some e -> tree fuel s j = Some e' -> same_classes e e' -> e = e'.
Proof. exact equal_same_classes. Qed.
Print Assumptions C79_same_classes.
Example C79_example : exists e, oeq 2 shared_demo [] 2 3 = Some true /\ tree 2 shared_demo 2 = Some e /\
  tree 2 shared_demo 3 = Some e /\ same_classes e e.
Proof.
  destruct C65_example as (e & T1 & T2 & U1 & U2 & S). exists e.
  split; [exact (C65_equal_partial XR _ 2 shared_demo [] 2 3 e T1 T2 U1 U2 S)|].
  split; [exact T1|]. split; [exact T2|apply same_classes_refl].
Qed.
(** equal elements of different classes differ inside and when turned around *)
Theorem C79_part_refuted : exists p sp,
  mul_matrix (emat (fspace 10)) (emat (fspace 10)) = Ok p /\ Space 5%float 1%float infinity = Ok sp /\
  oeq 1 [OLeaf KMatrix p; leaf_obj (fspace 20)] [] 0 1 = Some true /\
  transferMatrix (Leaf KMatrix p) 5%float = Err TypeError /\
  transferMatrix (fspace 20) 5%float = Ok sp.
Proof. exact equal_part. Qed.
Print Assumptions C79_part_refuted.
Theorem C79_flip_refuted : exists k k' m m' (M : @elem float) a b,
  Matrix_init 1%float 0%float 0.25%float 1%float 0%float (Some 0%float) (Some 0%float) 1%float 1%float infinity infinity "" = Ok m /\
  CurvedMirror 8%float infinity = Ok M /\ M = Leaf k' m' /\ k = KMatrix /\
  oeq 1 [OLeaf k m; OLeaf k' m'] [] 0 1 = Some true /\
  flip (Leaf k m) = Ok a /\ flip M = Ok b /\ PrimFloat.eqb (mC (emat a)) 0.25 = true /\
  PrimFloat.eqb (mC (emat b)) (-0.25) = true.
Proof. exact equal_flipped. Qed.
Print Assumptions C79_flip_refuted.

(** ** C80 *)
(** [num_word n], [num_val n]: a decimal number as written, and its value *)
Theorem C80_number : forall n, good_num n -> @py_float XR _ (num_word n) = Ok (Fin (num_val n)).
Proof. exact float_of_word. Qed.
Print Assumptions C80_number.
Example C80_number_example :
  let n := mkNum Minus [2]%nat (Some [1; 8; 7]%nat) (Some (Minus, [0; 0; 2]%nat)) in
  num_word n = "-2.187E-002"%string /\ good_num n /\ num_val n = -2187 / 100000.
Proof.
  cbv zeta. split; [reflexivity|].
  split.
  - unfold good_num, frac_digits, is_digit. cbn [nw_int nw_frac nw_exp].
    split; [repeat constructor; lia|]. split; [repeat constructor; lia|]. split; [discriminate|].
    split; [repeat constructor; lia|discriminate].
  - unfold num_val, frac_digits, number. cbn [nw_sign nw_int nw_frac nw_exp sgn_val app fold_left List.length].
    change (-1 * (10 * (10 * (10 * (10 * 0 + Z.of_nat 2) + Z.of_nat 1) + Z.of_nat 8) + Z.of_nat 7))%Z with (-2187)%Z.
    change (-1 * (10 * (10 * (10 * 0 + Z.of_nat 0) + Z.of_nat 0) + Z.of_nat 2) - Z.of_nat 3)%Z with (-5)%Z.
    cbn. change (Pos.to_nat 5) with 5%nat. lra.
Qed.
(** [flat_map section l]: the lines of the surfaces, each after its SURF line; [means f b s]: what the lines say in
    units of [f] mm; [named key ls]: the lines with this keyword; [wavelengths_of ls k]: [k] are the wavelengths of
    the WAVM lines without the 0.55 at their end *)
Theorem C80_file_partial : forall hd l u p ul k w ss,
  let ls := hd ++ flat_map section l in
  no_surf hd -> numbered 0 l -> (Z.of_nat (List.length l) < 1000)%Z ->
  named "UNIT" ls = [ul] -> l_par ul = u :: p -> wavelengths_of ls k ->
  nth_error k (Nat.div (List.length k) 2) = Some w ->
  Forall2 (fun x s => means (unit_factor u) (snd x) s) l ss ->
  exists z, ZMXReader_init ls = Ok z /\ z_wavelength z = Fin w /\ surfaces z = Ok ss.
Proof. exact file_read. Qed.
Print Assumptions C80_file_partial.
Example C80_example :
  no_surf inch_head /\ numbered 0 inch_body /\
  named "UNIT" (inch_head ++ flat_map section inch_body) = [words "UNIT" ["IN"; "X"; "W"]%string] /\
  wavelengths_of (inch_head ++ flat_map section inch_body) [4861/10000; 5876/10000; 6563/10000] /\
  Forall2 (fun x s => means (unit_factor "IN") (snd x) s) inch_body inch_surfaces.
Proof.
  split; [unfold no_surf; absent|]. split.
  { cbn [numbered inch_body]. split; [reflexivity|]. split; [unfold no_surf; cbn [snd]; absent|].
    split; [reflexivity|]. split; [unfold no_surf; cbn [snd]; absent|].
    split; [reflexivity|]. split; [unfold no_surf; cbn [snd]; absent|exact I]. }
  split; [vm_compute; reflexivity|]. split; [exact inch_waves|]. rewrite inch_factor. exact inch_means.
Qed.
Theorem C80_centimetres_refuted :
  exists z, read (w_ "UNIT" ["CM"%string] :: tl header ++ object ++ doublet) = Ok z /\
    read (w_ "UNIT" ["MM"%string] :: tl header ++ object ++ doublet) = Ok z.
Proof. exact centimetres. Qed.
Print Assumptions C80_centimetres_refuted.

(** ** C81 *)
(** every ray: what passes the apertures, and where it leaves; turned around, light comes from the sample *)
Theorem C81_rays : forall f na ftf ba wd, f <> 0 -> 0 < na -> 0 < wd -> 0 < ba ->
  exists e e1, Objective (Fin f) (Fin na) (Fin ftf) (Fin ba) (Fin wd) = Ok e /\ flip e = Ok e1 /\
  (forall y th z (dd : XR) w,
     let passes := Rabs (y + wd * th) <= na * wd /\ Rabs (f * th) <= ba / 2 in
     (rblk (traceThrough e1 (fray y th z false dd w)) = false <-> passes) /\
     (passes -> traceThrough e1 (fray y th z false dd w) = fray (f * th) (- y / f) (ftf + z) false (Fin ba) None)) /\
  (forall y th z (dd : XR) w,
     let passes := Rabs y <= ba / 2 /\ Rabs (f * th + y * wd / f) <= na * wd in
     (rblk (traceThrough e (fray y th z false dd w)) = false <-> passes) /\
     (passes -> traceThrough e (fray y th z false dd w) = fray (f * th) (- y / f) (ftf + z) false PInf None)).
Proof. exact objective_rays. Qed.
Print Assumptions C81_rays.
(** the objectives of the catalogue, from their focus; [reached p]: the smaller of NA and the angle to the edge of
    the back aperture *)
Theorem C81_angle : forall name (o : objective XR), In (name, o) objectives ->
  exists p e e1, is_params o p /\ In (name, p) table /\ build o = Ok e /\ flip e = Ok e1 /\
  forall th, rblk (traceThrough e1 (Ray_new (Fin 0) (Fin th))) = false <->
    Rabs th <= Rmin (p_NA p) (p_back p / (2 * p_f p)).
Proof. exact objective_NA. Qed.
Print Assumptions C81_angle.
Theorem C81_NA_partial : forall name (o : objective XR), In (name, o) objectives ->
  ~ In name ["LUMPlanFL40X"; "LWD16X"]%string ->
  exists na e e1, ob_NA o = Fin na /\ build o = Ok e /\ flip e = Ok e1 /\
  forall th, rblk (traceThrough e1 (Ray_new (Fin 0) (Fin th))) = false <-> Rabs th <= na.
Proof. exact objective_NA_reached. Qed.
Print Assumptions C81_NA_partial.
Theorem C81_NA_refuted :
  (exists o e e1 th, In ("LUMPlanFL40X"%string, o) objectives /\ build o = Ok e /\ flip e = Ok e1 /\
    PrimFloat.leb th (ob_NA o) = true /\ rblk (traceThrough e1 (Ray_new 0%float th)) = true) /\
  (exists o e e1 th, In ("LWD16X"%string, o) objectives /\ build o = Ok e /\ flip e = Ok e1 /\
    PrimFloat.leb th (ob_NA o) = true /\ rblk (traceThrough e1 (Ray_new 0%float th)) = true).
Proof. exact (conj (not_reached _ _ na_40x) (not_reached _ _ na_16x)). Qed.
Print Assumptions C81_NA_refuted.
Example C81_example : List.length (@objectives XR _) = 6%nat /\
  from_sample "XLUMPlanFLN20X" 1%float = Some (true, false) /\ from_sample "XLUMPlanFLN20X" 1.01%float = Some (false, true).
Proof. split; [reflexivity|]. vm_compute. auto. Qed.

(** ** C82 *)
Theorem C82_invariant : forall (o : objective XR) p v, is_params o p -> sane p -> maximumOpticalInvariant o = Ok v ->
  exists m fn, p_mag p = Some m /\ p_field p = Some fn /\ m <> 0 /\ v = Fin (fn / 2 / m * p_NA p) /\
  exists e e1, build o = Ok e /\ flip e = Ok e1 /\
  forall th y ph, rblk (traceThrough e1 (Ray_new (Fin 0) (Fin th))) = false -> Rabs y <= fn / 2 / m ->
    exists i, opticalInvariant e1 (Ray_new (Fin 0) (Fin th)) (Ray_new (Fin y) (Fin ph)) (Fin 0) = Ok (Fin i) /\
      Rabs i <= fn / 2 / m * p_NA p.
Proof. exact invariant_bound. Qed.
Print Assumptions C82_invariant.
Theorem C82_undefined : forall (o : objective XR), ob_mag o = None \/ ob_field o = None ->
  maximumOpticalInvariant o = Err AttributeError.
Proof. intros o [E|E]; unfold maximumOpticalInvariant; rewrite E; [|destruct (ob_mag o)]; reflexivity. Qed.
Print Assumptions C82_undefined.
Example C82_example : exists p o, In ("XLPLN25X"%string, p) table /\ In ("XLPLN25X"%string, o) objectives /\
  is_params o p /\ sane p /\ exists v, maximumOpticalInvariant o = Ok v.
Proof.
  assert (exists o : objective XR, In ("XLPLN25X"%string, o) objectives) as (o & Ho).
  { eexists. unfold objectives. right. right. right. right. left. reflexivity. }
  destruct (objectives_in _ _ Ho) as (p & Hp & E & S). exists p, o. do 4 (split; [assumption|]).
  rewrite E. unfold table in Hp.
  repeat (destruct Hp as [Hp|Hp]; [try discriminate Hp|]); try contradiction. injection Hp as <-.
  unfold maximumOpticalInvariant, pdiv. cbn. rewrite Reqb_neq by lra. eexists. reflexivity.
Qed.
