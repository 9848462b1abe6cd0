(** Property theorems C01-C07, C09-C15, C60.  Each theorem is closed by a lemma proved
    elsewhere; the examples show that its hypotheses can be met. *)
From Coq Require Import Reals Lra List Bool String ZArith Floats Sorted.
From Verif Require Import Base Nums Optics Group Spec MatrixProofs ElementProofs GroupProofs
  TraceProofs RayProofs CardinalProofs StrictProofs FlipProofs ConstructorProofs HistoryProofs
  Samples GroupRefutations TraceRefutations.
Import ListNotations.
Open Scope R_scope.

(** ** C01 *)
(** The product e_n * ... * e_1 of index-matched linear elements never raises, and when no
    aperture stops the ray, product * ray has the height, angle and position obtained by
    multiplying the ray by each element in turn. *)
Theorem C01_product_is_sequential :
  forall e es o os y th z (d : XR) w,
  Forall2 (fun e o => describes (emat e) o) (e :: es) (o :: os) -> chain (o :: os) ->
  Forall linear (e :: es) ->
  let r := fray y th z false d w in
  let out := fold_left (fun r e => times_ray e r) (e :: es) r in
  rblk out = false ->
  exists p, product (emat e) es = Ok p /\
    ry (mul_ray_v KMatrix p r) = ry out /\ rth (mul_ray_v KMatrix p r) = rth out /\
    rz (mul_ray_v KMatrix p r) = rz out /\ rblk (mul_ray_v KMatrix p r) = false.
Proof. exact product_sequential. Qed.
Print Assumptions C01_product_is_sequential.

(** the same for the matrix computed by MatrixGroup.transferMatrix() *)
Theorem C01_transfer_matrix_is_sequential :
  forall e es o os y th z (d : XR) w,
  Forall2 (fun e o => describes (emat e) o) (e :: es) (o :: os) -> chain (o :: os) ->
  Forall linear (e :: es) ->
  let r := fray y th z false d w in
  let out := fold_left (fun r e => times_ray e r) (e :: es) r in
  rblk out = false ->
  exists p, group_transfer (e :: es) PInf = Ok p /\
    (forall gk m, transferMatrix (Group gk m (e :: es)) PInf = Ok (Leaf KMatrix p)) /\
    ry (mul_ray_v KMatrix p r) = ry out /\ rth (mul_ray_v KMatrix p r) = rth out /\
    rz (mul_ray_v KMatrix p r) = rz out /\ rblk (mul_ray_v KMatrix p r) = false.
Proof. exact compose_sequential. Qed.
Print Assumptions C01_transfer_matrix_is_sequential.

Example C01_example :
  Forall2 (fun e o => describes (emat e) o) sample sample_o /\ chain sample_o /\
  Forall linear sample /\
  rblk (fold_left (fun r e => times_ray e r) sample ray1) = false.
Proof.
  split; [exact sample_describes|]. split; [exact sample_chain|]. split; [exact sample_linear|].
  exact sample_times_passes.
Qed.

(** ** C02 *)
Theorem C02_product_associative :
  forall (m1 m2 m3 : @mat XR) o1 o2 o3,
  describes m1 o1 -> describes m2 o2 -> describes m3 o3 -> chain [o1; o2; o3] ->
  exists p, (x <- mul_matrix m3 m2;; mul_matrix x m1) = Ok p /\
            (x <- mul_matrix m2 m1;; mul_matrix m3 x) = Ok p /\
            describes p (ocomp o3 (ocomp o2 o1)).
Proof. exact mul_assoc. Qed.
Print Assumptions C02_product_associative.

Example C02_example :
  let o1 := o_interface 1 (3/2) (Fin 10) in let o2 := o_space 5 (3/2) in
  let o3 := o_interface (3/2) 1 PInf in
  exists m1 m2 m3, describes m1 o1 /\ describes m2 o2 /\ describes m3 o3 /\ chain [o1; o2; o3].
Proof.
  cbn zeta. do 3 eexists. split; [apply (mat_of_describes _ PInf PInf false "")|].
  split; [apply (mat_of_describes _ PInf PInf false "")|].
  split; [apply (mat_of_describes _ PInf PInf false "")|].
  split; [apply p_interface; lra|]. split; [reflexivity|]. split; [apply p_space; lra|].
  split; [reflexivity|]. split; [apply p_interface; lra|exact I].
Qed.

(** ** C03 *)
(** valid parameters are never rejected; the result has the textbook matrix, length,
    vertices and indices, and the determinant law holds for it *)
Theorem C03_constructors :
  (forall f diam, f <> 0 -> positive diam ->
     exists e, Lens (Fin f) diam = Ok e /\ describes (emat e) (o_lens f) /\ physical (o_lens f)) /\
  (forall r diam, r <> 0 -> positive diam ->
     exists e, CurvedMirror (Fin r) diam = Ok e /\ describes (emat e) (o_mirror r) /\ physical (o_mirror r)) /\
  (forall d n diam, n <> 0 -> positive diam ->
     exists e, Space (Fin d) (Fin n) diam = Ok e /\ describes (emat e) (o_space d n) /\
       physical (o_space d n)) /\
  (forall n1 n2 r diam, n1 <> 0 -> n2 <> 0 -> radius_ok r -> positive diam ->
     exists e, DielectricInterface (Fin n1) (Fin n2) r diam = Ok e /\
       describes (emat e) (o_interface n1 n2 r) /\ physical (o_interface n1 n2 r)) /\
  (forall n r1 r2 t diam, n <> 0 -> radius_ok r1 -> radius_ok r2 -> positive diam ->
     exists e, ThickLens (Fin n) r1 r2 (Fin t) diam = Ok e /\
       describes (emat e) (o_thick n r1 r2 t) /\ physical (o_thick n r1 r2 t)) /\
  (forall n t diam, n <> 0 -> positive diam ->
     exists e, DielectricSlab (Fin n) (Fin t) diam = Ok e /\
       describes (emat e) (o_thick n PInf PInf t) /\ physical (o_thick n PInf PInf t)) /\
  (forall diam na, positive diam -> positive na ->
     exists e, Aperture diam na = Ok e /\ describes (emat e) o_aperture /\ physical o_aperture).
Proof. exact constructors_ok. Qed.
Print Assumptions C03_constructors.

(** what [physical] says about the model's own determinant function *)
Theorem C03_determinant :
  forall (m : @mat XR) o, describes m o -> physical o ->
  determinant m = Fin (onf o / onb o) /\ mfi m = Fin (onf o) /\ mbi m = Fin (onb o) /\
  onf o <> 0 /\ onb o <> 0.
Proof. exact physical_law. Qed.
Print Assumptions C03_determinant.

(** products of index-matched elements never raise and keep the law *)
Theorem C03_products :
  forall e es o os,
  Forall2 (fun e o => describes (emat e) o) (e :: es) (o :: os) -> chain (o :: os) ->
  exists p, product (emat e) es = Ok p /\ mfi p = mfi (emat e) /\
    mbi p = mbi (emat (List.last es e)) /\
    exists nf nb, mfi p = Fin nf /\ mbi p = Fin nb /\ nb <> 0 /\ determinant p = Fin (nf / nb).
Proof. exact product_law. Qed.
Print Assumptions C03_products.

Example C03_example : radius_ok (Fin (-20)) /\ radius_ok PInf /\ positive PInf /\ positive (Fin 25) /\
  Forall2 (fun e o => describes (emat e) o) sample sample_o /\ chain sample_o.
Proof.
  split; [cbn; lra|]. split; [exact I|]. split; [exact I|]. split; [cbn; lra|].
  split; [exact sample_describes|exact sample_chain].
Qed.

(** ** C04 *)
Theorem C04_accepts_iff_consistent :
  forall a b c d (l : XR) fv bv fi bi diam na lab,
  (exists m, Matrix_init (Fin a) (Fin b) (Fin c) (Fin d) l fv bv (Fin fi) (Fin bi) diam na lab = Ok m)
  <-> ~ not_positive diam /\ ~ not_positive na /\ bi <> 0 /\
      Rabs (a * d - b * c - fi / bi) <= 1/100000.
Proof. exact Matrix_init_iff. Qed.
Print Assumptions C04_accepts_iff_consistent.

Theorem C04_which_exception :
  forall a b c d (l : XR) fv bv fi bi diam na lab e,
  Matrix_init (Fin a) (Fin b) (Fin c) (Fin d) l fv bv (Fin fi) (Fin bi) diam na lab = Err e ->
  (not_positive diam \/ not_positive na) /\ e = ValueError \/
  (bi = 0 /\ e = ZeroDivisionError) \/
  (bi <> 0 /\ 1/100000 < Rabs (a * d - b * c - fi / bi) /\ e = ValueError).
Proof. exact Matrix_init_error. Qed.
Print Assumptions C04_which_exception.

(** any number type: IEEE doubles, infinities and NaN included *)
Theorem C04_stores_arguments :
  forall T (N : Num T) (a b c d l : T) fv bv fi bi diam na lab m,
  Matrix_init a b c d l fv bv fi bi diam na lab = Ok m ->
  mA m = a /\ mB m = b /\ mC m = c /\ mD m = d /\ mL m = l /\ mfv m = fv /\ mbv m = bv /\
  mfi m = fi /\ mbi m = bi /\ mdiam m = diam /\ mna m = na /\ mflip m = false /\ mlabel m = lab /\
  nleb diam c0 = false /\ nleb na c0 = false /\ neqb bi c0 = false /\
  nltb eps5 (nabs (nsub (determinant m) (ndiv fi bi))) = false.
Proof. exact @Matrix_init_stores. Qed.
Print Assumptions C04_stores_arguments.

Example C04_example :
  (exists m : @mat float, Matrix_init c1 (fz 3) c0 c1 (fz 3) None None c1 c1 ninf ninf "" = Ok m) /\
  @Matrix_init float _ c1 c0 c0 c2 c0 None None c1 c1 ninf ninf "" = Err ValueError /\
  @Matrix_init float _ c1 c0 c0 c2 c0 None None c1 c0 ninf ninf "" = Err ZeroDivisionError.
Proof. split; [eexists|split]; vm_compute; reflexivity. Qed.

(** ** C05 *)
(** Bit-exact for any number type: after any history of successful operations on a group
    that still has elements, its attributes are those of its transfer matrix. *)
Theorem C05_attributes_in_step :
  forall T (N : Num T) (g0 : @grp T) (os : list (@gop T)),
  gelems g0 = [] -> all_succeed g0 os ->
  let g := grun g0 os in
  gelems g <> [] ->
  exists p, group_transfer (gelems g) ninf = Ok p /\
    mA (gmat g) = mA p /\ mB (gmat g) = mB p /\ mC (gmat g) = mC p /\ mD (gmat g) = mD p /\
    mL (gmat g) = mL p /\ mfv (gmat g) = mfv p /\ mbv (gmat g) = mbv p /\
    mfi (gmat g) = mfi p /\ mbi (gmat g) = mbi p.
Proof. exact @history_in_step. Qed.
Print Assumptions C05_attributes_in_step.

Example C05_example :
  exists (g0 : @grp float),
    empty_group = Ok g0 /\
    let os := [OAppend (fspace 10); OAppend (flens 50); OInsert 1 [fspace 3; flens 20]; OPop 0;
               OFlip; OSetItem 0 [fspace 7]] in
    all_succeed g0 os /\ List.length (gelems (grun g0 os)) = 3%nat.
Proof. exists (theg empty_group). vm_compute. repeat split. Qed.

(** Exact arithmetic, failed operations caught and ignored by the user: the attributes are
    those of the ordered product of the elements.  (The indices are those of the ends unless
    the whole product is the identity matrix, in which case the code reports 1.) *)
Theorem C05_attributes_are_product :
  forall (g0 : @grp XR) (ops : list (@gop XR)),
  gelems g0 = [] -> Forall gop_ok ops ->
  let g := grun g0 ops in
  gelems g <> [] ->
  exists o t, let P := path_optic o t in
    Forall2 (fun e x => describes (emat e) x) (gelems g) (o :: t) /\ chain (o :: t) /\
    oM P = mprod (map oM (o :: t)) /\ oL P = total_length (o :: t) /\
    mA (gmat g) = Fin (A_ (oM P)) /\ mB (gmat g) = Fin (B_ (oM P)) /\
    mC (gmat g) = Fin (C_ (oM P)) /\ mD (gmat g) = Fin (D_ (oM P)) /\
    mL (gmat g) = Fin (oL P) /\ mfv (gmat g) = option_map Fin (ofv P) /\
    mbv (gmat g) = option_map Fin (obv P) /\
    (oM P <> mid -> mfi (gmat g) = mfi (emat (hd (grp_elem g) (gelems g))) /\
                    mbi (gmat g) = Fin (onb (List.last t o))).
Proof. exact history_product. Qed.
Print Assumptions C05_attributes_are_product.

Example C05_example_exact :
  gop_ok (OLoad false sample) /\ gop_ok (OAppend (x_lens 50 25)) /\
  gelems (grun (mkGrp m_default []) [OLoad false sample]) = sample.
Proof. exact sample_history. Qed.

(** an emptied group is not the identity *)
Theorem C05_empty_refuted :
  exists (g : @grp float) s,
    empty_group = Ok g /\ Space (fz 10) c1 ninf = Ok s /\
    all_succeed g [OAppend s; OPop 0] /\
    gelems (grun g [OAppend s; OPop 0]) = [] /\
    neqb (mL (gmat g)) c0 = true /\
    neqb (mL (gmat (grun g [OAppend s; OPop 0]))) c0 = false /\
    neqb (mB (gmat (grun g [OAppend s; OPop 0]))) c0 = false.
Proof. exact empty_group_stale. Qed.
Print Assumptions C05_empty_refuted.

(** ** C06 *)
Theorem C06_neighbours_match :
  forall (g0 : @grp XR) (ops : list (@gop XR)),
  gelems g0 = [] -> Forall gop_ok ops ->
  forall pre a b post, gelems (grun g0 ops) = pre ++ a :: b :: post ->
  mbi (emat a) = mfi (emat b).
Proof. exact history_matched. Qed.
Print Assumptions C06_neighbours_match.

Theorem C06_slice_refuted :
  exists (g g' : @grp float) i1 s i2 i3 x,
    DielectricInterface c1 n15 (fz 10) ninf = Ok i1 /\ Space (fz 5) n15 ninf = Ok s /\
    DielectricInterface n15 n13 (fz 10) ninf = Ok i2 /\
    DielectricInterface n13 c1 (fz 10) ninf = Ok i3 /\
    MatrixGroup_new [i1; s; i2; i3] "" = Ok g /\
    gstep g (OSetSlice (Some 2%Z) (Some 3%Z) [i1; i1]) = (g', Some x) /\
    gelems g' = [i1; s; i3] /\ neqb (mbi (emat s)) (mfi (emat i3)) = false.
Proof. exact slice_failure_mismatch. Qed.
Print Assumptions C06_slice_refuted.

(** ** C07 *)
Theorem C07_append_safe :
  forall (g0 : @grp XR) (ops : list (@gop XR)) e o g' x,
  gelems g0 = [] -> Forall gop_ok ops -> lib e o ->
  append_st (grun g0 ops) e = (g', Some x) -> g' = grun g0 ops /\ x = ValueError.
Proof. exact append_safe. Qed.
Print Assumptions C07_append_safe.

Theorem C07_append_mismatch_safe :
  forall T (N : Num T) (g : @grp T) e le,
  last_opt (gelems g) = Some le -> neqb (mbi (emat le)) (mfi (emat e)) = false ->
  isSpace e = false -> append_st g e = (g, Some ValueError).
Proof. exact @append_mismatch_safe. Qed.
Print Assumptions C07_append_mismatch_safe.

Theorem C07_pop_out_of_range_safe :
  forall T (N : Num T) (g : @grp T) i, pyindex (List.length (gelems g)) i = None ->
  pop_st g i = (g, Some IndexError).
Proof. exact @pop_range_safe. Qed.
Print Assumptions C07_pop_out_of_range_safe.

Theorem C07_insert_unbuildable_safe :
  forall T (N : Num T) (g : @grp T) i l x,
  MatrixGroup_new l "" = Err x -> insert_st g i l = (g, Some x).
Proof. exact @insert_bad_safe. Qed.
Print Assumptions C07_insert_unbuildable_safe.

Example C07_example :
  exists i1 : @elem float, DielectricInterface c1 n15 (fz 10) ninf = Ok i1 /\
    MatrixGroup_new [i1; i1] "" = Err ValueError /\ pyindex 2 5 = None /\
    isSpace i1 = false /\ neqb (mbi (emat i1)) (mfi (emat i1)) = false.
Proof. exists (the (DielectricInterface c1 n15 (fz 10) ninf)). vm_compute. repeat split. Qed.

Theorem C07_pop_refuted :
  exists (g g' : @grp float) i1 i2 i3,
    DielectricInterface c1 n15 (fz 10) ninf = Ok i1 /\
    DielectricInterface n15 n13 (fz 10) ninf = Ok i2 /\
    DielectricInterface n13 c1 (fz 10) ninf = Ok i3 /\
    MatrixGroup_new [i1; i2; i3] "" = Ok g /\ gelems g = [i1; i2; i3] /\
    gstep g (OPop 1) = (g', Some ValueError) /\ gelems g' = [i1].
Proof. exact pop_failure_loses. Qed.
Print Assumptions C07_pop_refuted.

Theorem C07_insert_refuted :
  exists (g g' : @grp float) l i1,
    Lens (fz 50) ninf = Ok l /\ DielectricInterface c1 n15 (fz 10) ninf = Ok i1 /\
    MatrixGroup_new [l; l] "" = Ok g /\ gelems g = [l; l] /\
    gstep g (OInsert 1 [i1]) = (g', Some ValueError) /\ gelems g' = [l; i1].
Proof. exact insert_failure_loses. Qed.
Print Assumptions C07_insert_refuted.

(** ** C09 *)
Theorem C09_thick_lens_is_product :
  forall n r1 r2 t diam, n <> 0 -> radius_ok r1 -> radius_ok r2 -> positive diam ->
  exists i1 s i2 e p,
    DielectricInterface (Fin 1) (Fin n) r1 diam = Ok i1 /\ Space (Fin t) (Fin n) PInf = Ok s /\
    DielectricInterface (Fin n) (Fin 1) r2 diam = Ok i2 /\
    ThickLens (Fin n) r1 r2 (Fin t) diam = Ok e /\
    product (emat i1) [s; i2] = Ok p /\
    mA (emat e) = mA p /\ mB (emat e) = mB p /\ mC (emat e) = mC p /\ mD (emat e) = mD p /\
    mL (emat e) = mL p /\ mfv (emat e) = mfv p /\ mbv (emat e) = mbv p /\
    mfi (emat e) = mfi p /\ mbi (emat e) = mbi p.
Proof. exact thick_is_product. Qed.
Print Assumptions C09_thick_lens_is_product.

Theorem C09_singlet_is_thick_lens :
  forall n r1 r2 t diam, n <> 0 -> radius_ok r1 -> radius_ok r2 -> positive diam ->
  exists e s,
    ThickLens (Fin n) r1 r2 (Fin t) diam = Ok e /\ SingletLens r1 r2 (Fin t) (Fin n) diam = Ok s /\
    mA (emat e) = mA (emat s) /\ mB (emat e) = mB (emat s) /\ mC (emat e) = mC (emat s) /\
    mD (emat e) = mD (emat s) /\ mL (emat e) = mL (emat s) /\ mfv (emat e) = mfv (emat s) /\
    mbv (emat e) = mbv (emat s) /\ mdiam (emat e) = mdiam (emat s) /\
    mfi (emat e) = mfi (emat s) /\ mbi (emat e) = mbi (emat s).
Proof. exact singlet_is_thick. Qed.
Print Assumptions C09_singlet_is_thick_lens.

Theorem C09_slab_is_flat_thick_lens :
  forall n t diam, n <> 0 -> positive diam ->
  exists e s, ThickLens (Fin n) PInf PInf (Fin t) diam = Ok e /\
    DielectricSlab (Fin n) (Fin t) diam = Ok s /\ emat e = emat s.
Proof. exact slab_is_flat_thick. Qed.
Print Assumptions C09_slab_is_flat_thick_lens.

Example C09_example : 3/2 <> 0 /\ radius_ok (Fin 100) /\ radius_ok PInf /\ positive (Fin 25).
Proof. repeat split; cbn; lra. Qed.

(** ** C10 *)
Theorem C10_trace_agrees_with_transfer_matrix :
  forall e o y th z b (d : XR) w, built e o -> Forall not_axicon (leaves e) ->
  let r := fray y th z b d w in
  rblk (traceThrough e r) = false ->
  exists t, transferMatrix e PInf = Ok t /\
    ry (traceThrough e r) = ry (mul_ray_new (emat t) r) /\
    rth (traceThrough e r) = rth (mul_ray_new (emat t) r) /\
    rz (traceThrough e r) = rz (mul_ray_new (emat t) r) /\
    rz (traceThrough e r) = Fin (z + oL o) /\ mL (emat e) = Fin (oL o).
Proof. exact trace_agrees. Qed.
Print Assumptions C10_trace_agrees_with_transfer_matrix.

Example C10_example : exists e o, built e o /\ Forall not_axicon (leaves e) /\
  oL o = 70 /\ rblk (traceThrough e ray1) = false.
Proof. exact sample_trace. Qed.

(** ** C11 *)
(** the first entry of a group's trace is the ray object itself *)
Theorem C11_starts_with_the_ray :
  forall T (N : Num T) gk (m : @mat T) es rid h,
  exists t, fst (trace (Group gk m es) rid h) = rid :: t.
Proof. exact @trace_first. Qed.
Print Assumptions C11_starts_with_the_ray.

(** positions are finite, never decrease and stay between the input position and that plus
    the length of the path *)
Theorem C11_positions :
  forall (e : @elem XR) rid h, (rid < List.length h)%nat ->
  zfin (hget h rid) -> Forall nonneg_leaf (leaves e) ->
  z_ok rid h (fst (trace e rid h)) (snd (trace e rid h)) (path_len e).
Proof. exact trace_positions. Qed.
Print Assumptions C11_positions.

Example C11_example : zfin ray1 /\ Forall nonneg_leaf (flat_map leaves sample).
Proof. exact sample_nonneg. Qed.

(** ** C12 *)
Theorem C12_blocked_iff_misses_an_entrance :
  forall T (N : Num T) (e : @elem T) r,
  rblk (traceThrough e r) = true <->
  rblk r = true \/
  exists pre km post, leaves e = pre ++ km :: post /\ misses (snd km) (ideals pre r) = true.
Proof. exact @blocked_iff_trace. Qed.
Print Assumptions C12_blocked_iff_misses_an_entrance.

Theorem C12_exit_refuted :
  exists (e : @elem float) r,
    Space (fz 10) c1 c1 = Ok e /\ r = Ray_new c0 c1 /\
    nltb (ndiv (mdiam (emat e)) c2) (nabs (ry (traceThrough e r))) = true /\
    rblk (traceThrough e r) = false.
Proof. exact exit_not_checked. Qed.
Print Assumptions C12_exit_refuted.

(** ** C13 *)
(** the trace is a run of unblocked rays followed by copies of the final ray *)
Theorem C13_blocked_stays_blocked :
  forall T (N : Num T) (e : @elem T) rid h, (rid < List.length h)%nat ->
  let tr := fst (trace e rid h) in
  let vs := map (hget (snd (trace e rid h))) tr in
  exists pre suf, vs = pre ++ suf /\
    Forall (fun r => rblk r = false) pre /\
    suf <> [] /\ Forall (fun r => r = through e (hget h rid)) suf.
Proof. exact @trace_tail. Qed.
Print Assumptions C13_blocked_stays_blocked.

Theorem C13_blocked_ray_unchanged :
  forall T (N : Num T) (e : @elem T) r, rblk r = true -> Forall not_axicon (leaves e) ->
  traceThrough e r = r.
Proof. exact @blocked_frozen_trace. Qed.
Print Assumptions C13_blocked_ray_unchanged.

Theorem C13_bigger_apertures :
  forall (e e' : @elem XR) r, Forall2 same_but_bigger (leaves e) (leaves e') ->
  rblk (traceThrough e r) = false ->
  rblk (traceThrough e' r) = false /\ ry (traceThrough e' r) = ry (traceThrough e r) /\
  rth (traceThrough e' r) = rth (traceThrough e r) /\ rz (traceThrough e' r) = rz (traceThrough e r).
Proof. exact bigger_apertures_trace. Qed.
Print Assumptions C13_bigger_apertures.

Example C13_example :
  Forall2 same_but_bigger (leaves (x_lens 50 25)) (leaves (x_lens 50 30)) /\
  rblk (@traceThrough float _ (the (Space (fz 10) c1 c1)) (Ray_new (fz 5) c0)) = true.
Proof.
  split; [|vm_compute; reflexivity].
  repeat constructor; cbn; apply Rleb_le; lra.
Qed.

(** ** C14 *)
Theorem C14_convex :
  forall e r1 r2 y1 th1 z1 (d1 : XR) w1 y2 th2 z2 (d2 : XR) w2 t z (d : XR) w,
  Forall finite_leaf (leaves e) -> 0 <= t <= 1 ->
  r1 = fray y1 th1 z1 false d1 w1 -> r2 = fray y2 th2 z2 false d2 w2 ->
  rblk (traceThrough e r1) = false -> rblk (traceThrough e r2) = false ->
  rblk (traceThrough e (fray (t * y1 + (1 - t) * y2) (t * th1 + (1 - t) * th2) z false d w)) = false.
Proof. exact transmitted_convex_trace. Qed.
Print Assumptions C14_convex.

Theorem C14_symmetric :
  forall e y th z (d : XR) w z' (d' : XR) w',
  Forall finite_leaf (leaves e) ->
  rblk (traceThrough e (fray y th z false d w)) = false ->
  rblk (traceThrough e (fray (- y) (- th) z' false d' w')) = false.
Proof. exact transmitted_symmetric_trace. Qed.
Print Assumptions C14_symmetric.

Example C14_example : exists e, Forall finite_leaf (leaves e) /\
  (exists pre m post, leaves e = pre ++ m :: post /\ mdiam (snd m) = Fin 25) /\
  rblk (traceThrough e ray1) = false.
Proof. exact sample_finite. Qed.

(** ** C15 *)
(** of all existing rays only the traced one can change, and only if it gets blocked *)
Theorem C15_other_rays_untouched :
  forall T (N : Num T) (e : @elem T) rid h i,
  (rid < List.length h)%nat -> (i < List.length h)%nat -> i <> rid ->
  hget (snd (trace e rid h)) i = hget h i.
Proof. exact @other_rays. Qed.
Print Assumptions C15_other_rays_untouched.

Theorem C15_unblocked_ray_untouched :
  forall T (N : Num T) (e : @elem T) r,
  let r' := hget (snd (trace e 0 [r])) 0 in rblk r' = false -> r' = r.
Proof. exact @caller_ray. Qed.
Print Assumptions C15_unblocked_ray_untouched.

Theorem C15_refuted :
  exists (e e' : @elem float) r r',
    Space (fz 10) c1 c1 = Ok e /\ Space (fz 10) c1 ninf = Ok e' /\ r = Ray_new (fz 5) c0 /\
    r' = hget (snd (trace e 0 [r])) 0 /\
    rblk r = false /\ rblk r' = true /\
    rblk (traceThrough e' r) = false /\ rblk (traceThrough e' r') = true.
Proof. exact caller_ray_marked. Qed.
Print Assumptions C15_refuted.

(** ** C60 *)
(** [shape] forgets only the index of a Space, which the code adapts to its neighbour *)
Theorem C60_setitem :
  forall T (N : Num T) (g : @grp T) (i : nat) l g',
  (i < List.length (gelems g))%nat -> setitem_st g (Z.of_nat i) l = (g', None) ->
  map shape (gelems g') = map shape (firstn i (gelems g) ++ l ++ skipn (S i) (gelems g)).
Proof. exact @setitem_shape. Qed.
Print Assumptions C60_setitem.

Theorem C60_setslice :
  forall T (N : Num T) (g : @grp T) (a b : nat) l g',
  (a <= b <= List.length (gelems g))%nat ->
  setslice_st g (Some (Z.of_nat a)) (Some (Z.of_nat b)) l = (g', None) ->
  map shape (gelems g') = map shape (firstn a (gelems g) ++ l ++ skipn b (gelems g)).
Proof. exact @setslice_shape. Qed.
Print Assumptions C60_setslice.

Example C60_example :
  exists g g' : @grp float, MatrixGroup_new [fspace 10; flens 50; fspace 10] "" = Ok g /\
    setitem_st g 1 [flens 20; fspace 3] = (g', None) /\ List.length (gelems g') = 4%nat.
Proof.
  exists (theg (MatrixGroup_new [fspace 10; flens 50; fspace 10] "")).
  eexists. split; [vm_compute; reflexivity|]. split; vm_compute; reflexivity.
Qed.

Theorem C60_negative_index_refuted :
  exists (g g' : @grp float) s l,
    Space (fz 10) c1 ninf = Ok s /\ Lens (fz 50) ninf = Ok l /\
    MatrixGroup_new [s; s; s] "" = Ok g /\
    gstep g (OSetItem (-1) [l]) = (g', None) /\
    gelems g' = [s; l; s] /\ [s; l; s] <> firstn 2 (gelems g) ++ [l].
Proof. exact negative_index_misplaced. Qed.
Print Assumptions C60_negative_index_refuted.

Theorem C60_negative_slice_refuted :
  exists (g g' : @grp float) s l,
    Space (fz 10) c1 ninf = Ok s /\ Lens (fz 50) ninf = Ok l /\
    MatrixGroup_new [s; s; s] "" = Ok g /\
    gstep g (OSetSlice (Some (-1)%Z) (Some 3%Z) [l]) = (g', None) /\
    gelems g' = [s; l; s] /\ [s; l; s] <> firstn 2 (gelems g) ++ [l].
Proof. exact negative_slice_misplaced. Qed.
Print Assumptions C60_negative_slice_refuted.
