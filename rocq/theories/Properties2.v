(** Property theorems C08, C20-C31.  Each theorem is closed by a lemma proved elsewhere; the
    examples show that its hypotheses can be met. *)
From Coq Require Import Reals Lra List Bool String ZArith Floats.
From Verif Require Import Base Nums Optics Group Objective Spec MatrixProofs ElementProofs GroupProofs
  TraceProofs RayProofs CardinalProofs StrictProofs FlipProofs TransferProofs CardinalMore
  Samples Samples2 GroupRefutations CardinalRefutations.
Import ListNotations.
Open Scope list_scope.
Open Scope R_scope.

(** ** C08 *)
(** [ps] lists, for each element met, its optics and what is left of it when it is cut.  The
    transfer matrix up to [z] never raises, is the product of the pieces of [cut_path ps z],
    has the length min(z, L) and is the whole matrix from z = L on. *)
Theorem C08_transfer_up_to :
  forall e o ps z, canon e o -> Forall2 is_piece (leaves e) ps -> 0 <= z ->
  let P := pl (onf o) (cut_path ps z) in
  exists t, transferMatrix e (Fin z) = Ok t /\
    ((exists k m, e = Leaf k m /\ t = Leaf k m) \/ open_matrix t) /\ tracks (emat t) P /\
    physical P /\
    mA (emat t) = Fin (A_ (oM P)) /\ mB (emat t) = Fin (B_ (oM P)) /\
    mC (emat t) = Fin (C_ (oM P)) /\ mD (emat t) = Fin (D_ (oM P)) /\
    oM P = mprod (map oM (cut_path ps z)) /\
    mL (emat t) = Fin (Rmin z (oL o)) /\ oL P = Rmin z (oL o) /\
    (oL o <= z -> P = o).
Proof. exact transfer_upto. Qed.
Print Assumptions C08_transfer_up_to.

Example C08_example : exists e, canon e sample_optic /\
  Forall2 is_piece (leaves e) sample_pieces /\ Forall not_axicon (leaves e) /\
  (exists gk m es, e = Group gk m es) /\
  cut_path sample_pieces 12 =
    [o_space 10 1; ocomp (o_space (12 - 10) (3/2)) (o_interface 1 (3/2) (Fin 100))].
Proof. exact sample_cut. Qed.

(** outside the property: the black box of an Objective cannot be cut *)
Theorem C08_objective_raises :
  exists (e : @elem float),
    Objective (fz 9) (ndec 8 1) (fz 75) (fz 18) (fz 3) = Ok e /\
    transferMatrix e (fz 20) = Err TypeError.
Proof. exact objective_cannot_be_cut. Qed.
Print Assumptions C08_objective_raises.

(** ** C20 *)
Theorem C20_invariant_conserved :
  forall e o ps z y1 th1 z1 (d1 : XR) w1 y2 th2 z2 (d2 : XR) w2,
  canon e o -> Forall2 is_piece (leaves e) ps -> Forall not_axicon (leaves e) -> 0 <= z ->
  onf o = 1 \/ oM (pl (onf o) (cut_path ps z)) <> mid ->
  clears e (fray y1 th1 z1 false d1 w1) -> clears e (fray y2 th2 z2 false d2 w2) ->
  opticalInvariant e (fray y1 th1 z1 false d1 w1) (fray y2 th2 z2 false d2 w2) (Fin z) =
    Ok (Fin (onf o * (th1 * y2 - y1 * th2))).
Proof. exact invariant_conserved. Qed.
Print Assumptions C20_invariant_conserved.

Example C20_example : exists e,
  canon e sample_optic /\ Forall2 is_piece (leaves e) sample_pieces /\
  Forall not_axicon (leaves e) /\ onf sample_optic = 1 /\
  clears e (fray 1 (1/10) 0 false PInf None) /\ clears e (fray 2 0 0 false PInf None).
Proof.
  destruct sample_cut as (e & H1 & H2 & H3 & (gk & m & es & ->) & _).
  exists (Group gk m es). split; [exact H1|]. split; [exact H2|]. split; [exact H3|].
  repeat split.
Qed.

Theorem C20_glass_refuted :
  exists (s e : @elem float) r1 r2 i0 i10,
    Space (fz 10) n15 ninf = Ok s /\ MatrixGroupE [s] = Ok e /\
    r1 = Ray_new c0 c1 /\ r2 = Ray_new c1 c0 /\
    opticalInvariant e r1 r2 c0 = Ok i0 /\ opticalInvariant e r1 r2 (fz 10) = Ok i10 /\
    i0 = c1 /\ i10 = n15.
Proof. exact invariant_jumps. Qed.
Print Assumptions C20_glass_refuted.

Theorem C20_clipped_refuted :
  exists (e : @elem float) r1 r2 i,
    Space (fz 10) c1 (fz 3) = Ok e /\ r1 = Ray_new c1 c1 /\ r2 = Ray_new (fz 2) c1 /\
    opticalInvariant e r1 r2 (fz 10) = Ok i /\
    neqb i (nmul c1 (nsub (nmul (rth r1) (ry r2)) (nmul (ry r1) (rth r2)))) = false.
Proof. exact invariant_clipped. Qed.
Print Assumptions C20_clipped_refuted.

(** ** C21 *)
Theorem C21_focal_points :
  forall m o z, describes m o -> physical o -> power o ->
  exists f1 f2, focusPositions m (Fin z) = Ok (Some (Fin f1, Fin f2)) /\
    (forall y, fst (mapp (mmul (free (f2 - (z + oL o))) (oM o)) (y, 0)) = 0) /\
    (forall th, snd (mapp (mmul (oM o) (free (z - f1))) (0, th)) = 0).
Proof. exact focus_spec. Qed.
Print Assumptions C21_focal_points.

Theorem C21_no_power_no_focus :
  forall m o z, describes m o -> ~ power o -> focusPositions m (Fin z) = Ok None.
Proof. exact focus_none. Qed.
Print Assumptions C21_no_power_no_focus.

Example C21_example : physical sample_optic /\ power sample_optic /\ ~ power (o_space 10 1).
Proof.
  split; [|split].
  - destruct sample_mirror as (e & H & _). eapply canon_physical; eauto.
  - exact sample_power.
  - unfold power. cbn. rewrite Rabs_R0. lra.
Qed.

(** ** C22 *)
Theorem C22_principal_planes :
  forall m o z, describes m o -> physical o -> power o ->
  exists p1 p2 f1 f2 F1 F2,
    principalPlanePositions m (Fin z) = Ok (Some (Fin p1, Fin p2)) /\
    effectiveFocalLengths m = Ok (Fin f1, Fin f2) /\
    focusPositions m (Fin z) = Ok (Some (Fin F1, Fin F2)) /\
    mmul (free (p2 - (z + oL o))) (mmul (oM o) (free (z - p1)))
      = mk2 1 0 (-1 / f2) (onf o / onb o) /\
    F1 = p1 - f1 /\ F2 = p2 + f2 /\ onb o * f1 = onf o * f2.
Proof. exact principal_spec. Qed.
Print Assumptions C22_principal_planes.

Example C22_example : let o := o_interface 1 (3/2) (Fin 10) in
  physical o /\ power o /\ onf o <> onb o.
Proof.
  split; [apply p_interface; lra|]. split; [|cbn; lra].
  unfold power. cbn. unfold Rabs. destruct (Rcase_abs _); lra.
Qed.

(** ** C23 *)
Theorem C23_focal_lengths_from_vertices :
  forall m o vf vb, describes m o -> physical o -> power o ->
  ofv o = Some vf -> obv o = Some vb ->
  exists ffl bfl, frontFocalLength m = Ok (Some (Fin ffl)) /\
    backFocalLength m = Ok (Some (Fin bfl)) /\
    focusPositions m (Fin 0) = Ok (Some (Fin (vf - ffl), Fin (vb + bfl))) /\
    (forall y, fst (mapp (mmul (free (vb + bfl - oL o)) (oM o)) (y, 0)) = 0) /\
    (forall th, snd (mapp (mmul (oM o) (free (ffl - vf))) (0, th)) = 0).
Proof. exact focal_lengths_spec. Qed.
Print Assumptions C23_focal_lengths_from_vertices.

(** elements whose vertices a flip does not move exchange their focal lengths *)
Theorem C23_flip_exchanges :
  forall e o vf vb, canon e o -> Forall mirror_ok (leaves e) -> all_vsym e ->
  onf o = onb o -> power o -> ofv o = Some vf -> obv o = Some vb ->
  exists e', flip e = Ok e' /\
    frontFocalLength (emat e') = backFocalLength (emat e) /\
    backFocalLength (emat e') = frontFocalLength (emat e).
Proof.
  exact flip_exchanges.
Qed.
Print Assumptions C23_flip_exchanges.

(** a singlet: its interfaces have coincident vertices and its glass has none *)
Example C23_example : exists e o vf vb, canon e o /\ Forall mirror_ok (leaves e) /\ all_vsym e /\
  onf o = onb o /\ power o /\ ofv o = Some vf /\ obv o = Some vb.
Proof. exact singlet_exchanges. Qed.

Theorem C23_thick_lens_refuted :
  exists (e e' : @elem float) ffl bfl',
    ThickLens n15 (fz 100) (fz (-100)) (fz 10) ninf = Ok e /\ flip e = Ok e' /\
    mfv (emat e') = Some (fz 10) /\ mbv (emat e') = Some c0 /\
    frontFocalLength (emat e) = Ok (Some ffl) /\ backFocalLength (emat e') = Ok (Some bfl') /\
    nltb (nadd ffl c1) bfl' = true.
Proof. exact thick_lens_vertices. Qed.
Print Assumptions C23_thick_lens_refuted.

(** ** C24 *)
Theorem C24_forward_conjugate :
  forall m o, describes m o -> physical o -> D_ (oM o) <> 0 ->
  exists d c oc, forwardConjugate m = Ok (Fin d, Some c) /\ describes c oc /\
    B_ (oM oc) = 0 /\ oL oc = oL o + d /\ onf oc = onf o /\ onb oc = onb o /\
    oM oc = mmul (free d) (oM o) /\
    (forall y th, fst (mapp (mmul (free d) (oM o)) (y, th)) = A_ (oM oc) * y).
Proof. exact forward_spec. Qed.
Print Assumptions C24_forward_conjugate.

Theorem C24_no_image :
  forall m o, describes m o -> physical o -> D_ (oM o) = 0 ->
  forwardConjugate m = Ok (PInf, None) /\ forall d, B_ (mmul (free d) (oM o)) <> 0.
Proof. exact forward_none. Qed.
Print Assumptions C24_no_image.

Example C24_example : physical sample_optic /\ D_ (oM sample_optic) <> 0 /\
  physical (path_optic (o_space 5 1) [o_lens 5]) /\ D_ (oM (path_optic (o_space 5 1) [o_lens 5])) = 0.
Proof.
  split. { destruct sample_mirror as (e & H & _). eapply canon_physical; eauto. }
  split; [cbn; lra|]. split; [|cbn; lra].
  apply physical_path. split; [apply p_space; lra|]. split; [reflexivity|]. split; [apply p_lens|exact I].
Qed.

(** ** C25 *)
Theorem C25_backward_conjugate :
  forall m o, describes m o -> physical o -> onf o = 1 -> A_ (oM o) <> 0 ->
  exists d c oc, backwardConjugate m = Ok (Fin d, c) /\ describes c oc /\
    B_ (oM oc) = 0 /\ oL oc = d + oL o /\ onf oc = onf o /\ onb oc = onb o /\
    oM oc = mmul (oM o) (free d) /\
    (forall y th, fst (mapp (mmul (oM o) (free d)) (y, th)) = A_ (oM oc) * y).
Proof. exact backward_spec. Qed.
Print Assumptions C25_backward_conjugate.

Example C25_example : onf sample_optic = 1 /\ A_ (oM sample_optic) <> 0.
Proof. split; [reflexivity|cbn; lra]. Qed.

Theorem C25_glass_refuted :
  exists (e : @elem float),
    Space (fz 10) n15 ninf = Ok e /\
    neqb (mA (emat e)) c0 = false /\ backwardConjugate (emat e) = Err ValueError.
Proof. exact backward_in_glass. Qed.
Print Assumptions C25_glass_refuted.

(** ** C26 *)
Theorem C26_intermediate_conjugates :
  forall e os, Forall2 (fun (x : @elem XR) o => describes (emat x) o) (transferMatrices e) os ->
  chain os -> os <> [] ->
  exists ps, intermediateConjugates e = Ok (map fin2 ps) /\
    (forall p, In p ps -> exists pre post, pre <> [] /\ os = pre ++ post /\ fst p <> 0 /\
                           image_after pre (fst p) (snd p)) /\
    ForallOrdPairs (fun p q => ~ near p q) ps /\
    (forall pre post pos mag, os = pre ++ post -> pre <> [] -> pos <> 0 ->
       image_after pre pos mag -> exists q, In q ps /\ (q = (pos, mag) \/ near q (pos, mag))).
Proof. exact conjugates_spec. Qed.
Print Assumptions C26_intermediate_conjugates.

Example C26_example : exists (e : @elem XR) os,
  Forall2 (fun (x : @elem XR) o => describes (emat x) o) (transferMatrices e) os /\
  chain os /\ os <> [] /\
  image_after [o_space 10 1; o_lens 5] 20 (-1) /\ os = [o_space 10 1; o_lens 5; o_space 30 1].
Proof. exact sample_flat. Qed.

(** ** C27 *)
Theorem C27_flip_twice :
  forall e o, canon e o -> Forall mirror_ok (leaves e) ->
  exists e', flip e = Ok e' /\ flip e' = Ok e.
Proof. exact flip_twice. Qed.
Print Assumptions C27_flip_twice.

(** any single element of the library, mirrors and generic matrices included *)
Theorem C27_flip_twice_single :
  forall k (m : @mat XR) o, describes m o -> physical o -> leaf_spec k o ->
  exists e', flip (Leaf k m) = Ok e' /\ flip e' = Ok (Leaf k m).
Proof. exact flip_twice_leaf. Qed.
Print Assumptions C27_flip_twice_single.

(** groups without nested groups, whatever their elements *)
Theorem C27_flip_twice_flat :
  forall e o, canon e o -> flat e -> exists e', flip e = Ok e' /\ flip e' = Ok e.
Proof. exact flip_twice_flat. Qed.
Print Assumptions C27_flip_twice_flat.

Example C27_example : exists e, canon e sample_optic /\ Forall mirror_ok (leaves e).
Proof. exact sample_mirror. Qed.

Theorem C27_nested_refuted :
  exists (e1 e2 e3 s inner middle outer : @elem float),
    gm 1 1 0 1 = Ok e1 /\ gm 1 0 1 1 = Ok e2 /\ gm 1 (-1) (-1) 2 = Ok e3 /\
    Space (fz 10) n15 ninf = Ok s /\
    MatrixGroupE [e1; e2; e3] = Ok inner /\ MatrixGroupE [inner] = Ok middle /\
    MatrixGroupE [middle; s] = Ok outer /\
    flip outer = Err ValueError.
Proof. exact flip_raises. Qed.
Print Assumptions C27_nested_refuted.

(** ** C28 *)
Theorem C28_flip_is_backwards :
  forall e o, canon e o -> Forall mirror_ok (leaves e) ->
  exists e' o', flip e = Ok e' /\ describes (emat e') o' /\ oL o' = oL o /\
    onf o' = onb o /\ onb o' = onf o /\
    forall y th, let out := mapp (oM o) (y, th) in
      mapp (oM o') (fst out, - snd out) = (y, - th).
Proof. exact flip_backwards. Qed.
Print Assumptions C28_flip_is_backwards.

Example C28_example : exists e, canon e sample_optic /\ Forall mirror_ok (leaves e) /\
  A_ (oM sample_optic) <> D_ (oM sample_optic).
Proof.
  destruct sample_mirror as (e & H1 & H2). exists e. repeat split; auto. cbn; lra.
Qed.

Theorem C28_matrix_refuted :
  exists (e e' : @elem float) r out back,
    MatrixE (fz 2) c0 c0 (ndec 5 1) c0 None None c1 c1 = Ok e /\ flip e = Ok e' /\
    r = Ray_new c1 c0 /\ out = traceThrough e r /\
    back = traceThrough e' (Ray_new (ry out) (nopp (rth out))) /\
    neqb (ry back) (ry r) = false.
Proof. exact matrix_flip_wrong. Qed.
Print Assumptions C28_matrix_refuted.

Theorem C28_mirror_refuted :
  exists (e e' : @elem float) r out back,
    CurvedMirror (fz 10) ninf = Ok e /\ flip e = Ok e' /\
    r = Ray_new c1 c0 /\ out = traceThrough e r /\
    back = traceThrough e' (Ray_new (ry out) (nopp (rth out))) /\
    neqb (rth back) (nopp (rth r)) = false.
Proof. exact mirror_flip_wrong. Qed.
Print Assumptions C28_mirror_refuted.

(** ** C29 *)
Theorem C29_to_focus :
  forall e o, canon e o -> power o -> obv o = Some (oL o) ->
  exists s, ToFocus (emat e) = Ok s /\
  exists g, MatrixGroupE [e; s] = Ok g /\
  exists og, describes (emat g) og /\ A_ (oM og) = 0 /\ C_ (oM og) = C_ (oM o) /\
    oM og = mmul (free (- A_ (oM o) / C_ (oM o))) (oM o) /\
    onf og = onf o /\ onb og = onb o /\ oL og = oL o - A_ (oM o) / C_ (oM o) /\
    (forall y, fst (mapp (oM og) (y, 0)) = 0).
Proof. exact to_focus. Qed.
Print Assumptions C29_to_focus.

Theorem C29_from_focus_to_focus :
  forall e o, canon e o -> power o -> onf o = 1 ->
  ofv o = Some 0 -> obv o = Some (oL o) ->
  exists g, fromFocusToFocus e = Ok g /\
  exists og, describes (emat g) og /\
    oM og = mk2 0 (-1 / (onb o * C_ (oM o))) (C_ (oM o)) 0 /\ onf og = 1 /\ onb og = onb o /\
    oL og = oL o - A_ (oM o) / C_ (oM o) - D_ (oM o) / C_ (oM o).
Proof. exact focus_to_focus. Qed.
Print Assumptions C29_from_focus_to_focus.

Example C29_example : let o := o_thick (3/2) (Fin 100) (Fin (-100)) 5 in
  canon (x_thick (3/2) 100 (-100) 5) o /\ power o /\ onf o = 1 /\ ofv o = Some 0 /\ obv o = Some (oL o).
Proof. exact thick_focus. Qed.

Theorem C29_vertex_refuted :
  exists (e s g : @elem float) l sp,
    Space (fz 10) c1 ninf = Ok sp /\ Lens (fz 50) ninf = Ok l /\
    MatrixGroupE [sp; l; sp] = Ok e /\ hasPower (emat e) = true /\
    ToFocus (emat e) = Ok s /\ MatrixGroupE [e; s] = Ok g /\
    nltb (ndec 1 1) (nabs (mA (emat g))) = true.
Proof. exact to_focus_misses. Qed.
Print Assumptions C29_vertex_refuted.

Theorem C29_from_vertex_refuted :
  exists (e g : @elem float) l sp,
    Space (fz 10) c1 ninf = Ok sp /\ Lens (fz 50) ninf = Ok l /\
    MatrixGroupE [sp; l; sp] = Ok e /\ hasPower (emat e) = true /\
    fromFocusToFocus e = Ok g /\
    nltb (ndec 1 1) (nabs (mA (emat g))) = true.
Proof. exact focus_to_focus_misses. Qed.
Print Assumptions C29_from_vertex_refuted.

Theorem C29_glass_refuted :
  exists (e e' : @elem float),
    DielectricInterface n15 c1 (fz 10) ninf = Ok e /\ fromFocusToFocus e = Err ValueError /\
    MatrixE c1 c0 (ndec (-2) 2) c1 c0 None None c1 c1 = Ok e' /\ hasPower (emat e') = true /\
    fromFocusToFocus e' = Err TypeError.
Proof. exact focus_to_focus_raises. Qed.
Print Assumptions C29_glass_refuted.

(** ** C30 *)
Theorem C30_system2f :
  forall f diam, f <> 0 -> positive diam ->
  exists e, System2f (Fin f) diam = Ok e /\
    describes (emat e) (mkO (mk2 0 f (-1 / f) 0) (2 * f) 1 1 (Some f) (Some f)).
Proof. exact System2f_ok. Qed.
Print Assumptions C30_system2f.

Theorem C30_system4f :
  forall f1 f2 diam1 diam2, f1 <> 0 -> f2 <> 0 -> positive diam1 -> positive diam2 ->
  exists e, System4f (Fin f1) (Fin f2) diam1 diam2 = Ok e /\
    describes (emat e) (mkO (mk2 (- f2 / f1) 0 0 (- f1 / f2)) (2 * (f1 + f2)) 1 1
                            (Some f1) (Some (2 * f1 + f2))).
Proof. exact System4f_ok. Qed.
Print Assumptions C30_system4f.

Theorem C30_zero_raises :
  forall f1 f2 diam1 (diam2 : XR), positive diam1 -> f1 = 0 \/ f2 = 0 ->
  @System2f XR _ (Fin 0) diam2 = Err ZeroDivisionError /\
  @System4f XR _ (Fin f1) (Fin f2) diam1 diam2 = Err ZeroDivisionError.
Proof. intros. split; [apply System2f_zero|now apply System4f_zero]. Qed.
Print Assumptions C30_zero_raises.

Example C30_example : 50 <> 0 /\ -20 <> 0 /\ positive (Fin 25) /\ positive PInf.
Proof. repeat split; cbn; lra. Qed.

(** ** C31 *)
Theorem C31_objective :
  forall f na ftf ba wd, f <> 0 -> 0 < na * wd -> 0 < ba ->
  exists e e1, Objective (Fin f) (Fin na) (Fin ftf) (Fin ba) (Fin wd) = Ok e /\
    describes (emat e) (mkO (mk2 0 f (-1 / f) 0) ftf 1 1 (Some 0) (Some (ftf - wd))) /\
    mdiam (emat e) = Fin ba /\ mflip (emat e) = false /\
    flip e = Ok e1 /\
    describes (emat e1) (mkO (mk2 0 f (-1 / f) 0) ftf 1 1 (Some wd) (Some ftf)) /\
    mflip (emat e1) = true /\
    flip e1 = Ok e.
Proof. exact objective_ok. Qed.
Print Assumptions C31_objective.

Example C31_example : 9 <> 0 /\ 0 < 8/10 * 3 /\ 0 < 18.
Proof. repeat split; lra. Qed.

Theorem C31_magnification_refuted :
  exists (e : @elem float),
    Objective (fz 9) (ndec 8 1) (fz 75) (fz 18) (fz 3) = Ok e /\
    call_magnification e = Err TypeError.
Proof. exact magnification_raises. Qed.
Print Assumptions C31_magnification_refuted.

Theorem C31_magnification_never_callable :
  forall (f na ftf ba wd : float) e,
  Objective f na ftf ba wd = Ok e -> call_magnification e = Err TypeError.
Proof. exact magnification_hidden. Qed.
Print Assumptions C31_magnification_never_callable.
