(** Focal points, principal planes, focal lengths, conjugates, and the systems built
    from them, over exact numbers. *)
From Coq Require Import ZArith Reals Lra Lia List Bool String Psatz.
From Verif Require Import Base Nums Optics Group Spec MatrixProofs ElementProofs GroupProofs
  TraceProofs RayProofs.
Import ListNotations.
Open Scope R_scope.

Definition power (o : optic) : Prop := 1/100000 < Rabs (C_ (oM o)).

Lemma hasPower_iff m o : describes m o -> hasPower m = true <-> power o.
Proof.
  intros D. unfold hasPower, isNotZero, power. rewrite eps5_val. dsc D. cbn. apply Rltb_true.
Qed.

Lemma power_C o : power o -> C_ (oM o) <> 0.
Proof. unfold power. intros H E. rewrite E, Rabs_R0 in H. lra. Qed.

Lemma focal_ok m o : describes m o -> physical o -> power o ->
  effectiveFocalLengths m =
    Ok (Fin (- (onf o / onb o) / C_ (oM o)), Fin (-1 / C_ (oM o))).
Proof.
  intros D P H. pose proof (power_C _ H). destruct P as (P1 & P2 & _).
  unfold effectiveFocalLengths. apply (hasPower_iff _ _ D) in H. rewrite H.
  dsc D. unfold c1. cbn [nofZ nopp NumXR xopp].
  rewrite pdiv_fin by auto. cbn [bind]. rewrite pdiv_fin by auto. cbn [bind nopp NumXR xopp].
  rewrite pdiv_fin by auto. reflexivity.
Qed.

Lemma principal_ok m o z : describes m o -> physical o -> power o ->
  principalPlanePositions m (Fin z) =
    Ok (Some (Fin (z - (onf o / onb o - D_ (oM o)) / C_ (oM o)),
              Fin (z + oL o + (1 - A_ (oM o)) / C_ (oM o)))).
Proof.
  intros D P H. pose proof (power_C _ H). destruct P as (P1 & P2 & _).
  unfold principalPlanePositions. apply (hasPower_iff _ _ D) in H. rewrite H.
  dsc D. unfold c1. cbn [nofZ nsub nadd NumXR xsub xadd xopp].
  rewrite pdiv_fin by auto. cbn [bind nsub nadd NumXR xsub xadd xopp].
  rewrite pdiv_fin by auto. cbn [bind nsub nadd NumXR xsub xadd xopp].
  rewrite pdiv_fin by auto. reflexivity.
Qed.

Lemma focus_ok m o z : describes m o -> physical o -> power o ->
  focusPositions m (Fin z) =
    Ok (Some (Fin (z + D_ (oM o) / C_ (oM o)), Fin (z + oL o - A_ (oM o) / C_ (oM o)))).
Proof.
  intros D P H. pose proof (power_C _ H). unfold focusPositions.
  rewrite (focal_ok _ _ D P H), (principal_ok _ _ z D P H).
  apply (hasPower_iff _ _ D) in H. rewrite H.
  cbn [bind fst snd nsub nadd NumXR xsub xadd xopp].
  do 4 f_equal; field; destruct P as (P1 & P2 & _); auto.
Qed.

(** C21 *)
Lemma focus_spec m o z : describes m o -> physical o -> power o ->
  exists f1 f2, focusPositions m (Fin z) = Ok (Some (Fin f1, Fin f2)) /\
    (forall y, fst (mapp (mmul (free (f2 - (z + oL o))) (oM o)) (y, 0)) = 0) /\
    (forall th, snd (mapp (mmul (oM o) (free (z - f1))) (0, th)) = 0).
Proof.
  intros D P H. pose proof (power_C _ H). do 2 eexists; split; [apply (focus_ok m o z); assumption|].
  split; intros; cbn; field; auto.
Qed.

(** elements without power have no focus *)
Lemma focus_none m o z : describes m o -> ~ power o -> focusPositions m (Fin z) = Ok None.
Proof.
  intros D H. unfold focusPositions. rewrite <- (hasPower_iff _ _ D) in H.
  destruct (hasPower m); congruence.
Qed.

(** C22 *)
Lemma principal_spec m o z : describes m o -> physical o -> power o ->
  exists p1 p2 f1 f2 F1 F2,
    principalPlanePositions m (Fin z) = Ok (Some (Fin p1, Fin p2)) /\
    effectiveFocalLengths m = Ok (Fin f1, Fin f2) /\
    focusPositions m (Fin z) = Ok (Some (Fin F1, Fin F2)) /\
    mmul (free (p2 - (z + oL o))) (mmul (oM o) (free (z - p1)))
      = mk2 1 0 (-1 / f2) (onf o / onb o) /\
    F1 = p1 - f1 /\ F2 = p2 + f2 /\ onb o * f1 = onf o * f2.
Proof.
  intros D P H. pose proof (power_C _ H) as HC. pose proof P as (P1 & P2 & P3).
  do 6 eexists. split; [apply (principal_ok m o z); assumption|]. split; [apply (focal_ok m o); assumption|].
  split; [apply (focus_ok m o z); assumption|].
  repeat split.
  - apply M2_eq; cbn.
    + field; auto.
    + rewrite <- P3. unfold mdet. field; auto.
    + field; auto.
    + field; auto.
  - field; auto.
  - field; auto.
  - field; auto.
Qed.

(** C23 *)
Lemma bfl_ok m o v : describes m o -> physical o -> power o -> obv o = Some v ->
  backFocalLength m = Ok (Some (Fin (oL o - A_ (oM o) / C_ (oM o) - v))).
Proof.
  intros D P H V. pose proof (power_C _ H). unfold backFocalLength.
  change (@c0 XR _) with (Fin 0).
  rewrite (focal_ok _ _ D P H), (principal_ok _ _ 0 D P H), (d_bv _ _ D), V. cbn [option_map].
  apply (hasPower_iff _ _ D) in H. rewrite H.
  cbn [bind fst snd nsub nadd NumXR xsub xadd xopp].
  do 3 f_equal; field; auto.
Qed.
Lemma ffl_ok m o v : describes m o -> physical o -> power o -> ofv o = Some v ->
  frontFocalLength m = Ok (Some (Fin (v - D_ (oM o) / C_ (oM o)))).
Proof.
  intros D P H V. pose proof (power_C _ H). unfold frontFocalLength.
  change (@c0 XR _) with (Fin 0).
  rewrite (focal_ok _ _ D P H), (principal_ok _ _ 0 D P H), (d_fv _ _ D), V. cbn [option_map].
  apply (hasPower_iff _ _ D) in H. rewrite H.
  cbn [bind fst snd nsub nadd nopp NumXR xsub xadd xopp].
  do 3 f_equal; field; destruct P as (P1 & P2 & _); auto.
Qed.

Lemma focal_lengths_spec m o vf vb : describes m o -> physical o -> power o ->
  ofv o = Some vf -> obv o = Some vb ->
  exists ffl bfl, frontFocalLength m = Ok (Some (Fin ffl)) /\
    backFocalLength m = Ok (Some (Fin bfl)) /\
    focusPositions m (Fin 0) = Ok (Some (Fin (vf - ffl), Fin (vb + bfl))) /\
    (forall y, fst (mapp (mmul (free (vb + bfl - oL o)) (oM o)) (y, 0)) = 0) /\
    (forall th, snd (mapp (mmul (oM o) (free (ffl - vf))) (0, th)) = 0).
Proof.
  intros D P H Vf Vb. pose proof (power_C _ H).
  exists (vf - D_ (oM o) / C_ (oM o)), (oL o - A_ (oM o) / C_ (oM o) - vb).
  rewrite (ffl_ok _ _ _ D P H Vf), (bfl_ok _ _ _ D P H Vb), (focus_ok _ _ 0 D P H).
  repeat split.
  - do 4 f_equal; ring.
  - intros; cbn; field; auto.
  - intros; cbn; field; auto.
Qed.

(** an element whose mirror image is described by [orev] exchanges the two lengths *)
Lemma power_orev o : physical o -> onf o = onb o -> power o <-> power (orev o).
Proof.
  intros (P1 & P2 & P3) E. unfold power; cbn. rewrite P3, E. unfold Rdiv.
  rewrite Rinv_r by auto. rewrite Rinv_1, Rmult_1_r. tauto.
Qed.

Lemma focal_lengths_swap m m' o vf vb : describes m o -> describes m' (orev o) ->
  physical o -> onf o = onb o -> power o -> ofv o = Some vf -> obv o = Some vb ->
  frontFocalLength m' = backFocalLength m /\ backFocalLength m' = frontFocalLength m.
Proof.
  intros D D' P E H Vf Vb. pose proof (power_C _ H) as HC.
  pose proof (physical_orev _ P) as P'.
  assert (power (orev o)) as H' by exact (proj1 (power_orev o P E) H).
  assert (ofv (orev o) = Some (oL o - vb)) as V1 by (cbn; rewrite Vb; reflexivity).
  assert (obv (orev o) = Some (oL o - vf)) as V2 by (cbn; rewrite Vf; reflexivity).
  rewrite (ffl_ok _ _ _ D P H Vf), (bfl_ok _ _ _ D P H Vb).
  rewrite (ffl_ok _ _ _ D' P' H' V1), (bfl_ok _ _ _ D' P' H' V2).
  pose proof (physical_det _ P) as HD.
  split; do 3 f_equal; cbn; field; auto.
Qed.

(** C24 *)
Lemma forward_ok m o : describes m o -> physical o -> D_ (oM o) <> 0 ->
  exists c, forwardConjugate m = Ok (Fin (- B_ (oM o) / D_ (oM o)), Some c) /\
    describes c (ocomp (o_space (- B_ (oM o) / D_ (oM o)) (onb o)) o).
Proof.
  intros D P HD. unfold forwardConjugate. dsc D. unfold c0. cbn [nofZ NumXR neqb xeqb].
  rewrite Reqb_neq by auto. cbn [nopp NumXR xopp]. rewrite pdiv_fin by auto. cbn [bind].
  rewrite SpaceM_ok by (try exact I; apply P). cbn [bind].
  destruct (mul_matrix_matched (mat_of (o_space (- B_ (oM o) / D_ (oM o)) (onb o)) PInf PInf false "")
     m _ _ (mat_of_describes _ _ _ _ _) D (p_space _ _ (proj1 (proj2 P))) P eq_refl)
    as (c & E & Dc & _).
  cbn [ninf NumXR]. rewrite E. cbn [bind]. eauto.
Qed.

Lemma forward_spec m o : describes m o -> physical o -> D_ (oM o) <> 0 ->
  exists d c oc, forwardConjugate m = Ok (Fin d, Some c) /\ describes c oc /\
    B_ (oM oc) = 0 /\ oL oc = oL o + d /\ onf oc = onf o /\ onb oc = onb o /\
    oM oc = mmul (free d) (oM o) /\
    (forall y th, fst (mapp (mmul (free d) (oM o)) (y, th)) = A_ (oM oc) * y).
Proof.
  intros D P HD. destruct (forward_ok m o D P HD) as (c & E & Dc).
  do 3 eexists. split; [exact E|]. split; [exact Dc|]. cbn. repeat split; intros; field; auto.
Qed.

(** with D = 0 no plane after the element is an image of its front face *)
Lemma forward_none m o : describes m o -> physical o -> D_ (oM o) = 0 ->
  forwardConjugate m = Ok (PInf, None) /\ forall d, B_ (mmul (free d) (oM o)) <> 0.
Proof.
  intros D P HD. unfold forwardConjugate. dsc D. unfold c0. cbn [nofZ NumXR neqb xeqb].
  rewrite HD, Reqb_refl. split; auto. intros d. cbn. rewrite HD.
  pose proof (physical_det _ P) as N. unfold mdet in N. rewrite HD in N. intros E. apply N. nra.
Qed.

(** C25 *)
Lemma backward_spec m o : describes m o -> physical o -> onf o = 1 -> A_ (oM o) <> 0 ->
  exists d c oc, backwardConjugate m = Ok (Fin d, c) /\ describes c oc /\
    B_ (oM oc) = 0 /\ oL oc = d + oL o /\ onf oc = onf o /\ onb oc = onb o /\
    oM oc = mmul (oM o) (free d) /\
    (forall y th, fst (mapp (mmul (oM o) (free d)) (y, th)) = A_ (oM oc) * y).
Proof.
  intros D P E1 HA. unfold backwardConjugate. dsc D. unfold c0, c1. cbn [nofZ NumXR neqb xeqb].
  rewrite Reqb_neq by auto. cbn [negb nopp NumXR xopp]. rewrite pdiv_fin by auto. cbn [bind].
  rewrite SpaceM_ok by (try exact I; lra). cbn [bind].
  set (d := - B_ (oM o) / A_ (oM o)).
  destruct (mul_matrix_matched m (mat_of (o_space d 1) PInf PInf false "") o (o_space d 1)
     D (mat_of_describes _ _ _ _ _) P (p_space _ _ R1_neq_R0) E1) as (c & E & Dc & _).
  cbn [ninf NumXR]. rewrite E. cbn [bind].
  exists d. eexists. exists (ocomp o (o_space d 1)). split; [reflexivity|].
  assert (B_ (oM (ocomp o (o_space d 1))) = 0) as HB by (cbn; unfold d; field; auto).
  split.
  - constructor; cbn [set_ABCD mA mB mC mD mL mfi mbi mfv mbv]; try apply Dc. now rewrite HB.
  - split; [exact HB|]. repeat split; auto.
    intros; cbn. unfold d. field; auto.
Qed.

(** ** Systems built from the cardinal points (C29, C30) *)
Lemma append_all_none l : forall (g g' : @grp XR), append_all_st g l = (g', None) ->
  append_all g l = Ok g'.
Proof. intros g g' H. now rewrite append_all_as, H. Qed.

Lemma chain_app l l' : chain (l ++ l') -> chain l.
Proof.
  destruct l as [|o l]; cbn; auto. intros [P M]. split; auto. now apply matched_app in M.
Qed.

(** assembling index-matched described elements always succeeds *)
Lemma assemble es os : Forall2 (fun e o => describes (emat e) o) es os -> chain os ->
  forall m, os <> [] ->
  exists g, append_all (mkGrp m []) es = Ok g /\ gelems g = es /\
    mdiam (gmat g) = mdiam m /\ mna (gmat g) = mna m /\ mflip (gmat g) = mflip m /\
    mlabel (gmat g) = mlabel m /\
    forall o t, os = o :: t -> tracks (gmat g) (path_optic o t).
Proof.
  intros HF HC m Hne.
  assert (forall pre pos es os g,
    Forall2 (fun e o => describes (emat e) o) pre pos ->
    Forall2 (fun e o => describes (emat e) o) es os -> chain (pos ++ os) ->
    gelems g = pre -> (forall o t, pos = o :: t -> tracks (gmat g) (path_optic o t)) ->
    exists g', append_all g es = Ok g' /\ gelems g' = pre ++ es /\
    mdiam (gmat g') = mdiam (gmat g) /\ mna (gmat g') = mna (gmat g) /\
    mflip (gmat g') = mflip (gmat g) /\ mlabel (gmat g') = mlabel (gmat g) /\
    forall o t, pos ++ os = o :: t -> tracks (gmat g') (path_optic o t)) as HW.
  { clear. intros pre pos es os g Hpre HF. revert pre pos g Hpre.
    induction HF as [|e o es os He HF IH]; intros pre pos g Hpre HC Eg HT.
    - exists g. cbn. rewrite !app_nil_r. repeat split; auto.
    - cbn [append_all].
      assert (chain (pos ++ [o])) as HC1.
      { apply (chain_app _ os). now rewrite <- app_assoc. }
      assert (append_check (gelems g) e = Ok e) as Ck.
      { unfold append_check. rewrite Eg.
        assert (Forall2 (fun e o => describes (emat e) o) pre pos) as Hp by auto.
        pose proof (Forall2_last_opt _ _ _ Hp) as HL.
        apply chain_snoc in HC1 as (_ & _ & HC1).
        destruct (last_opt pre) as [le|]; [|reflexivity].
        destruct (last_opt pos) as [lo|]; [|contradiction].
        rewrite (d_nb _ _ HL), (d_nf _ _ He). cbn.
        rewrite HC1. now rewrite Reqb_refl. }
      assert (Forall2 (fun e o => describes (emat e) o) (pre ++ [e]) (pos ++ [o])) as HF'
        by (apply Forall2_app; auto).
      unfold append, append_st. rewrite Ck, Eg.
      destruct (pre ++ [e]) as [|e1 t1] eqn:E1; [destruct pre; discriminate|].
      destruct (pos ++ [o]) as [|o1 s1] eqn:E2; [destruct pos; discriminate|].
      destruct (group_transfer_inf e1 t1 o1 s1 HF' HC1) as (p & G1 & G2 & _).
      cbn [ninf NumXR]. rewrite G1. cbn [as_res bind].
      destruct (IH (e1 :: t1) (o1 :: s1) (mkGrp (copy_attrs (gmat g) p) (e1 :: t1))) as
        (g' & K1 & K2 & K3 & K4 & K5 & K6 & K7); auto.
      + rewrite <- E2, <- app_assoc. exact HC.
      + intros ? ? [= <- <-]. cbn. now apply tracks_copy.
      + exists g'. split; auto. split; [rewrite K2; change (e1 :: t1 ++ es) with ((e1 :: t1) ++ es);
          rewrite <- E1, <- app_assoc; reflexivity|].
        cbn in *. repeat split; auto.
        intros o2 t2 E. apply K7. rewrite <- E. change (o1 :: s1 ++ os) with ((o1 :: s1) ++ os).
        rewrite <- E2, <- app_assoc. reflexivity. }
  destruct (HW [] [] es os (mkGrp m []) (Forall2_nil _) HF HC eq_refl) as
    (g & K1 & K2 & K3 & K4 & K5 & K6 & K7); [discriminate|].
  exists g. repeat split; auto.
Qed.

Lemma MatrixGroup_new_ok es os lab : Forall2 (fun e o => describes (emat e) o) es os ->
  chain os -> os <> [] ->
  exists g, MatrixGroup_new es lab = Ok g /\ gelems g = es /\ mdiam (gmat g) = PInf /\
    mna (gmat g) = PInf /\ mflip (gmat g) = false /\ mlabel (gmat g) = lab /\
    forall o t, os = o :: t -> tracks (gmat g) (path_optic o t).
Proof.
  intros HF HC Hn. unfold MatrixGroup_new, c0, c1. cbn [nofZ ninf NumXR].
  rewrite Matrix_init_ok; try reflexivity; try lra. cbn [bind].
  match goal with |- context [append_all (mkGrp ?m [])] =>
    destruct (assemble es os HF HC m Hn) as (g & K1 & K2 & K3 & K4 & K5 & K6 & K7)
  end.
  exists g. repeat split; auto.
Qed.

(** C30 *)
Lemma System2f_ok f diam : f <> 0 -> positive diam ->
  exists e, System2f (Fin f) diam = Ok e /\
    describes (emat e) (mkO (mk2 0 f (-1 / f) 0) (2 * f) 1 1 (Some f) (Some f)).
Proof.
  intros Hf Hd. unfold System2f, c1. cbn [nofZ ninf NumXR].
  rewrite Space_ok by (try exact I; lra). cbn [bind].
  rewrite Lens_ok by auto. cbn [bind].
  unfold MatrixGroupE.
  edestruct (MatrixGroup_new_ok
     [Leaf KSpace (mat_of (o_space f 1) PInf PInf false "");
      Leaf (KLens (Fin f) (Fin 4)) (mat_of (o_lens f) diam PInf false "");
      Leaf KSpace (mat_of (o_space f 1) PInf PInf false "")]
     [o_space f 1; o_lens f; o_space f 1] "") as (g & E & _ & _ & _ & _ & _ & HT).
  - repeat constructor; apply mat_of_describes.
  - cbn. repeat split; try apply p_space; try apply p_lens; lra.
  - discriminate.
  - rewrite E. cbn [bind]. eexists; split; [reflexivity|]. cbn [emat grp_elem].
    specialize (HT _ _ eq_refl).
    assert (path_optic (o_space f 1) [o_lens f; o_space f 1] =
            mkO (mk2 0 f (-1 / f) 0) (2 * f) 1 1 (Some f) (Some f)) as EP.
    { apply optic_eq; cbn.
      - apply M2_eq; cbn; field; auto.
      - ring.
      - reflexivity.
      - reflexivity.
      - f_equal; ring.
      - f_equal; ring. }
    rewrite EP in HT. destruct HT as [H | [H _]]; auto.
    exfalso. injection H. intros. lra.
Qed.

Lemma System2f_zero diam : @System2f XR _ (Fin 0) diam = Err ZeroDivisionError.
Proof.
  unfold System2f, c1. cbn [nofZ ninf NumXR].
  rewrite Space_ok by (try exact I; lra). cbn [bind].
  unfold Lens. now rewrite pdiv_zero.
Qed.

Lemma System4f_ok f1 f2 diam1 diam2 : f1 <> 0 -> f2 <> 0 -> positive diam1 -> positive diam2 ->
  exists e, System4f (Fin f1) (Fin f2) diam1 diam2 = Ok e /\
    describes (emat e) (mkO (mk2 (- f2 / f1) 0 0 (- f1 / f2)) (2 * (f1 + f2)) 1 1
                            (Some f1) (Some (2 * f1 + f2))).
Proof.
  intros Hf1 Hf2 Hd1 Hd2. unfold System4f, c1. cbn [nofZ ninf NumXR].
  rewrite !Space_ok by (try exact I; lra). cbn [bind].
  rewrite !Lens_ok by auto. cbn [bind].
  unfold MatrixGroupE.
  edestruct (MatrixGroup_new_ok
     [Leaf KSpace (mat_of (o_space f1 1) PInf PInf false "");
      Leaf (KLens (Fin f1) (Fin 4)) (mat_of (o_lens f1) diam1 PInf false "");
      Leaf KSpace (mat_of (o_space f1 1) PInf PInf false "");
      Leaf KSpace (mat_of (o_space f2 1) PInf PInf false "");
      Leaf (KLens (Fin f2) (Fin 4)) (mat_of (o_lens f2) diam2 PInf false "");
      Leaf KSpace (mat_of (o_space f2 1) PInf PInf false "")]
     [o_space f1 1; o_lens f1; o_space f1 1; o_space f2 1; o_lens f2; o_space f2 1] "")
    as (g & E & _ & _ & _ & _ & _ & HT).
  - repeat constructor; apply mat_of_describes.
  - cbn. repeat split; try apply p_space; try apply p_lens; lra.
  - discriminate.
  - rewrite E. cbn [bind]. eexists; split; [reflexivity|]. cbn [emat grp_elem].
    specialize (HT _ _ eq_refl).
    assert (path_optic (o_space f1 1) [o_lens f1; o_space f1 1; o_space f2 1; o_lens f2; o_space f2 1] =
            mkO (mk2 (- f2 / f1) 0 0 (- f1 / f2)) (2 * (f1 + f2)) 1 1
                            (Some f1) (Some (2 * f1 + f2))) as EP.
    { apply optic_eq; cbn.
      - apply M2_eq; cbn; field; auto.
      - ring.
      - reflexivity.
      - reflexivity.
      - f_equal; ring.
      - f_equal; ring. }
    rewrite EP in HT. destruct HT as [H | [H1 H2]]; auto.
    (* identity: f1 = - f2; the indices are 1 anyway *)
    cbn in H1, H2. rewrite H1. exact H2.
Qed.

Lemma System4f_zero f1 f2 diam1 diam2 : positive diam1 -> f1 = 0 \/ f2 = 0 ->
  @System4f XR _ (Fin f1) (Fin f2) diam1 diam2 = Err ZeroDivisionError.
Proof.
  intros Hd H. unfold System4f, c1. cbn [nofZ ninf NumXR].
  rewrite !Space_ok by (try exact I; lra). cbn [bind].
  destruct (Req_dec f1 0) as [->|N].
  - unfold Lens at 1. now rewrite pdiv_zero.
  - rewrite Lens_ok by auto. cbn [bind]. destruct H as [H| ->]; [contradiction|].
    unfold Lens. now rewrite pdiv_zero.
Qed.
