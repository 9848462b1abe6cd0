(** Two-mirror resonators, the lens formula of Gaussian beams, and beams as pairs of rays. *)
From Coq Require Import Reals Lra Lia List Bool String ZArith Psatz.
From Verif Require Import Base Nums Optics Spec MatrixProofs ElementProofs GroupProofs TraceProofs RayProofs CardinalProofs StrictProofs
  Beam BeamProofs BeamMore LawProofs CavityProofs Samples.
Import ListNotations.
Open Scope list_scope.
Open Scope R_scope.

(** ** Two mirrors *)
Definition o_mir (r : XR) : optic := mkO (mk2 1 0 (2 * curv r) 1) 0 1 1 (Some 0) (Some 0).
Lemma p_mir r : physical (o_mir r).
Proof. unfold physical, mdet; cbn; repeat split; lra. Qed.
Lemma mirror_any r : flat_or_curved r -> exists e, CurvedMirror r PInf = Ok e /\ describes (emat e) (o_mir r).
Proof.
  intros H. exists (Leaf KCurvedMirror (mat_of (o_mir r) PInf PInf false "")). split; [|apply mat_of_describes].
  unfold CurvedMirror, c2, c1, c0. cbn [nofZ ninf NumXR].
  pose proof (Matrix_init_optic (o_mir r) PInf PInf ""%string (p_mir r) I I) as K.
  cbn [o_mir oM oL onf onb ofv obv A_ B_ C_ D_ option_map] in K.
  destruct r as [r| | |]; cbn in H; try contradiction; cbn [curv] in K.
  - rewrite pdiv_fin by auto. cbn [bind]. replace (2 * / r) with (2 / r) in K by reflexivity. rewrite K. reflexivity.
  - unfold pdiv. cbn [neqb NumXR xeqb ndiv xdiv bind]. replace (2 * 0) with 0 in K by ring. cbn in K |- *. rewrite K. reflexivity.
Qed.
Lemma hasPower_C m M : matrix_is m M -> hasPower m = true -> 1 / 100000 < Rabs (C_ M).
Proof. intros (_ & _ & HC & _) H. unfold hasPower, isNotZero in H. rewrite eps5_val, HC in H. cbn in H. apply Rltb_true in H. lra. Qed.
Lemma bR_fin q wl z n cl r : q <> (0, 0) -> flat_or_curved r -> fst q = curv r * normsq q -> bR (fbeam q wl z n cl) = Ok r.
Proof.
  intros HQ Hr E. pose proof (normsq_pos q HQ) as HN. unfold bR, fbeam. cbn [bq]. rewrite czero.
  destruct (ceqb _ _) eqn:E0; [apply ceqb_fin in E0; contradiction|].
  change (cof (@c1 XR _)) with (fcx (1, 0)). rewrite cdiv_fin by auto. cbn [bind]. unfold fcx; cbn [fst snd re].
  assert (fst (c2div (1, 0) q) = curv r) as -> by (unfold c2div; cbn [fst snd]; rewrite E; field; lra).
  change (neqb (Fin (curv r)) (@c0 XR _)) with (Reqb (curv r) 0). unfold Reqb.
  destruct r as [r| | |]; cbn in Hr; try contradiction; cbn [curv].
  - assert (/ r <> 0) by now apply Rinv_neq_0_compat. destruct (Req_EM_T (/ r) 0); [contradiction|].
    change (@c1 XR _) with (Fin 1). rewrite pdiv_fin by auto. do 2 f_equal. field; auto.
  - destruct (Req_EM_T 0 0); [reflexivity|contradiction].
Qed.
Lemma up_root M : disc M < 0 -> C_ M <> 0 ->
  let q := (- (D_ M - A_ M) / (2 * C_ M), R_sqrt.sqrt (- disc M) / (2 * Rabs (C_ M))) in 0 < snd q /\ (q = root M 1 \/ q = root M (-1)).
Proof.
  intros Hd HC. cbn zeta. cbn [snd]. split.
  - apply Rdiv_lt_0_compat; [apply sqrt_lt_R0; lra|]. pose proof (Rabs_pos_lt _ HC). lra.
  - unfold root. destruct (Rlt_dec (disc M) 0); [|contradiction]. unfold Rabs. destruct (Rcase_abs (C_ M)); [right|left]; f_equal; field; lra.
Qed.

Theorem two_mirrors L r1 r2 : 0 < L -> flat_or_curved r1 -> flat_or_curved r2 ->
  exists s m1 m2 g, Space (Fin L) (Fin 1) PInf = Ok s /\ CurvedMirror r1 PInf = Ok m1 /\ CurvedMirror r2 PInf = Ok m2 /\
    MatrixGroup_new [s; m2; s; m1] "" = Ok g /\
    let g1 := 1 + L * curv r1 in let g2 := 1 + L * curv r2 in
    (hasPower (gmat g) = true -> isStable (gmat g) = Ok true <-> 0 < g1 * g2 < 1) /\
    (hasPower (gmat g) = true -> 0 < g1 * g2 < 1 -> exists b zo, laserModes (gmat g) = Ok [b] /\ bR b = Ok r1 /\
       rayleighRange b = Fin zo /\ zo = L * R_sqrt.sqrt (g1 * g2 * (1 - g1 * g2)) / Rabs (g1 + g2 - 2 * (g1 * g2)) /\
       waistPosition b = Fin (L * (g2 * (1 - g1)) / (g1 + g2 - 2 * (g1 * g2)))).
Proof.
  intros HL H1 H2. destruct (mirror_any r1 H1) as (m1 & E1 & D1). destruct (mirror_any r2 H2) as (m2 & E2 & D2).
  eexists. exists m1, m2.
  set (s := Leaf KSpace (mat_of (o_space L 1) PInf PInf false "")).
  assert (describes (emat s) (o_space L 1)) as Ds by apply mat_of_describes.
  destruct (group_matrix [s; m2; s; m1] [o_space L 1; o_mir r2; o_space L 1; o_mir r1]) as (g & Eg & HM).
  { do 4 (apply Forall2_cons; [assumption|]). apply Forall2_nil. }
  { cbn. unfold physical, mdet. cbn. repeat split; try lra; field. }
  { discriminate. }
  exists g. split; [apply Space_ok; [lra|exact I]|]. split; [exact E1|]. split; [exact E2|]. split; [exact Eg|]. cbn zeta.
  set (g1 := 1 + L * curv r1). set (g2 := 1 + L * curv r2). set (M := pathM _) in HM.
  assert (curv r1 = (g1 - 1) / L) as K1 by (unfold g1; field; lra). assert (curv r2 = (g2 - 1) / L) as K2 by (unfold g2; field; lra).
  assert (M = mk2 (2 * g2 - 1) (2 * L * g2) (2 / L * (2 * (g1 * g2) - g1 - g2)) (4 * (g1 * g2) - 2 * g2 - 1)) as EM.
  { unfold M, pathM. apply M2_eq; cbn; rewrite ?K1, ?K2; field; lra. }
  assert (disc M = - (16 * (g1 * g2) * (1 - g1 * g2))) as ED by (rewrite EM; unfold disc; cbn; field; lra).
  assert (mdet M = 1) as Edet by (rewrite EM; unfold mdet; cbn; field; lra).
  split.
  - intros HP. rewrite (isStable_disc _ _ HM (hasPower_C _ _ HM HP)), ED. destruct (Rlt_dec _ 0) as [N|N]; split; try reflexivity; try discriminate.
    + intros _. set (x := g1 * g2) in *. split; nra.
    + intros [A B]. exfalso. apply N. set (x := g1 * g2) in *. nra.
  - intros HP [A B]. pose proof (hasPower_C _ _ HM HP) as HC.
    assert (C_ M <> 0) as HC0 by (intros E; rewrite E, Rabs_R0 in HC; lra).
    assert (disc M < 0) as Hd by (rewrite ED; set (x := g1 * g2) in *; nra).
    destruct (up_root M Hd HC0) as [HU Hr]. set (q := (_, _)) in HU, Hr.
    assert (round_trip M q) as RT by (destruct Hr as [-> | ->]; apply root_round_trip; lra || assumption).
    exists (mode q), (snd q). split; [apply (laserModes_one _ M); auto; lra|].
    set (G := g1 + g2 - 2 * (g1 * g2)) in *.
    assert (C_ M = - (2 / L * G)) as EC by (rewrite EM; cbn; unfold G; ring).
    assert (G <> 0) as HG by (intros E; apply HC0; rewrite EC, E; ring).
    assert (R_sqrt.sqrt (- disc M) = 4 * R_sqrt.sqrt (g1 * g2 * (1 - g1 * g2))) as ES.
    { rewrite ED. replace (- - (16 * (g1 * g2) * (1 - g1 * g2))) with (4 * 4 * (g1 * g2 * (1 - g1 * g2))) by ring.
      rewrite sqrt_mult; [rewrite sqrt_square by lra; reflexivity|lra|set (x := g1 * g2) in *; nra]. }
    assert (snd q = L * R_sqrt.sqrt (g1 * g2 * (1 - g1 * g2)) / Rabs G) as EZ.
    { unfold q. cbn [snd]. rewrite ES, EC, Rabs_Ropp, Rabs_mult, (Rabs_right (2 / L)). 
      - field. split; [apply Rabs_no_R0; exact HG|lra].
      - apply Rle_ge. apply Rlt_le. apply Rdiv_lt_0_compat; lra. }
    assert (fst q = - (L * (g2 * (1 - g1)) / G)) as EX.
    { unfold q. cbn [fst]. rewrite EC, EM. cbn [D_ A_]. field. split; [exact HG|lra]. }
    split; [|split; [reflexivity|split; [exact EZ|]]].
    + unfold mode. apply (bR_fin q (6328 / 10000000) 0 1 false r1) in H1 as K.
      * unfold fbeam in K. unfold bR in *. exact K.
      * intros E. rewrite E in HU. cbn in HU. lra.
      * unfold normsq. rewrite EX, EZ, K1.
        replace (L * R_sqrt.sqrt (g1 * g2 * (1 - g1 * g2)) / Rabs G * (L * R_sqrt.sqrt (g1 * g2 * (1 - g1 * g2)) / Rabs G))
          with (L * L * (g1 * g2 * (1 - g1 * g2)) / (G * G)).
        { unfold G. field. split; [exact HG|lra]. }
        assert (Rabs G * Rabs G = G * G) as GG by (unfold Rabs; destruct (Rcase_abs G); ring).
        assert (R_sqrt.sqrt (g1 * g2 * (1 - g1 * g2)) * R_sqrt.sqrt (g1 * g2 * (1 - g1 * g2)) = g1 * g2 * (1 - g1 * g2)) as SS
          by (apply sqrt_sqrt; set (x := g1 * g2) in *; nra).
        rewrite <- GG, <- SS at 1. field. apply Rabs_no_R0; exact HG.
    + unfold waistPosition, mode. cbn [bq fcx re]. rewrite EX. cbn [nopp NumXR xopp]. f_equal. ring.
Qed.

(** ** A beam is a pair of rays *)
Lemma positive_not_axicon l : Forall positive_leaf l -> Forall not_axicon l.
Proof. intros H. eapply Forall_impl; [|exact H]. intros [k m] (_ & _ & K). exact K. Qed.
(** the width of the beam behind a matrix, from the width and the curvature in front of it *)
Lemma width_behind o w r wl : physical o -> sign_ok o -> 0 < w -> 0 < wl ->
  let q := q_spec w r (onf o) wl in let q' := mobius (oM o) q in
  w_spec q' wl (onb o) * w_spec q' wl (onb o) =
    (A_ (oM o) * w + B_ (oM o) * (w * curv r)) * (A_ (oM o) * w + B_ (oM o) * (w * curv r)) +
    (B_ (oM o) * (wl / (onf o * PI * w))) * (B_ (oM o) * (wl / (onf o * PI * w))).
Proof.
  intros Ph So Hw Hl. cbn zeta. set (M := oM o). pose proof (sign_det o Ph So) as Hd. fold M in Hd.
  destruct So as [S1 S2]. destruct Ph as (P1 & P2 & P3). fold M in P3.
  destruct (q_spec_facts w r (onf o) wl Hw S1 Hl) as (HY & HQ & HI & HN). set (q := q_spec w r (onf o) wl) in *.
  pose proof (spread_pos w (onf o) wl Hw S1 Hl) as HS. pose proof PI_RGT_0 as HP.
  pose proof (mobius_up M q HY Hd) as HU.
  assert (mobius M q <> (0, 0)) as HQ' by (intros E; rewrite E in HU; cbn in HU; lra).
  unfold w_spec. rewrite sqrt_sqrt.
  2: { apply Rlt_le, Rdiv_lt_0_compat; [apply Rmult_lt_0_compat; [exact Hl|now apply normsq_pos]|].
       apply Rmult_lt_0_compat; [now apply Rmult_lt_0_compat|exact HU]. }
  set (k := curv r) in *. set (sp := spread w (onf o) wl) in *.
  assert (fst q = k * normsq q /\ snd q = sp * normsq q) as [Ex Ey].
  { pose proof (f_equal fst HI) as I1. pose proof (f_equal snd HI) as I2. unfold c2div in I1, I2. cbn [fst snd] in I1, I2.
    pose proof (normsq_pos q HQ) as N0. split; [rewrite <- I1; field; lra|]. apply (f_equal (fun x => - x * normsq q)) in I2. rewrite Ropp_involutive in I2. rewrite <- I2. field. lra. }
  assert (normsq (mobius M q) / snd (mobius M q) = ((A_ M + B_ M * k) * (A_ M + B_ M * k) + B_ M * sp * (B_ M * sp)) / (sp * mdet M)) as EW.
  { pose proof (normsq_pos q HQ) as N0. pose proof (mobius_im M (fst q) (snd q) ltac:(lra) ltac:(lra)) as IM. rewrite <- (surjective_pairing q) in IM. rewrite IM.
    pose proof (den_nonzero M (fst q) (snd q) ltac:(lra) ltac:(lra)) as ND. rewrite <- (surjective_pairing q) in ND.
    set (dn := c2add (c2scale (C_ M) q) (c2real (D_ M))) in *.
    assert (normsq (mobius M q) = normsq (c2add (c2scale (A_ M) q) (c2real (B_ M))) / normsq dn) as ->.
    { unfold mobius. fold dn. unfold c2div, normsq at 1. cbn [fst snd]. unfold normsq in *. field. lra. }
    assert (normsq (c2add (c2scale (A_ M) q) (c2real (B_ M))) = normsq q * ((A_ M + B_ M * k) * (A_ M + B_ M * k) + B_ M * sp * (B_ M * sp))) as ->.
    { assert (normsq q * (k * k + sp * sp) = 1) as N1.
      { assert (normsq q = fst q * fst q + snd q * snd q) as Hn by reflexivity. rewrite Ex, Ey in Hn. 
        assert (normsq q * (normsq q * (k * k + sp * sp)) = normsq q * 1) as Hn' by (replace (normsq q * (normsq q * (k * k + sp * sp))) with (k * normsq q * (k * normsq q) + sp * normsq q * (sp * normsq q)) by ring; lra). apply Rmult_eq_reg_l in Hn'; [exact Hn'|lra]. }
      transitivity (A_ M * A_ M * normsq q + 2 * A_ M * B_ M * fst q + B_ M * B_ M * 1).
      - unfold normsq, c2add, c2scale, c2real. cbn [fst snd]. ring.
      - rewrite Ex, <- N1. ring. }
    rewrite Ey. field. lra. }
  replace (wl * normsq (mobius M q) / (onb o * PI * snd (mobius M q))) with (wl / (onb o * PI) * (normsq (mobius M q) / snd (mobius M q))) by (field; lra).
  rewrite EW, P3. unfold sp, spread. field. repeat split; lra.
Qed.
Theorem beam_rays e o w r wl z b : canon e o -> Forall positive_leaf (leaves e) -> 0 < w -> 0 < wl -> flat_or_curved r ->
  GaussianBeam None (Some (Fin w)) r (Fin (onf o)) (Fin wl) (Fin z) = Ok b ->
  forall r1 r2, ry r1 = Fin w -> rth r1 = Fin (w * curv r) -> ry r2 = Fin 0 -> rth r2 = Fin (wl / (onf o * PI * w)) ->
    rz r1 = Fin z -> rz r2 = Fin z -> rblk (traceThrough e r1) = false -> rblk (traceThrough e r2) = false ->
  exists b' w' y1 y2, beam_through e b = Ok b' /\ bw b' = Ok (Fin w') /\ 0 < w' /\ ry (traceThrough e r1) = Fin y1 /\ ry (traceThrough e r2) = Fin y2 /\
    w' * w' = y1 * y1 + y2 * y2.
Proof.
  intros Hc HP Hw Hl Hr Eb r1 r2 A1 A2 A3 A4 A5 A6 B1 B2.
  destruct (beam_trace_ok e o Hc HP) as [So K]. pose proof (canon_physical _ _ Hc) as Ph.
  destruct (beam_reports w r (onf o) wl z Hw Hr (proj1 So) Hl) as (b0 & E0 & -> & _). rewrite E0 in Eb. injection Eb as <-.
  destruct (q_spec_facts w r (onf o) wl Hw (proj1 So) Hl) as (HY & _).
  unfold waist_beam. destruct (K (q_spec w r (onf o) wl) wl z false HY Hl) as (l & cl' & E & Nl & _ & El & _).
  pose proof (mobius_up _ _ HY (sign_det o Ph So)) as HU.
  assert (forall rr y th, ry rr = Fin y -> rth rr = Fin th -> rz rr = Fin z -> rblk (traceThrough e rr) = false ->
    ry (traceThrough e rr) = Fin (fst (mapp (oM o) (y, th)))) as TR.
  { intros [y0 t0 z0 bl di wv] y th. cbn [ry rth rz]. intros -> -> -> Hb. change (mkRay (Fin y) (Fin th) (Fin z) bl di wv) with (fray y th z bl di wv) in *.
    rewrite traceThrough_through in *. destruct (through_path e o y th z bl di wv (canon_built _ _ Hc) (positive_not_axicon _ HP) Hb) as (d' & w' & ->). reflexivity. }
  eexists. exists (w_spec (mobius (oM o) (q_spec w r (onf o) wl)) wl (onb o)). do 2 eexists.
  split; [unfold beam_through; rewrite E; cbn [bind]; rewrite El; reflexivity|].
  split; [apply bw_fin; [exact HU|exact Hl|apply So]|]. split; [apply w_spec_pos; [exact HU|exact Hl|apply So]|].
  split; [apply (TR r1 _ _ A1 A2 A5 B1)|]. split; [apply (TR r2 _ _ A3 A4 A6 B2)|].
  rewrite (width_behind o w r wl Ph So Hw Hl). unfold mapp. cbn [fst snd]. ring.
Qed.

(** ** The lens formula of Gaussian beams *)
Lemma bwo_fin q wl z n cl : 0 < snd q -> 0 < wl -> bwo (fbeam q wl z n cl) = Ok (Some (Fin (R_sqrt.sqrt (snd q * wl / PI)))).
Proof.
  intros Hq Hl. pose proof PI_RGT_0 as HP. unfold bwo, bzo, fbeam. cbn [bq bwl fcx im]. change (@c0 XR _) with (Fin 0). cbn [nltb NumXR xltb].
  rewrite (proj2 (Rltb_true 0 _)) by exact Hq. change (@npi XR _) with (Fin PI). cbn [nmul NumXR xmul].
  change (nmul (Fin (snd q)) (Fin wl)) with (Fin (snd q * wl)). rewrite pdiv_fin by lra. cbn [bind].
  assert (0 < snd q * wl / PI) as K by (apply Rdiv_lt_0_compat; [now apply Rmult_lt_0_compat|exact HP]).
  unfold psqrt. change (@c0 XR _) with (Fin 0). cbn [nltb NumXR xltb]. rewrite Rltb_ge by lra. cbn [bind nsqrt NumXR xsqrt].
  destruct (Rlt_dec _ 0); [lra|reflexivity].
Qed.
Definition xl (f : R) : @elem XR := Leaf (KLens (Fin f) (Fin 4)) (mat_of (o_lens f) PInf PInf false "").
Lemma c_xl f : canon (xl f) (o_lens f).
Proof. apply canon_leaf; [apply mat_of_describes|apply p_lens|reflexivity]. Qed.
Theorem beam_lens w wl s f z : 0 < w -> 0 < wl -> f <> 0 ->
  exists sp l g b b', Space (Fin s) (Fin 1) PInf = Ok sp /\ Lens (Fin f) PInf = Ok l /\ MatrixGroup_new [sp; l] "" = Ok g /\
    GaussianBeam None (Some (Fin w)) PInf (Fin 1) (Fin wl) (Fin z) = Ok b /\ beam_through (grp_elem g) b = Ok b' /\
    exists zo s' zo' wo, rayleighRange b = Fin zo /\ zo = PI * w * w / wl /\ waistPosition b' = Fin s' /\ rayleighRange b' = Fin zo' /\ bwo b' = Ok (Some (Fin wo)) /\
      let m := Rabs f / R_sqrt.sqrt ((s - f) * (s - f) + zo * zo) in
      wo = m * w /\ s' - f = m * m * (s - f) /\ zo' = m * m * zo.
Proof.
  intros Hw Hl Hf. pose proof PI_RGT_0 as HP.
  destruct (MatrixGroup_canon [x_space s 1; xl f] [o_space s 1; o_lens f] "") as (g & Eg & Eel & _ & _ & _ & _ & Hc).
  { apply Forall2_cons; [apply c_space; lra|]. apply Forall2_cons; [apply c_xl|apply Forall2_nil]. }
  { cbn. unfold physical, mdet. cbn. repeat split; try lra; field; auto. }
  { right. intros o t E. injection E as <- _. reflexivity. }
  { discriminate. }
  specialize (Hc _ _ eq_refl).
  destruct (beam_trace_ok _ _ Hc) as [So K].
  { cbn [grp_elem leaves]. rewrite Eel. cbn. repeat constructor; cbn; lra. }
  destruct (beam_reports w PInf 1 wl z Hw I Rlt_0_1 Hl) as (b & Eb & Eb' & _).
  exists (x_space s 1), (xl f), g, b.
  set (zo := PI * w * w / wl).
  assert (0 < zo) as Hz by (apply Rdiv_lt_0_compat; [apply Rmult_lt_0_compat; [apply Rmult_lt_0_compat|]; assumption|exact Hl]).
  assert (q_spec w PInf 1 wl = (0, zo)) as HQ.
  { unfold q_spec; cbn [curv]. unfold zo, spread. apply c2_eq; cbn [fst snd]; field; repeat split; try lra; nra. }
  destruct (K (0, zo) wl z false Hz Hl) as (l & cl' & El & _ & _ & Ll & _).
  change (onf (path_optic (o_space s 1) [o_lens f])) with 1 in El, Ll.
  set (N := (s - f) * (s - f) + zo * zo). assert (0 < N) as HN by (unfold N; assert (0 < zo * zo) by (now apply Rmult_lt_0_compat); assert (0 <= (s - f) * (s - f)) by apply Rle_0_sqr; lra).
  assert (mobius (oM (path_optic (o_space s 1) [o_lens f])) (0, zo) = (- (f + f * f / N * (s - f)), f * f / N * zo)) as EM.
  { unfold mobius, c2div, normsq. cbn. apply c2_eq; cbn [fst snd]; generalize dependent zo; intros; unfold N in *; field; repeat split; try exact Hf; try lra; nra. }
  rewrite EM in Ll.
  eexists. split; [apply Space_ok; [lra|exact I]|]. split; [apply Lens_ok; [exact Hf|exact I]|]. split; [exact Eg|]. split; [exact Eb|].
  split; [unfold beam_through; rewrite Eb'; unfold waist_beam; rewrite HQ, El; cbn [bind]; rewrite Ll; reflexivity|].
  assert (0 < f * f / N * zo) as Hz' by (apply Rmult_lt_0_compat; [apply Rdiv_lt_0_compat; [nra|exact HN]|exact Hz]).
  exists zo, (f + f * f / N * (s - f)), (f * f / N * zo). eexists. split; [rewrite Eb'; unfold waist_beam; rewrite HQ; reflexivity|]. split; [reflexivity|].
  split; [unfold waistPosition, fbeam; cbn [bq fcx re fst nopp NumXR xopp]; f_equal; ring|]. split; [reflexivity|].
  split; [apply bwo_fin; assumption|]. cbn zeta. fold N. cbn [snd].
  set (m := Rabs f / R_sqrt.sqrt N). assert (0 < R_sqrt.sqrt N) as S0 by now apply sqrt_lt_R0.
  assert (0 < m) as M0 by (apply Rdiv_lt_0_compat; [now apply Rabs_pos_lt|exact S0]).
  assert (m * m = f * f / N) as MM.
  { unfold m. rewrite <- (sqrt_sqrt N) at 3 by lra. replace (f * f) with (Rabs f * Rabs f) by (unfold Rabs; destruct (Rcase_abs f); ring). field. lra. }
  rewrite <- MM. split; [|split; ring].
  replace (m * m * zo * wl / PI) with ((m * w) * (m * w)) by (unfold zo; field; lra). rewrite sqrt_square; [reflexivity|]. nra.
Qed.
