(** The f-number: what cone of light it describes, and which aperture it looks at. *)
From Coq Require Import ZArith Reals Lra Lia List Bool String.
From Verif Require Import Base Nums Optics Group Spec MatrixProofs ElementProofs GroupProofs
  TraceProofs RayProofs CardinalProofs StrictProofs TransferProofs Imaging ImagingProofs Samples2.
Import ListNotations.
Open Scope list_scope.
Open Scope R_scope.

(** ** The cone of light of an object at infinity *)
(** a ray parallel to the axis at the edge of the entrance pupil meets the edge of the stop and leaves with an angle u' for
    which 2 N n' u' = -1 *)
Theorem f_number_cone e o ps z D : canon e o -> Forall2 is_piece (leaves e) ps -> onf o = 1 ->
  hasFiniteApertureDiameter e = true ->
  apertureStop e = Ok (mkStop (Some (Fin z)) (Some (Fin D))) -> 0 < D -> A_ (matrix_to ps z) <> 0 -> power o ->
  exists n zp Dp, fNumber e = Ok (Some (Fin n)) /\ entrancePupil e = Ok (mkStop (Some (Fin zp)) (Some (Fin Dp))) /\ 0 < Dp /\
    Rabs (fst (mapp (matrix_to ps z) (Dp / 2, 0))) = D / 2 /\
    2 * n * (onb o * snd (mapp (oM o) (Dp / 2, 0))) = -1.
Proof.
  intros Hc HF Hn Hfin HS HD HA Hp.
  destruct (entrance_pupil e o ps z D Hc HF Hn Hfin HS HA) as (zp & Dp & E & _ & ED).
  pose proof (Rabs_pos_lt _ HA) as PA. assert (0 < Dp) as HDp by (apply (Rmult_lt_reg_l (Rabs (A_ (matrix_to ps z)))); lra).
  pose proof (canon_describes e o Hc) as De. pose proof (canon_physical e o Hc) as Pe.
  pose proof (power_C o Hp) as HC. pose proof Pe as (_ & Hb & _).
  exists (- (1 / onb o) / C_ (oM o) / Dp), zp, Dp. split.
  { unfold fNumber. rewrite E, (focal_ok _ o De Pe Hp), Hn. cbn [bind st_d fst]. rewrite pdiv_fin by lra. reflexivity. }
  split; [exact E|]. split; [exact HDp|]. split.
  - unfold mapp. cbn [fst snd]. rewrite Rmult_0_r, Rplus_0_r, Rabs_mult, (Rabs_pos_eq (Dp / 2)) by lra. rewrite <- ED. field.
  - unfold mapp. cbn [fst snd]. field. repeat split; auto; lra.
Qed.
(** a system without power has an infinite f-number *)
Theorem f_number_afocal e o ps z D : canon e o -> Forall2 is_piece (leaves e) ps -> onf o = 1 ->
  hasFiniteApertureDiameter e = true ->
  apertureStop e = Ok (mkStop (Some (Fin z)) (Some (Fin D))) -> 0 < D -> A_ (matrix_to ps z) <> 0 -> ~ power o ->
  fNumber e = Ok (Some PInf).
Proof.
  intros Hc HF Hn Hfin HS HD HA Hp.
  destruct (entrance_pupil e o ps z D Hc HF Hn Hfin HS HA) as (zp & Dp & E & _ & ED).
  pose proof (Rabs_pos_lt _ HA) as PA. assert (0 < Dp) as HDp by (apply (Rmult_lt_reg_l (Rabs (A_ (matrix_to ps z)))); lra).
  unfold fNumber. rewrite E. cbn [bind]. unfold effectiveFocalLengths.
  destruct (hasPower (emat e)) eqn:H; [apply (hasPower_iff _ o (canon_describes e o Hc)) in H; contradiction|].
  cbn [bind st_d fst]. unfold pdiv. cbn [neqb NumXR xeqb]. unfold c0. cbn [nofZ NumXR xeqb]. rewrite Reqb_neq by lra.
  cbn [ndiv NumXR xdiv ninf bind]. unfold xsgninf. repeat match goal with |- context [Rlt_dec ?a ?b] => destruct (Rlt_dec a b); try lra end. reflexivity.
Qed.

(** ** Parallel light *)
(** a ray parallel to the axis gets through when it passes every aperture *)
Lemma parallel_passes e ps y z (d : XR) w : Forall2 is_piece (leaves e) ps -> Forall not_axicon (leaves e) ->
  Forall2 thin_aperture (leaves e) ps ->
  rblk (traceThrough e (fray y 0 z false d w)) = false <->
  forall j km D, nth_error (leaves e) j = Some km -> mdiam (snd km) = Fin D -> Rabs (A_ (upto ps (S j))) * Rabs y <= D / 2.
Proof.
  intros HF HA HT. rewrite passes_nth by reflexivity.
  assert (forall j, Rabs (fst (mapp (upto ps (S j)) (y, 0))) = Rabs (A_ (upto ps (S j))) * Rabs y) as Q.
  { intros j. unfold mapp. cbn [fst snd]. rewrite Rmult_0_r, Rplus_0_r. apply Rabs_mult. }
  split.
  - intros H j km D Ej ED. specialize (H j km Ej). rewrite (misses_axis _ _ HF HA HT j km y 0 z false d w Ej), ED, Q in H. now apply Rltb_false in H.
  - intros H j km Ej. rewrite (misses_axis _ _ HF HA HT j km y 0 z false d w Ej).
    destruct (mdiam (snd km)) as [D| | |] eqn:ED; auto. rewrite Q. apply Rltb_ge. eapply H; eauto.
Qed.
(** when the stop limits parallel light too, exactly the rays inside the entrance pupil get through *)
Theorem pupil_of_parallel_light e ps i km D : Forall2 is_piece (leaves e) ps -> Forall not_axicon (leaves e) ->
  Forall2 thin_aperture (leaves e) ps ->
  nth_error (leaves e) i = Some km -> mdiam (snd km) = Fin D -> A_ (upto ps (S i)) <> 0 ->
  (forall j km' D', nth_error (leaves e) j = Some km' -> mdiam (snd km') = Fin D' ->
     Rabs (A_ (upto ps (S j))) * D <= Rabs (A_ (upto ps (S i))) * D') ->
  forall y z (d : XR) w, rblk (traceThrough e (fray y 0 z false d w)) = Rltb (D / Rabs (A_ (upto ps (S i))) / 2) (Rabs y).
Proof.
  intros HF HA HT Ei ED HAi HL y z d w. pose proof (Rabs_pos_lt _ HAi) as PA. set (a := Rabs (A_ (upto ps (S i)))) in *.
  destruct (Forall2_nth _ _ _ _ _ HF Ei) as (p & _ & (_ & _ & _ & Hpos & _)). rewrite ED in Hpos. cbn in Hpos.
  assert (D / a / 2 * a = D / 2) as Q by (field; lra).
  destruct (Rltb (D / a / 2) (Rabs y)) eqn:L.
  - apply Rltb_true in L. apply not_false_is_true. intros F. apply (proj1 (parallel_passes e ps y z d w HF HA HT)) with (2 := Ei) (3 := ED) in F.
    fold a in F. assert (D / a / 2 * a < Rabs y * a) by (apply Rmult_lt_compat_r; lra). lra.
  - apply Rltb_false in L. apply (parallel_passes e ps y z d w HF HA HT). intros j km' D' Ej ED'. specialize (HL j km' D' Ej ED').
    assert (Rabs y * a <= D / 2) as K by (rewrite <- Q; apply Rmult_le_compat_r; lra).
    pose proof (Rabs_pos (A_ (upto ps (S j)))) as P1. pose proof (Rabs_pos y) as P2. set (b := Rabs (A_ (upto ps (S j)))) in *.
    apply (Rmult_le_reg_r (2 * a * D)); [apply Rmult_lt_0_compat; lra|].
    assert (b * D * (2 * (Rabs y * a)) <= a * D' * (2 * (D / 2))) as M.
    { apply Rmult_le_compat; [apply Rmult_le_pos; lra|apply Rmult_le_pos; [lra|apply Rmult_le_pos; lra]|exact HL|lra]. }
    replace (b * Rabs y * (2 * a * D)) with (b * D * (2 * (Rabs y * a))) by ring. replace (D' / 2 * (2 * a * D)) with (a * D' * (2 * (D / 2))) by field. exact M.
Qed.

(** ** Distant objects *)
(** the stop is the first aperture, whatever follows, as soon as the ray that looks for the stop misses it *)
Theorem first_aperture_is_stop e o ps i km D : canon e o -> Forall2 is_piece (leaves e) ps ->
  Forall not_axicon (leaves e) -> Forall2 thin_aperture (leaves e) ps -> hasFiniteApertureDiameter e = true ->
  nth_error (leaves e) i = Some km -> mdiam (snd km) = Fin D ->
  (forall j km', (j < i)%nat -> nth_error (leaves e) j = Some km' -> mdiam (snd km') = PInf) ->
  5 * D < Rabs (B_ (upto ps (S i))) ->
  apertureStop e = Ok (mkStop (Some (Fin (depth ps (S i)))) (Some (Fin D))).
Proof.
  intros Hc HF HA HT Hfin Ei ED Hb HB.
  assert (D / 2 < Rabs (axis_height ps i (/ 10))) as Hm.
  { rewrite axis_height_lin, Rabs_mult, (Rabs_pos_eq (/ 10)) by lra. lra. }
  assert (rblk (traceThrough e probe) = true) as HB'.
  { apply not_false_is_true. intros F. rewrite probe_fray in F. rewrite passes_nth in F by reflexivity. specialize (F i km Ei).
    rewrite (misses_axis _ _ HF HA HT i km 0 (/ 10) 0 false PInf None Ei), ED in F. fold (axis_height ps i (/ 10)) in F. apply Rltb_false in F. lra. }
  destruct (stop_when_blocked e o ps Hc HF HA HT Hfin HB') as (i' & D' & (km' & Ei' & ED') & E & Hm' & Hb').
  destruct (Nat.lt_trichotomy i' i) as [L|[->|L]].
  - rewrite (Hb _ _ L Ei') in ED'. discriminate.
  - rewrite E. congruence.
  - specialize (Hb' _ _ _ L Ei ED). lra.
Qed.
(** and every system has such a distance: from there on the f-number is that of the first aperture alone *)
Definition before (d : R) (qs : list piece) : list piece := space_piece d 1 :: qs.
Lemma upto_before d qs i : upto (before d qs) (S i) = mmul (upto qs i) (free d).
Proof.
  unfold upto, before. cbn [firstn map]. etransitivity; [apply (mprod_app [oM (po (space_piece d 1))])|]. f_equal.
  unfold mprod. cbn [fold_left]. unfold mmul, mid, free. cbn [space_piece po o_space oM free A_ B_ C_ D_]. f_equal; ring.
Qed.
Theorem far_objects qs i D : A_ (upto qs (S i)) <> 0 ->
  exists d0, forall d e o km, d0 <= d -> canon e o -> Forall2 is_piece (leaves e) (before d qs) ->
    Forall not_axicon (leaves e) -> Forall2 thin_aperture (leaves e) (before d qs) -> hasFiniteApertureDiameter e = true ->
    nth_error (leaves e) (S i) = Some km -> mdiam (snd km) = Fin D ->
    (forall j km', (j <= i)%nat -> nth_error (leaves e) j = Some km' -> mdiam (snd km') = PInf) ->
    onf o = 1 -> power o ->
    apertureStop e = Ok (mkStop (Some (Fin (depth (before d qs) (S (S i))))) (Some (Fin D))) /\
    exists n f, fNumber e = Ok (Some (Fin n)) /\ effectiveFocalLengths (emat e) = Ok (Fin f, Fin (onb o * f)) /\
      n * (D / Rabs (A_ (upto qs (S i)))) = f.
Proof.
  intros HA. pose proof (Rabs_pos_lt _ HA) as PA. set (a := A_ (upto qs (S i))) in *. set (b := B_ (upto qs (S i))) in *.
  exists ((5 * Rabs D + Rabs b + 1) / Rabs a). intros d e o km Hd Hc HF HAx HT Hfin Ei ED Hb Hn Hp.
  assert (5 * D < Rabs (B_ (upto (before d qs) (S (S i))))) as HB.
  { rewrite upto_before. cbn [mmul free B_ A_ C_ D_]. fold a b. replace (a * d + b * 1) with (a * d + b) by ring.
    assert (Rabs (a * d + b) >= Rabs a * d - Rabs b) as K.
    { pose proof (Rabs_triang (a * d + b) (- b)) as T1. replace (a * d + b + - b) with (a * d) in T1 by ring. rewrite Rabs_Ropp, Rabs_mult in T1.
      pose proof (Rle_abs d). pose proof (Rabs_pos a). assert (Rabs a * d <= Rabs a * Rabs d) by (apply Rmult_le_compat_l; lra). lra. }
    assert (5 * Rabs D + Rabs b + 1 <= Rabs a * d) as K2.
    { apply (Rmult_le_compat_l (Rabs a)) in Hd; [|lra]. replace (Rabs a * ((5 * Rabs D + Rabs b + 1) / Rabs a)) with (5 * Rabs D + Rabs b + 1) in Hd by (field; lra). exact Hd. }
    pose proof (Rle_abs D). lra. }
  pose proof (first_aperture_is_stop e o _ (S i) km D Hc HF HAx HT Hfin Ei ED ltac:(intros j km' Hj; apply Hb; lia) HB) as ES.
  split; [exact ES|].
  destruct (Forall2_nth _ _ _ _ _ HF Ei) as (p & _ & (_ & _ & _ & Hpos & _)). rewrite ED in Hpos. cbn in Hpos.
  destruct (matrix_at_depth _ _ (S (S i)) HF HT) as [EA _].
  assert (A_ (upto (before d qs) (S (S i))) = a) as Ea by (rewrite upto_before; cbn [mmul free A_ B_ C_ D_]; fold a; ring).
  destruct (entrance_pupil e o _ _ D Hc HF Hn Hfin ES ltac:(rewrite EA, Ea; exact HA)) as (zp & Dp & EP & _ & EDp).
  rewrite EA, Ea in EDp. assert (0 < Dp) as HDp by (apply (Rmult_lt_reg_l (Rabs a)); lra).
  pose proof (canon_physical e o Hc) as Pe. pose proof Pe as (_ & Hbk & _). pose proof (power_C o Hp) as HC.
  exists (- (1 / onb o) / C_ (oM o) / Dp), (- (1 / onb o) / C_ (oM o)).
  rewrite (focal_ok _ o (canon_describes e o Hc) Pe Hp), Hn. split.
  - unfold fNumber. rewrite EP. cbn [bind]. rewrite (focal_ok _ o (canon_describes e o Hc) Pe Hp), Hn. cbn [bind st_d fst]. rewrite pdiv_fin by lra. reflexivity.
  - split; [do 3 f_equal; field; auto|]. rewrite <- EDp. field. repeat split; auto; lra.
Qed.
