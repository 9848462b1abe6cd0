(** A round trip may start anywhere: the stability of a cavity does not change and its mode is the propagated mode. *)
From Coq Require Import ZArith Reals Lra Lia List Bool String Psatz.
From Verif Require Import Base Nums Optics Group Spec MatrixProofs ElementProofs GroupProofs TraceProofs RayProofs CardinalProofs Beam BeamProofs BeamMore LawProofs.
Import ListNotations.
Open Scope R_scope.

Definition pathM (os : list optic) : M2 := fold_left (fun acc o => mmul (oM o) acc) os mid.
Lemma mmul_assoc P Q S : mmul P (mmul Q S) = mmul (mmul P Q) S.
Proof. apply M2_eq; cbn; ring. Qed.
Lemma mmul_mid_r P : mmul P mid = P.
Proof. apply M2_eq; cbn; ring. Qed.
Lemma pathM_from : forall os P, fold_left (fun acc o => mmul (oM o) acc) os P = mmul (pathM os) P.
Proof.
  unfold pathM. induction os as [|o os IH]; intros P; cbn [fold_left].
  - apply M2_eq; cbn; ring.
  - rewrite IH, (IH (mmul (oM o) mid)), mmul_mid_r. apply mmul_assoc.
Qed.
Lemma pathM_app os1 os2 : pathM (os1 ++ os2) = mmul (pathM os2) (pathM os1).
Proof. unfold pathM at 1. rewrite fold_left_app. apply pathM_from. Qed.
Lemma path_optic_M : forall t o, oM (path_optic o t) = pathM (o :: t).
Proof.
  unfold path_optic, pathM. intros t o. cbn [fold_left]. rewrite mmul_mid_r. revert o.
  induction t as [|x t IH]; intros o; cbn [fold_left]; [reflexivity|]. rewrite IH. reflexivity.
Qed.
Definition forward_media (os : list optic) : Prop := Forall (fun o => 0 < onf o /\ 0 < onb o /\ physical o) os.
Lemma pathM_det : forall os, forward_media os -> 0 < mdet (pathM os).
Proof.
  induction os as [|o os IH]; intros H; [unfold pathM, mdet; cbn; lra|].
  inversion H as [|? ? (H1 & H2 & _ & _ & H3) H4]; subst. change (o :: os) with ([o] ++ os). rewrite pathM_app, mdet_mmul.
  apply Rmult_lt_0_compat; [apply IH; exact H4|]. unfold pathM. cbn [fold_left]. rewrite mmul_mid_r, H3. now apply Rdiv_lt_0_compat.
Qed.
Lemma isStable_disc m M : matrix_is m M -> 1 / 100000 < Rabs (C_ M) -> isStable m = Ok (if Rlt_dec (disc M) 0 then true else false).
Proof.
  intros HM HP. assert (C_ M <> 0) as HC by (intros E; rewrite E, Rabs_R0 in HP; lra).
  destruct (root_im M HC) as [I1 I2]. unfold isStable, laserModes. rewrite (eigenModes_fin m M HM HP). cbn [bind].
  rewrite !mode_finite. cbn [bind]. destruct (Rlt_dec (disc M) 0) as [L|L].
  - destruct (I1 L) as [[P1 P2]|[P1 P2]]; destruct (Rlt_dec 0 (snd (root M 1))), (Rlt_dec 0 (snd (root M (-1)))); try lra; reflexivity.
  - destruct (I2 ltac:(lra)) as [P1 P2]. rewrite P1, P2. destruct (Rlt_dec 0 0); [lra|reflexivity].
Qed.
Lemma disc_cyclic P Q : disc (mmul P Q) = disc (mmul Q P).
Proof. unfold disc. cbn. ring. Qed.
Lemma den_not_0 M q : snd q <> 0 -> mdet M <> 0 -> c2add (c2scale (C_ M) q) (c2real (D_ M)) <> (0, 0).
Proof.
  intros Hq Hd E. destruct q as [x y]. pose proof (den_nonzero M x y Hq Hd) as K. rewrite E in K. unfold normsq in K. cbn in K. lra.
Qed.
Lemma round_trip_rotated P Q q : 0 < snd q -> 0 < mdet P -> 0 < mdet Q -> round_trip (mmul Q P) q -> round_trip (mmul P Q) (mobius P q).
Proof.
  intros Hq HP HQ [_ H]. pose proof (mobius_up P q Hq HP) as HU. split.
  - apply den_not_0; [lra|]. rewrite mdet_mmul. pose proof (Rmult_lt_0_compat _ _ HP HQ). lra.
  - rewrite mobius_mul by lra. f_equal. rewrite <- mobius_mul by lra. exact H.
Qed.
Lemma laserModes_one m M q : matrix_is m M -> 1 / 100000 < Rabs (C_ M) -> mdet M <> 0 -> round_trip M q -> 0 < snd q -> laserModes m = Ok [mode q].
Proof.
  intros HM HP HD HR Hq. destruct (modes_ok m M HM HP HD) as (q1 & q2 & l & E & R1 & R2 & RA & EL & LL & LI & _).
  assert (In (mode q) l) as Hin.
  { apply LI. split; [destruct (RA q HR) as [-> | ->]; auto|]. rewrite mode_finite. destruct (Rlt_dec 0 (snd q)); [reflexivity|contradiction]. }
  rewrite EL. destruct l as [|x [|y l]]; [contradiction| |cbn in LL; lia]. destruct Hin as [->|[]]. reflexivity.
Qed.
Lemma group_matrix es os : Forall2 (fun e o => describes (emat e) o) es os -> chain os -> os <> [] ->
  exists g, MatrixGroup_new es "" = Ok g /\ matrix_is (gmat g) (pathM os).
Proof.
  intros F C N. destruct (group_tracks es os F C N) as (g & E & H). exists g. split; [exact E|].
  destruct os as [|o t]; [easy|]. specialize (H _ _ eq_refl). apply tracks_matrix in H as (H1 & H2 & H3 & H4 & _).
  unfold matrix_is. rewrite <- path_optic_M. auto.
Qed.
(** the mode seen from another place of the cavity *)
Theorem cavity_start es1 os1 es2 os2 :
  Forall2 (fun e o => describes (emat e) o) es1 os1 -> Forall2 (fun e o => describes (emat e) o) es2 os2 ->
  os1 <> [] -> os2 <> [] -> chain (os1 ++ os2) -> chain (os2 ++ os1) ->
  exists g g', MatrixGroup_new (es1 ++ es2) "" = Ok g /\ MatrixGroup_new (es2 ++ es1) "" = Ok g' /\
    (hasPower (gmat g) = true -> hasPower (gmat g') = true -> isStable (gmat g) = isStable (gmat g')).
Proof.
  intros F1 F2 N1 N2 C1 C2.
  destruct (group_matrix (es1 ++ es2) (os1 ++ os2)) as (g & E & HM); [now apply Forall2_app|exact C1|destruct os1; easy|].
  destruct (group_matrix (es2 ++ es1) (os2 ++ os1)) as (g' & E' & HM'); [now apply Forall2_app|exact C2|destruct os2; easy|].
  exists g, g'. split; [exact E|]. split; [exact E'|]. intros P P'.
  assert (forall m M, matrix_is m M -> hasPower m = true -> 1 / 100000 < Rabs (C_ M)) as HP.
  { intros m M (_ & _ & HC & _) H. unfold hasPower, isNotZero in H. rewrite eps5_val, HC in H. cbn in H. apply Rltb_true in H. lra. }
  rewrite (isStable_disc _ _ HM (HP _ _ HM P)), (isStable_disc _ _ HM' (HP _ _ HM' P')), !pathM_app, disc_cyclic. reflexivity.
Qed.
Theorem cavity_mode es1 os1 es2 os2 b :
  Forall2 (fun e o => describes (emat e) o) es1 os1 -> Forall2 (fun e o => describes (emat e) o) es2 os2 ->
  os1 <> [] -> os2 <> [] -> chain (os1 ++ os2) -> chain (os2 ++ os1) -> forward_media (os1 ++ os2) -> 
  (forall o t, os1 = o :: t -> onf o = 1) ->
  exists g g' g1, MatrixGroup_new (es1 ++ es2) "" = Ok g /\ MatrixGroup_new (es2 ++ es1) "" = Ok g' /\ MatrixGroup_new es1 "" = Ok g1 /\
    (hasPower (gmat g) = true -> hasPower (gmat g') = true -> laserModes (gmat g) = Ok [b] ->
     exists b1 b', mul_beam (gmat g1) b = Ok b1 /\ laserModes (gmat g') = Ok [b'] /\ bq b' = bq b1).
Proof.
  intros F1 F2 N1 N2 C1 C2 HF H1.
  destruct (group_matrix (es1 ++ es2) (os1 ++ os2)) as (g & E & HM); [now apply Forall2_app|exact C1|destruct os1; easy|].
  destruct (group_matrix (es2 ++ es1) (os2 ++ os1)) as (g' & E' & HM'); [now apply Forall2_app|exact C2|destruct os2; easy|].
  assert (chain os1) as C0.
  { destruct os1 as [|o t]; [exact I|]. cbn in C1 |- *. destruct C1 as [P C1]. split; [exact P|]. clear - C1. revert C1. generalize (onb o).
    induction t as [|x t IH]; intros n C1; [exact I|]. cbn in *. destruct C1 as (A & B & C). auto. }
  destruct (group_tracks es1 os1 F1 C0 N1) as (g1 & E1 & HT).
  exists g, g', g1. split; [exact E|]. split; [exact E'|]. split; [exact E1|]. intros P P' L.
  assert (forall m M, matrix_is m M -> hasPower m = true -> 1 / 100000 < Rabs (C_ M)) as HP.
  { intros m M (_ & _ & HC & _) H. unfold hasPower, isNotZero in H. rewrite eps5_val, HC in H. cbn in H. apply Rltb_true in H. lra. }
  apply Forall_app in HF as [HF1 HF2]. pose proof (pathM_det os1 HF1) as D1. pose proof (pathM_det os2 HF2) as D2.
  rewrite pathM_app in HM, HM'. set (P1 := pathM os1) in *. set (P2 := pathM os2) in *.
  assert (0 < mdet (mmul P2 P1)) as D21 by (rewrite mdet_mmul; now apply Rmult_lt_0_compat).
  assert (0 < mdet (mmul P1 P2)) as D12 by (rewrite mdet_mmul; now apply Rmult_lt_0_compat).
  destruct (modes_ok (gmat g) _ HM (HP _ _ HM P) ltac:(lra)) as (q1 & q2 & l & EE & R1 & R2 & RA & EL & LL & LI & _).
  rewrite EL in L. injection L as ->. destruct (proj1 (LI b) (or_introl eq_refl)) as [Hb Hfin].
  assert (exists q, b = mode q /\ round_trip (mmul P2 P1) q) as (q & -> & Hq) by (destruct Hb as [-> | ->]; eauto).
  rewrite mode_finite in Hfin. destruct (Rlt_dec 0 (snd q)) as [Hy|]; [|discriminate].
  pose proof (round_trip_rotated P1 P2 q Hy D1 D2 Hq) as HR. pose proof (mobius_up P1 q Hy D1) as HU.
  pose proof (laserModes_one _ _ _ HM' (HP _ _ HM' P') ltac:(lra) HR HU) as EL'.
  destruct os1 as [|o t]; [easy|]. specialize (H1 _ _ eq_refl). specialize (HT _ _ eq_refl).
  assert (onf (path_optic o t) = 1) as Onf.
  { unfold path_optic. clear - H1. revert o H1. induction t as [|x t IH]; intros o H1; cbn [fold_left]; [exact H1|]. apply IH. exact H1. }
  assert (0 < onb (path_optic o t)) as Onb.
  { unfold path_optic. clear - HF1. inversion HF1 as [|? ? (_ & A & _) B]; subst. clear HF1. revert o A. induction B as [|x t (X1 & X2 & X3) B IH]; intros o A; cbn [fold_left]; [exact A|].
    apply IH. exact X2. }
  pose proof (tracks_matrix _ _ HT) as (EA & EB & EC & ED & Elen).
  rewrite path_optic_M in EA, EB, EC, ED. fold P1 in EA, EB, EC, ED.
  assert (mfi (gmat g1) = Fin 1) as Efi by (destruct HT as [D|[_ D]]; [rewrite (d_nf _ _ D), Onf|rewrite (d_nf _ _ D)]; reflexivity).
  assert (exists nb, mbi (gmat g1) = Fin nb /\ 0 < nb) as (nb & Ebi & Hnb).
  { destruct HT as [D|[_ D]]; rewrite (d_nb _ _ D); eexists; (split; [reflexivity|]); [exact Onb|cbn; lra]. }
  assert (wl_default = Fin (6328 / 10000000)) as Ew by (unfold wl_default; now rewrite ndec_val by (cbn; lra)).
  unfold mul_beam, mode. rewrite Ew. cbn [bn bq bwl bz bclip]. rewrite Efi.
  change (neqb (Fin 1) (Fin 1)) with (Reqb 1 1). unfold Reqb. destruct (Req_EM_T 1 1); [|contradiction]. cbn [negb].
  rewrite EA, EB, EC, ED, Ebi, Elen, !cscale_fin, !cof_fin, !cadd_fin. rewrite cdiv_fin by (apply den_not_0; lra). cbn [bind].
  change (c2div (c2add (c2scale (A_ P1) q) (B_ P1, 0)) (c2add (c2scale (C_ P1) q) (D_ P1, 0))) with (mobius P1 q).
  match goal with |- context [bw (mkBeam ?a ?b ?c ?d ?f)] => assert (exists w, bw (mkBeam a b c d f) = Ok w) as [w Ew'] end.
  { eexists. apply (bw_fin (mobius P1 q) (6328 / 10000000) (0 + oL (path_optic o t)) nb false HU ltac:(lra) Hnb). }
  rewrite Ew'. cbn [bind]. do 2 eexists. split; [reflexivity|]. split; [exact EL'|]. reflexivity.
Qed.
