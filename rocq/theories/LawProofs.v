(** Textbook laws that the reported quantities obey: Newton's formula, the combination of two elements, thin lenses in
    contact, relays of 4f systems and the round trip of conjugates. *)
From Coq Require Import ZArith Reals Lra Lia List Bool String Psatz Permutation.
From Verif Require Import Base Nums Optics Group Spec MatrixProofs ElementProofs GroupProofs TraceProofs RayProofs CardinalProofs.
Import ListNotations.
Open Scope R_scope.

(** ** Newton's formula *)
(** the object at [d] in front of the element, in the medium in front of it *)
Lemma with_object m o d : describes m o -> physical o ->
  exists s p, SpaceM (Fin d) (Fin (onf o)) PInf = Ok s /\ mul_matrix m s = Ok p /\ describes p (ocomp o (o_space d (onf o))) /\
    physical (ocomp o (o_space d (onf o))).
Proof.
  intros D P. exists (mat_of (o_space d (onf o)) PInf PInf false "").
  assert (physical (o_space d (onf o))) as Ps by (apply p_space, P).
  destruct (mul_matrix_matched m (mat_of (o_space d (onf o)) PInf PInf false "") o (o_space d (onf o)) D
    (mat_of_describes _ _ _ _ _) P Ps eq_refl) as (p & E & Dp & _).
  exists p. split; [apply SpaceM_ok; [apply P|exact I]|]. split; [exact E|]. split; [exact Dp|]. apply physical_ocomp; auto.
Qed.
Theorem newton m o d : describes m o -> physical o -> power o ->
  exists F1 F2 f1 f2 s p, focusPositions m (Fin 0) = Ok (Some (Fin F1, Fin F2)) /\
    effectiveFocalLengths m = Ok (Fin f1, Fin f2) /\
    SpaceM (Fin d) (Fin (onf o)) PInf = Ok s /\ mul_matrix m s = Ok p /\
    let x := F1 - (- d) in
    (x = 0 -> forwardConjugate p = Ok (PInf, None)) /\
    (x <> 0 -> exists d' c, forwardConjugate p = Ok (Fin d', Some c) /\
       let x' := (oL o + d') - F2 in
       x * x' = f1 * f2 /\ mA c = Fin (- (f1 / x)) /\ mA c = Fin (- (x' / f2))).
Proof.
  intros D P H. pose proof (power_C _ H) as HC. destruct (with_object m o d D P) as (s & p & Es & Ep & Dp & Pp).
  do 4 eexists. exists s, p. split; [apply focus_ok; eauto|]. split; [apply focal_ok; eauto|]. split; [exact Es|]. split; [exact Ep|].
  destruct P as (P1 & P2 & P3). unfold mdet in P3. cbn zeta. split; intros Hx.
  - apply (forward_none p _ Dp Pp). cbn. apply (Rmult_eq_reg_r (/ C_ (oM o))); [|now apply Rinv_neq_0_compat].
    replace ((C_ (oM o) * d + D_ (oM o) * 1) * / C_ (oM o)) with (0 + D_ (oM o) / C_ (oM o) - - d) by (field; auto). lra.
  - assert (C_ (oM o) * d + D_ (oM o) <> 0) as HD.
    { intros E. apply Hx. replace (0 + D_ (oM o) / C_ (oM o) - - d) with ((C_ (oM o) * d + D_ (oM o)) / C_ (oM o)) by (field; auto).
      rewrite E. unfold Rdiv. ring. }
    destruct (forward_spec p _ Dp Pp) as (d' & c & oc & E & Dc & B0 & _ & _ & _ & Em & _); [cbn; lra|].
    exists d', c. split; [exact E|]. dsc Dc. rewrite Em in *. cbn in B0 |- *.
    set (A := A_ (oM o)) in *. set (B := B_ (oM o)) in *. set (C := C_ (oM o)) in *. set (DD := D_ (oM o)) in *. set (n := onf o / onb o) in *.
    assert (d' = - (A * d + B) / (C * d + DD)) as -> by (apply (Rmult_eq_reg_r (C * d + DD)); [field_simplify; [lra|auto]|auto]).
    assert (0 + DD / C - - d = (C * d + DD) / C) as -> by (field; auto).
    clear - HC HD P3. clearbody A B C DD n. subst n.
    repeat split; [|f_equal|f_equal]; field; auto.
Qed.

(** ** Object and image change places *)
Theorem conjugates_reversed m o d d' c s p : describes m o -> physical o -> onf o = 1 ->
  SpaceM (Fin d) (Fin 1) PInf = Ok s -> mul_matrix m s = Ok p -> forwardConjugate p = Ok (Fin d', Some c) ->
  exists s' q c', SpaceM (Fin d') (Fin (onb o)) PInf = Ok s' /\ mul_matrix s' m = Ok q /\ backwardConjugate q = Ok (Fin d, c') /\
    mA c' = mA c /\ mB c' = mB c /\ mC c' = mC c /\ mD c' = mD c.
Proof.
  intros D P E1 Es Ep Ef. destruct (with_object m o d D P) as (s0 & p0 & Es0 & Ep0 & Dp & Pp). rewrite E1 in Es0, Dp, Pp.
  rewrite Es in Es0. injection Es0 as <-. rewrite Ep in Ep0. injection Ep0 as <-.
  destruct (Req_dec (D_ (oM (ocomp o (o_space d 1)))) 0) as [Hz|Hz].
  { destruct (forward_none p _ Dp Pp Hz) as [K _]. congruence. }
  destruct (forward_spec p _ Dp Pp Hz) as (d0 & c0' & oc & K & Dc & B0 & _ & _ & _ & Em & _). rewrite Ef in K. injection K as <- <-.
  exists (mat_of (o_space d' (onb o)) PInf PInf false "").
  assert (physical (o_space d' (onb o))) as Ps by (apply p_space, P).
  destruct (mul_matrix_matched (mat_of (o_space d' (onb o)) PInf PInf false "") m (o_space d' (onb o)) o
    (mat_of_describes _ _ _ _ _) D Ps P eq_refl) as (q & Eq & Dq & _).
  exists q. assert (physical (ocomp (o_space d' (onb o)) o)) as Pq by (apply physical_ocomp; auto).
  cbn in Hz. pose proof B0 as B1. rewrite Em in B1. cbn in B1.
  assert (A_ (oM o) + d' * C_ (oM o) <> 0) as HA.
  { intros HA. destruct P as (P1 & P2 & P3). unfold mdet in P3.
    assert (onf o / onb o <> 0) as N0 by (apply Rmult_integral_contrapositive_currified; [auto|now apply Rinv_neq_0_compat]).
    assert (A_ (oM o) = - d' * C_ (oM o)) as HA' by lra. rewrite HA' in B1, P3.
    assert (d' * D_ (oM o) + B_ (oM o) = 0) as HB by lra. apply N0. rewrite <- P3.
    replace (B_ (oM o)) with (- (d' * D_ (oM o))) by lra. ring. }
  destruct (backward_spec q _ Dq Pq) as (e & c' & oc' & K & Dc' & B0' & _ & _ & _ & Em' & _); [exact E1|cbn; lra|].
  assert (e = d) as ->.
  { rewrite Em' in B0'. cbn in B0'. apply (Rmult_eq_reg_l (A_ (oM o) + d' * C_ (oM o))); [|exact HA]. lra. }
  exists c'. split; [apply SpaceM_ok; [apply P|exact I]|]. split; [exact Eq|]. split; [exact K|].
  dsc Dc. dsc Dc'. rewrite B0, B0'. rewrite Em, Em'. cbn. repeat split; f_equal; ring.
Qed.

(** ** Two elements one after the other *)
Lemma group_tracks es os : Forall2 (fun e o => describes (emat e) o) es os -> chain os -> os <> [] ->
  exists g, MatrixGroup_new es "" = Ok g /\ forall o t, os = o :: t -> tracks (gmat g) (path_optic o t).
Proof. intros F C N. destruct (MatrixGroup_new_ok es os "" F C N) as (g & E & _ & _ & _ & _ & _ & H). exists g. auto. Qed.
Lemma tracks_matrix m acc : tracks m acc ->
  mA m = Fin (A_ (oM acc)) /\ mB m = Fin (B_ (oM acc)) /\ mC m = Fin (C_ (oM acc)) /\ mD m = Fin (D_ (oM acc)) /\ mL m = Fin (oL acc).
Proof. intros [D|[E D]]; dsc D; [auto|]. rewrite E. auto. Qed.
Theorem two_elements e1 e2 o1 o2 d : describes (emat e1) o1 -> describes (emat e2) o2 -> physical o1 -> physical o2 ->
  power o1 -> power o2 -> onf o2 = onb o1 ->
  exists s g F1 F1' F2 F2' f1 f1' f2 f2', Space (Fin d) (Fin (onb o1)) PInf = Ok s /\ MatrixGroup_new [e1; s; e2] "" = Ok g /\
    focusPositions (emat e1) (Fin 0) = Ok (Some (Fin F1, Fin F1')) /\ effectiveFocalLengths (emat e1) = Ok (Fin f1, Fin f1') /\
    focusPositions (emat e2) (Fin (oL o1 + d)) = Ok (Some (Fin F2, Fin F2')) /\ effectiveFocalLengths (emat e2) = Ok (Fin f2, Fin f2') /\
    let gap := F2 - F1' in
    (1 / 100000 < Rabs (gap / (f1' * f2')) -> effectiveFocalLengths (gmat g) = Ok (Fin (- (f1 * f2 / gap)), Fin (- (f1' * f2' / gap)))) /\
    (gap = 0 -> effectiveFocalLengths (gmat g) = Ok (PInf, PInf) /\ mA (gmat g) = Fin (- (f2 / f1')) /\ mC (gmat g) = Fin 0 /\ mD (gmat g) = Fin (- (f1 / f2'))).
Proof.
  intros D1 D2 P1 P2 H1 H2 En. pose proof (power_C _ H1) as C1. pose proof (power_C _ H2) as C2.
  exists (Leaf KSpace (mat_of (o_space d (onb o1)) PInf PInf false "")).
  assert (physical (o_space d (onb o1))) as Ps by (apply p_space, P1).
  destruct (group_tracks [e1; Leaf KSpace (mat_of (o_space d (onb o1)) PInf PInf false ""); e2] [o1; o_space d (onb o1); o2])
    as (g & E & HT); [|cbn; auto 10|discriminate|].
  { constructor; [exact D1|]. constructor; [apply mat_of_describes|]. constructor; [exact D2|constructor]. }
  specialize (HT _ _ eq_refl). exists g. do 8 eexists.
  split; [apply Space_ok; [apply P1|exact I]|]. split; [exact E|].
  split; [apply focus_ok; eauto|]. split; [apply focal_ok; eauto|]. split; [apply focus_ok; eauto|]. split; [apply focal_ok; eauto|].
  cbn zeta. set (o := path_optic o1 [o_space d (onb o1); o2]) in *.
  assert (C_ (oM o) = C_ (oM o1) * C_ (oM o2) * (oL o1 + d + D_ (oM o2) / C_ (oM o2) - (0 + oL o1 - A_ (oM o1) / C_ (oM o1)))) as EC
    by (cbn; field; auto).
  pose proof (physical_ocomp (o_space d (onb o1)) o1 Ps P1 eq_refl) as P12.
  pose proof (physical_ocomp o2 (ocomp (o_space d (onb o1)) o1) P2 P12 En) as Po. change (ocomp o2 _) with o in Po.
  set (gap := oL o1 + d + D_ (oM o2) / C_ (oM o2) - (0 + oL o1 - A_ (oM o1) / C_ (oM o1))) in *.
  destruct P1 as (Q1 & Q2 & Q3). destruct P2 as (R1' & R2' & R3'). unfold mdet in Q3, R3'.
  assert (gap / (-1 / C_ (oM o1) * (-1 / C_ (oM o2))) = C_ (oM o)) as EG by (rewrite EC; field; auto).
  split.
  - rewrite EG. intros Hp. change (power o) in Hp. pose proof (power_C _ Hp) as Cn.
    destruct HT as [HT|[HT _]]; [|rewrite HT in Cn; cbn in Cn; lra].
    rewrite (focal_ok _ _ HT Po Hp). rewrite EC in *. change (onf o) with (onf o1). change (onb o) with (onb o2).
    assert (gap <> 0) by (intros K; rewrite K in Cn; lra). clearbody gap.
    do 2 f_equal; f_equal; [rewrite En|]; field; repeat split; auto.
    all: try (rewrite <- En; auto).
  - intros G0. rewrite G0, Rmult_0_r in EC. destruct (tracks_matrix _ _ HT) as (TA & TB & TC & TD & _).
    rewrite TA, TC, TD, EC. split; [|split; [|split; [reflexivity|]]].
    + unfold effectiveFocalLengths. replace (hasPower (gmat g)) with false; [reflexivity|]. symmetry.
      unfold hasPower, isNotZero. rewrite eps5_val, TC, EC. cbn. rewrite Rabs_R0. apply Rltb_ge. lra.
    + f_equal. cbn. assert (d = - (D_ (oM o2) / C_ (oM o2)) - A_ (oM o1) / C_ (oM o1)) as -> by (unfold gap in G0; lra).
      rewrite <- R3'. field; auto.
    + f_equal. cbn. assert (d = - (D_ (oM o2) / C_ (oM o2)) - A_ (oM o1) / C_ (oM o1)) as -> by (unfold gap in G0; lra).
      rewrite <- Q3. field; auto.
Qed.

(** ** Many elements of one kind *)
Definition rsum (l : list R) : R := fold_right Rplus 0 l.
Definition rprod (l : list R) : R := fold_right Rmult 1 l.
Lemma rsum_perm l l' : Permutation l l' -> rsum l = rsum l'.
Proof. unfold rsum. induction 1; cbn [fold_right]; lra. Qed.
(** thin lenses in contact: the powers add up, in any order *)
Lemma contact_optic : forall fs c, Forall (fun f => f <> 0) fs ->
  path_optic (mkO (mk2 1 0 c 1) 0 1 1 (Some 0) (Some 0)) (map o_lens fs) =
  mkO (mk2 1 0 (c - rsum (map Rinv fs)) 1) 0 1 1 (Some 0) (Some 0).
Proof.
  induction fs as [|f fs IH]; intros c F; cbn [map path_optic fold_left rsum fold_right]; [rewrite Rminus_0_r; reflexivity|].
  inversion F as [|? ? Hf F']; subst. unfold path_optic in IH.
  replace (ocomp (o_lens f) (mkO (mk2 1 0 c 1) 0 1 1 (Some 0) (Some 0))) with (mkO (mk2 1 0 (c - / f) 1) 0 1 1 (Some 0) (Some 0)).
  - rewrite IH by auto. apply optic_eq; cbn; try reflexivity. apply M2_eq; cbn; try reflexivity. fold rsum. unfold rsum. ring.
  - apply optic_eq; cbn; try reflexivity; try (apply M2_eq; cbn; field; auto); try ring; f_equal; ring.
Qed.
Lemma air_matched os : Forall (fun o => physical o /\ onf o = 1 /\ onb o = 1) os -> matched 1 os.
Proof. induction 1 as [|o os (H1 & H2 & H3) F IH]; cbn; [exact I|]. rewrite H3. auto. Qed.
Theorem lenses_in_contact fs es : fs <> [] -> Forall (fun p => fst p <> 0 /\ positive (snd p)) fs ->
  Forall2 (fun p e => Lens (Fin (fst p)) (snd p) = Ok e) fs es ->
  exists g, MatrixGroup_new es "" = Ok g /\
    mA (gmat g) = Fin 1 /\ mB (gmat g) = Fin 0 /\ mC (gmat g) = Fin (- rsum (map (fun p => / fst p) fs)) /\ mD (gmat g) = Fin 1 /\ mL (gmat g) = Fin 0.
Proof.
  intros N F L.
  assert (Forall2 (fun e o => describes (emat e) o) es (map o_lens (map fst fs))) as HD.
  { clear N. revert F. induction L as [|p e fs es Hp L IH]; intros F; cbn [map]; constructor; inversion F as [|? ? [F1 F2] F3]; subst.
    - rewrite Lens_ok in Hp by auto. injection Hp as <-. apply mat_of_describes.
    - apply IH; auto. }
  assert (Forall (fun o => physical o /\ onf o = 1 /\ onb o = 1) (map o_lens (map fst fs))) as HA.
  { clear - F. induction F as [|p fs [H _] F IH]; cbn; constructor; auto. split; [apply p_lens|split; reflexivity]. }
  destruct fs as [|[f0 d0] fs]; [easy|]. cbn [map fst] in *.
  destruct (group_tracks es _ HD) as (g & E & HT); [|discriminate|].
  { inversion HA as [|? ? (K1 & _) K2]; subst. split; [exact K1|]. now apply air_matched. }
  exists g. split; [exact E|]. specialize (HT _ _ eq_refl).
  assert (Forall (fun f => f <> 0) (map fst fs)) as F0 by (inversion F; subst; clear - H2; induction H2 as [|p l [H _] F IH]; cbn; constructor; auto).
  pose proof (contact_optic (map fst fs) (-1 / f0) F0) as K. unfold thin in HT. change (o_lens f0) with (mkO (mk2 1 0 (-1 / f0) 1) 0 1 1 (Some 0) (Some 0)) in HT.
  rewrite K in HT. apply tracks_matrix in HT as (H1 & H2 & H3 & H4 & H5). cbn in H1, H2, H3, H4, H5.
  repeat split; auto. rewrite H3. f_equal. cbn. rewrite map_map.
  change (fold_right Rplus 0 (map (fun p : R * XR => / fst p) fs)) with (rsum (map (fun p => / fst p) fs)).
  inversion F as [|? ? [Hf _] _]; subst. cbn in Hf. field. exact Hf.
Qed.
Theorem contact_order fs fs' es es' : fs <> [] -> Forall (fun p => fst p <> 0 /\ positive (snd p)) fs ->
  Forall2 (fun p e => Lens (Fin (fst p)) (snd p) = Ok e) fs es -> Forall2 (fun p e => Lens (Fin (fst p)) (snd p) = Ok e) fs' es' ->
  Permutation fs fs' -> exists g g', MatrixGroup_new es "" = Ok g /\ MatrixGroup_new es' "" = Ok g' /\
    mA (gmat g) = mA (gmat g') /\ mB (gmat g) = mB (gmat g') /\ mC (gmat g) = mC (gmat g') /\ mD (gmat g) = mD (gmat g').
Proof.
  intros N F L L' P. destruct (lenses_in_contact fs es N F L) as (g & E & H1 & H2 & H3 & H4 & _).
  destruct (lenses_in_contact fs' es') as (g' & E' & K1 & K2 & K3 & K4 & _).
  - intros ->. apply Permutation_sym, Permutation_nil in P. easy.
  - rewrite Forall_forall in *. intros p Hp. apply F. eapply Permutation_in; [apply Permutation_sym; exact P|exact Hp].
  - exact L'.
  - exists g, g'. rewrite H1, H2, H3, H4, K1, K2, K3, K4. rewrite (rsum_perm _ _ (Permutation_map (fun p => / fst p) P)). auto 10.
Qed.

(** relays of 4f systems: the magnifications multiply *)
Definition o_4f (p : R * R) : optic :=
  mkO (mk2 (- snd p / fst p) 0 0 (- fst p / snd p)) (2 * (fst p + snd p)) 1 1 (Some (fst p)) (Some (2 * fst p + snd p)).
Lemma p_4f p : fst p <> 0 -> snd p <> 0 -> physical (o_4f p).
Proof. intros. split; [cbn; lra|]. split; [cbn; lra|]. unfold mdet. cbn. field; auto. Qed.
Lemma relay_optic : forall ps o, B_ (oM o) = 0 -> C_ (oM o) = 0 ->
  let r := path_optic o (map o_4f ps) in
  A_ (oM r) = A_ (oM o) * rprod (map (fun p => - snd p / fst p) ps) /\ B_ (oM r) = 0 /\ C_ (oM r) = 0 /\
  D_ (oM r) = D_ (oM o) * rprod (map (fun p => - fst p / snd p) ps) /\ oL r = oL o + rsum (map (fun p => 2 * (fst p + snd p)) ps).
Proof.
  induction ps as [|p ps IH]; intros o HB HC; cbn zeta; cbn [map path_optic fold_left rprod rsum fold_right].
  - repeat split; auto; lra.
  - specialize (IH (ocomp (o_4f p) o)). cbn zeta in IH. unfold path_optic in IH.
    destruct IH as (H1 & H2 & H3 & H4 & H5); [cbn; rewrite HB; ring|cbn; rewrite HC; ring|].
    rewrite H1, H2, H3, H4, H5. cbn. rewrite HB, HC. fold rprod. unfold rprod, rsum. repeat split; ring.
Qed.
Theorem relay ps es : ps <> [] -> Forall (fun p => fst p <> 0 /\ snd p <> 0) ps ->
  Forall2 (fun p e => System4f (Fin (fst p)) (Fin (snd p)) PInf PInf = Ok e) ps es ->
  exists g, MatrixGroup_new es "" = Ok g /\
    magnification (gmat g) = Some (Fin (rprod (map (fun p => - snd p / fst p) ps)), Fin (rprod (map (fun p => - fst p / snd p) ps))) /\
    effectiveFocalLengths (gmat g) = Ok (PInf, PInf) /\ mL (gmat g) = Fin (rsum (map (fun p => 2 * (fst p + snd p)) ps)).
Proof.
  intros N F L.
  assert (Forall2 (fun e o => describes (emat e) o) es (map o_4f ps)) as HD.
  { clear N. revert F. induction L as [|p e ps es Hp L IH]; intros F; cbn [map]; constructor; inversion F as [|? ? [F1 F2] F3]; subst.
    - destruct (System4f_ok (fst p) (snd p) PInf PInf F1 F2 I I) as (e' & E & D). rewrite E in Hp. injection Hp as <-. exact D.
    - apply IH; auto. }
  assert (Forall (fun o => physical o /\ onf o = 1 /\ onb o = 1) (map o_4f ps)) as HA.
  { clear - F. induction F as [|p ps [H1 H2] F IH]; cbn; constructor; auto. split; [now apply p_4f|split; reflexivity]. }
  destruct ps as [|p ps]; [easy|]. cbn [map] in *.
  destruct (group_tracks es _ HD) as (g & E & HT); [|discriminate|].
  { inversion HA as [|? ? (K1 & _) K2]; subst. split; [exact K1|]. now apply air_matched. }
  exists g. split; [exact E|]. specialize (HT _ _ eq_refl). apply tracks_matrix in HT as (H1 & H2 & H3 & H4 & H5).
  destruct (relay_optic ps (o_4f p) eq_refl eq_refl) as (K1 & K2 & K3 & K4 & K5). rewrite K1 in H1. rewrite K2 in H2. rewrite K3 in H3. rewrite K4 in H4. rewrite K5 in H5.
  split; [|split].
  - unfold magnification. replace (isImaging (gmat g)) with true.
    + rewrite H1, H4. reflexivity.
    + symmetry. unfold isImaging, isAlmostZero. rewrite eps5_val, H2. cbn. rewrite Rabs_R0. apply Rltb_lt. lra.
  - unfold effectiveFocalLengths. replace (hasPower (gmat g)) with false; [reflexivity|]. symmetry.
    unfold hasPower, isNotZero. rewrite eps5_val, H3. cbn. rewrite Rabs_R0. apply Rltb_ge. lra.
  - rewrite H5. reflexivity.
Qed.

(** plates: each shifts by the thickness over the index *)
Lemma slabs_optic : forall ps o, A_ (oM o) = 1 -> C_ (oM o) = 0 -> D_ (oM o) = 1 -> Forall (fun p => fst p <> 0) ps ->
  let r := path_optic o (map (fun p => o_thick (fst p) PInf PInf (snd p)) ps) in
  A_ (oM r) = 1 /\ B_ (oM r) = B_ (oM o) + rsum (map (fun p => snd p / fst p) ps) /\ C_ (oM r) = 0 /\ D_ (oM r) = 1 /\
  oL r = oL o + rsum (map snd ps).
Proof.
  induction ps as [|p ps IH]; intros o HA HC HD F; cbn zeta; cbn [map path_optic fold_left rsum fold_right].
  - repeat split; auto; lra.
  - inversion F as [|? ? Hp F']; subst. specialize (IH (ocomp (o_thick (fst p) PInf PInf (snd p)) o)). cbn zeta in IH. unfold path_optic in IH.
    destruct IH as (H1 & H2 & H3 & H4 & H5); auto; try (cbn; rewrite ?HA, ?HC, ?HD; field; auto).
    rewrite H1, H2, H3, H4, H5. cbn. rewrite HD. unfold rsum. repeat split; try reflexivity; try field; auto; ring.
Qed.
Lemma p_thick n r1 r2 t : n <> 0 -> physical (o_thick n r1 r2 t).
Proof.
  intros H. unfold o_thick. split; [cbn; lra|]. split; [cbn; lra|]. unfold mdet. cbn. field. exact H.
Qed.
Theorem plates ps es : ps <> [] -> Forall (fun p => fst p <> 0) ps ->
  Forall2 (fun p e => DielectricSlab (Fin (fst p)) (Fin (snd p)) PInf = Ok e) ps es ->
  exists g, MatrixGroup_new es "" = Ok g /\
    mA (gmat g) = Fin 1 /\ mB (gmat g) = Fin (rsum (map (fun p => snd p / fst p) ps)) /\ mC (gmat g) = Fin 0 /\ mD (gmat g) = Fin 1 /\
    mL (gmat g) = Fin (rsum (map snd ps)).
Proof.
  intros N F L.
  assert (Forall2 (fun e o => describes (emat e) o) es (map (fun p => o_thick (fst p) PInf PInf (snd p)) ps)) as HD.
  { clear N. revert F. induction L as [|p e ps es Hp L IH]; intros F; cbn [map]; constructor; inversion F as [|? ? F1 F3]; subst.
    - rewrite DielectricSlab_ok in Hp by (auto; exact I). injection Hp as <-. apply mat_of_describes.
    - apply IH; auto. }
  assert (Forall (fun o => physical o /\ onf o = 1 /\ onb o = 1) (map (fun p => o_thick (fst p) PInf PInf (snd p)) ps)) as HA.
  { clear - F. induction F as [|p ps H1 F IH]; cbn [map]; constructor; auto. split; [now apply p_thick|split; reflexivity]. }
  destruct ps as [|p ps]; [easy|]. cbn [map] in *. inversion F as [|? ? Fp F']; subst.
  destruct (group_tracks es _ HD) as (g & E & HT); [|discriminate|].
  { inversion HA as [|? ? (K1 & _) K2]; subst. split; [exact K1|]. now apply air_matched. }
  exists g. split; [exact E|]. specialize (HT _ _ eq_refl). apply tracks_matrix in HT as (H1 & H2 & H3 & H4 & H5).
  destruct (slabs_optic ps (o_thick (fst p) PInf PInf (snd p))) as (K1 & K2 & K3 & K4 & K5); auto; try (cbn; field; auto).
  rewrite H1, H2, H3, H4, H5, K1, K2, K3, K4, K5. unfold rsum. cbn [map fold_right]. repeat split; f_equal; cbn [o_thick o_interface o_space ocomp oM mmul free curv A_ B_ C_ D_ oL]; [field; auto|lra].
Qed.
(** the lensmaker's equation *)
Theorem lensmaker n r1 r2 t diam e : n <> 0 -> r1 <> 0 -> r2 <> 0 -> positive diam ->
  ThickLens (Fin n) (Fin r1) (Fin r2) (Fin t) diam = Ok e ->
  let P := (n - 1) * (/ r1 - / r2 + (n - 1) * t / (n * r1 * r2)) in
  mC (emat e) = Fin (- P) /\
  (1 / 10 ^ 5 < Rabs P -> effectiveFocalLengths (emat e) = Ok (Fin (/ P), Fin (/ P))) /\
  (Rabs P <= 1 / 10 ^ 5 -> effectiveFocalLengths (emat e) = Ok (PInf, PInf)).
Proof.
  intros Hn H1 H2 Hd E P. rewrite ThickLens_ok in E by auto. injection E as <-. cbn [emat].
  pose proof (mat_of_describes (o_thick n (Fin r1) (Fin r2) t) diam PInf false "") as D.
  set (m := mat_of _ _ _ _ _) in *. set (o := o_thick _ _ _ _) in *.
  assert (C_ (oM o) = - P) as EC by (unfold P, o; cbn; field; auto).
  assert (physical o) as Po by (now apply p_thick).
  split; [rewrite (d_C _ _ D), EC; reflexivity|]. split; intros HP.
  - assert (power o) as Hp by (unfold power; rewrite EC, Rabs_Ropp; lra).
    assert (P <> 0) as P0 by (intros Z; rewrite Z, Rabs_R0 in HP; lra).
    rewrite (focal_ok _ _ D Po Hp), EC. change (onf o) with 1. change (onb o) with 1. do 3 f_equal; field; exact P0.
  - unfold effectiveFocalLengths. destruct (hasPower m) eqn:Z; [|reflexivity].
    apply (hasPower_iff _ _ D) in Z. unfold power in Z. rewrite EC, Rabs_Ropp in Z. lra.
Qed.
