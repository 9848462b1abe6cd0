(** Flipping: twice is the identity, once is light travelling backwards. *)
From Coq Require Import ZArith Reals Lra Lia List Bool String.
From Verif Require Import Base Nums Optics Group Spec MatrixProofs ElementProofs GroupProofs
  TraceProofs RayProofs CardinalProofs StrictProofs.
Import ListNotations.
Open Scope R_scope.

(** ** Leaves *)
(** leaves whose flipped matrix is that of light travelling backwards: everything but
    mirrors and generic matrices with A <> D *)
Definition mirror_ok (km : @kind XR * @mat XR) : Prop :=
  match fst km with
  | KCurvedMirror => False
  | KInterface _ _ _ | KThickLens _ _ _ | KSlab _ _ _ => True
  | _ => mA (snd km) = mD (snd km)
  end.

(** leaves whose vertices are not moved by a flip *)
Definition vsym (km : @kind XR * @mat XR) : Prop :=
  (mfv (snd km) = None /\ mbv (snd km) = None) \/
  (mL (snd km) = Fin 0 /\ mfv (snd km) = Some (Fin 0) /\ mbv (snd km) = Some (Fin 0)).

(** same light, vertices aside *)
Definition sim (a b : optic) : Prop :=
  oM a = oM b /\ oL a = oL b /\ onf a = onf b /\ onb a = onb b.

Lemma nopp_nopp (x : XR) : nopp (nopp x) = x.
Proof. destruct x; cbn; auto. f_equal. ring. Qed.

Lemma mrev_sym M : A_ M = D_ M -> mdet M = 1 -> mrev M = M.
Proof.
  intros E H. apply M2_eq; unfold mrev; cbn; rewrite H, ?E; field.
Qed.

Lemma physical_air o : physical o -> onf o = onb o -> mdet (oM o) = 1.
Proof. intros (P1 & P2 & P3) E. rewrite P3, E. field; auto. Qed.

Lemma interface_rev n1 n2 r : n1 <> 0 -> n2 <> 0 -> radius_ok r ->
  oM (o_interface n2 n1 (nopp r)) = mrev (oM (o_interface n1 n2 r)).
Proof.
  intros H1 H2 Hr. cbn [o_interface oM]. rewrite curv_opp by auto.
  apply M2_eq; unfold mrev, mdet; cbn; field; auto.
Qed.

Lemma thick_rev n r1 r2 t : n <> 0 -> radius_ok r1 -> radius_ok r2 ->
  oM (o_thick n (nopp r2) (nopp r1) t) = mrev (oM (o_thick n r1 r2 t)).
Proof.
  intros Hn H1 H2.
  pose proof (p_thick n r1 r2 t Hn) as (_ & _ & P3).
  rewrite o_thick_eq in P3 by auto. cbn [oM onf onb] in P3.
  rewrite !o_thick_eq by auto. cbn [oM]. rewrite !curv_opp by auto.
  unfold mrev. rewrite P3. apply M2_eq; cbn; field; auto.
Qed.

Definition flipped_optic (o : optic) (M : M2) : optic :=
  mkO M (oL o) (onb o) (onf o) (obv o) (ofv o).

(** one flip of any leaf of the library succeeds, two restore it *)
Lemma flip_leaf_twice k m o : describes m o -> physical o -> leaf_spec k o ->
  exists k' m' o', flip_leaf k m = Ok (Leaf k' m') /\ describes m' o' /\ physical o' /\
    leaf_spec k' o' /\ oL o' = oL o /\ onf o' = onb o /\ onb o' = onf o /\
    ofv o' = obv o /\ obv o' = ofv o /\ flip_leaf k' m' = Ok (Leaf k m) /\
    (mirror_ok (k, m) -> mirror_ok (k', m') /\ oM o' = mrev (oM o)) /\
    mdiam m' = mdiam m /\ mna m' = mna m /\ mlabel m' = mlabel m /\
    mflip m' = negb (mflip m) /\
    (* mirrors: the curvature changes sign; matrices of plain elements are kept *)
    (k = KCurvedMirror -> oM o' = mk2 (A_ (oM o)) (B_ (oM o)) (- C_ (oM o)) (D_ (oM o))) /\
    (match k with KInterface _ _ _ | KThickLens _ _ _ | KSlab _ _ _ | KCurvedMirror => True
     | _ => oM o' = oM o end).
Proof.
  intros D P S.
  assert (flip_mat (flip_mat m) = m) as FF.
  { destruct m; unfold flip_mat; cbn. now rewrite negb_involutive. }
  assert (forall k, flip_leaf k m = Ok (Leaf k (flip_mat m)) ->
     flip_leaf k (flip_mat m) = Ok (Leaf k (flip_mat (flip_mat m))) ->
     leaf_spec k o -> leaf_spec k (flipped_optic o (oM o)) -> onf o = onb o ->
     (mirror_ok (k, m) -> mirror_ok (k, flip_mat m) /\ mA m = mD m) ->
     k <> KCurvedMirror ->
     exists k' m' o', flip_leaf k m = Ok (Leaf k' m') /\ describes m' o' /\ physical o' /\
    leaf_spec k' o' /\ oL o' = oL o /\ onf o' = onb o /\ onb o' = onf o /\
    ofv o' = obv o /\ obv o' = ofv o /\ flip_leaf k' m' = Ok (Leaf k m) /\
    (mirror_ok (k, m) -> mirror_ok (k', m') /\ oM o' = mrev (oM o)) /\
    mdiam m' = mdiam m /\ mna m' = mna m /\ mlabel m' = mlabel m /\
    mflip m' = negb (mflip m) /\
    (k = KCurvedMirror -> oM o' = mk2 (A_ (oM o)) (B_ (oM o)) (- C_ (oM o)) (D_ (oM o))) /\
    (match k with KInterface _ _ _ | KThickLens _ _ _ | KSlab _ _ _ | KCurvedMirror => True
     | _ => oM o' = oM o end)) as Plain.
  { intros k' F1 F2 S1 S2 En Hm Hk. exists k', (flip_mat m), (flipped_optic o (oM o)).
    split; auto. split; [constructor; cbn; apply D|].
    split. { destruct P as (P1 & P2 & P3). unfold physical; cbn. repeat split; auto.
             rewrite P3, En. reflexivity. }
    split; auto. cbn. repeat split; auto.
    - rewrite F2, FF. reflexivity.
    - destruct (Hm H) as [_ E]. rewrite (d_A _ _ D), (d_D _ _ D) in E. injection E as E.
      symmetry. apply mrev_sym; auto. now apply physical_air.
    - intros. contradiction.
    - destruct k'; auto. }
  destruct k as [|f hh| | |n1 n2 rr|nn rr1 rr2|nn rr1 rr2| |n alpha]; cbn [leaf_spec] in S;
    try (apply Plain; [reflexivity|reflexivity|exact S|cbn; auto|exact S| |discriminate];
         unfold mirror_ok; cbn; auto; fail).
  - (* mirror *)
    destruct S as [En HB].
    exists KCurvedMirror, (set_ABCD (flip_mat m) (mA m) (mB m) (nopp (mC m)) (mD m)),
      (flipped_optic o (mk2 (A_ (oM o)) (B_ (oM o)) (- C_ (oM o)) (D_ (oM o)))).
    split; [reflexivity|].
    split; [constructor; cbn; dsc D; reflexivity|].
    split. { destruct P as (P1 & P2 & P3). unfold physical; cbn. repeat split; auto.
      unfold mdet in *; cbn. rewrite HB in *. rewrite <- En in *. lra. }
    split; [cbn; auto|]. cbn. repeat split; auto.
    + rewrite (nopp_nopp (mC m)) || change (xopp (xopp (mC m))) with (nopp (nopp (mC m))).
      rewrite ?nopp_nopp. destruct m; unfold set_ABCD, flip_mat; cbn.
      now rewrite negb_involutive.
    + contradiction.
  - (* interface *)
    destruct S as (a & b & -> & -> & Hr & HM & E1 & E2). pose proof P as (P1 & P2 & P3).
    assert (a <> 0) as Ha by congruence. assert (b <> 0) as Hb by congruence.
    exists (KInterface (Fin b) (Fin a) (nopp rr)),
      (set_ABCD (flip_mat m) (mA m) (mB m) (Fin (- (a - b) / a * curv (nopp rr))) (Fin (b / a))),
      (flipped_optic o (oM (o_interface b a (nopp rr)))).
    split. { cbn [flip_leaf]. rewrite interface_C_ok by auto using radius_ok_opp. cbn [bind].
      rewrite pdiv_fin by auto. reflexivity. }
    split. { constructor; cbn; dsc D; try rewrite HM; cbn; try reflexivity; congruence. }
    split. { unfold physical; cbn. repeat split; try congruence. unfold mdet; cbn.
      rewrite E1, E2. field; auto. }
    split. { cbn. exists b, a. repeat split; auto using radius_ok_opp. }
    cbn [oL onf onb ofv obv flipped_optic]. repeat split; auto.
    + cbn [flip_leaf]. rewrite nopp_nopp, interface_C_ok by auto. cbn [bind].
      rewrite pdiv_fin by auto. cbn [bind]. do 2 f_equal.
      rewrite (describes_mat_of m o D). unfold set_ABCD, flip_mat, mat_of; cbn.
      rewrite negb_involutive, HM. reflexivity.
    + cbn [oM flipped_optic]. rewrite HM. now apply interface_rev.
    + discriminate.
  - (* thick lens *)
    destruct S as (x & -> & Hx & Hr1 & Hr2 & HM & E1 & E2).
    set (Mf := oM (o_thick x (nopp rr2) (nopp rr1) (oL o))).
    exists (KThickLens (Fin x) (nopp rr2) (nopp rr1)),
      (set_ABCD (flip_mat m) (Fin (A_ Mf)) (Fin (B_ Mf)) (Fin (C_ Mf)) (Fin (D_ Mf))),
      (flipped_optic o Mf).
    split. { cbn [flip_leaf]. rewrite (d_L _ _ D).
      rewrite thick_A_ok by auto using radius_ok_opp. cbn [bind].
      rewrite thick_B_ok by auto. cbn [bind].
      rewrite thick_C_ok by auto using radius_ok_opp. cbn [bind].
      rewrite thick_D_ok by auto using radius_ok_opp. cbn [bind].
      unfold Mf. rewrite o_thick_eq by auto. reflexivity. }
    split. { constructor; cbn [set_ABCD mA mB mC mD mL mfi mbi mfv mbv flip_mat oM oL onf onb ofv obv flipped_optic];
        dsc D; reflexivity. }
    split. { pose proof (p_thick x (nopp rr2) (nopp rr1) (oL o) Hx) as (Q1 & Q2 & Q3).
      unfold physical; cbn [oM onf onb flipped_optic]. repeat split; try lra. fold Mf in Q3. rewrite Q3.
      rewrite o_thick_eq by auto. cbn. rewrite E1, E2. reflexivity. }
    split. { cbn. exists x. repeat split; auto using radius_ok_opp. }
    cbn [oL onf onb ofv obv flipped_optic]. repeat split; auto.
    + cbn [flip_leaf set_ABCD flip_mat mL]. rewrite (d_L _ _ D), !nopp_nopp.
      rewrite thick_A_ok by auto. cbn [bind].
      rewrite thick_B_ok by auto. cbn [bind].
      rewrite thick_C_ok by auto. cbn [bind].
      rewrite thick_D_ok by auto. cbn [bind].
      rewrite o_thick_eq in HM by auto. cbn [oM] in HM.
      do 2 f_equal. rewrite (describes_mat_of m o D). unfold set_ABCD, flip_mat, mat_of; cbn.
      rewrite negb_involutive, HM. reflexivity.
    + cbn [oM flipped_optic]. rewrite HM. unfold Mf. now apply thick_rev.
    + discriminate.
  - (* slab *)
    destruct S as (x & -> & Hx & Hr1 & Hr2 & HM & E1 & E2).
    set (Mf := oM (o_thick x (nopp rr2) (nopp rr1) (oL o))).
    exists (KSlab (Fin x) (nopp rr2) (nopp rr1)),
      (set_ABCD (flip_mat m) (Fin (A_ Mf)) (Fin (B_ Mf)) (Fin (C_ Mf)) (Fin (D_ Mf))),
      (flipped_optic o Mf).
    split. { cbn [flip_leaf]. rewrite (d_L _ _ D).
      rewrite thick_A_ok by auto using radius_ok_opp. cbn [bind].
      rewrite thick_B_ok by auto. cbn [bind].
      rewrite thick_C_ok by auto using radius_ok_opp. cbn [bind].
      rewrite thick_D_ok by auto using radius_ok_opp. cbn [bind].
      unfold Mf. rewrite o_thick_eq by auto. reflexivity. }
    split. { constructor; cbn [set_ABCD mA mB mC mD mL mfi mbi mfv mbv flip_mat oM oL onf onb ofv obv flipped_optic];
        dsc D; reflexivity. }
    split. { pose proof (p_thick x (nopp rr2) (nopp rr1) (oL o) Hx) as (Q1 & Q2 & Q3).
      unfold physical; cbn [oM onf onb flipped_optic]. repeat split; try lra. fold Mf in Q3. rewrite Q3.
      rewrite o_thick_eq by auto. cbn. rewrite E1, E2. reflexivity. }
    split. { cbn. exists x. repeat split; auto using radius_ok_opp. }
    cbn [oL onf onb ofv obv flipped_optic]. repeat split; auto.
    + cbn [flip_leaf set_ABCD flip_mat mL]. rewrite (d_L _ _ D), !nopp_nopp.
      rewrite thick_A_ok by auto. cbn [bind].
      rewrite thick_B_ok by auto. cbn [bind].
      rewrite thick_C_ok by auto. cbn [bind].
      rewrite thick_D_ok by auto. cbn [bind].
      rewrite o_thick_eq in HM by auto. cbn [oM] in HM.
      do 2 f_equal. rewrite (describes_mat_of m o D). unfold set_ABCD, flip_mat, mat_of; cbn.
      rewrite negb_involutive, HM. reflexivity.
    + cbn [oM flipped_optic]. rewrite HM. unfold Mf. now apply thick_rev.
    + discriminate.
Qed.

(** ** Paths as lists *)
Definition o_id (n : R) : optic := mkO mid 0 n n None None.
Definition pl (n : R) (l : list optic) : optic :=
  fold_left (fun acc x => ocomp x acc) l (o_id n).

Lemma ocomp_id_r o : ocomp o (o_id (onf o)) = o.
Proof.
  apply optic_eq; cbn; auto.
  - apply mmul_id_r.
  - ring.
  - destruct (ofv o); cbn; f_equal; ring.
  - destruct (obv o); cbn; f_equal; ring.
Qed.
Lemma ocomp_id_l o : ocomp (o_id (onb o)) o = o.
Proof.
  apply optic_eq; cbn; auto.
  - apply mmul_id_l.
  - ring.
  - destruct (ofv o); reflexivity.
Qed.
Lemma path_pl o l : path_optic o l = pl (onf o) (o :: l).
Proof. unfold path_optic, pl. cbn. now rewrite ocomp_id_r. Qed.

Lemma fold_ocomp l : forall a b,
  fold_left (fun acc x => ocomp x acc) l (ocomp a b) =
  ocomp (fold_left (fun acc x => ocomp x acc) l a) b.
Proof. induction l as [|x t IH]; intros; cbn; auto. now rewrite <- IH, ocomp_assoc. Qed.

Lemma pl_cons n x l : onf x = n -> pl n (x :: l) = ocomp (pl (onb x) l) x.
Proof.
  intros <-. unfold pl. cbn [fold_left]. rewrite ocomp_id_r.
  rewrite <- fold_ocomp, ocomp_id_l. reflexivity.
Qed.
Lemma pl_snoc n l x : pl n (l ++ [x]) = ocomp x (pl n l).
Proof. unfold pl. now rewrite fold_left_app. Qed.

Lemma physical_o_id n : n <> 0 -> physical (o_id n).
Proof. intros H. unfold physical; cbn. rewrite mdet_id. repeat split; auto. field; auto. Qed.

Lemma physical_pl l : forall n, n <> 0 -> matched n l -> physical (pl n l).
Proof.
  induction l as [|x t IH] using rev_ind; intros n Hn Hm.
  - now apply physical_o_id.
  - rewrite pl_snoc. apply matched_app in Hm as [H1 H2]. cbn in H2. destruct H2 as (E & P & _).
    apply physical_ocomp; auto.
    rewrite E. clear -H1. revert n H1. induction t as [|y t IH] using rev_ind; intros; cbn; auto.
    rewrite pl_snoc, map_app. cbn. rewrite last_last. reflexivity.
Qed.

Lemma orev_pl l : forall n, n <> 0 -> matched n l ->
  orev (pl n l) = pl (List.last (map onb l) n) (rev (map orev l)).
Proof.
  induction l as [|x t IH] using rev_ind; intros n Hn Hm.
  - apply optic_eq; cbn; auto. now rewrite mrev_mid.
  - rewrite pl_snoc. pose proof Hm as Hm0. apply matched_app in Hm as [H1 H2].
    cbn in H2. destruct H2 as (E & P & _).
    rewrite orev_ocomp by auto using physical_pl. rewrite IH by auto.
    rewrite !map_app, rev_app_distr. cbn [map rev app]. rewrite last_last.
    rewrite pl_cons by reflexivity. cbn [orev onb]. now rewrite E.
Qed.

Lemma sim_refl a : sim a a.
Proof. repeat split. Qed.
Lemma sim_ocomp a b c d : sim a b -> sim c d -> sim (ocomp a c) (ocomp b d).
Proof. intros (H1 & H2 & H3 & H4) (K1 & K2 & K3 & K4). repeat split; cbn; congruence. Qed.
Lemma sim_pl l l' n : Forall2 sim l l' -> sim (pl n l) (pl n l').
Proof.
  unfold pl. generalize (sim_refl (o_id n)). generalize (o_id n) at 1 3. generalize (o_id n).
  intros a b H HF. revert a b H. induction HF; intros; cbn; auto. apply IHHF. now apply sim_ocomp.
Qed.
Lemma sim_physical a b : sim a b -> physical b -> physical a.
Proof. intros (H1 & H2 & H3 & H4) (P1 & P2 & P3). unfold physical. rewrite H1, H3, H4. auto. Qed.
Lemma sim_matched l l' : Forall2 sim l l' -> forall n, matched n l' -> matched n l.
Proof.
  induction 1 as [|a b l l' H HF IH]; intros n Hm; cbn in *; auto.
  destruct Hm as (E & P & M). pose proof H as (H1 & H2 & H3 & H4).
  repeat split; try congruence; try (now apply (sim_physical _ b)).
  rewrite H4. auto.
Qed.

(** a reversed path is index-matched *)
Lemma matched_rev l : forall n, n <> 0 -> matched n l ->
  matched (List.last (map onb l) n) (rev (map orev l)).
Proof.
  induction l as [|x t IH] using rev_ind; intros n Hn Hm; [exact I|].
  apply matched_app in Hm as [H1 H2]. cbn in H2. destruct H2 as (E & P & _).
  rewrite !map_app, rev_app_distr. cbn [map rev app]. rewrite last_last.
  cbn. split; auto. split; [now apply physical_orev|]. rewrite E. auto.
Qed.

Lemma chain_matched o l : chain (o :: l) -> matched (onf o) (o :: l).
Proof. cbn. tauto. Qed.
Lemma matched_chain n l : matched n l -> chain l.
Proof. destruct l; cbn; tauto. Qed.

Lemma mrev_id_iff M : mdet M <> 0 -> mrev M = mid <-> M = mid.
Proof.
  intros H. split; intros E.
  - rewrite <- (mrev_mrev M H), E. apply mrev_mid.
  - rewrite E. apply mrev_mid.
Qed.

(** ** Groups *)
Lemma flip_each_as l : forall l' (g : @grp XR), Forall2 (fun e e' => flip e = Ok e') l l' ->
  as_res (flip_each g l) = append_all g l'.
Proof.
  intros l' g HF. revert g. induction HF as [|e e' l l' H HF IH]; intros g; cbn; auto.
  rewrite H. unfold append. destruct (append_st g e') as [g1 [x|]]; cbn; auto.
Qed.

Lemma Forall2_rev {A B} (P : A -> B -> Prop) l l' : Forall2 P l l' -> Forall2 P (rev l) (rev l').
Proof. induction 1; cbn; [constructor|]. apply Forall2_app; auto. Qed.

Lemma describes_unique m m' o : describes m o -> describes m' o -> mdiam m = mdiam m' ->
  mna m = mna m' -> mflip m = mflip m' -> mlabel m = mlabel m' -> m = m'.
Proof.
  intros D D' E1 E2 E3 E4. rewrite (describes_mat_of m o D), (describes_mat_of m' o D').
  now rewrite E1, E2, E3, E4.
Qed.

(** a group assembled from exactly described elements *)
Lemma assemble_canon es os m : Forall2 canon es os -> chain os -> good os -> os <> [] ->
  exists g, append_all (mkGrp m []) es = Ok g /\ gelems g = es /\
    mdiam (gmat g) = mdiam m /\ mna (gmat g) = mna m /\ mflip (gmat g) = mflip m /\
    mlabel (gmat g) = mlabel m /\
    forall o t, os = o :: t -> describes (gmat g) (path_optic o t) /\
                               canon (grp_elem g) (path_optic o t).
Proof.
  intros HF HC HG Hn.
  destruct (assemble es os (Forall2_canon_desc _ _ HF) HC m Hn)
    as (g & K1 & K2 & K3 & K4 & K5 & K6 & K7).
  exists g. repeat (split; [assumption|]). intros o t ->.
  destruct es as [|e es]; [inversion HF|].
  destruct (group_transfer_strict e es o t (Forall2_canon_desc _ _ HF) HC HG) as (p & G1 & G2 & _).
  assert (exists m, gmat g = copy_attrs m p) as [m0 Em].
  { rewrite <- K2 in G1. rewrite append_all_as in K1.
    destruct (append_all_st (mkGrp m []) (e :: es)) as [g' [x|]] eqn:E; [discriminate|].
    cbn in K1. injection K1 as ->.
    assert (in_step g) as S by (eapply append_all_in_step; eauto; intros C; now elim C).
    destruct S as (p' & E' & S); [rewrite K2; discriminate|].
    exists (gmat g). cbn [ninf NumXR] in E'. rewrite G1 in E'. injection E' as <-. exact S. }
  assert (describes (gmat g) (path_optic o t)) as D by (rewrite Em; constructor; cbn; apply G2).
  split; auto. unfold grp_elem. rewrite K2. constructor; auto.
Qed.

Definition all_vsym (e : @elem XR) : Prop := Forall vsym (leaves e).

Theorem flip_canon : forall e o, canon e o -> Forall mirror_ok (leaves e) ->
  exists e' o', flip e = Ok e' /\ canon e' o' /\ Forall mirror_ok (leaves e') /\
    sim o' (orev o) /\ flip e' = Ok e /\
    (all_vsym e -> o' = orev o /\ all_vsym e').
Proof.
  induction e as [k m | gk m es IH] using elem_ind'; intros o Hc Hm; inversion Hc; subst.
  - (* leaf *)
    inversion Hm as [|? ? Hk _]; subst.
    destruct (flip_leaf_twice k m o) as (k' & m' & o' & F & D & P & S & E1 & E2 & E3 & E4 & E5 & F2
       & HM & _); auto.
    destruct (HM Hk) as [Hk' EM].
    exists (Leaf k' m'), o'. split; [exact F|]. split; [now constructor|].
    split; [constructor; auto|]. split; [repeat split; auto|]. split; [exact F2|].
    intros HV. inversion HV as [|? ? V _]; subst. unfold vsym in V; cbn [snd] in V.
    match goal with D0 : describes m o |- _ =>
      rewrite (d_fv _ _ D0), (d_bv _ _ D0), (d_L _ _ D0) in V end.
    split.
    + apply optic_eq; cbn; auto; rewrite ?E4, ?E5.
      * destruct V as [[V1 V2]|(V0 & V1 & V2)].
        -- destruct (obv o); [discriminate|reflexivity].
        -- destruct (obv o) as [b|]; [|discriminate]. cbn in *. injection V0 as V0. injection V2 as V2.
           f_equal. lra.
      * destruct V as [[V1 V2]|(V0 & V1 & V2)].
        -- destruct (ofv o); [discriminate|reflexivity].
        -- destruct (ofv o) as [b|]; [|discriminate]. cbn in *. injection V0 as V0. injection V1 as V1.
           f_equal. lra.
    + constructor; [|constructor]. unfold vsym; cbn [snd]. dsc D. rewrite E1, E4, E5.
      destruct V as [[V1 V2]|(V0 & V1 & V2)]; auto.
  - (* group *)
    rename e into e1. rename es0 into es.
    match goal with
    | H1 : Forall2 canon _ _, H2 : chain _, H3 : good _, H4 : describes m _ |- _ =>
        rename H1 into HF; rename H2 into HC; rename H3 into HG; rename H4 into HD
    end.
    cbn [leaves] in Hm.
    remember (e1 :: es) as l eqn:El. remember (o1 :: os) as lo eqn:Elo.
    assert (exists l' lo', Forall2 (fun e e' => flip e = Ok e') l l' /\ Forall2 canon l' lo' /\
      Forall mirror_ok (flat_map leaves l') /\ Forall2 sim lo' (map orev lo) /\
      Forall2 (fun e e' => flip e = Ok e') l' l /\
      (Forall vsym (flat_map leaves l) ->
        lo' = map orev lo /\ Forall vsym (flat_map leaves l')))
      as (l' & lo' & F1 & F2 & F3 & F4 & F5 & F6).
    { clear HC HG HD El Elo Hc. revert IH Hm. induction HF as [|e o l lo He HF IHF]; intros IH Hm.
      - exists [], []. repeat split; auto; constructor.
      - inversion IH as [|? ? IHe IHt]; subst. cbn [flat_map] in Hm. apply Forall_app in Hm.
        destruct Hm as [Hm1 Hm2].
        destruct (IHe o He Hm1) as (e' & o' & A1 & A2 & A3 & A4 & A5 & A6).
        destruct (IHF IHt Hm2) as (l' & lo' & B1 & B2 & B3 & B4 & B5 & B6).
        exists (e' :: l'), (o' :: lo'). repeat split; try (constructor; auto; fail).
        + cbn [flat_map]. apply Forall_app; auto.
        + cbn [flat_map map] in *. apply Forall_app in H. destruct H as [V1 V2].
          f_equal; [now apply A6|now apply B6].
        + cbn [flat_map] in *. apply Forall_app in H. destruct H as [V1 V2].
          apply Forall_app; split; [now apply A6|now apply B6]. }
    assert (onf o1 <> 0) as Hn by (subst lo; apply HC).
    assert (matched (onf o1) lo) as HM by (subst lo; now apply chain_matched).
    set (n' := List.last (map onb lo) (onf o1)).
    assert (Forall2 sim (rev lo') (rev (map orev lo))) as F4r by now apply Forall2_rev.
    assert (matched n' (rev lo')) as HM'
      by (eapply sim_matched; [exact F4r|]; now apply matched_rev).
    assert (chain (rev lo')) as HC' by (eapply matched_chain; eauto).
    assert (rev lo' <> []) as Hne.
    { intros E. apply (f_equal (@List.length _)) in E. rewrite rev_length in E.
      destruct lo'; [|discriminate]. inversion F4 as [Q|]; subst lo; discriminate. }
    assert (good (rev lo')) as HG'.
    { destruct HG as [(x & Hx & Nx)|HA].
      - left. apply In_nth_error in Hx as [i Hi].
        assert (exists x', nth_error lo' i = Some x' /\ sim x' (orev x)) as (x' & Hx' & Sx).
        { clear -F4 Hi. revert lo' F4 i Hi. induction lo; intros lo' F4 i Hi; [destruct i; discriminate|].
          inversion F4; subst. destruct i; cbn in *; [injection Hi as ->; eauto|eauto]. }
        exists x'. split; [apply in_rev; rewrite rev_involutive; eapply nth_error_In; eauto|].
        destruct Sx as (-> & _). cbn. intros E. apply Nx.
        apply mrev_id_iff; auto. apply physical_det. apply (physical_chain_in lo); auto.
        eapply nth_error_In; eauto.
      - assert (Exists (fun o => oM o <> mid) lo \/ ~ Exists (fun o => oM o <> mid) lo)
          as [Hex|Hall].
        { destruct (Exists_dec (fun o => oM o <> mid) lo); auto.
          intros x. destruct (M2_dec (oM x) mid); [right|left]; tauto. }
        + left. apply Exists_exists in Hex as (x & Hx & Nx). apply In_nth_error in Hx as [i Hi].
          assert (exists x', nth_error lo' i = Some x' /\ sim x' (orev x)) as (x' & Hx' & Sx).
          { clear -F4 Hi. revert lo' F4 i Hi. induction lo; intros lo' F4 i Hi; [destruct i; discriminate|].
            inversion F4; subst. destruct i; cbn in *; [injection Hi as ->; eauto|eauto]. }
          exists x'. split; [apply in_rev; rewrite rev_involutive; eapply nth_error_In; eauto|].
          destruct Sx as (-> & _). cbn. intros E. apply Nx.
          apply mrev_id_iff; auto. apply physical_det. apply (physical_chain_in lo); auto.
          eapply nth_error_In; eauto.
        + right. intros o t E.
          assert (onf o = n') as -> by (rewrite E in HM'; apply HM').
          unfold n'. specialize (HA o1 os Elo).
          assert (forall l n, matched n l -> ~ Exists (fun o => oM o <> mid) l -> n = 1 ->
             List.last (map onb l) n = 1) as HX.
          { clear. induction l as [|y t IH]; intros n HM HE Hn; cbn [map]; auto.
            change (onb y :: map onb t) with (map onb (y :: t)). cbn [map].
            rewrite last_cons_default. cbn in HM. destruct HM as (Ey & Py & HM).
            apply IH; auto.
            rewrite <- (physical_id _ Py); [congruence|].
            destruct (M2_dec (oM y) mid); auto. exfalso; apply HE; left; auto. }
          apply HX; auto. }
    destruct (assemble_canon (rev l') (rev lo') (set_flip m (negb (mflip m))))
      as (g & K1 & K2 & K3 & K4 & K5 & K6 & K7); auto.
    { now apply Forall2_rev. }
    destruct (rev lo') as [|p1 pt] eqn:Er; [congruence|].
    destruct (K7 p1 pt eq_refl) as [Dg Cg].
    assert (onf p1 = n') as Ep by apply HM'.
    assert (sim (path_optic p1 pt) (orev (path_optic o1 os))) as Sim.
    { rewrite !path_pl. rewrite <- Elo, Ep. rewrite orev_pl by auto. fold n'.
      now apply sim_pl. }
    exists (grp_elem g), (path_optic p1 pt).
    split. { rewrite flip_group, flip_loop_as.
      rewrite (flip_each_as _ (rev l')) by now apply Forall2_rev. rewrite K1. reflexivity. }
    split; [exact Cg|].
    split. { unfold grp_elem. cbn [leaves]. rewrite K2. clear -F3.
      rewrite Forall_forall in *. intros x Hx. apply F3. apply in_flat_map in Hx as (y & Hy & Hx).
      apply in_flat_map. exists y. split; auto. now apply in_rev. }
    split; [exact Sim|].
    split. { unfold grp_elem. rewrite flip_group, flip_loop_as, K2, rev_involutive.
      rewrite (flip_each_as _ l) by auto.
      destruct (assemble_canon l lo (set_flip (gmat g) (negb (mflip (gmat g)))))
        as (g2 & J1 & J2 & J3 & J4 & J5 & J6 & J7); auto; [subst lo; discriminate|].
      rewrite J1. cbn [bind finish_flip]. rewrite J2. do 2 f_equal.
      destruct (J7 o1 os Elo) as [D2 _].
      eapply describes_unique; eauto; cbn in *; try congruence.
      rewrite J5, K5. apply negb_involutive. }
    intros HV. unfold all_vsym in HV. cbn [leaves] in HV. destruct (F6 HV) as [EV VV]. split.
    + rewrite !path_pl. rewrite <- Elo, Ep. rewrite orev_pl by auto. fold n'.
      f_equal. rewrite <- EV. now rewrite <- Er.
    + unfold all_vsym, grp_elem. cbn [leaves]. rewrite K2. clear -VV.
      rewrite Forall_forall in *. intros x Hx. apply VV. apply in_flat_map in Hx as (y & Hy & Hx).
      apply in_flat_map. exists y. split; auto. now apply in_rev.
Qed.

(** C28 in terms of rays *)
Theorem flip_backwards e o : canon e o -> Forall mirror_ok (leaves e) ->
  exists e' o', flip e = Ok e' /\ describes (emat e') o' /\ oL o' = oL o /\
    onf o' = onb o /\ onb o' = onf o /\
    forall y th, let out := mapp (oM o) (y, th) in
      mapp (oM o') (fst out, - snd out) = (y, - th).
Proof.
  intros Hc Hm. destruct (flip_canon e o Hc Hm) as (e' & o' & F & C & _ & (S1 & S2 & S3 & S4) & _).
  exists e', o'. split; auto. split; [now apply canon_describes|].
  repeat split; auto. intros y th out. rewrite S1. cbn [oM orev].
  apply mrev_spec. apply physical_det. eapply canon_physical; eauto.
Qed.
