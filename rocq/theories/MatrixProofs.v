(** Proofs about the matrix algebra of the model over exact numbers. *)
From Coq Require Import Reals Lra List Bool String Psatz.
From Verif Require Import Base Nums Optics Spec.
Import ListNotations.
Open Scope R_scope.

Lemma ndec_val m k : IZR (10 ^ k) <> 0 -> @ndec XR _ m k = Fin (IZR m / IZR (10 ^ k)).
Proof. intros H. unfold ndec. exact (xdiv_fin _ _ H). Qed.
Lemma eps5_val : @eps5 XR _ = Fin (1/100000).
Proof. unfold eps5. now rewrite ndec_val by (cbn; lra). Qed.
Lemma eps3_val : @eps3 XR _ = Fin (1/1000).
Proof. unfold eps3. now rewrite ndec_val by (cbn; lra). Qed.

Lemma M2_eq P Q : A_ P = A_ Q -> B_ P = B_ Q -> C_ P = C_ Q -> D_ P = D_ Q -> P = Q.
Proof. destruct P, Q; cbn; intros; subst; reflexivity. Qed.

Lemma optic_eq o p : oM o = oM p -> oL o = oL p -> onf o = onf p -> onb o = onb p ->
  ofv o = ofv p -> obv o = obv p -> o = p.
Proof. destruct o, p; cbn; intros; subst; reflexivity. Qed.

Lemma mmul_assoc P Q S : mmul (mmul P Q) S = mmul P (mmul Q S).
Proof. apply M2_eq; cbn; ring. Qed.
Lemma mmul_id_l P : mmul mid P = P.
Proof. apply M2_eq; cbn; ring. Qed.
Lemma mmul_id_r P : mmul P mid = P.
Proof. apply M2_eq; cbn; ring. Qed.
Lemma mdet_mmul P Q : mdet (mmul P Q) = mdet P * mdet Q.
Proof. unfold mdet; cbn; ring. Qed.
Lemma mapp_mmul P Q v : mapp (mmul P Q) v = mapp P (mapp Q v).
Proof. unfold mapp; cbn; f_equal; ring. Qed.
Lemma mapp_id v : mapp mid v = v.
Proof. destruct v; unfold mapp; cbn; f_equal; ring. Qed.
Lemma mdet_id : mdet mid = 1.
Proof. unfold mdet; cbn; ring. Qed.

(** rewrite the attributes of a described matrix *)
Ltac dsc H :=
  rewrite ?(d_A _ _ H), ?(d_B _ _ H), ?(d_C _ _ H), ?(d_D _ _ H), ?(d_L _ _ H),
          ?(d_nf _ _ H), ?(d_nb _ _ H), ?(d_fv _ _ H), ?(d_bv _ _ H).

(** determinant as computed by the code *)
Lemma det_of_fin a b c d :
  det_of (Fin a) (Fin b) (Fin c) (Fin d) = Fin (a * d - b * c).
Proof.
  unfold det_of, c0; cbn -[IZR].
  destruct (Reqb c 0) eqn:E; cbn; auto.
  apply Reqb_true in E; subst; f_equal; ring.
Qed.

Lemma determinant_describes m o : describes m o -> determinant m = Fin (mdet (oM o)).
Proof.
  intros H. unfold determinant. dsc H. apply det_of_fin.
Qed.

(** a constructor call with finite consistent arguments succeeds *)
Lemma Matrix_init_ok a b c d l fv bv fi bi diam na lab :
  nleb diam (@c0 XR _) = false -> nleb na (@c0 XR _) = false ->
  bi <> 0 -> a * d - b * c = fi / bi ->
  Matrix_init (Fin a) (Fin b) (Fin c) (Fin d) l fv bv (Fin fi) (Fin bi) diam na lab
  = Ok (mkMat (Fin a) (Fin b) (Fin c) (Fin d) l fv bv (Fin fi) (Fin bi) diam na false lab).
Proof.
  intros Hd Hn Hbi Hdet. unfold Matrix_init. rewrite Hd, Hn.
  rewrite pdiv_fin by auto. cbn [bind].
  rewrite det_of_fin. unfold areAbsolutelyNotEqual. rewrite eps5_val. cbn -[IZR].
  rewrite Hdet. replace (fi / bi + - (fi / bi)) with 0 by lra.
  rewrite Rabs_R0, Rltb_ge by lra. reflexivity.
Qed.

Lemma isIdentity_describes m o : describes m o ->
  isIdentity m = true <-> oM o = mid.
Proof.
  intros H. unfold isIdentity, c0, c1. dsc H. cbn -[IZR].
  rewrite !andb_true_iff, !Reqb_true. destruct (oM o); cbn. split.
  - intros [[[-> ->] ->] ->]; reflexivity.
  - intros [=]; subst; auto.
Qed.

Lemma physical_pos o : physical o -> onf o <> 0 /\ onb o <> 0.
Proof. intros (H & H' & _); auto. Qed.

Lemma physical_id o : physical o -> oM o = mid -> onf o = onb o.
Proof.
  intros (H & H' & Hd) E. rewrite E, mdet_id in Hd.
  apply (Rmult_eq_compat_r (onb o)) in Hd. unfold Rdiv in Hd.
  rewrite Rmult_assoc, Rinv_l, Rmult_1_r, Rmult_1_l in Hd by auto. auto.
Qed.

Lemma physical_ocomp l r : physical l -> physical r -> onf l = onb r ->
  physical (ocomp l r).
Proof.
  intros (H1 & H2 & H3) (H4 & H5 & H6) E. unfold physical; cbn. repeat split; auto.
  rewrite mdet_mmul, H3, H6, E. field. rewrite <- E; auto.
Qed.

(** vertices of a product *)
Lemma mul_fv_describes ml mr l r : describes ml l -> describes mr r ->
  mul_fv ml mr = option_map Fin (ofv (ocomp l r)).
Proof.
  intros Hl Hr. unfold mul_fv. dsc Hl. dsc Hr.
  cbn [ofv ocomp]. destruct (ofv r), (ofv l); reflexivity.
Qed.
Lemma mul_bv_describes ml mr l r : describes ml l -> describes mr r ->
  mul_bv ml mr = option_map Fin (obv (ocomp l r)).
Proof.
  intros Hl Hr. unfold mul_bv. dsc Hl. dsc Hr.
  cbn [obv ocomp]. destruct (obv l), (obv r); reflexivity.
Qed.

(** product of matrices with given resulting indices *)
Lemma mul_matrix_gen ml mr l r fi bi : describes ml l -> describes mr r ->
  mul_idx ml mr = (Fin fi, Fin bi) -> bi <> 0 ->
  mdet (oM l) * mdet (oM r) = fi / bi ->
  exists p, mul_matrix ml mr = Ok p /\
    describes p (mkO (mmul (oM l) (oM r)) (oL r + oL l) fi bi
                     (ofv (ocomp l r)) (obv (ocomp l r))) /\
    mdiam p = PInf /\ mna p = PInf.
Proof.
  intros Hl Hr Hidx Hbi Hdet.
  pose proof (mul_fv_describes _ _ _ _ Hl Hr) as Hfv.
  pose proof (mul_bv_describes _ _ _ _ Hl Hr) as Hbv.
  unfold mul_matrix. rewrite Hidx, Hfv, Hbv. dsc Hl. dsc Hr.
  cbn [nadd nmul NumXR xadd xmul].
  rewrite Matrix_init_ok.
  - eexists; split; [reflexivity|]. split; [|split; reflexivity].
    constructor; try reflexivity. cbn. f_equal. ring.
  - reflexivity.
  - reflexivity.
  - auto.
  - rewrite <- Hdet. rewrite <- mdet_mmul. unfold mdet; cbn. ring.
Qed.

Lemma mul_idx_describes ml mr l r : describes ml l -> describes mr r ->
  physical l -> physical r -> onf l = onb r ->
  mul_idx ml mr = (Fin (onf r), Fin (onb l)).
Proof.
  intros Hl Hr Pl Pr E. unfold mul_idx.
  destruct (isIdentity ml) eqn:I1.
  - apply (isIdentity_describes _ _ Hl) in I1.
    apply (physical_id _ Pl) in I1. dsc Hr.
    do 2 f_equal; congruence.
  - destruct (isIdentity mr) eqn:I2.
    + apply (isIdentity_describes _ _ Hr) in I2.
      apply (physical_id _ Pr) in I2. dsc Hl.
      do 2 f_equal; congruence.
    + dsc Hl. dsc Hr. reflexivity.
Qed.

(** the product of two index-matched matrices is the composition *)
Lemma mul_matrix_matched ml mr l r : describes ml l -> describes mr r ->
  physical l -> physical r -> onf l = onb r ->
  exists p, mul_matrix ml mr = Ok p /\ describes p (ocomp l r) /\
            mdiam p = PInf /\ mna p = PInf.
Proof.
  intros Hl Hr Pl Pr E.
  apply (mul_matrix_gen _ _ _ _ (onf r) (onb l)); auto.
  - eapply mul_idx_describes; eauto.
  - apply Pl.
  - rewrite <- mdet_mmul. apply (physical_ocomp l r); auto.
Qed.

Lemma ocomp_assoc a b c : ocomp (ocomp a b) c = ocomp a (ocomp b c).
Proof.
  apply optic_eq; cbn.
  - apply mmul_assoc.
  - ring.
  - reflexivity.
  - reflexivity.
  - destruct (ofv c), (ofv b), (ofv a); cbn; try reflexivity; f_equal; ring.
  - destruct (obv a), (obv b); cbn; try reflexivity; f_equal; ring.
Qed.

(** ** Matrix() and the transfer matrix of a path *)
Definition m_default : @mat XR :=
  mkMat (Fin 1) (Fin 0) (Fin 0) (Fin 1) (Fin 0) None None (Fin 1) (Fin 1) PInf PInf false "".
Definition o_default : optic := mkO mid 0 1 1 None None.

Lemma Matrix_default_ok : @Matrix_default XR _ = Ok m_default.
Proof.
  unfold Matrix_default, c0, c1. cbn [nofZ ninf NumXR].
  rewrite Matrix_init_ok; try reflexivity; lra.
Qed.
Lemma default_describes : describes m_default o_default.
Proof. constructor; reflexivity. Qed.
Lemma default_physical : physical o_default.
Proof. unfold physical; cbn. rewrite mdet_id. repeat split; lra. Qed.

(** What the transfer matrix accumulated so far knows: everything of [acc] except
    possibly the indices when the product so far is the identity. *)
Definition tracks (tm : @mat XR) (acc : optic) : Prop :=
  describes tm acc \/
  (oM acc = mid /\ describes tm (mkO mid (oL acc) 1 1 (ofv acc) (obv acc))).

Lemma mul_matrix_tracks me tm o acc : describes me o -> tracks tm acc ->
  physical o -> physical acc -> onf o = onb acc ->
  exists p, mul_matrix me tm = Ok p /\ tracks p (ocomp o acc) /\
            mdiam p = PInf /\ mna p = PInf.
Proof.
  intros He [Ht | [Hid Ht]] Po Pa E.
  - destruct (mul_matrix_matched _ _ _ _ He Ht Po Pa E) as (p & H1 & H2 & H3).
    exists p; split; auto. split; auto. left; auto.
  - pose proof (isIdentity_describes _ _ He) as IE.
    pose proof (isIdentity_describes _ _ Ht) as IT. cbn in IT.
    assert (isIdentity tm = true) as It by (apply IT; auto).
    pose proof (physical_id _ Pa Hid) as Ea.
    destruct (isIdentity me) eqn:Ie.
    + assert (oM o = mid) as Mo by (apply IE; auto).
      destruct (mul_matrix_gen _ _ _ _ 1 1 He Ht) as (p & H1 & H2 & H3).
      * unfold mul_idx. rewrite Ie. dsc Ht. auto.
      * lra.
      * cbn. rewrite Mo, !mdet_id. lra.
      * exists p; split; auto. split; auto. right. cbn in *. split.
        -- rewrite Mo, Hid. apply mmul_id_l.
        -- rewrite Mo, mmul_id_l in H2. auto.
    + destruct (mul_matrix_gen _ _ _ _ (onf o) (onb o) He Ht) as (p & H1 & H2 & H3).
      * unfold mul_idx. rewrite Ie, It. dsc He. auto.
      * apply Po.
      * cbn. rewrite mdet_id, Rmult_1_r. apply Po.
      * exists p; split; auto. split; auto. left. cbn in *.
        rewrite mmul_id_r in H2.
        replace (ocomp o acc) with
          (mkO (oM o) (oL acc + oL o) (onf o) (onb o) (ofv (ocomp o acc)) (obv (ocomp o acc))).
        -- exact H2.
        -- apply optic_eq; try reflexivity.
           ++ cbn. rewrite Hid. symmetry; apply mmul_id_r.
           ++ cbn. congruence.
Qed.

Lemma transfer_loop_inf es os tm acc :
  Forall2 (fun e o => describes (emat e) o) es os ->
  tracks tm acc -> physical acc -> matched (onb acc) os ->
  exists p, transfer_loop es tm PInf = Ok p /\ tracks p (path_optic acc os) /\
    physical (path_optic acc os) /\
    (es <> [] -> mdiam p = PInf /\ mna p = PInf).
Proof.
  intros HF. revert tm acc. induction HF as [|e o es os He HF IH]; intros tm acc Ht Pa Hm.
  - exists tm. cbn. split; [reflexivity|]. split; [auto|]. split; [auto|congruence].
  - cbn in Hm. destruct Hm as (E & Po & Hm).
    destruct (mul_matrix_tracks _ _ _ _ He Ht Po Pa E) as (p & H1 & H2 & H3).
    cbn [transfer_loop]. rewrite (d_L _ _ He). cbn [nleb NumXR xleb].
    rewrite H1. cbn [bind].
    change (nsub PInf (Fin (oL o))) with PInf.
    assert (physical (ocomp o acc)) by (apply physical_ocomp; auto).
    destruct (IH p (ocomp o acc)) as (q & G1 & G2 & G3 & G4); auto.
    exists q; split; auto. split; auto. split; auto. intros _.
    destruct es; [|apply G4; congruence].
    cbn in G1. congruence.
Qed.

(** first element of a path, starting from Matrix() *)
Lemma first_tracks me o : describes me o -> physical o ->
  exists p, mul_matrix me m_default = Ok p /\ tracks p o /\ mdiam p = PInf /\ mna p = PInf.
Proof.
  intros He Po.
  pose (acc := mkO mid 0 (onf o) (onf o) None None).
  assert (tracks m_default acc) as Ht by (right; split; [reflexivity|apply default_describes]).
  assert (physical acc) as Pa.
  { unfold physical; cbn. destruct Po as (H & _ & _). repeat split; auto.
    rewrite mdet_id. field; auto. }
  destruct (mul_matrix_tracks me m_default o acc He Ht Po Pa eq_refl) as (p & H1 & H2 & H3).
  exists p; split; auto. split; auto.
  replace o with (ocomp o acc); auto.
  apply optic_eq; cbn; auto.
  - apply mmul_id_r.
  - ring.
  - destruct (ofv o); cbn; f_equal; ring.
  - destruct (obv o); cbn; f_equal; ring.
Qed.

Lemma group_transfer_inf e es o os :
  Forall2 (fun e o => describes (emat e) o) (e :: es) (o :: os) ->
  chain (o :: os) ->
  exists p, group_transfer (e :: es) PInf = Ok p /\ tracks p (path_optic o os) /\
    physical (path_optic o os) /\ mdiam p = PInf /\ mna p = PInf.
Proof.
  intros HF [Po Hm]. inversion HF; subst.
  unfold group_transfer. rewrite Matrix_default_ok. cbn [bind transfer_loop].
  destruct (first_tracks _ _ H2 Po) as (p & G1 & G2 & G3 & G4).
  pose proof (d_L _ _ H2) as EL. rewrite EL. cbn [nleb NumXR xleb].
  rewrite G1. cbn [bind]. change (nsub PInf (Fin (oL o))) with PInf.
  destruct (transfer_loop_inf _ _ _ _ H4 G2 Po Hm) as (q & K1 & K2 & K3 & K4).
  exists q; split; auto. split; auto. split; auto.
  destruct es; [|apply K4; congruence]. cbn in K1. split; congruence.
Qed.

Lemma path_optic_M o os : oM (path_optic o os) = mmul (mprod (map oM os)) (oM o).
Proof.
  unfold path_optic, mprod. revert o. induction os as [|x t IH] using rev_ind; intros; cbn.
  - symmetry; apply mmul_id_l.
  - rewrite map_app, !fold_left_app. cbn. rewrite IH, <- mmul_assoc. reflexivity.
Qed.

Lemma mprod_from l a : fold_left (fun acc M => mmul M acc) l a = mmul (mprod l) a.
Proof.
  unfold mprod. induction l as [|x t IH] using rev_ind.
  - cbn. symmetry; apply mmul_id_l.
  - rewrite !fold_left_app. cbn [fold_left]. rewrite IH. symmetry; apply mmul_assoc.
Qed.
Lemma mprod_cons M l : mprod (M :: l) = mmul (mprod l) M.
Proof. unfold mprod at 1. cbn [fold_left]. rewrite mmul_id_r. apply mprod_from. Qed.

Lemma path_optic_prod o os : oM (path_optic o os) = mprod (map oM (o :: os)).
Proof. rewrite path_optic_M. cbn [map]. now rewrite mprod_cons. Qed.

Lemma path_optic_L o os : oL (path_optic o os) = total_length (o :: os).
Proof.
  unfold path_optic, total_length. revert o.
  induction os as [|x t IH]; intros; cbn.
  - ring.
  - rewrite IH. cbn. ring.
Qed.

Lemma path_optic_nf o os : onf (path_optic o os) = onf o.
Proof. unfold path_optic. revert o. induction os; intros; cbn; [reflexivity|]. now rewrite IHos. Qed.

Lemma last_cons_default {A} (x : A) l d : List.last (x :: l) d = List.last l x.
Proof.
  revert x d; induction l as [|y t IH]; intros; [reflexivity|].
  change (List.last (x :: y :: t) d) with (List.last (y :: t) d).
  now rewrite !IH.
Qed.

Lemma path_optic_nb o os : onb (path_optic o os) = onb (List.last os o).
Proof.
  unfold path_optic. revert o. induction os as [|x t IH]; intros; [reflexivity|].
  cbn [fold_left]. rewrite IH, last_cons_default. destruct t; [reflexivity|].
  now rewrite !last_cons_default.
Qed.
