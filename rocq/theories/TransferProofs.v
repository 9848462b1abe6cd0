(** Partial transfer matrices (C08) and the optical invariant (C20). *)
From Coq Require Import ZArith Reals Lra Lia List Bool String.
From Verif Require Import Base Nums Optics Group Spec MatrixProofs ElementProofs GroupProofs
  TraceProofs RayProofs CardinalProofs StrictProofs FlipProofs.
Import ListNotations.
Open Scope R_scope.

(** ** Specification: a path cut at depth z *)
(** a piece of path together with what remains of it when it is cut after a distance *)
Record piece := mkP { po : optic; pcut : R -> optic }.

Definition lens_of (ps : list piece) : R := fold_right Rplus 0 (map (fun p => oL (po p)) ps).

(** the pieces met before depth [z]; the last one may be cut *)
Fixpoint cut_path (ps : list piece) (z : R) : list optic :=
  match ps with
  | [] => []
  | p :: t => if Rle_dec (oL (po p)) z then po p :: cut_path t (z - oL (po p)) else [pcut p z]
  end.

(** the pieces the library can cut: spaces, thick lenses and slabs; everything else has no
    thickness *)
Definition is_piece (km : @kind XR * @mat XR) (p : piece) : Prop :=
  describes (snd km) (po p) /\ physical (po p) /\ 0 <= oL (po p) /\ positive (mdiam (snd km)) /\
  match fst km with
  | KSpace => onf (po p) = onb (po p) /\ oM (po p) = free (oL (po p)) /\
              pcut p = fun d => o_space d (onf (po p))
  | KThickLens n r1 r2 => exists x, n = Fin x /\ x <> 0 /\ radius_ok r1 /\ onf (po p) = 1 /\
              oM (po p) = oM (o_thick x r1 r2 (oL (po p))) /\
              pcut p = fun d => ocomp (o_space d x) (o_interface 1 x r1)
  | KSlab n r1 r2 => exists x, n = Fin x /\ x <> 0 /\ r1 = PInf /\ onf (po p) = 1 /\
              oM (po p) = oM (o_thick x r1 r2 (oL (po p))) /\
              pcut p = fun d => ocomp (o_space d x) (o_interface 1 x PInf)
  | _ => oL (po p) = 0
  end.

(** ** Products with a left factor that may be an identity of unknown index *)
Lemma mul_tracks2 ml mr l r : tracks ml l -> tracks mr r -> physical l -> physical r ->
  onf l = onb r ->
  exists p, mul_matrix ml mr = Ok p /\ tracks p (ocomp l r) /\ mdiam p = PInf /\ mna p = PInf.
Proof.
  intros [Hl|[Il Hl]] Hr Pl Pr E; [now apply (mul_matrix_tracks ml mr l r)|].
  pose proof (isIdentity_describes _ _ Hl) as IE. cbn in IE.
  assert (isIdentity ml = true) as It by (apply IE; auto).
  pose proof (physical_id _ Pl Il) as El.
  destruct Hr as [Hr|[Ir Hr]].
  - destruct (mul_matrix_gen _ _ _ _ (onf r) (onb r) Hl Hr) as (p & H1 & H2 & H3).
    + unfold mul_idx. rewrite It. dsc Hr. auto.
    + apply Pr.
    + cbn. rewrite mdet_id, Rmult_1_l. apply Pr.
    + exists p. split; auto. split; auto. left.
      cbn in H2. rewrite mmul_id_l in H2.
      replace (ocomp l r) with
        (mkO (oM r) (oL r + oL l) (onf r) (onb r) (ofv (ocomp l r)) (obv (ocomp l r))); [exact H2|].
      apply optic_eq; try reflexivity; cbn.
      * rewrite Il. symmetry; apply mmul_id_l.
      * congruence.
  - destruct (mul_matrix_gen _ _ _ _ 1 1 Hl Hr) as (p & H1 & H2 & H3).
    + unfold mul_idx. rewrite It. dsc Hr. auto.
    + lra.
    + cbn. rewrite mdet_id. lra.
    + exists p. split; auto. split; auto. right. cbn in H2. rewrite mmul_id_l in H2.
      split; [cbn; rewrite Il, Ir; apply mmul_id_l|exact H2].
Qed.

(** ** Lemmas about the specification *)
Lemma describes_fun m o o' : describes m o -> describes m o' -> o = o'.
Proof.
  intros D D'.
  assert (forall a b : option R, option_map Fin a = option_map Fin b -> a = b) as HX.
  { intros [a|] [b|]; cbn; intros H; congruence. }
  apply optic_eq.
  - apply M2_eq; [pose proof (d_A _ _ D); pose proof (d_A _ _ D')
                 |pose proof (d_B _ _ D); pose proof (d_B _ _ D')
                 |pose proof (d_C _ _ D); pose proof (d_C _ _ D')
                 |pose proof (d_D _ _ D); pose proof (d_D _ _ D')]; congruence.
  - pose proof (d_L _ _ D); pose proof (d_L _ _ D'); congruence.
  - pose proof (d_nf _ _ D); pose proof (d_nf _ _ D'); congruence.
  - pose proof (d_nb _ _ D); pose proof (d_nb _ _ D'); congruence.
  - apply HX. pose proof (d_fv _ _ D); pose proof (d_fv _ _ D'); congruence.
  - apply HX. pose proof (d_bv _ _ D); pose proof (d_bv _ _ D'); congruence.
Qed.

Definition run (acc : optic) (l : list optic) : optic := fold_left (fun a x => ocomp x a) l acc.

Lemma run_app acc l l' : run acc (l ++ l') = run (run acc l) l'.
Proof. apply fold_left_app. Qed.
Lemma run_pl acc l : run acc l = ocomp (pl (onb acc) l) acc.
Proof.
  unfold run, pl. rewrite <- fold_ocomp, ocomp_id_l. reflexivity.
Qed.
Lemma pl_nf n l : onf (pl n l) = n.
Proof.
  unfold pl. assert (forall a, onf (fold_left (fun acc x => ocomp x acc) l a) = onf a) as HX.
  { induction l; intros; cbn; auto. now rewrite IHl. }
  now rewrite HX.
Qed.
Lemma pl_nb l : forall n, onb (pl n l) = List.last (map onb l) n.
Proof.
  induction l as [|x t IH] using rev_ind; intros; cbn; auto.
  rewrite pl_snoc, map_app. cbn. now rewrite last_last.
Qed.
Lemma pl_app n l l' : pl n (l ++ l') = ocomp (pl (onb (pl n l)) l') (pl n l).
Proof. unfold pl at 1. rewrite fold_left_app. apply run_pl. Qed.

Lemma pl_L l : forall n, oL (pl n l) = total_length l.
Proof.
  induction l as [|x t IH] using rev_ind; intros; cbn; auto.
  rewrite pl_snoc. cbn. rewrite IH. unfold total_length. rewrite map_app, fold_right_app. cbn.
  clear. induction (map oL t); cbn; lra.
Qed.

Definition pieces_nonneg (ps : list piece) : Prop := Forall (fun p => 0 <= oL (po p)) ps.

Lemma lens_of_nonneg ps : pieces_nonneg ps -> 0 <= lens_of ps.
Proof. induction 1; cbn; try lra. fold (lens_of l). lra. Qed.

Lemma lens_of_app ps qs : lens_of (ps ++ qs) = lens_of ps + lens_of qs.
Proof.
  unfold lens_of. induction ps; cbn; [lra|]. rewrite IHps. lra.
Qed.

Lemma cut_full ps : pieces_nonneg ps -> forall z, lens_of ps <= z -> cut_path ps z = map po ps.
Proof.
  induction 1 as [|p t Hp Ht IH]; intros z Hz; cbn; auto.
  cbn in Hz. fold (lens_of t) in Hz. pose proof (lens_of_nonneg t Ht).
  destruct (Rle_dec (oL (po p)) z); [|lra]. f_equal. apply IH. lra.
Qed.

Lemma cut_app_full ps qs : pieces_nonneg ps -> forall z, lens_of ps <= z ->
  cut_path (ps ++ qs) z = map po ps ++ cut_path qs (z - lens_of ps).
Proof.
  induction 1 as [|p t Hp Ht IH]; intros z Hz.
  - cbn. f_equal. lra.
  - cbn in *. fold (lens_of t) in *. pose proof (lens_of_nonneg t Ht).
    destruct (Rle_dec (oL (po p)) z); [|lra]. f_equal. rewrite IH by lra. do 2 f_equal. lra.
Qed.

Lemma cut_app_short ps qs : pieces_nonneg ps -> forall z, 0 <= z < lens_of ps ->
  cut_path (ps ++ qs) z = cut_path ps z.
Proof.
  induction 1 as [|p t Hp Ht IH]; intros z Hz; [unfold lens_of in Hz; cbn in Hz; lra|]; cbn in *.
  fold (lens_of t) in *. destruct (Rle_dec (oL (po p)) z); auto. f_equal. apply IH. lra.
Qed.

Lemma piece_cut km p z : is_piece km p -> 0 <= z < oL (po p) ->
  physical (pcut p z) /\ onf (pcut p z) = onf (po p) /\ oL (pcut p z) = z.
Proof.
  intros (D & P & Hn & Hd & H) Hz. destruct km as [k m]; cbn [fst snd] in *.
  destruct k; try lra.
  - destruct H as (E & _ & ->). destruct P as (P1 & _). split; [now apply p_space|]. split; reflexivity.
  - destruct H as (x & -> & Hx & Hr & E & _ & ->).
    split; [apply physical_ocomp; [now apply p_space|apply p_interface; auto; lra|reflexivity]|].
    split; cbn; auto. lra.
  - destruct H as (x & -> & Hx & Hr & E & _ & ->).
    split; [apply physical_ocomp; [now apply p_space|apply p_interface; auto; lra|reflexivity]|].
    split; cbn; auto. lra.
Qed.

Lemma cut_matched l ps : Forall2 is_piece l ps -> forall n z, 0 <= z -> matched n (map po ps) ->
  matched n (cut_path ps z).
Proof.
  induction 1 as [|km p l ps Hp HF IH]; intros n z Hz HM; cbn in *; auto.
  destruct HM as (E & P & HM). destruct (Rle_dec (oL (po p)) z) as [Hle|Hle]; cbn.
  - split; auto. split; auto. apply IH; auto. lra.
  - destruct (piece_cut km p z Hp) as (K1 & K2 & K3); [lra|]. split; [congruence|]. auto.
Qed.

Lemma cut_length l ps : Forall2 is_piece l ps -> forall z, 0 <= z ->
  total_length (cut_path ps z) = Rmin z (lens_of ps).
Proof.
  induction 1 as [|km p l ps Hp HF IH]; intros z Hz.
  - cbn. rewrite Rmin_right; auto.
  - assert (pieces_nonneg ps) as Hn.
    { clear -HF. induction HF; constructor; auto. apply H. }
    pose proof (lens_of_nonneg ps Hn). cbn. fold (lens_of ps).
    destruct (Rle_dec (oL (po p)) z) as [Hle|Hle].
    + unfold total_length in *. cbn. rewrite IH by lra.
      unfold Rmin. destruct (Rle_dec _ _), (Rle_dec _ _); lra.
    + destruct (piece_cut km p z Hp) as (K1 & K2 & K3); [lra|].
      cbn. rewrite K3. rewrite Rmin_left; lra.
Qed.

(** ** Elements and their leaves *)
Lemma canon_pieces : forall e o, canon e o -> forall ps, Forall2 is_piece (leaves e) ps ->
  ps <> [] /\ matched (onf o) (map po ps) /\ o = pl (onf o) (map po ps) /\ pieces_nonneg ps.
Proof.
  induction e as [k m|gk m es IH] using elem_ind'; intros o Hc ps HF.
  - inversion Hc; subst. cbn [leaves] in HF. inversion HF as [|? p ? ? Hp Hnil]; subst.
    inversion Hnil; subst. pose proof Hp as (D & P & Hn & _).
    match goal with D0 : describes m o |- _ =>
      cbn [snd] in D; pose proof (describes_fun _ _ _ D D0) as <- end.
    split; [discriminate|]. split; [cbn; auto|]. split; [|constructor; auto].
    cbn [map]. rewrite pl_cons by reflexivity. unfold pl; cbn. symmetry. apply ocomp_id_l.
  - inversion Hc as [|? e0 es0 o1 os HFc HC HG HD]; subst. cbn [leaves] in HF.
    rewrite path_pl, pl_nf.
    assert (exists pss, ps = List.concat pss /\ Forall2 (fun e ps => Forall2 is_piece (leaves e) ps) (e0 :: es0) pss)
      as (pss & -> & HFp).
    { clear -HF. remember (e0 :: es0) as es. clear Heqes. revert ps HF.
      induction es as [|e es IH]; intros ps HF; cbn in HF.
      - inversion HF; subst. exists []. split; auto.
      - apply Forall2_app_inv_l in HF as (p1 & p2 & F1 & F2 & ->).
        destruct (IH p2 F2) as (pss & -> & F). exists (p1 :: pss). split; auto. }
    pose proof (chain_matched _ _ HC) as HM. clear HC HG HD Hc.
    assert (forall es os, Forall2 canon es os -> forall pss n,
       Forall (fun e => forall o, canon e o -> forall ps, Forall2 is_piece (leaves e) ps ->
         ps <> [] /\ matched (onf o) (map po ps) /\ o = pl (onf o) (map po ps) /\ pieces_nonneg ps) es ->
       Forall2 (fun e ps => Forall2 is_piece (leaves e) ps) es pss ->
       matched n os ->
       matched n (map po (List.concat pss)) /\ pl n os = pl n (map po (List.concat pss)) /\
       pieces_nonneg (List.concat pss)) as HX.
    { clear. intros es os H. induction H as [|e o es os He HF IHF]; intros pss n HI HP HM.
      - inversion HP; subst. cbn. repeat split; constructor.
      - inversion HP as [|? p1 ? pss' Hp1 HP']; subst. inversion HI as [|? ? HIe HI']; subst.
        cbn in HM. destruct HM as (<- & Po & HM).
        destruct (HIe o He p1 Hp1) as (N1 & M1 & E1 & Q1).
        destruct (IHF pss' (onb o) HI' HP' HM) as (M2 & E2 & Q2).
        assert (onb o = onb (pl (onf o) (map po p1))) as Eb by congruence.
        cbn [List.concat]. rewrite map_app. split; [|split].
        + apply matched_app. split; auto. rewrite <- pl_nb, <- E1. exact M2.
        + rewrite pl_cons by reflexivity. rewrite pl_app, <- E1. now rewrite E2.
        + apply Forall_app; auto. }
    destruct (HX _ _ HFc pss (onf o1) IH HFp HM) as (K1 & K2 & K3).
    split.
    + inversion HFp as [|? p1 ? pss' Hp1 _]; subst. inversion HFc as [|? ? ? ? Hc1 _]; subst.
      inversion IH as [|? ? I1 _]; subst. destruct (I1 _ Hc1 _ Hp1) as [N1 _].
      cbn [List.concat]. destruct p1; [congruence|discriminate].
    + split; auto.
Qed.

(** ** C08 *)
Lemma xle_fin a b : nleb (Fin a) (Fin b) = true <-> a <= b.
Proof. apply Rleb_true. Qed.

Lemma tracks_default n : tracks m_default (o_id n).
Proof. right. split; [reflexivity|apply default_describes]. Qed.

Definition open_matrix (t : @elem XR) : Prop :=
  exists k m, t = Leaf k m /\ not_axicon (k, m) /\ mdiam m = PInf /\ mna m = PInf.

Definition upto_ok (e : @elem XR) : Prop :=
  forall o ps z, canon e o -> Forall2 is_piece (leaves e) ps -> 0 <= z ->
  exists t, transferMatrix e (Fin z) = Ok t /\ tracks (emat t) (pl (onf o) (cut_path ps z)) /\
    ((exists k m, e = Leaf k m /\ t = Leaf k m) \/ open_matrix t).

Lemma loop_upto es os : Forall2 canon es os -> Forall upto_ok es ->
  forall pss tm acc z,
  Forall2 (fun e ps => Forall2 is_piece (leaves e) ps) es pss ->
  tracks tm acc -> physical acc -> matched (onb acc) os -> 0 <= z ->
  mdiam tm = PInf -> mna tm = PInf ->
  exists p, transfer_loop es tm (Fin z) = Ok p /\ tracks p (run acc (cut_path (List.concat pss) z)) /\
    mdiam p = PInf /\ mna p = PInf.
Proof.
  induction 1 as [|e o es os He HF IH]; intros HU pss tm acc z HP Ht Pa HM Hz Hd Hna.
  - inversion HP; subst. exists tm. cbn. auto.
  - inversion HP as [|? ps ? pss' Hps HP']; subst. inversion HU as [|? ? Ue HU']; subst.
    cbn in HM. destruct HM as (E & Po & HM). cbn [List.concat].
    destruct (canon_pieces e o He ps Hps) as (N1 & M1 & E1 & Q1).
    assert (oL o = lens_of ps) as EL.
    { rewrite E1, pl_L. unfold total_length, lens_of. now rewrite map_map. }
    pose proof (canon_describes _ _ He) as D.
    cbn [transfer_loop]. rewrite (d_L _ _ D).
    destruct (nleb (Fin (oL o)) (Fin z)) eqn:Ez.
    + apply xle_fin in Ez.
      destruct (mul_matrix_tracks _ _ _ _ D Ht Po Pa E) as (p & K1 & K2 & K3 & K4).
      rewrite K1. cbn [bind]. change (nsub (Fin z) (Fin (oL o))) with (Fin (z - oL o)).
      destruct (IH HU' pss' p (ocomp o acc) (z - oL o)) as (q & J1 & J2 & J3); auto; try lra.
      { now apply physical_ocomp. }
      exists q. split; auto. split; auto.
      rewrite cut_app_full by (auto; lra). rewrite run_app, <- EL.
      rewrite (run_pl acc (map po ps)), <- E, <- E1. exact J2.
    + assert (z < oL o) as Hlt.
      { apply Rnot_le_lt. intros C. apply xle_fin in C. congruence. }
      destruct (Ue o ps z He Hps Hz) as (t & T1 & T2 & _). rewrite T1. cbn [bind].
      assert (physical (pl (onf o) (cut_path ps z))) as Pc.
      { apply physical_pl; [apply Po|]. apply (cut_matched _ _ Hps); auto. }
      destruct (mul_tracks2 _ _ _ _ T2 Ht Pc Pa) as (p & K1 & K2 & K3).
      { now rewrite pl_nf. }
      exists p. split; auto. split; auto. rewrite cut_app_short by (auto; lra). rewrite run_pl, <- E. exact K2.
Qed.

Lemma leaf_upto k m : upto_ok (Leaf k m).
Proof.
  intros o ps z Hc HF Hz. inversion Hc; subst. cbn [leaves] in HF.
  inversion HF as [|? p ? ? Hp Hnil]; subst. inversion Hnil; subst.
  pose proof Hp as (D & P & Hn & Hd & H). cbn [fst snd] in *.
  match goal with D0 : describes m o |- _ => pose proof (describes_fun _ _ _ D D0) as <-; clear D0 end.
  cbn [cut_path transferMatrix]. unfold transfer_leaf. rewrite (d_L _ _ D).
  assert (pl (onf (po p)) [po p] = po p) as Epl.
  { rewrite pl_cons by reflexivity. unfold pl; cbn. apply ocomp_id_l. }
  assert (Rleb (oL (po p)) z = (if Rle_dec (oL (po p)) z then true else false)) as Eb by reflexivity.
  assert (forall x, onf x = onf (po p) -> pl (onf (po p)) [x] = x) as Hpl.
  { intros x <-. rewrite pl_cons by reflexivity. unfold pl; cbn. apply ocomp_id_l. }
  destruct (Rle_dec (oL (po p)) z) as [Hle|Hle].
  - exists (Leaf k m). rewrite Epl. split; [|split; [left; exact D|left; eauto]].
    cbn [nltb nleb neqb NumXR xltb xleb xeqb c0 nofZ].
    rewrite (Rltb_ge z (oL (po p))) by lra. rewrite Eb.
    destruct k; try reflexivity; destruct (Reqb _ _); reflexivity.
  - assert (0 <= z < oL (po p)) as Hz2 by lra.
    destruct (piece_cut (k, m) p z Hp Hz2) as (C1 & C2 & C3). rewrite Hpl by auto.
    cbn [nltb nleb neqb NumXR xltb xleb xeqb c0 nofZ]. rewrite Eb.
    destruct k; try lra.
    + rewrite (Rltb_lt z) by lra. destruct H as (E & _ & Hcut). rewrite (d_nf _ _ D).
      rewrite Space_ok; [|apply P|exact I].
      eexists. split; [reflexivity|]. split; [left; rewrite Hcut; apply mat_of_describes|].
      right. eexists _, _. split; [reflexivity|]. repeat split.
    + destruct H as (x & -> & Hx & Hr & E & _ & Hcut).
      rewrite SpaceM_ok by auto. cbn [bind]. change (@c1 XR _) with (Fin 1).
      rewrite InterfaceM_ok by (auto; lra). cbn [bind].
      match goal with |- context [o_interface 1 x ?r] => set (r1 := r) in * end.
      destruct (mul_matrix_matched _ _ _ _
        (mat_of_describes (o_space z x) (mdiam m) PInf false "")
        (mat_of_describes (o_interface 1 x r1) (mdiam m) PInf false "")) as (q & Q1 & Q2 & Q3 & Q4);
        [now apply p_space|apply p_interface; auto; lra|reflexivity|].
      rewrite Q1. cbn [bind]. eexists. split; [reflexivity|]. split; [left; rewrite Hcut; exact Q2|].
      right. exists KMatrix, q. repeat split; auto.
    + destruct H as (x & -> & Hx & Hr & E & _ & Hcut).
      rewrite SpaceM_ok by auto. cbn [bind]. change (@c1 XR _) with (Fin 1).
      change (@ninf XR _) with PInf.
      rewrite InterfaceM_ok by (auto; try lra; exact I). cbn [bind].
      destruct (mul_matrix_matched _ _ _ _
        (mat_of_describes (o_space z x) (mdiam m) PInf false "")
        (mat_of_describes (o_interface 1 x PInf) (mdiam m) PInf false "")) as (q & Q1 & Q2 & Q3 & Q4);
        [now apply p_space|apply p_interface; auto; lra|reflexivity|].
      rewrite Q1. cbn [bind]. eexists. split; [reflexivity|]. split; [left; rewrite Hcut; exact Q2|].
      right. exists KMatrix, q. repeat split; auto.
Qed.

Lemma group_upto gk m es : Forall upto_ok es -> forall o ps z,
  canon (Group gk m es) o -> Forall2 is_piece (leaves (Group gk m es)) ps -> 0 <= z ->
  exists p, transferMatrix (Group gk m es) (Fin z) = Ok (Leaf KMatrix p) /\
    tracks p (pl (onf o) (cut_path ps z)) /\ mdiam p = PInf /\ mna p = PInf.
Proof.
  intros IH o ps z Hc HF Hz. inversion Hc as [|? e0 es0 o1 os HFc HC HG HD]; subst.
  rewrite transferMatrix_group. unfold group_transfer. rewrite Matrix_default_ok. cbn [bind].
  cbn [leaves] in HF.
  assert (exists pss, ps = List.concat pss /\ Forall2 (fun e ps => Forall2 is_piece (leaves e) ps) (e0 :: es0) pss)
    as (pss & -> & HFp).
  { clear -HF. remember (e0 :: es0) as es. clear Heqes. revert ps HF.
    induction es as [|e es IH]; intros ps HF; cbn in HF.
    - inversion HF; subst. exists []. split; auto.
    - apply Forall2_app_inv_l in HF as (p1 & p2 & F1 & F2 & ->).
      destruct (IH p2 F2) as (pss & -> & F). exists (p1 :: pss). split; auto. }
  assert (onf o1 <> 0) as Hn by apply HC.
  destruct (loop_upto _ _ HFc IH pss m_default (o_id (onf o1)) z HFp (tracks_default _))
    as (p & P1 & P2 & P3); auto.
  { now apply physical_o_id. }
  { now apply chain_matched. }
  rewrite P1. cbn [bind]. eexists. split; [reflexivity|].
  rewrite path_pl, pl_nf. split; auto.
Qed.

Lemma all_upto : forall e, upto_ok e.
Proof.
  induction e as [k m|gk m es IH] using elem_ind'; [apply leaf_upto|].
  intros o ps z Hc HF Hz. destruct (group_upto gk m es IH o ps z Hc HF Hz) as (p & P1 & P2 & P3 & P4).
  eexists. split; [exact P1|]. split; auto. right. exists KMatrix, p. repeat split; auto.
Qed.

Theorem transfer_upto e o ps z : canon e o -> Forall2 is_piece (leaves e) ps -> 0 <= z ->
  let P := pl (onf o) (cut_path ps z) in
  exists t, transferMatrix e (Fin z) = Ok t /\
    ((exists k m, e = Leaf k m /\ t = Leaf k m) \/ open_matrix t) /\ tracks (emat t) P /\ physical P /\
    mA (emat t) = Fin (A_ (oM P)) /\ mB (emat t) = Fin (B_ (oM P)) /\
    mC (emat t) = Fin (C_ (oM P)) /\ mD (emat t) = Fin (D_ (oM P)) /\
    oM P = mprod (map oM (cut_path ps z)) /\
    mL (emat t) = Fin (Rmin z (oL o)) /\ oL P = Rmin z (oL o) /\
    (oL o <= z -> P = o).
Proof.
  intros Hc HF Hz P.
  destruct (all_upto e o ps z Hc HF Hz) as (t & T1 & T2 & T3).
  destruct (canon_pieces e o Hc ps HF) as (N1 & M1 & E1 & Q1).
  pose proof (canon_physical _ _ Hc) as Po.
  assert (physical P) as PP.
  { apply physical_pl; [apply Po|]. apply (cut_matched _ _ HF); auto. }
  assert (oL o = lens_of ps) as EL.
  { rewrite E1, pl_L. unfold total_length, lens_of. now rewrite map_map. }
  assert (oL P = Rmin z (oL o)) as ELP.
  { unfold P. rewrite pl_L, (cut_length _ _ HF) by auto. now rewrite EL. }
  exists t. split; auto. split; auto. split; auto. split; auto.
  destruct (tracks_ML _ _ T2) as (o' & D & EM & EL').
  fold P in EM, EL'. dsc D. rewrite EM, EL', ELP. repeat (split; [reflexivity|]).
  split; [|split; [reflexivity|split; [reflexivity|]]].
  - unfold P. unfold pl, mprod. 
    assert (forall l a, oM (fold_left (fun acc x => ocomp x acc) l a) =
       fold_left (fun acc M => mmul M acc) (map oM l) (oM a)) as HX.
    { induction l; intros; cbn; auto. now rewrite IHl. }
    now rewrite HX.
  - intros Hge. unfold P. rewrite cut_full by (auto; lra). now rewrite <- E1.
Qed.

(** ** C20 *)
(** a single element clips the rays it is given; the transfer matrix of a group clips nothing *)
Definition clears (e : @elem XR) (r : @ray XR) : Prop :=
  match e with Leaf _ m => misses m r = false | Group _ _ _ => True end.

Lemma open_misses (m : @mat XR) r y th : mdiam m = PInf -> mna m = PInf ->
  ry r = Fin y -> rth r = Fin th -> misses m r = false.
Proof.
  intros E1 E2 Ey Eth. unfold misses. rewrite E1, E2, Ey, Eth. cbn.
  unfold Rltb, Rleb, Reqb; repeat (destruct (Rlt_dec _ _); try lra; cbn); reflexivity.
Qed.

Theorem invariant_conserved e o ps z y1 th1 z1 (d1 : XR) w1 y2 th2 z2 (d2 : XR) w2 :
  canon e o -> Forall2 is_piece (leaves e) ps -> Forall not_axicon (leaves e) -> 0 <= z ->
  onf o = 1 \/ oM (pl (onf o) (cut_path ps z)) <> mid ->
  clears e (fray y1 th1 z1 false d1 w1) -> clears e (fray y2 th2 z2 false d2 w2) ->
  opticalInvariant e (fray y1 th1 z1 false d1 w1) (fray y2 th2 z2 false d2 w2) (Fin z) =
    Ok (Fin (onf o * (th1 * y2 - y1 * th2))).
Proof.
  intros Hc HF Hx Hz Hid C1 C2.
  destruct (transfer_upto e o ps z Hc HF Hz)
    as (t & Et & Ht & T2 & PP & EA & EB & EC & ED & _ & EL & _).
  set (P := pl (onf o) (cut_path ps z)) in *.
  assert (mbi (emat t) = Fin (onb P)) as Ebi.
  { destruct T2 as [D|[Ei D]]; [apply D|]. rewrite (d_nb _ _ D). cbn.
    destruct Hid as [Hi|Hi]; [|congruence].
    rewrite <- (physical_id _ PP Ei). unfold P. now rewrite pl_nf, Hi. }
  unfold opticalInvariant. rewrite Et. cbn [bind]. rewrite Ebi.
  assert (forall y th zz (d : XR) w, clears e (fray y th zz false d w) ->
    ry (traceThrough t (fray y th zz false d w)) = Fin (A_ (oM P) * y + B_ (oM P) * th) /\
    rth (traceThrough t (fray y th zz false d w)) = Fin (C_ (oM P) * y + D_ (oM P) * th)) as HX.
  { intros y th zz d w B. rewrite traceThrough_through in *.
    assert (exists k m, t = Leaf k m /\ not_axicon (k, m) /\ misses m (fray y th zz false d w) = false)
      as (k & m & -> & Hk & Hm).
    { destruct Ht as [(k & m & -> & ->)|(k & m & -> & Hk & D1 & D2)].
      - exists k, m. split; auto. split; auto. inversion Hx; auto.
      - exists k, m. split; auto. split; auto. now apply (open_misses m _ y th). }
    cbn [through] in *.
    pose proof (through_leaf_free (k, m) (fray y th zz false d w) eq_refl Hm) as E.
    cbn [fst snd] in E. rewrite E. unfold ideal. cbn [fst snd fray ry rth emat] in *.
    rewrite EA, EB, EC, ED. split; [reflexivity|]. destruct k; cbn in Hk; try tauto; reflexivity. }
  destruct (HX _ _ _ _ _ C1) as [Y1 H1]. destruct (HX _ _ _ _ _ C2) as [Y2 H2].
  rewrite Y1, H1, Y2, H2. cbn. do 2 f_equal.
  destruct PP as (P1 & P2 & P3). unfold P in P3 at 2. rewrite pl_nf in P3. unfold mdet in P3.
  assert (onf o = onb P * (A_ (oM P) * D_ (oM P) - B_ (oM P) * C_ (oM P))) as ->.
  { rewrite P3. field. auto. }
  ring.
Qed.
