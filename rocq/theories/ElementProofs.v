(** What the constructors of the elements build, over exact numbers. *)
From Coq Require Import Reals Lra List Bool String Psatz.
From Verif Require Import Base Nums Optics Spec MatrixProofs.
Import ListNotations.
Open Scope R_scope.

(** the model matrix with given description and aperture *)
Definition mat_of (o : optic) (diam na : XR) (fl : bool) (lab : string) : @mat XR :=
  mkMat (Fin (A_ (oM o))) (Fin (B_ (oM o))) (Fin (C_ (oM o))) (Fin (D_ (oM o)))
        (Fin (oL o)) (option_map Fin (ofv o)) (option_map Fin (obv o))
        (Fin (onf o)) (Fin (onb o)) diam na fl lab.

Lemma mat_of_describes o d n f l : describes (mat_of o d n f l) o.
Proof. constructor; reflexivity. Qed.

Lemma describes_mat_of m o : describes m o ->
  m = mat_of o (mdiam m) (mna m) (mflip m) (mlabel m).
Proof. intros []. destruct m; cbn in *. subst. reflexivity. Qed.

Lemma positive_nleb d : positive d -> nleb d (@c0 XR _) = false.
Proof. destruct d; cbn; intros H; try reflexivity; try contradiction. apply Rleb_gt, H. Qed.

Lemma Matrix_init_optic o diam na lab : physical o -> positive diam -> positive na ->
  Matrix_init (Fin (A_ (oM o))) (Fin (B_ (oM o))) (Fin (C_ (oM o))) (Fin (D_ (oM o)))
    (Fin (oL o)) (option_map Fin (ofv o)) (option_map Fin (obv o))
    (Fin (onf o)) (Fin (onb o)) diam na lab = Ok (mat_of o diam na false lab).
Proof.
  intros (H1 & H2 & H3) Hd Hn. rewrite Matrix_init_ok; auto using positive_nleb.
Qed.

Lemma p_lens f : physical (o_lens f).
Proof. unfold physical, mdet; cbn; repeat split; lra. Qed.
Lemma p_mirror r : physical (o_mirror r).
Proof. unfold physical, mdet; cbn; repeat split; lra. Qed.
Lemma p_space d n : n <> 0 -> physical (o_space d n).
Proof. unfold physical, mdet; cbn; intros; repeat split; auto. field; auto. Qed.
Lemma p_interface n1 n2 r : n1 <> 0 -> n2 <> 0 -> physical (o_interface n1 n2 r).
Proof. unfold physical, mdet; cbn; intros; repeat split; auto. field; auto. Qed.
Lemma p_aperture : physical o_aperture.
Proof. unfold physical, mdet; cbn; repeat split; lra. Qed.
Lemma p_thick n r1 r2 t : n <> 0 -> physical (o_thick n r1 r2 t).
Proof.
  intros. unfold o_thick. apply physical_ocomp; [apply p_interface; lra| |reflexivity].
  apply physical_ocomp; [apply p_space; auto | apply p_interface; lra | reflexivity].
Qed.

Lemma pdiv_radius x n r : n <> 0 -> radius_ok r ->
  pdiv (Fin x) (nmul (Fin n) r) = Ok (Fin (x / n * curv r)).
Proof.
  intros Hn Hr. destruct r; cbn [radius_ok curv] in *; try contradiction.
  - cbn [nmul NumXR xmul]. rewrite pdiv_fin by nra. do 2 f_equal. field; auto.
  - cbn [nmul NumXR xmul]. unfold xsgninf.
    destruct (Rlt_dec 0 n); [|destruct (Rlt_dec n 0); [|lra]];
      unfold pdiv; cbn; do 2 f_equal; ring.
  - cbn [nmul NumXR xmul]. unfold xsgninf.
    destruct (Rlt_dec 0 n); [|destruct (Rlt_dec n 0); [|lra]];
      unfold pdiv; cbn; do 2 f_equal; ring.
Qed.

Lemma pdiv_radius1 x r : radius_ok r -> pdiv (Fin x) r = Ok (Fin (x * curv r)).
Proof.
  intros Hr. destruct r; cbn [radius_ok curv] in *; try contradiction.
  - now rewrite pdiv_fin.
  - unfold pdiv; cbn; do 2 f_equal; ring.
  - unfold pdiv; cbn; do 2 f_equal; ring.
Qed.

Lemma pdiv_radius2 x n r1 r2 : n <> 0 -> radius_ok r1 -> radius_ok r2 ->
  pdiv (Fin x) (nmul (nmul (Fin n) r1) r2) = Ok (Fin (x / n * curv r1 * curv r2)).
Proof.
  intros Hn H1 H2.
  assert (forall s, (0 < s \/ s < 0) -> xsgninf s = PInf \/ xsgninf s = NInf) as HS.
  { intros s Hs. unfold xsgninf. destruct (Rlt_dec 0 s); auto.
    destruct (Rlt_dec s 0); auto. lra. }
  destruct r1; cbn [radius_ok] in *; try contradiction.
  - change (nmul (nmul (Fin n) (Fin r)) r2) with (nmul (Fin (n * r)) r2).
    rewrite (pdiv_radius x (n * r)) by (auto; nra).
    cbn. do 2 f_equal. field; auto.
  - cbn [nmul NumXR xmul]. destruct (HS n) as [-> | ->]; [lra| |];
    (destruct r2; cbn [radius_ok curv] in *; try contradiction; cbn [xmul xopp];
     [destruct (HS r) as [-> | ->]; [lra| |]; unfold pdiv; cbn; do 2 f_equal; ring
     | unfold pdiv; cbn; do 2 f_equal; ring | unfold pdiv; cbn; do 2 f_equal; ring]).
  - cbn [nmul NumXR xmul]. destruct (HS n) as [-> | ->]; [lra| |];
    (destruct r2; cbn [radius_ok curv] in *; try contradiction; cbn [xmul xopp];
     [destruct (HS r) as [-> | ->]; [lra| |]; unfold pdiv; cbn; do 2 f_equal; ring
     | unfold pdiv; cbn; do 2 f_equal; ring | unfold pdiv; cbn; do 2 f_equal; ring]).
Qed.

(** ** Constructors *)
Lemma Lens_ok f diam : f <> 0 -> positive diam ->
  Lens (Fin f) diam = Ok (Leaf (KLens (Fin f) (Fin 4)) (mat_of (o_lens f) diam PInf false "")).
Proof.
  intros Hf Hd. unfold Lens, c1, c0. cbn [nofZ NumXR nopp xopp ninf].
  rewrite pdiv_fin by auto. cbn [bind].
  pose proof (Matrix_init_optic (o_lens f) diam PInf ""%string (p_lens f) Hd I) as H.
  cbn [o_lens oM oL onf onb ofv obv thin A_ B_ C_ D_ option_map] in H.
  replace (-(1) / f) with (-1 / f) by (cbn; field; auto).
  rewrite H. reflexivity.
Qed.

Lemma CurvedMirror_ok r diam : r <> 0 -> positive diam ->
  CurvedMirror (Fin r) diam = Ok (Leaf KCurvedMirror (mat_of (o_mirror r) diam PInf false "")).
Proof.
  intros Hf Hd. unfold CurvedMirror, c2, c1, c0. cbn [nofZ ninf NumXR].
  rewrite pdiv_fin by auto. cbn [bind].
  pose proof (Matrix_init_optic (o_mirror r) diam PInf ""%string (p_mirror r) Hd I) as H.
  cbn [o_mirror oM oL onf onb ofv obv thin A_ B_ C_ D_ option_map] in H.
  rewrite H. reflexivity.
Qed.

Lemma SpaceM_ok d n diam : n <> 0 -> positive diam ->
  SpaceM (Fin d) (Fin n) diam = Ok (mat_of (o_space d n) diam PInf false "").
Proof.
  intros Hn Hd. unfold SpaceM, c1, c0. cbn [nofZ ninf NumXR].
  exact (Matrix_init_optic (o_space d n) diam PInf ""%string (p_space d n Hn) Hd I).
Qed.
Lemma Space_ok d n diam : n <> 0 -> positive diam ->
  Space (Fin d) (Fin n) diam = Ok (Leaf KSpace (mat_of (o_space d n) diam PInf false "")).
Proof. intros. unfold Space. now rewrite SpaceM_ok. Qed.

Lemma interface_C_ok n1 n2 r : n2 <> 0 -> radius_ok r ->
  interface_C (Fin n1) (Fin n2) r = Ok (Fin (- (n2 - n1) / n2 * curv r)).
Proof.
  intros H2 Hr. unfold interface_C. cbn [nsub nopp NumXR xsub xadd xopp].
  rewrite pdiv_radius by auto. do 2 f_equal.
Qed.
Lemma InterfaceM_ok n1 n2 r diam : n1 <> 0 -> n2 <> 0 -> radius_ok r -> positive diam ->
  InterfaceM (Fin n1) (Fin n2) r diam = Ok (mat_of (o_interface n1 n2 r) diam PInf false "").
Proof.
  intros H1 H2 Hr Hd. unfold InterfaceM. rewrite interface_C_ok by auto. cbn [bind].
  rewrite pdiv_fin by auto. cbn [bind]. unfold c0, c1; cbn [nofZ ninf NumXR].
  exact (Matrix_init_optic (o_interface n1 n2 r) diam PInf ""%string
           (p_interface n1 n2 r H1 H2) Hd I).
Qed.
Lemma DielectricInterface_ok n1 n2 r diam :
  n1 <> 0 -> n2 <> 0 -> radius_ok r -> positive diam ->
  DielectricInterface (Fin n1) (Fin n2) r diam
  = Ok (Leaf (KInterface (Fin n1) (Fin n2) r) (mat_of (o_interface n1 n2 r) diam PInf false "")).
Proof. intros. unfold DielectricInterface. now rewrite InterfaceM_ok. Qed.

Lemma thick_A_ok n r1 t : n <> 0 -> radius_ok r1 ->
  thick_A (Fin n) r1 (Fin t) = Ok (Fin (t * (1 - n) / n * curv r1 + 1)).
Proof.
  intros. unfold thick_A.
  change (nmul (Fin t) (nsub c1 (Fin n))) with (Fin (t * (1 - n))).
  rewrite pdiv_radius by auto. cbn. reflexivity.
Qed.
Lemma thick_D_ok n r2 t : n <> 0 -> radius_ok r2 ->
  thick_D (Fin n) r2 (Fin t) = Ok (Fin (t * (n - 1) / n * curv r2 + 1)).
Proof.
  intros. unfold thick_D.
  change (nmul (Fin t) (nsub (Fin n) c1)) with (Fin (t * (n - 1))).
  rewrite pdiv_radius by auto. cbn. reflexivity.
Qed.
Lemma thick_B_ok n t : n <> 0 -> thick_B (Fin n) (Fin t) = Ok (Fin (t / n)).
Proof. intros. unfold thick_B. now rewrite pdiv_fin. Qed.
Lemma thick_C_ok n r1 r2 t : n <> 0 -> radius_ok r1 -> radius_ok r2 ->
  thick_C (Fin n) r1 r2 (Fin t)
  = Ok (Fin (- (n - 1) * (curv r1 - curv r2 + t * (n - 1) / n * curv r1 * curv r2))).
Proof.
  intros. unfold thick_C. change (@c1 XR _) with (Fin 1).
  rewrite !pdiv_radius1 by auto. cbn [bind].
  change (nmul (Fin t) (nsub (Fin n) (Fin 1))) with (Fin (t * (n - 1))).
  rewrite pdiv_radius2 by auto. cbn. do 2 f_equal. ring.
Qed.

Lemma o_thick_eq n r1 r2 t : n <> 0 ->
  o_thick n r1 r2 t =
  mkO (mk2 (t * (1 - n) / n * curv r1 + 1) (t / n)
           (- (n - 1) * (curv r1 - curv r2 + t * (n - 1) / n * curv r1 * curv r2))
           (t * (n - 1) / n * curv r2 + 1)) t 1 1 (Some 0) (Some t).
Proof.
  intros. apply optic_eq; cbn; try reflexivity.
  - apply M2_eq; cbn; field; auto.
  - ring.
  - f_equal; ring.
Qed.

Lemma ThickLensM_ok n r1 r2 t diam :
  n <> 0 -> radius_ok r1 -> radius_ok r2 -> positive diam ->
  ThickLensM (Fin n) r1 r2 (Fin t) diam = Ok (mat_of (o_thick n r1 r2 t) diam PInf false "").
Proof.
  intros Hn H1 H2 Hd. unfold ThickLensM.
  rewrite thick_A_ok by auto; cbn [bind].
  rewrite thick_B_ok by auto; cbn [bind].
  rewrite thick_C_ok by auto; cbn [bind].
  rewrite thick_D_ok by auto; cbn [bind].
  unfold c0, c1; cbn [nofZ ninf NumXR].
  pose proof (Matrix_init_optic (o_thick n r1 r2 t) diam PInf ""%string
    (p_thick n r1 r2 t Hn) Hd I) as H.
  rewrite o_thick_eq in * by auto. exact H.
Qed.
Lemma ThickLens_ok n r1 r2 t diam :
  n <> 0 -> radius_ok r1 -> radius_ok r2 -> positive diam ->
  ThickLens (Fin n) r1 r2 (Fin t) diam
  = Ok (Leaf (KThickLens (Fin n) r1 r2) (mat_of (o_thick n r1 r2 t) diam PInf false "")).
Proof. intros. unfold ThickLens. now rewrite ThickLensM_ok. Qed.
Lemma DielectricSlab_ok n t diam : n <> 0 -> positive diam ->
  DielectricSlab (Fin n) (Fin t) diam
  = Ok (Leaf (KSlab (Fin n) PInf PInf) (mat_of (o_thick n PInf PInf t) diam PInf false "")).
Proof.
  intros. unfold DielectricSlab. cbn [ninf NumXR].
  rewrite ThickLensM_ok; auto; exact I.
Qed.
Lemma Aperture_ok diam na : positive diam -> positive na ->
  Aperture diam na = Ok (Leaf KAperture (mat_of o_aperture diam na false "")).
Proof.
  intros Hd Hn. unfold Aperture, ApertureL, c0, c1; cbn [nofZ ninf NumXR].
  pose proof (Matrix_init_optic o_aperture diam na ""%string p_aperture Hd Hn) as H.
  cbn [o_aperture oM oL onf onb ofv obv mid A_ B_ C_ D_ option_map] in H.
  now rewrite H.
Qed.

(** ** Reversal *)
Lemma mrev_mmul P Q : mdet P <> 0 -> mdet Q <> 0 ->
  mrev (mmul P Q) = mmul (mrev Q) (mrev P).
Proof.
  intros HP HQ. apply M2_eq; cbn [mrev A_ B_ C_ D_]; rewrite mdet_mmul;
    cbn; field; auto.
Qed.
Lemma mdet_mrev P : mdet P <> 0 -> mdet (mrev P) = / mdet P.
Proof. intros H. unfold mdet at 1; cbn. unfold mdet in *. field; auto. Qed.
Lemma mrev_mrev P : mdet P <> 0 -> mrev (mrev P) = P.
Proof.
  intros H. apply M2_eq; cbn [mrev A_ B_ C_ D_]; rewrite mdet_mrev by auto;
  field; auto.
Qed.
Lemma mrev_mid : mrev mid = mid.
Proof. apply M2_eq; cbn; unfold mdet; cbn; field. Qed.

Lemma physical_det o : physical o -> mdet (oM o) <> 0.
Proof.
  intros (H1 & H2 & H3). rewrite H3. unfold Rdiv.
  apply Rmult_integral_contrapositive_currified; auto. apply Rinv_neq_0_compat; auto.
Qed.

Lemma physical_orev o : physical o -> physical (orev o).
Proof.
  intros P. pose proof (physical_det _ P) as Hd. destruct P as (H1 & H2 & H3).
  unfold physical; cbn. repeat split; auto.
  rewrite mdet_mrev, H3 by auto. field; auto.
Qed.

Lemma orev_ocomp l r : physical l -> physical r ->
  orev (ocomp l r) = ocomp (orev r) (orev l).
Proof.
  intros Pl Pr. apply optic_eq; cbn; try reflexivity.
  - apply mrev_mmul; apply physical_det; auto.
  - ring.
  - destruct (obv l), (obv r); cbn; try reflexivity; f_equal; ring.
  - destruct (ofv r), (ofv l); cbn; try reflexivity; f_equal; ring.
Qed.

Lemma orev_orev o : physical o -> orev (orev o) = o.
Proof.
  intros P. apply optic_eq; cbn; try reflexivity.
  - apply mrev_mrev, physical_det; auto.
  - destruct (ofv o); cbn; try reflexivity. f_equal; ring.
  - destruct (obv o); cbn; try reflexivity. f_equal; ring.
Qed.

(** what reversal means for a ray *)
Lemma mrev_spec M y th : mdet M <> 0 ->
  let v := mapp M (y, th) in mapp (mrev M) (fst v, - snd v) = (y, - th).
Proof. intros H; cbn. unfold mapp; cbn. unfold mdet in *. f_equal; field; auto. Qed.
