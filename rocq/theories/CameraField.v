(** A camera: object at the distance [a] of a lens, detector of diameter [D2] on the image at the distance [b]. *)
From Coq Require Import Reals Lra Lia List Bool String ZArith.
From Verif Require Import Base Nums Optics Group Spec MatrixProofs ElementProofs GroupProofs
  TraceProofs RayProofs CardinalProofs StrictProofs FlipProofs TransferProofs CardinalMore Samples
  Samples2 Imaging Efficiency SearchProofs ImagingProofs FieldProofs FieldMore.
Import ListNotations.
Open Scope list_scope.
Open Scope R_scope.

Section Camera.
Variables a b f D1 D2 : R.
Hypothesis Ha : / 100000 <= a.
Hypothesis Hb : 0 < b.
Hypothesis H1 : 0 < D1.
Hypothesis H2 : 0 < D2.
Hypothesis Hf0 : f <> 0.
Hypothesis Hf : / a + / b = / f.
Let Ha0 : 0 < a. Proof. assert (0 < / 100000) by (apply Rinv_0_lt_compat; lra). lra. Qed.
Lemma focus : a + b * (1 - a / f) = 0.
Proof. unfold Rdiv. rewrite <- Hf. field. split; lra. Qed.

Definition cam : list (@elem XR) := [x_space a 1; x_lens f D1; x_space b 1; x_aperture D2].
Definition cam_pieces : list piece := [space_piece a 1; thin_piece (o_lens f); space_piece b 1; thin_piece o_aperture].
Definition cam_optic : optic := path_optic (o_space a 1) [o_lens f; o_space b 1; o_aperture].
Record is_cam (e : @elem XR) : Prop := {
  cm_canon : canon e cam_optic;
  cm_pieces : Forall2 is_piece (leaves e) cam_pieces;
  cm_lin : Forall not_axicon (leaves e);
  cm_open : Forall open_angle (leaves e);
  cm_thin : Forall2 thin_aperture (leaves e) cam_pieces;
  cm_limit : Forall2 thin_if_limiting (leaves e) cam_pieces;
  cm_leaves : leaves e = flat_map leaves cam;
  cm_finite : hasFiniteApertureDiameter e = true }.
Lemma cam_exists : exists g, MatrixGroup_new cam "" = Ok g /\ is_cam (Group GGroup (gmat g) (gelems g)).
Proof.
  destruct (MatrixGroup_canon cam [o_space a 1; o_lens f; o_space b 1; o_aperture] "")
    as (g & G1 & G2 & _ & _ & _ & _ & G); [| | |discriminate|].
  - repeat apply Forall2_cons; try apply Forall2_nil; try (apply c_space; lra); [apply c_lens|apply c_aperture].
  - split; [apply p_space; lra|]. split; [reflexivity|]. split; [apply p_lens|]. split; [reflexivity|].
    split; [apply p_space; lra|]. split; [reflexivity|]. split; [apply p_aperture|exact I].
  - right. intros o t [= <- _]. reflexivity.
  - exists g. split; [exact G1|]. change (is_cam (grp_elem g)).
    assert (leaves (grp_elem g) = flat_map leaves cam) as El by (unfold grp_elem; cbn [leaves]; now rewrite G2).
    split.
    + apply (G (o_space a 1) [o_lens f; o_space b 1; o_aperture] eq_refl).
    + rewrite El. repeat apply Forall2_cons; try apply Forall2_nil; try (apply sp_piece; lra).
      * split; [apply mat_of_describes|]. split; [apply p_lens|]. split; [cbn; lra|]. split; [cbn; lra|]. reflexivity.
      * split; [apply mat_of_describes|]. split; [apply p_aperture|]. split; [cbn; lra|]. split; [cbn; lra|]. reflexivity.
    + rewrite El. repeat constructor.
    + rewrite El. repeat apply Forall_cons; try apply Forall_nil; exact I.
    + rewrite El. repeat apply Forall2_cons; try apply Forall2_nil.
      1,3: (split; [reflexivity|]; split; [now left|]; cbn; intros; lra).
      all: (split; [reflexivity|]; split; [now right|]; cbn; intros; split; reflexivity).
    + rewrite El. repeat apply Forall2_cons; try apply Forall2_nil.
      1,3: (right; split; reflexivity).
      all: (left; reflexivity).
    + exact El.
    + unfold hasFiniteApertureDiameter, grp_elem. rewrite G2. reflexivity.
Qed.

Lemma misses_iff (m : @mat XR) D y t z bl (d : XR) w : mdiam m = Fin D -> mna m = PInf -> misses m (fray y t z bl d w) = Rltb (D / 2) (Rabs y).
Proof.
  intros E1 E2. unfold misses, fray. cbn [ry rth]. rewrite E1, E2. unfold c2. cbn [ndiv NumXR nofZ nabs xabs nltb xltb]. rewrite xdiv_fin by lra. cbn [xltb]. now rewrite orb_false_r.
Qed.
Lemma heights j y th : fst (mapp (upto cam_pieces j) (y, th)) =
  match j with
  | O => y
  | 1%nat | 2%nat => y + a * th
  | _ => y + a * th + b * (th - (y + a * th) / f)
  end \/ (4 < j)%nat.
Proof.
  destruct j as [|[|[|[|[|j]]]]]; [left..|right; lia]; cbn; field; auto.
Qed.
(** what each element does to a ray *)
Lemma cam_misses e j km y th z (d : XR) w : is_cam e -> nth_error (leaves e) j = Some km ->
  misses (snd km) (after (leaves e) (fray y th z false d w) j) =
  match j with
  | 1%nat => Rltb (D1 / 2) (Rabs (y + a * th))
  | 3%nat => Rltb (D2 / 2) (Rabs (y + a * th + b * (th - (y + a * th) / f)))
  | _ => false
  end.
Proof.
  intros C Ej. destruct (after_pieces _ _ (cm_pieces e C) (cm_lin e C) j ltac:(assert (j < List.length (leaves e))%nat; [apply nth_error_Some; congruence|lia]) y th z false d w) as (w' & ->).
  rewrite (cm_leaves e C) in Ej. pose proof (heights j y th) as [Hh|Hh].
  - rewrite Hh. destruct j as [|[|[|[|j]]]]; cbn [cam flat_map leaves app nth_error x_space x_lens x_aperture] in Ej;
      [| | | |destruct j; discriminate]; injection Ej as <-; cbn [snd].
    + unfold fray; erewrite open_misses; reflexivity.
    + erewrite misses_iff; reflexivity.
    + unfold fray; erewrite open_misses; reflexivity.
    + erewrite misses_iff; reflexivity.
  - destruct j as [|[|[|[|j]]]]; try lia. destruct j; discriminate.
Qed.
Lemma cam_axis th : 0 + a * th + b * (th - (0 + a * th) / f) = 0.
Proof. replace (0 + a * th + b * (th - (0 + a * th) / f)) with ((a + b * (1 - a / f)) * th) by (field; auto). rewrite focus. ring. Qed.
Lemma cam_stop e : is_cam e -> apertureStop e = Ok (mkStop (Some (Fin a)) (Some (Fin D1))).
Proof.
  intros C. assert (depth cam_pieces 2 = a) as Hd by (unfold depth, lens_of; cbn; lra).
  destruct (rblk (traceThrough e probe)) eqn:P.
  - destruct (stop_when_blocked e _ _ (cm_canon e C) (cm_pieces e C) (cm_lin e C) (cm_thin e C) (cm_finite e C) P) as (i & D & (km & Ei & ED) & E & Hb' & _).
    rewrite E. rewrite (cm_leaves e C) in Ei.
    destruct i as [|[|[|[|i]]]]; cbn [cam flat_map leaves app nth_error x_space x_lens x_aperture] in Ei;
      [| | | |destruct i; discriminate]; injection Ei as <-; cbn [snd mdiam mat_of] in ED; try discriminate; injection ED as <-.
    + now rewrite Hd.
    + exfalso. unfold axis_height in Hb'. destruct (heights 4 0 (/ 10)) as [Hh|Hh]; [|lia]. rewrite Hh, cam_axis, Rabs_R0 in Hb'. lra.
  - destruct (stop_spec e _ _ (cm_canon e C) (cm_pieces e C) (cm_lin e C) (cm_finite e C) P) as [[_ H]|(i & km & Ei & E & Hr & _)].
    + exfalso. specialize (H 1%nat (KLens (Fin f) (Fin 4), mat_of (o_lens f) (Fin D1) PInf false "")).
      rewrite (cm_leaves e C) in H. specialize (H eq_refl). cbn [ratio snd mdiam mat_of] in H. unfold probe_height in H.
      unfold Rdiv in H. apply Rmult_integral in H as [H|H]; [|pose proof (Rinv_0_lt_compat D1 H1); lra].
      cbn in H. unfold Rabs in H. destruct (Rcase_abs _) in H; lra.
    + rewrite E. rewrite (cm_leaves e C) in Ei.
      destruct i as [|[|[|[|i]]]]; cbn [cam flat_map leaves app nth_error x_space x_lens x_aperture] in Ei;
        [| | | |destruct i; discriminate]; injection Ei as <-; cbn [snd mdiam mat_of ratio] in *; try lra.
      * now rewrite Hd.
      * exfalso. revert Hr. unfold probe_height. destruct (heights 4 0 (/ 10)) as [Hh|Hh]; [|lia].
        match goal with |- context [Rabs ?x] => replace x with 0 end; [rewrite Rabs_R0; lra|].
        pose proof (cam_axis (/ 10)) as Hx. rewrite Hx in Hh. now symmetry.
Qed.
Lemma cam_matrix : matrix_to cam_pieces a = mk2 1 a (- / f) (1 - a / f) \/ matrix_to cam_pieces a = mk2 1 a 0 1.
Proof.
  unfold matrix_to. cbn [cam_pieces cut_path space_piece thin_piece po pcut o_space o_lens o_aperture oL].
  repeat (match goal with |- context [Rle_dec ?x ?y] => destruct (Rle_dec x y); try (exfalso; lra) end); [left|right..];
  cbn; unfold mmul, mid, free; cbn; f_equal; field; auto.
Qed.
Lemma cam_aim : A_ (matrix_to cam_pieces a) = 1 /\ B_ (matrix_to cam_pieces a) = a.
Proof. destruct cam_matrix as [-> | ->]; split; reflexivity. Qed.
Lemma cam_aimed e : is_cam e -> aimed e cam_optic cam_pieces a.
Proof.
  intros C. split; [apply (cm_canon e C)|apply (cm_pieces e C)|apply (cm_lin e C)|apply (cm_open e C)| |].
  - exists (Some (Fin D1)). now apply cam_stop.
  - rewrite (proj2 cam_aim), Rabs_pos_eq; lra.
Qed.
Lemma chief_lens y : y + a * (- (1) / a * y) = 0.
Proof. field. lra. Qed.
Lemma chief_detector y : y + a * (- (1) / a * y) + b * (- (1) / a * y - (y + a * (- (1) / a * y)) / f) = - (b / a) * y.
Proof. rewrite chief_lens. field. repeat split; auto; lra. Qed.
Lemma ratio_abs y : Rabs (- (b / a) * y) = b / a * Rabs y.
Proof. rewrite Rabs_mult, Rabs_Ropp, (Rabs_pos_eq (b / a)); [reflexivity|]. apply Rlt_le, Rdiv_lt_0_compat; lra. Qed.
Lemma ratio_lt y : D2 / 2 < b / a * y <-> D2 * a / (2 * b) < y.
Proof.
  assert (0 < b / a) as R by (apply Rdiv_lt_0_compat; lra). replace (D2 / 2) with (b / a * (D2 * a / (2 * b))) by (field; split; lra).
  split; intros H; [now apply Rmult_lt_reg_l with (b / a)|now apply Rmult_lt_compat_l].
Qed.
Lemma cam_edge e : is_cam e -> field_edge e (D2 * a / (2 * b)).
Proof.
  intros C y. exists (chief cam_pieces a y). split; [apply (aimed_chief e _ _ _ y (cam_aimed e C))|].
  unfold chief, aim. destruct cam_aim as [-> ->].
  pose proof (passes_nth e (fray y (- (1) / a * y) 0 false PInf None) eq_refl) as H.
  destruct (Rlt_dec (D2 * a / (2 * b)) (Rabs y)) as [L|L].
  - rewrite Rltb_lt by exact L. destruct (rblk _) eqn:Eb; auto. exfalso. destruct H as [H _].
    specialize (H eq_refl 3%nat (KAperture, mat_of o_aperture (Fin D2) PInf false "")).
    assert (nth_error (leaves e) 3 = Some (KAperture, mat_of o_aperture (Fin D2) PInf false "")) as En by (rewrite (cm_leaves e C); reflexivity).
    specialize (H En). rewrite (cam_misses e 3 _ y _ 0 PInf None C En), chief_detector, ratio_abs, Rltb_lt in H; [discriminate|]. now apply ratio_lt.
  - rewrite Rltb_ge by lra. apply H. intros j km Ej. rewrite (cam_misses e j km y _ 0 PInf None C Ej).
    destruct j as [|[|[|[|j]]]]; auto.
    + rewrite chief_lens, Rabs_R0. apply Rltb_ge. lra.
    + rewrite chief_detector, ratio_abs. apply Rltb_ge. apply Rnot_lt_le. intros K. apply ratio_lt in K. lra.
Qed.
Lemma cam_A : A_ (oM cam_optic) = - (b / a) /\ B_ (oM cam_optic) = 0 /\ D_ (oM cam_optic) = - (a / b).
Proof. cbn. unfold Rdiv. rewrite <- !Hf. repeat split; field; repeat split; lra. Qed.
Lemma cam_conjugate e : is_cam e -> exists c, forwardConjugate (emat e) = Ok (Fin 0, Some c) /\ mA c = Fin (- (b / a)).
Proof.
  intros C. pose proof (canon_describes _ _ (cm_canon e C)) as Hd. pose proof (canon_physical _ _ (cm_canon e C)) as Hp. destruct cam_A as (EA & EB & ED).
  assert (0 < a / b) as Hab by (apply Rdiv_lt_0_compat; lra).
  destruct (forward_ok _ _ Hd Hp ltac:(rewrite ED; lra)) as (c & E & Dc). exists c. rewrite E.
  replace (- B_ (oM cam_optic) / D_ (oM cam_optic)) with 0 in * by (rewrite EB; field; lra). split; [reflexivity|].
  dsc Dc. f_equal. rewrite <- EA. cbn. ring.
Qed.
Theorem camera_field : 3 / 80000 <= D2 * a / (2 * b) <= 7000 ->
  exists s1 l s2 ap g, Space (Fin a) c1 PInf = Ok s1 /\ Lens (Fin f) (Fin D1) = Ok l /\ Space (Fin b) c1 PInf = Ok s2 /\ Aperture (Fin D2) PInf = Ok ap /\
  MatrixGroup_new [s1; l; s2; ap] "" = Ok g /\
  apertureStop (Group GGroup (gmat g) (gelems g)) = Ok (mkStop (Some (Fin a)) (Some (Fin D1))) /\
  exists n v, v <= D2 * (a / b) < v + 4 / 1000000 /\ forall fuel, (n <= fuel)%nat ->
    fieldOfView fuel (Group GGroup (gmat g) (gelems g)) = Ok (Fin v) /\
    fieldStop fuel (Group GGroup (gmat g) (gelems g)) = Ok (mkStop (Some (Fin (a + b))) (Some (Fin D2))) /\
    exists s, (forall h, imageSize fuel (Group GGroup (gmat g) (gelems g)) false h = Ok (Fin s)) /\ s <= D2 < s + 4 / 1000000 * (b / a).
Proof.
  intros Hh. destruct cam_exists as (g & G & C). exists (x_space a 1), (x_lens f D1), (x_space b 1), (x_aperture D2), g.
  split; [apply x_space_ok; lra|]. split; [now apply x_lens_ok|]. split; [apply x_space_ok; lra|]. split; [now apply x_aperture_ok|]. split; [exact G|].
  set (e := Group GGroup (gmat g) (gelems g)) in *. split; [now apply cam_stop|].
  assert (3 / 80000 <= D2 * a / (2 * b) < tried 42) as Ht by (unfold tried; pose proof step_42; lra).
  destruct (half_field_found e _ _ _ (cam_aimed e C) ltac:(lra) _ (cam_edge e C) Ht) as (n & v & Hv & K).
  destruct (field_stop_element e _ _ _ (cam_aimed e C) ltac:(lra) _ (cm_limit e C) (cam_edge e C) Ht) as (n' & v' & i & km & Hv' & Ei & M & _ & K').
  exists (Nat.max n n'), (2 * v).
  assert (2 * v <= D2 * (a / b) < 2 * v + 4 / 1000000) as Hw.
  { replace (D2 * (a / b)) with (2 * (D2 * a / (2 * b))) by (field; lra). unfold prec in Hv. lra. }
  split; [exact Hw|]. intros fuel F. split; [|split].
  - unfold fieldOfView. rewrite (K fuel ltac:(lia)). cbn [bind]. reflexivity.
  - rewrite (K' fuel ltac:(lia)). unfold chief, aim in M. destruct cam_aim as [EA EB]. rewrite EA, EB in M.
    rewrite (cam_misses e i km v' _ 0 PInf None C Ei) in M.
    destruct i as [|[|[|[|i]]]]; try discriminate.
    + exfalso. rewrite chief_lens, Rabs_R0, Rltb_ge in M by lra. discriminate.
    + rewrite (cm_leaves e C) in Ei. injection Ei as <-. cbn [snd mdiam mat_of]. do 3 f_equal. unfold depth, lens_of. cbn. do 2 f_equal. lra.
  - destruct (cam_conjugate e C) as (c & Ec & EA). exists (2 * v * (b / a)).
    assert (0 < b / a) as Hba by (apply Rdiv_lt_0_compat; lra). assert (0 <= v) as V by (unfold prec in Hv; lra). split.
    + intros h. unfold imageSize, fieldOfView. rewrite Ec, (K fuel ltac:(lia)). cbn [bind snd]. rewrite EA.
      cbn [nmul NumXR xmul nabs xabs nofZ c2]. do 2 f_equal. replace (2 * v * - (b / a)) with (- (2 * v * (b / a))) by ring.
      rewrite Rabs_Ropp. apply Rabs_pos_eq. nra.
    + replace D2 with (D2 * (a / b) * (b / a)) by (field; lra). split; [nra|]. rewrite <- Rmult_plus_distr_r. apply Rmult_lt_compat_r; lra.
Qed.
Lemma cam_cone e th : is_cam e -> rblk (traceThrough e (fray 0 th 0 false PInf None)) = Rltb (D1 / (2 * a)) (Rabs th).
Proof.
  intros C. pose proof (passes_nth e (fray 0 th 0 false PInf None) eq_refl) as H.
  assert (Rabs (0 + a * th) = a * Rabs th) as Et by (rewrite Rplus_0_l, Rabs_mult, (Rabs_pos_eq a) by lra; reflexivity).
  assert (a * (D1 / (2 * a)) = D1 / 2) as Ee by (field; lra).
  destruct (Rlt_dec (D1 / (2 * a)) (Rabs th)) as [L|L].
  - rewrite Rltb_lt by exact L. destruct (rblk _) eqn:Eb; auto. exfalso. destruct H as [H _].
    specialize (H eq_refl 1%nat (KLens (Fin f) (Fin 4), mat_of (o_lens f) (Fin D1) PInf false "")).
    specialize (H ltac:(rewrite (cm_leaves e C); reflexivity)).
    erewrite (cam_misses e 1) in H by (exact C || (rewrite (cm_leaves e C); reflexivity)).
    rewrite Et, Rltb_lt in H; [discriminate|]. rewrite <- Ee. apply Rmult_lt_compat_l; lra.
  - rewrite Rltb_ge by lra. apply H. intros j km Ej. rewrite (cam_misses e j km 0 _ 0 PInf None C Ej).
    destruct j as [|[|[|[|j]]]]; auto.
    + rewrite Et. apply Rltb_ge. rewrite <- Ee. apply Rmult_le_compat_l; lra.
    + rewrite cam_axis, Rabs_R0. apply Rltb_ge. lra.
Qed.
Theorem camera_numbers : f < 100000 ->
  exists s1 l s2 ap g, Space (Fin a) c1 PInf = Ok s1 /\ Lens (Fin f) (Fin D1) = Ok l /\ Space (Fin b) c1 PInf = Ok s2 /\ Aperture (Fin D2) PInf = Ok ap /\
  MatrixGroup_new [s1; l; s2; ap] "" = Ok g /\
  axialRay (Group GGroup (gmat g) (gelems g)) = Ok (Some (Ray_new (Fin 0) (Fin (D1 / (2 * a))))) /\
  (forall th, rblk (traceThrough (Group GGroup (gmat g) (gelems g)) (Ray_new (Fin 0) (Fin th))) = true <-> D1 / (2 * a) < Rabs th) /\
  (forall sin, NA sin (Group GGroup (gmat g) (gelems g)) = Ok (nmul (Fin 1) (sin (Fin (D1 / (2 * a)))))) /\
  entrancePupil (Group GGroup (gmat g) (gelems g)) = Ok (mkStop (Some (Fin a)) (Some (Fin D1))) /\
  fNumber (Group GGroup (gmat g) (gelems g)) = Ok (Some (Fin (f / D1))).
Proof.
  intros Hpow. destruct cam_exists as (g & G & C). exists (x_space a 1), (x_lens f D1), (x_space b 1), (x_aperture D2), g.
  split; [apply x_space_ok; lra|]. split; [now apply x_lens_ok|]. split; [apply x_space_ok; lra|]. split; [now apply x_aperture_ok|]. split; [exact G|].
  set (e := Group GGroup (gmat g) (gelems g)) in *. pose proof (cam_stop e C) as ES. destruct cam_aim as [EA EB].
  assert (axialRay e = Ok (Some (Ray_new (Fin 0) (Fin (D1 / (2 * a)))))) as Ex.
  { destruct (axial_ray e _ _ a D1 (cm_canon e C) (cm_pieces e C) ES H1 ltac:(rewrite EB, Rabs_pos_eq; lra)) as (th & E & Hth & K).
    rewrite E. assert (th = D1 / (2 * a)) as ->; [|reflexivity].
    unfold mapp in K. cbn [fst snd] in K. rewrite EB, Rmult_0_r, Rplus_0_l, Rabs_pos_eq in K by nra.
    apply (Rmult_eq_reg_l a); [|lra]. rewrite K. field. lra. }
  split; [exact Ex|]. split.
  { intros th. change (Ray_new (Fin 0) (Fin th)) with (fray 0 th 0 false PInf None). rewrite cam_cone by exact C. apply Rltb_true. }
  split.
  { intros sn. unfold NA. rewrite Ex. cbn [bind]. pose proof (canon_describes _ _ (cm_canon e C)) as Hd. dsc Hd. reflexivity. }
  destruct (entrance_pupil e _ _ a D1 (cm_canon e C) (cm_pieces e C) eq_refl (cm_finite e C) ES ltac:(rewrite EA; lra)) as (zp & Dp & EP & Hz & HD).
  rewrite EA, Rabs_R1, Rmult_1_l in HD. subst Dp.
  assert (zp = a) as ->.
  { specialize (Hz 0 1). unfold mapp, mmul, free in Hz. cbn [fst snd A_ B_ C_ D_] in Hz. rewrite EA, EB in Hz. lra. }
  split; [exact EP|].
  assert (0 < / f) as Hif by (rewrite <- Hf; pose proof (Rinv_0_lt_compat a Ha0); pose proof (Rinv_0_lt_compat b Hb); lra).
  assert (0 < f) as Hfp by (rewrite <- (Rinv_involutive f) by auto; now apply Rinv_0_lt_compat).
  assert (C_ (oM cam_optic) = - / f) as EC by (cbn; field; auto).
  assert (power cam_optic) as Hp.
  { unfold power. rewrite EC, Rabs_Ropp, Rabs_pos_eq by lra. unfold Rdiv. rewrite Rmult_1_l. apply Rinv_lt_contravar; [nra|exact Hpow]. }
  unfold fNumber. rewrite EP, (focal_ok _ cam_optic (canon_describes _ _ (cm_canon e C)) (canon_physical _ _ (cm_canon e C)) Hp), EC.
  cbn [bind st_d fst]. rewrite pdiv_fin by lra. cbn [bind]. do 3 f_equal. change (onf cam_optic) with 1. change (onb cam_optic) with 1. field. split; lra.
Qed.
End Camera.
