(** A concrete imaging path for the theorems about stops and fields: space 10, lens f=50 of
    diameter 25, space 20, aperture of diameter 10, space 30. *)
From Coq Require Import Reals Lra Lia List Bool String ZArith.
From Verif Require Import Base Nums Optics Group Spec MatrixProofs ElementProofs GroupProofs
  TraceProofs RayProofs CardinalProofs StrictProofs FlipProofs TransferProofs CardinalMore Samples
  Samples2 Imaging SearchProofs ImagingProofs FieldProofs FieldMore.
Import ListNotations.
Open Scope list_scope.
Open Scope R_scope.

Definition camera : list (@elem XR) :=
  [x_space 10 1; x_lens 50 25; x_space 20 1; x_aperture 10; x_space 30 1].
Definition camera_o : list optic :=
  [o_space 10 1; o_lens 50; o_space 20 1; o_aperture; o_space 30 1].
Definition camera_pieces : list piece :=
  [space_piece 10 1; thin_piece (o_lens 50); space_piece 20 1; thin_piece o_aperture; space_piece 30 1].
Definition camera_optic : optic := path_optic (o_space 10 1) (tl camera_o).

Lemma camera_canon : Forall2 canon camera camera_o.
Proof.
  repeat apply Forall2_cons; try apply Forall2_nil; try (apply c_space; lra); [apply c_lens|apply c_aperture].
Qed.

Lemma camera_chain : chain camera_o.
Proof.
  split; [apply p_space; lra|]. split; [reflexivity|]. split; [apply p_lens|].
  split; [reflexivity|]. split; [apply p_space; lra|]. split; [reflexivity|].
  split; [apply p_aperture|]. split; [reflexivity|]. split; [apply p_space; lra|exact I].
Qed.

Lemma camera_good : good camera_o.
Proof. right. intros o t [= <- _]. reflexivity. Qed.

Lemma camera_is_pieces : Forall2 is_piece (flat_map leaves camera) camera_pieces.
Proof.
  repeat apply Forall2_cons; try apply Forall2_nil; try (apply sp_piece; lra).
  - split; [apply mat_of_describes|]. split; [apply p_lens|]. split; [cbn; lra|].
    split; [cbn; lra|]. reflexivity.
  - split; [apply mat_of_describes|]. split; [apply p_aperture|]. split; [cbn; lra|].
    split; [cbn; lra|]. reflexivity.
Qed.

(** what the examples need to know of the path [e] built from [camera] *)
Record is_camera (e : @elem XR) : Prop := {
  ca_group : exists g, MatrixGroup_new camera "" = Ok g /\ e = Group GGroup (gmat g) (gelems g);
  ca_canon : canon e camera_optic;
  ca_pieces : Forall2 is_piece (leaves e) camera_pieces;
  ca_lin : Forall not_axicon (leaves e);
  ca_open : Forall open_angle (leaves e);
  ca_thin : Forall2 thin_aperture (leaves e) camera_pieces;
  ca_limit : Forall2 thin_if_limiting (leaves e) camera_pieces;
  ca_leaves : leaves e = flat_map leaves camera;
  ca_finite : hasFiniteApertureDiameter e = true }.

Lemma camera_exists : exists e, is_camera e.
Proof.
  destruct (MatrixGroup_canon camera camera_o "" camera_canon camera_chain camera_good)
    as (g & G1 & G2 & _ & _ & _ & _ & G); [discriminate|].
  exists (grp_elem g).
  assert (leaves (grp_elem g) = flat_map leaves camera) as El
    by (unfold grp_elem; cbn [leaves]; now rewrite G2).
  split.
  - exists g. split; auto.
  - apply (G (o_space 10 1) (tl camera_o) eq_refl).
  - rewrite El. exact camera_is_pieces.
  - rewrite El. repeat constructor.
  - rewrite El. repeat apply Forall_cons; try apply Forall_nil; exact I.
  - rewrite El. repeat apply Forall2_cons; try apply Forall2_nil.
    1,3,5: (split; [reflexivity|]; split; [now left|]; cbn; intros; lra).
    all: (split; [reflexivity|]; split; [now right|]; cbn; intros; split; reflexivity).
  - rewrite El. repeat apply Forall2_cons; try apply Forall2_nil.
    1,3,5: (right; split; reflexivity).
    all: (left; reflexivity).
  - exact El.
  - unfold hasFiniteApertureDiameter, grp_elem. rewrite G2. cbn [camera existsb].
    reflexivity.
Qed.

(** which rays get through *)
Lemma camera_passes e y th z (d : XR) w : is_camera e ->
  rblk (traceThrough e (fray y th z false d w)) = false <->
  Rabs (y + 10 * th) <= 25 / 2 /\ Rabs (y + 10 * th + 20 * (th - (y + 10 * th) / 50)) <= 5.
Proof.
  intros C. rewrite (passes_nth e (fray y th z false d w) eq_refl). rewrite (ca_leaves e C).
  pose proof camera_is_pieces as HF.
  assert (Forall not_axicon (flat_map leaves camera)) as HA by (repeat constructor).
  assert (forall (k : @kind XR) (m : @mat XR) D r y', mdiam m = Fin D -> mna m = PInf -> ry r = Fin y' ->
    (exists t, rth r = Fin t) -> (misses m r = false <-> Rabs y' <= D / 2)) as HM.
  { intros k m D r y' E1 E2 E3 (t & E4). unfold misses. rewrite E1, E2, E3, E4. unfold c2.
    cbn [ndiv NumXR nofZ nabs xabs nltb xltb]. rewrite xdiv_fin by lra. cbn [xltb].
    rewrite orb_false_r. destruct (Rlt_dec (D/2) (Rabs y')) as [L|L].
    - rewrite Rltb_lt by exact L. split; [discriminate|lra].
    - rewrite Rltb_ge by lra. split; intros; auto; lra. }
  split.
  - intros H. split.
    + destruct (after_pieces _ _ HF HA 1%nat ltac:(cbn; lia) y th z false d w) as (w' & Ea).
      specialize (H 1%nat (nth 1 (flat_map leaves camera) (KMatrix, mat_of o_aperture PInf PInf false "")) eq_refl).
      rewrite Ea in H. cbn [camera x_lens flat_map leaves app nth snd] in H.
      eapply HM in H; [|exact KMatrix|reflexivity|reflexivity|reflexivity|eexists; reflexivity].
      cbn in H. replace (y + 10 * th) with (1 * y + 0 * 0 + (0 + 0 * 0) + 10 * th) by ring.
      match type of H with Rabs ?a <= _ => replace (1 * y + 0 * 0 + (0 + 0 * 0) + 10 * th) with a by ring end.
      exact H.
    + destruct (after_pieces _ _ HF HA 3%nat ltac:(cbn; lia) y th z false d w) as (w' & Ea).
      specialize (H 3%nat (nth 3 (flat_map leaves camera) (KMatrix, mat_of o_aperture PInf PInf false "")) eq_refl).
      rewrite Ea in H. cbn [camera x_aperture flat_map leaves app nth snd] in H.
      eapply HM in H; [|exact KMatrix|reflexivity|reflexivity|reflexivity|eexists; reflexivity].
      cbn in H. match type of H with Rabs ?a <= _ =>
        replace (y + 10 * th + 20 * (th - (y + 10 * th) / 50)) with a by field end. lra.
  - intros [H1 H3] j km Ej.
    destruct (after_pieces _ _ HF HA j ltac:(assert (j < List.length (flat_map leaves camera))%nat;
      [apply nth_error_Some; congruence|lia]) y th z false d w) as (w' & Ea).
    rewrite Ea.
    destruct j as [|[|[|[|[|j]]]]]; cbn [camera flat_map leaves app nth_error x_space x_lens x_aperture] in Ej;
      [| | | | |destruct j; discriminate]; injection Ej as <-; cbn [snd].
    1,3,5: (unfold fray; erewrite open_misses; reflexivity).
    + eapply HM; [exact KMatrix|reflexivity|reflexivity|reflexivity|eexists; reflexivity|].
      cbn. match goal with |- Rabs ?a <= _ => replace a with (y + 10 * th) by ring end. exact H1.
    + eapply HM; [exact KMatrix|reflexivity|reflexivity|reflexivity|eexists; reflexivity|].
      cbn. match goal with |- Rabs ?a <= _ =>
        replace a with (y + 10 * th + 20 * (th - (y + 10 * th) / 50)) by field end. lra.
Qed.

Lemma camera_probe e : is_camera e -> rblk (traceThrough e probe) = false.
Proof.
  intros C. rewrite probe_fray. apply (camera_passes e _ _ _ _ _ C). split; rewrite Rabs_pos_eq; lra.
Qed.

Lemma camera_stop e : is_camera e -> apertureStop e = Ok (mkStop (Some (Fin 30)) (Some (Fin 10))).
Proof.
  intros C. destruct (stop_spec e _ _ (ca_canon e C) (ca_pieces e C) (ca_lin e C) (ca_finite e C)
    (camera_probe e C)) as [[_ H]|(i & km & Ei & E & Hr & Hmax)].
  - exfalso. specialize (H 3%nat (KAperture, mat_of o_aperture (Fin 10) PInf false "")).
    rewrite (ca_leaves e C) in H. specialize (H eq_refl). cbn in H.
    unfold Rdiv in H. apply Rmult_integral in H as [H|H]; [|lra].
    unfold Rabs in H. destruct (Rcase_abs _) in H; lra.
  - rewrite E. rewrite (ca_leaves e C) in *.
    assert (ratio (probe_height camera_pieces i) (mdiam (snd km)) >= (26/10)/10) as H3.
    { destruct (Hmax 3%nat _ eq_refl) as [H _]. cbn in H.
      unfold Rabs in H at 1. destruct (Rcase_abs _) as [X|X] in H; [exfalso; clear -X; cbn in X; lra|]. cbn. lra. }
    destruct i as [|[|[|[|[|i]]]]]; cbn [camera flat_map leaves app nth_error x_space x_lens x_aperture] in Ei;
      [| | | | |destruct i; discriminate]; injection Ei as <-; cbn [snd mdiam mat_of ratio] in *; try lra.
    + exfalso. unfold probe_height in H3. cbn in H3. unfold Rabs in H3.
      destruct (Rcase_abs _) in H3; lra.
    + unfold depth, lens_of. cbn. do 4 f_equal. lra.
Qed.

Lemma camera_matrix : matrix_to camera_pieces 30 = mk2 (3/5) 26 (-1/50) (4/5).
Proof.
  unfold matrix_to. cbn [camera_pieces cut_path space_piece thin_piece po pcut o_space o_lens o_aperture oL].
  repeat (match goal with |- context [Rle_dec ?a ?b] => destruct (Rle_dec a b); [|lra] end).
  match goal with |- context [Rle_dec ?a ?b] => destruct (Rle_dec a b); [exfalso; lra|] end.
  cbn. unfold mmul, mid, free; cbn. f_equal; field.
Qed.

Lemma camera_aimed e : is_camera e -> aimed e camera_optic camera_pieces 30.
Proof.
  intros C. split; [apply (ca_canon e C)|apply (ca_pieces e C)|apply (ca_lin e C)|apply (ca_open e C)| |].
  - exists (Some (Fin 10)). now apply camera_stop.
  - rewrite camera_matrix. cbn. rewrite Rabs_pos_eq; lra.
Qed.

(** chief rays are lost at the lens beyond 16.25 *)
Lemma camera_edge e : is_camera e -> field_edge e (65 / 4).
Proof.
  intros C y. exists (chief camera_pieces 30 y). split; [apply (aimed_chief e _ _ _ y (camera_aimed e C))|].
  assert (aim camera_pieces 30 = - (3 / 130)) as Ha.
  { unfold aim. rewrite camera_matrix. cbn. field. }
  unfold chief. pose proof (camera_passes e y (aim camera_pieces 30 * y) 0 PInf None C) as H.
  rewrite Ha in *. destruct (Rlt_dec (65/4) (Rabs y)) as [L|L].
  - rewrite Rltb_lt by exact L. destruct (rblk _) eqn:Eb; auto. exfalso. destruct H as [H _]. destruct (H eq_refl) as [E _].
    replace (y + 10 * (-(3/130) * y)) with ((10/13) * y) in E by field.
    rewrite Rabs_mult, (Rabs_pos_eq (10/13)) in E by lra. lra.
  - rewrite Rltb_ge by lra. apply H. split.
    + replace (y + 10 * (-(3/130) * y)) with ((10/13) * y) by field.
      rewrite Rabs_mult, (Rabs_pos_eq (10/13)) by lra. lra.
    + match goal with |- Rabs ?a <= _ => replace a with 0 by field end. rewrite Rabs_R0. lra.
Qed.

Lemma tried_42 : 65 / 4 < tried 42.
Proof. unfold tried. pose proof step_42. lra. Qed.

(** ** Space [d], aperture of diameter [D] *)
Definition hole (d D : R) : list (@elem XR) := [x_space d 1; x_aperture D].
Definition hole_pieces (d : R) : list piece := [space_piece d 1; thin_piece o_aperture].
Definition hole_optic (d : R) : optic := path_optic (o_space d 1) [o_aperture].

Record is_hole (d D : R) (e : @elem XR) : Prop := {
  ho_canon : canon e (hole_optic d);
  ho_pieces : Forall2 is_piece (leaves e) (hole_pieces d);
  ho_lin : Forall not_axicon (leaves e);
  ho_open : Forall open_angle (leaves e);
  ho_thin : Forall2 thin_aperture (leaves e) (hole_pieces d);
  ho_leaves : leaves e = flat_map leaves (hole d D);
  ho_finite : hasFiniteApertureDiameter e = true }.

Lemma hole_exists d D : 0 < d -> 0 < D -> exists e, is_hole d D e.
Proof.
  intros Hd HD.
  destruct (MatrixGroup_canon (hole d D) [o_space d 1; o_aperture] "")
    as (g & G1 & G2 & _ & _ & _ & _ & G); [| | |discriminate|].
  - repeat apply Forall2_cons; try apply Forall2_nil; [apply c_space; lra|apply c_aperture].
  - split; [apply p_space; lra|]. split; [reflexivity|]. split; [apply p_aperture|exact I].
  - right. intros o t [= <- _]. reflexivity.
  - exists (grp_elem g).
    assert (leaves (grp_elem g) = flat_map leaves (hole d D)) as El
      by (unfold grp_elem; cbn [leaves]; now rewrite G2).
    split.
    + apply (G (o_space d 1) [o_aperture] eq_refl).
    + rewrite El. repeat apply Forall2_cons; try apply Forall2_nil; [apply sp_piece; lra|].
      split; [apply mat_of_describes|]. split; [apply p_aperture|]. split; [cbn; lra|].
      split; [cbn; lra|]. reflexivity.
    + rewrite El. repeat constructor.
    + rewrite El. repeat apply Forall_cons; try apply Forall_nil; exact I.
    + rewrite El. repeat apply Forall2_cons; try apply Forall2_nil.
      * split; [reflexivity|]. split; [now left|]. cbn. intros; lra.
      * split; [reflexivity|]. split; [now right|]. cbn. intros; split; reflexivity.
    + exact El.
    + unfold hasFiniteApertureDiameter, grp_elem. rewrite G2. reflexivity.
Qed.

Lemma hole_passes d D e y th z (w0 : XR) w : is_hole d D e -> 0 < D ->
  rblk (traceThrough e (fray y th z false w0 w)) = Rltb (D / 2) (Rabs (y + d * th)).
Proof.
  intros C HD. pose proof (ho_pieces _ _ _ C) as HF. pose proof (ho_lin _ _ _ C) as HA.
  assert (misses (mat_of o_aperture (Fin D) PInf false "") (after (leaves e) (fray y th z false w0 w) 1) =
    Rltb (D / 2) (Rabs (y + d * th))) as HM.
  { destruct (after_pieces _ _ HF HA 1%nat ltac:(rewrite (ho_leaves _ _ _ C); cbn; lia) y th z false w0 w) as (w' & ->).
    unfold misses, fray. cbn [mdiam mna mat_of ry rth].
    unfold c2. cbn [ndiv NumXR nofZ nabs xabs nltb xltb]. rewrite xdiv_fin by lra. cbn [xltb].
    rewrite orb_false_r. cbn. do 2 f_equal. ring. }
  rewrite <- HM.
  pose proof (passes_nth e (fray y th z false w0 w) eq_refl) as HP.
  destruct (misses (mat_of o_aperture _ _ _ _) _) eqn:M.
  - destruct (rblk _) eqn:B; auto. destruct HP as [HP _]. specialize (HP eq_refl 1%nat (KAperture, mat_of o_aperture (Fin D) PInf false "")).
    rewrite <- M. symmetry. apply HP. rewrite (ho_leaves _ _ _ C). reflexivity.
  - apply HP. intros j km Ej.
    destruct (after_pieces _ _ HF HA j ltac:(assert (j < List.length (leaves e))%nat;
      [apply nth_error_Some; congruence|lia]) y th z false w0 w) as (w' & Ea).
    rewrite (ho_leaves _ _ _ C) in Ej.
    destruct j as [|[|j]]; cbn [hole flat_map leaves app nth_error x_space x_aperture] in Ej;
      [| |destruct j; discriminate]; injection Ej as <-; cbn [snd]; auto.
    rewrite Ea. unfold fray; erewrite open_misses; reflexivity.
Qed.

Lemma hole_stop d D e : is_hole d D e -> 0 < d -> 0 < D -> d / 10 <= D / 2 ->
  apertureStop e = Ok (mkStop (Some (Fin d)) (Some (Fin D))).
Proof.
  intros C Hd HD HP.
  assert (rblk (traceThrough e probe) = false) as Hpr.
  { rewrite probe_fray, (hole_passes d D e) by auto. apply Rltb_ge. rewrite Rabs_pos_eq; lra. }
  assert (0 < Rabs (probe_height (hole_pieces d) 1)) as Hp.
  { replace (probe_height (hole_pieces d) 1) with (d / 10); [rewrite Rabs_pos_eq; lra|].
    unfold probe_height. cbn. field. }
  destruct (stop_spec e _ _ (ho_canon _ _ _ C) (ho_pieces _ _ _ C) (ho_lin _ _ _ C) (ho_finite _ _ _ C)
    Hpr) as [[_ H]|(i & km & Ei & E & Hr & _)].
  - exfalso. specialize (H 1%nat (KAperture, mat_of o_aperture (Fin D) PInf false "")).
    rewrite (ho_leaves _ _ _ C) in H. specialize (H eq_refl). cbn [ratio snd mdiam mat_of] in H.
    unfold Rdiv in H. apply Rmult_integral in H as [H|H]; [lra|].
    pose proof (Rinv_0_lt_compat D HD). lra.
  - rewrite E. rewrite (ho_leaves _ _ _ C) in Ei.
    destruct i as [|[|i]]; cbn [hole flat_map leaves app nth_error x_space x_aperture] in Ei;
      [| |destruct i; discriminate]; injection Ei as <-; cbn [snd mdiam mat_of ratio] in *; [lra|].
    unfold depth, lens_of. cbn. do 4 f_equal. lra.
Qed.

Lemma hole_matrix d : 0 < d -> matrix_to (hole_pieces d) d = mk2 1 d 0 1.
Proof.
  intros Hd. unfold matrix_to. cbn [hole_pieces cut_path space_piece thin_piece po pcut o_space o_aperture oL].
  repeat (match goal with |- context [Rle_dec ?a ?b] => destruct (Rle_dec a b); [|lra] end).
  cbn. unfold mmul, mid, free; cbn. f_equal; field.
Qed.

Lemma hole_aimed d D e : is_hole d D e -> / 100000 <= d -> 0 < D -> d / 10 <= D / 2 ->
  aimed e (hole_optic d) (hole_pieces d) d.
Proof.
  intros C Hd HD HP. split; [apply (ho_canon _ _ _ C)|apply (ho_pieces _ _ _ C)|apply (ho_lin _ _ _ C)
    |apply (ho_open _ _ _ C)| |].
  - exists (Some (Fin D)). apply (hole_stop d D e); auto. lra.
  - rewrite hole_matrix by lra. cbn. rewrite Rabs_pos_eq; lra.
Qed.

Lemma hole_no_edge d D e : is_hole d D e -> / 100000 <= d -> 0 < D -> d / 10 <= D / 2 ->
  no_field_edge e.
Proof.
  intros C Hd HD HP y. exists (chief (hole_pieces d) d y).
  split; [apply (aimed_chief e _ _ _ y (hole_aimed d D e C Hd HD HP))|].
  unfold chief. rewrite (hole_passes d D e) by auto.
  assert (aim (hole_pieces d) d = - / d) as ->.
  { unfold aim. rewrite hole_matrix by lra. cbn. field. lra. }
  apply Rltb_ge. replace (y + d * (- / d * y)) with 0 by (field; lra). rewrite Rabs_R0. lra.
Qed.
