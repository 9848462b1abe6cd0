(** A 4f relay: lenses of focal lengths [f1] and [f2], diaphragm [D1] in the common focal plane, detector [D2] on the image. *)
From Coq Require Import Reals Lra Lia List Bool String ZArith.
From Verif Require Import Base Nums Optics Group Spec MatrixProofs ElementProofs GroupProofs
  TraceProofs RayProofs CardinalProofs StrictProofs FlipProofs TransferProofs CardinalMore Samples
  Samples2 Imaging Efficiency SearchProofs ImagingProofs FieldProofs FieldMore TeleProofs CameraField.
Import ListNotations.
Open Scope list_scope.
Open Scope R_scope.

Section Relay.
Variables f1 f2 D1 D2 : R.
Hypothesis Hf1 : / 100000 <= f1.
Hypothesis Hf2 : 0 < f2.
Hypothesis H1 : 0 < D1.
Hypothesis H2 : 0 < D2.
Let Hf0 : 0 < f1. Proof. assert (0 < / 100000) by (apply Rinv_0_lt_compat; lra). lra. Qed.

Definition relay : list (@elem XR) :=
  [x_space f1 1; t_lens f1; x_space f1 1; x_aperture D1; x_space f2 1; t_lens f2; x_space f2 1; x_aperture D2].
Definition rel_pieces : list piece :=
  [space_piece f1 1; thin_piece (o_lens f1); space_piece f1 1; thin_piece o_aperture;
   space_piece f2 1; thin_piece (o_lens f2); space_piece f2 1; thin_piece o_aperture].
Definition rel_optics : list optic := [o_lens f1; o_space f1 1; o_aperture; o_space f2 1; o_lens f2; o_space f2 1; o_aperture].
Definition rel_optic : optic := path_optic (o_space f1 1) rel_optics.
Record is_rel (e : @elem XR) : Prop := {
  rl_canon : canon e rel_optic;
  rl_pieces : Forall2 is_piece (leaves e) rel_pieces;
  rl_lin : Forall not_axicon (leaves e);
  rl_open : Forall open_angle (leaves e);
  rl_thin : Forall2 thin_aperture (leaves e) rel_pieces;
  rl_limit : Forall2 thin_if_limiting (leaves e) rel_pieces;
  rl_leaves : leaves e = flat_map leaves relay;
  rl_finite : hasFiniteApertureDiameter e = true }.
Lemma c_tlens f : canon (t_lens f) (o_lens f).
Proof. apply (canon_leaf _ _ (o_lens f)); [apply mat_of_describes|apply p_lens|]. pose proof (c_lens f 1) as K. inversion K; subst. assumption. Qed.
Lemma rel_exists : exists g, MatrixGroup_new relay "" = Ok g /\ is_rel (Group GGroup (gmat g) (gelems g)).
Proof.
  destruct (MatrixGroup_canon relay (o_space f1 1 :: rel_optics) "") as (g & G1 & G2 & _ & _ & _ & _ & G); [| | |discriminate|].
  - repeat apply Forall2_cons; try apply Forall2_nil; try (apply c_space; lra); try apply c_tlens; apply c_aperture.
  - repeat (split; [first [apply p_space; lra | apply p_lens | apply p_aperture]|]; first [exact I | split; [reflexivity|]]).
  - right. intros o t [= <- _]. reflexivity.
  - exists g. split; [exact G1|]. change (is_rel (grp_elem g)).
    assert (leaves (grp_elem g) = flat_map leaves relay) as El by (unfold grp_elem; cbn [leaves]; now rewrite G2).
    split.
    + apply (G (o_space f1 1) rel_optics eq_refl).
    + rewrite El. repeat apply Forall2_cons; try apply Forall2_nil; try (apply sp_piece; lra);
      (split; [apply mat_of_describes|]; split; [apply p_lens || apply p_aperture|]; split; [cbn; lra|]; split; [cbn; auto; lra|]; reflexivity).
    + rewrite El. repeat constructor.
    + rewrite El. repeat apply Forall_cons; try apply Forall_nil; exact I.
    + rewrite El. repeat apply Forall2_cons; try apply Forall2_nil.
      1,3,5,7: (split; [reflexivity|]; split; [now left|]; cbn; intros; lra).
      all: (split; [reflexivity|]; split; [now right|]; cbn; intros; split; reflexivity).
    + rewrite El. repeat apply Forall2_cons; try apply Forall2_nil.
      1,3,5,7: (right; split; reflexivity).
      all: (left; reflexivity).
    + exact El.
    + unfold hasFiniteApertureDiameter, grp_elem. rewrite G2. reflexivity.
Qed.
(** the two apertures *)
Lemma rel_heights y th :
  fst (mapp (upto rel_pieces 3) (y, th)) = f1 * th /\ fst (mapp (upto rel_pieces 4) (y, th)) = f1 * th /\
  fst (mapp (upto rel_pieces 7) (y, th)) = - (f2 / f1) * y /\ fst (mapp (upto rel_pieces 8) (y, th)) = - (f2 / f1) * y.
Proof. repeat split; cbn; field; repeat split; lra. Qed.
Lemma rel_misses e j km y th z (d : XR) w : is_rel e -> nth_error (leaves e) j = Some km ->
  misses (snd km) (after (leaves e) (fray y th z false d w) j) =
  match j with
  | 3%nat => Rltb (D1 / 2) (Rabs (f1 * th))
  | 7%nat => Rltb (D2 / 2) (Rabs (- (f2 / f1) * y))
  | _ => false
  end.
Proof.
  intros C Ej. destruct (after_pieces _ _ (rl_pieces e C) (rl_lin e C) j ltac:(assert (j < List.length (leaves e))%nat; [apply nth_error_Some; congruence|lia]) y th z false d w) as (w' & ->).
  rewrite (rl_leaves e C) in Ej. destruct (rel_heights y th) as (h3 & _ & h7 & _).
  destruct j as [|[|[|[|[|[|[|[|j]]]]]]]]; cbn [relay flat_map leaves app nth_error x_space t_lens x_aperture] in Ej;
    [| | | | | | | |destruct j; discriminate]; injection Ej as <-; cbn [snd];
    try (unfold fray; erewrite open_misses; reflexivity).
  - rewrite h3. erewrite misses_iff; reflexivity.
  - rewrite h7. erewrite misses_iff; reflexivity.
Qed.
Lemma rel_stop e : is_rel e -> apertureStop e = Ok (mkStop (Some (Fin (2 * f1))) (Some (Fin D1))).
Proof.
  intros C. assert (depth rel_pieces 4 = 2 * f1) as Hd by (unfold depth, lens_of; cbn; lra).
  destruct (rel_heights 0 (/ 10)) as (_ & h4 & _ & h8). rewrite Rmult_0_r in h8.
  destruct (rblk (traceThrough e probe)) eqn:P.
  - destruct (stop_when_blocked e _ _ (rl_canon e C) (rl_pieces e C) (rl_lin e C) (rl_thin e C) (rl_finite e C) P) as (i & D & (km & Ei & ED) & E & Hb' & _).
    rewrite E. rewrite (rl_leaves e C) in Ei.
    destruct i as [|[|[|[|[|[|[|[|i]]]]]]]]; cbn [relay flat_map leaves app nth_error x_space t_lens x_aperture] in Ei;
      [| | | | | | | |destruct i; discriminate]; injection Ei as <-; cbn [snd mdiam mat_of] in ED; try discriminate; injection ED as <-.
    + now rewrite Hd.
    + exfalso. unfold axis_height in Hb'. rewrite h8, Rabs_R0 in Hb'. lra.
  - destruct (stop_spec e _ _ (rl_canon e C) (rl_pieces e C) (rl_lin e C) (rl_finite e C) P) as [[_ H]|(i & km & Ei & E & Hr & _)].
    + exfalso. specialize (H 3%nat (KAperture, mat_of o_aperture (Fin D1) PInf false "")).
      rewrite (rl_leaves e C) in H. specialize (H eq_refl). cbn [ratio snd mdiam mat_of] in H. unfold probe_height in H.
      unfold Rdiv in H. apply Rmult_integral in H as [H|H]; [|pose proof (Rinv_0_lt_compat D1 H1); lra].
      revert H. match goal with |- Rabs ?x = 0 -> _ => replace x with (f1 * / 10) by (symmetry; exact h4) end. rewrite Rabs_pos_eq; lra.
    + rewrite E. rewrite (rl_leaves e C) in Ei.
      destruct i as [|[|[|[|[|[|[|[|i]]]]]]]]; cbn [relay flat_map leaves app nth_error x_space t_lens x_aperture] in Ei;
        [| | | | | | | |destruct i; discriminate]; injection Ei as <-; cbn [snd mdiam mat_of ratio] in *; try lra.
      * now rewrite Hd.
      * exfalso. revert Hr. unfold probe_height. match goal with |- context [Rabs ?x] => replace x with 0 by (symmetry; exact h8) end. rewrite Rabs_R0. lra.
Qed.
Lemma rel_aim : A_ (matrix_to rel_pieces (2 * f1)) = 0 /\ B_ (matrix_to rel_pieces (2 * f1)) = f1.
Proof.
  unfold matrix_to. cbn [rel_pieces cut_path space_piece thin_piece po pcut o_space o_lens o_aperture oL].
  repeat (match goal with |- context [Rle_dec ?x ?y] => destruct (Rle_dec x y); try (exfalso; lra) end);
  cbn; unfold mmul, mid, free; cbn; split; try (field; lra); try lra.
Qed.
Lemma rel_aimed e : is_rel e -> aimed e rel_optic rel_pieces (2 * f1).
Proof.
  intros C. split; [apply (rl_canon e C)|apply (rl_pieces e C)|apply (rl_lin e C)|apply (rl_open e C)| |].
  - exists (Some (Fin D1)). now apply rel_stop.
  - rewrite (proj2 rel_aim), Rabs_pos_eq; lra.
Qed.
Lemma rel_chief y : chief rel_pieces (2 * f1) y = fray y 0 0 false PInf None.
Proof. unfold chief, aim. destruct rel_aim as [-> ->]. replace (- 0 / f1 * y) with 0 by (field; lra). reflexivity. Qed.
Lemma rel_ratio y : Rabs (- (f2 / f1) * y) = f2 / f1 * Rabs y.
Proof. rewrite Rabs_mult, Rabs_Ropp, (Rabs_pos_eq (f2 / f1)); [reflexivity|]. apply Rlt_le, Rdiv_lt_0_compat; lra. Qed.
Lemma rel_lt y : D2 / 2 < f2 / f1 * y <-> D2 * f1 / (2 * f2) < y.
Proof.
  assert (0 < f2 / f1) as R by (apply Rdiv_lt_0_compat; lra). replace (D2 / 2) with (f2 / f1 * (D2 * f1 / (2 * f2))) by (field; split; lra).
  split; intros H; [now apply Rmult_lt_reg_l with (f2 / f1)|now apply Rmult_lt_compat_l].
Qed.
(** every ray gets through that meets the diaphragm and the detector *)
Lemma rel_blocked e y th : is_rel e ->
  rblk (traceThrough e (fray y th 0 false PInf None)) = Rltb (D1 / 2) (Rabs (f1 * th)) || Rltb (D2 / 2) (Rabs (- (f2 / f1) * y)).
Proof.
  intros C. pose proof (passes_nth e (fray y th 0 false PInf None) eq_refl) as H.
  assert (nth_error (leaves e) 3 = Some (KAperture, mat_of o_aperture (Fin D1) PInf false "")) as E3 by (rewrite (rl_leaves e C); reflexivity).
  assert (nth_error (leaves e) 7 = Some (KAperture, mat_of o_aperture (Fin D2) PInf false "")) as E7 by (rewrite (rl_leaves e C); reflexivity).
  destruct (rblk _).
  - destruct (Rltb (D1 / 2) _) eqn:L3; [reflexivity|]. destruct (Rltb (D2 / 2) _) eqn:L7; [reflexivity|]. exfalso.
    destruct H as [_ H]. discriminate H. intros j km Ej. rewrite (rel_misses e j km y th 0 PInf None C Ej).
    destruct j as [|[|[|[|[|[|[|[|j]]]]]]]]; auto.
  - destruct H as [H _]. specialize (H eq_refl). pose proof (H _ _ E3) as K3. pose proof (H _ _ E7) as K7.
    rewrite (rel_misses e 3 _ y th 0 PInf None C E3) in K3. rewrite (rel_misses e 7 _ y th 0 PInf None C E7) in K7. now rewrite K3, K7.
Qed.
Lemma rel_edge e : is_rel e -> field_edge e (D2 * f1 / (2 * f2)).
Proof.
  intros C y. exists (chief rel_pieces (2 * f1) y). split; [apply (aimed_chief e _ _ _ y (rel_aimed e C))|].
  rewrite rel_chief, rel_blocked, Rmult_0_r, Rabs_R0, (Rltb_ge (D1 / 2)), rel_ratio by (exact C || lra). cbn [orb].
  destruct (Rlt_dec (D2 * f1 / (2 * f2)) (Rabs y)) as [L|L].
  - rewrite !Rltb_lt; [reflexivity|exact L|now apply rel_lt].
  - rewrite !Rltb_ge; [reflexivity|lra|]. apply Rnot_lt_le. intros K. apply rel_lt in K. lra.
Qed.
Lemma rel_A : A_ (oM rel_optic) = - (f2 / f1) /\ B_ (oM rel_optic) = 0 /\ D_ (oM rel_optic) = - (f1 / f2).
Proof. cbn. repeat split; field; repeat split; lra. Qed.
Lemma rel_conjugate e : is_rel e -> exists c, forwardConjugate (emat e) = Ok (Fin 0, Some c) /\ mA c = Fin (- (f2 / f1)).
Proof.
  intros C. pose proof (canon_describes _ _ (rl_canon e C)) as Hd. pose proof (canon_physical _ _ (rl_canon e C)) as Hp. destruct rel_A as (EA & EB & ED).
  assert (0 < f1 / f2) as Hab by (apply Rdiv_lt_0_compat; lra).
  destruct (forward_ok _ _ Hd Hp ltac:(rewrite ED; lra)) as (c & E & Dc). exists c. rewrite E.
  replace (- B_ (oM rel_optic) / D_ (oM rel_optic)) with 0 in * by (rewrite EB; field; lra). split; [reflexivity|].
  dsc Dc. f_equal. rewrite <- EA. cbn. ring.
Qed.
Theorem relay_field : 3 / 80000 <= D2 * f1 / (2 * f2) <= 7000 ->
  exists s1 l1 d s2 l2 ap g, Space (Fin f1) c1 PInf = Ok s1 /\ Lens (Fin f1) PInf = Ok l1 /\ Aperture (Fin D1) PInf = Ok d /\
  Space (Fin f2) c1 PInf = Ok s2 /\ Lens (Fin f2) PInf = Ok l2 /\ Aperture (Fin D2) PInf = Ok ap /\
  MatrixGroup_new [s1; l1; s1; d; s2; l2; s2; ap] "" = Ok g /\ let e := Group GGroup (gmat g) (gelems g) in
  apertureStop e = Ok (mkStop (Some (Fin (2 * f1))) (Some (Fin D1))) /\
  entrancePupil e = Ok (mkStop (Some NInf) (Some PInf)) /\
  axialRay e = Ok (Some (Ray_new (Fin 0) (Fin (D1 / (2 * f1))))) /\
  (forall y, chiefRayAt e (Fin y) = Ok (Some (Ray_new (Fin y) (Fin 0)))) /\
  (forall y th, rblk (traceThrough e (Ray_new (Fin y) (Fin th))) = true <-> D1 / (2 * f1) < Rabs th \/ D2 * f1 / (2 * f2) < Rabs y) /\
  exists n v, v <= D2 * (f1 / f2) < v + 4 / 1000000 /\ forall fuel, (n <= fuel)%nat ->
    fieldOfView fuel e = Ok (Fin v) /\
    fieldStop fuel e = Ok (mkStop (Some (Fin (2 * f1 + 2 * f2))) (Some (Fin D2))) /\
    exists s, (forall h, imageSize fuel e false h = Ok (Fin s)) /\ s <= D2 < s + 4 / 1000000 * (f2 / f1).
Proof.
  intros Hh. destruct rel_exists as (g & G & C). exists (x_space f1 1), (t_lens f1), (x_aperture D1), (x_space f2 1), (t_lens f2), (x_aperture D2), g.
  split; [apply x_space_ok; lra|]. split; [apply Lens_ok; [lra|exact I]|]. split; [now apply x_aperture_ok|].
  split; [apply x_space_ok; lra|]. split; [apply Lens_ok; [lra|exact I]|]. split; [now apply x_aperture_ok|]. split; [exact G|].
  cbv zeta. set (e := Group GGroup (gmat g) (gelems g)) in *. pose proof (rel_stop e C) as HS. split; [exact HS|]. destruct rel_aim as [EA EB].
  assert (forall y, chiefRayAt e (Fin y) = Ok (Some (Ray_new (Fin y) (Fin 0)))) as Hch.
  { intros y. rewrite (aimed_chief e _ _ _ y (rel_aimed e C)), rel_chief. reflexivity. }
  destruct (telecentric e _ _ _ D1 (rl_canon e C) (rl_pieces e C) eq_refl (rl_finite e C) HS ltac:(rewrite EB, Rabs_pos_eq; lra)) as [[_ K2] _].
  split; [apply K2; exact Hch|]. split.
  { destruct (axial_ray e _ _ _ D1 (rl_canon e C) (rl_pieces e C) HS H1 ltac:(rewrite EB, Rabs_pos_eq; lra)) as (th & E & Hth & K).
    rewrite E. assert (th = D1 / (2 * f1)) as ->; [|reflexivity].
    unfold mapp in K. cbn [fst snd] in K. rewrite EB, Rmult_0_r, Rplus_0_l, Rabs_pos_eq in K by nra.
    apply (Rmult_eq_reg_l f1); [|lra]. rewrite K. field. lra. }
  split; [exact Hch|]. split.
  { intros y th. change (Ray_new (Fin y) (Fin th)) with (fray y th 0 false PInf None). rewrite rel_blocked by exact C.
    rewrite orb_true_iff, !Rltb_true, rel_ratio, rel_lt, Rabs_mult, (Rabs_pos_eq f1) by lra.
    replace (D1 / 2) with (f1 * (D1 / (2 * f1))) by (field; lra).
    split; (intros [K|K]; [left|right; exact K]); [now apply Rmult_lt_reg_l with f1|now apply Rmult_lt_compat_l]. }
  assert (3 / 80000 <= D2 * f1 / (2 * f2) < tried 42) as Ht by (unfold tried; pose proof step_42; lra).
  destruct (half_field_found e _ _ _ (rel_aimed e C) ltac:(lra) _ (rel_edge e C) Ht) as (n & v & Hv & K).
  destruct (field_stop_element e _ _ _ (rel_aimed e C) ltac:(lra) _ (rl_limit e C) (rel_edge e C) Ht) as (n' & v' & i & km & Hv' & Ei & M & _ & K').
  exists (Nat.max n n'), (2 * v).
  assert (2 * v <= D2 * (f1 / f2) < 2 * v + 4 / 1000000) as Hw.
  { replace (D2 * (f1 / f2)) with (2 * (D2 * f1 / (2 * f2))) by (field; lra). unfold prec in Hv. lra. }
  split; [exact Hw|]. intros fuel F. split; [|split].
  - unfold fieldOfView. rewrite (K fuel ltac:(lia)). cbn [bind]. reflexivity.
  - rewrite (K' fuel ltac:(lia)). rewrite rel_chief in M.
    rewrite (rel_misses e i km v' _ 0 PInf None C Ei) in M.
    destruct i as [|[|[|[|[|[|[|[|i]]]]]]]]; try discriminate.
    + exfalso. rewrite Rmult_0_r, Rabs_R0, Rltb_ge in M by lra. discriminate.
    + rewrite (rl_leaves e C) in Ei. injection Ei as <-. cbn [snd mdiam mat_of]. assert (depth rel_pieces 8 = 2 * f1 + 2 * f2) as -> by (unfold depth, lens_of; cbn; lra). reflexivity.
  - destruct (rel_conjugate e C) as (c & Ec & EAc). exists (2 * v * (f2 / f1)).
    assert (0 < f2 / f1) as Hba by (apply Rdiv_lt_0_compat; lra). assert (0 <= v) as V by (unfold prec in Hv; lra). split.
    + intros h. unfold imageSize, fieldOfView. rewrite Ec, (K fuel ltac:(lia)). cbn [bind snd]. rewrite EAc.
      cbn [nmul NumXR xmul nabs xabs nofZ c2]. do 2 f_equal. replace (2 * v * - (f2 / f1)) with (- (2 * v * (f2 / f1))) by ring.
      rewrite Rabs_Ropp. apply Rabs_pos_eq. nra.
    + replace D2 with (D2 * (f1 / f2) * (f2 / f1)) by (field; lra). split; [nra|]. rewrite <- Rmult_plus_distr_r. apply Rmult_lt_compat_r; lra.
Qed.
End Relay.
