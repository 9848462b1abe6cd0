(** Telecentric systems: the entrance pupil is at infinity exactly when all chief rays are parallel to the axis. *)
From Coq Require Import ZArith Reals Lra Lia List Bool String.
From Verif Require Import Base Nums Optics Group Spec MatrixProofs ElementProofs GroupProofs
  TraceProofs RayProofs CardinalProofs StrictProofs FlipProofs TransferProofs CardinalMore Imaging ImagingProofs Samples Samples2 FieldProofs.
Import ListNotations.
Open Scope list_scope.
Open Scope R_scope.

Lemma nan_accepted x y : areAbsolutelyNotEqual (nsub NaN x) (Fin y) (@eps5 XR _) = false.
Proof. unfold areAbsolutelyNotEqual. rewrite eps5_val. destruct x; reflexivity. Qed.
(** an object at infinity: [A] = 0 *)
Lemma backward_infinite m a b c d nf nb : mA m = Fin a -> mB m = Fin b -> mC m = Fin c -> mD m = Fin d -> mfi m = Fin nf -> mbi m = Fin nb ->
  nb <> 0 -> a = 0 -> c <> 0 -> exists c', backwardConjugate m = Ok (PInf, c') /\ mA c' = Fin 0 /\ mB c' = Fin 0.
Proof.
  intros EA EB EC ED Ei Ej Hb -> Hc. unfold backwardConjugate. rewrite EA. unfold c0. cbn [nofZ NumXR neqb xeqb].
  rewrite Reqb_refl. cbn [negb bind ninf NumXR].
  assert (exists s, @SpaceM XR _ PInf c1 PInf = Ok s /\ mA s = Fin 1 /\ mB s = PInf /\ mC s = Fin 0 /\ mD s = Fin 1 /\ mfi s = Fin 1) as (s & Es & SA & SB & SC & SD & Si).
  { eexists. split; [|shelve]. unfold SpaceM, Matrix_init, c0, c1. cbn [nofZ NumXR nleb xleb ninf]. rewrite pdiv_fin by lra. cbn [bind].
    unfold det_of, c0. cbn [nofZ NumXR neqb xeqb]. rewrite Reqb_refl. unfold areAbsolutelyNotEqual. cbn [nmul NumXR xmul nsub xsub xadd xopp nabs xabs].
    replace (1 * 1 + - (1 / 1)) with 0 by lra. rewrite Rabs_R0. cbn [nltb NumXR xltb]. rewrite eps5_val. cbn. rewrite Rltb_ge by lra. reflexivity. Unshelve. cbn [mA mB mC mD mfi]. repeat split. }
  rewrite Es. cbn [bind]. unfold mul_matrix, mul_idx, isIdentity. rewrite EA, EB, EC, ED, SA, SB, SC, SD, Ei, Ej, Si.
  replace (neqb (Fin 0) (@c1 XR _)) with false by (unfold c1; cbn [nofZ NumXR neqb xeqb]; now rewrite Reqb_neq by lra).
  replace (neqb PInf (@c0 XR _)) with false by reflexivity. rewrite !andb_false_r. cbn [andb].
  unfold Matrix_init. rewrite pdiv_fin by exact Hb. unfold c0. cbn [nofZ NumXR nleb xleb ninf bind].
  assert (nmul (Fin 0) PInf = NaN) as E1 by (cbn; unfold xsgninf; repeat match goal with |- context [Rlt_dec ?x ?y] => destruct (Rlt_dec x y); try lra end; reflexivity).
  assert (exists i, nadd (nmul (Fin c) PInf) (nmul (Fin d) (Fin 1)) = i /\ nmul (Fin 0) i = NaN) as (i & -> & Ei0).
  { eexists. split; [reflexivity|]. cbn; unfold xsgninf.
    repeat match goal with |- context [Rlt_dec ?x ?y] => destruct (Rlt_dec x y); try lra end; cbn; unfold xsgninf;
    repeat match goal with |- context [Rlt_dec ?x ?y] => destruct (Rlt_dec x y); try lra end; try reflexivity. }
  assert (nadd (nmul (Fin 0) (Fin 1)) (nmul (Fin b) (Fin 0)) = Fin 0) as -> by (cbn; f_equal; ring).
  assert (nadd (nmul (Fin c) (Fin 1)) (nmul (Fin d) (Fin 0)) = Fin c) as -> by (cbn; f_equal; ring).
  unfold det_of, c0. cbn [nofZ NumXR neqb xeqb]. rewrite Reqb_neq by exact Hc. change (xmul (Fin 0) i) with (nmul (Fin 0) i). rewrite Ei0, nan_accepted.
  eexists. split; [reflexivity|]. split; reflexivity.
Qed.

Theorem telecentric e o ps z D : canon e o -> Forall2 is_piece (leaves e) ps -> onf o = 1 -> hasFiniteApertureDiameter e = true ->
  apertureStop e = Ok (mkStop (Some (Fin z)) (Some (Fin D))) -> / 100000 <= Rabs (B_ (matrix_to ps z)) ->
  (entrancePupil e = Ok (mkStop (Some NInf) (Some PInf)) <-> forall y, chiefRayAt e (Fin y) = Ok (Some (Ray_new (Fin y) (Fin 0)))) /\
  ((exists zp Dp, entrancePupil e = Ok (mkStop (Some (Fin zp)) (Some (Fin Dp)))) \/ entrancePupil e = Ok (mkStop (Some NInf) (Some PInf))).
Proof.
  intros Hc HF Hn Hfin HS HB. assert (B_ (matrix_to ps z) <> 0) as HB0 by (intros E; rewrite E, Rabs_R0 in HB; lra).
  assert (A_ (matrix_to ps z) = 0 -> entrancePupil e = Ok (mkStop (Some NInf) (Some PInf))) as K0.
  { intros HA. destruct (stop_nonneg _ _ _ _ HF HS) as (x & [= <-] & Hz).
    destruct (transfer_upto e o ps z Hc HF Hz) as (t & Et & _ & T & P & EA & EB & EC & ED & EM & _).
    set (Pz := pl (onf o) (cut_path ps z)) in *. fold (matrix_to ps z) in EM. rewrite EM in EA, EB, EC, ED.
    assert (C_ (matrix_to ps z) <> 0) as HC.
    { destruct P as (P1 & P2 & P3). rewrite EM in P3. unfold mdet in P3. rewrite HA in P3. intros E. rewrite E in P3.
      assert (onf Pz / onb Pz <> 0) as Q by (apply Rmult_integral_contrapositive_currified; [exact P1|now apply Rinv_neq_0_compat]). lra. }
    assert (exists nf nb, mfi (emat t) = Fin nf /\ mbi (emat t) = Fin nb /\ nb <> 0) as (nf & nb & F1 & F2 & F3).
    { destruct P as (P1 & P2 & _). destruct T as [D1|[Ei D1]].
      - exists (onf Pz), (onb Pz). split; [apply D1|]. split; [apply D1|exact P2].
      - exists 1, 1. split; [apply D1|]. split; [apply D1|lra]. }
    destruct (backward_infinite (emat t) _ _ _ _ nf nb EA EB EC ED F1 F2 F3 HA HC) as (c' & Eb & A' & B').
    unfold entrancePupil. rewrite Hfin, HS. cbn [bind st_z st_d]. rewrite Et. cbn [bind]. rewrite Eb. cbn [bind fst snd].
    unfold magnification, isImaging, isAlmostZero. rewrite B', imaging_fin, Rabs_R0, Rltb_lt by lra. rewrite A'. unfold c0.
    cbn [nofZ NumXR neqb xeqb]. rewrite Reqb_refl. reflexivity. }
  destruct (Req_dec (A_ (matrix_to ps z)) 0) as [HA|HA].
  - split; [|right; auto]. split; auto. intros _ y.
    destruct (proj2 (chief_ray e o ps z (Some (Fin D)) y Hc HF HS) HB) as (th & E & Hth & _). rewrite E, Hth, HA.
    replace (- 0 / B_ (matrix_to ps z) * y) with 0 by (field; exact HB0). reflexivity.
  - destruct (entrance_pupil e o ps z D Hc HF Hn Hfin HS HA) as (zp & Dp & EP & _). split; [|left; eauto]. rewrite EP. split; [discriminate|].
    intros H. exfalso. specialize (H 1). destruct (proj2 (chief_ray e o ps z (Some (Fin D)) 1 Hc HF HS) HB) as (th & E & Hth & _).
    rewrite E in H. injection H as H. apply HA. rewrite Hth in H. apply (Rmult_eq_reg_r (/ B_ (matrix_to ps z))); [|now apply Rinv_neq_0_compat]. unfold Rdiv in H. lra.
Qed.

(** ** A diaphragm in the back focal plane of a lens *)
Section Tele.
Variables f D : R.
Hypothesis Hf : / 100000 <= f.
Hypothesis HD : 0 < D.
Let Hf0 : 0 < f. Proof. assert (0 < / 100000) by (apply Rinv_0_lt_compat; lra). lra. Qed.
Definition t_lens : @elem XR := Leaf (KLens (Fin f) (Fin 4)) (mat_of (o_lens f) PInf PInf false "").
Definition tele : list (@elem XR) := [x_space f 1; t_lens; x_space f 1; x_aperture D].
Definition tele_pieces : list piece := [space_piece f 1; thin_piece (o_lens f); space_piece f 1; thin_piece o_aperture].
Definition tele_optic : optic := path_optic (o_space f 1) [o_lens f; o_space f 1; o_aperture].
Lemma tele_exists : exists g, MatrixGroup_new tele "" = Ok g /\ let e := Group GGroup (gmat g) (gelems g) in
  canon e tele_optic /\ Forall2 is_piece (leaves e) tele_pieces /\ hasFiniteApertureDiameter e = true /\
  apertureStop e = Ok (mkStop (Some (Fin (2 * f))) (Some (Fin D))).
Proof.
  destruct (MatrixGroup_canon tele [o_space f 1; o_lens f; o_space f 1; o_aperture] "")
    as (g & G1 & G2 & _ & _ & _ & _ & G); [| | |discriminate|].
  - repeat apply Forall2_cons; try apply Forall2_nil; try (apply c_space; lra); [apply (canon_leaf _ _ (o_lens f)); [apply mat_of_describes|apply p_lens|]|apply c_aperture].
    pose proof (c_lens f 1) as K. inversion K; subst. assumption.
  - split; [apply p_space; lra|]. split; [reflexivity|]. split; [apply p_lens|]. split; [reflexivity|].
    split; [apply p_space; lra|]. split; [reflexivity|]. split; [apply p_aperture|exact I].
  - right. intros o t [= <- _]. reflexivity.
  - exists g. split; [exact G1|]. cbv zeta. set (e := Group GGroup (gmat g) (gelems g)).
    assert (leaves e = flat_map leaves tele) as El by (unfold e; cbn [leaves]; now rewrite G2).
    assert (canon e tele_optic) as Hc by apply (G (o_space f 1) [o_lens f; o_space f 1; o_aperture] eq_refl).
    assert (Forall2 is_piece (leaves e) tele_pieces) as Hp.
    { rewrite El. repeat apply Forall2_cons; try apply Forall2_nil; try (apply sp_piece; lra);
      (split; [apply mat_of_describes|]; split; [apply p_lens || apply p_aperture|]; split; [cbn; lra|]; split; [cbn; auto; lra|]; reflexivity). }
    assert (Forall not_axicon (leaves e)) as Hl by (rewrite El; repeat constructor).
    assert (Forall2 thin_aperture (leaves e) tele_pieces) as Ht.
    { rewrite El. repeat apply Forall2_cons; try apply Forall2_nil.
      1,3: (split; [reflexivity|]; split; [now left|]; cbn; intros; lra).
      all: (split; [reflexivity|]; split; [now right|]; cbn; intros; split; reflexivity). }
    assert (hasFiniteApertureDiameter e = true) as Hfin by (unfold hasFiniteApertureDiameter, e; rewrite G2; reflexivity).
    split; [exact Hc|]. split; [exact Hp|]. split; [exact Hfin|].
    assert (depth tele_pieces 4 = 2 * f) as Hd by (unfold depth, lens_of; cbn; lra).
    destruct (rblk (traceThrough e probe)) eqn:P.
    + destruct (stop_when_blocked e _ _ Hc Hp Hl Ht Hfin P) as (i & D' & (km & Ei & ED) & E & _).
      rewrite E. rewrite El in Ei.
      destruct i as [|[|[|[|i]]]]; cbn [tele flat_map leaves app nth_error x_space t_lens x_aperture] in Ei;
        [| | | |destruct i; discriminate]; injection Ei as <-; cbn [snd mdiam mat_of] in ED; try discriminate; injection ED as <-.
      now rewrite Hd.
    + destruct (stop_spec e _ _ Hc Hp Hl Hfin P) as [[_ H]|(i & km & Ei & E & Hr & _)].
      * exfalso. specialize (H 3%nat (KAperture, mat_of o_aperture (Fin D) PInf false "")).
        rewrite El in H. specialize (H eq_refl). cbn [ratio snd mdiam mat_of] in H. unfold probe_height in H.
        unfold Rdiv in H. apply Rmult_integral in H as [H|H]; [|pose proof (Rinv_0_lt_compat D HD); lra].
        assert (fst (mapp (upto tele_pieces 4) (0, / 10)) = f * / 10) as K by (cbn; field; lra).
        revert H. match goal with |- Rabs ?x = 0 -> _ => replace x with (f * / 10) by (symmetry; exact K) end. rewrite Rabs_pos_eq; lra.
      * rewrite E. rewrite El in Ei.
        destruct i as [|[|[|[|i]]]]; cbn [tele flat_map leaves app nth_error x_space t_lens x_aperture] in Ei;
          [| | | |destruct i; discriminate]; injection Ei as <-; cbn [snd mdiam mat_of ratio] in *; try lra. now rewrite Hd.
Qed.
Lemma tele_matrix : A_ (matrix_to tele_pieces (2 * f)) = 0 /\ B_ (matrix_to tele_pieces (2 * f)) = f.
Proof.
  unfold matrix_to. cbn [tele_pieces cut_path space_piece thin_piece po pcut o_space o_lens o_aperture oL].
  repeat (match goal with |- context [Rle_dec ?x ?y] => destruct (Rle_dec x y); try (exfalso; lra) end);
  cbn; unfold mmul, mid, free; cbn; split; try (field; lra); try lra.
Qed.
Theorem tele_lens : exists s l ap g, Space (Fin f) c1 PInf = Ok s /\ Lens (Fin f) PInf = Ok l /\ Aperture (Fin D) PInf = Ok ap /\
  MatrixGroup_new [s; l; s; ap] "" = Ok g /\
  apertureStop (Group GGroup (gmat g) (gelems g)) = Ok (mkStop (Some (Fin (2 * f))) (Some (Fin D))) /\
  entrancePupil (Group GGroup (gmat g) (gelems g)) = Ok (mkStop (Some NInf) (Some PInf)) /\
  forall y, chiefRayAt (Group GGroup (gmat g) (gelems g)) (Fin y) = Ok (Some (Ray_new (Fin y) (Fin 0))).
Proof.
  destruct tele_exists as (g & G & Hc & Hp & Hfin & HS). exists (x_space f 1), t_lens, (x_aperture D), g.
  split; [apply x_space_ok; lra|]. split; [apply Lens_ok; [lra|exact I]|]. split; [now apply x_aperture_ok|]. split; [exact G|].
  set (e := Group GGroup (gmat g) (gelems g)) in *. split; [exact HS|]. destruct tele_matrix as [EA EB].
  destruct (telecentric e _ _ _ D Hc Hp eq_refl Hfin HS ltac:(rewrite EB, Rabs_pos_eq; lra)) as [[K1 K2] _].
  assert (forall y, chiefRayAt e (Fin y) = Ok (Some (Ray_new (Fin y) (Fin 0)))) as Hch.
  { intros y. destruct (proj2 (chief_ray e _ _ _ (Some (Fin D)) y Hc Hp HS) ltac:(rewrite EB, Rabs_pos_eq; lra)) as (th & E & Hth & _).
    rewrite E, Hth, EA, EB. replace (- 0 / f * y) with 0 by (field; lra). reflexivity. }
  split; [apply K2; exact Hch|exact Hch].
Qed.
End Tele.
