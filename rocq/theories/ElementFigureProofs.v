(** What the figure of a single element shows. *)
From Coq Require Import ZArith List Bool String Reals Lra Lia.
From Verif Require Import Base Nums Optics Spec MatrixProofs CardinalProofs Drawing Figures FigurePlace Scene Labels LabelProofs
  ElementFigure.
Import ListNotations.
Open Scope string_scope.
Open Scope list_scope.
Open Scope R_scope.

(** p1 and p2 are the principal planes of the optics o placed at z, for the effective focal length f2: between them the
    magnification is one *)
Definition principal (o : optic) (z p1 p2 f2 : R) : Prop :=
  mmul (free (p2 - (z + oL o))) (mmul (oM o) (free (z - p1))) = mk2 1 0 (-1 / f2) (onf o / onb o).
(** a horizontal arrow from a to b, with a text above or below its middle *)
Definition spans (pl : planes XR) (a b : R) (text : string) : Prop :=
  exists y y', In ((Fin a, y), (Fin b, y)) (pl_arrows pl) /\ In (mkMark (Fin ((a + b) / 2)) y' (Some text)) (pl_marks pl).

Lemma planes_spec fmt1 m o vf vb h : describes m o -> physical o -> power o -> ofv o = Some vf -> obv o = Some vb ->
  exists pl p1 p2 F1 F2, addPrincipalPlanes fmt1 m (Fin 0) (Fin h) = Ok pl /\ focal o 0 F1 F2 /\ principal o 0 p1 p2 (F2 - p2) /\
    pl_lines pl = [(Fin p1, Fin h); (Fin p2, Fin h)] /\
    (exists y, In (mkMark (Fin p1) y (Some "$P_f$")) (pl_marks pl) /\ In (mkMark (Fin p2) y (Some "$P_b$")) (pl_marks pl)) /\
    spans pl p1 F1 ("EFL = " ++ fmt1 (Fin (p1 - F1))) /\ spans pl p2 F2 ("EFL = " ++ fmt1 (Fin (F2 - p2))) /\
    spans pl vf F1 ("FFL = " ++ fmt1 (Fin (vf - F1))) /\ spans pl vb F2 ("BFL = " ++ fmt1 (Fin (F2 - vb))) /\
    List.length (pl_marks pl) = 6%nat /\ List.length (pl_arrows pl) = 4%nat.
Proof.
  intros D P W Vf Vb. destruct (principal_spec m o 0 D P W) as (p1 & p2 & f1 & f2 & F1 & F2 & E1 & E2 & E3 & M & K1 & K2 & _).
  destruct (focus_spec m o 0 D P W) as (G1 & G2 & E3' & A & B). rewrite E3 in E3'. injection E3' as <- <-.
  destruct (focal_lengths_spec m o vf vb D P W Vf Vb) as (ffl & bfl & E4 & E5 & E6 & _ & _). rewrite E3 in E6. injection E6 as H1 H2.
  unfold addPrincipalPlanes. rewrite E1. cbn [bind]. rewrite E2. cbn [bind]. rewrite E4. cbn [bind]. rewrite E5. cbn [bind]. rewrite E3.
  cbn [bind]. cbv zeta. rewrite (d_fv _ _ D), (d_bv _ _ D), Vf, Vb. cbn [option_map fst snd]. rewrite !half_fin.
  change (nsub (Fin p1) (Fin (f1 / 2))) with (Fin (p1 - f1 / 2)). change (nadd (Fin p2) (Fin (f2 / 2))) with (Fin (p2 + f2 / 2)).
  change (nadd (Fin vf) (Fin F1)) with (Fin (vf + F1)). change (nadd (Fin vb) (Fin F2)) with (Fin (vb + F2)). rewrite !half_fin.
  eexists. exists p1, p2, F1, F2. split; [reflexivity|]. split; [split; [exact B|exact A]|].
  assert (f2 = F2 - p2) as <- by lra. assert (f1 = p1 - F1) as <- by lra. assert (ffl = vf - F1) as <- by lra.
  assert (bfl = F2 - vb) as <- by lra. split; [exact M|]. split; [reflexivity|]. split.
  { eexists. split; [left; reflexivity|right; left; reflexivity]. }
  replace (p1 - f1 / 2) with ((p1 + F1) / 2) by lra. replace (p2 + f2 / 2) with ((p2 + F2) / 2) by lra.
  split; [do 2 eexists; split; [left; reflexivity|do 2 right; left; reflexivity]|].
  split; [do 2 eexists; split; [right; left; reflexivity|do 3 right; left; reflexivity]|].
  split; [do 2 eexists; split; [do 2 right; left; reflexivity|do 4 right; left; reflexivity]|].
  split; [do 2 eexists; split; [do 3 right; left; reflexivity|do 5 right; left; reflexivity]|].
  split; reflexivity.
Qed.

(** elements drawn by themselves, not as groups *)
Definition single (l : @lens_kind XR) : Prop := match l with LCompound _ _ => False | _ => True end.
Definition plain_text (fmt3 : XR -> string) (parse : string -> XR) (marks : list (mark XR)) (F : R) (label : string) : Prop :=
  exists labs y, In (mkMark (parse (fmt3 (Fin F))) y (Some (String.concat ", " labs))) marks /\ In label labs.

Lemma marks_of_in (parse : string -> XR) h es k lab : In (k, lab) es -> exists labs, In (mkMark (parse k) h (Some (String.concat ", " labs))) (marks_of parse h es) /\ In lab labs.
Proof.
  intros H. destruct (gather_complete es k lab H) as (labs & A & B). exists labs. split; [|auto]. unfold marks_of.
  apply (in_map (fun p => mkMark (parse (fst p)) h (Some (snd p)))) in A. exact A.
Qed.

Theorem display_spec tan fmt1 fmt3 parse l m o vf vb g h : single l -> lens_mat l = m ->
  GraphicOf tan l (Fin 0) (Fin 0) = Ok (Some g) -> halfHeight g = Ok (Fin h) ->
  describes m o -> physical o -> power o -> ofv o = Some vf -> obv o = Some vb ->
  exists marks pl p1 p2 F1 F2, display tan fmt1 fmt3 parse (DLens l) = Ok (marks, pl) /\
    focal o 0 F1 F2 /\ principal o 0 p1 p2 (F2 - p2) /\
    In (mkMark (Fin F1) (Fin 0) None) marks /\ In (mkMark (Fin F2) (Fin 0) None) marks /\
    (oL o <> 0 -> exists y, In (mkMark (Fin vf) y (Some "$V_f$")) marks /\ In (mkMark (Fin vb) y (Some "$V_b$")) marks) /\
    (focusing (DLens l) = Some m -> plain_text fmt3 parse marks F1 "$F_f$" /\ plain_text fmt3 parse marks F2 "$F_b$") /\
    pl_lines pl = [(Fin p1, Fin h); (Fin p2, Fin h)] /\
    (exists y, In (mkMark (Fin p1) y (Some "$P_f$")) (pl_marks pl) /\ In (mkMark (Fin p2) y (Some "$P_b$")) (pl_marks pl)) /\
    spans pl p1 F1 ("EFL = " ++ fmt1 (Fin (p1 - F1))) /\ spans pl p2 F2 ("EFL = " ++ fmt1 (Fin (F2 - p2))) /\
    spans pl vf F1 ("FFL = " ++ fmt1 (Fin (vf - F1))) /\ spans pl vb F2 ("BFL = " ++ fmt1 (Fin (F2 - vb))).
Proof.
  intros Hs Hm Hg Hh D P W Vf Vb. pose proof (GraphicOf_x _ _ _ _ _ Hg) as Hx.
  destruct (planes_spec fmt1 m o vf vb h D P W Vf Vb) as (pl & p1 & p2 & F1 & F2 & Ep & Fo & Pr & L1 & L2 & L3 & L4 & L5 & L6 & _).
  destruct (focus_spec m o 0 D P W) as (G1 & G2 & E3 & A & B).
  assert (G1 = F1 /\ G2 = F2) as [-> ->].
  { destruct Fo as [Fa Fb]. specialize (Fa 1). specialize (Fb 1). specialize (A 1). specialize (B 1). pose proof (power_C _ W) as HC.
    cbn in Fa, Fb, A, B. split; apply (Rmult_eq_reg_l (C_ (oM o))); auto; lra. }
  assert (display tan fmt1 fmt3 parse (DLens l) = createFigure fmt1 m (fun hh => own_points fmt3 parse (DLens l) (Fin 0) hh) g) as ->.
  { unfold display. change (@c0 XR _) with (Fin 0). rewrite Hg. cbn [bind]. rewrite Hx. subst m. destruct l; try easy. }
  unfold createFigure, cardinalPoints. rewrite Hx, E3. cbn [bind]. rewrite Hh. cbn [bind].
  assert (exists vs, (if negb (neqb (mL m) c0) then verticesPoints m (Fin 0) (Fin h) else Ok []) = Ok vs /\
    (oL o <> 0 -> exists y, In (mkMark (Fin vf) y (Some "$V_f$")) vs /\ In (mkMark (Fin vb) y (Some "$V_b$")) vs)) as (vs & -> & Hv).
  { rewrite (d_L _ _ D). change (neqb (Fin (oL o)) (@c0 XR _)) with (Reqb (oL o) 0). destruct (Req_dec (oL o) 0) as [->|N].
    - rewrite Reqb_refl. exists []. split; [reflexivity|easy].
    - rewrite Reqb_neq by auto. cbn [negb]. unfold verticesPoints. rewrite (d_fv _ _ D), (d_bv _ _ D), Vf, Vb. cbn [option_map].
      change (nadd (Fin 0) (Fin vf)) with (Fin (0 + vf)). change (nadd (Fin 0) (Fin vb)) with (Fin (0 + vb)). rewrite !Rplus_0_l.
      eexists. split; [reflexivity|]. intros _. eexists. split; [left; reflexivity|right; left; reflexivity]. }
  cbn [bind].
  assert (exists ps, own_points fmt3 parse (DLens l) (Fin 0) (Fin h) = Ok ps /\
    (focusing (DLens l) = Some m -> plain_text fmt3 parse ps F1 "$F_f$" /\ plain_text fmt3 parse ps F2 "$F_b$")) as (ps & -> & Hp).
  { unfold own_points. destruct (focusing (DLens l)) as [m'|] eqn:Ef.
    - assert (m' = m) as -> by (destruct l as [[]| | |]; cbn in Ef, Hm; congruence).
      destruct (focusing_points (DLens l) m o 0 Ef D P) as [K _]. destruct (K W) as (f1 & f2 & Ei & Fo').
      assert (f1 = F1 /\ f2 = F2) as [-> ->].
      { destruct Fo as [Fa Fb]. destruct Fo' as [Fa' Fb']. specialize (Fa 1). specialize (Fb 1). specialize (Fa' 1). specialize (Fb' 1).
        pose proof (power_C _ W) as HC. cbn in Fa, Fb, Fa', Fb'. split; apply (Rmult_eq_reg_l (C_ (oM o))); auto; lra. }
      rewrite Ei. cbn [bind entries_of]. eexists. split; [reflexivity|]. intros _. split.
      + destruct (marks_of_in parse (nopp (nmul (Fin h) (ndec 2 1))) [(fmt3 (Fin F1), "$F_f$"); (fmt3 (Fin F2), "$F_b$")] (fmt3 (Fin F1)) "$F_f$") as (labs & I1 & I2);
          [now left|]. exists labs. eexists. split; [exact I1|auto].
      + destruct (marks_of_in parse (nopp (nmul (Fin h) (ndec 2 1))) [(fmt3 (Fin F1), "$F_f$"); (fmt3 (Fin F2), "$F_b$")] (fmt3 (Fin F2)) "$F_b$") as (labs & I1 & I2);
          [right; now left|]. exists labs. eexists. split; [exact I1|auto].
    - exists []. split; [|discriminate]. destruct l as [[]| | |]; cbn in Ef; try discriminate; reflexivity. }
  cbn [bind]. rewrite Ep. cbn [bind]. eexists. exists pl, p1, p2, F1, F2. split; [reflexivity|]. split; [exact Fo|]. split; [exact Pr|].
  split; [left; reflexivity|]. split; [right; left; reflexivity|].
  split; [intros H; destruct (Hv H) as (y & I1 & I2); exists y; split; (apply in_or_app; right; apply in_or_app; left; assumption)|].
  split; [|auto 10].
  intros H. destruct (Hp H) as [(labs & y & I1 & I2) (labs' & y' & J1 & J2)]. split.
  - exists labs, y. split; [apply in_or_app; right; apply in_or_app; right; assumption|auto].
  - exists labs', y'. split; [apply in_or_app; right; apply in_or_app; right; assumption|auto].
Qed.
(** an element without power is shown without planes, arrows or focal points (the documentation of display says it fails) *)
Theorem display_without_power tan fmt1 fmt3 parse l m o g h vf vb : single l -> lens_mat l = m -> catalogue (DLens l) = false ->
  GraphicOf tan l (Fin 0) (Fin 0) = Ok (Some g) -> halfHeight g = Ok (Fin h) ->
  describes m o -> physical o -> ~ power o -> ofv o = Some vf -> obv o = Some vb ->
  exists marks, display tan fmt1 fmt3 parse (DLens l) = Ok (marks, mkPlanes [] [] []) /\
    (forall k, In k marks -> k_text k = Some "$V_f$" /\ k_x k = Fin vf \/ k_text k = Some "$V_b$" /\ k_x k = Fin vb).
Proof.
  intros Hs Hm Hc Hg Hh D P W Vf Vb. pose proof (GraphicOf_x _ _ _ _ _ Hg) as Hx.
  assert (display tan fmt1 fmt3 parse (DLens l) = createFigure fmt1 m (fun hh => own_points fmt3 parse (DLens l) (Fin 0) hh) g) as ->.
  { unfold display. change (@c0 XR _) with (Fin 0). rewrite Hg. cbn [bind]. rewrite Hx. subst m. destruct l; try easy. }
  unfold createFigure, cardinalPoints. rewrite Hx, (focus_none m o 0 D W). cbn [bind]. rewrite Hh. cbn [bind].
  assert (own_points fmt3 parse (DLens l) (Fin 0) (Fin h) = Ok []) as Eo.
  { unfold own_points. destruct (focusing (DLens l)) as [m'|] eqn:Ef.
    - assert (m' = m) as -> by (destruct l as [[]| | |]; cbn in Ef, Hm; congruence).
      destruct (focusing_points (DLens l) m o 0 Ef D P) as [_ K]. rewrite (K W), Hc. reflexivity.
    - destruct l as [[]| | |]; cbn in Ef; try discriminate; reflexivity. }
  assert (addPrincipalPlanes fmt1 m (Fin 0) (Fin h) = Ok (mkPlanes [] [] [])) as Ep.
  { unfold addPrincipalPlanes, principalPlanePositions. rewrite <- (hasPower_iff _ _ D) in W. destruct (hasPower m); [easy|reflexivity]. }
  rewrite Ep. rewrite (d_L _ _ D). change (neqb (Fin (oL o)) (@c0 XR _)) with (Reqb (oL o) 0). destruct (Req_dec (oL o) 0) as [->|N].
  - rewrite Reqb_refl. cbn [negb bind]. rewrite Eo. cbn [bind]. exists []. split; [reflexivity|easy].
  - rewrite Reqb_neq by auto. cbn [negb]. unfold verticesPoints. rewrite (d_fv _ _ D), (d_bv _ _ D), Vf, Vb. cbn [option_map bind].
    rewrite Eo. cbn [bind]. eexists. split; [reflexivity|]. cbn. intros k [<-|[<-|[]]]; cbn; rewrite Rplus_0_l; auto.
Qed.
(** a space has no figure, and an element with power but without vertices has none either *)
Theorem display_space tan fmt1 fmt3 parse (m : @mat XR) : display tan fmt1 fmt3 parse (DLens (LLeaf KSpace m)) = Err AttributeError.
Proof. reflexivity. Qed.
Theorem display_without_vertices tan fmt1 fmt3 parse l m o g h : single l -> lens_mat l = m -> catalogue (DLens l) = false ->
  GraphicOf tan l (Fin 0) (Fin 0) = Ok (Some g) -> halfHeight g = Ok (Fin h) ->
  describes m o -> physical o -> ofv o = None \/ obv o = None -> power o \/ oL o <> 0 ->
  display tan fmt1 fmt3 parse (DLens l) = Err TypeError.
Proof.
  intros Hs Hm Hc Hg Hh D P V K. pose proof (GraphicOf_x _ _ _ _ _ Hg) as Hx.
  assert (display tan fmt1 fmt3 parse (DLens l) = createFigure fmt1 m (fun hh => own_points fmt3 parse (DLens l) (Fin 0) hh) g) as ->.
  { unfold display. change (@c0 XR _) with (Fin 0). rewrite Hg. cbn [bind]. rewrite Hx. subst m. destruct l; try easy. }
  assert (exists c, focusPositions m (Fin 0) = Ok c /\ (power o -> exists f, c = Some f)) as (c & Ec & Hcp).
  { destruct (Rlt_dec (1 / 100000) (Rabs (C_ (oM o)))) as [W|W].
    - destruct (focus_spec m o 0 D P W) as (f1 & f2 & E & _). rewrite E. eexists. split; [reflexivity|eauto].
    - rewrite (focus_none m o 0 D W). eexists. split; [reflexivity|]. intros W'. now destruct W. }
  unfold createFigure, cardinalPoints. rewrite Hx, Ec. cbn [bind]. rewrite Hh. cbn [bind].
  assert (Hvv : forall x hh, verticesPoints m x hh = Err TypeError).
  { intros x hh. unfold verticesPoints. rewrite (d_fv _ _ D), (d_bv _ _ D). destruct V as [->|V]; [reflexivity|]. rewrite V.
    destruct (ofv o); reflexivity. }
  rewrite Hvv, (d_L _ _ D). change (neqb (Fin (oL o)) (@c0 XR _)) with (Reqb (oL o) 0). destruct (Req_dec (oL o) 0) as [E0|N].
  2: rewrite Reqb_neq by auto; reflexivity.
  rewrite E0, Reqb_refl. cbn [negb bind]. destruct K as [W|K]; [|easy].
  assert (exists ps, own_points fmt3 parse (DLens l) (Fin 0) (Fin h) = Ok ps) as (ps & ->).
  { unfold own_points. destruct (focusing (DLens l)) as [m'|] eqn:Ef.
    - assert (m' = m) as -> by (destruct l as [[]| | |]; cbn in Ef, Hm; congruence).
      destruct (focusing_points (DLens l) m o 0 Ef D P) as [K _]. destruct (K W) as (f1 & f2 & -> & _). cbn [bind entries_of]. eauto.
    - exists []. destruct l as [[]| | |]; cbn in Ef; try discriminate; reflexivity. }
  cbn [bind]. destruct (principal_spec m o 0 D P W) as (p1 & p2 & f1 & f2 & F1 & F2 & E1 & E2 & E3 & _).
  unfold addPrincipalPlanes. rewrite E1. cbn [bind]. rewrite E2. cbn [bind].
  assert (exists a, frontFocalLength m = Ok a) as (a & ->).
  { destruct (ofv o) as [v|] eqn:Ev; [rewrite (ffl_ok m o v D P W Ev); eauto|]. unfold frontFocalLength. rewrite (d_fv _ _ D), Ev. cbn. eauto. }
  assert (exists b, backFocalLength m = Ok b) as (b & ->).
  { destruct (obv o) as [v|] eqn:Ev; [rewrite (bfl_ok m o v D P W Ev); eauto|]. unfold backFocalLength. rewrite (d_bv _ _ D), Ev. cbn. eauto. }
  cbn [bind]. rewrite E3. cbn [bind]. rewrite (d_fv _ _ D), (d_bv _ _ D). destruct a, b; try reflexivity.
  destruct V as [->|V]; [reflexivity|]. rewrite V. destruct (ofv o); reflexivity.
Qed.
