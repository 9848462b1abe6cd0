(** Where the images of an object are drawn (C94). *)
From Coq Require Import Reals Lra List Bool String ZArith Lia.
From Verif Require Import Base Nums Optics Group Spec MatrixProofs ElementProofs GroupProofs
  TraceProofs RayProofs CardinalProofs StrictProofs FlipProofs CardinalMore Imaging FieldMore Scene SceneProofs.
Import ListNotations.
Open Scope string_scope.
Open Scope list_scope.
Open Scope R_scope.

(** ** Specification *)
(** the height at which a ray leaves the optics [M] *)
Definition leaves_at (M : M2) (y th : R) : R := A_ M * y + B_ M * th.
(** all rays from height [y] at the start of [os] pass height [mag * y] at depth [pos], continued straight on from
    behind the first elements *)
Definition focused (os : list optic) (pos mag : R) : Prop :=
  exists pre post t, pre <> [] /\ os = pre ++ post /\ pos = total_length pre + t /\
    forall y th, leaves_at (mmul (free t) (mprod (map oM pre))) y th = mag * y.
(** all rays from height [y] at the distance [pos] before the end of [os] arrive at height [y / mag] there, when the
    light enters just before some of the last elements *)
Definition focused_from (os : list optic) (pos mag : R) : Prop :=
  exists pre post t, post <> [] /\ os = pre ++ post /\ pos = total_length post + t /\ mag <> 0 /\
    forall y th, leaves_at (mmul (mprod (map oM post)) (free t)) y th = y / mag.
(** the image of an object of diameter [d] at [x]: magnified, at a distance [fst p] *)
Definition image_at (d x : R) (color : string) (p : R * R) : @picture XR :=
  PImage (Fin (snd p * d)) (Fin (fst p + x)) color.

Lemma focused_iff os pos mag : (exists pre post, pre <> [] /\ os = pre ++ post /\ image_after pre pos mag) <->
  focused os pos mag.
Proof.
  split.
  - intros (pre & post & N & E & d & Hp & HB & HA). exists pre, post, d. repeat split; auto.
    intros y th. unfold leaves_at. rewrite HB, HA. ring.
  - intros (pre & post & t & N & E & Hp & H). exists pre, post. split; [exact N|]. split; [exact E|].
    exists t. split; [exact Hp|]. cbv zeta. pose proof (H 0 1) as H1. pose proof (H 1 0) as H2.
    unfold leaves_at in *. split; lra.
Qed.

(** the planes found by intermediateConjugates *)
Lemma planes_found e os : Forall2 (fun (x : @elem XR) o => describes (emat x) o) (transferMatrices e) os ->
  chain os -> os <> [] ->
  exists ps, intermediateConjugates e = Ok (map fin2 ps) /\
    (forall p, In p ps -> focused os (fst p) (snd p)) /\
    (forall pos mag, pos <> 0 -> focused os pos mag -> exists q, In q ps /\ (q = (pos, mag) \/ near q (pos, mag))).
Proof.
  intros HF HC Hn. destruct (conjugates_spec e os HF HC Hn) as (ps & E & H1 & _ & H3).
  exists ps. split; [exact E|]. split.
  - intros p Hp. destruct (H1 p Hp) as (pre & post & N & Eo & _ & I). apply focused_iff. eauto.
  - intros pos mag Hz Hf. apply focused_iff in Hf as (pre & post & N & Eo & I). eauto.
Qed.

(** ** Objects at the entrance *)
Theorem images_at_entrance (g : @grp XR) os d color :
  Forall2 (fun (x : @elem XR) o => describes (emat x) o) (transferMatrices (grp_elem g)) os -> chain os -> os <> [] ->
  exists ps, graphicsOfConjugatePlanes g (Fin d) color (Fin 0) = Ok (map (image_at d 0 color) ps) /\
    (forall p, In p ps -> focused os (fst p) (snd p)) /\
    (forall pos mag, pos <> 0 -> focused os pos mag -> exists q, In q ps /\ (q = (pos, mag) \/ near q (pos, mag))).
Proof.
  intros HF HC Hn. destruct (planes_found _ os HF HC Hn) as (ps & E & H).
  exists ps. split; [|exact H]. unfold graphicsOfConjugatePlanes, conjugates_from.
  change (neqb (Fin 0) (@c0 XR _)) with (Reqb 0 0). rewrite Reqb_refl. cbn [negb]. rewrite E. cbn [bind].
  f_equal. rewrite map_map. reflexivity.
Qed.

(** ** Objects inside the path *)
Definition single (e : @elem XR) : Prop := transferMatrices e = [e].
Lemma flat_single l : Forall single l -> flat_map transferMatrices l = l.
Proof. induction 1 as [|e l He Hl IH]; [reflexivity|]. cbn. rewrite He, IH. reflexivity. Qed.

(** mirror symmetric optics between air and air *)
Definition symmetric (o : optic) : Prop := physical o /\ onf o = 1 /\ onb o = 1 /\ mrev (oM o) = oM o.
Lemma symmetric_prod l : Forall symmetric l ->
  mdet (mprod (map oM l)) = 1 /\ mprod (map oM (rev l)) = mrev (mprod (map oM l)).
Proof.
  induction l as [|y l IH] using rev_ind; intros H.
  - split; [cbn; unfold mdet; cbn; ring|]. cbn. unfold mrev, mdet, mid; cbn. f_equal; field.
  - apply Forall_app in H as [H1 H2]. inversion H2 as [|? ? (P & F & B & S) _]; subst.
    destruct (IH H1) as [D R]. destruct P as (_ & _ & P). rewrite F, B in P.
    rewrite rev_app_distr. cbn [rev app map].
    rewrite mprod_snoc, mprod_cons.
    assert (mdet (oM y) = 1) as Dy by (rewrite P; field).
    split.
    + assert (mdet (mmul (oM y) (mprod (map oM l))) = mdet (oM y) * mdet (mprod (map oM l))) as ->
        by (unfold mdet, mmul; cbn; ring). rewrite Dy, D. ring.
    + rewrite mrev_mmul by (rewrite ?Dy, ?D; lra). rewrite R, S. reflexivity.
Qed.
Lemma total_length_rev l : total_length (rev l) = total_length l.
Proof.
  induction l; [reflexivity|]. cbn [rev]. rewrite total_length_app, IHl. unfold total_length; cbn. ring.
Qed.
Lemma symmetric_space d : symmetric (o_space d 1).
Proof.
  split; [apply p_space; lra|]. split; [reflexivity|]. split; [reflexivity|].
  unfold mrev, mdet. cbn. unfold free. f_equal; field.
Qed.
Lemma symmetric_matched l : Forall symmetric l -> matched 1 l.
Proof. induction 1 as [|y l (H1 & H2 & H3 & H4) Hl IH]; cbn; auto. rewrite H3. auto. Qed.

Lemma backwards l pos mag : Forall symmetric l -> focused l pos mag -> focused_from (rev l) pos mag.
Proof.
  intros HS (pre & post & t & N & E & Hp & H).
  assert (Forall symmetric pre) as HS1 by (rewrite E in HS; now apply Forall_app in HS).
  exists (rev post), (rev pre), t.
  split; [intros C; apply N; rewrite <- (rev_involutive pre), C; reflexivity|].
  split; [rewrite E; apply rev_app_distr|]. split; [now rewrite total_length_rev|].
  destruct (symmetric_prod pre HS1) as (D & R).
  assert (mdet (free t) = 1) as Df by (unfold mdet, free; cbn; ring).
  set (M := mprod (map oM pre)) in *. rewrite R.
  pose proof (H 1 0) as HA. pose proof (H 0 1) as HB. unfold leaves_at in HA, HB.
  assert (mdet (mmul (free t) M) = 1) as D2.
  { assert (mdet (mmul (free t) M) = mdet (free t) * mdet M) as -> by (unfold mdet, mmul; cbn; ring). rewrite Df, D. ring. }
  unfold mdet in D2. assert (B_ (mmul (free t) M) = 0) as B0 by lra. assert (A_ (mmul (free t) M) = mag) as A0 by lra.
  rewrite B0, A0 in D2. assert (mag <> 0) as Hm by (intros ->; lra). split; [exact Hm|].
  intros y th. assert (mmul (mrev M) (free t) = mrev (mmul (free t) M)) as ->.
  { rewrite mrev_mmul by lra. f_equal. unfold mrev. rewrite Df. unfold free; cbn. f_equal; field. }
  unfold leaves_at. assert (mdet (mmul (free t) M) = 1) as D3 by (unfold mdet; rewrite B0, A0; lra).
  unfold mrev. rewrite D3. cbn [A_ B_]. rewrite B0.
  replace (D_ (mmul (free t) M)) with (1 / mag) by (apply (Rmult_eq_reg_l mag); [|exact Hm]; rewrite <- Rmult_div_assoc || idtac; field_simplify; lra).
  field. exact Hm.
Qed.

Theorem images_inside (g : @grp XR) pre x post pos o qos zs d color :
  gelems g = pre ++ x :: post ->
  Forall2 (fun e o => describes (emat e) o) (pre ++ x :: post) (pos ++ o :: qos) ->
  Forall single (pre ++ x :: post) ->
  List.length pre = List.length pos -> chain (pos ++ o :: qos) ->
  Forall (fun o => 0 <= oL o) pos -> is_Space x = true -> oM o = free (oL o) -> onf o = 1 -> onb o = 1 ->
  Forall symmetric pos -> zs <> 0 ->
  total_length pos < zs < total_length pos + oL o ->
  let behind := o_space (total_length pos + oL o - zs) 1 :: qos in
  let before := pos ++ [o_space (zs - total_length pos) 1] in
  exists fs bs, graphicsOfConjugatePlanes g (Fin d) color (Fin zs) =
      Ok (map (image_at d zs color) fs ++ map (fun p => image_at d zs color (- fst p, snd p)) bs) /\
    (forall p, In p fs -> focused behind (fst p) (snd p)) /\
    (forall p, In p bs -> focused_from before (fst p) (snd p)) /\
    (forall p mag, p <> 0 -> focused behind p mag -> exists q, In q fs /\ (q = (p, mag) \/ near q (p, mag))).
Proof.
  intros Eg HF HL Hlen HC HN HS HM Hf Hb HA Hz0 Hz behind before.
  destruct (subPath_forward pre x post pos o qos zs HF Hlen HC HN HS HM Hf Hb Hz) as (f & F1 & F2 & _).
  destruct (subPath_backward pre x post pos o qos zs HF Hlen HN HS HA Hz) as (b & B1 & B2 & _).
  apply Forall_app in HL as [HL1 HL2]. inversion HL2 as [|? ? HLx HL3]; subst.
  apply Forall2_app_inv_l in HF as (p1 & p2 & HFa & HFb & Epp).
  assert (p1 = pos /\ p2 = o :: qos) as [-> ->].
  { assert (List.length pre = List.length p1) as Hl by (clear -HFa; induction HFa; cbn; congruence). clear -Epp Hl Hlen. rewrite Hl in Hlen. clear Hl.
    revert pos Epp Hlen. induction p1 as [|a p1 IH]; intros [|c pos] E H; cbn in *; try discriminate; [now split|].
    injection E as <- E. destruct (IH pos E ltac:(lia)) as [-> ->]. now split. }
  inversion HFb as [|? ? ? ? Dx HFq]; subst.
  assert (Forall2 (fun (x : @elem XR) o => describes (emat x) o) (transferMatrices (grp_elem f)) behind) as Hf1.
  { unfold grp_elem. cbn [transferMatrices]. rewrite F2, flat_single; [|constructor; [reflexivity|exact HL3]].
    constructor; [constructor; reflexivity|exact HFq]. }
  assert (chain behind) as Hf2.
  { assert (matched (onb o) qos) as Hq.
    { clear -HC. assert (forall n, matched n (pos ++ o :: qos) -> matched (onb o) qos) as HX.
      { induction pos as [|p pos IH]; intros n H; cbn in H; [tauto|]. apply (IH ltac:(destruct (pos ++ o :: qos); cbn in *; tauto) (onb p)). tauto. }
      apply (HX (onf (hd o (pos ++ o :: qos)))). destruct (pos ++ o :: qos); cbn in *; [exact I|]. tauto. }
    cbn. split; [apply p_space; lra|]. now rewrite Hb in Hq. }
  destruct (planes_found _ _ Hf1 Hf2 ltac:(discriminate)) as (fs & E1 & P1 & P2).
  assert (Forall2 (fun (x : @elem XR) o => describes (emat x) o) (transferMatrices (grp_elem b))
     (o_space (zs - total_length pos) 1 :: rev pos)) as Hb1.
  { unfold grp_elem. cbn [transferMatrices]. rewrite B2, flat_single; [|constructor; [reflexivity|now apply Forall_rev]].
    constructor; [constructor; reflexivity|]. clear -HFa. induction HFa; cbn; auto. apply Forall2_app; auto. }
  assert (Forall symmetric (o_space (zs - total_length pos) 1 :: rev pos)) as Hb0
    by (constructor; [apply symmetric_space|now apply Forall_rev]).
  assert (chain (o_space (zs - total_length pos) 1 :: rev pos)) as Hb2.
  { cbn. split; [apply p_space; lra|]. apply symmetric_matched. now apply Forall_rev. }
  destruct (planes_found _ _ Hb1 Hb2 ltac:(discriminate)) as (bs & E2 & P3 & _).
  exists fs, bs. split; [|split; [exact P1|split; [|exact P2]]].
  - unfold graphicsOfConjugatePlanes, conjugates_from. change (neqb (Fin zs) (@c0 XR _)) with (Reqb zs 0).
    rewrite Reqb_neq by exact Hz0. cbn [negb]. rewrite Eg, F1. cbn [bind]. rewrite E1. cbn [bind].
    rewrite B1. cbn [bind]. rewrite E2. cbn [bind]. rewrite map_app, !map_map. do 2 f_equal. apply map_ext.
    intros [p mag]. unfold image_at, fin2. cbn [fst snd]. f_equal.
    change (nadd (nmul (Fin p) (nopp (@c1 XR _))) (Fin zs)) with (Fin (p * - 1 + zs)). f_equal. ring.
  - intros p Hp. apply P3 in Hp. apply backwards in Hp; [|exact Hb0]. cbn [rev] in Hp. rewrite rev_involutive in Hp.
    exact Hp.
Qed.

(** the arrow of an image ends where the rays from the end of the arrow of the object pass *)
Theorem arrow_tips d mag : exists e, arrow_ends (Fin d) = (Fin (- e), Fin e) /\ e = d / 2 /\
  arrow_ends (Fin (mag * d)) = (Fin (- (mag * e)), Fin (mag * e)).
Proof.
  exists (d / 2). unfold arrow_ends.
  assert (forall a, ndiv (Fin a) (@c2 XR _) = Fin (a / 2)) as H2.
  { intros a. unfold c2. cbn. destruct (Req_EM_T 2 0); [lra|reflexivity]. }
  change (nopp (Fin d)) with (Fin (- d)). change (nopp (Fin (mag * d))) with (Fin (- (mag * d))). rewrite !H2.
  cbn [nadd NumXR xadd].
  split; [|split; [reflexivity|]]; apply f_equal2; apply f_equal; field.
Qed.
