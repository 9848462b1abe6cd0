(** More about imaging paths: the reported field on any numbers, the element named by fieldStop,
    the Lagrange invariant, and sub-paths. *)
From Coq Require Import ZArith Reals Lra Lia List Bool Sorted String.
From Verif Require Import Base Nums Optics Group Spec MatrixProofs ElementProofs GroupProofs
  TraceProofs RayProofs CardinalProofs StrictProofs FlipProofs TransferProofs CardinalMore Imaging
  SearchProofs ImagingProofs FieldProofs.
Import ListNotations.
Open Scope list_scope.

(** ** The reported height is transmitted, whatever the arithmetic *)
Section Generic.
Context {T : Type} {N : Num T}.
Local Notation elem := (@elem T).

Definition searched (e : elem) (s : @search_state T) : Prop :=
  exists y, chiefRayAt e y = Ok (Some (s_ray s)) /\ s_trace s = trace_values e (s_ray s) /\
    s_was s = rblk (traceThrough e (s_ray s)).

Lemma search_step_searched e s s' : search_step e s = Ok s' -> searched e s'.
Proof.
  unfold search_step. destruct (chiefRayAt e (s_y s)) as [[r|]|] eqn:E; cbn [bind]; try discriminate.
  intros [= <-]. exists (s_y s). cbn [s_ray s_trace s_was]. rewrite trace_values_last. auto.
Qed.

Lemma search_searched : forall fuel e w s s',
  searched e s \/ nltb precision (nabs (s_dy s)) = true ->
  search fuel e w s = Ok (Some s') -> searched e s' /\ s_was s' = w.
Proof.
  induction fuel as [|fuel IH]; intros e w s s' Hs; cbn [search]; [discriminate|].
  destruct (nltb precision (nabs (s_dy s)) || negb (Bool.eqb (s_was s) w)) eqn:G.
  - destruct (search_step e s) as [s1|] eqn:E; cbn [bind]; [|discriminate].
    destruct (_ && _); [discriminate|]. apply IH. left. eapply search_step_searched; eauto.
  - intros [= <-]. apply orb_false_iff in G as [G1 G2]. destruct Hs as [Hs|Hs]; [|congruence].
    split; auto. apply negb_false_iff in G2. now apply eqb_prop.
Qed.

Lemma chief_height e y r : chiefRayAt e y = Ok (Some r) -> ry r = y.
Proof.
  unfold chiefRayAt. destruct (apertureStop e) as [s|]; cbn [bind]; [|discriminate].
  destruct (st_z s) as [z|]; [|discriminate].
  destruct (transferMatrix e z) as [m|]; cbn [bind]; [|discriminate].
  destruct (isImaging _); [discriminate|]. destruct (pdiv _ _); cbn [bind]; [|discriminate].
  now intros [= <-].
Qed.

(** the increment is larger than the precision to begin with *)
Definition precise_start : Prop := nltb precision (nabs (nmul precision (nofZ 100))) = true.

Theorem half_field_transmitted (fuel : nat) (e : elem) (v : T) : precise_start ->
  halfFieldOfView fuel e = Ok v ->
  v = ninf \/ exists r, chiefRayAt e v = Ok (Some r) /\ ry r = v /\ rblk (traceThrough e r) = false.
Proof.
  intros HP. unfold halfFieldOfView. destruct (fieldStop fuel e) as [f|]; cbn [bind]; [|discriminate].
  destruct (st_z f) as [z|]; [|intros [= <-]; auto].
  destruct (transferMatrix e z); cbn [bind]; [|discriminate].
  destruct (search fuel e false _) as [[s|]|] eqn:E; cbn [bind]; [|intros [= <-]; auto|discriminate].
  intros [= <-]. right. apply search_searched in E as ((y & E & Et & Ew) & W); [|right; exact HP].
  exists (s_ray s). pose proof (chief_height _ _ _ E) as Hy. rewrite Hy. split; auto. split; auto.
  congruence.
Qed.

(** a field stop that is found does block a chief ray *)
Theorem field_stop_blocks (fuel : nat) (e : elem) z d : precise_start ->
  fieldStop fuel e = Ok (mkStop (Some z) d) ->
  exists y r, chiefRayAt e y = Ok (Some r) /\ rblk (traceThrough e r) = true /\
    z = rz (traceThrough e r) /\ d = Some (rdiam (traceThrough e r)).
Proof.
  intros HP. unfold fieldStop. destruct (apertureStop e) as [a|]; cbn [bind]; [|discriminate].
  destruct (_ && _); [|discriminate].
  destruct (search fuel e true _) as [[s|]|] eqn:E; cbn [bind]; try discriminate.
  apply search_searched in E as ((y & E & Et & Ew) & W); [|right; exact HP].
  rewrite Et, first_blocked_tail by congruence. intros [= <- <-]. exists y, (s_ray s).
  split; auto. split; [congruence|auto].
Qed.
End Generic.

Open Scope R_scope.

(** ** The element named by fieldStop *)
(** elements that may stop light have no thickness *)
Definition thin_if_limiting (km : @kind XR * @mat XR) (p : piece) : Prop :=
  oL (po p) = 0 \/ (mdiam (snd km) = PInf /\ mna (snd km) = PInf).

Lemma blocked_at l ps : Forall2 is_piece l ps -> Forall not_axicon l ->
  Forall2 thin_if_limiting l ps ->
  forall y th (d : XR) w, let r := fray y th 0 false d w in
  rblk (through_leaves l r) = true ->
  exists i km, nth_error l i = Some km /\ misses (snd km) (after l r i) = true /\
    (forall j km', (j < i)%nat -> nth_error l j = Some km' -> misses (snd km') (after l r j) = false) /\
    rz (through_leaves l r) = Fin (depth ps (S i)) /\
    rdiam (through_leaves l r) = mdiam (snd km).
Proof.
  intros HF HA HT y th d w r Hb.
  destruct (first_miss l HA r eq_refl Hb) as (i & km & Ei & Mi & Hlt & Eo).
  exists i, km. split; auto. split; auto. split; auto.
  assert (i <= List.length l)%nat as Hi.
  { assert (i < List.length l)%nat; [apply nth_error_Some; congruence|lia]. }
  destruct (after_pieces _ _ HF HA i Hi y th 0 false d w) as (w' & Ea). fold r in Ea.
  destruct (Forall2_nth _ _ _ _ _ HF Ei) as (p & Ep & (Dp & Pp & Lp & Posp & _)).
  destruct (Forall2_nth _ _ _ _ _ HT Ei) as (p' & Ep' & Hthin).
  assert (p' = p) as -> by congruence. clear Ep'.
  destruct km as [k m]. cbn [fst snd] in *.
  assert (not_axicon (k, m)) as Hk.
  { rewrite Forall_forall in HA. apply HA. eapply nth_error_In; eauto. }
  assert (oL (po p) = 0) as E0.
  { destruct Hthin as [E0|[E1 E2]]; auto. exfalso. rewrite Ea in Mi.
    cbn [snd] in *. unfold fray in Mi.
    erewrite open_misses in Mi by (first [exact E1 | exact E2 | reflexivity]). discriminate. }
  rewrite Eo, Ea, (depth_S _ _ _ Ep), E0. unfold through_leaf. dsc Dp. rewrite E0.
  change (nltb (@c0 XR _) (Fin 0)) with (Rltb 0 0). rewrite Rltb_ge by lra.
  unfold mul_ray_v, fray; cbn [rblk]. unfold mul_ray_new. cbn [ry rth rz].
  dsc Dp. rewrite E0. cbn [nadd NumXR xadd].
  replace (0 + (0 + depth ps i)) with (depth ps i + 0) by ring.
  destruct k; cbn in Hk; try tauto; split; reflexivity.
Qed.

Section Field.
Variables (e : @elem XR) (o : optic) (ps : list piece) (z : R).
Hypothesis Haim : aimed e o ps z.
Hypothesis Hz : z <> 0.

(** fieldStop names the first element on which the chief ray from just outside the field is lost *)
Theorem field_stop_element h : Forall2 thin_if_limiting (leaves e) ps ->
  field_edge e h -> 3 / 80000 <= h < tried 42 ->
  exists n v i km, h < v <= h + 2 * prec /\ nth_error (leaves e) i = Some km /\
    misses (snd km) (after (leaves e) (chief ps z v) i) = true /\
    (forall j km', (j < i)%nat -> nth_error (leaves e) j = Some km' ->
       misses (snd km') (after (leaves e) (chief ps z v) j) = false) /\
    forall fuel, (n <= fuel)%nat ->
      fieldStop fuel e = Ok (mkStop (Some (Fin (depth ps (S i)))) (Some (mdiam (snd km)))).
Proof.
  intros HT He Hh. destruct (field_stop_found e o ps z Haim Hz h He Hh) as (n & v & Hv & Hn).
  pose proof (edge_blk e o ps z Haim h He v) as Hb. rewrite Rltb_lt in Hb by (rewrite Rabs_pos_eq; lra).
  rewrite traceThrough_through, through_flatten in *.
  destruct (blocked_at _ _ (am_pieces _ _ _ _ Haim) (am_lin _ _ _ _ Haim) HT v (aim ps z * v) PInf None Hb)
    as (i & km & Ei & Mi & Hlt & Eoz & Eod).
  exists n, v, i, km. split; auto. split; auto. split; auto. split; auto.
  intros fuel Hf. rewrite (Hn fuel Hf). unfold chief. now rewrite Eoz, Eod.
Qed.

(** ** Principal ray and Lagrange invariant *)
Theorem principal_ray_found h : field_edge e h -> 3 / 80000 <= h < tried 42 ->
  exists n v, v <= h < v + 2 * prec /\ forall fuel, (n <= fuel)%nat ->
    principalRay fuel e = Ok (Some (chief ps z v)) /\
    fieldOfView fuel e = Ok (Fin (2 * v)) /\
    chiefRayDefault fuel e = Ok (Some (chief ps z v)).
Proof.
  intros He Hh. destruct (half_field_found e o ps z Haim Hz h He Hh) as (n & v & Hv & Hn).
  exists n, v. split; auto. intros fuel Hf. unfold principalRay, fieldOfView.
  rewrite (Hn fuel Hf). cbn [bind]. split; [|split].
  - change (neqb (Fin v) (@ninf XR _)) with false. cbn iota. apply (aimed_chief e o); auto.
  - reflexivity.
  - unfold chiefRayDefault. pose proof (aimed_chief e o ps z v Haim) as Hc. unfold chiefRayAt in Hc.
    destruct (apertureStop e) as [s|]; cbn [bind] in *; [|discriminate].
    destruct (st_z s) as [zz|]; [|discriminate].
    destruct (transferMatrix e zz) as [t|]; cbn [bind] in *; [|discriminate].
    destruct (isImaging (emat t)); [discriminate|]. rewrite (Hn fuel Hf). cbn [bind].
    change (neqb (nabs (Fin v)) (@ninf XR _)) with false. exact Hc.
Qed.

Theorem lagrange_invariant D h : (exists gk m es, e = Group gk m es) -> onf o = 1 ->
  apertureStop e = Ok (mkStop (Some (Fin z)) (Some (Fin D))) -> 0 < D ->
  field_edge e h -> 3 / 80000 <= h < tried 42 ->
  exists n a p th y, forall fuel, (n <= fuel)%nat ->
    axialRay e = Ok (Some a) /\ rth a = Fin th /\ ry a = Fin 0 /\
    principalRay fuel e = Ok (Some p) /\ ry p = Fin y /\
    lagrangeInvariant fuel e = Ok (Fin (th * y)) /\
    forall z', 0 <= z' -> opticalInvariant e a p (Fin z') = Ok (Fin (th * y)).
Proof.
  intros (gk & m & es & Eg) Hn1 HS HD He Hh.
  destruct (principal_ray_found h He Hh) as (n & v & Hv & Hn).
  destruct (axial_ray e o ps z D (am_canon _ _ _ _ Haim) (am_pieces _ _ _ _ Haim) HS HD
    (am_B _ _ _ _ Haim)) as (th & Ea & _ & _).
  exists n, (fray 0 th 0 false PInf None), (chief ps z v), th, v. intros fuel Hf.
  destruct (Hn fuel Hf) as (Ep & _).
  assert (forall z', 0 <= z' -> opticalInvariant e (fray 0 th 0 false PInf None) (chief ps z v) (Fin z') =
    Ok (Fin (th * v))) as HI.
  { intros z' Hz'. unfold chief.
    rewrite (invariant_conserved e o ps z' 0 th 0 PInf None v (aim ps z * v) 0 PInf None
      (am_canon _ _ _ _ Haim) (am_pieces _ _ _ _ Haim) (am_lin _ _ _ _ Haim) Hz').
    - do 2 f_equal. rewrite Hn1. ring.
    - now left.
    - rewrite Eg. exact I.
    - rewrite Eg. exact I. }
  split; auto. split; auto. split; auto. split; auto. split; auto. split; auto.
  unfold lagrangeInvariant. rewrite Ea. cbn [bind]. rewrite Ep. cbn [bind].
  change (@c0 XR _) with (Fin 0). apply HI. lra.
Qed.
End Field.

(** ** Sub-paths *)
Lemma total_length_app l l' : total_length (l ++ l') = total_length l + total_length l'.
Proof.
  unfold total_length. rewrite map_app. induction (map oL l); cbn; lra.
Qed.

Lemma subPath_skip pre pos x post bwd : Forall2 (fun e o => describes (emat e) o) pre pos ->
  Forall (fun o => 0 <= oL o) pos -> forall before z zs, z + total_length pos <= zs ->
  subPath_loop before (pre ++ x :: post) (Fin z) (Fin zs) bwd =
  subPath_loop (rev pre ++ before) (x :: post) (Fin (z + total_length pos)) (Fin zs) bwd.
Proof.
  induction 1 as [|e o pre pos D HF IH]; intros HN before z zs Hz.
  - cbn [app rev]. unfold total_length; cbn. now rewrite Rplus_0_r.
  - inversion HN as [|? ? Ho HN']; subst. unfold total_length in *; cbn [map fold_right] in *.
    assert (0 <= fold_right Rplus 0 (map oL pos)) as H0.
    { clear -HN'. induction HN'; cbn; lra. }
    change ((e :: pre) ++ x :: post) with (e :: (pre ++ x :: post)).
    remember (x :: post) as tl eqn:Et. cbn [subPath_loop]. rewrite (d_L _ _ D).
    cbn [nadd NumXR xadd nltb xltb].
    rewrite (Rltb_ge zs (z + oL o)) by lra. rewrite andb_false_r. subst tl.
    rewrite IH by (auto; lra). cbn [rev]. rewrite <- app_assoc. cbn [app].
    do 2 f_equal. lra.
Qed.

Theorem subPath_forward pre x post pos o qos zs :
  Forall2 (fun e o => describes (emat e) o) (pre ++ x :: post) (pos ++ o :: qos) ->
  List.length pre = List.length pos -> chain (pos ++ o :: qos) ->
  Forall (fun o => 0 <= oL o) pos -> is_Space x = true -> oM o = free (oL o) ->
  onf o = 1 -> onb o = 1 ->
  total_length pos < zs < total_length pos + oL o ->
  let rest := total_length pos + oL o - zs in
  exists g, subPath (pre ++ x :: post) (Fin zs) false = Ok g /\
    gelems g = space1 rest 1 :: post /\
    tracks (gmat g) (path_optic (o_space rest 1) qos) /\
    oL (path_optic (o_space rest 1) qos) = total_length (pos ++ o :: qos) - zs /\
    mprod (map oM (pos ++ o :: qos)) =
      mmul (oM (path_optic (o_space rest 1) qos))
           (mmul (free (zs - total_length pos)) (mprod (map oM pos))).
Proof.
  intros HF HL HC HN HS HM Hf Hb Hz rest.
  assert (exists HF1 : Forall2 (fun e o => describes (emat e) o) pre pos,
    Forall2 (fun e o => describes (emat e) o) (x :: post) (o :: qos)) as (HF1 & HF2).
  { clear -HF HL. revert pos HL HF. induction pre as [|e pre IH]; intros [|p pos] HL HF; cbn in *; try lia.
    - exists (Forall2_nil _). exact HF.
    - inversion HF as [|? ? ? ? D HF']; subst. destruct (IH pos ltac:(lia) HF') as (H1 & H2).
      exists (Forall2_cons _ _ D H1). exact H2. }
  inversion HF2 as [|? ? ? ? Dx HFq]; subst.
  unfold subPath. change (@c0 XR _) with (Fin 0).
  rewrite (subPath_skip pre pos x post false HF1 HN) by lra. rewrite Rplus_0_l.
  cbn [subPath_loop]. rewrite (d_L _ _ Dx), HS. cbn [nadd NumXR xadd nltb xltb].
  rewrite !Rltb_lt by lra. cbn [andb].
  cbn [nsub NumXR xsub xadd xopp]. change (total_length pos + oL o + - zs) with rest.
  unfold c1. cbn [nofZ NumXR ninf]. rewrite Space_ok by (try exact I; lra). cbn [bind].
  fold (space1 rest 1).
  assert (matched 1 qos) as HMq.
  { assert (matched 1 (o :: qos)) as H.
    { destruct pos as [|p pos]; cbn [app] in HC.
      - destruct HC as (P & HC). cbn. split; auto.
      - destruct HC as (P & HC). rewrite matched_app in HC. destruct HC as (_ & HC).
        cbn in HC |- *. destruct HC as (E & P' & HC). auto. }
    cbn in H. destruct H as (_ & _ & H). now rewrite Hb in H. }
  assert (Forall2 (fun (e : @elem XR) o => describes (emat e) o) (space1 rest 1 :: post) (o_space rest 1 :: qos)) as HF3.
  { constructor; auto. constructor; reflexivity. }
  assert (chain (o_space rest 1 :: qos)) as HC3.
  { cbn. split; auto. apply p_space. lra. }
  destruct (MatrixGroup_new_ok _ _ ""%string HF3 HC3 ltac:(discriminate)) as (g & E & Ee & _ & _ & _ & _ & HT).
  exists g. split; auto. split; auto. split; [now apply HT|].
  assert (forall l a, oL (path_optic a l) = oL a + total_length l) as HPL.
  { clear. induction l as [|y l IH]; intros a; [unfold total_length; cbn; ring|].
    change (path_optic a (y :: l)) with (path_optic (ocomp y a) l). rewrite IH.
    unfold total_length; cbn. ring. }
  split.
  - rewrite HPL, total_length_app. cbn. unfold rest, total_length; cbn. lra.
  - rewrite map_app, mprod_app. cbn [map]. rewrite mprod_cons, path_optic_M, HM.
    cbn [oM o_space]. rewrite <- !mmul_assoc. f_equal. rewrite !mmul_assoc. f_equal.
    unfold mmul, free; cbn. f_equal; unfold rest; ring.
Qed.

Lemma mrev_mmul M Q : mdet M <> 0 -> mdet Q <> 0 -> mrev (mmul M Q) = mmul (mrev Q) (mrev M).
Proof.
  intros HM HQ. assert (mdet (mmul M Q) = mdet M * mdet Q) as E by (unfold mdet, mmul; cbn; ring).
  unfold mrev. rewrite E. unfold mdet, mmul in *. cbn in *. f_equal; field; auto.
Qed.

Theorem subPath_backward pre x post pos o qos zs :
  Forall2 (fun e o => describes (emat e) o) (pre ++ x :: post) (pos ++ o :: qos) ->
  List.length pre = List.length pos ->
  Forall (fun o => 0 <= oL o) pos -> is_Space x = true ->
  Forall (fun o => physical o /\ onf o = 1 /\ onb o = 1 /\ mrev (oM o) = oM o) pos ->
  total_length pos < zs < total_length pos + oL o ->
  let d := zs - total_length pos in
  exists g, subPath (pre ++ x :: post) (Fin zs) true = Ok g /\
    gelems g = space1 d 1 :: rev pre /\
    tracks (gmat g) (path_optic (o_space d 1) (rev pos)) /\
    oL (path_optic (o_space d 1) (rev pos)) = zs /\
    oM (path_optic (o_space d 1) (rev pos)) = mrev (mmul (free d) (mprod (map oM pos))).
Proof.
  intros HF HL HN HS HA Hz d.
  assert (exists HF1 : Forall2 (fun e o => describes (emat e) o) pre pos,
    Forall2 (fun e o => describes (emat e) o) (x :: post) (o :: qos)) as (HF1 & HF2).
  { clear -HF HL. revert pos HL HF. induction pre as [|e pre IH]; intros [|p pos] HL HF; cbn in *; try lia.
    - exists (Forall2_nil _). exact HF.
    - inversion HF as [|? ? ? ? D HF']; subst. destruct (IH pos ltac:(lia) HF') as (H1 & H2).
      exists (Forall2_cons _ _ D H1). exact H2. }
  inversion HF2 as [|? ? ? ? Dx HFq]; subst.
  unfold subPath. change (@c0 XR _) with (Fin 0).
  rewrite (subPath_skip pre pos x post true HF1 HN) by lra. rewrite Rplus_0_l, app_nil_r.
  cbn [subPath_loop]. rewrite (d_L _ _ Dx), HS. cbn [nadd NumXR xadd nltb xltb].
  rewrite !Rltb_lt by lra. cbn [andb].
  cbn [nsub NumXR xsub xadd xopp]. change (zs + - total_length pos) with d.
  unfold c1. cbn [nofZ NumXR ninf]. rewrite Space_ok by (try exact I; lra). cbn [bind].
  fold (space1 d 1).
  assert (forall l, Forall (fun o => physical o /\ onf o = 1 /\ onb o = 1 /\ mrev (oM o) = oM o) l ->
    matched 1 l) as HMt.
  { induction 1 as [|y l (H1 & H2 & H3 & H4) Hl IH]; cbn; auto. rewrite H3. auto. }
  assert (Forall2 (fun (e : @elem XR) o => describes (emat e) o) (space1 d 1 :: rev pre) (o_space d 1 :: rev pos)) as HF3.
  { constructor; [constructor; reflexivity|]. clear -HF1. induction HF1; cbn; auto. apply Forall2_app; auto. }
  assert (chain (o_space d 1 :: rev pos)) as HC3.
  { cbn. split; [apply p_space; lra|]. apply HMt. now apply Forall_rev. }
  destruct (MatrixGroup_new_ok _ _ ""%string HF3 HC3 ltac:(discriminate)) as (g & E & Ee & _ & _ & _ & _ & HT).
  exists g. split; auto. split; auto. split; [now apply HT|].
  assert (forall l a, oL (path_optic a l) = oL a + total_length l) as HPL.
  { clear. induction l as [|y l IH]; intros a; [unfold total_length; cbn; ring|].
    change (path_optic a (y :: l)) with (path_optic (ocomp y a) l). rewrite IH.
    unfold total_length; cbn. ring. }
  assert (forall l, total_length (rev l) = total_length l) as HR.
  { clear. induction l; [reflexivity|]. cbn [rev]. rewrite total_length_app, IHl.
    unfold total_length; cbn. ring. }
  split; [rewrite HPL, HR; unfold d; cbn; lra|].
  rewrite path_optic_M. cbn [oM o_space].
  assert (forall l, Forall (fun o => physical o /\ onf o = 1 /\ onb o = 1 /\ mrev (oM o) = oM o) l ->
    mdet (mprod (map oM l)) = 1 /\ mprod (map oM (rev l)) = mrev (mprod (map oM l))) as HX.
  { clear. induction l as [|y l IH] using rev_ind; intros H.
    - split; [cbn; unfold mdet; cbn; ring|]. cbn. unfold mrev, mdet, mid; cbn. f_equal; field.
    - apply Forall_app in H as [H1 H2]. inversion H2 as [|? ? (P & F & B & S) _]; subst.
      destruct (IH H1) as [D R]. destruct P as (_ & _ & P). rewrite F, B in P.
      rewrite rev_app_distr. cbn [rev app map]. rewrite map_app. cbn [map].
      rewrite mprod_snoc, mprod_cons. split.
      + assert (mdet (mmul (oM y) (mprod (map oM l))) = mdet (oM y) * mdet (mprod (map oM l))) as ->
          by (unfold mdet, mmul; cbn; ring). rewrite P, D. field.
      + rewrite mrev_mmul by (rewrite ?P, ?D; lra). rewrite R, S. reflexivity. }
  destruct (HX pos HA) as [D R]. rewrite R.
  assert (mdet (free d) = 1) as Df by (unfold mdet, free; cbn; ring).
  rewrite mrev_mmul by (rewrite ?D, ?Df; lra). f_equal.
  unfold mrev. rewrite Df. unfold free; cbn. f_equal; field.
Qed.

(** ** The search in every case *)
(** without a stop, or with the stop in the object plane, nothing is searched *)
Theorem field_not_searched {T} {N : Num T} fuel (e : @elem T) s : apertureStop e = Ok s ->
  hasFiniteApertureDiameter e = false \/ (exists z, st_z s = Some z /\ neqb z c0 = true) ->
  fieldStop fuel e = Ok (mkStop None (Some ninf)) /\ halfFieldOfView fuel e = Ok ninf.
Proof.
  intros E H. assert (fieldStop fuel e = Ok (mkStop None (Some ninf))) as F.
  { unfold fieldStop. rewrite E. cbn [bind]. destruct H as [-> | (z & -> & ->)]; [reflexivity|].
    cbn [negb]. now rewrite andb_false_r. }
  split; auto. unfold halfFieldOfView. now rewrite F.
Qed.

(** a stop closer than 1e-5 to an image of the object makes the search raise *)
Theorem field_raises (e : @elem XR) o ps z d :
  canon e o -> Forall2 is_piece (leaves e) ps ->
  apertureStop e = Ok (mkStop (Some (Fin z)) d) -> z <> 0 ->
  Rabs (B_ (matrix_to ps z)) < / 100000 ->
  forall fuel, fieldStop (S fuel) e = Err TypeError /\ halfFieldOfView (S fuel) e = Err TypeError.
Proof.
  intros Hc HF HS Hz HB fuel.
  assert (fieldStop (S fuel) e = Err TypeError) as F.
  { unfold fieldStop. rewrite (stop_has_finite _ _ _ HS). rewrite HS. cbn [bind st_z].
    change (neqb (Fin z) (@c0 XR _)) with (Reqb z 0). unfold Reqb.
    destruct (Req_EM_T z 0); [lra|]. cbn [negb andb]. cbn [search].
    assert (nltb (@precision XR _) (nabs (s_dy (search_start (@Ray_new XR _ c0 c0)))) = true) as ->.
    { unfold search_start. cbn [s_dy]. rewrite prec_fin. cbn [nofZ NumXR nmul xmul nabs xabs nltb xltb].
      apply Rltb_lt. unfold prec. rewrite Rabs_pos_eq; lra. }
    cbn [orb]. unfold search_step. cbn [search_start s_y]. change (@c0 XR _) with (Fin 0).
    destruct (chief_ray e o ps z d 0 Hc HF HS) as (H & _). rewrite (H HB). reflexivity. }
  split; auto. unfold halfFieldOfView. now rewrite F.
Qed.

(** either the four calls return, or the field ends below 3.75e-5 and none of them returns *)
Theorem search_outcomes (e : @elem XR) o ps z : aimed e o ps z -> z <> 0 ->
  (exists n f v, forall fuel, (n <= fuel)%nat ->
     fieldStop fuel e = Ok f /\ halfFieldOfView fuel e = Ok v /\
     (exists x, fieldOfView fuel e = Ok x) /\ (exists r, principalRay fuel e = Ok r)) \/
  (exists h, 0 < h < 3 / 80000 /\ field_edge e h /\ forall fuel,
     fieldStop fuel e = Err OutOfFuel /\ halfFieldOfView fuel e = Err OutOfFuel).
Proof.
  intros Ha Hz.
  assert (no_field_edge e \/ (exists h, field_edge e h /\ tried 42 <= h) ->
    exists n f v, forall fuel, (n <= fuel)%nat ->
     fieldStop fuel e = Ok f /\ halfFieldOfView fuel e = Ok v /\
     (exists x, fieldOfView fuel e = Ok x) /\ (exists r, principalRay fuel e = Ok r)) as HU.
  { intros H. destruct (field_unlimited e o ps z Ha Hz H) as (n & Hn).
    exists n, (mkStop None (Some PInf)), PInf. intros fuel Hf. destruct (Hn fuel Hf) as [H1 H2].
    split; auto. split; auto. unfold fieldOfView, principalRay. rewrite H2. cbn [bind].
    split; eexists; reflexivity. }
  destruct (field_has_edge e o ps z Ha) as [H|(h & Hh & He)]; [left; auto|].
  destruct (Rlt_dec h (3/80000)) as [L|L].
  - right. exists h. split; auto. split; auto. intros fuel. apply (field_too_small e o ps z Ha Hz h); auto.
  - left. destruct (Rlt_dec h (tried 42)) as [L'|L']; [|apply HU; right; exists h; split; auto; lra].
    destruct (field_stop_found e o ps z Ha Hz h He ltac:(lra)) as (n1 & v1 & _ & H1).
    destruct (half_field_found e o ps z Ha Hz h He ltac:(lra)) as (n2 & v2 & _ & H2).
    destruct (principal_ray_found e o ps z Ha Hz h He ltac:(lra)) as (n3 & v3 & _ & H3).
    exists (n1 + n2 + n3)%nat, (mkStop (Some (rz (traceThrough e (chief ps z v1)))) (Some (rdiam (traceThrough e (chief ps z v1))))), (Fin v2).
    intros fuel Hf. rewrite H1, H2 by lia. destruct (H3 fuel ltac:(lia)) as (E1 & E2 & _).
    split; auto. split; auto. rewrite E1, E2. split; eexists; reflexivity.
Qed.
