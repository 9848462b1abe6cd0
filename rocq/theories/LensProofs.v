(** The lenses of specialtylenses.py as they are built: the ray matrix behind them, the focal lengths and
    the warnings (C73, C74). *)
From Coq Require Import ZArith Reals Lra Lia List Bool String.
From Verif Require Import Base Nums Optics Spec MatrixProofs ElementProofs GroupProofs TraceProofs RayProofs
  CardinalProofs ConstructorProofs Materials MaterialsProofs Zemax Catalogue.
Import ListNotations.
Open Scope list_scope.
Open Scope R_scope.

(** ** Paraxial tracing surface by surface *)
(** a surface: curvature, index after it, distance to the next one.  The ray has height [y] and reduced
    angle [a] (index times angle) in a medium of index [n0]. *)
Fixpoint surf_trace (y a n0 : R) (l : list (R * R * R)) : R * R :=
  match l with
  | [] => (y, a)
  | (c, n, t) :: r => let a' := a - (n - n0) * c * y in surf_trace (y + t / n * a') a' n r
  end.
Definition doublet_surfs (k1 k2 k3 t1 t2 n1 n2 : R) : list (R * R * R) :=
  [(k1, n1, t1); (k2, n2, t2); (k3, 1, 0)].
Definition singlet_surfs (k1 k2 t n : R) : list (R * R * R) := [(k1, n, t); (k2, 1, 0)].
(** matrix elements A and C for a ray that arrives parallel to the axis at height 1 *)
Definition elA l : R := fst (surf_trace 1 0 1 l).
Definition elC l : R := snd (surf_trace 1 0 1 l).

Lemma not_mid o : C_ (oM o) <> 0 -> oM o <> mid.
Proof. intros H E. rewrite E in H. now apply H. Qed.
Lemma tracks_describes m o : tracks m o -> C_ (oM o) <> 0 -> describes m o.
Proof. intros [D|[E _]] H; auto. exfalso. now apply (not_mid o H). Qed.

(** a lens with air on both sides, vertices at its ends *)
Definition air_lens (e : @elem XR) (L A C diam : R) : Prop :=
  exists B D, mA (emat e) = Fin A /\ mB (emat e) = Fin B /\ mC (emat e) = Fin C /\ mD (emat e) = Fin D /\
    A * D - B * C = 1 /\ mL (emat e) = Fin L /\ mfi (emat e) = Fin 1 /\ mbi (emat e) = Fin 1 /\
    mfv (emat e) = Some (Fin 0) /\ mbv (emat e) = Some (Fin L) /\ mdiam (emat e) = Fin diam /\
    largestDiameter e = Fin diam.

Lemma doublet_matrix r1 r2 r3 t1 t2 n1 n2 diam : n1 <> 0 -> n2 <> 0 ->
  radius_ok r1 -> radius_ok r2 -> radius_ok r3 -> 0 < diam ->
  let l := doublet_surfs (curv r1) (curv r2) (curv r3) t1 t2 n1 n2 in
  elC l <> 0 ->
  exists e, AchromatDoublet r1 r2 r3 (Fin t1) (Fin t2) (Fin n1) (Fin n2) (Fin diam) = Ok e /\
    air_lens e (t1 + t2) (elA l) (elC l) diam.
Proof.
  intros H1 H2 K1 K2 K3 Hd l HC. unfold AchromatDoublet. change (@c1 XR _) with (Fin 1).
  rewrite !DielectricInterface_ok by (auto; lra). cbn [bind].
  rewrite !Space_ok by (cbn; auto). cbn [bind]. unfold CompoundLens.
  match goal with |- context [MatrixGroup_new ?l ?s] =>
    destruct (MatrixGroup_new_ok l [o_interface 1 n1 r1; o_space t1 n1; o_interface n1 n2 r2; o_space t2 n2;
                                    o_interface n2 1 r3] s)
      as (g & G1 & G2 & G3 & G4 & G5 & G6 & G7) end.
  { repeat constructor. }
  { cbn. repeat split; auto; cbn; try lra; try (unfold mdet; cbn; field; auto). }
  { discriminate. }
  rewrite G1. cbn [bind]. eexists. split; [reflexivity|].
  specialize (G7 _ _ eq_refl). set (o := path_optic _ _) in G7.
  assert (EA : A_ (oM o) = elA l) by (cbn; field; auto).
  assert (EC : C_ (oM o) = elC l) by (cbn; field; auto).
  assert (ED : mdet (oM o) = 1) by (cbn; unfold mdet; cbn; field; auto).
  apply tracks_describes in G7; [|rewrite EC; exact HC].
  exists (B_ (oM o)), (D_ (oM o)). cbn [emat set_diam mA mB mC mD mL mfv mbv mfi mbi mdiam].
  unfold mdet in ED. rewrite EA, EC in ED. dsc G7. rewrite EA, EC.
  do 4 (split; [reflexivity|]). split; [exact ED|].
  split; [cbn; f_equal; ring|]. do 2 (split; [reflexivity|]).
  split; [reflexivity|]. split; [cbn; do 2 f_equal; ring|]. split; [reflexivity|].
  cbn [largestDiameter]. rewrite G2. cbn.
  rewrite !(proj2 (Rltb_true 0 diam)) by auto. cbn.
  repeat (rewrite (Rltb_ge diam diam) by lra; cbn). reflexivity.
Qed.

Lemma singlet_matrix r1 r2 t n diam : n <> 0 -> radius_ok r1 -> radius_ok r2 -> 0 < diam ->
  let l := singlet_surfs (curv r1) (curv r2) t n in
  elC l <> 0 ->
  exists e, SingletLens r1 r2 (Fin t) (Fin n) (Fin diam) = Ok e /\ air_lens e t (elA l) (elC l) diam.
Proof.
  intros H1 K1 K2 Hd l HC. unfold SingletLens. change (@c1 XR _) with (Fin 1).
  rewrite !DielectricInterface_ok by (auto; lra). cbn [bind].
  rewrite !Space_ok by (cbn; auto). cbn [bind]. unfold CompoundLens.
  match goal with |- context [MatrixGroup_new ?l ?s] =>
    destruct (MatrixGroup_new_ok l [o_interface 1 n r1; o_space t n; o_interface n 1 r2] s)
      as (g & G1 & G2 & G3 & G4 & G5 & G6 & G7) end.
  { repeat constructor. }
  { cbn. repeat split; auto; cbn; try lra; try (unfold mdet; cbn; field; auto). }
  { discriminate. }
  rewrite G1. cbn [bind]. eexists. split; [reflexivity|].
  specialize (G7 _ _ eq_refl). set (o := path_optic _ _) in G7.
  assert (EA : A_ (oM o) = elA l) by (cbn; field; auto).
  assert (EC : C_ (oM o) = elC l) by (cbn; field; auto).
  assert (ED : mdet (oM o) = 1) by (cbn; unfold mdet; cbn; field; auto).
  apply tracks_describes in G7; [|rewrite EC; exact HC].
  exists (B_ (oM o)), (D_ (oM o)). cbn [emat set_diam mA mB mC mD mL mfv mbv mfi mbi mdiam].
  unfold mdet in ED. rewrite EA, EC in ED. dsc G7. rewrite EA, EC.
  do 4 (split; [reflexivity|]). split; [exact ED|].
  split; [cbn; f_equal; ring|]. do 2 (split; [reflexivity|]).
  split; [reflexivity|]. split; [cbn; do 2 f_equal; ring|]. split; [reflexivity|].
  cbn [largestDiameter]. rewrite G2. cbn.
  rewrite !(proj2 (Rltb_true 0 diam)) by auto. cbn.
  repeat (rewrite (Rltb_ge diam diam) by lra; cbn). reflexivity.
Qed.

(** ** Focal lengths and warnings *)
Lemma air_lens_hasPower e L A C diam : air_lens e L A C diam -> 1/100000 < Rabs C -> hasPower (emat e) = true.
Proof.
  intros (B & D & EA & EB & EC & _) H. unfold hasPower, isNotZero, eps5. rewrite EC, ndec_xr by lia. cbn.
  apply Rltb_true. exact H.
Qed.
Lemma air_lens_efl e L A C diam : air_lens e L A C diam -> 1/100000 < Rabs C ->
  effectiveFocalLengths (emat e) = Ok (Fin (- 1 / C), Fin (- 1 / C)).
Proof.
  intros H HC. pose proof (air_lens_hasPower _ _ _ _ _ H HC) as HP.
  destruct H as (B & D & EA & EB & EC & ED & Hd & EL & E1 & E2 & E3 & E4 & E5 & E6).
  assert (C <> 0) by (intros ->; rewrite Rabs_R0 in HC; lra).
  unfold effectiveFocalLengths. rewrite HP, EC, E1, E2. change (@c1 XR _) with (Fin 1). cbn [nopp NumXR xopp].
  rewrite (pdiv_fin (-(1)) C) by auto. cbn [bind]. rewrite pdiv_fin by lra. cbn [bind xopp].
  rewrite pdiv_fin by auto. cbn [bind]. do 3 f_equal; field; auto.
Qed.
Lemma air_lens_bfl e L A C diam : air_lens e L A C diam -> 1/100000 < Rabs C ->
  backFocalLength (emat e) = Ok (Some (Fin (- A / C))).
Proof.
  intros H HC. pose proof (air_lens_hasPower _ _ _ _ _ H HC) as HP. pose proof (air_lens_efl _ _ _ _ _ H HC) as HF.
  destruct H as (B & D & EA & EB & EC & ED & Hd & EL & E1 & E2 & E3 & E4 & E5 & E6).
  assert (C <> 0) by (intros ->; rewrite Rabs_R0 in HC; lra).
  unfold backFocalLength. rewrite E4, HP, HF. cbn [bind snd].
  unfold principalPlanePositions. rewrite HP, EC, E1, E2, EA, ED, EL.
  change (@c1 XR _) with (Fin 1). change (@c0 XR _) with (Fin 0).
  rewrite pdiv_fin by lra. cbn [bind nsub NumXR xsub xadd xopp].
  rewrite !pdiv_fin by auto. cbn [bind xadd nadd NumXR nsub xsub xopp].
  apply (f_equal (fun x => Ok (Some (Fin x)))). field. auto.
Qed.

(** a surface that a lens of this diameter can have *)
Definition fits (r : XR) (diam : R) : Prop := match r with Fin x => diam / 2 <= Rabs x | PInf => True | _ => False end.
Lemma corner_ok v r diam : radius_ok r -> fits r diam -> 0 < diam ->
  exists k, corner (Some (Fin v)) r (Fin (diam / 2)) = Ok k.
Proof.
  intros Hr Hf Hd. unfold corner. destruct r as [x| | |]; cbn in Hf; try contradiction.
  - cbn [nabs NumXR xabs]. pose proof (Rabs_pos_lt x Hr). rewrite pdiv_fin by lra. cbn [bind].
    unfold cos_asin. cbn.
    assert (K : Rabs (diam / 2 / Rabs x) <= 1).
    { rewrite Rabs_pos_eq.
      - apply (Rmult_le_reg_r (Rabs x)); [auto|]. unfold Rdiv at 1. rewrite Rmult_assoc, Rinv_l; lra.
      - apply Rmult_le_pos; [lra|left; now apply Rinv_0_lt_compat]. }
    rewrite (Rltb_ge 1) by exact K. eexists; reflexivity.
  - cbn [nabs NumXR xabs]. cbn. unfold cos_asin. cbn. rewrite Rabs_R0, Rltb_ge by lra. eexists; reflexivity.
Qed.

Definition far_off (x y : R) : Prop := Rabs (x - y) > 1/100 * Rabs y.
Lemma off_by_1pct_ok x y : y <> 0 -> exists b, off_by_1pct (Fin x) (Fin y) = Ok b /\ (b = true <-> far_off x y).
Proof.
  intros H. unfold off_by_1pct. cbn [nsub NumXR xsub xadd xopp]. rewrite pdiv_fin by auto. cbn [bind].
  eexists. split; [reflexivity|]. rewrite ndec_xr by lia. cbn [nltb nabs NumXR xltb xabs].
  rewrite Rltb_true. unfold far_off. change (10 ^ 2)%Z with 100%Z.
  pose proof (Rabs_pos_lt y H). unfold Rdiv at 2. rewrite Rabs_mult, Rabs_inv.
  replace (x + - y) with (x - y) by ring.
  assert (E : Rabs (x - y) = Rabs (x - y) * / Rabs y * Rabs y) by (field; lra).
  set (q := Rabs (x - y) * / Rabs y) in *. split; intros K.
  - rewrite E. nra.
  - rewrite E in K. nra.
Qed.

Definition In_iff (w : warning) (l : list warning) (P : Prop) : Prop := In w l <-> P.
Lemma verify_ok e tw L A C diam f fb r1 r3 te : air_lens e L A C diam -> 1/100000 < Rabs C ->
  0 < L -> f <> 0 -> fb <> 0 -> te <> 0 -> 0 < diam ->
  radius_ok r1 -> radius_ok r3 -> fits r1 diam -> fits r3 diam ->
  exists ws, verify e tw (Fin L) (Fin f) (Fin fb) r1 r3 (Fin te) = Ok ws /\
    ~ In WThickness ws /\ (In WFocal ws <-> far_off (- 1 / C) f) /\ (In WBack ws <-> far_off (- A / C) fb).
Proof.
  intros H HC HL Hf Hfb Hte Hd R1 R3 F1 F3. unfold verify. 
  rewrite (air_lens_efl _ _ _ _ _ H HC), (air_lens_bfl _ _ _ _ _ H HC).
  destruct H as (B & D & EA & EB & EC & ED & Hdet & EL & E1 & E2 & E3 & E4 & E5 & E6).
  rewrite EL, E3, E4, E6. cbn [nsub NumXR xsub xadd xopp nabs xabs].
  replace (L + - L) with 0 by ring. rewrite Rabs_R0. rewrite pdiv_fin by lra. cbn [bind].
  rewrite !ndec_xr by lia. cbn [nltb NumXR xltb].
  rewrite (Rltb_ge (2 / IZR (10 ^ 2))).
  2:{ change (10 ^ 2)%Z with 100%Z. unfold Rdiv at 1. rewrite Rmult_0_l. lra. }
  cbn [bind snd].
  destruct (off_by_1pct_ok (- 1 / C) f Hf) as (b1 & -> & B1). cbn [bind].
  destruct (off_by_1pct_ok (- A / C) fb Hfb) as (b2 & -> & B2). cbn [bind].
  assert (Eh : ndiv (Fin diam) (@c2 XR _) = Fin (diam / 2)).
  { cbn. destruct (Req_EM_T 2 0); [lra|reflexivity]. }
  rewrite Eh.
  destruct (corner_ok 0 r1 diam R1 F1 Hd) as (k1 & ->). cbn [bind].
  destruct (corner_ok L r3 diam R3 F3 Hd) as (k3 & ->). cbn [bind].
  unfold pdiv. change (@c0 XR _) with (Fin 0). cbn [neqb NumXR xeqb]. rewrite Reqb_neq by auto. cbn [bind].
  eexists. split; [reflexivity|]. cbn [app].
  match goal with |- context [warn_if ?b WEdge] => generalize b end. intros b3.
  destruct b1, b2, b3; cbn; repeat match goal with |- _ /\ _ => split | |- _ <-> _ => split end; intros;
    intuition (try discriminate; auto).
Qed.
