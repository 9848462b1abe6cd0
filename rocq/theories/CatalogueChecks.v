(** Focal lengths of the 328 lens classes, by interval arithmetic checked by the kernel: at the reference
    wavelength, over the visible, and from 0.35 to 2.5 microns. *)
From Coq Require Import ZArith Reals Lra Lia List Bool String.
From Verif Require Import Base Nums Optics Spec MatrixProofs Materials MaterialsProofs DispersionProofs Zemax
  Catalogue Interval LensProofs CatalogueProofs CatalogueLens.
Import ListNotations.
Open Scope list_scope.
Open Scope R_scope.

Fixpoint steps (n : nat) (m st : Z) : list Z :=
  match n with O => [] | S n => m :: steps n (m + st)%Z st end.

(** ** At the reference wavelength *)
Definition ref_of (c : dlens) : Z * Z := match reference c with Some p => p | None => (1, 0)%Z end.
Definition at_ref (c : dlens) : itv * itv :=
  match ixs c with
  | Some is => let r := row is (ref_of c) in elI (ktI c) (map2 box r r)
  | None => (Bad, Bad)
  end.
Definition ref_range (c : dlens) : bool :=
  match reference c with Some p => above (idec p) (3, 1)%Z && below (idec p) (5, 0)%Z | None => true end.
(** f / design, and back focal length / fb *)
Definition backI (i : itv * itv) (fb : Z * Z) : itv := idiv (iopp (fst i)) (imul (snd i) (idec fb)).
Definition near1 (i : itv) : bool := (above i (99, 2)%Z && below i (101, 2)%Z)%bool.
Definition far1 (i : itv) : bool := (below i (99, 2)%Z || above i (101, 2)%Z)%bool.

Lemma near1_ok x y i : y <> 0 -> inI (x / y) i -> near1 i = true -> ~ far_off x y.
Proof.
  intros Hy H K. apply andb_true_iff in K as [K1 K2]. apply (above_ok _ _ _ H) in K1. apply (below_ok _ _ _ H) in K2.
  unfold litR in *. cbn [fst snd] in *. change (10 ^ 2)%Z with 100%Z in *. unfold far_off.
  replace (x - y) with ((x / y - 1) * y) by (field; auto). rewrite Rabs_mult.
  assert (Rabs (x / y - 1) <= 1/100) by (apply Rabs_le; lra). pose proof (Rabs_pos y). nra.
Qed.
Lemma far1_ok x y i : y <> 0 -> inI (x / y) i -> far1 i = true -> far_off x y.
Proof.
  intros Hy H K. unfold far_off. replace (x - y) with ((x / y - 1) * y) by (field; auto). rewrite Rabs_mult.
  pose proof (Rabs_pos_lt y Hy). enough (Rabs (x / y - 1) > 1/100) by nra.
  apply orb_true_iff in K as [K|K]; [apply (below_ok _ _ _ H) in K|apply (above_ok _ _ _ H) in K];
    unfold litR in *; cbn [fst snd] in *; change (10 ^ 2)%Z with 100%Z in *.
  - rewrite Rabs_left1; lra.
  - rewrite Rabs_pos_eq; lra.
Qed.

Local Open Scope string_scope.
(** classes whose focal length, whose back focal length at the reference wavelength is more than 1 % away from
    the one given in the class *)
Definition off_focal : list string :=
  ["AC050_008_A"; "AC080_010_A"; "AC254_050_AB"; "AC254_075_AB"; "AC508_080_AB"; "AC508_180_AB";
   "AC508_300_AB"; "AC080_030_B"; "AC254_030_B"; "AC508_075_B"; "ACT508_400_B"; "ACT508_500_B";
   "ACT508_1000_B"; "AC020_004_C"; "AC050_008_C"; "AC050_010_C"; "AC050_015_C"; "AC060_010_C"; "AC064_013_C";
   "AC064_015_C"; "AC080_010_C"; "AC080_016_C"; "AC080_020_C"; "AC080_030_C"; "AC127_019_C"; "AC127_025_C";
   "AC127_030_C"; "AC127_050_C"; "AC127_075_C"; "AC254_030_C"; "AC254_035_C"; "AC254_040_C"; "AC254_045_C";
   "AC254_050_C"; "AC254_060_C"; "AC254_075_C"; "AC254_100_C"; "AC254_125_C"; "AC254_150_C"; "AC254_200_C";
   "AC254_250_C"; "AC254_300_C"; "AC254_400_C"; "AC254_500_C"; "AC300_050_C"; "AC300_080_C"; "AC300_100_C";
   "AC508_075_C"; "AC508_080_C"; "AC508_100_C"; "AC508_150_C"; "AC508_200_C"; "ACT508_250_C"; "ACT508_300_C";
   "ACT508_400_C"; "AC508_500_C"; "AC508_750_C"; "AC508_1000_C"; "AC050_008_A_ML"; "AC080_010_A_ML";
   "AC127_050_AB_ML"; "AC127_075_AB_ML"; "AC254_050_AB_ML"; "AC254_075_AB_ML"; "AC508_080_AB_ML";
   "AC508_180_AB_ML"; "AC508_300_AB_ML"; "AC080_030_B_ML"; "AC254_030_B_ML"; "AC508_075_B_ML";
   "ACT508_400_B_ML"; "ACT508_500_B_ML"; "ACT508_1000_B_ML"; "AC050_015_C_ML"; "AC080_010_C_ML";
   "AC080_016_C_ML"; "AC080_020_C_ML"; "AC080_030_C_ML"; "AC127_019_C_ML"; "AC127_050_C_ML";
   "AC127_075_C_ML"; "AC254_060_C_ML"; "AC254_075_C_ML"; "AC254_100_C_ML"; "AC254_150_C_ML";
   "AC254_200_C_ML"; "AC254_250_C_ML"; "AC254_300_C_ML"; "AC254_400_C_ML"; "AC254_500_C_ML";
   "AC508_150_C_ML"; "AC508_200_C_ML"; "ACT508_250_C_ML"; "ACT508_300_C_ML"; "ACT508_400_C_ML";
   "AC508_1000_C_ML"].
Definition off_back : list string :=
  ["AC020_004_A"; "AC050_008_A"; "AC254_030_A"; "AC254_050_AB"; "AC254_075_AB"; "AC508_080_AB";
   "AC508_180_AB"; "AC508_300_AB"; "AC050_010_B"; "AC080_030_B"; "ACT508_400_B"; "ACT508_500_B";
   "ACT508_1000_B"; "AC020_004_C"; "AC050_008_C"; "AC050_010_C"; "AC050_015_C"; "AC060_010_C"; "AC064_013_C";
   "AC064_015_C"; "AC080_010_C"; "AC080_016_C"; "AC080_020_C"; "AC080_030_C"; "AC127_019_C"; "AC127_025_C";
   "AC127_030_C"; "AC127_050_C"; "AC127_075_C"; "AC254_030_C"; "AC254_035_C"; "AC254_040_C"; "AC254_045_C";
   "AC254_050_C"; "AC254_060_C"; "AC254_075_C"; "AC254_100_C"; "AC254_125_C"; "AC254_150_C"; "AC254_200_C";
   "AC254_250_C"; "AC254_300_C"; "AC254_400_C"; "AC254_500_C"; "AC300_050_C"; "AC300_080_C"; "AC300_100_C";
   "AC508_075_C"; "AC508_080_C"; "AC508_100_C"; "AC508_150_C"; "AC508_200_C"; "ACT508_250_C"; "ACT508_300_C";
   "ACT508_400_C"; "AC508_500_C"; "AC508_750_C"; "AC508_1000_C"; "AC050_008_A_ML"; "AC254_030_A_ML";
   "AC127_050_AB_ML"; "AC127_075_AB_ML"; "AC254_050_AB_ML"; "AC254_075_AB_ML"; "AC508_080_AB_ML";
   "AC508_180_AB_ML"; "AC508_300_AB_ML"; "AC050_010_B_ML"; "AC080_030_B_ML"; "ACT508_400_B_ML";
   "ACT508_500_B_ML"; "ACT508_1000_B_ML"; "AC050_015_C_ML"; "AC080_010_C_ML"; "AC080_020_C_ML";
   "AC080_030_C_ML"; "AC127_019_C_ML"; "AC127_050_C_ML"; "AC127_075_C_ML"; "AC254_030_C_ML";
   "AC254_035_C_ML"; "AC254_060_C_ML"; "AC254_075_C_ML"; "AC254_100_C_ML"; "AC254_150_C_ML";
   "AC254_200_C_ML"; "AC254_250_C_ML"; "AC254_300_C_ML"; "AC254_400_C_ML"; "AC254_500_C_ML";
   "AC508_075_C_ML"; "AC508_080_C_ML"; "AC508_150_C_ML"; "AC508_200_C_ML"; "ACT508_250_C_ML";
   "ACT508_300_C_ML"; "ACT508_400_C_ML"].
Local Close Scope string_scope.
Definition memb (n : string) (l : list string) : bool := existsb (String.eqb n) l.
Lemma memb_In n l : memb n l = true <-> In n l.
Proof.
  unfold memb. rewrite existsb_exists. split.
  - intros (x & H & E). apply String.eqb_eq in E. now subst.
  - intros H. exists n. split; auto. apply String.eqb_refl.
Qed.
Definition ref_check (p : string * dlens) : bool :=
  let c := snd p in
  let i := at_ref c in
  let f := ratioI (snd i) (design c) in
  let b := backI i (back c) in
  (readyb c && ref_range c && strong (snd i) && (if memb (fst p) off_focal then far1 f else near1 f) &&
   (if memb (fst p) off_back then far1 b else near1 b))%bool.
Lemma ref_checked : forallb ref_check lens_data = true.
Proof. vm_compute. reflexivity. Qed.

(** ** What the statements speak about *)
Definition focal (b : built XR) (f : R) : Prop := effectiveFocalLengths (emat (b_elem b)) = Ok (Fin f, Fin f).
Definition back_focal (b : built XR) (x : R) : Prop := backFocalLength (emat (b_elem b)) = Ok (Some (Fin x)).
(** the thicknesses given in the class *)
Definition thickness {M} (c : lens_class XR M) : XR :=
  match c with LDoubletD d _ => nadd (d_tc1 d) (d_tc2 d) | LSingletD s _ => s_tc s end.
(** a lens in air of length L and diameter D *)
Definition in_air (b : built XR) (L D : XR) : Prop :=
  let m := emat (b_elem b) in
  mL m = L /\ mfi m = Fin 1 /\ mbi m = Fin 1 /\ mdiam m = D /\ largestDiameter (b_elem b) = D /\
  determinant m = Fin 1.

Lemma lens_in name c : In (name, c) (@lenses XR _) -> exists d, In (name, d) lens_data /\ c = resolved d.
Proof.
  unfold lenses. rewrite in_map_iff. intros ([n d] & E & H). injection E as <- <-. now exists d.
Qed.
Lemma ready_fields d : readyb d = true ->
  design (resolved d) = Fin (litR (design d)) /\ litR (design d) <> 0 /\
  back (resolved d) = Fin (litR (back d)) /\ litR (back d) <> 0 /\
  diameter (resolved d) = Fin (litR (diameter d)) /\ thickness (resolved d) = Fin (lengthR d).
Proof.
  destruct d as [d t|s t]; cbn [readyb]; rewrite !andb_true_iff;
    cbn [resolved resolve_class design back diameter thickness d_fa d_fb d_diam d_tc1 d_tc2 s_f s_fb s_diam s_tc lengthR].
  - intros (((((((((((((P1 & P2) & P3) & P4) & P5) & P6) & Q1) & Q2) & Q3) & F1) & F3) & N1) & N2) & N3).
    destruct (posb_ok _ P1) as [_ ->]. destruct (posb_ok _ P2) as [_ ->].
    destruct (posb_ok _ P3) as [_ ->]. destruct (nzb_ok _ P4) as [Z4 ->].
    destruct (nzb_ok _ P5) as [Z5 ->]. tauto.
  - intros ((((((((((P1 & P3) & P4) & P5) & P6) & Q1) & Q2) & F1) & F3) & N1) & N2).
    destruct (posb_ok _ P1) as [_ ->]. destruct (posb_ok _ P3) as [_ ->]. destruct (nzb_ok _ P4) as [Z4 ->].
    destruct (nzb_ok _ P5) as [Z5 ->]. tauto.
Qed.
Lemma is_built_in_air d wl b A C : readyb d = true -> is_built d wl b A C ->
  in_air b (thickness (resolved d)) (diameter (resolved d)).
Proof.
  intros Hr (_ & (B & D & EA & EB & EC & ED & Hd & EL & E1 & E2 & _ & _ & E5 & E6) & _).
  destruct (ready_fields d Hr) as (_ & _ & _ & _ & -> & ->). unfold in_air. cbv zeta.
  rewrite EL, E1, E2, E5, E6. unfold determinant. rewrite EA, EB, EC, ED.
  do 5 (split; [reflexivity|]). unfold det_of. cbn.
  destruct (Reqb C 0) eqn:E; apply (f_equal Fin); [|lra]. apply Reqb_true in E. subst C. lra.
Qed.
Lemma is_built_back d wl b A C : is_built d wl b A C -> 1/100000 < Rabs C -> back_focal b (- A / C).
Proof. intros (_ & H & _) HC. exact (air_lens_bfl _ _ _ _ _ H HC). Qed.

(** ** The reference wavelength *)
Lemma at_ref_ok c is : readyb c = true -> ref_range c = true -> ixs c = Some is ->
  let w := litR (ref_of c) in
  sees c None w /\ 28/100 <= w <= 7 /\
  inI (elA (surfs_at c is w)) (fst (at_ref c)) /\ inI (elC (surfs_at c is w)) (snd (at_ref c)).
Proof.
  intros Hr Hf Hi w.
  assert (Hw : 28/100 <= w <= 7).
  { unfold w, ref_of, ref_range in *. destruct (reference c) as [p|].
    - apply andb_true_iff in Hf as [H1 H2]. apply (above_ok _ _ _ (idec_ok p)) in H1.
      apply (below_ok _ _ _ (idec_ok p)) in H2. unfold litR in *. cbn [fst snd] in *.
      change (10 ^ 1)%Z with 10%Z in *. change (10 ^ 0)%Z with 1%Z in *. lra.
    - unfold litR. cbn [fst snd]. change (10 ^ 0)%Z with 1%Z. lra. }
  split; [|split; [exact Hw|]].
  { unfold sees, w, ref_of. destruct (reference c); auto. }
  unfold at_ref. rewrite Hi. apply elI_ok. apply boxes_ok; [now apply (known_ixs c)| | | |]; fold w; lra.
Qed.
Lemma backI_ok a c ia ic f : inI a ia -> inI c ic -> c <> 0 -> litR f <> 0 ->
  inI (- a / c / litR f) (backI (ia, ic) f).
Proof.
  intros H1 H2 Hc Hf. replace (- a / c / litR f) with (- a / (c * litR f)) by (field; auto).
  apply idiv_ok; [now apply iopp_ok|]. apply imul_ok; auto. apply idec_ok.
Qed.

Theorem catalogue_at_reference name c : In (name, c) (@lenses XR _) ->
  exists b f x f0 x0, construct c None = Ok b /\ focal b f /\ back_focal b x /\
    design c = Fin f0 /\ back c = Fin x0 /\ b_design b = Fin f0 /\
    (In name off_focal <-> far_off f f0) /\ (In name off_back <-> far_off x x0) /\
    (In WFocal (b_warn b) <-> far_off f f0) /\ (In WBack (b_warn b) <-> far_off x x0) /\
    ~ In WThickness (b_warn b) /\ in_air b (thickness c) (diameter c).
Proof.
  intros H. apply lens_in in H as (d & H & ->).
  pose proof (proj1 (forallb_forall _ _) ref_checked _ H) as K. unfold ref_check in K.
  cbn [fst snd] in K. rewrite !andb_true_iff in K. destruct K as ((((Kr & Kf) & Ks) & K1) & K2).
  destruct (ixs d) as [is|] eqn:Ei.
  2: { unfold at_ref in Ks. rewrite Ei in Ks. discriminate Ks. }
  destruct (at_ref_ok d is Kr Kf Ei) as (Hs & Hw & HA & HC). set (w := litR (ref_of d)) in *.
  pose proof (strong_ok _ _ HC Ks) as HC1.
  assert (HC0 : elC (surfs_at d is w) <> 0) by (intros E; rewrite E, Rabs_R0 in HC1; lra).
  destruct (construct_ok d is None w Kr Ei Hs Hw HC1) as (b & Hb).
  destruct (ready_fields d Kr) as (E1 & N1 & E2 & N2 & _ & _).
  pose proof (is_built_back _ _ _ _ _ Hb HC1) as Hbk. pose proof (is_built_in_air _ _ _ _ _ Kr Hb) as Hair.
  destruct Hb as (Hc & Hair' & Hd & W1 & W2 & W3). pose proof (air_lens_efl _ _ _ _ _ Hair' HC1) as Hf.
  exists b, (- 1 / elC (surfs_at d is w)), (- elA (surfs_at d is w) / elC (surfs_at d is w)),
    (litR (design d)), (litR (back d)).
  pose proof (ratioI_ok _ _ (design d) HC HC0 N1) as I1.
  pose proof (backI_ok _ _ _ _ (back d) HA HC HC0 N2) as I2. rewrite <- surjective_pairing in I2.
  rewrite E1, E2. do 6 (split; [assumption || reflexivity|]).
  split; [|split; [|split; [exact W2|split; [exact W3|split; [exact W1|exact Hair]]]]].
  - destruct (memb name off_focal) eqn:M.
    + apply memb_In in M. pose proof (far1_ok _ _ _ N1 I1 K1). tauto.
    + pose proof (near1_ok _ _ _ N1 I1 K1). rewrite <- memb_In, M. intuition discriminate.
  - destruct (memb name off_back) eqn:M.
    + apply memb_In in M. pose proof (far1_ok _ _ _ N2 I2 K2). tauto.
    + pose proof (near1_ok _ _ _ N2 I2 K2). rewrite <- memb_In, M. intuition discriminate.
Qed.

(** ** From 0.35 to 2.5 microns *)
Definition wide : list Z := [375; 410; 470; 600; 900; 1600; 2500]%Z.
Definition wide_grid : list (Z * Z) := in_units 3 (350%Z :: wide).
Definition wide_check (t : list (string * list itv)) (p : string * dlens) : bool :=
  (readyb (snd p) && strong (rangeC t wide_grid (snd p)))%bool.
Lemma wide_checked : forallb (wide_check (table wide_grid)) lens_data = true.
Proof. vm_compute. reflexivity. Qed.

Definition has_ixs : bool := forallb (fun p => match ixs (snd p) with Some _ => true | None => false end) lens_data.
Lemma has_ixs_ok name d : In (name, d) lens_data -> exists is, ixs d = Some is.
Proof.
  intros H. assert (K : has_ixs = true) by (vm_compute; reflexivity). unfold has_ixs in K.
  rewrite forallb_forall in K. specialize (K _ H). cbn [snd] in K. destruct (ixs d); [eauto|discriminate].
Qed.

Lemma wide_strong name d : In (name, d) lens_data -> readyb d = true /\
  strong (rangeC (table wide_grid) wide_grid d) = true.
Proof.
  intros H. pose proof (proj1 (forallb_forall _ _) wide_checked _ H) as K. apply andb_true_iff in K. exact K.
Qed.
Lemma wide_inI name d is w : In (name, d) lens_data -> ixs d = Some is -> 35/100 <= w <= 5/2 ->
  inI (elC (surfs_at d is w)) (rangeC (table wide_grid) wide_grid d).
Proof.
  intros H Ei Hw. destruct (wide_strong _ _ H) as [Kr _].
  assert (L1 : litR (350, 3)%Z = 35/100) by (unfold litR; cbn [fst snd]; change (10 ^ 3)%Z with 1000%Z; lra).
  assert (L2 : litR (2500, 3)%Z = 5/2) by (unfold litR; cbn [fst snd]; change (10 ^ 3)%Z with 1000%Z; lra).
  assert (L3 : last wide 350%Z = 2500%Z) by reflexivity.
  apply (rangeC_ok 3 350 wide d is w); auto; try lia; rewrite ?L3, ?L1, ?L2; lra.
Qed.
Theorem catalogue_wide name c w : In (name, c) (@lenses XR _) -> takes c = true -> 35/100 <= w <= 5/2 ->
  exists b f x f0 x0, construct c (Some (Fin w)) = Ok b /\ focal b f /\ f <> 0 /\ back_focal b x /\
    design c = Fin f0 /\ back c = Fin x0 /\ b_design b = Fin f0 /\
    (In WFocal (b_warn b) <-> far_off f f0) /\ (In WBack (b_warn b) <-> far_off x x0) /\
    ~ In WThickness (b_warn b) /\ in_air b (thickness c) (diameter c).
Proof.
  intros H Ht Hw. apply lens_in in H as (d & H & ->).
  destruct (wide_strong _ _ H) as [Kr Ks].
  destruct (has_ixs_ok _ _ H) as (is & Ei).
  assert (Hs : sees d (Some w) w).
  { split; [|reflexivity]. destruct d; exact Ht. }
  pose proof (wide_inI _ _ _ _ H Ei Hw) as HI.
  pose proof (strong_ok _ _ HI Ks) as HC1.
  assert (HC0 : elC (surfs_at d is w) <> 0) by (intros E; rewrite E, Rabs_R0 in HC1; lra).
  destruct (construct_ok d is (Some w) w Kr Ei Hs ltac:(lra) HC1) as (b & Hb).
  destruct (ready_fields d Kr) as (E1 & N1 & E2 & N2 & _ & _).
  pose proof (is_built_back _ _ _ _ _ Hb HC1) as Hbk. pose proof (is_built_in_air _ _ _ _ _ Kr Hb) as Hair.
  destruct Hb as (Hc & Hair' & Hd & W1 & W2 & W3). pose proof (air_lens_efl _ _ _ _ _ Hair' HC1) as Hf.
  exists b, (- 1 / elC (surfs_at d is w)), (- elA (surfs_at d is w) / elC (surfs_at d is w)),
    (litR (design d)), (litR (back d)).
  rewrite E1, E2. split; [exact Hc|]. split; [exact Hf|].
  split; [unfold Rdiv; apply Rmult_integral_contrapositive_currified; [lra|now apply Rinv_neq_0_compat]|].
  do 4 (split; [assumption || reflexivity|]). do 3 (split; [assumption|]). exact Hair.
Qed.
