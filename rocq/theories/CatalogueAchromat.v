(** The doublets of thorlabs.py are achromats over the band of their coating, its six singlets are not. *)
From Coq Require Import ZArith Reals Lra Lia List Bool String.
From Verif Require Import Base Nums Optics Spec MatrixProofs Materials MaterialsProofs DispersionProofs Zemax
  Catalogue Interval LensProofs CatalogueProofs CatalogueLens CatalogueChecks CatalogueBands.
Import ListNotations.
Open Scope list_scope.
Open Scope R_scope.

Lemma lit3 m : litR (m, 3%Z) = IZR m / 1000.
Proof. reflexivity. Qed.
Lemma in_band c f0 i : forall w1 w2 lo hi, lo <= w1 <= hi -> lo <= w2 <= hi ->
  (forall w, lo <= w <= hi -> exists f, focal_at c w f /\ inI (f / f0) i) ->
  exists f1 f2, focal_at c w1 f1 /\ focal_at c w2 f2 /\ inI (f1 / f0) i /\ inI (f2 / f0) i.
Proof.
  intros w1 w2 lo hi H1 H2 H. destruct (H w1 H1) as (f1 & A1 & B1). destruct (H w2 H2) as (f2 & A2 & B2).
  exists f1, f2. auto.
Qed.
Lemma narrow_shift f1 f2 f0 i p : f0 <> 0 -> inI (f1 / f0) i -> inI (f2 / f0) i -> narrow i p = true ->
  Rabs (f1 - f2) < litR p * Rabs f0.
Proof.
  intros H0 H1 H2 K. pose proof (narrow_ok _ _ _ _ H1 H2 K) as L. pose proof (Rabs_pos_lt _ H0).
  replace (f1 - f2) with ((f1 / f0 - f2 / f0) * f0) by (field; auto). rewrite Rabs_mult. nra.
Qed.

Theorem achromat_A name c w1 w2 : In (name, c) (@lenses XR _) -> coated coat_A name ->
  4/10 <= w1 <= 7/10 -> 4/10 <= w2 <= 7/10 ->
  exists f1 f2 f0, focal_at c w1 f1 /\ focal_at c w2 f2 /\ design c = Fin f0 /\ f0 <> 0 /\
    Rabs (f1 - f0) < 17/1000 * Rabs f0 /\ Rabs (f1 - f2) < 13/1000 * Rabs f0.
Proof.
  intros H Hn H1 H2.
  assert (L1 : litR (400, 3)%Z = 4/10) by (rewrite lit3; lra).
  assert (L2 : litR (700, 3)%Z = 7/10) by (rewrite lit3; lra).
  assert (L3 : last band_A 400%Z = 700%Z) by reflexivity.
  destruct (band_ok coat_A _ 3 400 band_A name c check_A) as (i & f0 & E & N & K & HI); auto; try lia;
    try (rewrite ?L3, ?L1, ?L2; lra).
  rewrite L3, L1, L2 in HI.
  destruct (in_band c f0 i w1 w2 _ _ H1 H2 HI) as (f1 & f2 & A1 & A2 & B1 & B2).
  exists f1, f2, f0. do 4 (split; [assumption|]).
  unfold about in K. rewrite !andb_true_iff in K. destruct K as ((K1 & K2) & K3). split.
  - apply (above_ok _ _ _ B1) in K1. apply (below_ok _ _ _ B1) in K2. rewrite lit3 in K1, K2.
    pose proof (Rabs_pos_lt _ N). replace (f1 - f0) with ((f1 / f0 - 1) * f0) by (field; auto). rewrite Rabs_mult.
    assert (Rabs (f1 / f0 - 1) < 17/1000) by (apply Rabs_def1; lra). nra.
  - pose proof (narrow_shift _ _ _ _ _ N B1 B2 K3) as L. rewrite lit3 in L. exact L.
Qed.
Theorem achromat_B name c w1 w2 : In (name, c) (@lenses XR _) -> coated coat_B name ->
  65/100 <= w1 <= 105/100 -> 65/100 <= w2 <= 105/100 ->
  exists f1 f2 f0, focal_at c w1 f1 /\ focal_at c w2 f2 /\ design c = Fin f0 /\ f0 <> 0 /\
    Rabs (f1 - f2) < 21/1000 * Rabs f0.
Proof.
  intros H Hn H1 H2.
  assert (L1 : litR (650, 3)%Z = 65/100) by (rewrite lit3; lra).
  assert (L2 : litR (1050, 3)%Z = 105/100) by (rewrite lit3; lra).
  assert (L3 : last band_B 650%Z = 1050%Z) by reflexivity.
  destruct (band_ok coat_B _ 3 650 band_B name c check_B) as (i & f0 & E & N & K & HI); auto; try lia;
    try (rewrite ?L3, ?L1, ?L2; lra).
  rewrite L3, L1, L2 in HI.
  destruct (in_band c f0 i w1 w2 _ _ H1 H2 HI) as (f1 & f2 & A1 & A2 & B1 & B2).
  exists f1, f2, f0. do 4 (split; [assumption|]).
  pose proof (narrow_shift _ _ _ _ _ N B1 B2 K) as L. rewrite lit3 in L. exact L.
Qed.
Theorem achromat_C name c w1 w2 : In (name, c) (@lenses XR _) -> coated coat_C name ->
  105/100 <= w1 <= 17/10 -> 105/100 <= w2 <= 17/10 ->
  exists f1 f2 f0, focal_at c w1 f1 /\ focal_at c w2 f2 /\ design c = Fin f0 /\ f0 <> 0 /\
    Rabs (f1 - f2) < 19/1000 * Rabs f0.
Proof.
  intros H Hn H1 H2.
  assert (L1 : litR (1050, 3)%Z = 105/100) by (rewrite lit3; lra).
  assert (L2 : litR (1700, 3)%Z = 17/10) by (rewrite lit3; lra).
  assert (L3 : last band_C 1050%Z = 1700%Z) by reflexivity.
  destruct (band_ok coat_C _ 3 1050 band_C name c check_C) as (i & f0 & E & N & K & HI); auto; try lia;
    try (rewrite ?L3, ?L1, ?L2; lra).
  rewrite L3, L1, L2 in HI.
  destruct (in_band c f0 i w1 w2 _ _ H1 H2 HI) as (f1 & f2 & A1 & A2 & B1 & B2).
  exists f1, f2, f0. do 4 (split; [assumption|]).
  pose proof (narrow_shift _ _ _ _ _ N B1 B2 K) as L. rewrite lit3 in L. exact L.
Qed.

(** ** The singlets *)
Definition plano (d : dlens) : bool :=
  match d with
  | LSingletD s t =>
      match s_R1 s, s_R2 s, s_mat s with
      | Some p, None, Some m => (posb p && String.eqb m "N_BK7" && t)%bool
      | _, _, _ => false
      end
  | LDoubletD _ _ => true
  end.
Lemma plano_checked : forallb (fun p => plano (snd p)) lens_data = true.
Proof. vm_compute. reflexivity. Qed.
Definition surface1 (c : lens_class XR (dispersion XR)) : option XR :=
  match c with LDoubletD d _ => d_R1 d | LSingletD s _ => s_R1 s end.
Definition glass (c : lens_class XR (dispersion XR)) : option (dispersion XR) :=
  match c with LDoubletD d _ => d_mat1 d | LSingletD s _ => s_mat s end.

Theorem lensmaker name c w : In (name, c) (@lenses XR _) -> is_doublet c = false -> 35/100 <= w <= 5/2 ->
  exists g n r, glass c = Some g /\ index_of g (Fin w) = Ok (PReal (Fin n)) /\ surface1 c = Some (Fin r) /\
    0 < r /\ 1 < n /\ focal_at c w (r / (n - 1)).
Proof.
  intros H Hd Hw. destruct (lens_in _ _ H) as (d & H' & ->).
  pose proof (proj1 (forallb_forall _ _) plano_checked _ H') as K. cbn [snd] in K.
  destruct d as [d t|s t]; [discriminate|]. cbn [plano] in K.
  destruct (s_R1 s) as [p|] eqn:E1; [|discriminate]. destruct (s_R2 s) eqn:E2; [discriminate|].
  destruct (s_mat s) as [m|] eqn:E3; [|discriminate]. rewrite !andb_true_iff in K.
  destruct K as ((Kp & Km) & ->). apply String.eqb_eq in Km as ->. destruct (posb_ok _ Kp) as [Hp Ep].
  destruct (catalogue_wide _ _ w H eq_refl Hw) as (b & f & x & f0 & x0 & Hc & Hf & Hf0 & _).
  destruct (wide_strong _ _ H') as [Kr Ks].
  destruct (has_ixs_ok _ _ H') as (is & Ei).
  assert (L1 : litR (350, 3)%Z = 35/100) by (rewrite lit3; lra).
  assert (L2 : litR (2500, 3)%Z = 5/2) by (rewrite lit3; lra).
  assert (L3 : last wide 350%Z = 2500%Z) by reflexivity.
  destruct (built_in_range 3 350 wide (LSingletD s true) is (Some w) w ltac:(lia) eq_refl)
    as (b' & f' & Hb & Hf' & _ & Ef & _); auto; try (rewrite ?L3, ?L1, ?L2; lra).
  { now split. }
  destruct Hb as (Hc' & _). change (omap Fin (Some w)) with (Some (Fin w)) in Hc'.
  cbn [ixs] in Ei. rewrite E3 in Ei.
  destruct (s_n s); [discriminate|]. destruct (s_ref s); [|discriminate].
  destruct (material catalogue_data "N_BK7") as [g|] eqn:Eg; [|discriminate]. injection Ei as <-.
  pose proof (material_In _ _ _ Eg) as Hg.
  destruct (index_value_lit _ _ w Hg ltac:(lra)) as [Iv _].
  destruct (catalogue_blue "N_BK7" (map_disp lit g) (in_catalogue_lit _ _ Hg)) with (w1 := w) (w2 := 7)
    as (n1 & n2 & J1 & J2 & J3 & J4); [|lra|lra|lra|].
  { clear - Eg. vm_compute in Eg. injection Eg as <-. discriminate. }
  assert (Hn : 1 < idxR g w).
  { rewrite Iv in J1. injection J1 as <-. destruct (index_value_lit _ _ 7 Hg ltac:(lra)) as [Iv7 I7].
    rewrite Iv7 in J2. injection J2 as <-. lra. }
  exists (map_disp lit g), (idxR g w), (litR p). split.
  { cbn [glass resolved resolve_class s_mat]. rewrite E3. rewrite material_catalogue, Eg. reflexivity. }
  split; [exact Iv|]. split; [cbn [surface1 resolved resolve_class s_R1]; rewrite E1; cbn [omap]; now rewrite Ep|].
  split; [exact Hp|]. split; [exact Hn|]. exists b'. split; [exact Hc'|].
  assert (Ef' : f' = litR p / (idxR g w - 1)).
  { rewrite Ef. unfold surfs_at, surfsR, elC. cbn [ktR map ixR zipS surf_trace snd]. rewrite E1, E2. cbn [kR].
    field. lra. }
  rewrite <- Ef'. exact Hf'.
Qed.
(** so the focal length grows with the wavelength *)
Theorem singlet_chromatic name c w1 w2 : In (name, c) (@lenses XR _) -> is_doublet c = false ->
  35/100 <= w1 -> w1 < w2 -> w2 <= 5/2 ->
  exists f1 f2, focal_at c w1 f1 /\ focal_at c w2 f2 /\ f1 < f2.
Proof.
  intros H Hd H1 H2 H3.
  destruct (lensmaker _ _ w1 H Hd ltac:(lra)) as (g & n & r & G & J & Hr & R0 & N1 & F1).
  destruct (lensmaker _ _ w2 H Hd ltac:(lra)) as (g' & n' & r' & G' & J' & Hr' & _ & N1' & F2).
  rewrite G in G'. injection G' as <-. rewrite Hr in Hr'. injection Hr' as <-.
  exists (r / (n - 1)), (r / (n' - 1)). split; [exact F1|]. split; [exact F2|].
  assert (L : n' < n).
  { destruct (lens_in _ _ H) as (d & H' & ->).
    pose proof (proj1 (forallb_forall _ _) plano_checked _ H') as K. cbn [snd] in K.
    destruct d as [d t|s t]; [discriminate|]. cbn [plano] in K.
    destruct (s_R1 s) as [p|] eqn:E1; [|discriminate]. destruct (s_R2 s) eqn:E2; [discriminate|].
    destruct (s_mat s) as [m|] eqn:E3; [|discriminate]. rewrite !andb_true_iff in K.
    destruct K as ((Kp & Km) & ->). apply String.eqb_eq in Km as ->.
    cbn [glass resolved resolve_class s_mat] in G. rewrite E3, material_catalogue in G.
    destruct (material catalogue_data "N_BK7") as [g0|] eqn:Eg; [|discriminate]. cbn [omap] in G. injection G as <-.
    pose proof (material_In _ _ _ Eg) as Hg.
    destruct (catalogue_blue "N_BK7" (map_disp lit g0) (in_catalogue_lit _ _ Hg)) with (w1 := w1) (w2 := w2)
      as (n1 & n2 & J1 & J2 & J3 & J4); [|lra|lra|lra|].
    { clear - Eg. vm_compute in Eg. injection Eg as <-. discriminate. }
    rewrite J in J1. injection J1 as <-. rewrite J' in J2. injection J2 as <-. lra. }
  apply Rmult_lt_compat_l; [exact R0|]. apply Rinv_lt_contravar; [|lra]. apply Rmult_lt_0_compat; lra.
Qed.
