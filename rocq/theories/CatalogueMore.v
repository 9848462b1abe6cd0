(** focalShifts, the search by index, the Abbe numbers. *)
From Coq Require Import ZArith Reals Lra Lia List Bool String.
From Verif Require Import Base Nums Optics Spec MatrixProofs RaysModel RaysProofs MiscProofs Materials MaterialsProofs
  DispersionProofs Zemax Catalogue Interval LensProofs CatalogueProofs CatalogueLens CatalogueChecks CatalogueBands.
Import ListNotations.
Open Scope list_scope.
Open Scope R_scope.

(** ** focalShifts *)
Lemma shifts_loop_ok name c f0 l : In (name, c) (@lenses XR _) -> takes c = true ->
  Forall (fun w => 35/100 <= w <= 5/2) l ->
  exists fs, Forall2 (focal_at c) l fs /\
    shifts_loop (Some c) (Fin f0) (map Fin l) = Ok (map (fun f => Fin (f - f0)) fs).
Proof.
  intros H Ht F. induction F as [|w l Hw F (fs & IH1 & IH2)]; [exists []; split; [constructor|reflexivity]|].
  destruct (catalogue_wide _ _ w H Ht Hw) as (b & f & x & g0 & x0 & Hc & Hf & _).
  exists (f :: fs). split; [constructor; auto; now exists b|].
  cbn [map shifts_loop]. rewrite Hc. cbn [bind]. unfold focal in Hf. rewrite Hf, IH2. cbn [bind snd].
  reflexivity.
Qed.
Lemma scaled_wavelengths l : map (fun w : XR => nmul w (nofZ 1000)) (map Fin l) = map (fun w => Fin (w * 1000)) l.
Proof. rewrite map_map. apply map_ext. intros w. reflexivity. Qed.
Theorem shifts_array name c f0 l : In (name, c) (@lenses XR _) -> takes c = true ->
  Forall (fun w => 35/100 <= w <= 5/2) l ->
  exists fs, Forall2 (focal_at c) l fs /\
    focalShifts (Some c) (Some (Fin f0)) (WArray (map Fin l)) =
    Ok (map (fun w => Fin (w * 1000)) l, map (fun f => Fin (f - f0)) fs).
Proof.
  intros H Ht F. destruct (shifts_loop_ok name c f0 l H Ht F) as (fs & F2 & E). exists fs. split; [exact F2|].
  unfold focalShifts. rewrite E. cbn [bind]. now rewrite scaled_wavelengths.
Qed.
Theorem shifts_default name c f0 : In (name, c) (@lenses XR _) -> takes c = true ->
  exists l fs, List.length l = 100%nat /\ Forall (fun w => 4/10 <= w <= 8/10) l /\ Forall2 (focal_at c) l fs /\
    focalShifts (Some c) (Some (Fin f0)) WDefault =
    Ok (map (fun w => Fin (w * 1000)) l, map (fun f => Fin (f - f0)) fs).
Proof.
  intros H Ht. destruct (linspace_ok (4/10) (8/10) 100 ltac:(lia) ltac:(lra)) as (l & El & Hl & F & _).
  assert (X : exists l', l = map Fin l' /\ Forall (fun w => 4/10 <= w <= 8/10) l').
  { clear - F. induction F as [|v l (x & -> & Hx) F (l' & -> & F')]; [exists []; auto|].
    exists (x :: l'). split; auto. }
  destruct X as (l' & -> & F'). rewrite map_length in Hl.
  destruct (shifts_loop_ok name c f0 l' H Ht) as (fs & F2 & E).
  { eapply Forall_impl; [|exact F']. cbn. intros; lra. }
  exists l', fs. split; [lia|]. split; [exact F'|]. split; [exact F2|].
  unfold focalShifts. rewrite !ndec_xr by lia. change (10 ^ 1)%Z with 10%Z. rewrite El. cbn [bind].
  rewrite E. cbn [bind]. now rewrite scaled_wavelengths.
Qed.
(** a Python list: the wavelengths come back repeated 1000 times, not in nanometres *)
Lemma repeat_list_length {A} n (l : list A) : List.length (repeat_list n l) = (n * List.length l)%nat.
Proof. induction n; cbn [repeat_list]; [reflexivity|]. rewrite app_length, IHn. lia. Qed.
Lemma shifts_loop_length {T} {N : Num T} (c : option (lens_class T (dispersion T))) f0 :
  forall l r, shifts_loop c f0 l = Ok r -> List.length r = List.length l.
Proof.
  induction l as [|w l IH]; intros r; cbn [shifts_loop]; [intros K; injection K as <-; reflexivity|].
  destruct c as [c|]; cbn [bind]; [|discriminate].
  destruct (construct c (Some w)) as [b|]; cbn [bind]; [|discriminate].
  destruct (effectiveFocalLengths (emat (b_elem b))) as [p|]; cbn [bind]; [|discriminate].
  destruct (shifts_loop (Some c) f0 l) as [t|]; cbn [bind]; [|discriminate]. intros K. injection K as <-.
  cbn. now rewrite (IH t).
Qed.
Lemma Ok_inj {A} (x y : A) : Ok x = Ok y -> x = y.
Proof. congruence. Qed.
Lemma shifts_list_length {T} {N : Num T} (c : option (lens_class T (dispersion T))) f0 l p :
  focalShifts c (Some f0) (WList l) = Ok p ->
  List.length (fst p) = (Z.to_nat 1000 * List.length l)%nat /\ List.length (snd p) = List.length l.
Proof.
  unfold focalShifts. destruct (shifts_loop c f0 l) as [r|] eqn:E; cbn [bind]; [|discriminate].
  intros K. apply Ok_inj in K. subst p. cbn [fst snd]. split; [apply repeat_list_length|].
  exact (shifts_loop_length _ _ _ _ E).
Qed.
(** eo.py, and lenses made directly from AchromatDoubletLens or SingletLens *)
Lemma shifts_no_argument {T} {N : Num T} (c : lens_class T (dispersion T)) f0 w l :
  takes c = false -> focalShifts (Some c) (Some f0) (WArray (w :: l)) = Err TypeError.
Proof. destruct c as [d [|]|s [|]]; try discriminate; reflexivity. Qed.
Lemma shifts_direct {T} {N : Num T} f0 w l :
  @focalShifts T N None (Some f0) (WArray (w :: l)) = Err TypeError.
Proof. reflexivity. Qed.

(** ** findByIndex *)
(** the index of a material of that name *)
Definition index_named (c : string) (w x : R) : Prop :=
  exists d, material (@catalogue XR _) c = Some d /\ index_of d (Fin w) = Ok (PReal (Fin x)).
Lemma glass_index_lit name d w : In (name, d) catalogue_data -> 28/100 <= w <= 7 ->
  glass_index (map_disp lit d) (Fin w) = Ok (Fin (idxR d w)).
Proof. exact (glass_index_ok name d w). Qed.
Lemma index_loop_ok n w tol : 28/100 <= w <= 7 -> forall names,
  Forall (fun c => exists d v, material catalogue_data c = Some d /\ material abbe_data c = Some v) names ->
  exists l, index_loop names (Fin n) (Fin w) (Fin tol) = Ok l /\
    (forall c nm v, In (c, nm, v) l <->
       In c names /\ exists x, index_named c w x /\ nm = Fin x /\ Rabs (n - x) < tol /\ abbeNumber c = Some v) /\
    (NoDup names -> NoDup (map (fun p => fst (fst p)) l)).
Proof.
  intros Hw. induction names as [|c t IH]; intros F.
  - exists []. split; [reflexivity|]. split; [|constructor]. intros. cbn. tauto.
  - apply Forall_cons_iff in F as [(d & v & Ed & Ev) F]. destruct (IH F) as (l & El & Hl & Hn).
    cbn [index_loop]. rewrite material_catalogue, Ed. cbn [omap]. unfold abbeNumber at 1. rewrite Ev. cbn [omap].
    rewrite (glass_index_lit c d w (material_In _ _ _ Ed) Hw). cbn [bind]. rewrite El. cbn [bind].
    assert (Hc : forall x, index_named c w x <-> x = idxR d w).
    { intros x. unfold index_named. rewrite material_catalogue, Ed. cbn [omap].
      pose proof (proj1 (index_value_lit _ _ w (material_In _ _ _ Ed) Hw)) as Iv. split.
      - intros (d' & K & I'). injection K as <-. rewrite Iv in I'. now injection I'.
      - intros ->. eexists. split; [reflexivity|exact Iv]. }
    assert (Hv : abbeNumber c = Some (@lit XR _ v)) by (unfold abbeNumber; now rewrite Ev).
    destruct (nltb (nabs (nsub (Fin n) (Fin (idxR d w)))) (Fin tol)) eqn:E.
    + cbn [nltb nabs nsub NumXR xltb xabs xsub xadd xopp] in E. apply Rltb_true in E.
      exists ((c, Fin (idxR d w), lit v) :: l). split; [reflexivity|]. split.
      * intros c' nm v'. cbn [In]. rewrite Hl. split.
        -- intros [K|[K1 K2]]; [|tauto]. injection K as <- <- <-. split; [now left|].
           exists (idxR d w). split; [now apply Hc|]. split; [reflexivity|]. split; [exact E|exact Hv].
        -- intros [[<-|K1] (x & X1 & X2 & X3 & X4)].
           ++ left. apply Hc in X1. rewrite Hv in X4. congruence.
           ++ right. split; [exact K1|]. now exists x.
      * intros Hnd. apply NoDup_cons_iff in Hnd as [N1 N2]. cbn [map fst]. constructor; [|now apply Hn].
        intros K. apply in_map_iff in K as ([[c' nm] v'] & Ec & K). cbn in Ec. subst c'. apply Hl in K. tauto.
    + exists l. split; [reflexivity|]. split.
      * intros c' nm v'. rewrite Hl. cbn [In]. split; [intros [K1 K2]; tauto|].
        intros [[<-|K1] (x & X1 & X2 & X3 & X4)].
        -- exfalso. apply Hc in X1. subst x. cbn [nltb nabs nsub NumXR xltb xabs xsub xadd xopp] in E.
           apply Rltb_false in E. unfold Rminus in X3. lra.
        -- split; [exact K1|]. now exists x.
      * intros Hnd. apply NoDup_cons_iff in Hnd as [N1 N2]. now apply Hn.
Qed.
Lemma names_known collected :
  Forall (fun c => exists d v, material catalogue_data c = Some d /\ material abbe_data c = Some v)
    (live_names collected (map fst catalogue_data)).
Proof.
  assert (K : forallb (fun c => match material catalogue_data c, material abbe_data c with
     Some _, Some _ => true | _, _ => false end) (live_names collected (map fst catalogue_data)) = true)
    by (destruct collected; vm_compute; reflexivity).
  apply Forall_forall. intros c Hc. rewrite forallb_forall in K. specialize (K c Hc).
  destruct (material catalogue_data c), (material abbe_data c); try discriminate. eauto.
Qed.
Lemma live_names_In collected l c : In c (live_names collected l) <-> In c l.
Proof.
  induction l as [|n t IH]; [reflexivity|]. cbn [live_names].
  destruct (collected && existsb (String.eqb n) t)%bool eqn:E.
  - rewrite IH. cbn [In]. split; [now right|]. intros [<-|K]; auto.
    apply andb_true_iff in E as [_ E]. apply existsb_exists in E as (x & Hx & Ex). apply String.eqb_eq in Ex. now subst.
  - cbn [In]. now rewrite IH.
Qed.
Lemma live_names_NoDup l : NoDup (live_names true l).
Proof.
  induction l as [|n t IH]; cbn [live_names andb]; [constructor|].
  destruct (existsb (String.eqb n) t) eqn:E; [exact IH|]. constructor; [|exact IH].
  rewrite live_names_In. intros K. assert (X : existsb (String.eqb n) t = true); [|congruence].
  apply existsb_exists. exists n. split; [exact K|apply String.eqb_refl].
Qed.
Theorem found_by_index collected n w tol : 28/100 <= w <= 7 ->
  exists l, findByIndex collected (Fin n) (Fin w) (Fin tol) = Ok l /\
    (forall c nm v, In (c, nm, v) l <->
       exists x, index_named c w x /\ nm = Fin x /\ Rabs (n - x) < tol /\ abbeNumber c = Some v) /\
    (collected = true -> NoDup (map (fun p => fst (fst p)) l)).
Proof.
  intros Hw. destruct (index_loop_ok n w tol Hw _ (names_known collected)) as (l & E & Hl & Hn).
  exists l. split; [exact E|]. split.
  - intros c nm v. rewrite Hl. split; [tauto|]. intros (x & X). split; [|now exists x].
    apply live_names_In. destruct X as ((d & Ed & _) & _). rewrite material_catalogue in Ed.
    destruct (material catalogue_data c) as [d'|] eqn:Ec; [|discriminate].
    apply material_In in Ec. apply in_map_iff. exists (c, d'). split; [reflexivity|exact Ec].
  - intros ->. apply Hn. apply live_names_NoDup.
Qed.

(** ** Abbe numbers *)
(** the Fraunhofer lines F, d and C, in microns *)
Definition line_F : Z * Z := (4861327, 7)%Z.
Definition line_d : Z * Z := (5875618, 7)%Z.
Definition line_C : Z * Z := (6562725, 7)%Z.
Definition abbeI (d : dispersion (Z * Z)) : itv :=
  let n w := ixI (Glass d) w in idiv (isub (n line_d) i1) (isub (n line_F) (n line_C)).
Definition abbe_check (p : string * dispersion (Z * Z)) : bool :=
  match material catalogue_data (fst p), material abbe_data (fst p) with
  | Some DAir, _ => true
  | Some d, Some v =>
      let q := idiv (idec v) (abbeI d) in
      (above (isub (ixI (Glass d) line_F) (ixI (Glass d) line_C)) (0, 0)%Z && above (idec v) (1, 0)%Z &&
       above (isub (ixI (Glass d) line_d) i1) (0, 0)%Z &&
       above q (99975, 5)%Z && below q (100025, 5)%Z)%bool
  | _, _ => false
  end.
Lemma abbe_checked : forallb abbe_check catalogue_data = true.
Proof. vm_compute. reflexivity. Qed.
Theorem abbe_numbers c d : material (@catalogue XR _) c = Some d -> d <> DAir ->
  exists v nF nd nC, abbeNumber c = Some (Fin v) /\ index_of d (lit line_F) = Ok (PReal (Fin nF)) /\
    index_of d (lit line_d) = Ok (PReal (Fin nd)) /\ index_of d (lit line_C) = Ok (PReal (Fin nC)) /\
    nC < nF /\ 1 < nd /\
    let V := (nd - 1) / (nF - nC) in Rabs (v - V) < 25/100000 * V.
Proof.
  intros H Hd. rewrite material_catalogue in H. destruct (material catalogue_data c) as [d0|] eqn:Ec; [|discriminate].
  cbn [omap] in H. injection H as <-. pose proof (material_In _ _ _ Ec) as Hin.
  pose proof (proj1 (forallb_forall _ _) abbe_checked _ Hin) as K. unfold abbe_check in K.
  cbn [fst] in K. rewrite Ec in K.
  assert (K' : exists v, material abbe_data c = Some v /\
      let q := idiv (idec v) (abbeI d0) in
      (above (isub (ixI (Glass d0) line_F) (ixI (Glass d0) line_C)) (0, 0)%Z && above (idec v) (1, 0)%Z &&
       above (isub (ixI (Glass d0) line_d) i1) (0, 0)%Z &&
       above q (99975, 5)%Z && below q (100025, 5)%Z)%bool = true).
  { destruct d0; [now exfalso; apply Hd| | |]; destruct (material abbe_data c) as [v|]; try discriminate;
      exists v; (split; [reflexivity|exact K]). }
  clear K. destruct K' as (v & Ev & K). cbv zeta in K. rewrite !andb_true_iff in K.
  destruct K as ((((K0 & K1) & K2) & K3) & K4).
  assert (LF : lit line_F = Fin (litR line_F)) by (apply lit_xr; cbn; lia).
  assert (Ld : lit line_d = Fin (litR line_d)) by (apply lit_xr; cbn; lia).
  assert (LC : lit line_C = Fin (litR line_C)) by (apply lit_xr; cbn; lia).
  assert (RF : 28/100 <= litR line_F <= 7)
    by (unfold litR, line_F; cbn [fst snd]; change (10 ^ 7)%Z with 10000000%Z; lra).
  assert (Rd : 28/100 <= litR line_d <= 7)
    by (unfold litR, line_d; cbn [fst snd]; change (10 ^ 7)%Z with 10000000%Z; lra).
  assert (RC : 28/100 <= litR line_C <= 7)
    by (unfold litR, line_C; cbn [fst snd]; change (10 ^ 7)%Z with 10000000%Z; lra).
  assert (IF : inI (idxR d0 (litR line_F)) (ixI (Glass d0) line_F)) by (apply idxI_ok, idec_ok).
  assert (Id : inI (idxR d0 (litR line_d)) (ixI (Glass d0) line_d)) by (apply idxI_ok, idec_ok).
  assert (IC : inI (idxR d0 (litR line_C)) (ixI (Glass d0) line_C)) by (apply idxI_ok, idec_ok).
  set (nF := idxR d0 (litR line_F)) in *. set (nd := idxR d0 (litR line_d)) in *. set (nC := idxR d0 (litR line_C)) in *.
  assert (Q : inI (litR v / ((nd - 1) / (nF - nC))) (idiv (idec v) (abbeI d0))).
  { apply idiv_ok; [apply idec_ok|]. unfold abbeI. apply idiv_ok; apply isub_ok; auto. apply i1_ok. }
  assert (A0 : 0 < nF - nC).
  { apply (above_ok (nF - nC)) in K0; [|now apply isub_ok]. unfold litR in K0. cbn [fst snd] in K0.
    change (10 ^ 0)%Z with 1%Z in K0. lra. }
  assert (A2 : 0 < nd - 1).
  { apply (above_ok (nd - 1)) in K2; [|apply isub_ok; auto; apply i1_ok]. unfold litR in K2. cbn [fst snd] in K2.
    change (10 ^ 0)%Z with 1%Z in K2. lra. }
  apply (above_ok _ _ _ Q) in K3. apply (below_ok _ _ _ Q) in K4.
  apply (above_ok _ _ _ (idec_ok v)) in K1.
  exists (litR v), nF, nd, nC. split.
  { unfold abbeNumber. rewrite Ev. cbn [omap]. f_equal. apply lit_xr.
    clear - Ev. apply material_In in Ev.
    assert (X : forallb (fun p => (0 <=? snd (snd p))%Z) abbe_data = true) by (vm_compute; reflexivity).
    rewrite forallb_forall in X. specialize (X _ Ev). cbn [snd] in X. now apply Z.leb_le. }
  rewrite LF, Ld, LC.
  split; [exact (proj1 (index_value_lit _ _ _ Hin RF))|]. split; [exact (proj1 (index_value_lit _ _ _ Hin Rd))|].
  split; [exact (proj1 (index_value_lit _ _ _ Hin RC))|]. split; [lra|]. split; [lra|].
  cbv zeta. set (V := (nd - 1) / (nF - nC)) in *.
  assert (HV : 0 < V) by (apply Rdiv_lt_0_compat; lra).
  unfold litR in K3, K4. cbn [fst snd] in K3, K4. change (10 ^ 5)%Z with 100000%Z in K3, K4.
  fold (litR v) in K3, K4.
  replace (litR v - V) with ((litR v / V - 1) * V) by (field; lra). rewrite Rabs_mult, (Rabs_pos_eq V) by lra.
  assert (Rabs (litR v / V - 1) < 25/100000); [|nra].
  apply Rabs_def1; unfold litR in *; lra.
Qed.
