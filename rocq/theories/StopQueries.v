(** NA, hasApertureStop and hasFieldStop. *)
From Coq Require Import ZArith Reals Lra Lia List Bool.
From Verif Require Import Base Nums Optics Group Spec MatrixProofs ElementProofs GroupProofs
  TraceProofs RayProofs CardinalProofs StrictProofs FlipProofs TransferProofs Imaging SearchProofs ImagingProofs FieldProofs FieldMore
  RaysModel RaysMore Efficiency EfficiencyProofs.
Import ListNotations.
Open Scope list_scope.
Open Scope R_scope.

(** ** NA *)
(** n sin(u), where u is the steepest angle at which a ray from the axis gets through *)
Theorem NA_steepest (sin : XR -> XR) e o ps z : aimed e o ps z -> z <> 0 ->
  Forall2 thin_aperture (leaves e) ps -> hasFiniteApertureDiameter e = true ->
  rblk (traceThrough e probe) = false ->
  exists u, NA sin e = Ok (nmul (Fin (onf o)) (sin (Fin u))) /\ 0 < u /\
    forall th, stopped e (0, th) = Rltb u (Rabs th).
Proof.
  intros Ha Hz HT Hfin Hp.
  pose proof (d_nf _ _ (canon_describes _ _ (am_canon _ _ _ _ Ha))) as Hn. destruct (has_stop e o ps z Ha Hz HT Hfin Hp) as (D & HS).
  destruct (axial_ray e o ps z D (am_canon _ _ _ _ Ha) (am_pieces _ _ _ _ Ha) (sa_stop _ _ _ _ HS)
    (sa_pos _ _ _ _ HS) (am_B _ _ _ _ Ha)) as (u & Ea & _).
  destruct (axial_ray_steepest e o ps (am_canon _ _ _ _ Ha) (am_pieces _ _ _ _ Ha) (am_lin _ _ _ _ Ha) HT
    Hfin Hp _ Ea) as (th & Eth & Hth & _ & Hlim).
  { rewrite (sa_stop _ _ _ _ HS). discriminate. }
  injection Eth as <-. exists u. split; [|split; [exact Hth|]].
  - unfold NA. rewrite Ea. cbn [bind]. now rewrite Hn.
  - intros th. unfold stopped. apply (Hlim th 0 PInf None).
Qed.

(** without a finite diameter, or with the stop in the object plane, NA raises *)
Theorem NA_raises {T} {N : Num T} (sin : T -> T) (e : @elem T) :
  axialRay e = Ok None -> NA sin e = Err AttributeError.
Proof. intros E. unfold NA. now rewrite E. Qed.

Lemma unlimited_axial {T} {N : Num T} (e : @elem T) : hasFiniteApertureDiameter e = false ->
  axialRay e = Ok None /\ fNumber e = (f <- effectiveFocalLengths (emat e);; Ok None).
Proof.
  intros H. unfold axialRay, marginalRays, fNumber, entrancePupil, apertureStop. rewrite H.
  split; reflexivity.
Qed.

(** f-number of a path with an entrance pupil at a finite distance *)
Lemma fNumber_some e o ps z D : aimed e o ps z -> stop_at e ps z D -> onf o = 1 ->
  hasFiniteApertureDiameter e = true -> A_ (matrix_to ps z) <> 0 ->
  exists f, fNumber e = Ok (Some f).
Proof.
  intros Ha [HD Hs _] H1 Hfin HA.
  destruct (entrance_pupil e o ps z D (am_canon _ _ _ _ Ha) (am_pieces _ _ _ _ Ha) H1 Hfin Hs HA)
    as (zp & Dp & Ep & _ & EDp).
  assert (Dp <> 0) as HDp by (intros ->; lra).
  unfold fNumber. rewrite Ep. cbn [bind st_d].
  pose proof (canon_describes _ _ (am_canon _ _ _ _ Ha)) as Dsc.
  pose proof (canon_physical _ _ (am_canon _ _ _ _ Ha)) as Ph.
  destruct (hasPower (emat e)) eqn:Hp.
  - rewrite (focal_ok _ _ Dsc Ph) by now apply (hasPower_iff _ _ Dsc). cbn [bind fst].
    rewrite pdiv_fin by auto. eexists; reflexivity.
  - unfold effectiveFocalLengths. rewrite Hp. cbn [bind fst].
    unfold pdiv. change (neqb (Fin Dp) (@c0 XR _)) with (Reqb Dp 0). rewrite Reqb_neq by auto.
    eexists; reflexivity.
Qed.

(** ** hasApertureStop *)
(** it only says whether some diameter is finite *)
Theorem has_stop_finite {T} {N : Num T} (e : @elem T) b :
  hasApertureStop e = Ok b -> b = hasFiniteApertureDiameter e.
Proof.
  unfold hasApertureStop, apertureStop. destruct (hasFiniteApertureDiameter e).
  - destruct (stop_loop _ _ _ _) as [zd|]; cbn; congruence.
  - cbn. congruence.
Qed.

Lemma existsb_false {A} (f : A -> bool) l x : existsb f l = false -> In x l -> f x = false.
Proof.
  intros H Hx. destruct (f x) eqn:E; auto. rewrite <- H. symmetry. apply existsb_exists. eauto.
Qed.

Lemma finite_leaves {T} {N : Num T} (e : @elem T) :
  hasFiniteApertureDiameter e = existsb (fun km => negb (neqb (mdiam (snd km)) ninf)) (leaves e).
Proof.
  induction e as [k m|gk m es IH] using elem_ind'; cbn [hasFiniteApertureDiameter leaves existsb snd].
  - now rewrite orb_false_r.
  - induction IH as [|x t Hx Ht IHt]; cbn [existsb flat_map]; auto. now rewrite existsb_app, Hx, IHt.
Qed.

(** whether a ray from the axis can be lost *)
Theorem has_stop_limits e o ps : canon e o -> Forall2 is_piece (leaves e) ps ->
  Forall not_axicon (leaves e) -> Forall2 thin_aperture (leaves e) ps ->
  rblk (traceThrough e probe) = false ->
  apertureStop e <> Ok (mkStop (Some (Fin 0)) (Some PInf)) ->
  exists b, hasApertureStop e = Ok b /\ (b = true <-> exists th, stopped e (0, th) = true).
Proof.
  intros Hc HF HA HT Hp Hne. destruct (hasFiniteApertureDiameter e) eqn:Hfin.
  - destruct (stop_limits e o ps Hc HF HA HT Hfin Hp) as [(E & _)|(i & D & (km & Ei & ED) & HD & E & Hl)];
      [contradiction|].
    exists true. split; [unfold hasApertureStop; rewrite E; reflexivity|]. split; auto. intros _.
    destruct (stop_spec e o ps Hc HF HA Hfin Hp) as [(E' & _)|(j & km' & Ej & E' & Hr & _)]; [contradiction|].
    destruct (Forall2_nth _ _ _ _ _ HF Ej) as (p' & _ & (_ & _ & _ & Hpos & _)).
    destruct (ratio_pos _ _ Hpos Hr) as (D' & ED' & HD').
    rewrite ED' in *. cbn [ratio] in Hr. unfold probe_height, mapp in Hr. cbn [fst snd] in Hr.
    set (B := B_ (upto ps (S j))) in *.
    assert (B <> 0) as HB.
    { intros B0. rewrite B0 in Hr. rewrite Rmult_0_r, Rmult_0_l, Rplus_0_l, Rabs_R0 in Hr. lra. }
    exists (D' / Rabs B). unfold stopped. apply not_false_is_true. intros F.
    rewrite passes_nth in F by reflexivity. specialize (F j km' Ej).
    change (source_ray (0, D' / Rabs B)) with (fray 0 (D' / Rabs B) 0 false PInf None) in F.
    rewrite (misses_axis _ _ HF HA HT j km' 0 _ 0 false PInf None Ej), ED' in F.
    apply Rltb_false in F. unfold mapp in F. cbn [fst snd] in F. fold B in F.
    rewrite Rmult_0_r, Rplus_0_l, Rabs_mult in F. pose proof (Rabs_pos_lt B HB) as HP.
    rewrite (Rabs_pos_eq (D' / Rabs B)) in F by (apply Rlt_le, Rdiv_lt_0_compat; lra).
    replace (Rabs B * (D' / Rabs B)) with D' in F by (field; lra). lra.
  - exists false. split; [unfold hasApertureStop, apertureStop; rewrite Hfin; reflexivity|].
    split; [discriminate|]. intros (th & Hth). exfalso. unfold stopped in Hth.
    assert (rblk (traceThrough e (source_ray (0, th))) = false) as F; [|congruence].
    apply passes_nth; [reflexivity|]. intros j km Ej.
    change (source_ray (0, th)) with (fray 0 th 0 false PInf None).
    rewrite (misses_axis _ _ HF HA HT j km 0 th 0 false PInf None Ej).
    assert (mdiam (snd km) = PInf) as ->; [|reflexivity].
    destruct (Forall2_nth _ _ _ _ _ HF Ej) as (p & _ & (_ & _ & _ & Hpos & _)).
    rewrite finite_leaves in Hfin. apply existsb_false with (x := km) in Hfin; [|eapply nth_error_In; eauto].
    destruct (mdiam (snd km)) as [r| | |]; cbn in *; try tauto; try discriminate; reflexivity.
Qed.

(** ** hasFieldStop *)
Definition limited (km : @kind XR * @mat XR) : Prop := exists D, mdiam (snd km) = Fin D.

(** a field of view is found exactly when there is a field stop *)
Theorem has_field_stop e o ps z : aimed e o ps z -> z <> 0 ->
  (forall h, field_edge e h -> 3 / 80000 <= h < tried 42 ->
     exists n v, v <= h < v + 2 * prec /\ 0 < v /\ forall fuel, (n <= fuel)%nat ->
       hasFieldStop fuel e = Ok true /\ fieldOfView fuel e = Ok (Fin (2 * v))) /\
  (no_field_edge e \/ (exists h, field_edge e h /\ tried 42 <= h) ->
     exists n, forall fuel, (n <= fuel)%nat -> hasFieldStop fuel e = Ok false /\ fieldOfView fuel e = Ok PInf).
Proof.
  intros Ha Hz. split.
  - intros h He Hh. destruct (field_stop_found e o ps z Ha Hz h He Hh) as (n1 & v1 & _ & H1).
    destruct (principal_ray_found e o ps z Ha Hz h He Hh) as (n2 & v & Hv & H2).
    exists (n1 + n2)%nat, v. split; auto. split; [unfold prec in Hv; lra|].
    intros fuel Hf. unfold hasFieldStop. rewrite H1 by lia. split; [reflexivity|].
    apply H2. lia.
  - intros H. destruct (field_unlimited e o ps z Ha Hz H) as (n & Hn). exists n. intros fuel Hf.
    destruct (Hn fuel Hf) as [E1 E2]. unfold hasFieldStop, fieldOfView. rewrite E1, E2. cbn [bind].
    split; [reflexivity|]. f_equal. change (xsgninf 2 = PInf). unfold xsgninf. destruct (Rlt_dec 0 2); [reflexivity|lra].
Qed.

Lemma search_more {T} {N : Num T} k : forall fuel (e : @elem T) w s r, search fuel e w s = r ->
  r <> Err OutOfFuel -> search (fuel + k) e w s = r.
Proof.
  induction fuel as [|fuel IH]; intros e w s r; cbn [search Nat.add]; [congruence|].
  destruct (_ || _); auto. unfold bind.
  destruct (search_step e s) as [s'|]; auto. destruct (_ && _); auto.
Qed.

Lemma fieldStop_more {T} {N : Num T} k fuel (e : @elem T) s : fieldStop fuel e = Ok s ->
  fieldStop (fuel + k) e = Ok s.
Proof.
  unfold fieldStop. destruct (apertureStop e) as [a|]; cbn [bind]; [|discriminate].
  destruct (_ && _); auto.
  destruct (search fuel e true (search_start (Ray_new c0 c0))) as [r|x] eqn:E; cbn [bind]; [|discriminate].
  rewrite (search_more k _ _ _ _ _ E) by discriminate. auto.
Qed.

(** one limited element is not enough *)
Theorem field_stop_second fuel e o ps z : aimed e o ps z -> z <> 0 ->
  Forall2 thin_aperture (leaves e) ps -> hasFiniteApertureDiameter e = true ->
  rblk (traceThrough e probe) = false -> hasFieldStop fuel e = Ok true ->
  exists i j km km', i <> j /\ nth_error (leaves e) i = Some km /\ nth_error (leaves e) j = Some km' /\
    limited km /\ limited km' /\ depth ps (S i) = z.
Proof.
  intros Ha Hz HT Hfin Hp Hf. destruct (has_stop e o ps z Ha Hz HT Hfin Hp) as (D & HS).
  destruct HS as [HD Hs (i & km & Ei & ED & Ez)].
  set (other := fun j : nat => match nth_error (leaves e) j with
    | Some km' => negb (Nat.eqb i j) && match mdiam (snd km') with Fin _ => true | _ => false end | None => false end).
  destruct (existsb other (seq 0 (List.length (leaves e)))) eqn:EX.
  - apply existsb_exists in EX as (j & _ & Hj). unfold other in Hj.
    destruct (nth_error (leaves e) j) as [km'|] eqn:Ej; [|discriminate].
    apply andb_prop in Hj as [Hij Hfj]. apply negb_true_iff, Nat.eqb_neq in Hij.
    exists i, j, km, km'. split; auto. split; auto. split; auto. split; [now exists D|]. split; auto.
    unfold limited. destruct (mdiam (snd km')); try discriminate. eauto.
  - exfalso.
    assert (no_field_edge e) as HN.
    { intros y. exists (chief ps z y). split; [now apply (aimed_chief e o)|].
      apply passes_nth; [reflexivity|]. intros j km' Ej. unfold chief.
      rewrite (misses_axis _ _ (am_pieces _ _ _ _ Ha) (am_lin _ _ _ _ Ha) HT j km' y _ 0 false PInf None Ej).
      destruct (mdiam (snd km')) as [Dj| | |] eqn:EDj; auto.
      assert (other j = false) as Hj.
      { apply existsb_false with (1 := EX). apply in_seq.
        assert (j < List.length (leaves e))%nat; [apply nth_error_Some; congruence|lia]. }
      unfold other in Hj. rewrite Ej, EDj, andb_true_r in Hj. apply negb_false_iff, Nat.eqb_eq in Hj. subst j.
      destruct (matrix_at_depth _ _ (S i) (am_pieces _ _ _ _ Ha) HT) as [EA EB]. rewrite <- Ez in EA, EB.
      assert (Dj = D) by congruence. subst Dj.
      apply Rltb_ge. unfold mapp. cbn [fst snd]. rewrite <- EA, <- EB. unfold aim.
      pose proof (am_B _ _ _ _ Ha) as HB.
      assert (B_ (matrix_to ps z) <> 0) by (intros B0; rewrite B0, Rabs_R0 in HB; lra).
      replace (A_ (matrix_to ps z) * y + B_ (matrix_to ps z) * (- A_ (matrix_to ps z) / B_ (matrix_to ps z) * y))
        with 0 by (field; auto). rewrite Rabs_R0. lra. }
    destruct (field_unlimited e o ps z Ha Hz (or_introl HN)) as (n & Hn).
    unfold hasFieldStop in Hf. destruct (fieldStop fuel e) as [s|] eqn:Es; cbn [bind] in Hf; [|discriminate].
    apply fieldStop_more with (k := n) in Es. destruct (Hn (fuel + n)%nat ltac:(lia)) as [En _].
    rewrite En in Es. injection Es as <-. discriminate.
Qed.
