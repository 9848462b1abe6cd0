(** Property theorems C86-C87: collection efficiency, numerical aperture and the presence of stops.  Each theorem is
    closed by a lemma proved elsewhere; the examples show that its hypotheses can be met. *)
From Coq Require Import Reals Lra List Bool String ZArith Floats Lia.
From Verif Require Import Base Nums Optics Group Spec MatrixProofs ElementProofs GroupProofs TraceProofs RayProofs
  CardinalProofs StrictProofs FlipProofs TransferProofs Samples Samples2 Imaging SearchProofs ImagingProofs
  FieldProofs FieldMore Samples3 GroupRefutations ImagingRefutations RaysModel RaysMore Efficiency EfficiencyProofs StopQueries
  EfficiencyRefutations.
Import ListNotations.
Set Warnings "-inexact-float".
Open Scope list_scope.
Open Scope R_scope.

(** ** C86 *)
(** [draws g height angle n]: the rays (y, theta) made of the random numbers g; [stopped e p]: ray p is lost in the
    path; [beyond ps z D p]: ray p crosses the plane of the aperture stop outside of it.  An object not larger than
    the field: the efficiency is the fraction of the rays that get through; without such a ray the call raises. *)
Theorem C86_efficiency : forall (sin : XR -> XR) (hp : R) e o ps z h f,
  aimed e o ps z -> z <> 0 -> Forall2 thin_aperture (leaves e) ps ->
  hasFiniteApertureDiameter e = true -> rblk (traceThrough e probe) = false ->
  (exists gk m es, e = Group gk m es) -> onf o = 1 ->
  field_edge e h -> 3 / 80000 <= h < tried 42 -> fNumber e = Ok (Some f) -> 0 < hp ->
  exists fuel0 D a v, stop_at e ps z D /\ v <= h < v + 2 * prec /\ 0 < v /\ 0 < a /\
    rblk (traceThrough e (source_ray (0, a))) = false /\
  forall fuel g d oa n, (fuel0 <= fuel)%nat -> (0 < n)%Z -> (forall k, 0 <= g k < 1) ->
  (forall x, d = Some x -> 0 < x <= 2 * v) -> (forall x, oa = Some x -> 0 < x) ->
  let height := match d with Some x => x / 2 | None => v end in
  let angle := match oa with Some x => x | None => hp end in
  let l := draws g height angle n in
  let passed := number (fun p => negb (stopped e p)) l in
  let vignetted := number (fun p => negb (beyond ps z D p) && stopped e p) l in
  let got := reportEfficiency sin (Fin hp) fuel (fun k => Fin (g k)) e (option_map Fin d) (option_map Fin oa) n in
  match passed with
  | O => got = Err (match vignetted with O => ZeroDivisionError | _ => ValueError end)
  | _ => exists r, got = Ok (Some r) /\
      rp_efficiency r = Fin (100 * INR passed / IZR n) /\
      rp_relative r = Fin (100 * INR passed / INR (passed + vignetted)) /\
      rp_loss r = (if (2 <=? vignetted)%nat then Some (Fin (100 * INR vignetted / INR (passed + vignetted))) else None) /\
      rp_ratio r = Fin (a * v / (height * angle) * 100) /\
      List.length (t_expected (rp_tally r)) = number (beyond ps z D) l /\
      (List.length (t_expected (rp_tally r)) + List.length (t_through (rp_tally r)) +
       List.length (t_vignetted (rp_tally r)))%nat = Z.to_nat n
  end.
Proof. exact default_efficiency. Qed.
Print Assumptions C86_efficiency.

(** any object: the lists hold the rays that miss the stop or start outside of the field, those that get through,
    and the others *)
Theorem C86_lists : forall (sin : XR -> XR) (hp : R) e o ps z D h f,
  aimed e o ps z -> z <> 0 -> stop_at e ps z D ->
  (exists gk m es, e = Group gk m es) -> onf o = 1 ->
  field_edge e h -> 3 / 80000 <= h < tried 42 -> fNumber e = Ok (Some f) ->
  exists fuel0 a v, v <= h < v + 2 * prec /\ 0 < v /\ 0 < a /\ Rabs (height_at ps z (0, a)) = D / 2 /\
  forall fuel g d oa n, (fuel0 <= fuel)%nat -> (0 < n)%Z ->
  let height := match d with Some x => x / 2 | None => v end in
  let angle := match oa with Some x => x | None => hp end in
  height * angle <> 0 ->
  let l := draws g height angle n in
  let got := reportEfficiency sin (Fin hp) fuel (fun k => Fin (g k)) e (option_map Fin d) (option_map Fin oa) n in
  match number (is_through e ps z D v) l with
  | O => got = Err (match number (is_vignetted e ps z D v) l with
                    | O => ZeroDivisionError | _ => ValueError end)
  | _ => exists r, got = Ok (Some r) /\ counted e ps z D a v height angle n l r /\
           rp_fnumber r = f /\ NA sin e = Ok (rp_NA r)
  end.
Proof. exact report_counts. Qed.
Print Assumptions C86_lists.

(** the coordinates that are plotted are the coefficients of the ray along the axial and the principal ray *)
Theorem C86_coordinates : forall ps z a v, 0 < a -> 0 < v -> forall p, exists ca cp, along ps z a v p = (Fin ca, Fin cp) /\
  fst p = ca * 0 + cp * v /\ snd p = ca * a + cp * (aim ps z * v).
Proof. exact along_combines. Qed.
Print Assumptions C86_coordinates.

(** a ray that crosses the plane of the stop outside of it is indeed lost *)
Theorem C86_expected : forall e o ps z D p, aimed e o ps z -> Forall2 thin_aperture (leaves e) ps ->
  stop_at e ps z D -> beyond ps z D p = true -> stopped e p = true.
Proof. exact beyond_stopped. Qed.
Print Assumptions C86_expected.

(** the position listed for a vignetted ray is that of an element which the ray misses *)
Theorem C86_positions : forall e o ps z D v p, aimed e o ps z -> Forall2 thin_aperture (leaves e) ps ->
  is_vignetted e ps z D v p = true ->
  exists i km Di, nth_error (leaves e) i = Some km /\ mdiam (snd km) = Fin Di /\
    place e p = Fin (depth ps (S i)) /\ Di / 2 < Rabs (height_at ps (depth ps (S i)) p).
Proof. exact vignetted_where. Qed.
Print Assumptions C86_positions.

Lemma camera_stop_at e : is_camera e -> stop_at e camera_pieces 30 10.
Proof.
  intros C. constructor; [lra|now apply camera_stop|].
  exists 3%nat. eexists. split; [rewrite (ca_leaves e C); reflexivity|]. split; [reflexivity|]. unfold depth, lens_of. cbn. lra.
Qed.
Example C86_example : exists e f, aimed e camera_optic camera_pieces 30 /\
  Forall2 thin_aperture (leaves e) camera_pieces /\ hasFiniteApertureDiameter e = true /\
  rblk (traceThrough e probe) = false /\ (exists gk m es, e = Group gk m es) /\ onf camera_optic = 1 /\
  stop_at e camera_pieces 30 10 /\ field_edge e (65/4) /\ 3 / 80000 <= 65 / 4 < tried 42 /\
  fNumber e = Ok (Some f) /\
  stopped e (1, 1/10) = false /\ beyond camera_pieces 30 10 (1, 1) = true /\ stopped e (1, 1) = true /\
  is_vignetted e camera_pieces 30 10 (65/4) (16, - (1/5)) = true.
Proof.
  destruct camera_exists as (e & C).
  destruct (fNumber_some e camera_optic camera_pieces 30 10 (camera_aimed e C) (camera_stop_at e C) eq_refl
    (ca_finite e C)) as (f & Ef). { rewrite camera_matrix. cbn. lra. }
  exists e, f. split; [now apply camera_aimed|]. split; [apply (ca_thin e C)|]. split; [apply (ca_finite e C)|].
  split; [now apply camera_probe|]. split; [destruct (ca_group e C) as (g & _ & ->); eauto|].
  split; [reflexivity|]. split; [now apply camera_stop_at|]. split; [now apply camera_edge|].
  split; [pose proof tried_42; lra|]. split; [exact Ef|].
  assert (stopped e (1, 1/10) = false) as H1.
  { apply (camera_passes e 1 (1/10) 0 PInf None C). split; rewrite Rabs_pos_eq; lra. }
  assert (beyond camera_pieces 30 10 (1, 1) = true) as H2.
  { unfold beyond, height_at. rewrite camera_matrix. cbn. apply Rltb_lt. rewrite Rabs_pos_eq; lra. }
  split; [exact H1|]. split; [exact H2|].
  split; [apply (beyond_stopped e _ _ _ _ _ (camera_aimed e C) (ca_thin e C) (camera_stop_at e C) H2)|].
  unfold is_vignetted, expected, beyond, outside, height_at. rewrite camera_matrix. cbn [mapp fst snd A_ B_].
  rewrite (Rltb_ge (10 / 2)) by (apply Rabs_le; lra). rewrite (Rltb_ge (65 / 4)) by (apply Rabs_le; lra).
  cbn [orb negb andb]. apply not_false_is_true. intros F.
  apply (camera_passes e 16 (-(1/5)) 0 PInf None C) in F as [F _]. rewrite Rabs_pos_eq in F; lra.
Qed.

(** an object larger than the field: both rays get through, one of them is counted as blocked *)
Theorem C86_large_object_refuted : exists e, is_two_apertures e /\
  let g := stream [0.5; 0.5; 0.175; 0.9]%float in
  all_pass e (sourceRays g (fz 20) (fz 2) 2) = true /\
  forall sin hp, exists r, reportEfficiency sin hp 100 g e (Some (fz 40)) (Some (fz 2)) 2 = Ok (Some r) /\
    rp_efficiency r = fz 50 /\ List.length (t_expected (rp_tally r)) = 1%nat.
Proof. exact outside_counted_blocked. Qed.
Print Assumptions C86_large_object_refuted.
Theorem C86_no_light_refuted : exists e, is_two_apertures e /\ forall sin hp,
  reportEfficiency sin hp 100 (stream [0; 0.5]%float) e None (Some (fz 2)) 1 = Err ZeroDivisionError /\
  reportEfficiency sin hp 100 (stream [0.05; 0.95]%float) e None (Some (fz 2)) 1 = Err ValueError.
Proof. exact report_without_light. Qed.
(** rp_loss = None is printed as "No losses to vignetting" *)
Theorem C86_vignetting_refuted : exists e, is_two_apertures e /\ forall sin hp, exists r,
  reportEfficiency sin hp 100 (stream [0.5; 0.5; 0.05; 0.95]%float) e None (Some (fz 2)) 2 = Ok (Some r) /\
  rp_relative r = fz 50 /\ rp_loss r = None /\ t_places (rp_tally r) = [fz 20].
Proof. exact one_vignetted. Qed.
Print Assumptions C86_vignetting_refuted.

(** ** C87 *)
Theorem C87_NA : forall (sin : XR -> XR) e o ps z, aimed e o ps z -> z <> 0 ->
  Forall2 thin_aperture (leaves e) ps -> hasFiniteApertureDiameter e = true ->
  rblk (traceThrough e probe) = false ->
  exists u, NA sin e = Ok (nmul (Fin (onf o)) (sin (Fin u))) /\ 0 < u /\
    forall th, stopped e (0, th) = Rltb u (Rabs th).
Proof. exact NA_steepest. Qed.
Print Assumptions C87_NA.
(** hasApertureStop only looks for a finite diameter *)
Theorem C87_finite : forall T (N : Num T) (e : @elem T) b, hasApertureStop e = Ok b -> b = hasFiniteApertureDiameter e.
Proof. exact @has_stop_finite. Qed.
Print Assumptions C87_finite.
(** apart from apertures in the object plane or its images, that means that some ray from the axis is lost *)
Theorem C87_aperture_stop : forall e o ps, canon e o -> Forall2 is_piece (leaves e) ps ->
  Forall not_axicon (leaves e) -> Forall2 thin_aperture (leaves e) ps ->
  rblk (traceThrough e probe) = false ->
  apertureStop e <> Ok (mkStop (Some (Fin 0)) (Some PInf)) ->
  exists b, hasApertureStop e = Ok b /\ (b = true <-> exists th, stopped e (0, th) = true).
Proof. exact has_stop_limits. Qed.
Print Assumptions C87_aperture_stop.
(** a field stop is reported exactly when the field of view is finite *)
Theorem C87_field_stop : forall e o ps z, aimed e o ps z -> z <> 0 ->
  (forall h, field_edge e h -> 3 / 80000 <= h < tried 42 ->
     exists n v, v <= h < v + 2 * prec /\ 0 < v /\ forall fuel, (n <= fuel)%nat ->
       hasFieldStop fuel e = Ok true /\ fieldOfView fuel e = Ok (Fin (2 * v))) /\
  (no_field_edge e \/ (exists h, field_edge e h /\ tried 42 <= h) ->
     exists n, forall fuel, (n <= fuel)%nat -> hasFieldStop fuel e = Ok false /\ fieldOfView fuel e = Ok PInf).
Proof. exact has_field_stop. Qed.
Print Assumptions C87_field_stop.
(** and takes two elements of finite diameter, the aperture stop and another one *)
Theorem C87_two_elements : forall fuel e o ps z, aimed e o ps z -> z <> 0 ->
  Forall2 thin_aperture (leaves e) ps -> hasFiniteApertureDiameter e = true ->
  rblk (traceThrough e probe) = false -> hasFieldStop fuel e = Ok true ->
  exists i j km km', i <> j /\ nth_error (leaves e) i = Some km /\ nth_error (leaves e) j = Some km' /\
    limited km /\ limited km' /\ depth ps (S i) = z.
Proof. exact field_stop_second. Qed.
Print Assumptions C87_two_elements.
Example C87_example : exists e fuel, aimed e camera_optic camera_pieces 30 /\
  Forall2 thin_aperture (leaves e) camera_pieces /\ hasFiniteApertureDiameter e = true /\
  rblk (traceThrough e probe) = false /\ apertureStop e <> Ok (mkStop (Some (Fin 0)) (Some PInf)) /\
  field_edge e (65/4) /\ 3 / 80000 <= 65 / 4 < tried 42 /\ hasFieldStop fuel e = Ok true /\ hasApertureStop e = Ok true.
Proof.
  destruct camera_exists as (e & C). pose proof tried_42 as T42.
  destruct (proj1 (has_field_stop e _ _ _ (camera_aimed e C) ltac:(lra)) (65/4) (camera_edge e C) ltac:(lra))
    as (n & v & _ & _ & Hn).
  exists e, n. split; [now apply camera_aimed|]. split; [apply (ca_thin e C)|]. split; [apply (ca_finite e C)|].
  split; [now apply camera_probe|]. split; [rewrite (camera_stop e C); discriminate|].
  split; [now apply camera_edge|]. split; [lra|]. split; [apply Hn; auto|].
  unfold hasApertureStop. now rewrite (camera_stop e C).
Qed.
Example C87_infinite_example : exists e, aimed e (hole_optic 10) (hole_pieces 10) 10 /\ no_field_edge e.
Proof.
  destruct (hole_exists 10 4 ltac:(lra) ltac:(lra)) as (e & C). exists e.
  split; [apply (hole_aimed 10 4 e C); lra|apply (hole_no_edge 10 4 e C); lra].
Qed.

Theorem C87_NA_refuted : exists (e : @elem float) s, Space (fz 10) c1 ninf = Ok s /\ built [s] e /\
  fNumber e = Ok None /\ forall sin, NA sin e = Err AttributeError.
Proof. exact NA_without_aperture. Qed.
Print Assumptions C87_NA_refuted.
Theorem C87_object_plane_refuted : exists (e : @elem float) a s,
  Aperture (fz 10) ninf = Ok a /\ Space (fz 10) c1 ninf = Ok s /\ built [a; s] e /\
  hasApertureStop e = Ok true /\ apertureStop e = Ok (mkStop (Some c0) (Some ninf)) /\
  rblk (traceThrough e (Ray_new c0 (fz 1000000))) = false /\
  forall sin, NA sin e = Err AttributeError.
Proof. exact stop_in_object_plane. Qed.
Print Assumptions C87_object_plane_refuted.
