(** What reportEfficiency counts. *)
From Coq Require Import ZArith Reals Lra Lia List Bool.
From Verif Require Import Base Nums Optics Group Spec MatrixProofs ElementProofs GroupProofs
  TraceProofs RayProofs TransferProofs Imaging SearchProofs ImagingProofs FieldProofs FieldMore
  RaysModel RaysMore Efficiency.
Import ListNotations.
Open Scope list_scope.
Open Scope R_scope.

(** ** Vocabulary *)
(** a source ray from height [fst p] at angle [snd p] *)
Definition source_ray (p : R * R) : @ray XR := Ray_new (Fin (fst p)) (Fin (snd p)).
(** the ray is lost somewhere *)
Definition stopped (e : @elem XR) (p : R * R) : bool := rblk (traceThrough e (source_ray p)).
(** height at depth [z] if nothing stops the ray before *)
Definition height_at (ps : list piece) (z : R) (p : R * R) : R := fst (mapp (matrix_to ps z) p).
(** the ray meets the plane of the stop outside of the stop *)
Definition beyond (ps : list piece) (z D : R) (p : R * R) : bool := Rltb (D / 2) (Rabs (height_at ps z p)).
(** the ray leaves the object outside of the field *)
Definition outside (v : R) (p : R * R) : bool := Rltb v (Rabs (fst p)).
Definition number {A} (f : A -> bool) (l : list A) : nat := List.length (filter f l).
(** the n rays made of the random numbers [g] *)
Definition draw (g : nat -> R) (height angle : R) (k : nat) : R * R :=
  (- height + g (S (2 * k)) * (height - - height), - angle + g (2 * k)%nat * (angle - - angle)).
Definition draws (g : nat -> R) (height angle : R) (n : Z) : list (R * R) :=
  map (draw g height angle) (seq 0 (Z.to_nat n)).

Lemma sourceRays_draws g height angle n : (0 <= n)%Z ->
  sourceRays (fun k => Fin (g k)) (Fin height) (Fin angle) n =
  map (fun p => Ok (source_ray p)) (draws g height angle n).
Proof.
  intros Hn. unfold sourceRays.
  pose proof (random_iter (fun k => Fin (g k)) (Fin height) (Some (nopp (Fin height))) (Fin angle)
    (Some (nopp (Fin angle))) n [] (S (Z.to_nat n))) as H.
  cbn zeta in H. unfold qrun in H at 1. cbn [fold_left] in H. rewrite H by lia.
  unfold draws. rewrite map_map. apply map_ext. intros k. reflexivity.
Qed.

Lemma draws_inside g height angle n p : (forall k, 0 <= g k < 1) -> 0 <= height ->
  In p (draws g height angle n) -> Rabs (fst p) <= height.
Proof.
  intros Hg Hh H. apply in_map_iff in H as (k & <- & _). unfold draw. cbn [fst].
  specialize (Hg (S (2 * k))). apply Rabs_le. nra.
Qed.
Lemma draws_length g height angle n : List.length (draws g height angle n) = Z.to_nat n.
Proof. unfold draws. now rewrite map_length, seq_length. Qed.

Lemma filter_map_ext {A} (f g : A -> bool) l : (forall x, In x l -> f x = g x) -> filter f l = filter g l.
Proof.
  induction l as [|a l IH]; intros H; cbn; auto. rewrite (H a) by now left.
  rewrite IH by (intros; apply H; now right). reflexivity.
Qed.

(** ** The rays that pass the stop *)
Record stop_at (e : @elem XR) (ps : list piece) (z D : R) : Prop := {
  sa_pos : 0 < D;
  sa_stop : apertureStop e = Ok (mkStop (Some (Fin z)) (Some (Fin D)));
  sa_elem : exists i km, nth_error (leaves e) i = Some km /\ mdiam (snd km) = Fin D /\ z = depth ps (S i)
}.

Lemma has_stop e o ps z : aimed e o ps z -> z <> 0 -> Forall2 thin_aperture (leaves e) ps ->
  hasFiniteApertureDiameter e = true -> rblk (traceThrough e probe) = false ->
  exists D, stop_at e ps z D.
Proof.
  intros Ha Hz HT Hf Hp. destruct Ha as [Hc HF HA _ [d Es] _].
  destruct (stop_limits e o ps Hc HF HA HT Hf Hp) as [(E & _)|(i & D & (km & Ei & ED) & HD & E & _)].
  - rewrite Es in E. injection E as E _. contradiction.
  - rewrite Es in E. injection E as E1 E2. exists D. constructor; auto.
    + now rewrite Es, E2.
    + exists i, km. auto.
Qed.

Lemma beyond_stopped e o ps z D p : aimed e o ps z -> Forall2 thin_aperture (leaves e) ps ->
  stop_at e ps z D -> beyond ps z D p = true -> stopped e p = true.
Proof.
  intros [Hc HF HA _ _ _] HT [_ _ (i & km & Ei & ED & Ez)] Hb.
  unfold stopped. apply not_false_is_true. intros F. rewrite passes_nth in F by reflexivity.
  specialize (F i km Ei). destruct p as [y th].
  change (source_ray (y, th)) with (fray y th 0 false PInf None) in F.
  rewrite (misses_axis _ _ HF HA HT i km y th 0 false PInf None Ei), ED in F.
  destruct (matrix_at_depth _ _ (S i) HF HT) as [EA EB].
  unfold beyond, height_at in Hb. rewrite Ez in Hb. unfold mapp in Hb, F. cbn [fst snd] in *.
  rewrite EA, EB in Hb. congruence.
Qed.

(** ** The classification *)
(** what the report needs of a path: an axial ray at angle [a] and a principal ray from height [v] *)
Section Tally.
Variables (e : @elem XR) (o : optic) (ps : list piece) (z D a v : R).
Hypothesis Haim : aimed e o ps z.
Hypothesis Hgroup : exists gk m es, e = Group gk m es.
Hypothesis Hair : onf o = 1.
Hypothesis Ha : 0 < a.
Hypothesis Hv : 0 < v.
Hypothesis Hreach : Rabs (height_at ps z (0, a)) = D / 2.

Definition axial_at : @ray XR := fray 0 a 0 false PInf None.

Lemma air_invariant y1 th1 y2 th2 :
  opticalInvariant e (fray y1 th1 0 false PInf None) (fray y2 th2 0 false PInf None) c0 =
  Ok (Fin (th1 * y2 - y1 * th2)).
Proof.
  change (@c0 XR _) with (Fin 0).
  rewrite (invariant_conserved e o ps 0 y1 th1 0 PInf None y2 th2 0 PInf None
    (am_canon _ _ _ _ Haim) (am_pieces _ _ _ _ Haim) (am_lin _ _ _ _ Haim)); try lra; auto.
  - rewrite Hair. do 2 f_equal. ring.
  - destruct Hgroup as (? & ? & ? & ->). exact I.
  - destruct Hgroup as (? & ? & ? & ->). exact I.
Qed.

(** the coefficients of a ray along the axial and the principal ray *)
Definition along (p : R * R) : XR * XR :=
  (Fin ((snd p - aim ps z * fst p) / a), Fin (fst p / v)).
Definition expected (p : R * R) : bool := beyond ps z D p || outside v p.

Lemma B_neq : B_ (matrix_to ps z) <> 0.
Proof.
  intros E. pose proof (am_B _ _ _ _ Haim) as H. rewrite E, Rabs_R0 in H. lra.
Qed.

Lemma height_aim p : height_at ps z p = B_ (matrix_to ps z) * (snd p - aim ps z * fst p).
Proof.
  pose proof B_neq. destruct p as [y th]. unfold height_at, mapp, aim. cbn [fst snd]. field. auto.
Qed.

Lemma Rltb_scale k x y : 0 < k -> Rltb (k * x) (k * y) = Rltb x y.
Proof.
  intros Hk. destruct (Rltb x y) eqn:E.
  - apply Rltb_true in E. apply Rltb_lt. now apply Rmult_lt_compat_l.
  - apply Rltb_false in E. apply Rltb_ge. apply Rmult_le_compat_l; lra.
Qed.

Lemma expected_test p :
  nltb (Fin (a * v)) (nabs (Fin (snd p * v - fst p * (aim ps z * v)))) ||
  nltb (Fin (a * v)) (nabs (Fin (a * fst p - 0 * snd p))) = expected p.
Proof.
  cbn [nltb xltb nabs xabs NumXR]. unfold expected, beyond, outside.
  pose proof (Rabs_pos_lt _ B_neq) as HB. f_equal.
  - rewrite <- Hreach, !height_aim. cbn [fst snd]. rewrite Rmult_0_r, Rminus_0_r, !Rabs_mult.
    rewrite Rltb_scale by auto. rewrite (Rabs_pos_eq a) by lra.
    replace (snd p * v - fst p * (aim ps z * v)) with (v * (snd p - aim ps z * fst p)) by ring.
    rewrite Rabs_mult, (Rabs_pos_eq v) by lra. rewrite (Rmult_comm a v). now apply Rltb_scale.
  - replace (a * fst p - 0 * snd p) with (a * fst p) by ring.
    rewrite Rabs_mult, (Rabs_pos_eq a) by lra. now apply Rltb_scale.
Qed.

Definition place (p : R * R) : XR := rz (traceThrough e (source_ray p)).
Definition is_through (p : R * R) : bool := negb (expected p) && negb (stopped e p).
Definition is_vignetted (p : R * R) : bool := negb (expected p) && stopped e p.

Lemma tally_ray_spec t p :
  tally_ray e axial_at (chief ps z v) (Fin (a * v)) t (source_ray p) =
  Ok (mkTally (t_expected t ++ map along (filter expected [p]))
              (t_through t ++ map along (filter is_through [p]))
              (t_vignetted t ++ map along (filter is_vignetted [p]))
              (t_places t ++ map place (filter is_vignetted [p]))).
Proof.
  unfold tally_ray, axial_at, chief.
  change (source_ray p) with (fray (fst p) (snd p) 0 false PInf None).
  rewrite !air_invariant. cbn [bind]. rewrite expected_test.
  change (fray (fst p) (snd p) 0 false PInf None) with (source_ray p).
  change (rblk (traceThrough e (source_ray p))) with (stopped e p).
  assert (a * v <> 0) as Hav by nra.
  rewrite !pdiv_fin by auto. cbn [bind].
  assert ((Fin ((snd p * v - fst p * (aim ps z * v)) / (a * v)), Fin ((a * fst p - 0 * snd p) / (a * v))) =
          along p) as ->.
  { unfold along. f_equal; f_equal; field; lra. }
  cbn [filter]. unfold is_through, is_vignetted.
  destruct (expected p), (stopped e p); cbn [negb andb map]; rewrite ?app_nil_r; reflexivity.
Qed.

Lemma tally_loop_spec l : forall t,
  tally_loop e axial_at (chief ps z v) (Fin (a * v)) (map (fun p => Ok (source_ray p)) l) t =
  Ok (mkTally (t_expected t ++ map along (filter expected l))
              (t_through t ++ map along (filter is_through l))
              (t_vignetted t ++ map along (filter is_vignetted l))
              (t_places t ++ map place (filter is_vignetted l))).
Proof.
  induction l as [|p l IH]; intros t.
  - cbn. rewrite !app_nil_r. now destruct t.
  - cbn [map tally_loop bind]. rewrite tally_ray_spec. cbn [bind]. rewrite IH.
    cbn [t_expected t_through t_vignetted t_places]. rewrite <- !app_assoc, <- !map_app, <- !filter_app.
    reflexivity.
Qed.

Lemma along_combines p : exists ca cp, along p = (Fin ca, Fin cp) /\
  fst p = ca * 0 + cp * v /\ snd p = ca * a + cp * (aim ps z * v).
Proof.
  unfold along. eexists _, _. split; [reflexivity|]. split; field; lra.
Qed.
End Tally.

(** ** The report *)
(** the numbers of a report, for the drawn rays [l] *)
Record counted (e : @elem XR) (ps : list piece) (z D a v height angle : R) (n : Z) (l : list (R * R))
    (r : @report XR) : Prop := {
  co_expected : t_expected (rp_tally r) = map (along ps z a v) (filter (expected ps z D v) l);
  co_through : t_through (rp_tally r) = map (along ps z a v) (filter (is_through e ps z D v) l);
  co_vignetted : t_vignetted (rp_tally r) = map (along ps z a v) (filter (is_vignetted e ps z D v) l);
  co_places : t_places (rp_tally r) = map (place e) (filter (is_vignetted e ps z D v) l);
  co_efficiency : rp_efficiency r = Fin (100 * INR (number (is_through e ps z D v) l) / IZR n);
  co_ratio : rp_ratio r = Fin (a * v / (height * angle) * 100);
  co_relative : rp_relative r = Fin (100 * INR (number (is_through e ps z D v) l) /
      INR (number (fun p => negb (expected ps z D v p)) l));
  co_loss : rp_loss r = if (2 <=? number (is_vignetted e ps z D v) l)%nat
      then Some (Fin (100 * INR (number (is_vignetted e ps z D v) l) /
                      INR (number (fun p => negb (expected ps z D v p)) l)))
      else None;
  co_lagrange : rp_lagrange r = Fin (a * v);
  co_stop : rp_stop_position r = Fin z /\ rp_stop_diameter r = Fin D;
  co_field : rp_field r = Fin (2 * v) /\ rp_height r = Fin v /\ rp_axial r = Fin a
}.

Lemma number_split {A} (f g : A -> bool) l :
  (number (fun p => f p && g p) l + number (fun p => f p && negb (g p)) l = number f l)%nat.
Proof.
  unfold number. induction l as [|x l IH]; cbn; auto.
  destruct (f x), (g x); cbn; rewrite <- ?IH; lia.
Qed.

Lemma percent_fin a b : (b <> 0)%Z -> @percent XR _ a b = Ok (Fin (100 * IZR a / IZR b)).
Proof.
  intros H. unfold percent. cbn [nofZ NumXR]. rewrite pdiv_fin by now apply not_0_IZR.
  do 2 f_equal. now rewrite mult_IZR.
Qed.
Lemma percent_zero a : @percent XR _ a 0 = Err ZeroDivisionError.
Proof. unfold percent. cbn [nofZ NumXR]. apply pdiv_zero. Qed.

Theorem report_counts (sin : XR -> XR) (hp : R) e o ps z D h f :
  aimed e o ps z -> z <> 0 -> stop_at e ps z D ->
  (exists gk m es, e = Group gk m es) -> onf o = 1 ->
  field_edge e h -> 3 / 80000 <= h < tried 42 -> fNumber e = Ok (Some f) ->
  exists fuel0 a v, v <= h < v + 2 * prec /\ 0 < v /\ 0 < a /\ Rabs (height_at ps z (0, a)) = D / 2 /\
  forall fuel g d oa n, (fuel0 <= fuel)%nat -> (0 < n)%Z ->
  let height := match d with Some x => x / 2 | None => v end in
  let angle := match oa with Some x => x | None => hp end in
  height * angle <> 0 ->
  let l := draws g height angle n in
  let got := reportEfficiency sin (Fin hp) fuel (fun k => Fin (g k)) e (option_map Fin d) (option_map Fin oa) n in
  match number (is_through e ps z D v) l with
  | O => got = Err (match number (is_vignetted e ps z D v) l with
                    | O => ZeroDivisionError | _ => ValueError end)
  | _ => exists r, got = Ok (Some r) /\ counted e ps z D a v height angle n l r /\
           rp_fnumber r = f /\ NA sin e = Ok (rp_NA r)
  end.
Proof.
  intros Ha Hz [HD Hs _] Hg H1 He Hh Hf.
  destruct (principal_ray_found e o ps z Ha Hz h He Hh) as (n0 & v & Hv & Hp).
  destruct (axial_ray e o ps z D (am_canon _ _ _ _ Ha) (am_pieces _ _ _ _ Ha) Hs HD (am_B _ _ _ _ Ha))
    as (a & Ea & Hapos & Hreach).
  assert (0 < v) as Hvpos by (unfold prec in Hv; lra).
  exists n0, a, v. split; auto. split; auto. split; auto. split; [exact Hreach|].
  intros fuel g d oa n Hfuel Hn height angle Hne l got.
  destruct (Hp fuel Hfuel) as (Ep & Efov & _).
  assert (lagrangeInvariant fuel e = Ok (Fin (a * v))) as EL.
  { unfold lagrangeInvariant. rewrite Ea. cbn [bind]. rewrite Ep. cbn [bind]. unfold chief.
    rewrite (air_invariant e o ps z Ha Hg H1). do 2 f_equal. ring. }
  assert (got = (t <- Ok (mkTally (map (along ps z a v) (filter (expected ps z D v) l))
      (map (along ps z a v) (filter (is_through e ps z D v) l))
      (map (along ps z a v) (filter (is_vignetted e ps z D v) l))
      (map (place e) (filter (is_vignetted e ps z D v) l)));;
    eff <- percent (count (t_through t)) n;;
    rel <- percent (count (t_through t)) (count (t_vignetted t) + count (t_through t));;
    loss <- (if (2 <=? count (t_vignetted t))%Z
             then x <- percent (count (t_vignetted t)) (count (t_vignetted t) + count (t_through t));; Ok (Some x)
             else Ok None);;
    if (count (t_through t) =? 0)%Z then Err ValueError
    else Ok (Some (mkReport t (Fin (a * v)) (Fin v) (Fin a)
      (nmul (mfi (emat e)) (sin (Fin a))) f (Fin (2 * v)) (Fin (height * angle)) (Fin height) (Fin angle)
      eff (Fin (a * v / (height * angle) * 100)) (Fin D) (Fin z) rel loss)))) as EG.
  { unfold got, reportEfficiency. rewrite Ep, Ea, EL. cbn [bind].
    change (nabs (Fin (a * v))) with (Fin (Rabs (a * v))).
    rewrite (Rabs_pos_eq (a * v)) by (apply Rmult_le_pos; lra).
    assert ((match option_map Fin oa with Some x => x | None => Fin hp end) = Fin angle) as ->
      by (destruct oa; reflexivity).
    assert ((match option_map Fin d with Some x => ndiv x c2 | None => ry (chief ps z v) end) = Fin height) as ->.
    { unfold height. destruct d; cbn [option_map]; [|reflexivity]. now rewrite half_fin. }
    rewrite sourceRays_draws by lia. fold l.
    change (fray 0 a 0 false PInf None) with (axial_at a).
    rewrite (tally_loop_spec e o ps z D a v Ha Hg H1 Hapos Hvpos Hreach).
    cbn [t_expected t_through t_vignetted t_places app bind].
    unfold NA. rewrite Ea. cbn [bind]. rewrite Hf. cbn [bind]. rewrite Efov. cbn [bind].
    change (nmul (Fin height) (Fin angle)) with (Fin (height * angle)).
    rewrite (pdiv_fin (a * v) (height * angle)) by auto. cbn [bind]. rewrite Hs. cbn [bind st_d st_z].
    reflexivity. }
  rewrite EG. cbn [bind t_through t_vignetted]. unfold count. rewrite !map_length.
  fold (number (is_through e ps z D v) l). fold (number (is_vignetted e ps z D v) l).
  assert (number (fun p => negb (expected ps z D v p)) l =
    number (is_vignetted e ps z D v) l + number (is_through e ps z D v) l)%nat as ENS.
  { symmetry. apply (number_split (fun p => negb (expected ps z D v p)) (stopped e) l). }
  rewrite (percent_fin _ n) by lia. cbn [bind].
  destruct (number (is_through e ps z D v) l) as [|k] eqn:EK.
  - destruct (number (is_vignetted e ps z D v) l) as [|j] eqn:EJ.
    + change (Z.of_nat 0 + Z.of_nat 0)%Z with 0%Z. now rewrite percent_zero.
    + rewrite percent_fin by lia. cbn [bind].
      destruct (2 <=? Z.of_nat (S j))%Z; [rewrite percent_fin by lia|]; reflexivity.
  - rewrite percent_fin by lia. cbn [bind].
    set (j := number (is_vignetted e ps z D v) l) in *.
    assert ((2 <=? Z.of_nat j)%Z = (2 <=? j)%nat) as E2.
    { destruct (2 <=? j)%nat eqn:E; [apply Nat.leb_le in E; apply Z.leb_le; lia|
        apply Nat.leb_gt in E; apply Z.leb_gt; lia]. }
    rewrite E2.
    assert ((if (2 <=? j)%nat then x <- @percent XR _ (Z.of_nat j) (Z.of_nat j + Z.of_nat (S k));; Ok (Some x)
             else Ok None) = Ok (if (2 <=? j)%nat
             then Some (Fin (100 * IZR (Z.of_nat j) / IZR (Z.of_nat j + Z.of_nat (S k)))) else None)) as ->.
    { destruct (2 <=? j)%nat; [rewrite percent_fin by lia|]; reflexivity. }
    cbn [bind]. destruct (Z.eqb_spec (Z.of_nat (S k)) 0); [lia|].
    eexists. split; [reflexivity|]. split; [|split; [reflexivity|unfold NA; rewrite Ea; reflexivity]].
    constructor; cbn [rp_tally rp_efficiency rp_ratio rp_relative rp_loss rp_lagrange rp_stop_position
      rp_stop_diameter rp_field rp_height rp_axial t_expected t_through t_vignetted t_places]; auto;
      rewrite ?EK, ?ENS, <- ?Nat2Z.inj_add, <- ?INR_IZR_INZ; auto.
Qed.

(** Inside the field every ray that gets through is counted, and no other *)
Theorem inside_field e o ps z D v l : aimed e o ps z -> Forall2 thin_aperture (leaves e) ps ->
  stop_at e ps z D -> Forall (fun p => Rabs (fst p) <= v) l ->
  filter (is_through e ps z D v) l = filter (fun p => negb (stopped e p)) l /\
  filter (is_vignetted e ps z D v) l = filter (fun p => negb (beyond ps z D p) && stopped e p) l /\
  filter (expected ps z D v) l = filter (beyond ps z D) l.
Proof.
  intros Ha HT Hs HF. rewrite Forall_forall in HF.
  assert (forall p, In p l -> expected ps z D v p = beyond ps z D p) as HE.
  { intros p Hp. unfold expected, outside. rewrite (Rltb_ge v) by auto. apply orb_false_r. }
  split; [|split]; apply filter_map_ext; intros p Hp; unfold is_through, is_vignetted; rewrite (HE p Hp); auto.
  destruct (beyond ps z D p) eqn:E; auto. now rewrite (beyond_stopped e o ps z D p Ha HT Hs E).
Qed.

(** the default object: the efficiency is the fraction of the drawn rays that get through *)
Theorem default_efficiency (sin : XR -> XR) (hp : R) e o ps z h f :
  aimed e o ps z -> z <> 0 -> Forall2 thin_aperture (leaves e) ps ->
  hasFiniteApertureDiameter e = true -> rblk (traceThrough e probe) = false ->
  (exists gk m es, e = Group gk m es) -> onf o = 1 ->
  field_edge e h -> 3 / 80000 <= h < tried 42 -> fNumber e = Ok (Some f) -> 0 < hp ->
  exists fuel0 D a v, stop_at e ps z D /\ v <= h < v + 2 * prec /\ 0 < v /\ 0 < a /\
    rblk (traceThrough e (source_ray (0, a))) = false /\
  forall fuel g d oa n, (fuel0 <= fuel)%nat -> (0 < n)%Z -> (forall k, 0 <= g k < 1) ->
  (forall x, d = Some x -> 0 < x <= 2 * v) -> (forall x, oa = Some x -> 0 < x) ->
  let height := match d with Some x => x / 2 | None => v end in
  let angle := match oa with Some x => x | None => hp end in
  let l := draws g height angle n in
  let passed := number (fun p => negb (stopped e p)) l in
  let vignetted := number (fun p => negb (beyond ps z D p) && stopped e p) l in
  let got := reportEfficiency sin (Fin hp) fuel (fun k => Fin (g k)) e (option_map Fin d) (option_map Fin oa) n in
  match passed with
  | O => got = Err (match vignetted with O => ZeroDivisionError | _ => ValueError end)
  | _ => exists r, got = Ok (Some r) /\
      rp_efficiency r = Fin (100 * INR passed / IZR n) /\
      rp_relative r = Fin (100 * INR passed / INR (passed + vignetted)) /\
      rp_loss r = (if (2 <=? vignetted)%nat then Some (Fin (100 * INR vignetted / INR (passed + vignetted))) else None) /\
      rp_ratio r = Fin (a * v / (height * angle) * 100) /\
      List.length (t_expected (rp_tally r)) = number (beyond ps z D) l /\
      (List.length (t_expected (rp_tally r)) + List.length (t_through (rp_tally r)) +
       List.length (t_vignetted (rp_tally r)))%nat = Z.to_nat n
  end.
Proof.
  intros Ha Hz HT Hfin Hp Hg H1 He Hh Hf Hhp.
  destruct (has_stop e o ps z Ha Hz HT Hfin Hp) as (D & HS).
  destruct (report_counts sin hp e o ps z D h f Ha Hz HS Hg H1 He Hh Hf)
    as (n0 & a & v & Hv & Hv0 & Ha0 & Hr & HR).
  exists n0, D, a, v. split; auto. split; auto. split; auto. split; auto. split.
  { destruct Ha as [Hc HF HA Hop [dd Ess] HB].
    destruct (stop_limits e o ps Hc HF HA HT Hfin Hp) as [(E & _)|(i & D' & _ & _ & E & Hlim)].
    - rewrite (sa_stop _ _ _ _ HS) in E. discriminate.
    - rewrite (sa_stop _ _ _ _ HS) in E. injection E as E1 E2. subst D'.
      change (source_ray (0, a)) with (fray 0 a 0 false PInf None). rewrite Hlim.
      destruct (matrix_at_depth _ _ (S i) HF HT) as [EA EB]. apply Rltb_ge. rewrite <- Hr.
      unfold height_at, axis_height, mapp. cbn [fst snd]. rewrite E1, EA, EB. lra. }
  intros fuel g d oa n Hfuel Hn Hgr Hd Hoa height angle l passed vignetted got.
  assert (0 < height) as Hhe.
  { unfold height. destruct d; [|auto]. specialize (Hd _ eq_refl). lra. }
  assert (0 < angle) as Han by (unfold angle; destruct oa; auto).
  assert (height * angle <> 0) as Hne by nra.
  specialize (HR fuel g d oa n Hfuel Hn). cbn zeta in HR. fold height in HR. fold angle in HR.
  specialize (HR Hne). fold l in HR.
  assert (Forall (fun p => Rabs (fst p) <= v) l) as HF.
  { apply Forall_forall. intros p Hpl. apply Rle_trans with height.
    - apply (draws_inside g height angle n p Hgr); [lra|exact Hpl].
    - unfold height. destruct d; [|lra]. specialize (Hd _ eq_refl). lra. }
  destruct (inside_field e o ps z D v l Ha HT HS HF) as (F1 & F2 & F3).
  assert (number (is_through e ps z D v) l = passed) as E1 by (unfold number, passed; now rewrite F1).
  assert (number (is_vignetted e ps z D v) l = vignetted) as E2 by (unfold number, vignetted; now rewrite F2).
  assert (number (fun p => negb (expected ps z D v p)) l = (passed + vignetted)%nat) as E3.
  { rewrite <- E1, <- E2, Nat.add_comm. symmetry.
    apply (number_split (fun p => negb (expected ps z D v p)) (stopped e) l). }
  rewrite E1, E2 in HR. destruct passed as [|k] eqn:EP; [exact HR|].
  destruct HR as (r & Hgot & HC & _). exists r. split; [exact Hgot|].
  destruct HC as [C1 C2 C3 C4 C5 C6 C7 C8 _ _ _].
  rewrite C1, C2, C3, C5, C6, C7, C8, E1, E2, E3, !map_length.
  split; auto. split; auto. split; auto. split; auto. split; [unfold number; now rewrite F3|].
  fold (number (expected ps z D v) l). fold (number (is_through e ps z D v) l).
  fold (number (is_vignetted e ps z D v) l). rewrite E1, E2, <- (draws_length g height angle n). fold l.
  rewrite <- Nat.add_assoc, <- E3. unfold number. clear. induction l as [|x l IH]; cbn; auto.
  destruct (expected ps z D v x); cbn; lia.
Qed.

(** every ray counted as vignetted is lost on an element, whose depth is listed *)
Theorem vignetted_where e o ps z D v p : aimed e o ps z -> Forall2 thin_aperture (leaves e) ps ->
  is_vignetted e ps z D v p = true ->
  exists i km Di, nth_error (leaves e) i = Some km /\ mdiam (snd km) = Fin Di /\
    place e p = Fin (depth ps (S i)) /\ Di / 2 < Rabs (height_at ps (depth ps (S i)) p).
Proof.
  intros [Hc HF HA _ _ _] HT Hp. apply andb_prop in Hp as [_ Hb]. unfold stopped in Hb.
  unfold place. destruct p as [y th].
  change (source_ray (y, th)) with (fray y th 0 false PInf None) in *.
  rewrite traceThrough_through, through_flatten in *.
  assert (Forall2 thin_if_limiting (leaves e) ps) as HT'.
  { clear -HT. induction HT as [|km q l ps (H1 & H2 & _) HT IH]; constructor; auto.
    destruct H2 as [H2|H2]; [right|left]; auto. }
  destruct (blocked_at _ _ HF HA HT' y th PInf None Hb) as (i & km & Ei & Mi & _ & Ez & _).
  rewrite (misses_axis _ _ HF HA HT i km y th 0 false PInf None Ei) in Mi.
  destruct (mdiam (snd km)) as [Di| | |] eqn:ED; try discriminate.
  exists i, km, Di. split; auto. split; auto. split; [exact Ez|]. apply Rltb_true in Mi.
  destruct (matrix_at_depth _ _ (S i) HF HT) as [EA EB].
  unfold height_at, mapp in *. cbn [fst snd] in *. now rewrite EA, EB.
Qed.
