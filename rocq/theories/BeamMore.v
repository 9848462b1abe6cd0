(** Gaussian beams built from w and R, cavity modes, and beams drawn in pieces. *)
From Coq Require Import Reals Lra Lia List Bool String ZArith Psatz.
From Verif Require Import Base Nums Optics Spec MatrixProofs ElementProofs GroupProofs
  TraceProofs RayProofs CardinalProofs StrictProofs FlipProofs Beam BeamProofs.
Import ListNotations.
Open Scope list_scope.
Open Scope R_scope.

(** ** Beams built from w, R, n and the wavelength *)
Definition flat_or_curved (R : XR) : Prop :=
  match R with Fin r => r <> 0 | PInf => True | _ => False end.

(** 1/q = 1/R - i wl/(n pi w^2) *)
Definition spread (w n wl : R) : R := wl / (n * (PI * w * w)).
Definition q_spec (w : R) (r : XR) (n wl : R) : C2 :=
  (curv r / (curv r * curv r + spread w n wl * spread w n wl),
   spread w n wl / (curv r * curv r + spread w n wl * spread w n wl)).

Lemma spread_pos w n wl : 0 < w -> 0 < n -> 0 < wl -> 0 < spread w n wl.
Proof.
  intros. unfold spread. pose proof PI_RGT_0. apply Rdiv_lt_0_compat; auto.
  apply Rmult_lt_0_compat; auto. apply Rmult_lt_0_compat; auto. apply Rmult_lt_0_compat; auto.
Qed.

Lemma q_of_w_fin w r n wl : 0 < w -> flat_or_curved r -> 0 < n -> 0 < wl ->
  q_of_w (Fin w) r (Fin n) (Fin wl) = Ok (fcx (q_spec w r n wl)).
Proof.
  intros Hw Hr Hn Hl. pose proof PI_RGT_0 as HP. pose proof (spread_pos w n wl Hw Hn Hl) as HS.
  assert (pdiv (@c1 XR _) r = Ok (Fin (curv r))) as E1.
  { destruct r as [r| | |]; cbn in Hr; try contradiction.
    - unfold pdiv. change (neqb (Fin r) (@c0 XR _)) with (Reqb r 0). unfold Reqb.
      destruct (Req_EM_T r 0); [contradiction|].
      change (ndiv (@c1 XR _) (Fin r)) with (xdiv (Fin 1) (Fin r)). cbn [xdiv].
      destruct (Req_EM_T r 0); [contradiction|]. cbn [curv]. do 2 f_equal. field; auto.
    - reflexivity. }
  unfold q_of_w. rewrite E1. cbn [bind].
  change (mkC (@c0 XR _) (@c1 XR _)) with (fcx (0, 1)). rewrite (cof_fin wl), cmul_fin, (cof_fin n).
  rewrite cdiv_fin by (intros [= ->]; lra). cbn [bind].
  change (nmul (nmul (@npi XR _) (Fin w)) (Fin w)) with (Fin (PI * w * w)).
  assert (0 < PI * w * w) as HW.
  { apply Rmult_lt_0_compat; auto. now apply Rmult_lt_0_compat. }
  rewrite cof_fin, cdiv_fin by (intros [= E]; lra). cbn [bind].
  rewrite cof_fin, csub_fin. change (cof (@c1 XR _)) with (fcx (1, 0)).
  assert (c2div (c2div (c2mul (0, 1) (wl, 0)) (n, 0)) (PI * w * w, 0) = (0, spread w n wl)) as ->.
  { unfold c2div, c2mul, normsq, spread; cbn [fst snd]. apply c2_eq; cbn [fst snd]; field; lra. }
  cbn [fst snd]. replace (curv r - 0) with (curv r) by ring.
  replace (0 - spread w n wl) with (- spread w n wl) by ring.
  rewrite cdiv_fin by (intros [= E E']; lra).
  do 2 f_equal. unfold c2div, q_spec, normsq. cbn [fst snd].
  apply c2_eq; cbn [fst snd]; field; nra.
Qed.

Lemma q_spec_facts w r n wl : 0 < w -> 0 < n -> 0 < wl ->
  0 < snd (q_spec w r n wl) /\ q_spec w r n wl <> (0, 0) /\
  c2div (1, 0) (q_spec w r n wl) = (curv r, - spread w n wl) /\
  normsq (q_spec w r n wl) = snd (q_spec w r n wl) / spread w n wl.
Proof.
  intros Hw Hn Hl. pose proof (spread_pos w n wl Hw Hn Hl) as HS.
  assert (0 < curv r * curv r + spread w n wl * spread w n wl) as HD by nra.
  assert (0 < snd (q_spec w r n wl)) as HY.
  { unfold q_spec; cbn [snd]. now apply Rdiv_lt_0_compat. }
  assert (q_spec w r n wl <> (0, 0)) as HQ by (intros E; rewrite E in HY; cbn in HY; lra).
  assert (normsq (q_spec w r n wl) = snd (q_spec w r n wl) / spread w n wl) as HN.
  { unfold normsq, q_spec; cbn [fst snd]. field. lra. }
  repeat split; auto.
  unfold c2div. rewrite HN. apply c2_eq; cbn [fst snd]; unfold q_spec; cbn [fst snd]; field; lra.
Qed.

Definition waist_beam (w : R) (r : XR) (n wl z : R) : @beam XR := fbeam (q_spec w r n wl) wl z n false.

Lemma sqrt_sq x : 0 <= x -> sqrt (x * x) = x.
Proof. apply sqrt_square. Qed.

Lemma beam_reports w r n wl z : 0 < w -> flat_or_curved r -> 0 < n -> 0 < wl ->
  exists b, GaussianBeam None (Some (Fin w)) r (Fin n) (Fin wl) (Fin z) = Ok b /\
    b = waist_beam w r n wl z /\
    isFinite b = Ok true /\ bw b = Ok (Fin w) /\ bR b = Ok r /\
    bwl b = Fin wl /\ bn b = Fin n /\ bz b = Fin z /\ bclip b = false.
Proof.
  intros Hw Hr Hn Hl. exists (waist_beam w r n wl z).
  destruct (q_spec_facts w r n wl Hw Hn Hl) as (HY & HQ & HI & HN).
  pose proof (spread_pos w n wl Hw Hn Hl) as HS. pose proof PI_RGT_0 as HP.
  split; [|split; [|split; [|split; [|split]]]].
  - unfold GaussianBeam. rewrite q_of_w_fin by auto. reflexivity.
  - reflexivity.
  - unfold waist_beam. rewrite isFinite_fin. now destruct (Rlt_dec 0 _).
  - unfold waist_beam. rewrite bw_fin by auto. do 2 f_equal. unfold w_spec.
    replace (wl * normsq (q_spec w r n wl) / (n * PI * snd (q_spec w r n wl))) with (w * w).
    + apply sqrt_sq. lra.
    + rewrite HN. unfold spread. field. repeat split; try lra.
  - unfold bR, waist_beam, fbeam. cbn [bq]. rewrite czero.
    destruct (ceqb _ _) eqn:E; [apply ceqb_fin in E; contradiction|].
    change (cof (@c1 XR _)) with (fcx (1, 0)). rewrite cdiv_fin by auto. cbn [bind].
    rewrite HI. unfold fcx; cbn [fst snd re].
    change (neqb (Fin (curv r)) (@c0 XR _)) with (Reqb (curv r) 0). unfold Reqb.
    destruct r as [r| | |]; cbn in Hr; try contradiction; cbn [curv].
    + assert (/ r <> 0) by now apply Rinv_neq_0_compat.
      destruct (Req_EM_T (/ r) 0); [contradiction|].
      unfold pdiv. change (neqb (Fin (/ r)) (@c0 XR _)) with (Reqb (/ r) 0). unfold Reqb.
      destruct (Req_EM_T (/ r) 0); [contradiction|].
      change (ndiv (@c1 XR _) (Fin (/ r))) with (xdiv (Fin 1) (Fin (/ r))). cbn [xdiv].
      destruct (Req_EM_T (/ r) 0); [contradiction|]. do 2 f_equal. field; auto.
    + destruct (Req_EM_T 0 0); [reflexivity|contradiction].
  - repeat split.
Qed.

(** at a waist: the Rayleigh range is n pi w^2 / wl; wo is w times the square root of n *)
Lemma waist_zo w n wl z : 0 < w -> 0 < n -> 0 < wl ->
  rayleighRange (waist_beam w PInf n wl z) = Fin (n * PI * w * w / wl) /\
  confocalParameter (waist_beam w PInf n wl z) = Fin (n * PI * w * w / wl) /\
  waistPosition (waist_beam w PInf n wl z) = Fin 0 /\
  bwo (waist_beam w PInf n wl z) = Ok (Some (Fin (sqrt n * w))).
Proof.
  intros Hw Hn Hl. pose proof (spread_pos w n wl Hw Hn Hl) as HS. pose proof PI_RGT_0 as HP.
  assert (snd (q_spec w PInf n wl) = n * PI * w * w / wl) as HZ.
  { unfold q_spec; cbn [snd curv]. unfold spread. field. repeat split; try lra; nra. }
  assert (0 < n * PI * w * w / wl) as HZ0.
  { rewrite <- HZ. apply q_spec_facts; auto. }
  unfold rayleighRange, confocalParameter, bzo, waistPosition, waist_beam, fbeam. cbn [bq].
  unfold fcx at 1 2. cbn [im]. rewrite HZ.
  split; [reflexivity|]. split; [reflexivity|]. split.
  - unfold fcx; cbn [re]. unfold q_spec; cbn [fst curv].
    change (nopp (Fin (0 / (0 * 0 + spread w n wl * spread w n wl))))
      with (Fin (- (0 / (0 * 0 + spread w n wl * spread w n wl)))). f_equal. field. lra.
  - unfold bwo, bzo. cbn [bq bwl]. unfold fcx; cbn [im]. rewrite HZ.
    change (nltb (@c0 XR _) (Fin (n * PI * w * w / wl))) with (Rltb 0 (n * PI * w * w / wl)).
    unfold Rltb. destruct (Rlt_dec 0 (n * PI * w * w / wl)); [|contradiction].
    unfold pdiv. change (neqb (@npi XR _) (@c0 XR _)) with (Reqb PI 0). unfold Reqb.
    destruct (Req_EM_T PI 0); [lra|]. cbn [bind].
    change (ndiv (nmul (Fin (n * PI * w * w / wl)) (Fin wl)) (@npi XR _))
      with (xdiv (Fin (n * PI * w * w / wl * wl)) (Fin PI)). cbn [xdiv].
    destruct (Req_EM_T PI 0); [lra|].
    replace (n * PI * w * w / wl * wl / PI) with (n * (w * w)) by (field; lra).
    assert (0 <= n * (w * w)) by nra.
    unfold psqrt. change (nltb (Fin (n * (w * w))) (@c0 XR _)) with (Rltb (n * (w * w)) 0).
    unfold Rltb. destruct (Rlt_dec (n * (w * w)) 0); [lra|]. cbn [bind].
    change (nsqrt (Fin (n * (w * w)))) with (xsqrt (Fin (n * (w * w)))). cbn [xsqrt].
    destruct (Rlt_dec (n * (w * w)) 0); [lra|].
    rewrite sqrt_mult by nra. rewrite sqrt_sq by lra. reflexivity.
Qed.

(** w(z) = w sqrt (1 + (z/zo)^2) *)
Lemma waist_spreads w n wl z d : 0 < w -> 0 < n -> 0 < wl ->
  exists e b', Space (Fin d) (Fin n) PInf = Ok e /\
    beam_through e (waist_beam w PInf n wl z) = Ok b' /\
    bw b' = Ok (Fin (w * sqrt (1 + (d / (n * PI * w * w / wl)) * (d / (n * PI * w * w / wl))))) /\
    rayleighRange b' = Fin (n * PI * w * w / wl) /\ waistPosition b' = Fin (- d).
Proof.
  intros Hw Hn Hl. pose proof (spread_pos w n wl Hw Hn Hl) as HS. pose proof PI_RGT_0 as HP.
  set (zo := n * PI * w * w / wl).
  assert (q_spec w PInf n wl = (0, zo)) as HQ.
  { unfold q_spec; cbn [curv]. unfold zo, spread. apply c2_eq; cbn [fst snd]; field; repeat split; try lra; nra. }
  assert (0 < zo) as HZ0.
  { destruct (q_spec_facts w PInf n wl Hw Hn Hl) as (HY & _). rewrite HQ in HY. exact HY. }
  destruct (mul_beam_ok (mat_of (o_space d n) PInf PInf false "") (o_space d n) (0, zo) wl z false)
    as (cl & E & _); auto.
  { apply mat_of_describes. }
  { apply p_space. lra. }
  eexists _, _. split; [apply Space_ok; cbn; auto; lra|].
  unfold beam_through. cbn [beam_trace leaf_beam].
  unfold waist_beam. rewrite HQ. cbn [o_space onf] in E. rewrite E. cbn [bind last].
  assert (mobius (oM (o_space d n)) (0, zo) = (d, zo)) as ->.
  { unfold mobius, c2div, normsq; cbn. apply c2_eq; cbn; field. }
  split; [reflexivity|]. cbn [onb o_space]. split; [|split].
  - rewrite bw_fin by auto. do 2 f_equal. unfold w_spec, normsq. cbn [fst snd].
    replace (wl * (d * d + zo * zo) / (n * PI * zo))
      with ((w * w) * (1 + d / zo * (d / zo))).
    + rewrite sqrt_mult, sqrt_sq; try lra; try nra.
    + unfold zo. field. repeat split; lra.
  - reflexivity.
  - reflexivity.
Qed.

(** ** Cavity modes *)
Definition matrix_is (m : @mat XR) (M : M2) : Prop :=
  mA m = Fin (A_ M) /\ mB m = Fin (B_ M) /\ mC m = Fin (C_ M) /\ mD m = Fin (D_ M).

(** q comes back to itself: the denominator does not vanish and q = (A q + B)/(C q + D) *)
Definition round_trip (M : M2) (q : C2) : Prop :=
  c2add (c2scale (C_ M) q) (c2real (D_ M)) <> (0, 0) /\ mobius M q = q.

Definition disc (M : M2) : R := (D_ M - A_ M) * (D_ M - A_ M) + 4 * C_ M * B_ M.
Definition root (M : M2) (s : R) : C2 :=
  if Rlt_dec (disc M) 0 then (- (D_ M - A_ M) / (2 * C_ M), s * sqrt (- disc M) / (2 * C_ M))
  else ((- (D_ M - A_ M) + s * sqrt (disc M)) / (2 * C_ M), 0).

Lemma c2div_unique a b q : b <> (0, 0) -> c2mul q b = a -> c2div a b = q.
Proof.
  intros H <-. pose proof (normsq_pos b H) as HN. destruct b as [u v], q as [x y].
  unfold c2div, c2mul, normsq in *; cbn [fst snd] in *. apply c2_eq; cbn [fst snd]; field; lra.
Qed.

(** the two roots solve C q^2 + (D - A) q - B = 0 *)
Lemma root_eq M s : C_ M <> 0 -> s * s = 1 ->
  c2add (c2mul (c2scale (C_ M) (root M s)) (root M s))
    (c2add (c2scale (D_ M - A_ M) (root M s)) (c2real (- B_ M))) = (0, 0).
Proof.
  intros HC Hs. unfold root. destruct (Rlt_dec (disc M) 0) as [L|L].
  - set (k := sqrt (- disc M)). assert (k * k = - disc M) as Hk by (apply sqrt_sqrt; lra).
    unfold c2add, c2mul, c2scale, c2real; cbn [fst snd]. apply c2_eq; cbn [fst snd].
    + transitivity ((- (s * s) * (k * k) - disc M) / (4 * C_ M)).
      * unfold disc. field; auto.
      * rewrite Hs, Hk. field; auto.
    + field; auto.
  - set (k := sqrt (disc M)). assert (k * k = disc M) as Hk by (apply sqrt_sqrt; lra).
    unfold c2add, c2mul, c2scale, c2real; cbn [fst snd]. apply c2_eq; cbn [fst snd].
    + transitivity (((s * s) * (k * k) - disc M) / (4 * C_ M)).
      * unfold disc. field; auto.
      * rewrite Hs, Hk. field; auto.
    + field; auto.
Qed.

Lemma root_round_trip M s : C_ M <> 0 -> mdet M <> 0 -> s * s = 1 -> round_trip M (root M s).
Proof.
  intros HC HD Hs. pose proof (root_eq M s HC Hs) as E.
  remember (root M s) as q eqn:Eq. clear Eq. destruct q as [x y].
  unfold c2add, c2mul, c2scale, c2real in E; cbn [fst snd] in E. injection E as E1 E2.
  assert (c2add (c2scale (C_ M) (x, y)) (c2real (D_ M)) <> (0, 0)) as Hden.
  { unfold c2add, c2scale, c2real; cbn [fst snd]. intros [= F1 F2].
    assert (y = 0) as -> by nra. apply HD. unfold mdet.
    assert (C_ M * x = - D_ M) as F by lra. rewrite F in E1. nra. }
  split; auto. apply c2div_unique; auto.
  unfold c2mul, c2add, c2scale, c2real; cbn [fst snd]. apply c2_eq; cbn [fst snd]; lra.
Qed.

(** a product of complex numbers vanishes only when one of them does *)
Lemma c2mul_0 a b : c2mul a b = (0, 0) -> a = (0, 0) \/ b = (0, 0).
Proof.
  intros H. destruct a as [x y], b as [u v]. unfold c2mul in H; cbn [fst snd] in H.
  injection H as H1 H2.
  assert ((x * x + y * y) * (u * u + v * v) = 0) as E.
  { replace ((x * x + y * y) * (u * u + v * v))
      with ((x * u - y * v) * (x * u - y * v) + (x * v + y * u) * (x * v + y * u)) by ring.
    rewrite H1, H2. ring. }
  apply Rmult_integral in E. destruct E as [E|E]; [left|right]; apply normsq_0; exact E.
Qed.

(** any q that comes back to itself is one of the two roots *)
Lemma round_trip_root M q : C_ M <> 0 -> round_trip M q -> q = root M 1 \/ q = root M (-1).
Proof.
  intros HC [Hden E].
  assert (c2mul q (c2add (c2scale (C_ M) q) (c2real (D_ M))) =
          c2add (c2scale (A_ M) q) (c2real (B_ M))) as F.
  { rewrite <- E at 1. unfold mobius. now rewrite c2div_mul. }
  assert (c2mul (c2add q (c2scale (-1) (root M 1))) (c2add q (c2scale (-1) (root M (-1)))) = (0, 0)) as P.
  { destruct q as [x y]. unfold c2mul, c2add, c2scale, c2real in F; cbn [fst snd] in F.
    injection F as F1 F2. unfold root. destruct (Rlt_dec (disc M) 0) as [L|L].
    - set (k := sqrt (- disc M)). assert (k * k = - disc M) as Hk by (apply sqrt_sqrt; lra).
      unfold c2mul, c2add, c2scale; cbn [fst snd]. apply c2_eq; cbn [fst snd].
      + transitivity ((C_ M * (x * x) - C_ M * (y * y) + (D_ M - A_ M) * x
          + ((D_ M - A_ M) * (D_ M - A_ M) + k * k) / (4 * C_ M)) / C_ M); [field; auto|].
        rewrite Hk. unfold disc. apply Rmult_eq_reg_r with (C_ M); auto.
        unfold Rdiv at 1. rewrite Rmult_assoc, Rinv_l, Rmult_1_r by auto.
        transitivity (C_ M * (x * x) - C_ M * (y * y) + (D_ M - A_ M) * x - B_ M); [field; auto|]. lra.
      + transitivity ((2 * C_ M * x * y + (D_ M - A_ M) * y) / C_ M); [field; auto|].
        replace (2 * C_ M * x * y + (D_ M - A_ M) * y) with 0 by lra. field; auto.
    - set (k := sqrt (disc M)). assert (k * k = disc M) as Hk by (apply sqrt_sqrt; lra).
      unfold c2mul, c2add, c2scale; cbn [fst snd]. apply c2_eq; cbn [fst snd].
      + transitivity ((C_ M * (x * x) - C_ M * (y * y) + (D_ M - A_ M) * x
          + ((D_ M - A_ M) * (D_ M - A_ M) - k * k) / (4 * C_ M)) / C_ M); [field; auto|].
        rewrite Hk. unfold disc. apply Rmult_eq_reg_r with (C_ M); auto.
        unfold Rdiv at 1. rewrite Rmult_assoc, Rinv_l, Rmult_1_r by auto.
        transitivity (C_ M * (x * x) - C_ M * (y * y) + (D_ M - A_ M) * x - B_ M); [field; auto|]. lra.
      + transitivity ((2 * C_ M * x * y + (D_ M - A_ M) * y) / C_ M); [field; auto|].
        replace (2 * C_ M * x * y + (D_ M - A_ M) * y) with 0 by lra. field; auto. }
  destruct (c2mul_0 _ _ P) as [Z|Z]; [left|right];
    unfold c2add, c2scale in Z; injection Z as Z1 Z2; apply c2_eq; lra.
Qed.

Definition mode (q : C2) : @beam XR := mkBeam (fcx q) wl_default (Fin 0) (Fin 1) false.

Lemma csqrt_fin x : csqrt (Fin x) =
  fcx (if Rlt_dec x 0 then (0, sqrt (- x)) else (sqrt x, 0)).
Proof.
  unfold csqrt. change (nltb (Fin x) (@c0 XR _)) with (Rltb x 0). unfold Rltb.
  destruct (Rlt_dec x 0) as [L|L].
  - change (nopp (Fin x)) with (Fin (- x)). change (nsqrt (Fin (- x))) with (xsqrt (Fin (- x))).
    cbn [xsqrt]. destruct (Rlt_dec (- x) 0); [lra|reflexivity].
  - change (nsqrt (Fin x)) with (xsqrt (Fin x)).
    cbn [xsqrt]. destruct (Rlt_dec x 0); [lra|reflexivity].
Qed.

Lemma eigenModes_fin m M : matrix_is m M -> 1 / 100000 < Rabs (C_ M) ->
  eigenModes m = Ok (Some (mode (root M 1), mode (root M (-1)))).
Proof.
  intros (EA & EB & EC & ED) HP. unfold eigenModes, hasPower, isNotZero.
  rewrite EA, EB, EC, ED, eps5_val.
  change (nltb (Fin (1 / 100000)) (nabs (Fin (C_ M)))) with (Rltb (1 / 100000) (Rabs (C_ M))).
  unfold Rltb. destruct (Rlt_dec (1 / 100000) (Rabs (C_ M))); [|contradiction]. cbn [negb].
  assert (C_ M <> 0) as HC by (intros E; rewrite E, Rabs_R0 in HP; lra).
  assert (2 * C_ M <> 0) as HC2 by lra.
  cbn [nsub nmul nopp nofZ NumXR xsub xadd xmul xopp c2].
  change (IZR 4) with 4.
  rewrite csqrt_fin.
  replace ((D_ M + - A_ M) * (D_ M + - A_ M) + - (4 * C_ M * - B_ M)) with (disc M)
    by (unfold disc; ring).
  change (nmul (@c2 XR _) (Fin (C_ M))) with (Fin (2 * C_ M)).
  rewrite !cof_fin, csub_fin, cadd_fin.
  rewrite !cdiv_fin by (intros [= E]; lra). cbn [bind].
  unfold mode, beam_of_q, root. change (@c0 XR _) with (Fin 0). change (@c1 XR _) with (Fin 1).
  do 3 f_equal; f_equal; f_equal; unfold c2div, c2add, normsq;
    destruct (Rlt_dec (disc M) 0); cbn [fst snd]; apply c2_eq; cbn [fst snd]; field; auto.
Qed.

Lemma mode_finite q : isFinite (mode q) = Ok (if Rlt_dec 0 (snd q) then true else false).
Proof. apply (isFinite_fin q 0 0 1 false). Qed.

(** signs of the imaginary parts of the two roots *)
Lemma root_im M : C_ M <> 0 ->
  (disc M < 0 -> (0 < snd (root M 1) /\ snd (root M (-1)) < 0) \/
                 (snd (root M 1) < 0 /\ 0 < snd (root M (-1)))) /\
  (0 <= disc M -> snd (root M 1) = 0 /\ snd (root M (-1)) = 0).
Proof.
  intros HC. unfold root. destruct (Rlt_dec (disc M) 0) as [L|L]; cbn [snd]; split; intros H; try lra.
  assert (0 < sqrt (- disc M)) as K by (apply sqrt_lt_R0; lra).
  set (k := sqrt (- disc M)) in *.
  replace (1 * k / (2 * C_ M)) with (k * / (2 * C_ M)) by (field; auto).
  replace (-1 * k / (2 * C_ M)) with (- (k * / (2 * C_ M))) by (field; auto).
  destruct (Rtotal_order 0 (C_ M)) as [P|[P|P]]; [left|lra|right].
  - assert (0 < / (2 * C_ M)) by (apply Rinv_0_lt_compat; lra). nra.
  - assert (/ (2 * C_ M) < 0) by (apply Rinv_lt_0_compat; lra). nra.
Qed.

Lemma modes_ok m M : matrix_is m M -> 1 / 100000 < Rabs (C_ M) -> mdet M <> 0 ->
  exists q1 q2 l, eigenModes m = Ok (Some (mode q1, mode q2)) /\
    round_trip M q1 /\ round_trip M q2 /\
    (forall q, round_trip M q -> q = q1 \/ q = q2) /\
    laserModes m = Ok l /\ (List.length l <= 1)%nat /\
    (forall b, In b l <-> (b = mode q1 \/ b = mode q2) /\ isFinite b = Ok true) /\
    (forall b, mfi m = Fin 1 -> mbi m = Fin 1 -> 0 < mdet M -> In b l ->
       exists b', mul_beam m b = Ok b' /\ bq b' = bq b).
Proof.
  intros HM HP HD. assert (C_ M <> 0) as HC by (intros E; rewrite E, Rabs_R0 in HP; lra).
  exists (root M 1), (root M (-1)).
  destruct (root_im M HC) as [I1 I2].
  pose (l := (if Rlt_dec 0 (snd (root M 1)) then [mode (root M 1)] else []) ++
             (if Rlt_dec 0 (snd (root M (-1))) then [mode (root M (-1))] else [])).
  exists l.
  assert (round_trip M (root M 1)) as R1 by (apply root_round_trip; auto; lra).
  assert (round_trip M (root M (-1))) as R2 by (apply root_round_trip; auto; lra).
  pose proof (eigenModes_fin m M HM HP) as EE.
  assert (forall b, In b l <-> (b = mode (root M 1) \/ b = mode (root M (-1))) /\ isFinite b = Ok true) as HI.
  { intros b. unfold l. rewrite in_app_iff. split.
    - intros [H|H].
      + destruct (Rlt_dec 0 (snd (root M 1))) as [P|P]; [|contradiction].
        destruct H as [<-|[]]. split; auto. rewrite mode_finite.
        destruct (Rlt_dec 0 (snd (root M 1))); [reflexivity|contradiction].
      + destruct (Rlt_dec 0 (snd (root M (-1)))) as [P|P]; [|contradiction].
        destruct H as [<-|[]]. split; auto. rewrite mode_finite.
        destruct (Rlt_dec 0 (snd (root M (-1)))); [reflexivity|contradiction].
    - intros [[-> | ->] Hf]; rewrite mode_finite in Hf; [left|right].
      + destruct (Rlt_dec 0 (snd (root M 1))); [left; reflexivity|discriminate].
      + destruct (Rlt_dec 0 (snd (root M (-1)))); [left; reflexivity|discriminate]. }
  split; auto. split; auto. split; auto. split; [intros; now apply round_trip_root|].
  split.
  { unfold laserModes. rewrite EE. cbn [bind]. rewrite !mode_finite. cbn [bind].
    unfold l. now destruct (Rlt_dec 0 (snd (root M 1))), (Rlt_dec 0 (snd (root M (-1)))). }
  split.
  { unfold l. destruct (Rlt_dec (disc M) 0) as [L|L].
    - destruct (I1 L) as [[P1 P2]|[P1 P2]];
        destruct (Rlt_dec 0 (snd (root M 1))), (Rlt_dec 0 (snd (root M (-1)))); cbn; lra || lia.
    - destruct (I2 ltac:(lra)) as [P1 P2]. rewrite P1, P2.
      destruct (Rlt_dec 0 0); cbn; lra || lia. }
  split; auto.
  intros b E1 E2 HDp Hb. apply HI in Hb.
  assert (exists q, b = mode q /\ round_trip M q) as (q & -> & Hq).
  { destruct Hb as [[-> | ->] _]; eauto. }
  destruct Hb as [_ Hf]. rewrite mode_finite in Hf.
  destruct (Rlt_dec 0 (snd q)) as [Hy|]; [|discriminate].
  destruct HM as (EA & EB & EC & ED).
  assert (wl_default = Fin (6328 / 10000000)) as Ew.
  { unfold wl_default. now rewrite ndec_val by (cbn; lra). }
  unfold mul_beam, mode. rewrite Ew. cbn [bn bq bwl bz bclip]. rewrite E1.
  change (neqb (Fin 1) (Fin 1)) with (Reqb 1 1). unfold Reqb.
  destruct (Req_EM_T 1 1); [|contradiction]. cbn [negb].
  rewrite EA, EB, EC, ED, E2, !cscale_fin, !cof_fin, !cadd_fin.
  destruct Hq as [Hden Hq]. rewrite cdiv_fin by exact Hden. cbn [bind].
  change (c2div (c2add (c2scale (A_ M) q) (B_ M, 0)) (c2add (c2scale (C_ M) q) (D_ M, 0)))
    with (mobius M q). rewrite Hq.
  match goal with |- context [bw (mkBeam ?a ?b ?c ?d ?f)] => assert (exists w, bw (mkBeam a b c d f) = Ok w) as [w Ew'] end.
  { pose proof (bw_fin q (6328 / 10000000) 0 1 false Hy ltac:(lra) ltac:(lra)) as K.
    exists (Fin (w_spec q (6328 / 10000000) 1)). exact K. }
  rewrite Ew'. cbn [bind]. eexists. split; reflexivity.
Qed.

Lemma stable_iff m M : matrix_is m M -> 1 / 100000 < Rabs (C_ M) -> mdet M = 1 ->
  (isStable m = Ok true <-> (A_ M + D_ M) * (A_ M + D_ M) < 4) /\
  (isStable m = Ok false <-> 4 <= (A_ M + D_ M) * (A_ M + D_ M)).
Proof.
  intros HM HP HD. assert (C_ M <> 0) as HC by (intros E; rewrite E, Rabs_R0 in HP; lra).
  assert (disc M = (A_ M + D_ M) * (A_ M + D_ M) - 4) as HDi.
  { unfold disc. unfold mdet in HD. nra. }
  destruct (root_im M HC) as [I1 I2].
  assert (isStable m = Ok (if Rlt_dec (disc M) 0 then true else false)) as E.
  { unfold isStable, laserModes. rewrite (eigenModes_fin m M HM HP). cbn [bind].
    rewrite !mode_finite. cbn [bind].
    destruct (Rlt_dec (disc M) 0) as [L|L].
    - destruct (I1 L) as [[P1 P2]|[P1 P2]];
        destruct (Rlt_dec 0 (snd (root M 1))), (Rlt_dec 0 (snd (root M (-1)))); try lra; reflexivity.
    - destruct (I2 ltac:(lra)) as [P1 P2]. rewrite P1, P2.
      destruct (Rlt_dec 0 0); [lra|reflexivity]. }
  rewrite E, HDi.
  destruct (Rlt_dec ((A_ M + D_ M) * (A_ M + D_ M) - 4) 0);
    split; split; intros H; try discriminate; try reflexivity; try lra.
Qed.

(** ** Closing a cavity *)
Section Close.
Context {T : Type} {N : Num T}.
Lemma close_elements (g : @grp T) :
  gelems (appendElementsInReverse g false false) = gelems g ++ rev (gelems g) /\
  gelems (appendElementsInReverse g true false) = gelems g ++ rev (tl (gelems g)) /\
  gelems (appendElementsInReverse g false true) = gelems g ++ rev (removelast (gelems g)) /\
  gelems (appendElementsInReverse g true true) = gelems g ++ rev (tl (removelast (gelems g))).
Proof.
  unfold appendElementsInReverse; cbn [gelems].
  assert (pydrop 1 (gelems g) = tl (gelems g)) as E.
  { unfold pydrop, pybound. cbn [Z.ltb Z.compare].
    destruct (gelems g) as [|x t]; [reflexivity|].
    replace (Z.to_nat (Z.min (Z.max 1 0) (Z.of_nat (List.length (x :: t))))) with 1%nat; [reflexivity|].
    cbn [List.length]. lia. }
  rewrite E. split; [reflexivity|]. split; [reflexivity|]. split.
  - do 2 f_equal. rewrite Nat.sub_0_r. symmetry. rewrite removelast_firstn_len.
    f_equal. lia.
  - do 2 f_equal. destruct (gelems g) as [|x t]; [reflexivity|]. cbn [tl List.length].
    rewrite removelast_firstn_len. cbn [List.length Nat.pred].
    destruct t as [|y t]; [reflexivity|]. cbn [List.length firstn tl].
    f_equal. lia.
Qed.

(** the attributes of the cavity do not change; a later append() recomputes them *)
Lemma close_then_append (g : @grp T) a b e g' :
  append (appendElementsInReverse g a b) e = Ok g' ->
  exists e' p, gelems g' = gelems (appendElementsInReverse g a b) ++ [e'] /\
    group_transfer (gelems g') ninf = Ok p /\
    mA (gmat g') = mA p /\ mB (gmat g') = mB p /\ mC (gmat g') = mC p /\ mD (gmat g') = mD p.
Proof.
  unfold append, append_st. destruct (append_check _ e) as [e'|x]; [|discriminate].
  destruct (group_transfer _ ninf) as [p|x] eqn:E; [|discriminate].
  cbn [as_res]. intros [= <-]. exists e', p. cbn [gelems gmat copy_attrs mA mB mC mD].
  split; [reflexivity|]. split; [exact E|]. repeat split.
Qed.
End Close.

Lemma Forall2_rev {A B} (P : A -> B -> Prop) l l' : Forall2 P l l' -> Forall2 P (rev l) (rev l').
Proof.
  induction 1; [constructor|]. cbn [rev]. apply Forall2_app; auto.
Qed.

(** light going through the closed cavity, element by element *)
Lemma close_trace (es : list (@elem XR)) os n : Forall2 canon es os -> os <> [] ->
  Forall (fun o => physical o /\ onf o = n /\ onb o = n /\ mrev (oM o) = oM o) os ->
  Forall positive_leaf (flat_map leaves es) ->
  exists g, MatrixGroup_new es "" = Ok g /\
    forall q wl z cl, 0 < snd q -> 0 < wl ->
    exists b, beam_through (grp_elem (appendElementsInReverse g false false)) (fbeam q wl z n cl) = Ok b /\
      bq b = fcx (mobius (mmul (mprod (map (fun o => mrev (oM o)) (rev os))) (mprod (map oM os))) q) /\
      bz b = Fin (2 * total_length os + z) /\ bn b = Fin n.
Proof.
  intros HF Hn HS HP.
  assert (forall l, Forall (fun o => physical o /\ onf o = n /\ onb o = n /\ mrev (oM o) = oM o) l ->
            matched n l) as HMat.
  { induction 1 as [|o t (H1 & H2 & H3 & H4) Ht IH]; cbn; auto. rewrite H3. auto. }
  assert (chain os) as HC.
  { destruct os as [|o t]; [congruence|]. inversion HS as [|? ? (K1 & K2 & K3 & K4) Ht]; subst.
    split; auto. rewrite K3. auto. }
  destruct (MatrixGroup_new_ok es os "" (Forall2_canon_desc _ _ HF) HC Hn) as (g & G1 & G2 & _).
  exists g. split; auto. intros q wl z cl Hy Hl.
  destruct (close_elements g) as (Ec & _).
  pose proof (carries_all _ _ HF HP) as HK.
  assert (Forall2 carries (es ++ rev es) (os ++ rev os)) as HK2.
  { apply Forall2_app; auto. now apply Forall2_rev. }
  assert (Forall (fun o => physical o /\ onf o = n /\ onb o = n /\ mrev (oM o) = oM o) (os ++ rev os)) as HS2.
  { apply Forall_app. split; auto. apply Forall_rev; auto. }
  destruct os as [|o t]; [congruence|].
  assert (chain ((o :: t) ++ rev (o :: t))) as HC2.
  { cbn [app] in *. inversion HS2 as [|? ? (K1 & K2 & K3 & K4) Ht]; subst. split; auto. rewrite K3; auto. }
  cbn [app] in HK2, HC2.
  destruct (trace_elems_ok _ _ _ HK2 HC2 q wl z cl Hy Hl) as (l & cl' & E & _ & L & _).
  assert (onf o = n) as En by (inversion HS; tauto). rewrite En in *.
  unfold beam_through, grp_elem. cbn [beam_trace]. rewrite Ec, G2.
  rewrite E. cbn [bind].
  replace (last (fbeam q wl z n cl :: l) (fbeam q wl z n cl)) with (last l (fbeam q wl z n cl))
    by (destruct l; reflexivity).
  rewrite L. eexists. split; [reflexivity|]. split; [|split].
  - cbn [bq fbeam]. do 2 f_equal. rewrite path_optic_M. rewrite <- mprod_cons.
    change (oM o :: map oM (t ++ rev (o :: t))) with (map oM ((o :: t) ++ rev (o :: t))).
    rewrite map_app. unfold mprod at 1. rewrite fold_left_app.
    change (fold_left (fun acc M => mmul M acc) (map oM (o :: t)) mid) with (mprod (map oM (o :: t))).
    rewrite mprod_from. f_equal. f_equal. apply map_ext_in. intros x Hx.
    apply in_rev in Hx. rewrite Forall_forall in HS. symmetry. now apply HS.
  - cbn [bz fbeam]. do 2 f_equal.
    assert (forall l a, oL (path_optic a l) = oL a + total_length l) as H.
    { clear. induction l as [|x l IH]; intros a; [unfold total_length; cbn; ring|].
      change (path_optic a (x :: l)) with (path_optic (ocomp x a) l). rewrite IH.
      unfold total_length; cbn. ring. }
    assert (forall l l', total_length (l ++ l') = total_length l + total_length l') as H2.
    { clear. induction l; intros; unfold total_length in *; cbn; [ring|]. rewrite IHl. ring. }
    assert (forall l, total_length (rev l) = total_length l) as H3.
    { clear - H2. induction l; [reflexivity|]. cbn [rev]. rewrite H2, IHl. unfold total_length; cbn. ring. }
    rewrite H, H2, H3. unfold total_length; cbn. ring.
  - cbn [bn fbeam]. f_equal. rewrite path_optic_nb.
    rewrite Forall_forall in HS2. apply (HS2 _ (In_last _ o)).
Qed.

(** ** Drawing a beam in small steps *)
Lemma mprod_app l l' : mprod (l ++ l') = mmul (mprod l') (mprod l).
Proof.
  unfold mprod at 1. rewrite fold_left_app. rewrite mprod_from. reflexivity.
Qed.
Lemma total_app l l' : total_length (l ++ l') = total_length l + total_length l'.
Proof. induction l; unfold total_length in *; cbn; [ring|]. rewrite IHl. ring. Qed.
Lemma path_optic_L o os : oL (path_optic o os) = oL o + total_length os.
Proof.
  revert o. induction os as [|x l IH]; intros a; [unfold total_length; cbn; ring|].
  change (path_optic a (x :: l)) with (path_optic (ocomp x a) l). rewrite IH.
  unfold total_length; cbn. ring.
Qed.
Lemma onb_last (l : list optic) a b : onb a = onb b -> onb (last l a) = onb (last l b).
Proof. intros E. induction l as [|x t IH]; [exact E|]. destruct t; [reflexivity|exact IH]. Qed.

(** the first [k] pieces of length [d] *)
Lemma pieces_prod d n k : mprod (map oM (repeat (o_space d n) k)) = free (INR k * d).
Proof.
  induction k as [|k IH].
  - cbn. unfold mprod, free, mid; cbn. f_equal; ring.
  - cbn [repeat map]. rewrite mprod_cons, IH. rewrite S_INR. unfold free, mmul; cbn. f_equal; ring.
Qed.
Lemma pieces_length d n k : total_length (repeat (o_space d n) k) = INR k * d.
Proof.
  induction k as [|k IH]; [unfold total_length; cbn; ring|].
  cbn [repeat]. rewrite S_INR. unfold total_length in *; cbn. rewrite IH. ring.
Qed.
Lemma pieces_matched d n k l : n <> 0 -> matched n l -> matched n (repeat (o_space d n) k ++ l).
Proof.
  intros Hn Hl. induction k as [|k IH]; [exact Hl|].
  cbn [repeat app matched onf onb o_space]. split; auto. split; auto. now apply p_space.
Qed.
Lemma pieces_last d n k a : (1 <= k)%nat -> last (repeat (o_space d n) k) a = o_space d n.
Proof.
  intros H. destruct k as [|k]; [lia|]. clear H. revert a.
  induction k as [|k IH]; intros; [reflexivity|]. exact (IH a).
Qed.

(** a Space moves light over its own length *)
Definition true_space (e : @elem XR) (o : optic) : Prop :=
  isSpace e = true -> oM o = free (oL o).

Lemma Forall2_repeat {A B} (P : A -> B -> Prop) a b k : P a b -> Forall2 P (repeat a k) (repeat b k).
Proof. intros H. induction k; cbn; constructor; auto. Qed.

Lemma highResolution_ok N es os : (1 <= N)%nat ->
  Forall2 canon es os -> Forall2 true_space es os -> Forall positive_leaf (flat_map leaves es) ->
  exists es' os', highResolution N es = Ok es' /\ Forall2 canon es' os' /\
    Forall positive_leaf (flat_map leaves es') /\
    (forall n, matched n os -> matched n os') /\
    mprod (map oM os') = mprod (map oM os) /\ total_length os' = total_length os /\
    (forall a, onb (last os' a) = onb (last os a)) /\ (es <> [] -> os' <> []).
Proof.
  intros HN HF. induction HF as [|e o es os He HF IH]; intros HT HP.
  - exists [], []. cbn. repeat split; auto; constructor.
  - inversion HT as [|? ? ? ? Te Ts]; subst. cbn [flat_map] in HP. apply Forall_app in HP.
    destruct HP as [Pe Ps].
    destruct (IH Ts Ps) as (es' & os' & E & F1 & F2 & F3 & F4 & F5 & F6 & _).
    assert (exists es'' os'', highResolution N (e :: es) = Ok es'' /\ Forall2 canon es'' os'' /\
      Forall positive_leaf (flat_map leaves es'') /\
      (forall n, matched n (o :: os) -> matched n os'') /\
      mprod (map oM os'') = mprod (map oM (o :: os)) /\
      total_length os'' = total_length (o :: os) /\
      (forall a, onb (last os'' a) = onb (last (o :: os) a)) /\ os'' <> []) as HH.
    2:{ destruct HH as (x & y & Q1 & Q2 & Q3 & Q4 & Q5 & Q6 & Q7 & Q8).
        exists x, y. repeat (split; [assumption|]). auto. }
    destruct (isSpace e) eqn:Sp.
    + destruct e as [k m|]; [|discriminate]. destruct k; try discriminate.
      inversion He as [? ? ? HD Ph HS|]; subst. cbn [leaf_spec] in HS.
      pose proof (Te Sp) as HM. destruct Ph as (P1 & P2 & P3).
      cbn [highResolution]. rewrite E. cbn [bind]. dsc HD.
      assert (0 < INR N) as HI by (apply lt_0_INR; lia).
      unfold pdiv. change (nofZ (Z.of_nat N)) with (Fin (IZR (Z.of_nat N))). rewrite <- INR_IZR_INZ.
      change (neqb (Fin (INR N)) (@c0 XR _)) with (Reqb (INR N) 0). unfold Reqb.
      destruct (Req_EM_T (INR N) 0); [lra|]. cbn [bind].
      change (ndiv (Fin (oL o)) (Fin (INR N))) with (xdiv (Fin (oL o)) (Fin (INR N))). cbn [xdiv].
      destruct (Req_EM_T (INR N) 0); [lra|].
      change (@ninf XR _) with PInf.
      rewrite Space_ok by (cbn; auto). cbn [bind].
      pose (p := o_space (oL o / INR N) (onf o)).
      assert (INR N * (oL o / INR N) = oL o) as EL by (field; lra).
      eexists _, (repeat p N ++ os'). split; [reflexivity|].
      split; [|split; [|split; [|split; [|split; [|split]]]]].
      * apply Forall2_app; auto. apply Forall2_repeat.
        constructor; [apply mat_of_describes|now apply p_space|reflexivity].
      * rewrite flat_map_app. apply Forall_app. split; auto.
        cbn [leaves] in Pe. inversion Pe as [|? ? Pk _]; subst. destruct Pk as [Q1 _].
        cbn [snd] in Q1. rewrite (d_nf _ _ HD) in Q1. clear - Q1.
        apply Forall_flat_map. apply Forall_forall. intros x Hx. apply repeat_spec in Hx. subst x.
        cbn [leaves]. constructor; [|constructor]. split; [exact Q1|]. split; [exact Q1|exact I].
      * intros n1 (En & _ & Hm). rewrite <- En. unfold p. apply pieces_matched; auto.
        apply F3. now rewrite HS.
      * rewrite map_app, mprod_app. unfold p. rewrite pieces_prod, EL, F4.
        cbn [map]. rewrite mprod_cons, HM. reflexivity.
      * rewrite total_app. unfold p. rewrite pieces_length, EL, F5. reflexivity.
      * intros a. rewrite last_app. unfold p. rewrite pieces_last by lia. rewrite F6.
        change (o :: os) with ([o] ++ os). rewrite last_app. apply onb_last. cbn. exact HS.
      * destruct N; [lia|]. discriminate.
    + assert (highResolution N (e :: es) = Ok (e :: es')) as ->.
      { cbn [highResolution]. rewrite E. cbn [bind].
        destruct e as [k m|]; [|reflexivity]. destruct k; try reflexivity. discriminate. }
      exists (e :: es'), (o :: os'). split; [reflexivity|].
      split; [constructor; auto|]. split; [cbn [flat_map]; apply Forall_app; auto|].
      split; [intros n (Q1 & Q2 & Q3); split; auto|].
      split; [cbn [map]; rewrite !mprod_cons, F4; reflexivity|].
      split; [unfold total_length in *; cbn; now rewrite F5|].
      split; [|discriminate]. intros a.
      change (o :: os) with ([o] ++ os). change (o :: os') with ([o] ++ os').
      rewrite !last_app. apply F6.
Qed.

Lemma drawn_same N es os : (1 <= N)%nat ->
  Forall2 canon es os -> Forall2 true_space es os -> chain os -> os <> [] ->
  Forall positive_leaf (flat_map leaves es) ->
  exists g, MatrixGroup_new es "" = Ok g /\
    forall q wl z cl, 0 < snd q -> 0 < wl ->
    exists l b, drawn_beams N g (fbeam q wl z (onf (hd o_aperture os)) cl) = Ok l /\
      beam_through (grp_elem g) (fbeam q wl z (onf (hd o_aperture os)) cl) = Ok b /\
      same_place (last l (fbeam q wl z (onf (hd o_aperture os)) cl)) b.
Proof.
  intros HN HF HT HC Hn HP.
  destruct (MatrixGroup_new_ok es os "" (Forall2_canon_desc _ _ HF) HC Hn) as (g & G1 & G2 & _).
  exists g. split; auto. intros q wl z cl Hy Hl.
  destruct os as [|o t]; [congruence|]. cbn [hd].
  assert (es <> []) as Hes by (intros ->; inversion HF).
  destruct (highResolution_ok N es (o :: t) HN HF HT HP)
    as (es' & os' & E & F1 & F2 & F3 & F4 & F5 & F6 & F7).
  assert (matched (onf o) (o :: t)) as HM by (split; [reflexivity|exact HC]).
  pose proof (F3 _ HM) as HM'. specialize (F7 Hes).
  assert (chain os') as HC'.
  { destruct os' as [|o' t']; [congruence|]. cbn in HM' |- *. tauto. }
  destruct (MatrixGroup_new_ok es' os' "" (Forall2_canon_desc _ _ F1) HC' F7) as (h & K1 & K2 & _).
  pose proof (carries_all _ _ HF HP) as HK. pose proof (carries_all _ _ F1 F2) as HK'.
  assert (sign_ok o) as So by (inversion HK as [|? ? ? ? Q]; apply Q).
  pose (acc := mkO mid 0 (onf o) (onf o) None None).
  assert (sign_ok acc) as Sa by (split; apply So).
  assert (physical acc) as Pa.
  { unfold physical; cbn. rewrite mdet_id. destruct So. repeat split; try lra. field; lra. }
  assert (q = mobius (oM acc) q) as Eq by (cbn [acc oM]; now rewrite mobius_id).
  assert (z = oL acc + z) as Ez by (cbn [acc oL]; ring).
  destruct (trace_elems_after _ _ _ HK HM acc q wl z q z cl eq_refl Sa Pa Hy Hl Eq Ez)
    as (l1 & c1 & T1 & _ & _ & L1 & _).
  destruct (trace_elems_after _ _ _ HK' HM' acc q wl z q z cl eq_refl Sa Pa Hy Hl Eq Ez)
    as (l2 & c2 & T2 & _ & _ & L2 & _).
  unfold drawn_beams, beam_through, grp_elem. rewrite G2, E. cbn [bind]. rewrite K1. cbn [bind].
  unfold grp_elem. rewrite K2.
  cbn [beam_trace]. rewrite T1, T2. cbn [bind].
  do 2 eexists. split; [reflexivity|]. split; [reflexivity|].
  assert (forall b (l : list (@beam XR)), last (b :: l) b = last l b) as HL by (intros ? []; reflexivity).
  rewrite !HL, L1, L2. unfold same_place. cbn [fbeam bq bz bn].
  rewrite !path_optic_M, !path_optic_L, !path_optic_nb, F4, F5, F6. auto.
Qed.

(** the index of the beam along a path *)
Lemma index_tracked (es : list (@elem XR)) os o t : os = o :: t ->
  Forall2 canon es os -> chain os -> Forall positive_leaf (flat_map leaves es) ->
  exists g, MatrixGroup_new es "" = Ok g /\
    (forall q wl z cl, 0 < snd q -> 0 < wl ->
     exists b, beam_through (grp_elem g) (fbeam q wl z (onf o) cl) = Ok b /\
       bn b = Fin (onb (last t o))) /\
    (good os -> mfi (gmat g) = Fin (onf o) /\ mbi (gmat g) = Fin (onb (last t o))).
Proof.
  intros -> HF HC HP.
  destruct (MatrixGroup_new_ok es (o :: t) "" (Forall2_canon_desc _ _ HF) HC ltac:(discriminate))
    as (g & G1 & G2 & _).
  exists g. split; auto. split.
  - intros q wl z cl Hy Hl.
    destruct (trace_elems_ok _ _ _ (carries_all _ _ HF HP) HC q wl z cl Hy Hl)
      as (l & cl' & E & _ & L & _).
    unfold beam_through, grp_elem. cbn [beam_trace]. rewrite G2, E. cbn [bind].
    replace (last (fbeam q wl z (onf o) cl :: l) (fbeam q wl z (onf o) cl))
      with (last l (fbeam q wl z (onf o) cl)) by (destruct l; reflexivity).
    rewrite L. eexists. split; [reflexivity|]. cbn [bn fbeam]. now rewrite path_optic_nb.
  - intros HG.
    destruct (MatrixGroup_canon es (o :: t) "" HF HC HG ltac:(discriminate))
      as (g' & K1 & _ & _ & _ & _ & _ & K). rewrite G1 in K1. injection K1 as <-.
    pose proof (canon_describes _ _ (K o t eq_refl)) as D. cbn [emat grp_elem] in D.
    rewrite (d_nf _ _ D), (d_nb _ _ D), path_optic_nf, path_optic_nb. auto.
Qed.
