(** Traces in doubles stay close to traces in exact arithmetic. *)
From Coq Require Import ZArith Reals Lra Lia List Bool Floats.
From Verif Require Import Base Nums Optics TraceProofs Rounding RoundingOps Exact.
Import ListNotations.
Open Scope R_scope.

Lemma XF_fin f : ffin f -> XF f = Fin (FR f).
Proof. unfold ffin, XF. destruct (Prim2SF f) as [|[]| |]; cbn; tauto. Qed.
Lemma fin_XF f r : XF f = Fin r -> ffin f /\ r = FR f.
Proof. unfold ffin, XF. destruct (Prim2SF f) as [|[]| |]; cbn; intros H; try discriminate; injection H; auto. Qed.
Lemma p2_2 : p2 2 = 4. Proof. rewrite <- (p2_IZR 2) by lia. reflexivity. Qed.
Lemma p2_3 : p2 3 = 8. Proof. rewrite <- (p2_IZR 3) by lia. reflexivity. Qed.
Lemma p2_m3 : p2 (-3) = / 8. Proof. change (-3)%Z with (- (3))%Z. rewrite p2_opp, p2_3. reflexivity. Qed.
Definition g51 : R := p2 (-51).
Lemma g51_pos : 0 < g51. Proof. apply p2_pos. Qed.
Lemma g51_u : g51 = 4 * uro.
Proof. unfold g51, uro. change (-51)%Z with (2 + -53)%Z. rewrite p2_add, ?p2_2, ?p2_3. lra. Qed.
Lemma g51_tiny : g51 * tiny = 4 * eta.
Proof.
  unfold g51, tiny, eta. rewrite <- p2_add. change (-51 + -1022)%Z with (2 + -1075)%Z. rewrite p2_add, ?p2_2, ?p2_3. lra.
Qed.
Lemma uro_small : uro <= / 8.
Proof. unfold uro. pose proof (p2_le (-53) (-3) ltac:(lia)) as H. rewrite p2_m3 in H. lra. Qed.
Lemma tiny_pos : 0 < tiny. Proof. apply p2_pos. Qed.
Lemma eta_tiny : eta <= tiny. Proof. apply p2_le. lia. Qed.

(** ** One row of a matrix *)
Lemma triangle_2 a b x y : Rabs (a * x + b * y) <= Rabs a * Rabs x + Rabs b * Rabs y.
Proof. rewrite <- !Rabs_mult. apply Rabs_triang. Qed.
Lemma row_near a x b y : ffin a -> ffin x -> ffin b -> ffin y ->
  let P := Rabs (FR a) * Rabs (FR x) + Rabs (FR b) * Rabs (FR y) in
  P <= p2 1022 - 1 -> 
  ffin (a * x + b * y)%float /\ Rabs (FR (a * x + b * y)%float - (FR a * FR x + FR b * FR y)) <= g51 * (P + tiny).
Proof.
  intros Fa Fx Fb Fy P HP. rewrite Rmult_plus_distr_l, g51_tiny, g51_u.
  pose proof uro_pos as U. pose proof uro_small as U2. pose proof eta_pos as E.
  assert (p2 1023 = 2 * p2 1022) as E1. { change 1023%Z with (1 + 1022)%Z. rewrite p2_add, p2_1. reflexivity. }
  assert (2 <= p2 1022) as E2. { rewrite <- p2_1. apply p2_le. lia. }
  assert (eta <= / 8) as E3. { pose proof (p2_le (-1075) (-3) ltac:(lia)) as H. rewrite p2_m3 in H. unfold eta. lra. }
  assert (0 <= Rabs (FR a) * Rabs (FR x)) as P1 by (apply Rmult_le_pos; apply Rabs_pos).
  assert (0 <= Rabs (FR b) * Rabs (FR y)) as P2 by (apply Rmult_le_pos; apply Rabs_pos).
  destruct (fmul_near a x Fa Fx) as [F1 N1]; [rewrite Rabs_mult; unfold P in HP; lra|].
  destruct (fmul_near b y Fb Fy) as [F2 N2]; [rewrite Rabs_mult; unfold P in HP; lra|].
  rewrite Rabs_mult in N1, N2.
  set (f1 := FR (a * x)%float) in *. set (f2 := FR (b * y)%float) in *.
  assert (Rabs (f1 + f2) <= P + uro * P + 2 * eta) as S.
  { replace (f1 + f2) with ((f1 - FR a * FR x) + (f2 - FR b * FR y) + (FR a * FR x + FR b * FR y)) by ring.
    eapply Rle_trans; [apply Rabs_triang|]. pose proof (Rabs_triang (f1 - FR a * FR x) (f2 - FR b * FR y)). pose proof (triangle_2 (FR a) (FR b) (FR x) (FR y)).
    unfold P. lra. }
  assert (uro * P <= / 8 * P) as UP by (apply Rmult_le_compat_r; unfold P; lra).
  destruct (fadd_near (a * x)%float (b * y)%float F1 F2) as [F3 N3]; [fold f1 f2; unfold P in *; lra|].
  split; auto. fold f1 f2 in N3.
  assert (uro * Rabs (f1 + f2) <= uro * (P + uro * P + 2 * eta)) as S2 by (apply Rmult_le_compat_l; lra).
  assert (uro * (uro * P) <= uro * (/ 8 * P)) as S3 by (apply Rmult_le_compat_l; lra).
  assert (uro * eta <= / 8 * eta) as S4 by (apply Rmult_le_compat_r; lra).
  replace (FR (a * x + b * y)%float - (FR a * FR x + FR b * FR y)) with
    ((FR (a * x + b * y)%float - (f1 + f2)) + ((f1 - FR a * FR x) + (f2 - FR b * FR y))) by ring.
  eapply Rle_trans; [apply Rabs_triang|]. pose proof (Rabs_triang (f1 - FR a * FR x) (f2 - FR b * FR y)).
  assert (0 <= uro * P) by (apply Rmult_le_pos; unfold P; lra). 
  assert (uro * P = uro * (Rabs (FR a) * Rabs (FR x)) + uro * (Rabs (FR b) * Rabs (FR y))) as S5 by (unfold P; ring). nra.
Qed.

(** ** Growth of the error *)
Definition close (n : nat) (f : float) (x s : R) : Prop := ffin f /\ Rabs x <= s /\ Rabs (FR f - x) <= ((1 + g51) ^ n - 1) * s.
Lemma grow_ge n : 1 <= (1 + g51) ^ n.
Proof. apply pow_R1_Rle. pose proof g51_pos. lra. Qed.
Lemma close_abs n f x s : close n f x s -> Rabs (FR f) <= (1 + g51) ^ n * s.
Proof. intros (_ & H1 & H2). replace (FR f) with (FR f - x + x) by ring. pose proof (Rabs_triang (FR f - x) x). lra. Qed.
(** a bit more than a thousand million million elements *)
Definition few (n : nat) : Prop := INR n * g51 <= / 2.
Lemma grow_few n : few n -> (1 + g51) ^ n - 1 <= 2 * (INR n * g51).
Proof.
  intros H. assert (forall k, (k <= n)%nat -> (1 + g51) ^ k - 1 <= 2 * (INR k * g51)) as G; [|apply G; lia].
  unfold few in H. pose proof g51_pos as P. induction k as [|k IH]; intros Hk; [cbn; lra|].
  specialize (IH ltac:(lia)). rewrite S_INR, <- tech_pow_Rmult.
  assert (INR k * g51 <= / 2) as K. { apply Rle_trans with (INR n * g51); auto. apply Rmult_le_compat_r; [lra|]. apply le_INR. lia. }
  assert (g51 * (1 + g51) ^ k <= g51 * 2) by (apply Rmult_le_compat_l; lra). lra.
Qed.
Lemma part_few n s : few n -> 0 <= s -> ((1 + g51) ^ n - 1) * s <= part n * s.
Proof.
  intros H Hs. apply Rmult_le_compat_r; auto. eapply Rle_trans; [apply grow_few; auto|]. unfold part, g51. change (-50)%Z with (1 + -51)%Z. rewrite p2_add, p2_1. lra.
Qed.
Lemma few_le n k : few n -> (k <= n)%nat -> few k.
Proof.
  unfold few. intros H L. apply Rle_trans with (INR n * g51); auto. apply Rmult_le_compat_r; [apply Rlt_le, g51_pos|]. now apply le_INR.
Qed.

Lemma row_close n a x b y u v s t : few n -> ffin a -> ffin b -> close n x u s -> close n y v t ->
  Rabs (FR a) * s + Rabs (FR b) * t + tiny <= p2 1020 ->
  close (S n) (a * x + b * y)%float (FR a * u + FR b * v) (Rabs (FR a) * s + Rabs (FR b) * t + tiny).
Proof.
  intros Hn Fa Fb Cx Cy Hs. pose proof (close_abs _ _ _ _ Cx) as Ax. pose proof (close_abs _ _ _ _ Cy) as Ay.
  destruct Cx as (Fx & Bx & Ex), Cy as (Fy & By & Ey).
  pose proof (grow_ge n) as G1. pose proof (grow_few n Hn) as G2. unfold few in Hn.
  pose proof g51_pos as GP. pose proof tiny_pos as TP.
  set (G := (1 + g51) ^ n) in *. set (Q := Rabs (FR a) * s + Rabs (FR b) * t) in *.
  assert (0 <= s /\ 0 <= t) as [S0 T0] by (pose proof (Rabs_pos u); pose proof (Rabs_pos v); lra).
  pose proof (Rabs_pos (FR a)) as PA. pose proof (Rabs_pos (FR b)) as PB.
  assert (0 <= Q) as Q0. { unfold Q. pose proof (Rmult_le_pos _ _ PA S0). pose proof (Rmult_le_pos _ _ PB T0). lra. }
  set (P := Rabs (FR a) * Rabs (FR x) + Rabs (FR b) * Rabs (FR y)) in *.
  assert (P <= G * Q) as PQ.
  { unfold P, Q. pose proof (Rmult_le_compat_l _ _ _ PA Ax). pose proof (Rmult_le_compat_l _ _ _ PB Ay). lra. }
  assert (G * Q <= 2 * Q) as GQ by (apply Rmult_le_compat_r; lra).
  assert (p2 1022 = 4 * p2 1020) as E1. { change 1022%Z with (2 + 1020)%Z. rewrite p2_add, ?p2_2, ?p2_3. lra. }
  assert (1 <= p2 1020) as E2. { rewrite <- p2_0. apply p2_le. lia. }
  destruct (row_near a x b y Fa Fx Fb Fy) as [F N]; [fold P; lra|]. fold P in N.
  split; auto. split.
  - pose proof (triangle_2 (FR a) (FR b) u v). pose proof (Rmult_le_compat_l _ _ _ PA Bx). pose proof (Rmult_le_compat_l _ _ _ PB By). unfold Q. lra.
  - replace (FR (a * x + b * y)%float - (FR a * u + FR b * v)) with
      ((FR (a * x + b * y)%float - (FR a * FR x + FR b * FR y)) + (FR a * (FR x - u) + FR b * (FR y - v))) by ring.
    eapply Rle_trans; [apply Rabs_triang|]. pose proof (triangle_2 (FR a) (FR b) (FR x - u) (FR y - v)) as T.
    pose proof (Rmult_le_compat_l _ _ _ PA Ex) as X1. pose proof (Rmult_le_compat_l _ _ _ PB Ey) as X2.
    assert (Rabs (FR a) * ((G - 1) * s) + Rabs (FR b) * ((G - 1) * t) = (G - 1) * Q) as X3 by (unfold Q; ring).
    rewrite <- tech_pow_Rmult. fold G.
    assert (g51 * P <= g51 * (G * Q)) as X4 by (apply Rmult_le_compat_l; lra).
    assert (0 <= (G - 1) * tiny) as X5 by (apply Rmult_le_pos; lra).
    assert (0 <= g51 * G * tiny - g51 * tiny) as X6. { replace (g51 * G * tiny - g51 * tiny) with (g51 * ((G - 1) * tiny)) by ring. apply Rmult_le_pos; lra. }
    lra.
Qed.
Lemma sum_close n a x u s : few n -> ffin a -> close n x u s -> Rabs (FR a) + s + tiny <= p2 1020 ->
  close (S n) (a + x)%float (FR a + u) (Rabs (FR a) + s + tiny).
Proof.
  intros Hn Fa Cx Hs. pose proof (close_abs _ _ _ _ Cx) as Ax. destruct Cx as (Fx & Bx & Ex).
  pose proof (grow_ge n) as G1. pose proof (grow_few n Hn) as G2. unfold few in Hn.
  pose proof g51_pos as GP. pose proof tiny_pos as TP. pose proof uro_pos as UP. pose proof eta_pos as EP.
  set (G := (1 + g51) ^ n) in *. pose proof (Rabs_pos (FR a)) as PA. pose proof (Rabs_pos u) as PU.
  assert (G * s <= 2 * s) as GS by (apply Rmult_le_compat_r; lra).
  assert (p2 1023 = 8 * p2 1020) as E1. { change 1023%Z with (3 + 1020)%Z. rewrite p2_add, ?p2_2, ?p2_3. lra. }
  pose proof (p2_pos 1020) as E2. pose proof (Rabs_triang (FR a) (FR x)) as T1.
  destruct (fadd_near a x Fa Fx) as [F N]; [lra|]. split; auto. split; [pose proof (Rabs_triang (FR a) u); lra|].
  replace (FR (a + x)%float - (FR a + u)) with ((FR (a + x)%float - (FR a + FR x)) + (FR x - u)) by ring.
  eapply Rle_trans; [apply Rabs_triang|]. rewrite <- tech_pow_Rmult. fold G.
  assert (uro * Rabs (FR a + FR x) <= uro * (Rabs (FR a) + G * s)) as X1 by (apply Rmult_le_compat_l; lra).
  pose proof g51_u as GU. pose proof g51_tiny as GT.
  assert (0 <= uro * Rabs (FR a)) as X2 by (apply Rmult_le_pos; lra).
  assert (0 <= uro * (G * s)) as X3 by (apply Rmult_le_pos; [lra|apply Rmult_le_pos; lra]).
  assert (0 <= (G - 1) * (Rabs (FR a) + tiny)) as X5 by (apply Rmult_le_pos; lra).
  assert (0 <= g51 * ((G - 1) * (Rabs (FR a) + tiny))) as X6 by (apply Rmult_le_pos; lra).
  assert ((1 + g51) * G - 1 = (G - 1) + g51 * G) as X7 by ring.
  replace (((1 + g51) * G - 1) * (Rabs (FR a) + s + tiny)) with
    ((G - 1) * s + (G - 1) * (Rabs (FR a) + tiny) + g51 * (G * s) + g51 * ((G - 1) * (Rabs (FR a) + tiny)) + g51 * Rabs (FR a) + g51 * tiny) by ring.
  rewrite GT. rewrite GU at 1 3. lra.
Qed.

(** ** Paths without openings *)
Definition xkm (km : @kind float * @mat float) : @kind XR * @mat XR := (xkind (fst km), xmat (snd km)).
Record near_ray (n : nat) (f : @ray float) (x : @ray XR) (s : size) : Prop := mkNear {
  nr_y : exists y, ry x = Fin y /\ close n (ry f) y (szy s);
  nr_t : exists t, rth x = Fin t /\ close n (rth f) t (szt s);
  nr_z : exists z, rz x = Fin z /\ close n (rz f) z (szz s);
  nr_b : rblk f = rblk x }.
Lemma near_start r : ffin (ry r) -> ffin (rth r) -> ffin (rz r) -> near_ray 0 r (xray r) (size0 r).
Proof.
  intros Hy Ht Hz. pose proof tiny_pos.
  assert (forall f, ffin f -> exists y, XF f = Fin y /\ close 0 f y (Rabs (FR f) + tiny)) as G.
  { intros f Hf. exists (FR f). split; [now apply XF_fin|]. split; [auto|split; [lra|]].
    replace (FR f - FR f) with 0 by ring. rewrite Rabs_R0. cbn. lra. }
  constructor; cbn; auto.
Qed.
Lemma axicon_x km : not_axicon km -> not_axicon (xkm km).
Proof. destruct km as [[] m]; cbn; auto. Qed.
Lemma ideal_near n km f x s : few n -> tame km -> near_ray n f x s ->
  szy (sizeS s km) <= p2 1020 -> szt (sizeS s km) <= p2 1020 -> szz (sizeS s km) <= p2 1020 ->
  near_ray (S n) (ideal km f) (ideal (xkm km) x) (sizeS s km).
Proof.
  intros Hn [HA HB HC HD HL _ _ HK] [(y & Ey & Cy) (t & Et & Ct) (z & Ez & Cz) Eb] By Bt Bz.
  assert (forall (h : float) (hx : XR) k m, km = (k, m) -> (match fst km with KAxicon n0 alpha => axicon_th n0 alpha (ry f) h | _ => h end) = h /\
    (match fst (xkm km) with KAxicon n0 alpha => axicon_th n0 alpha (ry x) hx | _ => hx end) = hx) as K.
  { intros h hx k m ->. destruct k; cbn in *; tauto. }
  destruct km as [k m]. specialize (fun h hx => K h hx k m eq_refl). 
  constructor; unfold ideal; cbn [ry rth rz rblk]; auto; cbn [snd xkm xmat mA mB mC mD mL] in *.
  - exists (FR (mA m) * y + FR (mB m) * t). rewrite Ey, Et, !XF_fin by auto. split; [reflexivity|]. now apply row_close.
  - exists (FR (mC m) * y + FR (mD m) * t).
    rewrite (proj1 (K _ (Fin 0))), (proj2 (K (ry f) _)). rewrite Ey, Et, !XF_fin by auto. split; [reflexivity|]. now apply row_close.
  - exists (FR (mL m) + z). rewrite Ez, !XF_fin by auto. split; [reflexivity|]. now apply sum_close.
Qed.

(** ** Openings *)
Lemma two_ok : ffin (@c2 float _) /\ FR (@c2 float _) = 2.
Proof.
  assert (Prim2SF (@c2 float _) = S754_finite false 4503599627370496 (-51)) as E by (vm_compute; reflexivity).
  unfold ffin, FR. rewrite E. split; [exact I|]. rewrite val_finite, Rmult_1_l. change 4503599627370496%positive with (2 ^ 52)%positive.
  change (Z.pos (2 ^ 52)) with (2 ^ 52)%Z. rewrite p2_IZR by lia. rewrite <- p2_add. apply p2_1.
Qed.
Lemma inf_half f : XF f = PInf -> (f / c2)%float = infinity.
Proof.
  intros H. unfold XF in H. destruct (Prim2SF f) as [|[]| |] eqn:E; try discriminate.
  rewrite <- (SF2Prim_Prim2SF f), E. vm_compute. reflexivity.
Qed.
Lemma inf_ltb f y : XF f = PInf -> ffin y -> (f <? y)%float = false.
Proof. unfold XF, ffin. intros H Hy. rewrite ltb_spec. destruct (Prim2SF f) as [|[]| |]; try discriminate. destruct (Prim2SF y); try contradiction; reflexivity. Qed.
Lemma decide_same n f x s lim tol d : few n -> close n f x s -> limit lim -> 
  (forall r, XF lim = Fin r -> Rabs (r - d) <= tol - part n * s) ->
  away (Rabs x) tol (match XF lim with Fin _ => Fin d | o => o end) ->
  (lim <? abs f)%float = xltb (match XF lim with Fin _ => Fin d | o => o end) (Fin (Rabs x)).
Proof.
  intros Hn (Ff & Bx & Ex) [L|L] Hd Ha.
  - destruct (fabs_val f) as [Ev Ef]. rewrite (XF_fin _ L) in *. cbn in Ha |- *. specialize (Hd _ eq_refl).
    pose proof (Rle_trans _ _ _ Ex (part_few n s Hn ltac:(pose proof (Rabs_pos x); lra))) as Ex2.
    pose proof (Rabs_triang_inv2 (FR f) x) as T.
    assert (FR lim < Rabs (FR f) <-> d < Rabs x) as Q.
    { pose proof (Rle_trans _ _ _ T Ex2) as T2. clear T Ex Ex2 Bx. revert Hd Ha T2. generalize (Rabs x) (Rabs (FR f)) (FR lim) (part n * s).
      intros a b c q. unfold Rabs. destruct (Rcase_abs (c - d)), (Rcase_abs (a - d)), (Rcase_abs (b - a)); lra. }
    destruct (lim <? abs f)%float eqn:E.
    + apply fltb_val in E; auto. rewrite Ev in E. symmetry. apply Rltb_true. now apply Q.
    + symmetry. apply Rltb_false. destruct (Rle_lt_dec (Rabs x) d) as [|K]; auto. apply Q in K. rewrite <- Ev in K. apply fltb_val in K; auto. congruence.
  - rewrite L. rewrite inf_ltb; auto. now apply fabs_val.
Qed.
Lemma fin_bound f : ffin f -> Rabs (FR f) <= p2 1024.
Proof.
  unfold ffin, FR. pose proof (Prim2SF_valid f) as V. destruct (Prim2SF f) as [s|s| |s m e]; try contradiction.
  - intros _. rewrite val_zero, Rabs_R0. apply Rlt_le, p2_pos.
  - intros _. rewrite val_finite, sign_abs. destruct (valid_finite _ _ _ V) as [C B].
    destruct (digits_R (Z.pos m) e ltac:(lia)) as [_ K]. cbn [Zdigits2] in K.
    rewrite Rabs_pos_eq by (apply Rmult_le_pos; [apply IZR_le; lia|apply Rlt_le, p2_pos]).
    apply Rle_trans with (p2 (Z.pos (digits2_pos m) + e)); [lra|]. apply p2_le. unfold SpecFloat.fexp, prec in C. lia.
Qed.
Lemma part_S n : part (S n) = part n + p2 (-50).
Proof. unfold part. rewrite S_INR. ring. Qed.
Lemma part_pos n : 0 <= part n.
Proof. apply Rmult_le_pos; [apply pos_INR|apply Rlt_le, p2_pos]. Qed.
Lemma x_half D : ffin D -> ndiv (XF D) (@c2 XR _) = Fin (FR D / 2).
Proof. intros H. rewrite XF_fin by auto. cbn. destruct (Req_EM_T 2 0); [lra|reflexivity]. Qed.
Lemma misses_near n m f x s y t : few n -> limit (mdiam m) -> limit (mna m) ->
  ry x = Fin y -> close n (ry f) y (szy s) -> rth x = Fin t -> close n (rth f) t (szt s) -> tiny <= szy s -> tiny <= szt s ->
  away (Rabs y) (part (S n) * (szy s + Rabs (FR (mdiam m)) / 2)) (ndiv (XF (mdiam m)) c2) ->
  away (Rabs t) (part (S n) * szt s) (XF (mna m)) ->
  misses m f = misses (xmat m) x.
Proof.
  intros Hn HD HN Ey Cy Et Ct Ty Tt AD AN. unfold misses. cbn [mdiam mna xmat]. rewrite Ey, Et. pose proof tiny_pos as TP. f_equal.
  - change (nltb (ndiv (mdiam m) c2) (nabs (ry f))) with (mdiam m / c2 <? abs (ry f))%float. cbn [nabs NumXR xabs nltb].
    destruct HD as [HD|HD].
    + rewrite x_half in * by auto. destruct two_ok as [F2 E2].
      assert (p2 1024 = 2 * p2 1023) as E1. { change 1024%Z with (1 + 1023)%Z. rewrite p2_add, p2_1. reflexivity. }
      assert (Rabs (FR (mdiam m) / 2) = Rabs (FR (mdiam m)) / 2) as EA. { unfold Rdiv. rewrite Rabs_mult, (Rabs_pos_eq (/ 2)) by lra. reflexivity. }
      destruct (fdiv_near (mdiam m) (@c2 float _) HD F2) as [F3 N3]; [rewrite E2; lra|rewrite E2, EA; pose proof (fin_bound _ HD); lra|].
      rewrite E2 in N3.
      rewrite EA in N3.
      pose proof (decide_same n (ry f) y (szy s) (mdiam m / @c2 float _)%float (part (S n) * (szy s + Rabs (FR (mdiam m)) / 2)) (FR (mdiam m) / 2) Hn Cy (or_introl F3)) as Q.
      rewrite (XF_fin _ F3) in Q. apply Q; auto. intros r [= <-]. eapply Rle_trans; [exact N3|]. rewrite part_S.
      assert (p2 (-50) = 2 * g51) as G. { unfold g51. change (-50)%Z with (1 + -51)%Z. rewrite p2_add, p2_1. reflexivity. }
      pose proof g51_pos as GP. pose proof g51_tiny as GT. pose proof g51_u as GU. pose proof (Rabs_pos (FR (mdiam m))) as PD. pose proof (part_pos n) as PP.
      pose proof eta_pos as EP.
      assert (g51 * tiny <= g51 * szy s) as X1 by (apply Rmult_le_compat_l; lra).
      assert (0 <= part n * (Rabs (FR (mdiam m)) / 2)) as X2 by (apply Rmult_le_pos; lra).
      assert (0 <= uro * (Rabs (FR (mdiam m)) / 2)) as X3 by (apply Rmult_le_pos; [apply Rlt_le, uro_pos|lra]).
      rewrite G. replace ((part n + 2 * g51) * (szy s + Rabs (FR (mdiam m)) / 2) - part n * szy s) with
        (part n * (Rabs (FR (mdiam m)) / 2) + 2 * (g51 * szy s) + 2 * (g51 * (Rabs (FR (mdiam m)) / 2))) by ring.
      rewrite GU at 2. lra.
    + rewrite (inf_half _ HD), HD in *. cbn in AD |- *. rewrite finf_ltb by (apply fabs_val; apply Cy). now destruct (Rlt_dec 2 0).
  - change (nltb (mna m) (nabs (rth f))) with (mna m <? abs (rth f))%float. cbn [nabs NumXR xabs nltb].
    pose proof (decide_same n (rth f) t (szt s) (mna m) (part (S n) * szt s) (FR (mna m)) Hn Ct HN) as Q.
    destruct HN as [HN|HN].
    + rewrite (XF_fin _ HN) in *. apply Q; auto. intros r [= <-]. replace (FR (mna m) - FR (mna m)) with 0 by ring. rewrite Rabs_R0, part_S.
      replace ((part n + p2 (-50)) * szt s - part n * szt s) with (p2 (-50) * szt s) by ring. apply Rmult_le_pos; [apply Rlt_le, p2_pos|lra].
    + rewrite HN in *. apply Q; auto. discriminate.
Qed.

(** ** Sizes *)
Definition big_enough (s : size) : Prop := tiny <= szy s /\ tiny <= szt s /\ tiny <= szz s.
Lemma size0_big r : big_enough (size0 r).
Proof. unfold big_enough, size0; cbn [szy szt szz]. pose proof (Rabs_pos (FR (ry r))). pose proof (Rabs_pos (FR (rth r))). pose proof (Rabs_pos (FR (rz r))). lra. Qed.
Lemma sizeS_big s km : big_enough s -> big_enough (sizeS s km).
Proof.
  unfold big_enough, sizeS; cbn [szy szt szz]. intros (H1 & H2 & H3). pose proof tiny_pos.
  assert (forall a b, 0 <= Rabs a * szy s + Rabs b * szt s) as G.
  { intros. assert (0 <= Rabs a * szy s) by (apply Rmult_le_pos; [apply Rabs_pos|lra]). assert (0 <= Rabs b * szt s) by (apply Rmult_le_pos; [apply Rabs_pos|lra]). lra. }
  pose proof (G (FR (mA (snd km))) (FR (mB (snd km)))). pose proof (G (FR (mC (snd km))) (FR (mD (snd km)))). pose proof (Rabs_pos (FR (mL (snd km)))). lra.
Qed.

(** ** Whole paths *)
Definition bounded_by (l : list (@kind float * @mat float)) (s : size) : Prop :=
  forall pre post, l = pre ++ post -> szy (sizes pre s) <= p2 1020 /\ szt (sizes pre s) <= p2 1020 /\ szz (sizes pre s) <= p2 1020.
Lemma bounded_cons km l s : bounded_by (km :: l) s -> bounded_by l (sizeS s km).
Proof. intros H pre post ->. exact (H (km :: pre) post eq_refl). Qed.
Lemma ideals_near l : forall n f x s, few (n + List.length l) -> Forall tame l -> near_ray n f x s -> bounded_by l s ->
  near_ray (n + List.length l) (ideals l f) (ideals (map xkm l) x) (sizes l s).
Proof.
  induction l as [|km l IH]; intros n f x s Hn Ht Hr Hb; [now rewrite Nat.add_0_r|].
  inversion Ht as [|? ? T1 T2]; subst. cbn [List.length map]. rewrite <- plus_n_Sm. apply (IH (S n)).
  - eapply few_le; [exact Hn|]. cbn. lia.
  - exact T2.
  - apply ideal_near; auto; [eapply few_le; [exact Hn|lia]|..]; apply (Hb [km] l eq_refl).
  - now apply bounded_cons.
Qed.
Lemma leaves_near l : forall n f x s, few (n + List.length l) -> Forall tame l -> near_ray n f x s -> big_enough s -> bounded_by l s ->
  (forall pre km post, l = pre ++ km :: post -> rblk (through_leaves (map xkm pre) x) = false ->
    exists y th, ry (through_leaves (map xkm pre) x) = Fin y /\ rth (through_leaves (map xkm pre) x) = Fin th /\
    away (Rabs y) (part (n + S (List.length pre)) * (szy (sizes pre s) + Rabs (FR (mdiam (snd km))) / 2)) (ndiv (XF (mdiam (snd km))) c2) /\
    away (Rabs th) (part (n + S (List.length pre)) * szt (sizes pre s)) (XF (mna (snd km)))) ->
  rblk (through_leaves l f) = rblk (through_leaves (map xkm l) x) /\
  (rblk (through_leaves l f) = false -> near_ray (n + List.length l) (through_leaves l f) (through_leaves (map xkm l) x) (sizes l s)).
Proof.
  induction l as [|km l IH]; intros n f x s Hn Ht Hr Hs Hb Ho; [rewrite Nat.add_0_r; split; [apply Hr|auto]|].
  inversion Ht as [|? ? T1 T2]; subst. pose proof (nr_b _ _ _ _ Hr) as Eb. destruct (rblk f) eqn:Bf.
  - rewrite through_leaves_blocked by auto. rewrite through_leaves_blocked by auto. split; [reflexivity|discriminate].
  - symmetry in Eb. assert (few n) as Hn1 by (eapply few_le; [exact Hn|lia]). destruct (Ho [] km l eq_refl Eb) as (y & th & E1 & E2 & A1 & A2).
    cbn [through_leaves map fold_left] in E1, E2. cbn [List.length sizes fold_left] in A1, A2. rewrite Nat.add_1_r in A1, A2.
    destruct (nr_y _ _ _ _ Hr) as (y' & E1' & Cy). destruct (nr_t _ _ _ _ Hr) as (t' & E2' & Ct).
    rewrite E1 in E1'. injection E1' as <-. rewrite E2 in E2'. injection E2' as <-.
    destruct Hs as (S1 & S2 & S3).
    assert (misses (snd km) f = misses (snd (xkm km)) x) as EM by (apply (misses_near n _ _ _ s y th); auto; apply T1).
    destruct (misses (snd km) f) eqn:M; symmetry in EM.
    + assert (rblk (through_leaves (km :: l) f) = true) as ->.
      { cbn. apply through_leaves_blocked. rewrite through_leaf_blocks, M. apply orb_true_r. }
      assert (rblk (through_leaves (map xkm (km :: l)) x) = true) as ->; [|split; [reflexivity|discriminate]].
      cbn [map through_leaves fold_left]. apply through_leaves_blocked. rewrite through_leaf_blocks, EM. apply orb_true_r.
    + pose proof (through_leaf_free km f Bf M) as F1. pose proof (through_leaf_free (xkm km) x Eb EM) as F2.
      assert (forall l, through_leaves (km :: l) f = through_leaves l (ideal km f)) as G1 by (intros; cbn; now rewrite F1).
      assert (forall l, through_leaves (map xkm (km :: l)) x = through_leaves (map xkm l) (ideal (xkm km) x)) as G2
        by (intros; cbn [map through_leaves fold_left]; now rewrite F2).
      rewrite G1, G2. cbn [List.length] in *. rewrite <- plus_n_Sm in *.
      apply (IH (S n) (ideal km f) (ideal (xkm km) x) (sizeS s km)); auto.
      * apply ideal_near; auto; apply (Hb [km] l eq_refl).
      * apply sizeS_big. now split.
      * now apply bounded_cons.
      * intros pre km' post -> Hp. specialize (Ho (km :: pre) km' post eq_refl). rewrite G2 in Ho. cbn [List.length] in Ho. rewrite <- plus_n_Sm in Ho. cbn [Nat.add]. exact (Ho Hp).
Qed.

Lemma leaves_x e : leaves (xelem e) = map xkm (leaves e).
Proof.
  induction e as [k m|g m es IH] using GroupProofs.elem_ind'; [reflexivity|]. cbn [xelem leaves].
  induction IH as [|x t Hx Ht IHt]; [reflexivity|]. cbn [map flat_map]. rewrite map_app, Hx, IHt. reflexivity.
Qed.
Lemma few_50 n : INR n <= p2 50 -> few n.
Proof.
  unfold few, g51. intros H. apply Rle_trans with (p2 50 * p2 (-51)); [apply Rmult_le_compat_r; [apply Rlt_le, p2_pos|auto]|].
  rewrite <- p2_add. change (50 + -51)%Z with (- (1))%Z. rewrite p2_opp, p2_1. lra.
Qed.
Lemma near_final n f x s : few n -> big_enough s -> near_ray n f x s -> exists y t z, ry x = Fin y /\ rth x = Fin t /\ rz x = Fin z /\
  ffin (ry f) /\ ffin (rth f) /\ ffin (rz f) /\
  Rabs (FR (ry f) - y) <= part n * szy s /\ Rabs (FR (rth f) - t) <= part n * szt s /\ Rabs (FR (rz f) - z) <= part n * szz s.
Proof.
  intros Hn (S1 & S2 & S3) [(y & Ey & F1 & _ & N1) (t & Et & F2 & _ & N2) (z & Ez & F3 & _ & N3) _]. pose proof tiny_pos.
  exists y, t, z. repeat (split; [assumption|]). split; [|split]; (eapply Rle_trans; [eassumption|]); apply part_few; auto; lra.
Qed.
Lemma sizes_big l : forall s, big_enough s -> big_enough (sizes l s).
Proof. induction l; cbn; intros; auto. apply IHl. now apply sizeS_big. Qed.

Theorem trace_near e r : let n := List.length (leaves e) in let s := sizes (leaves e) (size0 r) in
  Forall tame (leaves e) -> ffin (ry r) -> ffin (rth r) -> ffin (rz r) -> INR n <= p2 50 -> modest (leaves e) r -> off_the_edges e r ->
  let f := traceThrough e r in let x := traceThrough (xelem e) (xray r) in
  rblk f = rblk x /\
  (rblk f = false -> exists y t z, ry x = Fin y /\ rth x = Fin t /\ rz x = Fin z /\
    ffin (ry f) /\ ffin (rth f) /\ ffin (rz f) /\
    Rabs (FR (ry f) - y) <= part n * szy s /\ Rabs (FR (rth f) - t) <= part n * szt s /\ Rabs (FR (rz f) - z) <= part n * szz s).
Proof.
  intros n s Ht Hy Hth Hz Hn Hm Ho f x. unfold f, x. rewrite !traceThrough_through, !through_flatten, leaves_x.
  apply few_50 in Hn.
  destruct (leaves_near (leaves e) 0 r (xray r) (size0 r)) as [E N]; auto.
  - now apply near_start.
  - apply size0_big.
  - split; auto. intros B. apply near_final; auto. apply sizes_big, size0_big.
Qed.
Theorem arrived_near e r : let n := List.length (leaves e) in let s := sizes (leaves e) (size0 r) in
  Forall tame (leaves e) -> ffin (ry r) -> ffin (rth r) -> ffin (rz r) -> INR n <= p2 50 -> modest (leaves e) r ->
  let f := traceThrough e r in
  rblk f = false -> exists y t z, ideals (leaves (xelem e)) (xray r) = mkRay (Fin y) (Fin t) (Fin z) false
     (rdiam (ideals (leaves (xelem e)) (xray r))) (rwl (ideals (leaves (xelem e)) (xray r))) /\
    ffin (ry f) /\ ffin (rth f) /\ ffin (rz f) /\
    Rabs (FR (ry f) - y) <= part n * szy s /\ Rabs (FR (rth f) - t) <= part n * szt s /\ Rabs (FR (rz f) - z) <= part n * szz s.
Proof.
  intros n s Ht Hy Hth Hz Hn Hm f B. unfold f in *. rewrite !traceThrough_through in *. pose proof (unblocked_ideal _ _ B) as E. rewrite E in *.
  apply few_50 in Hn. rewrite leaves_x.
  pose proof (ideals_near (leaves e) 0 r (xray r) (size0 r) Hn Ht (near_start _ Hy Hth Hz) Hm) as N.
  destruct (near_final _ _ _ _ Hn (sizes_big _ _ (size0_big r)) N) as (y & t & z & E1 & E2 & E3 & K). exists y, t, z. split; auto.
  pose proof (nr_b _ _ _ _ N) as NB. rewrite B in NB. rewrite <- E1, <- E2, <- E3, NB. now destruct (ideals (map xkm (leaves e)) (xray r)).
Qed.

(** ** A simple way to see that nothing overflows *)
Definition small (a : Z) (km : @kind float * @mat float) : Prop :=
  Rabs (FR (mA (snd km))) <= p2 a /\ Rabs (FR (mB (snd km))) <= p2 a /\ Rabs (FR (mC (snd km))) <= p2 a /\ Rabs (FR (mD (snd km))) <= p2 a /\ Rabs (FR (mL (snd km))) <= p2 a.
Lemma small_sizes a l : (0 <= a)%Z -> Forall (small a) l -> forall b s, (0 <= b)%Z -> big_enough s ->
  szy s <= p2 b -> szt s <= p2 b -> szz s <= p2 b ->
  let s' := sizes l s in let b' := (b + (a + 2) * Z.of_nat (List.length l))%Z in szy s' <= p2 b' /\ szt s' <= p2 b' /\ szz s' <= p2 b'.
Proof.
  intros Ha H. induction H as [|km l (KA & KB & KC & KD & KL) Hl IH]; intros b s Hb Hs Hy Ht Hz.
  - cbn. rewrite Z.mul_0_r, Z.add_0_r. auto.
  - cbn [List.length sizes fold_left]. 
    replace (b + (a + 2) * Z.of_nat (S (List.length l)))%Z with ((b + (a + 2)) + (a + 2) * Z.of_nat (List.length l))%Z by lia.
    apply IH; [lia|now apply sizeS_big|..].
    all: destruct Hs as (S1 & S2 & S3); pose proof tiny_pos as TP; assert (p2 (b + (a + 2)) = 4 * (p2 a * p2 b)) as E by (rewrite !p2_add, p2_2; ring);
      rewrite E; assert (1 <= p2 a) as A1 by (rewrite <- p2_0; apply p2_le; lia); assert (1 <= p2 b) as B1 by (rewrite <- p2_0; apply p2_le; lia);
      assert (tiny <= 1) as T1 by (rewrite <- p2_0; apply p2_le; lia);
      assert (p2 a <= p2 a * p2 b) as M1 by (rewrite <- (Rmult_1_r (p2 a)) at 1; apply Rmult_le_compat_l; lra);
      assert (p2 b <= p2 a * p2 b) as M2 by (rewrite <- (Rmult_1_l (p2 b)) at 1; apply Rmult_le_compat_r; lra);
      cbn [sizeS szy szt szz].
    + assert (Rabs (FR (mA (snd km))) * szy s <= p2 a * p2 b) by (apply Rmult_le_compat; try apply Rabs_pos; lra).
      assert (Rabs (FR (mB (snd km))) * szt s <= p2 a * p2 b) by (apply Rmult_le_compat; try apply Rabs_pos; lra). lra.
    + assert (Rabs (FR (mC (snd km))) * szy s <= p2 a * p2 b) by (apply Rmult_le_compat; try apply Rabs_pos; lra).
      assert (Rabs (FR (mD (snd km))) * szt s <= p2 a * p2 b) by (apply Rmult_le_compat; try apply Rabs_pos; lra). lra.
    + lra.
Qed.
Lemma small_modest a b l (r : @ray float) : (0 <= a)%Z -> (0 <= b)%Z -> Forall (small a) l ->
  Rabs (FR (ry r)) < p2 b -> Rabs (FR (rth r)) < p2 b -> Rabs (FR (rz r)) < p2 b -> (b + 1 + (a + 2) * Z.of_nat (List.length l) <= 1020)%Z -> modest l r.
Proof.
  intros Ha Hb Hl Hy Ht Hz Hn pre post E. subst l. apply Forall_app in Hl as [Hl _].
  assert (tiny <= 1) as T1 by (rewrite <- p2_0; apply p2_le; lia). assert (1 <= p2 b) as B1 by (rewrite <- p2_0; apply p2_le; lia).
  assert (p2 (b + 1) = 2 * p2 b) as E by (rewrite p2_add, p2_1; ring).
  destruct (small_sizes a pre Ha Hl (b + 1) (size0 r) ltac:(lia) (size0_big r)) as (K1 & K2 & K3);
    [cbn [size0 szy szt szz]; rewrite E; lra..|].
  rewrite app_length in Hn. assert (p2 (b + 1 + (a + 2) * Z.of_nat (List.length pre)) <= p2 1020) as L by (apply p2_le; nia).
  repeat split; eapply Rle_trans; eauto.
Qed.
(** a bound of a double, by computation *)
Lemma FR_lt f c s m e : ffin f -> Prim2SF c = S754_finite s m e -> (abs f <? c)%float = true -> Rabs (FR f) < FR c.
Proof. intros Hf Hc H. destruct (fabs_val f) as [E F]. rewrite <- E. apply fltb_val; auto. unfold ffin. rewrite Hc. exact I. Qed.
(** the value of a double, by computation *)
Lemma FR_ratio f s m e n k : Prim2SF f = S754_finite s m e -> (e <= 0)%Z -> (0 <= k)%Z -> (cond_Zopp s (Zpos m) * 2 ^ k = n * 2 ^ (- e))%Z -> FR f = IZR n / IZR (2 ^ k).
Proof.
  intros E He Hk H. unfold FR. rewrite E, val_finite.
  assert ((if s then -1 else 1) * IZR (Zpos m) = IZR (cond_Zopp s (Zpos m))) as C by (destruct s; cbn [cond_Zopp]; rewrite ?opp_IZR; ring).
  rewrite <- Rmult_assoc, C. apply (f_equal IZR) in H. rewrite !mult_IZR, !p2_IZR in H by lia. rewrite p2_IZR by lia.
  pose proof (p2_pos k). pose proof (p2_pos e). rewrite p2_opp in H. apply (Rmult_eq_reg_r (p2 k)); [|lra]. unfold Rdiv. rewrite (Rmult_assoc (IZR n)), Rinv_l by lra.
  rewrite Rmult_1_r. replace (IZR (cond_Zopp s (Z.pos m)) * p2 e * p2 k) with (IZR (cond_Zopp s (Z.pos m)) * p2 k * p2 e) by ring. rewrite H. field. lra.
Qed.
