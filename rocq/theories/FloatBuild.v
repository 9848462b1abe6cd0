(** Paths assembled in double precision: the check of the determinant. *)
From Coq Require Import ZArith Reals Lra Lia List Bool String Floats.
From Verif Require Import Base Nums Optics Spec MatrixProofs GroupProofs TraceProofs Rounding RoundingOps Exact FloatTrace FloatGroup.
Import ListNotations.
Open Scope list_scope.
Open Scope R_scope.

(** ** Specification *)
Definition in_air (e : @elem float) : Prop := mfi (emat e) = @c1 float _ /\ mbi (emat e) = @c1 float _.
(** the terms of the determinant of the product of [l], all counted as positive *)
Definition spread (l : list (@kind float * @mat float)) : R :=
  szy (sizes l (size0 unit_y)) * szt (sizes l (size0 unit_th)) + szy (sizes l (size0 unit_th)) * szt (sizes l (size0 unit_y)) + tiny.
(** what rounding may do to it *)
Definition slack (l : list (@kind float * @mat float)) : R := 5 * part (List.length l) * spread l.
(** the determinant of the product, in exact arithmetic *)
Definition exact_det (l : list (@kind float * @mat float)) : R := mdet (mprod (map rmat l)).

(** ** Subtraction *)
Lemma fsub_as_add (x y : PrimFloat.float) : (x - y)%float = (x + - y)%float.
Proof.
  apply Prim2SF_inj. rewrite sub_spec, add_spec, opp_spec. destruct (Prim2SF x) as [[]|[]| |sx mx ex], (Prim2SF y) as [[]|[]| |sy my ey]; try reflexivity.
  unfold SF64sub, SF64add, SFsub, SFadd, SFopp. f_equal. destruct sy; cbn [negb cond_Zopp]; lia.
Qed.
Lemma eqb_zero (c : PrimFloat.float) : (c =? zero)%float = true -> FR c = 0.
Proof.
  rewrite eqb_spec. change (Prim2SF zero) with (S754_zero false). unfold FR. unfold SFeqb, SFcompare.
  destruct (Prim2SF c) as [s|[]| |[] m e]; try discriminate. intros _. apply val_zero.
Qed.
Lemma fsub_near (x y : PrimFloat.float) : ffin x -> ffin y -> Rabs (FR x - FR y) <= p2 1023 ->
  ffin (x - y)%float /\ Rabs (FR (x - y)%float - (FR x - FR y)) <= uro * Rabs (FR x - FR y) + eta.
Proof.
  intros Fx Fy H. rewrite fsub_as_add. destruct (fopp_val y) as [E F]. replace (FR x - FR y) with (FR x + FR (- y)%float) in * by (rewrite E; ring).
  apply fadd_near; auto.
Qed.
Lemma det_near (a b c d : PrimFloat.float) : ffin a -> ffin b -> ffin c -> ffin d ->
  let P := Rabs (FR a) * Rabs (FR d) + Rabs (FR b) * Rabs (FR c) in P <= p2 1022 - 1 ->
  ffin (det_of a b c d) /\ Rabs (FR (det_of a b c d) - (FR a * FR d - FR b * FR c)) <= g51 * (P + tiny).
Proof.
  intros Fa Fb Fc Fd P HP. rewrite Rmult_plus_distr_l, g51_tiny, g51_u.
  pose proof uro_pos as U. pose proof uro_small as U2. pose proof eta_pos as E.
  assert (p2 1023 = 2 * p2 1022) as E1. { change 1023%Z with (1 + 1022)%Z. rewrite p2_add, p2_1. reflexivity. }
  assert (2 <= p2 1022) as E2. { rewrite <- p2_1. apply p2_le. lia. }
  assert (eta <= / 8) as E3. { pose proof (p2_le (-1075) (-3) ltac:(lia)) as H. rewrite p2_m3 in H. unfold eta. lra. }
  assert (0 <= Rabs (FR a) * Rabs (FR d)) as P1 by (apply Rmult_le_pos; apply Rabs_pos).
  assert (0 <= Rabs (FR b) * Rabs (FR c)) as P2 by (apply Rmult_le_pos; apply Rabs_pos).
  destruct (fmul_near a d Fa Fd) as [F1 N1]; [rewrite Rabs_mult; unfold P in HP; lra|].
  destruct (fmul_near b c Fb Fc) as [F2 N2]; [rewrite Rabs_mult; unfold P in HP; lra|].
  rewrite Rabs_mult in N1, N2.
  assert (0 <= uro * P) by (apply Rmult_le_pos; unfold P; lra).
  assert (uro * P = uro * (Rabs (FR a) * Rabs (FR d)) + uro * (Rabs (FR b) * Rabs (FR c))) as S5 by (unfold P; ring).
  assert (0 <= uro * (Rabs (FR a) * Rabs (FR d))) by (apply Rmult_le_pos; lra).
  assert (0 <= uro * (Rabs (FR b) * Rabs (FR c))) by (apply Rmult_le_pos; lra).
  unfold det_of. change (neqb c c0) with (c =? zero)%float. destruct (c =? zero)%float eqn:EC.
  - change (nmul a d) with (a * d)%float. apply eqb_zero in EC. split; auto. rewrite EC. replace (FR a * FR d - FR b * 0) with (FR a * FR d) by ring. lra.
  - change (nsub (nmul a d) (nmul b c)) with (a * d - b * c)%float.
    set (f1 := FR (a * d)%float) in *. set (f2 := FR (b * c)%float) in *.
    assert (Rabs (f1 - f2) <= P + uro * P + 2 * eta) as S.
    { replace (f1 - f2) with ((f1 - FR a * FR d) + - (f2 - FR b * FR c) + (FR a * FR d + - FR b * FR c)) by ring.
      eapply Rle_trans; [apply Rabs_triang|]. pose proof (Rabs_triang (f1 - FR a * FR d) (- (f2 - FR b * FR c))) as T1. rewrite Rabs_Ropp in T1.
      pose proof (triangle_2 (FR a) (- FR b) (FR d) (FR c)) as T2. rewrite Rabs_Ropp in T2. unfold P. lra. }
    assert (uro * P <= / 8 * P) as UP by (apply Rmult_le_compat_r; unfold P; lra).
    destruct (fsub_near (a * d)%float (b * c)%float F1 F2) as [F3 N3]; [fold f1 f2; unfold P in *; lra|].
    split; auto. fold f1 f2 in N3.
    assert (uro * Rabs (f1 - f2) <= uro * (P + uro * P + 2 * eta)) as S2 by (apply Rmult_le_compat_l; lra).
    assert (uro * (uro * P) <= uro * (/ 8 * P)) as S3 by (apply Rmult_le_compat_l; lra).
    assert (uro * eta <= / 8 * eta) as S4 by (apply Rmult_le_compat_r; lra).
    replace (FR (a * d - b * c)%float - (FR a * FR d - FR b * FR c)) with
      ((FR (a * d - b * c)%float - (f1 - f2)) + ((f1 - FR a * FR d) + - (f2 - FR b * FR c))) by ring.
    eapply Rle_trans; [apply Rabs_triang|]. pose proof (Rabs_triang (f1 - FR a * FR d) (- (f2 - FR b * FR c))) as T1. rewrite Rabs_Ropp in T1. nra.
Qed.

(** ** The check *)
Lemma eps5_value : ffin (@eps5 float _) /\ / 100000 - / 10 ^ 15 <= FR (@eps5 float _) <= / 100000 + / 10 ^ 15.
Proof.
  assert (exists m, Prim2SF (@eps5 float _) = S754_finite false m (-69) /\ m = 5902958103587057%positive) as (m & E & ->).
  { eexists. split; [vm_compute; reflexivity|reflexivity]. }
  unfold ffin. rewrite E. split; [exact I|].
  assert (FR (@eps5 float _) = IZR 5902958103587057 / IZR (2 ^ 69)) as ->.
  { eapply (FR_ratio _ _ _ _ 5902958103587057 69 E); [lia|lia|reflexivity]. }
  change (2 ^ 69)%Z with 590295810358705651712%Z. cbn [pow]. lra.
Qed.
Lemma det_accepted (x : PrimFloat.float) : ffin x -> Rabs (FR x - 1) <= 99 / 10 ^ 7 -> areAbsolutelyNotEqual x (1%float : float) eps5 = false.
Proof.
  intros Fx H. destruct const_ok as (_ & _ & F1 & V1). pose proof uro_small as U. pose proof uro_pos as U0. destruct eps5_value as (F5 & L5 & _).
  assert (eta <= p2 (-60)) as E3 by (apply p2_le; lia).
  assert (p2 (-60) <= / 10 ^ 15) as E4.
  { change (-60)%Z with (- (60))%Z. rewrite p2_opp. apply Rinv_le_contravar; [cbn; lra|]. rewrite <- p2_IZR by lia. change (2 ^ 60)%Z with 1152921504606846976%Z. cbn. lra. }
  assert (uro <= / 10 ^ 10) as E5.
  { unfold uro. change (-53)%Z with (- (53))%Z. rewrite p2_opp. apply Rinv_le_contravar; [cbn; lra|]. rewrite <- p2_IZR by lia. change (2 ^ 53)%Z with 9007199254740992%Z. cbn. lra. }
  assert (FR 1%float = 1) as W1 by exact V1. assert (ffin 1%float) as G1 by exact F1.
  assert (2 <= p2 1023) as E2. { rewrite <- p2_1. apply p2_le. lia. }
  destruct (fsub_near x 1%float Fx G1) as [Fs Ns]; [rewrite W1; cbn in *; lra|]. rewrite W1 in Ns.
  destruct (fabs_val (x - 1)%float) as [Ea Fa].
  unfold areAbsolutelyNotEqual. change (nltb eps5 (nabs (nsub x 1%float))) with ((@eps5 float _) <? abs (x - 1))%float.
  destruct (@eps5 float _ <? abs (x - 1))%float eqn:EL; [|reflexivity]. exfalso. apply fltb_val in EL; auto. rewrite Ea in EL.
  pose proof (Rabs_triang (FR (x - 1)%float - (FR x - 1)) (FR x - 1)) as T. replace (FR (x - 1)%float - (FR x - 1) + (FR x - 1)) with (FR (x - 1)%float) in T by ring.
  assert (uro * Rabs (FR x - 1) <= / 10 ^ 10 * (99 / 10 ^ 7)) by (apply Rmult_le_compat; [lra|apply Rabs_pos|lra|lra]). cbn in *. lra.
Qed.
Lemma det_refused (x : PrimFloat.float) : ffin x -> Rabs (FR x - 1) <= p2 1000 -> 101 / 10 ^ 7 <= Rabs (FR x - 1) -> areAbsolutelyNotEqual x (1%float : float) eps5 = true.
Proof.
  intros Fx Hb H. destruct const_ok as (_ & _ & F1 & V1). pose proof uro_small as U. pose proof uro_pos as U0. destruct eps5_value as (F5 & _ & L5).
  assert (eta <= p2 (-60)) as E3 by (apply p2_le; lia).
  assert (p2 (-60) <= / 10 ^ 15) as E4.
  { change (-60)%Z with (- (60))%Z. rewrite p2_opp. apply Rinv_le_contravar; [cbn; lra|]. rewrite <- p2_IZR by lia. change (2 ^ 60)%Z with 1152921504606846976%Z. cbn. lra. }
  assert (uro <= / 10 ^ 10) as E5.
  { unfold uro. change (-53)%Z with (- (53))%Z. rewrite p2_opp. apply Rinv_le_contravar; [cbn; lra|]. rewrite <- p2_IZR by lia. change (2 ^ 53)%Z with 9007199254740992%Z. cbn. lra. }
  assert (FR 1%float = 1) as W1 by exact V1. assert (ffin 1%float) as G1 by exact F1.
  assert (p2 1000 <= p2 1023) as E2 by (apply p2_le; lia).
  destruct (fsub_near x 1%float Fx G1) as [Fs Ns]; [rewrite W1; lra|]. rewrite W1 in Ns.
  destruct (fabs_val (x - 1)%float) as [Ea Fa].
  unfold areAbsolutelyNotEqual. change (nltb eps5 (nabs (nsub x 1%float))) with ((@eps5 float _) <? abs (x - 1))%float.
  apply fltb_val; auto. rewrite Ea.
  pose proof (Rabs_triang (- (FR (x - 1)%float - (FR x - 1))) (FR (x - 1)%float)) as T. rewrite Rabs_Ropp in T.
  replace (- (FR (x - 1)%float - (FR x - 1)) + FR (x - 1)%float) with (FR x - 1) in T by ring.
  assert (uro * Rabs (FR x - 1) <= / 10 ^ 10 * Rabs (FR x - 1)) by (apply Rmult_le_compat_r; [apply Rabs_pos|lra]). cbn in *. lra.
Qed.

(** ** The determinant of the product *)
Lemma part_grow n : INR n <= p2 50 -> part n <= 1.
Proof.
  intros H. unfold part. apply Rle_trans with (p2 50 * p2 (-50)); [apply Rmult_le_compat_r; [apply Rlt_le, p2_pos|auto]|].
  rewrite <- p2_add. change (50 + -50)%Z with 0%Z. rewrite p2_0. lra.
Qed.
Lemma prod_near p a b x y s t : 0 <= p <= 1 -> Rabs x <= s -> Rabs y <= t -> Rabs (a - x) <= p * s -> Rabs (b - y) <= p * t ->
  Rabs (a * b - x * y) <= 3 * p * (s * t) /\ Rabs a * Rabs b <= 4 * (s * t).
Proof.
  intros Hp Hx Hy Ha Hb. pose proof (Rabs_pos x). pose proof (Rabs_pos y). pose proof (Rabs_pos a). pose proof (Rabs_pos b).
  assert (Rabs a <= 2 * s) as A. { pose proof (Rabs_triang (a - x) x) as T. replace (a - x + x) with a in T by ring. assert (p * s <= 1 * s) by (apply Rmult_le_compat_r; lra). lra. }
  assert (Rabs b <= 2 * t) as B. { pose proof (Rabs_triang (b - y) y) as T. replace (b - y + y) with b in T by ring. assert (p * t <= 1 * t) by (apply Rmult_le_compat_r; lra). lra. }
  split.
  - replace (a * b - x * y) with ((a - x) * b + x * (b - y)) by ring. eapply Rle_trans; [apply Rabs_triang|]. rewrite !Rabs_mult.
    assert (Rabs (a - x) * Rabs b <= (p * s) * (2 * t)) by (apply Rmult_le_compat; auto; apply Rabs_pos).
    assert (Rabs x * Rabs (b - y) <= s * (p * t)) by (apply Rmult_le_compat; auto; apply Rabs_pos).
    replace (3 * p * (s * t)) with (p * s * (2 * t) + s * (p * t)) by ring. lra.
  - replace (4 * (s * t)) with ((2 * s) * (2 * t)) by ring. apply Rmult_le_compat; auto.
Qed.
Lemma modest_prefix l pre post r : modest l r -> l = pre ++ post -> modest pre r.
Proof. intros H -> p q ->. apply (H p (q ++ post)). now rewrite app_assoc. Qed.
(** the columns of the product as it is computed *)
Definition cols (l : list (@kind float * @mat float)) : float * float * float * float :=
  (ry (ideals l unit_y), ry (ideals l unit_th), rth (ideals l unit_y), rth (ideals l unit_th)).
Lemma product_near l : let n := List.length l in l <> [] -> Forall tame l -> INR n <= p2 50 -> modest l unit_y -> modest l unit_th -> slack l <= p2 900 ->
  let '(a, b, c, d) := cols l in ffin (det_of a b c d) /\ Rabs (FR (det_of a b c d) - exact_det l) <= slack l /\ Rabs (exact_det l) <= spread l.
Proof.
  intros n Hne Ht Hn Hy Hth Hs. pose proof (part_grow _ Hn) as Hp1. pose proof (part_pos n) as Hp0. pose proof (few_50 _ Hn) as Hf.
  destruct const_ok as (F0 & V0 & F1 & V1).
  pose proof (ideals_near l 0 unit_y (xray unit_y) (size0 unit_y) Hf Ht (near_start unit_y F1 F0 F0) Hy) as N1.
  pose proof (ideals_near l 0 unit_th (xray unit_th) (size0 unit_th) Hf Ht (near_start unit_th F0 F1 F0) Hth) as N2.
  destruct (ideals_exact l (xray unit_y) _ _ _ Ht (XF_fin _ F1) (XF_fin _ F0) (XF_fin _ F0)) as (Iy & It & _).
  destruct (ideals_exact l (xray unit_th) _ _ _ Ht (XF_fin _ F0) (XF_fin _ F1) (XF_fin _ F0)) as (Jy & Jt & _).
  unfold mapp in Iy, It, Jy, Jt. cbn [fst snd] in Iy, It, Jy, Jt. rewrite V0, V1 in Iy, It, Jy, Jt.
  set (M := mprod (map rmat l)) in *. cbn [Nat.add] in N1, N2. fold n in N1, N2.
  destruct (sizes_big l _ (size0_big unit_y)) as (B1 & B2 & _). destruct (sizes_big l _ (size0_big unit_th)) as (B3 & B4 & _). pose proof tiny_pos as TP.
  assert (forall (f : float) x s, tiny <= s -> close n f x s -> ffin f /\ Rabs x <= s /\ Rabs (FR f - x) <= part n * s) as G.
  { intros f x s Hs' (Ff & Hx & Hc). split; auto. split; auto. eapply Rle_trans; [exact Hc|]. apply part_few; auto. lra. }
  unfold cols. set (a := ry (ideals l unit_y)). set (b := ry (ideals l unit_th)). set (c := rth (ideals l unit_y)). set (d := rth (ideals l unit_th)).
  destruct (nr_y _ _ _ _ N1) as (xa & Ea & Ca). destruct (nr_t _ _ _ _ N1) as (xc & Ec & Cc).
  destruct (nr_y _ _ _ _ N2) as (xb & Eb & Cb). destruct (nr_t _ _ _ _ N2) as (xd & Ed & Cd).
  rewrite Iy in Ea. rewrite It in Ec. rewrite Jy in Eb. rewrite Jt in Ed. injection Ea as <-. injection Ec as <-. injection Eb as <-. injection Ed as <-.
  replace (A_ M * 1 + B_ M * 0) with (A_ M) in Ca by ring. replace (C_ M * 1 + D_ M * 0) with (C_ M) in Cc by ring.
  replace (A_ M * 0 + B_ M * 1) with (B_ M) in Cb by ring. replace (C_ M * 0 + D_ M * 1) with (D_ M) in Cd by ring.
  apply G in Ca as (Fa & Xa & Da); auto. apply G in Cb as (Fb & Xb & Db); auto. apply G in Cc as (Fc & Xc & Dc); auto. apply G in Cd as (Fd & Xd & Dd); auto.
  fold a in Fa, Da. fold b in Fb, Db. fold c in Fc, Dc. fold d in Fd, Dd.
  unfold slack, spread in *. fold n in Hs |- *.
  set (sa := szy (sizes l (size0 unit_y))) in *. set (sc := szt (sizes l (size0 unit_y))) in *. set (sb := szy (sizes l (size0 unit_th))) in *. set (sd := szt (sizes l (size0 unit_th))) in *.
  assert (0 <= part n <= 1) as Hp by lra.
  destruct (prod_near (part n) (FR a) (FR d) (A_ M) (D_ M) sa sd Hp Xa Xd Da Dd) as [Q1 Q2].
  destruct (prod_near (part n) (FR b) (FR c) (B_ M) (C_ M) sb sc Hp Xb Xc Db Dc) as [Q3 Q4].
  assert (0 <= sa * sd) as P1 by (apply Rmult_le_pos; lra). assert (0 <= sb * sc) as P2 by (apply Rmult_le_pos; lra).
  assert (1 <= INR n) as N0. { destruct l as [|? l']; [now elim Hne|]. unfold n. cbn [List.length]. rewrite S_INR. pose proof (pos_INR (List.length l')). lra. }
  assert (p2 (-50) <= part n) as Hpn. { unfold part. pose proof (p2_pos (-50)). nra. }
  assert (2 * g51 = p2 (-50)) as G51. { unfold g51. change (-50)%Z with (1 + -51)%Z. rewrite p2_add, p2_1. reflexivity. }
  assert (0 < g51) as G0 by apply g51_pos.
  destruct (det_near a b c d Fa Fb Fc Fd) as [FD ND].
  { assert (sa * sd + sb * sc + tiny <= p2 950) as HS.
    { assert (p2 (-50) * (sa * sd + sb * sc + tiny) <= p2 900) as K.
      { apply Rle_trans with (5 * part n * (sa * sd + sb * sc + tiny)); auto. apply Rmult_le_compat_r; lra. }
      replace (p2 950) with (p2 50 * p2 900) by (rewrite <- p2_add; reflexivity).
      replace (sa * sd + sb * sc + tiny) with (p2 50 * (p2 (-50) * (sa * sd + sb * sc + tiny))).
      - apply Rmult_le_compat_l; [apply Rlt_le, p2_pos|auto].
      - rewrite <- Rmult_assoc, <- p2_add. change (50 + -50)%Z with 0%Z. rewrite p2_0. ring. }
    assert (8 * p2 950 <= p2 1021). { rewrite <- p2_3, <- p2_add. apply p2_le. lia. }
    assert (p2 1022 = 2 * p2 1021) as E1. { change 1022%Z with (1 + 1021)%Z. rewrite p2_add, p2_1. reflexivity. }
    assert (2 <= p2 1021). { rewrite <- p2_1. apply p2_le. lia. } lra. }
  split; auto. unfold exact_det, mdet. fold M. split.
  2: { pose proof (Rabs_triang (A_ M * D_ M) (- (B_ M * C_ M))) as T. rewrite Rabs_Ropp, !Rabs_mult in T. unfold Rminus. eapply Rle_trans; [exact T|].
    assert (Rabs (A_ M) * Rabs (D_ M) <= sa * sd) by (apply Rmult_le_compat; auto; apply Rabs_pos).
    assert (Rabs (B_ M) * Rabs (C_ M) <= sb * sc) by (apply Rmult_le_compat; auto; apply Rabs_pos). lra. }
  replace (FR (det_of a b c d) - (A_ M * D_ M - B_ M * C_ M)) with
    ((FR (det_of a b c d) - (FR a * FR d - FR b * FR c)) + ((FR a * FR d - A_ M * D_ M) + - (FR b * FR c - B_ M * C_ M))) by ring.
  eapply Rle_trans; [apply Rabs_triang|]. pose proof (Rabs_triang (FR a * FR d - A_ M * D_ M) (- (FR b * FR c - B_ M * C_ M))) as T1. rewrite Rabs_Ropp in T1.
  set (E := sa * sd + sb * sc) in *.
  assert (g51 * (Rabs (FR a) * Rabs (FR d) + Rabs (FR b) * Rabs (FR c) + tiny) <= g51 * (4 * (E + tiny))) as S1 by (apply Rmult_le_compat_l; unfold E; lra).
  assert (g51 * (4 * (E + tiny)) <= 2 * part n * (E + tiny)) as S2.
  { replace (g51 * (4 * (E + tiny))) with (2 * (2 * g51) * (E + tiny)) by ring. rewrite G51. apply Rmult_le_compat_r; unfold E; lra. }
  assert (3 * part n * (sa * sd) + 3 * part n * (sb * sc) = 3 * part n * E) as S3 by (unfold E; ring).
  assert (3 * part n * E <= 3 * part n * (E + tiny)) as S4 by (apply Rmult_le_compat_l; lra).
  replace (5 * part n * (E + tiny)) with (2 * part n * (E + tiny) + 3 * part n * (E + tiny)) by ring.
  apply Rplus_le_compat; [exact (Rle_trans _ _ _ ND (Rle_trans _ _ _ S1 S2))|]. lra.
Qed.

(** ** Assembling *)
Lemma members_app a b : members (a ++ b) = members a ++ members b.
Proof. unfold members. apply map_app. Qed.
Lemma ideals_app l l' (r : @ray float) : ideals (l ++ l') r = ideals l' (ideals l r).
Proof. unfold ideals. apply fold_left_app. Qed.
Lemma ideals_one e l (r : @ray float) : ideals (members [e]) (ideals l r) = ideal (KMatrix, emat e) (ideals l r).
Proof. reflexivity. Qed.
Lemma mul_check e tm : in_air e -> mfi tm = @c1 float _ -> mbi tm = @c1 float _ ->
  let '(a, b, c, d) := (nadd (nmul (mA (emat e)) (mA tm)) (nmul (mB (emat e)) (mC tm)), nadd (nmul (mA (emat e)) (mB tm)) (nmul (mB (emat e)) (mD tm)),
    nadd (nmul (mC (emat e)) (mA tm)) (nmul (mD (emat e)) (mC tm)), nadd (nmul (mC (emat e)) (mB tm)) (nmul (mD (emat e)) (mD tm))) in
  (areAbsolutelyNotEqual (det_of a b c d) (1%float : float) eps5 = true -> mul_matrix (emat e) tm = Err ValueError) /\
  (areAbsolutelyNotEqual (det_of a b c d) (1%float : float) eps5 = false -> exists q, mul_matrix (emat e) tm = Ok q /\
    mA q = a /\ mB q = b /\ mC q = c /\ mD q = d /\ mL q = nadd (mL (emat e)) (mL tm) /\ mfi q = @c1 float _ /\ mbi q = @c1 float _).
Proof.
  intros [H1 H2] H3 H4. unfold mul_matrix.
  assert (mul_idx (emat e) tm = (@c1 float _, @c1 float _)) as -> by (unfold mul_idx; rewrite H1, H2, H3, H4; destruct (isIdentity (emat e)); destruct (isIdentity tm); reflexivity).
  unfold Matrix_init. change (nleb (@ninf float _) c0) with false. cbv iota.
  change (pdiv (@c1 float _) (@c1 float _)) with (Ok (1%float : float)). cbn [bind].
  split; intros ->; [reflexivity|]. eexists. split; [reflexivity|]. repeat split.
Qed.
Lemma loop_ok post : forall pre tm, Forall in_air post -> Forall tame (members (pre ++ post)) -> INR (List.length (members (pre ++ post))) <= p2 50 ->
  modest (members (pre ++ post)) unit_y -> modest (members (pre ++ post)) unit_th ->
  (forall a b, post = a ++ b -> a <> [] -> Rabs (exact_det (members (pre ++ a)) - 1) + slack (members (pre ++ a)) <= 99 / 10 ^ 7) ->
  same_place (ideals (members pre) unit_y) (colA tm) -> same_place (ideals (members pre) unit_th) (colB tm) ->
  mfi tm = @c1 float _ -> mbi tm = @c1 float _ ->
  exists q, transfer_loop post tm infinity = Ok q.
Proof.
  induction post as [|e post IH]; intros pre tm Hair Ht Hn Hy Hth Hw R1 R2 I1 I2; [now exists tm|]. cbn [transfer_loop].
  inversion Hair as [|? ? A1 A2]; subst.
  assert (ffin (mL (emat e))) as FL.
  { rewrite members_app in Ht. apply Forall_app in Ht as [_ Ht]. inversion Ht as [|? ? T1 _]; subst. apply T1. }
  change (nleb (mL (emat e)) infinity) with (mL (emat e) <=? infinity)%float. rewrite inf_leb by auto.
  change (nsub infinity (mL (emat e))) with (infinity - mL (emat e))%float. rewrite inf_sub by auto.
  assert (same_place (ideals (members (pre ++ [e])) unit_y) (ideal (KMatrix, emat e) (colA tm)) /\ same_place (ideals (members (pre ++ [e])) unit_th) (ideal (KMatrix, emat e) (colB tm))) as [S1 S2].
  { rewrite members_app, !ideals_app, !ideals_one. destruct R1 as (E1 & E2 & E3), R2 as (E4 & E5 & E6).
    split; unfold same_place, ideal; cbn [ry rth rz fst snd]; rewrite ?E1, ?E2, ?E3, ?E4, ?E5, ?E6; auto. }
  assert (members (pre ++ e :: post) = members (pre ++ [e]) ++ members post) as EM by (rewrite <- members_app, <- app_assoc; reflexivity).
  assert (Rabs (exact_det (members (pre ++ [e])) - 1) + slack (members (pre ++ [e])) <= 99 / 10 ^ 7) as W by (apply (Hw [e] post); [reflexivity|discriminate]).
  pose proof (product_near (members (pre ++ [e]))) as PN. cbn zeta in PN.
  destruct PN as (FD & ND & _).
  { rewrite members_app. intros X. apply app_eq_nil in X as [_ X]. discriminate. }
  { rewrite EM in Ht. apply Forall_app in Ht. tauto. }
  { eapply Rle_trans; [|exact Hn]. apply le_INR. rewrite EM, app_length. lia. }
  { eapply modest_prefix; [exact Hy|exact EM]. }
  { eapply modest_prefix; [exact Hth|exact EM]. }
  { pose proof (Rabs_pos (exact_det (members (pre ++ [e])) - 1)). assert (1 <= p2 900) by (rewrite <- p2_0; apply p2_le; lia). cbn in *. lra. }
  pose proof (mul_check e tm A1 I1 I2) as MC. cbv zeta in MC.
  destruct S1 as (Sa & Sc & Sl), S2 as (Sb & Sd & _). rewrite Sa, Sb, Sc, Sd in FD, ND.
  cbn [ideal colA colB ry rth rz fst snd] in FD, ND, Sa, Sb, Sc, Sd, Sl.
  destruct MC as [_ MC]. destruct MC as (q & -> & QA & QB & QC & QD & QL & Q1 & Q2).
  { apply det_accepted; [exact FD|]. 
    match type of ND with Rabs (?x - _) <= _ => pose proof (Rabs_triang (x - exact_det (members (pre ++ [e]))) (exact_det (members (pre ++ [e])) - 1)) as T;
      replace (x - exact_det (members (pre ++ [e])) + (exact_det (members (pre ++ [e])) - 1)) with (x - 1) in T by ring end.
    eapply Rle_trans; [exact T|]. eapply Rle_trans; [|exact W]. rewrite Rplus_comm. apply Rplus_le_compat_l. exact ND. }
  cbn [bind]. apply (IH (pre ++ [e])); auto; rewrite <- ?app_assoc; auto.
  - intros a b -> Ha. rewrite <- app_assoc. apply (Hw (e :: a) b); [reflexivity|discriminate].
  - unfold same_place, colA; cbn [ry rth rz]. rewrite QA, QC, QL. auto.
  - unfold same_place, colB; cbn [ry rth rz]. rewrite QB, QD, QL. split; auto. split; auto.
    rewrite members_app, ideals_app, ideals_one. destruct R2 as (_ & _ & E6). unfold ideal. cbn [rz fst snd]. rewrite E6. reflexivity.
Qed.
Lemma default_air : exists tm, @Matrix_default float _ = Ok tm /\ mA tm = @c1 float _ /\ mB tm = @c0 float _ /\ mC tm = @c0 float _ /\ mD tm = @c1 float _ /\ mL tm = @c0 float _ /\ mfi tm = @c1 float _ /\ mbi tm = @c1 float _.
Proof. eexists. split; [vm_compute; reflexivity|]. repeat split; vm_compute; reflexivity. Qed.
Lemma transfer_ok es : Forall in_air es -> Forall tame (members es) -> INR (List.length es) <= p2 50 -> modest (members es) unit_y -> modest (members es) unit_th ->
  (forall a b, es = a ++ b -> a <> [] -> Rabs (exact_det (members a) - 1) + slack (members a) <= 99 / 10 ^ 7) ->
  exists q, group_transfer es infinity = Ok q.
Proof.
  intros Ha Ht Hn Hy Hth Hw. unfold group_transfer. destruct default_air as (tm & -> & EA & EB & EC & ED & EL & I1 & I2). cbn [bind].
  apply (loop_ok es []); auto; cbn [app].
  - unfold members. now rewrite map_length.
  - unfold same_place, colA; cbn [ry rth rz]. rewrite EA, EC, EL. repeat split.
  - unfold same_place, colB; cbn [ry rth rz]. rewrite EB, ED, EL. repeat split.
Qed.
Lemma last_in {A} (l : list A) x : last_opt l = Some x -> In x l.
Proof. induction l as [|a [|b l] IH]; cbn [last_opt]; [discriminate|intros [= ->]; now left|]. intros H. right. now apply IH. Qed.
Lemma append_ok post : forall pre g, gelems g = pre -> Forall in_air (pre ++ post) -> Forall tame (members (pre ++ post)) -> INR (List.length (pre ++ post)) <= p2 50 ->
  modest (members (pre ++ post)) unit_y -> modest (members (pre ++ post)) unit_th ->
  (forall a b, pre ++ post = a ++ b -> a <> [] -> Rabs (exact_det (members a) - 1) + slack (members a) <= 99 / 10 ^ 7) ->
  exists g', append_all g post = Ok g' /\ gelems g' = pre ++ post.
Proof.
  induction post as [|e post IH]; intros pre g Eg Ha Ht Hn Hy Hth Hw.
  - exists g. rewrite app_nil_r. auto.
  - assert (pre ++ e :: post = (pre ++ [e]) ++ post) as EP by (rewrite <- app_assoc; reflexivity). rewrite EP in *.
    cbn [append_all]. unfold append, append_st. rewrite Eg.
    assert (append_check pre e = Ok e) as ->.
    { unfold append_check. destruct (last_opt pre) as [le|] eqn:EL; [|reflexivity]. apply last_in in EL. rewrite Forall_forall in Ha.
      assert (in_air le) as [_ ->] by (apply Ha; rewrite <- app_assoc; apply in_or_app; auto). assert (in_air e) as [-> _] by (apply Ha; apply in_or_app; left; apply in_or_app; right; now left). reflexivity. }
    assert (members ((pre ++ [e]) ++ post) = members (pre ++ [e]) ++ members post) as EM by apply members_app.
    destruct (transfer_ok (pre ++ [e])) as (q & Eq).
    { apply Forall_app in Ha. tauto. }
    { rewrite EM in Ht. apply Forall_app in Ht. tauto. }
    { eapply Rle_trans; [|exact Hn]. apply le_INR. rewrite (app_length (pre ++ [e])). lia. }
    { eapply modest_prefix; eauto. }
    { eapply modest_prefix; eauto. }
    { intros a b E Hne. apply (Hw a (b ++ post)); auto. rewrite E, <- app_assoc. reflexivity. }
    change (@ninf float _) with infinity. rewrite Eq. cbn [as_res bind]. apply (IH (pre ++ [e])); auto.
Qed.
Theorem assembles es label : Forall in_air es -> Forall tame (members es) -> INR (List.length es) <= p2 50 ->
  modest (members es) unit_y -> modest (members es) unit_th ->
  (forall a b, es = a ++ b -> a <> [] -> Rabs (exact_det (members a) - 1) + slack (members a) <= 99 / 10 ^ 7) ->
  exists g, MatrixGroup_new es label = Ok g /\ gelems g = es.
Proof.
  intros. unfold MatrixGroup_new.
  assert (exists m, Matrix_init (@c1 float _) c0 c0 c1 c0 None None c1 c1 ninf ninf label = Ok m) as (m & ->).
  { unfold Matrix_init. change (nleb (@ninf float _) c0) with false. cbv iota. change (pdiv (@c1 float _) (@c1 float _)) with (Ok (1%float : float)). cbn [bind].
    assert (areAbsolutelyNotEqual (det_of (@c1 float _) c0 c0 c1) 1%float eps5 = false) as -> by (vm_compute; reflexivity). eauto. }
  cbn [bind]. apply (append_ok es []); auto.
Qed.

(** ** What was accepted is consistent *)
Lemma loop_checked es : forall tm p, es <> [] -> Forall in_air es -> Forall (fun e => ffin (mL (emat e))) es -> mfi tm = @c1 float _ -> mbi tm = @c1 float _ ->
  transfer_loop es tm infinity = Ok p -> areAbsolutelyNotEqual (det_of (mA p) (mB p) (mC p) (mD p)) (1%float : float) eps5 = false.
Proof.
  induction es as [|e es IH]; intros tm p Hne Ha Hf I1 I2 H; [now elim Hne|]. inversion Ha as [|? ? A1 A2]; subst. inversion Hf as [|? ? F1 F2]; subst.
  cbn [transfer_loop] in H. change (nleb (mL (emat e)) infinity) with (mL (emat e) <=? infinity)%float in H. rewrite inf_leb in H by auto.
  change (nsub infinity (mL (emat e))) with (infinity - mL (emat e))%float in H. rewrite inf_sub in H by auto.
  pose proof (mul_check e tm A1 I1 I2) as [MC1 MC2].
  match type of MC1 with ?x = true -> _ => destruct x eqn:EX end; [rewrite (MC1 eq_refl) in H; discriminate|].
  destruct (MC2 eq_refl) as (q & Eq & QA & QB & QC & QD & _ & Q1 & Q2). rewrite Eq in H. cbn [bind] in H.
  destruct es as [|e' es].
  - cbn in H. injection H as <-. rewrite QA, QB, QC, QD. exact EX.
  - apply (IH q p); auto. discriminate.
Qed.
Theorem built_consistent (g : @grp float) : let l := members (gelems g) in in_step g -> gelems g <> [] -> Forall in_air (gelems g) ->
  Forall tame l -> INR (List.length l) <= p2 50 -> modest l unit_y -> modest l unit_th -> slack l <= p2 900 ->
  Rabs (exact_det l - 1) <= 101 / 10 ^ 7 + slack l.
Proof.
  intros l Hg Hne Ha Ht Hn Hy Hth Hs. destruct (Hg Hne) as (p & Hp & _). unfold group_transfer in Hp.
  destruct default_air as (tm & ED & EA & EB & EC & EDD & EL & I1 & I2). rewrite ED in Hp. cbn [bind] in Hp. change (@ninf float _) with infinity in Hp.
  assert (Forall (fun e => ffin (mL (emat e))) (gelems g)) as HL.
  { apply Forall_forall. intros e He. rewrite Forall_forall in Ht. apply (tL (KMatrix, emat e)). apply Ht. unfold l, members. exact (in_map (fun e => (KMatrix, emat e)) _ _ He). }
  pose proof (loop_checked _ _ _ Hne Ha HL I1 I2 Hp) as CK.
  destruct (transfer_columns (gelems g) tm p unit_y unit_th HL Hp) as [(S1 & S2 & _) (S3 & S4 & _)].
  { unfold same_place, colA, unit_y, Ray_new; cbn [ry rth rz]. now rewrite EA, EC, EL. }
  { unfold same_place, colB, unit_th, Ray_new; cbn [ry rth rz]. now rewrite EB, EDD, EL. }
  fold l in S1, S2, S3, S4.
  assert (l <> []) as Hl by (unfold l; destruct (gelems g); [now elim Hne|discriminate]).
  pose proof (product_near l Hl Ht Hn Hy Hth Hs) as PN. unfold cols in PN. rewrite S1, S2, S3, S4 in PN. cbn [colA colB ry rth] in PN.
  destruct PN as (FD & ND & BD).
  match type of ND with Rabs (?x - _) <= _ => set (D := x) in * end.
  destruct (Rle_or_lt (Rabs (exact_det l - 1)) (101 / 10 ^ 7 + slack l)) as [|HC]; auto. exfalso.
  assert (101 / 10 ^ 7 <= Rabs (D - 1)) as H1.
  { pose proof (Rabs_triang (D - 1) (- (D - exact_det l))) as T. rewrite Rabs_Ropp in T. replace (D - 1 + - (D - exact_det l)) with (exact_det l - 1) in T by ring. lra. }
  assert (Rabs (D - 1) <= p2 1000) as H2.
  { pose proof (Rabs_triang (D - exact_det l) (exact_det l + - (1))) as T. replace (D - exact_det l + (exact_det l + - (1))) with (D - 1) in T by ring.
    pose proof (Rabs_triang (exact_det l) (- (1))) as T2. rewrite Rabs_Ropp, Rabs_R1 in T2.
    assert (spread l <= p2 950) as SB.
    { assert (0 <= spread l) as S0 by (eapply Rle_trans; [apply Rabs_pos|exact BD]).
      assert (1 <= INR (List.length l)) as N0. { destruct l as [|? l']; [now elim Hl|]. cbn [List.length]. rewrite S_INR. pose proof (pos_INR (List.length l')). lra. }
      assert (p2 (-50) <= part (List.length l)) as Hpn. { unfold part. pose proof (p2_pos (-50)). nra. }
      assert (p2 (-50) * spread l <= p2 900) as K.
      { apply Rle_trans with (5 * part (List.length l) * spread l); auto. apply Rmult_le_compat_r; auto. pose proof (p2_pos (-50)). lra. }
      replace (p2 950) with (p2 50 * p2 900) by (rewrite <- p2_add; reflexivity).
      replace (spread l) with (p2 50 * (p2 (-50) * spread l)); [apply Rmult_le_compat_l; [apply Rlt_le, p2_pos|auto]|].
      rewrite <- Rmult_assoc, <- p2_add. change (50 + -50)%Z with 0%Z. rewrite p2_0. ring. }
    assert (p2 900 <= p2 998) by (apply p2_le; lia). assert (p2 950 <= p2 998) by (apply p2_le; lia). assert (1 <= p2 998) by (rewrite <- p2_0; apply p2_le; lia).
    assert (4 * p2 998 = p2 1000) as <- by (rewrite <- p2_2, <- p2_add; reflexivity). lra. }
  pose proof (det_refused _ FD H2 H1) as CR. pose proof (eq_trans (eq_sym CR) CK) as X. discriminate X.
Qed.

(** ** Thin lenses, spaces, apertures and mirrors have determinant 1 exactly *)
Definition unit_det (e : @elem float) : Prop := mdet (rmat (KMatrix, emat e)) = 1.
Lemma mdet_mul a b : mdet (mmul a b) = mdet a * mdet b.
Proof. destruct a, b. unfold mdet, mmul; cbn. ring. Qed.
Lemma unit_dets es : Forall unit_det es -> exact_det (members es) = 1.
Proof.
  unfold exact_det. induction es as [|e es IH] using rev_ind; intros H; [unfold mdet; cbn; ring|].
  apply Forall_app in H as [H1 H2]. inversion H2; subst. rewrite members_app, map_app. cbn [members map]. rewrite mprod_snoc, mdet_mul. fold (members es). rewrite IH by auto.
  unfold unit_det in *. rewrite H3. ring.
Qed.
Theorem assembles_unit es label : Forall in_air es -> Forall unit_det es -> Forall tame (members es) -> INR (List.length es) <= p2 50 ->
  modest (members es) unit_y -> modest (members es) unit_th ->
  (forall a b, es = a ++ b -> a <> [] -> slack (members a) <= 99 / 10 ^ 7) ->
  exists g, MatrixGroup_new es label = Ok g /\ gelems g = es.
Proof.
  intros Ha Hu Ht Hn Hy Hth Hw. apply assembles; auto. intros a b E Hne. rewrite unit_dets; [|rewrite E in Hu; apply Forall_app in Hu; tauto].
  replace (1 - 1) with 0 by ring. rewrite Rabs_R0, Rplus_0_l. eauto.
Qed.
Theorem thin_elements (e : @elem float) :
  (exists f d, Lens f d = Ok e) \/ (exists r d, CurvedMirror r d = Ok e) \/ (exists d diam, Space d (@c1 float _) diam = Ok e) \/ (exists d na, Aperture d na = Ok e) -> in_air e /\ unit_det e.
Proof.
  destruct const_ok as (_ & V0 & _ & V1).
  assert (forall a b c d l fv bv fi bi di na lab (m : @mat float), Matrix_init a b c d l fv bv fi bi di na lab = Ok m -> mfi m = fi /\ mbi m = bi) as G.
  { intros until m. unfold Matrix_init. destruct (nleb di c0); [discriminate|]. destruct (nleb na c0); [discriminate|].
    destruct (pdiv fi bi); cbn [bind]; [|discriminate]. destruct (areAbsolutelyNotEqual _ _ _); [discriminate|]. intros [= <-]. split; reflexivity. }
  intros [(f & d & H)|[(f & d & H)|[(d & diam & H)|(d & na & H)]]].
  - unfold Lens in H. destruct (pdiv (nopp c1) f) as [c|] eqn:EC; cbn [bind] in H; [|discriminate].
    destruct (Matrix_init _ _ _ _ _ _ _ _ _ _ _ _) as [m|] eqn:EM; cbn [bind] in H; [|discriminate]. destruct (G _ _ _ _ _ _ _ _ _ _ _ _ _ EM) as [G1 G2]. apply Matrix_init_ABCD in EM as (EA & EB & ECC & ED & _).
    injection H as <-. cbn [emat].
    split; [split; assumption|]. unfold unit_det, mdet, rmat; cbn [A_ B_ C_ D_ snd emat]. rewrite EA, EB, ED, V0, V1. ring.
  - unfold CurvedMirror in H. destruct (pdiv c2 f) as [c|] eqn:EC; cbn [bind] in H; [|discriminate].
    destruct (Matrix_init _ _ _ _ _ _ _ _ _ _ _ _) as [m|] eqn:EM; cbn [bind] in H; [|discriminate]. destruct (G _ _ _ _ _ _ _ _ _ _ _ _ _ EM) as [G1 G2]. apply Matrix_init_ABCD in EM as (EA & EB & ECC & ED & _).
    injection H as <-. cbn [emat].
    split; [split; assumption|]. unfold unit_det, mdet, rmat; cbn [A_ B_ C_ D_ snd emat]. rewrite EA, EB, ED, V0, V1. ring.
  - unfold Space, SpaceM in H. destruct (Matrix_init _ _ _ _ _ _ _ _ _ _ _ _) as [m|] eqn:EM; cbn [bind] in H; [|discriminate]. destruct (G _ _ _ _ _ _ _ _ _ _ _ _ _ EM) as [G1 G2]. apply Matrix_init_ABCD in EM as (EA & EB & ECC & ED & _).
    injection H as <-. cbn [emat]. split; [split; assumption|]. unfold unit_det, mdet, rmat; cbn [A_ B_ C_ D_ snd emat]. rewrite EA, ECC, ED, V0, V1. ring.
  - unfold Aperture, ApertureL in H. destruct (Matrix_init _ _ _ _ _ _ _ _ _ _ _ _) as [m|] eqn:EM; cbn [bind] in H; [|discriminate]. destruct (G _ _ _ _ _ _ _ _ _ _ _ _ _ EM) as [G1 G2]. apply Matrix_init_ABCD in EM as (EA & EB & ECC & ED & _).
    injection H as <-. cbn [emat]. split; [split; assumption|]. unfold unit_det, mdet, rmat; cbn [A_ B_ C_ D_ snd emat]. rewrite EA, ECC, ED, V0, V1. ring.
Qed.
