(** Focal lengths and images of a path computed in double precision. *)
From Coq Require Import ZArith Reals Lra Lia List Bool String Floats.
From Verif Require Import Base Nums Optics Spec MatrixProofs GroupProofs TraceProofs Rounding RoundingOps Exact FloatTrace FloatGroup FloatBuild.
Import ListNotations.
Open Scope list_scope.
Open Scope R_scope.

(** ** Quotients *)
Lemma eta_tiny8 : 8 * eta <= tiny.
Proof. unfold eta, tiny. rewrite <- p2_3, <- p2_add. apply p2_le. lia. Qed.
Lemma uro_part n : (0 < n)%nat -> 8 * uro <= part n.
Proof.
  intros H. unfold part, uro. rewrite <- p2_3, <- p2_add. change (3 + -53)%Z with (-50)%Z. pose proof (p2_pos (-50)). apply le_INR in H. cbn in H. nra.
Qed.
(** [a / b] in doubles, when [a] and [b] are close to [x] and [y] *)
Lemma quot_near n (a b : PrimFloat.float) x y s t : (0 < n)%nat -> ffin a -> ffin b -> Rabs x <= s -> Rabs y <= t ->
  Rabs (FR a - x) <= part n * s -> Rabs (FR b - y) <= part n * t -> part n <= 1 -> 2 * (part n * t) <= Rabs y -> 0 < Rabs y -> s <= p2 1000 * Rabs y ->
  ffin (a / b)%float /\ Rabs (FR (a / b)%float - x / y) <= 3 * part n * (s + Rabs (x / y) * t) / Rabs y + tiny.
Proof.
  intros Hn Fa Fb Hx Hy Da Db Hp1 Hy2 Hy0 Hov. pose proof (uro_part n Hn) as Hu. pose proof uro_pos as U0. pose proof eta_tiny8 as E8. pose proof eta_pos as E0.
  pose proof (Rabs_pos x) as X0. set (p := part n) in *.
  assert (Rabs y / 2 <= Rabs (FR b)) as Bl.
  { pose proof (Rabs_triang (- (FR b - y)) (FR b)) as T. rewrite Rabs_Ropp in T. replace (- (FR b - y) + FR b) with y in T by ring. lra. }
  assert (FR b <> 0) as Bn by (intros E; rewrite E, Rabs_R0 in Bl; lra).
  assert (y <> 0) as Yn by (intros E; rewrite E, Rabs_R0 in Hy0; lra).
  assert (Rabs (FR a) <= 2 * s) as Al.
  { pose proof (Rabs_triang (FR a - x) x) as T. replace (FR a - x + x) with (FR a) in T by ring. assert (p * s <= 1 * s) by (apply Rmult_le_compat_r; lra). lra. }
  assert (0 < Rabs (FR b)) as B0 by lra.
  assert (Rabs (FR a / FR b) = Rabs (FR a) / Rabs (FR b)) as EQ by (unfold Rdiv; rewrite Rabs_mult, Rabs_inv; reflexivity).
  assert (Rabs (x / y) = Rabs x / Rabs y) as EQ2 by (unfold Rdiv; rewrite Rabs_mult, Rabs_inv; reflexivity).
  assert (forall u v w, 0 < w -> u <= v * w -> u / w <= v) as DV.
  { intros u v w Hw H. apply (Rmult_le_reg_r w); auto. unfold Rdiv. rewrite Rmult_assoc, Rinv_l by lra. lra. }
  assert (Rabs (FR a / FR b) <= p2 1002) as OV.
  { rewrite EQ. apply DV; auto. eapply Rle_trans; [exact Al|]. replace (p2 1002) with (4 * p2 1000) by (rewrite <- p2_2, <- p2_add; reflexivity).
    pose proof (p2_pos 1000). assert (p2 1000 * Rabs y <= p2 1000 * (2 * Rabs (FR b))) by (apply Rmult_le_compat_l; lra). lra. }
  destruct (fdiv_near a b Fa Fb Bn) as [FD ND]; [eapply Rle_trans; [exact OV|apply p2_le; lia]|]. split; auto.
  set (K := p * (s + Rabs (x / y) * t) / Rabs y).
  assert (0 <= Rabs (x / y)) as Q0 by apply Rabs_pos.
  assert (0 <= p) as P0 by lra.
  assert (0 <= K) as K0.
  { unfold K. apply Rmult_le_pos; [apply Rmult_le_pos; [lra|]|apply Rlt_le, Rinv_0_lt_compat; auto]. assert (0 <= Rabs (x / y) * t) by (apply Rmult_le_pos; lra). lra. }
  assert (Rabs (FR a / FR b - x / y) <= 2 * K) as EX.
  { replace (FR a / FR b - x / y) with (((FR a - x) - x / y * (FR b - y)) / FR b) by (field; auto).
    unfold Rdiv at 1. rewrite Rabs_mult, Rabs_inv. fold (Rabs (FR a - x - x / y * (FR b - y)) / Rabs (FR b)). apply DV; auto.
    assert (Rabs (FR a - x - x / y * (FR b - y)) <= p * (s + Rabs (x / y) * t)) as N1.
    { unfold Rminus at 1. eapply Rle_trans; [apply Rabs_triang|]. rewrite Rabs_Ropp, Rabs_mult.
      assert (Rabs (x / y) * Rabs (FR b - y) <= Rabs (x / y) * (p * t)) by (apply Rmult_le_compat_l; auto). lra. }
    eapply Rle_trans; [exact N1|]. assert (2 * K * (Rabs y / 2) = p * (s + Rabs (x / y) * t)) as <- by (unfold K; field; lra). apply Rmult_le_compat_l; lra. }
  assert (8 * uro * Rabs (x / y) <= K) as EU.
  { unfold K. apply (Rmult_le_reg_r (Rabs y)); auto. unfold Rdiv at 2. rewrite (Rmult_assoc (p * _)), Rinv_l, Rmult_1_r by lra.
    assert (Rabs (x / y) * Rabs y <= Rabs (x / y) * t) by (apply Rmult_le_compat_l; auto).
    assert (8 * uro * (Rabs (x / y) * Rabs y) <= p * (Rabs (x / y) * t)) by (apply Rmult_le_compat; try lra; apply Rmult_le_pos; lra).
    assert (0 <= p * s) by (apply Rmult_le_pos; lra). lra. }
  assert (Rabs (FR a / FR b) <= Rabs (x / y) + 2 * K) as QB.
  { pose proof (Rabs_triang (FR a / FR b - x / y) (x / y)) as T. replace (FR a / FR b - x / y + x / y) with (FR a / FR b) in T by ring. lra. }
  assert (uro * Rabs (FR a / FR b) <= uro * (Rabs (x / y) + 2 * K)) as UB by (apply Rmult_le_compat_l; lra).
  assert (uro * (2 * K) <= / 8 * (2 * K)) as UK by (apply Rmult_le_compat_r; [lra|apply uro_small]).
  pose proof (Rabs_triang (FR (a / b)%float - FR a / FR b) (FR a / FR b - x / y)) as T.
  replace (FR (a / b)%float - FR a / FR b + (FR a / FR b - x / y)) with (FR (a / b)%float - x / y) in T by ring.
  replace (3 * p * (s + Rabs (x / y) * t) / Rabs y) with (3 * K) by (unfold K; field; lra).
  eapply Rle_trans; [exact T|]. lra.
Qed.

(** ** The matrix of a path in air *)
(** the elements of [g] are in air, finite, and no term is near the largest double *)
Record plain (g : @grp float) : Prop := mkPlain {
  pl_step : in_step g; pl_some : gelems g <> []; pl_air : Forall in_air (gelems g); pl_tame : Forall tame (members (gelems g));
  pl_few : INR (List.length (members (gelems g))) <= p2 50;
  pl_y : modest (members (gelems g)) unit_y; pl_th : modest (members (gelems g)) unit_th }.
(** the product of the matrices of the elements, in exact arithmetic *)
Definition exact_of (g : @grp float) : M2 := mprod (map rmat (members (gelems g))).
(** the terms that are added up for each of its entries, all counted as positive *)
Definition sumA (g : @grp float) : R := szy (sizes (members (gelems g)) (size0 unit_y)).
Definition sumB (g : @grp float) : R := szy (sizes (members (gelems g)) (size0 unit_th)).
Definition sumC (g : @grp float) : R := szt (sizes (members (gelems g)) (size0 unit_y)).
Definition sumD (g : @grp float) : R := szt (sizes (members (gelems g)) (size0 unit_th)).
(** one part in 2^50 for every element *)
Definition share (g : @grp float) : R := part (List.length (members (gelems g))).

Lemma exact_bound l : Forall tame l -> let M := mprod (map rmat l) in
  Rabs (A_ M) <= szy (sizes l (size0 unit_y)) /\ Rabs (C_ M) <= szt (sizes l (size0 unit_y)) /\
  Rabs (B_ M) <= szy (sizes l (size0 unit_th)) /\ Rabs (D_ M) <= szt (sizes l (size0 unit_th)).
Proof.
  pose proof tiny_pos as TP. destruct const_ok as (_ & V0 & _ & V1). induction l as [|km l IH] using rev_ind; intros Ht.
  - cbn [map mprod fold_left sizes mid A_ B_ C_ D_ size0 szy szt unit_y unit_th Ray_new ry rth]. unfold mprod; cbn [fold_left mid A_ B_ C_ D_]. rewrite V0, V1, Rabs_R0, Rabs_R1. lra.
  - apply Forall_app in Ht as [Ht _]. destruct (IH Ht) as (HA & HC & HB & HD). cbn zeta. rewrite map_app. cbn [map]. rewrite mprod_snoc.
    unfold sizes in *. rewrite !fold_left_app. cbn [fold_left sizeS szy szt].
    set (M := mprod (map rmat l)) in *. unfold mmul, rmat; cbn [A_ B_ C_ D_ snd].
    assert (forall a b x y s t, Rabs x <= s -> Rabs y <= t -> Rabs (a * x + b * y) <= Rabs a * s + Rabs b * t + tiny) as G.
    { intros a b x y s t H1 H2. eapply Rle_trans; [apply Rabs_triang|]. rewrite !Rabs_mult. pose proof (Rabs_pos a). pose proof (Rabs_pos b).
      assert (Rabs a * Rabs x <= Rabs a * s) by (apply Rmult_le_compat_l; auto). assert (Rabs b * Rabs y <= Rabs b * t) by (apply Rmult_le_compat_l; auto). lra. }
    repeat split; apply G; auto.
Qed.
Lemma loop_air es : forall tm p, Forall in_air es -> Forall (fun e => ffin (mL (emat e))) es -> mfi tm = @c1 float _ -> mbi tm = @c1 float _ ->
  transfer_loop es tm infinity = Ok p -> mfi p = @c1 float _ /\ mbi p = @c1 float _.
Proof.
  induction es as [|e es IH]; intros tm p Ha Hf I1 I2 H; [cbn in H; injection H as <-; auto|]. inversion Ha as [|? ? A1 A2]; subst. inversion Hf as [|? ? F1 F2]; subst.
  cbn [transfer_loop] in H. change (nleb (mL (emat e)) infinity) with (mL (emat e) <=? infinity)%float in H. rewrite inf_leb in H by auto.
  change (nsub infinity (mL (emat e))) with (infinity - mL (emat e))%float in H. rewrite inf_sub in H by auto.
  pose proof (mul_check e tm A1 I1 I2) as [MC1 MC2].
  match type of MC1 with ?x = true -> _ => destruct x eqn:EX end; [rewrite (MC1 eq_refl) in H; discriminate|].
  destruct (MC2 eq_refl) as (q & Eq & _ & _ & _ & _ & _ & Q1 & Q2). rewrite Eq in H. cbn [bind] in H. eauto.
Qed.
Lemma plain_matrix g : plain g -> let m := gmat g in let l := members (gelems g) in
  mfi m = @c1 float _ /\ mbi m = @c1 float _ /\
  same_place (ideals l unit_y) (colA m) /\ same_place (ideals l unit_th) (colB m).
Proof.
  intros [Hg Hne Ha Ht Hn Hy Hth] m l. destruct (Hg Hne) as (p & Hp & Em). unfold group_transfer in Hp.
  destruct default_air as (tm & ED & EA & EB & EC & EDD & EL & I1 & I2). rewrite ED in Hp. cbn [bind] in Hp. change (@ninf float _) with infinity in Hp.
  assert (Forall (fun e => ffin (mL (emat e))) (gelems g)) as HL.
  { apply Forall_forall. intros e He. rewrite Forall_forall in Ht. apply (tL (KMatrix, emat e)). apply Ht. unfold members. exact (in_map (fun e => (KMatrix, emat e)) _ _ He). }
  destruct (loop_air _ _ _ Ha HL I1 I2 Hp) as [J1 J2].
  destruct (transfer_columns (gelems g) tm p unit_y unit_th HL Hp) as [S1 S2].
  { unfold same_place, colA, unit_y, Ray_new; cbn [ry rth rz]. now rewrite EA, EC, EL. }
  { unfold same_place, colB, unit_th, Ray_new; cbn [ry rth rz]. now rewrite EB, EDD, EL. }
  unfold m. rewrite Em. cbn [copy_attrs mfi mbi]. split; [exact J1|]. split; [exact J2|]. split; [exact S1|exact S2].
Qed.
Lemma share_ok g : plain g -> (0 < List.length (members (gelems g)))%nat /\ share g <= 1 /\ 0 <= share g.
Proof.
  intros [_ Hne _ _ Hn _ _]. split; [|split; [now apply part_grow|apply part_pos]].
  destruct (gelems g); [now elim Hne|cbn; lia].
Qed.

(** ** Focal lengths *)
Lemma neg_one : ffin (@nopp float _ c1) /\ FR (@nopp float _ c1) = -1.
Proof.
  destruct const_ok as (_ & _ & F1 & V1). change (@nopp float _ c1) with (- (@c1 float _))%float. destruct (fopp_val (@c1 float _)) as [E F]. split; auto.
  rewrite E, V1. reflexivity.
Qed.
Lemma power_seen (c : PrimFloat.float) : ffin c -> 101 / 10 ^ 7 <= Rabs (FR c) -> isNotZero (c : float) eps5 = true.
Proof.
  intros Fc H. destruct eps5_value as (F5 & _ & L5). destruct (fabs_val c) as [Ea Fa]. unfold isNotZero. change (nltb eps5 (nabs c)) with ((@eps5 float _) <? abs c)%float.
  apply fltb_val; auto. rewrite Ea. cbn in *. lra.
Qed.
Lemma power_unseen (c : PrimFloat.float) : ffin c -> Rabs (FR c) <= 99 / 10 ^ 7 -> isNotZero (c : float) eps5 = false.
Proof.
  intros Fc H. destruct eps5_value as (F5 & L5 & _). destruct (fabs_val c) as [Ea Fa]. unfold isNotZero. change (nltb eps5 (nabs c)) with ((@eps5 float _) <? abs c)%float.
  destruct (@eps5 float _ <? abs c)%float eqn:E; [|reflexivity]. apply fltb_val in E; auto. rewrite Ea in E. cbn in *. lra.
Qed.
Lemma not_zero (c : PrimFloat.float) : FR c <> 0 -> neqb (c : float) c0 = false.
Proof. intros H. change (neqb (c : float) c0) with (c =? zero)%float. destruct (c =? zero)%float eqn:E; [|reflexivity]. now apply eqb_zero in E. Qed.
Lemma abs_near x y t : Rabs (x - y) <= t -> Rabs y - t <= Rabs x <= Rabs y + t.
Proof.
  intros H. pose proof (Rabs_triang (x - y) y) as T. replace (x - y + y) with x in T by ring.
  pose proof (Rabs_triang (- (x - y)) x) as T2. rewrite Rabs_Ropp in T2. replace (- (x - y) + x) with y in T2 by ring. lra.
Qed.
Theorem focal_near g : plain g -> let C := C_ (exact_of g) in
  101 / 10 ^ 7 + share g * sumC g <= Rabs C -> 2 * (share g * sumC g) <= Rabs C ->
  exists f, effectiveFocalLengths (gmat g) = Ok (f, f) /\ ffin f /\
    Rabs (FR f - -1 / C) <= 3 * share g * (1 + Rabs (-1 / C) * sumC g) / Rabs C + tiny.
Proof.
  intros P C H1 H2. destruct (share_ok g P) as (Hl & Hs1 & Hs0). destruct (plain_matrix g P) as (I1 & I2 & _). destruct P as [Hg Hne Ha Ht Hn Hy Hth].
  destruct (group_matrix_near g Hg Hne Ht Hn Hy Hth) as ((_ & _ & FC & _) & _ & NC & _).
  destruct (exact_bound _ Ht) as (_ & BC & _). fold (exact_of g) (sumC g) (share g) in NC, BC. fold C in NC, BC.
  destruct (abs_near _ _ _ NC) as [L1 _]. unfold effectiveFocalLengths, hasPower. rewrite power_seen by (auto; lra). destruct neg_one as [F1 V1].
  assert (0 <= share g * sumC g) as G0 by (apply Rmult_le_pos; auto; eapply Rle_trans; [apply Rabs_pos|exact BC]).
  assert (FR (mC (gmat g)) <> 0) as Cn. { intros E. rewrite E, Rabs_R0 in L1. cbn in *. lra. }
  rewrite I1, I2. unfold pdiv. rewrite (not_zero _ Cn). cbn [bind]. change (neqb (@c1 float _) c0) with false. cbv iota. cbn [bind].
  change (ndiv (@c1 float _) c1) with (@c1 float _).
  eexists. split; [reflexivity|]. change (ndiv (nopp (@c1 float _)) (mC (gmat g))) with (nopp (@c1 float _) / mC (gmat g))%float.
  apply (quot_near (List.length (members (gelems g)))); auto; try exact Hs1; try exact H2.
  - replace (-1) with (- (1)) by ring. rewrite Rabs_Ropp, Rabs_R1. lra.
  - rewrite V1. replace (-1 - -1) with 0 by ring. rewrite Rabs_R0. change (part (Datatypes.length (members (gelems g)))) with (share g). lra.
  - cbn in *. lra.
  - assert (p2 20 <= p2 1000) as P2 by (apply p2_le; lia). assert (p2 20 = 1048576) as P3 by (rewrite <- p2_IZR by lia; reflexivity). rewrite P3 in P2.
    apply Rle_trans with (1048576 * (101 / 10 ^ 7)); [cbn; lra|]. apply Rmult_le_compat; cbn in *; lra.
Qed.
Theorem focal_none g : plain g -> Rabs (C_ (exact_of g)) + share g * sumC g <= 99 / 10 ^ 7 ->
  effectiveFocalLengths (gmat g) = Ok (infinity, infinity).
Proof.
  intros P H1. destruct P as [Hg Hne Ha Ht Hn Hy Hth].
  destruct (group_matrix_near g Hg Hne Ht Hn Hy Hth) as ((_ & _ & FC & _) & _ & NC & _). fold (exact_of g) (sumC g) (share g) in NC.
  destruct (abs_near _ _ _ NC) as [_ L1]. unfold effectiveFocalLengths, hasPower. rewrite power_unseen by (auto; lra). reflexivity.
Qed.

(** ** Images *)
Lemma space_air (d : float) : exists s, SpaceM d (@c1 float _) infinity = Ok s /\ mA s = @c1 float _ /\ mB s = d /\ mC s = @c0 float _ /\ mD s = @c1 float _ /\ mL s = d /\
  mfi s = @c1 float _ /\ mbi s = @c1 float _ /\ mdiam s = infinity /\ mna s = infinity.
Proof.
  unfold SpaceM, Matrix_init. change (nleb infinity (@c0 float _)) with false. change (nleb (@ninf float _) c0) with false. cbv iota.
  change (pdiv (@c1 float _) (@c1 float _)) with (Ok (1%float : float)). cbn [bind].
  assert (areAbsolutelyNotEqual (det_of (@c1 float _) d c0 c1) 1%float eps5 = false) as ->.
  { unfold det_of. change (neqb (@c0 float _) c0) with true. cbv iota. vm_compute. reflexivity. }
  eexists. split; [reflexivity|]. repeat split.
Qed.
Lemma cancels (b d : PrimFloat.float) : ffin b -> ffin d -> FR d <> 0 -> Rabs (FR b) <= p2 1021 -> Rabs (FR b / FR d) <= p2 1022 ->
  let q := (- b / d)%float in
  Rabs (FR (1 * b + q * d)%float) <= p2 (-51) * Rabs (FR b) + tiny * (1 + Rabs (FR d)).
Proof.
  intros Fb Fd Dn Hb Hq q. pose proof uro_pos as U0. pose proof uro_small as U1. pose proof eta_pos as E0. pose proof eta_tiny8 as E8. pose proof (fin_bound _ Fd) as HD.
  destruct const_ok as (_ & _ & F1 & V1). assert (FR 1%float = 1) as W1 by exact V1. assert (ffin 1%float) as G1 by exact F1.
  assert (p2 (-51) = 4 * uro) as P51. { unfold uro. rewrite <- p2_2, <- p2_add. reflexivity. } rewrite P51.
  assert (4 * p2 1021 = p2 1023) as P23 by (rewrite <- p2_2, <- p2_add; reflexivity).
  assert (2 * p2 1022 = p2 1023) as P22 by (rewrite <- p2_1, <- p2_add; reflexivity).
  assert (1 <= p2 1021) as P0 by (rewrite <- p2_0; apply p2_le; lia).
  destruct (fopp_val b) as [Eo Fo]. specialize (Fo Fb).
  assert (FR (- b)%float / FR d = - (FR b / FR d)) as EQ by (rewrite Eo; field; auto).
  destruct (fdiv_near (- b)%float d Fo Fd Dn) as [Fq Nq]; [rewrite EQ, Rabs_Ropp; lra|]. fold q in Fq, Nq. rewrite EQ, Rabs_Ropp in Nq.
  assert (eta * Rabs (FR d) <= / 8) as ED.
  { apply Rle_trans with (eta * p2 1024); [apply Rmult_le_compat_l; lra|]. unfold eta. rewrite <- p2_add, <- p2_m3. apply p2_le. lia. }
  pose proof (Rabs_pos (FR d)) as D0. pose proof (Rabs_pos (FR b)) as B0.
  assert (0 < Rabs (FR d)) as D1 by now apply Rabs_pos_lt.
  assert (Rabs (FR q * FR d + FR b) <= uro * Rabs (FR b) + eta * Rabs (FR d)) as K1.
  { replace (FR q * FR d + FR b) with ((FR q - - (FR b / FR d)) * FR d) by (field; auto). rewrite Rabs_mult.
    replace (uro * Rabs (FR b) + eta * Rabs (FR d)) with ((uro * Rabs (FR b / FR d) + eta) * Rabs (FR d)); [apply Rmult_le_compat_r; auto|].
    unfold Rdiv. rewrite Rabs_mult, Rabs_inv. field. lra. }
  assert (uro * Rabs (FR b) <= / 8 * Rabs (FR b)) as UB by (apply Rmult_le_compat_r; lra).
  assert (0 <= uro * Rabs (FR b)) as UB0 by (apply Rmult_le_pos; lra).
  assert (0 <= eta * Rabs (FR d)) as ED0 by (apply Rmult_le_pos; lra).
  assert (Rabs (FR q * FR d) <= Rabs (FR b) + uro * Rabs (FR b) + eta * Rabs (FR d)) as K2.
  { pose proof (Rabs_triang (FR q * FR d + FR b) (- FR b)) as T. rewrite Rabs_Ropp in T. replace (FR q * FR d + FR b + - FR b) with (FR q * FR d) in T by ring. lra. }
  destruct (fmul_near 1%float b G1 Fb) as [Fm1 Nm1]; [rewrite W1, Rmult_1_l; lra|]. rewrite W1, Rmult_1_l in Nm1.
  destruct (fmul_near q d Fq Fd) as [Fm2 Nm2]; [lra|].
  set (x := FR (1 * b)%float) in *. set (y := FR (q * d)%float) in *.
  assert (uro * Rabs (FR q * FR d) <= uro * (Rabs (FR b) + / 8 * Rabs (FR b) + eta * Rabs (FR d))) as K3 by (apply Rmult_le_compat_l; lra).
  assert (uro * (eta * Rabs (FR d)) <= / 8 * (eta * Rabs (FR d))) as K4 by (apply Rmult_le_compat_r; lra).
  assert (Rabs (x + y) <= 3 * (uro * Rabs (FR b)) + / 4 * (uro * Rabs (FR b)) + 2 * eta + 2 * (eta * Rabs (FR d))) as K5.
  { replace (x + y) with ((x - FR b) + ((y - FR q * FR d) + (FR q * FR d + FR b))) by ring.
    eapply Rle_trans; [apply Rabs_triang|]. eapply Rle_trans; [apply Rplus_le_compat_l, Rabs_triang|]. lra. }
  assert (eta <= / 8) as EE. { unfold eta. rewrite <- p2_m3. apply p2_le. lia. }
  destruct (fadd_near (1 * b)%float (q * d)%float Fm1 Fm2) as [Fs Ns]; [fold x y; lra|]. fold x y in Ns.
  pose proof (Rabs_triang (FR (1 * b + q * d)%float - (x + y)) (x + y)) as T. replace (FR (1 * b + q * d)%float - (x + y) + (x + y)) with (FR (1 * b + q * d)%float) in T by ring.
  assert (uro * Rabs (x + y) <= / 8 * Rabs (x + y)) as K6 by (apply Rmult_le_compat_r; [apply Rabs_pos|lra]).
  assert (8 * (eta * Rabs (FR d)) <= tiny * Rabs (FR d)) as K7 by (rewrite <- Rmult_assoc; apply Rmult_le_compat_r; lra).
  eapply Rle_trans; [exact T|]. lra.
Qed.
Lemma det_with_space l (s : @mat float) : mA s = @c1 float _ -> mC s = @c0 float _ -> mD s = @c1 float _ -> exact_det (l ++ [(KMatrix, s)]) = exact_det l.
Proof.
  intros EA EC ED. destruct const_ok as (_ & V0 & _ & V1). unfold exact_det. rewrite map_app. cbn [map]. rewrite mprod_snoc, mdet_mul. unfold mdet at 1, rmat; cbn [A_ B_ C_ D_ snd].
  rewrite EA, EC, ED, V0, V1. ring.
Qed.
(** where the image is *)
Theorem image_near g : plain g -> let B := B_ (exact_of g) in let D := D_ (exact_of g) in
  0 < Rabs D -> 2 * (share g * sumD g) <= Rabs D -> sumB g <= p2 1000 * Rabs D ->
  exists d, ffin d /\ Rabs (FR d - - B / D) <= 3 * share g * (sumB g + Rabs (- B / D) * sumD g) / Rabs D + tiny /\
    (forall d' oc, forwardConjugate (gmat g) = Ok (d', oc) -> d' = d /\
       exists c, oc = Some c /\ Rabs (FR (mB c)) <= p2 (-50) * sumB g + tiny * (1 + 2 * sumD g)) /\
    (forall e, Space d (@c1 float _) infinity = Ok e -> let l := members (gelems g ++ [e]) in
       INR (List.length l) <= p2 50 -> modest l unit_y -> modest l unit_th ->
       Rabs (exact_det (members (gelems g)) - 1) + slack l <= 99 / 10 ^ 7 ->
       exists c, forwardConjugate (gmat g) = Ok (d, Some c)).
Proof.
  intros P B D HD0 HD2 Hov. destruct (share_ok g P) as (Hl & Hs1 & Hs0). destruct (plain_matrix g P) as (I1 & I2 & R1 & R2). destruct P as [Hg Hne Ha Ht Hn Hy Hth].
  destruct (group_matrix_near g Hg Hne Ht Hn Hy Hth) as ((FA & FB & FC & FD & FL) & _ & _ & NB & ND & _).
  destruct (exact_bound _ Ht) as (_ & _ & BB & BD). fold (exact_of g) (sumB g) (sumD g) (share g) in NB, ND, BB, BD. fold B in NB, BB. fold D in ND, BD.
  set (m := gmat g) in *. destruct (abs_near _ _ _ NB) as [_ UB]. destruct (abs_near _ _ _ ND) as [LD UD].
  assert (FR (mD m) <> 0) as Dn. { intros E. rewrite E, Rabs_R0 in LD. lra. }
  destruct (fopp_val (mB m)) as [EB GB]. specialize (GB FB).
  set (d := (- mB m / mD m)%float). exists d.
  destruct (quot_near (List.length (members (gelems g))) (- mB m)%float (mD m) (- B) D (sumB g) (sumD g)) as [Fq Nq]; auto.
  { now rewrite Rabs_Ropp. }
  { rewrite EB. replace (- FR (mB m) - - B) with (- (FR (mB m) - B)) by ring. rewrite Rabs_Ropp. exact NB. }
  split; [exact Fq|]. split; [exact Nq|].
  destruct (space_air d) as (s & Es & SA & SB & SC & SD & SL & S1 & S2 & S3 & S4).
  assert (forwardConjugate m = (c <- mul_matrix s m;; Ok (d, Some c))) as EF.
  { unfold forwardConjugate, pdiv. rewrite (not_zero _ Dn). cbn [bind]. change (ndiv (nopp (mB m)) (mD m)) with d. rewrite I2.
    change (@ninf float _) with infinity. rewrite Es. reflexivity. }
  assert (in_air (Leaf KSpace s)) as As by (split; assumption).
  pose proof (mul_check (Leaf KSpace s) m As I1 I2) as MC. cbn [emat] in MC. rewrite SA, SB, SC, SD, SL in MC. cbv zeta in MC. destruct MC as [MC1 MC2].
  assert (0 <= sumB g) as sB0 by (eapply Rle_trans; [apply Rabs_pos|exact BB]). assert (0 <= sumD g) as sD0 by (eapply Rle_trans; [apply Rabs_pos|exact BD]).
  assert (share g * sumB g <= 1 * sumB g) as HB1 by (apply Rmult_le_compat_r; auto).
  assert (share g * sumD g <= 1 * sumD g) as HD1 by (apply Rmult_le_compat_r; auto).
  assert (sumB g <= p2 1020) as HB20 by (destruct (Hth (members (gelems g)) [] ltac:(now rewrite app_nil_r)) as (H & _); exact H).
  assert (2 * p2 1020 = p2 1021) as P21 by (rewrite <- p2_1, <- p2_add; reflexivity).
  rewrite EF. split.
  - intros d' oc E. match type of MC1 with ?x = true -> _ => destruct x eqn:EX end.
    + rewrite (MC1 eq_refl) in E. discriminate.
    + destruct (MC2 eq_refl) as (c & Ec & _ & QB & _). rewrite Ec in E. cbn [bind] in E. injection E as <- <-. split; auto. exists c. split; auto.
      rewrite QB. change (nadd (nmul c1 (mB m)) (nmul d (mD m))) with (1 * mB m + d * mD m)%float.
      assert (Rabs (FR (mB m) / FR (mD m)) <= p2 1022) as HQ.
      { unfold Rdiv. rewrite Rabs_mult, Rabs_inv. apply (Rmult_le_reg_r (Rabs (FR (mD m)))); [now apply Rabs_pos_lt|]. rewrite Rmult_assoc, Rinv_l, Rmult_1_r by now apply Rabs_no_R0.
        apply Rle_trans with (2 * (p2 1000 * Rabs D)); [lra|]. apply Rle_trans with (p2 1022 * (Rabs D / 2)); [|apply Rmult_le_compat_l; [apply Rlt_le, p2_pos|lra]].
        assert (4 * p2 1000 <= p2 1022) by (rewrite <- p2_2, <- p2_add; apply p2_le; lia).
        assert (4 * p2 1000 * (Rabs D / 2) <= p2 1022 * (Rabs D / 2)) by (apply Rmult_le_compat_r; lra). lra. }
      eapply Rle_trans; [apply cancels; auto; lra|]. fold d.
      assert (p2 (-50) = 2 * p2 (-51)) as P5 by (rewrite <- p2_1, <- p2_add; reflexivity). pose proof (p2_pos (-51)). pose proof tiny_pos.
      assert (p2 (-51) * Rabs (FR (mB m)) <= p2 (-51) * (2 * sumB g)) by (apply Rmult_le_compat_l; lra).
      assert (tiny * (1 + Rabs (FR (mD m))) <= tiny * (1 + 2 * sumD g)) by (apply Rmult_le_compat_l; lra). rewrite P5. replace (2 * p2 (-51) * sumB g) with (p2 (-51) * (2 * sumB g)) by ring. apply Rplus_le_compat; assumption.
  - intros e He l Hn' Hy' Hth' Hw. pose proof (f_equal (fun r => m <- r;; Ok (Leaf KSpace m)) Es) as E5. cbn [bind] in E5. pose proof (eq_trans (eq_sym He) E5) as E6. injection E6 as E7. subst e.
    assert (l = members (gelems g) ++ [(KMatrix, s)]) as El by (unfold l; now rewrite members_app).
    pose proof (product_near l) as PN. cbn zeta in PN. destruct PN as (FDD & NDD & _); auto.
    { rewrite El. intros X. apply app_eq_nil in X as [_ X]. discriminate. }
    { rewrite El. apply Forall_app. split; auto. apply Forall_cons; [|apply Forall_nil]. destruct const_ok as (F0 & _ & F1 & _).
      constructor; cbn [snd fst]; rewrite ?SA, ?SB, ?SC, ?SD, ?SL, ?S3, ?S4; auto; try (right; vm_compute; reflexivity). }
    { pose proof (Rabs_pos (exact_det (members (gelems g)) - 1)). assert (1 <= p2 900) by (rewrite <- p2_0; apply p2_le; lia). assert (99 / 10 ^ 7 <= 1) by (cbn; lra). lra. }
    rewrite El in FDD, NDD. rewrite det_with_space in NDD by auto. rewrite !ideals_app in FDD, NDD. rewrite <- El in NDD.
    cbn [ideals fold_left] in FDD, NDD.
    unfold ideals in FDD, NDD. fold (ideals (members (gelems g)) unit_y) (ideals (members (gelems g)) unit_th) in FDD, NDD. cbn [fold_left ideal ry rth fst snd] in FDD, NDD.
    destruct R1 as (E1 & E2 & _), R2 as (E3 & E4 & _). rewrite E1, E2, E3, E4, SA, SB, SC, SD in FDD, NDD. cbn [colA colB ry rth] in FDD, NDD.
    destruct MC2 as (c & -> & _); [|cbn [bind]; eauto]. apply det_accepted; [exact FDD|].
    match type of NDD with Rabs (?x - ?y) <= _ => pose proof (Rabs_triang (x - y) (y - 1)) as T; replace (x - y + (y - 1)) with (x - 1) in T by ring end.
    eapply Rle_trans; [exact T|]. eapply Rle_trans; [|exact Hw]. rewrite Rplus_comm. apply Rplus_le_compat_l. exact NDD.
Qed.
(** where the object is *)
Theorem object_near g : plain g -> let A := A_ (exact_of g) in let B := B_ (exact_of g) in
  0 < Rabs A -> 2 * (share g * sumA g) <= Rabs A -> sumB g <= p2 1000 * Rabs A ->
  forall d c, backwardConjugate (gmat g) = Ok (d, c) ->
  ffin d /\ Rabs (FR d - - B / A) <= 3 * share g * (sumB g + Rabs (- B / A) * sumA g) / Rabs A + tiny /\ FR (mB c) = 0.
Proof.
  intros P A B HA0 HA2 Hov d c E. destruct (share_ok g P) as (Hl & Hs1 & Hs0). destruct P as [Hg Hne Ha Ht Hn Hy Hth].
  destruct (group_matrix_near g Hg Hne Ht Hn Hy Hth) as ((FA & FB & FC & FD & FL) & NA & _ & NB & _).
  destruct (exact_bound _ Ht) as (BA & _ & BB & _). fold (exact_of g) (sumB g) (sumA g) (share g) in NB, NA, BB, BA. fold B in NB, BB. fold A in NA, BA.
  set (m := gmat g) in *. destruct (abs_near _ _ _ NA) as [LA _].
  assert (FR (mA m) <> 0) as An. { intros X. rewrite X, Rabs_R0 in LA. lra. }
  unfold backwardConjugate, pdiv in E. rewrite (not_zero _ An) in E. cbn [negb bind] in E.
  destruct (SpaceM _ _ _) as [s|]; cbn [bind] in E; [|discriminate]. destruct (mul_matrix m s) as [q|]; cbn [bind] in E; [|discriminate]. injection E as <- <-.
  destruct (fopp_val (mB m)) as [EB GB]. specialize (GB FB).
  destruct (quot_near (List.length (members (gelems g))) (- mB m)%float (mA m) (- B) A (sumB g) (sumA g)) as [Fq Nq]; auto.
  { now rewrite Rabs_Ropp. }
  { rewrite EB. replace (- FR (mB m) - - B) with (- (FR (mB m) - B)) by ring. rewrite Rabs_Ropp. exact NB. }
Qed.
(** an image is said to be at infinity only when it is, but for rounding *)
Theorem infinity_near g : plain g -> forall d, forwardConjugate (gmat g) = Ok (d, None) -> d = infinity /\ Rabs (D_ (exact_of g)) <= share g * sumD g.
Proof.
  intros P d E. destruct P as [Hg Hne Ha Ht Hn Hy Hth].
  destruct (group_matrix_near g Hg Hne Ht Hn Hy Hth) as (_ & _ & _ & _ & ND & _). fold (exact_of g) (sumD g) (share g) in ND. set (m := gmat g) in *.
  unfold forwardConjugate in E. change (neqb (mD m) c0) with (mD m =? zero)%float in E. destruct (mD m =? zero)%float eqn:E0.
  - injection E as <-. apply eqb_zero in E0. rewrite E0 in ND. unfold Rminus in ND. rewrite Rplus_0_l, Rabs_Ropp in ND. split; auto.
  - destruct (pdiv _ _); cbn [bind] in E; [|discriminate]. destruct (SpaceM _ _ _) as [s|]; cbn [bind] in E; [|discriminate]. destruct (mul_matrix s m) as [q|]; cbn [bind] in E; discriminate.
Qed.
