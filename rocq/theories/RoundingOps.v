(** The error of one operation on doubles. *)
From Coq Require Import ZArith Reals Lra Lia List Bool Floats.
From Verif Require Import Rounding.
Open Scope R_scope.

Local Notation emin := (SpecFloat.emin prec emax).
Local Notation fexp := (SpecFloat.fexp prec emax).
Local Notation valid_binary := (SpecFloat.valid_binary prec emax).

(** the number a double stands for; infinities and nan are not [ffin] *)
Definition val (r : spec_float) : R := if neg_of r then - mag r else mag r.
Definition FR (f : float) : R := val (Prim2SF f).
Definition ffin (f : float) : Prop := sfin (Prim2SF f).
(** half a unit in the last place, relatively, and half the smallest double *)
Definition uro : R := p2 (-53).
Definition eta : R := p2 (-1075).
Lemma uro_pos : 0 < uro. Proof. apply p2_pos. Qed.
Lemma eta_pos : 0 < eta. Proof. apply p2_pos. Qed.

Lemma valid_finite s m e : valid_binary (S754_finite s m e) = true -> fexp (Zpos (digits2_pos m) + e) = e /\ (emin <= e <= 971)%Z.
Proof.
  cbn [SpecFloat.valid_binary]. unfold bounded, canonical_mantissa. intros H. apply andb_prop in H as [H1 H2].
  apply Zeq_bool_eq in H1. apply Zle_bool_imp_le in H2. split; auto. unfold SpecFloat.fexp in H1. change (emax - prec)%Z with 971%Z in H2. lia.
Qed.

(** ** Rounding a number with a sign *)
Definition near (r : spec_float) (x : R) : Prop := sfin r /\ Rabs (val r - x) <= uro * Rabs x + eta.
Lemma round_near s x m e l : (0 <= m)%Z -> at_loc x m l -> (e <= fexp (Zdigits2 m + e) \/ l = loc_Exact /\ e <= 971)%Z ->
  x * p2 e <= p2 1023 -> near (SpecFloat.binary_round_aux prec emax s m e l) ((if s then -1 else 1) * (x * p2 e)).
Proof.
  intros Hm Hx Hl Hb.
  destruct (round_ok prec emax ltac:(reflexivity) s x m e l Hm Hx Hl ltac:(discriminate) ltac:(discriminate) Hb) as (r & -> & Hf & Hs & He).
  split; auto. unfold val. rewrite Hs. change (emin - 1)%Z with (-1075)%Z in He. change (- prec)%Z with (-53)%Z in He. fold uro eta in He.
  assert (0 <= x * p2 e). { pose proof (at_loc_ge _ _ _ Hx). pose proof (IZR_le 0 m Hm). apply Rmult_le_pos; [lra|apply Rlt_le, p2_pos]. }
  destruct s.
  - replace (- mag r - -1 * (x * p2 e)) with (- (mag r - x * p2 e)) by ring. rewrite Rabs_Ropp.
    replace (-1 * (x * p2 e)) with (- (x * p2 e)) by ring. rewrite Rabs_Ropp, (Rabs_pos_eq (x * p2 e)); auto.
  - rewrite Rmult_1_l, (Rabs_pos_eq (x * p2 e)); auto.
Qed.
Lemma near_exact r x : sfin r -> val r = x -> near r x.
Proof.
  intros Hf <-. split; auto. replace (val r - val r) with 0 by ring. rewrite Rabs_R0. pose proof uro_pos. pose proof eta_pos.
  pose proof (Rabs_pos (val r)). assert (0 <= uro * Rabs (val r)) by (apply Rmult_le_pos; lra). lra.
Qed.
Lemma val_finite s m e : val (S754_finite s m e) = (if s then -1 else 1) * (IZR (Zpos m) * p2 e).
Proof. unfold val. cbn [neg_of mag]. destruct s; ring. Qed.
Lemma val_zero s : val (S754_zero s) = 0.
Proof. unfold val. destruct s; cbn; lra. Qed.
Lemma sign_sq (s : bool) : (if s then -1 else 1) * (if s then -1 else 1) = 1. Proof. destruct s; ring. Qed.
Lemma sign_abs (s : bool) x : Rabs ((if s then -1 else 1) * x) = Rabs x.
Proof. destruct s; [rewrite <- (Rabs_Ropp x)|]; f_equal; ring. Qed.

(** ** Multiplication *)
Lemma digits_ge m d : (0 < m)%Z -> (0 <= d)%Z -> (2 ^ d <= m)%Z -> (d + 1 <= Zdigits2 m)%Z.
Proof.
  intros Hm Hd H. destruct (digits_Z m Hm) as [[_ K] P]. assert (2 ^ d < 2 ^ Zdigits2 m)%Z as Q by lia. apply Z.pow_lt_mono_r_iff in Q; lia.
Qed.
Lemma mul_near x y : valid_binary x = true -> valid_binary y = true -> sfin x -> sfin y -> Rabs (val x * val y) <= p2 1023 ->
  near (SF64mul x y) (val x * val y).
Proof.
  intros Vx Vy Fx Fy Hb.
  destruct x as [sx|sx| |sx mx ex]; try contradiction; destruct y as [sy|sy| |sy my ey]; try contradiction; cbn [SF64mul SFmul].
  1-3: apply near_exact; [exact I|rewrite ?val_zero; ring].
  destruct (valid_finite _ _ _ Vx) as [Cx Lx]. destruct (valid_finite _ _ _ Vy) as [Cy Ly].
  assert (val (S754_finite sx mx ex) * val (S754_finite sy my ey) = (if xorb sx sy then -1 else 1) * (IZR (Zpos (mx * my)) * p2 (ex + ey))) as E.
  { rewrite !val_finite, p2_add, Pos2Z.inj_mul, mult_IZR. destruct sx, sy; cbn [xorb]; ring. }
  rewrite E in Hb |- *. apply (round_near (xorb sx sy) (IZR (Zpos (mx * my))) (Zpos (mx * my)) (ex + ey) loc_Exact); [lia|reflexivity| |].
  - destruct (Z.eq_dec ex emin) as [->|Nx]; [right; split; auto; change emin with (-1074)%Z; lia|].
    destruct (Z.eq_dec ey emin) as [->|Ny]; [right; split; auto; change emin with (-1074)%Z; lia|]. left.
    assert (Zpos (digits2_pos mx) = 53)%Z as Dx by (unfold SpecFloat.fexp, prec in *; lia).
    assert (Zpos (digits2_pos my) = 53)%Z as Dy by (unfold SpecFloat.fexp, prec in *; lia).
    destruct (digits_pos mx) as [Kx _]. destruct (digits_pos my) as [Ky _]. rewrite Dx in Kx. rewrite Dy in Ky. change (53 - 1)%Z with 52%Z in *.
    assert (104 + 1 <= Zdigits2 (Z.pos (mx * my)))%Z as Dm.
    { apply digits_ge; [lia|lia|]. rewrite Pos2Z.inj_mul. change (2 ^ 104)%Z with (2 ^ 52 * 2 ^ 52)%Z. apply Z.mul_le_mono_nonneg; lia. }
    unfold SpecFloat.fexp, prec in *. lia.
  - rewrite sign_abs, Rabs_pos_eq in Hb; auto. apply Rmult_le_pos; [apply IZR_le; lia|apply Rlt_le, p2_pos].
Qed.

(** ** Addition *)
Lemma shift_pos_val d m : Zpos (shift_pos d m) = (Zpos m * 2 ^ Zpos d)%Z.
Proof. rewrite shift_pos_correct, Z.pow_pos_fold. ring. Qed.
Lemma shl_align_val m e e' : let (m', e'') := shl_align m e e' in
  IZR (Zpos m') * p2 e'' = IZR (Zpos m) * p2 e /\ e'' = Z.min e e'.
Proof.
  unfold shl_align. destruct (e' - e)%Z as [|d|d] eqn:D; try (split; [reflexivity|lia]).
  split; [|lia]. rewrite shift_pos_val, mult_IZR, p2_IZR by lia. rewrite Rmult_assoc, <- p2_add. do 2 f_equal. lia.
Qed.
Lemma shl_align_digits m e e' : let (m', e'') := shl_align m e e' in (Zpos (digits2_pos m') + e'' = Zpos (digits2_pos m) + e)%Z.
Proof.
  pose proof (shl_align_val m e e') as H. destruct (shl_align m e e') as [m' e'']. destruct H as [H _].
  pose proof (digits_R (Zpos m) e ltac:(lia)) as [A1 A2]. pose proof (digits_R (Zpos m') e'' ltac:(lia)) as [B1 B2].
  cbn [Zdigits2] in *. rewrite H in B1, B2.
  destruct (Z.lt_trichotomy (Zpos (digits2_pos m') + e'') (Zpos (digits2_pos m) + e)) as [L|[|L]]; auto.
  - pose proof (p2_le (Zpos (digits2_pos m') + e'') (Zpos (digits2_pos m) + e - 1) ltac:(lia)). lra.
  - pose proof (p2_le (Zpos (digits2_pos m) + e) (Zpos (digits2_pos m') + e'' - 1) ltac:(lia)). lra.
Qed.
Lemma binary_round_near s m e : IZR (Zpos m) * p2 e <= p2 1023 ->
  near (SpecFloat.binary_round prec emax s m e) ((if s then -1 else 1) * (IZR (Zpos m) * p2 e)).
Proof.
  intros Hb. unfold SpecFloat.binary_round. pose proof (shl_align_val m e (fexp (Zpos (digits2_pos m) + e))) as H.
  pose proof (shl_align_digits m e (fexp (Zpos (digits2_pos m) + e))) as HD. destruct (shl_align m e (fexp (Zpos (digits2_pos m) + e))) as [m' e'].
  destruct H as [H He]. rewrite <- H in Hb |- *. apply round_near; auto; [lia|reflexivity|]. left. cbn [Zdigits2]. rewrite HD. lia.
Qed.
Lemma normalize_near z e sz : Rabs (IZR z * p2 e) <= p2 1023 -> near (SpecFloat.binary_normalize prec emax z e sz) (IZR z * p2 e).
Proof.
  intros Hb. destruct z as [|p|p]; cbn [SpecFloat.binary_normalize].
  - apply near_exact; [exact I|]. rewrite val_zero. ring.
  - replace (IZR (Z.pos p) * p2 e) with (1 * (IZR (Z.pos p) * p2 e)) by ring. apply (binary_round_near false).
    rewrite Rabs_pos_eq in Hb; auto. apply Rmult_le_pos; [apply IZR_le; lia|apply Rlt_le, p2_pos].
  - change (Z.neg p) with (- Z.pos p)%Z in *. rewrite opp_IZR in *. replace (- IZR (Z.pos p) * p2 e) with (-1 * (IZR (Z.pos p) * p2 e)) in * by ring.
    apply (binary_round_near true). replace (-1 * (IZR (Z.pos p) * p2 e)) with (- (IZR (Z.pos p) * p2 e)) in Hb by ring. rewrite Rabs_Ropp, Rabs_pos_eq in Hb; auto.
    apply Rmult_le_pos; [apply IZR_le; lia|apply Rlt_le, p2_pos].
Qed.
Lemma cond_IZR (s : bool) z : IZR (cond_Zopp s z) = (if s then -1 else 1) * IZR z.
Proof. destruct s; cbn [cond_Zopp]; rewrite ?opp_IZR; ring. Qed.
Lemma add_near x y : sfin x -> sfin y -> Rabs (val x + val y) <= p2 1023 -> near (SF64add x y) (val x + val y).
Proof.
  intros Fx Fy Hb.
  destruct x as [sx|sx| |sx mx ex]; try contradiction; destruct y as [sy|sy| |sy my ey]; try contradiction; unfold SF64add; cbn [SFadd].
  - apply near_exact; [destruct (Bool.eqb sx sy); exact I|]. rewrite !val_zero. destruct (Bool.eqb sx sy); rewrite val_zero; ring.
  - apply near_exact; [exact I|]. rewrite val_zero. ring.
  - apply near_exact; [exact I|]. rewrite val_zero. ring.
  - pose proof (shl_align_val mx ex (Z.min ex ey)) as Hx. pose proof (shl_align_val my ey (Z.min ex ey)) as Hy.
    destruct (shl_align mx ex (Z.min ex ey)) as [mx' ex'], (shl_align my ey (Z.min ex ey)) as [my' ey']. cbn [fst].
    destruct Hx as [Hx Ex], Hy as [Hy Ey]. rewrite !val_finite in *.
    assert ((if sx then -1 else 1) * (IZR (Z.pos mx) * p2 ex) + (if sy then -1 else 1) * (IZR (Z.pos my) * p2 ey) =
      IZR (cond_Zopp sx (Z.pos mx') + cond_Zopp sy (Z.pos my')) * p2 (Z.min ex ey)) as E.
    { rewrite <- Hx, <- Hy, plus_IZR, !cond_IZR. replace ex' with (Z.min ex ey) by lia. replace ey' with (Z.min ex ey) by lia. ring. }
    rewrite E in *. now apply normalize_near.
Qed.

(** ** Division *)
Lemma new_location_ok n k q : (0 < n)%Z -> (0 <= k < n)%Z -> at_loc (IZR q + IZR k / IZR n) q (new_location n k).
Proof.
  intros Hn Hk. assert (0 < IZR n) as Pn by now apply (IZR_lt 0). assert (0 <= IZR k < IZR n) as [Pk Pk2] by (split; [apply IZR_le|apply IZR_lt]; lia).
  assert (forall a, a * IZR n < IZR k -> a < IZR k / IZR n) as G1. { intros a H. apply (Rmult_lt_reg_r (IZR n)); auto. unfold Rdiv. rewrite Rmult_assoc, Rinv_l by lra. lra. }
  assert (forall a, IZR k < a * IZR n -> IZR k / IZR n < a) as G2. { intros a H. apply (Rmult_lt_reg_r (IZR n)); auto. unfold Rdiv. rewrite Rmult_assoc, Rinv_l by lra. lra. }
  unfold new_location. destruct (Z.even n) eqn:En.
  - unfold new_location_even. destruct (Zeq_bool k 0) eqn:K0; [apply Zeq_bool_eq in K0 as ->; cbn; field; lra|].
    apply Zeq_bool_neq in K0. assert (0 < IZR k) by (apply (IZR_lt 0); lia).
    destruct (Z.compare_spec (2 * k) n) as [C|C|C]; cbn [at_loc].
    + assert (2 * IZR k = IZR n) as C' by (rewrite <- C, mult_IZR; reflexivity). rewrite <- C'. field. lra.
    + assert (2 * IZR k < IZR n) as C' by (rewrite <- (mult_IZR 2); now apply IZR_lt). specialize (G1 0). specialize (G2 (/ 2)). lra.
    + assert (IZR n < 2 * IZR k) as C' by (rewrite <- (mult_IZR 2); now apply IZR_lt). specialize (G1 (/ 2)). specialize (G2 1). lra.
  - unfold new_location_odd. destruct (Zeq_bool k 0) eqn:K0; [apply Zeq_bool_eq in K0 as ->; cbn; field; lra|].
    apply Zeq_bool_neq in K0. assert (0 < IZR k) by (apply (IZR_lt 0); lia).
    assert (Z.odd n = true) as On by (rewrite <- Z.negb_even, En; reflexivity). apply Z.odd_spec in On as [j Hj].
    destruct (Z.compare_spec (2 * k + 1) n) as [C|C|C]; cbn [at_loc].
    + assert (2 * IZR k < IZR n) as C' by (rewrite <- (mult_IZR 2); apply IZR_lt; lia). specialize (G1 0). specialize (G2 (/ 2)). lra.
    + assert (2 * IZR k < IZR n) as C' by (rewrite <- (mult_IZR 2); apply IZR_lt; lia). specialize (G1 0). specialize (G2 (/ 2)). lra.
    + assert (IZR n < 2 * IZR k) as C' by (rewrite <- (mult_IZR 2); apply IZR_lt; lia). specialize (G1 (/ 2)). specialize (G2 1). lra.
Qed.
Lemma div_near x y : sfin x -> sfin y -> val y <> 0 -> Rabs (val x / val y) <= p2 1023 -> near (SF64div x y) (val x / val y).
Proof.
  intros Fx Fy Hy Hb.
  destruct y as [sy|sy| |sy my ey]; try contradiction; [now rewrite val_zero in Hy|].
  destruct x as [sx|sx| |sx mx ex]; try contradiction; unfold SF64div; cbn [SFdiv].
  - apply near_exact; [exact I|]. rewrite !val_zero. unfold Rdiv. ring.
  - unfold SFdiv_core_binary. set (d := (Zdigits2 (Z.pos mx) + ex - (Zdigits2 (Z.pos my) + ey))%Z). set (e' := Z.min (fexp d) (ex - ey)). set (s := (ex - ey - e')%Z).
    assert (0 <= s)%Z as Hs by lia.
    assert ((match s with Z0 => Z.pos mx | Z.pos _ => Z.shiftl (Z.pos mx) s | Z.neg _ => 0 end) = (Z.pos mx * 2 ^ s))%Z as ->.
    { destruct s; try lia. now rewrite Z.shiftl_mul_pow2 by lia. }
    pose proof (Z_div_mod (Z.pos mx * 2 ^ s) (Z.pos my) ltac:(lia)) as DM.
    destruct (Z.div_eucl (Z.pos mx * 2 ^ s) (Z.pos my)) as [q r]. destruct DM as [EQ Hr].
    assert (0 < IZR (Z.pos my)) as Pmy by (apply (IZR_lt 0); lia). assert (0 < IZR (Z.pos mx)) as Pmx by (apply (IZR_lt 0); lia).
    assert (0 <= q)%Z as Hq. { destruct (Z.le_gt_cases 0 q); auto. exfalso. pose proof (Z.pow_pos_nonneg 2 s). nia. }
    assert (IZR q + IZR r / IZR (Z.pos my) = IZR (Z.pos mx) * p2 s / IZR (Z.pos my)) as EX.
    { rewrite <- (p2_IZR s Hs), <- mult_IZR, EQ, plus_IZR, mult_IZR. field. lra. }
    assert (val (S754_finite sx mx ex) / val (S754_finite sy my ey) = (if xorb sx sy then -1 else 1) * ((IZR q + IZR r / IZR (Z.pos my)) * p2 e')) as E.
    { rewrite EX, !val_finite. replace ex with (s + e' + ey)%Z by lia. rewrite !p2_add. pose proof (p2_pos ey). destruct sx, sy; cbn [xorb]; field; lra. }
    rewrite E in *. apply round_near; auto.
    + apply new_location_ok; lia.
    + left. assert (d <= Zdigits2 q + e')%Z as HD; [|unfold SpecFloat.fexp in *; lia].
      cbn [Zdigits2] in d. destruct (digits_pos mx) as [K1 _]. destruct (digits_pos my) as [_ K2].
      destruct (Z.le_gt_cases (Z.pos (digits2_pos mx) - 1 + s) (Z.pos (digits2_pos my))) as [L|L].
      { destruct (Z.eq_dec q 0) as [->|N]; [|destruct (digits_Z q ltac:(lia)) as [_ P]]; cbn [Zdigits2]; try lia.
        (* q = 0 *)
        destruct (Z.le_gt_cases (Z.pos (digits2_pos mx) + s) (Z.pos (digits2_pos my))) as [L'|L']; [lia|]. exfalso.
        assert (Z.pos mx * 2 ^ s < Z.pos my)%Z as K by lia.
        assert (2 ^ (Z.pos (digits2_pos mx) - 1) * 2 ^ s <= Z.pos mx * 2 ^ s)%Z as K3 by (apply Z.mul_le_mono_nonneg_r; [apply Z.pow_nonneg|]; lia).
        rewrite <- Z.pow_add_r in K3 by lia. replace (Z.pos (digits2_pos mx) - 1 + s)%Z with (Z.pos (digits2_pos my)) in K3 by lia. lia. }
      assert (2 ^ (Z.pos (digits2_pos mx) - 1 + s - Z.pos (digits2_pos my)) <= q)%Z as K.
      { apply Z.lt_succ_r. apply (Z.mul_lt_mono_pos_r (Z.pos my)); [lia|].
        apply Z.le_lt_trans with (2 ^ (Z.pos (digits2_pos mx) - 1 + s))%Z.
        - replace (Z.pos (digits2_pos mx) - 1 + s)%Z with (Z.pos (digits2_pos mx) - 1 + s - Z.pos (digits2_pos my) + Z.pos (digits2_pos my))%Z at 2 by ring.
          rewrite (Z.pow_add_r 2 (Z.pos (digits2_pos mx) - 1 + s - Z.pos (digits2_pos my))) by lia. apply Z.mul_le_mono_nonneg_l; [apply Z.pow_nonneg|]; lia.
        - rewrite Z.pow_add_r by lia. apply Z.le_lt_trans with (Z.pos mx * 2 ^ s)%Z; [apply Z.mul_le_mono_nonneg_r; [apply Z.pow_nonneg|]; lia|]. nia. }
      apply digits_ge in K; lia || (pose proof (Z.pow_pos_nonneg 2 (Z.pos (digits2_pos mx) - 1 + s - Z.pos (digits2_pos my))); lia).
    + rewrite sign_abs, Rabs_pos_eq in Hb; auto. apply Rmult_le_pos; [|apply Rlt_le, p2_pos].
      pose proof (IZR_le 0 q Hq). assert (0 <= IZR r / IZR (Z.pos my)); [|lra]. apply Rmult_le_pos; [apply (IZR_le 0); lia|apply Rlt_le, Rinv_0_lt_compat; lra].
Qed.

(** ** Comparison *)
Lemma mag_order m1 e1 m2 e2 s1 s2 : valid_binary (S754_finite s1 m1 e1) = true -> valid_binary (S754_finite s2 m2 e2) = true ->
  match Z.compare e1 e2 with Lt => Lt | Gt => Gt | Eq => Pcompare m1 m2 Eq end = Lt <-> IZR (Zpos m1) * p2 e1 < IZR (Zpos m2) * p2 e2.
Proof.
  assert (forall m1 e1 m2 e2 s1 s2, valid_binary (S754_finite s1 m1 e1) = true -> valid_binary (S754_finite s2 m2 e2) = true -> (e1 < e2)%Z ->
    IZR (Zpos m1) * p2 e1 < IZR (Zpos m2) * p2 e2) as G.
  { clear. intros m1 e1 m2 e2 s1 s2 V1 V2 L. destruct (valid_finite _ _ _ V1) as [C1 B1]. destruct (valid_finite _ _ _ V2) as [C2 B2].
    assert (Z.pos (digits2_pos m2) = 53)%Z as D2 by (unfold SpecFloat.fexp, prec in *; lia). assert (Z.pos (digits2_pos m1) <= 53)%Z as D1 by (unfold SpecFloat.fexp, prec in *; lia).
    destruct (digits_R (Z.pos m1) e1 ltac:(lia)) as [_ K1]. destruct (digits_R (Z.pos m2) e2 ltac:(lia)) as [K2 _]. cbn [Zdigits2] in *.
    apply Rlt_le_trans with (p2 (Z.pos (digits2_pos m1) + e1)); auto. apply Rle_trans with (p2 (Z.pos (digits2_pos m2) + e2 - 1)); auto. apply p2_le. lia. }
  intros V1 V2. destruct (Z.compare_spec e1 e2) as [->|L|L].
  - change (Pcompare m1 m2 Eq) with (Pos.compare m1 m2). rewrite Pos.compare_lt_iff. pose proof (p2_pos e2) as P. split; intros H.
    + apply Rmult_lt_compat_r; auto. apply IZR_lt. lia.
    + apply Rmult_lt_reg_r in H; auto. apply lt_IZR in H. lia.
  - split; auto. intros _. exact (G _ _ _ _ _ _ V1 V2 L).
  - split; [discriminate|]. intros H. pose proof (G _ _ _ _ _ _ V2 V1 L). lra.
Qed.
Lemma ltb_val x y : valid_binary x = true -> valid_binary y = true -> sfin x -> sfin y -> SFltb x y = true <-> val x < val y.
Proof.
  intros Vx Vy Fx Fy. unfold SFltb.
  destruct x as [sx|sx| |sx mx ex]; try contradiction; destruct y as [sy|sy| |sy my ey]; try contradiction; cbn [SFcompare].
  - rewrite !val_zero. split; [discriminate|lra].
  - rewrite val_zero, val_finite. assert (0 < IZR (Z.pos my) * p2 ey) by (apply Rmult_lt_0_compat; [apply (IZR_lt 0); lia|apply p2_pos]).
    destruct sy; split; try discriminate; auto; lra.
  - rewrite val_zero, val_finite. assert (0 < IZR (Z.pos mx) * p2 ex) by (apply Rmult_lt_0_compat; [apply (IZR_lt 0); lia|apply p2_pos]).
    destruct sx; split; try discriminate; auto; lra.
  - assert (0 < IZR (Z.pos mx) * p2 ex) by (apply Rmult_lt_0_compat; [apply (IZR_lt 0); lia|apply p2_pos]).
    assert (0 < IZR (Z.pos my) * p2 ey) by (apply Rmult_lt_0_compat; [apply (IZR_lt 0); lia|apply p2_pos]).
    rewrite !val_finite. destruct sx, sy; try (split; [discriminate|lra]); try (split; [lra|auto]).
    + pose proof (mag_order my ey mx ex _ _ Vy Vx) as O. rewrite (Z.compare_antisym ex ey) in O.
      replace (Pcompare my mx Eq) with (CompOpp (Pcompare mx my Eq)) in O by (symmetry; apply Pos.compare_antisym).
      destruct (Z.compare ex ey); cbn [CompOpp] in *; [|split; [discriminate|intros ?; exfalso; assert (Gt = Lt) by (apply O; lra); discriminate]
        |split; [intros _; assert (IZR (Z.pos my) * p2 ey < IZR (Z.pos mx) * p2 ex) by (apply O; reflexivity); lra|auto]].
      destruct (Pcompare mx my Eq); cbn [CompOpp] in *; split; try discriminate; auto; intros; try (assert (IZR (Z.pos my) * p2 ey < IZR (Z.pos mx) * p2 ex) by (apply O; reflexivity); lra).
      * exfalso. assert (Eq = Lt) by (apply O; lra). discriminate.
      * exfalso. assert (Gt = Lt) by (apply O; lra). discriminate.
    + pose proof (mag_order mx ex my ey _ _ Vx Vy) as O. rewrite !Rmult_1_l. rewrite <- O.
      destruct (Z.compare ex ey); [destruct (Pcompare mx my Eq)| |]; split; auto; discriminate.
Qed.

(** ** Doubles *)
Theorem fmul_near x y : ffin x -> ffin y -> Rabs (FR x * FR y) <= p2 1023 ->
  ffin (x * y)%float /\ Rabs (FR (x * y)%float - FR x * FR y) <= uro * Rabs (FR x * FR y) + eta.
Proof. unfold FR, ffin. rewrite mul_spec. intros. apply mul_near; auto using Prim2SF_valid. Qed.
Theorem fadd_near x y : ffin x -> ffin y -> Rabs (FR x + FR y) <= p2 1023 ->
  ffin (x + y)%float /\ Rabs (FR (x + y)%float - (FR x + FR y)) <= uro * Rabs (FR x + FR y) + eta.
Proof. unfold FR, ffin. rewrite add_spec. intros. apply add_near; auto. Qed.
Theorem fdiv_near x y : ffin x -> ffin y -> FR y <> 0 -> Rabs (FR x / FR y) <= p2 1023 ->
  ffin (x / y)%float /\ Rabs (FR (x / y)%float - FR x / FR y) <= uro * Rabs (FR x / FR y) + eta.
Proof. unfold FR, ffin. rewrite div_spec. intros. apply div_near; auto. Qed.
Theorem fabs_val x : FR (abs x) = Rabs (FR x) /\ (ffin x -> ffin (abs x)).
Proof.
  unfold FR, ffin. rewrite abs_spec. split; [|destruct (Prim2SF x); auto]. destruct (Prim2SF x) as [s|s| |s m e]; cbn [SFabs]; rewrite ?val_zero.
  - now rewrite Rabs_R0.
  - unfold val. destruct s; cbn; rewrite ?Ropp_0, Rabs_R0; reflexivity.
  - unfold val. cbn. now rewrite Rabs_R0.
  - rewrite !val_finite, sign_abs, Rmult_1_l, Rabs_pos_eq; auto. apply Rmult_le_pos; [apply IZR_le; lia|apply Rlt_le, p2_pos].
Qed.
Theorem fopp_val x : FR (- x)%float = - FR x /\ (ffin x -> ffin (- x)%float).
Proof.
  unfold FR, ffin. rewrite opp_spec. split; [|destruct (Prim2SF x); auto]. destruct (Prim2SF x) as [s|s| |s m e]; cbn [SFopp]; rewrite ?val_zero.
  - ring.
  - unfold val. destruct s; cbn; lra.
  - unfold val. cbn. lra.
  - rewrite !val_finite. destruct s; cbn [negb]; ring.
Qed.
Theorem fltb_val x y : ffin x -> ffin y -> (x <? y)%float = true <-> FR x < FR y.
Proof. unfold FR, ffin. rewrite ltb_spec. intros. apply ltb_val; auto using Prim2SF_valid. Qed.
Theorem finf_ltb y : ffin y -> (infinity <? y)%float = false.
Proof. unfold ffin. rewrite ltb_spec. destruct (Prim2SF y); try contradiction; reflexivity. Qed.
