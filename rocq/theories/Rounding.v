(** The real number a double stands for, and how far the operations on doubles are from those on real numbers.
    Everything follows from the specification of the primitive floats in Coq's standard library (FloatAxioms): the operations
    are those of SpecFloat, which works on integers. *)
From Coq Require Import ZArith Reals Lra Lia List Bool Floats.
Import ListNotations.
Open Scope R_scope.

(** ** Powers of two *)
Definition p2 (e : Z) : R := powerRZ 2 e.
Lemma p2_pos e : 0 < p2 e.
Proof. apply powerRZ_lt; lra. Qed.
Lemma p2_add a b : p2 (a + b) = p2 a * p2 b.
Proof. unfold p2. apply powerRZ_add. lra. Qed.
Lemma p2_0 : p2 0 = 1. Proof. reflexivity. Qed.
Lemma p2_1 : p2 1 = 2. Proof. apply powerRZ_1. Qed.
Lemma p2_opp e : p2 (- e) = / p2 e.
Proof. pose proof (p2_pos e). apply (Rmult_eq_reg_l (p2 e)); [|lra]. rewrite <- p2_add, Z.add_opp_diag_r, p2_0. field. lra. Qed.
Lemma p2_IZR n : (0 <= n)%Z -> IZR (2 ^ n) = p2 n.
Proof.
  intros H. unfold p2. destruct n as [|n|n]; [reflexivity| |lia].
  rewrite <- (positive_nat_Z n), <- pow_IZR, <- pow_powerRZ. reflexivity.
Qed.
Lemma p2_le a b : (a <= b)%Z -> p2 a <= p2 b.
Proof.
  intros H. replace b with (a + (b - a))%Z by ring. rewrite p2_add. pose proof (p2_pos a).
  assert (1 <= p2 (b - a)). { rewrite <- p2_IZR by lia. apply (IZR_le 1). pose proof (Z.pow_pos_nonneg 2 (b - a)). lia. }
  rewrite <- (Rmult_1_r (p2 a)) at 1. apply Rmult_le_compat_l; lra.
Qed.
Lemma p2_lt a b : (a < b)%Z -> p2 a < p2 b.
Proof. intros H. apply Rlt_le_trans with (p2 (a + 1)); [|apply p2_le; lia]. rewrite p2_add, p2_1. pose proof (p2_pos a). lra. Qed.

(** ** Digits *)
Lemma digits_pos p : (2 ^ (Zpos (digits2_pos p) - 1) <= Zpos p < 2 ^ Zpos (digits2_pos p))%Z.
Proof.
  induction p as [p IH|p IH|]; cbn [digits2_pos]; [| |cbn; lia];
    rewrite Pos2Z.inj_succ, Z.pow_succ_r by lia;
    replace (Z.succ (Z.pos (digits2_pos p)) - 1)%Z with (Z.succ (Z.pos (digits2_pos p) - 1)) by lia; rewrite Z.pow_succ_r by lia; lia.
Qed.
Lemma digits_nonneg m : (0 <= Zdigits2 m)%Z.
Proof. destruct m; cbn; lia. Qed.
Lemma digits_Z m : (0 < m)%Z -> (2 ^ (Zdigits2 m - 1) <= m < 2 ^ Zdigits2 m)%Z /\ (0 < Zdigits2 m)%Z.
Proof. destruct m as [|p|p]; try lia. intros _. cbn [Zdigits2]. split; [apply digits_pos|lia]. Qed.
Lemma digits_le m d : (0 <= d)%Z -> (0 <= m < 2 ^ d)%Z -> (Zdigits2 m <= d)%Z.
Proof.
  intros Hd H. destruct (Z.eq_dec m 0) as [->|]; [cbn; lia|]. destruct (digits_Z m ltac:(lia)) as [[K _] P].
  destruct (Z.le_gt_cases (Zdigits2 m) d); auto. assert (2 ^ d <= 2 ^ (Zdigits2 m - 1))%Z by (apply Z.pow_le_mono_r; lia). lia.
Qed.
Lemma digits_pow d : (0 <= d)%Z -> Zdigits2 (2 ^ d) = (d + 1)%Z.
Proof.
  intros Hd. destruct (digits_Z (2 ^ d)) as [[K1 K2] P]; [apply Z.pow_pos_nonneg; lia|].
  apply Z.pow_le_mono_r_iff in K1; try lia. apply Z.pow_lt_mono_r_iff in K2; lia.
Qed.
Lemma digits_R m e : (0 < m)%Z -> p2 (Zdigits2 m + e - 1) <= IZR m * p2 e < p2 (Zdigits2 m + e).
Proof.
  intros H. destruct (digits_Z m H) as [[K1 K2] P]. pose proof (p2_pos e).
  replace (Zdigits2 m + e - 1)%Z with ((Zdigits2 m - 1) + e)%Z by ring. rewrite !p2_add, <- (p2_IZR (Zdigits2 m - 1)), <- (p2_IZR (Zdigits2 m)) by lia.
  split; [apply Rmult_le_compat_r; [lra|now apply IZR_le]|apply Rmult_lt_compat_r; [lra|now apply IZR_lt]].
Qed.

(** ** Shifting to the right *)
(** where the number [x] is between [m] and [m+1] *)
Definition at_loc (x : R) (m : Z) (l : location) : Prop :=
  match l with
  | loc_Exact => x = IZR m
  | loc_Inexact Lt => IZR m < x < IZR m + / 2
  | loc_Inexact Eq => x = IZR m + / 2
  | loc_Inexact Gt => IZR m + / 2 < x < IZR m + 1
  end.
Definition at_rec (x : R) (r : shr_record) : Prop := (0 <= shr_m r)%Z /\ at_loc x (shr_m r) (loc_of_shr_record r).

Lemma at_rec_1 x r : at_rec x r -> at_rec (x / 2) (shr_1 r).
Proof.
  destruct r as [m r s]. intros [Hm H]. cbn [shr_m] in *.
  destruct m as [|p|p]; [| |lia].
  - destruct r, s; cbn in H |- *; split; cbn; try lia; lra.
  - destruct p as [p|p|].
    + assert (IZR (Zpos (xI p)) = 2 * IZR (Zpos p) + 1) as Q by (rewrite Pos2Z.inj_xI, plus_IZR, mult_IZR; reflexivity).
      destruct r, s; cbn [shr_1 loc_of_shr_record shr_m orb at_loc] in *; split; cbn [shr_m loc_of_shr_record at_loc]; try lia; rewrite Q in H; lra.
    + assert (IZR (Zpos (xO p)) = 2 * IZR (Zpos p)) as Q by (rewrite Pos2Z.inj_xO, mult_IZR; reflexivity).
      destruct r, s; cbn [shr_1 loc_of_shr_record shr_m orb at_loc] in *; split; cbn [shr_m loc_of_shr_record at_loc]; try lia; rewrite Q in H; lra.
    + destruct r, s; cbn in H |- *; split; cbn; try lia; lra.
Qed.
Lemma iter_pos_S {A} (f : A -> A) p : forall x, iter_pos f p x = Pos.iter f x p.
Proof.
  induction p as [p IH|p IH|]; intros x; cbn [iter_pos Pos.iter]; rewrite ?IH; auto.
  rewrite !Pos.iter_swap. reflexivity.
Qed.
Lemma at_rec_n x r n : at_rec x r -> at_rec (x * p2 (- Zpos n)) (iter_pos shr_1 n r).
Proof.
  rewrite iter_pos_S. intros H. induction n as [|n IH] using Pos.peano_ind.
  - cbn [Pos.iter]. replace (x * p2 (- (1))) with (x / 2) by (rewrite p2_opp, p2_1; reflexivity). now apply at_rec_1.
  - rewrite Pos.iter_succ. apply at_rec_1 in IH. replace (x * p2 (- Z.pos (Pos.succ n))) with (x * p2 (- Z.pos n) / 2); auto.
    rewrite Pos2Z.inj_succ. replace (- Z.succ (Z.pos n))%Z with (- Z.pos n + - (1))%Z by lia. rewrite p2_add, (p2_opp 1), p2_1. field.
Qed.
Lemma loc_rec m l : shr_m (shr_record_of_loc m l) = m /\ loc_of_shr_record (shr_record_of_loc m l) = l.
Proof. destruct l as [|[]]; auto. Qed.

Section Format.
Variables prec emax : Z.
Hypothesis prec_pos : (1 < prec)%Z.
Local Notation emin := (SpecFloat.emin prec emax).
Local Notation fexp := (SpecFloat.fexp prec emax).
Local Notation shr_fexp := (SpecFloat.shr_fexp prec emax).
Local Notation binary_round_aux := (SpecFloat.binary_round_aux prec emax).

(** shifting only renames the number [x * 2^e] *)
Lemma shr_fexp_ok x m e l r e' : (0 <= m)%Z -> at_loc x m l -> shr_fexp m e l = (r, e') ->
  e' = Z.max e (fexp (Zdigits2 m + e)) /\ at_rec (x * p2 (e - e')) r.
Proof.
  intros Hm H. unfold SpecFloat.shr_fexp, shr. set (k := (fexp (Zdigits2 m + e) - e)%Z).
  assert (at_rec x (shr_record_of_loc m l)) as H0 by (destruct (loc_rec m l) as [E1 E2]; split; rewrite ?E1, ?E2; auto).
  destruct k as [|n|n] eqn:K; unfold k in K; intros [= <- <-].
  - split; [lia|]. replace (e - e)%Z with 0%Z by ring. now rewrite p2_0, Rmult_1_r.
  - split; [lia|]. replace (e - (e + Z.pos n))%Z with (- Z.pos n)%Z by ring. now apply at_rec_n.
  - split; [lia|]. replace (e - e)%Z with 0%Z by ring. now rewrite p2_0, Rmult_1_r.
Qed.

(** rounding to the nearest *)
Lemma rne_ok x m l : at_loc x m l -> (m <= round_nearest_even m l <= m + 1)%Z /\ Rabs (IZR (round_nearest_even m l) - x) <= / 2 /\
  (l = loc_Exact -> round_nearest_even m l = m).
Proof.
  assert (IZR (m + 1) = IZR m + 1) as Q by (rewrite plus_IZR; reflexivity).
  destruct l as [|[]]; cbn [at_loc round_nearest_even]; intros H.
  - split; [lia|]. split; auto. rewrite H. replace (IZR m - IZR m) with 0 by ring. rewrite Rabs_R0. lra.
  - destruct (Z.even m); (split; [lia|]; split; [|discriminate]); rewrite ?Q, H; [rewrite Rabs_left1|rewrite Rabs_pos_eq]; lra.
  - split; [lia|]. split; [|discriminate]. rewrite Rabs_left1; lra.
  - split; [lia|]. split; [|discriminate]. rewrite Q, Rabs_pos_eq; lra.
Qed.

(** the magnitude of a result *)
Definition mag (r : spec_float) : R := match r with S754_finite _ m e => IZR (Zpos m) * p2 e | _ => 0 end.
Definition sfin (r : spec_float) : Prop := match r with S754_zero _ | S754_finite _ _ _ => True | _ => False end.
Definition neg_of (r : spec_float) : bool := match r with S754_zero s | S754_finite s _ _ | S754_infinity s => s | S754_nan => false end.

Lemma at_loc_ge x m l : at_loc x m l -> IZR m <= x < IZR m + 1.
Proof. destruct l as [|[]]; cbn; lra. Qed.

Theorem round_ok s x m e l : (0 <= m)%Z -> at_loc x m l -> (e <= fexp (Zdigits2 m + e) \/ l = loc_Exact /\ e <= emax - prec)%Z -> (0 <= emax - 1)%Z -> (emin <= emax - prec)%Z ->
  x * p2 e <= p2 (emax - 1) ->
  exists r, binary_round_aux s m e l = r /\ sfin r /\ neg_of r = s /\
    Rabs (mag r - x * p2 e) <= p2 (- prec) * (x * p2 e) + p2 (emin - 1).
Proof.
  intros Hm Hx Hl Hmax Hmin Hbig. eexists. split; [reflexivity|]. unfold SpecFloat.binary_round_aux.
  destruct (shr_fexp m e l) as [r1 e1] eqn:E1. destruct (shr_fexp_ok x m e l r1 e1 Hm Hx E1) as [He1 [Hr1 Hx1]].
  set (x1 := x * p2 (e - e1)) in *.
  destruct (rne_ok x1 (shr_m r1) (loc_of_shr_record r1) Hx1) as (Hk & Hkx & Hke). set (k := round_nearest_even (shr_m r1) (loc_of_shr_record r1)) in *.
  assert (x * p2 e = x1 * p2 e1) as Ex. { unfold x1. rewrite Rmult_assoc, <- p2_add. do 2 f_equal. ring. }
  pose proof (at_loc_ge x m l Hx) as Hxm. pose proof (at_loc_ge x1 _ _ Hx1) as Hxm1.
  pose proof (p2_pos e1) as P1. pose proof (p2_pos e) as P0.
  assert (0 <= x) as X0 by (pose proof (IZR_le 0 m Hm); lra).
  (* the error of rounding *)
  assert (Rabs (IZR k * p2 e1 - x * p2 e) <= p2 (- prec) * (x * p2 e) + p2 (emin - 1)) as Herr.
  { rewrite Ex. rewrite <- Rmult_minus_distr_r, Rabs_mult, (Rabs_pos_eq (p2 e1)) by lra.
    pose proof (p2_pos (- prec)) as PP. pose proof (p2_pos (emin - 1)) as PM.
    assert (0 <= x1) as X1 by (pose proof (IZR_le 0 _ Hr1); lra).
    assert (0 <= p2 (- prec) * (x1 * p2 e1)) as S1 by (apply Rmult_le_pos; [lra|apply Rmult_le_pos; lra]).
    destruct (Z.eq_dec (fexp (Zdigits2 m + e)) emin) as [Em|Em].
    - (* the smallest exponent *)
      destruct (Z.le_gt_cases e emin) as [L|L].
      + assert (e1 = emin) as -> by lia. apply Rle_trans with (/ 2 * p2 emin); [apply Rmult_le_compat_r; lra|].
        replace (emin - 1)%Z with (emin + - (1))%Z in * by ring. rewrite p2_add, (p2_opp 1), p2_1 in *. lra.
      + assert (e1 = e) as He by lia. assert (l = loc_Exact /\ (e <= emax - prec)%Z) as [-> Hemx] by (destruct Hl as [Hl|Hl]; auto; lia).
        assert (x1 = x) as Q by (unfold x1; rewrite He; replace (e - e)%Z with 0%Z by ring; rewrite p2_0; ring).
        assert (k = shr_m r1) as Ek. { apply Hke. unfold SpecFloat.shr_fexp in E1. replace (fexp (Zdigits2 m + e) - e)%Z with (emin - e)%Z in E1 by lia.
          unfold shr in E1. destruct (emin - e)%Z eqn:K; try lia; injection E1 as <- _; reflexivity. }
        assert (shr_m r1 = m) as Em1. { unfold SpecFloat.shr_fexp in E1. replace (fexp (Zdigits2 m + e) - e)%Z with (emin - e)%Z in E1 by lia.
          unfold shr in E1. destruct (emin - e)%Z eqn:K; try lia; injection E1 as <- _; reflexivity. }
        replace (IZR k - x1) with 0 by (rewrite Ek, Em1, Q; cbn in Hx; lra). rewrite Rabs_R0. lra.
    - assert (fexp (Zdigits2 m + e) = Zdigits2 m + e - prec)%Z as Ef by (unfold SpecFloat.fexp in *; lia).
      destruct (Z.le_gt_cases e (fexp (Zdigits2 m + e))) as [L|L].
      + assert (e1 = Zdigits2 m + e - prec)%Z as E1' by lia.
        assert (0 < m)%Z as Hm0. { destruct (Z.eq_dec m 0) as [->|]; [|lia]. cbn [Zdigits2] in *. lia. }
        destruct (digits_R m e Hm0) as [D1 D2].
        assert (p2 (e1 - 1) <= p2 (- prec) * (x1 * p2 e1)) as K.
        { rewrite <- Ex, E1'. replace (Zdigits2 m + e - prec - 1)%Z with (- prec + (Zdigits2 m + e - 1))%Z by ring. rewrite p2_add.
          apply Rmult_le_compat_l; [lra|]. apply Rle_trans with (IZR m * p2 e); [exact D1|]. apply Rmult_le_compat_r; lra. }
        apply Rle_trans with (/ 2 * p2 e1); [apply Rmult_le_compat_r; lra|].
        replace (e1 - 1)%Z with (e1 + - (1))%Z in K by ring. rewrite p2_add, (p2_opp 1), p2_1 in K. lra.
      + assert (e1 = e) as He by lia. assert (l = loc_Exact /\ (e <= emax - prec)%Z) as [-> Hemx] by (destruct Hl as [Hl|Hl]; auto; lia).
        assert (x1 = x) as Q by (unfold x1; rewrite He; replace (e - e)%Z with 0%Z by ring; rewrite p2_0; ring).
        assert (r1 = shr_record_of_loc m loc_Exact) as Er. { unfold SpecFloat.shr_fexp in E1. unfold shr in E1. destruct (fexp (Zdigits2 m + e) - e)%Z eqn:K; try lia; injection E1 as <- _; reflexivity. }
        assert (k = m) as Ekm by (unfold k; rewrite Er; reflexivity). replace (IZR k - x1) with 0 by (rewrite Ekm, Q; cbn in Hx; lra). rewrite Rabs_R0. lra. }
  (* the second shift is exact *)
  destruct (shr_fexp k e1 loc_Exact) as [r2 e2] eqn:E2.
  assert (0 <= k)%Z as Hk0 by lia.
  destruct (shr_fexp_ok (IZR k) k e1 loc_Exact r2 e2 Hk0 eq_refl E2) as [He2 [Hr2 Hx2]].
  assert (emin <= e1 \/ e1 = e /\ k = m)%Z as Hlow.
  { destruct (Z.le_gt_cases (fexp (Zdigits2 m + e)) e) as [L|L]; [|left; unfold SpecFloat.fexp in *; lia]. left. unfold SpecFloat.fexp in *. lia. }
  assert (IZR k * p2 e1 = IZR (shr_m r2) * p2 e2 /\ (e2 <= emax - prec)%Z) as [Hval He2max].
  { assert (emin <= e1)%Z as Hlow' by (unfold SpecFloat.fexp in *; lia).
    (* how large k is *)
    assert (k <= 2 ^ prec \/ e1 = e /\ k = m /\ fexp (Zdigits2 m + e) <= e)%Z as Hkb.
    { destruct (Z.le_gt_cases e (fexp (Zdigits2 m + e))) as [L|L].
      - left. assert (x1 < p2 prec) as K.
        { apply (Rmult_lt_reg_r (p2 e1)); auto. rewrite <- p2_add, <- Ex.
          destruct (Z.eq_dec m 0) as [->|N0].
          - apply Rlt_le_trans with (p2 e). { rewrite <- (Rmult_1_l (p2 e)) at 2. apply Rmult_lt_compat_r; lra. } apply p2_le. unfold SpecFloat.fexp in *. lia.
          - assert (x * p2 e < p2 (Zdigits2 m + e)) as D2.
            { destruct (digits_Z m ltac:(lia)) as [[_ DD] Dp]. rewrite p2_add, <- (p2_IZR (Zdigits2 m)) by lia. apply Rmult_lt_compat_r; auto.
              apply Rlt_le_trans with (IZR m + 1); [lra|]. rewrite <- plus_IZR. apply IZR_le. lia. }
            apply Rlt_le_trans with (p2 (Zdigits2 m + e)); auto. apply p2_le. unfold SpecFloat.fexp in *. lia. }
        assert (IZR (shr_m r1) < IZR (2 ^ prec)) as K2 by (rewrite p2_IZR by lia; lra). apply lt_IZR in K2. lia.
      - right. assert (e1 = e) as He by lia. assert (r1 = shr_record_of_loc m l) as Er. { unfold SpecFloat.shr_fexp in E1. unfold shr in E1. destruct (fexp (Zdigits2 m + e) - e)%Z eqn:K; try lia; injection E1 as <- _; reflexivity. }
        assert (l = loc_Exact /\ (e <= emax - prec)%Z) as [-> Hemx] by (destruct Hl as [Hl|Hl]; auto; lia). repeat split; auto; [unfold k; rewrite Er; reflexivity|lia]. }
    assert (IZR k * p2 e1 <= x * p2 e + p2 e1) as Hup.
    { rewrite Ex. assert (IZR k <= x1 + 1) by (pose proof (Rle_abs (IZR k - x1)); lra). rewrite <- (Rmult_1_l (p2 e1)) at 3. rewrite <- Rmult_plus_distr_r. apply Rmult_le_compat_r; lra. }
    destruct (Z.eq_dec k (2 ^ prec)) as [Kp|Kp].
    - (* a carry: one more digit *)
      assert (Zdigits2 k = prec + 1)%Z as Dk by (rewrite Kp; apply digits_pow; lia).
      assert (fexp (Zdigits2 k + e1) = e1 + 1)%Z as Ff by (unfold SpecFloat.fexp in *; lia).
      assert (e2 = e1 + 1)%Z as -> by lia.
      unfold SpecFloat.shr_fexp, shr in E2. rewrite Ff in E2. replace (e1 + 1 - e1)%Z with 1%Z in E2 by ring. injection E2 as <-.
      rewrite Kp. assert (2 ^ prec = 2 * 2 ^ (prec - 1))%Z as P2 by (rewrite <- Z.pow_succ_r by lia; f_equal; lia).
      destruct (2 ^ (prec - 1))%Z as [|q|q] eqn:Q; try (pose proof (Z.pow_pos_nonneg 2 (prec - 1) ltac:(lia) ltac:(lia)); lia).
      rewrite P2. cbn [Z.mul Pos.mul iter_pos shr_record_of_loc shr_1 shr_m]. split.
      + rewrite p2_add, p2_1, (Pos2Z.inj_xO q), mult_IZR. ring.
      + (* not too large *)
        assert (p2 (prec + e1) <= p2 (emax - 1) + p2 e1) as KK. { rewrite p2_add, <- (p2_IZR prec) by lia. rewrite <- Kp. lra. }
        destruct (Z.le_gt_cases (e1 + 1) (emax - prec)) as [|G]; auto. exfalso.
        assert (p2 (emax - 1) <= p2 (prec + e1 - 1)) by (apply p2_le; lia). assert (p2 (e1 + 1) <= p2 (prec + e1 - 1)) by (apply p2_le; lia).
        rewrite (p2_add e1 1), p2_1 in *. replace (prec + e1)%Z with (prec + e1 - 1 + 1)%Z in KK by ring. rewrite (p2_add _ 1), p2_1 in KK. lra.
    - assert (fexp (Zdigits2 k + e1) <= e1)%Z as Ff.
      { destruct Hkb as [Hkb|(He & Hkm & Hf)]; [|rewrite Hkm, He; exact Hf]. assert (Zdigits2 k <= prec)%Z by (apply digits_le; lia). unfold SpecFloat.fexp in *. lia. }
      assert (e2 = e1) as -> by lia.
      unfold SpecFloat.shr_fexp, shr in E2. destruct (fexp (Zdigits2 k + e1) - e1)%Z eqn:K; try lia; injection E2 as <-; cbn [shr_record_of_loc shr_m]; (split; [reflexivity|]);
      (destruct (Z.eq_dec e1 emin) as [->|Ne]; [lia|]);
      (destruct (Z.le_gt_cases e1 (emax - prec)) as [|G]; auto; exfalso).
      all: destruct (Z.le_gt_cases e (fexp (Zdigits2 m + e))) as [L|L].
      all: try (assert (e1 = Zdigits2 m + e - prec)%Z as E1' by (unfold SpecFloat.fexp in *; lia);
        assert (0 < m)%Z as Hm0 by (destruct (Z.eq_dec m 0) as [->|]; [|lia]; cbn [Zdigits2] in *; unfold SpecFloat.fexp in *; lia);
        destruct (digits_R m e Hm0) as [D1 D2];
        assert (p2 (Zdigits2 m + e - 1) <= p2 (emax - 1)) as KK by (apply Rle_trans with (IZR m * p2 e); [exact D1|]; apply Rle_trans with (x * p2 e); [apply Rmult_le_compat_r; lra|exact Hbig]);
        assert (p2 (emax - 1) < p2 (Zdigits2 m + e - 1)) by (apply p2_lt; lia); lra).
      all: assert (e1 = e) by lia; destruct Hl as [Hl|[_ Hl]]; lia. }
  destruct (shr_m r2) as [|q|q] eqn:Q; [| |lia].
  - split; [exact I|]. split; [reflexivity|]. cbn [mag]. rewrite Rmult_0_l in Hval. rewrite <- Hval. exact Herr.
  - replace (Zle_bool e2 (emax - prec)) with true by (symmetry; now apply Zle_imp_le_bool). split; [exact I|]. split; [reflexivity|]. cbn [mag]. rewrite <- Hval. exact Herr.
Qed.
End Format.
