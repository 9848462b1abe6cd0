(** What decimal number the text made by "{0:.kf}".format reads, and how far it is from the number formatted. *)
From Coq Require Import ZArith NArith List Bool String Ascii Reals Lra Lia Floats Decimal DecimalString DecimalN DecimalPos.
From Verif Require Import Base Format.
Open Scope string_scope.

(** [s] is a sign (if [neg]), digits, a point and [k] digits; the digits together read [n] *)
Definition reads (k : nat) (s : string) (neg : bool) (n : N) : Prop :=
  exists a b u, s = (if neg then "-" else "") ++ a ++ "." ++ b /\ String.length b = k /\ a <> "" /\
    NilEmpty.uint_of_string (a ++ b) = Some u /\ N.of_uint u = n.

Lemma length_app a b : String.length (a ++ b) = (String.length a + String.length b)%nat.
Proof. induction a; cbn; auto. Qed.
Lemma length_zeros k : String.length (zeros k) = k.
Proof. induction k; cbn; auto. Qed.
Lemma substring_full : forall s, substring 0 (String.length s) s = s.
Proof. induction s; cbn; congruence. Qed.
Lemma substring_cut : forall s i, (i <= String.length s)%nat ->
  substring 0 i s ++ substring i (String.length s - i) s = s /\ String.length (substring 0 i s) = i /\
  String.length (substring i (String.length s - i) s) = (String.length s - i)%nat.
Proof.
  induction s as [|c s IH]; intros i H.
  - cbn in H. assert (i = 0)%nat as -> by lia. repeat split; reflexivity.
  - destruct i as [|i].
    + rewrite Nat.sub_0_r, substring_full. destruct s; repeat split; reflexivity.
    + cbn [String.length] in H. destruct (IH i ltac:(lia)) as (A & B & C). cbn [substring String.length Nat.sub append].
      split; [now rewrite A|]. split; [now rewrite B|exact C].
Qed.
Lemma nonnil n : N.to_uint n <> Nil.
Proof. destruct n; cbn; [discriminate|]. apply DecimalPos.Unsigned.to_uint_nonnil. Qed.
Lemma decimal_reads n : NilEmpty.uint_of_string (decimal n) = Some (N.to_uint n).
Proof.
  unfold decimal. pose proof (NilZero.usu (N.to_uint n) (nonnil n)) as H. unfold NilZero.uint_of_string in H.
  destruct (NilZero.string_of_uint (N.to_uint n)); [discriminate|exact H].
Qed.
Lemma zeros_read : forall j s u, NilEmpty.uint_of_string s = Some u ->
  exists v, NilEmpty.uint_of_string (zeros j ++ s) = Some v /\ N.of_uint v = N.of_uint u.
Proof.
  induction j as [|j IH]; intros s u H; [exists u; auto|]. destruct (IH s u H) as (v & E & K).
  exists (D0 v). cbn [zeros append]. change (("0" ++ zeros j) ++ s) with (String "0" (zeros j ++ s)).
  cbn [NilEmpty.uint_of_string]. rewrite E. split; [reflexivity|]. rewrite <- K. reflexivity.
Qed.
Lemma with_point_reads k n : reads k (with_point k n) false n.
Proof.
  unfold with_point. set (s := zeros (S k - String.length (decimal n)) ++ decimal n).
  assert (S k <= String.length s)%nat as Hl by (unfold s; rewrite length_app, length_zeros; lia).
  destruct (substring_cut s (String.length s - k)) as (A & B & C); [lia|].
  replace (String.length s - (String.length s - k))%nat with k in * by lia.
  destruct (zeros_read (S k - String.length (decimal n)) (decimal n) _ (decimal_reads n)) as (u & Eu & Ku).
  exists (substring 0 (String.length s - k) s), (substring (String.length s - k) k s), u.
  split; [reflexivity|]. split; [exact C|]. split.
  - intros E. rewrite E in B. change (String.length "") with 0%nat in B. lia.
  - rewrite A. split; [exact Eu|]. rewrite Ku. apply DecimalN.Unsigned.of_to.
Qed.
Lemma reads_sign k s neg n : reads k s false n -> reads k (sign neg ++ s) neg n.
Proof. intros (a & b & u & -> & H). exists a, b, u. split; [destruct neg; reflexivity|exact H]. Qed.

Lemma round_even_close n d : (0 < d)%Z -> (2 * Z.abs (round_even n d * d - n) <= d)%Z.
Proof.
  intros H. unfold round_even. pose proof (Z.div_mod n d ltac:(lia)). pose proof (Z.mod_pos_bound n d H).
  set (q := (n / d)%Z) in *. set (r := (n mod d)%Z) in *.
  destruct (Z.compare_spec (2 * r) d); [destruct (Z.even q)|..]; nia.
Qed.
Lemma round_even_nonneg n d : (0 < d)%Z -> (0 <= n)%Z -> (0 <= round_even n d)%Z.
Proof.
  intros H Hn. unfold round_even. pose proof (Z.div_pos n d Hn H).
  destruct (2 * (n mod d) ?= d)%Z; [destruct (Z.even _)|..]; lia.
Qed.

Open Scope R_scope.
(** the absolute value of a finite double *)
Definition magnitude (m : positive) (e : Z) : R := IZR (Zpos m) * powerRZ 2 e.
Lemma magnitude_ratio m e : magnitude m e = IZR (Zpos m * 2 ^ Z.max 0 e) / IZR (2 ^ Z.max 0 (- e)).
Proof.
  unfold magnitude. destruct e as [|p|p].
  - cbn. rewrite Pos.mul_1_r. lra.
  - change (Z.max 0 (Zpos p)) with (Zpos p). change (Z.max 0 (- Zpos p)) with 0%Z. rewrite mult_IZR, <- (positive_nat_Z p), <- pow_IZR.
    cbn [powerRZ Z.of_nat]. rewrite positive_nat_Z. cbn [powerRZ]. lra.
  - change (Z.max 0 (Zneg p)) with 0%Z. change (Z.max 0 (- Zneg p)) with (Zpos p). rewrite Z.mul_1_r.
    rewrite <- (positive_nat_Z p), <- pow_IZR. cbn [powerRZ]. unfold Rdiv. reflexivity.
Qed.
Theorem fixed_reads k x neg m e : Prim2SF x = S754_finite neg m e ->
  exists n, reads k (fixed k x) neg n /\ Rabs (IZR (Z.of_N n) / 10 ^ k - magnitude m e) <= / (2 * 10 ^ k).
Proof.
  intros E. unfold fixed. rewrite E.
  set (num := (Zpos m * 10 ^ Z.of_nat k * 2 ^ Z.max 0 e)%Z). set (den := (2 ^ Z.max 0 (- e))%Z).
  assert (0 < den)%Z as Hd by (unfold den; apply Z.pow_pos_nonneg; lia).
  assert (0 <= num)%Z as Hn.
  { unfold num. apply Z.mul_nonneg_nonneg; [apply Z.mul_nonneg_nonneg; [lia|apply Z.pow_nonneg; lia]|apply Z.pow_nonneg; lia]. }
  exists (Z.to_N (round_even num den)). split; [apply reads_sign, with_point_reads|].
  rewrite Z2N.id by (now apply round_even_nonneg). pose proof (round_even_close num den Hd) as C.
  assert (0 < 10 ^ k) as H10 by (apply pow_lt; lra).
  assert (0 < IZR den) as HD by (now apply IZR_lt).
  assert (magnitude m e = IZR num / (IZR den * 10 ^ k)) as ->.
  { rewrite magnitude_ratio. unfold num, den. rewrite !mult_IZR. replace (IZR (10 ^ Z.of_nat k)) with (10 ^ k) by (rewrite pow_IZR; reflexivity).
    field. split; [lra|]. apply not_0_IZR. apply Z.pow_nonzero; lia. }
  replace (IZR (round_even num den) / 10 ^ k - IZR num / (IZR den * 10 ^ k))
    with (IZR (round_even num den * den - num) / (IZR den * 10 ^ k)) by (rewrite minus_IZR, mult_IZR; field; lra).
  unfold Rdiv. rewrite Rabs_mult, Rabs_Zabs. rewrite (Rabs_pos_eq (/ _)) by (left; apply Rinv_0_lt_compat, Rmult_lt_0_compat; auto).
  apply IZR_le in C. rewrite mult_IZR in C.
  apply (Rmult_le_reg_r (2 * (IZR den * 10 ^ k))); [repeat apply Rmult_lt_0_compat; lra|].
  replace (IZR (Z.abs (round_even num den * den - num)) * / (IZR den * 10 ^ k) * (2 * (IZR den * 10 ^ k)))
    with (2 * IZR (Z.abs (round_even num den * den - num))) by (field; lra).
  replace (/ (2 * 10 ^ k) * (2 * (IZR den * 10 ^ k))) with (IZR den) by (field; lra). exact C.
Qed.
Theorem fixed_reads_zero k x neg : Prim2SF x = S754_zero neg -> reads k (fixed k x) neg 0.
Proof. intros E. unfold fixed. rewrite E. apply reads_sign, with_point_reads. Qed.
(** a text reads one number only *)
Lemma append_same_length : forall a a' b b', String.length a = String.length a' -> a ++ b = a' ++ b' -> a = a' /\ b = b'.
Proof.
  induction a as [|c a IH]; intros [|c' a'] b b' L E; cbn in L; try discriminate; [auto|].
  cbn in E. injection E as -> E. destruct (IH a' b b') as [-> ->]; auto.
Qed.
Lemma reads_one k s neg n neg' n' : reads k s neg n -> reads k s neg' n' -> neg = neg' /\ n = n'.
Proof.
  intros (a & b & u & -> & Lb & Na & Hu & <-) (a' & b' & u' & E & Lb' & Na' & Hu' & <-).
  assert (neg = neg') as ->.
  { destruct neg, neg'; auto; exfalso; cbn [append] in E.
    - destruct a' as [|c a']; [easy|]. cbn in E. injection E as <- E. revert Hu'. cbn. destruct (NilEmpty.uint_of_string (a' ++ b')); discriminate.
    - destruct a as [|c a]; [easy|]. cbn in E. injection E as -> E. revert Hu. cbn. destruct (NilEmpty.uint_of_string (a ++ b)); discriminate. }
  split; [auto|]. assert (a ++ "." ++ b = a' ++ "." ++ b') as E' by (destruct neg'; cbn in E; [now injection E|exact E]).
  assert (String.length a = String.length a') as La.
  { apply (f_equal String.length) in E'. rewrite !length_app in E'. cbn in E'. lia. }
  destruct (append_same_length a a' _ _ La E') as [-> E2].
  cbn in E2. injection E2 as ->. congruence.
Qed.
(** numbers written alike are close *)
Definition value (x : float) : R :=
  match Prim2SF x with
  | S754_finite s m e => if s then - magnitude m e else magnitude m e
  | _ => 0
  end.
Definition finite (x : float) : Prop := match Prim2SF x with S754_finite _ _ _ | S754_zero _ => True | _ => False end.
Theorem fixed_close k x : finite x -> exists neg n, reads k (fixed k x) neg n /\
  Rabs ((if neg then - (IZR (Z.of_N n) / 10 ^ k) else IZR (Z.of_N n) / 10 ^ k) - value x) <= / (2 * 10 ^ k).
Proof.
  unfold finite, value. assert (0 < 10 ^ k) as H10 by (apply pow_lt; lra).
  destruct (Prim2SF x) as [s| | |s m e] eqn:E; try easy; intros _.
  - exists s, 0%N. split; [now apply fixed_reads_zero|]. cbn [Z.of_N]. replace (if s then _ else _) with 0 by (destruct s; lra).
    rewrite Rminus_0_r, Rabs_R0. left. apply Rinv_0_lt_compat. lra.
  - destruct (fixed_reads k x s m e E) as (n & H & C). exists s, n. split; [auto|]. destruct s; [|exact C].
    replace (- (IZR (Z.of_N n) / 10 ^ k) - - magnitude m e) with (- (IZR (Z.of_N n) / 10 ^ k - magnitude m e)) by ring.
    now rewrite Rabs_Ropp.
Qed.
Theorem fixed_same k x y : finite x -> finite y -> fixed k x = fixed k y -> Rabs (value x - value y) <= / 10 ^ k.
Proof.
  intros Fx Fy E. destruct (fixed_close k x Fx) as (s & n & Hx & Cx). destruct (fixed_close k y Fy) as (s' & n' & Hy & Cy).
  rewrite E in Hx. destruct (reads_one _ _ _ _ _ _ Hx Hy) as [<- <-]. assert (0 < 10 ^ k) as H10 by (apply pow_lt; lra).
  set (d := if s then _ else _) in *. replace (/ 10 ^ k) with (/ (2 * 10 ^ k) + / (2 * 10 ^ k)) by (field; lra).
  replace (value x - value y) with ((d - value y) - (d - value x)) by ring.
  eapply Rle_trans; [apply Rabs_triang|]. rewrite Rabs_Ropp. lra.
Qed.
