(** Fixed-point interval arithmetic on integers, used to bound the focal lengths of the catalogue lenses.
    Nothing here mirrors the repository. *)
From Coq Require Import ZArith Reals Lra Lia Psatz Bool List.
From Verif Require Import Base Nums Materials MaterialsProofs.
Import ListNotations.
Local Open Scope Z_scope.

(** [I lo hi] encloses the x with lo/SC <= x <= hi/SC; [Bad] encloses everything *)
Definition SC : Z := 2 ^ 30.
Inductive itv := Bad | I (lo hi : Z).
Definition inI (x : R) (i : itv) : Prop :=
  match i with Bad => True | I lo hi => (IZR lo <= x * IZR SC <= IZR hi)%R end.
Lemma SC_pos : 0 < SC. Proof. reflexivity. Qed.
Lemma SCR_pos : (0 < IZR SC)%R. Proof. apply IZR_lt, SC_pos. Qed.

(** quotients rounded down and up *)
Definition fdiv (a b : Z) : Z := a / b.
Definition cdiv (a b : Z) : Z := - ((- a) / b).
Lemma fdiv_le a b : 0 < b -> (IZR (fdiv a b) <= IZR a / IZR b)%R.
Proof.
  intros H. pose proof (IZR_lt _ _ H). apply (Rmult_le_reg_r (IZR b)); [lra|].
  unfold Rdiv. rewrite Rmult_assoc, Rinv_l, Rmult_1_r, <- mult_IZR by lra.
  apply IZR_le. unfold fdiv. pose proof (Z.mul_div_le a b H). lia.
Qed.
Lemma cdiv_ge a b : 0 < b -> (IZR a / IZR b <= IZR (cdiv a b))%R.
Proof.
  intros H. pose proof (fdiv_le (- a) b H) as K. unfold cdiv, fdiv in *.
  rewrite opp_IZR in *. unfold Rdiv in *. lra.
Qed.

(** the same by SC, shifting *)
Definition fsc (a : Z) : Z := Z.shiftr a 30.
Definition csc (a : Z) : Z := - Z.shiftr (- a) 30.
Lemma fsc_fdiv a : fsc a = fdiv a SC.
Proof. unfold fsc, fdiv. rewrite Z.shiftr_div_pow2 by lia. reflexivity. Qed.
Lemma csc_cdiv a : csc a = cdiv a SC.
Proof. unfold csc, cdiv. rewrite Z.shiftr_div_pow2 by lia. reflexivity. Qed.

Definition iadd (x y : itv) : itv :=
  match x, y with I a b, I c d => I (a + c) (b + d) | _, _ => Bad end.
Definition iopp (x : itv) : itv := match x with I a b => I (- b) (- a) | Bad => Bad end.
Definition isub (x y : itv) : itv := iadd x (iopp y).
Definition imul (x y : itv) : itv :=
  match x, y with
  | I a b, I c d =>
      if ((0 <=? a) && (0 <=? c))%bool then I (fsc (a * c)) (csc (b * d))
      else let p := a * c in let q := a * d in let r := b * c in let s := b * d in
      I (fsc (Z.min (Z.min p q) (Z.min r s))) (csc (Z.max (Z.max p q) (Z.max r s)))
  | _, _ => Bad
  end.
Definition iinv (x : itv) : itv :=
  match x with
  | I a b => if 0 <? a then I (fdiv (SC * SC) b) (cdiv (SC * SC) a)
             else if b <? 0 then I (- cdiv (SC * SC) (- b)) (- fdiv (SC * SC) (- a)) else Bad
  | Bad => Bad
  end.
Definition idiv (x y : itv) : itv := imul x (iinv y).
Definition isqrt (x : itv) : itv :=
  match x with
  | I a b => if 0 <=? a then I (Z.sqrt (a * SC)) (Z.sqrt (b * SC) + 1) else Bad
  | Bad => Bad
  end.
(** the decimal m / 10^k *)
Definition idec (p : Z * Z) : itv :=
  if 0 <=? snd p then let d := 10 ^ snd p in I (fdiv (fst p * SC) d) (cdiv (fst p * SC) d) else Bad.
Definition i0 : itv := I 0 0.
Definition i1 : itv := I SC SC.
Definition hull (x y : itv) : itv :=
  match x, y with I a b, I c d => I (Z.min a c) (Z.max b d) | _, _ => Bad end.

Global Opaque SC.

Local Open Scope R_scope.
Lemma iadd_ok x y a b : inI x a -> inI y b -> inI (x + y) (iadd a b).
Proof. destruct a, b; cbn; auto. rewrite !plus_IZR. lra. Qed.
Lemma iopp_ok x a : inI x a -> inI (- x) (iopp a).
Proof. destruct a; cbn; auto. rewrite !opp_IZR. lra. Qed.
Lemma isub_ok x y a b : inI x a -> inI y b -> inI (x - y) (isub a b).
Proof. intros. apply iadd_ok; auto. now apply iopp_ok. Qed.

Lemma min_le2 a b : IZR (Z.min a b) <= IZR a /\ IZR (Z.min a b) <= IZR b.
Proof. split; apply IZR_le; lia. Qed.
Lemma max_ge2 a b : IZR a <= IZR (Z.max a b) /\ IZR b <= IZR (Z.max a b).
Proof. split; apply IZR_le; lia. Qed.
Lemma corner_min x y a b c d lo hi : a <= x <= b -> c <= y <= d ->
  lo <= a * c -> lo <= a * d -> lo <= b * c -> lo <= b * d ->
  a * c <= hi -> a * d <= hi -> b * c <= hi -> b * d <= hi -> lo <= x * y <= hi.
Proof.
  intros Hx Hy. intros.
  assert (lo <= x * c <= hi /\ lo <= x * d <= hi) as [K1 K2].
  { split.
    - destruct (Rle_dec 0 c); [assert (a * c <= x * c <= b * c) by nra|assert (b * c <= x * c <= a * c) by nra]; lra.
    - destruct (Rle_dec 0 d); [assert (a * d <= x * d <= b * d) by nra|assert (b * d <= x * d <= a * d) by nra]; lra. }
  destruct (Rle_dec 0 x); [assert (x * c <= x * y <= x * d) by nra|assert (x * d <= x * y <= x * c) by nra]; lra.
Qed.
Lemma scaled x y mn mx : IZR mn <= (x * IZR SC) * (y * IZR SC) <= IZR mx ->
  IZR (fsc mn) <= x * y * IZR SC <= IZR (csc mx).
Proof.
  intros [K1 K2]. pose proof SCR_pos as HS. rewrite fsc_fdiv, csc_cdiv.
  pose proof (fdiv_le mn SC SC_pos). pose proof (cdiv_ge mx SC SC_pos).
  assert (x * y * IZR SC = (x * IZR SC) * (y * IZR SC) / IZR SC) as -> by (field; lra).
  assert (IZR mn / IZR SC <= (x * IZR SC) * (y * IZR SC) / IZR SC).
  { apply Rmult_le_compat_r; [left; now apply Rinv_0_lt_compat|exact K1]. }
  assert ((x * IZR SC) * (y * IZR SC) / IZR SC <= IZR mx / IZR SC).
  { apply Rmult_le_compat_r; [left; now apply Rinv_0_lt_compat|exact K2]. }
  lra.
Qed.
Lemma imul_ok x y a b : inI x a -> inI y b -> inI (x * y) (imul a b).
Proof.
  destruct a as [|a b0], b as [|c d]; cbn [imul]; auto. cbn [inI]. intros Hx Hy.
  destruct (Z.leb_spec 0 a) as [Ha|]; [destruct (Z.leb_spec 0 c) as [Hc|]|]; cbn [andb inI].
  { apply scaled. rewrite !mult_IZR. apply IZR_le in Ha, Hc. nra. }
  all: apply scaled; set (mn := Z.min _ _); set (mx := Z.max _ _);
    pose proof (min_le2 (Z.min (a * c) (a * d)) (Z.min (b0 * c) (b0 * d))) as [A1 A2]; fold mn in A1, A2;
    pose proof (max_ge2 (Z.max (a * c) (a * d)) (Z.max (b0 * c) (b0 * d))) as [B1 B2]; fold mx in B1, B2;
    pose proof (min_le2 (a * c) (a * d)); pose proof (min_le2 (b0 * c) (b0 * d));
    pose proof (max_ge2 (a * c) (a * d)); pose proof (max_ge2 (b0 * c) (b0 * d));
    rewrite !mult_IZR in *; apply (corner_min _ _ (IZR a) (IZR b0) (IZR c) (IZR d)); lra.
Qed.
Lemma inv_bounds x a b : 0 < a -> a <= x * IZR SC <= b ->
  IZR SC * IZR SC / b <= / x * IZR SC <= IZR SC * IZR SC / a.
Proof.
  intros Ha H. pose proof SCR_pos as HS.
  assert (0 < x) by (destruct (Rlt_dec 0 x); auto; nra).
  assert (/ x * IZR SC = IZR SC * IZR SC * / (x * IZR SC)) as -> by (field; split; lra).
  assert (0 <= IZR SC * IZR SC) by nra. unfold Rdiv.
  split; apply Rmult_le_compat_l; auto; apply Rinv_le_contravar; lra.
Qed.
Lemma iinv_ok x a : inI x a -> inI (/ x) (iinv a).
Proof.
  destruct a as [|a b]; cbn [iinv]; [auto|]. intros H.
  destruct (Z.ltb_spec 0 a) as [Ha|Ha].
  - cbn in H. apply IZR_lt in Ha as Ha'. pose proof (inv_bounds x _ _ Ha' H) as K. cbn.
    pose proof (fdiv_le (SC * SC) b) as K1. pose proof (cdiv_ge (SC * SC) a Ha) as K2. rewrite mult_IZR in *.
    assert ((0 < b)%Z) by (apply lt_IZR; lra). specialize (K1 H0). lra.
  - destruct (Z.ltb_spec b 0) as [Hb|]; [|exact Logic.I].
    cbn in H. cbn.
    assert ((0 < - b)%Z) as Hb' by lia. apply IZR_lt in Hb' as HbR.
    pose proof (inv_bounds (- x) _ (IZR (- a)) HbR) as K. rewrite !opp_IZR in *.
    assert (- IZR b <= - x * IZR SC <= - IZR a) as K0 by lra. specialize (K K0).
    pose proof (fdiv_le (SC * SC) (- a)) as K1. pose proof (cdiv_ge (SC * SC) (- b) Hb') as K2.
    rewrite mult_IZR, opp_IZR in *.
    assert ((0 < - a)%Z) as Ha2 by (apply lt_IZR; rewrite opp_IZR; lra). specialize (K1 Ha2).
    assert (x <> 0) by (intros ->; lra).
    rewrite Rinv_opp in K. lra.
Qed.
Lemma idiv_ok x y a b : inI x a -> inI y b -> inI (x / y) (idiv a b).
Proof. intros. apply imul_ok; auto. now apply iinv_ok. Qed.
Lemma sqrt_IZR_lo z : (0 <= z)%Z -> IZR (Z.sqrt z) <= R_sqrt.sqrt (IZR z).
Proof.
  intros H. apply Rsqr_incr_0_var; [|apply sqrt_pos]. rewrite Rsqr_sqrt by (now apply IZR_le).
  unfold Rsqr. rewrite <- mult_IZR. apply IZR_le. apply Z.sqrt_spec. exact H.
Qed.
Lemma sqrt_IZR_hi z : (0 <= z)%Z -> R_sqrt.sqrt (IZR z) <= IZR (Z.sqrt z + 1).
Proof.
  intros H. apply Rsqr_incr_0_var.
  - rewrite Rsqr_sqrt by (now apply IZR_le). unfold Rsqr. rewrite <- mult_IZR. apply IZR_le.
    pose proof (Z.sqrt_spec z H) as K. unfold Z.succ in K. lia.
  - apply IZR_le. pose proof (Z.sqrt_nonneg z). lia.
Qed.
Lemma isqrt_ok x a : inI x a -> inI (R_sqrt.sqrt x) (isqrt a).
Proof.
  destruct a as [|a b]; cbn [isqrt]; [auto|]. intros H. cbn in H.
  destruct (Z.leb_spec 0 a) as [Ha|]; [|exact Logic.I]. cbn. pose proof SCR_pos as HS. pose proof SC_pos.
  apply IZR_le in Ha as Ha'.
  assert (0 <= x) by (destruct (Rle_dec 0 x); auto; nra).
  assert (R_sqrt.sqrt x * IZR SC = R_sqrt.sqrt (x * IZR SC * IZR SC)) as ->.
  { rewrite Rmult_assoc, sqrt_mult_alt, sqrt_square by nra. reflexivity. }
  assert ((0 <= b)%Z) by (apply le_IZR; lra).
  split.
  - eapply Rle_trans; [apply sqrt_IZR_lo; nia|]. apply sqrt_le_1_alt. rewrite mult_IZR. nra.
  - eapply Rle_trans; [|apply sqrt_IZR_hi; nia]. apply sqrt_le_1_alt. rewrite mult_IZR. nra.
Qed.
Lemma idec_ok p : inI (litR p) (idec p).
Proof.
  unfold idec. destruct (Z.leb_spec 0 (snd p)) as [H|]; [|exact Logic.I]. cbn.
  assert ((0 < 10 ^ snd p)%Z) as Hd by (apply Z.pow_pos_nonneg; lia).
  pose proof (fdiv_le (fst p * SC) _ Hd). pose proof (cdiv_ge (fst p * SC) _ Hd).
  unfold litR. rewrite mult_IZR in *. unfold Rdiv in *. lra.
Qed.
Lemma i0_ok : inI 0 i0. Proof. cbn. lra. Qed.
Lemma i1_ok : inI 1 i1. Proof. cbn. lra. Qed.
Lemma hull_l x a b : inI x a -> inI x (hull a b).
Proof.
  destruct a as [|a a'], b as [|b b']; cbn; auto. intros.
  pose proof (min_le2 a b). pose proof (max_ge2 a' b'). lra.
Qed.
Lemma hull_r x a b : inI x b -> inI x (hull a b).
Proof.
  destruct a as [|a a'], b as [|b b']; cbn; auto. intros.
  pose proof (min_le2 a b). pose proof (max_ge2 a' b'). lra.
Qed.

(** ** Comparisons with decimals *)
Local Open Scope Z_scope.
(** all of the interval is < p, > p *)
Definition below (i : itv) (p : Z * Z) : bool :=
  match i, idec p with I _ b, I c _ => b <? c | _, _ => false end.
Definition above (i : itv) (p : Z * Z) : bool :=
  match i, idec p with I a _, I _ d => d <? a | _, _ => false end.
(** two points of the interval are closer than p *)
Definition narrow (i : itv) (p : Z * Z) : bool :=
  match i, idec p with I a b, I c _ => b - a <? c | _, _ => false end.
Local Open Scope R_scope.
Lemma below_ok x i p : inI x i -> below i p = true -> x < litR p.
Proof.
  pose proof (idec_ok p) as K. unfold below. destruct i as [|a b], (idec p) as [|c d]; try discriminate.
  cbn in *. intros H E. apply Z.ltb_lt, IZR_lt in E. pose proof SCR_pos.
  apply (Rmult_lt_reg_r (IZR SC)); lra.
Qed.
Lemma above_ok x i p : inI x i -> above i p = true -> litR p < x.
Proof.
  pose proof (idec_ok p) as K. unfold above. destruct i as [|a b], (idec p) as [|c d]; try discriminate.
  cbn in *. intros H E. apply Z.ltb_lt, IZR_lt in E. pose proof SCR_pos.
  apply (Rmult_lt_reg_r (IZR SC)); lra.
Qed.
Lemma narrow_ok x y i p : inI x i -> inI y i -> narrow i p = true -> Rabs (x - y) < litR p.
Proof.
  pose proof (idec_ok p) as K. unfold narrow. destruct i as [|a b], (idec p) as [|c d]; try discriminate.
  cbn in *. intros Hx Hy E. apply Z.ltb_lt, IZR_lt in E. rewrite minus_IZR in E. pose proof SCR_pos.
  apply Rabs_def1; apply (Rmult_lt_reg_r (IZR SC)); lra.
Qed.
