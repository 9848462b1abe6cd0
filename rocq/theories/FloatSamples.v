(** A path of doubles that meets the hypotheses of the theorems on rounding. *)
From Coq Require Import ZArith Reals Lra Lia String List Bool Floats.
From Verif Require Import Base Nums Optics Spec MatrixProofs GroupProofs TraceProofs Rounding RoundingOps Exact FloatTrace FloatGroup.
Import ListNotations.
Open Scope R_scope.

(** 8 mm, a lens of 64 mm with an opening of 25 mm, 128 mm *)
Definition bench_built : res (@grp float) :=
  s <- Space (fofZ 8) (fofZ 1) infinity;; l <- Lens (fofZ 64) (fofZ 25);; t <- Space (fofZ 128) (fofZ 1) infinity;;
  MatrixGroup_new [s; l; t] "bench"%string.
Definition bench : @grp float := Eval vm_compute in match bench_built with Ok g => g | Err _ => mkGrp (mkMat zero zero zero zero zero None None zero zero zero zero false ""%string) [] end.
Lemma bench_ok : bench_built = Ok bench. Proof. vm_compute. reflexivity. Qed.
Definition bench_ray : @ray float := Ray_new (1 / 4)%float (1 / 8)%float.

Ltac finite_float := vm_compute; exact I.
Ltac limit_float := first [left; vm_compute; exact I | right; vm_compute; reflexivity].
Lemma bench_tame : Forall tame (leaves (grp_elem bench)).
Proof. cbn [grp_elem bench gelems leaves flat_map app]. repeat (apply Forall_cons; [constructor; [finite_float..|limit_float|limit_float|exact I]|]). apply Forall_nil. Qed.
Lemma V256 : FR (fofZ 256) = p2 8.
Proof. rewrite (FR_ratio (fofZ 256) false 4503599627370496 (-44) 256 0); [|vm_compute; first [reflexivity|discriminate]..]. rewrite <- (p2_IZR 8) by lia. cbn. lra. Qed.
Lemma small_float f : ffin f -> (abs f <? fofZ 256)%float = true -> Rabs (FR f) < p2 8.
Proof. intros Hf H. rewrite <- V256. apply (FR_lt f (fofZ 256) false 4503599627370496 (-44)); auto. Qed.
Lemma bench_small : Forall (small 8) (leaves (grp_elem bench)).
Proof.
  cbn [grp_elem bench gelems leaves flat_map app].
  repeat (apply Forall_cons; [repeat split; apply Rlt_le, small_float; vm_compute; first [exact I|reflexivity]|]). apply Forall_nil.
Qed.
Lemma bench_modest : modest (leaves (grp_elem bench)) unit_y /\ modest (leaves (grp_elem bench)) unit_th /\ modest (leaves (grp_elem bench)) bench_ray.
Proof.
  assert (forall r : @ray float, Rabs (FR (ry r)) < p2 8 -> Rabs (FR (rth r)) < p2 8 -> Rabs (FR (rz r)) < p2 8 -> modest (leaves (grp_elem bench)) r) as G.
  { intros r H1 H2 H3. apply (small_modest 8 8); auto; try lia; [apply bench_small|vm_compute; discriminate]. }
  split; [|split]; apply G; apply small_float; vm_compute; first [exact I|reflexivity].
Qed.
Lemma bench_few : INR (List.length (leaves (grp_elem bench))) <= p2 50.
Proof. apply Rle_trans with (p2 3); [rewrite p2_3; cbn; lra|apply p2_le; lia]. Qed.
Lemma bench_step : in_step bench.
Proof.
  intros _. eexists. split; [vm_compute; reflexivity|vm_compute; reflexivity].
Qed.
Lemma bench_arrives : rblk (traceThrough (grp_elem bench) bench_ray) = false.
Proof. vm_compute. reflexivity. Qed.

(** ** Values *)
Lemma FR_zero : FR zero = 0. Proof. unfold FR. change (Prim2SF zero) with (S754_zero false). apply val_zero. Qed.
Lemma FR_one : FR 1%float = 1.
Proof. rewrite (FR_ratio 1%float false 4503599627370496 (-52) 1 0); [|vm_compute; first [reflexivity|discriminate]..]. cbn. lra. Qed.
Lemma FR_8 : FR 8%float = 8.
Proof. rewrite (FR_ratio 8%float false 4503599627370496 (-49) 8 0); [|vm_compute; first [reflexivity|discriminate]..]. cbn. lra. Qed.
Lemma FR_25 : FR 25%float = 25.
Proof. rewrite (FR_ratio 25%float false 7036874417766400 (-48) 25 0); [|vm_compute; first [reflexivity|discriminate]..]. cbn. lra. Qed.
Lemma FR_y : FR (1 / 4)%float = / 4.
Proof. rewrite (FR_ratio (1 / 4)%float false 4503599627370496 (-54) 1 2); [|vm_compute; first [reflexivity|discriminate]..]. cbn. lra. Qed.
Lemma FR_th : FR (1 / 8)%float = / 8.
Proof. rewrite (FR_ratio (1 / 8)%float false 4503599627370496 (-55) 1 3); [|vm_compute; first [reflexivity|discriminate]..]. cbn. lra. Qed.

(** the ray passes the lens far from its rim *)
Lemma bench_off : off_the_edges (grp_elem bench) bench_ray.
Proof.
  intros pre km post E x Hx s n.
  assert (ffin (ry bench_ray) /\ ffin (rth bench_ray) /\ ffin (rz bench_ray)) as (Fy & Ft & Fz) by (repeat split; finite_float).
  assert (Forall tame pre) as Tp. { pose proof bench_tame as T. rewrite E in T. now apply Forall_app in T as [T _]. }
  pose proof (through_leaves_free (map xkm pre) (xray bench_ray) Hx) as (_ & Ex & _).
  destruct (ideals_exact pre (xray bench_ray) _ _ _ Tp (XF_fin _ Fy) (XF_fin _ Ft) (XF_fin _ Fz)) as (Iy & It & _).
  rewrite <- Ex in Iy, It. eexists _, _. split; [exact Iy|]. split; [exact It|].
  assert (forall m : @mat float, mdiam m = infinity -> mna m = infinity -> forall v w t t', away v t (ndiv (XF (mdiam m)) c2) /\ away w t' (XF (mna m))) as Open.
  { intros m E1 E2 v w t t'. rewrite E1, E2. change (XF infinity) with PInf. cbn. destruct (Rlt_dec 2 0); [lra|]. split; exact I. }
  destruct pre as [|k1 pre]; [injection E as <- _; now apply Open|].
  destruct pre as [|k2 pre].
  - injection E as <- <- _. split; [|change (XF (mna (snd (KLens 64%float 4%float, mkMat 1%float 0%float (-0.015625)%float 1%float 0%float (Some 0%float) (Some 0%float) 1%float 1%float 25%float infinity false EmptyString)))) with PInf; exact I].
    cbn [snd mdiam mapp map fst mprod fold_left rmat mmul mid A_ B_ C_ D_ mA mB mC mD]. rewrite x_half by finite_float. cbn [away].
    unfold s. cbn [sizes fold_left sizeS szy szt snd mA mB mC mD size0]. cbn [bench_ray Ray_new ry rth].
    rewrite FR_8, FR_25, FR_one, FR_y, FR_th.
    unfold part, n. cbn [List.length INR].
    pose proof (p2_le (-50) (-3) ltac:(lia)) as P. rewrite p2_m3 in P. pose proof (p2_pos (-50)) as P0. pose proof (p2_le (-1022) (-3) ltac:(lia)) as P1. rewrite p2_m3 in P1. fold tiny in P1. pose proof tiny_pos as P2.
    rewrite !(Rabs_pos_eq 1), !(Rabs_pos_eq 8), !(Rabs_pos_eq 25), !(Rabs_pos_eq (/ 4)), !(Rabs_pos_eq (/ 8)) by lra.
    match goal with |- _ < Rabs (Rabs ?y - _) => replace y with (5 / 4) by field end. rewrite (Rabs_pos_eq (5 / 4)) by lra. rewrite Rabs_left by lra.
    apply Rle_lt_trans with (/ 16 * 18 + 0); [|lra].
    assert (p2 (-50) <= / 1024) as Q. { pose proof (p2_le (-50) (- (10)) ltac:(lia)) as Q. rewrite p2_opp, <- (p2_IZR 10) in Q by lia. change (2 ^ 10)%Z with 1024%Z in Q. lra. }
    assert (forall a b, 0 <= a <= / 1024 -> 0 <= b <= 100 -> (1 + 1) * a * b <= / 16 * 18 + 0) as QQ.
    { intros a b Ha Hb. assert (a * b <= / 1024 * 100) by (apply Rmult_le_compat; lra). lra. }
    apply QQ; lra.
  - destruct pre as [|k3 pre]; [injection E as <- <- <- _; now apply Open|].
    exfalso. apply (f_equal (@List.length _)) in E. cbn in E. rewrite app_length in E. cbn in E. lia.
Qed.

(** ** At the very edge the two may differ *)
Definition edge_built : res (@grp float) :=
  s <- Space (fofZ 1) (fofZ 1) infinity;; a <- Aperture (fofZ 2) infinity;; MatrixGroup_new [s; a] EmptyString.
Definition edge : @grp float := Eval vm_compute in match edge_built with Ok g => g | Err _ => mkGrp (mkMat zero zero zero zero zero None None zero zero zero zero false ""%string) [] end.
Lemma edge_ok : edge_built = Ok edge. Proof. vm_compute. reflexivity. Qed.
Definition edge_ray : @ray float := Ray_new 1%float (Z.ldexp 1 (-53))%float.
Lemma FR_edge : FR (rth edge_ray) = p2 (-53).
Proof.
  unfold FR. change (Prim2SF (rth edge_ray)) with (S754_finite false 4503599627370496 (-105)). rewrite val_finite, Rmult_1_l. change 4503599627370496%positive with (2 ^ 52)%positive.
  change (Z.pos (2 ^ 52)) with (2 ^ 52)%Z. rewrite p2_IZR by lia. rewrite <- p2_add. reflexivity.
Qed.
Lemma FR_2 : FR 2%float = 2.
Proof. rewrite (FR_ratio 2%float false 4503599627370496 (-51) 2 0); [|vm_compute; first [reflexivity|discriminate]..]. cbn. lra. Qed.
Lemma edge_differs : rblk (traceThrough (grp_elem edge) edge_ray) = false /\ rblk (traceThrough (xelem (grp_elem edge)) (xray edge_ray)) = true.
Proof.
  split; [vm_compute; reflexivity|]. rewrite traceThrough_through. apply blocked_iff. right. rewrite leaves_x.
  eexists [_], _, []. split; [reflexivity|]. cbn [ideals fold_left]. unfold misses. apply orb_true_iff. left.
  cbn [snd xkm xmat mdiam]. rewrite x_half by finite_float. cbn [ideal xkm fst snd ry rth xmat mA mB xray edge_ray Ray_new].
  assert (ffin (rth edge_ray)) as Ft by finite_float.
  change (Z.ldexp 1 (-53))%float with (rth edge_ray). rewrite (XF_fin _ Ft), !XF_fin by finite_float.
  assert (FR 1%float = 1) as W by exact FR_one. rewrite FR_edge, FR_2, W.
  change (Rltb (2 / 2) (Rabs (1 * 1 + 1 * p2 (-53))) = true). apply Rltb_true. pose proof (p2_pos (-53)).
  replace (1 * 1 + 1 * p2 (-53)) with (1 + p2 (-53)) by ring. rewrite Rabs_pos_eq; lra.
Qed.
