(** The bench of FloatSamples.v and an object in a focal plane, for the theorems on focal
    lengths and images in double precision. *)
From Coq Require Import ZArith Reals Lra Lia List Bool String Floats.
From Verif Require Import Base Nums Optics Spec GroupProofs TraceProofs Rounding RoundingOps Exact FloatTrace FloatGroup FloatSamples FloatBuild BuildSamples FloatImage.
Import ListNotations.
Open Scope list_scope.
Open Scope R_scope.

Lemma bench_plain : plain bench.
Proof.
  destruct bench_modest as (M1 & M2 & _). apply drop_modest in M1, M2. rewrite <- bench_members_leaves in M1, M2.
  constructor; auto; [exact bench_step|discriminate|apply bench_air|rewrite bench_members_leaves; apply drop_tame, bench_tame|].
  pose proof bench_few as HF. exact HF.
Qed.
Lemma bench_values : exact_of bench = mk2 (-1) 120 (- / 64) (7 / 8) /\ share bench <= / 10 ^ 12 /\
  (0 <= sumA bench <= 5 /\ 0 <= sumB bench <= 200 /\ 0 <= sumC bench <= 1 /\ 0 <= sumD bench <= 5).
Proof.
  pose proof bench_rmat as EE. pose proof tiny_pos as T0. pose proof (p2_le (-1022) (-20) ltac:(lia)) as T1. fold tiny in T1.
  assert (p2 (-20) = / 1048576) as P20 by (change (-20)%Z with (- (20))%Z; rewrite p2_opp; f_equal; rewrite <- p2_IZR by lia; reflexivity). rewrite P20 in T1.
  unfold exact_of, share, sumA, sumB, sumC, sumD. destruct (gelems bench) as [|e1 [|e2 [|e3 []]]]; try discriminate. cbn [map] in EE.
  injection EE as A1 A2 A3 A4 B1 B2 B3 B4 C1 C2 C3 C4.
  split; [|split].
  - unfold mprod, members, rmat. cbn [map fold_left mmul mid A_ B_ C_ D_ snd].
    rewrite A1, A2, A3, A4, B1, B2, B3, B4, C1, C2, C3, C4, FR_one, FR_zero, FR_8, FR_128, FR_64. unfold mprod, mmul, mid; cbn [A_ B_ C_ D_]. f_equal; field.
  - unfold part, members. cbn [map List.length INR].
    assert (p2 (-50) = / 1125899906842624) as -> by (change (-50)%Z with (- (50))%Z; rewrite p2_opp; f_equal; rewrite <- p2_IZR by lia; reflexivity). cbn. lra.
  - cbn [members map sizes fold_left sizeS szy szt szz snd size0 unit_y unit_th Ray_new ry rth rz].
    change (@c1 float _) with 1%float. change (@c0 float _) with zero.
    rewrite A1, A2, A3, A4, B1, B2, B3, B4, C1, C2, C3, C4.
    rewrite ?FR_one, ?FR_zero, ?FR_8, ?FR_128, ?FR_64, ?Rabs_Ropp, ?Rabs_R0, ?Rabs_R1, ?(Rabs_pos_eq 8), ?(Rabs_pos_eq 128), ?(Rabs_pos_eq (/ 64)) by lra. lra.
Qed.
(** an object in the focal plane of a lens of 49 mm *)
Definition focal_49 : @grp float := match s <- Space (fofZ 49) (fofZ 1) infinity;; l <- Lens (fofZ 49) infinity;; MatrixGroup_new [s; l] ""%string with Ok g => g | Err _ => bench end.
Definition image_49 : float := Eval vm_compute in match forwardConjugate (gmat focal_49) with Ok (d, _) => d | Err _ => zero end.
Lemma focal_49_image : exists s l c, Space (fofZ 49) (fofZ 1) infinity = Ok s /\ Lens (fofZ 49) infinity = Ok l /\ MatrixGroup_new [s; l] ""%string = Ok focal_49 /\
  forwardConjugate (gmat focal_49) = Ok (image_49, Some c) /\ ffin image_49.
Proof. eexists _, _, _. split; [vm_compute; reflexivity|]. split; [vm_compute; reflexivity|]. split; [vm_compute; reflexivity|]. split; vm_compute; first [reflexivity|exact I]. Qed.
(** an object in the focal plane of a lens of 64 mm, and two spaces *)
Definition focal_64 : @grp float := Eval vm_compute in match s <- Space (fofZ 64) (fofZ 1) infinity;; l <- Lens (fofZ 64) infinity;; MatrixGroup_new [s; l] ""%string with Ok g => g | Err _ => bench end.
Definition gaps : @grp float := Eval vm_compute in match s <- Space (fofZ 64) (fofZ 1) infinity;; t <- Space (fofZ 8) (fofZ 1) infinity;; MatrixGroup_new [s; t] ""%string with Ok g => g | Err _ => bench end.
Ltac small_plain :=
  constructor; [intros _; eexists; split; vm_compute; reflexivity|discriminate|repeat (apply Forall_cons; [split; vm_compute; reflexivity|]); apply Forall_nil
    |cbn [gelems members map]; repeat (apply Forall_cons; [constructor; [finite_float..|limit_float|limit_float|exact I]|]); apply Forall_nil
    |apply Rle_trans with (p2 3); [rewrite p2_3; cbn; lra|apply p2_le; lia]|..];
  (apply (small_modest 8 8); [lia|lia| | | | |vm_compute; discriminate];
    [cbn [gelems members map]; repeat (apply Forall_cons; [repeat split; apply Rlt_le, small_float; vm_compute; first [exact I|reflexivity]|]); apply Forall_nil
    |apply small_float; vm_compute; first [exact I|reflexivity]..]).
Lemma focal_64_plain : plain focal_64.
Proof. unfold focal_64. small_plain. Qed.
Lemma gaps_plain : plain gaps.
Proof. unfold gaps. small_plain. Qed.
Lemma FR_64p : FR 64%float = 64.
Proof. rewrite (FR_ratio 64%float false 4503599627370496 (-46) 64 0); [|vm_compute; first [reflexivity|discriminate]..]. cbn. lra. Qed.
Lemma gaps_power : Rabs (C_ (exact_of gaps)) + share gaps * sumC gaps <= 99 / 10 ^ 7.
Proof.
  assert (map (fun e => (mA (emat e), mB (emat e), mC (emat e), mD (emat e))) (gelems gaps) = [(1%float, 64%float, zero, 1%float); (1%float, 8%float, zero, 1%float)]) as EE by (vm_compute; reflexivity).
  pose proof tiny_pos as T0. pose proof tiny_small as T1.
  unfold exact_of, share, sumC. destruct (gelems gaps) as [|e1 [|e2 []]]; try discriminate. cbn [map] in EE. injection EE as A1 A2 A3 A4 B1 B2 B3 B4.
  unfold mprod, members, rmat. cbn [map fold_left mmul mid A_ B_ C_ D_ snd].
  cbn [members map sizes fold_left sizeS szy szt szz snd size0 unit_y unit_th Ray_new ry rth rz List.length].
  change (@c1 float _) with 1%float. change (@c0 float _) with zero.
  rewrite ?A1, ?A2, ?A3, ?A4, ?B1, ?B2, ?B3, ?B4. rewrite ?FR_one, ?FR_zero, ?FR_8, ?FR_64p, ?Rabs_R0, ?Rabs_R1.
  unfold mprod, mmul, mid; cbn [A_ B_ C_ D_].
  match goal with |- Rabs ?x + _ * ?y <= _ => replace x with 0 by ring; replace y with (3 * tiny) by ring end. rewrite Rabs_R0.
  unfold part. cbn [INR]. assert (p2 (-50) = / 1125899906842624) as -> by (change (-50)%Z with (- (50))%Z; rewrite p2_opp; f_equal; rewrite <- p2_IZR by lia; reflexivity). cbn in *. lra.
Qed.
