(** A path that meets the hypotheses of the theorem on assembling paths, and one that cannot
    be assembled. *)
From Coq Require Import ZArith Reals Lra Lia List Bool String Floats.
From Verif Require Import Base Nums Optics Spec GroupProofs TraceProofs Rounding RoundingOps Exact FloatTrace FloatGroup FloatSamples FloatBuild.
Import ListNotations.
Open Scope list_scope.
Open Scope R_scope.

Lemma bench_members_leaves : members (gelems bench) = map drop_kind (leaves (grp_elem bench)).
Proof. reflexivity. Qed.
Lemma bench_air : Forall in_air (gelems bench).
Proof. repeat (apply Forall_cons; [split; vm_compute; reflexivity|]). apply Forall_nil. Qed.
Lemma FR_128 : FR 128%float = 128.
Proof. rewrite (FR_ratio 128%float false 4503599627370496 (-45) 128 0); [|vm_compute; first [reflexivity|discriminate]..]. cbn. lra. Qed.
Lemma FR_64 : FR (-0x1p-6)%float = - / 64.
Proof. rewrite (FR_ratio (-0x1p-6)%float true 4503599627370496 (-58) (-1) 6); [|vm_compute; first [reflexivity|discriminate]..]. cbn. lra. Qed.
Lemma bench_rmat : map (fun e => (mA (emat e), mB (emat e), mC (emat e), mD (emat e))) (gelems bench) =
  [(1%float, 8%float, zero, 1%float); (1%float, zero, (-0x1p-6)%float, 1%float); (1%float, 128%float, zero, 1%float)].
Proof. vm_compute. reflexivity. Qed.
Lemma bench_units : Forall unit_det (gelems bench).
Proof.
  pose proof bench_rmat as E. destruct (gelems bench) as [|a [|b [|c []]]]; try discriminate. cbn [map] in E. injection E as A1 A2 A3 A4 B1 B2 B3 B4 C1 C2 C3 C4.
  repeat (apply Forall_cons; [unfold unit_det, mdet, rmat; cbn [A_ B_ C_ D_ snd]|]); [| | |apply Forall_nil];
    rewrite ?A1, ?A2, ?A3, ?A4, ?B1, ?B2, ?B3, ?B4, ?C1, ?C2, ?C3, ?C4, ?FR_one, ?FR_zero; ring.
Qed.
Lemma tiny_small : tiny <= / 8.
Proof. rewrite <- p2_m3. apply p2_le. lia. Qed.
Lemma slack_small l : (List.length l <= 3)%nat -> big_enough (sizes l (size0 unit_y)) -> big_enough (sizes l (size0 unit_th)) ->
  szy (sizes l (size0 unit_y)) <= 1000 -> szt (sizes l (size0 unit_y)) <= 1000 -> szy (sizes l (size0 unit_th)) <= 1000 -> szt (sizes l (size0 unit_th)) <= 1000 ->
  slack l <= 99 / 10 ^ 7.
Proof.
  intros Hl (B1 & B2 & _) (B3 & B4 & _) H1 H2 H3 H4. pose proof tiny_pos. pose proof tiny_small. unfold slack, spread.
  set (a := szy (sizes l (size0 unit_y))) in *. set (c := szt (sizes l (size0 unit_y))) in *. set (b := szy (sizes l (size0 unit_th))) in *. set (d := szt (sizes l (size0 unit_th))) in *.
  assert (a * d <= 1000 * 1000) by (apply Rmult_le_compat; lra). assert (b * c <= 1000 * 1000) by (apply Rmult_le_compat; lra).
  assert (0 <= a * d) by (apply Rmult_le_pos; lra). assert (0 <= b * c) by (apply Rmult_le_pos; lra).
  assert (part (List.length l) <= 3 * p2 (-50)) as Hp.
  { unfold part. apply Rmult_le_compat_r; [apply Rlt_le, p2_pos|]. apply le_INR in Hl. cbn in Hl. lra. }
  pose proof (part_pos (List.length l)).
  assert (p2 (-50) = / 1125899906842624) as P50 by (change (-50)%Z with (- (50))%Z; rewrite p2_opp; f_equal; rewrite <- p2_IZR by lia; reflexivity). rewrite P50 in Hp.
  apply Rle_trans with (5 * (3 * / 1125899906842624) * 2000001); [apply Rmult_le_compat; lra|]. cbn. lra.
Qed.
Ltac bench_bound :=
  apply slack_small; [assumption|apply sizes_big, size0_big|apply sizes_big, size0_big|..];
  cbn [members map sizes fold_left sizeS szy szt szz snd size0 unit_y unit_th Ray_new ry rth rz];
  change (@c1 float _) with 1%float; change (@c0 float _) with zero;
  repeat match goal with H : _ (emat _) = _ |- _ => rewrite ?H; clear H end;
  rewrite ?FR_one, ?FR_zero, ?FR_8, ?FR_128, ?FR_64, ?Rabs_Ropp, ?Rabs_R0, ?Rabs_R1, ?(Rabs_pos_eq 8), ?(Rabs_pos_eq 128), ?(Rabs_pos_eq (/ 64)) by lra; lra.
Lemma bench_slack a b : gelems bench = a ++ b -> a <> [] -> slack (members a) <= 99 / 10 ^ 7.
Proof.
  intros E Hne. pose proof bench_rmat as EE. pose proof tiny_pos as T0. pose proof tiny_small as T1.
  assert (List.length (gelems bench) = 3%nat) as EL by reflexivity.
  assert (List.length (members a) <= 3)%nat as La by (unfold members; rewrite map_length; rewrite E, app_length in EL; lia).
  rewrite E in EE. clear E EL.
  destruct a as [|e1 [|e2 [|e3 a]]]; [now elim Hne| | |]; cbn [app map] in EE.
  3: { assert (a = []) as -> by (apply (f_equal (@List.length _)) in EE; cbn in EE; destruct a; [reflexivity|cbn in EE; lia]).
    injection EE as A1 A2 A3 A4 B1 B2 B3 B4 C1 C2 C3 C4 _. bench_bound. }
  2: { injection EE as A1 A2 A3 A4 B1 B2 B3 B4 _. bench_bound. }
  injection EE as A1 A2 A3 A4 _. bench_bound.
Qed.

(** ** A telescope of 900 mm that looks at Jupiter, 600 million km away, in mm *)
Definition far_space : @elem float := match Space (fofZ 600000000000000) (fofZ 1) infinity with Ok e => e | Err _ => Leaf KSpace (gmat bench) end.
Definition objective_900 : @elem float := match Lens (fofZ 900) infinity with Ok e => e | Err _ => Leaf KSpace (gmat bench) end.
Definition tube : @elem float := match Space (fofZ 910) (fofZ 1) infinity with Ok e => e | Err _ => Leaf KSpace (gmat bench) end.
Lemma far_refused : Space (fofZ 600000000000000) (fofZ 1) infinity = Ok far_space /\ Lens (fofZ 900) infinity = Ok objective_900 /\
  Space (fofZ 910) (fofZ 1) infinity = Ok tube /\ MatrixGroup_new [far_space; objective_900; tube] ""%string = Err ValueError.
Proof. repeat split; vm_compute; reflexivity. Qed.
