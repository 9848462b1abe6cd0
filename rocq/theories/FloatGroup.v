(** The matrix of a group computed in doubles, and the rays traced through it. *)
From Coq Require Import ZArith Reals Lra Lia List Bool Floats.
From Verif Require Import Base Nums Optics Spec MatrixProofs GroupProofs TraceProofs Rounding RoundingOps Exact FloatTrace.
Import ListNotations.
Open Scope R_scope.

(** ** The exact path is a product of matrices *)
Lemma mprod_snoc (l : list M2) M : mprod (l ++ [M]) = mmul M (mprod l).
Proof. unfold mprod. rewrite fold_left_app. reflexivity. Qed.
Lemma rlength_snoc l km : rlength (l ++ [km]) = FR (mL (snd km)) + rlength l.
Proof. unfold rlength. induction l as [|a l IH]; [reflexivity|]. cbn [app fold_right]. rewrite IH. ring. Qed.
Lemma ideals_exact l : forall r y t z, Forall tame l -> ry r = Fin y -> rth r = Fin t -> rz r = Fin z ->
  let x := ideals (map xkm l) r in let v := mapp (mprod (map rmat l)) (y, t) in
  ry x = Fin (fst v) /\ rth x = Fin (snd v) /\ rz x = Fin (rlength l + z).
Proof.
  induction l as [|km l IH] using rev_ind; intros r y t z Ht Ey Et Ez.
  - cbn. rewrite Ey, Et, Ez. repeat split; f_equal; ring.
  - apply Forall_app in Ht as [Ht H1]. inversion H1 as [|? ? T1 _]; subst.
    destruct (IH r y t z Ht Ey Et Ez) as (Iy & It & Iz). unfold ideals in *. rewrite !map_app, fold_left_app. cbn [map fold_left].
    rewrite mprod_snoc, mapp_mmul. set (v := mapp (mprod (map rmat l)) (y, t)) in *. set (x := fold_left (fun r km => ideal km r) (map xkm l) r) in *.
    pose proof (rlength_snoc l km) as EL.
    destruct T1 as [HA HB HC HD HL _ _ HK]. destruct km as [k m].
    unfold ideal. cbn [ry rth rz]. cbn [snd fst xkm xmat mA mB mC mD mL] in *. rewrite Iy, It, Iz, !XF_fin by auto. unfold mapp, rmat; cbn [fst snd A_ B_ C_ D_].
    split; [reflexivity|]. split; [destruct k; try reflexivity; contradiction|]. cbn. f_equal. rewrite EL. ring.
Qed.

Theorem arrived_product e r : let l := leaves e in let n := List.length l in let s := sizes l (size0 r) in
  Forall tame l -> ffin (ry r) -> ffin (rth r) -> ffin (rz r) -> INR n <= p2 50 -> modest l r ->
  let f := traceThrough e r in let v := mapp (mprod (map rmat l)) (FR (ry r), FR (rth r)) in
  rblk f = false -> ffin (ry f) /\ ffin (rth f) /\ ffin (rz f) /\
    Rabs (FR (ry f) - fst v) <= part n * szy s /\ Rabs (FR (rth f) - snd v) <= part n * szt s /\
    Rabs (FR (rz f) - (rlength l + FR (rz r))) <= part n * szz s.
Proof.
  intros l n s Ht Hy Hth Hz Hn Hm f v B. destruct (arrived_near e r Ht Hy Hth Hz Hn Hm B) as (y & t & z & E & K).
  destruct (ideals_exact l (xray r) _ _ _ Ht (XF_fin _ Hy) (XF_fin _ Hth) (XF_fin _ Hz)) as (Iy & It & Iz).
  rewrite leaves_x in E. fold l in E. rewrite E in Iy, It, Iz. cbn [ry rth rz] in *. injection Iy as ->. injection It as ->. injection Iz as ->. exact K.
Qed.

(** ** Matrices of groups *)
Lemma inf_leb f : ffin f -> (f <=? infinity)%float = true.
Proof. unfold ffin. rewrite leb_spec. destruct (Prim2SF f) as [| | |[] ? ?]; try contradiction; reflexivity. Qed.
Lemma inf_sub f : ffin f -> (infinity - f)%float = infinity.
Proof.
  unfold ffin. intros H. apply Prim2SF_inj. rewrite sub_spec. destruct (Prim2SF f); try contradiction; reflexivity.
Qed.
Lemma Matrix_init_ABCD {T} {N : Num T} a b c d l fv bv fi bi di na lab (m : @mat T) : Matrix_init a b c d l fv bv fi bi di na lab = Ok m ->
  mA m = a /\ mB m = b /\ mC m = c /\ mD m = d /\ mL m = l.
Proof.
  unfold Matrix_init. destruct (nleb di c0); [discriminate|]. destruct (nleb na c0); [discriminate|].
  destruct (pdiv fi bi); cbn [bind]; [|discriminate]. destruct (areAbsolutelyNotEqual _ _ _); [discriminate|]. intros [= <-]. repeat split.
Qed.
Definition colA (m : @mat float) : @ray float := mkRay (mA m) (mC m) (mL m) false (mdiam m) None.
Definition colB (m : @mat float) : @ray float := mkRay (mB m) (mD m) (mL m) false (mdiam m) None.
Definition same_place (r r' : @ray float) : Prop := ry r = ry r' /\ rth r = rth r' /\ rz r = rz r'.
Lemma transfer_columns es : forall tm p (r r' : @ray float), Forall (fun e => ffin (mL (emat e))) es -> transfer_loop es tm infinity = Ok p ->
  same_place r (colA tm) -> same_place r' (colB tm) ->
  same_place (ideals (members es) r) (colA p) /\ same_place (ideals (members es) r') (colB p).
Proof.
  induction es as [|e es IH]; intros tm p r r' Hf H R1 R2; cbn [transfer_loop] in H.
  - injection H as <-. split; assumption.
  - inversion Hf as [|? ? F1 F2]; subst.
    change (nleb (mL (emat e)) infinity) with (mL (emat e) <=? infinity)%float in H. rewrite inf_leb in H by auto.
    destruct (mul_matrix (emat e) tm) as [q|] eqn:E; [|discriminate]. cbn [bind] in H.
    change (nsub infinity (mL (emat e))) with (infinity - mL (emat e))%float in H. rewrite inf_sub in H by auto.
    unfold mul_matrix in E. destruct (mul_idx (emat e) tm). apply Matrix_init_ABCD in E as (EA & EB & EC & ED & EL).
    cbn [members map ideals fold_left]. apply (IH q p); auto.
    + destruct R1 as (A1 & A2 & A3). unfold same_place, ideal; cbn [ry rth rz fst snd colA]. rewrite A1, A2, A3. cbn [colA ry rth rz]. split; [exact (eq_sym EA)|split; [exact (eq_sym EC)|exact (eq_sym EL)]].
    + destruct R2 as (A1 & A2 & A3). unfold same_place, ideal; cbn [ry rth rz fst snd colB]. rewrite A1, A2, A3. cbn [colB ry rth rz]. split; [exact (eq_sym EB)|split; [exact (eq_sym ED)|exact (eq_sym EL)]].
Qed.
Lemma const_ok : ffin (@c0 float _) /\ FR (@c0 float _) = 0 /\ ffin (@c1 float _) /\ FR (@c1 float _) = 1.
Proof.
  assert (Prim2SF (@c0 float _) = S754_zero false) as E0 by (vm_compute; reflexivity).
  assert (Prim2SF (@c1 float _) = S754_finite false 4503599627370496 (-52)) as E by (vm_compute; reflexivity).
  unfold ffin, FR. rewrite E0, E. split; [exact I|]. split; [apply val_zero|]. split; [exact I|]. rewrite val_finite, Rmult_1_l. change 4503599627370496%positive with (2 ^ 52)%positive.
  change (Z.pos (2 ^ 52)) with (2 ^ 52)%Z. rewrite p2_IZR by lia. rewrite <- p2_add. apply p2_0.
Qed.
Lemma same_near n r r' x s : same_place r r' -> rblk r' = rblk r -> near_ray n r x s -> near_ray n r' x s.
Proof. intros (E1 & E2 & E3) E4 [A B C D]. constructor; rewrite <- ?E1, <- ?E2, <- ?E3, ?E4; auto. Qed.
Lemma ideals_unblocked l : forall (r : @ray float), rblk (ideals l r) = rblk r.
Proof. exact (ideals_blk l). Qed.

Theorem group_matrix_near (g : @grp float) : let l := members (gelems g) in let n := List.length l in
  in_step g -> gelems g <> [] -> Forall tame l -> INR n <= p2 50 -> modest l unit_y -> modest l unit_th ->
  let M := mprod (map rmat l) in let m := gmat g in
  let s := sizes l (size0 unit_y) in let s' := sizes l (size0 unit_th) in
  (ffin (mA m) /\ ffin (mB m) /\ ffin (mC m) /\ ffin (mD m) /\ ffin (mL m)) /\
  Rabs (FR (mA m) - A_ M) <= part n * szy s /\ Rabs (FR (mC m) - C_ M) <= part n * szt s /\
  Rabs (FR (mB m) - B_ M) <= part n * szy s' /\ Rabs (FR (mD m) - D_ M) <= part n * szt s' /\
  Rabs (FR (mL m) - rlength l) <= part n * szz s.
Proof.
  intros l n Hg Hne Ht Hn Hy Hth M m s s'. destruct (Hg Hne) as (p & Hp & Em). apply few_50 in Hn.
  unfold group_transfer in Hp. destruct Matrix_default as [tm|] eqn:ED; [|discriminate]. cbn [bind] in Hp.
  apply Matrix_init_ABCD in ED as (EA & EB & EC & EDD & EL).
  assert (Forall (fun e => ffin (mL (emat e))) (gelems g)) as HL.
  { apply Forall_forall. intros e He. rewrite Forall_forall in Ht. apply (tL (KMatrix, emat e)). apply Ht. unfold l, members. exact (in_map (fun e => (KMatrix, emat e)) _ _ He). }
  destruct (transfer_columns (gelems g) tm p unit_y unit_th HL Hp) as [R1 R2].
  { unfold same_place, colA, unit_y, Ray_new; cbn [ry rth rz]. now rewrite EA, EC, EL. }
  { unfold same_place, colB, unit_th, Ray_new; cbn [ry rth rz]. now rewrite EB, EDD, EL. }
  destruct const_ok as (F0 & V0 & F1 & V1).
  pose proof (ideals_near l 0 unit_y (xray unit_y) (size0 unit_y) Hn Ht (near_start unit_y F1 F0 F0) Hy) as N1.
  pose proof (ideals_near l 0 unit_th (xray unit_th) (size0 unit_th) Hn Ht (near_start unit_th F0 F1 F0) Hth) as N2.
  apply (same_near _ _ _ _ _ R1) in N1; [|now rewrite ideals_unblocked]. apply (same_near _ _ _ _ _ R2) in N2; [|now rewrite ideals_unblocked].
  destruct (ideals_exact l (xray unit_y) _ _ _ Ht (XF_fin _ F1) (XF_fin _ F0) (XF_fin _ F0)) as (Iy & It & Iz).
  destruct (ideals_exact l (xray unit_th) _ _ _ Ht (XF_fin _ F0) (XF_fin _ F1) (XF_fin _ F0)) as (Jy & Jt & Jz).
  destruct (near_final _ _ _ _ Hn (sizes_big _ _ (size0_big _)) N1) as (y & t & z & E1 & E2 & E3 & G1 & G2 & G3 & K1 & K2 & K3).
  destruct (near_final _ _ _ _ Hn (sizes_big _ _ (size0_big _)) N2) as (y' & t' & z' & E1' & E2' & E3' & G1' & G2' & G3' & K1' & K2' & K3').
  rewrite E1 in Iy. rewrite E2 in It. rewrite E3 in Iz. rewrite E1' in Jy. rewrite E2' in Jt.
  injection Iy as ->. injection It as ->. injection Iz as ->. injection Jy as ->. injection Jt as ->.
  unfold mapp in K1, K2, K1', K2'. cbn [fst snd] in K1, K2, K1', K2'. fold M in K1, K2, K1', K2'.
  assert (FR zero = 0) as W0 by exact V0. assert (FR 1%float = 1) as W1 by exact V1. rewrite W0, W1 in K1, K2, K1', K2'. rewrite W0 in K3.
  unfold m. rewrite Em. cbn [copy_attrs mA mB mC mD mL]. cbn [colA colB ry rth rz] in *.
  replace (A_ M * 1 + B_ M * 0) with (A_ M) in K1 by ring. replace (C_ M * 1 + D_ M * 0) with (C_ M) in K2 by ring.
  replace (A_ M * 0 + B_ M * 1) with (B_ M) in K1' by ring. replace (C_ M * 0 + D_ M * 1) with (D_ M) in K2' by ring.
  replace (rlength l + 0) with (rlength l) in K3 by ring.
  split; [repeat split; assumption|]. repeat (split; [assumption|]). assumption.
Qed.

(** ** The matrix of a group and a trace through it *)
Definition drop_kind (km : @kind float * @mat float) : @kind float * @mat float := (KMatrix, snd km).
Lemma flat_leaves es : Forall is_leaf es -> members es = map drop_kind (flat_map leaves es).
Proof.
  induction es as [|e es IH]; intros H; [reflexivity|]. inversion H as [|? ? H1 H2]; subst. destruct e as [k m|]; [|contradiction].
  cbn [members map flat_map leaves app]. unfold members in IH. now rewrite IH.
Qed.
Lemma drop_sizes l : forall s, sizes (map drop_kind l) s = sizes l s.
Proof. induction l; intros; cbn; auto. Qed.
Lemma drop_rmat l : map rmat (map drop_kind l) = map rmat l.
Proof. rewrite map_map. reflexivity. Qed.
Lemma drop_tame l : Forall tame l -> Forall tame (map drop_kind l).
Proof. intros H. apply Forall_map. eapply Forall_impl; [|exact H]. intros km [A B C D L di na K]. now constructor. Qed.
Lemma drop_modest l r : modest l r -> modest (map drop_kind l) r.
Proof.
  intros H pre post E. apply map_eq_app in E as (p1 & p2' & -> & <- & <-). rewrite drop_sizes. exact (H p1 p2' eq_refl).
Qed.
Theorem matrix_against_trace (g : @grp float) (r : @ray float) : let l := leaves (grp_elem g) in let n := List.length l in
  in_step g -> gelems g <> [] -> Forall is_leaf (gelems g) ->
  Forall tame l -> INR n <= p2 50 -> modest l unit_y -> modest l unit_th -> modest l r ->
  ffin (ry r) -> ffin (rth r) -> ffin (rz r) ->
  let f := traceThrough (grp_elem g) r in let m := gmat g in
  let s := sizes l (size0 unit_y) in let s' := sizes l (size0 unit_th) in let sr := sizes l (size0 r) in
  rblk f = false ->
  Rabs (FR (ry f) - (FR (mA m) * FR (ry r) + FR (mB m) * FR (rth r))) <=
    part n * (szy sr + szy s * Rabs (FR (ry r)) + szy s' * Rabs (FR (rth r))) /\
  Rabs (FR (rth f) - (FR (mC m) * FR (ry r) + FR (mD m) * FR (rth r))) <=
    part n * (szt sr + szt s * Rabs (FR (ry r)) + szt s' * Rabs (FR (rth r))).
Proof.
  intros l n Hg Hne Hl Ht Hn M1 M2 M3 F1 F2 F3 f m s s' sr B.
  assert (members (gelems g) = map drop_kind l) as EL by (now apply flat_leaves).
  pose proof (group_matrix_near g Hg Hne) as GM. cbn zeta in GM. rewrite EL, drop_rmat, !drop_sizes, map_length in GM.
  destruct (GM (drop_tame _ Ht) Hn (drop_modest _ _ M1) (drop_modest _ _ M2)) as (_ & GA & GC & GB & GD & _). fold n m s s' in GA, GB, GC, GD.
  destruct (arrived_product (grp_elem g) r Ht F1 F2 F3 Hn M3 B) as (_ & _ & _ & K1 & K2 & _).
  fold l in K1, K2. fold f n sr in K1, K2. set (M := mprod (map rmat l)) in *. unfold mapp in *. cbn [fst snd] in *.
  assert (forall p a b c d u v q s1 s2,
    Rabs (p - (c * u + d * v)) <= part n * q -> Rabs (a - c) <= part n * s1 -> Rabs (b - d) <= part n * s2 ->
    Rabs (p - (a * u + b * v)) <= part n * (q + s1 * Rabs u + s2 * Rabs v)) as G.
  { intros p a b c d u v q s1 s2 X1 X2 X3. replace (p - (a * u + b * v)) with ((p - (c * u + d * v)) + (- ((a - c) * u) + - ((b - d) * v))) by ring.
    eapply Rle_trans; [apply Rabs_triang|]. pose proof (Rabs_triang (- ((a - c) * u)) (- ((b - d) * v))) as T. rewrite !Rabs_Ropp, !Rabs_mult in T.
    pose proof (Rmult_le_compat_r _ _ _ (Rabs_pos u) X2). pose proof (Rmult_le_compat_r _ _ _ (Rabs_pos v) X3). lra. }
  split; eapply G; eauto.
Qed.
