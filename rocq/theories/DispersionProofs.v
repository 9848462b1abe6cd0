(** Glasses bend blue light more than red light. *)
From Coq Require Import ZArith QArith Qreals Reals Lra List Bool String Ascii Lia.
From Coq Require RMicromega.
From Verif Require Import Base Nums Materials MaterialsProofs.
Import ListNotations.
Open Scope list_scope.
Open Scope Q_scope.
Open Scope R_scope.

Lemma term_diff B C x y : x <> 0 -> y <> 0 -> x - C <> 0 -> y - C <> 0 ->
  B / (1 - C / x) - B / (1 - C / y) = (y - x) * (B * C * / ((x - C) * (y - C))).
Proof.
  intros. field. repeat split; auto.
Qed.
Lemma inv_prod_pos a b : 0 < a -> 0 < b -> 0 < / (a * b).
Proof. intros. apply Rinv_0_lt_compat. nra. Qed.
Lemma pair_sorted B1 C1 B2 C2 x y : 0 < B1 -> 0 < B2 -> C1 <= C2 -> C2 <= 75/1000 ->
  784/10000 <= x -> x <= y -> 0 <= B1 * C1 + B2 * C2 ->
  B1 / (1 - C1 / y) + B2 / (1 - C2 / y) <= B1 / (1 - C1 / x) + B2 / (1 - C2 / x).
Proof.
  intros H1 H2 HC HC2 Hx Hy HB.
  pose proof (term_diff B1 C1 x y ltac:(lra) ltac:(lra) ltac:(lra) ltac:(lra)) as E1.
  pose proof (term_diff B2 C2 x y ltac:(lra) ltac:(lra) ltac:(lra) ltac:(lra)) as E2.
  pose proof (inv_prod_pos (x - C1) (y - C1) ltac:(lra) ltac:(lra)) as K1.
  pose proof (inv_prod_pos (x - C2) (y - C2) ltac:(lra) ltac:(lra)) as K2.
  assert (K : / ((x - C1) * (y - C1)) <= / ((x - C2) * (y - C2))).
  { apply Rinv_le_contravar; nra. }
  set (k1 := / ((x - C1) * (y - C1))) in *. set (k2 := / ((x - C2) * (y - C2))) in *.
  assert (S : 0 <= B1 * C1 * k1 + B2 * C2 * k2).
  { destruct (Rle_dec 0 C1).
    - assert (0 <= B1 * C1) by nra. assert (0 <= B2 * C2) by nra. nra.
    - assert (B1 * C1 < 0) by nra. assert (B1 * C1 * k2 <= B1 * C1 * k1) by nra. nra. }
  assert (0 <= (y - x) * (B1 * C1 * k1 + B2 * C2 * k2)) by (apply Rmult_le_pos; lra).
  lra.
Qed.
Lemma pair_decreasing B1 C1 B2 C2 x y : 0 < B1 -> 0 < B2 -> C1 <= 75/1000 -> C2 <= 75/1000 ->
  784/10000 <= x -> x <= y -> 0 <= B1 * C1 + B2 * C2 ->
  B1 / (1 - C1 / y) + B2 / (1 - C2 / y) <= B1 / (1 - C1 / x) + B2 / (1 - C2 / x).
Proof.
  intros. destruct (Rle_dec C1 C2).
  - now apply pair_sorted.
  - rewrite (Rplus_comm (B1 / (1 - C1 / y))), (Rplus_comm (B1 / (1 - C1 / x))). apply pair_sorted; lra.
Qed.
Lemma far_decreasing B C x y : 0 < B -> 49 < C -> 0 < x -> x < y -> y <= 49 ->
  B / (1 - C / y) < B / (1 - C / x).
Proof.
  intros HB HC Hx Hxy Hy.
  pose proof (term_diff B C x y ltac:(lra) ltac:(lra) ltac:(lra) ltac:(lra)) as E.
  assert (0 < / ((x - C) * (y - C))) by (apply Rinv_0_lt_compat; nra).
  assert (0 < (y - x) * (B * C * / ((x - C) * (y - C)))).
  { apply Rmult_lt_0_compat; [lra|]. apply Rmult_lt_0_compat; [nra|auto]. }
  lra.
Qed.

(** [transparent] glasses whose two short resonances together pull the right way *)
Definition normal (l : list (R * R)) : Prop :=
  exists B1 C1 B2 C2 B3 C3,
    (l = [(B1, C1); (B2, C2); (B3, C3)] \/ l = [(B1, C1); (B3, C3); (B2, C2)]) /\
    0 < B1 /\ 0 < B2 /\ 0 < B3 /\
    C1 <= 75/1000 /\ C2 <= 75/1000 /\ 49 < C3 /\ 0 <= B1 * C1 + B2 * C2.
Lemma sell_decreasing l x y : normal l -> 784/10000 <= x -> x < y -> y <= 49 -> sellR l y < sellR l x.
Proof.
  intros (B1 & C1 & B2 & C2 & B3 & C3 & Hl & H1 & H2 & H3 & H4 & H5 & H6 & H7) Hx Hxy Hy.
  pose proof (pair_decreasing B1 C1 B2 C2 x y H1 H2 H4 H5 Hx ltac:(lra) H7).
  pose proof (far_decreasing B3 C3 x y H3 H6 ltac:(lra) Hxy Hy).
  destruct Hl as [-> | ->]; cbn; lra.
Qed.

(** the index where the radicand is at least 1 *)
Lemma index_value d w r : 1/100 <= w <= 10 -> d <> DAir -> radicand d (Fin w) = Ok (Fin r) -> 1 <= r ->
  index_of d (Fin w) = Ok (PReal (Fin (R_sqrt.sqrt r))).
Proof.
  intros Hw Hd Hr H1. rewrite in_range by lra. destruct d; [congruence| | |];
  (rewrite Hr; cbn; rewrite (proj2 (Rltb_false r 0)) by lra; destruct (Rlt_dec r 0); [lra|]; reflexivity).
Qed.

(** at shorter wavelengths the index is larger *)
Definition bends_blue_more (d : dispersion XR) (lo hi : R) : Prop :=
  forall w1 w2, lo <= w1 -> w1 < w2 -> w2 <= hi ->
  exists n1 n2, index_of d (Fin w1) = Ok (PReal (Fin n1)) /\ index_of d (Fin w2) = Ok (PReal (Fin n2)) /\
    1 <= n2 /\ n2 < n1.
Lemma by_radicand d lo hi (r : R -> R) : 1/100 <= lo -> hi <= 10 -> d <> DAir ->
  (forall w, lo <= w <= hi -> radicand d (Fin w) = Ok (Fin (r w)) /\ 1 <= r w) ->
  (forall w1 w2, lo <= w1 -> w1 < w2 -> w2 <= hi -> r w2 < r w1) -> bends_blue_more d lo hi.
Proof.
  intros Hlo Hhi Hd Hr Hdec w1 w2 H1 H2 H3.
  destruct (Hr w1) as [A1 B1]; [lra|]. destruct (Hr w2) as [A2 B2]; [lra|].
  exists (R_sqrt.sqrt (r w1)), (R_sqrt.sqrt (r w2)).
  split; [apply index_value; auto; lra|]. split; [apply index_value; auto; lra|].
  split; [rewrite <- sqrt_1; apply sqrt_le_1; lra|]. apply sqrt_lt_1; [lra|lra|now apply Hdec].
Qed.
Lemma blue_sell l : transparent l -> normal l -> bends_blue_more (DSell (toX l)) (28/100) 7.
Proof.
  intros Ht Hn. apply (by_radicand _ _ _ (fun w => 1 + sellR l (w * w))); try lra; [discriminate| |].
  - intros w Hw. assert (Hx : 784/10000 <= w * w <= 49) by nra.
    destruct (transparent_ok l (w * w) Ht Hx) as [H1 H2]. split; [|exact H2].
    rewrite <- sellF_sellR. cbn [radicand]. change (@c1 XR _) with (Fin 1) at 1. apply sell_sum_xr; [|exact H1].
    intros C. unfold pdiv. cbn. rewrite Reqb_neq by nra. cbn.
    destruct (Req_EM_T (w * w) 0); [nra|]. reflexivity.
  - intros w1 w2 A B C. pose proof (sell_decreasing l (w1 * w1) (w2 * w2) Hn ltac:(nra) ltac:(nra) ltac:(nra)). lra.
Qed.
Lemma blue_sellsq l : transparent (squared l) -> normal (squared l) ->
  bends_blue_more (DSellSq (toX l)) (28/100) 7.
Proof.
  intros Ht Hn. apply (by_radicand _ _ _ (fun w => 1 + sellR (squared l) (w * w))); try lra; [discriminate| |].
  - intros w Hw. assert (Hx : 784/10000 <= w * w <= 49) by nra.
    destruct (transparent_ok _ (w * w) Ht Hx) as [H1 H2]. split; [|exact H2].
    assert (E : forall C, C / w * (C / w) = C * C / (w * w)) by (intros; field; lra).
    assert (E2 : sellR (squared l) (w * w) = sellF (fun C => C / w * (C / w)) l).
    { clear - E. induction l as [|[B C] t IH]; [reflexivity|]. cbn. rewrite E. f_equal. exact IH. }
    rewrite E2. cbn [radicand]. change (@c1 XR _) with (Fin 1) at 1. apply sell_sum_xr.
    + intros C. unfold pdiv. cbn. rewrite Reqb_neq by lra. cbn.
      destruct (Req_EM_T w 0); [lra|]. reflexivity.
    + clear - H1 E. induction l as [|[B C] t IH]; constructor; cbn in *; inversion H1; subst; auto.
      now rewrite E.
  - intros w1 w2 A B C. pose proof (sell_decreasing _ (w1 * w1) (w2 * w2) Hn ltac:(nra) ltac:(nra) ltac:(nra)). lra.
Qed.

Lemma poly_increasing a2 a3 a4 a5 u v : 0 <= a2 -> 0 <= a3 -> 0 <= a4 -> 0 < a5 ->
  a4 * a4 <= 2 * a3 * a5 -> 0 < v -> v < u ->
  a2 * v + a3 * (v * v) - a4 * (v * v * v) + a5 * (v * v * v * v) <=
  a2 * u + a3 * (u * u) - a4 * (u * u * u) + a5 * (u * u * u * u).
Proof.
  intros H2 H3 H4 H5 Hd Hv Hu.
  set (s := u + v).
  assert (Q : 0 <= a3 - a4 * s + a5 * (s * s / 2)).
  { apply (Rmult_le_reg_l (2 * a5)); [lra|].
    replace (2 * a5 * (a3 - a4 * s + a5 * (s * s / 2)))
      with ((a5 * s - a4) * (a5 * s - a4) + (2 * a3 * a5 - a4 * a4)) by field.
    pose proof (Rle_0_sqr (a5 * s - a4)). unfold Rsqr in *. lra. }
  assert (0 <= s * (a3 - a4 * s + a5 * (s * s / 2))) by (apply Rmult_le_pos; [unfold s; lra|auto]).
  assert (G1 : a4 * (u * u + u * v + v * v) <= a4 * (s * s)) by (apply Rmult_le_compat_l; [lra|unfold s; nra]).
  assert (G2 : a5 * s * (s * s / 2) <= a5 * s * (u * u + v * v)).
  { apply Rmult_le_compat_l; [apply Rmult_le_pos; unfold s; lra|].
    pose proof (Rle_0_sqr (u - v)). unfold Rsqr, s in *. lra. }
  assert (G : 0 <= a2 + a3 * s - a4 * (u * u + u * v + v * v) + a5 * s * (u * u + v * v)) by lra.
  assert (0 <= (u - v) * (a2 + a3 * s - a4 * (u * u + u * v + v * v) + a5 * s * (u * u + v * v)))
    by (apply Rmult_le_pos; lra).
  unfold s in *. nra.
Qed.
Lemma blue_poly a0 a1 a2 a3 a4 a5 : 1 <= a0 - 100 * a1 -> 0 < a1 -> 0 <= a2 -> 0 <= a3 -> 0 <= a4 ->
  0 < a5 -> a4 * a4 <= 2 * a3 * a5 ->
  bends_blue_more (DPoly (Fin a0) (Fin a1) (Fin a2) (Fin a3) (Fin a4) (Fin a5)) (1/100) 10.
Proof.
  intros H0 H1 H2 H3 H4 H5 Hd.
  apply (by_radicand _ _ _ (fun w => let u := 1 / (w * w) in
    a0 - a1 * (w * w) + a2 * u + a3 * (u * u) - a4 * (u * u * u) + a5 * (u * u * u * u))); try lra; [discriminate| |].
  - intros w Hw. cbn zeta. set (u := 1 / (w * w)).
    assert (Hu : 0 < u) by (apply Rdiv_lt_0_compat; nra). split.
    + cbn. destruct (Req_EM_T (w * w) 0); [nra|]. cbn. unfold Rminus. reflexivity.
    + assert (0 <= a2 * u + a3 * (u * u) - a4 * (u * u * u) + a5 * (u * u * u * u)).
      { assert (0 <= a3 - a4 * u + a5 * (u * u)).
        { apply (Rmult_le_reg_l (4 * a5)); [lra|].
          replace (4 * a5 * (a3 - a4 * u + a5 * (u * u)))
            with ((2 * a5 * u - a4) * (2 * a5 * u - a4) + (4 * a3 * a5 - a4 * a4)) by ring.
          pose proof (Rle_0_sqr (2 * a5 * u - a4)). unfold Rsqr in *. assert (0 <= a3 * a5) by nra. lra. }
        assert (0 <= u * u * (a3 - a4 * u + a5 * (u * u))) by (apply Rmult_le_pos; nra).
        assert (0 <= a2 * u) by (apply Rmult_le_pos; lra).
        replace (a2 * u + a3 * (u * u) - a4 * (u * u * u) + a5 * (u * u * u * u))
          with (a2 * u + u * u * (a3 - a4 * u + a5 * (u * u))) by ring. lra. }
      assert (a1 * (w * w) <= a1 * 100) by (apply Rmult_le_compat_l; nra). lra.
  - intros w1 w2 A B C. cbn zeta.
    assert (Hv : 0 < 1 / (w2 * w2)) by (apply Rdiv_lt_0_compat; nra).
    assert (Hu : 1 / (w2 * w2) < 1 / (w1 * w1)).
    { unfold Rdiv. rewrite !Rmult_1_l. apply Rinv_lt_contravar; [apply Rmult_lt_0_compat; nra|nra]. }
    pose proof (poly_increasing a2 a3 a4 a5 _ _ H2 H3 H4 H5 Hd Hv Hu).
    assert (a1 * (w1 * w1) < a1 * (w2 * w2)) by (apply Rmult_lt_compat_l; nra). lra.
Qed.

(** ** The catalogue *)
Definition qnormal3 (B1 C1 B2 C2 B3 C3 : Q) : bool :=
  qlt 0 B1 && qlt 0 B2 && qlt 0 B3 && Qle_bool C1 (75 # 1000) && Qle_bool C2 (75 # 1000) && qlt (49 # 1) C3 &&
  Qle_bool 0 (B1 * C1 + B2 * C2).
Definition qnormal (l : list (Q * Q)) : bool :=
  match l with
  | [(B1, C1); (B2, C2); (B3, C3)] => qnormal3 B1 C1 B2 C2 B3 C3 || qnormal3 B1 C1 B3 C3 B2 C2
  | _ => false
  end.
Lemma qnormal3_ok B1 C1 B2 C2 B3 C3 : qnormal3 B1 C1 B2 C2 B3 C3 = true ->
  0 < Q2R B1 /\ 0 < Q2R B2 /\ 0 < Q2R B3 /\ Q2R C1 <= 75/1000 /\ Q2R C2 <= 75/1000 /\ 49 < Q2R C3 /\
  0 <= Q2R B1 * Q2R C1 + Q2R B2 * Q2R C2.
Proof.
  unfold qnormal3. rewrite !andb_true_iff. intros ((((((H1 & H2) & H3) & H4) & H5) & H6) & H7).
  apply qlt_R in H1, H2, H3, H6. apply qle_R in H4, H5, H7.
  rewrite RMicromega.Q2R_0 in *. rewrite Q2R_plus, !Q2R_mult in H7. rewrite !Q2R_pos in *. lra.
Qed.
Lemma qnormal_ok l : qnormal l = true -> normal (toR l).
Proof.
  intros H. destruct l as [|[B1 C1] [|[B2 C2] [|[B3 C3] [|? ?]]]]; try discriminate.
  cbn [qnormal] in H. apply orb_true_iff in H as [H|H]; apply qnormal3_ok in H.
  - exists (Q2R B1), (Q2R C1), (Q2R B2), (Q2R C2), (Q2R B3), (Q2R C3). split; [now left|exact H].
  - exists (Q2R B1), (Q2R C1), (Q2R B3), (Q2R C3), (Q2R B2), (Q2R C2). split; [now right|exact H].
Qed.
Definition qpoly_blue (a0 a1 a2 a3 a4 a5 : Q) : bool :=
  Qle_bool 1 (a0 - (100 # 1) * a1) && qlt 0 a1 && Qle_bool 0 a2 && Qle_bool 0 a3 && Qle_bool 0 a4 && qlt 0 a5 &&
  Qle_bool (a4 * a4) ((2 # 1) * a3 * a5).
Definition checked_blue (d : dispersion (Z * Z)) : bool :=
  match d with
  | DAir => true
  | DSell l => pairs_exp l && qtransparent (qpairs l) && qnormal (qpairs l)
  | DSellSq l => pairs_exp l && qtransparent (qsquared (qpairs l)) && qnormal (qsquared (qpairs l))
  | DPoly a0 a1 a2 a3 a4 a5 =>
      forallb nat_exp [a0; a1; a2; a3; a4; a5] &&
      qpoly_blue (qlit a0) (qlit a1) (qlit a2) (qlit a3) (qlit a4) (qlit a5)
  end.
Lemma checked_blue_ok d : checked_blue d = true -> d <> DAir ->
  bends_blue_more (map_disp lit d) (28/100) 7.
Proof.
  intros H Hd. destruct d as [|l|l|a0 a1 a2 a3 a4 a5]; cbn [checked_blue map_disp] in *; [congruence| | |].
  - rewrite !andb_true_iff in H. destruct H as [[H1 H2] H3]. rewrite pairs_lit by auto.
    apply blue_sell; [now apply qtransparent_ok|now apply qnormal_ok].
  - rewrite !andb_true_iff in H. destruct H as [[H1 H2] H3]. rewrite pairs_lit by auto.
    apply blue_sellsq; rewrite <- toR_squared; [now apply qtransparent_ok|now apply qnormal_ok].
  - apply andb_true_iff in H as [H1 H2]. cbn in H1. rewrite !andb_true_iff in H1. unfold nat_exp in H1.
    unfold qpoly_blue in H2. rewrite !andb_true_iff in H2.
    destruct H2 as ((((((P0 & P1) & P2) & P3) & P4) & P5) & P6).
    rewrite !lit_xr, <- !Q2R_lit by lia.
    apply qlt_R in P1, P5. apply qle_R in P0, P2, P3, P4, P6.
    rewrite RMicromega.Q2R_0 in *. rewrite RMicromega.Q2R_1, Q2R_minus in P0.
    rewrite !Q2R_mult, ?Q2R_pos in *.
    intros w1 w2 A B C. apply (blue_poly (Q2R (qlit a0)) (Q2R (qlit a1)) (Q2R (qlit a2)) (Q2R (qlit a3))
      (Q2R (qlit a4)) (Q2R (qlit a5))); lra.
Qed.
Lemma catalogue_checked_blue : forallb (fun p => checked_blue (snd p)) catalogue_data = true.
Proof. vm_compute. reflexivity. Qed.
Lemma catalogue_blue name d : In (name, d) (@catalogue XR _) -> d <> DAir -> bends_blue_more d (28/100) 7.
Proof.
  intros H Hd. destruct (in_catalogue _ _ H) as (d0 & -> & H0).
  apply checked_blue_ok; [|intros ->; now apply Hd].
  pose proof catalogue_checked_blue as C. rewrite forallb_forall in C. exact (C _ H0).
Qed.
