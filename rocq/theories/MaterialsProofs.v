(** Proofs about the glass catalogue. *)
From Coq Require Import ZArith QArith Qreals Reals Lra List Bool String Ascii Lia.
From Coq Require RMicromega.
From Verif Require Import Base Nums Materials.
Import ListNotations.
Open Scope list_scope.
Open Scope Q_scope.
Open Scope R_scope.

(** ** Indices *)
Lemma ndec_xr m k : (0 <= k)%Z -> (ndec m k : XR) = Fin (IZR m / IZR (10 ^ k)).
Proof.
  intros H. unfold ndec. cbn. destruct (Req_EM_T (IZR (10 ^ k)) 0) as [E|]; [|reflexivity].
  apply eq_IZR in E. pose proof (Z.pow_pos_nonneg 10 k ltac:(lia) H). lia.
Qed.

(** the exact value of a Sellmeier sum *)
Fixpoint sellR (l : list (R * R)) (x2 : R) : R :=
  match l with
  | [] => 0
  | (B, C) :: t => B / (1 - C / x2) + sellR t x2
  end.
Definition toX (l : list (R * R)) : list (XR * XR) := map (fun p => (Fin (fst p), Fin (snd p))) l.
Fixpoint sellF (f : R -> R) (l : list (R * R)) : R :=
  match l with
  | [] => 0
  | (B, C) :: t => B / (1 - f C) + sellF f t
  end.
Lemma sell_sum_xr f (q : XR -> res XR) :
  (forall C, q (Fin C) = Ok (Fin (f C))) ->
  forall l acc, Forall (fun p => 1 - f (snd p) <> 0) l ->
  sell_sum (Fin acc) (toX l) q = Ok (Fin (acc + sellF f l)).
Proof.
  intros Hq. induction l as [|[B C] t IH]; intros acc H.
  - cbn. f_equal. f_equal. lra.
  - inversion H; subst. cbn [snd] in *. cbn. rewrite Hq. cbn.
    unfold pdiv. cbn. rewrite Reqb_neq by lra. cbn.
    destruct (Req_EM_T (1 + - f C) 0); [lra|]. cbn. rewrite IH by auto.
    f_equal. f_equal. unfold Rminus. lra.
Qed.

Lemma sq_xr x : sq (Fin x) = Fin (x * x).
Proof. reflexivity. Qed.

Lemma div_mul a b : b <> 0 -> a / b * b = a.
Proof. intros; field; auto. Qed.
Lemma small_term B C x2 : 0 < B -> - (2/1000) <= C <= 75/1000 -> 784/10000 <= x2 ->
  1 - C / x2 <> 0 /\ 97/100 * B <= B / (1 - C / x2).
Proof.
  intros HB HC Hx.
  assert (Hx0 : 0 < x2) by lra.
  assert (Hq : C / x2 < 1).
  { apply (Rmult_lt_reg_r x2); [lra|]. rewrite div_mul by lra. lra. }
  assert (Hq' : - (30/1000) <= C / x2).
  { apply (Rmult_le_reg_r x2); [lra|]. rewrite div_mul by lra. nra. }
  split; [lra|]. apply (Rmult_le_reg_r (1 - C / x2)); [lra|].
  rewrite div_mul by lra. nra.
Qed.
Lemma large_term B C x2 : 0 < B -> 49 < C -> 0 < x2 <= 49 ->
  1 - C / x2 <> 0 /\ - (49 * B / (C - 49)) <= B / (1 - C / x2).
Proof.
  intros HB HC Hx.
  assert (Hq : 1 < C / x2).
  { apply (Rmult_lt_reg_r x2); [lra|]. rewrite div_mul by lra. lra. }
  split; [lra|].
  replace (B / (1 - C / x2)) with (- (x2 * B / (C - x2))) by (field; lra).
  apply Ropp_le_contravar.
  apply (Rmult_le_reg_r ((C - x2) * (C - 49))); [nra|].
  replace (x2 * B / (C - x2) * ((C - x2) * (C - 49))) with (x2 * B * (C - 49)) by (field; lra).
  replace (49 * B / (C - 49) * ((C - x2) * (C - 49))) with (49 * B * (C - x2)) by (field; lra).
  assert (0 <= B * C * (49 - x2)) by (apply Rmult_le_pos; nra). lra.
Qed.

(** A glass with two resonances below 0.28 microns and one above 7 microns, written in any order *)
Definition transparent (l : list (R * R)) : Prop :=
  exists B1 C1 B2 C2 B3 C3,
    (l = [(B1, C1); (B2, C2); (B3, C3)] \/ l = [(B1, C1); (B3, C3); (B2, C2)]) /\
    0 < B1 /\ 0 < B2 /\ 0 < B3 /\
    - (2/1000) <= C1 <= 75/1000 /\ - (2/1000) <= C2 <= 75/1000 /\ 49 < C3 /\
    49 * B3 <= 97/100 * (B1 + B2) * (C3 - 49).
Lemma transparent_ok l x2 : transparent l -> 784/10000 <= x2 <= 49 ->
  Forall (fun p => 1 - snd p / x2 <> 0) l /\ 1 <= 1 + sellR l x2.
Proof.
  intros (B1 & C1 & B2 & C2 & B3 & C3 & Hl & H1 & H2 & H3 & H4 & H5 & H6 & H7) Hx.
  destruct (small_term B1 C1 x2) as [N1 L1]; try lra.
  destruct (small_term B2 C2 x2) as [N2 L2]; try lra.
  destruct (large_term B3 C3 x2) as [N3 L3]; try lra.
  assert (49 * B3 / (C3 - 49) <= 97/100 * (B1 + B2)).
  { apply (Rmult_le_reg_r (C3 - 49)); [lra|]. rewrite div_mul by lra. lra. }
  destruct Hl as [-> | ->]; (split; [repeat (constructor; [assumption|]); constructor|cbn; lra]).
Qed.

(** wavelengths that pass the range check *)
Lemma in_range d w : 1/100 <= w <= 10 ->
  index_of d (Fin w) =
  match d with
  | DAir => Ok (PReal c1)
  | _ => r <- radicand d (Fin w);; Ok (if nltb r c0 then PComplex else PReal (nsqrt r))
  end.
Proof.
  intros H. unfold index_of. rewrite ndec_xr by lia. cbn.
  rewrite (proj2 (Rltb_false 10 w)) by lra. rewrite (proj2 (Rltb_false w _)) by lra. reflexivity.
Qed.
(** a real index of at least one *)
Definition good_index (d : dispersion XR) (w : R) : Prop :=
  exists n, index_of d (Fin w) = Ok (PReal (Fin n)) /\ 1 <= n.
Lemma good_radicand d w r : 1/100 <= w <= 10 -> radicand d (Fin w) = Ok (Fin r) -> 1 <= r ->
  good_index d w.
Proof.
  intros Hw Hr H1. unfold good_index. rewrite in_range by lra.
  destruct d; [exists 1; split; [reflexivity|lra]| | |];
  (rewrite Hr; cbn; rewrite (proj2 (Rltb_false r 0)) by lra;
   destruct (Rlt_dec r 0); [lra|]; exists (sqrt r); split; [reflexivity|];
   rewrite <- sqrt_1; apply sqrt_le_1; lra).
Qed.
Lemma sellF_sellR l x2 : sellF (fun C => C / x2) l = sellR l x2.
Proof. induction l as [|[B C] t IH]; cbn; [reflexivity|]. now rewrite IH. Qed.
Lemma good_sell l w : transparent l -> 28/100 <= w <= 7 -> good_index (DSell (toX l)) w.
Proof.
  intros Hl Hw. assert (Hx : 784/10000 <= w * w <= 49) by nra.
  destruct (transparent_ok l (w * w) Hl Hx) as [H1 H2].
  eapply good_radicand; [lra| |rewrite <- sellF_sellR in H2; exact H2]. cbn [radicand].
  change (@c1 XR _) with (Fin 1) at 1. apply sell_sum_xr; [|exact H1].
  intros C. unfold pdiv. cbn. rewrite Reqb_neq by nra. cbn.
  destruct (Req_EM_T (w * w) 0); [nra|reflexivity].
Qed.
Definition squared (l : list (R * R)) : list (R * R) := map (fun p => (fst p, snd p * snd p)) l.
Lemma good_sellsq l w : transparent (squared l) -> 28/100 <= w <= 7 -> good_index (DSellSq (toX l)) w.
Proof.
  intros Hl Hw. assert (Hx : 784/10000 <= w * w <= 49) by nra.
  destruct (transparent_ok _ (w * w) Hl Hx) as [H1 H2].
  assert (E : forall C, C / w * (C / w) = C * C / (w * w)) by (intros; field; lra).
  assert (E2 : sellR (squared l) (w * w) = sellF (fun C => C / w * (C / w)) l).
  { clear - E. induction l as [|[B C] t IH]; [reflexivity|].
    cbn [squared map sellR sellF fst snd]. fold (squared t). now rewrite E, IH. }
  eapply good_radicand; [lra| |rewrite E2 in H2; exact H2]. cbn [radicand].
  change (@c1 XR _) with (Fin 1) at 1. apply sell_sum_xr.
  - intros C. unfold pdiv. cbn. rewrite Reqb_neq by lra. cbn.
    destruct (Req_EM_T w 0); [lra|reflexivity].
  - clear - H1 E. induction l as [|[B C] t IH]; constructor; cbn in *; inversion H1; subst; auto.
    now rewrite E.
Qed.

(** polynomials that never come near zero *)
Lemma good_poly a0 a1 a2 a3 a4 a5 w : 1/100 <= w <= 10 ->
  1 <= a0 - 100 * a1 -> 0 <= a1 -> 0 <= a2 -> 0 <= a3 -> 0 < a5 -> a4 * a4 <= 4 * a3 * a5 ->
  good_index (DPoly (Fin a0) (Fin a1) (Fin a2) (Fin a3) (Fin a4) (Fin a5)) w.
Proof.
  intros Hw H0 H1 H2 H3 H5 Hd.
  set (u := 1 / (w * w)).
  assert (Hu : 0 < u) by (apply Rdiv_lt_0_compat; nra).
  apply (good_radicand _ w
    (a0 - a1 * (w * w) + a2 * u + a3 * (u * u) - a4 * (u * u * u) + a5 * (u * u * u * u))); [lra| |].
  - cbn. destruct (Req_EM_T (w * w) 0); [nra|]. cbn. unfold Rminus. reflexivity.
  - assert (0 <= a3 - a4 * u + a5 * (u * u)).
    { apply (Rmult_le_reg_l (4 * a5)); [lra|].
      replace (4 * a5 * (a3 - a4 * u + a5 * (u * u)))
        with ((2 * a5 * u - a4) * (2 * a5 * u - a4) + (4 * a3 * a5 - a4 * a4)) by ring.
      pose proof (Rle_0_sqr (2 * a5 * u - a4)). unfold Rsqr in *. lra. }
    assert (0 <= u * u * (a3 - a4 * u + a5 * (u * u))) by (apply Rmult_le_pos; nra).
    assert (a1 * (w * w) <= a1 * 100) by (apply Rmult_le_compat_l; nra).
    assert (0 <= a2 * u) by (apply Rmult_le_pos; lra).
    replace (a0 - a1 * (w * w) + a2 * u + a3 * (u * u) - a4 * (u * u * u) + a5 * (u * u * u * u))
      with (a0 - a1 * (w * w) + a2 * u + u * u * (a3 - a4 * u + a5 * (u * u))) by ring. lra.
Qed.

(** *** The whole catalogue *)
(** exact checks on decimal literals *)
Definition qlit (p : Z * Z) : Q := fst p # Z.to_pos (10 ^ snd p).
Definition litR (p : Z * Z) : R := IZR (fst p) / IZR (10 ^ snd p).
Lemma Q2R_lit p : (0 <= snd p)%Z -> Q2R (qlit p) = litR p.
Proof.
  intros H. unfold Q2R, qlit, litR, Rdiv. cbn [Qnum Qden]. rewrite Z2Pos.id; [reflexivity|].
  apply Z.pow_pos_nonneg; lia.
Qed.
Lemma lit_xr p : (0 <= snd p)%Z -> (lit p : XR) = Fin (litR p).
Proof. intros H. unfold lit. now rewrite ndec_xr. Qed.

Definition qlt (a b : Q) : bool := negb (Qle_bool b a).
Lemma qle_R a b : Qle_bool a b = true -> Q2R a <= Q2R b.
Proof. intros H. apply Qle_Rle. now apply Qle_bool_iff. Qed.
Lemma qlt_R a b : qlt a b = true -> Q2R a < Q2R b.
Proof.
  intros H. apply Qlt_Rlt. apply Qnot_le_lt. intros E. apply Qle_bool_iff in E.
  unfold qlt in H. now rewrite E in H.
Qed.
Definition qsmall (C : Q) : bool := Qle_bool (- (2 # 1000)) C && Qle_bool C (75 # 1000).
Definition qtransparent3 (B1 C1 B2 C2 B3 C3 : Q) : bool :=
  qlt 0 B1 && qlt 0 B2 && qlt 0 B3 && qsmall C1 && qsmall C2 && qlt (49 # 1) C3 &&
  Qle_bool ((49 # 1) * B3) ((97 # 100) * (B1 + B2) * (C3 - (49 # 1))).
Definition qtransparent (l : list (Q * Q)) : bool :=
  match l with
  | [(B1, C1); (B2, C2); (B3, C3)] =>
      qtransparent3 B1 C1 B2 C2 B3 C3 || qtransparent3 B1 C1 B3 C3 B2 C2
  | _ => false
  end.
Definition toR (l : list (Q * Q)) : list (R * R) := map (fun p => (Q2R (fst p), Q2R (snd p))) l.
Lemma Q2R_pos a b : Q2R (a # b) = IZR a / IZR (Zpos b).
Proof. reflexivity. Qed.
Lemma qtransparent3_ok B1 C1 B2 C2 B3 C3 : qtransparent3 B1 C1 B2 C2 B3 C3 = true ->
  0 < Q2R B1 /\ 0 < Q2R B2 /\ 0 < Q2R B3 /\
  - (2/1000) <= Q2R C1 <= 75/1000 /\ - (2/1000) <= Q2R C2 <= 75/1000 /\ 49 < Q2R C3 /\
  49 * Q2R B3 <= 97/100 * (Q2R B1 + Q2R B2) * (Q2R C3 - 49).
Proof.
  unfold qtransparent3, qsmall. rewrite !andb_true_iff.
  intros ((((((H1 & H2) & H3) & (H4 & H4')) & (H5 & H5')) & H6) & H7).
  apply qlt_R in H1, H2, H3, H6. apply qle_R in H4, H4', H5, H5', H7.
  rewrite RMicromega.Q2R_0 in H1, H2, H3.
  rewrite Q2R_opp in H4, H5. rewrite !Q2R_mult, Q2R_plus, Q2R_minus in H7.
  rewrite !Q2R_pos in *. lra.
Qed.
Lemma qtransparent_ok l : qtransparent l = true -> transparent (toR l).
Proof.
  intros H. destruct l as [|[B1 C1] [|[B2 C2] [|[B3 C3] [|? ?]]]]; try discriminate.
  cbn [qtransparent] in H. apply orb_true_iff in H as [H|H]; apply qtransparent3_ok in H.
  - exists (Q2R B1), (Q2R C1), (Q2R B2), (Q2R C2), (Q2R B3), (Q2R C3). split; [now left|exact H].
  - exists (Q2R B1), (Q2R C1), (Q2R B3), (Q2R C3), (Q2R B2), (Q2R C2). split; [now right|exact H].
Qed.

Definition nat_exp (p : Z * Z) : bool := Z.leb 0 (snd p).
Definition pairs_exp (l : list ((Z * Z) * (Z * Z))) : bool :=
  forallb (fun p => nat_exp (fst p) && nat_exp (snd p)) l.
Definition qpairs (l : list ((Z * Z) * (Z * Z))) : list (Q * Q) :=
  map (fun p => (qlit (fst p), qlit (snd p))) l.
Definition qsquared (l : list (Q * Q)) : list (Q * Q) := map (fun p => (fst p, (snd p * snd p)%Q)) l.
Definition qpoly (a0 a1 a2 a3 a4 a5 : Q) : bool :=
  Qle_bool 1 (a0 - (100 # 1) * a1) && Qle_bool 0 a1 && Qle_bool 0 a2 && Qle_bool 0 a3 && qlt 0 a5 &&
  Qle_bool (a4 * a4) ((4 # 1) * a3 * a5).
Definition checked (d : dispersion (Z * Z)) : bool :=
  match d with
  | DAir => true
  | DSell l => pairs_exp l && qtransparent (qpairs l)
  | DSellSq l => pairs_exp l && qtransparent (qsquared (qpairs l))
  | DPoly a0 a1 a2 a3 a4 a5 =>
      forallb nat_exp [a0; a1; a2; a3; a4; a5] &&
      qpoly (qlit a0) (qlit a1) (qlit a2) (qlit a3) (qlit a4) (qlit a5)
  end.

Lemma pairs_lit l : pairs_exp l = true ->
  map (fun p => (lit (fst p), lit (snd p) : XR)) l = toX (toR (qpairs l)).
Proof.
  induction l as [|[p q] t IH]; intros H; [reflexivity|].
  cbn in H. apply andb_true_iff in H as [H1 H2]. apply andb_true_iff in H1 as [Hp Hq].
  unfold nat_exp in *. cbn [map toX toR qpairs fst snd].
  rewrite !Q2R_lit, !lit_xr by lia. f_equal. apply IH. exact H2.
Qed.
Lemma toR_squared l : toR (qsquared l) = squared (toR l).
Proof.
  unfold toR, qsquared, squared. rewrite !map_map. apply map_ext. intros [B C]. cbn.
  now rewrite Q2R_mult.
Qed.
(** glasses given by a polynomial, and air *)
Definition polynomial {T} (d : dispersion T) : bool :=
  match d with DAir | DPoly _ _ _ _ _ _ => true | _ => false end.
Lemma checked_good d w : checked d = true ->
  28/100 <= w <= 7 \/ (polynomial d = true /\ 1/100 <= w <= 10) -> good_index (map_disp lit d) w.
Proof.
  intros H Hw. destruct d as [|l|l|a0 a1 a2 a3 a4 a5]; cbn [checked map_disp] in *.
  - exists 1. rewrite in_range by (destruct Hw; lra). split; [reflexivity|lra].
  - apply andb_true_iff in H as [H1 H2]. rewrite pairs_lit by auto.
    destruct Hw as [Hw|[F _]]; [|discriminate]. apply good_sell; auto. now apply qtransparent_ok.
  - apply andb_true_iff in H as [H1 H2]. rewrite pairs_lit by auto.
    destruct Hw as [Hw|[F _]]; [|discriminate]. apply good_sellsq; auto.
    rewrite <- toR_squared. now apply qtransparent_ok.
  - apply andb_true_iff in H as [H1 H2]. cbn in H1. rewrite !andb_true_iff in H1. unfold nat_exp in H1.
    unfold qpoly in H2. rewrite !andb_true_iff in H2.
    destruct H2 as (((((P0 & P1) & P2) & P3) & P5) & P4).
    rewrite !lit_xr, <- !Q2R_lit by lia.
    apply qlt_R in P5. apply qle_R in P0, P1, P2, P3, P4.
    rewrite RMicromega.Q2R_0 in *. rewrite RMicromega.Q2R_1, Q2R_minus in P0.
    rewrite !Q2R_mult, ?Q2R_pos in *. apply good_poly; lra.
Qed.

Lemma catalogue_checked : forallb (fun p => checked (snd p)) catalogue_data = true.
Proof. vm_compute. reflexivity. Qed.
Lemma in_catalogue {T} {N : Num T} name d : In (name, d) catalogue ->
  exists d0, d = map_disp lit d0 /\ In (name, d0) catalogue_data.
Proof.
  unfold catalogue. rewrite in_map_iff. intros ([n0 d0] & E & H). cbn in E.
  injection E as -> <-. eauto.
Qed.
Lemma polynomial_map {A B} (f : A -> B) d : polynomial (map_disp f d) = polynomial d.
Proof. now destruct d. Qed.
Lemma catalogue_good name d w : In (name, d) (@catalogue XR _) ->
  28/100 <= w <= 7 \/ (polynomial d = true /\ 1/100 <= w <= 10) -> good_index d w.
Proof.
  intros H Hw. destruct (in_catalogue _ _ H) as (d0 & -> & H0). rewrite polynomial_map in Hw.
  apply checked_good; [|exact Hw].
  pose proof catalogue_checked as C. rewrite forallb_forall in C. exact (C _ H0).
Qed.

(** wavelengths outside [0.01, 10] raise ValueError *)
Lemma out_of_range d w : w < 1/100 \/ 10 < w -> index_of d (Fin w) = Err ValueError.
Proof.
  intros H. unfold index_of. rewrite ndec_xr by lia. cbn.
  destruct H.
  - rewrite (proj2 (Rltb_true w _)) by lra. now rewrite orb_true_r.
  - now rewrite (proj2 (Rltb_true 10 w)) by lra.
Qed.
