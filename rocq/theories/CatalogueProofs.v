(** Bounds on the refractive indices and on the power of the catalogue lenses, by interval arithmetic. *)
From Coq Require Import ZArith Reals Lra Lia Psatz List Bool String.
From Verif Require Import Base Nums Optics Spec MatrixProofs Materials MaterialsProofs DispersionProofs Zemax Catalogue
  Interval LensProofs.
Import ListNotations.
Open Scope list_scope.
Open Scope R_scope.

(** ** Indices *)
Fixpoint sumR (acc : R) (l : list ((Z * Z) * (Z * Z))) (q : R -> R) : R :=
  match l with
  | [] => acc
  | (B, C) :: t => sumR (acc + litR B / (1 - q (litR C))) t q
  end.
Definition radR (d : dispersion (Z * Z)) (w : R) : R :=
  match d with
  | DAir => 1
  | DSell l => sumR 1 l (fun C => C / (w * w))
  | DSellSq l => sumR 1 l (fun C => C / w * (C / w))
  | DPoly a0 a1 a2 a3 a4 a5 =>
      let u := 1 / (w * w) in
      litR a0 - litR a1 * (w * w) + litR a2 * u + litR a3 * (u * u) - litR a4 * (u * u * u)
      + litR a5 * (u * u * u * u)
  end.
(** the refractive index *)
Definition idxR (d : dispersion (Z * Z)) (w : R) : R := R_sqrt.sqrt (radR d w).

Lemma pdiv_Ok_inv a b v : pdiv (Fin a) (Fin b) = Ok v -> b <> 0 /\ v = Fin (a / b).
Proof.
  intros H. destruct (Req_EM_T b 0) as [->|Hb].
  - rewrite pdiv_zero in H. discriminate.
  - rewrite pdiv_fin in H by auto. split; [auto|congruence].
Qed.
Lemma sell_sum_value l q qR acc v : pairs_exp l = true ->
  (forall C, q (Fin C) = Ok (Fin (qR C))) ->
  sell_sum (Fin acc) (map (fun p => (lit (fst p), lit (snd p) : XR)) l) q = Ok v -> v = Fin (sumR acc l qR).
Proof.
  intros He Hq. revert acc He. induction l as [|[B C] t IH]; intros acc He H.
  - cbn in *. congruence.
  - cbn in He. apply andb_true_iff in He as [H1 H2]. apply andb_true_iff in H1 as [HB HC].
    unfold nat_exp in *. cbn [map sell_sum fst snd] in H.
    rewrite !lit_xr in H by lia. rewrite Hq in H. cbn [bind] in H. change (@c1 XR _) with (Fin 1) in H.
    cbn [nsub NumXR xsub xadd xopp] in H.
    destruct (pdiv (Fin (litR B)) (Fin (1 + - qR (litR C)))) as [x|] eqn:E; [|discriminate].
    apply pdiv_Ok_inv in E as [_ ->]. cbn [bind nadd NumXR xadd] in H. cbn [sumR]. apply IH in H; auto.
Qed.
Lemma radicand_value d w v : checked d = true -> w <> 0 ->
  radicand (map_disp lit d) (Fin w) = Ok v -> v = Fin (radR d w).
Proof.
  intros Hc Hw H. assert (w * w <> 0) by nra.
  destruct d as [|l|l|a0 a1 a2 a3 a4 a5]; cbn [checked map_disp radicand radR] in *.
  - change (@c1 XR _) with (Fin 1) in H. congruence.
  - apply andb_true_iff in Hc as [He _]. change (@c1 XR _) with (Fin 1) in H.
    eapply sell_sum_value in H; eauto. intros C. rewrite sq_xr. now apply pdiv_fin.
  - apply andb_true_iff in Hc as [He _]. change (@c1 XR _) with (Fin 1) in H.
    eapply sell_sum_value in H; eauto. intros C. cbn beta. rewrite pdiv_fin by auto. reflexivity.
  - apply andb_true_iff in Hc as [He _]. cbn in He. rewrite !andb_true_iff in He. unfold nat_exp in He.
    rewrite !lit_xr in H by lia. unfold isq in H. rewrite sq_xr in H. change (@c1 XR _) with (Fin 1) in H.
    cbn [ndiv NumXR] in H. rewrite xdiv_fin in H by auto.
    cbn [nsub nadd nmul NumXR xsub xadd xopp xmul] in H. injection H as <-. f_equal.
Qed.

Lemma data_checked name d : In (name, d) catalogue_data -> checked d = true.
Proof.
  intros H. pose proof catalogue_checked as C. rewrite forallb_forall in C. exact (C _ H).
Qed.
Lemma in_catalogue_lit {T} {N : Num T} name d : In (name, d) catalogue_data ->
  In (name, map_disp lit d) (@catalogue T N).
Proof. intros H. unfold catalogue. apply in_map_iff. exists (name, d). auto. Qed.

Lemma index_value_lit name d w : In (name, d) catalogue_data -> 28/100 <= w <= 7 ->
  index_of (map_disp lit d) (Fin w) = Ok (PReal (Fin (idxR d w))) /\ 1 <= idxR d w.
Proof.
  intros H Hw.
  destruct (catalogue_good name (map_disp lit d) w (in_catalogue_lit _ _ H)) as (n & En & Hn); [now left|].
  assert (E : n = idxR d w); [|subst n; auto].
  rewrite in_range in En by lra. unfold idxR.
  destruct (map_disp lit d) as [|l|l|a0 a1 a2 a3 a4 a5] eqn:Ed.
  - change (@c1 XR _) with (Fin 1) in En. destruct d; try discriminate. cbn.
    rewrite sqrt_1. congruence.
  - rewrite <- Ed in En. destruct (radicand (map_disp lit d) (Fin w)) as [v|] eqn:Er; [|discriminate].
    apply radicand_value in Er as ->; [|eapply data_checked; eauto|lra].
    cbn in En. destruct (Rltb (radR d w) 0); [discriminate|].
    destruct (Rlt_dec (radR d w) 0); congruence.
  - rewrite <- Ed in En. destruct (radicand (map_disp lit d) (Fin w)) as [v|] eqn:Er; [|discriminate].
    apply radicand_value in Er as ->; [|eapply data_checked; eauto|lra].
    cbn in En. destruct (Rltb (radR d w) 0); [discriminate|].
    destruct (Rlt_dec (radR d w) 0); congruence.
  - rewrite <- Ed in En. destruct (radicand (map_disp lit d) (Fin w)) as [v|] eqn:Er; [|discriminate].
    apply radicand_value in Er as ->; [|eapply data_checked; eauto|lra].
    cbn in En. destruct (Rltb (radR d w) 0); [discriminate|].
    destruct (Rlt_dec (radR d w) 0); congruence.
Qed.
Lemma idx_decreasing name d a b : In (name, d) catalogue_data -> 28/100 <= a -> a <= b -> b <= 7 ->
  idxR d b <= idxR d a.
Proof.
  intros H Ha Hab Hb. destruct (Req_dec a b) as [->|Hne]; [lra|].
  destruct d as [|l|l|a0 a1 a2 a3 a4 a5] eqn:Ed; [cbn; unfold idxR; cbn; lra| | |]; rewrite <- Ed in *;
  (destruct (catalogue_blue name (map_disp lit d) (in_catalogue_lit _ _ H)) with (w1 := a) (w2 := b)
    as (n1 & n2 & E1 & E2 & _ & L); [subst d; discriminate|lra|lra|lra|];
   rewrite (proj1 (index_value_lit _ _ a H ltac:(lra))) in E1;
   rewrite (proj1 (index_value_lit _ _ b H ltac:(lra))) in E2;
   injection E1 as <-; injection E2 as <-; lra).
Qed.

(** *** enclosures *)
Fixpoint sumI (acc : itv) (l : list (itv * itv)) (q : itv -> itv) : itv :=
  match l with
  | [] => acc
  | (B, C) :: t => sumI (iadd acc (idiv B (isub i1 (q C)))) t q
  end.
Definition radI (d : dispersion itv) (w : itv) : itv :=
  match d with
  | DAir => i1
  | DSell l => let x := iinv (imul w w) in sumI i1 l (fun C => imul C x)
  | DSellSq l => let x := iinv w in sumI i1 l (fun C => let r := imul C x in imul r r)
  | DPoly a0 a1 a2 a3 a4 a5 =>
      let x := imul w w in
      let u := idiv i1 x in let u2 := imul u u in let u3 := imul u2 u in let u4 := imul u3 u in
      iadd (isub (iadd (iadd (isub a0 (imul a1 x)) (imul a2 u)) (imul a3 u2))
                 (imul a4 u3)) (imul a5 u4)
  end.
Definition idxI (d : dispersion itv) (w : itv) : itv := isqrt (radI d w).
Lemma sumI_ok l q qI : (forall x i, inI x i -> inI (q x) (qI i)) ->
  forall acc accI, inI acc accI ->
  inI (sumR acc l q) (sumI accI (map (fun p => (idec (fst p), idec (snd p))) l) qI).
Proof.
  intros Hq. induction l as [|[B C] t IH]; intros acc accI H; cbn [sumR sumI map fst snd]; [exact H|].
  apply IH. apply iadd_ok; auto. apply idiv_ok; [apply idec_ok|]. apply isub_ok; [apply i1_ok|].
  apply Hq, idec_ok.
Qed.
Lemma idxI_ok d w wI : inI w wI -> inI (idxR d w) (idxI (map_disp idec d) wI).
Proof.
  intros H. apply isqrt_ok. destruct d as [|l|l|a0 a1 a2 a3 a4 a5]; cbn [radR radI map_disp].
  - apply i1_ok.
  - apply sumI_ok; [|apply i1_ok]. intros x i Hx. apply imul_ok; auto. apply iinv_ok. now apply imul_ok.
  - apply sumI_ok; [|apply i1_ok]. intros x i Hx. apply imul_ok; apply imul_ok; auto; now apply iinv_ok.
  - assert (Hu : inI (1 / (w * w)) (idiv i1 (imul wI wI))) by (apply idiv_ok; [apply i1_ok|now apply imul_ok]).
    assert (Hx : inI (w * w) (imul wI wI)) by now apply imul_ok.
    cbv zeta. set (u := 1 / (w * w)) in *. set (uI := idiv i1 (imul wI wI)) in *. clearbody u uI.
    set (x := w * w) in *. set (xI := imul wI wI) in *. clearbody x xI.
    repeat first [assumption | apply iopp_ok | apply iadd_ok | apply isub_ok | apply imul_ok | apply idec_ok].
Qed.

(** an index argument: a glass, or a number *)
Inductive ix := Glass (d : dispersion (Z * Z)) | Const (p : Z * Z).
Definition ixR (i : ix) (w : R) : R := match i with Glass d => idxR d w | Const p => litR p end.
(** its coefficients as intervals *)
Inductive ixc := GlassI (d : dispersion itv) | ConstI (p : itv).
Definition ixcI (i : ix) : ixc := match i with Glass d => GlassI (map_disp idec d) | Const p => ConstI (idec p) end.
Definition evI (i : ixc) (w : itv) : itv := match i with GlassI d => idxI d w | ConstI p => p end.
Definition ixI (i : ix) (w : Z * Z) : itv := evI (ixcI i) (idec w).
Definition known (i : ix) : Prop :=
  match i with Glass d => exists name, In (name, d) catalogue_data | Const p => litR p <> 0 end.
(** between two wavelengths a <= b: from the index at b to the index at a *)
Definition box (ia ib : itv) : itv :=
  match ia, ib with I _ h, I l _ => I l h | _, _ => Bad end.
Lemma box_ok i w a b : known i -> 28/100 <= litR a -> litR a <= w -> w <= litR b -> litR b <= 7 ->
  inI (ixR i w) (box (ixI i a) (ixI i b)).
Proof.
  intros Hk H1 H2 H3 H4.
  assert (inI (ixR i (litR a)) (ixI i a) /\ inI (ixR i (litR b)) (ixI i b)) as [Ka Kb].
  { destruct i as [d|p]; unfold ixI; cbn [ixR evI ixcI].
    - split; apply idxI_ok, idec_ok.
    - split; apply idec_ok. }
  assert (ixR i (litR b) <= ixR i w <= ixR i (litR a)).
  { destruct i as [d|p]; cbn [ixR] in *; [|lra]. destruct Hk as [name Hn].
    split; apply (idx_decreasing name); auto; lra. }
  destruct (ixI i a) as [|la ha], (ixI i b) as [|lb hb]; cbn in *; auto.
  pose proof SCR_pos. split; nra.
Qed.

(** ** Power of a lens *)
Fixpoint surf_traceI (y a n0 : itv) (l : list (itv * itv * itv)) : itv * itv :=
  match l with
  | [] => (y, a)
  | (c, n, t) :: r =>
      let a' := isub a (imul (imul (isub n n0) c) y) in surf_traceI (iadd y (imul (idiv t n) a')) a' n r
  end.
Definition surf_in (s : R * R * R) (i : itv * itv * itv) : Prop :=
  inI (fst (fst s)) (fst (fst i)) /\ inI (snd (fst s)) (snd (fst i)) /\ inI (snd s) (snd i).
Lemma surf_trace_ok l lI : Forall2 surf_in l lI -> forall y a n0 yI aI nI,
  inI y yI -> inI a aI -> inI n0 nI ->
  inI (fst (surf_trace y a n0 l)) (fst (surf_traceI yI aI nI lI)) /\
  inI (snd (surf_trace y a n0 l)) (snd (surf_traceI yI aI nI lI)).
Proof.
  intros F. induction F as [|[[c n] t] [[cI nI'] tI] l lI (H1 & H2 & H3) F IH]; intros y a n0 yI aI nI Hy Ha Hn.
  - cbn. auto.
  - cbn [fst snd] in *. cbn [surf_trace surf_traceI].
    assert (inI (a - (n - n0) * c * y) (isub aI (imul (imul (isub nI' nI) cI) yI))).
    { apply isub_ok; auto. apply imul_ok; auto. apply imul_ok; auto. now apply isub_ok. }
    apply IH; auto. apply iadd_ok; auto. apply imul_ok; auto. now apply idiv_ok.
Qed.

Notation dlens := (lens_class (Z * Z) string).
Definition kR (o : option (Z * Z)) : R := match o with Some p => / litR p | None => 0 end.
Definition kI (o : option (Z * Z)) : itv := match o with Some p => iinv (idec p) | None => i0 end.
Lemma kI_ok o : inI (kR o) (kI o).
Proof. destruct o; cbn [kR kI]; [apply iinv_ok, idec_ok|apply i0_ok]. Qed.
(** curvatures and thicknesses *)
Definition ktR (c : dlens) : list (R * R) :=
  match c with
  | LDoubletD d _ => [(kR (d_R1 d), litR (d_tc1 d)); (kR (d_R2 d), litR (d_tc2 d)); (kR (d_R3 d), 0)]
  | LSingletD s _ => [(kR (s_R1 s), litR (s_tc s)); (kR (s_R2 s), 0)]
  end.
Definition ktI (c : dlens) : list (itv * itv) :=
  match c with
  | LDoubletD d _ => [(kI (d_R1 d), idec (d_tc1 d)); (kI (d_R2 d), idec (d_tc2 d)); (kI (d_R3 d), i0)]
  | LSingletD s _ => [(kI (s_R1 s), idec (s_tc s)); (kI (s_R2 s), i0)]
  end.
(** the surfaces with the indices behind them; after the last one is air *)
Fixpoint zipS {A} (one : A) (k : list (A * A)) (ns : list A) : list (A * A * A) :=
  match k, ns with
  | (c, t) :: k', n :: ns' => (c, n, t) :: zipS one k' ns'
  | (c, t) :: _, [] => [(c, one, t)]
  | _, _ => []
  end.
Definition surfsR (c : dlens) (ns : list R) : list (R * R * R) := zipS 1 (ktR c) ns.
Lemma zipS_ok k kI0 : Forall2 (fun p i => inI (fst p) (fst i) /\ inI (snd p) (snd i)) k kI0 ->
  forall ns nsI, Forall2 inI ns nsI -> Forall2 surf_in (zipS 1 k ns) (zipS i1 kI0 nsI).
Proof.
  induction 1 as [|[c t] [cI tI] k kI0 [H1 H2] F IH]; intros ns nsI Fn; cbn in *; [destruct Fn; constructor|].
  destruct Fn as [|n nI ns nsI Hn Fn].
  - constructor; [|constructor]. split; [exact H1|]. split; [apply i1_ok|exact H2].
  - constructor; [|now apply IH]. split; [exact H1|]. split; [exact Hn|exact H2].
Qed.
Lemma surfs_ok c ns nsI : Forall2 inI ns nsI -> Forall2 surf_in (surfsR c ns) (zipS i1 (ktI c) nsI).
Proof.
  apply zipS_ok. destruct c as [d t|s t]; cbn [ktR ktI].
  - constructor; [|constructor; [|constructor; [|constructor]]];
      (split; cbn [fst snd]; auto using kI_ok, idec_ok, i0_ok).
  - constructor; [|constructor; [|constructor]]; (split; cbn [fst snd]; auto using kI_ok, idec_ok, i0_ok).
Qed.
Definition elI (k : list (itv * itv)) (ns : list itv) : itv * itv := surf_traceI i1 i0 i1 (zipS i1 k ns).
Lemma elI_ok c ns nsI : Forall2 inI ns nsI ->
  inI (elA (surfsR c ns)) (fst (elI (ktI c) nsI)) /\ inI (elC (surfsR c ns)) (snd (elI (ktI c) nsI)).
Proof.
  intros F. apply surf_trace_ok; [now apply surfs_ok|apply i1_ok|apply i0_ok|apply i1_ok].
Qed.

(** *** over an interval of wavelengths *)
Fixpoint map2 {A B C} (f : A -> B -> C) (l : list A) (m : list B) : list C :=
  match l, m with a :: l, b :: m => f a b :: map2 f l m | _, _ => [] end.
Lemma boxes_ok is w a b : Forall known is -> 28/100 <= litR a -> litR a <= w -> w <= litR b -> litR b <= 7 ->
  Forall2 inI (map (fun i => ixR i w) is)
    (map2 box (map (fun i => ixI i a) is) (map (fun i => ixI i b) is)).
Proof.
  intros F H1 H2 H3 H4. induction F; cbn; constructor; auto. now apply box_ok.
Qed.
(** indices at a wavelength *)
Definition row (is : list ix) (w : Z * Z) : list itv := map (fun i => ixI i w) is.
(** hull of the power over the pieces between the rows *)
Fixpoint sweep (k : list (itv * itv)) (pa : list itv) (rows : list (list itv)) : itv :=
  match rows with
  | [] => Bad
  | pb :: rest =>
      let r := snd (elI k (map2 box pa pb)) in
      match rest with [] => r | _ => hull r (sweep k pb rest) end
  end.
Fixpoint grid_ok (a : Z * Z) (l : list (Z * Z)) : Prop :=
  match l with [] => True | b :: t => litR a <= litR b /\ litR b <= 7 /\ grid_ok b t end.
Lemma sweep_ok c is : Forall known is -> forall grid a w, 28/100 <= litR a -> grid_ok a grid ->
  litR a <= w -> w <= litR (last grid a) ->
  inI (elC (surfsR c (map (fun i => ixR i w) is))) (sweep (ktI c) (row is a) (map (row is) grid)).
Proof.
  intros F. induction grid as [|b rest IH]; intros a w Ha G H1 H2; [exact Logic.I|].
  destruct G as (G1 & G2 & G3). cbn [map sweep]. rewrite last_cons_default in H2.
  destruct rest as [|b' rest].
  - apply elI_ok. apply boxes_ok; auto.
  - cbn [map]. destruct (Rle_dec w (litR b)) as [Hw|Hw].
    + apply hull_l. apply elI_ok. apply boxes_ok; auto.
    + apply hull_r. apply IH; auto; lra.
Qed.
