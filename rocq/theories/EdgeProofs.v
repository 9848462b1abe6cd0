(** The glass of the catalogue lenses: the surfaces do not cross inside the diameter, and the thickness at the edge is the
    one given in the class, with the exceptions listed. *)
From Coq Require Import ZArith Reals Lra Lia List Bool String Psatz.
From Verif Require Import Base Nums Optics Spec MatrixProofs Materials MaterialsProofs DispersionProofs Zemax
  Catalogue Interval LensProofs CatalogueProofs CatalogueLens CatalogueChecks.
Import ListNotations.
Open Scope list_scope.
Open Scope R_scope.

(** ** Specification *)
(** the surfaces of a lens class: vertex and radius, no radius for a plane *)
Definition glass_surfaces {M} (c : lens_class XR M) : list (XR * option XR) :=
  match c with
  | LDoubletD d _ => [(Fin 0, d_R1 d); (d_tc1 d, d_R2 d); (nadd (d_tc1 d) (d_tc2 d), d_R3 d)]
  | LSingletD s _ => [(Fin 0, s_R1 s); (s_tc s, s_R2 s)]
  end.
Definition edge {A M} (c : lens_class A M) : A := match c with LDoubletD d _ => d_te d | LSingletD s _ => s_te s end.
(** the point at [z], [y] from the axis, is on the half of the sphere around the vertex *)
Definition on_surface (s : XR * option XR) (z y : R) : Prop :=
  match s with
  | (Fin v, None) => z = v
  | (Fin v, Some (Fin r)) => (z - (v + r)) * (z - (v + r)) + y * y = r * r /\ Rabs (z - v) <= Rabs r
  | _ => False
  end.
Definition neighbours {A} (a b : A) (l : list A) : Prop := exists pre post, l = pre ++ a :: b :: post.
Definition off_edge : list string := ["AC060_010_B"; "AC254_125_A_ML"; "AC060_010_B_ML"]%string.

(** ** The depth of a surface *)
Definition sg (o : option R) (h : R) : R :=
  match o with
  | None => 0
  | Some r => if Rlt_dec 0 r then r - R_sqrt.sqrt (r * r - h * h) else r + R_sqrt.sqrt (r * r - h * h)
  end.
Definition fit (o : option R) (h : R) : Prop := match o with None => True | Some r => r <> 0 /\ h <= Rabs r end.
Lemma sq_le h r : 0 <= h -> h <= Rabs r -> h * h <= r * r.
Proof. intros H K. unfold Rabs in K. destruct (Rcase_abs r); nra. Qed.
Lemma on_surface_at v o y z : (match o with Some r => r <> 0 | None => True end) -> Rabs y <= Rabs match o with Some r => r | None => y end ->
  on_surface (Fin v, option_map Fin o) z y <-> z = v + sg o y.
Proof.
  intros Hr Hy. destruct o as [r|]; cbn [option_map on_surface sg]; [|split; intros; lra].
  assert (0 <= r * r - y * y) as HP by (pose proof (sq_le (Rabs y) r (Rabs_pos y) Hy) as K; rewrite <- Rabs_mult, Rabs_right in K; [lra|nra]).
  pose proof (sqrt_pos (r * r - y * y)) as S0. pose proof (sqrt_sqrt _ HP) as S1. set (s := R_sqrt.sqrt _) in *.
  destruct (Rlt_dec 0 r) as [L|L]; split.
  - intros [E K]. rewrite (Rabs_right r) in K by lra. assert ((z - (v + r) - s) * (z - (v + r) + s) = 0) as P by nra.
    apply Rmult_integral in P as [P|P]; [|lra]. assert (z - v = r + s) as Z by lra. rewrite Z in K. unfold Rabs in K. destruct (Rcase_abs (r + s)); nra.
  - intros ->. split; [nra|]. apply Rabs_le. rewrite (Rabs_right r) by lra. assert (s <= r) by nra. lra.
  - assert (r < 0) as N by lra. intros [E K]. rewrite (Rabs_left r) in K by lra. assert ((z - (v + r) - s) * (z - (v + r) + s) = 0) as P by nra.
    apply Rmult_integral in P as [P|P]; [lra|]. assert (z - v = r - s) as Z by lra. rewrite Z in K. unfold Rabs in K. destruct (Rcase_abs (r - s)); nra.
  - assert (r < 0) as N by lra. intros ->. split; [nra|]. apply Rabs_le. rewrite (Rabs_left r) by lra. assert (s <= - r) by nra. lra.
Qed.
Lemma steeper a b y h : 0 < a -> a <= b -> 0 <= y -> y <= h -> h <= a ->
  R_sqrt.sqrt (b * b - y * y) - R_sqrt.sqrt (b * b - h * h) <= R_sqrt.sqrt (a * a - y * y) - R_sqrt.sqrt (a * a - h * h).
Proof.
  intros. assert (0 <= a * a - h * h) by nra. assert (0 <= a * a - y * y) by nra. assert (0 <= b * b - h * h) by nra. assert (0 <= b * b - y * y) by nra.
  pose proof (sqrt_sqrt (b * b - y * y) ltac:(lra)) as P1. pose proof (sqrt_sqrt (b * b - h * h) ltac:(lra)) as P2.
  pose proof (sqrt_sqrt (a * a - y * y) ltac:(lra)) as P3. pose proof (sqrt_sqrt (a * a - h * h) ltac:(lra)) as P4.
  assert (R_sqrt.sqrt (a * a - y * y) <= R_sqrt.sqrt (b * b - y * y)) by (apply sqrt_le_1; nra).
  assert (R_sqrt.sqrt (a * a - h * h) <= R_sqrt.sqrt (b * b - h * h)) by (apply sqrt_le_1; nra).
  assert (R_sqrt.sqrt (a * a - h * h) <= R_sqrt.sqrt (a * a - y * y)) by (apply sqrt_le_1; nra).
  pose proof (sqrt_pos (a * a - h * h)). pose proof (sqrt_pos (a * a - y * y)).
  set (p := R_sqrt.sqrt (b * b - y * y)) in *. set (q := R_sqrt.sqrt (b * b - h * h)) in *.
  set (p' := R_sqrt.sqrt (a * a - y * y)) in *. set (q' := R_sqrt.sqrt (a * a - h * h)) in *.
  assert ((p - q) * (p + q) = (p' - q') * (p' + q')) by lra.
  destruct (Rle_dec (p - q) (p' - q')) as [|N]; [assumption|]. exfalso.
  assert (p' - q' < p - q) by lra. assert (0 <= p' + q') by lra. destruct (Req_dec (p' + q') 0) as [Z|Z].
  - assert (p' = 0) by lra. assert (q' = 0) by lra. assert ((p - q) * (p + q) = 0) as K by nra. apply Rmult_integral in K as [K|K]; nra.
  - nra.
Qed.
Lemma sg_opp r h : r <> 0 -> sg (Some (- r)) h = - sg (Some r) h.
Proof.
  intros. cbn. replace (- r * - r - h * h) with (r * r - h * h) by ring. destruct (Rlt_dec 0 (- r)), (Rlt_dec 0 r); lra.
Qed.
Lemma sg_pos r h : 0 < r -> sg (Some r) h = R_sqrt.sqrt (r * r - 0 * 0) - R_sqrt.sqrt (r * r - h * h).
Proof. intros H. cbn. destruct (Rlt_dec 0 r); [|lra]. rewrite Rmult_0_l, Rminus_0_r, sqrt_square by lra. reflexivity. Qed.
Lemma sg_up r h y : 0 < r -> 0 <= y -> y <= h -> h <= r -> 0 <= sg (Some r) y <= sg (Some r) h.
Proof.
  intros. rewrite !sg_pos by lra. assert (R_sqrt.sqrt (r * r - h * h) <= R_sqrt.sqrt (r * r - y * y)) by (apply sqrt_le_1; nra).
  assert (R_sqrt.sqrt (r * r - y * y) <= R_sqrt.sqrt (r * r - 0 * 0)) by (apply sqrt_le_1; nra). lra.
Qed.
(** between the axis and the edge the glass is as thick as at one of them, or thicker *)
Lemma thick_between a b t y h : fit a h -> fit b h -> 0 <= y -> y <= h -> 0 < t -> sg a h < t + sg b h -> sg a y < t + sg b y.
Proof.
  intros Fa Fb Hy Hh Ht H.
  assert (forall r, fit (Some r) h -> (0 < r /\ h <= r) \/ (exists r', r = - r' /\ 0 < r' /\ h <= r')) as S.
  { intros r [R0 Rh]. destruct (Rlt_dec 0 r) as [L|L]; [left; rewrite Rabs_right in Rh; lra|].
    right. exists (- r). rewrite Rabs_left in Rh by lra. lra. }
  destruct a as [a|], b as [b|].
  - destruct (S a Fa) as [[A1 A2]|(a' & -> & A1 & A2)], (S b Fb) as [[B1 B2]|(b' & -> & B1 & B2)].
    + destruct (Rle_dec a b) as [L|L].
      * pose proof (steeper a b y h A1 L Hy Hh A2). rewrite !sg_pos in * by lra. lra.
      * pose proof (steeper b a 0 y B1 ltac:(lra) ltac:(lra) Hy ltac:(lra)). rewrite !sg_pos in * by lra. lra.
    + rewrite !sg_opp in * by lra. pose proof (sg_up a h y A1 Hy Hh A2). pose proof (sg_up b' h y B1 Hy Hh B2). lra.
    + rewrite !sg_opp in * by lra. pose proof (sg_up a' h y A1 Hy Hh A2). pose proof (sg_up b h y B1 Hy Hh B2). lra.
    + rewrite !sg_opp in * by lra. destruct (Rle_dec b' a') as [L|L].
      * pose proof (steeper b' a' y h B1 L Hy Hh B2). rewrite !sg_pos in * by lra. lra.
      * pose proof (steeper a' b' 0 y A1 ltac:(lra) ltac:(lra) Hy ltac:(lra)). rewrite !sg_pos in * by lra. lra.
  - destruct (S a Fa) as [[A1 A2]|(a' & -> & A1 & A2)]; change (sg None y) with 0 in *; change (sg None h) with 0 in *.
    + pose proof (sg_up a h y A1 Hy Hh A2). lra.
    + rewrite !sg_opp in * by lra. pose proof (sg_up a' h y A1 Hy Hh A2). lra.
  - destruct (S b Fb) as [[B1 B2]|(b' & -> & B1 & B2)]; change (sg None y) with 0 in *; change (sg None h) with 0 in *.
    + pose proof (sg_up b h y B1 Hy Hh B2). lra.
    + rewrite !sg_opp in * by lra. pose proof (sg_up b' h y B1 Hy Hh B2). lra.
  - cbn. lra.
Qed.

(** ** Checking the data *)
Definition sgI (o : option (Z * Z)) (h : itv) : itv :=
  match o with
  | None => i0
  | Some p => let r := idec p in let q := isqrt (isub (imul r r) (imul h h)) in if (0 <? fst p)%Z then isub r q else iadd r q
  end.
Definition halfI (p : Z * Z) : itv := imul (idec p) (idec (5, 1)%Z).
Definition thickI (a b : option (Z * Z)) (t : itv) (h : itv) : itv := isub (iadd t (sgI b h)) (sgI a h).
Definition edge_ok (name : string) (i : itv) : bool :=
  if memb name off_edge then (below i (95, 2)%Z || above i (105, 2)%Z)%bool else (above i (95, 2)%Z && below i (105, 2)%Z)%bool.
Definition is_plane (o : option (Z * Z)) : bool := match o with None => true | _ => false end.
Definition edge_check (p : string * dlens) : bool :=
  let '(name, c) := p in
  readyb c &&
  match c with
  | LDoubletD d _ =>
      let h := halfI (d_diam d) in
      fitb (d_R2 d) (d_diam d) && above (thickI (d_R1 d) (d_R2 d) (idec (d_tc1 d)) h) (0, 0)%Z &&
      above (thickI (d_R2 d) (d_R3 d) (idec (d_tc2 d)) h) (0, 0)%Z &&
      edge_ok name (idiv (thickI (d_R1 d) (d_R3 d) (iadd (idec (d_tc1 d)) (idec (d_tc2 d))) h) (idec (d_te d))) &&
      negb (memb name off_edge && (is_plane (d_R1 d) || is_plane (d_R3 d)))
  | LSingletD s _ =>
      let h := halfI (s_diam s) in
      above (thickI (s_R1 s) (s_R2 s) (idec (s_tc s)) h) (0, 0)%Z &&
      edge_ok name (idiv (thickI (s_R1 s) (s_R2 s) (idec (s_tc s)) h) (idec (s_te s))) &&
      negb (memb name off_edge && (is_plane (s_R1 s) || is_plane (s_R2 s)))
  end.
Lemma edge_checked : forallb edge_check lens_data = true.
Proof. vm_compute. reflexivity. Qed.

(** ** From the data to the glass *)
Notation LR := (option_map litR).
Lemma lit_opt o : radb o = true -> omap (@lit XR _) o = option_map Fin (LR o).
Proof. destruct o as [p|]; cbn [omap option_map]; [|reflexivity]. cbn [radb]. intros H. now rewrite (proj2 (nzb_ok p H)). Qed.
Lemma lit_sign p : nzb p = true -> (0 <? fst p)%Z = true <-> 0 < litR p.
Proof.
  intros H. destruct (nzb_ok p H) as [N _]. unfold nzb in H. rewrite andb_true_iff in H. destruct H as [_ H]. apply Z.leb_le in H.
  pose proof (pow10_pos _ H) as P. unfold litR in *. split; intros K.
  - apply Z.ltb_lt in K. apply Rdiv_lt_0_compat; [now apply IZR_lt|exact P].
  - apply Z.ltb_lt. apply lt_IZR. apply (Rmult_lt_compat_r _ _ _ P) in K. unfold Rdiv in K. rewrite Rmult_assoc, Rinv_l in K by lra. lra.
Qed.
Lemma sgI_ok o h i : radb o = true -> inI h i -> inI (sg (LR o) h) (sgI o i).
Proof.
  destruct o as [p|]; cbn [option_map sg sgI]; intros Hr Hh; [|apply i0_ok]. cbn [radb] in Hr.
  assert (inI (R_sqrt.sqrt (litR p * litR p - h * h)) (isqrt (isub (imul (idec p) (idec p)) (imul i i)))) as Q.
  { apply isqrt_ok, isub_ok; apply imul_ok; auto; apply idec_ok. }
  destruct (Rlt_dec 0 (litR p)) as [L|L].
  - rewrite (proj2 (lit_sign p Hr) L). apply isub_ok; [apply idec_ok|exact Q].
  - destruct (0 <? fst p)%Z eqn:E; [exfalso; apply L; now apply lit_sign|]. apply iadd_ok; [apply idec_ok|exact Q].
Qed.
Lemma halfI_ok p : inI (litR p / 2) (halfI p).
Proof.
  unfold halfI. replace (litR p / 2) with (litR p * litR (5, 1)%Z); [apply imul_ok; apply idec_ok|].
  unfold litR at 2. cbn [fst snd]. change (10 ^ 1)%Z with 10%Z. lra.
Qed.
Lemma thickI_ok a b t it p : radb a = true -> radb b = true -> inI t it ->
  inI (t + sg (LR b) (litR p / 2) - sg (LR a) (litR p / 2)) (thickI a b it (halfI p)).
Proof. intros. apply isub_ok; [apply iadd_ok; auto|]; apply sgI_ok; auto; apply halfI_ok. Qed.
Lemma above0 x i : inI x i -> above i (0, 0)%Z = true -> 0 < x.
Proof. intros H K. apply (above_ok _ _ _ H) in K. unfold litR in K. cbn [fst snd] in K. change (10 ^ 0)%Z with 1%Z in K. lra. Qed.
Lemma edge_ok_ok name x i : inI x i -> edge_ok name i = true -> (In name off_edge <-> 5/100 < Rabs (x - 1)).
Proof.
  assert (litR (95, 2)%Z = 95/100) as L1 by (unfold litR; cbn [fst snd]; change (10 ^ 2)%Z with 100%Z; lra).
  assert (litR (105, 2)%Z = 105/100) as L2 by (unfold litR; cbn [fst snd]; change (10 ^ 2)%Z with 100%Z; lra).
  intros H K. unfold edge_ok in K. rewrite <- memb_In. destruct (memb name off_edge).
  - split; [intros _|reflexivity]. apply orb_true_iff in K as [K|K].
    + apply (below_ok _ _ _ H) in K. rewrite Rabs_left; lra.
    + apply (above_ok _ _ _ H) in K. rewrite Rabs_right; lra.
  - apply andb_true_iff in K as [K1 K2]. apply (above_ok _ _ _ H) in K1. apply (below_ok _ _ _ H) in K2.
    split; [discriminate|]. intros C. exfalso. apply (Rlt_irrefl (5/100)). eapply Rlt_trans; [exact C|]. apply Rabs_def1; lra.
Qed.
Lemma fitb_fit o d : radb o = true -> posb d = true -> fitb o d = true -> fit (LR o) (litR d / 2).
Proof.
  intros H1 H2 H3. pose proof (fitb_ok o d H1 H2 H3) as K. destruct (radb_ok o H1) as [K' _]. destruct o as [p|]; cbn [radb omap radius option_map fit] in *; [|exact Logic.I].
  destruct (nzb_ok p H1) as [N E]. rewrite E in K. cbn in K. now split.
Qed.

(** the surfaces of the data *)
Definition dsurf (d : dlens) : list (R * option R) :=
  match d with
  | LDoubletD d _ => [(0, LR (d_R1 d)); (litR (d_tc1 d), LR (d_R2 d)); (litR (d_tc1 d) + litR (d_tc2 d), LR (d_R3 d))]
  | LSingletD s _ => [(0, LR (s_R1 s)); (litR (s_tc s), LR (s_R2 s))]
  end.
Definition up (p : R * option R) : XR * option XR := (Fin (fst p), option_map Fin (snd p)).
Fixpoint stacked (h : R) (l : list (R * option R)) : Prop :=
  match l with
  | a :: (b :: _) as t => fst a < fst b /\ fst a + sg (snd a) h < fst b + sg (snd b) h /\ stacked h t
  | _ => True
  end.
Definition end_gap (h : R) (l : list (R * option R)) : R :=
  (fst (last l (0, None)) + sg (snd (last l (0, None))) h) - (fst (hd (0, None) l) + sg (snd (hd (0, None) l)) h).
Lemma edge_data name d : In (name, d) lens_data ->
  exists D te, diameter (resolved d) = Fin D /\ edge (resolved d) = Fin te /\ 0 < D /\ te <> 0 /\
    D = litR (diameter d) /\ te = litR (edge d) /\
    glass_surfaces (resolved d) = map up (dsurf d) /\ Forall (fun s => fit (snd s) (D / 2)) (dsurf d) /\
    stacked (D / 2) (dsurf d) /\ (In name off_edge <-> 5/100 < Rabs (end_gap (D / 2) (dsurf d) / te - 1)) /\
    (In name off_edge -> snd (hd (0, None) (dsurf d)) <> None /\ snd (last (dsurf d) (0, None)) <> None).
Proof.
  intros H. pose proof (proj1 (forallb_forall _ _) edge_checked _ H) as K.
  destruct d as [d t|s t]; cbn [edge_check] in K; rewrite !andb_true_iff in K.
  - destruct K as (K & ((((K2 & T1) & T2) & TE) & PL)). cbn [readyb] in K. rewrite !andb_true_iff in K.
    destruct K as (((((((((((((P1 & P2) & P3) & P4) & P5) & P6) & Q1) & Q2) & Q3) & F1) & F3) & N1) & N2) & N3).
    destruct (posb_ok _ P1) as [L1 E1]. destruct (posb_ok _ P2) as [L2 E2]. destruct (posb_ok _ P3) as [L3 E3]. destruct (nzb_ok _ P6) as [Z6 E6].
    exists (litR (d_diam d)), (litR (d_te d)).
    cbn [resolved resolve_class diameter edge glass_surfaces d_diam d_te d_R1 d_R2 d_R3 d_tc1 d_tc2 dsurf].
    split; [exact E3|]. split; [exact E6|]. split; [exact L3|]. split; [exact Z6|]. do 2 (split; [reflexivity|]).
    split; [rewrite !lit_opt, E1, E2 by assumption; reflexivity|].
    split; [repeat constructor; cbn [snd]; apply fitb_fit; assumption|].
    pose proof (above0 _ _ (thickI_ok _ _ _ _ (d_diam d) Q1 Q2 (idec_ok (d_tc1 d))) T1) as U1.
    pose proof (above0 _ _ (thickI_ok _ _ _ _ (d_diam d) Q2 Q3 (idec_ok (d_tc2 d))) T2) as U2.
    split; [cbn [stacked fst snd]; repeat split; lra|]. split.
    + pose proof (edge_ok_ok name ((litR (d_tc1 d) + litR (d_tc2 d) + sg (LR (d_R3 d)) (litR (d_diam d) / 2) - sg (LR (d_R1 d)) (litR (d_diam d) / 2)) / litR (d_te d)) _
        (idiv_ok _ _ _ _ (thickI_ok _ _ _ _ (d_diam d) Q1 Q3 (iadd_ok _ _ _ _ (idec_ok (d_tc1 d)) (idec_ok (d_tc2 d)))) (idec_ok (d_te d))) TE) as U.
      rewrite U. unfold end_gap. cbn [last hd fst snd]. rewrite Rplus_0_l. reflexivity.
    + intros M. apply memb_In in M. rewrite M in PL. cbn [last hd snd andb] in *. destruct (d_R1 d), (d_R3 d); cbn in *; try discriminate. split; discriminate.
  - destruct K as (K & ((T1 & TE) & PL)). cbn [readyb] in K. rewrite !andb_true_iff in K.
    destruct K as ((((((((((P1 & P3) & P4) & P5) & P6) & Q1) & Q2) & F1) & F2) & N1) & N3).
    destruct (posb_ok _ P1) as [L1 E1]. destruct (posb_ok _ P3) as [L3 E3]. destruct (nzb_ok _ P6) as [Z6 E6].
    exists (litR (s_diam s)), (litR (s_te s)).
    cbn [resolved resolve_class diameter edge glass_surfaces s_diam s_te s_R1 s_R2 s_tc dsurf].
    split; [exact E3|]. split; [exact E6|]. split; [exact L3|]. split; [exact Z6|]. do 2 (split; [reflexivity|]).
    split; [rewrite !lit_opt, E1 by assumption; reflexivity|].
    split; [repeat constructor; cbn [snd]; apply fitb_fit; assumption|].
    pose proof (above0 _ _ (thickI_ok _ _ _ _ (s_diam s) Q1 Q2 (idec_ok (s_tc s))) T1) as U1.
    split; [cbn [stacked fst snd]; repeat split; lra|]. split.
    + pose proof (edge_ok_ok name ((litR (s_tc s) + sg (LR (s_R2 s)) (litR (s_diam s) / 2) - sg (LR (s_R1 s)) (litR (s_diam s) / 2)) / litR (s_te s)) _
        (idiv_ok _ _ _ _ (thickI_ok _ _ _ _ (s_diam s) Q1 Q2 (idec_ok (s_tc s))) (idec_ok (s_te s))) TE) as U.
      rewrite U. unfold end_gap. cbn [last hd fst snd]. rewrite Rplus_0_l. reflexivity.
    + intros M. apply memb_In in M. rewrite M in PL. cbn [last hd snd andb] in *. destruct (s_R1 s), (s_R2 s); cbn in *; try discriminate. split; discriminate.
Qed.

(** ** The warning about the edge *)
Lemma ok_inj {A} (x y : A) : Ok x = Ok y -> x = y.
Proof. intros H. now injection H. Qed.
Lemma corner_value v r h : r <> 0 -> 0 < h -> h <= Rabs r -> corner (Some (Fin v)) (Fin r) (Fin h) = Ok (Fin (v + sg (Some r) h)).
Proof.
  intros Hr Hh Hf. unfold corner. cbn [nabs NumXR xabs]. pose proof (Rabs_pos_lt r Hr) as P. rewrite pdiv_fin by lra. cbn [bind].
  unfold cos_asin. change (@c1 XR _) with (Fin 1). cbn [nltb nabs nsub nmul NumXR xltb xabs xmul xsub xadd xopp].
  assert (0 < h / Rabs r) as Q0 by (apply Rdiv_lt_0_compat; lra).
  assert (h / Rabs r <= 1) as Q1 by (apply (Rmult_le_reg_r (Rabs r)); [exact P|]; unfold Rdiv; rewrite Rmult_assoc, Rinv_l; lra).
  rewrite (Rltb_ge 1) by (rewrite Rabs_right; lra). cbn [bind]. apply (f_equal Ok).
  assert (0 <= 1 + - (h / Rabs r * (h / Rabs r))) as Q2 by nra.
  assert (Rabs r * Rabs r = r * r) as RR by (unfold Rabs; destruct (Rcase_abs r); ring).
  assert (R_sqrt.sqrt (r * r - h * h) = Rabs r * R_sqrt.sqrt (1 + - (h / Rabs r * (h / Rabs r)))) as S.
  { rewrite <- (sqrt_square (Rabs r)) at 1 by lra. rewrite <- sqrt_mult by nra. f_equal. rewrite RR.
    replace (h / Rabs r * (h / Rabs r)) with (h * h / (Rabs r * Rabs r)) by (field; lra). rewrite RR. field. exact Hr. }
  cbn [nsqrt NumXR xsqrt]. destruct (Rlt_dec _ 0); [lra|]. cbn [nadd nsub nmul NumXR xadd xopp xsub xmul]. apply (f_equal Fin).
  f_equal. cbn [sg]. rewrite S. generalize (R_sqrt.sqrt (1 + - (h / Rabs r * (h / Rabs r)))). intros w. destruct (Rlt_dec 0 r) as [L|L].
  - rewrite (Rabs_right r) by lra. ring.
  - rewrite (Rabs_left r) by lra. ring.
Qed.
Lemma corner_plane v h : 0 < h -> corner (Some (Fin v)) PInf (Fin h) = Ok NaN.
Proof.
  intros H. unfold corner. cbn [nabs NumXR xabs]. cbn. unfold cos_asin. cbn. rewrite Rabs_R0, Rltb_ge by lra. cbn.
  destruct (Rlt_dec _ 0); [nra|]. cbn. replace (1 + - (0 * 0)) with 1 by ring. rewrite sqrt_1. cbn.
  replace (1 + - (1)) with 0 by ring. unfold xsgninf. destruct (Rlt_dec 0 0); [lra|]. reflexivity.
Qed.

Lemma verify_edge e tw tc f fb a b te ws L A C D : air_lens e L A C D -> tw <> Ok WEdge -> 0 < D -> te <> 0 -> fit a (D / 2) -> fit b (D / 2) ->
  verify e tw tc f fb (radius (option_map Fin a)) (radius (option_map Fin b)) (Fin te) = Ok ws ->
  In WEdge ws <-> a <> None /\ b <> None /\ 5/100 < Rabs ((L + sg b (D / 2) - (0 + sg a (D / 2))) / te - 1).
Proof.
  intros (B & D' & _ & _ & _ & _ & _ & _ & _ & _ & Efv & Ebv & _ & ED) Htw HD Hte Fa Fb H. unfold verify in H.
  destruct (pdiv _ (mL (emat e))) as [t|]; cbn [bind] in H; [|discriminate].
  match type of H with bind ?x _ = _ => destruct x as [w1|] eqn:E1 end; cbn [bind] in H; [|discriminate].
  assert (~ In WEdge w1) as N1.
  { destruct (nltb _ t); [destruct tw as [w|]; cbn [bind] in E1; [injection E1 as <-|discriminate E1]|injection E1 as <-; intros []].
    intros [K|[]]. apply Htw. now rewrite K. }
  destruct (effectiveFocalLengths _) as [fs|]; cbn [bind] in H; [|discriminate].
  destruct (off_by_1pct (snd fs) f) as [o1|]; cbn [bind] in H; [|discriminate].
  destruct (backFocalLength _) as [[bk|]|]; cbn [bind] in H; try discriminate.
  destruct (off_by_1pct bk fb) as [o2|]; cbn [bind] in H; [|discriminate].
  rewrite Efv, Ebv, ED in H.
  assert (ndiv (Fin D) (@c2 XR _) = Fin (D / 2)) as Eh by (cbn; destruct (Req_EM_T 2 0); [lra|reflexivity]).
  rewrite Eh in H.
  assert (forall v o, fit o (D / 2) -> corner (Some (Fin v)) (radius (option_map Fin o)) (Fin (D / 2)) =
    Ok match o with None => NaN | Some r => Fin (v + sg (Some r) (D / 2)) end) as Cn.
  { intros v [r|] F; cbn [option_map radius]; [destruct F; apply corner_value; auto; lra|apply corner_plane; lra]. }
  rewrite !Cn in H by assumption. cbn [bind] in H.
  unfold pdiv in H. change (@c0 XR _) with (Fin 0) in H. cbn [neqb NumXR xeqb] in H. rewrite Reqb_neq in H by auto. cbn [bind] in H.
  apply ok_inj in H. subst ws.
  match goal with |- context [warn_if ?b WEdge] => assert (In WEdge (w1 ++ warn_if o1 WFocal ++ warn_if o2 WBack ++ warn_if b WEdge) <-> b = true) as W end.
  { rewrite !in_app_iff. unfold warn_if. destruct o1, o2; match goal with |- context [if ?b then [WEdge] else _] => destruct b end; cbn; intuition (try discriminate; auto). }
  rewrite W. clear W. rewrite ndec_xr by lia. change (10 ^ 2)%Z with 100%Z. change (@c1 XR _) with (Fin 1).
  destruct a as [a|], b as [b|]; cbn [nsub ndiv nabs nltb NumXR xsub xadd xopp xdiv xabs xltb];
    try (split; [discriminate|intros (K1 & K2 & _); exfalso; (now apply K1) || now apply K2]).
  destruct (Req_EM_T te 0); [contradiction|]. cbn [xadd xsub xopp xabs xltb]. rewrite Rltb_true.
  replace (L + sg (Some b) (D / 2) + - (0 + sg (Some a) (D / 2))) with (L + sg (Some b) (D / 2) - (0 + sg (Some a) (D / 2))) by ring.
  split; [intros K; split; [discriminate|]; split; [discriminate|exact K]|intros (_ & _ & K); exact K].
Qed.
Lemma construct_verify (c : lens_class XR (dispersion XR)) (wl : option XR) b : construct c wl = Ok b -> exists (tw : res warning) (tc f fb : XR) (a z : option XR),
  verify (b_elem b) tw tc f fb (radius a) (radius z) (edge c) = Ok (b_warn b) /\ tw <> Ok WEdge /\
  option_map snd (hd_error (glass_surfaces c)) = Some a /\ option_map snd (hd_error (rev (glass_surfaces c))) = Some z.
Proof.
  destruct c as [d t|s t]; cbn [construct].
  - intros H. assert (AchromatDoubletLens d wl = Ok b) as K by (destruct t, wl; try discriminate; exact H). clear H. unfold AchromatDoubletLens in K.
    destruct (doublet_indices d wl); cbn [bind] in K; [|discriminate].
    match type of K with bind ?x _ = _ => destruct x as [e|] eqn:E1 end; cbn [bind] in K; [|discriminate].
    match type of K with bind ?x _ = _ => destruct x as [ws|] eqn:E2 end; cbn [bind] in K; [|discriminate].
    apply ok_inj in K. subst b. exists (Ok WThickness). do 3 eexists. exists (d_R1 d), (d_R3 d). split; [exact E2|]. split; [discriminate|]. now split.
  - intros H. assert (SingletLensC s wl = Ok b) as K by (destruct t, wl; try discriminate; exact H). clear H. unfold SingletLensC in K.
    destruct (singlet_index s wl); cbn [bind] in K; [|discriminate].
    match type of K with bind ?x _ = _ => destruct x as [e|] eqn:E1 end; cbn [bind] in K; [|discriminate].
    match type of K with bind ?x _ = _ => destruct x as [ws|] eqn:E2 end; cbn [bind] in K; [|discriminate].
    apply ok_inj in K. subst b. exists (Err AttributeError). do 3 eexists. exists (s_R1 s), (s_R2 s). split; [exact E2|]. split; [discriminate|]. now split.
Qed.
Lemma ends_of d : exists a z, hd (0, None) (dsurf d) = (0, a) /\ last (dsurf d) (0, None) = (lengthR d, z) /\
  option_map snd (hd_error (map up (dsurf d))) = Some (option_map Fin a) /\ option_map snd (hd_error (rev (map up (dsurf d)))) = Some (option_map Fin z).
Proof. destruct d as [d t|s t]; cbn; eexists; eexists; do 3 (split; [reflexivity|]); reflexivity. Qed.
Lemma built_edge name d wl b A C : In (name, d) lens_data -> is_built d wl b A C -> (In WEdge (b_warn b) <-> In name off_edge).
Proof.
  intros H (Hc & Hair & _). destruct (edge_data _ _ H) as (D & te & ED & EE & HD & Hte & -> & Ht & Eg & Ff & _ & Ho & Hp).
  destruct (construct_verify _ _ _ Hc) as (tw & tc & f & fb & a & z & V & Htw & Ea & Ez).
  destruct (ends_of d) as (a' & z' & E1 & E2 & E3 & E4). rewrite Eg in Ea, Ez. rewrite E3 in Ea. rewrite E4 in Ez.
  injection Ea as <-. injection Ez as <-. rewrite EE in V. rewrite Forall_forall in Ff.
  assert (fit a' (litR (diameter d) / 2)) as Fa.
  { specialize (Ff (hd (0, None) (dsurf d))). rewrite E1 in Ff. apply Ff. rewrite <- E1. destruct d; left; reflexivity. }
  assert (fit z' (litR (diameter d) / 2)) as Fz.
  { specialize (Ff (last (dsurf d) (0, None))). rewrite E2 in Ff. apply Ff. rewrite <- E2. destruct d; cbn; auto. }
  rewrite (verify_edge _ _ _ _ _ _ _ _ _ _ _ _ _ Hair Htw HD Hte Fa Fz V).
  rewrite Ho. unfold end_gap in *. rewrite E1, E2 in *. cbn [fst snd] in *. split; [tauto|]. intros K. pose proof (Hp (proj2 Ho K)). tauto.
Qed.

(** ** Main statements *)
Lemma stacked_neighbours h l a b : stacked h l -> neighbours a b l -> fst a < fst b /\ fst a + sg (snd a) h < fst b + sg (snd b) h.
Proof.
  intros H (pre & post & ->). induction pre as [|x pre IH].
  - destruct H as (H1 & H2 & _). now split.
  - apply IH. destruct pre; cbn [app stacked] in H; apply H.
Qed.
Lemma neighbours_map {A B} (f : A -> B) l x y : neighbours x y (map f l) -> exists a b, neighbours a b l /\ x = f a /\ y = f b.
Proof.
  intros (pre & post & E). apply map_eq_app in E as (l1 & l2 & -> & _ & E). destruct l2 as [|a [|b l2]]; try discriminate.
  cbn in E. injection E as <- <- _. exists a, b. split; [now exists l1, l2|now split].
Qed.
Lemma neighbours_In {A} (a b : A) l : neighbours a b l -> In a l /\ In b l.
Proof. intros (pre & post & ->). rewrite !in_app_iff. cbn. tauto. Qed.
Lemma up_at p y z h : fit (snd p) h -> Rabs y <= h -> on_surface (up p) z y <-> z = fst p + sg (snd p) y.
Proof.
  destruct p as [v [r|]]; cbn [up fst snd]; intros F Hy; apply on_surface_at; cbn; try apply F; auto; [|lra]. destruct F. lra.
Qed.
Theorem glass name c : In (name, c) (@lenses XR _) ->
  exists D te, diameter c = Fin D /\ edge c = Fin te /\ 0 < D /\ te <> 0 /\
    (forall s y, In s (glass_surfaces c) -> Rabs y <= D / 2 -> exists! z, on_surface s z y) /\
    (forall s s' y z z', neighbours s s' (glass_surfaces c) -> Rabs y <= D / 2 -> on_surface s z y -> on_surface s' z' y -> z < z') /\
    (forall first mid last z z', glass_surfaces c = first :: mid ++ [last] -> on_surface first z (D / 2) -> on_surface last z' (D / 2) ->
       (In name off_edge <-> 5/100 < Rabs ((z' - z) / te - 1))).
Proof.
  intros H. apply lens_in in H as (d & H & ->). destruct (edge_data _ _ H) as (D & te & ED & EE & HD & Hte & _ & _ & Eg & Ff & Hst & Ho & _).
  exists D, te. rewrite Forall_forall in Ff. do 4 (split; [assumption|]). rewrite Eg. split; [|split].
  - intros s y Hs Hy. apply in_map_iff in Hs as (p & <- & Hp). exists (fst p + sg (snd p) y). split.
    + now apply (up_at p y _ (D / 2) (Ff _ Hp) Hy).
    + intros z Hz. symmetry. now apply (up_at p y _ (D / 2) (Ff _ Hp) Hy) in Hz.
  - intros s s' y z z' Hn Hy Hz Hz'. apply neighbours_map in Hn as (a & b & Hn & -> & ->). destruct (neighbours_In _ _ _ Hn) as [Ia Ib].
    apply (up_at a y _ (D / 2) (Ff _ Ia) Hy) in Hz. apply (up_at b y _ (D / 2) (Ff _ Ib) Hy) in Hz'. subst z z'.
    destruct (stacked_neighbours _ _ _ _ Hst Hn) as [S1 S2].
    assert (forall o, sg o (Rabs y) = sg o y) as Sy.
    { intros [r|]; cbn [sg]; [|reflexivity]. replace (Rabs y * Rabs y) with (y * y); [reflexivity|]. unfold Rabs. destruct (Rcase_abs y); ring. }
    pose proof (thick_between (snd a) (snd b) (fst b - fst a) (Rabs y) (D / 2) (Ff _ Ia) (Ff _ Ib) (Rabs_pos y) Hy ltac:(lra) ltac:(lra)) as K.
    rewrite !Sy in K. lra.
  - intros first mid lst z z' E Hz Hz'. destruct (ends_of d) as (a & b & E1 & E2 & _).
    assert (first = up (hd (0, None) (dsurf d)) /\ lst = up (last (dsurf d) (0, None))) as [-> ->].
    { split; [destruct d; cbn in E; injection E as <- _; reflexivity|].
      assert (rev (map up (dsurf d)) = lst :: rev (first :: mid)) as R1.
      { rewrite E. change (first :: mid ++ [lst]) with ((first :: mid) ++ [lst]). now rewrite rev_app_distr. }
      destruct d; cbn in R1; injection R1 as <- _; reflexivity. }
    assert (In (hd (0, None) (dsurf d)) (dsurf d) /\ In (last (dsurf d) (0, None)) (dsurf d)) as [I1 I2] by (destruct d; cbn; auto).
    assert (Rabs (D / 2) <= D / 2) as Hh by (rewrite Rabs_right; lra).
    apply (up_at _ _ _ _ (Ff _ I1) Hh) in Hz. apply (up_at _ _ _ _ (Ff _ I2) Hh) in Hz'. subst z z'. exact Ho.
Qed.
Theorem edge_warned name c wl : In (name, c) (@lenses XR _) -> match wl with None => True | Some w => takes c = true /\ 35/100 <= w <= 5/2 end ->
  exists b, construct c (option_map Fin wl) = Ok b /\ (In WEdge (b_warn b) <-> In name off_edge).
Proof.
  intros H Hwl. apply lens_in in H as (d & H & ->). destruct wl as [w|].
  - destruct Hwl as [Ht Hw]. destruct (wide_strong _ _ H) as [Kr Ks]. destruct (has_ixs_ok _ _ H) as (is & Ei).
    assert (Hs : sees d (Some w) w) by (split; [|reflexivity]; destruct d; exact Ht).
    pose proof (strong_ok _ _ (wide_inI _ _ _ _ H Ei Hw) Ks) as HC1.
    destruct (construct_ok d is (Some w) w Kr Ei Hs ltac:(lra) HC1) as (b & Hb). exists b. split; [apply Hb|]. now apply (built_edge name d _ b _ _ H Hb).
  - pose proof (proj1 (forallb_forall _ _) ref_checked _ H) as K. unfold ref_check in K. cbn [fst snd] in K. rewrite !andb_true_iff in K.
    destruct K as ((((Kr & Kf) & Ks) & _) & _). destruct (has_ixs_ok _ _ H) as (is & Ei).
    destruct (at_ref_ok d is Kr Kf Ei) as (Hs & Hw & _ & HC). pose proof (strong_ok _ _ HC Ks) as HC1.
    destruct (construct_ok d is None _ Kr Ei Hs Hw HC1) as (b & Hb). exists b. split; [apply Hb|]. now apply (built_edge name d _ b _ _ H Hb).
Qed.
