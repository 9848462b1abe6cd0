(** Every lens of the catalogue that is ready to be built is built, with the focal length of its surfaces. *)
From Coq Require Import ZArith Reals Lra Lia Psatz List Bool String.
From Verif Require Import Base Nums Optics Spec MatrixProofs Materials MaterialsProofs DispersionProofs Zemax
  Catalogue Interval LensProofs CatalogueProofs.
Import ListNotations.
Open Scope list_scope.
Open Scope R_scope.

(** ** Materials by class name *)
Lemma find_map {A B} (f : A -> B) (q : B -> bool) l :
  find q (map f l) = omap f (find (fun x => q (f x)) l).
Proof. induction l as [|a t IH]; cbn; [reflexivity|]. destruct (q (f a)); cbn; auto. Qed.
Lemma material_map {A B} (f : A -> B) l name :
  material (map (fun p => (fst p, f (snd p))) l) name = omap f (material l name).
Proof.
  unfold material, assoc. rewrite <- map_rev, find_map. cbn.
  destruct (find _ (rev l)); reflexivity.
Qed.
Lemma material_In {A} (l : list (string * A)) name d : material l name = Some d -> In (name, d) l.
Proof.
  unfold material, assoc. destruct (find _ (rev l)) as [[n d']|] eqn:E; [|discriminate].
  intros K. injection K as <-. apply find_some in E as [H1 H2]. cbn in H2.
  apply String.eqb_eq in H2 as ->. rewrite in_rev. exact H1.
Qed.
Lemma material_catalogue {T} {N : Num T} name :
  material (@catalogue T N) name = omap (map_disp lit) (material catalogue_data name).
Proof. apply material_map. Qed.

(** ** Data of a class *)
Definition ixs (c : dlens) : option (list ix) :=
  match c with
  | LDoubletD d _ =>
      match d_mat1 d, d_mat2 d, d_n1 d, d_n2 d, d_ref d with
      | Some a, Some b, None, None, Some _ =>
          match material catalogue_data a, material catalogue_data b with
          | Some x, Some y => Some [Glass x; Glass y]
          | _, _ => None
          end
      | None, None, Some x, Some y, None => Some [Const x; Const y]
      | _, _, _, _, _ => None
      end
  | LSingletD s _ =>
      match s_mat s, s_n s, s_ref s with
      | Some a, None, Some _ =>
          match material catalogue_data a with Some x => Some [Glass x] | None => None end
      | _, _, _ => None
      end
  end.
Definition takes {A M} (c : lens_class A M) : bool := match c with LDoubletD _ t | LSingletD _ t => t end.
Definition design {A M} (c : lens_class A M) : A := match c with LDoubletD d _ => d_fa d | LSingletD s _ => s_f s end.
Definition back {A M} (c : lens_class A M) : A := match c with LDoubletD d _ => d_fb d | LSingletD s _ => s_fb s end.
Definition diameter {A M} (c : lens_class A M) : A :=
  match c with LDoubletD d _ => d_diam d | LSingletD s _ => s_diam s end.
Definition reference {A M} (c : lens_class A M) : option A :=
  match c with LDoubletD d _ => d_ref d | LSingletD s _ => s_ref s end.
Definition lengthR (c : dlens) : R :=
  match c with LDoubletD d _ => litR (d_tc1 d) + litR (d_tc2 d) | LSingletD s _ => litR (s_tc s) end.

Definition posb (p : Z * Z) : bool := ((0 <? fst p) && (0 <=? snd p))%Z%bool.
Definition nzb (p : Z * Z) : bool := (negb (fst p =? 0) && (0 <=? snd p))%Z%bool.
Definition radb (o : option (Z * Z)) : bool := match o with None => true | Some p => nzb p end.
Definition fitb (o : option (Z * Z)) (diam : Z * Z) : bool :=
  match o with
  | None => true
  | Some p => (fst diam * 10 ^ snd p <=? 2 * Z.abs (fst p) * 10 ^ snd diam)%Z
  end.
Definition readyb (c : dlens) : bool :=
  match c with
  | LDoubletD d _ =>
      posb (d_tc1 d) && posb (d_tc2 d) && posb (d_diam d) && nzb (d_fa d) && nzb (d_fb d) && nzb (d_te d) &&
      radb (d_R1 d) && radb (d_R2 d) && radb (d_R3 d) && fitb (d_R1 d) (d_diam d) && fitb (d_R3 d) (d_diam d) &&
      radb (d_n1 d) && radb (d_n2 d) && radb (d_ref d)
  | LSingletD s _ =>
      posb (s_tc s) && posb (s_diam s) && nzb (s_f s) && nzb (s_fb s) && nzb (s_te s) &&
      radb (s_R1 s) && radb (s_R2 s) && fitb (s_R1 s) (s_diam s) && fitb (s_R2 s) (s_diam s) &&
      radb (s_n s) && radb (s_ref s)
  end.

Lemma pow10_pos k : (0 <= k)%Z -> 0 < IZR (10 ^ k).
Proof. intros. apply IZR_lt. apply Z.pow_pos_nonneg; lia. Qed.
Lemma posb_ok p : posb p = true -> 0 < litR p /\ lit p = Fin (litR p).
Proof.
  unfold posb. rewrite andb_true_iff. intros [H1 H2]. apply Z.ltb_lt in H1. apply Z.leb_le in H2.
  split; [|now apply lit_xr]. unfold litR. apply Rdiv_lt_0_compat; [now apply IZR_lt|now apply pow10_pos].
Qed.
Lemma nzb_ok p : nzb p = true -> litR p <> 0 /\ lit p = Fin (litR p).
Proof.
  unfold nzb. rewrite andb_true_iff, negb_true_iff. intros [H1 H2]. apply Z.eqb_neq in H1. apply Z.leb_le in H2.
  split; [|now apply lit_xr]. unfold litR, Rdiv. pose proof (pow10_pos _ H2).
  apply Rmult_integral_contrapositive_currified; [now apply not_0_IZR|]. apply Rinv_neq_0_compat. lra.
Qed.
Lemma radb_ok o : radb o = true ->
  radius_ok (radius (omap lit o)) /\ curv (radius (omap lit o)) = kR o.
Proof.
  destruct o as [p|]; cbn [omap radius radb kR]; [|intros; now split].
  intros H. destruct (nzb_ok p H) as [H1 ->]. now split.
Qed.
Lemma fitb_ok o d : radb o = true -> posb d = true -> fitb o d = true -> fits (radius (omap lit o)) (litR d).
Proof.
  destruct o as [p|]; cbn [omap radius radb fitb]; [|intros; exact Logic.I].
  intros H Hd F. destruct (nzb_ok p H) as [_ ->]. cbn [fits]. apply Z.leb_le, IZR_le in F.
  unfold nzb, posb in *. rewrite andb_true_iff in *. destruct H as [_ H]. destruct Hd as [_ Hd].
  apply Z.leb_le in H, Hd. pose proof (pow10_pos _ H) as P1. pose proof (pow10_pos _ Hd) as P2.
  unfold litR. rewrite !mult_IZR, abs_IZR in F.
  unfold Rdiv at 3. rewrite Rabs_mult, Rabs_inv, (Rabs_pos_eq (IZR (10 ^ snd p))) by lra.
  set (a := IZR (fst d)) in *. set (b := IZR (10 ^ snd p)) in *. set (e := IZR (10 ^ snd d)) in *.
  set (r := Rabs (IZR (fst p))) in *.
  apply (Rmult_le_reg_r (2 * (e * b))); [nra|].
  replace (a / e / 2 * (2 * (e * b))) with (a * b) by (field; lra).
  replace (r * / b * (2 * (e * b))) with (2 * r * e) by (field; lra). exact F.
Qed.

Lemma glass_index_ok name d w : In (name, d) catalogue_data -> 28/100 <= w <= 7 ->
  glass_index (map_disp lit d) (Fin w) = Ok (Fin (idxR d w)).
Proof.
  intros H Hw. unfold glass_index, real_index. cbn [snd].
  rewrite (proj1 (index_value_lit name d w H Hw)). reflexivity.
Qed.

(** the wavelength at which a class is evaluated *)
Definition sees (c : dlens) (wl : option R) (w : R) : Prop :=
  match wl with
  | Some w' => takes c = true /\ w = w'
  | None => match reference c with Some p => w = litR p | None => True end
  end.
Definition resolved (c : dlens) : lens_class XR (dispersion XR) := resolve_class lit (material catalogue) c.
Definition surfs_at (c : dlens) (is : list ix) (w : R) := surfsR c (map (fun i => ixR i w) is).

Lemma known_ixs c is : readyb c = true -> ixs c = Some is -> Forall known is.
Proof.
  intros Hr H. destruct c as [d t|s t]; cbn in H, Hr.
  - destruct (d_mat1 d) as [a|], (d_mat2 d) as [b|], (d_n1 d) as [x|], (d_n2 d) as [y|], (d_ref d); try discriminate.
    + destruct (material catalogue_data a) eqn:Ea; [|discriminate].
      destruct (material catalogue_data b) eqn:Eb; [|discriminate]. injection H as <-.
      apply material_In in Ea, Eb. constructor; [|constructor; [|constructor]]; eexists; eauto.
    + injection H as <-. rewrite !andb_true_iff in Hr. destruct Hr as (((_ & Hx) & Hy) & _).
      constructor; [|constructor; [|constructor]]; cbn; now apply nzb_ok.
  - destruct (s_mat s) as [a|], (s_n s), (s_ref s); try discriminate.
    destruct (material catalogue_data a) eqn:Ea; [|discriminate]. injection H as <-.
    apply material_In in Ea. constructor; [|constructor]. eexists; eauto.
Qed.

Definition is_built (c : dlens) (wl : option R) (b : built XR) (A C : R) : Prop :=
  construct (resolved c) (omap Fin wl) = Ok b /\
  air_lens (b_elem b) (lengthR c) A C (litR (diameter c)) /\ b_design b = Fin (litR (design c)) /\
  ~ In WThickness (b_warn b) /\ (In WFocal (b_warn b) <-> far_off (- 1 / C) (litR (design c))) /\
  (In WBack (b_warn b) <-> far_off (- A / C) (litR (back c))).

Theorem construct_ok c is wl w : readyb c = true -> ixs c = Some is -> sees c wl w -> 28/100 <= w <= 7 ->
  let l := surfs_at c is w in
  1/100000 < Rabs (elC l) -> exists b, is_built c wl b (elA l) (elC l).
Proof.
  intros Hr Hi Hs Hw l HC.
  assert (HC0 : elC l <> 0) by (intros E; rewrite E, Rabs_R0 in HC; lra).
  pose proof (known_ixs c is Hr Hi) as Hk.
  destruct c as [d t|s t]; cbn in Hr; rewrite !andb_true_iff in Hr.
  - destruct Hr as (((((((((((((P1 & P2) & P3) & P4) & P5) & P6) & Q1) & Q2) & Q3) & F1) & F3) & N1) & N2) & N3).
    destruct (posb_ok _ P1) as [L1 E1]. destruct (posb_ok _ P2) as [L2 E2].
    destruct (posb_ok _ P3) as [L3 E3]. destruct (nzb_ok _ P4) as [Z4 E4].
    destruct (nzb_ok _ P5) as [Z5 E5]. destruct (nzb_ok _ P6) as [Z6 E6].
    destruct (radb_ok _ Q1) as [R1 K1]. destruct (radb_ok _ Q2) as [R2 K2]. destruct (radb_ok _ Q3) as [R3 K3].
    pose proof (fitb_ok _ _ Q1 P3 F1) as T1. pose proof (fitb_ok _ _ Q3 P3 F3) as T3.
    assert (Hn : exists x y, is = [x; y] /\ ixR x w <> 0 /\ ixR y w <> 0 /\
      construct (resolved (LDoubletD d t)) (omap Fin wl) =
      (e <- AchromatDoublet (radius (omap lit (d_R1 d))) (radius (omap lit (d_R2 d))) (radius (omap lit (d_R3 d)))
         (lit (d_tc1 d)) (lit (d_tc2 d)) (Fin (ixR x w)) (Fin (ixR y w)) (lit (d_diam d));;
       ws <- verify e (Ok WThickness) (nadd (lit (d_tc1 d)) (lit (d_tc2 d))) (lit (d_fa d)) (lit (d_fb d))
         (radius (omap lit (d_R1 d))) (radius (omap lit (d_R3 d))) (lit (d_te d));;
       Ok (mkBuilt e ws (lit (d_fa d))))).
    { unfold resolved. cbn [resolve_class construct].
      unfold AchromatDoubletLens, doublet_indices.
      cbn [d_mat1 d_mat2 d_n1 d_n2 d_ref d_R1 d_R2 d_R3 d_tc1 d_tc2 d_te d_fa d_fb d_diam].
      cbn in Hi. destruct (d_mat1 d) as [a|], (d_mat2 d) as [b|], (d_n1 d) as [x|], (d_n2 d) as [y|], (d_ref d) as [r|] eqn:Er;
        try discriminate.
      - rewrite !material_catalogue. destruct (material catalogue_data a) as [x|] eqn:Ea; [|discriminate].
        destruct (material catalogue_data b) as [y|] eqn:Eb; [|discriminate]. injection Hi as <-.
        apply material_In in Ea, Eb.
        exists (Glass x), (Glass y). split; [reflexivity|]. cbn [ixR].
        split; [pose proof (proj2 (index_value_lit _ _ w Ea Hw)); lra|].
        split; [pose proof (proj2 (index_value_lit _ _ w Eb Hw)); lra|].
        cbn [omap]. destruct wl as [w'|]; cbn in Hs; cbn [omap].
        + destruct Hs as [-> <-]. rewrite (glass_index_ok _ _ w Ea Hw), (glass_index_ok _ _ w Eb Hw). reflexivity.
        + rewrite Er in Hs. subst w. cbn in N3. rewrite (proj2 (nzb_ok _ N3)).
          rewrite (glass_index_ok _ _ _ Ea Hw), (glass_index_ok _ _ _ Eb Hw). now destruct t.
      - injection Hi as <-. exists (Const x), (Const y). split; [reflexivity|]. cbn [ixR].
        cbn in N1, N2. destruct (nzb_ok _ N1) as [Z1 Y1]. destruct (nzb_ok _ N2) as [Z2 Y2].
        split; [exact Z1|]. split; [exact Z2|]. cbn [omap]. rewrite Y1, Y2.
        destruct wl as [w'|]; cbn in Hs; cbn [omap]; [destruct Hs as [-> _]; reflexivity|now destruct t]. }
    destruct Hn as (x & y & -> & Hx & Hy & EA). unfold is_built. rewrite EA.
    rewrite E1, E2, E3, E4, E5, E6.
    destruct (doublet_matrix (radius (omap lit (d_R1 d))) (radius (omap lit (d_R2 d))) (radius (omap lit (d_R3 d)))
      (litR (d_tc1 d)) (litR (d_tc2 d)) (ixR x w) (ixR y w) (litR (d_diam d)) Hx Hy R1 R2 R3 L3) as (e & Ee & He).
    { rewrite K1, K2, K3. exact HC0. }
    rewrite K1, K2, K3 in He. rewrite Ee. cbn [bind nadd NumXR xadd].
    destruct (verify_ok e (Ok WThickness) _ _ _ _ (litR (d_fa d)) (litR (d_fb d)) (radius (omap lit (d_R1 d)))
      (radius (omap lit (d_R3 d))) (litR (d_te d)) He HC) as (ws & -> & W1 & W2 & W3); auto; [lra|].
    cbn [bind]. eexists. split; [reflexivity|]. cbn [b_elem b_warn b_design lengthR diameter design back].
    split; [exact He|]. split; [reflexivity|]. split; [exact W1|]. split; [exact W2|exact W3].
  - destruct Hr as ((((((((((P1 & P3) & P4) & P5) & P6) & Q1) & Q2) & F1) & F2) & N1) & N3).
    destruct (posb_ok _ P1) as [L1 E1].
    destruct (posb_ok _ P3) as [L3 E3]. destruct (nzb_ok _ P4) as [Z4 E4].
    destruct (nzb_ok _ P5) as [Z5 E5]. destruct (nzb_ok _ P6) as [Z6 E6].
    destruct (radb_ok _ Q1) as [R1 K1]. destruct (radb_ok _ Q2) as [R2 K2].
    pose proof (fitb_ok _ _ Q1 P3 F1) as T1. pose proof (fitb_ok _ _ Q2 P3 F2) as T2.
    assert (Hn : exists x, is = [x] /\ ixR x w <> 0 /\
      construct (resolved (LSingletD s t)) (omap Fin wl) =
      (e <- SingletLens (radius (omap lit (s_R1 s))) (radius (omap lit (s_R2 s)))
         (lit (s_tc s)) (Fin (ixR x w)) (lit (s_diam s));;
       ws <- verify e (Err AttributeError) (lit (s_tc s)) (lit (s_f s)) (lit (s_fb s))
         (radius (omap lit (s_R1 s))) (radius (omap lit (s_R2 s))) (lit (s_te s));;
       Ok (mkBuilt e ws (lit (s_f s))))).
    { unfold resolved. cbn [resolve_class construct]. 
      cbn in Hi. destruct (s_mat s) as [a|] eqn:Em, (s_n s) as [x|] eqn:En, (s_ref s) as [r|] eqn:Er; try discriminate.
      rewrite material_catalogue. destruct (material catalogue_data a) as [x|] eqn:Ea; [|discriminate]. injection Hi as <-.
      apply material_In in Ea.
      exists (Glass x). split; [reflexivity|]. cbn [ixR].
      split; [pose proof (proj2 (index_value_lit _ _ w Ea Hw)); lra|].
      cbn [omap]. destruct wl as [w'|]; cbn in Hs; cbn [omap].
      + destruct Hs as [-> <-]. unfold SingletLensC, singlet_index.
        cbn [s_mat s_ref s_n s_R1 s_R2 s_tc s_te s_f s_fb s_diam].
        rewrite (glass_index_ok _ _ w Ea Hw). reflexivity.
      + rewrite Er in Hs. subst w. cbn in N3. unfold SingletLensC, singlet_index.
        cbn [s_mat s_ref s_n s_R1 s_R2 s_tc s_te s_f s_fb s_diam]. rewrite (proj2 (nzb_ok _ N3)).
        rewrite (glass_index_ok _ _ _ Ea Hw). now destruct t. }
    destruct Hn as (x & -> & Hx & EA). unfold is_built. rewrite EA.
    rewrite E1, E3, E4, E5, E6.
    destruct (singlet_matrix (radius (omap lit (s_R1 s))) (radius (omap lit (s_R2 s)))
      (litR (s_tc s)) (ixR x w) (litR (s_diam s)) Hx R1 R2 L3) as (e & Ee & He).
    { rewrite K1, K2. exact HC0. }
    rewrite K1, K2 in He. rewrite Ee. cbn [bind nadd NumXR xadd].
    destruct (verify_ok e (Err AttributeError) _ _ _ _ (litR (s_f s)) (litR (s_fb s)) (radius (omap lit (s_R1 s)))
      (radius (omap lit (s_R2 s))) (litR (s_te s)) He HC) as (ws & -> & W1 & W2 & W3); auto.
    cbn [bind]. eexists. split; [reflexivity|]. cbn [b_elem b_warn b_design lengthR diameter design back].
    split; [exact He|]. split; [reflexivity|]. split; [exact W1|]. split; [exact W2|exact W3].
Qed.

(** ** Ranges of the power, with a table of the indices *)
Definition table (grid : list (Z * Z)) : list (string * list itv) :=
  let ws := map idec grid in
  map (fun p => (fst p, let g := ixcI (Glass (snd p)) in map (evI g) ws)) catalogue_data.
Definition rows (tab : list (string * list itv)) (grid : list (Z * Z)) (c : dlens) : list (list itv) :=
  match c with
  | LDoubletD d _ =>
      match d_mat1 d, d_mat2 d, d_n1 d, d_n2 d, d_ref d with
      | Some a, Some b, None, None, Some _ =>
          match material tab a, material tab b with
          | Some x, Some y => map2 (fun u v => [u; v]) x y
          | _, _ => []
          end
      | None, None, Some x, Some y, None => let r := [idec x; idec y] in map (fun _ => r) grid
      | _, _, _, _, _ => []
      end
  | LSingletD s _ =>
      match s_mat s, s_n s, s_ref s with
      | Some a, None, Some _ => match material tab a with Some x => map (fun u => [u]) x | None => [] end
      | _, _, _ => []
      end
  end.
Lemma map2_map {A B C D} (f : B -> C -> D) (g : A -> B) (h : A -> C) l :
  map2 f (map g l) (map h l) = map (fun x => f (g x) (h x)) l.
Proof. induction l; cbn; congruence. Qed.
Lemma rows_ok grid c is : ixs c = Some is -> rows (table grid) grid c = map (row is) grid.
Proof.
  assert (M : forall n, material (table grid) n
    = omap (fun d => map (evI (ixcI (Glass d))) (map idec grid)) (material catalogue_data n)).
  { intros n. apply (material_map (fun d => map (evI (ixcI (Glass d))) (map idec grid))). }
  intros H. destruct c as [d t|s t]; cbn [ixs rows] in *.
  - destruct (d_mat1 d) as [a|], (d_mat2 d) as [b|], (d_n1 d) as [x|], (d_n2 d) as [y|], (d_ref d); try discriminate.
    + rewrite !M. destruct (material catalogue_data a); [|discriminate].
      destruct (material catalogue_data b); [|discriminate]. injection H as <-. cbn [omap].
      rewrite !map_map, map2_map. reflexivity.
    + injection H as <-. reflexivity.
  - destruct (s_mat s) as [a|], (s_n s), (s_ref s); try discriminate.
    rewrite M. destruct (material catalogue_data a); [|discriminate]. injection H as <-. cbn [omap].
    rewrite !map_map. reflexivity.
Qed.
(** enclosure of the matrix element C over the grid *)
Definition rangeC (tab : list (string * list itv)) (grid : list (Z * Z)) (c : dlens) : itv :=
  match rows tab grid c with pa :: r => sweep (ktI c) pa r | [] => Bad end.

(** decreasing steps, in units of 10^-k *)
Fixpoint increasing (m : Z) (l : list Z) : bool :=
  match l with [] => true | x :: t => ((m <=? x) && increasing x t)%Z%bool end.
Definition in_units (k : Z) (l : list Z) : list (Z * Z) := map (fun m => (m, k)) l.
Lemma litR_le k a b : (a <= b)%Z -> (0 <= k)%Z -> litR (a, k) <= litR (b, k).
Proof.
  intros H Hk. unfold litR. cbn [fst snd]. pose proof (pow10_pos k Hk).
  apply Rmult_le_compat_r; [left; now apply Rinv_0_lt_compat|now apply IZR_le].
Qed.
Lemma increasing_le l : forall a, increasing a l = true -> (a <= last l a)%Z.
Proof.
  induction l as [|b t IH]; intros a H; [cbn; lia|]. cbn [increasing] in H. apply andb_true_iff in H as [H1 H2].
  rewrite last_cons_default. specialize (IH b H2). lia.
Qed.
Lemma increasing_grid k l : (0 <= k)%Z -> forall a, increasing a l = true -> litR (last l a, k) <= 7 ->
  grid_ok (a, k) (in_units k l).
Proof.
  intros Hk. induction l as [|b t IH]; intros a H H7; [exact Logic.I|].
  cbn [increasing] in H. apply andb_true_iff in H as [H1 H2]. cbn [in_units map grid_ok].
  rewrite last_cons_default in H7. pose proof (increasing_le t b H2) as L.
  split; [apply litR_le; auto; lia|]. split; [|now apply IH].
  eapply Rle_trans; [|exact H7]. apply litR_le; auto.
Qed.
Lemma last_in_units k l a : last (in_units k l) (a, k) = (last l a, k).
Proof.
  revert a. induction l as [|b t IH]; intros a; [reflexivity|].
  cbn [in_units map]. rewrite !last_cons_default. apply IH.
Qed.

Lemma rangeC_ok k a l c is w : (0 <= k)%Z -> increasing a l = true ->
  28/100 <= litR (a, k) -> litR (last l a, k) <= 7 ->
  readyb c = true -> ixs c = Some is -> litR (a, k) <= w <= litR (last l a, k) ->
  inI (elC (surfs_at c is w)) (rangeC (table (in_units k (a :: l))) (in_units k (a :: l)) c).
Proof.
  intros Hk Hi Ha H7 Hr Hx [H1 H2]. unfold rangeC. rewrite (rows_ok _ _ _ Hx).
  cbn [in_units map]. apply (sweep_ok c is (known_ixs c is Hr Hx) (in_units k l)); auto.
  - now apply increasing_grid.
  - now rewrite last_in_units.
Qed.
(** f / f0 for the power C: - 1 / (C * f0) *)
Definition ratioI (i : itv) (f0 : Z * Z) : itv := idiv (iopp i1) (imul i (idec f0)).
Lemma ratioI_ok x i f0 : inI x i -> x <> 0 -> litR f0 <> 0 -> inI (- 1 / x / litR f0) (ratioI i f0).
Proof.
  intros H Hx Hf. replace (- 1 / x / litR f0) with (- (1) / (x * litR f0)) by (field; auto).
  apply idiv_ok; [apply iopp_ok, i1_ok|]. apply imul_ok; auto. apply idec_ok.
Qed.
Definition strong (i : itv) : bool := (above i (1, 5)%Z || below i (-1, 5)%Z)%bool.
Lemma strong_ok x i : inI x i -> strong i = true -> 1/100000 < Rabs x.
Proof.
  intros H K. unfold strong in K. apply orb_true_iff in K as [K|K].
  - apply (above_ok x) in K; auto. unfold litR in K. cbn [fst snd] in K. change (10 ^ 5)%Z with 100000%Z in K.
    rewrite Rabs_pos_eq; lra.
  - apply (below_ok x) in K; auto. unfold litR in K. cbn [fst snd] in K. change (10 ^ 5)%Z with 100000%Z in K.
    rewrite Rabs_left1; lra.
Qed.

(** everything at once: [i] encloses the power on the grid *)
Lemma built_in_range k a l c is wl w : (0 <= k)%Z -> increasing a l = true ->
  28/100 <= litR (a, k) -> litR (last l a, k) <= 7 ->
  readyb c = true -> ixs c = Some is -> sees c wl w -> litR (a, k) <= w <= litR (last l a, k) ->
  let i := rangeC (table (in_units k (a :: l))) (in_units k (a :: l)) c in
  strong i = true ->
  exists b f, is_built c wl b (elA (surfs_at c is w)) (elC (surfs_at c is w)) /\
    effectiveFocalLengths (emat (b_elem b)) = Ok (Fin f, Fin f) /\ f <> 0 /\
    f = - 1 / elC (surfs_at c is w) /\ inI (f / litR (design c)) (ratioI i (design c)).
Proof.
  intros Hk Hi Ha H7 Hr Hx Hs Hw i Hst.
  pose proof (rangeC_ok k a l c is w Hk Hi Ha H7 Hr Hx Hw) as HI. fold i in HI.
  pose proof (strong_ok _ _ HI Hst) as HC.
  assert (HC0 : elC (surfs_at c is w) <> 0) by (intros E; rewrite E, Rabs_R0 in HC; lra).
  destruct (construct_ok c is wl w Hr Hx Hs ltac:(lra) HC) as (b & Hb).
  exists b, (- 1 / elC (surfs_at c is w)). split; [exact Hb|].
  destruct Hb as (_ & HA & _). split; [exact (air_lens_efl _ _ _ _ _ HA HC)|].
  split; [unfold Rdiv; apply Rmult_integral_contrapositive_currified; [lra|now apply Rinv_neq_0_compat]|].
  split; [reflexivity|]. apply ratioI_ok; auto.
  destruct c as [d t|s t]; cbn in Hr; rewrite !andb_true_iff in Hr; cbn [design]; apply nzb_ok; tauto.
Qed.
