(** Gaussian beams and cavities when every length (the wavelength too) is given in another unit. *)
From Coq Require Import ZArith Reals Lra Lia List Bool String Psatz.
From Verif Require Import Base Nums Optics Imaging Units Spec MatrixProofs ElementProofs GroupProofs TraceProofs RayProofs Beam ScaleProofs.
Import ListNotations.
Open Scope R_scope.

Definition scx (k : R) (z : @cx XR) : @cx XR := mkC (stretch k (re z)) (stretch k (im z)).
Definition sbeam (k : R) (b : @beam XR) : @beam XR := mkBeam (scx k (bq b)) (stretch k (bwl b)) (stretch k (bz b)) (bn b) (bclip b).

Section Beams.
Context (k : R) (Hk : 0 < k).
Notation st := (stretch k).
Notation si := (stretch (/ k)).
Local Lemma Hi : 0 < / k. Proof. now apply Rinv_0_lt_compat. Qed.

Local Lemma Hii : 0 < / / k. Proof. now rewrite Rinv_inv. Qed.
Ltac cases := unfold xsgninf, Reqb, Rltb, Rleb in *;
  repeat match goal with
  | |- context [Rlt_dec ?a ?b] => destruct (Rlt_dec a b)
  | |- context [Rle_dec ?a ?b] => destruct (Rle_dec a b)
  | |- context [Req_EM_T ?a ?b] => destruct (Req_EM_T a b)
  end.
Ltac xr := pose proof Hi as Hi; intros; repeat match goal with x : XR |- _ => destruct x end; cbn; cases; cbn; try reflexivity; try (exfalso; nra).
Lemma nd_num x y : ndiv (st x) y = st (ndiv x y). Proof. xr; f_equal; try ring; field; lra. Qed.
Lemma nd_both x y : ndiv (st x) (st y) = ndiv x y. Proof. xr; f_equal; try ring; field; lra. Qed.
Lemma nd_den x y : ndiv x (st y) = si (ndiv x y).
Proof. rewrite <- (st_si k Hk x) at 1. rewrite nd_both. xr; f_equal; try ring; field; lra. Qed.
Lemma sqrt_st x : psqrt (st (st x)) = rmap st (psqrt x).
Proof.
  unfold psqrt. rewrite !(ltb_0 k Hk). destruct (nltb x c0) eqn:E; [reflexivity|]. cbn [rmap]. f_equal. destruct x as [r| | |]; try reflexivity.
  revert E. cbn. unfold Rltb. destruct (Rlt_dec r 0); [discriminate|]. intros _. destruct (Rlt_dec (k * (k * r)) 0); [exfalso; nra|]. cbn. f_equal.
  rewrite <- Rmult_assoc, sqrt_mult, sqrt_square by nra. reflexivity.
Qed.

Ltac pull := rewrite ?(st_mul_l k Hk), ?(st_mul_r k Hk), ?(st_mul_l (/ k) Hi), ?(st_mul_r (/ k) Hi), ?(st_si k Hk), ?(si_st k Hk),
  ?(pull_add k), ?(pull_sub k), ?(pull_opp k), ?(pull_abs k), ?(pull_add (/ k)), ?(pull_sub (/ k)), ?(pull_opp (/ k)), ?(pull_abs (/ k)),
  ?(eqb_0 k Hk), ?(eqb_0 (/ k) Hi), ?(st_eqb k Hk), ?(st_ltb k Hk), ?(st_leb k Hk), ?nd_both by (assumption || apply Hi).
Lemma scx_cof x : cof (st x) = scx k (cof x).
Proof. unfold cof, scx. cbn [re im]. now rewrite st_0. Qed.
Lemma scx_add a b : cadd (scx k a) (scx k b) = scx k (cadd a b).
Proof. unfold cadd, scx. cbn [re im]. now pull. Qed.
Lemma scx_mul a b : cmul a (scx k b) = scx k (cmul a b).
Proof. unfold cmul, scx. cbn [re im]. now pull. Qed.
Lemma zero_st x : nmul c0 (st x) = nmul c0 x.
Proof. rewrite <- (st_0 (/ k) Hi) at 1. now pull. Qed.
Lemma scx_cancel c b : cmul (cof (si c)) (scx k b) = cmul (cof c) b.
Proof. unfold cmul, scx, cof. cbn [re im]. rewrite !zero_st. now pull. Qed.
Lemma cdiv_num a b : cdiv (scx k a) b = rmap (scx k) (cdiv a b).
Proof.
  unfold cdiv. destruct (nleb (nabs (im b)) (nabs (re b))).
  - destruct (neqb _ c0); [reflexivity|]. cbn [rmap scx re im]. unfold scx. cbn [re im]. pull. now rewrite !nd_num.
  - destruct (nleb _ _); [|reflexivity]. cbn [rmap]. unfold scx. cbn [re im]. pull. now rewrite !nd_num.
Qed.
Lemma cdiv_den a b : cdiv a (scx k b) = rmap (scx (/ k)) (cdiv a b).
Proof.
  unfold cdiv. unfold scx at 1 2 3 4. cbn [re im]. pull. destruct (nleb (nabs (im b)) (nabs (re b))).
  - destruct (neqb _ c0); [reflexivity|]. cbn [rmap]. unfold scx. cbn [re im]. pull. now rewrite !nd_den.
  - unfold scx. cbn [re im]. pull. destruct (nleb _ _); [|reflexivity]. cbn [rmap re im]. now rewrite !nd_den.
Qed.
Lemma ceqb_zero q : ceqb (scx k q) (cof c0) = ceqb q (cof c0).
Proof. unfold ceqb, scx, cof. cbn [re im]. now pull. Qed.
Lemma s_isFinite b : isFinite (sbeam k b) = isFinite b.
Proof.
  unfold isFinite. cbn [sbeam bq]. rewrite ceqb_zero. destruct (ceqb _ _); [reflexivity|]. rewrite cdiv_den. destruct (cdiv _ _) as [i|]; [|reflexivity].
  cbn [rmap bind scx im]. now rewrite (ltb_0l (/ k) Hi).
Qed.
Lemma s_bR b : bR (sbeam k b) = rmap st (bR b).
Proof.
  unfold bR. cbn [sbeam bq]. rewrite ceqb_zero. destruct (ceqb _ _); [reflexivity|]. rewrite cdiv_den. destruct (cdiv _ _) as [i|]; [|reflexivity].
  cbn [rmap bind scx re]. rewrite (eqb_0 (/ k) Hi). destruct (neqb _ _); [reflexivity|].
  rewrite (div_den (/ k) Hi Hii). now rewrite Rinv_inv.
Qed.
Lemma s_bw b : bw (sbeam k b) = rmap st (bw b).
Proof.
  unfold bw. rewrite s_isFinite. destruct (isFinite b) as [[]|]; [|reflexivity..]. cbn [bind sbeam bq bwl bn]. rewrite cdiv_den.
  destruct (cdiv _ _) as [i|]; [|reflexivity]. cbn [rmap bind scx im]. rewrite (div_num k Hk). destruct (pdiv (bwl b) (bn b)) as [a|]; [|reflexivity].
  cbn [rmap bind]. rewrite (st_mul_r (/ k) Hi), (div_den (/ k) Hi Hii), Rinv_inv, (div_num k Hk).
  destruct (pdiv a _) as [x|]; [|reflexivity]. cbn [rmap bind]. apply sqrt_st.
Qed.
Lemma s_bwo b : bwo (sbeam k b) = rmap (omap st) (bwo b).
Proof.
  unfold bwo, bzo. cbn [sbeam bq bwl scx im]. rewrite (ltb_0l k Hk). destruct (nltb _ _); [|reflexivity]. pull.
  rewrite !(div_num k Hk). destruct (pdiv _ _) as [x|]; [|reflexivity]. cbn [rmap bind]. rewrite sqrt_st. destruct (psqrt x); reflexivity.
Qed.
Lemma s_mul_beam m b : mul_beam (smat k m) (sbeam k b) = rmap (sbeam k) (mul_beam m b).
Proof.
  unfold mul_beam. cbn [smat sbeam bn mfi mA mB mC mD bq mL mbi mdiam bz bwl bclip]. destruct (neqb _ _); [|reflexivity]. cbn [negb].
  rewrite scx_mul, scx_cof, scx_add, scx_cancel, cdiv_num. destruct (cdiv _ _) as [q|]; [|reflexivity]. cbn [rmap bind]. pull.
  set (o := mkBeam q (bwl b) (nadd (mL m) (bz b)) (mbi m) false). pose proof (s_bw o) as E. unfold sbeam in E. cbn [o bq bwl bz bn bclip] in E.
  rewrite E. destruct (bw o) as [w|]; [|reflexivity]. cbn [rmap bind]. unfold sbeam. cbn [bq bwl bz bn bclip].
  rewrite (st_half k Hk), (pull_abs k) by assumption. now rewrite (st_ltb k Hk).
Qed.
Lemma s_beam_trace : forall e b, beam_trace (selem k e) (sbeam k b) = rmap (map (sbeam k)) (beam_trace e b).
Proof.
  fix IH 1. intros [x m|g m es] b; cbn [selem beam_trace].
  - assert (leaf_beam (skind k x) (smat k m) (sbeam k b) = rmap (sbeam k) (leaf_beam x m b)) as ->.
    { destruct x; cbn [skind leaf_beam]; try apply s_mul_beam. reflexivity. }
    destruct (leaf_beam x m b); reflexivity.
  - assert (forall b, trace_elems beam_trace (map (selem k) es) (sbeam k b) = rmap (map (sbeam k)) (trace_elems beam_trace es b)) as E.
    { induction es as [|e es IHes]; intros c; [reflexivity|]. cbn [map trace_elems]. rewrite IH. destruct (beam_trace e c) as [l|]; [|reflexivity].
      cbn [rmap bind]. assert (last (map (sbeam k) l) (sbeam k c) = sbeam k (last l c)) as ->.
      { clear. induction l as [|a l IHl]; [reflexivity|]. destruct l; [reflexivity|]. exact IHl. }
      rewrite IHes. destruct (trace_elems _ es _) as [r|]; [|reflexivity]. cbn [rmap bind]. now rewrite map_app. }
    rewrite E. destruct (trace_elems _ es b); reflexivity.
Qed.
(** eigenmodes, when the power of the cavity is seen in both units *)
Lemma s_eigen m : hasPower m = true -> hasPower (smat k m) = true ->
  match eigenModes m, eigenModes (smat k m) with
  | Ok (Some (a, b)), Ok (Some (a', b')) => bq a' = scx k (bq a) /\ bq b' = scx k (bq b) /\ bwl a' = bwl a /\ bwl b' = bwl b
  | Err x, Err y => x = y
  | _, _ => False
  end.
Proof.
  intros H1 H2. unfold eigenModes. rewrite H1, H2. cbn [negb smat mA mB mC mD]. pull. pull.
  assert (forall x y, cdiv x (cof (si y)) = rmap (scx k) (cdiv x (cof y))) as D.
  { intros x y. pose proof (scx_cof (si y)) as Q. rewrite (st_si k Hk) in Q. rewrite Q, cdiv_den. destruct (cdiv _ _) as [z|]; [|reflexivity].
    cbn [rmap]. f_equal. destruct z as [zr zi]. unfold scx. cbn [re im]. now rewrite !(st_si k Hk). }
  rewrite !D. destruct (cdiv _ _) as [q1|]; [|exact eq_refl]. cbn [rmap bind]. destruct (cdiv (csub _ _) _) as [q2|]; [|exact eq_refl]. cbn [rmap bind].
  repeat split.
Qed.
End Beams.

Lemma scx_inv k z : 0 < k -> scx k (scx (/ k) z) = z.
Proof. intros H. destruct z as [zr zi]. unfold scx. cbn [re im]. now rewrite !(st_si k H). Qed.
Lemma scx_inv' k z : 0 < k -> scx (/ k) (scx k z) = z.
Proof. intros H. destruct z as [zr zi]. unfold scx. cbn [re im]. now rewrite !(si_st k H). Qed.
Lemma cdiv_den_inv k a b : 0 < k -> cdiv a (scx (/ k) b) = rmap (scx k) (cdiv a b).
Proof. intros H. rewrite (cdiv_den (/ k)) by now apply Rinv_0_lt_compat. now rewrite Rinv_inv. Qed.
Lemma rmap_rmap {A B C} (f : B -> C) (g : A -> B) r : rmap f (rmap g r) = rmap (fun x => f (g x)) r. Proof. now destruct r. Qed.
Lemma csub_scx k a b : 0 < k -> csub (scx k a) (scx k b) = scx k (csub a b).
Proof. intros H. unfold csub, scx. cbn [re im]. now rewrite !(pull_sub k) by assumption. Qed.
Lemma s_q_of_w k w r n l : 0 < k -> q_of_w (stretch k w) (stretch k r) n (stretch k l) = rmap (scx k) (q_of_w w r n l).
Proof.
  intros H. assert (0 < / k) as Hi by now apply Rinv_0_lt_compat. unfold q_of_w. rewrite (div_den k H Hi). destruct (pdiv c1 r) as [i|]; [|reflexivity].
  cbn [rmap bind]. rewrite (scx_cof k H), (scx_mul k H), (cdiv_num k H). destruct (cdiv _ _) as [a|]; [|reflexivity]. cbn [rmap bind].
  rewrite !(st_mul_r k H), !(st_mul_l k H), !(scx_cof k H), (cdiv_num k H), !(cdiv_den k H), !rmap_rmap.
  destruct (cdiv a _) as [x|]; [|reflexivity]. cbn [rmap bind]. rewrite (scx_inv k _ H), (scx_cof (/ k) Hi), (csub_scx (/ k) _ _ Hi). now apply cdiv_den_inv.
Qed.
Lemma cabs_scx k z : 0 < k -> cabs (scx k z) = stretch k (cabs z).
Proof.
  intros H. unfold cabs, scx. cbn [re im]. rewrite !(st_mul_r k H), !(st_mul_l k H), !(pull_add k) by assumption.
  generalize (nadd (nmul (re z) (re z)) (nmul (im z) (im z))). intros [x| | |]; try reflexivity. cbn. unfold Rltb.
  assert (0 < k * k) as Hkk by nra. destruct (Rlt_dec x 0) as [L|L], (Rlt_dec (k * (k * x)) 0) as [M|M]; try reflexivity.
  - exfalso. apply M. rewrite <- Rmult_assoc. nra.
  - exfalso. apply L. rewrite <- Rmult_assoc in M. nra.
  - cbn. f_equal. rewrite <- Rmult_assoc, sqrt_mult, sqrt_square by lra. reflexivity.
Qed.

(** *** the constructor *)
Definition q_in_unit (k : XR) (q : @cx XR) : @cx XR := mkC (nmul k (re q)) (nmul k (im q)).
(** the same beam in the new unit, in terms of its attributes: q, wavelength and z are lengths *)
Definition beam_in_unit (k : XR) (b : @beam XR) : @beam XR := mkBeam (q_in_unit k (bq b)) (nmul k (bwl b)) (nmul k (bz b)) (bn b) (bclip b).
Lemma q_unit k q : 0 < k -> q_in_unit (Fin k) q = scx k q.
Proof. intros H. unfold q_in_unit, scx. now rewrite !(unit_st k H). Qed.
Lemma beam_unit k b : 0 < k -> beam_in_unit (Fin k) b = sbeam k b.
Proof. intros H. unfold beam_in_unit, sbeam. now rewrite !(unit_st k H), q_unit. Qed.
Lemma s_rel k a b e : 0 < k -> areRelativelyNotEqual_c (scx k a) (scx k b) e = areRelativelyNotEqual_c a b e.
Proof. intros H. unfold areRelativelyNotEqual_c. rewrite csub_scx, !cabs_scx by assumption. now rewrite !(div_den_num k H). Qed.
Lemma units_beam_created k q w r n l z : 0 < k ->
  answer (beam_in_unit (Fin k)) (GaussianBeam q w r n l z)
    (GaussianBeam (option_map (q_in_unit (Fin k)) q) (length_in_unit (Fin k) w) (nmul (Fin k) r) n (nmul (Fin k) l) (nmul (Fin k) z)).
Proof.
  intros H. apply answer_rmap. rewrite !(unit_st k H). unfold GaussianBeam. destruct w as [w|]; cbn [length_in_unit].
  - rewrite (unit_st k H), (s_q_of_w k w r n l H). destruct (q_of_w w r n l) as [p|]; [|reflexivity]. cbn [rmap bind]. destruct q as [q|]; cbn [option_map].
    + rewrite (q_unit k q H), (s_rel k _ _ _ H). destruct (areRelativelyNotEqual_c p q _) as [[]|]; [reflexivity| |reflexivity]. cbn [bind rmap]. now rewrite (beam_unit k _ H).
    + cbn [rmap]. now rewrite (beam_unit k _ H).
  - destruct q as [q|]; [|reflexivity]. cbn [option_map rmap]. now rewrite (beam_unit k _ H), (q_unit k q H).
Qed.
Lemma units_beam_trace k ps e e' b : 0 < k -> assemble ps = Ok e -> assemble (map (in_unit (Fin k)) ps) = Ok e' ->
  answer (map (beam_in_unit (Fin k))) (beam_trace e b) (beam_trace e' (beam_in_unit (Fin k) b)).
Proof.
  intros H A B. rewrite (units_elem k ps e e' H A B), (beam_unit k b H). apply answer_rmap. rewrite (s_beam_trace k H).
  destruct (beam_trace e b) as [l|]; [|reflexivity]. cbn [rmap]. f_equal. apply map_ext. intros a. symmetry. now apply beam_unit.
Qed.
Lemma units_beam_sizes k b : 0 < k -> let b' := beam_in_unit (Fin k) b in
  isFinite b' = isFinite b /\ answer (nmul (Fin k)) (bw b) (bw b') /\ answer (nmul (Fin k)) (bR b) (bR b') /\
  answer (length_in_unit (Fin k)) (bwo b) (bwo b') /\ bzo b' = nmul (Fin k) (bzo b) /\ waistPosition b' = nmul (Fin k) (waistPosition b).
Proof.
  intros H b'. subst b'. rewrite (beam_unit k b H). split; [now apply s_isFinite|]. repeat apply conj.
  - apply answer_rmap. rewrite (s_bw k H). destruct (bw b); [|reflexivity]. cbn [rmap]. now rewrite unit_st.
  - apply answer_rmap. rewrite (s_bR k H). destruct (bR b); [|reflexivity]. cbn [rmap]. now rewrite unit_st.
  - apply answer_rmap. rewrite (s_bwo k H). destruct (bwo b) as [[x|]|]; [|reflexivity..]. cbn [rmap omap length_in_unit]. now rewrite unit_st.
  - unfold bzo. cbn [sbeam bq scx im]. now rewrite unit_st.
  - unfold waistPosition. cbn [sbeam bq scx re]. now rewrite (pull_opp k), unit_st by assumption.
Qed.
(** the modes of a cavity: their q, one by one *)
Definition mode_qs (r : res (list (@beam XR))) : res (list (@cx XR)) := l <- r;; Ok (map bq l).
Lemma units_modes k ps e e' : 0 < k -> assemble ps = Ok e -> assemble (map (in_unit (Fin k)) ps) = Ok e' -> hasPower (emat e) = hasPower (emat e') ->
  answer (map (q_in_unit (Fin k))) (mode_qs (laserModes (emat e))) (mode_qs (laserModes (emat e'))) /\ isStable (emat e') = isStable (emat e).
Proof.
  intros H A B P. assert (emat e' = smat k (emat e)) as M by (rewrite (units_elem k ps e e' H A B); now destruct e). rewrite M in *. clear M A B e'.
  set (m := emat e) in *. clearbody m. unfold isStable, mode_qs, laserModes. destruct (hasPower m) eqn:P1.
  2:{ unfold eigenModes. rewrite <- P, P1. cbn. split; reflexivity. }
  pose proof (s_eigen k H m P1 (eq_sym P)) as E. destruct (eigenModes m) as [[[a b]|]|], (eigenModes (smat k m)) as [[[a' b']|]|]; try contradiction.
  2:{ subst. cbn. split; reflexivity. }
  destruct E as (Ea & Eb & _ & _). cbn [bind].
  assert (forall x y, bq y = scx k (bq x) -> isFinite y = isFinite x) as F.
  { intros x y Q. rewrite <- (s_isFinite k H x). unfold isFinite. cbn [sbeam bq]. now rewrite Q. }
  rewrite (F _ _ Ea), (F _ _ Eb). destruct (isFinite a) as [[]|]; [..|cbn; split; reflexivity]; (destruct (isFinite b) as [[]|]; [..|cbn; split; reflexivity]); cbn;
    rewrite ?Ea, ?Eb, ?(q_unit k _ H); split; reflexivity.
Qed.
