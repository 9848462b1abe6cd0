(** Gaussian beams: specification over the complex numbers and proofs about the model. *)
From Coq Require Import Reals Lra Lia List Bool String ZArith Psatz.
From Verif Require Import Base Nums Optics Spec MatrixProofs ElementProofs GroupProofs
  TraceProofs RayProofs CardinalProofs StrictProofs FlipProofs Beam.
Import ListNotations.
Open Scope list_scope.
Open Scope R_scope.

(** ** Specification *)
(** complex numbers as pairs of reals *)
Definition C2 := (R * R)%type.
Definition normsq (z : C2) : R := fst z * fst z + snd z * snd z.
Definition c2add (a b : C2) : C2 := (fst a + fst b, snd a + snd b).
Definition c2scale (k : R) (a : C2) : C2 := (k * fst a, k * snd a).
Definition c2mul (a b : C2) : C2 :=
  (fst a * fst b - snd a * snd b, fst a * snd b + snd a * fst b).
Definition c2div (a b : C2) : C2 :=
  ((fst a * fst b + snd a * snd b) / normsq b, (snd a * fst b - fst a * snd b) / normsq b).
Definition c2real (x : R) : C2 := (x, 0).
(** the ABCD law: q' = (A q + B) / (C q + D) *)
Definition mobius (M : M2) (q : C2) : C2 :=
  c2div (c2add (c2scale (A_ M) q) (c2real (B_ M))) (c2add (c2scale (C_ M) q) (c2real (D_ M))).

Definition fcx (q : C2) : @cx XR := mkC (Fin (fst q)) (Fin (snd q)).
Definition fbeam (q : C2) (wl z n : R) (clip : bool) : @beam XR :=
  mkBeam (fcx q) (Fin wl) (Fin z) (Fin n) clip.

Lemma c2_eq (a b : C2) : fst a = fst b -> snd a = snd b -> a = b.
Proof. destruct a, b; cbn; intros; congruence. Qed.

Lemma normsq_pos z : z <> (0, 0) -> 0 < normsq z.
Proof.
  intros H. unfold normsq. destruct z as [x y]; cbn in *.
  destruct (Req_dec x 0) as [->|X].
  - assert (y <> 0) by (intros ->; auto). nra.
  - nra.
Qed.
Lemma normsq_0 z : normsq z = 0 -> z = (0, 0).
Proof.
  intros H. destruct (Req_dec (fst z) 0), (Req_dec (snd z) 0); try (apply c2_eq; auto).
  all: unfold normsq in H; exfalso; nra.
Qed.

(** division is the inverse of multiplication *)
Lemma c2div_mul a b : b <> (0, 0) -> c2mul (c2div a b) b = a.
Proof.
  intros H. pose proof (normsq_pos b H). unfold c2mul, c2div, normsq in *.
  destruct a as [p q], b as [x y]; cbn in *. apply c2_eq; cbn; field; lra.
Qed.

(** ** The denominator never vanishes off the real axis *)
Lemma den_nonzero M (x y : R) : y <> 0 -> mdet M <> 0 ->
  0 < normsq (c2add (c2scale (C_ M) (x, y)) (c2real (D_ M))).
Proof.
  intros Hy Hd. apply normsq_pos. intros E. injection E; cbn; intros E1 E2.
  unfold mdet in Hd. assert (C_ M = 0) by nra. assert (D_ M = 0) by nra. nra.
Qed.

Lemma mobius_im M (x y : R) : y <> 0 -> mdet M <> 0 ->
  snd (mobius M (x, y)) = y * mdet M / normsq (c2add (c2scale (C_ M) (x, y)) (c2real (D_ M))).
Proof.
  intros Hy Hd. pose proof (den_nonzero M x y Hy Hd). unfold mobius, c2div.
  cbn [fst snd c2add c2scale c2real]. unfold Rdiv. f_equal. unfold mdet. ring.
Qed.

Lemma mobius_up M q : 0 < snd q -> 0 < mdet M -> 0 < snd (mobius M q).
Proof.
  destruct q as [x y]; cbn [snd]. intros Hy Hd.
  rewrite mobius_im by lra. pose proof (den_nonzero M x y ltac:(lra) ltac:(lra)).
  apply Rdiv_lt_0_compat; auto. now apply Rmult_lt_0_compat.
Qed.

Lemma mobius_id q : mobius mid q = q.
Proof.
  unfold mobius, c2div, normsq; destruct q; cbn. apply c2_eq; cbn; field.
Qed.

Lemma mobius_mul P Q q : snd q <> 0 -> mdet P <> 0 -> mdet Q <> 0 ->
  mobius (mmul Q P) q = mobius Q (mobius P q).
Proof.
  destruct q as [x y]; cbn [snd]. intros Hy HP HQ.
  pose proof (den_nonzero P x y Hy HP) as H1.
  assert (mdet (mmul Q P) <> 0) as HQP.
  { replace (mdet (mmul Q P)) with (mdet Q * mdet P).
    - now apply Rmult_integral_contrapositive_currified.
    - unfold mdet, mmul; cbn; ring. }
  pose proof (den_nonzero (mmul Q P) x y Hy HQP) as H2.
  assert (snd (mobius P (x, y)) <> 0) as H3.
  { rewrite mobius_im by auto. unfold Rdiv. repeat apply Rmult_integral_contrapositive_currified; auto.
    apply Rinv_neq_0_compat; lra. }
  pose proof (den_nonzero Q (fst (mobius P (x, y))) (snd (mobius P (x, y))) H3 HQ) as H4.
  destruct P as [a b c d], Q as [a' b' c' d'].
  unfold mobius, mmul, c2div, c2add, c2scale, c2real, normsq in *. cbn [fst snd A_ B_ C_ D_] in *.
  apply c2_eq; cbn [fst snd]; field; split; try lra.
  all: split; [|lra].
  all: match type of H1 with 0 < ?s1 => match type of H2 with 0 < ?s2 =>
         assert (s1 * s2 <> 0) as HH by (apply Rmult_integral_contrapositive_currified; lra);
         intros E; apply HH; etransitivity; [|exact E]; ring
       end end.
Qed.

(** ** Complex arithmetic of the model on finite numbers *)
Lemma cdiv_fin (a b : C2) : b <> (0, 0) -> cdiv (fcx a) (fcx b) = Ok (fcx (c2div a b)).
Proof.
  intros H. pose proof (normsq_pos b H) as HN. destruct a as [p q], b as [x y].
  unfold cdiv, fcx; cbn [re im fst snd].
  change (nabs (Fin y)) with (Fin (Rabs y)). change (nabs (Fin x)) with (Fin (Rabs x)).
  change (nleb (Fin (Rabs y)) (Fin (Rabs x))) with (Rleb (Rabs y) (Rabs x)).
  change (nleb (Fin (Rabs x)) (Fin (Rabs y))) with (Rleb (Rabs x) (Rabs y)).
  change (neqb (Fin (Rabs x)) (@c0 XR _)) with (Reqb (Rabs x) 0).
  unfold Rleb, Reqb. unfold normsq in HN; cbn [fst snd] in HN.
  destruct (Rle_dec (Rabs y) (Rabs x)) as [L|L].
  - assert (x <> 0) as X.
    { intros ->. rewrite Rabs_R0 in L. pose proof (Rabs_pos y).
      assert (Rabs y = 0) as E by lra. apply H. f_equal.
      destruct (Req_dec y 0); auto. now apply Rabs_no_R0 in H1. }
    destruct (Req_EM_T (Rabs x) 0) as [E|_]; [now apply Rabs_no_R0 in X|].
    change (ndiv (Fin y) (Fin x)) with (xdiv (Fin y) (Fin x)). cbn [xdiv].
    destruct (Req_EM_T x 0); [contradiction|].
    cbn [nadd nmul nsub ndiv NumXR xadd xmul xsub xopp xdiv].
    assert (x + y * (y / x) <> 0) as D.
    { replace (x + y * (y / x)) with ((x * x + y * y) / x) by (field; auto).
      apply Rmult_integral_contrapositive_currified; [lra|now apply Rinv_neq_0_compat]. }
    destruct (Req_EM_T (x + y * (y / x)) 0); [contradiction|].
    do 2 f_equal; unfold c2div, normsq; cbn [fst snd]; f_equal; field; repeat split; auto; lra.
  - assert (y <> 0) as Y.
    { intros ->. rewrite Rabs_R0 in L. apply L, Rabs_pos. }
    destruct (Rle_dec (Rabs x) (Rabs y)); [|lra].
    change (ndiv (Fin x) (Fin y)) with (xdiv (Fin x) (Fin y)). cbn [xdiv].
    destruct (Req_EM_T y 0); [contradiction|].
    cbn [nadd nmul nsub ndiv NumXR xadd xmul xsub xopp xdiv].
    assert (x * (x / y) + y <> 0) as D.
    { replace (x * (x / y) + y) with ((x * x + y * y) / y) by (field; auto).
      apply Rmult_integral_contrapositive_currified; [lra|now apply Rinv_neq_0_compat]. }
    destruct (Req_EM_T (x * (x / y) + y) 0); [contradiction|].
    do 2 f_equal; unfold c2div, normsq; cbn [fst snd]; f_equal; field; repeat split; auto; lra.
Qed.

Lemma cof_fin (x : R) : cof (Fin x) = fcx (x, 0).
Proof. reflexivity. Qed.
Lemma cadd_fin a b : cadd (fcx a) (fcx b) = fcx (c2add a b).
Proof. reflexivity. Qed.
Lemma csub_fin a b : csub (fcx a) (fcx b) = fcx (fst a - fst b, snd a - snd b).
Proof. reflexivity. Qed.
Lemma cmul_fin a b : cmul (fcx a) (fcx b) = fcx (c2mul a b).
Proof. reflexivity. Qed.
Lemma cscale_fin k a : cmul (cof (Fin k)) (fcx a) = fcx (c2scale k a).
Proof.
  rewrite cof_fin, cmul_fin. f_equal. unfold c2mul, c2scale; cbn. f_equal; ring.
Qed.
Lemma ceqb_fin a b : ceqb (fcx a) (fcx b) = true <-> a = b.
Proof.
  destruct a as [x y], b as [u v]. unfold ceqb, fcx; cbn. unfold Reqb.
  destruct (Req_EM_T x u), (Req_EM_T y v); cbn; split; intros H; try congruence; auto;
    try (injection H; intros; contradiction).
Qed.
Lemma czero : cof (@c0 XR _) = fcx (0, 0).
Proof. reflexivity. Qed.

(** ** Reported quantities *)
Lemma isFinite_fin q wl z n cl :
  isFinite (fbeam q wl z n cl) = Ok (if Rlt_dec 0 (snd q) then true else false).
Proof.
  unfold isFinite, fbeam; cbn [bq]. rewrite czero.
  destruct (ceqb (fcx q) (fcx (0, 0))) eqn:E.
  - apply ceqb_fin in E. subst q. cbn [snd]. destruct (Rlt_dec 0 0); [lra|reflexivity].
  - assert (q <> (0, 0)) as Hq by (intros Q; apply ceqb_fin in Q; congruence).
    change (cof (- (@c1 XR _))%num) with (fcx (-(1), 0)).
    rewrite cdiv_fin by auto. cbn [bind]. do 2 f_equal.
    pose proof (normsq_pos q Hq) as HN. unfold c2div, fcx; cbn [im fst snd].
    change (nltb (@c0 XR _) (Fin ((0 * fst q - - (1) * snd q) / normsq q)))
      with (Rltb 0 ((0 * fst q - - (1) * snd q) / normsq q)).
    unfold Rltb. replace ((0 * fst q - - (1) * snd q) / normsq q) with (snd q / normsq q)
      by (f_equal; ring).
    destruct (Rlt_dec 0 (snd q)) as [L|L], (Rlt_dec 0 (snd q / normsq q)) as [L'|L']; auto.
    + exfalso. apply L'. now apply Rdiv_lt_0_compat.
    + exfalso. apply L. apply Rmult_lt_reg_r with (/ normsq q).
      * now apply Rinv_0_lt_compat.
      * unfold Rdiv in L'. lra.
Qed.

(** the radius w of a finite beam, from the textbook: 1/q = 1/R - i wl / (n pi w^2) *)
Definition w_spec (q : C2) (wl n : R) : R := sqrt (wl * normsq q / (n * PI * snd q)).

Lemma bw_fin q wl z n cl : 0 < snd q -> 0 < wl -> 0 < n ->
  bw (fbeam q wl z n cl) = Ok (Fin (w_spec q wl n)).
Proof.
  intros Hy Hl Hn. unfold bw. rewrite isFinite_fin.
  destruct (Rlt_dec 0 (snd q)); [|contradiction]. cbn [bind fbeam bq bwl bn].
  change (cof (- (@c1 XR _))%num) with (fcx (-(1), 0)).
  assert (q <> (0, 0)) as Hq by (intros ->; cbn in *; lra).
  pose proof (normsq_pos q Hq) as HN.
  rewrite cdiv_fin by auto. cbn [bind]. unfold c2div, fcx; cbn [im fst snd].
  replace ((0 * fst q - - (1) * snd q) / normsq q) with (snd q / normsq q)
    by (f_equal; ring).
  pose proof PI_RGT_0 as HP.
  unfold pdiv at 1. change (neqb (Fin n) (@c0 XR _)) with (Reqb n 0). unfold Reqb.
  destruct (Req_EM_T n 0); [lra|]. cbn [bind].
  change (nmul (@npi XR _) (Fin (snd q / normsq q))) with (Fin (PI * (snd q / normsq q))).
  assert (0 < PI * (snd q / normsq q)) as HD.
  { apply Rmult_lt_0_compat; auto. now apply Rdiv_lt_0_compat. }
  unfold pdiv. change (neqb (Fin (PI * (snd q / normsq q))) (@c0 XR _))
    with (Reqb (PI * (snd q / normsq q)) 0). unfold Reqb.
  destruct (Req_EM_T (PI * (snd q / normsq q)) 0); [lra|]. cbn [bind].
  change (ndiv (Fin wl) (Fin n)) with (xdiv (Fin wl) (Fin n)). cbn [xdiv].
  destruct (Req_EM_T n 0); [lra|].
  change (ndiv (Fin (wl / n)) (Fin (PI * (snd q / normsq q))))
    with (xdiv (Fin (wl / n)) (Fin (PI * (snd q / normsq q)))). cbn [xdiv].
  destruct (Req_EM_T (PI * (snd q / normsq q)) 0); [lra|].
  assert (0 < wl / n / (PI * (snd q / normsq q))) as HA.
  { repeat apply Rdiv_lt_0_compat; auto. }
  unfold psqrt. change (nltb (Fin (wl / n / (PI * (snd q / normsq q)))) (@c0 XR _))
    with (Rltb (wl / n / (PI * (snd q / normsq q))) 0). unfold Rltb.
  destruct (Rlt_dec (wl / n / (PI * (snd q / normsq q))) 0); [lra|].
  change (nsqrt (Fin (wl / n / (PI * (snd q / normsq q)))))
    with (xsqrt (Fin (wl / n / (PI * (snd q / normsq q))))). cbn [xsqrt].
  destruct (Rlt_dec (wl / n / (PI * (snd q / normsq q))) 0); [lra|].
  unfold w_spec. do 3 f_equal. field. repeat split; lra.
Qed.

Lemma w_spec_pos q wl n : 0 < snd q -> 0 < wl -> 0 < n -> 0 < w_spec q wl n.
Proof.
  intros Hy Hl Hn. unfold w_spec. apply sqrt_lt_R0. pose proof PI_RGT_0.
  assert (q <> (0, 0)) as Hq by (intros ->; cbn in *; lra). pose proof (normsq_pos q Hq).
  apply Rdiv_lt_0_compat; [now apply Rmult_lt_0_compat|].
  apply Rmult_lt_0_compat; [now apply Rmult_lt_0_compat|auto].
Qed.

(** ** Propagation through one element *)
Definition finite_beam (b : @beam XR) : Prop := isFinite b = Ok true.

Lemma mul_beam_ok (m : @mat XR) o q wl z cl :
  describes m o -> physical o -> 0 < onf o -> 0 < onb o -> 0 < snd q -> 0 < wl ->
  exists cl', mul_beam m (fbeam q wl z (onf o) cl) =
    Ok (fbeam (mobius (oM o) q) wl (oL o + z) (onb o) cl') /\ (cl = true -> cl' = true).
Proof.
  intros D Ph P1 P2 Hy Hl. unfold mul_beam. unfold fbeam at 1 2 3 4 5 6. cbn [bn bq bwl bz bclip].
  dsc D.
  change (neqb (Fin (onf o)) (Fin (onf o))) with (Reqb (onf o) (onf o)). unfold Reqb.
  destruct (Req_EM_T (onf o) (onf o)); [|congruence]. cbn [negb].
  rewrite !cscale_fin, !cof_fin, !cadd_fin.
  assert (0 < mdet (oM o)) as HD.
  { destruct Ph as (_ & _ & ->). now apply Rdiv_lt_0_compat. }
  destruct q as [x y]; cbn [snd] in Hy.
  pose proof (den_nonzero (oM o) x y ltac:(lra) ltac:(lra)) as HN.
  rewrite cdiv_fin.
  2:{ intros E. unfold c2real in HN. rewrite E in HN. unfold normsq in HN; cbn in HN. lra. }
  cbn [bind].
  change (nadd (Fin (oL o)) (Fin z)) with (Fin (oL o + z)).
  change (c2div (c2add (c2scale (A_ (oM o)) (x, y)) (B_ (oM o), 0))
                (c2add (c2scale (C_ (oM o)) (x, y)) (D_ (oM o), 0))) with (mobius (oM o) (x, y)).
  change (mkBeam (fcx (mobius (oM o) (x, y))) (Fin wl) (Fin (oL o + z)) (Fin (onb o)) false)
    with (fbeam (mobius (oM o) (x, y)) wl (oL o + z) (onb o) false).
  rewrite bw_fin; auto using mobius_up. cbn [bind].
  eexists. split; [reflexivity|]. intros ->. now destruct (nltb _ _).
Qed.

Definition positive_leaf (km : @kind XR * @mat XR) : Prop :=
  positive (mfi (snd km)) /\ positive (mbi (snd km)) /\
  match fst km with KAxicon _ _ => False | _ => True end.
Lemma leaf_beam_plain k (m : @mat XR) b : match k with KAxicon _ _ => False | _ => True end ->
  leaf_beam k m b = mul_beam m b.
Proof. destruct k; cbn; tauto. Qed.

Lemma describes_positive m o : describes m o -> positive (mfi m) /\ positive (mbi m) ->
  0 < onf o /\ 0 < onb o.
Proof. intros D. dsc D. auto. Qed.

(** the index on either side of a physical chain has the sign kept by its elements *)
Lemma path_optic_nb o os : onb (path_optic o os) = onb (last os o).
Proof.
  revert o. induction os as [|x t IH]; intros o; [reflexivity|].
  cbn [path_optic fold_left]. change (fold_left (fun acc x => ocomp x acc) t (ocomp x o))
    with (path_optic (ocomp x o) t). rewrite IH. destruct t; [reflexivity|].
  cbn [last]. clear. revert o0. induction t; intros; [reflexivity|]. apply IHt.
Qed.
Lemma path_optic_nf o os : onf (path_optic o os) = onf o.
Proof.
  revert o. induction os as [|x t IH]; intros o; [reflexivity|].
  change (path_optic o (x :: t)) with (path_optic (ocomp x o) t). rewrite IH. reflexivity.
Qed.

(** state of a beam along the trace *)
Definition good_beam (wl : R) (b : @beam XR) : Prop :=
  exists q z n cl, b = fbeam q wl z n cl /\ 0 < snd q /\ 0 < n.

Definition sign_ok (o : optic) : Prop := 0 < onf o /\ 0 < onb o.

Lemma last_app_ne {A} (l r : list A) d : r <> [] -> last (l ++ r) d = last r d.
Proof.
  intros H. induction l as [|x t IH]; [reflexivity|].
  cbn [app]. destruct (t ++ r) eqn:E.
  - apply app_eq_nil in E. tauto.
  - cbn [last] in *. exact IH.
Qed.
Lemma last_app {A} (l r : list A) d : last (l ++ r) d = last r (last l d).
Proof.
  destruct r.
  - now rewrite app_nil_r.
  - rewrite last_app_ne by discriminate. revert a. clear.
    induction r; intros; [reflexivity|]. cbn [last] in *. apply IHr.
Qed.

(** what the trace of a beam through an element described by [o] does *)
Definition carries (e : @elem XR) (o : optic) : Prop :=
  sign_ok o /\
  forall q wl z cl, 0 < snd q -> 0 < wl ->
  exists l cl', beam_trace e (fbeam q wl z (onf o) cl) = Ok l /\ l <> [] /\
    Forall (good_beam wl) l /\
    last l (fbeam q wl z (onf o) cl) =
      fbeam (mobius (oM o) q) wl (oL o + z) (onb o) cl' /\ (cl = true -> cl' = true).

Lemma sign_det o : physical o -> sign_ok o -> 0 < mdet (oM o).
Proof. intros (_ & _ & ->) [H1 H2]. now apply Rdiv_lt_0_compat. Qed.

(** elements one after the other, after a piece of path [acc] *)
Lemma trace_elems_after es os n :
  Forall2 carries es os -> matched n os ->
  forall acc q0 wl z0 q z cl, onb acc = n -> sign_ok acc -> physical acc ->
    0 < snd q0 -> 0 < wl -> q = mobius (oM acc) q0 -> z = oL acc + z0 ->
    exists l cl', trace_elems beam_trace es (fbeam q wl z n cl) = Ok l /\
      Forall (good_beam wl) l /\ (es <> [] -> l <> []) /\
      last l (fbeam q wl z n cl) =
        fbeam (mobius (oM (path_optic acc os)) q0) wl (oL (path_optic acc os) + z0)
          (onb (path_optic acc os)) cl' /\ (cl = true -> cl' = true).
Proof.
  intros HF. revert n. induction HF as [|e o es os [So Ko] HF IHF]; intros n HM.
  - intros acc q0 wl z0 q z cl <- Hs Hp Hq Hw -> ->.
    exists [], cl. cbn [trace_elems last path_optic fold_left].
    split; [reflexivity|]. split; [constructor|]. split; [congruence|]. auto.
  - cbn [matched] in HM. destruct HM as (En & Ph & HM).
    intros acc q0 wl z0 q z cl Eacc Hs Hp Hq Hw Eq Ez.
    pose proof (sign_det acc Hp Hs) as HDa. pose proof (sign_det o Ph So) as HDo.
    assert (0 < snd q) as Hq' by (subst q; now apply mobius_up).
    destruct (Ko q wl z cl Hq' Hw) as (l1 & cl1 & E1 & N1 & G1 & L1 & C1).
    rewrite <- En. cbn [trace_elems]. rewrite E1. cbn [bind]. rewrite L1.
    destruct (IHF (onb o) HM (ocomp o acc) q0 wl z0 (mobius (oM o) q) (oL o + z) cl1)
      as (l2 & cl2 & E2 & G2 & N2 & L2 & C2); auto.
    + split; [apply Hs|apply So].
    + apply physical_ocomp; auto. congruence.
    + subst q. cbn [ocomp oM]. symmetry. apply mobius_mul; lra.
    + subst z. cbn [ocomp oL]. ring.
    + rewrite E2. cbn [bind].
      exists (l1 ++ l2), cl2. split; [reflexivity|].
      split; [apply Forall_app; auto|].
      split; [intros _ E; apply app_eq_nil in E; tauto|].
      split; [|auto].
      change (path_optic acc (o :: os)) with (path_optic (ocomp o acc) os).
      rewrite last_app, L1. exact L2.
Qed.

Lemma path_optic_cong a b os : oM a = oM b -> oL a = oL b -> onb a = onb b ->
  oM (path_optic a os) = oM (path_optic b os) /\ oL (path_optic a os) = oL (path_optic b os) /\
  onb (path_optic a os) = onb (path_optic b os).
Proof.
  revert a b. induction os as [|x t IH]; intros a b E1 E2 E3; [auto|].
  change (path_optic a (x :: t)) with (path_optic (ocomp x a) t).
  change (path_optic b (x :: t)) with (path_optic (ocomp x b) t).
  apply IH; cbn; congruence.
Qed.

Lemma In_last {A} (l : list A) d : In (last l d) (d :: l).
Proof.
  induction l as [|x t IH]; [left; reflexivity|].
  destruct t; [right; left; reflexivity|].
  destruct IH as [H|H]; [left|right; right]; auto.
Qed.

Lemma sign_path o os : Forall sign_ok (o :: os) -> sign_ok (path_optic o os).
Proof.
  intros H. inversion H as [|? ? H1 H2]; subst.
  split; [rewrite path_optic_nf; apply H1|]. rewrite path_optic_nb.
  rewrite Forall_forall in H. apply (H _ (In_last os o)).
Qed.

Lemma carries_sign es os : Forall2 carries es os -> Forall sign_ok os.
Proof. induction 1; constructor; auto. apply H. Qed.

(** a whole list of elements *)
Lemma trace_elems_ok es o os : Forall2 carries es (o :: os) -> chain (o :: os) ->
  forall q wl z cl, 0 < snd q -> 0 < wl ->
  exists l cl', trace_elems beam_trace es (fbeam q wl z (onf o) cl) = Ok l /\
    Forall (good_beam wl) l /\
    last l (fbeam q wl z (onf o) cl) =
      fbeam (mobius (oM (path_optic o os)) q) wl (oL (path_optic o os) + z)
        (onb (path_optic o os)) cl' /\ (cl = true -> cl' = true).
Proof.
  intros HF [Ph1 HM] q wl z cl Hy Hl.
  assert (sign_ok o) as S1 by (inversion HF as [|? ? ? ? Hc]; apply Hc).
  pose (acc := mkO mid 0 (onf o) (onf o) None None).
  destruct (trace_elems_after es (o :: os) (onf o) HF (conj eq_refl (conj Ph1 HM))
              acc q wl z q z cl) as (l & cl' & E & G & _ & L & Cc); auto.
  - split; apply S1.
  - unfold physical; cbn. rewrite mdet_id. destruct S1. repeat split; try lra. field; lra.
  - cbn [acc oM]. now rewrite mobius_id.
  - cbn [acc oL]. ring.
  - exists l, cl'. split; auto. split; auto. split; auto. rewrite L.
    change (path_optic acc (o :: os)) with (path_optic (ocomp o acc) os).
    destruct (path_optic_cong (ocomp o acc) o os) as (-> & -> & ->); auto.
    + cbn. apply mmul_id_r.
    + cbn. ring.
Qed.

(** a whole element: a leaf, or a group nested to any depth *)
Lemma beam_trace_ok : forall e o, canon e o -> Forall positive_leaf (leaves e) -> carries e o.
Proof.
  induction e as [k m|gk m es IH] using elem_ind'; intros o Hc HP.
  - inversion Hc as [? ? ? HD Ph HS|]; subst. cbn [leaves] in HP.
    inversion HP as [|? ? HP1 HP2]; subst.
    destruct HP1 as (HP1 & HP3 & HA). cbn [fst snd] in *.
    destruct (describes_positive _ _ HD (conj HP1 HP3)) as [P1 P2]. split; [split; auto|].
    intros q wl z cl Hy Hl.
    destruct (mul_beam_ok m o q wl z cl) as (cl' & E & Hcl); auto.
    exists [fbeam (mobius (oM o) q) wl (oL o + z) (onb o) cl'], cl'.
    cbn [beam_trace]. rewrite (leaf_beam_plain _ _ _ HA), E. cbn [bind]. split; [reflexivity|]. split; [discriminate|].
    split; [|split; auto].
    constructor; [|constructor]. do 4 eexists. split; [reflexivity|]. split; auto.
    apply mobius_up; auto. apply sign_det; auto. split; auto.
  - inversion Hc as [|m' e es' o1 os HF HC HG HD]; subst. clear Hc HG HD.
    cbn [leaves] in HP.
    assert (Forall2 carries (e :: es') (o1 :: os)) as HF'.
    { clear HC. revert IH HP. induction HF as [|a b la lb Ha HF IHF]; intros IH HP; [constructor|].
      cbn [flat_map] in HP. apply Forall_app in HP. inversion IH; subst.
      constructor; [apply H1; tauto|apply IHF; tauto]. }
    assert (sign_ok (path_optic o1 os)) as SP by (apply sign_path; eapply carries_sign; eauto).
    split; auto. intros q wl z cl Hy Hl.
    destruct (trace_elems_ok (e :: es') o1 os HF' HC q wl z cl Hy Hl) as (l & cl' & E & G & L & Cc).
    rewrite path_optic_nf in *.
    exists (fbeam q wl z (onf o1) cl :: l), cl'.
    cbn [beam_trace]. rewrite E. cbn [bind]. split; [reflexivity|]. split; [discriminate|].
    split; [constructor; auto; do 4 eexists; split; [reflexivity|]; split; auto|].
    { destruct SP as [SP _]. now rewrite path_optic_nf in SP. }
    split; auto.
    replace (last (fbeam q wl z (onf o1) cl :: l) (fbeam q wl z (onf o1) cl))
      with (last l (fbeam q wl z (onf o1) cl)) by (destruct l; reflexivity).
    exact L.
Qed.

Lemma carries_all es os : Forall2 canon es os -> Forall positive_leaf (flat_map leaves es) ->
  Forall2 carries es os.
Proof.
  induction 1 as [|a b la lb Ha HF IHF]; intros HP; [constructor|].
  cbn [flat_map] in HP. apply Forall_app in HP.
  constructor; [apply beam_trace_ok; tauto|apply IHF; tauto].
Qed.

(** ** Same result through the product and through the elements in turn *)
Definition same_place (a b : @beam XR) : Prop := bq a = bq b /\ bz a = bz b /\ bn a = bn b.

Fixpoint mul_beams (ms : list (@mat XR)) (b : @beam XR) : res (@beam XR) :=
  match ms with [] => Ok b | m :: t => b' <- mul_beam m b;; mul_beams t b' end.

Lemma mul_beams_ok ms os n : Forall2 describes ms os -> matched n os -> Forall sign_ok os ->
  forall acc q0 wl z0 q z cl, onb acc = n -> sign_ok acc -> physical acc ->
    0 < snd q0 -> 0 < wl -> q = mobius (oM acc) q0 -> z = oL acc + z0 ->
    exists cl', mul_beams ms (fbeam q wl z n cl) =
      Ok (fbeam (mobius (oM (path_optic acc os)) q0) wl (oL (path_optic acc os) + z0)
          (onb (path_optic acc os)) cl').
Proof.
  intros HF. revert n. induction HF as [|m o ms os D HF IH]; intros n HM HS.
  - intros acc q0 wl z0 q z cl <- Hs Hp Hq Hw -> ->. exists cl. reflexivity.
  - cbn [matched] in HM. destruct HM as (En & Ph & HM). inversion HS as [|? ? So HSt]; subst.
    intros acc q0 wl z0 q z cl Eacc Hs Hp Hq Hw Eq Ez.
    pose proof (sign_det acc Hp Hs) as HDa. pose proof (sign_det o Ph So) as HDo.
    assert (0 < snd q) as Hq' by (subst q; now apply mobius_up).
    destruct (mul_beam_ok m o q wl z cl D Ph (proj1 So) (proj2 So) Hq' Hw) as (cl1 & E1 & _).
    cbn [mul_beams]. rewrite E1. cbn [bind].
    apply (IH (onb o) HM HSt (ocomp o acc) q0 wl z0); auto.
    + split; [apply Hs|apply So].
    + apply physical_ocomp; auto.
    + subst q. cbn [ocomp oM]. symmetry. apply mobius_mul; lra.
    + subst z. cbn [ocomp oL]. ring.
Qed.

Lemma beams_compose (es : list (@elem XR)) os lab :
  Forall2 canon es os -> chain os -> good os -> os <> [] ->
  Forall positive_leaf (flat_map leaves es) ->
  exists g, MatrixGroup_new es lab = Ok g /\
    forall q wl z cl o t, os = o :: t -> 0 < snd q -> 0 < wl ->
    exists b1 b2 b3,
      mul_beam (gmat g) (fbeam q wl z (onf o) cl) = Ok b1 /\
      mul_beams (map emat es) (fbeam q wl z (onf o) cl) = Ok b2 /\
      beam_through (grp_elem g) (fbeam q wl z (onf o) cl) = Ok b3 /\
      bq b1 = fcx (mobius (mprod (map oM os)) q) /\
      bz b1 = Fin (total_length os + z) /\
      same_place b1 b2 /\ same_place b1 b3.
Proof.
  intros HF HC HG Hn HP.
  destruct (MatrixGroup_canon es os lab HF HC HG Hn) as (g & G1 & G2 & _ & _ & _ & _ & G).
  exists g. split; [exact G1|]. intros q wl z cl o t -> Hy Hl.
  pose proof (G o t eq_refl) as Hg.
  assert (Forall positive_leaf (leaves (grp_elem g))) as HPg.
  { unfold grp_elem. cbn [leaves]. now rewrite G2. }
  destruct (beam_trace_ok _ _ Hg HPg) as [SP K].
  destruct (K q wl z cl Hy Hl) as (l & cl3 & E3 & N3 & _ & L3 & _).
  pose proof (canon_describes _ _ Hg) as Dg. cbn [emat grp_elem] in Dg.
  pose proof (canon_physical _ _ Hg) as Pg.
  destruct (mul_beam_ok _ _ q wl z cl Dg Pg (proj1 SP) (proj2 SP) Hy Hl) as (cl1 & E1 & _).
  pose proof (carries_all _ _ HF HP) as HK. pose proof (carries_sign _ _ HK) as HS.
  destruct HC as [Ph HM].
  assert (sign_ok o) as So by (inversion HS; auto).
  pose (acc := mkO mid 0 (onf o) (onf o) None None).
  assert (Forall2 describes (map emat es) (o :: t)) as HD.
  { apply Forall2_canon_desc in HF. clear - HF. induction HF; constructor; auto. }
  destruct (mul_beams_ok (map emat es) (o :: t) (onf o) HD (conj eq_refl (conj Ph HM)) HS
              acc q wl z q z cl) as (cl2 & E2); auto.
  { split; apply So. }
  { unfold physical; cbn. rewrite mdet_id. destruct So. repeat split; try lra. field; lra. }
  { cbn [acc oM]. now rewrite mobius_id. }
  { cbn [acc oL]. ring. }
  rewrite path_optic_nf in *.
  do 3 eexists. split; [exact E1|]. split; [exact E2|].
  split; [unfold beam_through; rewrite E3; cbn [bind]; rewrite L3; reflexivity|].
  change (path_optic acc (o :: t)) with (path_optic (ocomp o acc) t).
  destruct (path_optic_cong (ocomp o acc) o t) as (-> & -> & ->);
    [cbn; apply mmul_id_r|cbn; ring|reflexivity|].
  split; [|split; [|split; (split; [reflexivity|split; reflexivity])]].
  - cbn [fbeam bq]. rewrite path_optic_M. cbn [map]. now rewrite mprod_cons.
  - cbn [fbeam bz]. do 2 f_equal. clear.
    assert (forall l a, oL (path_optic a l) = oL a + total_length l) as H.
    { induction l as [|x l IH]; intros a; [unfold total_length; cbn; ring|].
      change (path_optic a (x :: l)) with (path_optic (ocomp x a) l). rewrite IH.
      unfold total_length; cbn. ring. }
    rewrite H. reflexivity.
Qed.

(** ** A finite beam stays finite *)
Lemma good_finite wl b : 0 < wl -> good_beam wl b ->
  isFinite b = Ok true /\ exists w, bw b = Ok (Fin w) /\ 0 < w.
Proof.
  intros Hl (q & z & n & cl & -> & Hy & Hn). split.
  - rewrite isFinite_fin. now destruct (Rlt_dec 0 (snd q)).
  - exists (w_spec q wl n). split; [now apply bw_fin|now apply w_spec_pos].
Qed.

Lemma stays_finite (es : list (@elem XR)) os lab :
  Forall2 canon es os -> chain os -> good os -> os <> [] ->
  Forall positive_leaf (flat_map leaves es) ->
  exists g, MatrixGroup_new es lab = Ok g /\
    forall q wl z cl, 0 < wl -> isFinite (fbeam q wl z (onf (hd o_aperture os)) cl) = Ok true ->
    exists l, beam_trace (grp_elem g) (fbeam q wl z (onf (hd o_aperture os)) cl) = Ok l /\
      l <> [] /\
      Forall (fun b => isFinite b = Ok true /\ exists w, bw b = Ok (Fin w) /\ 0 < w) l.
Proof.
  intros HF HC HG Hn HP.
  destruct (MatrixGroup_canon es os lab HF HC HG Hn) as (g & G1 & G2 & _ & _ & _ & _ & G).
  exists g. split; [exact G1|]. intros q wl z cl Hl Hf.
  destruct os as [|o t]; [congruence|]. cbn [hd] in *.
  rewrite isFinite_fin in Hf. destruct (Rlt_dec 0 (snd q)) as [Hy|]; [|congruence].
  assert (Forall positive_leaf (leaves (grp_elem g))) as HPg.
  { unfold grp_elem. cbn [leaves]. now rewrite G2. }
  destruct (beam_trace_ok _ _ (G o t eq_refl) HPg) as [SP K].
  destruct (K q wl z cl Hy Hl) as (l & cl3 & E3 & N3 & F3 & _).
  rewrite path_optic_nf in *.
  exists l. split; auto. split; auto.
  eapply Forall_impl; [|exact F3]. intros b Hb. now apply (good_finite wl).
Qed.

(** ** Clipping *)
Section Clip.
Context {T : Type} {N : Num T}.

Lemma mul_beam_clip (m : @mat T) b b' : mul_beam m b = Ok b' ->
  (bclip b = true -> bclip b' = true) /\
  (bclip b' = false -> exists w, bw b' = Ok w /\ nltb (ndiv (mdiam m) c2) (nabs w) = false).
Proof.
  unfold mul_beam. destruct (negb _); [discriminate|].
  destruct (cdiv _ _) as [q'|]; [|discriminate]. cbn [bind].
  match goal with |- context [bw ?o] => assert (forall c, bw (mkBeam q' (bwl b) (mL m + bz b)%num (mbi m) c) = bw o) as HW end.
  { reflexivity. }
  destruct (bw _) as [w|] eqn:E; [|discriminate]. cbn [bind].
  intros [= <-]. cbn [bclip]. split.
  - intros ->. now destruct (nltb _ _).
  - destruct (nltb _ _) eqn:L; [discriminate|]. intros _. exists w. now rewrite HW.
Qed.

Definition spared (km : @kind T * @mat T) (b : @beam T) : Prop :=
  exists w, bw b = Ok w /\ nltb (ndiv (mdiam (snd km)) c2) (nabs w) = false.

(** flags along a trace *)
Lemma clip_trace : forall (e : @elem T) b l, beam_trace e b = Ok l ->
  (bclip b = true -> Forall (fun b' => bclip b' = true) l) /\
  (bclip (last l b) = false ->
     Forall (fun b' => bclip b' = false) (b :: l) /\
     exists outs, incl outs l /\ Forall2 spared (leaves e) outs).
Proof.
  induction e as [k m|gk m es IH] using elem_ind'; intros b l H.
  - cbn [beam_trace] in H.
    destruct (leaf_beam k m b) as [b'|] eqn:E; [|discriminate].
    assert (mul_beam m b = Ok b') as E0 by (destruct k; cbn [leaf_beam] in E; congruence).
    clear E. rename E0 into E.
    cbn [bind] in H. injection H as <-. destruct (mul_beam_clip _ _ _ E) as [C1 C2].
    split; [intros Hb; constructor; auto|].
    cbn [last]. intros Hf. split.
    + constructor; [|constructor; auto]. destruct (bclip b) eqn:Hb; auto.
      rewrite C1 in Hf; auto.
    + exists [b']. split; [apply incl_refl|]. constructor; [|constructor].
      apply C2. exact Hf.
  - cbn [beam_trace] in H. destruct (trace_elems beam_trace es b) as [l'|] eqn:E; [|discriminate].
    cbn [bind] in H. injection H as <-.
    assert ((bclip b = true -> Forall (fun b' => bclip b' = true) l') /\
            (bclip (last l' b) = false ->
               Forall (fun b' => bclip b' = false) (b :: l') /\
               exists outs, incl outs l' /\ Forall2 spared (flat_map leaves es) outs)) as [K1 K2].
    { clear m gk. revert b l' E. induction IH as [|e es He IH IHes]; intros b l' E.
      - cbn in E. injection E as <-. split; [constructor|]. cbn [last]. intros Hb.
        split; [constructor; auto|]. exists []. split; [apply incl_refl|constructor].
      - cbn [trace_elems] in E. destruct (beam_trace e b) as [l1|] eqn:E1; [|discriminate].
        cbn [bind] in E. destruct (trace_elems beam_trace es (last l1 b)) as [l2|] eqn:E2; [|discriminate].
        cbn [bind] in E. injection E as <-.
        destruct (He _ _ E1) as [A1 A2]. destruct (IHes _ _ E2) as [B1 B2].
        split.
        + intros Hb. apply Forall_app. specialize (A1 Hb). split; auto. apply B1.
          destruct (In_last l1 b) as [Eq|Hin]; [rewrite <- Eq; auto|].
          rewrite Forall_forall in A1. auto.
        + rewrite last_app. intros Hl. destruct (B2 Hl) as [F2 (o2 & I2 & S2)].
          inversion F2 as [|? ? Hm F2']; subst.
          destruct (A2 Hm) as [F1 (o1 & I1 & S1)].
          split.
          * rewrite app_comm_cons. apply Forall_app; auto.
          * exists (o1 ++ o2). split.
            -- apply incl_app; [apply incl_appl|apply incl_appr]; auto.
            -- cbn [flat_map]. now apply Forall2_app. }
    split.
    + intros Hb. constructor; auto.
    + replace (last (b :: l') b) with (last l' b) by (destruct l'; reflexivity).
      intros Hf. destruct (K2 Hf) as [F (outs & I1 & S1)]. split.
      * inversion F; subst. constructor; auto.
      * exists outs. split; [now apply incl_tl|exact S1].
Qed.
End Clip.
