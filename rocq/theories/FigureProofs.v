(** Proofs about Figures.v: surfaces are drawn along their spheres, outlines are closed, elements are drawn where
    they are. *)
From Coq Require Import ZArith List Bool String Reals Lra Lia Psatz.
From Verif Require Import Base Nums Optics Drawing Figures MaterialsProofs.
Import ListNotations.
Open Scope R_scope.
Open Scope list_scope.
Local Notation pt a b := (Fin a, Fin b).

(** ** The sag *)
Lemma c0_xr : @c0 XR _ = Fin 0. Proof. reflexivity. Qed.
Lemma c1_xr : @c1 XR _ = Fin 1. Proof. reflexivity. Qed.
Lemma c2_xr : @c2 XR _ = Fin 2. Proof. reflexivity. Qed.

(** the cosine of the angle to the edge *)
Definition edge_cos (r h : R) : R := R_sqrt.sqrt (1 - h / Rabs r * (h / Rabs r)).
Lemma edge_cos_sqr r h : r <> 0 -> 0 <= h <= Rabs r ->
  0 <= edge_cos r h <= 1 /\ r * r * (edge_cos r h * edge_cos r h) = r * r - h * h.
Proof.
  intros HR [H1 H2]. unfold edge_cos. assert (0 < Rabs r) as HA by now apply Rabs_pos_lt.
  set (q := h / Rabs r). assert (0 <= q <= 1) as [Q1 Q2].
  { unfold q. split; [apply Rmult_le_pos; [auto|left; now apply Rinv_0_lt_compat]|].
    apply (Rmult_le_reg_r (Rabs r)); [auto|]. unfold Rdiv. rewrite Rmult_assoc, Rinv_l; lra. }
  assert (0 <= 1 - q * q) by nra. split.
  - split; [apply sqrt_pos|]. rewrite <- sqrt_1 at 2. apply sqrt_le_1_alt. nra.
  - rewrite sqrt_sqrt by auto. replace (r * r) with (Rabs r * Rabs r) by (rewrite <- Rabs_mult; apply Rabs_right; nra).
    unfold q. field. lra.
Qed.
Lemma edge_cos_lt r h : r <> 0 -> 0 < h <= Rabs r -> edge_cos r h < 1.
Proof.
  intros HR H. destruct (edge_cos_sqr r h) as [[H1 H2] H3]; [auto|lra|]. 
  destruct (Req_dec (edge_cos r h) 1) as [E|]; [|lra]. rewrite E in H3. nra.
Qed.

Lemma sag_ok r h : r <> 0 -> 0 < h <= Rabs r ->
  sag (Fin r) (Fin h) = Ok (Fin (r * (1 - edge_cos r h)), Fin (r * r * (1 - edge_cos r h) / h)).
Proof.
  intros HR H. assert (0 < Rabs r) as HA by now apply Rabs_pos_lt.
  destruct (edge_cos_sqr r h) as [[C1 C2] _]; [auto|lra|].
  unfold sag. cbn [nabs NumXR xabs]. rewrite pdiv_fin by lra. cbn [bind]. rewrite c1_xr, c0_xr.
  set (q := h / Rabs r). assert (0 < q <= 1) as [Q1 Q2].
  { unfold q. split; [apply Rdiv_lt_0_compat; lra|].
    apply (Rmult_le_reg_r (Rabs r)); [auto|]. unfold Rdiv. rewrite Rmult_assoc, Rinv_l; lra. }
  cbn [nleb nltb nopp nmul nsub nsqrt NumXR xleb xltb xopp xmul xsub xadd xsqrt].
  rewrite (Rleb_le q 1) by auto. rewrite Rltb_ge by lra. cbn [bind].
  destruct (Rlt_dec (1 + - (q * q)) 0) as [L|_]; [exfalso; nra|].
  replace (1 + - (q * q)) with (1 - h / Rabs r * (h / Rabs r)) by (unfold q; ring). fold (edge_cos r h).
  cbn [fst snd nsub NumXR xsub xadd xopp]. rewrite pdiv_fin by lra. cbn [bind nmul nabs nsub NumXR xmul xabs xsub xadd xopp].
  apply f_equal, f_equal2; apply f_equal; [ring|].
  rewrite Rabs_mult, (Rabs_right ((1 + - edge_cos r h) / q)).
  - replace (r * r) with (Rabs r * Rabs r) by (rewrite <- Rabs_mult; apply Rabs_right; nra). unfold q. field. split; lra.
  - apply Rle_ge. apply Rmult_le_pos; [lra|]. left. now apply Rinv_0_lt_compat.
Qed.
Lemma sag_steep r h : r <> 0 -> Rabs r < h -> sag (Fin r) (Fin h) = Ok (Fin r, Fin (Rabs r)).
Proof.
  intros HR H. assert (0 < Rabs r) as HA by now apply Rabs_pos_lt.
  unfold sag. cbn [nabs NumXR xabs]. rewrite pdiv_fin by lra. cbn [bind]. rewrite c1_xr, c0_xr.
  assert (1 < h / Rabs r) as Q. { apply (Rmult_lt_reg_r (Rabs r)); [auto|]. unfold Rdiv. rewrite Rmult_assoc, Rinv_l; lra. }
  cbn [nleb NumXR xleb]. rewrite (Rleb_gt (h / Rabs r) 1) by auto. cbn [bind fst snd nsub NumXR xsub xadd xopp].
  rewrite pdiv_fin by lra. cbn [bind nmul nabs nsub NumXR xmul xabs xsub xadd xopp]. apply f_equal, f_equal2; apply f_equal; [ring|].
  f_equal. field.
Qed.
Lemma sag_flat h (r : XR) : (r = PInf \/ r = NInf) -> sag r (Fin h) = Err ZeroDivisionError.
Proof.
  intros [-> | ->]; unfold sag; cbn [nabs NumXR xabs]; rewrite pdiv_fin_inf; cbn [bind]; rewrite c1_xr, c0_xr;
    cbn [nleb nltb nopp nmul nsub NumXR xleb xltb xopp xmul xsub xadd]; (rewrite Rleb_le by lra); (rewrite Rltb_ge by lra);
    cbn [bind fst snd]; rewrite pdiv_zero; reflexivity.
Qed.

(** ** The curve of a surface follows its sphere *)
(** the point of a quadratic Bezier curve at parameter t *)
Definition bezier (p0 p1 p2 : R * R) (t : R) : R * R :=
  ((1 - t) * (1 - t) * fst p0 + 2 * t * (1 - t) * fst p1 + t * t * fst p2,
   (1 - t) * (1 - t) * snd p0 + 2 * t * (1 - t) * snd p1 + t * t * snd p2).
Definition dist2 (p : R * R) (x y : R) : R := (fst p - x) * (fst p - x) + (snd p - y) * (snd p - y).

Lemma bezier_sphere r v h t : r <> 0 -> 0 < h <= Rabs r -> 0 <= t <= 1 ->
  let c := edge_cos r h in let d := r * (1 - c) in let k := r * r * (1 - c) / h in
  r * r <= dist2 (bezier (v, 0) (v, k) (v + d, h) t) (v + r) 0 <= 9 / 8 * (r * r).
Proof.
  intros HR H Ht c d k. destruct (edge_cos_sqr r h) as [[C1 C2] C3]; [auto|lra|]. fold c in C1, C2, C3.
  pose proof (edge_cos_lt r h HR H) as C4. fold c in C4.
  assert (r * r * ((1 - c) * (1 + c)) = h * h) as E by lra.
  assert (dist2 (bezier (v, 0) (v, k) (v + d, h) t) (v + r) 0 =
          r * r + t * t * (1 - t) * (1 - t) * (2 * (r * r) * ((1 - c) * (1 - c) / (1 + c)))) as ->.
  { unfold dist2, bezier. cbn [fst snd]. unfold d, k.
    assert (r * r * (1 - c) / h = h / (1 + c)) as ->.
    { apply (Rmult_eq_reg_r (h * (1 + c))); [|apply Rmult_integral_contrapositive; lra].
      replace (r * r * (1 - c) / h * (h * (1 + c))) with (r * r * ((1 - c) * (1 + c))) by (field; lra).
      rewrite E. field. lra. }
    set (y := (1 - t) * (1 - t) * 0 + 2 * t * (1 - t) * (h / (1 + c)) + t * t * h - 0).
    assert (y * y = r * r * ((1 - c) * (1 + c)) * ((2 * t * (1 - t) / (1 + c) + t * t) * (2 * t * (1 - t) / (1 + c) + t * t))) as ->.
    { rewrite E. unfold y. field. lra. }
    field. lra. }
  assert (0 <= t * (1 - t) <= 1 / 4) as [T1 T2].
  { split; [apply Rmult_le_pos; lra|]. pose proof (Rle_0_sqr (t - 1 / 2)) as Q. unfold Rsqr in Q. lra. }
  assert (0 <= (1 - c) * (1 - c) / (1 + c) <= 1) as [U1 U2].
  { split; [apply Rmult_le_pos; [nra|left; apply Rinv_0_lt_compat; lra]|].
    apply (Rmult_le_reg_r (1 + c)); [lra|]. unfold Rdiv. rewrite Rmult_assoc, Rinv_l by lra. nra. }
  set (u := (1 - c) * (1 - c) / (1 + c)) in *. assert (0 < r * r) as R2 by nra.
  replace (t * t * (1 - t) * (1 - t)) with (t * (1 - t) * (t * (1 - t))) by ring.
  set (w := t * (1 - t)) in *. assert (0 <= w * w <= 1 / 16) as [W1 W2] by (split; nra).
  assert (0 <= w * w * u <= 1 / 16) as [V1 V2] by (split; nra).
  replace (w * w * (2 * (r * r) * u)) with (2 * (r * r) * (w * w * u)) by ring. split; nra.
Qed.

(** ** Outlines are closed *)
Section Closed.
Context {T : Type} {N : Num T}.
Definition start (c : list (T * T)) : option (T * T) := hd_error c.
Definition stop (c : list (T * T)) : option (T * T) := last_opt c.
Fixpoint joined (l : list (list (T * T))) : Prop :=
  match l with
  | a :: ((b :: _) as t) => stop a = start b /\ joined t
  | _ => True
  end.
Definition closed (l : list (list (T * T))) : Prop :=
  joined l /\ exists a b, hd_error l = Some a /\ last_opt l = Some b /\ stop b = start a.
Lemma pair_closed tan (a b : @surface T) h x p : SurfacePair tan a b h x = Ok p -> closed (co_curves (pa_comp p)).
Proof.
  unfold SurfacePair. destruct (negb (isfinite h)); [discriminate|].
  unfold getPathA, getPathB. 
  destruct (su_shape a) as [ra| |aa|], (su_shape b) as [rb| |ab|]; cbn [bind]; try discriminate;
  try (destruct (neqb ra ninf)); try (destruct (neqb rb ninf)); cbn [bind]; try discriminate;
  repeat match goal with |- context [@sag T N ?r h] => destruct (@sag T N r h) as [[? ?]|]; cbn [bind fst snd]; try discriminate end;
  injection 1 as <-; (split; [cbn; auto 10|do 2 eexists; split; [reflexivity|]; split; reflexivity]).
Qed.
End Closed.

(** ** Heights *)
Lemma fold_max (t : list (XR * XR)) : forall m,
  Forall (fun q => exists y, snd q = Fin y) t ->
  exists v, fold_left (fun m q => if nltb m (nabs (snd q)) then nabs (snd q) else m) t (Fin m) = Fin v /\
    m <= v /\ Forall (fun q => exists y, snd q = Fin y /\ Rabs y <= v) t /\
    (v = m \/ Exists (fun q => exists y, snd q = Fin y /\ Rabs y = v) t).
Proof.
  induction t as [|q t IH]; intros m F; cbn [fold_left].
  - exists m. repeat split; auto; lra.
  - inversion F as [|? ? (y & E) F']; subst. rewrite E. cbn [nabs nltb NumXR xabs xltb].
    destruct (Rltb m (Rabs y)) eqn:L.
    + apply Rltb_true in L. destruct (IH (Rabs y) F') as (v & H1 & H2 & H3 & H4). exists v. split; [auto|]. split; [lra|]. split.
      * constructor; [exists y; auto|auto].
      * right. destruct H4 as [->|H4]; [left; eauto|now right].
    + apply Rltb_false in L. destruct (IH m F') as (v & H1 & H2 & H3 & H4). exists v. split; [auto|]. split; [lra|]. split.
      * constructor; [exists y; split; [auto|lra]|auto].
      * destruct H4 as [->|H4]; [now left|right; now right].
Qed.
(** a component whose end points reach the height h and no more *)
Definition reaches (h : R) (c : component XR) : Prop :=
  Forall (fun q => exists y, snd q = Fin y /\ Rabs y <= h) (xy c) /\
  Exists (fun q => exists y, snd q = Fin y /\ Rabs y = h) (xy c).
Lemma reaches_height h c : reaches h c -> comp_height c = Ok (Fin h).
Proof.
  intros [F E]. unfold comp_height. destruct (xy c) as [|p t]; [inversion E|].
  inversion F as [|? ? (y & Ey & Hy) F']; subst. rewrite Ey. change (nabs (Fin y)) with (Fin (Rabs y)).
  destruct (fold_max t (Rabs y)) as (v & H1 & H2 & H3 & H4).
  { eapply Forall_impl; [|exact F']. cbn. intros q (z & Hz & _). eauto. }
  rewrite H1. apply f_equal, f_equal. apply Rle_antisym.
  - destruct H4 as [->|H4]; [auto|]. apply Exists_exists in H4. destruct H4 as (q & Hq & z & Ez & <-).
    rewrite Forall_forall in F'. destruct (F' q Hq) as (z' & Ez' & Hz'). congruence.
  - inversion E as [? ? (z & Ez & <-)|? ? E']; subst.
    + rewrite Ey in Ez. injection Ez as ->. auto.
    + apply Exists_exists in E'. destruct E' as (q & Hq & z & Ez & <-).
      rewrite Forall_forall in H3. destruct (H3 q Hq) as (z' & Ez' & Hz'). congruence.
Qed.
Lemma half_loop_reaches h l : 0 <= h -> Forall (reaches h) l -> l <> [] -> half_loop l (Fin 0) = Ok (Fin h).
Proof.
  intros Hh F Hl. destruct l as [|c l]; [easy|]. inversion F as [|? ? Hc F']; subst. cbn [half_loop].
  rewrite (reaches_height h c Hc). cbn [bind nltb NumXR xltb].
  assert (forall l, Forall (reaches h) l -> half_loop l (Fin h) = Ok (Fin h)) as K.
  { clear. induction l as [|c l IH]; intros F; cbn [half_loop]; [reflexivity|]. inversion F as [|? ? Hc F']; subst.
    rewrite (reaches_height h c Hc). cbn [bind nltb NumXR xltb]. rewrite Rltb_ge by lra. auto. }
  destruct (Rltb 0 h) eqn:L; [auto|]. apply Rltb_false in L. replace h with 0 in * by lra. auto.
Qed.
Lemma labelled_reaches h l x : 0 <= h -> Forall (reaches h) l -> l <> [] ->
  labelled l x = Ok (mkGraphic l x) /\ halfHeight (mkGraphic l x) = Ok (Fin h).
Proof.
  intros Hh F Hl. assert (halfHeight (mkGraphic l x) = Ok (Fin h)) as E.
  { unfold halfHeight. cbn [gr_comp]. rewrite c0_xr, (half_loop_reaches h) by auto. cbn. reflexivity. }
  split; [|exact E]. unfold labelled. destruct l as [|c l]; [easy|]. cbn [flat_map].
  inversion F as [|? ? [_ Hc] _]; subst. destruct (xy c) as [|p t] eqn:Ex; [inversion Hc|]. cbn [app]. now rewrite E.
Qed.

(** ** A surface at v, up to the height h *)
(** the radius of a surface: None for a plane, [radius_of] undefined for cones *)
Definition good (s : @surface XR) : Prop :=
  match su_shape s with Flat | Spherical PInf => True | Spherical (Fin r) => r <> 0 | _ => False end.
Definition edge (r h : R) : R := if Rle_dec h (Rabs r) then r * (1 - edge_cos r h) else r.
Definition ctl (r h : R) : R := if Rle_dec h (Rabs r) then r * r * (1 - edge_cos r h) / h else Rabs r.
Lemma sag_fin r h : r <> 0 -> 0 < h -> sag (Fin r) (Fin h) = Ok (Fin (edge r h), Fin (ctl r h)).
Proof.
  intros Hr Hh. unfold edge, ctl. destruct (Rle_dec h (Rabs r)); [now apply sag_ok|apply sag_steep; [auto|lra]].
Qed.
(** distance of the corner from the vertex *)
Definition bend (s : @surface XR) (h : R) : R :=
  match su_shape s with Spherical (Fin r) => edge r h | _ => 0 end.
Definition front_curves (s : @surface XR) (v h : R) : list (list (XR * XR)) :=
  match su_shape s with
  | Spherical (Fin r) => [[pt (v + edge r h) (- h); pt v (- ctl r h); pt v 0]; [pt v 0; pt v (ctl r h); pt (v + edge r h) h]]
  | _ => [[pt v (- h); pt v h]]
  end.
Definition back_curves (s : @surface XR) (v h c1 : R) : list (list (XR * XR)) :=
  match su_shape s with
  | Spherical (Fin r) =>
      [[pt c1 h; pt (v + edge r h) h]; [pt (v + edge r h) h; pt v (ctl r h); pt v 0];
       [pt v 0; pt v (- ctl r h); pt (v + edge r h) (- h)]; [pt (v + edge r h) (- h); pt c1 (- h)]]
  | _ => [[pt c1 h; pt v h]; [pt v h; pt v (- h)]; [pt v (- h); pt c1 (- h)]]
  end.
Lemma front_ok tan s v h L : good s -> 0 < h -> su_L s = Fin L -> L <> 0 ->
  getPathA tan s (Fin h) (Fin v) = Ok (front_curves s v h, Fin (v + bend s h), Fin L).
Proof.
  unfold good, getPathA, front_curves, bend. intros G Hh EL HL. destruct (su_shape s) as [[r| | |]| | |]; try contradiction;
    cbn [neqb NumXR xeqb ninf nopp xopp]; rewrite ?EL, ?Rplus_0_r; try reflexivity.
  rewrite sag_fin by auto. cbn [bind fst snd nadd nopp nmul neqb NumXR xadd xopp xmul xeqb]. rewrite c0_xr. cbn [xeqb].
  rewrite Reqb_neq by auto. reflexivity.
Qed.
Lemma back_ok tan s v h c1 : good s -> 0 < h ->
  getPathB tan s (Fin h) (Fin v) (Fin c1) = Ok (back_curves s v h c1, Fin (v + bend s h)).
Proof.
  unfold good, getPathB, back_curves, bend. intros G Hh. destruct (su_shape s) as [[r| | |]| | |]; try contradiction;
    cbn [neqb NumXR xeqb ninf nopp xopp]; rewrite ?Rplus_0_r; try reflexivity.
  rewrite sag_fin by auto. cbn [bind fst snd nadd nopp NumXR xadd xopp]. reflexivity.
Qed.
Lemma isfinite_fin h : isfinite (Fin h) = true.
Proof. unfold isfinite. rewrite c0_xr. cbn. replace (h + - h) with 0 by ring. apply Reqb_refl. Qed.
Lemma pair_ok tan a b x h L : good a -> good b -> 0 < h -> su_L a = Fin L -> L <> 0 ->
  SurfacePair tan a b (Fin h) (Fin x) =
  Ok (mkPair (mkComp (front_curves a x h ++ back_curves b (x + L) h (x + bend a h)) true)
        (Fin (x + bend a h)) (Fin (x + L + bend b h)) (Fin L)).
Proof.
  intros Ga Gb Hh EL HL. unfold SurfacePair. rewrite isfinite_fin. cbn [negb]. rewrite (front_ok tan a x h L) by auto.
  cbn [bind nadd NumXR xadd]. rewrite back_ok by auto. reflexivity.
Qed.

(** surfaces one after the other *)
Fixpoint good_list (ss : list (@surface XR)) : Prop :=
  match ss with
  | [] => True
  | a :: t => good a /\ match t with [] => True | _ => exists l, su_L a = Fin l /\ l <> 0 end /\ good_list t
  end.
Definition thickness (s : @surface XR) : R := match su_L s with Fin l => l | _ => 0 end.
Fixpoint placed (z : R) (ss : list (@surface XR)) : list (R * @surface XR) :=
  match ss with [] => [] | s :: t => (z, s) :: placed (z + thickness s) t end.

Lemma reaches_pair a b x v h c : 0 < h -> good a -> good b ->
  reaches h (mkComp (front_curves a x h ++ back_curves b v h c) true).
Proof.
  intros Hh Ga Gb. unfold reaches, xy, good in *. cbn [co_curves].
  assert (Rabs h = h) as A by (apply Rabs_right; lra). assert (Rabs (- h) = h) as B by (rewrite Rabs_Ropp; auto).
  unfold front_curves, back_curves.
  destruct (su_shape a) as [[ra| | |]| | |], (su_shape b) as [[rb| | |]| | |]; try contradiction; cbn [app flat_map ends last];
  (split; [repeat (constructor; [eexists; split; [reflexivity|]; rewrite ?A, ?B, ?Rabs_R0; lra|]); constructor
          |apply Exists_cons_hd; eexists; split; [reflexivity|]; auto]).
Qed.
Lemma last_shift {A} (l : list A) : forall p d, last (p :: l) d = last l p.
Proof. induction l as [|q l IH]; intros p d; [reflexivity|]. change (last (q :: l) d = last (q :: l) p). now rewrite !IH. Qed.
Lemma pairs_ok tan h : 0 < h -> forall ss z, good_list ss -> (2 <= List.length ss)%nat ->
  exists p ps, pairs tan ss (Fin h) (Fin z) = Ok (p :: ps) /\ Forall (reaches h) (map pa_comp (p :: ps)) /\
    (exists c, pa_first p = Fin c) /\ (exists c, pa_last (last ps p) = Fin c) /\
    (exists a b v c, pa_comp p = mkComp (front_curves a z h ++ back_curves b v h c) true /\ hd_error ss = Some a) /\
    Forall (fun p => exists a b x v c, pa_comp p = mkComp (front_curves a x h ++ back_curves b v h c) true) (p :: ps) /\
    forall v s, In (v, s) (placed z ss) -> exists q, In q (p :: ps) /\
      (incl (front_curves s v h) (co_curves (pa_comp q)) \/ exists c, incl (back_curves s v h c) (co_curves (pa_comp q))).
Proof.
  intros Hh. induction ss as [|a t IH]; intros z G Hl; [cbn in Hl; lia|].
  destruct t as [|b t]; [cbn in Hl; lia|]. destruct G as (Ga & (L & EL & HL) & Gt). pose proof Gt as (Gb & _).
  change (pairs tan (a :: b :: t) (Fin h) (Fin z)) with
    (p <- SurfacePair tan a b (Fin h) (Fin z);; r <- pairs tan (b :: t) (Fin h) (nadd (Fin z) (pa_L p));; Ok (p :: r)).
  rewrite (pair_ok tan a b z h L) by auto. cbn [bind pa_L nadd NumXR xadd].
  destruct t as [|c t].
  - cbn [pairs bind]. do 2 eexists. split; [reflexivity|]. cbn [map pa_comp].
    split; [constructor; [apply reaches_pair; auto|constructor]|]. split; [eexists; reflexivity|].
    split; [cbn [last pa_last]; eexists; reflexivity|].
    split; [do 4 eexists; split; reflexivity|].
    split; [constructor; [do 5 eexists; reflexivity|constructor]|].
    intros v s Hs. eexists. split; [left; reflexivity|]. cbn [pa_comp co_curves].
    cbn [placed] in Hs. unfold thickness in Hs. rewrite EL in Hs. destruct Hs as [E|[E|[]]]; injection E as <- <-.
    + left. apply incl_appl, incl_refl.
    + right. eexists. apply incl_appr, incl_refl.
  - destruct (IH (z + L) Gt ltac:(cbn; lia)) as (p & ps & E & F & Hf & Hla & _ & Fp & Hp). rewrite E. cbn [bind].
    do 2 eexists. split; [reflexivity|]. cbn [map pa_comp].
    split; [constructor; [apply reaches_pair; auto|exact F]|]. split; [eexists; reflexivity|].
    split. { destruct Hla as (x & Hx). exists x. rewrite <- Hx. f_equal. apply last_shift. }
    split; [do 4 eexists; split; reflexivity|].
    split; [constructor; [do 5 eexists; reflexivity|exact Fp]|].
    assert (thickness a = L) as Ta by (unfold thickness; now rewrite EL).
    intros v s Hs. change (In (v, s) ((z, a) :: placed (z + thickness a) (b :: c :: t))) in Hs. rewrite Ta in Hs. destruct Hs as [Es|Hs].
    + injection Es as <- <-. eexists. split; [left; reflexivity|]. left. cbn [pa_comp co_curves]. apply incl_appl, incl_refl.
    + destruct (Hp v s Hs) as (q & Hq & Hc). exists q. split; [now right|auto].
Qed.

(** ** The drawing of an element with surfaces *)
Definition line_in (a b : XR * XR) (cs : list (list (XR * XR))) : Prop := In [a; b] cs \/ In [b; a] cs.
Definition curve_in (a b c : XR * XR) (cs : list (list (XR * XR))) : Prop := In [a; b; c] cs \/ In [c; b; a] cs.
(** the curves cs draw the surface s with its vertex at v up to the height h *)
Definition drawn_surface (s : @surface XR) (v h : R) (cs : list (list (XR * XR))) : Prop :=
  match su_shape s with
  | Spherical (Fin r) => exists e k,
      curve_in (pt v 0) (pt v k) (pt (v + e) h) cs /\ curve_in (pt v 0) (pt v (- k)) (pt (v + e) (- h)) cs /\
      (h <= Rabs r -> (e - r) * (e - r) + h * h = r * r /\ Rabs e <= Rabs r /\
        forall t, 0 <= t <= 1 ->
          r * r <= dist2 (bezier (v, 0) (v, k) (v + e, h) t) (v + r) 0 <= 9 / 8 * (r * r) /\
          r * r <= dist2 (bezier (v, 0) (v, - k) (v + e, - h) t) (v + r) 0 <= 9 / 8 * (r * r))
  | _ => line_in (pt v (- h)) (pt v h) cs
  end.
Lemma bezier_mirror v k e h r t :
  dist2 (bezier (v, 0) (v, - k) (v + e, - h) t) (v + r) 0 = dist2 (bezier (v, 0) (v, k) (v + e, h) t) (v + r) 0.
Proof. unfold dist2, bezier. cbn [fst snd]. ring. Qed.
Lemma edge_sphere r v h : r <> 0 -> 0 < h -> h <= Rabs r ->
  (edge r h - r) * (edge r h - r) + h * h = r * r /\ Rabs (edge r h) <= Rabs r /\
  forall t, 0 <= t <= 1 ->
    r * r <= dist2 (bezier (v, 0) (v, ctl r h) (v + edge r h, h) t) (v + r) 0 <= 9 / 8 * (r * r) /\
    r * r <= dist2 (bezier (v, 0) (v, - ctl r h) (v + edge r h, - h) t) (v + r) 0 <= 9 / 8 * (r * r).
Proof.
  intros Hr Hh Hle. destruct (edge_cos_sqr r h) as [[C1 C2] C3]; [auto|lra|].
  unfold edge, ctl. destruct (Rle_dec h (Rabs r)); [|lra]. split; [|split].
  - replace ((r * (1 - edge_cos r h) - r) * (r * (1 - edge_cos r h) - r)) with (r * r * (edge_cos r h * edge_cos r h)) by ring. lra.
  - rewrite Rabs_mult, (Rabs_right (1 - _)) by lra. pose proof (Rabs_pos r). nra.
  - intros t Ht. rewrite bezier_mirror. assert (0 < h <= Rabs r) as H by lra.
    pose proof (bezier_sphere r v h t Hr H Ht) as K. cbv zeta in K. split; exact K.
Qed.
Lemma pt_eq a b a' b' : a = a' -> b = b' -> pt a b = pt a' b'. Proof. now intros -> ->. Qed.
(** a surface among the curves of a fixed component of a graphic at x *)
Lemma front_placed (s : @surface XR) v h cs x : good s -> 0 < h ->
  (incl (front_curves s v h) cs \/ exists c, incl (back_curves s v h c) cs) ->
  drawn_surface s (v + x) h (map (map (fun p : XR * XR => (nadd (fst p) (Fin x), snd p))) cs).
Proof.
  intros G Hh H. unfold drawn_surface, good, front_curves, back_curves in *.
  destruct (su_shape s) as [[r| | |]| | |]; try contradiction.
  - exists (edge r h), (ctl r h). split; [|split; [|intros Hle; apply edge_sphere; auto]].
    + destruct H as [H|(c & H)].
      * left. apply in_map_iff. exists [pt v 0; pt v (ctl r h); pt (v + edge r h) h]. split; [|apply H; cbn; tauto].
        cbn. do 3 (f_equal; try (apply pt_eq; ring)).
      * right. apply in_map_iff. exists [pt (v + edge r h) h; pt v (ctl r h); pt v 0]. split; [|apply H; cbn; tauto].
        cbn. do 3 (f_equal; try (apply pt_eq; ring)).
    + destruct H as [H|(c & H)].
      * right. apply in_map_iff. exists [pt (v + edge r h) (- h); pt v (- ctl r h); pt v 0]. split; [|apply H; cbn; tauto].
        cbn. do 3 (f_equal; try (apply pt_eq; ring)).
      * left. apply in_map_iff. exists [pt v 0; pt v (- ctl r h); pt (v + edge r h) (- h)]. split; [|apply H; cbn; tauto].
        cbn. do 3 (f_equal; try (apply pt_eq; ring)).
  - destruct H as [H|(c & H)].
    + left. apply in_map_iff. exists [pt v (- h); pt v h]. split; [reflexivity|apply H; cbn; tauto].
    + right. apply in_map_iff. exists [pt v h; pt v (- h)]. split; [reflexivity|apply H; cbn; tauto].
  - destruct H as [H|(c & H)].
    + left. apply in_map_iff. exists [pt v (- h); pt v h]. split; [reflexivity|apply H; cbn; tauto].
    + right. apply in_map_iff. exists [pt v h; pt v (- h)]. split; [reflexivity|apply H; cbn; tauto].
Qed.
Lemma drawn_more s v h cs cs' : incl cs cs' -> drawn_surface s v h cs -> drawn_surface s v h cs'.
Proof.
  intros I. unfold drawn_surface, curve_in, line_in. destruct (su_shape s) as [[r| | |]| | |]; try (intros [H|H]; auto).
  intros (e & k & [H1|H1] & [H2|H2] & H3); exists e, k; repeat split; auto; try tauto; now apply H3.
Qed.
Lemma placed_shift ss : forall z x v s, In (v, s) (placed (z + x) ss) -> In (v - x, s) (placed z ss).
Proof.
  induction ss as [|a t IH]; intros z x v s H; cbn [placed] in *; [auto|]. destruct H as [E|H].
  - injection E as <- <-. left. f_equal. ring.
  - right. apply IH. now replace (z + thickness a + x) with (z + x + thickness a) by ring.
Qed.
Lemma placed_good ss : forall z v s, good_list ss -> In (v, s) (placed z ss) -> good s.
Proof.
  induction ss as [|a t IH]; intros z v s G H; cbn [placed] in H; [contradiction|]. destruct G as (Ga & _ & Gt).
  destruct H as [E|H]; [injection E as _ <-; auto|eauto].
Qed.
Lemma reaches_bars h x width : 0 < h -> reaches h (ApertureBars (Fin h) (Fin x) (Fin width)).
Proof.
  intros Hh. assert (Rabs h = h) as A by (apply Rabs_right; lra). assert (Rabs (- h) = h) as B by (rewrite Rabs_Ropp; auto).
  unfold reaches, xy, ApertureBars. cbn [co_curves].
  match goal with |- context [if ?b then _ else _] => destruct b end; cbn [flat_map ends last app];
  (split; [repeat (constructor; [eexists; split; [reflexivity|]; rewrite ?A, ?B; lra|]); constructor
          |apply Exists_cons_hd; eexists; split; [reflexivity|]; auto]).
Qed.
Theorem surfaces_drawn tan ss h x : good_list ss -> ss <> [] -> 0 < h ->
  exists g, SurfacesGraphic tan ss (Fin h) (Fin x) = Ok g /\ halfHeight g = Ok (Fin h) /\
  forall sc v s, In (v, s) (placed x ss) -> drawn_surface s v h (List.concat (drawn sc g)).
Proof.
  intros G Hn Hh. destruct ss as [|a [|b t]]; [easy| |].
  - destruct G as (Ga & _). unfold SurfacesGraphic. unfold SurfaceC. rewrite isfinite_fin. cbn [negb].
    assert ((match su_shape a with
       | Spherical R => if neqb R ninf then Ok (mkComp [[(c0, nopp (Fin h)); (c0, Fin h)]] true)
           else d <- sag R (Fin h);; Ok (mkComp [[(nadd c0 (fst d), nopp (Fin h)); (c0, nopp (snd d)); (c0, c0)];
                  [(c0, c0); (c0, snd d); (nadd c0 (fst d), Fin h)]] true)
       | Flat => Ok (mkComp [[(c0, nopp (Fin h)); (c0, Fin h)]] true)
       | _ => Err AttributeError end) = Ok (mkComp (front_curves a 0 h) true)) as E.
    { unfold good, front_curves in *. destruct (su_shape a) as [[r| | |]| | |]; try contradiction; try reflexivity.
      rewrite sag_fin by auto. reflexivity. }
    rewrite E. cbn [bind]. clear E.
    assert (reaches h (mkComp (front_curves a 0 h) true)) as RE.
    { assert (Rabs h = h) as A by (apply Rabs_right; lra). assert (Rabs (- h) = h) as B by (rewrite Rabs_Ropp; auto).
      unfold reaches, xy, front_curves, good in *. cbn [co_curves].
      destruct (su_shape a) as [[r| | |]| | |]; try contradiction; cbn [flat_map ends last app];
      (split; [repeat (constructor; [eexists; split; [reflexivity|]; rewrite ?A, ?B, ?Rabs_R0; lra|]); constructor
          |apply Exists_cons_hd; eexists; split; [reflexivity|]; auto]). }
    destruct (labelled_reaches h [mkComp (front_curves a 0 h) true] (Fin x)) as [E1 E2]; [lra|auto|easy|].
    rewrite E1. eexists. split; [reflexivity|]. split; [exact E2|].
    intros sc v s [E|[]]. injection E as <- <-. unfold drawn. cbn [gr_comp map List.concat app]. rewrite app_nil_r.
    replace x with (0 + x) at 1 by ring.
    eapply drawn_more; [|apply (front_placed a 0 h (front_curves a 0 h) x); auto; left; apply incl_refl].
    unfold place. cbn [co_fixed co_curves gr_x]. apply incl_refl.
  - destruct (pairs_ok tan h Hh (a :: b :: t) 0 G ltac:(cbn; lia)) as (p & ps & E & F & (cf & Ef) & (cl & El) & _ & Fp & Hp).
    unfold SurfacesGraphic. rewrite c0_xr, E. cbn [bind]. rewrite Ef, El. cbn [nsub NumXR xsub xadd xopp].
    set (bars := ApertureBars (Fin h) (Fin cf) (Fin (cl + - cf))).
    destruct (labelled_reaches h (map pa_comp (p :: ps) ++ [bars]) (Fin x)) as [E1 E2].
    { lra. }
    { apply Forall_app. split; [auto|]. constructor; [now apply reaches_bars|constructor]. }
    { discriminate. }
    rewrite E1. eexists. split; [reflexivity|]. split; [exact E2|].
    intros sc v s Hs. pose proof (placed_good _ _ _ _ G Hs) as Gs.
    replace x with (0 + x) in Hs by ring. apply placed_shift in Hs. destruct (Hp _ _ Hs) as (q & Hq & Hc).
    apply (front_placed s (v - x) h _ x Gs Hh) in Hc. replace (v - x + x) with v in Hc by ring.
    eapply drawn_more; [|exact Hc]. intros cv Hcv. apply in_concat.
    exists (map (map (place sc (mkGraphic (map pa_comp (p :: ps) ++ [bars]) (Fin x)) (pa_comp q))) (co_curves (pa_comp q))).
    split.
    + unfold drawn. cbn [gr_comp]. apply in_map_iff. exists (pa_comp q). split; [reflexivity|]. apply in_or_app. left. now apply in_map.
    + rewrite Forall_forall in Fp. destruct (Fp q Hq) as (a' & b' & x' & v' & c' & Eq). rewrite Eq in Hcv |- *.
      unfold place. cbn [co_fixed co_curves gr_x] in *. exact Hcv.
Qed.
