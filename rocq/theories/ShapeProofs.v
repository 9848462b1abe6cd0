(** The outlines of boxes and arrows and the bars of thick elements. *)
From Coq Require Import Reals Lra List Bool String ZArith Lia.
From Verif Require Import Base Nums Optics Group Drawing Figures MaterialsProofs FigureProofs FigurePlace Outline OutlineProofs Scene.
Import ListNotations.
Open Scope list_scope.
Open Scope R_scope.
Local Notation pt a b := (Fin a, Fin b).

(** ** Boxes *)
Theorem box_outline x y w h : let c := Rectangle (Fin x) (Fin y) (Fin w) (Fin h) in
  (forall u v, In (pt u v) (xy c) <-> (u = x \/ u = x + w) /\ (v = y \/ v = y + h)) /\
  exists xs ks q, patch c = Ok (xs, ks) /\ contours ks = 1%nat /\ hd_error xs = Some q /\ last_opt xs = Some q.
Proof.
  intros c. split.
  - intros u v. unfold c, Rectangle, xy. cbn [co_curves linearBezierCurvesFrom flat_map ends last app nadd NumXR xadd].
    assert (forall a b, (Fin a, Fin b) = pt u v <-> a = u /\ b = v) as G by (intros a b; split; [intros [= -> ->]; auto|intros [-> ->]; reflexivity]).
    cbn [In]. rewrite !G. clear. split.
    + intros H. repeat (destruct H as [[<- <-]|H]; [tauto|]). contradiction.
    + intros [[-> | ->] [-> | ->]]; tauto.
  - destruct (polygon_one_contour [(x + w, y + h); (x + w, y)] (x, y) (x, y + h) true) as (xs & ks & E1 & E2 & E3 & E4).
    exists xs, ks, (of_R (x, y)). split; [exact E1|]. auto.
Qed.

(** ** Arrows *)
Lemma arrow_points d y : Arrow (Fin d) (Fin y) = mkComp (linearBezierCurvesFrom (map of_R
  [(- (1 / 1000), y); (- (1 / 1000), y + d - d / 10); (- (5 / 1000), y + d - d / 10); (0, y + d); (5 / 1000, y + d - d / 10); (1 / 1000, y + d - d / 10); (1 / 1000, y); (- (1 / 1000), y)])) false.
Proof.
  unfold Arrow. rewrite !ndec_fin by lia. change (10 ^ 3)%Z with 1000%Z. change (10 ^ 1)%Z with 10%Z.
  change (nmul (Fin (2 / 1000)) (nofZ 5)) with (Fin (2 / 1000 * 5)). rewrite !half_fin.
  change (nmul (Fin d) (Fin (1 / 10))) with (Fin (d * (1 / 10))). cbn [nadd nsub nopp NumXR xadd xopp].
  replace (2 / 1000 / 2) with (1 / 1000) by field. replace (2 / 1000 * 5 / 2) with (5 / 1000) by field. replace (d * (1 / 10)) with (d / 10) by field.
  change (@c0 XR _) with (Fin 0). reflexivity.
Qed.
(** the arrow of an object or image of size [d] (negative: upside down) goes from one end to the other,
    comes to a point there, is symmetric and no wider than its head *)
Theorem arrow_outline d : let lo := - (d / 2) in let hi := d / 2 in let c := Arrow (Fin d) (fst (arrow_ends (Fin d))) in
  arrow_ends (Fin d) = (Fin lo, Fin hi) /\ In (pt 0 hi) (xy c) /\ (exists u, 0 < u /\ In (pt u lo) (xy c) /\ In (pt (- u) lo) (xy c)) /\
  (forall p, In p (xy c) -> exists u v, p = pt u v /\ Rabs u <= 5 / 1000 /\ Rmin lo hi <= v <= Rmax lo hi /\ In (pt (- u) v) (xy c) /\ (v = hi -> d <> 0 -> u = 0)) /\
  exists xs ks q, patch c = Ok (xs, ks) /\ contours ks = 1%nat /\ hd_error xs = Some q /\ last_opt xs = Some q.
Proof.
  intros lo hi c.
  assert (arrow_ends (Fin d) = (Fin lo, Fin hi)) as E.
  { unfold arrow_ends. change (nopp (Fin d)) with (Fin (- d)). rewrite half_fin. cbn [nadd NumXR xadd]. unfold lo, hi. f_equal; f_equal; field. }
  split; [exact E|]. unfold c. rewrite E. cbn [fst]. rewrite arrow_points. replace (lo + d) with hi by (unfold lo, hi; field).
  assert (d = hi - lo) as Ed by (unfold lo, hi; field). clearbody lo hi.
  set (q := hi - d / 10). unfold xy. cbn [co_curves map of_R fst snd linearBezierCurvesFrom flat_map ends last app].
  split; [cbn; tauto|]. split; [exists (1 / 1000); cbn; split; [lra|tauto]|]. split.
  - assert (Rmin lo hi <= lo <= Rmax lo hi /\ Rmin lo hi <= hi <= Rmax lo hi /\ Rmin lo hi <= q <= Rmax lo hi) as (H1 & H2 & H3).
    { unfold q. destruct (Rle_dec lo hi) as [L|L]; [rewrite Rmin_left, Rmax_right by lra|rewrite Rmin_right, Rmax_left by lra]; lra. }
    assert (d <> 0 -> lo <> hi /\ q <> hi) as H4 by (unfold q; lra).
    intros p Hp. cbn [In] in Hp.
    assert (Rabs (1 / 1000) = 1 / 1000 /\ Rabs (5 / 1000) = 5 / 1000) as (A1 & A2) by (split; apply Rabs_pos_eq; lra).
    assert (forall u v, (u = 1 / 1000 \/ u = - (1 / 1000)) /\ (v = lo \/ v = q) \/ (u = 5 / 1000 \/ u = - (5 / 1000)) /\ v = q \/ u = 0 /\ v = hi ->
      p = (Fin u, Fin v) -> exists u v, p = pt u v /\ Rabs u <= 5 / 1000 /\ Rmin lo hi <= v <= Rmax lo hi /\
      In (pt (- u) v) ([(Fin (- (1 / 1000)), Fin lo); (Fin (- (1 / 1000)), Fin q); (Fin (- (1 / 1000)), Fin q); (Fin (- (5 / 1000)), Fin q); (Fin (- (5 / 1000)), Fin q); (Fin 0, Fin hi);
        (Fin 0, Fin hi); (Fin (5 / 1000), Fin q); (Fin (5 / 1000), Fin q); (Fin (1 / 1000), Fin q); (Fin (1 / 1000), Fin q); (Fin (1 / 1000), Fin lo); (Fin (1 / 1000), Fin lo); (Fin (- (1 / 1000)), Fin lo)]) /\ (v = hi -> d <> 0 -> u = 0)) as G.
    { intros u v Huv ->. exists u, v. split; [reflexivity|].
      destruct Huv as [[[-> | ->] [-> | ->]]|[[[-> | ->] ->]|[-> ->]]]; rewrite ?Rabs_Ropp, ?A1, ?A2, ?Rabs_R0, ?Ropp_involutive, ?Ropp_0;
        (split; [lra|]); (split; [assumption|]); (split; [cbn; tauto|]); intros; try reflexivity; exfalso; destruct H4; auto. }
    repeat (destruct Hp as [Hp|Hp]; [symmetry in Hp; refine (G _ _ _ Hp); tauto|]). contradiction.
  - destruct (polygon_one_contour [(- (5 / 1000), q); (0, hi); (5 / 1000, q); (1 / 1000, q); (1 / 1000, lo)] (- (1 / 1000), lo) (- (1 / 1000), q) false) as (xs & ks & E1 & E2 & E3 & E4).
    exists xs, ks, (of_R (- (1 / 1000), lo)). split; [exact E1|]. auto.
Qed.

(** ** The bars of an element with a length *)
Theorem matrix_bars tan m d l x ms : mdiam m = Fin d -> 0 < d -> mL m = Fin l -> 1 / 100 < l ->
  exists g, GraphicOf tan (LLeaf KMatrix m) (Fin x) ms = Ok (Some g) /\
  forall sc, nth_error (drawn sc g) 1 = Some [[pt x (d / 2); pt (x + l) (d / 2)]; [pt x (- (d / 2)); pt (x + l) (- (d / 2))]].
Proof.
  intros Ed Hd EL Hl. destruct (matrix_drawn_twice_as_far tan m d l x ms Ed Hd EL) as (g & EG & Hx & _). exists g. split; [exact EG|].
  cbn [GraphicOf surfacesOf surfaces forwardSurfaces bind lens_mat] in EG.
  assert ((if mflip m then turn_all (rev []) else @nil (@surface XR)) = []) as EE by (destruct (mflip m); reflexivity). rewrite EE in EG.
  unfold MatrixGraphic, rectangle, apertureComponents in EG. rewrite Ed, half_fin, !diam_inf, EL in EG. cbn [negb] in EG.
  unfold labelled in EG. destruct (flat_map xy _); [discriminate|]. destruct (halfHeight _); cbn [bind] in EG; [|discriminate]. injection EG as <-.
  intros sc. cbn [drawn gr_comp map nth_error]. unfold ApertureBars.
  assert (neqb (Fin l) (@c0 XR _) = false) as ->. { change (neqb (Fin l) (@c0 XR _)) with (Reqb l 0). unfold Reqb. destruct (Req_EM_T l 0); [lra|reflexivity]. }
  rewrite !ndec_fin by lia. change (10 ^ 2)%Z with 100%Z. change (nleb (Fin l) (Fin (1 / 100))) with (Rleb l (1 / 100)).
  assert (Rleb l (1 / 100) = false) as -> by (apply Rleb_false; lra). cbn [negb co_curves map]. unfold place. cbn [co_fixed gr_x fst snd].
  cbn [nadd nopp NumXR xadd xopp]. replace (0 + x) with x by ring. replace (0 + l + x) with (x + l) by ring. reflexivity.
Qed.
