(** Property theorems C119: the paths matplotlib is given, and labels.  Each theorem is closed by a lemma proved elsewhere;
    the examples show that its hypotheses can be met. *)
From Coq Require Import Reals Lra List Bool String ZArith Floats Lia.
From Verif Require Import Base Nums Optics Group Drawing Figures FigureProofs FigurePlace Outline OutlineProofs OutlineRefutations GroupRefutations.
Import ListNotations.
Set Warnings "-inexact-float".
Open Scope list_scope.
Open Scope R_scope.

(** ** C119 *)
(** matplotlib, following the codes of the path of a component, draws the lines and curves of the component, in order, and
    nothing else *)
Theorem C119_strokes :
  forall c : component XR, Forall (fun k => List.length k = 2%nat \/ List.length k = 3%nat) (co_curves c) ->
  exists ps ks s, patch c = Ok (ps, ks) /\ List.length ps = List.length ks /\ draw None (combine ks ps) = Some s /\
    same_drawing s (flat_map strokes (co_curves c)).
Proof. exact patch_draws. Qed.
Print Assumptions C119_strokes.

(** a component cannot be drawn exactly when one of its curves is neither a line nor quadratic *)
Theorem C119_raises :
  forall c : component XR, (exists x, patch c = Err x) <->
  Exists (fun k => ~ (List.length k = 2%nat \/ List.length k = 3%nat)) (co_curves c).
Proof. exact patch_raises. Qed.
Print Assumptions C119_raises.

(** the pen is lifted once for every curve that does not start where the one before ended *)
Theorem C119_contours :
  forall cs fixed ps ks, patch (mkComp (map (map of_R) cs) fixed) = Ok (ps, ks) -> contours ks = breaks None cs.
Proof. exact patch_contours. Qed.
Print Assumptions C119_contours.

(** glass between two surfaces is one contour that ends where it started, so that it is filled as a whole *)
Theorem C119_glass :
  forall tan a b x h L, good a -> good b -> 0 < h -> su_L a = Fin L -> L <> 0 ->
  exists p ps ks q, SurfacePair tan a b (Fin h) (Fin x) = Ok p /\ patch (pa_comp p) = Ok (ps, ks) /\ contours ks = 1%nat /\
    hd_error ps = Some q /\ last_opt ps = Some q.
Proof. exact pair_one_contour. Qed.
Print Assumptions C119_glass.

(** and so are boxes, arrows and the outlines of objectives *)
Theorem C119_polygons :
  forall (l : list (R * R)) p q fixed, let ps := p :: q :: l ++ [p] in
  exists xs ks, patch (mkComp (linearBezierCurvesFrom (map of_R ps)) fixed) = Ok (xs, ks) /\ contours ks = 1%nat /\
    hd_error xs = Some (of_R p) /\ last_opt xs = Some (of_R p).
Proof. exact polygon_one_contour. Qed.
Print Assumptions C119_polygons.

(** a label is drawn over its element, neither left nor right of it, 30 % higher than its highest point *)
Theorem C119_label :
  forall cs x a b h, cs <> [] -> Forall (fun c => xy c <> []) cs -> halfHeight (mkGraphic cs (Fin x)) = Ok (Fin h) ->
  Forall (fun p => exists u v, p = (Fin u, Fin v) /\ a <= u <= b) (flat_map xy cs) ->
  exists u, label_shown cs (Fin x) = Ok (Fin (u + x), Fin (h * (13 / 10))) /\ a <= u <= b.
Proof. exact label_within. Qed.
Print Assumptions C119_label.

(** Graphic.length adds the heights to the lengths *)
Theorem C119_length_refuted :
  exists c : component float, c = Rectangle (fz 0) (fz (-10)) (fz 10) (fz 20) /\
  comp_length c = Ok (fz 10, fz 20) /\ graphic_length [c] = Ok (fz 30).
Proof. exact length_of_box. Qed.
Print Assumptions C119_length_refuted.

(** an arrow with two heads: the shaft and two heads are drawn in three strokes of the pen *)
Example C119_example : exists cs, DoubleThinArrow (Fin 20) = mkComp (map (map of_R) cs) false /\ breaks None cs = 3%nat /\
  Forall (fun k => List.length k = 2%nat \/ List.length k = 3%nat) cs.
Proof.
  exists [[(0, - (10)); (0, 10)]; [(- (5 / 1000), 88 / 10); (0, 10)]; [(0, 10); (5 / 1000, 88 / 10)];
          [(- (5 / 1000), - (88 / 10)); (0, - (10))]; [(0, - (10)); (5 / 1000, - (88 / 10))]].
  split.
  - unfold DoubleThinArrow. rewrite !FigurePlace.ndec_fin, !half_fin by lia. unfold of_R.
    cbn [map linearBezierCurvesFrom app fst snd nopp nsub nmul NumXR xopp xsub xadd xmul]. rewrite FigureProofs.c0_xr.
    change (10 ^ 2)%Z with 100%Z.
    replace (1 / 100 / 2) with (5 / 1000) by lra. replace (20 / 2 + - (20 / 2 * (12 / 100))) with (88 / 10) by lra. replace (20 / 2) with 10 by lra. reflexivity.
  - split; [|repeat (constructor; [left; reflexivity|]); constructor].
    cbn [breaks hd_error last_opt Nat.add].
    repeat match goal with |- context [point_dec ?p ?q] => destruct (point_dec p q) as [K|K];
      [first [exfalso; injection K; lra|clear K]|first [exfalso; apply K; reflexivity|clear K]] end.
    reflexivity.
Qed.
(** a double convex lens *)
Example C119_glass_example : good (SphericalInterface (Fin 100) (Fin (3 / 2)) (Fin 5)) /\ good (SphericalInterface (Fin (- 100)) (Fin 1) (Fin 0)) /\
  su_L (SphericalInterface (Fin 100) (Fin (3 / 2)) (Fin 5)) = Fin 5.
Proof. split; [cbn; lra|]. split; [cbn; lra|]. reflexivity. Qed.
(** a curve with four control points *)
Example C119_raises_example : let p := (Fin 0, Fin 1) in patch (mkComp [[p; p]; [p; p; p; p]] true) = Err TypeError.
Proof. reflexivity. Qed.
(** the bars of a thick aperture: the label is over them *)
Example C119_label_example : let cs := [ApertureBars (Fin 5) (Fin 0) (Fin 10)] in
  halfHeight (mkGraphic cs (Fin 30)) = Ok (Fin 5) /\ Forall (fun c => xy c <> []) cs /\
  Forall (fun p => exists u v, p = (Fin u, Fin v) /\ 0 <= u <= 10) (flat_map xy cs).
Proof.
  assert (ApertureBars (Fin 5) (Fin 0) (Fin 10) = mkComp [[(Fin 0, Fin 5); (Fin (0 + 10), Fin 5)]; [(Fin 0, Fin (- 5)); (Fin (0 + 10), Fin (- 5))]] true) as E.
  { unfold ApertureBars. rewrite FigureProofs.c0_xr. cbn [neqb NumXR xeqb]. rewrite Reqb_neq by lra. cbn [negb]. rewrite FigurePlace.ndec_fin by lia.
    cbn [nleb NumXR xleb]. change (10 ^ 2)%Z with 100%Z. destruct (Rleb 10 (1 / 100)) eqn:L; [apply Rleb_true in L; lra|]. reflexivity. }
  cbn zeta. rewrite E. split; [|split].
  - destruct (labelled_reaches 5 [mkComp [[(Fin 0, Fin 5); (Fin (0 + 10), Fin 5)]; [(Fin 0, Fin (- 5)); (Fin (0 + 10), Fin (- 5))]] true] (Fin 30)) as [_ H]; [lra| |discriminate|exact H].
    rewrite <- E. constructor; [|constructor]. apply reaches_bars. lra.
  - constructor; [discriminate|constructor].
  - cbn. repeat constructor; do 2 eexists; (split; [reflexivity|lra]).
Qed.
