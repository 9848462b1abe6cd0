(** Property theorems about the shapes that figures are made of: boxes and arrows (C94, C119) and the bars of elements with
    a length (C85). *)
From Coq Require Import Reals Lra List Bool String ZArith Lia.
From Verif Require Import Base Nums Optics Group Drawing Figures FigureProofs FigurePlace Outline OutlineProofs Scene ShapeProofs.
Import ListNotations.
Open Scope list_scope.
Open Scope R_scope.
Local Notation pt a b := (Fin a, Fin b).

(** a box has the four corners it should have and is one closed contour *)
Theorem C119_box :
  forall x y w h, let c := Rectangle (Fin x) (Fin y) (Fin w) (Fin h) in
  (forall u v, In (pt u v) (xy c) <-> (u = x \/ u = x + w) /\ (v = y \/ v = y + h)) /\
  exists xs ks q, patch c = Ok (xs, ks) /\ contours ks = 1%nat /\ hd_error xs = Some q /\ last_opt xs = Some q.
Proof. exact box_outline. Qed.
Print Assumptions C119_box.

(** the arrow of an object or image of size [d] (negative: upside down) goes from one end to the other,
    comes to a point there, is symmetric, no wider than its head and one closed contour *)
Theorem C94_arrow_shape :
  forall d, let lo := - (d / 2) in let hi := d / 2 in let c := Arrow (Fin d) (fst (arrow_ends (Fin d))) in
  arrow_ends (Fin d) = (Fin lo, Fin hi) /\ In (pt 0 hi) (xy c) /\ (exists u, 0 < u /\ In (pt u lo) (xy c) /\ In (pt (- u) lo) (xy c)) /\
  (forall p, In p (xy c) -> exists u v, p = pt u v /\ Rabs u <= 5 / 1000 /\ Rmin lo hi <= v <= Rmax lo hi /\ In (pt (- u) v) (xy c) /\ (v = hi -> d <> 0 -> u = 0)) /\
  exists xs ks q, patch c = Ok (xs, ks) /\ contours ks = 1%nat /\ hd_error xs = Some q /\ last_opt xs = Some q.
Proof. exact arrow_outline. Qed.
Print Assumptions C94_arrow_shape.

(** the bars of a general matrix are drawn along its length, at the edges of its aperture (its box
    is elsewhere: C85_matrix_twice) *)
Theorem C85_matrix_bars :
  forall tan m d l x ms, mdiam m = Fin d -> 0 < d -> mL m = Fin l -> 1 / 100 < l ->
  exists g, GraphicOf tan (LLeaf KMatrix m) (Fin x) ms = Ok (Some g) /\
  forall sc, nth_error (drawn sc g) 1 = Some [[pt x (d / 2); pt (x + l) (d / 2)]; [pt x (- (d / 2)); pt (x + l) (- (d / 2))]].
Proof. exact matrix_bars. Qed.
Print Assumptions C85_matrix_bars.

(** a matrix of length 20 and diameter 10 at 100 *)
Example C85_matrix_bars_example : exists m : @mat XR, mdiam m = Fin 10 /\ mL m = Fin 20 /\
  exists g, GraphicOf (fun x => x) (LLeaf KMatrix m) (Fin 100) (Fin 0) = Ok (Some g) /\
  nth_error (drawn (Fin 1) g) 1 = Some [[pt 100 (10 / 2); pt (100 + 20) (10 / 2)]; [pt 100 (- (10 / 2)); pt (100 + 20) (- (10 / 2))]].
Proof.
  exists (mkMat (Fin 1) (Fin 0) (Fin 0) (Fin 1) (Fin 20) None None (Fin 1) (Fin 1) (Fin 10) PInf false ""%string).
  split; [reflexivity|]. split; [reflexivity|].
  destruct (matrix_bars (fun x => x) (mkMat (Fin 1) (Fin 0) (Fin 0) (Fin 1) (Fin 20) None None (Fin 1) (Fin 1) (Fin 10) PInf false ""%string) 10 20 100 (Fin 0) eq_refl ltac:(lra) eq_refl ltac:(lra)) as (g & E & H).
  exists g. split; [exact E|apply H].
Qed.
