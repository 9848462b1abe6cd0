(** Specification vocabulary, independent of the code model: 2x2 real matrices,
    products along a path, and what it means for a model matrix to represent one. *)
From Coq Require Import Reals List Bool String.
From Verif Require Import Base Nums Optics.
Import ListNotations.
Open Scope R_scope.

(** ** 2x2 real matrices acting on (height, angle) *)
Record M2 := mk2 { A_ : R; B_ : R; C_ : R; D_ : R }.
Definition mid : M2 := mk2 1 0 0 1.
Definition mmul (P Q : M2) : M2 :=
  mk2 (A_ P * A_ Q + B_ P * C_ Q) (A_ P * B_ Q + B_ P * D_ Q)
      (C_ P * A_ Q + D_ P * C_ Q) (C_ P * B_ Q + D_ P * D_ Q).
Definition mdet (M : M2) : R := A_ M * D_ M - B_ M * C_ M.
Definition mapp (M : M2) (v : R * R) : R * R :=
  (A_ M * fst v + B_ M * snd v, C_ M * fst v + D_ M * snd v).
(** propagation over a distance [d] in a uniform medium *)
Definition free (d : R) : M2 := mk2 1 d 0 1.
(** refraction at a surface of power [c] between indices, and a thin lens *)
Definition thin (f : R) : M2 := mk2 1 0 (-1 / f) 1.

(** product of the matrices met by light, first element first *)
Definition mprod (l : list M2) : M2 := fold_left (fun acc M => mmul M acc) l mid.

(** ** Optical description of a piece of path *)
Record optic := mkO {
  oM : M2;               (* ray matrix *)
  oL : R;                (* physical length *)
  onf : R; onb : R;      (* refractive index in front and behind *)
  ofv : option R; obv : option R   (* first and last physical vertices *)
}.

(** [l] placed after [r] *)
Definition ocomp (l r : optic) : optic :=
  mkO (mmul (oM l) (oM r)) (oL r + oL l) (onf r) (onb l)
      (match ofv r with Some v => Some v | None => option_map (Rplus (oL r)) (ofv l) end)
      (match obv l with Some v => Some (oL r + v) | None => obv r end).

(** a piece of path is physical when both indices are non zero and the matrix has
    determinant n_front / n_back *)
Definition physical (o : optic) : Prop :=
  onf o <> 0 /\ onb o <> 0 /\ mdet (oM o) = onf o / onb o.

(** the attributes of the model matrix [m] are those of [o] *)
Record describes (m : @mat XR) (o : optic) : Prop := {
  d_A : mA m = Fin (A_ (oM o));
  d_B : mB m = Fin (B_ (oM o));
  d_C : mC m = Fin (C_ (oM o));
  d_D : mD m = Fin (D_ (oM o));
  d_L : mL m = Fin (oL o);
  d_nf : mfi m = Fin (onf o);
  d_nb : mbi m = Fin (onb o);
  d_fv : mfv m = option_map Fin (ofv o);
  d_bv : mbv m = option_map Fin (obv o)
}.

(** ** Paths: lists of pieces whose neighbouring indices match *)
Fixpoint matched (n : R) (l : list optic) : Prop :=
  match l with
  | [] => True
  | o :: t => onf o = n /\ physical o /\ matched (onb o) t
  end.

Definition chain (l : list optic) : Prop :=
  match l with
  | [] => True
  | o :: t => physical o /\ matched (onb o) t
  end.

Definition total_length (l : list optic) : R := fold_right Rplus 0 (map oL l).

(** the pieces of a path put one after the other *)
Definition path_optic (o : optic) (l : list optic) : optic :=
  fold_left (fun acc x => ocomp x acc) l o.

(** ** Rays *)
Definition fray (y th z : R) (b : bool) (d : XR) (w : option XR) : @ray XR :=
  mkRay (Fin y) (Fin th) (Fin z) b d w.

(** ** Textbook description of each element *)
(** curvature of a surface whose radius may be infinite *)
Definition curv (r : XR) : R := match r with Fin x => / x | _ => 0 end.
Definition radius_ok (r : XR) : Prop :=
  match r with Fin x => x <> 0 | PInf | NInf => True | NaN => False end.

Definition o_lens (f : R) : optic := mkO (thin f) 0 1 1 (Some 0) (Some 0).
Definition o_mirror (r : R) : optic := mkO (mk2 1 0 (2 / r) 1) 0 1 1 (Some 0) (Some 0).
Definition o_space (d n : R) : optic := mkO (free d) d n n None None.
Definition o_interface (n1 n2 : R) (r : XR) : optic :=
  mkO (mk2 1 0 (- (n2 - n1) / n2 * curv r) (n1 / n2)) 0 n1 n2 (Some 0) (Some 0).
Definition o_aperture : optic := mkO mid 0 1 1 None None.
(** two interfaces around glass of thickness [t] *)
Definition o_thick (n : R) (r1 r2 : XR) (t : R) : optic :=
  ocomp (o_interface n 1 r2) (ocomp (o_space t n) (o_interface 1 n r1)).

(** ** Light travelling backwards *)
Definition mrev (M : M2) : M2 :=
  mk2 (D_ M / mdet M) (B_ M / mdet M) (C_ M / mdet M) (A_ M / mdet M).
(** mirror image of a piece of path *)
Definition orev (o : optic) : optic :=
  mkO (mrev (oM o)) (oL o) (onb o) (onf o)
      (option_map (fun v => oL o - v) (obv o)) (option_map (fun v => oL o - v) (ofv o)).

Definition positive (x : XR) : Prop :=
  match x with Fin r => 0 < r | PInf => True | _ => False end.
