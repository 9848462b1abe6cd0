(** The examples in the docstrings of /repo/raytracing that print numbers or say yes or no: the model, computing on doubles,
    prints the same text.  These are tests of the model against the documentation, not proofs about it.  Each example names
    the line of the docstring. *)
From Coq Require Import ZArith List Bool String Floats.
From Verif Require Import Base Nums Optics Group GroupRefutations Imaging Beam Format Printing.
Import ListNotations.
Set Warnings "-inexact-float".
Open Scope string_scope.
Open Scope list_scope.

Definition text (l : list string) : string := String.concat newline l.
Definition frac (a b : Z) : float := ndiv (fz a) (fz b).
(** Matrix(A, B, C, D, physicalLength, frontVertex, backVertex) *)
Definition mx (a b c d l : float) (fv bv : option float) : @mat float :=
  match Matrix_init a b c d l fv bv c1 c1 ninf ninf "" with Ok m => m | Err _ => mkMat c0 c0 c0 c0 c0 None None c1 c1 c0 c0 false "" end.
Definition lens10 (l : Z) := mx c1 c0 (frac (-1) 10) c1 (fz l) None None.
Definition lens5 (l : Z) fv bv := mx c1 c0 (frac (-1) 5) c1 (fz l) fv bv.
Definition path (l : list (@elem float)) : @elem float := match MatrixGroup_new l "" with Ok g => grp_elem g | Err _ => fspace 0 end.
Definition dlens (f d : Z) := the (Lens (fz f) (fz d)).
Definition str (e : @elem float) := matrix_str (emat e).

(** ** imagingpath.py *)
Definition path2 (d1 d2 : Z) := path [fspace 20; dlens 20 d1; fspace 30; dlens 10 d2; fspace 10].
Definition path10 := path [fspace 10; dlens 10 10; fspace 30; dlens 20 15; fspace 20].
(** 169-180 *)
Example chiefRay_169 : match chiefRayDefault 200 (path2 2 10) with Ok (Some r) => ray_str r | _ => "" end = text ["y =  3.333"; "theta = -0.167"; "z = 0.000"].
Proof. vm_compute. reflexivity. Qed.
(** 272-289 *)
Example marginalRays_272 : match marginalRays (path2 2 10) c0 with Ok (Some (a, b)) => [ray_str a; ray_str b] | _ => [] end =
  [text ["y =  0.000"; "theta =  0.050"; "z = 0.000"]; text ["y =  0.000"; "theta = -0.050"; "z = 0.000"]].
Proof. vm_compute. reflexivity. Qed.
(** 424-437, 560-573 *)
Example apertureStop_424 : apertureStop (path2 5 10) = Ok (mkStop (Some (fz 20)) (Some (fz 5))).
Proof. vm_compute. reflexivity. Qed.
(** 513-522 *)
Example entrancePupil_513 : entrancePupil (path2 5 10) = Ok (mkStop (Some (fz 20)) (Some (fz 5))).
Proof. vm_compute. reflexivity. Qed.
(** 664-674, 701-711 *)
Example fieldOfView_664 : fieldOfView 200 (path2 5 10) = Ok 6.666665124862807%float.
Proof. vm_compute. reflexivity. Qed.
(** 771-780 *)
Example imageSize_771 : imageSize 200 path10 false c1 = Ok 9.999998574656525%float.
Proof. vm_compute. reflexivity. Qed.

(** ** matrix.py *)
(** 96-102 *)
Example print_96 : matrix_str (mx c1 (fz 3) c0 c1 c0 None None) = Ok (text ["|  1.000    3.000 |"; "|                 |"; "|  0.000    1.000 |"; "f = +inf (afocal)"]).
Proof. vm_compute. reflexivity. Qed.
(** 228-235 *)
Definition lens3 := mx c1 c0 (frac (-1) 3) c1 c0 None None.
Definition space2 (l : Z) := mx c1 (fz 2) c0 c1 (fz l) None None.
Example product_228 : (m <- mul_matrix lens3 lens3;; matrix_str m) = Ok (text ["|  1.000    0.000 |"; "|                 |"; "| -0.667    1.000 |"; "f=1.500"]).
Proof. vm_compute. reflexivity. Qed.
(** 284-293 *)
Example product_284 : (m <- mul_matrix lens3 (space2 0);; matrix_str m) = Ok (text ["|  1.000    2.000 |"; "|                 |"; "| -0.333    0.333 |"; "f=3.000"]).
Proof. vm_compute. reflexivity. Qed.
(** 365-374 *)
Example mul_ray_365 : ray_str (mul_ray_v KMatrix (lens10 5) (Ray_new (fz 10) (fz 10))) = text ["y = 10.000"; "theta =  9.000"; "z = 5.000"].
Proof. vm_compute. reflexivity. Qed.
(** 378-385 *)
Example mul_ray_378 : (m <- mul_matrix (lens10 5) (space2 2);; Ok (ray_str (mul_ray_v KMatrix m (Ray_new (fz 10) (fz 10))))) =
  Ok (text ["y = 30.000"; "theta =  7.000"; "z = 7.000"]).
Proof. vm_compute. reflexivity. Qed.
(** 510-518 *)
Example transferMatrix_510 : (e <- transferMatrix (Leaf KMatrix (lens10 2)) (fz 5);; str e) =
  Ok (text ["|  1.000    0.000 |"; "|                 |"; "| -0.100    1.000 |"; "f=10.000"]).
Proof. vm_compute. reflexivity. Qed.
(** 576-586 *)
Example opticalInvariant_576 : opticalInvariant path10 (Ray_new 0.5%float 0.05%float) (Ray_new (fz 3) 0.25%float) c0 = Ok 0.025000000000000022%float.
Proof. vm_compute. reflexivity. Qed.
(** 631-638 *)
Example trace_631 : map (fun r => (ry r, rth r)) (trace_values (Leaf KMatrix (lens10 0)) (Ray_new (fz 5) (fz 20))) = [(fz 5, 19.5%float)].
Proof. vm_compute. reflexivity. Qed.
(** 687-694 *)
Example traceThrough_687 : (fun r => (ry r, rth r)) (traceThrough (Leaf KMatrix (lens10 2)) (Ray_new (fz 5) (fz 20))) = (fz 5, 19.5%float).
Proof. vm_compute. reflexivity. Qed.
(** 907-916, 935-944 *)
Example isImaging_907 : isImaging (lens10 2) = true /\ isImaging (space2 2) = false /\ hasPower (lens10 2) = true /\ hasPower (space2 2) = false.
Proof. vm_compute. repeat split. Qed.
(** 971-982, 1010-1020 *)
Example effectiveFocalLengths_971 : effectiveFocalLengths (lens5 0 None None) = Ok (fz 5, fz 5).
Proof. vm_compute. reflexivity. Qed.
(** 1052-1057 *)
Example backFocalLength_1052 : backFocalLength (lens5 0 None (Some (fz 2))) = Ok (Some (fz 3)).
Proof. vm_compute. reflexivity. Qed.
(** 1104-1109 *)
Example frontFocalLength_1104 : frontFocalLength (lens5 4 (Some (fz (-1))) None) = Ok (Some (fz 4)).
Proof. vm_compute. reflexivity. Qed.
(** 1154-1165 *)
Example focusPositions_1154 : let m := lens5 4 (Some (fz (-1))) (Some (fz 5)) in
  focusPositions m c0 = Ok (Some (fz (-5), fz 9)) /\ focusPositions m (fz 2) = Ok (Some (fz (-3), fz 11)).
Proof. vm_compute. repeat split. Qed.
(** 1195-1200 *)
Example principalPlanes_1195 : principalPlanePositions (lens5 3 (Some (fz (-1))) (Some (fz 5))) c0 = Ok (Some (fz 0, fz 3)).
Proof. vm_compute. reflexivity. Qed.
(** 1231-1242 *)
Example forwardConjugate_1231 : (r <- forwardConjugate (mx (fz 3) (fz 1) (fz 5) (fz 2) c0 None None);; 
    match r with (d, Some c) => s <- matrix_str c;; Ok (d, s) | (d, None) => Ok (d, "") end) =
  Ok (frac (-1) 2, text ["|  0.500    0.000 |"; "|                 |"; "|  5.000    2.000 |"; "f=-0.200"]).
Proof. vm_compute. reflexivity. Qed.
(** 1280-1291 *)
Example backwardConjugate_1280 : (r <- backwardConjugate (mx (fz 2) (fz 1) (fz 5) (fz 3) (fz 2) None None);; s <- matrix_str (snd r);; Ok (fst r, s)) =
  Ok (frac (-1) 2, text ["|  2.000    0.000 |"; "|                 |"; "|  5.000    0.500 |"; "f=-0.200"]).
Proof. vm_compute. reflexivity. Qed.
(** 1326-1331 *)
Example magnification_1326 : magnification (lens5 0 None None) = Some (c1, c1).
Proof. vm_compute. reflexivity. Qed.
(** 1459-1466 *)
Example Lens_1459 : (e <- Lens (fz 5) (fz 20);; str e) = Ok (text ["|  1.000    0.000 |"; "|                 |"; "| -0.200    1.000 |"; "f=5.000"]).
Proof. vm_compute. reflexivity. Qed.
(** 1556-1563 *)
Example CurvedMirror_1556 : (e <- CurvedMirror (fz 5) (fz 20);; str e) = Ok (text ["|  1.000    0.000 |"; "|                 |"; "|  0.400    1.000 |"; "f=-2.500"]).
Proof. vm_compute. reflexivity. Qed.
(** 1641-1648 *)
Example Space_1641 : (e <- Space (fz 3) c1 (fz 20);; str e) = Ok (text ["|  1.000    3.000 |"; "|                 |"; "|  0.000    1.000 |"; "f = +inf (afocal)"]).
Proof. vm_compute. reflexivity. Qed.
(** 1797-1804 *)
Example ThickLens_1797 : (e <- ThickLens 1.5%float (fz 4) (fz 6) (fz 3) (fz 20);; str e) =
  Ok (text ["|  0.750    2.000 |"; "|                 |"; "| -0.062    1.167 |"; "f=16.000"]).
Proof. vm_compute. reflexivity. Qed.
(** 1923-1930 *)
Example DielectricSlab_1923 : (e <- DielectricSlab 1.5%float (fz 5) (fz 20);; str e) =
  Ok (text ["|  1.000    3.333 |"; "|                 |"; "| -0.000    1.000 |"; "f = +inf (afocal)"]).
Proof. vm_compute. reflexivity. Qed.
(** 1980-1987 *)
Example Aperture_1980 : (e <- Aperture (fz 10) ninf;; str e) = Ok (text ["|  1.000    0.000 |"; "|                 |"; "|  0.000    1.000 |"; "f = +inf (afocal)"]).
Proof. vm_compute. reflexivity. Qed.

(** ** matrixgroup.py *)
(** 53-63 *)
Definition lens (f : Z) := flens f.
Definition group2f := text ["|  0.000   10.000 |"; "|                 |"; "| -0.100    0.000 |"; "f=10.000"].
Example group_53 : str (path [fspace 10; flens 10; fspace 10]) = Ok group2f.
Proof. vm_compute. reflexivity. Qed.
(** 163-171 *)
Definition system := [fspace 10; flens 10; fspace 10; fspace 10; flens 10; fspace 10].
Example pop_163 : exists g, MatrixGroup_new (system ++ [the (Aperture (fz 100) ninf)]) "" = Ok g /\
  hasFiniteApertureDiameter (grp_elem g) = true /\ hasFiniteApertureDiameter (grp_elem (fst (pop_st g (-1)))) = false.
Proof. eexists. split; [vm_compute; reflexivity|]. vm_compute. repeat split. Qed.
(** 193-201 *)
Example insert_193 : exists g, MatrixGroup_new [fspace 10; flens 10; fspace 10] "" = Ok g /\ isImaging (gmat g) = false /\
  isImaging (gmat (fst (insert_st g 0 [path [fspace 15; flens 15; fspace 15]]))) = true.
Proof. eexists. split; [vm_compute; reflexivity|]. vm_compute. repeat split. Qed.
(** 203-211 *)
Example insert_203 : exists g, MatrixGroup_new system "" = Ok g /\ hasFiniteApertureDiameter (grp_elem g) = false /\
  hasFiniteApertureDiameter (grp_elem (fst (insert_st g 3 [the (Aperture (fz 50) ninf)]))) = true.
Proof. eexists. split; [vm_compute; reflexivity|]. vm_compute. repeat split. Qed.
(** 288-298 *)
Example transferMatrix_288 : (e <- transferMatrix (path [fspace 10; flens 10; fspace 10]) (fz 15);; str e) =
  Ok (text ["|  0.500   10.000 |"; "|                 |"; "| -0.100    0.000 |"; "f=10.000"]).
Proof. vm_compute. reflexivity. Qed.
(** 377-387 *)
Example intermediateConjugates_377 : intermediateConjugates (path [flens 10; fspace 30; flens 20]) = Ok [(fz 90, fz (-2))].
Proof. vm_compute. reflexivity. Qed.
(** ** ray.py 55-62 *)
Example mul_ray_55 : (m <- Matrix_init c1 c0 (frac (-1) 5) c1 (fz 2) None None c1 c1 (fz 2) ninf "Lens";; 
  Ok (negb (rblk (mul_ray_v KMatrix m (Ray_new c1 0.1%float))))) = Ok true.
Proof. vm_compute. reflexivity. Qed.
(** ** Slices, transfer matrices and beams *)
(** matrixgroup.py 243-251 *)
Example setitem_243 : exists g, MatrixGroup_new system "" = Ok g /\ magnification (gmat g) = Some (fz (-1), fz (-1)) /\
  magnification (gmat (fst (setslice_st g (Some 3%Z) None [fspace 5; flens 5; fspace 5]))) = Some (frac (-1) 2, fz (-2)).
Proof. eexists. split; [vm_compute; reflexivity|]. vm_compute. repeat split. Qed.
(** matrixgroup.py 340-357 *)
Example transferMatrices_340 : map str (transferMatrices (path [fspace 10; flens 10])) =
  [Ok (text ["|  1.000   10.000 |"; "|                 |"; "|  0.000    1.000 |"; "f = +inf (afocal)"]);
   Ok (text ["|  1.000    0.000 |"; "|                 |"; "| -0.100    1.000 |"; "f=10.000"])].
Proof. vm_compute. reflexivity. Qed.
(** matrix.py 434-444; the complex number is written by [fun _ => "(10+0.0201j)"].  The docstring has "λ: 0.0 nm", which
    gaussianbeam.py 148 cannot print for the default wavelength: 1e9 * 632.8e-6 is 632800.0 *)
Example mul_beam_434 : (b <- GaussianBeam (Some (mkC 4.999994928425984%float 0.0050356572916806525%float)) (Some c1) (fz 5) c1 632.8e-6%float c0;;
    b' <- mul_beam (lens10 5) b;; beam_str (fun _ => "(10+0.0201j)") (fun _ => "") b') =
  Ok (text ["Complex radius: (10+0.0201j)"; "w(z): 1.000, R(z): 10.000, z: 5.000, λ: 632800.0 nm"; "zo: 0.020, wo: 0.002, wo position: -10.000"]).
Proof. vm_compute. reflexivity. Qed.
