(** Model of the texts made by print(): ray.py 246-256, matrix.py 1424-1438, gaussianbeam.py 141-154 and zemax.py 108-120
    in /repo/raytracing, on doubles.  The format of complex numbers ("{0:.3}" and "{0}") is a parameter. *)
From Coq Require Import ZArith List Bool String Ascii Floats.
From Verif Require Import Base Nums Optics Beam Materials Zemax Format.
Import ListNotations.
Set Warnings "-inexact-float".
Open Scope string_scope.

Definition newline : string := String "010" "".
Definition tab : string := String "009" "".
Fixpoint spaces (k : nat) : string := match k with O => "" | S j => " " ++ spaces j end.
(** the width in a format such as "{0:6.3f}" or "{0:>10}" *)
Definition pad (w : nat) (s : string) : string := spaces (w - String.length s) ++ s.

(** ray.py 246-256 *)
Definition ray_str (r : @ray float) : string :=
  "y = " ++ pad 6 (fixed 3 (ry r)) ++ newline ++
  "theta = " ++ pad 6 (fixed 3 (rth r)) ++ newline ++
  "z = " ++ pad 4 (fixed 3 (rz r)) ++
  (if rblk r then " (blocked)" else "").

(** matrix.py 1424-1438 *)
Definition matrix_str (m : @mat float) : res string :=
  let description :=
    "| " ++ pad 6 (fixed 3 (mA m)) ++ "   " ++ pad 6 (fixed 3 (mB m)) ++ " |" ++ newline ++
    "|                 |" ++ newline ++
    "| " ++ pad 6 (fixed 3 (mC m)) ++ "   " ++ pad 6 (fixed 3 (mD m)) ++ " |" ++ newline in
  if negb (neqb (mC m) c0) then
    f <- pdiv (nopp c1) (mC m);; Ok (description ++ "f=" ++ fixed 3 f)
  else Ok (description ++ "f = +inf (afocal)").

Section Beam.
Variable cfmt3 cfmt : @cx float -> string.
(** gaussianbeam.py 141-154 *)
Definition beam_str (b : @beam float) : res string :=
  o <- bwo b;;
  match o with
  | Some wo =>
      w <- bw b;;
      R <- bR b;;
      Ok ("Complex radius: " ++ cfmt3 (bq b) ++ newline ++
          "w(z): " ++ fixed 3 w ++ ", " ++
          "R(z): " ++ fixed 3 R ++ ", " ++
          "z: " ++ fixed 3 (bz b) ++ ", " ++
          "λ: " ++ fixed 1 (nmul (bwl b) 1e9%float) ++ " nm" ++ newline ++
          "zo: " ++ fixed 3 (bzo b) ++ ", " ++
          "wo: " ++ fixed 3 wo ++ ", " ++
          "wo position: " ++ fixed 3 (waistPosition b))
  | None => Ok ("Beam is not finite: q=" ++ cfmt (bq b))
  end.
End Beam.

(** zemax.py 108-120 *)
Definition prescription_line (s : surface float) : string :=
  pad 10 (fixed 2 (sf_R s)) ++ tab ++ pad 10 (printed (fst (sf_mat s))) ++ tab ++
  pad 10 (fixed 2 (sf_spacing s)) ++ tab ++ pad 10 (fixed 2 (sf_diam s)) ++ newline.
Definition prescription_head : string :=
  newline ++ pad 10 "R" ++ tab ++ pad 10 "Material" ++ tab ++ pad 10 "d" ++ tab ++ pad 10 "diameter" ++ newline.
Definition prescription_of (l : list (surface float)) : string :=
  fold_left (fun p s => p ++ prescription_line s) l prescription_head.
Definition prescription (z : reader float) : res string :=
  l <- lensSurfaces z;; Ok (prescription_of l).
