(** Model of the vertical range of a figure and of the height given to open lenses: figure.py 178-187, 330-374 and
    805-809 in /repo/raytracing. *)
From Coq Require Import ZArith List Bool.
From Verif Require Import Base Optics Group Drawing Figures RayLines.
Import ListNotations.
Open Scope num_scope.
Open Scope list_scope.

Section Model.
Context {T : Type} {N : Num T}.
(** np.tan *)
Variable tan : T -> T.

(** Python's max() of a list *)
Definition py_max (l : list T) : res T :=
  match l with [] => Err ValueError | x :: t => Ok (fold_left (fun m y => if m <? y then y else m) t x) end.
(** figure.py 180-184; [lines]: the lines of all groups, which are all labelled 'ray' in a figure of rays *)
Fixpoint maxRayHeight_from (m : T) (lines : list (@line T)) : res T :=
  match lines with
  | [] => Ok m
  | l :: t => y <- py_max (l_y l);; maxRayHeight_from (if m <? y then y else m) t
  end.
Definition maxRayHeight (lines : list (@line T)) : res T := maxRayHeight_from c0 lines.

(** figure.py 342-345, 363-366 *)
Fixpoint tallest (gs : list (graphic T)) (r : T) : res T :=
  match gs with
  | [] => Ok r
  | g :: t => h <- halfHeight g;; tallest t (if r <? h * c2 then h * c2 else r)
  end.

(** figure.py 350-357; [L] is path.L *)
Definition with_images (L objectHeight : T) (cs : list (T * T)) (r : T) : T :=
  fold_left (fun r p =>
    if (c0 <=? fst p) && (fst p <=? L) then
      if r <? objectHeight * nabs (snd p) then objectHeight * nabs (snd p) else r
    else r) cs r.

(** figure.py 340-359: [ds] the elements of the path as they are drawn, [g] the path *)
Definition imagingDisplayRange (ds : list (drawable T)) (g : @grp T) (lines : list (@line T)) (objectHeight : T) : res T :=
  m <- maxRayHeight lines;;
  gs <- graphics_loop tan ds m c0;;
  r <- tallest gs c0;;
  let r := if (r =? ninf) || (r <=? objectHeight) then objectHeight else r in
  cs <- intermediateConjugates (grp_elem g);;
  Ok (with_images (mL (gmat g)) objectHeight cs r).

(** figure.py 361-374; [w]: the width of path.inputBeam, if there is one *)
Definition laserDisplayRange (ds : list (drawable T)) (lines : list (@line T)) (w : option T) : res T :=
  m <- maxRayHeight lines;;
  gs <- graphics_loop tan ds m c0;;
  r <- tallest gs c0;;
  Ok (if (r =? ninf) || (r =? c0) then match w with Some w => w * nofZ 3 | None => nofZ 100 end else r).

(** figure.py 805-809: the limits of the vertical axis *)
Definition ylim (displayRange : T) : T * T :=
  let h := ndiv displayRange c2 * ndec 15 1 in (- h, h).
End Model.
