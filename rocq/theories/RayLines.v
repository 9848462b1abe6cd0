(** Model of Figure.rayTraceLines (raytracing/figure.py 376-431): the lines drawn for a set of rays.
    np.round followed by int() is a parameter; line widths and labels are left out. *)
From Coq Require Import ZArith List Bool String Ascii.
From Verif Require Import Base Nums Optics Imaging Drawing Display.
Import ListNotations.
Open Scope string_scope.
Open Scope list_scope.

(** a value given for rayColors: a list of colours or a string (rays.py 853, 906: "a color or a set of
    colors") *)
Inductive colors := Colours (l : list string) | OneString (s : string).
Definition colors_len (c : colors) : Z :=
  match c with Colours l => Z.of_nat (List.length l) | OneString s => Z.of_nat (String.length s) end.
(** colors[i] for i >= 0 *)
Definition color_at (c : colors) (i : Z) : res string :=
  match c with
  | Colours l => match nth_error l (Z.to_nat i) with Some s => Ok s | None => Err IndexError end
  | OneString s => match String.get (Z.to_nat i) s with Some a => Ok (String a "") | None => Err IndexError end
  end.

Section Model.
Context {T : Type} {N : Num T}.
Local Notation ray := (@ray T).
Local Notation elem := (@elem T).
(** int(np.round(x)) for finite x *)
Variable toround : T -> Z.

Record line := mkLine { l_x : list T; l_y : list T; l_color : string }.

(** figure.py 408-414: the largest height of a first point *)
Definition max_height (rm : bool) (traces : list (list ray)) : T :=
  fold_left (fun m t => match snd (rearrangeRayTraceForPlotting rm t) with
                        | [] => m
                        | y :: _ => if nltb m (nabs y) then nabs y else m
                        end) traces c0.

(** figure.py 423-428; Python's % raises ZeroDivisionError for an empty list of colours *)
Definition color_index (c : colors) (m y : T) : res Z :=
  if neqb m c0 then Ok 1%Z
  else
    x <- pdiv (nadd y m) (nmul m c2);;
    let i := toround (nmul x (nofZ (colors_len c - 1))) in
    if (colors_len c =? 0)%Z then Err ZeroDivisionError else Ok (i mod colors_len c)%Z.

(** figure.py 416-431 *)
Fixpoint draw_lines (rm : bool) (c : colors) (m dz : T) (traces : list (list ray)) : res (list line) :=
  match traces with
  | [] => Ok []
  | t :: rest =>
      match rearrangeRayTraceForPlotting rm t with
      | (_, []) => draw_lines rm c m dz rest
      | (x, y :: ys) =>
          i <- color_index c m y;;
          col <- color_at c i;;
          ls <- draw_lines rm c m dz rest;;
          Ok (mkLine (map (fun z => nadd z dz) x) (y :: ys) col :: ls)
      end
  end.

Definition lines_of_traces (rm : bool) (c : colors) (dz : T) (traces : list (list ray)) : res (list line) :=
  draw_lines rm c (max_height rm traces) dz traces.

(** figure.py 398-400: a ray traced backwards is drawn on the left *)
Definition leftwards (r : ray) : ray := mkRay (ry r) (rth r) (nopp (nabs (rz r))) (rblk r) (rdiam r) (rwl r).

(** figure.py 376-431.  [rayColors]: the colours of the rays, if any; [lamp]: the rays are LampRays.
    The rays start at z = 0: the ray objects shared by the two traces of a ray are not changed by
    [leftwards] *)
Definition rayTraceLines (rm : bool) (design lampdesign : colors) (e : elem) (es : list elem)
    (rayColors : option colors) (lamp : bool) (dz : T) (rays : list ray) : res (list line) :=
  let c := match rayColors with Some c => c | None => if lamp then lampdesign else design end in
  if negb (neqb dz c0) then
    f <- subPath es dz false;;
    b <- subPath es dz true;;
    lines_of_traces rm c dz
      (map (trace_values (Group GGroup (gmat f) (gelems f))) rays ++
       map (fun r => map leftwards (trace_values (Group GGroup (gmat b) (gelems b)) r)) rays)
  else lines_of_traces rm c c0 (map (trace_values e) rays).
End Model.
