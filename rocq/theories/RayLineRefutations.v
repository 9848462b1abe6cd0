(** Rays that cannot be drawn, or not in the colours asked for (C91). *)
From Coq Require Import ZArith List Bool String Floats.
From Verif Require Import Base Nums Optics Imaging Drawing Display RayLines GroupRefutations.
Import ListNotations.
Open Scope string_scope.
Open Scope list_scope.
Set Warnings "-inexact-float".

(** int(np.round(x)) for the values 0, 1/2, 1, 3/2 and 2 that occur below *)
Definition fround (x : float) : Z :=
  if PrimFloat.ltb x 0.75%float then 0%Z else if PrimFloat.ltb x 1.25%float then 1%Z else 2%Z.
Definition at_height (y th : float) : @ray float := mkRay y th (fz 0) false ninf None.
Definition one_space : @elem float := the (Space (fz 10) (fz 1) ninf).
Definition default_colours := Colours ["b"; "r"; "g"].
Definition default_lamp := Colours ["y"].
Definition shown_lines (own : option colors) (lamp : bool) (rays : list (@ray float)) : res (list (@line float)) :=
  rayTraceLines fround true default_colours default_lamp one_space [one_space] own lamp (fz 0) rays.

(** a point lamp on the axis, with the default colours of lamps (figure.py 39-45) *)
Lemma point_lamp : exists rays, rays <> [] /\ shown_lines None true rays = Err IndexError.
Proof. exists [at_height (fz 0) (-0.5)%float; at_height (fz 0) (0.5)%float]. split; [discriminate|vm_compute; reflexivity]. Qed.
(** one colour asked for rays from an axial point *)
Lemma one_colour_point : exists rays, rays <> [] /\
  shown_lines (Some (Colours ["k"])) false rays = Err IndexError.
Proof. exists [at_height (fz 0) (-0.5)%float; at_height (fz 0) (0.5)%float]. split; [discriminate|vm_compute; reflexivity]. Qed.
(** the name of a colour instead of a list: the letters of the name are taken for colours *)
Lemma colour_name : exists rays,
  match shown_lines (Some (OneString "red")) false rays with
  | Ok ls => map l_color ls = ["r"; "e"; "d"]
  | Err _ => False
  end.
Proof.
  exists [at_height (fz (-1)) (fz 0); at_height (fz 0) (fz 0); at_height (fz 1) (fz 0)].
  vm_compute. reflexivity.
Qed.
(** no colour at all *)
Lemma no_colour : exists rays, shown_lines (Some (Colours [])) false rays = Err ZeroDivisionError.
Proof. exists [at_height (fz (-1)) (fz 0)]. vm_compute. reflexivity. Qed.
