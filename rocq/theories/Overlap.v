(** Model of the placement of labels: graphicComponents.py 381-461 and figure.py 738-803 in /repo/raytracing.
    What matplotlib does is modelled from its documentation: the box of a text is cut at the edges of the display and
    is None when nothing of it is left, [overlaps] includes touching boxes, [expanded] widens a box around its middle.
    The axes are linear; the transforms between pixels and data are exact. *)
From Coq Require Import ZArith List Bool.
From Verif Require Import Base.
Import ListNotations.
Open Scope num_scope.
Open Scope list_scope.

Section Model.
Context {T : Type} {N : Num T}.

(** a label with its text. [lb_x], [lb_off]: x and offset. Its text is drawn from [lb_o + lb_u * lb_x + lb_a] to
    [lb_o + lb_u * lb_x + lb_b] in data units: [lb_o] is the x of its graphic (figure.py 735) and [lb_u] is 1; for a label
    with useDataUnits=False (figure.py 696) they are the left edge and the width of the display. *)
Record label := mkLabel { lb_x : T; lb_off : T; lb_o : T; lb_u : T; lb_a : T; lb_b : T; lb_y0 : T; lb_y1 : T }.
Record bbox := mkBox { bx0 : T; bx1 : T; by0 : T; by1 : T }.

(** graphicComponents.py 407-417 and 423-425 *)
Definition translate (l : label) (dx : T) : label :=
  mkLabel (lb_x l + dx) (lb_off l + dx) (lb_o l) (lb_u l) (lb_a l) (lb_b l) (lb_y0 l) (lb_y1 l).
Definition resetPosition (l : label) : label :=
  mkLabel (lb_x l - lb_off l) c0 (lb_o l) (lb_u l) (lb_a l) (lb_b l) (lb_y0 l) (lb_y1 l).

(** where the text is; matplotlib's Text.get_window_extent in data units *)
Definition text_box (l : label) : bbox :=
  mkBox (lb_o l + lb_u l * lb_x l + lb_a l) (lb_o l + lb_u l * lb_x l + lb_b l) (lb_y0 l) (lb_y1 l).
Definition tmax (a b : T) : T := if a <? b then b else a.
Definition tmin (a b : T) : T := if b <? a then b else a.
(** Artist.get_tightbbox: Bbox.intersection with the axes *)
Definition cut (v b : bbox) : option bbox :=
  let c := mkBox (tmax (bx0 v) (bx0 b)) (tmin (bx1 v) (bx1 b)) (tmax (by0 v) (by0 b)) (tmin (by1 v) (by1 b)) in
  if (bx0 c <=? bx1 c) && (by0 c <=? by1 c) then Some c else None.
(** BboxBase.expanded with sh=1 *)
Definition expanded (b : bbox) : bbox :=
  let w := bx1 b - bx0 b in
  let d := ndiv (ndec 12 1 * w - w) c2 in
  mkBox (bx0 b - d) (bx1 b + d) (by0 b) (by1 b).
(** graphicComponents.py 445-449, 451-461; None.transformed is an AttributeError *)
Definition isRenderedOn (v : bbox) (l : label) : bool := match cut v (text_box l) with Some _ => true | None => false end.
Definition boundingBox (v : bbox) (l : label) : res bbox :=
  match cut v (text_box l) with Some b => Ok (expanded b) | None => Err AttributeError end.
(** BboxBase.overlaps, the boxes being the right way round *)
Definition overlaps (a b : bbox) : bool :=
  (bx0 a <=? bx1 b) && (bx0 b <=? bx1 a) && (by0 a <=? by1 b) && (by0 b <=? by1 a).

(** figure.py 795-803; [v]: axes.get_xlim() *)
Definition translateLabel (v b : bbox) (l : label) (dx : T) : label :=
  let l := translate l dx in
  if bx0 b + dx <? bx0 v then translate l (bx0 v - (bx0 b + dx))
  else if bx1 v <? bx1 b + dx then translate l (bx1 v - (bx1 b + dx))
  else l.
(** figure.py 781-784 *)
Definition requiredSpacing (a b : bbox) : T :=
  if bx1 a <? bx1 b then bx1 a - bx0 b else bx0 a - bx1 b.

Fixpoint combinations {A} (l : list A) : list (A * A) :=
  match l with [] => [] | x :: t => map (pair x) t ++ combinations t end.
Fixpoint at_index {A} (n : nat) (f : A -> A) (l : list A) : list A :=
  match l, n with
  | [], _ => []
  | x :: t, O => f x :: t
  | x :: t, S n => x :: at_index n f t
  end.
Definition no_box : bbox := mkBox c0 c0 c0 c0.
(** figure.py 776-787: one pair; the boxes are those of the beginning of the round *)
Definition one_pair (v : bbox) (boxes : list bbox) (s : list label * bool) (p : nat * nat) : list label * bool :=
  let boxA := nth (fst p) boxes no_box in
  let boxB := nth (snd p) boxes no_box in
  if overlaps boxA boxB then
    let r := requiredSpacing boxA boxB in
    let ls := at_index (fst p) (fun l => translateLabel v boxA l (ndiv (nopp r) c2)) (fst s) in
    (at_index (snd p) (fun l => translateLabel v boxB l (ndiv r c2)) ls, false)
  else s.
Fixpoint all_boxes (v : bbox) (ls : list label) : res (list bbox) :=
  match ls with
  | [] => Ok []
  | l :: t => b <- boundingBox v l;; bs <- all_boxes v t;; Ok (b :: bs)
  end.
(** figure.py 774-787: the labels after one round, and noOverlap *)
Definition one_round (v : bbox) (ls : list label) : res (list label * bool) :=
  boxes <- all_boxes v ls;;
  Ok (fold_left (one_pair v boxes) (combinations (seq 0 (length ls))) (ls, true)).
(** figure.py 772-791: at most [n] rounds *)
Fixpoint rounds (n : nat) (v : bbox) (ls : list label) : res (list label) :=
  match n with
  | O => Ok ls
  | S n =>
      r <- one_round v ls;;
      if snd r then Ok (fst r) else rounds n v (fst r)
  end.
(** figure.py 766-793 with maxIteration=5, [ls] being the rendered labels *)
Definition fixLabelOverlaps (v : bbox) (ls : list label) : res (list label) :=
  if (length ls <? 2)%nat then Ok ls else rounds 5 v ls.
(** the labels that are not rendered stay, the others are those of the list [moved] *)
Fixpoint put_back (v : bbox) (ls moved : list label) : list label :=
  match ls with
  | [] => []
  | l :: t =>
      if isRenderedOn v l then match moved with m :: ms => m :: put_back v t ms | [] => l :: put_back v t [] end
      else l :: put_back v t moved
  end.
(** figure.py 738-764: [ls] are the labels of the graphics and then the labels of the figure *)
Definition updateLabels (v : bbox) (ls : list label) : res (list label) :=
  let ls := map resetPosition ls in
  moved <- fixLabelOverlaps v (filter (isRenderedOn v) ls);;
  Ok (put_back v ls moved).
End Model.
Arguments label T : clear implicits.
Arguments bbox T : clear implicits.
