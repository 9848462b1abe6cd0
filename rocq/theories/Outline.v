(** The matplotlib path of a component (graphicComponents.py), and the label and length of a graphic (graphics.py). *)
From Coq Require Import ZArith List Bool.
From Verif Require Import Base Optics Drawing Figures.
Import ListNotations.
Open Scope num_scope.
Open Scope list_scope.

Section Model.
Context {T : Type} {N : Num T}.
Local Notation point := (@point T).
Local Notation curve := (@curve T).

(** matplotlib.path.Path.MOVETO, LINETO and CURVE3 *)
Inductive code := MOVETO | LINETO | CURVE3.
(** comparing two tuples of numbers; Python takes two references to one NaN object as equal here, which is left out *)
Definition peqb (p q : point) : bool := neqb (fst p) (fst q) && neqb (snd p) (snd q).
(** graphicComponents.py 82-87: isLinear and isQuadratic (30-36); [raise NotImplemented(...)] calls NotImplemented, which
    is a TypeError *)
Definition curve_codes (c : curve) : res (list code) :=
  match c with
  | [_; _] => Ok [MOVETO; LINETO]
  | [_; _; _] => Ok [MOVETO; CURVE3; CURVE3]
  | _ => Err TypeError
  end.
(** graphicComponents.py 80-95: the points and the codes gathered so far; the first code of a curve that starts where the
    previous one ended becomes LINETO *)
Definition join (before : list point) (c : curve) (codes : list code) : list code :=
  match last_opt before, c, codes with
  | Some p, q :: _, _ :: t => if peqb q p then LINETO :: t else codes
  | _, _, _ => codes
  end.
Fixpoint patch_loop (cs : list curve) (coords : list point) (codes : list code) : res (list point * list code) :=
  match cs with
  | [] => Ok (coords, codes)
  | c :: t =>
      k <- curve_codes c;;
      patch_loop t (coords ++ c) (codes ++ join coords c k)
  end.
(** graphicComponents.py 75-99: the path is made once and kept *)
Definition patch (c : component T) : res (list point * list code) := patch_loop (co_curves c) [] [].

(** graphicComponents.py 60-67: [list(set(xy))]; the order of a set does not matter for what is done with it *)
Fixpoint distinct (l : list point) : list point :=
  match l with
  | [] => []
  | p :: t => if existsb (peqb p) t then distinct t else p :: distinct t
  end.
(** graphics.py 73-78: np.mean over the first axis; the mean of no point is a number and centroid[0] an IndexError *)
Definition nsum (l : list T) : T := fold_left nadd l c0.
Definition centroid (cs : list (component T)) : res point :=
  match flat_map (fun c => distinct (xy c)) cs with
  | [] => Err IndexError
  | l => let n := nofZ (Z.of_nat (List.length l)) in
         Ok (ndiv (nsum (map fst l)) n, ndiv (nsum (map snd l)) n)
  end.
(** graphics.py 34-35: where the label of a graphic is *)
Definition label_of (cs : list (component T)) (x : T) : res point :=
  c <- centroid cs;;
  h <- halfHeight (mkGraphic cs x);;
  Ok (fst c, h * ndec 13 1).
(** figure.py 724, 735-736: the label is moved with its graphic and never scaled *)
Definition label_shown (cs : list (component T)) (x : T) : res point :=
  l <- label_of cs x;; Ok (fst l + x, snd l).

(** graphicComponents.py 69-73 for every component but Arrow, whose length is 0 (169-171): the extents along both axes *)
Definition extent (l : list T) : res T :=
  match l with
  | [] => Err ValueError
  | a :: t => Ok (fold_left (fun m q => if m <? q then q else m) t a - fold_left (fun m q => if q <? m then q else m) t a)
  end.
Definition comp_length (c : component T) : res point :=
  dx <- extent (map fst (distinct (xy c)));; dy <- extent (map snd (distinct (xy c)));; Ok (dx, dy).
(** graphics.py 84-86: np.sum adds all the entries *)
Fixpoint graphic_length (cs : list (component T)) : res T :=
  match cs with
  | [] => Ok c0
  | c :: t => d <- comp_length c;; r <- graphic_length t;; Ok (fst d + snd d + r)
  end.
End Model.
