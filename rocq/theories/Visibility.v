(** Model of the check boxes of a figure: figure.py 579-596, 703-725 and 815-820, graphics.py 37-56 and
    graphicComponents.py 101-109, 492-500 in /repo/raytracing. *)
From Coq Require Import List Bool String Ascii.
From Verif Require Import Base Scene.
Import ListNotations.
Open Scope string_scope.
Open Scope list_scope.

(** a graphic: isVisible of the graphic and of its components; its label, when it has one, is drawn (figure.py 672-675)
    and is never hidden *)
Record shape := mkShape { sh_vis : bool; sh_parts : list bool; sh_label : option string }.
(** the groups of graphics and the groups of lines, a line being its isVisible *)
Record groups := mkGroups { g_graphics : dict (list shape); g_lines : dict (list bool) }.

(** graphics.py 52-56 *)
Definition set_shape (b : bool) (s : shape) : shape := mkShape b (map (fun _ => b) (sh_parts s)) (sh_label s).
Definition at_key {V} (k : string) (f : V -> V) (d : dict V) : dict V :=
  map (fun p => if String.eqb (fst p) k then (fst p, f (snd p)) else p) d.
(** figure.py 579-585 *)
Definition setGroupVisibility (k : string) (b : bool) (g : groups) : groups :=
  mkGroups (at_key k (map (set_shape b)) (g_graphics g)) (at_key k (map (fun _ => b)) (g_lines g)).
(** figure.py 587-596 *)
Definition visibility (g : groups) : dict bool :=
  let d := fold_left (fun d p => match snd p with s :: _ => dset d (fst p) (sh_vis s) | [] => d end) (g_graphics g) [] in
  fold_left (fun d p => match snd p with b :: _ => dset d (fst p) b | [] => d end) (g_lines g) d.
(** figure.py 704-706, 713-715: the boxes and whether they are checked *)
Definition boxes (g : groups) : dict bool := filter (fun p => negb (String.eqb (fst p) kElementsKey)) (visibility g).
(** str.replace('\n', ' ') *)
Fixpoint newlines_to_spaces (s : string) : string :=
  match s with
  | EmptyString => EmptyString
  | String a t => String (if Ascii.eqb a "010"%char then " "%char else a) (newlines_to_spaces t)
  end.
(** figure.py 815-818 *)
Definition onCheckBoxCallback (label : string) (g : groups) : res groups :=
  let k := newlines_to_spaces label in
  match dget (visibility g) k with
  | Some old => Ok (setGroupVisibility k (negb old) g)
  | None => Err KeyError
  end.
Fixpoint clicks (l : list string) (g : groups) : res groups :=
  match l with
  | [] => Ok g
  | k :: t => g' <- onCheckBoxCallback k g;; clicks t g'
  end.
(** the texts of the labels drawn next to the graphics of a group *)
Definition labels_drawn (k : string) (g : groups) : list string :=
  match dget (g_graphics g) k with
  | Some l => flat_map (fun s => match sh_label s with Some t => [t] | None => [] end) l
  | None => []
  end.
