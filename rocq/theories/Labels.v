(** Model of the points of interest marked in a figure: figure.py 268-312, with matrix.py 948-959, 1489-1511,
    1587-1609, 1837-1858 and specialtylenses.py 34-43, 434-445, in /repo/raytracing.  The heights at which the labels
    are written and their font are left out. *)
From Coq Require Import ZArith NArith List Bool String Ascii.
From Verif Require Import Base Optics Drawing Figures Format Scene.
Import ListNotations.
Open Scope num_scope.
Open Scope string_scope.
Open Scope list_scope.

(** str.strip('$') *)
Fixpoint lstrip (s : string) : string :=
  match s with String a t => if Ascii.eqb a "$" then lstrip t else s | EmptyString => EmptyString end.
Fixpoint rev_string (s acc : string) : string :=
  match s with EmptyString => acc | String a t => rev_string t (String a acc) end.
Definition strip (s : string) : string := rev_string (lstrip (rev_string (lstrip s) "")) "".

(** figure.py 276-281, 296-304: labels at the same place are joined *)
Definition add_label (d : dict string) (p : string * string) : dict string :=
  match dget d (fst p) with
  | Some l => dset d (fst p) (l ++ ", " ++ snd p)%string
  | None => dset d (fst p) (snd p)
  end.
Definition gather (l : list (string * string)) : dict string := fold_left add_label l [].

(** figure.py 298-300 *)
Definition numbered (label : string) (index : nat) : string :=
  ("${" ++ strip label ++ "}_" ++ decimal (N.of_nat index) ++ "$")%string.

Section Model.
Context {T : Type} {N : Num T}.
(** "{0:3.3f}".format and float() *)
Variable fmt3 : T -> string.
Variable parse : string -> T.
Local Notation drawable := (drawable T).

(** matrix.py 1503-1511, 1601-1609, 1850-1858 *)
Definition focal_points (m : @mat T) (z : T) : res (list (option T * string)) :=
  f <- focusPositions m z;;
  Ok (match f with Some (f1, f2) => [(Some f1, "$F_f$"); (Some f2, "$F_b$")] | None => [] end).
(** specialtylenses.py 42-43: focusPositions gives (None, None) without power *)
Definition compound_points (m : @mat T) (z : T) : res (list (option T * string)) :=
  f <- focusPositions m z;;
  Ok (match f with
      | Some (f1, f2) => [(Some f1, "$F_f$"); (Some f2, "$F_b$")]
      | None => [(None, "$F_f$"); (None, "$F_b$")]
      end).
(** specialtylenses.py 434-445 *)
Definition objective_points (flipped : bool) (ftf z : T) : list (option T * string) :=
  if flipped then [(Some (z + ftf), "$F_b$"); (Some z, "$F_f$")]
  else [(Some z, "$F_b$"); (Some (z + ftf), "$F_f$")].
Definition pointsOfInterest (d : drawable) (z : T) : res (list (option T * string)) :=
  match d with
  | DLens (LLeaf (KLens _ _ | KCurvedMirror | KThickLens _ _ _ | KSlab _ _ _) m) => focal_points m z
  | DLens (LCompound m _ | LDoublet m _ _ _ _ _ _ _ _ | LSinglet m _ _ _ _ _) => compound_points m z
  | DObjective m _ ftf _ _ _ _ => Ok (objective_points (mflip m) ftf z)
  | _ => Ok []
  end.

(** figure.py 287: type(element).__name__ != 'Space' *)
Definition is_physical (d : drawable) : bool := match d with DLens (LLeaf KSpace _) => false | _ => true end.
Definition several (ds : list drawable) : bool := Nat.ltb 1 (List.length (filter is_physical ds)).

(** figure.py 295-300: None cannot be formatted *)
Fixpoint entries_of (many : bool) (index : nat) (l : list (option T * string)) : res (list (string * string)) :=
  match l with
  | [] => Ok []
  | (None, _) :: _ => Err TypeError
  | (Some z, label) :: t =>
      r <- entries_of many index t;;
      Ok ((fmt3 z, if many then numbered label index else label) :: r)
  end.
(** figure.py 289-305: [index] is groupIndex.  (The path itself has no points of interest: matrix.py 959.) *)
Fixpoint entries (many : bool) (ds : list drawable) (z : T) (index : nat) : res (list (string * string)) :=
  match ds with
  | [] => Ok []
  | d :: t =>
      l <- pointsOfInterest d z;;
      let index := match l with [] => index | _ => S index end in
      es <- entries_of many index l;;
      r <- entries many t (z + drawable_L d) index;;
      Ok (es ++ r)
  end.
(** figure.py 307-312; [show] is path.showPointsOfInterestLabels: abscissas and texts *)
Definition points (show : bool) (ds : list drawable) : res (list (T * option string)) :=
  es <- entries (several ds) ds c0 0;;
  Ok (map (fun p => (parse (fst p), if show then Some (snd p) else None)) (gather es)).
End Model.
