(** Model of what a figure shows for the rays given to display(): figure.py 204-258 and 535-596 in
    /repo/raytracing.  The lines of each bundle of rays are given (RayLines.v models rayTraceLines), as are the
    functions "{0:.1f}".format and "{0:.2f}".format; fills are left out. *)
From Coq Require Import ZArith List Bool String Ascii.
From Verif Require Import Base Optics Group Imaging.
Import ListNotations.
Open Scope string_scope.
Open Scope list_scope.
Open Scope num_scope.

(** ** Dictionaries: in the order in which the keys were first set *)
Definition dict (V : Type) := list (string * V).
Fixpoint dget {V} (d : dict V) (k : string) : option V :=
  match d with [] => None | (k', v) :: t => if String.eqb k' k then Some v else dget t k end.
Fixpoint dset {V} (d : dict V) (k : string) (v : V) : dict V :=
  match d with
  | [] => [(k, v)]
  | (k', v') :: t => if String.eqb k' k then (k', v) :: t else (k', v') :: dset t k v
  end.
(** d[k].extend(l) *)
Definition dextend {V} (d : dict (list V)) (k : string) (l : list V) : res (dict (list V)) :=
  match dget d k with None => Err KeyError | Some v => Ok (dset d k (v ++ l)) end.

(** figure.py 10-14 *)
Definition kPrincipalKey := "Principal/axial rays".
Definition kObjectImageKey := "Object/Image".
Definition kLampKey := "Lamp".
Definition kElementsKey := "Elements".

(** what is drawn for one element of raysList: type(rays).__name__ *)
Inductive skind := SObject | SLamp | SOther (name : string).

Section Model.
Context {T : Type} {N : Num T} {Line : Type}.
Variables fmt1 fmt2 : T -> string.

(** rays.py 866-871 and 923-929: an ObjectRays or LampRays, or other Rays; [s_yMax] is rays.yMax and [s_lines]
    what rayTraceLines(rays) gives *)
Record source := mkSource {
  s_kind : skind; s_z : T; s_yMax : T; s_color : option string; s_label : option string; s_lines : list Line }.

(** figure.py 12 *)
Definition kObjectImageZKey (z : T) : string := "Object/Image (z=" ++ fmt1 z ++ ")".
(** figure.py 218, 236 *)
Definition kLampZKey (z : T) : string := "Lamp (z=" ++ fmt2 z ++ ")".

(** figure.py 221-240, without designParams *)
Definition add_lines (d : dict (list Line)) (s : source) : res (dict (list Line)) :=
  match s_kind s with
  | SObject =>
      if s_z s =? c0 then dextend d kObjectImageKey (s_lines s)
      else Ok (dset d (kObjectImageZKey (s_z s)) (s_lines s))
  | SLamp =>
      if s_z s =? c0 then dextend d kLampKey (s_lines s)
      else Ok (dset d (kLampZKey (s_z s)) (s_lines s))
  | SOther name =>
      match dget d name with
      | None => Ok (dset d name (s_lines s))
      | Some _ => dextend d name (s_lines s)
      end
  end.
Fixpoint setLinesFromRaysList (d : dict (list Line)) (l : list source) : res (dict (list Line)) :=
  match l with [] => Ok d | s :: t => d' <- add_lines d s;; setLinesFromRaysList d' t end.

(** figure.py 27 *)
Definition lineGroups0 : dict (list Line) := [(kPrincipalKey, []); (kObjectImageKey, []); (kLampKey, [])].

(** figure.py 232: a lamp in the list *)
Definition is_lamp (s : source) : bool := match s_kind s with SLamp => true | _ => false end.

(** ** Graphics *)
(** graphics.py 89-128; [PElement] stands for the graphics of elements and stops *)
Inductive picture :=
| PObject (diameter x : T) (color : string) (label : option string)
| PImage (diameter x : T) (color : string)
| PLamp (diameter x : T) (label : option string)
| PElement.

(** graphics.py 99 and 113, graphicComponents.py 154-163: the base and the tip of an arrow *)
Definition arrow_ends (diameter : T) : T * T := (ndiv (- diameter) c2, ndiv (- diameter) c2 + diameter).

(** figure.py 242-258 *)
Definition conjugates_from (g : @grp T) (x : T) : res (list (T * T)) :=
  if negb (x =? c0) then
    f <- subPath (gelems g) x false;; fc <- intermediateConjugates (grp_elem f);;
    b <- subPath (gelems g) x true;; bc <- intermediateConjugates (grp_elem b);;
    Ok (fc ++ map (fun p => (fst p * - c1, snd p)) bc)
  else intermediateConjugates (grp_elem g).
Definition graphicsOfConjugatePlanes (g : @grp T) (objectDiameter : T) (color : string) (x : T)
    : res (list picture) :=
  cs <- conjugates_from g x;;
  Ok (map (fun p => PImage (snd p * objectDiameter) (fst p + x) color) cs).

(** figure.py 204-219 *)
Definition add_graphics (g : @grp T) (showObject showImages : bool) (objectColor imageColor : string)
    (d : dict (list picture)) (s : source) : res (dict (list picture)) :=
  let diameter := s_yMax s * c2 in
  match s_kind s with
  | SObject =>
      let key := if s_z s =? c0 then kObjectImageKey else kObjectImageZKey (s_z s) in
      let d1 := if showObject then dset d key [PObject diameter (s_z s) objectColor (s_label s)] else d in
      if showImages then
        match dget d1 key with
        | None => Err KeyError
        | Some _ => im <- graphicsOfConjugatePlanes g diameter imageColor (s_z s);; dextend d1 key im
        end
      else Ok d1
  | SLamp =>
      let key := if s_z s =? c0 then kLampKey else kLampZKey (s_z s) in
      Ok (dset d key [PLamp diameter (s_z s) (s_label s)])
  | SOther _ => Ok d
  end.
Fixpoint setGraphicsFromRaysList (g : @grp T) (showObject showImages : bool) (objectColor imageColor : string)
    (d : dict (list picture)) (l : list source) : res (dict (list picture)) :=
  match l with
  | [] => Ok d
  | s :: t =>
      d' <- add_graphics g showObject showImages objectColor imageColor d s;;
      setGraphicsFromRaysList g showObject showImages objectColor imageColor d' t
  end.

(** figure.py 26 *)
Definition graphicGroups0 : dict (list picture) :=
  [(kPrincipalKey, []); (kObjectImageKey, []); (kLampKey, []); (kElementsKey, [])].

(** figure.py 45-57: lines, graphics *)
Definition all_of {V} (d : dict (list V)) : list V := flat_map snd d.

(** figure.py 535-552: whether the group of a key is shown at first; [showFOV], [showObjectImage] are the
    designParams before the call *)
Definition group_visible (showFOV showObjectImage : bool) (l : list source) (key : string) : bool :=
  let showObjectImage := showObjectImage && negb (existsb is_lamp l) && negb showFOV in
  negb ((negb showFOV && String.eqb key kPrincipalKey) || (negb showObjectImage && String.eqb key kObjectImageKey)).
End Model.
