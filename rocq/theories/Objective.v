(** Attribute lookup on objectives: what [objective.magnification()] does. *)
From Coq Require Import List Bool String.
From Verif Require Import Base Optics.
Import ListNotations.
Open Scope string_scope.

Section Model.
Context {T : Type} {N : Num T}.

(** a value found by attribute lookup: a method, or a stored value *)
Inductive attr := AMethod | AValue.

(** specialtylenses.py 375-401 and the constructors it calls (matrixgroup.py 19-36,
    matrix.py 118-163): the names assigned on the instance *)
Definition objective_instance : list string :=
  ["f"; "NA"; "focusToFocusLength"; "backAperture"; "workingDistance"; "magnification";
   "fieldNumber"; "frontAperture"; "isFlipped"; "url"; "elements"; "label";
   "frontVertex"; "backVertex"; "apertureDiameter"; "A"; "B"; "C"; "D"; "L";
   "frontIndex"; "backIndex"; "apertureNA"; "iteration"; "_lastRayToBeTraced"; "_lastRayTrace"].
(** the names a MatrixGroup instance holds (matrixgroup.py 19-36, matrix.py 118-163) *)
Definition group_instance : list string :=
  ["elements"; "label"; "frontVertex"; "backVertex"; "apertureDiameter"; "A"; "B"; "C"; "D"; "L";
   "frontIndex"; "backIndex"; "apertureNA"; "isFlipped"; "iteration"; "_lastRayToBeTraced"; "_lastRayTrace"].
(** methods inherited from matrix.py that return cardinal quantities *)
Definition matrix_methods : list string :=
  ["focalDistances"; "effectiveFocalLengths"; "backFocalLength"; "frontFocalLength";
   "focusPositions"; "principalPlanePositions"; "forwardConjugate"; "backwardConjugate";
   "magnification"; "flipOrientation"; "transferMatrix"; "trace"; "traceThrough"].

(** Python looks up plain functions on the instance before the class *)
Definition getattr (instance methods : list string) (name : string) : option attr :=
  if existsb (String.eqb name) instance then Some AValue
  else if existsb (String.eqb name) methods then Some AMethod
  else None.

Definition instance_of (e : @elem T) : list string :=
  match e with Group (GObjective _ _) _ _ => objective_instance | _ => group_instance end.

(** the call [e.magnification()] (matrix.py 1313-1346) *)
Definition call_magnification (e : @elem T) : res (option (T * T)) :=
  match getattr (instance_of e) matrix_methods "magnification" with
  | Some AMethod => Ok (magnification (emat e))
  | Some AValue => Err TypeError
  | None => Err AttributeError
  end.
End Model.
