(** Model of the rays of the object that display() and displayWithObject() draw: imagingpath.py 86-149, 994-1001 and
    1054-1062 in /repo/raytracing.  The settings of the figure are those of Display.v; the deprecation warnings of the
    setters are left out. *)
From Coq Require Import ZArith List Bool String.
From Verif Require Import Base Optics RaysModel Display.
Import ListNotations.
Open Scope list_scope.

Section Model.
Context {T : Type} {N : Num T}.
Local Notation elem := (@elem T).
Local Notation ray := (@ray T).

(** imagingpath.py 88-92: a path, _fanNumber and _rayNumber; _fanAngle is [p_fan] *)
Record ipath := mkIPath { i_path : @path T; i_fans : Z; i_rays : Z }.
Definition ipath_new : ipath := mkIPath ImagingPath_new 3 3.

Variables (e : elem) (fuel : nat) (pytan : T -> T).

(** imagingpath.py 994-999; [drange] is figure.displayRange at that moment *)
Definition default_object (drange : res T) (q : ipath) : res (list ray) :=
  a <- default_fan e drange pytan (i_path q);;
  ObjectRays (p_height (i_path q)) a (i_fans q) (i_rays q).
(** imagingpath.py 1055-1058: the rays of displayWithObject(diameter, fanAngle, fanNumber, rayNumber) *)
Definition given_object (drange : res T) (q : ipath) (diameter : T) (fan : option T) (fanNumber rayNumber : Z)
    : res (list ray) :=
  a <- default_fan e drange pytan (mkPath diameter fan (p_fig (i_path q)) (p_design (i_path q)));;
  ObjectRays diameter a fanNumber rayNumber.

(** what a user does with a path: design(), objectHeight, fanAngle, fanNumber, rayNumber (imagingpath.py 115-149),
    display() and displayWithObject() *)
Inductive iop :=
| IDesign (name : option string) (kw : list (key * @setting T))
| IHeight (h : T)
| IAngle (a : option T)
| IFans (n : Z)
| IRays (n : Z)
| IDisplay (drange : res T) (a : @args T)
| IWith (drange : res T) (diameter : T) (fan : option T) (remove : bool).
Definition put_path (q : ipath) (p : @path T) : ipath := mkIPath p (i_fans q) (i_rays q).
Definition istep (q : ipath) (o : iop) : ipath :=
  match o with
  | IDesign name kw => match design (i_path q) name kw with Ok p => put_path q p | Err _ => q end
  | IHeight h => match set_objectHeight (i_path q) h with Ok p => put_path q p | Err _ => q end
  | IAngle a => put_path q (mkPath (p_height (i_path q)) a (p_fig (i_path q)) (p_design (i_path q)))
  | IFans n => mkIPath (i_path q) n (i_rays q)
  | IRays n => mkIPath (i_path q) (i_fans q) n
  | IDisplay dr a => put_path q (snd (fst (fst (display e fuel dr pytan (i_path q) a))))
  | IWith dr d fan rm => put_path q (snd (fst (fst (displayWithObject e fuel dr pytan (i_path q) d fan rm))))
  end.
Definition irun (os : list iop) : ipath := fold_left istep os ipath_new.
End Model.
