(** Systems written down as a list of calls, and the same list with every length given in another unit.
    This is a specification: it only calls the constructors of the model. *)
From Coq Require Import ZArith List String.
From Verif Require Import Base Nums Optics.
Import ListNotations.

Section Units.
Context {T : Type} `{Num T}.

(** the public constructors of matrix.py and axicon.py, and a group of such parts *)
Inductive part :=
| PMatrix (a b c d l : T) (fv bv : option T) (fi bi : T)
| PLens (f diam : T)
| PMirror (r diam : T)
| PSpace (d n diam : T)
| PInterface (n1 n2 r diam : T)
| PThickLens (n r1 r2 t diam : T)
| PSlab (n t diam : T)
| PAperture (diam na : T)
| PAxicon (alpha n diam : T)
| PGroup (l : list part).

Fixpoint piece (p : part) : res elem :=
  match p with
  | PMatrix a b c d l fv bv fi bi => MatrixE a b c d l fv bv fi bi
  | PLens f diam => Lens f diam
  | PMirror r diam => CurvedMirror r diam
  | PSpace d n diam => Space d n diam
  | PInterface n1 n2 r diam => DielectricInterface n1 n2 r diam
  | PThickLens n r1 r2 t diam => ThickLens n r1 r2 t diam
  | PSlab n t diam => DielectricSlab n t diam
  | PAperture diam na => Aperture diam na
  | PAxicon alpha n diam => Axicon alpha n diam
  | PGroup l =>
      es <- (fix go (l : list part) : res (list elem) :=
               match l with [] => Ok [] | p :: t => e <- piece p;; es <- go t;; Ok (e :: es) end) l;;
      MatrixGroupE es
  end.
(** MatrixGroup([...]) with all its parts, in the order in which Python evaluates the calls *)
Definition assemble (l : list part) : res elem := piece (PGroup l).

(** the unit becomes [k] times smaller: every length is [k] times larger, C is [k] times smaller *)
Fixpoint in_unit (k : T) (p : part) : part :=
  let u x := nmul k x in
  let uo o := match o with Some x => Some (u x) | None => None end in
  match p with
  | PMatrix a b c d l fv bv fi bi => PMatrix a (u b) (ndiv c k) d (u l) (uo fv) (uo bv) fi bi
  | PLens f diam => PLens (u f) (u diam)
  | PMirror r diam => PMirror (u r) (u diam)
  | PSpace d n diam => PSpace (u d) n (u diam)
  | PInterface n1 n2 r diam => PInterface n1 n2 (u r) (u diam)
  | PThickLens n r1 r2 t diam => PThickLens n (u r1) (u r2) (u t) (u diam)
  | PSlab n t diam => PSlab n (u t) (u diam)
  | PAperture diam na => PAperture (u diam) na
  | PAxicon alpha n diam => PAxicon alpha n (u diam)
  | PGroup l => PGroup (map (in_unit k) l)
  end.
(** a ray in the new unit: the angle, the colour and whether it is blocked stay *)
Definition ray_in_unit (k : T) (r : ray) : ray := mkRay (nmul k (ry r)) (rth r) (nmul k (rz r)) (rblk r) (nmul k (rdiam r)) (rwl r).
Definition length_in_unit (k : T) (o : option T) : option T := match o with Some x => Some (nmul k x) | None => None end.
End Units.
Arguments part : clear implicits.
