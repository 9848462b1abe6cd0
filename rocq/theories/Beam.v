(** Model of Gaussian beams and laser cavities: gaussianbeam.py, the beam part of matrix.py and
    matrixgroup.py, lasercavity.py and the beam part of figure.py in /repo/raytracing.
    Complex numbers are pairs of numbers; arithmetic follows CPython's complexobject.c (up to
    Python 3.13, where a float met with a complex is first promoted to a complex). *)
From Coq Require Import ZArith List Bool String.
From Verif Require Import Base Optics.
Import ListNotations.
Open Scope num_scope.
Open Scope list_scope.

Section Model.
Context {T : Type} {N : Num T}.
Local Notation elem := (@elem T).
Local Notation mat := (@mat T).

(** ** Complex numbers *)
Record cx := mkC { re : T; im : T }.
(** complex(x) *)
Definition cof (x : T) : cx := mkC x c0.
(** complexobject.c _Py_c_sum, _Py_c_diff, _Py_c_neg, _Py_c_prod *)
Definition cadd (a b : cx) : cx := mkC (re a + re b) (im a + im b).
Definition csub (a b : cx) : cx := mkC (re a - re b) (im a - im b).
Definition copp (a : cx) : cx := mkC (- re a) (- im a).
Definition cmul (a b : cx) : cx :=
  mkC (re a * re b - im a * im b) (re a * im b + im a * re b).
(** complexobject.c _Py_c_quot: Smith's method, with the division by zero raised by
    complex_div; the last case is met when one part of the divisor is nan *)
Definition cdiv (a b : cx) : res cx :=
  let nan := ninf - ninf in
  if nabs (im b) <=? nabs (re b) then
    if nabs (re b) =? c0 then Err ZeroDivisionError
    else
      let ratio := ndiv (im b) (re b) in
      let denom := re b + im b * ratio in
      Ok (mkC (ndiv (re a + im a * ratio) denom) (ndiv (im a - re a * ratio) denom))
  else if nabs (re b) <=? nabs (im b) then
    let ratio := ndiv (re b) (im b) in
    let denom := re b * ratio + im b in
    Ok (mkC (ndiv (re a * ratio + im a) denom) (ndiv (im a * ratio - re a) denom))
  else Ok (mkC nan nan).
(** a == b *)
Definition ceqb (a b : cx) : bool := (re a =? re b) && (im a =? im b).
(** abs(z); CPython calls the C function hypot, here the square root of the sum of squares *)
Definition cabs (a : cx) : T := nsqrt (re a * re a + im a * im a).
(** cmath.sqrt of a float (cmathmodule.c cmath_sqrt_impl with a zero imaginary part) *)
Definition csqrt (x : T) : cx :=
  if x <? c0 then mkC c0 (nsqrt (- x)) else mkC (nsqrt x) c0.

(** utils.py 142-175 on complex numbers *)
Definition areRelativelyNotEqual_c (l r : cx) (eps : T) : res bool :=
  let d := cabs (csub l r) in
  a <- pdiv d (cabs l);;
  b <- pdiv d (cabs r);;
  Ok (negb ((a <? eps) || (b <? eps))).

(** ** GaussianBeam *)
Record beam := mkBeam { bq : cx; bwl : T; bz : T; bn : T; bclip : bool }.

(** gaussianbeam.py 43: q computed from w, R, n and the wavelength *)
Definition q_of_w (w R n wl : T) : res cx :=
  invR <- pdiv c1 R;;
  a <- cdiv (cmul (mkC c0 c1) (cof wl)) (cof n);;
  b <- cdiv a (cof (npi * w * w));;
  cdiv (cof c1) (csub (cof invR) b).

(** gaussianbeam.py 36-57: GaussianBeam(q, w, R, n, wavelength, z); [None] is Python's None *)
Definition GaussianBeam (q : option cx) (w : option T) (R n wl z : T) : res beam :=
  match w with
  | None => match q with
            | None => Err ValueError
            | Some q0 => Ok (mkBeam q0 wl z n false)
            end
  | Some w0 =>
      q' <- q_of_w w0 R n wl;;
      match q with
      | None => Ok (mkBeam q' wl z n false)
      | Some q0 =>
          bad <- areRelativelyNotEqual_c q' q0 (ndec 5 3);;
          if bad then Err ValueError else Ok (mkBeam q' wl z n false)
      end
  end.

(** gaussianbeam.py 37: default wavelength 632.8e-6 *)
Definition wl_default : T := ndec 6328 7.
(** GaussianBeam(q=q) and GaussianBeam(q=q, wavelength=wl) *)
Definition beam_of_q (q : cx) (wl : T) : beam := mkBeam q wl c0 c1 false.

(** gaussianbeam.py 59-71 *)
Definition bR (b : beam) : res T :=
  if ceqb (bq b) (cof c0) then Ok ninf
  else
    i <- cdiv (cof c1) (bq b);;
    if re i =? c0 then Ok ninf else pdiv c1 (re i).

(** gaussianbeam.py 73-85 *)
Definition isFinite (b : beam) : res bool :=
  if ceqb (bq b) (cof c0) then Ok false
  else i <- cdiv (cof (- c1)) (bq b);; Ok (c0 <? im i).

(** gaussianbeam.py 87-96 *)
Definition bw (b : beam) : res T :=
  f <- isFinite b;;
  if f then
    i <- cdiv (cof (- c1)) (bq b);;
    a <- pdiv (bwl b) (bn b);;
    x <- pdiv a (npi * im i);;
    psqrt x
  else Ok ninf.

(** gaussianbeam.py 120-139 *)
Definition bzo (b : beam) : T := im (bq b).
Definition confocalParameter (b : beam) : T := bzo b.
Definition rayleighRange (b : beam) : T := bzo b.

(** gaussianbeam.py 98-113 (wo and waist) *)
Definition bwo (b : beam) : res (option T) :=
  if c0 <? bzo b then
    x <- pdiv (bzo b * bwl b) npi;;
    s <- psqrt x;; Ok (Some s)
  else Ok None.

(** gaussianbeam.py 115-118 *)
Definition waistPosition (b : beam) : T := - re (bq b).

(** ** Propagation *)
(** matrix.py 417-467: Matrix.mul_beam *)
Definition mul_beam (m : mat) (b : beam) : res beam :=
  if negb (bn b =? mfi m) then Err RuntimeError
  else
    q' <- cdiv (cadd (cmul (cof (mA m)) (bq b)) (cof (mB m)))
               (cadd (cmul (cof (mC m)) (bq b)) (cof (mD m)));;
    let out := mkBeam q' (bwl b) (mL m + bz b) (mbi m) false in
    w <- bw out;;
    Ok (mkBeam q' (bwl b) (mL m + bz b) (mbi m)
          (if ndiv (mdiam m) c2 <? nabs w then true else bclip b)).

(** axicon.py 110-132: Axicon.mul_beam always raises *)
Definition leaf_beam (k : @kind T) (m : mat) (b : beam) : res beam :=
  match k with KAxicon _ _ => Err TypeError | _ => mul_beam m b end.

Section Trace.
  Variable trace1 : elem -> beam -> res (list beam).
  (** the loop of matrixgroup.py 428-441 *)
  Fixpoint trace_elems (es : list elem) (b : beam) : res (list beam) :=
    match es with
    | [] => Ok []
    | e :: t =>
        l <- trace1 e b;;
        (* rayTrace.extend(...); ray = rayTrace[-1] *)
        r <- trace_elems t (last l b);;
        Ok (l ++ r)
    end.
End Trace.

(** matrix.py 655-707 (element.trace(beam): [self*beam], no half-way point for beams) and
    matrixgroup.py 428-441 on a group that has not traced this beam before *)
Fixpoint beam_trace (e : elem) (b : beam) : res (list beam) :=
  match e with
  | Leaf k m => b' <- leaf_beam k m b;; Ok [b']
  | Group _ _ es => l <- trace_elems beam_trace es b;; Ok (b :: l)
  end.

(** the beam at the end of a trace *)
Definition beam_through (e : elem) (b : beam) : res beam :=
  l <- beam_trace e b;; Ok (last l b).

(** ** LaserCavity *)
(** lasercavity.py 46-58: the elements are appended to the list itself, not with append() *)
Definition appendElementsInReverse (g : @grp T) (skipFirst skipLast : bool) : @grp T :=
  let l := if skipFirst then pydrop 1 (gelems g) else gelems g in
  let n := List.length (gelems g) in
  let l := if skipLast then
             (* self.elements[first:-1] *)
             firstn (n - 1 - (if skipFirst then 1 else 0)) l
           else l in
  mkGrp (gmat g) (gelems g ++ rev l).

(** lasercavity.py 61-85 *)
Definition eigenModes (m : mat) : res (option (beam * beam)) :=
  if negb (hasPower m) then Ok None
  else
    let b := mD m - mA m in
    let s := csqrt (b * b - nofZ 4 * mC m * (- mB m)) in
    q1 <- cdiv (cadd (cof (- b)) s) (cof (c2 * mC m));;
    q2 <- cdiv (csub (cof (- b)) s) (cof (c2 * mC m));;
    Ok (Some (beam_of_q q1 wl_default, beam_of_q q2 wl_default)).

(** lasercavity.py 87-101 *)
Definition laserModes (m : mat) : res (list beam) :=
  r <- eigenModes m;;
  match r with
  | None => Ok []
  | Some (b1, b2) =>
      f1 <- isFinite b1;;
      f2 <- isFinite b2;;
      Ok ((if f1 then [b1] else []) ++ (if f2 then [b2] else []))
  end.

(** lasercavity.py 103-109 *)
Definition isStable (m : mat) : res bool :=
  l <- laserModes m;; Ok (0 <? List.length l)%nat.

(** ** Drawing a beam *)
(** figure.py 450-458: each Space of the path is replaced by n pieces (n = 100 in the code) *)
Fixpoint highResolution (n : nat) (es : list elem) : res (list elem) :=
  match es with
  | [] => Ok []
  | e :: t =>
      r <- highResolution n t;;
      match e with
      | Leaf KSpace m =>
          d <- pdiv (mL m) (nofZ (Z.of_nat n));;
          p <- Space d (mfi m) ninf;;
          Ok (repeat p n ++ r)
      | _ => Ok (e :: r)
      end
  end.

(** figure.py 447-460: the beams drawn for a path *)
Definition drawn_beams (n : nat) (g : @grp T) (b : beam) : res (list beam) :=
  l <- highResolution n (gelems g);;
  h <- MatrixGroup_new l "";;
  beam_trace (grp_elem h) b.
End Model.
