(** Model of /repo/raytracing/imagingpath.py: stops, pupils, special rays, field of view and
    sub-paths.  An ImagingPath is the group [e] holding its elements; its trace cache is
    modelled in Store.v, here every trace is computed afresh. *)
From Coq Require Import ZArith List Bool String.
From Verif Require Import Base Optics.
Import ListNotations.
Open Scope num_scope.
Open Scope list_scope.

Section Model.
Context {T : Type} {N : Num T}.
Local Notation ray := (@ray T).
Local Notation elem := (@elem T).

(** imagingpath.py 14-16: Stop(z, diameter) *)
Record stop := mkStop { st_z : option T; st_d : option T }.
(** imagingpath.py 10-12: MarginalRays(up, down), both given or both None *)
Definition marginal_rays := option (ray * ray).

(** imagingpath.py 94-96 *)
Definition precision : T := ndec 1 6.
Definition maxHeight : T := nofZ 10000.

(** imagingpath.py 469-480: the loop over the probe's trace *)
Fixpoint stop_loop (l : list ray) (maxRatio z d : T) : res (T * T) :=
  match l with
  | [] => Ok (z, d)
  | r :: t =>
      q <- pdiv (ry r) (rdiam r);;
      let ratio := nabs q in
      if maxRatio <? ratio then stop_loop t ratio (rz r) (rdiam r)
      else stop_loop t maxRatio z d
  end.

(** imagingpath.py 466: Ray(y=0, theta=0.1) *)
Definition probe : ray := Ray_new c0 (ndec 1 1).

(** imagingpath.py 409-482 *)
Definition apertureStop (e : elem) : res stop :=
  if hasFiniteApertureDiameter e then
    zd <- stop_loop (trace_values e probe) c0 c0 ninf;;
    Ok (mkStop (Some (fst zd)) (Some (snd zd)))
  else Ok (mkStop None (Some ninf)).

(** imagingpath.py 200-215: chiefRay(y) for a given y *)
Definition chiefRayAt (e : elem) (y : T) : res (option ray) :=
  s <- apertureStop e;;
  match st_z s with
  | None => Ok None
  | Some z =>
      m <- transferMatrix e z;;
      if isImaging (emat m) then Ok None
      else
        th <- pdiv (- mA (emat m) * y) (mB (emat m));;
        Ok (Some (Ray_new y th))
  end.

(** imagingpath.py 311-326: marginalRays(y) *)
Definition marginalRays (e : elem) (y : T) : res marginal_rays :=
  s <- apertureStop e;;
  match st_z s, st_d s with
  | Some z, Some d =>
      m <- transferMatrix e z;;
      if isImaging (emat m) then Ok None
      else
        up <- pdiv (ndiv d c2 - mA (emat m) * y) (mB (emat m));;
        down <- pdiv (ndiv (- d) c2 - mA (emat m) * y) (mB (emat m));;
        if up <? down then Ok (Some (Ray_new y down, Ray_new y up))
        else Ok (Some (Ray_new y up, Ray_new y down))
  | _, _ => Ok None
  end.

(** imagingpath.py 328-345 *)
Definition axialRay (e : elem) : res (option ray) :=
  m <- marginalRays e c0;; Ok (option_map fst m).

(** imagingpath.py 526-539 *)
Definition entrancePupil (e : elem) : res stop :=
  if hasFiniteApertureDiameter e then
    s <- apertureStop e;;
    match st_z s, st_d s with
    | Some z, Some d =>
        m <- transferMatrix e z;;
        p <- backwardConjugate (emat m);;
        match magnification (snd p) with
        | None => Err TypeError
        | Some (mt, _) =>
            if negb (mt =? c0) then
              d' <- pdiv d (nabs mt);; Ok (mkStop (Some (- fst p)) (Some d'))
            else Ok (mkStop (Some (- fst p)) (Some ninf))
        end
    | _, _ => Err TypeError
    end
  else Ok (mkStop None None).

(** imagingpath.py 373-378 *)
Definition fNumber (e : elem) : res (option T) :=
  p <- entrancePupil e;;
  f <- effectiveFocalLengths (emat e);;
  match st_d p with
  | None => Ok None
  | Some d => q <- pdiv (fst f) d;; Ok (Some q)
  end.

(** ** The search for the edge of the field (imagingpath.py 606-636 and 717-748) *)
(** the local variables of the loop: increment, next height, wasBlocked, the last chief ray
    and its trace *)
Record search_state := mkS {
  s_dy : T; s_y : T; s_was : bool; s_ray : ray; s_trace : list ray }.

(** one round of the loop; trace(None) raises TypeError *)
Definition search_step (e : elem) (s : search_state) : res search_state :=
  c <- chiefRayAt e (s_y s);;
  match c with
  | None => Err TypeError
  | Some r =>
      let tr := trace_values e r in
      let out := List.last tr r in
      let dy := if negb (Bool.eqb (rblk out) (s_was s))
                then ndiv (- s_dy s) c2 else s_dy s * ndec 15 1 in
      Ok (mkS dy (s_y s + dy) (rblk out) r tr)
  end.

(** the loop runs while |dy| > precision or the last chief ray was [~ wanted]; [None] is the
    early return above maxHeight *)
Fixpoint search (fuel : nat) (e : elem) (wanted : bool) (s : search_state)
    : res (option search_state) :=
  match fuel with
  | O => Err OutOfFuel
  | S fuel =>
      if (precision <? nabs (s_dy s)) || negb (Bool.eqb (s_was s) wanted) then
        s' <- search_step e s;;
        if (maxHeight <? nabs (s_y s')) && negb (s_was s') then Ok None
        else search fuel e wanted s'
      else Ok (Some s)
  end.

(** imagingpath.py 610-612, 724-727 *)
Definition search_start (r : ray) : search_state :=
  mkS (precision * nofZ 100) c0 false r [].

(** the first blocked ray of a trace (imagingpath.py 630-634) *)
Definition first_blocked (l : list ray) : stop :=
  match find rblk l with
  | Some r => mkStop (Some (rz r)) (Some (rdiam r))
  | None => mkStop None (Some ninf)
  end.

(** imagingpath.py 541-636 *)
Definition fieldStop (fuel : nat) (e : elem) : res stop :=
  a <- apertureStop e;;
  if hasFiniteApertureDiameter e
     && negb (match st_z a with Some z => z =? c0 | None => false end) then
    r <- search fuel e true (search_start (Ray_new c0 c0));;
    match r with
    | None => Ok (mkStop None (Some ninf))
    | Some s => Ok (first_blocked (s_trace s))
    end
  else Ok (mkStop None (Some ninf)).

(** imagingpath.py 688-748; the transfer matrix to the field stop is computed and not used *)
Definition halfFieldOfView (fuel : nat) (e : elem) : res T :=
  f <- fieldStop fuel e;;
  match st_z f with
  | None => Ok ninf
  | Some z =>
      _ <- transferMatrix e z;;
      r <- search fuel e false (search_start (Ray_new c0 c0));;
      match r with
      | None => Ok ninf
      | Some s => Ok (ry (s_ray s))
      end
  end.

(** imagingpath.py 652-686 *)
Definition fieldOfView (fuel : nat) (e : elem) : res T :=
  h <- halfFieldOfView fuel e;; Ok (c2 * h).

(** imagingpath.py 151-215 without a height *)
Definition chiefRayDefault (fuel : nat) (e : elem) : res (option ray) :=
  s <- apertureStop e;;
  match st_z s with
  | None => Ok None
  | Some z =>
      m <- transferMatrix e z;;
      if isImaging (emat m) then Ok None
      else
        y <- halfFieldOfView fuel e;;
        if nabs y =? ninf then Err ValueError
        else
          th <- pdiv (- mA (emat m) * y) (mB (emat m));;
          Ok (Some (Ray_new y th))
  end.

(** imagingpath.py 217-245 *)
Definition principalRay (fuel : nat) (e : elem) : res (option ray) :=
  h <- halfFieldOfView fuel e;;
  if h =? ninf then Ok None else chiefRayAt e h.

(** imagingpath.py 750-796 (the warning is not modelled) *)
Definition imageSize (fuel : nat) (e : elem) (useObject : bool) (objectHeight : T) : res T :=
  f <- forwardConjugate (emat e);;
  match snd f with
  | None => Ok ninf
  | Some c =>
      if useObject then Ok (nabs (objectHeight * mA c))
      else v <- fieldOfView fuel e;; Ok (nabs (v * mA c))
  end.

(** imagingpath.py 798-817 *)
Definition lagrangeInvariant (fuel : nat) (e : elem) : res T :=
  r1 <- axialRay e;;
  r2 <- principalRay fuel e;;
  match r1, r2 with
  | Some a, Some p => opticalInvariant e a p c0
  | _, _ => Ok ninf
  end.

(** ** Sub-paths (imagingpath.py 928-950) *)
(** type(element).__name__ == 'Space' *)
Definition is_Space (e : elem) : bool := match e with Leaf KSpace _ => true | _ => false end.

(** [before] holds the elements already passed, the nearest first *)
Fixpoint subPath_loop (before l : list elem) (z zStart : T) (backwards : bool)
    : res (@grp T) :=
  match l with
  | [] => Err ValueError
  | x :: t =>
      let L := mL (emat x) in
      if (z <? zStart) && (zStart <? z + L) then
        if is_Space x then
          if backwards then
            s <- Space (zStart - z) c1 ninf;; MatrixGroup_new (s :: before) ""%string
          else
            s <- Space (z + L - zStart) c1 ninf;; MatrixGroup_new (s :: t) ""%string
        else Err AssertionError
      else subPath_loop (x :: before) t (z + L) zStart backwards
  end.

Definition subPath (es : list elem) (zStart : T) (backwards : bool) : res (@grp T) :=
  subPath_loop [] es c0 zStart backwards.

End Model.
