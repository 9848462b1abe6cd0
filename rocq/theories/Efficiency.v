(** Model of ImagingPath.NA, hasApertureStop, hasFieldStop and reportEfficiency
    (raytracing/imagingpath.py).  The figures printed by reportEfficiency are returned as a
    record; the plot itself is left out, except for the unpacking that can fail. *)
From Coq Require Import ZArith List Bool.
From Verif Require Import Base Nums Optics Imaging RaysModel RaysMore.
Import ListNotations.
Open Scope list_scope.

Section Model.
Context {T : Type} {N : Num T}.
(** np.sin and the number np.pi/2 *)
Variables (pysin : T -> T) (halfpi : T).
Local Notation elem := (@elem T).
Local Notation ray := (@ray T).

(** imagingpath.py 380-407; axialRay.theta of None raises AttributeError *)
Definition NA (e : elem) : res T :=
  a <- axialRay e;;
  match a with
  | None => Err AttributeError
  | Some r => Ok (nmul (mfi (emat e)) (pysin (rth r)))
  end.

(** imagingpath.py 484-492 *)
Definition hasApertureStop (e : elem) : res bool :=
  s <- apertureStop e;; Ok (match st_z s with Some _ => true | None => false end).

(** imagingpath.py 638-650 *)
Definition hasFieldStop (fuel : nat) (e : elem) : res bool :=
  s <- fieldStop fuel e;; Ok (match st_z s with Some _ => true | None => false end).

(** the four lists of imagingpath.py 862-865 *)
Record tally := mkTally {
  t_expected : list (T * T); t_through : list (T * T);
  t_vignetted : list (T * T); t_places : list T }.

(** imagingpath.py 867-880: one round of the loop *)
Definition tally_ray (e : elem) (axial principal : ray) (Iap : T) (t : tally) (r : ray) : res tally :=
  Irp <- opticalInvariant e r principal c0;;
  Iar <- opticalInvariant e axial r c0;;
  let out := traceThrough e r in
  if nltb Iap (nabs Irp) || nltb Iap (nabs Iar) then
    a <- pdiv Irp Iap;; b <- pdiv Iar Iap;;
    Ok (mkTally (t_expected t ++ [(a, b)]) (t_through t) (t_vignetted t) (t_places t))
  else if rblk out then
    a <- pdiv Irp Iap;; b <- pdiv Iar Iap;;
    Ok (mkTally (t_expected t) (t_through t) (t_vignetted t ++ [(a, b)]) (t_places t ++ [rz out]))
  else
    a <- pdiv Irp Iap;; b <- pdiv Iar Iap;;
    Ok (mkTally (t_expected t) (t_through t ++ [(a, b)]) (t_vignetted t) (t_places t)).

(** imagingpath.py 866: for ray in sourceRays; an exception of the generator ends the loop *)
Fixpoint tally_loop (e : elem) (axial principal : ray) (Iap : T) (l : list (res ray)) (t : tally)
    : res tally :=
  match l with
  | [] => Ok t
  | x :: l => r <- x;; t' <- tally_ray e axial principal Iap t r;; tally_loop e axial principal Iap l t'
  end.

(** imagingpath.py 855-859: the random numbers come from the stream [g] *)
Definition sourceRays (g : nat -> T) (height angle : T) (nRays : Z) : list (res ray) :=
  random_for g (S (Z.to_nat nRays))
    (q_set_pos (RandomUniformRays height (Some (nopp height)) angle (Some (nopp angle)) nRays) 0).

(** the numbers that are printed (imagingpath.py 882-910) *)
Record report := mkReport {
  rp_tally : tally;
  rp_lagrange : T; rp_height : T; rp_axial : T; rp_NA : T; rp_fnumber : T; rp_field : T;
  rp_source : T; rp_source_height : T; rp_source_angle : T;
  rp_efficiency : T; rp_ratio : T; rp_stop_diameter : T; rp_stop_position : T;
  rp_relative : T;
  rp_loss : option T }.   (* None: "No losses to vignetting" *)

Definition count {A} (l : list A) : Z := Z.of_nat (List.length l).
(** 100*a/b with Python ints *)
Definition percent (a b : Z) : res T := pdiv (nofZ (100 * a)) (nofZ b).

(** imagingpath.py 819-926; None: there is no field stop *)
Definition reportEfficiency (fuel : nat) (g : nat -> T) (e : elem)
    (objectDiameter emissionHalfAngle : option T) (nRays : Z) : res (option report) :=
  p <- principalRay fuel e;;
  match p with
  | None => Ok None
  | Some principal =>
      a <- axialRay e;;
      L <- lagrangeInvariant fuel e;;
      let Iap := nabs L in
      let angle := match emissionHalfAngle with Some x => x | None => halfpi end in
      let height := match objectDiameter with Some d => ndiv d c2 | None => ry principal end in
      let Is := nmul height angle in
      match a with
      | None => Err AttributeError
      | Some axial =>
          t <- tally_loop e axial principal Iap (sourceRays g height angle nRays) (mkTally [] [] [] []);;
          na <- NA e;;
          f <- fNumber e;;
          match f with
          | None => Err TypeError
          | Some fn =>
              fov <- fieldOfView fuel e;;
              eff <- percent (count (t_through t)) nRays;;
              q <- pdiv Iap Is;;
              s <- apertureStop e;;
              match st_d s, st_z s with
              | Some sd, Some sz =>
                  rel <- percent (count (t_through t)) (count (t_vignetted t) + count (t_through t));;
                  loss <- (if (2 <=? count (t_vignetted t))%Z
                           then x <- percent (count (t_vignetted t))
                                       (count (t_vignetted t) + count (t_through t));; Ok (Some x)
                           else Ok None);;
                  (* (x,y) = list(zip(... notBlocked)) has nothing to unpack when it is empty *)
                  if (count (t_through t) =? 0)%Z then Err ValueError
                  else Ok (Some (mkReport t Iap (ry principal) (rth axial) na fn fov Is height angle
                             eff (nmul q (nofZ 100)) sd sz rel loss))
              | _, _ => Err TypeError
              end
          end
      end
  end.
End Model.
