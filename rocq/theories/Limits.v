(** The search for the edge of the field with the [precision] and the [maxHeight] that the user has set on the path
    (imagingpath.py 45-48 and 95-96: public attributes).  [Imaging] has the same functions with the values the
    constructor puts there. *)
From Coq Require Import ZArith List Bool String.
From Verif Require Import Base Nums Optics Group Imaging.
Import ListNotations.

Section Model.
Context {T : Type} {N : Num T}.
Variables (prec high : T).

(** imagingpath.py 614-629, 728-746 with self.precision = [prec] and self.maxHeight = [high] *)
Fixpoint search_with (fuel : nat) (e : @elem T) (wanted : bool) (s : @search_state T) : res (option (@search_state T)) :=
  match fuel with
  | O => Err OutOfFuel
  | S fuel =>
      if nltb prec (nabs (s_dy s)) || negb (Bool.eqb (s_was s) wanted) then
        bind (search_step e s) (fun s' =>
        if nltb high (nabs (s_y s')) && negb (s_was s') then Ok None
        else search_with fuel e wanted s')
      else Ok (Some s)
  end.

(** imagingpath.py 610-613, 724-727 *)
Definition search_start_with (r : @ray T) : @search_state T := mkS (nmul prec (nofZ 100)) c0 false r [].

(** imagingpath.py 541-636 *)
Definition fieldStop_with (fuel : nat) (e : @elem T) : res (@stop T) :=
  bind (apertureStop e) (fun a =>
  if hasFiniteApertureDiameter e && negb (match st_z a with Some z => neqb z c0 | None => false end) then
    bind (search_with fuel e true (search_start_with (Ray_new c0 c0))) (fun r =>
    match r with
    | None => Ok (mkStop None (Some ninf))
    | Some s => Ok (first_blocked (s_trace s))
    end)
  else Ok (mkStop None (Some ninf))).

(** imagingpath.py 688-748 *)
Definition halfFieldOfView_with (fuel : nat) (e : @elem T) : res T :=
  bind (fieldStop_with fuel e) (fun f =>
  match st_z f with
  | None => Ok ninf
  | Some z =>
      bind (transferMatrix e z) (fun _ =>
      bind (search_with fuel e false (search_start_with (Ray_new c0 c0))) (fun r =>
      match r with
      | None => Ok ninf
      | Some s => Ok (ry (s_ray s))
      end))
  end).

(** imagingpath.py 652-686 *)
Definition fieldOfView_with (fuel : nat) (e : @elem T) : res T :=
  bind (halfFieldOfView_with fuel e) (fun h => Ok (nmul c2 h)).

End Model.
