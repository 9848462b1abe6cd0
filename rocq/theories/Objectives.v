(** The microscope objectives of olympus.py and nikon.py. *)
From Coq Require Import ZArith List Bool String.
From Verif Require Import Base Optics.
Import ListNotations.
Open Scope string_scope.
Open Scope num_scope.

Section Model.
Context {T : Type} {N : Num T}.
(** the arguments given to Objective: specialtylenses.py 362 *)
Record objective := mkObjective {
  ob_f : T; ob_NA : T; ob_ftf : T; ob_back : T; ob_wd : T; ob_mag : option T; ob_field : option T }.
(** olympus.py 25-34, 97-106, 128-137, 160-170, 193-202 and nikon.py 19-26; quotients and products are
    computed as in the source *)
Definition objectives : list (string * objective) := [
  ("LUMPlanFL40X", mkObjective (ndiv (nofZ 180) (nofZ 40)) (ndec 8 1) (nofZ 40) (nofZ 7) (nofZ 2) (Some (nofZ 40)) (Some (ndec 265 1)));
  ("XLUMPlanFLN20X", mkObjective (ndiv (nofZ 180) (nofZ 20)) (ndec 10 1) (nofZ 80) (nofZ 22) (nofZ 2) (Some (nofZ 20)) (Some (nofZ 22)));
  ("MVPlapo2XC", mkObjective (ndiv (nofZ 90) (nofZ 2)) (ndec 5 1) (nofZ 137) (nofZ 45) (nofZ 20) (Some (nofZ 2)) (Some (ndec 176 1)));
  ("UMPLFN20XW", mkObjective (ndiv (nofZ 180) (nofZ 20)) (ndec 5 1) (nofZ 45) (nofZ 9) (ndec 35 1) (Some (nofZ 20)) (Some (ndec 265 1)));
  ("XLPLN25X", mkObjective (ndiv (nofZ 180) (nofZ 25)) (ndec 105 2) (nofZ 75) (nofZ 18) (nofZ 2) (Some (nofZ 25)) (Some (nofZ 18)));
  ("LWD16X", mkObjective (ndiv (nofZ 200) (nofZ 16)) (ndec 195 2 * ndec 8 1) (nofZ 75) (nofZ 20) (nofZ 3) None None)].
(** Class() *)
Definition build (o : objective) : res elem := Objective (ob_f o) (ob_NA o) (ob_ftf o) (ob_back o) (ob_wd o).
(** specialtylenses.py 408-413 *)
Definition maximumOpticalInvariant (o : objective) : res T :=
  match ob_mag o, ob_field o with
  | Some m, Some fn => q <- pdiv (ndiv fn c2) m;; Ok (q * ob_NA o)
  | _, _ => Err AttributeError
  end.
End Model.
Arguments objective T : clear implicits.
