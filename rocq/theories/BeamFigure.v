(** Model of the figures of laser paths: figure.py 433-491, 513-519 and 564-577, laserpath.py 48-77 and
    lasercavity.py 111-128 in /repo/raytracing.  The length of the arrows (a tenth of the display
    range) is a parameter; the graphics of the elements and the window are left out. *)
From Coq Require Import ZArith List Bool String.
From Verif Require Import Base Optics Beam.
Import ListNotations.
Open Scope num_scope.
Open Scope list_scope.

Section Model.
Context {T : Type} {N : Num T}.
Local Notation beam := (@beam T).

(** figure.py 513-519: rearrangeBeamTraceForPlotting *)
Fixpoint rearrangeBeamTrace (l : list beam) : res (list T * list T) :=
  match l with
  | [] => Ok ([], [])
  | b :: t => w <- bw b;; r <- rearrangeBeamTrace t;; Ok (bz b :: fst r, w :: snd r)
  end.

(** figure.py 433-462: beamTraceLines, [n] = 100; the points of the two lines *)
Definition beamTraceLines (n : nat) (g : @grp T) (b : beam) : res (list (list T * list T)) :=
  l <- drawn_beams n g b;;
  r <- rearrangeBeamTrace l;;
  let '(x, y) := r in
  Ok [(x, y); (x, map nopp y)].

(** an arrow drawn from [a_from] to [a_to] *)
Record arrow := mkArrow { a_from : T * T; a_to : T * T }.

(** figure.py 478-489; adding None to a number raises TypeError *)
Fixpoint marks_of (L len : T) (l : list beam) : res (list arrow) :=
  match l with
  | [] => Ok []
  | b :: t =>
      size <- bwo b;;
      let position := bz b + waistPosition b in
      if negb ((c0 <=? position) && (position <=? L)) then marks_of L len t
      else
        match size with
        | None => Err TypeError
        | Some s =>
            r <- marks_of L len t;;
            Ok (mkArrow (position, s + len) (position, s) ::
                mkArrow (position, - s + - len) (position, - s) :: r)
        end
  end.

(** figure.py 464-491: beamWaistAnnotations *)
Definition beamWaistAnnotations (len : T) (g : @grp T) (b : beam) : res (list arrow) :=
  l <- beam_trace (grp_elem g) b;; marks_of (mL (gmat g)) len l.

(** figure.py 564-577: displayGaussianBeam, the lines and arrows of the figure; tracing None raises
    TypeError (matrixgroup.py 430) *)
Fixpoint displayGaussianBeam (n : nat) (len : T) (g : @grp T) (beams : list (option beam))
    : res (list (list T * list T) * list arrow) :=
  match beams with
  | [] => Ok ([], [])
  | None :: _ => Err TypeError
  | Some b :: t =>
      ls <- beamTraceLines n g b;;
      ms <- beamWaistAnnotations len g b;;
      r <- displayGaussianBeam n len g t;;
      Ok (ls ++ fst r, ms ++ snd r)
  end.

(** laserpath.py 59-77: [input] is the attribute inputBeam, None in a new path (48-57) *)
Definition LaserPath_display (n : nat) (len : T) (g : @grp T) (input : option beam)
    (beams : option (list (option beam))) :=
  displayGaussianBeam n len g (match beams with Some l => l | None => [input] end).

(** lasercavity.py 111-128 *)
Definition LaserCavity_display (n : nat) (len : T) (g : @grp T) :=
  st <- isStable (gmat g);;
  if st then l <- laserModes (gmat g);; displayGaussianBeam n len g (map Some l)
  else displayGaussianBeam n len g [].
End Model.
