(** Bit-exact runs of the model of the laser figures on IEEE doubles in which a property fails. *)
From Coq Require Import ZArith List Bool String Floats.
From Verif Require Import Base Nums Optics Group GroupRefutations Beam BeamRefutations BeamFigure.
Import ListNotations.
Open Scope list_scope.

(** C92: the figure of a beam whose waist is on the face of a block of glass; the first line starts at the waist
    with a half width below 1.01 mm and the arrows marking the waist end above 1.2 mm *)
Lemma wide_mark :
  exists s g b x w a, Space (fz 10) n15 ninf = Ok s /\ MatrixGroup_new [s] "" = Ok g /\
    GaussianBeam None (Some c1) ninf n15 wl_default c0 = Ok b /\
    match LaserPath_display 2 c1 g (Some b) None with
    | Ok (((x' :: _, w' :: _) :: _), a' :: _) => x' = x /\ w' = w /\ a' = a
    | _ => False
    end /\
    fst (a_to a) = x /\ nltb w (ndec 101 2) = true /\ nltb (ndec 12 1) (snd (a_to a)) = true.
Proof.
  pose (s := the (Space (fz 10) n15 ninf)). pose (g := theg (MatrixGroup_new [s] "")).
  pose (b := theb (GaussianBeam None (Some c1) ninf n15 wl_default c0)).
  pose (r := match LaserPath_display 2 c1 g (Some b) None with
    | Ok (((x' :: _, w' :: _) :: _), a' :: _) => (x', w', a')
    | _ => (c0, c0, mkArrow (c0, c0) (c0, c0))
    end).
  exists s, g, b, (fst (fst r)), (snd (fst r)), (snd r). vm_compute. repeat split.
Qed.

(** a new path has no input beam: display() raises TypeError, whatever the path *)
Lemma no_beam : forall n len (g : @grp float), LaserPath_display n len g None None = Err TypeError.
Proof. reflexivity. Qed.
