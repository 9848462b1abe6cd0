(** Bit-exact runs of the beam and cavity model on IEEE doubles in which a property fails. *)
From Coq Require Import ZArith List Bool String Floats.
From Verif Require Import Base Nums Optics Group GroupRefutations Beam.
Import ListNotations.
Open Scope list_scope.

Definition theb (r : res (@beam float)) : @beam float :=
  match r with Ok b => b | Err _ => mkBeam (mkC c0 c0) c0 c0 c0 false end.
Definition thex (r : res float) : float := match r with Ok x => x | Err _ => c0 end.

(** C43: at a waist inside glass (n = 1.5) wo is not w *)
Lemma waist_in_glass :
  exists b w wo, GaussianBeam None (Some c1) ninf n15 wl_default c0 = Ok b /\
    bw b = Ok w /\ bwo b = Ok (Some wo) /\
    nltb w (ndec 101 2) = true /\ nltb (ndec 12 1) wo = true.
Proof.
  pose (b := theb (GaussianBeam None (Some c1) ninf n15 wl_default c0)).
  exists b, (thex (bw b)), (match bwo b with Ok (Some x) => x | _ => c0 end).
  vm_compute. repeat split.
Qed.

(** C44: a path that is a Space of zero length in glass says its front index is 1 *)
Lemma index_lost :
  exists s g b, Space c0 n15 ninf = Ok s /\ MatrixGroup_new [s] "" = Ok g /\
    neqb (mfi (gmat g)) c1 = true /\
    GaussianBeam None (Some c1) ninf (mfi (gmat g)) wl_default c0 = Ok b /\
    beam_through (grp_elem g) b = Err RuntimeError.
Proof.
  pose (s := the (Space c0 n15 ninf)). pose (g := theg (MatrixGroup_new [s] "")).
  exists s, g, (theb (GaussianBeam None (Some c1) ninf (mfi (gmat g)) wl_default c0)).
  vm_compute. repeat split.
Qed.

(** C45: the mode of a cavity filled with glass cannot be sent through the cavity *)
Lemma glass_cavity :
  exists s m g b, Space (fz 10) n15 ninf = Ok s /\
    MatrixE c1 c0 (ndec (-1) 1) c1 c0 None None n15 n15 = Ok m /\
    MatrixGroup_new [s; m] "" = Ok g /\
    laserModes (gmat g) = Ok [b] /\ mul_beam (gmat g) b = Err RuntimeError /\
    beam_through (grp_elem g) b = Err RuntimeError.
Proof.
  pose (s := the (Space (fz 10) n15 ninf)).
  pose (m := the (MatrixE c1 c0 (ndec (-1) 1) c1 c0 None None n15 n15)).
  pose (g := theg (MatrixGroup_new [s; m] "")).
  exists s, m, g, (match laserModes (gmat g) with Ok (x :: _) => x | _ => theb (Err RuntimeError) end).
  vm_compute. repeat split.
Qed.

(** C46: mirrors of 1 km radius, 1 m apart (lengths in mm); the criterion holds with a margin *)
Lemma weak_mirrors :
  exists a r b g, Space (fz 1000) c1 ninf = Ok a /\ CurvedMirror (fz (-1000000)) ninf = Ok r /\
    Space (fz 1000) c1 ninf = Ok b /\ MatrixGroup_new [a; r; b] "" = Ok g /\
    nltb ((mA (gmat g) + mD (gmat g)) * (mA (gmat g) + mD (gmat g)))%num (ndec 3985 3) = true /\
    neqb (determinant (gmat g)) c1 = true /\
    isStable (gmat g) = Ok false.
Proof.
  pose (a := fspace 1000). pose (r := the (CurvedMirror (fz (-1000000)) ninf)).
  exists a, r, a, (theg (MatrixGroup_new [a; r; a] "")).
  vm_compute. repeat split.
Qed.

(** C47: the matrix is that of the forward pass, and so are the modes *)
Lemma not_closed :
  exists r1 s r2 g t, CurvedMirror (fz (-100)) ninf = Ok r1 /\ Space (fz 30) c1 ninf = Ok s /\
    CurvedMirror (fz (-200)) ninf = Ok r2 /\ MatrixGroup_new [r1; s; r2] "" = Ok g /\
    gelems (appendElementsInReverse g false true) = [r1; s; r2; s; r1] /\
    gmat (appendElementsInReverse g false true) = gmat g /\
    group_transfer [r1; s; r2; s; r1] ninf = Ok t /\
    neqb (mB t) (mB (gmat (appendElementsInReverse g false true))) = false /\
    laserModes (gmat (appendElementsInReverse g false true)) = laserModes (gmat g) /\
    match laserModes (gmat g), laserModes t with
    | Ok [x], Ok [y] => neqb (im (bq x)) (im (bq y)) = false
    | _, _ => False
    end.
Proof.
  pose (r1 := the (CurvedMirror (fz (-100)) ninf)). pose (s := fspace 30).
  pose (r2 := the (CurvedMirror (fz (-200)) ninf)).
  pose (g := theg (MatrixGroup_new [r1; s; r2] "")).
  exists r1, s, r2, g, (match group_transfer [r1; s; r2; s; r1] ninf with Ok t => t | _ => dummy end).
  vm_compute. repeat split.
Qed.

(** C47: elements are not turned round for the return pass *)
Lemma not_flipped :
  exists i g, DielectricInterface c1 n15 (fz 100) ninf = Ok i /\ MatrixGroup_new [i] "" = Ok g /\
    gelems (appendElementsInReverse g false false) = [i; i] /\
    (exists b, GaussianBeam None (Some c1) ninf c1 wl_default c0 = Ok b /\
       beam_through (grp_elem (appendElementsInReverse g false false)) b = Err RuntimeError).
Proof.
  pose (i := the (DielectricInterface c1 n15 (fz 100) ninf)).
  exists i, (theg (MatrixGroup_new [i] "")).
  split; [reflexivity|]. split; [vm_compute; reflexivity|]. split; [vm_compute; reflexivity|].
  exists (theb (GaussianBeam None (Some c1) ninf c1 wl_default c0)). vm_compute. repeat split.
Qed.
