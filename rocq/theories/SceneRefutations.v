(** Bit-exact runs of the model of what a figure shows, on IEEE doubles, in which a property fails. *)
From Coq Require Import ZArith List Bool String Floats Permutation.
From Verif Require Import Base Nums Optics Group Imaging GroupRefutations ImagingRefutations Format Scene SceneProofs.
Import ListNotations.
Open Scope string_scope.
Open Scope list_scope.

(** the formats in use *)
Lemma formats : fixed 1 (ndec 1004 2) = "10.0" /\ fixed 1 (ndec (-25) 2) = "-0.2" /\ fixed 2 (ndec 12345 3) = "12.35" /\
  fixed 1 c0 = "0.0" /\ fixed 2 (fz 123) = "123.00" /\ fixed 3 ninf = "inf".
Proof. vm_compute. repeat split. Qed.

Definition src (k : skind) (z y : float) (color : option string) (lines : list nat) : @source float nat :=
  mkSource k z y color None lines.

(** C93: objects 0.04 mm apart, lamps 0.004 mm apart, or two objects at one place: the lines of the first are lost *)
Lemma lines_lost :
  exists a b d, nltb c0 (s_z a) = true /\ nltb (s_z a) (s_z b) = true /\
    s_kind a = SObject /\ s_kind b = SObject /\ setLinesFromRaysList (fixed 1) (fixed 2) lineGroups0 [a; b] = Ok d /\
    s_lines a = [1%nat] /\ all_of d = [2%nat].
Proof.
  exists (src SObject (fz 10) c1 None [1%nat]), (src SObject (ndec 1004 2) c1 None [2%nat]). eexists.
  vm_compute. repeat split.
Qed.
Lemma lamp_lines_lost :
  exists a b d, nltb c0 (s_z a) = true /\ nltb (s_z a) (s_z b) = true /\
    s_kind a = SLamp /\ s_kind b = SLamp /\ setLinesFromRaysList (fixed 1) (fixed 2) lineGroups0 [a; b] = Ok d /\
    s_lines a = [1%nat] /\ all_of d = [2%nat].
Proof.
  exists (src SLamp (fz 10) c1 None [1%nat]), (src SLamp (ndec 10004 3) c1 None [2%nat]). eexists.
  vm_compute. repeat split.
Qed.

(** C94: of two objects at the entrance only the last is drawn (their lines all are) *)
Definition fspaces : @grp float := theg (MatrixGroup_new [fspace 100; flens 50; fspace 150] "").
Lemma arrow_lost :
  exists g a b d dl, MatrixGroup_new [fspace 100; flens 50; fspace 150] "" = Ok g /\
    s_kind a = SObject /\ s_kind b = SObject /\ s_yMax a = fz 2 /\ s_yMax b = c1 /\
    setLinesFromRaysList (fixed 1) (fixed 2) lineGroups0 [a; b] = Ok dl /\ all_of dl = [1%nat; 2%nat] /\
    setGraphicsFromRaysList (fixed 1) (fixed 2) g true true "b" "r" graphicGroups0 [a; b] = Ok d /\
    all_of d = [PObject (fz 2) c0 "b" None; PImage (fz (-2)) (fz 200) "r"].
Proof.
  exists fspaces, (src SObject c0 (fz 2) None [1%nat]), (src SObject c0 c1 None [2%nat]). eexists. eexists.
  vm_compute. repeat split.
Qed.

(** C94: ObjectRays(color='g') is drawn in blue and its images in red *)
Lemma wrong_color :
  exists g (a : @source float nat) d, MatrixGroup_new [fspace 100; flens 50; fspace 150] "" = Ok g /\ s_kind a = SObject /\
    s_color a = Some "g" /\
    setGraphicsFromRaysList (fixed 1) (fixed 2) g true true "b" "r" graphicGroups0 [a] = Ok d /\
    all_of d = [PObject (fz 2) c0 "b" None; PImage (fz (-2)) (fz 200) "r"].
Proof.
  exists fspaces, (src SObject c0 c1 (Some "g") [1%nat]). eexists.
  vm_compute. repeat split.
Qed.

(** C94: the image in front of a plano-convex lens of an object behind it is drawn in the wrong place: two rays from
    there, sent forward through the lens, are more than a quarter of a millimetre apart at the object *)
Lemma wrong_place :
  exists s t g m x e r1 r2,
    Space (fz 300) c1 ninf = Ok s /\ ThickLens n15 (fz 50) ninf (fz 20) ninf = Ok t /\
    MatrixGroup_new [s; t; s] "" = Ok g /\
    graphicsOfConjugatePlanes g c1 "r" (fz 520) = Ok [PImage m x "r"] /\
    nltb c0 x = true /\ nltb x (fz 300) = true /\
    Space (nsub (fz 300) x) c1 ninf = Ok e /\
    traceThrough (fpath [e; t; fspace 200]) (Ray_new c0 (ndec 1 1)) = r1 /\
    traceThrough (fpath [e; t; fspace 200]) (Ray_new c0 (ndec (-1) 1)) = r2 /\
    nltb (nabs (nsub (rz r1) (nsub (fz 520) x))) (ndec 1 6) = true /\
    nltb (ndec 25 2) (nabs (nsub (ry r1) (ry r2))) = true.
Proof.
  pose (t := the (ThickLens n15 (fz 50) ninf (fz 20) ninf)).
  pose (g := theg (MatrixGroup_new [fspace 300; t; fspace 300] "")).
  pose (im := match graphicsOfConjugatePlanes g c1 "r" (fz 520) with
    | Ok [PImage m x _] => (m, x) | _ => (c0, c0) end).
  pose (e := the (Space (nsub (fz 300) (snd im)) c1 ninf)).
  exists (fspace 300), t, g, (fst im), (snd im), e,
    (traceThrough (fpath [e; t; fspace 200]) (Ray_new c0 (ndec 1 1))),
    (traceThrough (fpath [e; t; fspace 200]) (Ray_new c0 (ndec (-1) 1))).
  vm_compute. repeat split.
Qed.
