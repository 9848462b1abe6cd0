(** Figures that cannot be shown because of their marks, and a mark where there is no stop. *)
From Coq Require Import ZArith List Bool String Floats.
From Verif Require Import Base Nums Optics Group Imaging GroupRefutations ImagingRefutations Marks MarksProofs.
Import ListNotations.
Open Scope list_scope.

(** an aperture on the image of the object: display() raises whatever is asked for *)
Lemma figure_raises : exists (e : @elem float) s1 l s2 a,
  Space n15 c1 ninf = Ok s1 /\ Lens c1 ninf = Ok l /\ Space (fz 3) c1 ninf = Ok s2 /\
  Aperture (fz 10) ninf = Ok a /\ built [s1; l; s2; a] e /\
  forall fuel b b' r, displayMarks (S fuel) e b b' r = Err TypeError.
Proof.
  pose (e := fpath [the (Space n15 c1 ninf); the (Lens c1 ninf); fspace 3; fap (fz 10)]).
  exists e, (the (Space n15 c1 ninf)), (the (Lens c1 ninf)), (fspace 3), (fap (fz 10)).
  split; [vm_compute; reflexivity|]. split; [vm_compute; reflexivity|].
  split; [vm_compute; reflexivity|]. split; [vm_compute; reflexivity|]. split; [is_built|].
  intros fuel b b' r. destruct (apertureStop e) as [s|] eqn:HS; [|vm_compute in HS; discriminate].
  apply (marks_raise (S fuel) e b b' r TypeError s); [vm_compute; reflexivity|exact HS|].
  intros Z. vm_compute in HS. injection HS as <-. discriminate.
Qed.
(** a path for which display() never returns *)
Lemma figure_hangs : exists (e : @elem float) a1 s a2,
  Aperture (ndec 5 5) ninf = Ok a1 /\ Space (fz 10) c1 ninf = Ok s /\ Aperture (fz 10) ninf = Ok a2 /\
  built [a1; s; a2] e /\ forall fuel b b' r, displayMarks fuel e b b' r = Err OutOfFuel.
Proof.
  exists e36, (fap (ndec 5 5)), (fspace 10), (fap (fz 10)).
  split; [vm_compute; reflexivity|]. split; [vm_compute; reflexivity|].
  split; [vm_compute; reflexivity|]. split; [is_built|]. intros fuel b b' r.
  destruct (apertureStop e36) as [s|] eqn:HS; [|vm_compute in HS; discriminate].
  apply (marks_raise fuel e36 b b' r OutOfFuel s); [|exact HS|].
  - unfold principalRay, halfFieldOfView. now rewrite e36_cycles.
  - intros Z. vm_compute in HS. injection HS as <-. discriminate.
Qed.
(** an object in glass: the entrance pupil cannot be shown *)
Lemma pupil_raises : exists (e : @elem float) s i,
  Space (fz 10) n15 ninf = Ok s /\ DielectricInterface n15 c1 ninf (fz 4) = Ok i /\ built [s; i] e /\
  displayMarks 100 e true true (fz 10) = Err ValueError.
Proof.
  exists (fpath [the (Space (fz 10) n15 ninf); the (DielectricInterface n15 c1 ninf (fz 4))]),
    (the (Space (fz 10) n15 ninf)), (the (DielectricInterface n15 c1 ninf (fz 4))).
  split; [vm_compute; reflexivity|]. split; [vm_compute; reflexivity|].
  split; [is_built|vm_compute; reflexivity].
Qed.
(** a mark of the aperture stop on the object, where there is no element with a diameter *)
Lemma stop_marked_at_object : exists (e : @elem float) s l a y,
  Space (fz 20) c1 ninf = Ok s /\ Lens (fz 10) ninf = Ok l /\ Aperture (fz 10) ninf = Ok a /\ built [s; l; s; a] e /\
  displayMarks 100 e false true (fz 10) = Ok (mkMarks None [] None [("AS"%string, c0, y)]).
Proof.
  exists (fpath [fspace 20; flens 10; fspace 20; fap (fz 10)]), (fspace 20), (flens 10), (fap (fz 10)), (nmul (ndiv (fz 10) c2) (ndec 11 1)).
  split; [vm_compute; reflexivity|]. split; [vm_compute; reflexivity|].
  split; [vm_compute; reflexivity|]. split; [is_built|]. vm_compute. reflexivity.
Qed.
