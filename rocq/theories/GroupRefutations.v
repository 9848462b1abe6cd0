(** Bit-exact runs of the model on IEEE doubles in which a property of groups fails. *)
From Coq Require Import ZArith List Bool String Floats.
From Verif Require Import Base Nums Optics Group GroupProofs.
Import ListNotations.

Definition fz (n : Z) : float := nofZ n.
Definition dummy : @mat float :=
  mkMat c0 c0 c0 c0 c0 None None c0 c0 c0 c0 false "".
(** the element built by a constructor call; the equations below show that the calls succeed *)
Definition the (r : res (@elem float)) : @elem float :=
  match r with Ok e => e | Err _ => Leaf KMatrix dummy end.
Definition theg (r : res (@grp float)) : @grp float :=
  match r with Ok g => g | Err _ => mkGrp dummy [] end.

Definition n15 : float := ndec 15 1.
Definition n13 : float := ndec 13 1.

Definition fspace (d : Z) := the (Space (fz d) c1 ninf).
Definition flens (f : Z) := the (Lens (fz f) ninf).

(** C05: after the last element is popped the group keeps the attributes it had *)
Lemma empty_group_stale :
  exists (g : @grp float) s,
    empty_group = Ok g /\ Space (fz 10) c1 ninf = Ok s /\
    all_succeed g [OAppend s; OPop 0] /\
    gelems (grun g [OAppend s; OPop 0]) = [] /\
    neqb (mL (gmat g)) c0 = true /\
    neqb (mL (gmat (grun g [OAppend s; OPop 0]))) c0 = false /\
    neqb (mB (gmat (grun g [OAppend s; OPop 0]))) c0 = false.
Proof.
  exists (theg empty_group), (fspace 10). vm_compute. repeat split.
Qed.

(** C06: a slice assignment that raises leaves neighbours whose indices differ *)
Lemma slice_failure_mismatch :
  exists (g g' : @grp float) i1 s i2 i3 x,
    DielectricInterface c1 n15 (fz 10) ninf = Ok i1 /\ Space (fz 5) n15 ninf = Ok s /\
    DielectricInterface n15 n13 (fz 10) ninf = Ok i2 /\
    DielectricInterface n13 c1 (fz 10) ninf = Ok i3 /\
    MatrixGroup_new [i1; s; i2; i3] "" = Ok g /\
    gstep g (OSetSlice (Some 2%Z) (Some 3%Z) [i1; i1]) = (g', Some x) /\
    gelems g' = [i1; s; i3] /\ neqb (mbi (emat s)) (mfi (emat i3)) = false.
Proof.
  pose (i1 := the (DielectricInterface c1 n15 (fz 10) ninf)).
  pose (s := the (Space (fz 5) n15 ninf)).
  pose (i2 := the (DielectricInterface n15 n13 (fz 10) ninf)).
  pose (i3 := the (DielectricInterface n13 c1 (fz 10) ninf)).
  pose (g := theg (MatrixGroup_new [i1; s; i2; i3] "")).
  exists g, (fst (gstep g (OSetSlice (Some 2%Z) (Some 3%Z) [i1; i1]))), i1, s, i2, i3, ValueError.
  vm_compute. repeat split.
Qed.

(** C07: a pop that raises loses the elements after the gap *)
Lemma pop_failure_loses :
  exists (g g' : @grp float) i1 i2 i3,
    DielectricInterface c1 n15 (fz 10) ninf = Ok i1 /\
    DielectricInterface n15 n13 (fz 10) ninf = Ok i2 /\
    DielectricInterface n13 c1 (fz 10) ninf = Ok i3 /\
    MatrixGroup_new [i1; i2; i3] "" = Ok g /\ gelems g = [i1; i2; i3] /\
    gstep g (OPop 1) = (g', Some ValueError) /\ gelems g' = [i1].
Proof.
  pose (i1 := the (DielectricInterface c1 n15 (fz 10) ninf)).
  pose (i2 := the (DielectricInterface n15 n13 (fz 10) ninf)).
  pose (i3 := the (DielectricInterface n13 c1 (fz 10) ninf)).
  pose (g := theg (MatrixGroup_new [i1; i2; i3] "")).
  exists g, (fst (gstep g (OPop 1))), i1, i2, i3.
  vm_compute. repeat split.
Qed.

(** C07: an insertion that raises half-way loses elements as well *)
Lemma insert_failure_loses :
  exists (g g' : @grp float) l i1,
    Lens (fz 50) ninf = Ok l /\ DielectricInterface c1 n15 (fz 10) ninf = Ok i1 /\
    MatrixGroup_new [l; l] "" = Ok g /\ gelems g = [l; l] /\
    gstep g (OInsert 1 [i1]) = (g', Some ValueError) /\ gelems g' = [l; i1].
Proof.
  pose (i1 := the (DielectricInterface c1 n15 (fz 10) ninf)).
  pose (g := theg (MatrixGroup_new [flens 50; flens 50] "")).
  exists g, (fst (gstep g (OInsert 1 [i1]))), (flens 50), i1.
  vm_compute. repeat split.
Qed.

(** C60: group[-1] = e puts e before the last remaining element *)
Lemma negative_index_misplaced :
  exists (g g' : @grp float) s l,
    Space (fz 10) c1 ninf = Ok s /\ Lens (fz 50) ninf = Ok l /\
    MatrixGroup_new [s; s; s] "" = Ok g /\
    gstep g (OSetItem (-1) [l]) = (g', None) /\
    gelems g' = [s; l; s] /\ [s; l; s] <> firstn 2 (gelems g) ++ [l].
Proof.
  pose (g := theg (MatrixGroup_new [fspace 10; fspace 10; fspace 10] "")).
  exists g, (fst (gstep g (OSetItem (-1) [flens 50]))), (fspace 10), (flens 50).
  split; [vm_compute; reflexivity|]. split; [vm_compute; reflexivity|].
  split; [vm_compute; reflexivity|]. split; [vm_compute; reflexivity|].
  split; [vm_compute; reflexivity|].
  intros H. apply (f_equal (map isSpace)) in H. vm_compute in H. discriminate.
Qed.

(** C60: group[-1:3] = [e] on three elements; a list would become [s; s; e] *)
Lemma negative_slice_misplaced :
  exists (g g' : @grp float) s l,
    Space (fz 10) c1 ninf = Ok s /\ Lens (fz 50) ninf = Ok l /\
    MatrixGroup_new [s; s; s] "" = Ok g /\
    gstep g (OSetSlice (Some (-1)%Z) (Some 3%Z) [l]) = (g', None) /\
    gelems g' = [s; l; s] /\ [s; l; s] <> firstn 2 (gelems g) ++ [l].
Proof.
  pose (g := theg (MatrixGroup_new [fspace 10; fspace 10; fspace 10] "")).
  exists g, (fst (gstep g (OSetSlice (Some (-1)%Z) (Some 3%Z) [flens 50]))), (fspace 10), (flens 50).
  split; [vm_compute; reflexivity|]. split; [vm_compute; reflexivity|].
  split; [vm_compute; reflexivity|]. split; [vm_compute; reflexivity|].
  split; [vm_compute; reflexivity|].
  intros H. apply (f_equal (map isSpace)) in H. vm_compute in H. discriminate.
Qed.
