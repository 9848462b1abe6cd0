(** Figures in which the labels are not well placed, on double precision floats. *)
From Coq Require Import ZArith List Bool Floats.
From Verif Require Import Base Nums Overlap.
Import ListNotations.
Set Warnings "-inexact-float".
Open Scope float_scope.

(** a label of the figure whose text is 10 wide, on one line, starting at [x] *)
Definition f_label (x : float) : label float := mkLabel x 0 0 1 0 10 0 1.
Definition f_view : bbox float := mkBox 0 200 (-5) 5.
Definition f_at (r : res (list (label float))) (i : nat) : label float :=
  match r with Ok ls => nth i ls (f_label 0) | Err _ => f_label 0 end.
Definition f_ok (r : res (list (label float))) : bool := match r with Ok _ => true | Err _ => false end.

(** three labels in a wide display of which two still overlap at the end *)
Definition f_three : list (label float) := [f_label 10; f_label 5; f_label 5].
Lemma three_overlap : exists ms l m, updateLabels f_view f_three = Ok ms /\ nth_error ms 1%nat = Some l /\ nth_error ms 2%nat = Some m
  /\ (bx0 (text_box l) <? bx1 (text_box m))%float = true /\ (bx0 (text_box m) <? bx1 (text_box l))%float = true.
Proof.
  destruct (updateLabels f_view f_three) as [ms|] eqn:E; [|vm_compute in E; discriminate].
  exists ms, (nth 1%nat ms (f_label 0)), (nth 2%nat ms (f_label 0)). vm_compute in E. injection E as <-.
  split; [reflexivity|]. split; [reflexivity|]. split; [reflexivity|]. split; vm_compute; reflexivity.
Qed.
(** a label pushed over the edge of the display *)
Definition f_edge : list (label float) := [f_label 8; f_label 8; f_label 9].
Lemma edge_left : (forall l, In l f_edge -> (bx0 f_view <=? bx0 (text_box l))%float = true) /\
  exists ms l, updateLabels f_view f_edge = Ok ms /\ In l ms /\ (bx0 (text_box l) <? bx0 f_view)%float = true.
Proof.
  split; [intros l [<-|[<-|[<-|[]]]]; vm_compute; reflexivity|].
  destruct (updateLabels f_view f_edge) as [ms|] eqn:E; [|vm_compute in E; discriminate].
  exists ms, (nth 1%nat ms (f_label 0)). vm_compute in E. injection E as <-.
  split; [reflexivity|]. split; [right; left; reflexivity|vm_compute; reflexivity].
Qed.
(** five labels at the edge for which the figure cannot be shown *)
Definition f_five : list (label float) := [f_label 8; f_label 9; f_label 8; f_label 6; f_label 8].
Lemma five_raise : (forall l, In l f_five -> (bx0 f_view <=? bx0 (text_box l))%float = true) /\
  updateLabels f_view f_five = Err AttributeError.
Proof.
  split; [intros l [<-|[<-|[<-|[<-|[<-|[]]]]]]; vm_compute; reflexivity|vm_compute; reflexivity].
Qed.
(** the note at the bottom of the figure, 20 wide, at 5% of the width of the display, and a label below it *)
Definition f_note : label float := mkLabel 0.05 0 0 200 0 20 (-5) (-4).
Definition f_low : label float := mkLabel 25 0 0 1 0 10 (-4.5) (-3.5).
Lemma note_lost : isRenderedOn f_view f_note = true /\ updateLabels f_view [f_low; f_note] = Err AttributeError.
Proof. split; vm_compute; reflexivity. Qed.
(** a label that is not back where it was *)
Lemma reset_inexact : exists x dx, resetPosition (translate (f_label x) dx) <> f_label x.
Proof.
  exists 0.1%float, 0.2%float. intros H. apply (f_equal (fun l => (lb_x l =? 0.1)%float)) in H. vm_compute in H. discriminate.
Qed.
