(** Graphic.length is not a length. *)
From Coq Require Import ZArith List Bool Floats.
From Verif Require Import Base Nums Optics Drawing Figures Outline GroupRefutations.
Import ListNotations.
Open Scope list_scope.
(** a box 10 long and 20 high is said to be 30 long *)
Lemma length_of_box : exists c : component float, c = Rectangle (fz 0) (fz (-10)) (fz 10) (fz 20) /\
  comp_length c = Ok (fz 10, fz 20) /\ graphic_length [c] = Ok (fz 30).
Proof. eexists. split; [reflexivity|]. split; vm_compute; reflexivity. Qed.
(** and one of no length but 20 high, 20 *)
Lemma length_of_nothing : exists c : component float, c = Rectangle (fz 0) (fz (-10)) (fz 0) (fz 20) /\ graphic_length [c] = Ok (fz 20).
Proof. eexists. split; [reflexivity|]. vm_compute. reflexivity. Qed.
