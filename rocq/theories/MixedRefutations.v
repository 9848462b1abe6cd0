(** Bit-exact sessions in which the trace of a beam or a ray is spoiled by the cache. *)
From Coq Require Import ZArith List Bool String Floats.
From Verif Require Import Base Nums Optics Store Beam GroupRefutations MixedTrace.
Import ListNotations.
Open Scope list_scope.

(** a path of a lens f = 10 and 10 mm of space; object 2 is the path *)
Definition lens_path : mstore float :=
  match Lens (fz 10) ninf, Space (fz 10) c1 ninf with
  | Ok (Leaf k m), Ok (Leaf k' m') => [MLeaf k m; MLeaf k' m'; MGroup GGroup (emat (the (MatrixGroupE [Leaf k m; Leaf k' m']))) [0; 1] None]
  | _, _ => []
  end.
Definition beam5 : @beam float := beam_of_q (mkC c0 (fz 5)) wl_default.
Definition beam8 : @beam float := beam_of_q (mkC c0 (fz 8)) wl_default.
(** beam.q = 8j *)
Definition put_beam (w : world float) (i : nat) (b : @beam float) : world float := mkWorld (wr w) (set_nth i b (wb w)) (wl w).
(** list.pop() *)
Definition pop_list (w : world float) (l : nat) : world float := mkWorld (wr w) (wb w) (set_nth l (removelast (lget w l)) (wl w)).
Definition ends (w : world float) (l : nat) : option (@beam float) :=
  match List.last (lget w l) (LRay 0) with LBeam i => Some (bget w i) | LRay _ => None end.

Lemma changed_beam : exists (s : mstore float) e w s1 w1 l s2 w2,
  mtree 2 s 2 = Some e /\ w = mkWorld [] [beam5] [] /\ mtrace 2 s 2 (LBeam 0) w = (s1, w1, Ok l) /\
  mtrace 2 s1 2 (LBeam 0) (put_beam w1 0 beam8) = (s2, w2, Ok l) /\
  match ends w2 l, beam_through e beam5, beam_through e beam8 with
  | Some b, Ok b5, Ok b8 => ceqb (bq b) (bq b5) && negb (ceqb (bq b) (bq b8))
  | _, _, _ => false
  end = true.
Proof.
  exists lens_path. do 7 eexists. split; [vm_compute; reflexivity|]. split; [reflexivity|]. split; [vm_compute; reflexivity|].
  split; [vm_compute; reflexivity|]. vm_compute. reflexivity.
Qed.
Lemma changed_list : exists (s : mstore float) e w s1 w1 l s2 w2 r,
  mtree 2 s 2 = Some e /\ w = mkWorld [r] [] [] /\ mtrace 2 s 2 (LRay 0) w = (s1, w1, Ok l) /\
  List.length (lget w1 l) = List.length (trace_values e r) /\
  mtrace 2 s1 2 (LRay 0) (pop_list w1 l) = (s2, w2, Ok l) /\ (List.length (lget w2 l) < List.length (trace_values e r))%nat.
Proof.
  exists lens_path. do 8 eexists. split; [vm_compute; reflexivity|]. split; [reflexivity|]. instantiate (1 := Ray_new c1 c0). split; [vm_compute; reflexivity|].
  split; [vm_compute; reflexivity|]. split; [vm_compute; reflexivity|]. vm_compute. repeat constructor.
Qed.
