(** Equal elements that behave differently. *)
From Coq Require Import ZArith List Bool String Floats.
From Verif Require Import Base Nums Optics Store GroupRefutations StoreRefutations.
Import ListNotations.
Open Scope list_scope.

(** a product of two spaces equals a space, and cannot be entered *)
Lemma equal_part : exists p sp,
  mul_matrix (emat (fspace 10)) (emat (fspace 10)) = Ok p /\ Space 5%float 1%float infinity = Ok sp /\
  oeq 1 [OLeaf KMatrix p; leaf_obj (fspace 20)] [] 0 1 = Some true /\
  transferMatrix (Leaf KMatrix p) 5%float = Err TypeError /\
  transferMatrix (fspace 20) 5%float = Ok sp.
Proof.
  pose (p := match mul_matrix (emat (fspace 10)) (emat (fspace 10)) with Ok p => p | Err _ => emat (fspace 1) end).
  exists p, (fspace 5). vm_compute. auto.
Qed.
(** a curved mirror and a matrix with its attributes *)
Lemma equal_flipped : exists k k' m m' (M : @elem float) a b,
  Matrix_init 1%float 0%float 0.25%float 1%float 0%float (Some 0%float) (Some 0%float) 1%float 1%float infinity infinity "" = Ok m /\
  CurvedMirror 8%float infinity = Ok M /\ M = Leaf k' m' /\ k = KMatrix /\
  oeq 1 [OLeaf k m; OLeaf k' m'] [] 0 1 = Some true /\
  flip (Leaf k m) = Ok a /\ flip M = Ok b /\ PrimFloat.eqb (mC (emat a)) 0.25 = true /\
  PrimFloat.eqb (mC (emat b)) (-0.25) = true.
Proof.
  pose (m := match Matrix_init 1%float 0%float 0.25%float 1%float 0%float (Some 0%float) (Some 0%float) 1%float 1%float infinity infinity "" with
             Ok p => p | Err _ => emat (fspace 1) end).
  pose (M := match CurvedMirror 8%float infinity with Ok p => p | Err _ => fspace 1 end).
  exists KMatrix, KCurvedMirror, m, (emat M), M,
    (match flip (Leaf KMatrix m) with Ok x => x | Err _ => fspace 1 end),
    (match flip M with Ok x => x | Err _ => fspace 1 end).
  vm_compute. auto 10.
Qed.
