(** Property theorems: heights and angles of rays in any session, paths without apertures (C136). *)
From Coq Require Import ZArith Reals List Bool String Lia.
From Verif Require Import Base Nums Optics Spec ElementProofs Store Beam Samples MixedTrace MixedRays.
Import ListNotations.
Open Scope list_scope.

(** any session of calls of trace() on the objects of a store whose elements have no aperture, with rays and beams in any order,
    groups nested, shared or used several times in a path: when it is over, the list returned for a ray has the heights and angles of a
    trace of that ray alone through the path, none of the rays is blocked, and the rays of the caller are as they were *)
Theorem C136_heights : forall n calls (s : mstore XR) (w : world XR),
  (forall i gk m kids c, nth_error s i = Some (MGroup gk m kids c) -> c = None) ->
  (forall i k m, nth_error s i = Some (MLeaf k m) -> mdiam m = PInf /\ mna m = PInf) ->
  Forall (fun c => mtree n s (fst c) <> None /\ forall i, snd c = LRay i -> (i < List.length (wr w))%nat /\ rblk (hget (wr w) i) = false) calls ->
  exists s' w' rs, msession n s w calls = (s', w', rs) /\
  (forall i, (i < List.length (wr w))%nat -> hget (wr w') i = hget (wr w) i) /\
  Forall2 (fun c r => forall i, snd c = LRay i -> exists e l ids, mtree n s (fst c) = Some e /\ r = Ok l /\ lget w' l = map LRay ids /\
    map (fun j => (ry (hget (wr w') j), rth (hget (wr w') j))) ids = map (fun r => (ry r, rth r)) (trace_values e (hget (wr w) i)) /\
    Forall (fun j => rblk (hget (wr w') j) = false) ids) calls rs.
Proof. exact rays_in_session. Qed.
Print Assumptions C136_heights.
(** a 4f relay made of one group used twice, traced with a ray, a beam and the ray again *)
Definition relay : mstore XR :=
  match x_space 10 1 with
  | Leaf k m => [MLeaf (KLens (Fin 10) (Fin 4)) (mat_of (o_lens 10) PInf PInf false ""); MLeaf k m; MGroup GGroup m [1; 0; 1] None; MGroup GGroup m [2; 2] None]
  | _ => []
  end%nat.
Definition relay_world : world XR := mkWorld [Ray_new (Fin 1) (Fin 2)] [beam_of_q (mkC (Fin 0) (Fin 5)) (Fin 1)] [].
Example C136_example :
  (forall i gk m kids c, nth_error relay i = Some (MGroup gk m kids c) -> c = None) /\
  (forall i k m, nth_error relay i = Some (MLeaf k m) -> mdiam m = PInf /\ mna m = PInf) /\
  Forall (fun c => mtree 3 relay (fst c) <> None /\ forall i, snd c = LRay i -> (i < List.length (wr relay_world))%nat /\ rblk (hget (wr relay_world) i) = false)
    [(3, LRay 0); (3, LBeam 0); (2, LRay 0); (3, LRay 0)]%nat.
Proof.
  split; [|split].
  - intros i gk m kids c E. do 4 (destruct i as [|i]; [cbn in E; congruence|]). destruct i; discriminate.
  - intros i k m E. do 4 (destruct i as [|i]; [cbn in E; try discriminate; injection E as <- <-; split; reflexivity|]). destruct i; discriminate.
  - repeat apply Forall_cons; try apply Forall_nil; (split; [cbn; discriminate|]); cbn [snd]; intros i E; try discriminate; injection E as <-; cbn; auto.
Qed.
