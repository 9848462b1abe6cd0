(** Property theorems: rays and Gaussian beams traced through the same path (C132). *)
From Coq Require Import ZArith List Bool String Floats Lia.
From Verif Require Import Base Nums Optics Store Beam GroupRefutations MixedTrace MixedProofs MixedRefutations.
Import ListNotations.
Open Scope list_scope.

(** any session of calls of trace() on the objects of a store, with rays and beams in any order, groups nested and shared at will,
    caches empty at the start: when it is over, the list returned for a beam holds the beams that the path makes of it, or the call
    raised what the path raises for it *)
Theorem C132_beams : forall T (N : Num T) n calls (s : mstore T) (w : world T),
  (forall i gk m kids c, nth_error s i = Some (MGroup gk m kids c) -> c = None) ->
  Forall (fun c => mtree n s (fst c) <> None /\ forall b, snd c = LBeam b -> (b < List.length (wb w))%nat) calls ->
  exists s' w' rs, msession n s w calls = (s', w', rs) /\
  Forall2 (fun c r => forall b, snd c = LBeam b -> exists e, mtree n s (fst c) = Some e /\
    match r with
    | Ok l => exists ids, lget w' l = map LBeam ids /\ beam_trace e (bget w b) = Ok (map (bget w') ids)
    | Err er => beam_trace e (bget w b) = Err er
    end) calls rs.
Proof. exact @beams_in_session. Qed.
Print Assumptions C132_beams.
Example C132_example : exists s' w' l1 l2 l3, msession 2 lens_path (mkWorld [Ray_new c1 c0] [beam5; beam8] []) [(2, LBeam 0); (2, LRay 0); (2, LBeam 1); (2, LBeam 0)] =
  (s', w', [Ok l1; Ok l2; Ok l3; Ok 11])%nat /\ mtree 2 lens_path 2 <> None.
Proof. do 5 eexists. split; [vm_compute; reflexivity|]. vm_compute. discriminate. Qed.

(** tracing changes no beam and no list that was returned before *)
Theorem C132_frame : forall T (N : Num T) n calls (s : mstore T) (w : world T),
  (forall i gk m kids c, nth_error s i = Some (MGroup gk m kids c) -> c = None) ->
  Forall (fun c => mtree n s (fst c) <> None /\ forall b, snd c = LBeam b -> (b < List.length (wb w))%nat) calls ->
  exists s' w' rs, msession n s w calls = (s', w', rs) /\
  (forall b, (b < List.length (wb w))%nat -> bget w' b = bget w b) /\ (forall l, (l < List.length (wl w))%nat -> lget w' l = lget w l).
Proof. exact @session_frame. Qed.
Print Assumptions C132_frame.

(** a beam whose q is changed by its owner still has the trace it had before *)
Theorem C132_changed_beam_refuted : exists (s : mstore float) e w s1 w1 l s2 w2,
  mtree 2 s 2 = Some e /\ w = mkWorld [] [beam5] [] /\ mtrace 2 s 2 (LBeam 0) w = (s1, w1, Ok l) /\
  mtrace 2 s1 2 (LBeam 0) (put_beam w1 0 beam8) = (s2, w2, Ok l) /\
  match ends w2 l, beam_through e beam5, beam_through e beam8 with
  | Some b, Ok b5, Ok b8 => ceqb (bq b) (bq b5) && negb (ceqb (bq b) (bq b8))
  | _, _, _ => false
  end = true.
Proof. exact changed_beam. Qed.
Print Assumptions C132_changed_beam_refuted.
(** a caller who pops from the list that was returned has popped from the next trace *)
Theorem C132_changed_list_refuted : exists (s : mstore float) e w s1 w1 l s2 w2 r,
  mtree 2 s 2 = Some e /\ w = mkWorld [r] [] [] /\ mtrace 2 s 2 (LRay 0) w = (s1, w1, Ok l) /\
  List.length (lget w1 l) = List.length (trace_values e r) /\
  mtrace 2 s1 2 (LRay 0) (pop_list w1 l) = (s2, w2, Ok l) /\ (List.length (lget w2 l) < List.length (trace_values e r))%nat.
Proof. exact changed_list. Qed.
Print Assumptions C132_changed_list_refuted.
