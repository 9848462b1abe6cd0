(** Drawing: what fails. *)
From Coq Require Import ZArith List Bool String Floats.
From Verif Require Import Base Nums Optics Drawing Materials Catalogue Objectives Figures.
Import ListNotations.
Set Warnings "-inexact-float".
Open Scope list_scope.

Open Scope float_scope.
Definition no_tan (x : float) : float := x.

Lemma assoc_listed {A} n (l : list (string * A)) c : assoc n l = Some c -> In (n, c) l.
Proof.
  unfold assoc. destruct (find _ l) as [[k x]|] eqn:E; [|discriminate]. intros [= <-].
  apply find_some in E as [H E]. cbn in *. apply String.eqb_eq in E. now subst.
Qed.

(** a plano-convex lens of the catalogue turned around *)
Lemma plano_turned : exists name c l l' g, In (name, c) (@lenses float _) /\ lens_object c None = Ok l /\
  GraphicOf no_tan l 0%float 0%float = Ok (Some g) /\ flip_lens l = Ok l' /\
  GraphicOf no_tan l' 0%float 0%float = Err ZeroDivisionError.
Proof.
  destruct (assoc "LA1608_A" (@lenses float _)) as [c|] eqn:E; [|vm_compute in E; discriminate].
  exists "LA1608_A"%string, c.
  assert (In ("LA1608_A"%string, c) (@lenses float _)) as HI by (now apply assoc_listed).
  vm_compute in E. injection E as <-. do 3 eexists.
  split; [exact HI|]. split; [vm_compute; reflexivity|]. split; [vm_compute; reflexivity|]. split; [vm_compute; reflexivity|vm_compute; reflexivity].
Qed.
(** a plane mirror *)
Lemma plane_mirror : exists k m, CurvedMirror (@ninf float _) (@ninf float _) = Ok (Leaf k m) /\
  GraphicOf no_tan (LLeaf k m) 0%float 0%float = Err ZeroDivisionError.
Proof. do 2 eexists. split; [vm_compute; reflexivity|vm_compute; reflexivity]. Qed.
(** an aperture without a limit *)
Lemma open_aperture : exists k m, Aperture (@ninf float _) (@ninf float _) = Ok (Leaf k m) /\
  GraphicOf no_tan (LLeaf k m) 0%float 0%float = Err IndexError.
Proof. do 2 eexists. split; [vm_compute; reflexivity|vm_compute; reflexivity]. Qed.
(** a matrix of length 20 at 100 is drawn from 200 to 220 *)
Lemma matrix_elsewhere : exists k m gs g, MatrixE 1 0 0 1 20 None None 1 1 = Ok (Leaf k m) /\
  (exists s, Space 100 1 ninf = Ok (Leaf KSpace s) /\
     graphics_loop no_tan [DLens (LLeaf KSpace s); DLens (LLeaf k m)] 0 0 = Ok gs) /\ gs = [g] /\
  (forall sc cs cv p, In cs (drawn sc g) -> In cv cs -> In p cv -> PrimFloat.ltb 199 (fst p) = true).
Proof.
  do 4 eexists. split; [vm_compute; reflexivity|]. split; [eexists; split; vm_compute; reflexivity|]. split; [reflexivity|].
  intros sc cs cv p H1 H2 H3. cbn in H1.
  repeat match goal with
  | H : _ \/ _ |- _ => destruct H as [H|H]
  | H : False |- _ => destruct H
  | H : _ = cs |- _ => subst cs
  | H : _ = cv |- _ => subst cv
  | H : _ = p |- _ => subst p
  | H : In _ _ |- _ => progress cbn in H
  end; reflexivity.
Qed.
(** the front aperture of the LUMPlanFL40X objective has a diameter of 3.2 and is 38 from the back aperture: its
    bars are drawn 7 apart, and anywhere, according to the zoom *)
Lemma objective_bars_elsewhere : exists o m es k g, In ("LUMPlanFL40X"%string, o) (@objectives float _) /\
  build o = Ok (Group k m es) /\
  (exists e, nth_error es 5 = Some e /\ mdiam (emat e) = 3.2%float) /\
  ObjectiveGraphic m es (ob_ftf o) (ob_wd o) (ob_back o) (mul 2 (mul (ob_NA o) (ob_wd o))) (ob_NA o) 0 = Ok g /\
  nth_error (drawn 1%float g) 2 = Some [[(37.995, 3.5); (38.005, 3.5)]; [(37.995, -3.5); (38.005, -3.5)]]%float /\
  nth_error (drawn 2%float g) 2 = Some [[(75.99, 3.5); (76.01, 3.5)]; [(75.99, -3.5); (76.01, -3.5)]]%float.
Proof.
  do 5 eexists. split; [left; reflexivity|]. split; [vm_compute; reflexivity|]. split; [eexists; split; vm_compute; reflexivity|].
  split; [vm_compute; reflexivity|]. split; [vm_compute; reflexivity|vm_compute; reflexivity].
Qed.
