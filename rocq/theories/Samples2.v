(** Concrete cases for the theorems about partial transfer matrices and cardinal points. *)
From Coq Require Import Reals Lra List Bool String ZArith.
From Verif Require Import Base Nums Optics Group Spec MatrixProofs ElementProofs GroupProofs
  TraceProofs RayProofs CardinalProofs StrictProofs FlipProofs TransferProofs CardinalMore Samples.
Import ListNotations.
Open Scope R_scope.

Definition space_piece (d n : R) : piece := mkP (o_space d n) (fun x => o_space x n).
Definition thin_piece (o : optic) : piece := mkP o (fun _ => o).
Definition thick_piece (n r1 r2 t : R) : piece :=
  mkP (o_thick n (Fin r1) (Fin r2) t) (fun d => ocomp (o_space d n) (o_interface 1 n (Fin r1))).

Definition sample_pieces : list piece :=
  [space_piece 10 1; thick_piece (3/2) 100 (-100) 5; space_piece 20 1; thin_piece (o_lens 50);
   space_piece 30 1].

Lemma sp_piece d n : n <> 0 -> 0 <= d ->
  is_piece (KSpace, mat_of (o_space d n) PInf PInf false "") (space_piece d n).
Proof.
  intros. split; [apply mat_of_describes|]. split; [now apply p_space|]. split; auto.
  split; [exact I|]. repeat split.
Qed.

Lemma sample_is_pieces : Forall2 is_piece (flat_map leaves sample) sample_pieces.
Proof.
  repeat apply Forall2_cons; try apply Forall2_nil; try (apply sp_piece; lra).
  - split; [apply mat_of_describes|]. split; [apply p_thick; lra|]. split; [cbn; lra|].
    split; [exact I|]. exists (3/2). split; [reflexivity|]. split; [lra|]. split; [cbn; lra|].
    split; [reflexivity|]. split; [|reflexivity].
    cbn [po thick_piece]. rewrite o_thick_eq by (cbn; lra). cbn [oL]. rewrite <- o_thick_eq by (cbn; lra). reflexivity.
  - split; [apply mat_of_describes|]. split; [apply p_lens|]. split; [cbn; lra|].
    split; [cbn; lra|]. reflexivity.
Qed.

Definition sample_optic : optic := path_optic (o_space 10 1) (tl sample_o).

Lemma sample_cut : exists e, canon e sample_optic /\
  Forall2 is_piece (leaves e) sample_pieces /\ Forall not_axicon (leaves e) /\
  (exists gk m es, e = Group gk m es) /\
  cut_path sample_pieces 12 =
    [o_space 10 1; ocomp (o_space (12 - 10) (3/2)) (o_interface 1 (3/2) (Fin 100))].
Proof.
  destruct sample_group as (g & G1 & G2 & Gc). exists (grp_elem g). split; [exact Gc|].
  unfold grp_elem. cbn [leaves]. rewrite G2. split; [exact sample_is_pieces|].
  split; [repeat constructor|]. split; [eauto|].
  cbn [sample_pieces cut_path space_piece thick_piece po pcut o_space o_thick oL ocomp].
  destruct (Rle_dec 10 12); [|lra].
  match goal with |- context [Rle_dec ?a ?b] => destruct (Rle_dec a b) as [H|H] end; [|reflexivity].
  exfalso. unfold o_thick in H. cbn in H. lra.
Qed.

Lemma sample_power : power sample_optic.
Proof. unfold power, sample_optic. cbn. unfold Rabs. destruct (Rcase_abs _); lra. Qed.

Lemma sample_mirror : exists e, canon e sample_optic /\ Forall mirror_ok (leaves e).
Proof.
  destruct sample_group as (g & G1 & G2 & Gc). exists (grp_elem g). split; [exact Gc|].
  unfold grp_elem. cbn [leaves]. rewrite G2. repeat constructor.
Qed.

Lemma sample_flat : exists (e : @elem XR) os,
  Forall2 (fun (x : @elem XR) o => describes (emat x) o) (transferMatrices e) os /\
  chain os /\ os <> [] /\
  image_after [o_space 10 1; o_lens 5] 20 (-1) /\ os = [o_space 10 1; o_lens 5; o_space 30 1].
Proof.
  exists (Group GGroup (emat (x_space 5 1)) [x_space 10 1; x_lens 5 25; x_space 30 1]), [o_space 10 1; o_lens 5; o_space 30 1].
  split; [repeat apply Forall2_cons; try apply Forall2_nil; apply mat_of_describes|].
  split. { split; [apply p_space; lra|]. split; [reflexivity|]. split; [apply p_lens|].
    split; [reflexivity|]. split; [apply p_space; lra|exact I]. }
  split; [discriminate|]. split; auto. exists 10. cbn. repeat split; lra.
Qed.

(** a singlet in air *)
Lemma singlet_exchanges : exists e o vf vb, canon e o /\ Forall mirror_ok (leaves e) /\ all_vsym e /\
  onf o = onb o /\ power o /\ ofv o = Some vf /\ obv o = Some vb.
Proof.
  pose (os := [o_interface 1 (3/2) (Fin 100); o_space 5 (3/2); o_interface (3/2) 1 (Fin (-50))]).
  destruct (MatrixGroup_canon [x_interface 1 (3/2) 100; x_space 5 (3/2); x_interface (3/2) 1 (-50)] os "")
    as (g & G1 & G2 & _ & _ & _ & _ & G); try discriminate.
  - repeat apply Forall2_cons; try apply Forall2_nil; try (apply c_interface; lra). apply c_space; lra.
  - split; [apply p_interface; lra|]. split; [reflexivity|]. split; [apply p_space; lra|].
    split; [reflexivity|]. split; [apply p_interface; lra|exact I].
  - right. intros o t [= <- _]. reflexivity.
  - exists (grp_elem g), (path_optic (o_interface 1 (3/2) (Fin 100)) (tl os)).
    exists 0, (0 + 5). split; [apply (G _ _ eq_refl)|].
    unfold all_vsym, grp_elem. cbn [leaves]. rewrite G2.
    split; [repeat constructor|]. split.
    { repeat apply Forall_cons; try apply Forall_nil; unfold vsym; cbn; auto. }
    split; [reflexivity|]. split.
    + unfold power; cbn. unfold Rabs. destruct (Rcase_abs _); lra.
    + split; cbn; f_equal; lra.
Qed.

Lemma thick_focus : let o := o_thick (3/2) (Fin 100) (Fin (-100)) 5 in
  canon (x_thick (3/2) 100 (-100) 5) o /\ power o /\ onf o = 1 /\ ofv o = Some 0 /\ obv o = Some (oL o).
Proof.
  cbv zeta. split; [apply c_thick; lra|]. rewrite o_thick_eq by (cbn; lra).
  split; [unfold power; cbn; unfold Rabs; destruct (Rcase_abs _); lra|]. repeat split.
Qed.
