(** A lens f=50 of diameter 25 with an aperture of 10 at 20 behind it, and an object at any distance in front. *)
From Coq Require Import Reals Lra Lia List Bool String ZArith.
From Verif Require Import Base Nums Optics Group Spec MatrixProofs ElementProofs GroupProofs
  TraceProofs RayProofs CardinalProofs StrictProofs FlipProofs TransferProofs CardinalMore Samples
  Samples2 Imaging SearchProofs ImagingProofs FieldProofs FieldMore FNumberProofs.
Import ListNotations.
Open Scope list_scope.
Open Scope R_scope.

Definition shot (d : R) : list (@elem XR) := [x_space d 1; x_lens 50 25; x_space 20 1; x_aperture 10].
Definition shot_o (d : R) : list optic := [o_space d 1; o_lens 50; o_space 20 1; o_aperture].
Definition shot_lens : list piece := [thin_piece (o_lens 50); space_piece 20 1; thin_piece o_aperture].
Definition shot_optic (d : R) : optic := path_optic (o_space d 1) (tl (shot_o d)).

Record is_shot (d : R) (e : @elem XR) : Prop := {
  sh_group : exists g, MatrixGroup_new (shot d) "" = Ok g /\ e = Group GGroup (gmat g) (gelems g);
  sh_canon : canon e (shot_optic d);
  sh_pieces : Forall2 is_piece (leaves e) (before d shot_lens);
  sh_lin : Forall not_axicon (leaves e);
  sh_thin : Forall2 thin_aperture (leaves e) (before d shot_lens);
  sh_leaves : leaves e = flat_map leaves (shot d);
  sh_finite : hasFiniteApertureDiameter e = true;
  sh_power : power (shot_optic d) }.

Lemma shot_exists d : 0 <= d -> exists e, is_shot d e.
Proof.
  intros Hd.
  assert (Forall2 canon (shot d) (shot_o d)) as Hc
    by (repeat apply Forall2_cons; try apply Forall2_nil; try (apply c_space; lra); [apply c_lens|apply c_aperture]).
  assert (chain (shot_o d)) as Hch.
  { split; [apply p_space; lra|]. split; [reflexivity|]. split; [apply p_lens|].
    split; [reflexivity|]. split; [apply p_space; lra|]. split; [reflexivity|]. split; [apply p_aperture|exact I]. }
  assert (good (shot_o d)) as Hg by (right; intros o t [= <- _]; reflexivity).
  destruct (MatrixGroup_canon (shot d) (shot_o d) "" Hc Hch Hg) as (g & G1 & G2 & _ & _ & _ & _ & G); [discriminate|].
  exists (grp_elem g).
  assert (leaves (grp_elem g) = flat_map leaves (shot d)) as El by (unfold grp_elem; cbn [leaves]; now rewrite G2).
  split.
  - exists g. split; auto.
  - apply (G (o_space d 1) (tl (shot_o d)) eq_refl).
  - rewrite El. repeat apply Forall2_cons; try apply Forall2_nil; try (apply sp_piece; lra).
    + split; [apply mat_of_describes|]. split; [apply p_lens|]. split; [cbn; lra|]. split; [cbn; lra|]. reflexivity.
    + split; [apply mat_of_describes|]. split; [apply p_aperture|]. split; [cbn; lra|]. split; [cbn; lra|]. reflexivity.
  - rewrite El. repeat constructor.
  - rewrite El. repeat apply Forall2_cons; try apply Forall2_nil.
    1,3: (split; [reflexivity|]; split; [now left|]; cbn; intros; lra).
    all: (split; [reflexivity|]; split; [now right|]; cbn; intros; split; reflexivity).
  - exact El.
  - unfold hasFiniteApertureDiameter, grp_elem. rewrite G2. cbn [shot existsb]. reflexivity.
  - unfold power, shot_optic. cbn. match goal with |- context [Rabs ?c] => replace c with (- (/ 50)) by field end. rewrite Rabs_Ropp, Rabs_pos_eq by lra. lra.
Qed.

Lemma shot_A1 : A_ (upto shot_lens 1) = 1.
Proof. unfold upto, mprod, shot_lens. cbn. ring. Qed.
