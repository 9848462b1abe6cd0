(** Catalogue lenses: what fails. *)
From Coq Require Import ZArith Reals Lra Lia List Bool String Floats.
From Verif Require Import Base Nums Optics Spec Materials MaterialsProofs Zemax Catalogue Interval LensProofs CatalogueProofs
  CatalogueLens CatalogueChecks CatalogueBands CatalogueAchromat CatalogueMore.
Import ListNotations.
Set Warnings "-inexact-float".
Open Scope list_scope.

Definition class_of (T : Type) (N : Num T) (name : string) : option (lens_class T (dispersion T)) :=
  assoc name (@lenses T N).
(** no wavelength gives these lenses the focal length they are sold with *)
Definition never : list (string * (Z * Z)) :=
  [("AC508_750_C", (57, 2)); ("AC508_500_C", (71, 2)); ("AC254_250_C", (74, 2)); ("ACT508_1000_B", (84, 2))]%string%Z.
Definition never_check (t : list (string * list itv)) (q : string * (Z * Z)) : bool :=
  match assoc (fst q) lens_data with
  | Some c => (readyb c && takes c && strong (rangeC t wide_grid c) && posb (design c) &&
               below (ratioI (rangeC t wide_grid c) (design c)) (snd q))%bool
  | None => false
  end.
Lemma never_checked : forallb (never_check (table wide_grid)) never = true.
Proof. vm_compute. reflexivity. Qed.
Lemma assoc_In {A} name (l : list (string * A)) x : assoc name l = Some x -> In (name, x) l.
Proof.
  unfold assoc. destruct (find _ l) as [[n y]|] eqn:E; [|discriminate]. intros K. injection K as <-.
  apply find_some in E as [H1 H2]. cbn in H2. apply String.eqb_eq in H2. now subst.
Qed.
Open Scope R_scope.
Lemma never_focal name p : In (name, p) never ->
  exists c f0, In (name, c) (@lenses XR _) /\ design c = Fin f0 /\ 0 < f0 /\
    forall w, 35/100 <= w <= 5/2 -> exists f, focal_at c w f /\ f < litR p * f0.
Proof.
  intros H. pose proof (proj1 (forallb_forall _ _) never_checked _ H) as K. unfold never_check in K.
  cbn [fst snd] in K. destruct (assoc name lens_data) as [d|] eqn:Ed; [|discriminate].
  apply assoc_In in Ed. rewrite !andb_true_iff in K. destruct K as ((((Kr & Kt) & Ks) & Kp) & K).
  destruct (has_ixs_ok _ _ Ed) as (is & Ei). destruct (ready_fields d Kr) as (E1 & N1 & _).
  destruct (posb_ok _ Kp) as [Hp _].
  exists (resolved d), (litR (design d)).
  split; [unfold lenses; apply in_map_iff; exists (name, d); split; [reflexivity|exact Ed]|].
  split; [exact E1|]. split; [exact Hp|]. intros w Hw.
  assert (L1 : litR (350, 3)%Z = 35/100) by (rewrite lit3; lra).
  assert (L2 : litR (2500, 3)%Z = 5/2) by (rewrite lit3; lra).
  assert (L3 : last wide 350%Z = 2500%Z) by reflexivity.
  destruct (built_in_range 3 350 wide d is (Some w) w ltac:(lia) eq_refl)
    as (b & f & Hb & Hf & _ & _ & HI); auto; try (rewrite ?L3, ?L1, ?L2; lra).
  { now split. }
  exists f. split.
  - exists b. destruct Hb as (Hc & _). now split.
  - apply (below_ok _ _ _ HI) in K.
    replace f with (f / litR (design d) * litR (design d)) by (field; auto). apply Rmult_lt_compat_r; auto.
Qed.
Close Scope R_scope.

(** where the power vanishes the constructor fails: backFocalLength() is None (specialtylenses.py 206) *)
Lemma no_power_raises : exists c, class_of float _ "AC127_019_AB" = Some c /\
  construct c (Some 6.682023332016493%float) = Err TypeError /\
  (exists b, construct c None = Ok b).
Proof. eexists. split; [vm_compute; reflexivity|]. split; [vm_compute; reflexivity|]. eexists. vm_compute. reflexivity. Qed.

(** a list of wavelengths *)
Lemma shifts_list : exists c l, class_of float _ "AC254_050_A" = Some c /\ List.length l = 2%nat /\
  match focalShifts (Some c) (Some 50.2%float) (WList l) with
  | Ok (ws, fs) => List.length ws = (Z.to_nat 1000 * 2)%nat /\ List.length fs = 2%nat /\ nth_error ws 0 = nth_error l 0
  | Err _ => False
  end.
Proof.
  eexists. exists [0.5%float; 0.6%float]. split; [vm_compute; reflexivity|]. split; [reflexivity|].
  vm_compute. split; [reflexivity|]. split; reflexivity.
Qed.
(** the lenses of eo.py cannot be asked *)
Lemma shifts_eo : exists name c b, class_of float _ name = Some c /\ construct c None = Ok b /\
  focalShifts (Some c) (Some (b_design b)) WDefault = Err TypeError.
Proof.
  exists "PN_33_921"%string. eexists. eexists. split; [vm_compute; reflexivity|].
  split; vm_compute; reflexivity.
Qed.
(** the same glass twice, while the first class E_BAF11 is in memory *)
Lemma index_twice :
  match findByIndex false 1.6667%float 0.5876%float 0.0003%float with
  | Ok l => List.length (filter (fun p => String.eqb (fst (fst p)) "E_BAF11") l) = 2%nat
  | Err _ => False
  end.
Proof. vm_compute. reflexivity. Qed.

Lemma in_lenses name d : assoc name lens_data = Some d -> In (name, resolved d) (@lenses XR _).
Proof.
  intros H. apply assoc_In in H. unfold lenses. apply in_map_iff. exists (name, d). split; [reflexivity|exact H].
Qed.
Lemma off_focal_example : exists c b f f0, In ("AC508_750_C"%string, c) (@lenses XR _) /\ construct c None = Ok b /\
  focal b f /\ design c = Fin f0 /\ far_off f f0.
Proof.
  destruct (assoc "AC508_750_C" lens_data) as [d|] eqn:E; [|vm_compute in E; discriminate].
  apply in_lenses in E.
  destruct (catalogue_at_reference _ _ E) as (b & f & x & f0 & x0 & H1 & H2 & _ & H3 & _ & _ & H4 & _).
  exists (resolved d), b, f, f0. split; [exact E|]. split; [exact H1|]. split; [exact H2|]. split; [exact H3|].
  apply H4. apply memb_In. vm_compute. reflexivity.
Qed.
Lemma off_back_example : exists name c b x x0, In (name, c) (@lenses XR _) /\ construct c None = Ok b /\
  back_focal b x /\ back c = Fin x0 /\ far_off x x0.
Proof.
  exists (hd EmptyString off_back).
  destruct (assoc (hd EmptyString off_back) lens_data) as [d|] eqn:E; [|vm_compute in E; discriminate].
  apply in_lenses in E.
  destruct (catalogue_at_reference _ _ E) as (b & f & x & f0 & x0 & H1 & _ & H2 & _ & H3 & _ & _ & H4 & _).
  exists (resolved d), b, x, x0. split; [exact E|]. split; [exact H1|]. split; [exact H2|]. split; [exact H3|].
  apply H4. left. reflexivity.
Qed.
