(** Property theorems C73-C78: the lens catalogues, chromatic shifts, glasses by index, Abbe numbers.  Each
    theorem is closed by a lemma proved elsewhere; the examples show that its hypotheses can be met. *)
From Coq Require Import Reals Lra List Bool String ZArith Floats Lia.
From Verif Require Import Base Nums Optics Spec Materials MaterialsProofs Zemax Catalogue Interval LensProofs
  CatalogueProofs CatalogueLens CatalogueChecks CatalogueBands CatalogueAchromat CatalogueMore CatalogueRefutations.
Import ListNotations.
Set Warnings "-inexact-float".
Open Scope list_scope.
Open Scope R_scope.

(** [lenses]: the 328 classes of thorlabs.py and eo.py; [construct c None]: Class(); [construct c (Some w)]:
    Class(wavelength=w).  [design c], [back c]: the focal lengths given in the class.  [focal b f]:
    effectiveFocalLengths() is (f, f).  [far_off x y]: x differs from y by more than 1 %. *)

(** ** C73 *)
(** Every class can be built.  The 96 lenses of [off_focal] and no others have a focal length more than 1 % away
    from the one in the class, the 97 lenses of [off_back] a back focal length; the constructor says so. *)
Theorem C73_reference_partial : forall name c, In (name, c) (@lenses XR _) ->
  exists b f x f0 x0, construct c None = Ok b /\ focal b f /\ back_focal b x /\
    design c = Fin f0 /\ back c = Fin x0 /\ b_design b = Fin f0 /\
    (In name off_focal <-> far_off f f0) /\ (In name off_back <-> far_off x x0) /\
    (In WFocal (b_warn b) <-> far_off f f0) /\ (In WBack (b_warn b) <-> far_off x x0) /\
    ~ In WThickness (b_warn b) /\ in_air b (thickness c) (diameter c).
Proof. exact catalogue_at_reference. Qed.
Print Assumptions C73_reference_partial.
Theorem C73_focal_refuted : exists c b f f0, In ("AC508_750_C"%string, c) (@lenses XR _) /\
  construct c None = Ok b /\ focal b f /\ design c = Fin f0 /\ far_off f f0.
Proof. exact off_focal_example. Qed.
Theorem C73_back_refuted : exists name c b x x0, In (name, c) (@lenses XR _) /\ construct c None = Ok b /\
  back_focal b x /\ back c = Fin x0 /\ far_off x x0.
Proof. exact off_back_example. Qed.
(** four lenses do not have their focal length at any wavelength: AC508_750_C stays below 57 % of it *)
Theorem C73_never_refuted : forall name p, In (name, p) never ->
  exists c f0, In (name, c) (@lenses XR _) /\ design c = Fin f0 /\ 0 < f0 /\
    forall w, 35/100 <= w <= 5/2 -> exists f, focal_at c w f /\ f < litR p * f0.
Proof. exact never_focal. Qed.
Print Assumptions C73_never_refuted.
Example C73_example : List.length lens_data = 328%nat /\ List.length off_focal = 96%nat /\
  List.length off_back = 97%nat /\ memb "AC254_050_A" (map fst lens_data) = true /\
  memb "AC254_050_A" off_focal = false /\ In ("AC508_750_C"%string, (57, 2)%Z) never.
Proof. do 5 (split; [vm_compute; reflexivity|]). now left. Qed.

(** ** C74 *)
Theorem C74_any_wavelength : forall name c w, In (name, c) (@lenses XR _) -> takes c = true ->
  35/100 <= w <= 5/2 ->
  exists b f x f0 x0, construct c (Some (Fin w)) = Ok b /\ focal b f /\ f <> 0 /\ back_focal b x /\
    design c = Fin f0 /\ back c = Fin x0 /\ b_design b = Fin f0 /\
    (In WFocal (b_warn b) <-> far_off f f0) /\ (In WBack (b_warn b) <-> far_off x x0) /\
    ~ In WThickness (b_warn b) /\ in_air b (thickness c) (diameter c).
Proof. exact catalogue_wide. Qed.
Print Assumptions C74_any_wavelength.
(** the range matters: at some infrared wavelength the power vanishes and the constructor raises TypeError *)
Theorem C74_no_power_raises : exists c, class_of float _ "AC127_019_AB" = Some c /\
  construct c (Some 6.682023332016493%float) = Err TypeError /\
  (exists b, construct c None = Ok b).
Proof. exact no_power_raises. Qed.
Example C74_example : exists c, In ("AC254_050_A"%string, c) (@lenses XR _) /\ takes c = true /\
  35/100 <= 633/1000 <= 5/2.
Proof.
  destruct (assoc "AC254_050_A" lens_data) as [d|] eqn:E; [|vm_compute in E; discriminate].
  exists (resolved d). split; [now apply in_lenses|]. split; [|lra].
  vm_compute in E. injection E as <-. reflexivity.
Qed.

(** ** C75 *)
(** [coated coat_A name]: the name is AC..., ends in _A, _Ag, _A_ML or _A_MLd *)
Theorem C75_visible : forall name c w1 w2, In (name, c) (@lenses XR _) -> coated coat_A name ->
  4/10 <= w1 <= 7/10 -> 4/10 <= w2 <= 7/10 ->
  exists f1 f2 f0, focal_at c w1 f1 /\ focal_at c w2 f2 /\ design c = Fin f0 /\ f0 <> 0 /\
    Rabs (f1 - f0) < 17/1000 * Rabs f0 /\ Rabs (f1 - f2) < 13/1000 * Rabs f0.
Proof. exact achromat_A. Qed.
Print Assumptions C75_visible.
Theorem C75_near_infrared : forall name c w1 w2, In (name, c) (@lenses XR _) -> coated coat_B name ->
  65/100 <= w1 <= 105/100 -> 65/100 <= w2 <= 105/100 ->
  exists f1 f2 f0, focal_at c w1 f1 /\ focal_at c w2 f2 /\ design c = Fin f0 /\ f0 <> 0 /\
    Rabs (f1 - f2) < 21/1000 * Rabs f0.
Proof. exact achromat_B. Qed.
Print Assumptions C75_near_infrared.
Theorem C75_infrared : forall name c w1 w2, In (name, c) (@lenses XR _) -> coated coat_C name ->
  105/100 <= w1 <= 17/10 -> 105/100 <= w2 <= 17/10 ->
  exists f1 f2 f0, focal_at c w1 f1 /\ focal_at c w2 f2 /\ design c = Fin f0 /\ f0 <> 0 /\
    Rabs (f1 - f2) < 19/1000 * Rabs f0.
Proof. exact achromat_C. Qed.
Print Assumptions C75_infrared.
(** a singlet: f = R / (n - 1) *)
Theorem C75_singlet : forall name c w, In (name, c) (@lenses XR _) -> is_doublet c = false -> 35/100 <= w <= 5/2 ->
  exists g n r, glass c = Some g /\ index_of g (Fin w) = Ok (PReal (Fin n)) /\ surface1 c = Some (Fin r) /\
    0 < r /\ 1 < n /\ focal_at c w (r / (n - 1)).
Proof. exact lensmaker. Qed.
Print Assumptions C75_singlet.
Theorem C75_singlet_grows : forall name c w1 w2, In (name, c) (@lenses XR _) -> is_doublet c = false ->
  35/100 <= w1 -> w1 < w2 -> w2 <= 5/2 ->
  exists f1 f2, focal_at c w1 f1 /\ focal_at c w2 f2 /\ f1 < f2.
Proof. exact singlet_chromatic. Qed.
Print Assumptions C75_singlet_grows.
Example C75_example :
  List.length (filter (fun p => coatedb coat_A (fst p)) lens_data) = 97%nat /\
  List.length (filter (fun p => coatedb coat_B (fst p)) lens_data) = 103%nat /\
  List.length (filter (fun p => coatedb coat_C (fst p)) lens_data) = 84%nat /\
  List.length (filter (fun p => negb (is_doublet (snd p))) lens_data) = 6%nat /\
  coated coat_A "AC254_050_A_ML".
Proof.
  do 4 (split; [vm_compute; reflexivity|]). exists "254_050"%string, "_A_ML"%string. split; [|reflexivity].
  do 2 right. now left.
Qed.

(** ** C76 *)
(** [focalShifts (Some c) (Some f0) ws]: the method of a lens of class c with designFocalLength f0 *)
Theorem C76_array_partial : forall name c f0 l, In (name, c) (@lenses XR _) -> takes c = true ->
  Forall (fun w => 35/100 <= w <= 5/2) l ->
  exists fs, Forall2 (focal_at c) l fs /\
    focalShifts (Some c) (Some (Fin f0)) (WArray (map Fin l)) =
    Ok (map (fun w => Fin (w * 1000)) l, map (fun f => Fin (f - f0)) fs).
Proof. exact shifts_array. Qed.
Print Assumptions C76_array_partial.
Theorem C76_default_partial : forall name c f0, In (name, c) (@lenses XR _) -> takes c = true ->
  exists l fs, List.length l = 100%nat /\ Forall (fun w => 4/10 <= w <= 8/10) l /\ Forall2 (focal_at c) l fs /\
    focalShifts (Some c) (Some (Fin f0)) WDefault =
    Ok (map (fun w => Fin (w * 1000)) l, map (fun f => Fin (f - f0)) fs).
Proof. exact shifts_default. Qed.
Print Assumptions C76_default_partial.
(** a list comes back 1000 times longer, in microns *)
Theorem C76_list_refuted : exists c l, class_of float _ "AC254_050_A" = Some c /\ List.length l = 2%nat /\
  match focalShifts (Some c) (Some 50.2%float) (WList l) with
  | Ok (ws, fs) => List.length ws = (Z.to_nat 1000 * 2)%nat /\ List.length fs = 2%nat /\ nth_error ws 0 = nth_error l 0
  | Err _ => False
  end.
Proof. exact shifts_list. Qed.
Theorem C76_list_length : forall T (N : Num T) (c : option (lens_class T (dispersion T))) f0 l p,
  focalShifts c (Some f0) (WList l) = Ok p ->
  List.length (fst p) = (Z.to_nat 1000 * List.length l)%nat /\ List.length (snd p) = List.length l.
Proof. exact @shifts_list_length. Qed.
Print Assumptions C76_list_length.
(** the classes of eo.py, and lenses that are not of a catalogue class, cannot be asked *)
Theorem C76_eo_refuted : exists name c b, class_of float _ name = Some c /\ construct c None = Ok b /\
  focalShifts (Some c) (Some (b_design b)) WDefault = Err TypeError.
Proof. exact shifts_eo. Qed.
Theorem C76_no_argument : forall T (N : Num T) (c : lens_class T (dispersion T)) f0 w l,
  takes c = false -> focalShifts (Some c) (Some f0) (WArray (w :: l)) = Err TypeError.
Proof. exact @shifts_no_argument. Qed.
Theorem C76_direct_refuted : forall T (N : Num T) f0 w l,
  @focalShifts T N None (Some f0) (WArray (w :: l)) = Err TypeError.
Proof. exact @shifts_direct. Qed.
Example C76_example : Forall (fun w => 35/100 <= w <= 5/2) [4/10; 55/100; 7/10] /\
  memb "PN_33_921" (map fst (filter (fun p => negb (takes (snd p))) lens_data)) = true.
Proof. split; [repeat (constructor; [lra|]); constructor|vm_compute; reflexivity]. Qed.

(** ** C77 *)
(** [index_named c w x]: the material of that name has index x at w; [collected]: whether Python has freed the
    first of two classes with the same name *)
Theorem C77_found_partial : forall collected n w tol, 28/100 <= w <= 7 ->
  exists l, findByIndex collected (Fin n) (Fin w) (Fin tol) = Ok l /\
    (forall c nm v, In (c, nm, v) l <->
       exists x, index_named c w x /\ nm = Fin x /\ Rabs (n - x) < tol /\ abbeNumber c = Some v) /\
    (collected = true -> NoDup (map (fun p => fst (fst p)) l)).
Proof. exact found_by_index. Qed.
Print Assumptions C77_found_partial.
Theorem C77_twice_refuted :
  match findByIndex false 1.6667%float 0.5876%float 0.0003%float with
  | Ok l => List.length (filter (fun p => String.eqb (fst (fst p)) "E_BAF11") l) = 2%nat
  | Err _ => False
  end.
Proof. exact index_twice. Qed.
Example C77_example :
  match findByIndex true 1.6667%float 0.5876%float 0.0003%float with
  | Ok l => map (fun p => fst (fst p)) l = ["E_BAF11"%string; "S_BAH11"%string]
  | Err _ => False
  end.
Proof. vm_compute. reflexivity. Qed.

(** ** C78 *)
Theorem C78_abbe : forall c d, material (@catalogue XR _) c = Some d -> d <> DAir ->
  exists v nF nd nC, abbeNumber c = Some (Fin v) /\ index_of d (lit line_F) = Ok (PReal (Fin nF)) /\
    index_of d (lit line_d) = Ok (PReal (Fin nd)) /\ index_of d (lit line_C) = Ok (PReal (Fin nC)) /\
    nC < nF /\ 1 < nd /\
    let V := (nd - 1) / (nF - nC) in Rabs (v - V) < 25/100000 * V.
Proof. exact abbe_numbers. Qed.
Print Assumptions C78_abbe.
Example C78_example : exists d, material (@catalogue XR _) "N_BK7" = Some d /\ d <> DAir /\
  abbeNumber "N_BK7" = Some (6417 / 100)%float.
Proof.
  rewrite material_catalogue. eexists. split; [vm_compute (material catalogue_data "N_BK7"); reflexivity|].
  split; [discriminate|vm_compute; reflexivity].
Qed.
