(** Property theorems C133: the rays of the object that display() and displayWithObject() draw.  Each theorem is closed
    by a lemma proved elsewhere; the examples show that its hypotheses can be met. *)
From Coq Require Import Reals Lra List Bool String ZArith Floats Lia.
From Verif Require Import Base Nums Optics Group Spec GroupProofs RaysModel Imaging GroupRefutations Samples
  ImagingRefutations EfficiencyRefutations Display DisplayProofs DisplayRefutations Range ObjectFan ObjectFanProofs
  ObjectFanRefutations.
Import ListNotations.
Set Warnings "-inexact-float".
Open Scope list_scope.
Open Scope R_scope.

(** ** C133 *)
(** whatever is done with a path, fanAngle, fanNumber and rayNumber are what was last set: figures and designs leave them *)
Theorem C133_settings : forall T (N : Num T) (e : @elem T) fuel pytan os,
  let q := irun e fuel pytan os in
  p_fan (i_path q) = last_set sets_angle None os /\
  i_fans q = last_set sets_fans 3%Z os /\ i_rays q = last_set sets_rays 3%Z os.
Proof. exact @settings_kept. Qed.
Print Assumptions C133_settings.

(** the object drawn by display(): fanNumber points evenly spaced from -h/2 to h/2 (the middle, when there is one only),
    with rayNumber rays each, evenly spaced from -a to a, from the lowest and steepest downwards; a is the fanAngle that
    was set, else the tangent of a tenth of the vertical range over the length of the path *)
Theorem C133_rays : forall (e : @elem XR) pytan drange (q : @ipath XR) h a,
  p_height (i_path q) = Fin h -> half_angle e pytan drange (p_fan (i_path q)) a ->
  (1 <= i_fans q)%Z -> (2 <= i_rays q)%Z ->
  exists l, default_object e pytan drange q = Ok l /\ Z.of_nat (List.length l) = (i_fans q * i_rays q)%Z /\
    forall i j, (0 <= i < i_fans q)%Z -> (0 <= j < i_rays q)%Z ->
      nth_error l (Z.to_nat (i * i_rays q + j)) =
        Some (Ray_new (Fin (if (i_fans q =? 1)%Z then 0 else point h (i_fans q) i)) (Fin (slope a (i_rays q) j))).
Proof. exact object_drawn_angle. Qed.
Print Assumptions C133_rays.

(** the fan that is chosen stays on the figure over the length of the path, unless an element deflects it, if the path is
    at least a tenth as long as its vertical range *)
Theorem C133_on_figure : forall (e : @elem XR) (q : @ipath XR) h r L,
  p_fan (i_path q) = None -> p_height (i_path q) = Fin h -> (1 <= i_fans q)%Z -> (2 <= i_rays q)%Z ->
  mL (emat e) = Fin L -> 0 <= h -> h <= r -> 0 < r -> r <= 10 * L ->
  exists l lo hi, default_object e xtan (Ok (Fin r)) q = Ok l /\ ylim (Fin r) = (Fin lo, Fin hi) /\
    forall x, In x l -> exists y th, x = Ray_new (Fin y) (Fin th) /\ forall z, 0 <= z <= L -> lo < y + z * th < hi.
Proof. exact fan_on_figure. Qed.
Print Assumptions C133_on_figure.

(** the object height is never negative, if no diameter given to displayWithObject() is *)
Theorem C133_height : forall T (N : Num T) (e : @elem T) fuel pytan os,
  nltb (nofZ 10) c0 = false ->
  Forall (fun o => match o with IWith _ d _ _ => nltb d c0 = false | _ => True end) os ->
  nltb (p_height (i_path (irun e fuel pytan os))) c0 = false.
Proof. exact @height_fine. Qed.
Print Assumptions C133_height.

(** fanAngle is documented as the full angle of the fan: it is half of it *)
Theorem C133_full_angle_refuted : exists e, is_two_apertures e /\ forall fuel tan dr,
  let q := irun e fuel tan [IAngle (Some (ndec 1 1)); IFans 1; IRays 2] in
  exists r1 r2, default_object e tan dr q = Ok [r1; r2] /\ ry r1 = ry r2 /\
    neqb (nsub (rth r2) (rth r1)) (ndec 2 1) = true.
Proof. exact twice_the_fan. Qed.
Print Assumptions C133_full_angle_refuted.
(** the only ray of a fan is not in its middle *)
Theorem C133_one_ray_refuted : exists e, is_two_apertures e /\ forall fuel tan dr,
  let q := irun e fuel tan [IAngle (Some (ndec 1 1)); IRays 1] in
  exists l, default_object e tan dr q = Ok l /\ List.length l = 3%nat /\
    Forall (fun r => neqb (rth r) (nopp (ndec 1 1)) = true) l.
Proof. exact one_ray_down. Qed.
(** displayWithObject(): fanNumber is documented as the number of rays from a point, rayNumber as the number of points *)
Theorem C133_numbers_refuted : exists e, is_two_apertures e /\ forall tan dr,
  exists l, given_object e tan dr ipath_new (fz 8) (Some (ndec 1 1)) 5 2 = Ok l /\
    map ry l = [fz (-4); fz (-4); fz (-2); fz (-2); fz 0; fz 0; fz 2; fz 2; fz 4; fz 4].
Proof. exact numbers_swapped. Qed.
(** displayWithObject() sets an object height that the setter of objectHeight refuses *)
Theorem C133_negative_height_refuted : exists e, is_two_apertures e /\ forall tan dr,
  let q := irun e 100 tan [IWith dr (fz (-7)) (Some (ndec 1 1)) true] in
  p_height (i_path q) = fz (-7) /\ forall p, set_objectHeight p (fz (-7)) = Err ValueError.
Proof. exact negative_height. Qed.
(** the fan angle chosen for a path that is short for its object is negative *)
Theorem C133_negative_fan_refuted : exists s : @elem XR, Space (Fin (2 / 5)) (Fin 1) PInf = Ok s /\
  forall e : @elem XR, mL (emat e) = mL (emat s) ->
  exists a, default_fan e (Ok (Fin 10)) xtan ImagingPath_new = Ok (Fin a) /\ a < 0.
Proof. exact negative_fan. Qed.
Print Assumptions C133_negative_fan_refuted.

Example C133_settings_example : last_set sets_fans 3%Z [IHeight (fz 4); IFans 5; IAngle (Some c1); IFans 7; IRays 2] = 7%Z /\
  last_set sets_angle None [IHeight (fz 4); IFans 5; IAngle (Some c1); IFans 7; IRays 2] = Some (@c1 float _).
Proof. split; reflexivity. Qed.
Example C133_chosen_example : half_angle (x_space 10 1) xtan (Ok (Fin 0)) None 0.
Proof. exists 0, 10. repeat split; [lra|]. cbn. unfold Rdiv. rewrite !Rmult_0_l, tan_0. reflexivity. Qed.
(** five points on an object of height 8, three rays of 0.1 at most at each *)
Example C133_rays_example : exists (e : @elem XR) q, forall pytan drange,
  q = mkIPath (mkPath (Fin 8) (Some (Fin (1 / 10))) Figure_new Method) 5 3 /\
  p_height (i_path q) = Fin 8 /\ half_angle e pytan drange (p_fan (i_path q)) (1 / 10) /\
  (1 <= i_fans q)%Z /\ (2 <= i_rays q)%Z /\ point 8 (i_fans q) 3 = 2 /\ slope (1 / 10) (i_rays q) 1 = 0.
Proof.
  exists (x_space 10 1). eexists. intros. split; [reflexivity|]. cbn [i_path i_fans i_rays p_height].
  split; [reflexivity|]. split; [reflexivity|]. split; [lia|]. split; [lia|].
  unfold point, slope. cbn -[IZR Rmult Rdiv Rplus Ropp]. split; lra.
Qed.
Example C133_on_figure_example : exists (e : @elem XR),
  mL (emat e) = Fin 30 /\ 0 <= 10 /\ 10 <= 25 /\ 0 < 25 /\ 25 <= 10 * 30 /\
  p_fan (i_path (@ipath_new XR _)) = None /\ p_height (i_path (@ipath_new XR _)) = Fin 10 /\
  (1 <= i_fans (@ipath_new XR _))%Z /\ (2 <= i_rays (@ipath_new XR _))%Z.
Proof. exists (x_space 30 1). repeat split; cbn; lra || lia. Qed.
Example C133_height_example : nltb (@nofZ float _ 10) c0 = false /\
  Forall (fun o : @iop float => match o with IWith _ d _ _ => nltb d c0 = false | _ => True end)
    [IHeight (fz (-3)); IDisplay (Ok (fz 30)) plain; IWith (Ok (fz 30)) (fz 7) None true] /\
  p_height (i_path (irun two_apertures 100 (fun x => x)
    [IHeight (fz (-3)); IDisplay (Ok (fz 30)) plain; IWith (Ok (fz 30)) (fz 7) None true])) = fz 7.
Proof. split; [reflexivity|]. split; [repeat constructor|]. vm_compute. reflexivity. Qed.
