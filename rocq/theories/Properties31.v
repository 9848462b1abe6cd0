(** Property theorems: [ray in rays] (C49), which groups have a finite aperture (C62), the arrow of a thin lens (C85) and
    the outline of an axicon (C83). *)
From Coq Require Import Reals Lra List Bool String ZArith Lia.
From Verif Require Import Base Nums Optics Group RaysModel TraceProofs Drawing Figures FigureProofs FigurePlace TightProofs.
Import ListNotations.
Open Scope string_scope.
Open Scope list_scope.
Open Scope R_scope.
Local Notation pt a b := (Fin a, Fin b).

(** ** C49 *)
(** [ray in rays] looks at every ray, whatever was iterated before: true exactly when some ray has that height and angle;
    the list of rays stays the same *)
Theorem C49_membership : forall (x : @ray XR) s y th, ry x = Fin y -> rth x = Fin th ->
  (fst (member x s) = true <-> exists r, In r (s_rays s) /\ ry r = Fin y /\ rth r = Fin th) /\
  s_rays (snd (member x s)) = s_rays s.
Proof. exact member_real. Qed.
Print Assumptions C49_membership.
(** the last of three rays, after another search went through all of them *)
Example C49_membership_example :
  let r y := @mkRay XR (Fin y) (Fin 0) (Fin 0) false PInf None in
  let s0 := stats_new [r 1; r 2; r 3] in
  let s := snd (member (r 4) s0) in
  fst (member (r 3) s) = true /\ fst (member (r 4) s) = false.
Proof.
  cbv zeta. assert (M : forall y (s : @stats XR), s_rays (snd (member (mkRay (Fin y) (Fin 0) (Fin 0) false PInf None) s)) = s_rays s).
  { intros y s. now apply (C49_membership _ _ y 0). }
  split.
  - eapply C49_membership; [reflexivity..|]. rewrite (M _ _).
    eexists. split; [right; right; left; reflexivity|split; reflexivity].
  - apply not_true_is_false. intros H. eapply C49_membership in H; [|reflexivity..]. destruct H as (r & Hr & Hy & _).
    rewrite (M _ _) in Hr. cbn in Hr.
    destruct Hr as [<-|[<-|[<-|[]]]]; cbn in Hy; injection Hy; lra.
Qed.

(** ** C62 *)
(** a system has a finite aperture exactly when one of its elements, however deeply grouped, has one *)
Theorem C62_finite : forall e : @elem XR, hasFiniteApertureDiameter e = true <->
  exists k m, In (k, m) (leaves e) /\ mdiam m <> PInf.
Proof. exact finite_real. Qed.
Print Assumptions C62_finite.
(** a finite aperture two groups down, behind an infinite one *)
Example C62_finite_example :
  let m d := @mkMat XR (Fin 1) (Fin 0) (Fin 0) (Fin 1) (Fin 0) None None (Fin 1) (Fin 1) d PInf false "" in
  hasFiniteApertureDiameter (Group GGroup (m PInf) [Leaf KMatrix (m PInf); Group GGroup (m PInf) [Leaf KAperture (m (Fin 2))]]) = true /\
  hasFiniteApertureDiameter (Group GGroup (m (Fin 3)) [Leaf KMatrix (m PInf)]) = false.
Proof. split; reflexivity. Qed.

(** ** C85 *)
(** the arrow of a lens of diameter [2 h]: a shaft over the diameter, heads at both ends that point outwards, mirror images
    of each other, and nothing else *)
Theorem C85_lens_arrow : forall h, 0 < h -> let c := DoubleThinArrow (Fin (h * 2)) in
  In [pt 0 (- h); pt 0 h] (co_curves c) /\
  (exists w y, 0 < w /\ 0 < y < h /\
     (forall s, s = 1 \/ s = -1 -> In [pt (- w) (s * y); pt 0 (s * h)] (co_curves c) /\ In [pt 0 (s * h); pt w (s * y)] (co_curves c)) /\
     forall p, In p (xy c) -> exists u v, p = pt u v /\ ((u = 0 /\ (v = h \/ v = - h)) \/ ((u = w \/ u = - w) /\ (v = y \/ v = - y)))).
Proof. exact lens_arrow. Qed.
Print Assumptions C85_lens_arrow.
Example C85_lens_arrow_example : List.length (co_curves (DoubleThinArrow (Fin (25 * 2)))) = 5%nat /\ 0 < 25.
Proof. split; [reflexivity|lra]. Qed.

(** ** C83 *)
(** an axicon is drawn as a triangle over its aperture (8 when infinite), flat at its position and with the tip at
    [- tan alpha * h], the other way round when it is flipped; [tan] is the tangent of the standard library of Python *)
Theorem C83_axicon : forall tan n alpha (m : @mat XR) h x ms ta,
  ((exists d, mdiam m = Fin d /\ h = d / 2) \/ (mdiam m = PInf /\ h = 4)) -> 0 < h -> tan (Fin alpha) = Fin ta ->
  let t := - (ta * h) in
  exists g outline bars, GraphicOf tan (LLeaf (KAxicon n (Fin alpha)) m) (Fin x) ms = Ok (Some g) /\
    gr_comp g = [outline; bars] /\ gr_x g = Fin x /\ halfHeight g = Ok (Fin h) /\
    triangle (if mflip m then t else 0) (if mflip m then 0 else t) h outline.
Proof. exact axicon_drawn. Qed.
Print Assumptions C83_axicon.
Example C83_axicon_example :
  let m := @mkMat XR (Fin 1) (Fin 0) (Fin 0) (Fin 1) (Fin 0) None None (Fin 1) (Fin 1) (Fin 25) PInf true "" in
  let tan (a : XR) := match a with Fin r => Fin (Rtrigo1.tan r) | _ => NaN end in
  (exists d, mdiam m = Fin d /\ 25 / 2 = d / 2) /\ 0 < 25 / 2 /\ tan (Fin (PI / 4)) = Fin 1.
Proof. cbv zeta. split; [exists 25; split; reflexivity|]. split; [lra|]. now rewrite tan_PI4. Qed.
