(** Proofs about the rays of the object that display() draws (C133). *)
From Coq Require Import ZArith List Bool String Lia Reals Lra.
From Verif Require Import Base Nums Optics Imaging RaysModel RaysMore RayProofs MiscProofs SourceRegular Display DisplayProofs Range RangeProofs
  ObjectFan.
Import ListNotations.
Open Scope list_scope.

(** the last value that was set, or [d] *)
Definition last_set {A O} (pick : O -> option A) (d : A) (os : list O) : A :=
  fold_left (fun a o => match pick o with Some v => v | None => a end) os d.

Section Generic.
Context {T : Type} {N : Num T}.
Variables (e : @elem T) (fuel : nat) (pytan : T -> T).
Local Notation istep := (istep e fuel pytan).
Local Notation irun := (irun e fuel pytan).

Definition sets_angle (o : @iop T) : option (option T) := match o with IAngle a => Some a | _ => None end.
Definition sets_fans (o : @iop T) : option Z := match o with IFans n => Some n | _ => None end.
Definition sets_rays (o : @iop T) : option Z := match o with IRays n => Some n | _ => None end.

Lemma design_fan (p p' : @path T) name kw : design p name kw = Ok p' -> p_fan p' = p_fan p /\ p_height p' = p_height p.
Proof.
  unfold design. destruct (p_design p); [|discriminate].
  destruct (fig_design _ _ _); [|discriminate]. cbn [bind]. intros H. injection H as <-. auto.
Qed.
Lemma display_fan dr (p : @path T) a : p_fan (snd (fst (fst (display e fuel dr pytan p a)))) = p_fan p.
Proof.
  destruct (display e fuel dr pytan p a) as [[[x p'] l] d] eqn:E. cbn [fst snd].
  destruct (display_facts e fuel dr pytan p a x p' l d E) as (q & (_ & _ & F & _) & _ & K).
  destruct d; [destruct K as (_ & _ & _ & -> & _)|destruct K as (_ & -> & _)]; exact F.
Qed.
Lemma with_fan dr (p : @path T) d fan rm :
  p_fan (snd (fst (fst (displayWithObject e fuel dr pytan p d fan rm)))) = p_fan p.
Proof.
  unfold displayWithObject. destruct (default_fan _ _ _ _); [|reflexivity]. now rewrite display_fan.
Qed.

Theorem settings_kept os : let q := irun os in
  p_fan (i_path q) = last_set sets_angle None os /\
  i_fans q = last_set sets_fans 3%Z os /\ i_rays q = last_set sets_rays 3%Z os.
Proof.
  cbv zeta. induction os as [|o os IH] using rev_ind; [cbn; auto|].
  unfold irun, last_set in *. rewrite !fold_left_app. cbn [fold_left].
  set (q := fold_left istep os ipath_new) in *. destruct IH as (A & B & C). rewrite <- A, <- B, <- C.
  destruct o; cbn [istep sets_angle sets_fans sets_rays put_path i_path i_fans i_rays p_fan]; auto.
  - destruct (design (i_path q) name kw) as [p|] eqn:E; [|auto].
    cbn [put_path i_path i_fans i_rays]. destruct (design_fan _ _ _ _ E) as [-> _]. auto.
  - unfold set_objectHeight. destruct (nltb h c0); auto.
  - rewrite display_fan. auto.
  - rewrite with_fan. auto.
Qed.

(** ** The object height is never negative *)
Definition fine (h : T) : Prop := nltb h c0 = false.
Lemma set_fine (p p' : @path T) h : set_objectHeight p h = Ok p' -> fine (p_height p').
Proof. unfold set_objectHeight, fine. destruct (nltb h c0) eqn:E; [discriminate|]. intros H. injection H as <-. exact E. Qed.
Lemma apply_fine (p : @path T) : fine (p_height p) -> fine (p_height (snd (applyDesign e fuel p))).
Proof.
  intros F. unfold applyDesign.
  match goal with |- fine (p_height (snd (match ?L with _ => _ end))) => set (lim := L) end.
  assert (fine (p_height (snd lim))) as G.
  { unfold lim. destruct (flag p _); [|exact F]. destruct (fieldOfView fuel e) as [fov|]; [|exact F].
    destruct (negb (neqb fov ninf)).
    - destruct (set_objectHeight p fov) as [p'|] eqn:E; [|exact F]. apply set_fine in E.
      destruct (imageSize fuel e false (p_height p')); exact E.
    - destruct (imageSize fuel e false _); exact F. }
  destruct lim as [[x|] q]; cbn [snd] in G |- *; [exact G|].
  destruct (flag q _); [|exact G]. destruct (apertureStop e) as [s|]; [|exact G].
  destruct (st_z s); [|exact G]. destruct (principalRay fuel e) as [[r|]|]; exact G.
Qed.
Lemma display_fine dr (p : @path T) a : fine (p_height p) ->
  fine (p_height (snd (fst (fst (display e fuel dr pytan p a))))).
Proof.
  intros F. unfold display.
  set (p1 := match a_limit a with Some b => path_param p LimitObjectToFieldOfView (SBool b) | None => p end).
  set (p2 := match a_only a with Some b => path_param p1 OnlyPrincipalAndAxialRays (SBool b) | None => p1 end).
  assert (fine (p_height (path_param p2 RemoveBlockedRaysCompletely (SBool (a_remove a))))) as F2.
  { unfold p2, p1. destruct (a_limit a), (a_only a); exact F. }
  apply apply_fine in F2. destruct (applyDesign e fuel _) as [[x|] q]; cbn [snd fst] in F2 |- *; [exact F2|].
  match goal with |- context [path_param q ShowFOV ?v] => set (v0 := v) end.
  set (l := match a_rays a with Some r => _ | None => _ end).
  set (q1 := if match l with [] => true | _ => false end then path_param q ShowFOV v0 else q).
  assert (fine (p_height q1)) as F3 by (unfold q1; destruct l; exact F2).
  match goal with |- fine (p_height (snd (fst (fst (match ?M with _ => _ end))))) => destruct M as [u|] end;
    [|exact F3].
  destruct (existsb is_obj l).
  - destruct (special_rays e fuel); [|exact F3]. cbn [fst snd p_height].
    destruct (same_flags (path_param q1 ShowObjectImage (SBool true)) l) as (_ & -> & _). exact F3.
  - destruct (default_fan e dr pytan q1); cbn [bind]; [|exact F3].
    destruct (special_rays e fuel); [|exact F3]. cbn [fst snd p_height].
    destruct (same_flags q1 (l ++ [Obj (p_height q1)])) as (_ & -> & _). exact F3.
Qed.
Theorem height_fine os : fine (nofZ 10) ->
  Forall (fun o => match o with IWith _ d _ _ => fine d | _ => True end) os -> fine (p_height (i_path (irun os))).
Proof.
  intros F10. induction os as [|o os IH] using rev_ind; [intros _; exact F10|].
  rewrite Forall_app. intros [H K]. specialize (IH H). inversion_clear K as [|? ? K0 _].
  unfold irun in *. rewrite fold_left_app. cbn [fold_left].
  set (q := fold_left istep os ipath_new) in *.
  destruct o; cbn [istep put_path i_path p_height]; auto.
  - destruct (design (i_path q) name kw) as [p|] eqn:E; [|exact IH].
    cbn [put_path i_path]. destruct (design_fan _ _ _ _ E) as [_ ->]. exact IH.
  - destruct (set_objectHeight (i_path q) h) as [p|] eqn:E; [|exact IH]. exact (set_fine _ _ _ E).
  - now apply display_fine.
  - unfold displayWithObject. destruct (default_fan _ _ _ _); [|exact K0]. apply display_fine. exact K0.
Qed.
End Generic.

Open Scope R_scope.
(** ** Where the rays are *)
Lemma nth_grid {A B C} (f : A -> B -> C) (l : list A) (k : list B) i j a b :
  nth_error l i = Some a -> nth_error k j = Some b ->
  nth_error (flat_map (fun x => map (f x) k) l) (i * List.length k + j) = Some (f a b).
Proof.
  revert i. induction l as [|x l IH]; intros [|i] Ha Hb; try discriminate; cbn [flat_map].
  - injection Ha as ->. cbn [Nat.mul Nat.add]. rewrite nth_error_app1.
    + now apply map_nth_error.
    + rewrite map_length. apply nth_error_Some. congruence.
  - cbn [nth_error] in Ha. rewrite nth_error_app2 by (rewrite map_length; lia).
    rewrite map_length. replace (S i * List.length k + j - List.length k)%nat with (i * List.length k + j)%nat by lia.
    now apply IH.
Qed.
Lemma zrange_nth n i : (0 <= i < n)%Z -> nth_error (zrange n) (Z.to_nat i) = Some i.
Proof.
  intros H. unfold zrange. rewrite nth_error_map.
  rewrite (nth_error_nth' _ 0%nat) by (rewrite seq_length; lia).
  rewrite seq_nth by lia. cbn [option_map]. f_equal. lia.
Qed.

(** the i-th of n points on an object of height h, the j-th of m angles of a fan of half angle a *)
Definition point (h : R) (n i : Z) : R := - (h / 2) + IZR i * (h / IZR (n - 1)).
Definition slope (a : R) (m j : Z) : R := - a + IZR j * (2 * a / IZR (m - 1)).

Lemma object_rays h a n m : (2 <= m)%Z -> (1 <= n)%Z ->
  exists l, @ObjectRays XR _ (Fin h) (Fin a) n m = Ok l /\ Z.of_nat (List.length l) = (n * m)%Z /\
    forall i j, (0 <= i < n)%Z -> (0 <= j < m)%Z ->
      nth_error l (Z.to_nat (i * m + j)) =
        Some (Ray_new (Fin (if (n =? 1)%Z then 0 else point h n i)) (Fin (slope a m j))).
Proof.
  intros Hm Hn. unfold ObjectRays, UniformRays.
  rewrite half_fin. change (nopp (Fin h)) with (Fin (- h)). rewrite half_fin.
  change (nopp (Fin a)) with (Fin (- a)). rewrite (linspace_spaced (- a) a m Hm).
  assert (forall hs y, Z.of_nat (List.length hs) = n -> (forall i, (0 <= i < n)%Z -> nth_error hs (Z.to_nat i) = Some (y i)) ->
    exists l, (match hs with
      | [] => Ok []
      | _ => ths <- Ok (map (fun i => Fin (spaced (- a) a m i)) (zrange m));;
             Ok (flat_map (fun y => map (fun th => Ray_new y th) ths) hs)
      end) = Ok l /\ Z.of_nat (List.length l) = (n * m)%Z /\
    forall i j, (0 <= i < n)%Z -> (0 <= j < m)%Z ->
      nth_error l (Z.to_nat (i * m + j)) = Some (@Ray_new XR _ (y i) (Fin (slope a m j)))) as K.
  { intros hs y L Hy. set (ths := map _ (zrange m)).
    assert (Z.of_nat (List.length ths) = m) as Lt.
    { unfold ths. rewrite map_length. pose proof (zrange_length m ltac:(lia)). lia. }
    exists (flat_map (fun y => map (fun th => Ray_new y th) ths) hs).
    split; [destruct hs; [cbn in L; lia|reflexivity]|]. split.
    - rewrite (flat_map_length _ (List.length ths)) by (intros; apply map_length).
      rewrite Nat2Z.inj_mul, L, Lt. reflexivity.
    - intros i j Hi Hj.
      replace (Z.to_nat (i * m + j)) with (Z.to_nat i * List.length ths + Z.to_nat j)%nat.
      + apply (nth_grid (fun y th => Ray_new y th)); [now apply Hy|].
        unfold ths. rewrite nth_error_map, zrange_nth by lia. cbn [option_map]. f_equal. f_equal.
        unfold spaced, slope. f_equal. f_equal. f_equal. ring.
      + rewrite Z2Nat.inj_add, Z2Nat.inj_mul by nia. rewrite <- Lt. rewrite Nat2Z.id. reflexivity. }
  destruct (Z.eqb_spec n 1) as [->|].
  - cbn [bind]. apply (K [c0] (fun _ => Fin 0)); [reflexivity|].
    intros i Hi. replace i with 0%Z by lia. reflexivity.
  - rewrite linspace_spaced by lia. cbn [bind].
    apply (K _ (fun i => Fin (point h n i))).
    + rewrite map_length. pose proof (zrange_length n ltac:(lia)). lia.
    + intros i Hi. rewrite nth_error_map, zrange_nth by lia. cbn [option_map]. f_equal. f_equal.
      unfold spaced, point. replace (- h / 2) with (- (h / 2)) by lra. f_equal. f_equal. f_equal. lra.
Qed.

Lemma default_fan_set {T} {N : Num T} (e : @elem T) dr tan p a : p_fan p = Some a -> default_fan e dr tan p = Ok a.
Proof. unfold default_fan. now intros ->. Qed.

Theorem object_drawn (e : @elem XR) pytan dr (q : @ipath XR) h a : p_height (i_path q) = Fin h ->
  default_fan e dr pytan (i_path q) = Ok (Fin a) -> (1 <= i_fans q)%Z -> (2 <= i_rays q)%Z ->
  exists l, default_object e pytan dr q = Ok l /\ Z.of_nat (List.length l) = (i_fans q * i_rays q)%Z /\
    forall i j, (0 <= i < i_fans q)%Z -> (0 <= j < i_rays q)%Z ->
      nth_error l (Z.to_nat (i * i_rays q + j)) =
        Some (Ray_new (Fin (if (i_fans q =? 1)%Z then 0 else point h (i_fans q) i)) (Fin (slope a (i_rays q) j))).
Proof.
  intros Hh Ha Hn Hm. unfold default_object. rewrite Ha, Hh. cbn [bind]. now apply object_rays.
Qed.

Theorem fan_chosen (e : @elem XR) pytan p r L : p_fan p = None -> mL (emat e) = Fin L -> L <> 0 ->
  default_fan e (Ok (Fin r)) pytan p = Ok (pytan (Fin (r / 10 / L))).
Proof.
  intros F HL NL. unfold default_fan. rewrite F, HL. cbn [bind].
  change (@c2 XR _) with (Fin 2). change (@nofZ XR _ 5) with (Fin 5).
  rewrite pdiv_fin by lra. cbn [bind]. rewrite pdiv_fin by exact NL. cbn [bind]. rewrite pdiv_fin by lra.
  cbn [bind]. do 3 f_equal. field. exact NL.
Qed.

(** the half angle of the fans: the one that was set, else the tangent of a tenth of the range over the length *)
Definition half_angle (e : @elem XR) (pytan : XR -> XR) (drange : res XR) (fan : option XR) (a : R) : Prop :=
  match fan with
  | Some v => v = Fin a
  | None => exists r L, drange = Ok (Fin r) /\ mL (emat e) = Fin L /\ L <> 0 /\ pytan (Fin (r / 10 / L)) = Fin a
  end.
Theorem object_drawn_angle (e : @elem XR) pytan dr (q : @ipath XR) h a : p_height (i_path q) = Fin h ->
  half_angle e pytan dr (p_fan (i_path q)) a -> (1 <= i_fans q)%Z -> (2 <= i_rays q)%Z ->
  exists l, default_object e pytan dr q = Ok l /\ Z.of_nat (List.length l) = (i_fans q * i_rays q)%Z /\
    forall i j, (0 <= i < i_fans q)%Z -> (0 <= j < i_rays q)%Z ->
      nth_error l (Z.to_nat (i * i_rays q + j)) =
        Some (Ray_new (Fin (if (i_fans q =? 1)%Z then 0 else point h (i_fans q) i)) (Fin (slope a (i_rays q) j))).
Proof.
  intros Hh Ha. apply object_drawn; [exact Hh|].
  unfold half_angle in Ha. destruct (p_fan (i_path q)) eqn:F.
  - subst. now apply default_fan_set.
  - destruct Ha as (r & L & -> & HL & NL & Ht). rewrite (fan_chosen e pytan _ r L) by assumption. now rewrite Ht.
Qed.

(** np.tan in exact arithmetic *)
Definition xtan (x : XR) : XR := match x with Fin x => Fin (tan x) | _ => NaN end.

Lemma tan_bound x : 0 <= x <= 1 -> 0 <= tan x <= 2 * x.
Proof.
  intros H. pose proof PI_RGT_0. pose proof PI2_3_2 as P3.
  assert (1 / 2 <= cos x) as C.
  { rewrite <- cos_PI3. apply cos_decr_1; lra. }
  assert (0 <= sin x) as S by (apply sin_ge_0; lra).
  assert (sin x <= x) as S'. { destruct (Req_dec x 0) as [->|]; [rewrite sin_0; lra|]. left. apply sin_lt_x. lra. }
  unfold tan. split.
  - apply Rmult_le_pos; [exact S|]. left. apply Rinv_0_lt_compat. lra.
  - apply Rmult_le_reg_r with (cos x); [lra|]. unfold Rdiv. rewrite Rmult_assoc, Rinv_l by lra. nra.
Qed.

Lemma point_bound h n i : 0 <= h -> (2 <= n)%Z -> (0 <= i < n)%Z -> - (h / 2) <= point h n i <= h / 2.
Proof.
  intros Hh Hn Hi. pose proof (spaced_bounds (- (h / 2)) (h / 2) n i Hn Hi ltac:(lra)) as B.
  unfold spaced in B. unfold point. replace (h / 2 - - (h / 2)) with h in B by lra. exact B.
Qed.
Lemma slope_bound a m j : 0 <= a -> (2 <= m)%Z -> (0 <= j < m)%Z -> - a <= slope a m j <= a.
Proof.
  intros Ha Hm Hj. pose proof (spaced_bounds (- a) a m j Hm Hj ltac:(lra)) as B.
  unfold spaced in B. unfold slope. replace (a - - a) with (2 * a) in B by lra. exact B.
Qed.

Theorem fan_on_figure (e : @elem XR) (q : @ipath XR) h r L :
  p_fan (i_path q) = None -> p_height (i_path q) = Fin h -> (1 <= i_fans q)%Z -> (2 <= i_rays q)%Z ->
  mL (emat e) = Fin L -> 0 <= h -> h <= r -> 0 < r -> r <= 10 * L ->
  exists l lo hi, default_object e xtan (Ok (Fin r)) q = Ok l /\ ylim (Fin r) = (Fin lo, Fin hi) /\
    forall x, In x l -> exists y th, x = Ray_new (Fin y) (Fin th) /\ forall z, 0 <= z <= L -> lo < y + z * th < hi.
Proof.
  intros F Hh Hn Hm HL H0 Hr R0 H10. assert (0 < L) as L0 by lra.
  assert (0 <= r / 10 / L <= 1) as X.
  { assert (0 < / L) by now apply Rinv_0_lt_compat. split.
    - apply Rmult_le_pos; lra.
    - apply Rmult_le_reg_r with L; [exact L0|]. unfold Rdiv. rewrite !Rmult_assoc, Rinv_l by lra. lra. }
  pose proof (tan_bound _ X) as [A0 A1]. set (a := tan (r / 10 / L)) in *.
  assert (L * a <= r / 5) as LA.
  { apply Rle_trans with (L * (2 * (r / 10 / L))); [apply Rmult_le_compat_l; lra|].
    right. field. lra. }
  pose proof (fan_chosen e xtan (i_path q) r L F HL ltac:(lra)) as E.
  destruct (object_drawn e xtan (Ok (Fin r)) q h a Hh E Hn Hm) as (l & El & Len & Nth).
  exists l, (- (3 / 4 * r)), (3 / 4 * r). split; [exact El|]. split; [apply ylim_fin|].
  intros x Hx. destruct (In_nth_error _ _ Hx) as [k Hk].
  assert (k < List.length l)%nat as Hk' by (apply nth_error_Some; congruence).
  set (m := i_rays q) in *. set (n := i_fans q) in *.
  set (i := (Z.of_nat k / m)%Z). set (j := (Z.of_nat k mod m)%Z).
  assert (0 <= j < m)%Z as Hj by (apply Z.mod_pos_bound; lia).
  assert (Z.of_nat k = i * m + j)%Z as Ek by (unfold i, j; rewrite Z.mul_comm; apply Z.div_mod; lia).
  assert (0 <= i < n)%Z as Hi by nia.
  specialize (Nth i j Hi Hj). rewrite <- Ek, Nat2Z.id, Hk in Nth. injection Nth as ->.
  do 2 eexists. split; [reflexivity|]. intros z Hz.
  assert (- (h / 2) <= (if (n =? 1)%Z then 0 else point h n i) <= h / 2) as PB.
  { destruct (Z.eqb_spec n 1); [lra|]. apply point_bound; lia || lra. }
  pose proof (slope_bound a m j A0 Hm Hj) as SB.
  assert (- (r / 5) <= z * slope a m j <= r / 5) as ZB.
  { assert (z * a <= L * a) by (apply Rmult_le_compat_r; lra).
    assert (z * slope a m j <= z * a) by (apply Rmult_le_compat_l; lra).
    assert (z * (- a) <= z * slope a m j) by (apply Rmult_le_compat_l; lra). lra. }
  lra.
Qed.
