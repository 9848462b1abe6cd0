(** The rays of the regular generators one by one: Ray.fan, Ray.fanGroup (ray.py 70-178), UniformRays and LampRays
    (rays.py 560-923). *)
From Coq Require Import Reals Lra Lia List Bool String ZArith.
From Verif Require Import Base Nums Optics Group Spec TraceProofs RayProofs RaysModel RaysMore MiscProofs SourceRegular
  ObjectFanProofs.
Import ListNotations.
Open Scope list_scope.
Open Scope R_scope.

Lemma delta_fin a b n : (1 <= n)%Z -> exists d, @fan_delta XR _ (Fin a) (Fin b) n = Ok (Fin d) /\
  forall i, (0 <= i < n)%Z -> a + IZR i * d = spaced a b n i.
Proof.
  intros Hn. destruct (Z.eq_dec n 1) as [->|N1].
  - exists 0. split; [apply fan_delta_one|]. intros i Hi. replace i with 0%Z by lia. unfold spaced. lra.
  - exists ((b - a) / IZR (n - 1)). split; [apply fan_delta_ok; lia|]. intros; reflexivity.
Qed.
Lemma fan_even y a b n : (1 <= n)%Z ->
  exists l, @fan XR _ (Fin y) (Fin a) (Fin b) n = Ok l /\ Z.of_nat (List.length l) = n /\
    forall i, (0 <= i < n)%Z -> nth_error l (Z.to_nat i) = Some (Ray_new (Fin y) (Fin (spaced a b n i))).
Proof.
  intros Hn. destruct (delta_fin a b n Hn) as (d & E & K). unfold fan. rewrite E. cbn [bind].
  eexists. split; [reflexivity|]. split.
  - rewrite map_length. pose proof (zrange_length n ltac:(lia)). lia.
  - intros i Hi. rewrite nth_error_map, zrange_nth by lia. cbn [option_map]. rewrite <- K by lia. reflexivity.
Qed.
(** the grid of [m] heights and [n] angles, height by height *)
Definition grid (y1 y2 a b : R) (m n : Z) (l : list (@ray XR)) : Prop :=
  Z.of_nat (List.length l) = (m * n)%Z /\
  forall i j, (0 <= i < m)%Z -> (0 <= j < n)%Z ->
    nth_error l (Z.to_nat (i * n + j)) = Some (Ray_new (Fin (spaced y1 y2 m i)) (Fin (spaced a b n j))).
Lemma grid_flat y1 y2 a b m n hs ths : (1 <= m)%Z -> (1 <= n)%Z ->
  Z.of_nat (List.length hs) = m -> Z.of_nat (List.length ths) = n ->
  (forall i, (0 <= i < m)%Z -> nth_error hs (Z.to_nat i) = Some (Fin (spaced y1 y2 m i))) ->
  (forall j, (0 <= j < n)%Z -> nth_error ths (Z.to_nat j) = Some (Fin (spaced a b n j))) ->
  grid y1 y2 a b m n (flat_map (fun y => map (fun th => Ray_new y th) ths) hs).
Proof.
  intros Hm Hn Lh Lt Kh Kt. split.
  - rewrite (flat_map_length _ (List.length ths)) by (intros; apply map_length). rewrite Nat2Z.inj_mul, Lh, Lt. reflexivity.
  - intros i j Hi Hj. replace (Z.to_nat (i * n + j)) with (Z.to_nat i * List.length ths + Z.to_nat j)%nat.
    + apply (nth_grid (fun y th => Ray_new y th)); auto.
    + rewrite Z2Nat.inj_add, Z2Nat.inj_mul by nia. rewrite <- Lt. rewrite Nat2Z.id. reflexivity.
Qed.
Lemma spaced_list a b n : (2 <= n)%Z -> Z.of_nat (List.length (map (fun i => @Fin (spaced a b n i)) (zrange n))) = n /\
  forall i, (0 <= i < n)%Z -> nth_error (map (fun i => Fin (spaced a b n i)) (zrange n)) (Z.to_nat i) = Some (Fin (spaced a b n i)).
Proof.
  intros Hn. split.
  - rewrite map_length. pose proof (zrange_length n ltac:(lia)). lia.
  - intros i Hi. rewrite nth_error_map, zrange_nth by lia. reflexivity.
Qed.
Lemma fanGroup_even y1 y2 m a b n : (1 <= m)%Z -> (1 <= n)%Z ->
  exists l, @fanGroup XR _ (Fin y1) (Fin y2) m (Fin a) (Fin b) n = Ok l /\ grid y1 y2 a b m n l.
Proof.
  intros Hm Hn. destruct (delta_fin a b n Hn) as (da & Ea & Ka). destruct (delta_fin y1 y2 m Hm) as (dy & Ey & Ky).
  unfold fanGroup. rewrite Ea, Ey. cbn [bind]. eexists. split; [reflexivity|].
  pose proof (zrange_length m ltac:(lia)) as Lm. pose proof (zrange_length n ltac:(lia)) as Ln. split.
  - rewrite (flat_map_length _ (List.length (zrange n))) by (intros; apply map_length).
    rewrite Nat2Z.inj_mul. lia.
  - intros i j Hi Hj. replace (Z.to_nat (i * n + j)) with (Z.to_nat i * List.length (zrange n) + Z.to_nat j)%nat.
    + rewrite (nth_grid (fun j i => Ray_new (nadd (Fin y1) (nmul (nofZ j) (Fin dy))) (nadd (Fin a) (nmul (nofZ i) (Fin da)))) _ _ _ _ i j)
        by (apply zrange_nth; lia).
      rewrite <- Ka, <- Ky by lia. reflexivity.
    + rewrite Z2Nat.inj_add, Z2Nat.inj_mul by nia. f_equal. f_equal. lia.
Qed.
Lemma uniform_even y1 y2 a b m n : (2 <= m)%Z -> (2 <= n)%Z ->
  exists l, @UniformRays XR _ (Fin y2) (Some (Fin y1)) (Fin b) (Some (Fin a)) m n = Ok l /\ grid y1 y2 a b m n l.
Proof.
  intros Hm Hn. unfold UniformRays. destruct (Z.eqb_spec m 1) as [->|_]; [lia|].
  rewrite !linspace_spaced by lia. cbn [bind].
  destruct (spaced_list y1 y2 m Hm) as [L1 K1]. destruct (spaced_list a b n Hn) as [L2 K2].
  exists (flat_map (fun y => map (fun th => Ray_new y th) (map (fun i => Fin (spaced a b n i)) (zrange n)))
           (map (fun i => Fin (spaced y1 y2 m i)) (zrange m))).
  split; [|apply grid_flat; auto; lia].
  destruct (map (fun i => Fin (spaced y1 y2 m i)) (zrange m)); [cbn in L1; lia|reflexivity].
Qed.
(** without lower limits the ranges are symmetric *)
Lemma uniform_default y b m n : @UniformRays XR _ (Fin y) None (Fin b) None m n =
  UniformRays (Fin y) (Some (Fin (- y))) (Fin b) (Some (Fin (- b))) m n.
Proof. reflexivity. Qed.
Lemma lamp_even d a m n : (2 <= m)%Z -> (2 <= n)%Z ->
  exists l, @LampRays XR _ (Fin d) (Fin a) m n = Ok l /\ grid (- (d / 2)) (d / 2) (- a) a m n l.
Proof.
  intros Hm Hn. unfold LampRays. rewrite half_fin. change (nopp (Fin d)) with (Fin (- d)). rewrite half_fin.
  change (nopp (Fin a)) with (Fin (- a)). rewrite !linspace_spaced by lia. cbn [bind].
  replace (- d / 2) with (- (d / 2)) by lra.
  destruct (spaced_list (- (d / 2)) (d / 2) m Hm) as [L1 K1]. destruct (spaced_list (- a) a n Hn) as [L2 K2].
  eexists. split; [reflexivity|]. apply grid_flat; auto; lia.
Qed.
Lemma list_ext {A} (l : list A) : forall l', (forall k, nth_error l k = nth_error l' k) -> l = l'.
Proof.
  induction l as [|x l IH]; intros [|y l'] H; [reflexivity|discriminate (H 0%nat)|discriminate (H 0%nat)|].
  pose proof (H 0%nat) as H0. injection H0 as ->. f_equal. apply IH. intros k. exact (H (S k)).
Qed.
(** such a list is known from its description *)
Lemma grid_unique y1 y2 a b m n l l' : (1 <= m)%Z -> (1 <= n)%Z -> grid y1 y2 a b m n l -> grid y1 y2 a b m n l' -> l = l'.
Proof.
  intros Hm Hn [L K] [L' K']. apply list_ext. intros k.
  destruct (Nat.lt_ge_cases k (List.length l)) as [H|H].
  - assert (exists i j, (0 <= i < m)%Z /\ (0 <= j < n)%Z /\ k = Z.to_nat (i * n + j)) as (i & j & Hi & Hj & ->).
    { exists (Z.of_nat k / n)%Z, (Z.of_nat k mod n)%Z. assert (0 < n)%Z as Hn0 by lia.
      pose proof (Z.mod_pos_bound (Z.of_nat k) n Hn0) as B. pose proof (Z.div_mod (Z.of_nat k) n ltac:(lia)) as E.
      split; [|split; [exact B|]].
      - split; [apply Z.div_pos; lia|]. apply Z.div_lt_upper_bound; lia.
      - rewrite <- (Nat2Z.id k) at 1. f_equal. lia. }
    now rewrite K, K' by assumption.
  - assert (List.length l' = List.length l) as EL by lia.
    rewrite (proj2 (nth_error_None l k)) by lia. rewrite (proj2 (nth_error_None l' k)) by lia. reflexivity.
Qed.
Lemma generators_agree y1 y2 a b m n : (2 <= m)%Z -> (2 <= n)%Z ->
  @UniformRays XR _ (Fin y2) (Some (Fin y1)) (Fin b) (Some (Fin a)) m n = fanGroup (Fin y1) (Fin y2) m (Fin a) (Fin b) n.
Proof.
  intros Hm Hn. destruct (uniform_even y1 y2 a b m n Hm Hn) as (l & -> & G).
  destruct (fanGroup_even y1 y2 m a b n ltac:(lia) ltac:(lia)) as (l' & -> & G').
  f_equal. eapply grid_unique; [| |exact G|exact G']; lia.
Qed.
