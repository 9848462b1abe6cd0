(** Proofs about LambertianRays (C88). *)
From Coq Require Import ZArith List Bool Lia Reals Lra.
From Verif Require Import Base Nums Optics RaysModel RaysMore Sources MiscProofs SourceProofs.
Import ListNotations.
Open Scope list_scope.
Open Scope R_scope.

(** the i-th of n values from a to b, both included *)
Definition spaced (a b : R) (n i : Z) : R := a + IZR i * ((b - a) / IZR (n - 1)).

Lemma linspace_spaced a b n : (2 <= n)%Z ->
  @linspace XR _ (Fin a) (Fin b) n = Ok (map (fun i => Fin (spaced a b n i)) (zrange n)).
Proof.
  intros Hn. unfold linspace. destruct (Z.ltb_spec n 0); [lia|].
  destruct (Z.eqb_spec n 1); [lia|].
  assert (0 < IZR (n - 1)) as P by (apply IZR_lt; lia).
  assert (ndiv (nsub (Fin b) (Fin a)) (nofZ (n - 1)) = Fin ((b - a) / IZR (n - 1))) as ED.
  { cbn -[IZR]. destruct (Req_EM_T (IZR (n - 1)) 0); [lra|]. reflexivity. }
  f_equal. apply map_ext_in. intros i Hi. rewrite ED. unfold spaced.
  destruct (Z.eqb_spec i (n - 1)) as [->|].
  - f_equal. field. lra.
  - change (Fin (IZR i * ((b - a) / IZR (n - 1)) + a) = Fin (a + IZR i * ((b - a) / IZR (n - 1)))).
    f_equal. lra.
Qed.

Lemma spaced_bounds a b n i : (2 <= n)%Z -> (0 <= i < n)%Z -> a <= b -> a <= spaced a b n i <= b.
Proof.
  intros Hn Hi Hab. unfold spaced. assert (0 < IZR (n - 1)) as P by (apply IZR_lt; lia).
  assert (0 <= IZR i) by (apply IZR_le; lia). assert (IZR i <= IZR (n - 1)) by (apply IZR_le; lia).
  assert (0 <= (b - a) / IZR (n - 1)) by (apply Rmult_le_pos; [lra|left; now apply Rinv_0_lt_compat]).
  assert (IZR (n - 1) * ((b - a) / IZR (n - 1)) = b - a) by (field; lra).
  assert (0 <= IZR i * ((b - a) / IZR (n - 1))) by (apply Rmult_le_pos; lra).
  assert (IZR i * ((b - a) / IZR (n - 1)) <= IZR (n - 1) * ((b - a) / IZR (n - 1)))
    by (apply Rmult_le_compat_r; lra). lra.
Qed.

Lemma spaced_mirror a n i : (2 <= n)%Z -> spaced (- a) a n (n - 1 - i) = - spaced (- a) a n i.
Proof.
  intros Hn. unfold spaced. assert (0 < IZR (n - 1)) as P by (apply IZR_lt; lia).
  rewrite (minus_IZR (n - 1) i). field. lra.
Qed.
Lemma spaced_first a b n : spaced a b n 0 = a.
Proof. unfold spaced. lra. Qed.
Lemma spaced_last a b n : (2 <= n)%Z -> spaced a b n (n - 1) = b.
Proof.
  intros Hn. unfold spaced. assert (0 < IZR (n - 1)) as P by (apply IZR_lt; lia). field. lra.
Qed.

Definition sumZ (l : list Z) : Z := fold_right Z.add 0%Z l.

Lemma flat_map_repeat_length {A B} (f : A -> B) l k :
  List.length (flat_map (fun x => repeat (f x) k) l) = (List.length l * k)%nat.
Proof.
  induction l as [|a l IH]; [reflexivity|]. cbn [flat_map List.length].
  rewrite app_length, repeat_length, IH. lia.
Qed.

Theorem lambertian_rays ylo yhi m n count :
  (2 <= m)%Z -> (2 <= n)%Z -> (0 <= count)%Z ->
  let angle := spaced (- (PI / 2)) (PI / 2) n in
  let height := spaced ylo yhi m in
  exists number : Z -> Z,
    (forall k, (0 <= k < n)%Z ->
       (0 <= number k)%Z /\ IZR (number k) <= IZR count * cos (angle k) < IZR (number k) + 1 /\
       number (n - 1 - k)%Z = number k) /\
    number 0%Z = 0%Z /\
    let rays := flat_map (fun k => flat_map (fun j =>
         repeat (Ray_new (Fin (height j)) (Fin (angle k))) (Z.to_nat (number k))) (zrange m)) (zrange n) in
    LambertianRays xcos xtrunc (Fin yhi) (Some (Fin ylo)) m n count = Ok rays /\
    Z.of_nat (List.length rays) = (m * sumZ (map number (zrange n)))%Z.
Proof.
  intros Hm Hn Hc angle height. pose proof PI_RGT_0 as P.
  exists (fun k => trunc (IZR count * cos (angle k))).
  assert (0 <= IZR count) as C by (apply IZR_le; lia).
  assert (forall k, (0 <= k < n)%Z -> 0 <= IZR count * cos (angle k)) as K.
  { intros k Hk. apply Rmult_le_pos; [lra|].
    destruct (spaced_bounds (- (PI / 2)) (PI / 2) n k Hn Hk) as [A B]; [lra|].
    fold angle in A, B. apply cos_ge_0; lra. }
  assert (forall k, (0 <= k < n)%Z -> (0 <= trunc (IZR count * cos (angle k)))%Z) as Z0.
  { intros k Hk. destruct (trunc_pos _ (K k Hk)) as [_ B]. pose proof (K k Hk).
    assert (IZR (-1) < IZR (trunc (IZR count * cos (angle k)))) as L by lra.
    apply lt_IZR in L. lia. }
  split; [|split].
  - intros k Hk. split; [now apply Z0|]. split; [now apply trunc_pos, K|].
    f_equal. f_equal. unfold angle. rewrite spaced_mirror by lia. apply cos_neg.
  - unfold angle. rewrite spaced_first, cos_neg, cos_PI2, Rmult_0_r.
    apply trunc_unique; lra.
  - cbv zeta. split.
    + unfold LambertianRays. rewrite mpi_2_fin, pi_2_fin, linspace_spaced by lia. cbn [bind].
      rewrite (linspace_spaced ylo yhi m Hm).
      induction (zrange n) as [|k l IH]; [reflexivity|].
      cbn [map]. rewrite IH. cbn [bind]. cbn [flat_map]. f_equal. f_equal.
      rewrite flat_map_concat_map, map_map, <- flat_map_concat_map. reflexivity.
    + assert (forall l, (forall k, In k l -> (0 <= k < n)%Z) ->
        Z.of_nat (List.length (flat_map (fun k => flat_map (fun j =>
         repeat (Ray_new (Fin (height j)) (Fin (angle k)))
           (Z.to_nat (trunc (IZR count * cos (angle k))))) (zrange m)) l)) =
        (m * sumZ (map (fun k => trunc (IZR count * cos (angle k))) l))%Z) as L.
      { induction l as [|k l IH]; intros Hl; [cbn; lia|].
        cbn [flat_map map sumZ fold_right].
        rewrite app_length, Nat2Z.inj_add, IH by (intros; apply Hl; now right).
        rewrite (flat_map_repeat_length (fun j => Ray_new (Fin (height j)) (Fin (angle k)))).
        rewrite Nat2Z.inj_mul, zrange_length by lia.
        rewrite !Z2Nat.id; [|apply Z0, Hl; now left|lia..].
        unfold sumZ. lia. }
      apply L. intros k Hk. now apply zrange_in in Hk.
Qed.

(** one angle: the only one is -pi/2, where nothing is emitted *)
Theorem lambertian_one_angle (ylo yhi : R) m count : (0 <= m)%Z ->
  LambertianRays xcos xtrunc (Fin yhi) (Some (Fin ylo)) m 1 count = Ok [].
Proof.
  intros Hm. unfold LambertianRays. rewrite mpi_2_fin, pi_2_fin.
  assert (@linspace XR _ (Fin (- (PI / 2))) (Fin (PI / 2)) 1 = Ok [Fin (- (PI / 2))]) as E.
  { unfold linspace. cbn [Z.ltb Z.compare Z.eqb Pos.eqb].
    change (Ok [Fin (0 * (PI / 2 - - (PI / 2)) + - (PI / 2))] = Ok [Fin (- (PI / 2))]).
    repeat f_equal. lra. }
  rewrite E. cbn [bind xcos].
  assert (exists hs, @linspace XR _ (Fin ylo) (Fin yhi) m = Ok hs) as (hs & ->).
  { unfold linspace. destruct (Z.ltb_spec m 0); [lia|]. destruct (m =? 1)%Z; eauto. }
  cbn [bind]. rewrite cos_neg, cos_PI2.
  assert (xtrunc (nmul (nofZ count) (Fin 0)) = 0%Z) as ->.
  { change (trunc (IZR count * 0) = 0%Z). rewrite Rmult_0_r. apply trunc_unique; lra. }
  cbn [Z.to_nat repeat]. rewrite app_nil_r. f_equal.
  induction hs as [|h hs IH]; [reflexivity|]. cbn [flat_map]. exact IH.
Qed.

(** three angles: only the middle one emits, [count] rays for each height *)
Theorem lambertian_three_angles ylo yhi m count : (2 <= m)%Z -> (0 <= count)%Z ->
  LambertianRays xcos xtrunc (Fin yhi) (Some (Fin ylo)) m 3 count =
  Ok (flat_map (fun j => repeat (Ray_new (Fin (spaced ylo yhi m j)) (Fin 0)) (Z.to_nat count)) (zrange m)).
Proof.
  intros Hm Hc.
  destruct (lambertian_rays ylo yhi m 3 count Hm ltac:(lia) Hc) as (number & F & N0 & E & _).
  rewrite E. clear E. f_equal.
  destruct (F 0%Z ltac:(lia)) as (_ & _ & N2). rewrite N0 in N2. cbn in N2.
  destruct (F 1%Z ltac:(lia)) as (P1 & N1 & _).
  assert (spaced (- (PI / 2)) (PI / 2) 3 1 = 0) as A by (unfold spaced; cbn; lra).
  rewrite A, cos_0 in N1.
  assert (number 1%Z = count) as E1.
  { destruct N1 as [B C]. assert (IZR (number 1%Z) <= IZR count) as B' by lra.
    assert (IZR count < IZR (number 1%Z + 1)) as C' by (rewrite plus_IZR; lra).
    apply le_IZR in B'. apply lt_IZR in C'. lia. }
  change (zrange 3) with [0%Z; 1%Z; 2%Z]. cbn [flat_map]. rewrite N0, N2, E1, A, app_nil_r.
  assert (forall (f : Z -> @ray XR) l, flat_map (fun j => repeat (f j) (Z.to_nat 0)) l = []) as Z.
  { intros f l. induction l as [|a l IH]; [reflexivity|]. cbn [flat_map Z.to_nat repeat app]. exact IH. }
  rewrite !Z. cbn [app]. now rewrite app_nil_r.
Qed.

(** one height: the only one is the lowest *)
Theorem lambertian_one_height ylo yhi n count rays :
  LambertianRays xcos xtrunc (Fin yhi) (Some (Fin ylo)) 1 n count = Ok rays ->
  Forall (fun r => ry r = Fin ylo) rays.
Proof.
  unfold LambertianRays. destruct (linspace mpi_2 pi_2 n) as [ths|x]; [|discriminate]. cbn [bind].
  revert rays. induction ths as [|th ths IH]; intros rays H; [injection H as <-; constructor|].
  assert (@linspace XR _ (Fin ylo) (Fin yhi) 1 = Ok [Fin ylo]) as E.
  { unfold linspace. cbn [Z.ltb Z.compare Z.eqb Pos.eqb].
    change (Ok [Fin (0 * (yhi - ylo) + ylo)] = Ok [Fin ylo]). repeat f_equal. lra. }
  rewrite E in H. cbn [bind] in H.
  match type of H with (bind ?X _ = _) => destruct X as [rest|] eqn:R; [|discriminate] end.
  cbn [bind flat_map] in H. injection H as <-.
  apply Forall_app. split; [|apply IH; rewrite E; exact R].
  rewrite app_nil_r. apply Forall_forall. intros r Hr. apply repeat_spec in Hr. now subst.
Qed.
