(** Proofs for C51-C54, C61, C62, C64, C66, C68, C69. *)
From Coq Require Import ZArith Reals Lra List Bool Lia String.
From Verif Require Import Base Nums Optics Group Spec MatrixProofs ElementProofs GroupProofs TraceProofs RayProofs RaysModel RaysProofs Drawing.
Import ListNotations.
Open Scope list_scope.
Open Scope R_scope.

(** ** C51: regular rays *)
Lemma zrange_length n : (0 <= n)%Z -> Z.of_nat (List.length (zrange n)) = n.
Proof. intros. unfold zrange. rewrite map_length, seq_length. lia. Qed.
Lemma zrange_in n i : In i (zrange n) <-> (0 <= i < n)%Z.
Proof.
  unfold zrange. rewrite in_map_iff. split.
  - intros (k & <- & H). apply in_seq in H. lia.
  - intros H. exists (Z.to_nat i). split; [lia|]. apply in_seq. lia.
Qed.

(** position number [i] of [n] between [a] and [b] *)
Lemma step_range a b n i : a <= b -> (2 <= n)%Z -> (0 <= i < n)%Z ->
  a <= a + IZR i * ((b - a) / IZR (n - 1)) <= b.
Proof.
  intros Hab Hn Hi.
  assert (0 < IZR (n - 1)) by (apply IZR_lt; lia).
  assert (0 <= IZR i) by (apply IZR_le; lia).
  assert (IZR i <= IZR (n - 1)) by (apply IZR_le; lia).
  assert (0 <= (b - a) / IZR (n - 1)) by (apply Rle_mult_inv_pos; lra).
  assert (0 <= IZR i * ((b - a) / IZR (n - 1))) by (apply Rmult_le_pos; lra).
  assert (IZR i * ((b - a) / IZR (n - 1)) <= IZR (n - 1) * ((b - a) / IZR (n - 1)))
    by (apply Rmult_le_compat_r; lra).
  assert (IZR (n - 1) * ((b - a) / IZR (n - 1)) = b - a) by (field; lra).
  lra.
Qed.
Lemma step_last a b n : (2 <= n)%Z -> a + IZR (n - 1) * ((b - a) / IZR (n - 1)) = b.
Proof. intros. assert (0 < IZR (n - 1)) by (apply IZR_lt; lia). field. lra. Qed.

Lemma fan_delta_ok a b n : (2 <= n)%Z ->
  @fan_delta XR _ (Fin a) (Fin b) n = Ok (Fin ((b - a) / IZR (n - 1))).
Proof.
  intros Hn. unfold fan_delta. destruct (Z.leb_spec 2 n); [|lia]. cbn -[IZR].
  assert (0 < IZR (n - 1)) by (apply IZR_lt; lia).
  destruct (Req_EM_T (IZR (n - 1)) 0); [lra|]. reflexivity.
Qed.
Lemma fan_delta_one a b : @fan_delta XR _ (Fin a) (Fin b) 1 = Ok (Fin 0).
Proof. reflexivity. Qed.
Lemma fan_delta_bad (a b : XR) n : (n <= 0)%Z -> fan_delta a b n = Err ValueError.
Proof.
  intros H. unfold fan_delta. destruct (Z.leb_spec 2 n); [lia|].
  destruct (Z.eqb_spec n 1); [lia|]. reflexivity.
Qed.

(** the positions between [a] and [b] used by the generators *)
Lemma positions a b n : (1 <= n)%Z -> a <= b ->
  exists d, @fan_delta XR _ (Fin a) (Fin b) n = Ok (Fin d) /\
    (forall i, In i (zrange n) -> a <= a + IZR i * d <= b) /\
    In 0%Z (zrange n) /\ In (n - 1)%Z (zrange n) /\ a + IZR 0 * d = a /\
    ((2 <= n)%Z -> a + IZR (n - 1) * d = b).
Proof.
  intros Hn Hab. destruct (Z.eq_dec n 1) as [->|Hn2].
  - exists 0. split; [apply fan_delta_one|]. split; [intros; lra|].
    rewrite !zrange_in. repeat split; try lia; try lra.
  - exists ((b - a) / IZR (n - 1)). split; [apply fan_delta_ok; lia|].
    split; [intros i Hi; apply zrange_in in Hi; apply step_range; lia || lra|].
    rewrite !zrange_in. repeat split; try lia; [lra|intros; now apply step_last].
Qed.

Theorem fan_ok y a b n : (1 <= n)%Z -> a <= b ->
  exists l, @fan XR _ (Fin y) (Fin a) (Fin b) n = Ok l /\ Z.of_nat (List.length l) = n /\
    Forall (fun r => exists th, r = Ray_new (Fin y) (Fin th) /\ a <= th <= b) l /\
    In (Ray_new (Fin y) (Fin a)) l /\
    ((2 <= n)%Z -> In (Ray_new (Fin y) (Fin b)) l).
Proof.
  intros Hn Hab. destruct (positions a b n Hn Hab) as (d & E & HR & I0 & I1 & E0 & E1).
  unfold fan. rewrite E. cbn [bind]. eexists; split; [reflexivity|].
  split; [rewrite map_length; apply zrange_length; lia|]. split; [|split].
  - apply Forall_map, Forall_forall. intros i Hi. exists (a + IZR i * d).
    split; [reflexivity|auto].
  - apply in_map_iff. exists 0%Z. split; [|auto]. cbn -[IZR]. now rewrite E0.
  - intros H2. apply in_map_iff. exists (n - 1)%Z. split; [|auto]. cbn -[IZR]. now rewrite E1.
Qed.

Theorem fan_rejects (y a b : XR) n : (n <= 0)%Z -> fan y a b n = Err ValueError.
Proof. intros. unfold fan. now rewrite fan_delta_bad. Qed.

Lemma flat_map_length {A B} (f : A -> list B) k l : (forall x, In x l -> List.length (f x) = k) ->
  List.length (flat_map f l) = (List.length l * k)%nat.
Proof.
  induction l as [|x l IH]; cbn; intros H; auto. rewrite app_length, IH, H; auto.
Qed.

Theorem fanGroup_ok y1 y2 m a b n : (1 <= m)%Z -> (1 <= n)%Z -> y1 <= y2 -> a <= b ->
  exists l, @fanGroup XR _ (Fin y1) (Fin y2) m (Fin a) (Fin b) n = Ok l /\
    Z.of_nat (List.length l) = (m * n)%Z /\
    Forall (fun r => exists y th, r = Ray_new (Fin y) (Fin th) /\ y1 <= y <= y2 /\ a <= th <= b) l /\
    In (Ray_new (Fin y1) (Fin a)) l /\
    ((2 <= m)%Z -> (2 <= n)%Z -> In (Ray_new (Fin y1) (Fin b)) l /\
       In (Ray_new (Fin y2) (Fin a)) l /\ In (Ray_new (Fin y2) (Fin b)) l).
Proof.
  intros Hm Hn Hy Hab.
  destruct (positions a b n Hn Hab) as (d & E & HR & I0 & I1 & E0 & E1).
  destruct (positions y1 y2 m Hm Hy) as (dh & F & HS & J0 & J1 & F0 & F1).
  unfold fanGroup. rewrite E, F. cbn [bind]. eexists; split; [reflexivity|].
  assert (forall i j y th, In i (zrange n) -> In j (zrange m) -> y1 + IZR j * dh = y ->
    a + IZR i * d = th -> In (Ray_new (Fin y) (Fin th))
      (flat_map (fun j => map (fun i => @Ray_new XR _ (nadd (Fin y1) (nmul (nofZ j) (Fin dh)))
         (nadd (Fin a) (nmul (nofZ i) (Fin d)))) (zrange n)) (zrange m))) as K.
  { intros i j y th Hi Hj <- <-. apply in_flat_map. exists j. split; auto.
    apply in_map_iff. exists i. split; auto. }
  split; [|split; [|split]].
  - rewrite (flat_map_length _ (Z.to_nat n)).
    + rewrite Nat2Z.inj_mul, zrange_length, Z2Nat.id by lia. reflexivity.
    + intros. rewrite map_length. pose proof (zrange_length n ltac:(lia)). lia.
  - apply Forall_forall. intros r Hr. apply in_flat_map in Hr as (j & Hj & Hr).
    apply in_map_iff in Hr as (i & <- & Hi).
    exists (y1 + IZR j * dh), (a + IZR i * d). split; [reflexivity|auto].
  - apply (K 0%Z 0%Z); auto.
  - intros H2 H3. split; [apply (K (n - 1)%Z 0%Z)|split; [apply (K 0%Z (m - 1)%Z)|apply (K (n - 1)%Z (m - 1)%Z)]]; auto.
Qed.

Lemma linspace_ok a b n : (2 <= n)%Z -> a <= b ->
  exists l, @linspace XR _ (Fin a) (Fin b) n = Ok l /\ Z.of_nat (List.length l) = n /\
    Forall (fun v => exists x, v = Fin x /\ a <= x <= b) l /\ In (Fin a) l /\ In (Fin b) l.
Proof.
  intros Hn Hab. unfold linspace. destruct (Z.ltb_spec n 0); [lia|].
  destruct (Z.eqb_spec n 1); [lia|].
  assert (0 < IZR (n - 1)) by (apply IZR_lt; lia).
  assert (ndiv (nsub (Fin b) (Fin a)) (nofZ (n - 1)) = Fin ((b - a) / IZR (n - 1))) as ED.
  { cbn -[IZR]. destruct (Req_EM_T (IZR (n - 1)) 0); [lra|]. reflexivity. }
  eexists; split; [reflexivity|].
  split; [rewrite map_length; apply zrange_length; lia|]. split; [|split].
  - apply Forall_map, Forall_forall. intros i Hi. apply zrange_in in Hi.
    destruct (Z.eqb_spec i (n - 1)).
    + exists b. split; [reflexivity|lra].
    + exists (a + IZR i * ((b - a) / IZR (n - 1))). split; [|apply step_range; lia || lra].
      rewrite ED. change (Fin (IZR i * ((b - a) / IZR (n - 1)) + a) =
                          Fin (a + IZR i * ((b - a) / IZR (n - 1)))). f_equal. lra.
  - apply in_map_iff. exists 0%Z. split; [|apply zrange_in; lia].
    destruct (Z.eqb_spec 0 (n - 1)); [lia|]. rewrite ED.
    change (Fin (IZR 0 * ((b - a) / IZR (n - 1)) + a) = Fin a). f_equal. lra.
  - apply in_map_iff. exists (n - 1)%Z. split; [|apply zrange_in; lia].
    now rewrite Z.eqb_refl.
Qed.

(** all pairs *)
Lemma grid_ok (hs ths : list XR) y1 y2 a b m n :
  Z.of_nat (List.length hs) = m -> Z.of_nat (List.length ths) = n ->
  Forall (fun v => exists x, v = Fin x /\ y1 <= x <= y2) hs -> In (Fin y1) hs -> In (Fin y2) hs ->
  Forall (fun v => exists x, v = Fin x /\ a <= x <= b) ths -> In (Fin a) ths -> In (Fin b) ths ->
  let l := flat_map (fun y => map (fun th => Ray_new y th) ths) hs in
  Z.of_nat (List.length l) = (m * n)%Z /\
  Forall (fun r => exists y th, r = Ray_new (Fin y) (Fin th) /\ y1 <= y <= y2 /\ a <= th <= b) l /\
  In (Ray_new (Fin y1) (Fin a)) l /\ In (Ray_new (Fin y1) (Fin b)) l /\
  In (Ray_new (Fin y2) (Fin a)) l /\ In (Ray_new (Fin y2) (Fin b)) l.
Proof.
  intros Em En F1 I1 I2 F2 J1 J2 l. split; [|split].
  - unfold l. rewrite (flat_map_length _ (List.length ths)) by (intros; apply map_length).
    rewrite Nat2Z.inj_mul, Em, En. reflexivity.
  - rewrite Forall_forall in *. intros r Hr. apply in_flat_map in Hr as (y & Hy & Hr).
    apply in_map_iff in Hr as (th & <- & Hth).
    destruct (F1 _ Hy) as (y' & -> & ?), (F2 _ Hth) as (th' & -> & ?). exists y', th'. auto.
  - assert (forall y th, In y hs -> In th ths -> In (Ray_new y th) l) as K.
    { intros. apply in_flat_map. exists y. split; auto. apply in_map_iff. eauto. }
    auto.
Qed.

Theorem UniformRays_ok y1 y2 a b m n : (2 <= m)%Z -> (2 <= n)%Z -> y1 <= y2 -> a <= b ->
  exists l, @UniformRays XR _ (Fin y2) (Some (Fin y1)) (Fin b) (Some (Fin a)) m n = Ok l /\
    Z.of_nat (List.length l) = (m * n)%Z /\
    Forall (fun r => exists y th, r = Ray_new (Fin y) (Fin th) /\ y1 <= y <= y2 /\ a <= th <= b) l /\
    In (Ray_new (Fin y1) (Fin a)) l /\ In (Ray_new (Fin y1) (Fin b)) l /\
    In (Ray_new (Fin y2) (Fin a)) l /\ In (Ray_new (Fin y2) (Fin b)) l.
Proof.
  intros Hm Hn Hy Hab. unfold UniformRays. destruct (Z.eqb_spec m 1); [lia|].
  destruct (linspace_ok y1 y2 m Hm Hy) as (hs & E & L & F & I1 & I2). rewrite E. cbn [bind].
  destruct (linspace_ok a b n Hn Hab) as (ths & E' & L' & F' & J1 & J2). rewrite E'.
  destruct hs as [|h0 hs]; [destruct I1|]. cbn [bind]. eexists; split; [reflexivity|].
  now apply grid_ok.
Qed.

Theorem ObjectRays_ok d a m n : (2 <= m)%Z -> (2 <= n)%Z -> 0 <= d -> 0 <= a ->
  exists l, @ObjectRays XR _ (Fin d) (Fin a) m n = Ok l /\
    Z.of_nat (List.length l) = (m * n)%Z /\
    Forall (fun r => exists y th, r = Ray_new (Fin y) (Fin th) /\ - (d / 2) <= y <= d / 2 /\
                                  - a <= th <= a) l /\
    In (Ray_new (Fin (- (d / 2))) (Fin (- a))) l /\ In (Ray_new (Fin (- (d / 2))) (Fin a)) l /\
    In (Ray_new (Fin (d / 2)) (Fin (- a))) l /\ In (Ray_new (Fin (d / 2)) (Fin a)) l.
Proof.
  intros Hm Hn Hd Ha. unfold ObjectRays.
  rewrite half_fin. change (nopp (Fin d)) with (Fin (- d)). rewrite half_fin.
  change (nopp (Fin a)) with (Fin (- a)). replace (- d / 2) with (- (d / 2)) by lra.
  apply UniformRays_ok; auto; lra.
Qed.

Theorem LampRays_ok d a m n : (2 <= m)%Z -> (2 <= n)%Z -> 0 <= d -> 0 <= a ->
  exists l, @LampRays XR _ (Fin d) (Fin a) m n = Ok l /\
    Z.of_nat (List.length l) = (m * n)%Z /\
    Forall (fun r => exists y th, r = Ray_new (Fin y) (Fin th) /\ - (d / 2) <= y <= d / 2 /\
                                  - a <= th <= a) l /\
    In (Ray_new (Fin (- (d / 2))) (Fin (- a))) l /\ In (Ray_new (Fin (- (d / 2))) (Fin a)) l /\
    In (Ray_new (Fin (d / 2)) (Fin (- a))) l /\ In (Ray_new (Fin (d / 2)) (Fin a)) l.
Proof.
  intros Hm Hn Hd Ha. unfold LampRays.
  rewrite half_fin. change (nopp (Fin d)) with (Fin (- d)). rewrite half_fin.
  change (nopp (Fin a)) with (Fin (- a)). replace (- d / 2) with (- (d / 2)) by lra.
  destruct (linspace_ok (- (d/2)) (d/2) m) as (hs & E & L & F & I1 & I2); [lia|lra|]. rewrite E.
  destruct (linspace_ok (- a) a n) as (ths & E' & L' & F' & J1 & J2); [lia|lra|]. rewrite E'.
  cbn [bind]. eexists; split; [reflexivity|]. now apply grid_ok.
Qed.

(** ** C52: iterables *)
Section Iterables.
Context {T : Type} {N : Num T}.
Local Notation ray := (@ray T).

Lemma keepRays_some (l : list ray) : keepRays (map Some l) = l.
Proof. induction l as [|a l IH]; [reflexivity|]. cbn. f_equal. exact IH. Qed.
Lemma isRay_some (l : list ray) : forallb isRay (map Some l) = true.
Proof. induction l; cbn; auto. Qed.

Theorem sequence_accepted (l : list ray) : Rays_new (Sequence (map Some l)) = Ok l.
Proof. cbn. now rewrite isRay_some, keepRays_some. Qed.

Theorem non_ray_rejected it (l : list (option ray)) :
  it = Sequence l \/ it = OneShot l -> In None l -> Rays_new it = Err TypeError.
Proof.
  intros H Hin. assert (forallb isRay l = false) as E.
  { apply not_true_iff_false. rewrite forallb_forall. intros K. specialize (K _ Hin). discriminate. }
  destruct H as [-> | ->]; cbn; now rewrite E.
Qed.

Theorem sequence_traced (e : @elem T) progress (l : list ray) :
  traceManyThrough_it e progress (Sequence (map Some l)) = Ok (survivors e l).
Proof. unfold traceManyThrough_it. rewrite sequence_accepted. cbn [bind]. apply worker_ok. Qed.

(** whatever it produces, a one-shot iterator of rays is read by the check and lost *)
Theorem oneshot_lost (l : list ray) (e : @elem T) progress :
  Rays_new (OneShot (map Some l)) = Ok [] /\
  traceManyThrough_it e progress (OneShot (map Some l)) = Ok [].
Proof.
  unfold traceManyThrough_it. cbn. rewrite isRay_some. split; [reflexivity|]. cbn [bind].
  rewrite worker_ok. reflexivity.
Qed.

(** the parallel version reads it in one pass and keeps every ray *)
Theorem oneshot_parallel (l : list ray) (e : @elem T) progress p sched : (0 < p)%Z ->
  (forall i, (i < Z.to_nat p)%nat -> In i sched) ->
  exists out, traceInParallel_it e progress p sched (OneShot (map Some l)) = Ok out /\
    Permutation.Permutation out (survivors e l).
Proof.
  intros Hp Hs. cbn [traceInParallel_it consume]. destruct (Z.leb_spec p 0); [lia|].
  rewrite isRay_some, keepRays_some. cbn [orb negb].
  destruct (parallel_same_rays e progress p sched l Hs) as (out & E & P & _). eauto.
Qed.
End Iterables.

(** ** C53: along *)
Definition finite_ray (r : @ray XR) : Prop := exists y th z b d w, r = fray y th z b d w.

Lemma along_loop_ok (last : @ray XR) z : forall l closest pre,
  Forall finite_ray (closest :: l) -> zval closest <= z ->
  Forall (fun r => zval r < z) pre -> (pre <> [] -> exists p, pre = p ++ [closest]) ->
  (pre = [] -> exists t, l = closest :: t) ->
  (exists r, In r l /\ z <= zval r) ->
  exists before r after,
    pre ++ l = before ++ r :: after /\ zval r <= z /\
    Forall (fun x => zval x < z) before /\
    (zval r < z -> exists nx t, after = nx :: t /\ z < zval nx) /\
    let out := along_loop last closest l (Fin z) in
    rz out = Fin z /\
    (forall y th, ry r = Fin y -> rth r = Fin th -> ry out = Fin (y + (z - zval r) * th)) /\
    rth out = rth r /\ rblk out = rblk r.
Proof.
  induction l as [|r l IH]; intros closest pre HF Hc HP Hpre Hpn (rl & Hin & Hrl); [destruct Hin|].
  cbn [along_loop].
  inversion HF as [|? ? (cy & cth & cz & cb & cd & cw & EC) HF']; subst.
  inversion HF' as [|? ? (y & th & zz & b & d & w & ER) HF'']; subst.
  cbn [rz fray]. change (neqb (Fin zz) (Fin z)) with (Reqb zz z).
  change (nltb (Fin z) (Fin zz)) with (Rltb z zz).
  destruct (Req_dec zz z) as [Ez|Ez].
  - rewrite (proj2 (Reqb_true zz z) Ez).
    exists pre, (fray y th zz b d w), l. split; [reflexivity|].
    change (zval (fray y th zz b d w)) with zz. split; [lra|]. split; [exact HP|].
    split; [intros; lra|]. cbn. subst zz. split; [reflexivity|]. split; [|auto].
    intros y0 th0 [= ->] [= ->]. f_equal. lra.
  - rewrite Reqb_neq by exact Ez. destruct (Rlt_dec z zz) as [Hz|Hz].
    + rewrite Rltb_lt by exact Hz.
      destruct pre as [|p0 pre0].
      { destruct (Hpn eq_refl) as (t & Et). exfalso.
        change (zval (fray cy cth cz cb cd cw)) with cz in Hc. unfold fray in Et.
        injection Et; intros; subst; lra. }
      destruct (Hpre ltac:(discriminate)) as (p & Ep). rewrite Ep in *.
      exists p, (fray cy cth cz cb cd cw), (fray y th zz b d w :: l).
      split; [now rewrite <- app_assoc|]. split; [exact Hc|].
      apply Forall_app in HP as [HP1 HP2]. split; [exact HP1|].
      split; [intros _; exists (fray y th zz b d w), l; split; [reflexivity|exact Hz]|].
      cbn zeta. unfold ray_at, fray. cbn [ry rth rz rblk].
      change (zval (mkRay (Fin cy) (Fin cth) (Fin cz) cb cd cw)) with cz.
      split; [destruct cb; reflexivity|]. split; [|split; destruct cb; reflexivity].
      intros y0 th0 [= ->] [= ->]. destruct cb; cbn; reflexivity.
    + rewrite Rltb_ge by lra.
      destruct (IH (fray y th zz b d w) (pre ++ [fray y th zz b d w]))
        as (bf & r0 & af & E & R1 & R2 & R3 & R4).
      * exact HF'.
      * change (zval (fray y th zz b d w)) with zz. lra.
      * apply Forall_app; split; auto. constructor; auto.
        change (zval (fray y th zz b d w)) with zz. lra.
      * intros _. eauto.
      * intros C. destruct pre; discriminate.
      * exists rl. split; auto. destruct Hin as [<-|]; auto.
        change (zval (fray y th zz b d w)) with zz in Hrl. lra.
      * exists bf, r0, af. split; [rewrite <- E, <- app_assoc; reflexivity|]. auto.
Qed.

Theorem along_ok (tr : list (@ray XR)) r0 t z : tr = r0 :: t -> Forall finite_ray tr ->
  zval r0 <= z <= zval (List.last tr r0) ->
  exists before r after out,
    tr = before ++ r :: after /\ along tr (Fin z) = Ok out /\
    zval r <= z /\ Forall (fun x => zval x < z) before /\
    (zval r < z -> exists nx t, after = nx :: t /\ z < zval nx) /\
    rz out = Fin z /\
    (forall y th, ry r = Fin y -> rth r = Fin th -> ry out = Fin (y + (z - zval r) * th)) /\
    rth out = rth r /\ rblk out = rblk r.
Proof.
  intros -> HF Hz.
  destruct (along_loop_ok (List.last (r0 :: t) r0) z (r0 :: t) r0 [])
    as (bf & r & af & E & R1 & R2 & R3 & R4); auto; try lra.
  - inversion HF; constructor; auto.
  - intros C; congruence.
  - intros _; eauto.
  - exists (List.last (r0 :: t) r0). split; [apply last_in; discriminate|lra].
  - exists bf, r, af. eexists. split; [exact E|]. split; [reflexivity|]. auto.
Qed.

(** ** C54: axicon *)
Theorem axicon_ok alpha n diam e y yMax z (d : XR) w :
  1 < n -> 0 < alpha -> 0 < Rabs y <= yMax -> (diam = PInf \/ exists x, diam = Fin x /\ Rabs y <= x / 2) ->
  Axicon (Fin alpha) (Fin n) diam = Ok e ->
  let out := traceThrough e (fray y 0 z false d w) in
  let zc := Rabs y / ((n - 1) * alpha) in
  rblk out = false /\ rz out = Fin z /\ ry out = Fin y /\
  ry (ray_at out (Fin (z + zc))) = Fin 0 /\ 0 < zc /\
  exists L, focalLineLength (Fin n) (Fin alpha) diam (Some (Fin yMax)) = Ok (Fin L) /\ zc <= L.
Proof.
  intros Hn Ha Hy Hd He out zc.
  assert (0 < (n - 1) * alpha) as Hp by (apply Rmult_lt_0_compat; lra).
  unfold Axicon in He.
  destruct (Matrix_init c1 c0 c0 c1 c0 None None c1 c1 diam ninf "") as [m|] eqn:EM;
    [|discriminate].
  injection He as <-. unfold Matrix_init in EM.
  destruct (nleb diam c0); [discriminate|]. destruct (nleb ninf c0); [discriminate|].
  unfold pdiv in EM. destruct (neqb c1 c0); [discriminate|]. cbn [bind] in EM.
  destruct (areAbsolutelyNotEqual _ _ _); [discriminate|]. injection EM as <-.
  assert (out = fray y (if Rlt_dec 0 y then - ((n - 1) * alpha) else (n - 1) * alpha) z false diam None) as EO.
  { unfold out. rewrite traceThrough_through. cbn [through]. unfold through_leaf. cbn [mL].
    change (@c0 XR _) with (Fin 0). change (@c1 XR _) with (Fin 1).
    change (nltb (Fin 0) (Fin 0)) with (Rltb 0 0). rewrite Rltb_ge by lra.
    unfold mul_ray_v, fray. cbn [rblk]. unfold mul_ray_new. cbn [mA mB mC mD mL mdiam mna ry rth rz rblk].
    assert (nltb (ndiv diam c2) (nabs (Fin y)) = false) as ->.
    { destruct Hd as [->|(x & -> & Hx)].
      - rewrite half_inf. reflexivity.
      - rewrite half_fin. cbn. apply Rltb_ge. lra. }
    assert (nltb (PInf) (nabs (Fin 0)) = false) as -> by reflexivity.
    cbn [orb]. unfold set_th, axicon_th, deviationAngle. cbn [ry rth rz rblk rdiam rwl].
    change (@c0 XR _) with (Fin 0). change (@c1 XR _) with (Fin 1).
    change (nltb (Fin 0) (Fin y)) with (Rltb 0 y). change (nltb (Fin y) (Fin 0)) with (Rltb y 0).
    destruct (Rlt_dec 0 y) as [H0|H0].
    - rewrite Rltb_lt by exact H0. cbn. f_equal; apply f_equal; ring.
    - assert (y < 0) as Hneg. { destruct (Req_dec y 0) as [->|]; [rewrite Rabs_R0 in Hy|]; lra. }
      rewrite Rltb_ge by lra. rewrite Rltb_lt by exact Hneg. cbn. f_equal; apply f_equal; ring. }
  rewrite EO. split; [reflexivity|]. split; [reflexivity|]. split; [reflexivity|].
  split; [|split].
  - cbn. f_equal. unfold zc. destruct (Rlt_dec 0 y) as [H0|H0].
    + rewrite Rabs_right by lra. field. lra.
    + rewrite Rabs_left1 by lra. field. lra.
  - unfold zc. apply Rdiv_lt_0_compat; lra.
  - unfold focalLineLength. change (nabs (Fin yMax)) with (Fin (Rabs yMax)).
    change (nsub (Fin n) (@c1 XR _)) with (Fin (n - 1)).
    rewrite pdiv_fin by lra. cbn [bind]. rewrite pdiv_fin by lra.
    eexists; split; [reflexivity|]. unfold zc. rewrite (Rabs_right yMax) by lra.
    replace (yMax / (n - 1) / alpha) with (yMax / ((n - 1) * alpha)) by (field; lra).
    apply Rmult_le_compat_r; [|lra]. left. now apply Rinv_0_lt_compat.
Qed.

(** ** C62: diameters *)
Definition not_lens (e : @elem XR) : Prop :=
  match e with Leaf (KLens _ _) _ => False | Leaf _ m => positive (mdiam m) | Group _ _ _ => False end.

Theorem leaf_diameter e : not_lens e -> largestDiameter e = mdiam (emat e).
Proof. destruct e as [k m|]; [|intros []]. destruct k; cbn; intros H; try reflexivity. destruct H. Qed.

Theorem group_diameter gk m es : Forall not_lens es ->
  (exists e, In e es /\ mdiam (emat e) <> PInf) ->
  exists e d, In e es /\ mdiam (emat e) = Fin d /\ largestDiameter (Group gk m es) = Fin d /\
    forall e' d', In e' es -> mdiam (emat e') = Fin d' -> d' <= d.
Proof.
  intros HF (e0 & Hin & Hfin). cbn [largestDiameter].
  assert (existsb hasFiniteApertureDiameter es = true) as ->.
  { apply existsb_exists. exists e0. split; auto.
    rewrite Forall_forall in HF. specialize (HF _ Hin).
    destruct e0 as [k m0|]; [|destruct HF]. cbn in *. destruct (mdiam m0); try reflexivity. congruence. }
  assert (map largestDiameter es = map (fun e => mdiam (emat e)) es) as ->.
  { apply map_ext_in. intros e He. apply leaf_diameter. rewrite Forall_forall in HF; auto. }
  set (f := fun mx d : XR => if (negb (neqb d ninf) && nltb mx d)%bool then d else mx).
  assert (forall es mx, Forall not_lens es -> 0 <= mx ->
     exists d, fold_left f (map (fun e => mdiam (emat e)) es) (Fin mx) = Fin d /\ mx <= d /\
       (d = mx \/ exists e, In e es /\ mdiam (emat e) = Fin d) /\
       forall e' d', In e' es -> mdiam (emat e') = Fin d' -> d' <= d) as K.
  { clear. induction es as [|e es IH]; intros mx HF Hm; cbn [map fold_left].
    - exists mx. split; auto. split; [lra|]. split; auto. intros ? ? [].
    - inversion HF as [|? ? He HF']; subst.
      assert (positive (mdiam (emat e))) as Hp
        by (destruct e as [k m0|]; [destruct k; cbn in *; auto; contradiction|destruct He]).
      destruct (mdiam (emat e)) as [x| | |] eqn:Ed; cbn in Hp; try contradiction.
      + unfold f at 2. cbn [neqb NumXR xeqb ninf negb andb nltb xltb].
        destruct (Rlt_dec mx x) as [Hx|Hx].
        * rewrite Rltb_lt by exact Hx. destruct (IH x HF') as (d & E & L & S & U); [lra|].
          exists d. split; auto. split; [lra|]. split.
          -- destruct S as [->|(e1 & I1 & E1)]; right; [exists e|exists e1]; cbn; auto.
          -- intros e' d' [<-|Hin] E'; [rewrite Ed in E'; injection E' as <-; lra|eauto].
        * rewrite Rltb_ge by lra. destruct (IH mx HF' Hm) as (d & E & L & S & U).
          exists d. split; auto. split; auto. split.
          -- destruct S as [->|(e1 & I1 & E1)]; [auto|right; exists e1; cbn; auto].
          -- intros e' d' [<-|Hin] E'; [rewrite Ed in E'; injection E' as <-; lra|eauto].
      + unfold f at 2. cbn [neqb NumXR xeqb ninf negb andb].
        destruct (IH mx HF' Hm) as (d & E & L & S & U).
        exists d. split; auto. split; auto. split.
        * destruct S as [->|(e1 & I1 & E1)]; [auto|right; exists e1; cbn; auto].
        * intros e' d' [<-|Hin] E'; [congruence|eauto]. }
  destruct (K es 0 HF) as (d & E & L & S & U); [lra|].
  change (@c0 XR _) with (Fin 0). rewrite E.
  destruct S as [->|(e1 & I1 & E1)].
  - exfalso. rewrite Forall_forall in HF. specialize (HF _ Hin).
    destruct e0 as [k m0|]; [|destruct HF].
    assert (positive (mdiam m0)) as Hp by (destruct k; cbn in HF; auto; contradiction).
    cbn in Hfin. destruct (mdiam m0) as [x| | |] eqn:Ed; cbn in Hp; try contradiction.
    specialize (U _ x Hin Ed). lra.
  - exists e1, d. auto.
Qed.

(** ** C64: comparisons *)
Theorem comparisons_symmetric (a b eps : R) :
  areAbsolutelyAlmostEqual (Fin a) (Fin b) (Fin eps) = areAbsolutelyAlmostEqual (Fin b) (Fin a) (Fin eps) /\
  areAbsolutelyNotEqual (Fin a) (Fin b) (Fin eps) = areAbsolutelyNotEqual (Fin b) (Fin a) (Fin eps).
Proof.
  unfold areAbsolutelyAlmostEqual, areAbsolutelyNotEqual.
  change (nsub (Fin a) (Fin b)) with (Fin (a + - b)).
  change (nsub (Fin b) (Fin a)) with (Fin (b + - a)).
  cbn. replace (b + - a) with (- (a + - b)) by ring. now rewrite Rabs_Ropp.
Qed.

Theorem comparisons_opposite (v a b eps : R) :
  (Rabs v <> eps -> isNotZero (Fin v) (Fin eps) = negb (isAlmostZero (Fin v) (Fin eps))) /\
  (Rabs (a - b) <> eps -> areAbsolutelyNotEqual (Fin a) (Fin b) (Fin eps) =
                          negb (areAbsolutelyAlmostEqual (Fin a) (Fin b) (Fin eps))).
Proof.
  assert (forall v, Rabs v <> eps -> Rltb eps (Rabs v) = negb (Rltb (Rabs v) eps)) as K.
  { intros x Hx. destruct (Rlt_dec (Rabs x) eps).
    - rewrite (Rltb_lt (Rabs x)), Rltb_ge by lra. reflexivity.
    - rewrite (Rltb_ge (Rabs x)), Rltb_lt by lra. reflexivity. }
  split; intros H; [apply (K v H)|apply (K (a - b) H)].
Qed.

(** never both *)
Theorem comparisons_exclusive (v a b eps : XR) :
  isNotZero v eps && isAlmostZero v eps = false /\
  areAbsolutelyNotEqual a b eps && areAbsolutelyAlmostEqual a b eps = false.
Proof.
  assert (forall x y : XR, nltb x y && nltb y x = false) as K.
  { intros [x| | |] [y| | |]; cbn; auto.
    destruct (Rlt_dec x y); [rewrite (Rltb_ge y) by lra; apply andb_false_r|].
    rewrite Rltb_ge by lra. reflexivity. }
  split; apply K.
Qed.

Theorem boundary_neither : forall eps, 0 <= eps ->
  isNotZero (Fin eps) (Fin eps) = false /\ isAlmostZero (Fin eps) (Fin eps) = false.
Proof.
  intros eps H. unfold isNotZero, isAlmostZero. cbn. rewrite Rabs_right by lra.
  rewrite Rltb_ge by lra. auto.
Qed.

(** ** C68: points drawn *)
Section Drawn.
Context {T : Type} {N : Num T}.
Lemma rearrange_loop_ok rm (l : list (@ray T)) : forall x y,
  rearrange_loop rm l x y =
    if (rm && existsb rblk l)%bool then ([], [])
    else (x ++ map rz (filter (fun r => negb (rblk r)) l), y ++ map ry (filter (fun r => negb (rblk r)) l)).
Proof.
  induction l as [|r l IH]; intros x y; cbn.
  - rewrite andb_false_r, !app_nil_r. reflexivity.
  - destruct (rblk r); cbn.
    + destruct rm; cbn; auto. rewrite IH. reflexivity.
    + rewrite IH, <- !app_assoc. reflexivity.
Qed.
Theorem drawn_points rm (l : list (@ray T)) :
  rearrangeRayTraceForPlotting rm l =
    if (rm && existsb rblk l)%bool then ([], [])
    else (map rz (filter (fun r => negb (rblk r)) l), map ry (filter (fun r => negb (rblk r)) l)).
Proof. apply rearrange_loop_ok. Qed.
End Drawn.

(** ** C66: wavelengths *)
Section Wavelength.
Context {T : Type} {N : Num T}.
Local Notation heap := (@heap T).
Definition no_wl (h : heap) : Prop := Forall (fun r => rwl r = None) h.

Lemma set_nth_Forall {A} (P : A -> Prop) x : P x -> forall (l : list A) i, Forall P l -> Forall P (set_nth i x l).
Proof. intros Hx. induction l; intros [|i] H; cbn; auto; inversion H; constructor; auto. Qed.
Lemma no_wl_get h i : no_wl h -> rwl (hget h i) = None.
Proof.
  intros H. unfold hget. destruct (Nat.lt_ge_cases i (List.length h)).
  - unfold no_wl in H. rewrite Forall_forall in H. apply H, nth_In; auto.
  - rewrite nth_overflow by auto. reflexivity.
Qed.
Lemma no_wl_set h i r : no_wl h -> rwl r = None -> no_wl (hset h i r).
Proof. intros H E. now apply set_nth_Forall. Qed.

Lemma mul_ray_wl k m rid h : no_wl h -> no_wl (snd (mul_ray k m rid h)).
Proof.
  intros H. unfold mul_ray, mul_ray_base.
  assert (no_wl (h ++ [mul_ray_new m (hget h rid)])) as H1
    by (apply Forall_app; split; auto; constructor; auto).
  destruct (rblk (hget h rid)); cbn [halloc]; destruct k; cbn [snd]; auto;
    apply no_wl_set; auto; cbn; now apply no_wl_get.
Qed.
Lemma trace_leaf_wl k m rid h : no_wl h -> no_wl (snd (trace_leaf k m rid h)).
Proof.
  intros H. unfold trace_leaf. destruct (nltb c0 (mL m)).
  - match goal with |- context [mul_ray k m rid ?x] => assert (no_wl x) as H1 end.
    { destruct (nltb _ _); auto. apply no_wl_set; auto. cbn. now apply no_wl_get. }
    pose proof (mul_ray_wl k m rid _ H1) as H2.
    destruct (mul_ray k m rid _) as [o h2]. exact H2.
  - pose proof (mul_ray_wl k m rid _ H) as H2. destruct (mul_ray k m rid h) as [o h2]. exact H2.
Qed.
Lemma trace_wl : forall (e : @elem T) rid h, no_wl h -> no_wl (snd (trace e rid h)).
Proof.
  induction e as [k m|gk m es IH] using elem_ind'; intros rid h H.
  - cbn [trace]. now apply trace_leaf_wl.
  - rewrite trace_group. generalize [rid] as acc. revert rid h H.
    induction IH as [|x t Hx HF IHt]; intros rid h H acc; cbn [trace_loop]; auto.
    specialize (Hx rid h H). destruct (trace x rid h) as [tr h']. apply IHt, Hx.
Qed.
Theorem wavelength_none (e : @elem T) r : rwl r = None -> Forall (fun v => rwl v = None) (trace_values e r).
Proof.
  intros H. unfold trace_values. pose proof (trace_wl e 0 [r] ltac:(constructor; auto)) as K.
  destruct (trace e 0 [r]) as [tr h]. apply Forall_map, Forall_forall. intros i _. now apply no_wl_get.
Qed.
(** every element drops it *)
Theorem wavelength_lost k (m : @mat T) r : rblk (traceThrough (Leaf k m) r) = false ->
  rwl (traceThrough (Leaf k m) r) = None.
Proof.
  rewrite traceThrough_through. cbn [through]. unfold through_leaf, mul_ray_v.
  destruct (nltb c0 (mL m)).
  - destruct (nltb (ndiv (mdiam m) c2) (nabs (ry r))); destruct k; cbn; try discriminate;
      destruct (rblk r) eqn:B; cbn; intros; congruence.
  - destruct k; cbn; destruct (rblk r) eqn:B; cbn; intros; congruence.
Qed.
End Wavelength.

(** ** C61: surfaces of a flipped lens *)
Section Mirror.
Context {T : Type} {N : Num T}.
(** the shape seen from behind, and the (index, thickness) of the glass between surfaces *)
Definition behind (s : @shape T) : @shape T :=
  match s with Spherical r => Spherical (nopp r) | x => x end.
Definition glass (l : list (@surface T)) : list (T * T) :=
  removelast (map (fun s => (su_n s, su_L s)) l).
Definition mirrored (l l' : list (@surface T)) : Prop :=
  map su_shape l' = rev (map (fun s => behind (su_shape s)) l) /\ glass l' = rev (glass l).

Lemma turn_all_shapes (l : list (@surface T)) :
  map su_shape (turn_all l) = map (fun s => behind (su_shape s)) l.
Proof.
  induction l as [|s [|nx t] IH]; [reflexivity|cbn; now destruct s as [[] ? ?]|].
  change (turn_all (s :: nx :: t)) with (turn s (su_n nx) (su_L nx) :: turn_all (nx :: t)).
  cbn [map]. f_equal; [now destruct s as [[] ? ?]|exact IH].
Qed.
Lemma turn_all_glass (l : list (@surface T)) :
  glass (turn_all l) = tl (map (fun s => (su_n s, su_L s)) l).
Proof.
  unfold glass. induction l as [|s [|nx t] IH]; [reflexivity|reflexivity|].
  change (turn_all (s :: nx :: t)) with (turn s (su_n nx) (su_L nx) :: turn_all (nx :: t)).
  cbn [map tl]. cbn [map tl] in IH. rewrite <- IH.
  destruct t; [reflexivity|]. reflexivity.
Qed.
Lemma removelast_rev {A} (l : list A) : rev (removelast l) = tl (rev l).
Proof.
  destruct l as [|a l _] using rev_ind; [reflexivity|].
  rewrite removelast_last, rev_app_distr. reflexivity.
Qed.
Theorem turned_mirrored (l : list (@surface T)) : mirrored l (turn_all (rev l)).
Proof.
  split.
  - rewrite turn_all_shapes, map_rev. reflexivity.
  - rewrite turn_all_glass. unfold glass. now rewrite removelast_rev, map_rev.
Qed.

Lemma append_mflip (g : @grp T) e g' : append g e = Ok g' -> mflip (gmat g') = mflip (gmat g).
Proof.
  unfold append, append_st. destruct (append_check _ _); [|discriminate].
  destruct (group_transfer _ _); [|discriminate]. cbn. intros [= <-]. reflexivity.
Qed.
Lemma flip_group_mflip (m : @mat T) es e' : flip (Group GGroup m es) = Ok e' ->
  exists m' es', e' = Group GGroup m' es' /\ mflip m' = negb (mflip m).
Proof.
  rewrite flip_group.
  destruct (flip_loop _ es) as [g|] eqn:E; [|discriminate]. intros [= <-].
  exists (gmat g), (gelems g). split; [reflexivity|]. revert g E.
  induction es as [|x t IH]; cbn [flip_loop]; intros g E; [injection E as <-; reflexivity|].
  destruct (flip_loop _ t) as [g0|]; [|discriminate]. cbn [bind] in E.
  destruct (flip x); [|discriminate]. cbn [bind] in E. apply append_mflip in E. rewrite E.
  now apply IH.
Qed.
Lemma MatrixGroup_mflip (l : list (@elem T)) lab g : MatrixGroup_new l lab = Ok g -> mflip (gmat g) = false.
Proof.
  unfold MatrixGroup_new. destruct (Matrix_init _ _ _ _ _ _ _ _ _ _ _ _) as [m|] eqn:E; [|discriminate].
  cbn [bind]. assert (mflip m = false) as Hm.
  { unfold Matrix_init in E. destruct (nleb ninf c0); [discriminate|].
    destruct (pdiv c1 c1) as [v|]; [|discriminate]. cbn [bind] in E.
    destruct (areAbsolutelyNotEqual _ _ _); [discriminate|]. injection E as <-. reflexivity. }
  change (mflip m) with (mflip (gmat (mkGrp m []))) in Hm. revert Hm. generalize (mkGrp m []).
  induction l as [|e l IH]; cbn [append_all]; intros g0 Hm H; [injection H as <-; auto|].
  destruct (append g0 e) as [g1|] eqn:EA; [|discriminate]. cbn [bind] in H.
  eapply IH; [|exact H]. rewrite (append_mflip _ _ _ EA). exact Hm.
Qed.
Lemma CompoundLens_mflip (l : list (@elem T)) d e : CompoundLens l d = Ok e ->
  exists m es, e = Group GGroup m es /\ mflip m = false.
Proof.
  unfold CompoundLens. destruct (MatrixGroup_new l "") as [g|] eqn:E; [|discriminate].
  cbn [bind]. intros [= <-]. do 2 eexists. split; [reflexivity|]. cbn. eapply MatrixGroup_mflip; eauto.
Qed.

Lemma DoubletLens_inv (R1 R2 R3 tc1 tc2 na nb diam : T) l :
  DoubletLens R1 R2 R3 tc1 tc2 na nb diam = Ok l ->
  exists m es, l = LDoublet m es R1 R2 R3 tc1 tc2 na nb /\ mflip m = false.
Proof.
  unfold DoubletLens. destruct (AchromatDoublet _ _ _ _ _ _ _ _) as [e|] eqn:E; [|discriminate].
  unfold AchromatDoublet in E.
  repeat match type of E with
  | bind ?x _ = _ => destruct x; [|discriminate]; cbn [bind] in E
  end.
  apply CompoundLens_mflip in E as (m & es & -> & Hm). cbn [bind]. intros [= <-]. eauto.
Qed.
Lemma SingletLens_inv (R1 R2 tc n diam : T) l :
  SingletLensL R1 R2 tc n diam = Ok l ->
  exists m es, l = LSinglet m es R1 R2 tc n /\ mflip m = false.
Proof.
  unfold SingletLensL. destruct (SingletLens _ _ _ _ _) as [e|] eqn:E; [|discriminate].
  unfold SingletLens in E.
  repeat match type of E with
  | bind ?x _ = _ => destruct x; [|discriminate]; cbn [bind] in E
  end.
  apply CompoundLens_mflip in E as (m & es & -> & Hm). cbn [bind]. intros [= <-]. eauto.
Qed.

(** catalogue lenses: whatever the flips done before *)
Theorem catalogue_mirrored (l0 l1 l2 : lens_kind) :
  ((exists R1 R2 R3 tc1 tc2 na nb diam, DoubletLens R1 R2 R3 tc1 tc2 na nb diam = Ok l0) \/
   (exists R1 R2 tc n diam, SingletLensL R1 R2 tc n diam = Ok l0)) ->
  flip_lens l0 = Ok l1 -> flip_lens l1 = Ok l2 ->
  exists s0 s1, surfaces l0 = Ok s0 /\ surfaces l1 = Ok s1 /\ mirrored s0 s1 /\ surfaces l2 = Ok s0.
Proof.
  intros [(R1 & R2 & R3 & tc1 & tc2 & na & nb & diam & H)|(R1 & R2 & tc & n & diam & H)].
  - apply DoubletLens_inv in H as (m & es & -> & Hm). cbn [flip_lens].
    destruct (flip (Group GGroup m es)) as [e1|] eqn:E1; [|discriminate].
    apply flip_group_mflip in E1 as (m1 & es1 & -> & H1). cbn [bind]. intros [= <-]. cbn [flip_lens].
    destruct (flip (Group GGroup m1 es1)) as [e2|] eqn:E2; [|discriminate].
    apply flip_group_mflip in E2 as (m2 & es2 & -> & H2). cbn [bind]. intros [= <-].
    rewrite H1 in H2. rewrite Hm in *. cbn [negb] in *.
    unfold surfaces; cbn [forwardSurfaces lens_mat bind]; rewrite Hm, H1, H2. do 2 eexists.
    split; [reflexivity|]. split; [reflexivity|]. split; [apply turned_mirrored|reflexivity].
  - apply SingletLens_inv in H as (m & es & -> & Hm). cbn [flip_lens].
    destruct (flip (Group GGroup m es)) as [e1|] eqn:E1; [|discriminate].
    apply flip_group_mflip in E1 as (m1 & es1 & -> & H1). cbn [bind]. intros [= <-]. cbn [flip_lens].
    destruct (flip (Group GGroup m1 es1)) as [e2|] eqn:E2; [|discriminate].
    apply flip_group_mflip in E2 as (m2 & es2 & -> & H2). cbn [bind]. intros [= <-].
    rewrite H1 in H2. rewrite Hm in *. cbn [negb] in *.
    unfold surfaces; cbn [forwardSurfaces lens_mat bind]; rewrite Hm, H1, H2. do 2 eexists.
    split; [reflexivity|]. split; [reflexivity|]. split; [apply turned_mirrored|reflexivity].
Qed.

(** slabs *)
Theorem slab_mirrored n R1 R2 (m : @mat T) l1 : mflip m = false ->
  flip_lens (LLeaf (KSlab n R1 R2) m) = Ok l1 ->
  exists s0 s1, surfaces (LLeaf (KSlab n R1 R2) m) = Ok s0 /\ surfaces l1 = Ok s1 /\ mirrored s0 s1.
Proof.
  intros Hm. cbn [flip_lens flip flip_leaf].
  destruct (thick_A _ _ _); [|discriminate]. cbn [bind].
  destruct (thick_B _ _); [|discriminate]. cbn [bind].
  destruct (thick_C _ _ _ _); [|discriminate]. cbn [bind].
  destruct (thick_D _ _ _); [|discriminate]. cbn [bind]. intros [= <-].
  unfold surfaces. cbn [forwardSurfaces lens_mat bind set_ABCD flip_mat mflip mL]. rewrite Hm. cbn [negb].
  do 2 eexists. split; [reflexivity|]. split; [reflexivity|]. apply turned_mirrored.
Qed.

(** ** C69: load after save *)
Definition same_attrs (m m' : @mat T) : Prop :=
  mA m = mA m' /\ mB m = mB m' /\ mC m = mC m' /\ mD m = mD m' /\ mL m = mL m' /\
  mfv m = mfv m' /\ mbv m = mbv m' /\ mfi m = mfi m' /\ mbi m = mbi m'.

Lemma append_check_idem es (e e' : @elem T) : append_check es e = Ok e' -> append_check es e' = Ok e'.
Proof.
  unfold append_check. destruct (last_opt es) as [le|]; auto.
  destruct (neqb (mbi (emat le)) (mfi (emat e))) eqn:E; [intros [= <-]; now rewrite E|].
  destruct (isSpace e) eqn:ES; [|discriminate]. intros [= <-].
  destruct e as [k m|gk m l]; cbn in *.
  - destruct (neqb (mbi (emat le)) (mbi (emat le))); auto. now rewrite ES.
  - discriminate.
Qed.

Lemma append_inv (g : @grp T) e g' : append g e = Ok g' ->
  exists e' p, append_check (gelems g) e = Ok e' /\ group_transfer (gelems g ++ [e']) ninf = Ok p /\
    g' = mkGrp (copy_attrs (gmat g) p) (gelems g ++ [e']).
Proof.
  unfold append, append_st. destruct (append_check _ _) as [e'|]; [|discriminate].
  destruct (group_transfer _ _) as [p|] eqn:E; [|discriminate]. cbn. intros [= <-]. eauto.
Qed.

Lemma append_all_again (l : list (@elem T)) : forall g g1, append_all g l = Ok g1 ->
  exists l', gelems g1 = gelems g ++ l' /\ List.length l' = List.length l /\
    forall m0, exists m1, append_all_st (mkGrp m0 (gelems g)) l' = (mkGrp m1 (gelems g1), None) /\
      (same_attrs (gmat g) m0 \/ l <> [] -> same_attrs (gmat g1) m1).
Proof.
  induction l as [|e l IH]; cbn [append_all]; intros g g1 H.
  - injection H as <-. exists []. rewrite app_nil_r. split; auto. split; auto.
    intros m0. exists m0. split; [reflexivity|]. intros [K|K]; auto. congruence.
  - destruct (append g e) as [g'|] eqn:EA; [|discriminate]. cbn [bind] in H.
    apply append_inv in EA as (e' & p & EC & ET & ->).
    destruct (IH _ _ H) as (l' & EL & LL & K). cbn [gelems gmat] in *.
    exists (e' :: l'). split; [rewrite EL, <- app_assoc; reflexivity|]. split; [cbn; congruence|].
    intros m0. destruct (K (copy_attrs m0 p)) as (m1 & E1 & S1). exists m1.
    cbn [append_all_st]. unfold append_st. cbn [gelems gmat].
    rewrite (append_check_idem _ _ _ EC), ET. split; [exact E1|].
    intros _. apply S1. left. repeat split.
Qed.

Theorem load_replaces (l : list (@elem T)) lab g1 g2 : l <> [] -> MatrixGroup_new l lab = Ok g1 ->
  exists g, load_st g2 false (gelems g1) = (g, None) /\ gelems g = gelems g1 /\
    same_attrs (gmat g1) (gmat g).
Proof.
  intros Hl. unfold MatrixGroup_new.
  destruct (Matrix_init _ _ _ _ _ _ _ _ _ _ _ _) as [m|]; [|discriminate]. cbn [bind]. intros H.
  destruct (append_all_again _ _ _ H) as (l' & EL & LL & K). cbn [gelems] in *.
  destruct (K (gmat g2)) as (m1 & E1 & S1). cbn [app] in EL. rewrite <- EL in E1.
  exists (mkGrp m1 (gelems g1)). cbn. split; [exact E1|]. split; auto.
Qed.

Lemma last_opt_snoc {A} (l : list A) x : last_opt (l ++ [x]) = Some x.
Proof. induction l as [|a l IH]; [reflexivity|]. cbn. destruct (l ++ [x]) eqn:E; [destruct l; discriminate|]. exact IH. Qed.

(** successive indices agree *)
Definition joins (es l : list (@elem T)) : Prop :=
  match last_opt es, l with
  | Some a, b :: _ => neqb (mbi (emat a)) (mfi (emat b)) = true
  | _, _ => True
  end.
Fixpoint joined (l : list (@elem T)) : Prop :=
  match l with a :: t => joins [a] t /\ joined t | [] => True end.

Theorem load_extends (l : list (@elem T)) : forall g2 g, joins (gelems g2) l -> joined l ->
  load_st g2 true l = (g, None) -> gelems g = gelems g2 ++ l.
Proof.
  cbn [load_st]. induction l as [|e l IH]; intros g2 g HJ HL; cbn [append_all_st].
  - intros [= <-]. now rewrite app_nil_r.
  - assert (append_check (gelems g2) e = Ok e) as EC.
    { unfold append_check. unfold joins in HJ. destruct (last_opt (gelems g2)); auto. now rewrite HJ. }
    unfold append_st. rewrite EC. destruct (group_transfer _ _) as [p|]; [|discriminate].
    intros H. destruct HL as [HL1 HL2]. apply IH in H; auto.
    + rewrite H. cbn [gelems]. now rewrite <- app_assoc.
    + cbn [gelems]. unfold joins. rewrite last_opt_snoc. exact HL1.
Qed.
End Mirror.

(** a thick lens flipped lists its surfaces unchanged, instead of mirrored *)
Theorem thick_lens_not_mirrored n r1 r2 (m : @mat XR) l1 : mflip m = false ->
  flip_lens (LLeaf (KThickLens n (Fin r1) (Fin r2)) m) = Ok l1 ->
  surfaces l1 = surfaces (LLeaf (KThickLens n (Fin r1) (Fin r2)) m).
Proof.
  intros Hm. cbn [flip_lens flip flip_leaf].
  destruct (thick_A _ _ _); [|discriminate]. cbn [bind].
  destruct (thick_B _ _); [|discriminate]. cbn [bind].
  destruct (thick_C _ _ _ _); [|discriminate]. cbn [bind].
  destruct (thick_D _ _ _); [|discriminate]. cbn [bind]. intros [= <-].
  unfold surfaces. cbn [forwardSurfaces lens_mat bind set_ABCD flip_mat mflip mL]. rewrite Hm. cbn [negb].
  assert (forall r, nopp (Fin (- r)) = Fin r) as K by (intros; cbn; now rewrite Ropp_involutive).
  cbv [rev app turn_all turn su_shape su_n su_L SphericalInterface]. now rewrite !K.
Qed.
