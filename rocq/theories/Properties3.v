(** Property theorems C18, C19, C48-C54, C61, C62, C64, C66, C68, C69: lists of rays, ray
    generators, drawing data, comparisons and saved groups.  Each theorem is closed by a lemma
    proved elsewhere; the examples show that its hypotheses can be met. *)
From Coq Require Import Reals Lra List Bool String ZArith Floats Permutation Lia.
From Verif Require Import Base Nums Optics Group Spec MatrixProofs ElementProofs GroupProofs
  TraceProofs RayProofs RaysModel RaysProofs RaysMore Drawing MiscProofs GroupRefutations
  HistProofs RaysRefutations.
Import ListNotations.
Open Scope list_scope.
Open Scope R_scope.

(** ** C18 *)
(** for any number type: the rays kept are exactly the unblocked outputs, in input order; the
    only input rays that change are rays that end up blocked *)
Theorem C18_many_through :
  forall T (N : Num T) (e : @elem T) progress (o : rays_it) (h : @heap T),
  Forall (fun i => (i < List.length h)%nat) (it_ids o) ->
  exists ids' h', traceManyThrough e progress o h = (Ok ids', h') /\
    map (hget h') ids' =
      filter (fun r => negb (rblk r)) (map (traceThrough e) (map (hget h) (it_ids o))) /\
    (forall i, (i < List.length h)%nat -> hget h' i <> hget h i ->
       rblk (hget h' i) = true /\ rblk (traceThrough e (hget h i)) = true).
Proof. exact @many_through. Qed.
Print Assumptions C18_many_through.

(** three rays in a Rays object, one of them listed twice, one stopped by the aperture *)
Example C18_example :
  let a := the (Aperture (fz 2) ninf) in
  let h := [fr 0 0; fr 5 0; fr 1 0] in
  let o := mkIt [0%nat; 1%nat; 2%nat; 0%nat] 0 10000 in
  Forall (fun i => (i < List.length h)%nat) (it_ids o) /\
  exists ids h', traceManyThrough a true o h = (Ok ids, h') /\ List.length ids = 3%nat /\
    map ry (map (hget h') ids) = [fz 0; fz 1; fz 0].
Proof.
  cbv zeta. split; [repeat constructor|].
  eexists _, _. split; [vm_compute; reflexivity|]. split; reflexivity.
Qed.

(** ** C19 *)
(** any number of processes, any schedule in which every worker finishes *)
Theorem C19_parallel_same_rays :
  forall T (N : Num T) (e : @elem T) progress p sched (l : list (@ray T)),
  (forall i, (i < Z.to_nat p)%nat -> In i sched) ->
  exists out, traceInParallel e progress p sched l = Ok out /\
    Permutation out (filter (fun r => negb (rblk r)) (map (traceThrough e) l)) /\
    ((p <= 1)%Z -> out = filter (fun r => negb (rblk r)) (map (traceThrough e) l)).
Proof. exact @parallel_same_rays. Qed.
Print Assumptions C19_parallel_same_rays.

Example C19_example : forall i, (i < Z.to_nat 3)%nat -> In i [2%nat; 0%nat; 1%nat].
Proof. intros i H. change (Z.to_nat 3) with 3%nat in H. cbn. lia. Qed.

Theorem C19_order_refuted :
  let e := fspace 10 in let rays := [fr 1 0; fr 2 0; fr 3 0] in
  Space (fz 10) c1 ninf = Ok e /\
  exists a b c, filter (fun r => negb (rblk r)) (map (traceThrough e) rays) = [a; b; c] /\
    traceInParallel e false 2 [0%nat; 1%nat] rays = Ok [a; c; b] /\ neqb (ry b) (ry c) = false.
Proof. exact parallel_order. Qed.
Print Assumptions C19_order_refuted.

(** ** C48 *)
(** [contents l os]: the rays after the history; [asked_before_load false os = true]: no load
    comes after a query.  Histograms are those of np.histogram, taken as any function that does
    not distinguish bounds that are == and may raise.  [answers got want]: the answer is the
    histogram whenever there is one, and an exception only when computing it raises that
    exception.  What a histogram is: C72. *)
Theorem C48_statistics_current :
  forall T (N : Num T) (histogram : list T -> Z -> T -> T -> res (list Z * list T))
    (l : list (@ray T)) (os : list (@sop T)),
  respects_eq histogram -> asked_before_load false os = true ->
  let s := srun histogram (stats_new l) os in
  let now := contents l os in
  fst (yValues s) = map ry now /\ fst (thetaValues s) = map rth now /\
  (forall b mn mx, answers (fst (rayCountHistogram histogram s b mn mx))
                           (histogram_spec histogram (map ry now) b mn mx)) /\
  (forall b mn mx, answers (fst (rayAnglesHistogram histogram s b mn mx))
                           (histogram_spec histogram (map rth now) b mn mx)).
Proof. exact @stats_current. Qed.
Print Assumptions C48_statistics_current.

Example C48_example :
  let os := [SLoad true [Ray_new (Fin 3) (Fin 0)]; SY; SAppend (Ray_new (Fin 2) (Fin 0));
             SCount None None None; SIter; SNext; SCount (Some 0%Z) None None; SCount None None None] in
  respects_eq (@np_histogram XR _) /\ asked_before_load false os = true /\
  contents [Ray_new (Fin 1) (Fin 0)] os =
    [Ray_new (Fin 1) (Fin 0); Ray_new (Fin 3) (Fin 0); Ray_new (Fin 2) (Fin 0)].
Proof. split; [exact np_respects_eq|split; reflexivity]. Qed.

Theorem C48_load_refuted :
  forall hist, exists (s : @stats float) v,
    s = srun hist (stats_new [fr 1 0]) [SY; SLoad false [fr 2 0]] /\
    s_rays s = [fr 2 0] /\ fst (yValues s) = [v] /\ neqb v (ry (fr 2 0)) = false.
Proof. exact load_stale. Qed.
Print Assumptions C48_load_refuted.

(** a query that raised answers with the histogram of an earlier query when it is repeated *)
Theorem C48_failed_query_refuted :
  exists (l : list (@ray float)) h,
  fst (rayCountHistogram np_histogram (stats_new l) (Some 2%Z) None None) = Ok (Some h) /\
  fst (rayCountHistogram np_histogram (srun np_histogram (stats_new l) [SCount (Some 2%Z) None None]) (Some 0%Z) None None)
    = Err ValueError /\
  fst (rayCountHistogram np_histogram
    (srun np_histogram (stats_new l) [SCount (Some 2%Z) None None; SCount (Some 0%Z) None None]) (Some 0%Z) None None) =
    Ok (Some h) /\
  fst (rayAnglesHistogram np_histogram
    (srun np_histogram (stats_new l) [SAngles (Some 0%Z) None None]) (Some 0%Z) None None) = Ok None.
Proof. exact failed_query_repeated. Qed.
Print Assumptions C48_failed_query_refuted.

(** ** C49 *)
(** a body that does not touch the object, and a body that queries the object any number of
    times once both value lists have been read *)
Theorem C49_plain_loop_partial :
  forall T (s : @stats T) fuel (body : @ray T -> @stats T -> @stats T),
  (forall r s, body r s = s) -> (List.length (s_rays s) < fuel)%nat ->
  fst (for_rays fuel body s) = Ok (s_rays s).
Proof. exact @plain_loop. Qed.
Print Assumptions C49_plain_loop_partial.

Theorem C49_warmed_loop_partial :
  forall T (N : Num T) hist (qs : @ray T -> list (@sop T)) s fuel,
  (forall r, Forall is_query (qs r)) -> warmed s -> (List.length (s_rays s) < fuel)%nat ->
  fst (for_rays fuel (fun r s => srun hist s (qs r)) s) = Ok (s_rays s).
Proof. exact @warmed_loop. Qed.
Print Assumptions C49_warmed_loop_partial.

Theorem C49_group_loop_partial :
  forall T (g : @group_it T) fuel body,
  (forall e g, body e g = g) -> (List.length (gi_elems g) < fuel)%nat ->
  fst (for_group fuel body g) = Ok (gi_elems g).
Proof. exact @group_loop. Qed.
Print Assumptions C49_group_loop_partial.

Example C49_example :
  let s := srun (fun _ _ _ _ => Ok ([], [])) (stats_new [fr 1 0; fr 2 0]) [SY; STheta] in
  warmed s /\ Forall (@is_query float) [SY; SCount None None None; SAngles (Some 3%Z) None (Some (fz 2))].
Proof. cbv zeta. split; [split; discriminate|]. repeat constructor. Qed.

Theorem C49_query_refuted :
  exists (l : list (@ray float)), l = [fr 1 0; fr 2 0; fr 3 0] /\
    fst (for_rays 10 (fun _ s => snd (yValues s)) (stats_new l)) = Ok [fr 1 0].
Proof. exact loop_stops. Qed.
Theorem C49_nested_refuted :
  exists (l : list (@ray float)), l = [fr 1 0; fr 2 0; fr 3 0] /\
    fst (for_rays 10 (fun _ s => snd (for_rays 10 (fun _ s => s) s)) (stats_new l)) = Ok [fr 1 0].
Proof. exact nested_loop_stops. Qed.
(** the loop never ends: no amount of fuel is enough *)
Theorem C49_membership_refuted :
  exists (l : list (@ray float)), l = [fr 1 0; fr 2 0] /\
    forall fuel, fst (for_rays fuel (fun _ s => snd (member (fr 1 0) s)) (stats_new l)) = Err OutOfFuel.
Proof. exact member_loop_forever. Qed.
Theorem C49_group_refuted :
  exists (es : list (@elem float)), es = [fspace 1; fspace 2; fspace 3] /\
    fst (for_group 10 (fun _ g => snd (for_group 10 (fun _ g => g) g)) (mkGit es 0)) = Ok [fspace 1].
Proof. exact group_nested_stops. Qed.
Print Assumptions C49_membership_refuted.

(** ** C50 *)
(** [g]: the stream of random numbers.  After any history of accesses, rays[i] is the i-th ray
    determined by the stream, from the front or from the back. *)
Theorem C50_random_stable :
  forall T (N : Num T) (g : nat -> T) ymax ymin thmax thmin mc os, (0 <= mc)%Z ->
  let q := qrun g (RandomUniformRays ymax ymin thmax thmin mc) os in
  let ray_k := kth g (lower ymax ymin) ymax (lower thmax thmin) thmax in
  random_len q = mc /\
  (forall i, (0 <= i < mc)%Z -> fst (random_get g q i) = Ok (ray_k (Z.to_nat i)) /\
                                fst (random_get g q (i - mc)) = Ok (ray_k (Z.to_nat i))) /\
  (forall i, (i < - mc \/ mc <= i)%Z -> fst (random_get g q i) = Err IndexError) /\
  (exists n, q_rays q = map ray_k (seq 0 n) /\ (Z.of_nat n <= mc)%Z).
Proof. exact @random_stable. Qed.
Print Assumptions C50_random_stable.

Theorem C50_random_iteration :
  forall T (N : Num T) (g : nat -> T) ymax ymin thmax thmin mc os fuel, (0 <= mc < Z.of_nat fuel)%Z ->
  let q := qrun g (RandomUniformRays ymax ymin thmax thmin mc) os in
  let ray_k := kth g (lower ymax ymin) ymax (lower thmax thmin) thmax in
  random_for g fuel (q_set_pos q 0) = map (fun k => Ok (ray_k k)) (seq 0 (Z.to_nat mc)).
Proof. exact @random_iter. Qed.
Print Assumptions C50_random_iteration.

Theorem C50_random_bounded :
  forall (g : nat -> R) ylo yhi tlo thi k,
  (forall n, 0 <= g n < 1) -> ylo <= yhi -> tlo <= thi ->
  exists y th, @kth XR _ (fun n => Fin (g n)) (Fin ylo) (Fin yhi) (Fin tlo) (Fin thi) k
    = Ray_new (Fin y) (Fin th) /\ ylo <= y <= yhi /\ tlo <= th <= thi.
Proof. exact random_bounded. Qed.
Print Assumptions C50_random_bounded.

Example C50_example :
  let g n := if Nat.even n then ndec 5 1 else ndec 25 2 in
  let q := qrun g (RandomUniformRays (fz 2) None (fz 1) None 3) [QGet (-1); QNext; QGet 1; QIter] in
  exists r, fst (random_get g q (-3)) = Ok r /\ ry r = fz (-1) /\ rth r = c0.
Proof. cbv zeta. eexists. split; [vm_compute; reflexivity|]. split; vm_compute; reflexivity. Qed.

(** ** C51 *)
Theorem C51_fan :
  forall y a b n, (1 <= n)%Z -> a <= b ->
  exists l, @fan XR _ (Fin y) (Fin a) (Fin b) n = Ok l /\ Z.of_nat (List.length l) = n /\
    Forall (fun r => exists th, r = Ray_new (Fin y) (Fin th) /\ a <= th <= b) l /\
    In (Ray_new (Fin y) (Fin a)) l /\ ((2 <= n)%Z -> In (Ray_new (Fin y) (Fin b)) l).
Proof. exact fan_ok. Qed.
Theorem C51_fan_rejects :
  forall (y a b : XR) n, (n <= 0)%Z -> fan y a b n = Err ValueError.
Proof. exact fan_rejects. Qed.
Theorem C51_fanGroup :
  forall y1 y2 m a b n, (1 <= m)%Z -> (1 <= n)%Z -> y1 <= y2 -> a <= b ->
  exists l, @fanGroup XR _ (Fin y1) (Fin y2) m (Fin a) (Fin b) n = Ok l /\
    Z.of_nat (List.length l) = (m * n)%Z /\
    Forall (fun r => exists y th, r = Ray_new (Fin y) (Fin th) /\ y1 <= y <= y2 /\ a <= th <= b) l /\
    In (Ray_new (Fin y1) (Fin a)) l /\
    ((2 <= m)%Z -> (2 <= n)%Z -> In (Ray_new (Fin y1) (Fin b)) l /\
       In (Ray_new (Fin y2) (Fin a)) l /\ In (Ray_new (Fin y2) (Fin b)) l).
Proof. exact fanGroup_ok. Qed.
Theorem C51_UniformRays :
  forall y1 y2 a b m n, (2 <= m)%Z -> (2 <= n)%Z -> y1 <= y2 -> a <= b ->
  exists l, @UniformRays XR _ (Fin y2) (Some (Fin y1)) (Fin b) (Some (Fin a)) m n = Ok l /\
    Z.of_nat (List.length l) = (m * n)%Z /\
    Forall (fun r => exists y th, r = Ray_new (Fin y) (Fin th) /\ y1 <= y <= y2 /\ a <= th <= b) l /\
    In (Ray_new (Fin y1) (Fin a)) l /\ In (Ray_new (Fin y1) (Fin b)) l /\
    In (Ray_new (Fin y2) (Fin a)) l /\ In (Ray_new (Fin y2) (Fin b)) l.
Proof. exact UniformRays_ok. Qed.
Theorem C51_ObjectRays :
  forall d a m n, (2 <= m)%Z -> (2 <= n)%Z -> 0 <= d -> 0 <= a ->
  exists l, @ObjectRays XR _ (Fin d) (Fin a) m n = Ok l /\
    Z.of_nat (List.length l) = (m * n)%Z /\
    Forall (fun r => exists y th, r = Ray_new (Fin y) (Fin th) /\ - (d / 2) <= y <= d / 2 /\
                                  - a <= th <= a) l /\
    In (Ray_new (Fin (- (d / 2))) (Fin (- a))) l /\ In (Ray_new (Fin (- (d / 2))) (Fin a)) l /\
    In (Ray_new (Fin (d / 2)) (Fin (- a))) l /\ In (Ray_new (Fin (d / 2)) (Fin a)) l.
Proof. exact ObjectRays_ok. Qed.
Theorem C51_LampRays :
  forall d a m n, (2 <= m)%Z -> (2 <= n)%Z -> 0 <= d -> 0 <= a ->
  exists l, @LampRays XR _ (Fin d) (Fin a) m n = Ok l /\
    Z.of_nat (List.length l) = (m * n)%Z /\
    Forall (fun r => exists y th, r = Ray_new (Fin y) (Fin th) /\ - (d / 2) <= y <= d / 2 /\
                                  - a <= th <= a) l /\
    In (Ray_new (Fin (- (d / 2))) (Fin (- a))) l /\ In (Ray_new (Fin (- (d / 2))) (Fin a)) l /\
    In (Ray_new (Fin (d / 2)) (Fin (- a))) l /\ In (Ray_new (Fin (d / 2)) (Fin a)) l.
Proof. exact LampRays_ok. Qed.
Print Assumptions C51_fanGroup.
Print Assumptions C51_UniformRays.

Theorem C51_fan_refuted :
  exists l r, fan c0 c0 (ndec 1 1) 12 = Ok l /\ last_opt l = Some r /\
    nltb (ndec 1 1) (rth r) = true.
Proof. exact fan_overshoots. Qed.
Theorem C51_one_height_refuted :
  exists r, UniformRays (fz 5) (Some (fz 3)) (fz 1) None 1 1 = Ok [r] /\ nltb (ry r) (fz 3) = true.
Proof. exact uniform_one_outside. Qed.
Theorem C51_one_angle_refuted :
  exists r1 r2, UniformRays (fz 5) (Some (fz 3)) (fz 1) None 2 1 = Ok [r1; r2] /\
    nltb (rth r1) (fz 1) = true /\ nltb (rth r2) (fz 1) = true.
Proof. exact uniform_one_angle. Qed.
Print Assumptions C51_fan_refuted.

(** ** C52 *)
Theorem C52_sequence :
  forall T (l : list (@ray T)), Rays_new (Sequence (map Some l)) = Ok l.
Proof. exact @sequence_accepted. Qed.
Theorem C52_non_ray_rejected :
  forall T it (l : list (option (@ray T))),
  it = Sequence l \/ it = OneShot l -> In None l -> Rays_new it = Err TypeError.
Proof. exact @non_ray_rejected. Qed.
Theorem C52_sequence_traced :
  forall T (N : Num T) (e : @elem T) progress (l : list (@ray T)),
  traceManyThrough_it e progress (Sequence (map Some l)) =
    Ok (filter (fun r => negb (rblk r)) (map (traceThrough e) l)).
Proof. exact @sequence_traced. Qed.
Theorem C52_oneshot_parallel :
  forall T (N : Num T) (l : list (@ray T)) (e : @elem T) progress p sched, (0 < p)%Z ->
  (forall i, (i < Z.to_nat p)%nat -> In i sched) ->
  exists out, traceInParallel_it e progress p sched (OneShot (map Some l)) = Ok out /\
    Permutation out (filter (fun r => negb (rblk r)) (map (traceThrough e) l)).
Proof. exact @oneshot_parallel. Qed.
Print Assumptions C52_sequence_traced.
Print Assumptions C52_oneshot_parallel.

(** every one-shot iterator is lost, whatever it contains *)
Theorem C52_oneshot_all_lost :
  forall T (N : Num T) (l : list (@ray T)) (e : @elem T) progress,
  Rays_new (OneShot (map Some l)) = Ok [] /\
  traceManyThrough_it e progress (OneShot (map Some l)) = Ok [].
Proof. exact @oneshot_lost. Qed.
Theorem C52_generator_refuted :
  let e := fspace 10 in
  Space (fz 10) c1 ninf = Ok e /\
  Rays_new (OneShot [Some (fr 1 0); Some (fr 2 0)]) = Ok [] /\
  traceManyThrough_it e false (OneShot [Some (fr 1 0); Some (fr 2 0)]) = Ok [] /\
  List.length (filter (fun r => negb (rblk r)) (map (traceThrough e) [fr 1 0; fr 2 0])) = 2%nat.
Proof. exact generator_lost. Qed.
Print Assumptions C52_generator_refuted.

(** ** C53 *)
(** [r] is the last ray before [z], or the first one exactly at [z] *)
Theorem C53_along :
  forall (tr : list (@ray XR)) r0 t z, tr = r0 :: t -> Forall finite_ray tr ->
  zval r0 <= z <= zval (List.last tr r0) ->
  exists before r after out,
    tr = before ++ r :: after /\ along tr (Fin z) = Ok out /\
    zval r <= z /\ Forall (fun x => zval x < z) before /\
    (zval r < z -> exists nx t, after = nx :: t /\ z < zval nx) /\
    rz out = Fin z /\
    (forall y th, ry r = Fin y -> rth r = Fin th -> ry out = Fin (y + (z - zval r) * th)) /\
    rth out = rth r /\ rblk out = rblk r.
Proof. exact along_ok. Qed.
Print Assumptions C53_along.

Example C53_example :
  let tr := [fray 1 2 0 false PInf None; fray 3 0 5 false PInf None; fray 3 (-1) 5 true PInf None;
             fray 0 0 8 true PInf None] in
  Forall finite_ray tr /\ zval (fray 1 2 0 false PInf None) <= 6 <= zval (List.last tr (fray 1 2 0 false PInf None)) /\
  exists out, along tr (Fin 6) = Ok out /\ ry out = Fin (3 + (6 - 5) * -1) /\ rblk out = true.
Proof.
  cbv zeta. split; [repeat constructor; unfold finite_ray, fray; repeat eexists|]. split; [cbn; lra|].
  destruct (along_ok [fray 1 2 0 false PInf None; fray 3 0 5 false PInf None; fray 3 (-1) 5 true PInf None;
             fray 0 0 8 true PInf None] _ _ 6 eq_refl) as (bf & r & af & out & E & K & H1 & H2 & H3 & H4 & H5 & H6 & H7).
  { repeat constructor; unfold finite_ray, fray; repeat eexists. } { cbn; lra. }
  exists out. split; [exact K|].
  assert (r = fray 3 (-1) 5 true PInf None) as Er.
  { destruct bf as [|b0 [|b1 [|b2 [|b3 bf]]]]; cbn in E; injection E; intros; subst.
    - destruct H3 as (nx & t0 & [= <- <-] & Hn); cbn in *; lra.
    - destruct H3 as (nx & t0 & [= <- <-] & Hn); cbn in *; lra.
    - reflexivity.
    - cbn in H1. lra.
    - destruct bf; discriminate. }
  subst r. split; [apply (H5 3 (-1)); reflexivity|]. rewrite H7. reflexivity.
Qed.

(** ** C54 *)
Theorem C54_focal_line :
  forall alpha n diam e y yMax z (d : XR) w,
  1 < n -> 0 < alpha -> 0 < Rabs y <= yMax ->
  (diam = PInf \/ exists x, diam = Fin x /\ Rabs y <= x / 2) ->
  Axicon (Fin alpha) (Fin n) diam = Ok e ->
  let out := traceThrough e (fray y 0 z false d w) in
  let zc := Rabs y / ((n - 1) * alpha) in
  rblk out = false /\ rz out = Fin z /\ ry out = Fin y /\
  ry (ray_at out (Fin (z + zc))) = Fin 0 /\ 0 < zc /\
  exists L, focalLineLength (Fin n) (Fin alpha) diam (Some (Fin yMax)) = Ok (Fin L) /\ zc <= L.
Proof. exact axicon_ok. Qed.
Print Assumptions C54_focal_line.

Example C54_example : exists e, Axicon (Fin (1/10)) (Fin (3/2)) (Fin 25) = Ok e /\ 0 < Rabs (-3) <= 10.
Proof.
  assert (positive (Fin 25)) as Hd by (cbn; lra).
  pose proof (Matrix_init_optic o_aperture (Fin 25) PInf ""%string p_aperture Hd I) as H.
  unfold Axicon, c0, c1; cbn [nofZ ninf NumXR].
  cbn [o_aperture oM oL onf onb ofv obv mid A_ B_ C_ D_ option_map] in H. rewrite H.
  eexists. split; [reflexivity|]. rewrite Rabs_left; lra.
Qed.

Theorem C54_blocked_refuted :
  exists (e : @elem float) r, Axicon (ndec 1 1) n15 ninf = Ok e /\ r = set_blk (fr 1 0) /\
    neqb (rth (traceThrough e r)) (rth r) = false /\ rblk (traceThrough e r) = true /\
    neqb (rth (hget (snd (trace e 0 [r])) 0)) (rth r) = false.
Proof. exact axicon_bends_blocked. Qed.
Print Assumptions C54_blocked_refuted.

(** ** C61 *)
(** singlets and doublets of the catalogues, flipped once and twice *)
Theorem C61_catalogue_mirrored :
  forall T (N : Num T) (l0 l1 l2 : @lens_kind T),
  ((exists R1 R2 R3 tc1 tc2 na nb diam, DoubletLens R1 R2 R3 tc1 tc2 na nb diam = Ok l0) \/
   (exists R1 R2 tc n diam, SingletLensL R1 R2 tc n diam = Ok l0)) ->
  flip_lens l0 = Ok l1 -> flip_lens l1 = Ok l2 ->
  exists s0 s1, surfaces l0 = Ok s0 /\ surfaces l1 = Ok s1 /\ mirrored s0 s1 /\ surfaces l2 = Ok s0.
Proof. exact @catalogue_mirrored. Qed.
Print Assumptions C61_catalogue_mirrored.
Theorem C61_slab_mirrored :
  forall T (N : Num T) n R1 R2 (m : @mat T) l1, mflip m = false ->
  flip_lens (LLeaf (KSlab n R1 R2) m) = Ok l1 ->
  exists s0 s1, surfaces (LLeaf (KSlab n R1 R2) m) = Ok s0 /\ surfaces l1 = Ok s1 /\ mirrored s0 s1.
Proof. exact @slab_mirrored. Qed.

(** a doublet whose three surfaces are then listed backwards with opposite radii *)
Example C61_example :
  exists l0 l1 l2 s0 s1,
    DoubletLens (fz 92) (fz (-63)) (fz (-173)) (fz 6) (fz 4) n15 (ndec 16 1) (fz 25) = Ok l0 /\
    flip_lens l0 = Ok l1 /\ flip_lens l1 = Ok l2 /\
    surfaces l0 = Ok s0 /\ surfaces l1 = Ok s1 /\
    map su_shape s1 = [Spherical (fz 173); Spherical (fz 63); Spherical (fz (-92))] /\
    map su_L s1 = [fz 4; fz 6; fz 0] /\ map su_n s1 = [ndec 16 1; n15; fz 1].
Proof.
  pose (l0 := thel (DoubletLens (fz 92) (fz (-63)) (fz (-173)) (fz 6) (fz 4) n15 (ndec 16 1) (fz 25))).
  pose (l1 := thel (flip_lens l0)).
  pose (s0 := match surfaces l0 with Ok s => s | Err _ => [] end).
  pose (s1 := match surfaces l1 with Ok s => s | Err _ => [] end).
  exists l0, l1, (thel (flip_lens l1)), s0, s1. vm_compute. repeat split.
Qed.

(** a flipped ThickLens lists its surfaces as if it had not been flipped, for all radii *)
Theorem C61_thick_lens_unchanged :
  forall n r1 r2 (m : @mat XR) l1, mflip m = false ->
  flip_lens (LLeaf (KThickLens n (Fin r1) (Fin r2)) m) = Ok l1 ->
  surfaces l1 = surfaces (LLeaf (KThickLens n (Fin r1) (Fin r2)) m).
Proof. exact thick_lens_not_mirrored. Qed.
Theorem C61_thick_lens_refuted :
  exists e l', ThickLens n15 (fz 100) (fz (-50)) (fz 10) ninf = Ok e /\
    flip_lens (leaf_lens e) = Ok l' /\
    radii (surfaces (leaf_lens e)) = [fz 100; fz (-50)] /\
    radii (surfaces l') = [fz 100; fz (-50)].
Proof. exact thick_lens_surfaces. Qed.
Theorem C61_compound_lens_refuted :
  exists a s b e l', DielectricInterface c1 n15 (fz 100) ninf = Ok a /\ Space (fz 10) n15 ninf = Ok s /\
    DielectricInterface n15 c1 (fz (-50)) ninf = Ok b /\ CompoundLens [a; s; b] ninf = Ok e /\
    flip_lens (leaf_lens e) = Ok l' /\
    radii (surfaces (leaf_lens e)) = [fz 100; fz (-50)] /\
    radii (surfaces l') = [fz 100; fz (-50)].
Proof. exact compound_lens_surfaces. Qed.
Theorem C61_interface_refuted :
  exists e l', DielectricInterface c1 n15 (fz 100) ninf = Ok e /\ flip_lens (leaf_lens e) = Ok l' /\
    radii (surfaces (leaf_lens e)) = [fz 100] /\ radii (surfaces l') = [fz 100].
Proof. exact interface_surfaces. Qed.
Print Assumptions C61_thick_lens_refuted.

(** ** C62 *)
Theorem C62_leaf :
  forall e : @elem XR, not_lens e -> largestDiameter e = mdiam (emat e).
Proof. exact leaf_diameter. Qed.
Theorem C62_group :
  forall gk m (es : list (@elem XR)), Forall not_lens es ->
  (exists e, In e es /\ mdiam (emat e) <> PInf) ->
  exists e d, In e es /\ mdiam (emat e) = Fin d /\ largestDiameter (Group gk m es) = Fin d /\
    forall e' d', In e' es -> mdiam (emat e') = Fin d' -> d' <= d.
Proof. exact group_diameter. Qed.
Print Assumptions C62_group.

Example C62_example :
  let a d := Leaf KAperture (mkMat (Fin 1) (Fin 0) (Fin 0) (Fin 1) (Fin 0) None None (Fin 1) (Fin 1) d PInf false "") in
  Forall not_lens [a (Fin 3); a PInf; a (Fin 7); a (Fin 5)] /\
  exists e, In e [a (Fin 3); a PInf; a (Fin 7); a (Fin 5)] /\ mdiam (emat e) <> PInf.
Proof. cbv zeta. split; [repeat constructor; cbn; lra|]. eexists. split; [left; reflexivity|]. discriminate. Qed.

Theorem C62_lens_refuted :
  exists e, Lens (fz 50) (fz 20) = Ok e /\ largestDiameter e = fz 4 /\
    largestDiameter (show_lens e) = fz 10.
Proof. exact lens_diameter. Qed.
Theorem C62_nested_refuted :
  exists a inner g, Aperture (fz 2) ninf = Ok a /\ MatrixGroupE [fspace 10] = Ok inner /\
    MatrixGroupE [a; inner] = Ok g /\ largestDiameter g = fz 8.
Proof. exact nested_diameter. Qed.
Print Assumptions C62_lens_refuted.

(** ** C64 *)
Theorem C64_symmetric :
  forall a b eps : R,
  areAbsolutelyAlmostEqual (Fin a) (Fin b) (Fin eps) = areAbsolutelyAlmostEqual (Fin b) (Fin a) (Fin eps) /\
  areAbsolutelyNotEqual (Fin a) (Fin b) (Fin eps) = areAbsolutelyNotEqual (Fin b) (Fin a) (Fin eps).
Proof. exact comparisons_symmetric. Qed.
Theorem C64_opposite :
  forall v a b eps : R,
  (Rabs v <> eps -> isNotZero (Fin v) (Fin eps) = negb (isAlmostZero (Fin v) (Fin eps))) /\
  (Rabs (a - b) <> eps -> areAbsolutelyNotEqual (Fin a) (Fin b) (Fin eps) =
                          negb (areAbsolutelyAlmostEqual (Fin a) (Fin b) (Fin eps))).
Proof. exact comparisons_opposite. Qed.
Theorem C64_exclusive :
  forall v a b eps : XR,
  isNotZero v eps && isAlmostZero v eps = false /\
  areAbsolutelyNotEqual a b eps && areAbsolutelyAlmostEqual a b eps = false.
Proof. exact comparisons_exclusive. Qed.
Print Assumptions C64_opposite.
Example C64_example : isAlmostZero (Fin (1/2)) (Fin 1) = true /\ Rabs (1/2) <> 1.
Proof. assert (Rabs (1/2) = 1/2) as E by (apply Rabs_right; lra). unfold isAlmostZero. cbn.
  rewrite E. split; [apply Rltb_lt|]; lra. Qed.

Theorem C64_threshold_refuted :
  exists v eps : float, isNotZero v eps = false /\ isAlmostZero v eps = false.
Proof. exact threshold_neither. Qed.
(** and for every tolerance, not only that one *)
Theorem C64_threshold_all :
  forall eps, 0 <= eps -> isNotZero (Fin eps) (Fin eps) = false /\ isAlmostZero (Fin eps) (Fin eps) = false.
Proof. exact boundary_neither. Qed.
Print Assumptions C64_threshold_refuted.

(** ** C66 *)
Theorem C66_no_wavelength_partial :
  forall T (N : Num T) (e : @elem T) r, rwl r = None ->
  Forall (fun v => rwl v = None) (trace_values e r).
Proof. exact @wavelength_none. Qed.
Print Assumptions C66_no_wavelength_partial.
(** an element never transmits a wavelength *)
Theorem C66_always_lost :
  forall T (N : Num T) k (m : @mat T) r, rblk (traceThrough (Leaf k m) r) = false ->
  rwl (traceThrough (Leaf k m) r) = None.
Proof. exact @wavelength_lost. Qed.
Theorem C66_refuted :
  exists (e : @elem float) r w, Space (fz 10) c1 ninf = Ok e /\
    r = mkRay c0 c0 c0 false ninf (Some w) /\ rwl (traceThrough e r) = None.
Proof. exact wavelength_dropped. Qed.
Print Assumptions C66_refuted.

(** ** C68 *)
Theorem C68_drawn_points :
  forall T rm (l : list (@ray T)),
  rearrangeRayTraceForPlotting rm l =
    if (rm && existsb rblk l)%bool then ([], [])
    else (map rz (filter (fun r => negb (rblk r)) l), map ry (filter (fun r => negb (rblk r)) l)).
Proof. exact @drawn_points. Qed.
Print Assumptions C68_drawn_points.
Example C68_example :
  rearrangeRayTraceForPlotting false [fr 1 0; set_blk (fr 2 0); fr 3 0] = ([fz 0; fz 0], [fz 1; fz 3]) /\
  rearrangeRayTraceForPlotting true [fr 1 0; set_blk (fr 2 0); fr 3 0] = ([], []).
Proof. vm_compute. split; reflexivity. Qed.

(** ** C69 *)
(** [gelems g1] is what save writes; nothing of what [g2] contained is left *)
Theorem C69_load_replaces :
  forall T (N : Num T) (l : list (@elem T)) lab g1 g2, l <> [] -> MatrixGroup_new l lab = Ok g1 ->
  exists g, load_st g2 false (gelems g1) = (g, None) /\ gelems g = gelems g1 /\
    same_attrs (gmat g1) (gmat g).
Proof. exact @load_replaces. Qed.
Print Assumptions C69_load_replaces.
Theorem C69_load_extends :
  forall T (N : Num T) (l : list (@elem T)) g2 g, joins (gelems g2) l -> joined l ->
  load_st g2 true l = (g, None) -> gelems g = gelems g2 ++ l.
Proof. exact @load_extends. Qed.
Print Assumptions C69_load_extends.

(** the loaded space takes the index of the glass before it; the group had other elements *)
Example C69_example :
  exists a s g1 g2, DielectricInterface c1 n15 (fz 100) ninf = Ok a /\ Space (fz 10) c1 ninf = Ok s /\
    MatrixGroup_new [a; s] "" = Ok g1 /\ gelems g1 <> [a; s] /\ MatrixGroup_new [s; s; a] "" = Ok g2 /\
    exists g, load_st g2 false (gelems g1) = (g, None) /\ gelems g = gelems g1 /\ mB (gmat g) = mB (gmat g1).
Proof.
  pose (a := the (DielectricInterface c1 n15 (fz 100) ninf)). pose (s := fspace 10).
  pose (g1 := theg (MatrixGroup_new [a; s] "")). pose (g2 := theg (MatrixGroup_new [s; s; a] "")).
  exists a, s, g1, g2. split; [reflexivity|]. split; [reflexivity|]. split; [vm_compute; reflexivity|].
  split. { intros C. apply (f_equal (fun l => map (fun e => neqb (mfi (emat e)) c1) l)) in C.
    vm_compute in C. discriminate. }
  split; [vm_compute; reflexivity|].
  exists (fst (load_st g2 false (gelems g1))). vm_compute. repeat split.
Qed.

Theorem C69_empty_refuted :
  exists (g1 g2 g : @grp float), MatrixGroup_new [] "" = Ok g1 /\ MatrixGroup_new [fspace 10] "" = Ok g2 /\
    load_st g2 false (gelems g1) = (g, None) /\ gelems g = [] /\
    neqb (mB (gmat g)) (mB (gmat g1)) = false.
Proof. exact load_empty_stale. Qed.
Theorem C69_diameter_refuted :
  exists (a s b e : @elem float) m es g0 g,
    DielectricInterface c1 n15 (fz 100) ninf = Ok a /\ Space (fz 10) n15 ninf = Ok s /\
    DielectricInterface n15 c1 (fz (-50)) ninf = Ok b /\
    CompoundLens [a; s; b] (fz 20) = Ok e /\ e = Group GGroup m es /\ mdiam m = fz 20 /\
    MatrixGroup_new [] "" = Ok g0 /\ load_st g0 false es = (g, None) /\ mdiam (gmat g) = ninf.
Proof. exact load_loses_diameter. Qed.
Print Assumptions C69_empty_refuted.
