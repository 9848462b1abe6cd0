(** Proofs about Rays objects: statistics, iteration, random rays, regular rays, iterables. *)
From Coq Require Import ZArith Reals Lra List Bool Lia Permutation.
From Verif Require Import Base Nums Optics TraceProofs RaysModel RaysProofs.
Import ListNotations.
Open Scope list_scope.

(** ** C48: statistics *)
Section Stats.
Context {T : Type} {N : Num T}.
Context (histogram : list T -> Z -> T -> T -> res (list Z * list T)).
Local Notation ray := (@ray T).
Local Notation stats := (@stats T).
Local Notation hist := (hist_of histogram).

(** the bounds used for a histogram of [values] *)
Definition resolve (values : list T) (mn mx : option T) : res (T * T) :=
  match mn, mx with
  | Some a, Some b => Ok (a, b)
  | Some a, None => b <- pymax values;; Ok (a, b)
  | None, Some b => a <- pymin values;; Ok (a, b)
  | None, None => a <- pymin values;; b <- pymax values;; Ok (a, b)
  end.
(** the histogram of [values] *)
Definition histogram_spec (values : list T) (bins : option Z) (mn mx : option T)
    : res (list T * list Z) :=
  b <- resolve values mn mx;;
  hist values (match bins with Some b => b | None => 40%Z end) (fst b) (snd b).

(** np.histogram gives the same answer for bounds that are == *)
Definition respects_eq : Prop := forall l b x x' y y',
  neqb x x' = true -> neqb y y' = true -> hist l b x y = hist l b x' y'.

(** caches describe the current rays *)
Record coherent (s : stats) : Prop := {
  k_y : forall l, s_y s = Some l -> l = map ry (s_rays s);
  k_th : forall l, s_th s = Some l -> l = map rth (s_rays s);
  k_c : forall b x y hh, s_cpar s = Some (b, x, y) -> hist (map ry (s_rays s)) b x y = Ok hh -> s_chist s = Some hh;
  k_a : forall b x y hh, s_apar s = Some (b, x, y) -> hist (map rth (s_rays s)) b x y = Ok hh -> s_ahist s = Some hh
}.

Lemma coherent_new l : coherent (stats_new l).
Proof. constructor; cbn; congruence. Qed.

Lemma yValues_ok s : coherent s ->
  fst (yValues s) = map ry (s_rays s) /\ coherent (snd (yValues s)) /\
  s_rays (snd (yValues s)) = s_rays s.
Proof.
  intros H. unfold yValues. destruct (s_y s) as [l|] eqn:E; cbn.
  - split; [now apply (k_y _ H)|auto].
  - split; [reflexivity|]. split; [|reflexivity]. destruct H.
    constructor; cbn; auto. congruence.
Qed.
Lemma thetaValues_ok s : coherent s ->
  fst (thetaValues s) = map rth (s_rays s) /\ coherent (snd (thetaValues s)) /\
  s_rays (snd (thetaValues s)) = s_rays s.
Proof.
  intros H. unfold thetaValues. destruct (s_th s) as [l|] eqn:E; cbn.
  - split; [now apply (k_th _ H)|auto].
  - split; [reflexivity|]. split; [|reflexivity]. destruct H.
    constructor; cbn; auto. congruence.
Qed.

Lemma bounds_ok s vs (vals : list T) mn mx : coherent s -> fst vs = vals ->
  coherent (snd vs) -> s_rays (snd vs) = s_rays s ->
  fst (bounds vs s mn mx) = resolve vals mn mx /\
  coherent (snd (bounds vs s mn mx)) /\ s_rays (snd (bounds vs s mn mx)) = s_rays s.
Proof.
  intros H E1 E2 E3. unfold bounds, resolve. subst vals.
  destruct mn, mx; cbn [fst snd]; auto.
Qed.

Lemma par_eqb_some p b x y : par_eqb p (Some (b, x, y)) = true ->
  exists x' y', p = Some (b, x', y') /\ neqb x' x = true /\ neqb y' y = true.
Proof.
  destruct p as [[[b' x'] y']|]; cbn; [|discriminate].
  rewrite !andb_true_iff, Z.eqb_eq. intros [[-> ?] ?]. eauto.
Qed.

Lemma count_ok s b mn mx : respects_eq -> coherent s ->
  (forall h, histogram_spec (map ry (s_rays s)) b mn mx = Ok h ->
     fst (rayCountHistogram histogram s b mn mx) = Ok (Some h)) /\
  (forall x, fst (rayCountHistogram histogram s b mn mx) = Err x ->
     histogram_spec (map ry (s_rays s)) b mn mx = Err x) /\
  coherent (snd (rayCountHistogram histogram s b mn mx)) /\
  s_rays (snd (rayCountHistogram histogram s b mn mx)) = s_rays s.
Proof.
  intros HR H. destruct (yValues_ok s H) as (Y1 & Y2 & Y3).
  destruct (bounds_ok s (yValues s) _ mn mx H Y1 Y2 Y3) as (B1 & B2 & B3).
  unfold rayCountHistogram, histogram_spec. rewrite <- B1.
  destruct (bounds (yValues s) s mn mx) as [[[lo hi]|x] s1]; cbn [fst snd bind] in *;
    [|split; [discriminate|]; split; [intros ? [= <-]; reflexivity|auto]].
  set (b' := match b with Some b => b | None => 40%Z end).
  destruct (par_eqb (s_cpar s1) (Some (b', lo, hi))) eqn:EP; cbn [fst snd].
  - destruct (par_eqb_some _ _ _ _ EP) as (x & y & E & Ex & Ey).
    split; [|split; [discriminate|auto]].
    intros h Hh. f_equal. apply (k_c _ B2 _ _ _ _ E). rewrite B3, <- Hh. now apply HR.
  - destruct (yValues_ok s1 B2) as (Z1 & Z2 & Z3).
    destruct (yValues s1) as [ys s2]. cbn [fst snd] in *. subst ys. rewrite B3 in *.
    destruct (hist (map ry (s_rays s)) b' lo hi) as [hh|x] eqn:EH; cbn [fst snd].
    + split; [congruence|]. split; [congruence|]. split; [|cbn; congruence].
      destruct Z2. constructor; cbn; auto. rewrite Z3. intros. congruence.
    + split; [congruence|]. split; [congruence|]. split; [|cbn; congruence].
      destruct Z2. constructor; cbn; auto. rewrite Z3. intros. congruence.
Qed.

Lemma angles_ok s b mn mx : respects_eq -> coherent s ->
  (forall h, histogram_spec (map rth (s_rays s)) b mn mx = Ok h ->
     fst (rayAnglesHistogram histogram s b mn mx) = Ok (Some h)) /\
  (forall x, fst (rayAnglesHistogram histogram s b mn mx) = Err x ->
     histogram_spec (map rth (s_rays s)) b mn mx = Err x) /\
  coherent (snd (rayAnglesHistogram histogram s b mn mx)) /\
  s_rays (snd (rayAnglesHistogram histogram s b mn mx)) = s_rays s.
Proof.
  intros HR H. destruct (thetaValues_ok s H) as (Y1 & Y2 & Y3).
  destruct (bounds_ok s (thetaValues s) _ mn mx H Y1 Y2 Y3) as (B1 & B2 & B3).
  unfold rayAnglesHistogram, histogram_spec. rewrite <- B1.
  destruct (bounds (thetaValues s) s mn mx) as [[[lo hi]|x] s1]; cbn [fst snd bind] in *;
    [|split; [discriminate|]; split; [intros ? [= <-]; reflexivity|auto]].
  set (b' := match b with Some b => b | None => 40%Z end).
  destruct (par_eqb (s_apar s1) (Some (b', lo, hi))) eqn:EP; cbn [fst snd].
  - destruct (par_eqb_some _ _ _ _ EP) as (x & y & E & Ex & Ey).
    split; [|split; [discriminate|auto]].
    intros h Hh. f_equal. apply (k_a _ B2 _ _ _ _ E). rewrite B3, <- Hh. now apply HR.
  - destruct (thetaValues_ok s1 B2) as (Z1 & Z2 & Z3).
    destruct (thetaValues s1) as [ys s2]. cbn [fst snd] in *. subst ys. rewrite B3 in *.
    destruct (hist (map rth (s_rays s)) b' lo hi) as [hh|x] eqn:EH; cbn [fst snd].
    + split; [congruence|]. split; [congruence|]. split; [|cbn; congruence].
      destruct Z2. constructor; cbn; auto. rewrite Z3. intros. congruence.
    + split; [congruence|]. split; [congruence|]. split; [|cbn; congruence].
      destruct Z2. constructor; cbn; auto. rewrite Z3. intros. congruence.
Qed.

(** the rays contained after a history, as the user counts them *)
Fixpoint contents (l : list ray) (os : list (@sop T)) : list ray :=
  match os with
  | [] => l
  | SAppend r :: t => contents (l ++ [r]) t
  | SLoad app l' :: t => contents (if app then l ++ l' else l') t
  | _ :: t => contents l t
  end.
(** histories that only load into an object nothing was asked from yet *)
Fixpoint asked_before_load (asked : bool) (os : list (@sop T)) : bool :=
  match os with
  | [] => true
  | SLoad _ _ :: t => negb asked && asked_before_load asked t
  | SAppend _ :: t => asked_before_load false t
  | (SIter | SNext) :: t => asked_before_load asked t
  | _ :: t => asked_before_load true t
  end.

Definition no_cache (s : stats) : Prop :=
  s_y s = None /\ s_th s = None /\ s_cpar s = None /\ s_apar s = None.

Lemma next_keeps (s : stats) : match stats_next s with
  | Some (_, s') => s_rays s' = s_rays s /\ (coherent s -> coherent s') /\ (no_cache s -> no_cache s')
  | None => True end.
Proof.
  unfold stats_next. destruct (_ <? _)%Z; auto. destruct (nth_error _ _); auto.
  split; [reflexivity|]. split; [|auto]. intros []. constructor; cbn; auto.
Qed.

Lemma srun_coherent os : respects_eq -> forall s asked, coherent s -> (asked = false -> no_cache s) ->
  asked_before_load asked os = true ->
  coherent (srun histogram s os) /\ s_rays (srun histogram s os) = contents (s_rays s) os.
Proof.
  intros HR. induction os as [|o os IH]; intros s asked H HA HB; [cbn; auto|].
  unfold srun. cbn [fold_left]. fold (srun histogram (sstep histogram s o) os).
  destruct o; cbn [sstep contents asked_before_load] in *.
  - destruct (IH (stats_append s r) false) as [I1 I2]; auto.
    { constructor; cbn; congruence. }
    { repeat split. }
  - apply andb_true_iff in HB as [HB1 HB]. destruct asked; [discriminate|].
    destruct (HA eq_refl) as (A1 & A2 & A3 & A4).
    destruct (IH (stats_load s app l) false) as [I1 I2]; auto.
    { constructor; cbn; congruence. }
  - destruct (IH (stats_iter s) asked) as [I1 I2]; auto.
    destruct H; constructor; cbn; auto.
  - pose proof (next_keeps s) as K. destruct (stats_next s) as [[r s']|].
    + destruct K as (K1 & K2 & K3). rewrite <- K1. apply (IH s' asked); auto.
    + apply (IH s asked); auto.
  - destruct (yValues_ok s H) as (_ & K1 & K2). rewrite <- K2.
    apply (IH _ true); auto. discriminate.
  - destruct (thetaValues_ok s H) as (_ & K1 & K2). rewrite <- K2.
    apply (IH _ true); auto. discriminate.
  - destruct (count_ok s bins mn mx HR H) as (_ & _ & K1 & K2). rewrite <- K2.
    apply (IH _ true); auto. discriminate.
  - destruct (angles_ok s bins mn mx HR H) as (_ & _ & K1 & K2). rewrite <- K2.
    apply (IH _ true); auto. discriminate.
Qed.

(** what a query for a histogram answers: the histogram, if there is one; when it raises, so
    does the computation of the histogram *)
Definition answers (got : res (option (list T * list Z))) (want : res (list T * list Z)) : Prop :=
  (forall h, want = Ok h -> got = Ok (Some h)) /\ (forall x, got = Err x -> want = Err x).
Theorem stats_current l os : respects_eq -> asked_before_load false os = true ->
  let s := srun histogram (stats_new l) os in
  let now := contents l os in
  fst (yValues s) = map ry now /\ fst (thetaValues s) = map rth now /\
  (forall b mn mx, answers (fst (rayCountHistogram histogram s b mn mx)) (histogram_spec (map ry now) b mn mx)) /\
  (forall b mn mx, answers (fst (rayAnglesHistogram histogram s b mn mx)) (histogram_spec (map rth now) b mn mx)).
Proof.
  intros HR HB s now.
  destruct (srun_coherent os HR (stats_new l) false (coherent_new l)) as [H E]; auto.
  { repeat split. }
  fold s in H, E. cbn in E. fold now in E.
  destruct (yValues_ok s H) as (Y & _ & _). destruct (thetaValues_ok s H) as (TH & _ & _).
  rewrite <- E. split; auto. split; auto.
  split; intros b mn mx.
  - destruct (count_ok s b mn mx HR H) as (A & B & _). split; auto.
  - destruct (angles_ok s b mn mx HR H) as (A & B & _). split; auto.
Qed.
End Stats.

(** ** C49: loops *)
Section Loops.
Context {T : Type} {N : Num T}.
Local Notation ray := (@ray T).
Local Notation stats := (@stats T).

(** a body that neither moves the iterator nor changes the rays *)
Definition quiet (body : ray -> stats -> stats) (I : stats -> Prop) : Prop :=
  forall x s, I s -> s_pos (body x s) = s_pos s /\ s_rays (body x s) = s_rays s /\ I (body x s).

Lemma stats_next_some (s : stats) k r : s_pos s = Z.of_nat k -> nth_error (s_rays s) k = Some r ->
  exists s', stats_next s = Some (r, s') /\ s_pos s' = Z.of_nat (S k) /\ s_rays s' = s_rays s /\
    s_y s' = s_y s /\ s_th s' = s_th s.
Proof.
  intros E H. assert (k < List.length (s_rays s))%nat by (apply nth_error_Some; congruence).
  unfold stats_next. rewrite E.
  destruct (Z.ltb_spec (Z.of_nat k) (Z.of_nat (List.length (s_rays s)))); [|lia].
  rewrite Nat2Z.id, H. eexists; split; [reflexivity|]. cbn. repeat split; auto. lia.
Qed.

Lemma for_quiet (body : ray -> stats -> stats) (I : stats -> Prop) : quiet body I ->
  (forall s r s', I s -> stats_next s = Some (r, s') -> I s') ->
  forall todo fuel done s, I s -> s_rays s = done ++ todo -> s_pos s = Z.of_nat (List.length done) ->
  (List.length todo < fuel)%nat ->
  fst (for_loop fuel stats_next body s done) = Ok (done ++ todo).
Proof.
  intros HQ HN. induction todo as [|x todo IH]; intros fuel done s HI E P Hf;
    (destruct fuel as [|fuel]; [cbn in Hf; lia|]); cbn [for_loop].
  - unfold stats_next. rewrite E, P, app_nil_r.
    destruct (Z.ltb_spec (Z.of_nat (List.length done)) (Z.of_nat (List.length done))); [lia|].
    reflexivity.
  - destruct (stats_next_some s (List.length done) x P) as (s' & E1 & E2 & E3 & _).
    { rewrite E, nth_error_app2, Nat.sub_diag by lia. reflexivity. }
    rewrite E1. cbn in Hf. specialize (HN _ _ _ HI E1).
    destruct (HQ x s' HN) as (Q1 & Q2 & Q3).
    replace (done ++ x :: todo) with ((done ++ [x]) ++ todo) in * by (now rewrite <- app_assoc).
    apply IH; auto.
    + congruence.
    + rewrite Q1, E2, app_length. cbn. f_equal; lia.
    + lia.
Qed.

Theorem loop_visits_all (body : ray -> stats -> stats) (I : stats -> Prop) s fuel :
  quiet body I -> (forall s r s', I s -> stats_next s = Some (r, s') -> I s') ->
  I (stats_iter s) -> (List.length (s_rays s) < fuel)%nat ->
  fst (for_rays fuel body s) = Ok (s_rays s).
Proof.
  intros HQ HN HI Hf. unfold for_rays.
  now rewrite (for_quiet body I HQ HN (s_rays s) fuel [] (stats_iter s)).
Qed.

(** both value lists have been computed *)
Definition warmed (s : stats) : Prop := s_y s <> None /\ s_th s <> None.

Lemma warm_next (s : stats) r s' : warmed s -> stats_next s = Some (r, s') -> warmed s'.
Proof.
  unfold stats_next. destruct (_ <? _)%Z; [|discriminate].
  destruct (nth_error _ _); [|discriminate]. intros H [= _ <-]. exact H.
Qed.

Lemma warm_y (s : stats) : warmed s -> snd (yValues s) = s.
Proof. intros [H _]. unfold yValues. destruct (s_y s); [reflexivity|congruence]. Qed.
Lemma warm_th (s : stats) : warmed s -> snd (thetaValues s) = s.
Proof. intros [_ H]. unfold thetaValues. destruct (s_th s); [reflexivity|congruence]. Qed.

Lemma warm_bounds vs (s : stats) mn mx : snd vs = s -> snd (bounds vs s mn mx) = s.
Proof. intros E. unfold bounds. destruct mn, mx; cbn; auto. Qed.

Lemma warm_count hist (s : stats) b mn mx : warmed s ->
  let s' := snd (rayCountHistogram hist s b mn mx) in
  s_pos s' = s_pos s /\ s_rays s' = s_rays s /\ warmed s'.
Proof.
  intros H. unfold rayCountHistogram.
  pose proof (warm_bounds (yValues s) s mn mx (warm_y s H)) as E.
  destruct (bounds (yValues s) s mn mx) as [[[lo hi]|x] s1]; cbn in E; subst s1; cbn; auto.
  destruct (par_eqb _ _); cbn; auto.
  pose proof (warm_y s H) as E. destruct (yValues s) as [ys s2]; cbn in *; subst.
  match goal with |- context [match ?x with Ok _ => _ | Err _ => _ end] => destruct x end; cbn; auto.
Qed.
Lemma warm_angles hist (s : stats) b mn mx : warmed s ->
  let s' := snd (rayAnglesHistogram hist s b mn mx) in
  s_pos s' = s_pos s /\ s_rays s' = s_rays s /\ warmed s'.
Proof.
  intros H. unfold rayAnglesHistogram.
  pose proof (warm_bounds (thetaValues s) s mn mx (warm_th s H)) as E.
  destruct (bounds (thetaValues s) s mn mx) as [[[lo hi]|x] s1]; cbn in E; subst s1; cbn; auto.
  destruct (par_eqb _ _); cbn; auto.
  pose proof (warm_th s H) as E. destruct (thetaValues s) as [ys s2]; cbn in *; subst.
  match goal with |- context [match ?x with Ok _ => _ | Err _ => _ end] => destruct x end; cbn; auto.
Qed.

(** queries *)
Definition is_query (o : @sop T) : Prop :=
  match o with SY | STheta | SCount _ _ _ | SAngles _ _ _ => True | _ => False end.

Lemma warm_queries hist qs (s : stats) : Forall is_query qs -> warmed s ->
  s_pos (srun hist s qs) = s_pos s /\ s_rays (srun hist s qs) = s_rays s /\ warmed (srun hist s qs).
Proof.
  intros HF. revert s. induction HF as [|q qs Hq HF IH]; intros s H; [cbn; auto|].
  unfold srun; cbn [fold_left]; fold (srun hist (sstep hist s q) qs).
  assert (s_pos (sstep hist s q) = s_pos s /\ s_rays (sstep hist s q) = s_rays s /\
          warmed (sstep hist s q)) as (E1 & E2 & E3).
  { destruct q; cbn in Hq; try contradiction; cbn [sstep].
    - rewrite warm_y; auto.
    - rewrite warm_th; auto.
    - now apply warm_count.
    - now apply warm_angles. }
  destruct (IH _ E3) as (F1 & F2 & F3). rewrite F1, F2. auto.
Qed.

(** once yValues and thetaValues have been read, a loop whose body asks for statistics visits
    every ray once, in order *)
Theorem warmed_loop hist (qs : ray -> list (@sop T)) s fuel :
  (forall r, Forall is_query (qs r)) -> warmed s -> (List.length (s_rays s) < fuel)%nat ->
  fst (for_rays fuel (fun r s => srun hist s (qs r)) s) = Ok (s_rays s).
Proof.
  intros HQ HW Hf. apply loop_visits_all with (I := warmed); auto.
  - intros x s' Hs. now apply warm_queries.
  - intros s0 r s' H E. eapply warm_next; eauto.
Qed.

(** a body that does not touch the object at all *)
Theorem plain_loop s fuel (body : ray -> stats -> stats) : (forall r s, body r s = s) ->
  (List.length (s_rays s) < fuel)%nat -> fst (for_rays fuel body s) = Ok (s_rays s).
Proof.
  intros HB Hf. apply loop_visits_all with (I := fun _ => True); auto.
  intros x s' _. rewrite HB. auto.
Qed.

(** MatrixGroup *)
Theorem group_loop (g : @group_it T) fuel body : (forall e g, body e g = g) ->
  (List.length (gi_elems g) < fuel)%nat -> fst (for_group fuel body g) = Ok (gi_elems g).
Proof.
  intros HB. unfold for_group, gi_iter.
  assert (forall todo fuel done, gi_elems g = done ++ todo -> (List.length todo < fuel)%nat ->
    fst (for_loop fuel gi_next body (mkGit (gi_elems g) (List.length done)) done) = Ok (done ++ todo)) as K.
  { induction todo as [|x todo IH]; intros f done E Hf;
      (destruct f as [|f]; [cbn in Hf; lia|]); cbn [for_loop]; unfold gi_next; cbn [gi_elems gi_pos];
      rewrite E.
    - rewrite app_nil_r. replace (nth_error done (List.length done)) with (@None (@elem T)); [reflexivity|].
      symmetry. now apply nth_error_None.
    - rewrite nth_error_app2, Nat.sub_diag by lia. cbn [nth_error]. rewrite HB.
      replace (done ++ x :: todo) with ((done ++ [x]) ++ todo) in * by (now rewrite <- app_assoc).
      rewrite <- E. replace (S (List.length done)) with (List.length (done ++ [x]))
        by (rewrite app_length; cbn; lia).
      cbn in Hf. rewrite IH; [now rewrite E|auto|lia]. }
  intros Hf. exact (K (gi_elems g) fuel [] eq_refl Hf).
Qed.
End Loops.

(** ** C50: random rays *)
Section RandomRays.
Context {T : Type} {N : Num T}.
Context (g : nat -> T).
Local Notation ray := (@ray T).

(** the k-th ray of the stream *)
Definition kth (ylo yhi tlo thi : T) (k : nat) : ray :=
  Ray_new (nadd ylo (nmul (g (S (2 * k))) (nsub yhi ylo)))
          (nadd tlo (nmul (g (2 * k)) (nsub thi tlo))).

Definition q_kth (q : @random_rays T) := kth (q_ymin q) (q_ymax q) (q_thmin q) (q_thmax q).

(** what has been generated is the beginning of the stream *)
Definition q_ok (q : @random_rays T) : Prop :=
  q_rays q = map (q_kth q) (seq 0 (List.length (q_rays q))) /\
  q_used q = (2 * List.length (q_rays q))%nat /\
  (Z.of_nat (List.length (q_rays q)) <= q_max q)%Z.

Definition same_params (q q' : @random_rays T) : Prop :=
  q_max q' = q_max q /\ q_ymin q' = q_ymin q /\ q_ymax q' = q_ymax q /\
  q_thmin q' = q_thmin q /\ q_thmax q' = q_thmax q.

Lemma same_kth q q' : same_params q q' -> q_kth q' = q_kth q.
Proof. intros (_ & E1 & E2 & E3 & E4). unfold q_kth. now rewrite E1, E2, E3, E4. Qed.

Lemma randomRay_ok q : q_ok q ->
  same_params q (snd (randomRay g q)) /\ q_ok (snd (randomRay g q)) /\
  q_pos (snd (randomRay g q)) = q_pos q /\
  ((Z.of_nat (List.length (q_rays q)) < q_max q)%Z ->
     fst (randomRay g q) = Ok (q_kth q (List.length (q_rays q))) /\
     List.length (q_rays (snd (randomRay g q))) = S (List.length (q_rays q))) /\
  ((Z.of_nat (List.length (q_rays q)) = q_max q)%Z ->
     randomRay g q = (Err AttributeError, q)).
Proof.
  intros (H1 & H2 & H3). unfold randomRay.
  destruct (Z.eqb_spec (Z.of_nat (List.length (q_rays q))) (q_max q)) as [E|E].
  - cbn [fst snd]. split; [repeat split|]. split; [split; auto|]. split; [reflexivity|].
    split; intros; [lia|reflexivity].
  - cbn [fst snd]. split; [repeat split|].
    assert (List.length (q_rays q ++
      [Ray_new (nadd (q_ymin q) (nmul (g (S (q_used q))) (nsub (q_ymax q) (q_ymin q))))
               (nadd (q_thmin q) (nmul (g (q_used q)) (nsub (q_thmax q) (q_thmin q))))])
      = S (List.length (q_rays q))) as EL by (rewrite app_length; cbn; lia).
    split; [|split; [reflexivity|split]].
    + split; [|split]; cbn [q_push q_rays q_used q_max].
      * rewrite EL, seq_S, map_app. cbn [map]. rewrite Nat.add_0_l. f_equal; auto.
        unfold q_kth, kth; cbn [q_push q_ymin q_ymax q_thmin q_thmax].
        now rewrite H2.
      * rewrite EL, H2. lia.
      * rewrite EL. lia.
    + intros _. split; [|exact EL]. unfold q_kth, kth. now rewrite H2.
    + intros E'. congruence.
Qed.

Lemma fill_ok fuel : forall q item, q_ok q -> (0 <= item < q_max q)%Z ->
  (item + 1 - Z.of_nat (List.length (q_rays q)) <= Z.of_nat fuel)%Z ->
  exists q', fill g fuel q item = (None, q') /\ q_ok q' /\ same_params q q' /\
    (item < Z.of_nat (List.length (q_rays q')))%Z /\ q_pos q' = q_pos q.
Proof.
  induction fuel as [|fuel IH]; intros q item HQ Hi Hf; cbn [fill].
  - destruct (Z.leb_spec (Z.of_nat (List.length (q_rays q))) item); [lia|].
    exists q. split; auto. split; auto. split; [repeat split|]. split; [lia|auto].
  - destruct (Z.leb_spec (Z.of_nat (List.length (q_rays q))) item).
    + destruct (randomRay_ok q HQ) as (S1 & S2 & S3 & S4 & _).
      destruct (randomRay g q) as [r q1]. cbn [fst snd] in *.
      destruct S4 as [-> EL]; [lia|]. 
      destruct (IH q1 item) as (q2 & F1 & F2 & F3 & F4 & F5); auto.
      { destruct S1 as (-> & _). auto. }
      { rewrite EL. lia. }
      exists q2. split; auto. split; auto. split; [|split; [auto|congruence]].
      destruct S1 as (? & ? & ? & ? & ?), F3 as (? & ? & ? & ? & ?). repeat split; congruence.
    + exists q. split; auto. split; auto. split; [repeat split|]. split; [lia|auto].
Qed.

Lemma random_get_ok q i : q_ok q ->
  let j := if (i <? 0)%Z then (i + q_max q)%Z else i in
  fst (random_get g q i) =
    (if ((0 <=? j) && (j <? q_max q))%Z then Ok (q_kth q (Z.to_nat j)) else Err IndexError) /\
  q_ok (snd (random_get g q i)) /\ same_params q (snd (random_get g q i)) /\
  q_pos (snd (random_get g q i)) = q_pos q.
Proof.
  intros HQ j. unfold random_get. fold j.
  destruct (Z.ltb_spec j 0); cbn [orb].
  { destruct (Z.leb_spec 0 j); [lia|]. cbn. repeat split; apply HQ. }
  destruct (Z.leb_spec (q_max q) j).
  { destruct (Z.ltb_spec j (q_max q)); [lia|]. rewrite andb_false_r. cbn. repeat split; apply HQ. }
  destruct (Z.leb_spec 0 j); [|lia]. destruct (Z.ltb_spec j (q_max q)); [|lia]. cbn [andb].
  destruct (fill_ok (S (Z.to_nat j)) q j HQ) as (q' & F1 & F2 & F3 & F4 & F5); [lia|lia|].
  rewrite F1. cbn [fst snd]. split; [|auto].
  destruct F2 as (G1 & _). rewrite G1, nth_error_map.
  rewrite (same_kth _ _ F3).
  rewrite (nth_error_nth' _ 0%nat) by (rewrite seq_length; lia).
  cbn. rewrite seq_nth by lia. reflexivity.
Qed.

Lemma random_next_ok q : q_ok q -> (0 <= q_pos q)%Z ->
  fst (random_next g q) =
    (if (q_pos q <? q_max q)%Z then Some (Ok (q_kth q (Z.to_nat (q_pos q)))) else None) /\
  q_ok (snd (random_next g q)) /\ same_params q (snd (random_next g q)) /\
  q_pos (snd (random_next g q)) = (if (q_pos q <? q_max q)%Z then q_pos q + 1 else q_pos q)%Z.
Proof.
  intros HQ HP. unfold random_next.
  destruct (Z.leb_spec (q_max q) (q_pos q)).
  - destruct (Z.ltb_spec (q_pos q) (q_max q)); [lia|]. cbn. repeat split; apply HQ.
  - destruct (Z.ltb_spec (q_pos q) (q_max q)); [|lia].
    destruct (random_get_ok q (q_pos q) HQ) as (G1 & G2 & G3 & G4).
    destruct (Z.ltb_spec (q_pos q) 0); [lia|].
    destruct (Z.leb_spec 0 (q_pos q)); [|lia].
    destruct (Z.ltb_spec (q_pos q) (q_max q)); [|lia]. cbn [andb] in G1.
    destruct (random_get g q (q_pos q)) as [r q']. cbn [fst snd] in *. subst r. cbn.
    split; [reflexivity|]. split; [exact G2|]. split; [exact G3|]. rewrite G4. lia.
Qed.

Lemma qstep_ok q o : q_ok q -> (0 <= q_pos q)%Z ->
  q_ok (qstep g q o) /\ same_params q (qstep g q o) /\ (0 <= q_pos (qstep g q o))%Z.
Proof.
  intros HQ HP. destruct o; cbn [qstep].
  - destruct (random_get_ok q i HQ) as (_ & G2 & G3 & G4). rewrite G4. auto.
  - split; [exact HQ|]. split; [repeat split|]. cbn; lia.
  - destruct (random_next_ok q HQ HP) as (_ & G2 & G3 & G4). rewrite G4.
    split; auto. split; auto. destruct (_ <? _)%Z; lia.
  - destruct (randomRay_ok q HQ) as (G1 & G2 & G3 & _). rewrite G3. auto.
Qed.

Lemma qrun_ok os : forall q, q_ok q -> (0 <= q_pos q)%Z ->
  q_ok (qrun g q os) /\ same_params q (qrun g q os) /\ (0 <= q_pos (qrun g q os))%Z.
Proof.
  induction os as [|o os IH]; intros q HQ HP; [cbn; repeat split; auto; apply HQ|].
  unfold qrun; cbn [fold_left]; fold (qrun g (qstep g q o) os).
  destruct (qstep_ok q o HQ HP) as (A1 & A2 & A3).
  destruct (IH _ A1 A3) as (B1 & B2 & B3). split; auto. split; auto.
  destruct A2 as (? & ? & ? & ? & ?), B2 as (? & ? & ? & ? & ?). repeat split; congruence.
Qed.

Definition lower (hi : T) (lo : option T) : T := match lo with Some v => v | None => nopp hi end.

Lemma q_new_ok ymax ymin thmax thmin mc : (0 <= mc)%Z ->
  q_ok (RandomUniformRays ymax ymin thmax thmin mc).
Proof. intros H. split; [reflexivity|]. split; [reflexivity|]. cbn. exact H. Qed.

(** C50: whatever was accessed before, rays[i] is the i-th ray of the stream *)
Theorem random_stable ymax ymin thmax thmin mc os : (0 <= mc)%Z ->
  let q := qrun g (RandomUniformRays ymax ymin thmax thmin mc) os in
  let ray_k := kth (lower ymax ymin) ymax (lower thmax thmin) thmax in
  random_len q = mc /\
  (forall i, (0 <= i < mc)%Z -> fst (random_get g q i) = Ok (ray_k (Z.to_nat i)) /\
                                fst (random_get g q (i - mc)) = Ok (ray_k (Z.to_nat i))) /\
  (forall i, (i < - mc \/ mc <= i)%Z -> fst (random_get g q i) = Err IndexError) /\
  (exists n, q_rays q = map ray_k (seq 0 n) /\ (Z.of_nat n <= mc)%Z).
Proof.
  intros Hm q ray_k.
  destruct (qrun_ok os (RandomUniformRays ymax ymin thmax thmin mc)) as (HQ & HP & _).
  { now apply q_new_ok. } { cbn; lia. }
  fold q in HQ, HP. destruct HP as (P1 & P2 & P3 & P4 & P5). cbn in P1, P2, P3, P4, P5.
  assert (q_kth q = ray_k) as EK by (unfold q_kth; now rewrite P2, P3, P4, P5).
  assert (q_max q = mc) as EM by (rewrite P1; reflexivity).
  split; [exact EM|]. split; [|split].
  - intros i Hi. split.
    + destruct (random_get_ok q i HQ) as (G & _). rewrite G, EK, EM.
      destruct (Z.ltb_spec i 0); [lia|]. destruct (Z.leb_spec 0 i); [|lia].
      destruct (Z.ltb_spec i mc); [|lia]. reflexivity.
    + destruct (random_get_ok q (i - mc) HQ) as (G & _). rewrite G, EK, EM.
      destruct (Z.ltb_spec (i - mc) 0); [|lia]. replace (i - mc + mc)%Z with i by lia.
      destruct (Z.leb_spec 0 i); [|lia]. destruct (Z.ltb_spec i mc); [|lia]. reflexivity.
  - intros i Hi. destruct (random_get_ok q i HQ) as (G & _). rewrite G, EM.
    destruct (Z.ltb_spec i 0).
    + destruct (Z.leb_spec 0 (i + mc)); [lia|]. reflexivity.
    + destruct (Z.ltb_spec i mc); [lia|]. now rewrite andb_false_r.
  - exists (List.length (q_rays q)). destruct HQ as (H1 & _ & H3). rewrite <- EK, <- EM. auto.
Qed.

(** iterating gives the stream, each ray once, from any state *)
Fixpoint random_for (fuel : nat) (q : @random_rays T) : list (res ray) :=
  match fuel with
  | O => []
  | S fuel => match random_next g q with
              | (Some r, q') => r :: random_for fuel q'
              | (None, _) => []
              end
  end.

Theorem random_iter ymax ymin thmax thmin mc os fuel : (0 <= mc < Z.of_nat fuel)%Z ->
  let q := qrun g (RandomUniformRays ymax ymin thmax thmin mc) os in
  let ray_k := kth (lower ymax ymin) ymax (lower thmax thmin) thmax in
  random_for fuel (q_set_pos q 0) = map (fun k => Ok (ray_k k)) (seq 0 (Z.to_nat mc)).
Proof.
  intros Hm q ray_k.
  destruct (qrun_ok os (RandomUniformRays ymax ymin thmax thmin mc)) as (HQ & HP & _).
  { apply q_new_ok; lia. } { cbn; lia. }
  fold q in HQ, HP.
  assert (forall fuel k q', q_ok q' -> same_params (RandomUniformRays ymax ymin thmax thmin mc) q' ->
    q_pos q' = Z.of_nat k -> (Z.of_nat k <= mc)%Z -> (mc - Z.of_nat k < Z.of_nat fuel)%Z ->
    random_for fuel q' = map (fun k => Ok (ray_k k)) (seq k (Z.to_nat mc - k))) as K.
  { clear HQ HP q Hm fuel. induction fuel as [|fuel IH]; intros k q HQ HP Ek Hk Hf; [lia|].
    cbn [random_for]. destruct (random_next_ok q HQ) as (G1 & G2 & G3 & G4); [lia|].
    destruct (random_next g q) as [r q']. cbn [fst snd] in *.
    assert (q_kth q = ray_k) as EK.
    { destruct HP as (P1 & P2 & P3 & P4 & P5). cbn in P1, P2, P3, P4, P5.
      unfold q_kth; now rewrite P2, P3, P4, P5. }
    assert (q_max q = mc) as EM by (destruct HP as (-> & _); reflexivity).
    rewrite EM, EK, Ek in *. destruct (Z.ltb_spec (Z.of_nat k) mc); subst r.
    - replace (Z.to_nat mc - k)%nat with (S (Z.to_nat mc - S k)) by lia.
      cbn [seq map]. rewrite Nat2Z.id. f_equal. apply IH; auto; try lia.
      destruct HP as (? & ? & ? & ? & ?), G3 as (? & ? & ? & ? & ?). repeat split; congruence.
    - replace (Z.to_nat mc - k)%nat with 0%nat by lia. reflexivity. }
  rewrite (K fuel 0%nat (q_set_pos q 0)); auto; try lia.
  now rewrite Nat.sub_0_r.
Qed.
End RandomRays.

Open Scope R_scope.
(** every ray of the stream lies in the requested ranges *)
Theorem random_bounded (g : nat -> R) ylo yhi tlo thi k :
  (forall n, 0 <= g n < 1) -> ylo <= yhi -> tlo <= thi ->
  exists y th, @kth XR _ (fun n => Fin (g n)) (Fin ylo) (Fin yhi) (Fin tlo) (Fin thi) k
    = Ray_new (Fin y) (Fin th) /\ ylo <= y <= yhi /\ tlo <= th <= thi.
Proof.
  intros Hg Hy Ht. unfold kth.
  exists (ylo + g (S (2 * k)) * (yhi - ylo)), (tlo + g (2 * k)%nat * (thi - tlo)).
  split; [cbn; unfold Rminus; reflexivity|].
  pose proof (Hg (S (2 * k))) as [A1 A2]. pose proof (Hg (2 * k)%nat) as [B1 B2].
  generalize dependent (g (S (2 * k))). generalize dependent (g (2 * k)%nat). intros u ? ? v ? ?.
  assert (0 <= v * (yhi - ylo)) by (apply Rmult_le_pos; lra).
  assert (v * (yhi - ylo) <= 1 * (yhi - ylo)) by (apply Rmult_le_compat_r; lra).
  assert (0 <= u * (thi - tlo)) by (apply Rmult_le_pos; lra).
  assert (u * (thi - tlo) <= 1 * (thi - tlo)) by (apply Rmult_le_compat_r; lra).
  split; lra.
Qed.
