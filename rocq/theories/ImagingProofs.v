(** Proofs about the special rays, stops and pupils of an imaging path. *)
From Coq Require Import ZArith Reals Lra Lia List Bool Sorted String.
From Verif Require Import Base Nums Optics Group Spec MatrixProofs ElementProofs GroupProofs
  TraceProofs RayProofs StrictProofs FlipProofs TransferProofs Imaging.
Import ListNotations.
Open Scope list_scope.

(** ** The rays met in a trace *)
Section Generic.
Context {T : Type} {N : Num T}.
Local Notation elem := (@elem T).
Local Notation ray := (@ray T).
Local Notation heap := (@heap T).

(** the ray after [i] of the leaves [l] *)
Definition after (l : list (@kind T * @mat T)) (r : ray) (i : nat) : ray := ideals (firstn i l) r.

Lemma trace_values_last e (r : ray) d : List.last (trace_values e r) d = traceThrough e r.
Proof.
  unfold trace_values, traceThrough. pose proof (trace_is_ok e 0 [r] ltac:(cbn; lia)) as H.
  destruct (trace e 0 [r]) as [tr h]. cbn in H. pose proof (t_nonempty _ _ _ _ _ H) as Hn.
  destruct (exists_last Hn) as (l & x & ->). rewrite map_app. cbn [map]. now rewrite !last_last.
Qed.

Lemma firstn_app_shift {A} (l l' : list A) i : firstn (List.length l + i) (l ++ l') = l ++ firstn i l'.
Proof. now rewrite firstn_app_2. Qed.

Lemma ideals_app (l l' : list (@kind T * @mat T)) r : ideals (l ++ l') r = ideals l' (ideals l r).
Proof. apply fold_left_app. Qed.

Lemma after_app l l' r i : after (l ++ l') r (List.length l + i) = after l' (ideals l r) i.
Proof. unfold after. now rewrite firstn_app_shift, ideals_app. Qed.
Lemma after_app_l l l' r i : (i <= List.length l)%nat -> after (l ++ l') r i = after l r i.
Proof.
  intros. unfold after. rewrite firstn_app. replace (i - List.length l)%nat with 0%nat by lia.
  cbn. now rewrite app_nil_r.
Qed.
Lemma after_all l r : after l r (List.length l) = ideals l r.
Proof. unfold after. now rewrite firstn_all. Qed.

(** indices along a trace that nothing blocks: in order, none skipped *)
Record indices (n : nat) (is : list nat) : Prop := {
  x_sorted : StronglySorted le is;
  x_le : forall i, In i is -> (i <= n)%nat;
  x_all : forall i, (1 <= i <= n)%nat -> In i is
}.

Lemma SSorted_app (l l' : list nat) : StronglySorted le l -> StronglySorted le l' ->
  (forall x y, In x l -> In y l' -> (x <= y)%nat) -> StronglySorted le (l ++ l').
Proof.
  induction 1 as [|a t Ht IH HF]; intros Hs H; auto. cbn. constructor.
  - apply IH; auto. intros; apply H; auto. now right.
  - apply Forall_app. split; auto. rewrite Forall_forall. intros; apply H; auto. now left.
Qed.
Lemma SSorted_map_add n (l : list nat) : StronglySorted le l -> StronglySorted le (map (Nat.add n) l).
Proof.
  induction 1 as [|a t Ht IH HF]; cbn; constructor; auto.
  rewrite Forall_map. eapply Forall_impl; [|exact HF]. cbn. intros; lia.
Qed.

Lemma indices_app n n' is is' : indices n is -> indices n' is' ->
  indices (n + n') (is ++ map (Nat.add n) is').
Proof.
  intros [S1 L1 A1] [S2 L2 A2]. constructor.
  - apply SSorted_app; auto using SSorted_map_add. intros x y Hx Hy.
    apply in_map_iff in Hy as (k & <- & Hk). specialize (L1 x Hx). lia.
  - intros i Hi. apply in_app_or in Hi as [Hi|Hi]; [specialize (L1 _ Hi); lia|].
    apply in_map_iff in Hi as (k & <- & Hk). specialize (L2 k Hk). lia.
  - intros i Hi. apply in_or_app. destruct (Nat.le_gt_cases i n); [left; apply A1; lia|right].
    apply in_map_iff. exists (i - n)%nat. split; [lia|]. apply A2. lia.
Qed.

Theorem trace_indices : forall e rid (h : heap), (rid < List.length h)%nat ->
  rblk (through e (hget h rid)) = false ->
  exists is, indices (List.length (leaves e)) is /\
    map (hget (snd (trace e rid h))) (fst (trace e rid h)) = map (after (leaves e) (hget h rid)) is.
Proof.
  induction e as [k m | gk m es IH] using elem_ind'; intros rid h Hr Hb.
  - cbn [trace through leaves List.length] in *.
    pose proof Hb as HF. rewrite through_leaf_blocks in HF. apply orb_false_iff in HF as [B0 M0].
    pose proof (through_leaf_free (k, m) (hget h rid) B0 M0) as E. cbn [fst snd] in E.
    pose proof (trace_is_ok (Leaf k m) rid h Hr) as OK. cbn [trace through] in OK.
    rewrite E in OK. destruct (trace_leaf k m rid h) as [tr h'] eqn:Et. cbn [fst snd] in *.
    unfold trace_leaf in Et. destruct (nltb c0 (mL m)).
    + exists [0; 1]%nat. split.
      { constructor; [repeat constructor|cbn; lia|cbn; lia]. }
      destruct (mul_ray k m rid _) as [o h2] eqn:Em. injection Et as <- <-.
      cbn [map after firstn ideals fold_left]. f_equal; [|f_equal; apply OK].
      apply (t_same _ _ _ _ _ OK).
      destruct (Nat.eq_dec o rid) as [->|Ho]; [|apply OK; cbn; congruence].
      pose proof (t_out _ _ _ _ _ OK) as E'. cbn in E'. rewrite E'. now rewrite <- B0.
    + exists [1]%nat. split.
      { constructor; [repeat constructor|cbn; lia|cbn; lia]. }
      destruct (mul_ray k m rid h) as [o h2] eqn:Em. injection Et as <- <-.
      cbn [map after firstn ideals fold_left]. f_equal. apply OK.
  - rewrite trace_group. cbn [through leaves] in *.
    assert (forall es acc h0 h1 l0,
       Forall (fun e => forall rid (h : heap), (rid < List.length h)%nat ->
         rblk (through e (hget h rid)) = false ->
         exists is, indices (List.length (leaves e)) is /\
           map (hget (snd (trace e rid h))) (fst (trace e rid h)) =
           map (after (leaves e) (hget h rid)) is) es ->
       (rid < List.length h0)%nat ->
       trace_ok rid h0 acc h1 (ideals l0 (hget h0 rid)) ->
       (exists is, indices (List.length l0) is /\
          map (hget h1) acc = map (after l0 (hget h0 rid)) is) ->
       rblk (fold_left (fun r x => through x r) es (ideals l0 (hget h0 rid))) = false ->
       exists is, indices (List.length (l0 ++ flat_map leaves es)) is /\
         map (hget (snd (trace_loop es (List.last acc rid) acc h1)))
             (fst (trace_loop es (List.last acc rid) acc h1)) =
         map (after (l0 ++ flat_map leaves es) (hget h0 rid)) is) as HL.
    { clear. induction es as [|x t IHt]; intros acc h0 h1 l0 HF Hr0 H1 (is & Ix & Eis) Hb.
      - cbn. rewrite app_nil_r. eauto.
      - inversion HF as [|? ? Hx HF']; subst. cbn [trace_loop fold_left flat_map] in *.
        pose proof (trace_ok_last _ _ _ _ _ Hr0 H1) as Hc.
        pose proof (trace_is_ok x (List.last acc rid) h1 Hc) as H2.
        specialize (Hx (List.last acc rid) h1 Hc).
        rewrite (t_out _ _ _ _ _ H1) in *.
        assert (rblk (through x (ideals l0 (hget h0 rid))) = false) as Bx.
        { destruct (rblk (through x (ideals l0 (hget h0 rid)))) eqn:B; auto.
          rewrite <- Hb. symmetry.
          assert (forall es r, rblk r = true -> rblk (fold_left (fun r x => through x r) es r) = true)
            as HY.
          { clear. induction es; intros; cbn; auto. apply IHes.
            rewrite through_flatten. now apply through_leaves_blocked. }
          now apply HY. }
        destruct (Hx Bx) as (is2 & Ix2 & E2).
        pose proof (unblocked_ideal _ _ Bx) as Ex.
        destruct (trace x (List.last acc rid) h1) as [tr h'] eqn:Et. cbn [fst snd] in *.
        assert (List.last tr (List.last acc rid) = List.last (acc ++ tr) rid) as ->.
        { rewrite last_app_ne by apply H2. apply last_default, H2. }
        rewrite app_assoc.
        apply (IHt (acc ++ tr) h0 h' (l0 ++ leaves x)); auto.
        + rewrite ideals_app, <- Ex. eapply trace_ok_app; eauto.
        + exists (is ++ map (Nat.add (List.length l0)) is2). split.
          { rewrite app_length. now apply indices_app. }
          rewrite !map_app, map_map, E2. f_equal.
          * transitivity (map (hget h1) acc).
            -- apply map_ext_in. intros i Hi.
               assert (i < List.length h1)%nat as Hi2.
               { pose proof (t_ids _ _ _ _ _ H1) as Hids. rewrite Forall_forall in Hids.
                 pose proof (t_len _ _ _ _ _ H1). destruct (Hids _ Hi); lia. }
               destruct (Nat.eq_dec i (List.last acc rid)) as [->|Hne].
               ++ apply (t_same _ _ _ _ _ H2).
                  destruct (Nat.eq_dec (List.last tr (List.last acc rid)) (List.last acc rid))
                    as [El|El]; [|now apply H2].
                  rewrite <- El at 1. now rewrite (t_out _ _ _ _ _ H2).
               ++ now apply (t_frame _ _ _ _ _ H2).
            -- rewrite Eis. apply map_ext_in. intros i Hi. symmetry. apply after_app_l.
               now apply Ix.
          * apply map_ext. intros i. now rewrite after_app.
        + rewrite ideals_app, <- Ex. exact Hb. }
    destruct (HL es [rid] h h [] IH Hr) as (is & Ix & E).
    + apply trace_ok_self.
    + exists [0%nat]. split; [|reflexivity].
      constructor; [repeat constructor|cbn; lia|cbn; lia].
    + exact Hb.
    + exists is. split; auto.
Qed.

Lemma trace_values_indices e r : rblk (traceThrough e r) = false ->
  exists is, indices (List.length (leaves e)) is /\
    trace_values e r = map (after (leaves e) r) is.
Proof.
  rewrite traceThrough_through. intros H.
  destruct (trace_indices e 0 [r] ltac:(cbn; lia) H) as (is & Ix & E).
  exists is. split; auto. unfold trace_values. destruct (trace e 0 [r]). exact E.
Qed.
End Generic.

Open Scope R_scope.

(** ** Rays among the pieces of a path *)
(** matrix of the first [i] pieces *)
Definition upto (ps : list piece) (i : nat) : M2 :=
  mprod (map (fun p => oM (po p)) (firstn i ps)).
(** distance covered by the first [i] pieces *)
Definition depth (ps : list piece) (i : nat) : R := lens_of (firstn i ps).

Lemma Forall2_firstn {A B} (P : A -> B -> Prop) l l' i : Forall2 P l l' ->
  Forall2 P (firstn i l) (firstn i l').
Proof.
  intros H. revert i. induction H; intros [|i]; cbn; constructor; auto.
Qed.
Lemma Forall_firstn {A} (P : A -> Prop) l i : Forall P l -> Forall P (firstn i l).
Proof. intros H. revert i. induction H; intros [|i]; cbn; constructor; auto. Qed.
Lemma Forall2_nth {A B} (P : A -> B -> Prop) l l' i x : Forall2 P l l' ->
  nth_error l i = Some x -> exists y, nth_error l' i = Some y /\ P x y.
Proof.
  intros H. revert i. induction H; intros [|i]; cbn; intros E; try discriminate; eauto.
  injection E as <-. eauto.
Qed.
Lemma Forall2_len {A B} (P : A -> B -> Prop) l l' : Forall2 P l l' -> List.length l = List.length l'.
Proof. induction 1; cbn; auto. Qed.
Lemma firstn_S_nth {A} (l : list A) i x : nth_error l i = Some x ->
  firstn (S i) l = firstn i l ++ [x].
Proof.
  revert i. induction l as [|a t IH]; intros [|i] E; cbn in *; try discriminate.
  - now injection E as ->.
  - f_equal. now apply IH.
Qed.

Lemma mprod_snoc l M : mprod (l ++ [M]) = mmul M (mprod l).
Proof. unfold mprod. now rewrite fold_left_app. Qed.

Lemma upto_S ps i p : nth_error ps i = Some p -> upto ps (S i) = mmul (oM (po p)) (upto ps i).
Proof.
  intros E. unfold upto. rewrite (firstn_S_nth _ _ _ E), map_app. cbn [map]. apply mprod_snoc.
Qed.
Lemma depth_S ps i p : nth_error ps i = Some p -> depth ps (S i) = depth ps i + oL (po p).
Proof.
  intros E. unfold depth. rewrite (firstn_S_nth _ _ _ E), lens_of_app. cbn. lra.
Qed.

(** the ray after [i] elements *)
Lemma after_pieces l ps : Forall2 is_piece l ps -> Forall not_axicon l ->
  forall i, (i <= List.length l)%nat -> forall y th z b (d : XR) w, exists w',
  after l (fray y th z b d w) i =
  fray (fst (mapp (upto ps i) (y, th))) (snd (mapp (upto ps i) (y, th))) (z + depth ps i) b
       (match i with O => d | S j => match nth_error l j with Some km => mdiam (snd km) | None => d end end)
       w'.
Proof.
  intros HF HA. induction i as [|i IH]; intros Hi y th z b d w.
  - exists w. unfold after, upto, depth, mprod, lens_of; cbn. unfold fray. f_equal; f_equal; ring.
  - destruct (IH ltac:(lia) y th z b d w) as (w' & E).
    destruct (nth_error l i) as [km|] eqn:Ei; [|apply nth_error_None in Ei; lia].
    destruct (Forall2_nth _ _ _ _ _ HF Ei) as (p & Ep & Hp).
    assert (after l (fray y th z b d w) (S i) = ideal km (after l (fray y th z b d w) i)) as ->.
    { unfold after. rewrite (firstn_S_nth _ _ _ Ei), ideals_app. reflexivity. }
    rewrite E, (upto_S _ _ _ Ep), (depth_S _ _ _ Ep).
    destruct km as [k m]. cbn [snd]. pose proof Hp as (D & _). cbn [snd] in D.
    assert (not_axicon (k, m)) as Ha.
    { rewrite Forall_forall in HA. apply HA. eapply nth_error_In; eauto. }
    unfold ideal, fray. cbn [fst snd ry rth rz rblk].
    dsc D. exists None. rewrite mapp_mmul. unfold mapp; cbn [fst snd].
    destruct k; cbn in Ha; try tauto; cbn [nadd nmul NumXR xadd xmul]; f_equal; f_equal; ring.
Qed.

(** ** The aperture stop *)
Definition ratio (y : R) (D : XR) : R := match D with Fin d => Rabs y / d | _ => 0 end.
Definition rat (r : @ray XR) : R := match ry r with Fin y => ratio y (rdiam r) | _ => 0 end.
Definition plain (r : @ray XR) : Prop := (exists y, ry r = Fin y) /\ positive (rdiam r).

Lemma stop_loop_spec l : Forall plain l -> forall m z d, 0 <= m ->
  (stop_loop l (Fin m) z d = Ok (z, d) /\ Forall (fun r => rat r <= m) l) \/
  exists l1 r l2, l = l1 ++ r :: l2 /\ stop_loop l (Fin m) z d = Ok (rz r, rdiam r) /\
    m < rat r /\ Forall (fun s => rat s <= rat r) l /\ Forall (fun s => rat s < rat r) l1.
Proof.
  induction 1 as [|r t Hr Ht IH]; intros m z d Hm; [left; cbn; auto|].
  cbn [stop_loop]. destruct Hr as ((y & Ey) & Hd). rewrite Ey.
  assert (exists q, pdiv (Fin y) (rdiam r) = Ok (Fin q) /\ Rabs q = rat r) as (q & Eq & Er).
  { unfold rat. rewrite Ey. destruct (rdiam r) as [x| | |] eqn:Ed; try contradiction; cbn in Hd.
    - exists (y / x). split; [apply pdiv_fin; lra|]. cbn. unfold Rdiv. rewrite Rabs_mult.
      f_equal. apply Rabs_pos_eq. left. now apply Rinv_0_lt_compat.
    - exists 0. split; [reflexivity|]. cbn. apply Rabs_R0. }
  rewrite Eq. cbn [bind]. change (nabs (Fin q)) with (Fin (Rabs q)).
  change (nltb (Fin m) (Fin (Rabs q))) with (Rltb m (Rabs q)). rewrite Er.
  destruct (Rltb m (rat r)) eqn:El.
  - apply Rltb_true in El. right.
    destruct (IH (rat r) (rz r) (rdiam r) ltac:(lra)) as [(E & F)|(l1 & s & l2 & El2 & E & H1 & H2 & H3)].
    + exists [], r, t. split; auto. split; auto. split; auto. split; auto. constructor; auto. lra.
    + exists (r :: l1), s, l2. split; [now rewrite El2|]. split; auto. split; [lra|].
      split; constructor; auto; lra.
  - apply Rltb_false in El.
    destruct (IH m z d Hm) as [(E & F)|(l1 & s & l2 & El2 & E & H1 & H2 & H3)].
    + left. split; auto.
    + right. exists (r :: l1), s, l2. split; [now rewrite El2|]. split; auto. split; auto.
      split; constructor; auto; lra.
Qed.

Lemma probe_fray : @probe XR _ = fray 0 (/ 10) 0 false PInf None.
Proof.
  unfold probe, Ray_new, fray, ndec. cbn [nofZ NumXR ndiv ninf].
  change (10 ^ 1)%Z with 10%Z. rewrite xdiv_fin by lra.
  change (@c0 XR _) with (Fin 0). f_equal. f_equal. lra.
Qed.

(** height of the probe ray (0, 0.1) behind element number [i] *)
Definition probe_height (ps : list piece) (i : nat) : R := fst (mapp (upto ps (S i)) (0, / 10)).

Lemma SSorted_split (l1 l2 : list nat) x : StronglySorted le (l1 ++ x :: l2) ->
  forall y, In y (l1 ++ x :: l2) -> (y < x)%nat -> In y l1.
Proof.
  intros H y Hy Hl. apply in_app_or in Hy as [Hy|[->|Hy]]; auto; [lia|].
  exfalso. induction l1 as [|a l1 IH]; cbn in H; inversion H; subst; auto.
  rewrite Forall_forall in *. specialize (H3 y Hy). lia.
Qed.

Theorem stop_spec e o ps : canon e o -> Forall2 is_piece (leaves e) ps ->
  Forall not_axicon (leaves e) -> hasFiniteApertureDiameter e = true ->
  rblk (traceThrough e probe) = false ->
  (apertureStop e = Ok (mkStop (Some (Fin 0)) (Some PInf)) /\
   forall j km, nth_error (leaves e) j = Some km -> ratio (probe_height ps j) (mdiam (snd km)) = 0) \/
  exists i km, nth_error (leaves e) i = Some km /\
    apertureStop e = Ok (mkStop (Some (Fin (depth ps (S i)))) (Some (mdiam (snd km)))) /\
    0 < ratio (probe_height ps i) (mdiam (snd km)) /\
    forall j km', nth_error (leaves e) j = Some km' ->
      ratio (probe_height ps j) (mdiam (snd km')) <= ratio (probe_height ps i) (mdiam (snd km)) /\
      ((j < i)%nat ->
       ratio (probe_height ps j) (mdiam (snd km')) < ratio (probe_height ps i) (mdiam (snd km))).
Proof.
  intros Hc HF HA Hfin Hb. unfold apertureStop. rewrite Hfin.
  destruct (trace_values_indices e probe Hb) as (is & Ix & E). rewrite E, probe_fray in *.
  set (f := after (leaves e) (fray 0 (/ 10) 0 false PInf None)) in *.
  assert (forall i, In i is -> exists w', f i = fray (fst (mapp (upto ps i) (0, / 10)))
      (snd (mapp (upto ps i) (0, / 10))) (depth ps i) false
      (match i with O => PInf | S j => match nth_error (leaves e) j with
         Some km => mdiam (snd km) | None => PInf end end) w') as HV.
  { intros i Hi. destruct (after_pieces _ _ HF HA i (x_le _ _ Ix i Hi) 0 (/10) 0 false PInf None)
      as (w' & Ew). exists w'. unfold f. rewrite Ew. now rewrite Rplus_0_l. }
  assert (Forall plain (map f is)) as HP.
  { rewrite Forall_map, Forall_forall. intros i Hi. destruct (HV i Hi) as (w' & ->).
    unfold plain, fray; cbn. split; eauto. destruct i as [|j]; [exact I|].
    destruct (nth_error (leaves e) j) as [km|] eqn:Ej; [|exact I].
    destruct (Forall2_nth _ _ _ _ _ HF Ej) as (p & _ & (_ & _ & _ & Hd & _)). exact Hd. }
  assert (forall i km, nth_error (leaves e) i = Some km -> In (S i) is ->
    rat (f (S i)) = ratio (probe_height ps i) (mdiam (snd km))) as HR.
  { intros i km Hi HI. destruct (HV (S i) HI) as (w' & ->). rewrite Hi. reflexivity. }
  assert (forall i km, nth_error (leaves e) i = Some km -> In (S i) is) as HI.
  { intros i km Hi. apply (x_all _ _ Ix). assert (i < List.length (leaves e))%nat; [|lia].
    apply nth_error_Some. congruence. }
  assert (In 0%nat is -> rat (f 0%nat) = 0) as HR0.
  { intros H0. destruct (HV 0%nat H0) as (w' & ->). reflexivity. }
  change (@c0 XR _) with (Fin 0).
  destruct (stop_loop_spec _ HP 0 (Fin 0) PInf ltac:(lra)) as [(Es & F)|(l1 & r & l2 & El & Es & H1 & H2 & H3)];
    change (@ninf XR _) with PInf; rewrite Es; cbn [bind fst snd].
  - left. split; auto. intros j km Hj. rewrite Forall_map, Forall_forall in F.
    specialize (F _ (HI _ _ Hj)). rewrite (HR _ _ Hj (HI _ _ Hj)) in F.
    apply Rle_antisym; auto. unfold ratio. destruct (Forall2_nth _ _ _ _ _ HF Hj) as (p & _ & (_ & _ & _ & Hd & _)).
    destruct (mdiam (snd km)); try lra. cbn in Hd. apply Rmult_le_pos; [apply Rabs_pos|].
    left. now apply Rinv_0_lt_compat.
  - right.
    assert (exists is1 k is2, is = is1 ++ k :: is2 /\ l1 = map f is1 /\ r = f k) as (is1 & k & is2 & Ei & -> & ->).
    { apply map_eq_app in El as (is1 & is' & -> & <- & E2).
      destruct is' as [|k is2]; [discriminate|]. cbn in E2. injection E2 as <- <-. eauto 7. }
    assert (In k is) as Hk by (rewrite Ei; apply in_elt).
    destruct k as [|i]; [rewrite (HR0 Hk) in H1; lra|].
    assert (i < List.length (leaves e))%nat as Hi by (pose proof (x_le _ _ Ix _ Hk); lia).
    apply nth_error_Some in Hi. destruct (nth_error (leaves e) i) as [km|] eqn:Ekm; [|congruence].
    exists i, km. split; auto. destruct (HV (S i) Hk) as (w' & Ew). rewrite Ew in Es |- *.
    rewrite Ekm in *. split; [reflexivity|]. rewrite (HR _ _ Ekm Hk) in *. split; auto.
    intros j km' Hj. split.
    + rewrite Forall_map, Forall_forall in H2. specialize (H2 _ (HI _ _ Hj)).
      now rewrite (HR _ _ Hj (HI _ _ Hj)) in H2.
    + intros Hji. rewrite Forall_map, Forall_forall in H3.
      rewrite <- (HR _ _ Hj (HI _ _ Hj)). apply H3.
      eapply SSorted_split; [rewrite <- Ei; apply Ix|rewrite <- Ei; now apply (HI _ km')|lia].
Qed.

(** ** The stop limits the axial cone *)
Lemma passes_nth {T} {N : Num T} (e : @elem T) r : rblk r = false ->
  rblk (traceThrough e r) = false <->
  forall j km, nth_error (leaves e) j = Some km -> misses (snd km) (after (leaves e) r j) = false.
Proof.
  intros Hr. rewrite traceThrough_through. split.
  - intros H j km Ej. destruct (misses (snd km) (after (leaves e) r j)) eqn:M; auto.
    rewrite <- H. symmetry. apply blocked_iff. right.
    apply nth_error_split in Ej as (pre & post & E & L). exists pre, km, post. split; auto.
    unfold after in M. rewrite E in M. subst j. rewrite firstn_app, Nat.sub_diag in M.
    rewrite firstn_all in M. cbn in M. now rewrite app_nil_r in M.
  - intros H. destruct (rblk (through e r)) eqn:B; auto.
    apply blocked_iff in B as [B|(pre & km & post & E & M)]; [congruence|].
    rewrite <- M. symmetry.
    specialize (H (List.length pre) km). unfold after in H.
    rewrite E, nth_error_app2, Nat.sub_diag in H by lia. specialize (H eq_refl).
    rewrite firstn_app, Nat.sub_diag, firstn_all in H. cbn in H. now rewrite app_nil_r in H.
Qed.

(** apertures limit heights only, elements with a finite aperture have no thickness, and
    elements without thickness do not displace rays *)
Definition thin_aperture (km : @kind XR * @mat XR) (p : piece) : Prop :=
  mna (snd km) = PInf /\ (mdiam (snd km) = PInf \/ oL (po p) = 0) /\
  (oL (po p) = 0 -> A_ (oM (po p)) = 1 /\ B_ (oM (po p)) = 0).

Lemma misses_axis l ps : Forall2 is_piece l ps -> Forall not_axicon l ->
  Forall2 thin_aperture l ps -> forall j km y th z b (d : XR) w, nth_error l j = Some km ->
  misses (snd km) (after l (fray y th z b d w) j) =
  match mdiam (snd km) with
  | Fin D => Rltb (D / 2) (Rabs (fst (mapp (upto ps (S j)) (y, th)))) | _ => false end.
Proof.
  intros HF HA HT j km y th z b d w Ej.
  assert (j <= List.length l)%nat as Hj.
  { assert (j < List.length l)%nat; [apply nth_error_Some; congruence|lia]. }
  destruct (after_pieces l ps HF HA j Hj y th z b d w) as (w' & ->).
  destruct (Forall2_nth _ _ _ _ _ HT Ej) as (p & Ep & (Hn & Hd & H0)).
  destruct (Forall2_nth _ _ _ _ _ HF Ej) as (p' & Ep' & (_ & _ & _ & Hpos & _)).
  unfold misses, fray. cbn [ry rth]. rewrite Hn. cbn [nabs NumXR xabs nltb xltb].
  rewrite orb_false_r.
  destruct (mdiam (snd km)) as [D| | |]; try contradiction.
  - rewrite half_fin. cbn [nltb xltb]. destruct Hd as [Hd|Hd]; [discriminate|].
    destruct (H0 Hd) as [EA EB]. rewrite (upto_S _ _ _ Ep), mapp_mmul.
    f_equal. f_equal. destruct (mapp (upto ps j) (y, th)) as [u v].
    unfold mapp; cbn [fst snd]. rewrite EA, EB. lra.
  - rewrite half_inf. reflexivity.
Qed.

Definition axis_height (ps : list piece) (i : nat) (th : R) : R := fst (mapp (upto ps (S i)) (0, th)).

Lemma axis_height_lin ps i th : axis_height ps i th = B_ (upto ps (S i)) * th.
Proof. unfold axis_height, mapp. cbn. lra. Qed.

Lemma ratio_pos y D : positive D -> 0 < ratio y D -> exists d, D = Fin d /\ 0 < d.
Proof. destruct D; cbn; try tauto; intros; eauto; lra. Qed.

(** only the stop matters to rays starting on the axis *)
Theorem stop_limits e o ps : canon e o -> Forall2 is_piece (leaves e) ps ->
  Forall not_axicon (leaves e) -> Forall2 thin_aperture (leaves e) ps ->
  hasFiniteApertureDiameter e = true -> rblk (traceThrough e probe) = false ->
  (apertureStop e = Ok (mkStop (Some (Fin 0)) (Some PInf)) /\
   forall th z (d : XR) w, rblk (traceThrough e (fray 0 th z false d w)) = false) \/
  exists i D, 
    (exists km, nth_error (leaves e) i = Some km /\ mdiam (snd km) = Fin D) /\ 0 < D /\
    apertureStop e = Ok (mkStop (Some (Fin (depth ps (S i)))) (Some (Fin D))) /\
    forall th z (d : XR) w,
      rblk (traceThrough e (fray 0 th z false d w)) = Rltb (D / 2) (Rabs (axis_height ps i th)).
Proof.
  intros Hc HF HA HT Hfin Hb.
  assert (forall th z (d : XR) w, rblk (traceThrough e (fray 0 th z false d w)) = false <->
    forall j km D, nth_error (leaves e) j = Some km -> mdiam (snd km) = Fin D ->
      Rabs (axis_height ps j th) <= D / 2) as HP.
  { intros th z d w. rewrite passes_nth by reflexivity. split.
    - intros H j km D Ej ED. specialize (H j km Ej).
      rewrite (misses_axis _ _ HF HA HT j km 0 th z false d w Ej), ED in H.
      now apply Rltb_false in H.
    - intros H j km Ej. rewrite (misses_axis _ _ HF HA HT j km 0 th z false d w Ej).
      destruct (mdiam (snd km)) as [D| | |] eqn:ED; auto. apply Rltb_ge. eapply H; eauto. }
  assert (forall j km D, nth_error (leaves e) j = Some km -> mdiam (snd km) = Fin D -> 0 < D) as HD.
  { intros j km D Ej ED. destruct (Forall2_nth _ _ _ _ _ HF Ej) as (p' & Ep' & (_ & _ & _ & Hpos & _)).
    now rewrite ED in Hpos. }
  destruct (stop_spec e o ps Hc HF HA Hfin Hb) as [(E & H0)|(i & km & Ei & E & Hr & Hmax)].
  - left. split; auto. intros th z d w. apply HP. intros j km D Ej ED.
    specialize (H0 j km Ej). rewrite ED in H0. cbn [ratio] in H0. unfold probe_height in H0.
    specialize (HD j km D Ej ED). fold (axis_height ps j (/10)) in H0.
    rewrite axis_height_lin in *. unfold Rdiv in H0. apply Rmult_integral in H0 as [H0|H0].
    + assert (B_ (upto ps (S j)) * / 10 = 0) by (destruct (Req_dec (B_ (upto ps (S j)) * / 10) 0) as [Q|Q]; auto; apply Rabs_no_R0 in Q; contradiction).
      replace (B_ (upto ps (S j))) with 0 by lra. rewrite Rmult_0_l, Rabs_R0. lra.
    + exfalso. apply Rinv_neq_0_compat in H0; [auto|lra].
  - right. destruct (Forall2_nth _ _ _ _ _ HF Ei) as (p' & Ep' & (_ & _ & _ & Hpos & _)).
    destruct (ratio_pos _ _ Hpos Hr) as (D & ED & HD0). exists i, D.
    split; [eauto|]. split; auto. split; [now rewrite E, ED|].
    intros th z d w.
    assert (forall j km' D', nth_error (leaves e) j = Some km' -> mdiam (snd km') = Fin D' ->
      Rabs (axis_height ps j th) * D <= Rabs (axis_height ps i th) * D') as HM.
    { intros j km' D' Ej ED'. destruct (Hmax j km' Ej) as (HM & _).
      specialize (HD _ _ _ Ej ED'). rewrite ED, ED' in HM. cbn [ratio] in HM. unfold probe_height in HM.
      fold (axis_height ps j (/10)) (axis_height ps i (/10)) in HM.
      rewrite !axis_height_lin in *. rewrite !Rabs_mult in *.
      assert (Rabs (B_ (upto ps (S j))) * D <= Rabs (B_ (upto ps (S i))) * D') as HQ.
      { rewrite (Rabs_pos_eq (/10)) in HM by lra.
        apply (Rmult_le_compat_r (10 * D * D')) in HM; [|apply Rlt_le; apply Rmult_lt_0_compat; lra].
        replace (Rabs (B_ (upto ps (S j))) * / 10 / D' * (10 * D * D')) with
          (Rabs (B_ (upto ps (S j))) * D) in HM by (field; lra).
        replace (Rabs (B_ (upto ps (S i))) * / 10 / D * (10 * D * D')) with
          (Rabs (B_ (upto ps (S i))) * D') in HM by (field; lra). exact HM. }
      pose proof (Rabs_pos th). nra. }
    destruct (Rltb (D / 2) (Rabs (axis_height ps i th))) eqn:L.
    + apply Rltb_true in L. apply not_false_is_true. intros F. apply (proj1 (HP _ _ _ _)) with (2 := Ei) (3 := ED) in F. lra.
    + apply Rltb_false in L. apply HP. intros j km' D' Ej ED'.
      specialize (HM j km' D' Ej ED'). specialize (HD _ _ _ Ej ED').
      assert (Rabs (axis_height ps i th) * D' <= D / 2 * D') by (apply Rmult_le_compat_r; lra).
      apply (Rmult_le_reg_r D); [lra|]. lra.
Qed.

(** ** Positions of the stops *)
Lemma pieces_nonneg_leaves l ps : Forall2 is_piece l ps -> Forall nonneg_leaf l.
Proof.
  induction 1 as [|km p l ps (D & _ & H0 & _) HF IH]; constructor; auto.
  exists (oL (po p)). split; auto. apply D.
Qed.

Lemma values_nonneg e ps y th (d : XR) w : Forall2 is_piece (leaves e) ps ->
  Forall (fun r => exists z, rz r = Fin z /\ 0 <= z) (trace_values e (fray y th 0 false d w)).
Proof.
  intros HF. unfold trace_values.
  pose proof (trace_positions e 0 [fray y th 0 false d w] ltac:(cbn; lia)
    (ex_intro _ 0 eq_refl) (pieces_nonneg_leaves _ _ HF)) as H.
  destruct (trace e 0 [fray y th 0 false d w]) as [tr h]. cbn [fst snd] in H.
  rewrite Forall_map. pose proof (z_range _ _ _ _ _ H) as K.
  eapply Forall_impl; [|exact K]. cbn. intros i (z & E & Hz). exists z. split; auto.
  change (zval (hget [fray y th 0 false d w] 0)) with 0 in Hz. lra.
Qed.

Lemma stop_loop_in {T} {N : Num T} l : forall (m z d z' d' : T),
  stop_loop l m z d = Ok (z', d') -> (z' = z /\ d' = d) \/ exists r, In r l /\ z' = rz r /\ d' = rdiam r.
Proof.
  induction l as [|r t IH]; intros m z d z' d'; cbn [stop_loop].
  - intros [= <- <-]. auto.
  - unfold bind. destruct (pdiv (ry r) (rdiam r)) as [q|]; [|discriminate].
    destruct (nltb m (nabs q)); intros H; apply IH in H as [(-> & ->)|(s & Hs & E)].
    + right. exists r. split; [now left|auto].
    + right. exists s. split; [now right|auto].
    + auto.
    + right. exists s. split; [now right|auto].
Qed.

Lemma stop_nonneg e ps z d : Forall2 is_piece (leaves e) ps ->
  apertureStop e = Ok (mkStop (Some z) d) -> exists x, z = Fin x /\ 0 <= x.
Proof.
  intros HF. unfold apertureStop. destruct (hasFiniteApertureDiameter e); [|discriminate].
  destruct (stop_loop _ _ _ _) as [[z' d']|] eqn:E; cbn [bind]; [|discriminate].
  intros [= <- <-]. cbn [fst]. rewrite probe_fray in E.
  apply stop_loop_in in E as [(-> & _)|(r & Hr & -> & _)].
  - exists 0. split; [reflexivity|lra].
  - pose proof (values_nonneg e ps 0 (/10) PInf None HF) as K.
    rewrite Forall_forall in K. apply K in Hr as (x & Ex & Hx). eauto.
Qed.

(** ** Chief and marginal rays *)
Lemma imaging_fin (x : R) : nltb (nabs (Fin x)) (@eps5 XR _) = Rltb (Rabs x) (/ 100000).
Proof.
  unfold eps5, ndec. cbn [nofZ NumXR ndiv]. change (10 ^ 5)%Z with 100000%Z.
  rewrite xdiv_fin by lra. cbn [nabs xabs nltb xltb].
  now replace (1 / 100000) with (/ 100000) by lra.
Qed.

(** matrix from the entrance of the path to depth [z] *)
Definition matrix_to (ps : list piece) (z : R) : M2 := mprod (map oM (cut_path ps z)).

Theorem chief_ray e o ps z d y : canon e o -> Forall2 is_piece (leaves e) ps ->
  apertureStop e = Ok (mkStop (Some (Fin z)) d) ->
  (Rabs (B_ (matrix_to ps z)) < / 100000 -> chiefRayAt e (Fin y) = Ok None) /\
  (/ 100000 <= Rabs (B_ (matrix_to ps z)) ->
   exists th, chiefRayAt e (Fin y) = Ok (Some (fray y th 0 false PInf None)) /\
     th = - A_ (matrix_to ps z) / B_ (matrix_to ps z) * y /\
     fst (mapp (matrix_to ps z) (y, th)) = 0).
Proof.
  intros Hc HF HS. destruct (stop_nonneg _ _ _ _ HF HS) as (x & [= <-] & Hz).
  destruct (transfer_upto e o ps z Hc HF Hz) as (t & Et & _ & _ & _ & EA & EB & EC & ED & EM & _).
  unfold chiefRayAt. rewrite HS. cbn [bind st_z]. rewrite Et. cbn [bind].
  unfold isImaging, isAlmostZero. rewrite EA, EB, imaging_fin, EM. fold (matrix_to ps z).
  split; intros H.
  - now rewrite Rltb_lt.
  - rewrite Rltb_ge by auto.
    assert (B_ (matrix_to ps z) <> 0) as HB by (intros E0; rewrite E0, Rabs_R0 in H; lra).
    cbn [nopp NumXR xopp nmul xmul]. rewrite pdiv_fin by auto. cbn [bind].
    exists (- A_ (matrix_to ps z) * y / B_ (matrix_to ps z)). split; [reflexivity|].
    split; [field; auto|]. unfold mapp; cbn [fst snd]. field; auto.
Qed.

Theorem marginal_rays_spec e o ps z D y : canon e o -> Forall2 is_piece (leaves e) ps ->
  apertureStop e = Ok (mkStop (Some (Fin z)) (Some (Fin D))) ->
  (Rabs (B_ (matrix_to ps z)) < / 100000 -> marginalRays e (Fin y) = Ok None) /\
  (/ 100000 <= Rabs (B_ (matrix_to ps z)) ->
   exists up down,
     marginalRays e (Fin y) =
       Ok (Some (fray y up 0 false PInf None, fray y down 0 false PInf None)) /\
     down <= up /\
     let M := matrix_to ps z in
     ((fst (mapp M (y, up)) = D / 2 /\ fst (mapp M (y, down)) = - (D / 2)) \/
      (fst (mapp M (y, up)) = - (D / 2) /\ fst (mapp M (y, down)) = D / 2))).
Proof.
  intros Hc HF HS. destruct (stop_nonneg _ _ _ _ HF HS) as (x & [= <-] & Hz).
  destruct (transfer_upto e o ps z Hc HF Hz) as (t & Et & _ & _ & _ & EA & EB & EC & ED & EM & _).
  unfold marginalRays. rewrite HS. cbn [bind st_z st_d]. rewrite Et. cbn [bind].
  unfold isImaging, isAlmostZero. rewrite EA, EB, imaging_fin, EM. fold (matrix_to ps z).
  split; intros H.
  - now rewrite Rltb_lt.
  - rewrite Rltb_ge by auto. set (M := matrix_to ps z) in *.
    assert (B_ M <> 0) as HB by (intros E0; rewrite E0, Rabs_R0 in H; lra).
    cbn [nopp NumXR xopp nmul xmul]. change xdiv with (@ndiv XR _). rewrite !half_fin.
    cbn [nsub NumXR xsub xadd xopp].
    rewrite !pdiv_fin by auto. cbn [bind nltb NumXR xltb].
    set (u := (D / 2 + - (A_ M * y)) / B_ M). set (v := (- D / 2 + - (A_ M * y)) / B_ M).
    assert (fst (mapp M (y, u)) = D / 2) as Eu by (unfold mapp, u; cbn [fst snd]; field; auto).
    assert (fst (mapp M (y, v)) = - (D / 2)) as Ev by (unfold mapp, v; cbn [fst snd]; field; auto).
    destruct (Rltb u v) eqn:L.
    + apply Rltb_true in L. exists v, u. split; [reflexivity|]. split; [lra|]. cbn zeta. auto.
    + apply Rltb_false in L. exists u, v. split; [reflexivity|]. split; [lra|]. cbn zeta. auto.
Qed.

(** the axial ray: from the axis to the edge of the stop, upwards *)
Theorem axial_ray e o ps z D : canon e o -> Forall2 is_piece (leaves e) ps ->
  apertureStop e = Ok (mkStop (Some (Fin z)) (Some (Fin D))) -> 0 < D ->
  / 100000 <= Rabs (B_ (matrix_to ps z)) ->
  exists th, axialRay e = Ok (Some (fray 0 th 0 false PInf None)) /\ 0 < th /\
    Rabs (fst (mapp (matrix_to ps z) (0, th))) = D / 2.
Proof.
  intros Hc HF HS HD HB.
  destruct (marginal_rays_spec e o ps z D 0 Hc HF HS) as (_ & H).
  destruct (H HB) as (up & down & E & Hle & K). cbn zeta in K.
  unfold axialRay. change (@c0 XR _) with (Fin 0). rewrite E. cbn [bind option_map fst].
  exists up. split; auto.
  assert (fst (mapp (matrix_to ps z) (0, up)) = B_ (matrix_to ps z) * up) as E1
    by (unfold mapp; cbn; lra).
  assert (fst (mapp (matrix_to ps z) (0, down)) = B_ (matrix_to ps z) * down) as E2
    by (unfold mapp; cbn; lra).
  rewrite E1, E2 in *. split.
  - assert (B_ (matrix_to ps z) * (up + down) = 0) as S by lra.
    apply Rmult_integral in S as [S|S]; [rewrite S, Rabs_R0 in HB; lra|].
    destruct (Rle_lt_or_eq_dec _ _ Hle) as [L|L]; [lra|]. exfalso. rewrite L in K. lra.
  - destruct K as [[-> _]|[-> _]]; [|rewrite Rabs_Ropp]; rewrite Rabs_pos_eq; lra.
Qed.

(** ** Elements without thickness behind the stop do not matter *)
Lemma thin_product l : Forall (fun M => A_ M = 1 /\ B_ M = 0) l ->
  A_ (mprod l) = 1 /\ B_ (mprod l) = 0.
Proof.
  induction l as [|M l IH] using rev_ind; intros H; [cbn; auto|].
  apply Forall_app in H as [H1 H2]. inversion H2 as [|? ? [HA HB] _]; subst.
  destruct (IH H1) as [I1 I2]. rewrite mprod_snoc. unfold mmul; cbn [A_ B_].
  rewrite HA, HB, I1, I2. lra.
Qed.

Lemma cut_zero l ps : Forall2 is_piece l ps -> Forall2 thin_aperture l ps ->
  Forall (fun M => A_ M = 1 /\ B_ M = 0) (map oM (cut_path ps 0)).
Proof.
  intros HF. induction HF as [|km p l ps Hp HF IH]; intros HT; cbn; [constructor|].
  inversion HT as [|? ? ? ? (_ & _ & H0) HT']; subst.
  destruct Hp as (D & P & Hn & Hd & H).
  destruct (Rle_dec (oL (po p)) 0) as [Hz|Hz].
  - assert (oL (po p) = 0) as Ez by lra. cbn. constructor; auto.
    rewrite Ez, Rminus_0_r. auto.
  - cbn. constructor; [|constructor].
    destruct km as [k m]; cbn [fst snd] in *. destruct k; try lra.
    + destruct H as (_ & _ & ->). cbn. lra.
    + destruct H as (x & -> & Hx & Hr & E & _ & ->). cbn. split; ring.
    + destruct H as (x & -> & Hx & Hr & E & _ & ->). cbn. split; ring.
Qed.

Lemma mprod_app l l' : mprod (l ++ l') = mmul (mprod l') (mprod l).
Proof. unfold mprod at 1. rewrite fold_left_app. apply mprod_from. Qed.

Lemma pieces_are_nonneg l ps : Forall2 is_piece l ps -> pieces_nonneg ps.
Proof. induction 1 as [|km p l ps (_ & _ & H0 & _) HF IH]; constructor; auto. Qed.

Lemma Forall2_skipn {A B} (P : A -> B -> Prop) l l' i : Forall2 P l l' ->
  Forall2 P (skipn i l) (skipn i l').
Proof.
  intros H. revert i. induction H; intros [|i]; cbn; auto.
Qed.

(** the matrix to the depth of element [i] moves rays where they are behind element [i] *)
Lemma matrix_at_depth l ps i : Forall2 is_piece l ps -> Forall2 thin_aperture l ps ->
  A_ (matrix_to ps (depth ps i)) = A_ (upto ps i) /\ B_ (matrix_to ps (depth ps i)) = B_ (upto ps i).
Proof.
  intros HF HT. unfold matrix_to, upto, depth.
  pose proof (Forall2_skipn _ _ _ i HF) as HF2. pose proof (Forall2_skipn _ _ _ i HT) as HT2.
  pose proof (Forall2_firstn _ _ _ i HF) as HF1.
  assert (cut_path ps (lens_of (firstn i ps)) =
          map po (firstn i ps) ++ cut_path (skipn i ps) 0) as ->.
  { rewrite <- (firstn_skipn i ps) at 1.
    rewrite cut_app_full by (try apply (pieces_are_nonneg _ _ HF1); lra).
    now rewrite Rminus_diag_eq by reflexivity. }
  rewrite map_app, mprod_app, map_map.
  destruct (thin_product _ (cut_zero _ _ HF2 HT2)) as [EA EB].
  unfold mmul; cbn [A_ B_]. rewrite EA, EB. lra.
Qed.

(** the axial ray is the steepest ray from the axis that gets through *)
Theorem axial_ray_steepest e o ps : canon e o -> Forall2 is_piece (leaves e) ps ->
  Forall not_axicon (leaves e) -> Forall2 thin_aperture (leaves e) ps ->
  hasFiniteApertureDiameter e = true -> rblk (traceThrough e probe) = false ->
  forall r, axialRay e = Ok (Some r) ->
  apertureStop e <> Ok (mkStop (Some (Fin 0)) (Some PInf)) ->
  exists th, r = fray 0 th 0 false PInf None /\ 0 < th /\
    rblk (traceThrough e r) = false /\
    (forall th' z (d : XR) w, rblk (traceThrough e (fray 0 th' z false d w)) = Rltb th (Rabs th')).
Proof.
  intros Hc HF HA HT Hfin Hb r Hr Hne.
  destruct (stop_limits e o ps Hc HF HA HT Hfin Hb) as [(E & _)|(i & D & (km & Ei & ED) & HD & E & HB)];
    [congruence|].
  destruct (matrix_at_depth _ _ (S i) HF HT) as [_ EB].
  set (z := depth ps (S i)) in *.
  assert (/ 100000 <= Rabs (B_ (matrix_to ps z))) as Hbig.
  { destruct (Rle_dec (/ 100000) (Rabs (B_ (matrix_to ps z)))) as [|Hn]; auto. exfalso.
    destruct (marginal_rays_spec e o ps z D 0 Hc HF E) as (H & _).
    unfold axialRay in Hr. change (@c0 XR _) with (Fin 0) in Hr. rewrite H in Hr by lra. discriminate. }
  destruct (axial_ray e o ps z D Hc HF E HD Hbig) as (th & Er & Hth & Hedge).
  rewrite Er in Hr. injection Hr as <-. exists th. split; auto. split; auto.
  assert (Rabs (B_ (upto ps (S i))) * th = D / 2) as EQ.
  { rewrite <- Hedge. unfold mapp; cbn [fst snd]. rewrite EB.
    rewrite Rmult_0_r, Rplus_0_l, Rabs_mult, (Rabs_pos_eq th); lra. }
  assert (0 < Rabs (B_ (upto ps (S i)))) as HB0 by (rewrite <- EB; lra).
  assert (forall th' z (d : XR) w,
    rblk (traceThrough e (fray 0 th' z false d w)) = Rltb th (Rabs th')) as HX.
  { intros th' z' d w. rewrite HB, axis_height_lin, Rabs_mult.
    destruct (Rltb th (Rabs th')) eqn:L.
    - apply Rltb_true in L. apply Rltb_lt. nra.
    - apply Rltb_false in L. apply Rltb_ge. nra. }
  split; [|exact HX]. rewrite HX. apply Rltb_ge. rewrite Rabs_pos_eq; lra.
Qed.

(** ** Entrance pupil *)
Theorem entrance_pupil e o ps z D : canon e o -> Forall2 is_piece (leaves e) ps -> onf o = 1 ->
  hasFiniteApertureDiameter e = true ->
  apertureStop e = Ok (mkStop (Some (Fin z)) (Some (Fin D))) ->
  A_ (matrix_to ps z) <> 0 ->
  exists zp Dp, entrancePupil e = Ok (mkStop (Some (Fin zp)) (Some (Fin Dp))) /\
    (forall y th, fst (mapp (mmul (matrix_to ps z) (free (- zp))) (y, th)) = A_ (matrix_to ps z) * y) /\
    Rabs (A_ (matrix_to ps z)) * Dp = D.
Proof.
  intros Hc HF Hn Hfin HS HA. destruct (stop_nonneg _ _ _ _ HF HS) as (x & [= <-] & Hz).
  destruct (transfer_upto e o ps z Hc HF Hz) as (t & Et & _ & T & P & EA & EB & EC & ED & EM & _).
  set (Pz := pl (onf o) (cut_path ps z)) in *.
  assert (exists o', describes (emat t) o' /\ physical o' /\ onf o' = 1 /\ oM o' = matrix_to ps z)
    as (o' & D1 & P1 & F1 & M1).
  { destruct T as [D1|[Ei D1]].
    - exists Pz. split; auto. split; auto. split; auto. unfold Pz. now rewrite pl_nf.
    - eexists. split; [exact D1|]. cbn. split; [|split]; auto.
      + repeat split; cbn; try lra. rewrite mdet_id. lra.
      + unfold matrix_to. congruence. }
  rewrite <- M1 in *.
  destruct (CardinalProofs.backward_spec (emat t) o' D1 P1 F1 HA)
    as (dd & c & oc & Eb & Dc & Bc & _ & _ & _ & Mc & Hy).
  unfold entrancePupil. rewrite Hfin, HS. cbn [bind st_z st_d]. rewrite Et. cbn [bind].
  rewrite Eb. cbn [bind fst snd]. unfold magnification, isImaging, isAlmostZero.
  rewrite (d_B _ _ Dc), imaging_fin, Bc, Rabs_R0, Rltb_lt by lra.
  rewrite (d_A _ _ Dc). change (@c0 XR _) with (Fin 0).
  assert (A_ (oM oc) = A_ (oM o')) as EAc by (rewrite Mc; unfold mmul, free; cbn; ring).
  cbn [neqb NumXR xeqb]. rewrite EAc, (Reqb_neq (A_ (oM o'))) by auto. cbn [negb nabs NumXR xabs].
  rewrite pdiv_fin by (now apply Rabs_no_R0). cbn [bind nopp NumXR xopp].
  exists (- dd), (D / Rabs (A_ (oM o'))). split; [reflexivity|]. split.
  - intros y th. rewrite Ropp_involutive, Hy. now rewrite EAc.
  - field. now apply Rabs_no_R0.
Qed.

(** ** When the probe ray does not get through *)
Lemma trace_unblocked {T} {N : Num T} : forall (e : @elem T) rid (h : heap), (rid < List.length h)%nat ->
  forall i, In i (fst (trace e rid h)) -> rblk (hget (snd (trace e rid h)) i) = false ->
  exists j, (j <= List.length (leaves e))%nat /\
    hget (snd (trace e rid h)) i = through_leaves (firstn j (leaves e)) (hget h rid).
Proof.
  induction e as [k m | gk m es IH] using elem_ind'; intros rid h Hr i Hi Hb.
  - pose proof (trace_is_ok (Leaf k m) rid h Hr) as OK. cbn [trace through leaves List.length] in *.
    destruct (trace_leaf k m rid h) as [tr h'] eqn:Et. cbn [fst snd] in *.
    assert (i = rid \/ i = List.last tr rid) as HC.
    { unfold trace_leaf in Et. destruct (nltb c0 (mL m)).
      - destruct (mul_ray k m rid _) as [o h2]. injection Et as <- <-.
        destruct Hi as [<-|[<-|[]]]; cbn; auto.
      - destruct (mul_ray k m rid h) as [o h2]. injection Et as <- <-.
        destruct Hi as [<-|[]]; cbn; auto. }
    destruct HC as [->|HC].
    + exists 0%nat. split; [lia|]. cbn. apply (t_same _ _ _ _ _ OK). exact Hb.
    + exists 1%nat. split; [lia|]. rewrite HC. rewrite (t_out _ _ _ _ _ OK). reflexivity.
  - rewrite trace_group in *. cbn [through leaves] in *.
    assert (forall es acc h0 h1 l0,
       Forall (fun e => forall rid (h : heap), (rid < List.length h)%nat ->
         forall i, In i (fst (trace e rid h)) -> rblk (hget (snd (trace e rid h)) i) = false ->
         exists j, (j <= List.length (leaves e))%nat /\
           hget (snd (trace e rid h)) i = through_leaves (firstn j (leaves e)) (hget h rid)) es ->
       (rid < List.length h0)%nat ->
       trace_ok rid h0 acc h1 (through_leaves l0 (hget h0 rid)) ->
       (forall i, In i acc -> rblk (hget h1 i) = false ->
          exists j, (j <= List.length l0)%nat /\
            hget h1 i = through_leaves (firstn j l0) (hget h0 rid)) ->
       forall i, In i (fst (trace_loop es (List.last acc rid) acc h1)) ->
         rblk (hget (snd (trace_loop es (List.last acc rid) acc h1)) i) = false ->
         exists j, (j <= List.length (l0 ++ flat_map leaves es))%nat /\
           hget (snd (trace_loop es (List.last acc rid) acc h1)) i =
           through_leaves (firstn j (l0 ++ flat_map leaves es)) (hget h0 rid)) as HL.
    { clear. induction es as [|x t IHt]; intros acc h0 h1 l0 HF Hr0 H1 HE.
      - cbn. rewrite app_nil_r. exact HE.
      - inversion HF as [|? ? Hx HF']; subst. cbn [trace_loop flat_map] in *.
        pose proof (trace_ok_last _ _ _ _ _ Hr0 H1) as Hc.
        pose proof (trace_is_ok x (List.last acc rid) h1 Hc) as H2.
        specialize (Hx (List.last acc rid) h1 Hc).
        rewrite (t_out _ _ _ _ _ H1) in *.
        destruct (trace x (List.last acc rid) h1) as [tr h'] eqn:Et. cbn [fst snd] in *.
        assert (List.last tr (List.last acc rid) = List.last (acc ++ tr) rid) as ->.
        { rewrite last_app_ne by apply H2. apply last_default, H2. }
        rewrite app_assoc.
        apply (IHt (acc ++ tr) h0 h' (l0 ++ leaves x)); auto.
        + unfold through_leaves at 1. rewrite fold_left_app.
          fold (through_leaves l0 (hget h0 rid)).
          fold (through_leaves (leaves x) (through_leaves l0 (hget h0 rid))).
          rewrite <- through_flatten. eapply trace_ok_app; eauto.
        + intros i Hi Hb. apply in_app_or in Hi as [Hi|Hi].
          * assert (hget h' i = hget h1 i) as Eh.
            { destruct (Nat.eq_dec i (List.last acc rid)) as [->|Hne].
              - now apply (t_same _ _ _ _ _ H2).
              - apply (t_frame _ _ _ _ _ H2); auto.
                pose proof (t_ids _ _ _ _ _ H1) as Hids. rewrite Forall_forall in Hids.
                pose proof (t_len _ _ _ _ _ H1). destruct (Hids _ Hi); lia. }
            rewrite Eh in *. destruct (HE i Hi Hb) as (j & Hj & ->). exists j.
            rewrite app_length. split; [lia|]. rewrite firstn_app.
            replace (j - List.length l0)%nat with 0%nat by lia. cbn. now rewrite app_nil_r.
          * destruct (Hx i Hi Hb) as (j & Hj & ->). exists (List.length l0 + j)%nat.
            rewrite app_length. split; [lia|]. rewrite firstn_app_2.
            unfold through_leaves. now rewrite fold_left_app. }
    apply (HL es [rid] h h []); auto.
    + apply trace_ok_self.
    + intros i' [<-|[]] _. exists 0%nat. split; auto.
Qed.

(** the first element that stops a ray *)
Lemma first_miss {T} {N : Num T} (l : list (@kind T * @mat T)) : Forall not_axicon l ->
  forall r, rblk r = false -> rblk (through_leaves l r) = true ->
  exists i km, nth_error l i = Some km /\ misses (snd km) (after l r i) = true /\
    (forall j km', (j < i)%nat -> nth_error l j = Some km' -> misses (snd km') (after l r j) = false) /\
    through_leaves l r = through_leaf (fst km) (snd km) (after l r i).
Proof.
  induction 1 as [|[k m] t Hk Ht IH]; intros r B Hb; [cbn in Hb; congruence|].
  unfold through_leaves in *. cbn [fold_left fst snd] in *.
  destruct (misses m r) eqn:M.
  - exists 0%nat, (k, m). split; [reflexivity|]. split; [exact M|]. split; [lia|].
    fold (through_leaves t (through_leaf k m r)). cbn [fst snd after firstn].
    assert (rblk (through_leaf k m r) = true) as B1 by (rewrite through_leaf_blocks, M; apply orb_true_r).
    clear -Ht B1. revert B1. unfold after, ideals; cbn [firstn fold_left].
    generalize (through_leaf k m r). induction Ht as [|[k' m'] t Hk Ht IH]; intros s B; cbn; auto.
    rewrite through_leaf_keeps by auto. apply IH. auto.
  - pose proof (through_leaf_free (k, m) r B M) as E. cbn [fst snd] in E. rewrite E in *.
    destruct (IH (ideal (k, m) r)) as (i & km & Ei & Mi & Hlt & Eo); auto.
    exists (S i), km. split; auto. split; [exact Mi|]. split; [|exact Eo].
    intros [|j] km' Hj Ej; cbn in Ej; [injection Ej as <-; exact M|].
    apply (Hlt j km'); auto. lia.
Qed.

Lemma through_leaves_prefix {T} {N : Num T} (l : list (@kind T * @mat T)) r j :
  rblk (through_leaves (firstn j l) r) = false ->
  through_leaves (firstn j l) r = after l r j /\
  forall i km, (i < j)%nat -> nth_error l i = Some km -> misses (snd km) (after l r i) = false.
Proof.
  intros H. apply through_leaves_free in H as (B & E & F). split; auto.
  intros i km Hi Ei.
  assert (nth_error (firstn j l) i = Some km) as Ei'.
  { clear -Hi Ei. revert i j Hi Ei. induction l as [|x l IH]; intros i j Hi Ei.
    - destruct i; discriminate.
    - destruct j; [lia|]. destruct i; auto. cbn in *. apply IH; auto. lia. }
  apply nth_error_split in Ei' as (pre & post & E1 & L1).
  specialize (F pre km post E1). unfold after.
  replace (firstn i l) with pre; auto.
  transitivity (firstn i (firstn j l)).
  - rewrite E1, firstn_app, <- L1, Nat.sub_diag, firstn_all. cbn. now rewrite app_nil_r.
  - rewrite firstn_firstn. f_equal. lia.
Qed.

Theorem stop_when_blocked e o ps : canon e o -> Forall2 is_piece (leaves e) ps ->
  Forall not_axicon (leaves e) -> Forall2 thin_aperture (leaves e) ps ->
  hasFiniteApertureDiameter e = true -> rblk (traceThrough e probe) = true ->
  exists i D, (exists km, nth_error (leaves e) i = Some km /\ mdiam (snd km) = Fin D) /\
    apertureStop e = Ok (mkStop (Some (Fin (depth ps (S i)))) (Some (Fin D))) /\
    D / 2 < Rabs (axis_height ps i (/ 10)) /\
    forall j km' D', (j < i)%nat -> nth_error (leaves e) j = Some km' -> mdiam (snd km') = Fin D' ->
      Rabs (axis_height ps j (/ 10)) <= D' / 2.
Proof.
  intros Hc HF HA HT Hfin Hb. unfold apertureStop. rewrite Hfin, probe_fray in *.
  set (r0 := fray 0 (/ 10) 0 false PInf None) in *.
  rewrite traceThrough_through, through_flatten in Hb.
  destruct (first_miss _ HA r0 eq_refl Hb) as (i & km & Ei & Mi & Hlt & Eo).
  assert (forall j km', nth_error (leaves e) j = Some km' ->
    misses (snd km') (after (leaves e) r0 j) = match mdiam (snd km') with
      Fin D => Rltb (D / 2) (Rabs (axis_height ps j (/ 10))) | _ => false end) as HM.
  { intros j km' Ej. apply (misses_axis _ _ HF HA HT); auto. }
  rewrite (HM _ _ Ei) in Mi. destruct (mdiam (snd km)) as [D| | |] eqn:ED; try discriminate.
  apply Rltb_true in Mi. exists i, D. split; [eauto|].
  assert (forall j km' D', (j < i)%nat -> nth_error (leaves e) j = Some km' ->
    mdiam (snd km') = Fin D' -> Rabs (axis_height ps j (/ 10)) <= D' / 2) as Hbefore.
  { intros j km' D' Hj Ej ED'. specialize (Hlt j km' Hj Ej). rewrite (HM _ _ Ej), ED' in Hlt.
    now apply Rltb_false in Hlt. }
  split; [|split; auto].
  (* the blocked ray *)
  assert (i <= List.length (leaves e))%nat as Hi.
  { assert (i < List.length (leaves e))%nat; [apply nth_error_Some; congruence|lia]. }
  destruct (after_pieces _ _ HF HA i Hi 0 (/10) 0 false PInf None) as (w' & Ea). fold r0 in Ea.
  destruct (Forall2_nth _ _ _ _ _ HF Ei) as (p & Ep & (Dp & Pp & Lp & Posp & _)).
  destruct (Forall2_nth _ _ _ _ _ HT Ei) as (p' & Ep' & (Np & Dm & Hthin)).
  assert (p' = p) as -> by congruence. clear Ep'.
  destruct Dm as [Dm|Dm]; [congruence|]. destruct (Hthin Dm) as [EA EB].
  rewrite ED in Posp; cbn in Posp.
  assert (axis_height ps i (/10) = fst (mapp (upto ps i) (0, / 10))) as Eh.
  { unfold axis_height. rewrite (upto_S _ _ _ Ep), mapp_mmul.
    destruct (mapp (upto ps i) (0, / 10)). unfold mapp; cbn [fst snd]. rewrite EA, EB. lra. }
  destruct km as [k m]. cbn [fst snd] in *.
  assert (not_axicon (k, m)) as Hk.
  { rewrite Forall_forall in HA. apply HA. eapply nth_error_In; eauto. }
  set (out := through_leaves (leaves e) r0) in *.
  assert (ry out = Fin (axis_height ps i (/10)) /\ rz out = Fin (depth ps (S i)) /\ rdiam out = Fin D)
    as (Oy & Oz & Od).
  { rewrite Eo, Ea. unfold through_leaf. dsc Dp. rewrite Dm.
    change (nltb (@c0 XR _) (Fin 0)) with (Rltb 0 0). rewrite Rltb_ge by lra.
    unfold mul_ray_v, fray; cbn [rblk]. unfold mul_ray_new. cbn [ry rth rz].
    rewrite ED, (depth_S _ _ _ Ep), Dm, Eh. dsc Dp. rewrite EA, EB, Dm.
    set (u := fst (mapp (upto ps i) (0, / 10))). set (v := snd (mapp (upto ps i) (0, / 10))).
    cbn [nmul nadd NumXR xmul xadd].
    replace (1 * u + 0 * v) with u by ring. replace (0 + (0 + depth ps i)) with (depth ps i + 0) by ring.
    destruct k; cbn in Hk; try tauto; cbn; destruct (Rltb _ _); auto. }
  (* the trace *)
  pose proof (trace_tail e 0 [r0] ltac:(cbn; lia)) as TT. cbn zeta in TT.
  pose proof (trace_unblocked e 0 [r0] ltac:(cbn; lia)) as TU.
  unfold trace_values. destruct (trace e 0 [r0]) as [tr h]. cbn [fst snd] in *.
  destruct TT as (pre & suf & Ev & Fp & Hs & Fs).
  change (hget [r0] 0) with r0 in *. rewrite through_flatten in Fs. fold out in Fs.
  assert (forall r, In r pre -> plain r /\ rat r <= / 2) as Hpre.
  { intros r Hr. rewrite Forall_forall in Fp. pose proof (Fp r Hr) as Br.
    assert (In r (map (hget h) tr)) as Hin by (rewrite Ev; apply in_or_app; auto).
    apply in_map_iff in Hin as (id & <- & Hid).
    destruct (TU id Hid Br) as (j & Hj & Ej). rewrite Ej in Br |- *.
    apply through_leaves_prefix in Br as (-> & Hm).
    destruct (after_pieces _ _ HF HA j Hj 0 (/10) 0 false PInf None) as (w2 & E2). fold r0 in E2.
    rewrite E2. clear E2.
    destruct j as [|j'];
      [split; [split; [eexists; reflexivity|exact I]|unfold rat, fray; cbn [ry rdiam ratio]; lra]|].
    rename j' into j.
    destruct (nth_error (leaves e) j) as [km'|] eqn:Ekm; [|apply nth_error_None in Ekm; lia].
    specialize (Hm j km' ltac:(lia) Ekm). fold r0 in Hm. rewrite (HM _ _ Ekm) in Hm.
    destruct (Forall2_nth _ _ _ _ _ HF Ekm) as (q & _ & (_ & _ & _ & Posq & _)).
    unfold plain, rat, fray. cbn [ry rdiam]. split; [split; eauto|].
    fold (axis_height ps j (/10)).
    destruct (mdiam (snd km')) as [D'| | |]; cbn [ratio]; try lra.
    apply Rltb_false in Hm. cbn in Posq. apply (Rmult_le_reg_r D'); [lra|].
    unfold Rdiv. rewrite Rmult_assoc, Rinv_l by lra. lra. }
  assert (plain out /\ / 2 < rat out) as (Hpo & Hro).
  { unfold plain, rat. rewrite Oy, Od. split; [split; eauto|]. cbn [ratio].
    apply (Rmult_lt_reg_r D); [lra|]. unfold Rdiv at 1. rewrite Rmult_assoc, Rinv_l by lra. lra. }
  assert (Forall plain (pre ++ suf)) as HP.
  { apply Forall_app. split; rewrite Forall_forall in *.
    - intros r Hr. now apply Hpre.
    - intros r Hr. rewrite (Fs r Hr). exact Hpo. }
  assert (In out suf) as Hos.
  { destruct suf as [|s t]; [congruence|]. inversion Fs; subst. now left. }
  rewrite Ev. change (@c0 XR _) with (Fin 0). change (@ninf XR _) with PInf.
  destruct (stop_loop_spec _ HP 0 (Fin 0) PInf ltac:(lra))
    as [(_ & F)|(l1 & r & l2 & El & Es & H1 & H2 & H3)].
  - exfalso. rewrite Forall_forall in F. specialize (F out ltac:(apply in_or_app; auto)). lra.
  - rewrite Es. cbn [bind fst snd].
    assert (r = out) as ->.
    { assert (In r (pre ++ suf)) as Hr by (rewrite El; apply in_elt).
      rewrite Forall_forall in H2. specialize (H2 out ltac:(apply in_or_app; auto)).
      apply in_app_or in Hr as [Hr|Hr].
      - destruct (Hpre r Hr). lra.
      - rewrite Forall_forall in Fs. now apply Fs. }
    now rewrite Oz, Od.
Qed.
