(** The field of view: the set of heights whose chief ray gets through, and what fieldStop,
    halfFieldOfView and lagrangeInvariant make of it. *)
From Coq Require Import ZArith Reals Lra Lia List Bool Sorted String.
From Verif Require Import Base Nums Optics Group Spec MatrixProofs ElementProofs GroupProofs
  TraceProofs RayProofs StrictProofs FlipProofs TransferProofs Imaging SearchProofs ImagingProofs.
Import ListNotations.
Open Scope list_scope.
Open Scope R_scope.

(** ** Transmission along a family of proportional rays *)
Definition threshold (f : R -> bool) : Prop :=
  (forall y, f y = false) \/ exists h, 0 < h /\ forall y, f y = Rltb h (Rabs y).

Lemma threshold_or f g : threshold f -> threshold g -> threshold (fun y => f y || g y).
Proof.
  intros [F|(h & Hh & F)] [G|(k & Hk & G)].
  - left. intros y. now rewrite F, G.
  - right. exists k. split; auto. intros y. now rewrite F, G.
  - right. exists h. split; auto. intros y. rewrite F, G. apply orb_false_r.
  - right. exists (Rmin h k). split; [now apply Rmin_pos|]. intros y. rewrite F, G.
    unfold Rmin. destruct (Rle_dec h k).
    + destruct (Rltb h (Rabs y)) eqn:E; cbn; auto. apply Rltb_false in E. apply Rltb_ge. lra.
    + destruct (Rltb k (Rabs y)) eqn:E; [apply orb_true_r|]. apply Rltb_false in E.
      rewrite Rltb_ge by lra. reflexivity.
Qed.

Lemma threshold_lin (D : XR) c : positive D -> threshold (fun y => nltb D (nabs (Fin (c * y)))).
Proof.
  destruct D as [x| | |]; cbn; try tauto; intros Hx; [|left; auto].
  destruct (Req_dec c 0) as [->|Hc].
  - left. intros y. rewrite Rmult_0_l, Rabs_R0. apply Rltb_ge. lra.
  - right. exists (x / Rabs c). pose proof (Rabs_pos_lt c Hc) as Hp.
    split; [now apply Rdiv_lt_0_compat|]. intros y. rewrite Rabs_mult.
    destruct (Rltb (x / Rabs c) (Rabs y)) eqn:E.
    + apply Rltb_true in E. apply Rltb_lt. apply (Rmult_lt_compat_l (Rabs c)) in E; auto.
      replace (Rabs c * (x / Rabs c)) with x in E by (field; lra). exact E.
    + apply Rltb_false in E. apply Rltb_ge. apply (Rmult_le_compat_l (Rabs c)) in E; [|lra].
      replace (Rabs c * (x / Rabs c)) with x in E by (field; lra). exact E.
Qed.

Definition open_angle (km : @kind XR * @mat XR) : Prop := positive (mna (snd km)).

Lemma half_positive (D : XR) : positive D -> positive (ndiv D c2).
Proof.
  destruct D as [r| | |]; rewrite ?half_fin, ?half_inf; intros H; try destruct H; cbn in *; auto; lra.
Qed.

Lemma family_threshold l ps : Forall2 is_piece l ps -> Forall not_axicon l -> Forall open_angle l ->
  forall c k, exists f, threshold f /\
    forall y z (d : XR) w, rblk (through_leaves l (fray (c * y) (k * y) z false d w)) = f y.
Proof.
  induction 1 as [|[kd m] p l ps Hp HF IH]; intros HA HO c k.
  - exists (fun _ => false). split; [left; auto|]. reflexivity.
  - inversion HA as [|? ? Ha HA']; subst. inversion HO as [|? ? Ho HO']; subst.
    destruct Hp as (D & P & H0 & Hd & _). cbn [snd] in *. unfold open_angle in Ho; cbn [snd] in Ho.
    destruct (IH HA' HO' (A_ (oM (po p)) * c + B_ (oM (po p)) * k)
                         (C_ (oM (po p)) * c + D_ (oM (po p)) * k)) as (f & Tf & Ef).
    exists (fun y => (nltb (ndiv (mdiam m) c2) (nabs (Fin (c * y))) ||
                      nltb (mna m) (nabs (Fin (k * y)))) || f y).
    split.
    { apply threshold_or; auto. apply threshold_or; apply threshold_lin; auto using half_positive. }
    intros y z d w. set (r := fray (c * y) (k * y) z false d w).
    change (nltb (ndiv (mdiam m) c2) (nabs (Fin (c * y))) || nltb (mna m) (nabs (Fin (k * y))))
      with (misses m r).
    unfold through_leaves. cbn [fold_left fst snd]. fold (through_leaves l (through_leaf kd m r)).
    destruct (misses m r) eqn:M.
    + apply through_leaves_blocked. rewrite through_leaf_blocks, M. apply orb_true_r.
    + pose proof (through_leaf_free (kd, m) r eq_refl M) as E. cbn [fst snd] in E. rewrite E.
      destruct (leaf_ideal kd m (po p) (c * y) (k * y) z false d w D Ha) as (d' & w' & E').
      fold r in E'. rewrite E'. cbn [orb].
      rewrite <- (Ef y (oL (po p) + z) d' w').
      unfold mapp; cbn [fst snd].
      replace (A_ (oM (po p)) * (c * y) + B_ (oM (po p)) * (k * y))
        with ((A_ (oM (po p)) * c + B_ (oM (po p)) * k) * y) by ring.
      replace (C_ (oM (po p)) * (c * y) + D_ (oM (po p)) * (k * y))
        with ((C_ (oM (po p)) * c + D_ (oM (po p)) * k) * y) by ring.
      reflexivity.
Qed.

(** ** The edge of the field *)
(** the chief ray from height [y] is blocked exactly beyond [h] *)
Definition field_edge (e : @elem XR) (h : R) : Prop :=
  forall y, exists r, chiefRayAt e (Fin y) = Ok (Some r) /\ rblk (traceThrough e r) = Rltb h (Rabs y).
Definition no_field_edge (e : @elem XR) : Prop :=
  forall y, exists r, chiefRayAt e (Fin y) = Ok (Some r) /\ rblk (traceThrough e r) = false.

(** a path in which the stop can be aimed at *)
Record aimed (e : @elem XR) (o : optic) (ps : list piece) (z : R) : Prop := {
  am_canon : canon e o;
  am_pieces : Forall2 is_piece (leaves e) ps;
  am_lin : Forall not_axicon (leaves e);
  am_open : Forall open_angle (leaves e);
  am_stop : exists d, apertureStop e = Ok (mkStop (Some (Fin z)) d);
  am_B : / 100000 <= Rabs (B_ (matrix_to ps z))
}.

Definition aim (ps : list piece) (z : R) : R := - A_ (matrix_to ps z) / B_ (matrix_to ps z).
Definition chief (ps : list piece) (z y : R) : @ray XR := fray y (aim ps z * y) 0 false PInf None.

Lemma aimed_chief e o ps z y : aimed e o ps z -> chiefRayAt e (Fin y) = Ok (Some (chief ps z y)).
Proof.
  intros [Hc HF _ _ [d HS] HB]. destruct (chief_ray e o ps z d y Hc HF HS) as (_ & H).
  destruct (H HB) as (th & E & -> & _). rewrite E. reflexivity.
Qed.

Theorem field_has_edge e o ps z : aimed e o ps z ->
  no_field_edge e \/ exists h, 0 < h /\ field_edge e h.
Proof.
  intros H. destruct (family_threshold _ _ (am_pieces _ _ _ _ H) (am_lin _ _ _ _ H)
    (am_open _ _ _ _ H) 1 (aim ps z)) as (f & Tf & Ef).
  assert (forall y, exists r, chiefRayAt e (Fin y) = Ok (Some r) /\ rblk (traceThrough e r) = f y) as HX.
  { intros y. exists (chief ps z y). split; [now apply (aimed_chief e o)|].
    rewrite traceThrough_through, through_flatten. rewrite <- (Ef y 0 PInf None).
    unfold chief. now rewrite Rmult_1_l. }
  destruct Tf as [F|(h & Hh & F)].
  - left. intros y. rewrite <- (F y). apply HX.
  - right. exists h. split; auto. intros y. rewrite <- (F y). apply HX.
Qed.

(** ** The search on exact numbers *)
Section Search.
Variables (e : @elem XR) (o : optic) (ps : list piece) (z : R) (blk : R -> bool).
Hypothesis Haim : aimed e o ps z.
Hypothesis Hblk : forall y, rblk (traceThrough e (chief ps z y)) = blk y.

Lemma prec_fin : @precision XR _ = Fin prec.
Proof.
  unfold precision, ndec, prec. cbn [nofZ NumXR ndiv]. change (10 ^ 6)%Z with 1000000%Z.
  rewrite xdiv_fin by lra. f_equal. lra.
Qed.

Definition s_of (dy y : R) (was : bool) (lst : R) : @search_state XR :=
  mkS (Fin dy) (Fin y) was (chief ps z lst) (trace_values e (chief ps z lst)).

Lemma step_of s dy y : s_dy s = Fin dy -> s_y s = Fin y ->
  let b := blk y in
  let dy' := if negb (Bool.eqb b (s_was s)) then - dy / 2 else dy * (3 / 2) in
  search_step e s = Ok (s_of dy' (y + dy') b y).
Proof.
  intros E1 E2 b dy'. unfold search_step. rewrite E1, E2, (aimed_chief e o ps z y Haim). cbn [bind].
  rewrite trace_values_last, Hblk. fold b.
  assert ((if negb (Bool.eqb b (s_was s)) then ndiv (nopp (Fin dy)) c2
           else nmul (Fin dy) (ndec 15 1)) = Fin dy') as ->.
  { unfold dy'. destruct (negb _).
    - change (nopp (Fin dy)) with (Fin (- dy)). now rewrite half_fin.
    - unfold ndec. cbn [nofZ NumXR ndiv]. change (10 ^ 1)%Z with 10%Z.
      rewrite xdiv_fin by lra. cbn [nmul NumXR xmul]. f_equal. lra. }
  reflexivity.
Qed.

Definition outcome (r : option (option R)) (q : res (option (@search_state XR))) : Prop :=
  match r with
  | None => q = Err OutOfFuel
  | Some None => q = Ok None
  | Some (Some v) => exists s, q = Ok (Some s) /\ s_ray s = chief ps z v /\
                       s_trace s = trace_values e (chief ps z v)
  end.

Lemma search_rs : forall fuel w dy y was lst s,
  s_dy s = Fin dy -> s_y s = Fin y -> s_was s = was ->
  prec < Rabs dy \/ (s_ray s = chief ps z lst /\ s_trace s = trace_values e (chief ps z lst)) ->
  outcome (rs blk fuel w dy y was lst) (search fuel e w s).
Proof.
  induction fuel as [|fuel IH]; intros w dy y was lst s E1 E2 E3 HT; [reflexivity|].
  cbn [rs search]. rewrite E1, E3, prec_fin.
  change (nltb (Fin prec) (nabs (Fin dy))) with (Rltb prec (Rabs dy)).
  destruct (Rltb prec (Rabs dy) || negb (Bool.eqb was w)) eqn:G.
  - rewrite (step_of s dy y E1 E2). rewrite E3. cbn [bind]. cbn zeta.
    set (dy' := if negb (Bool.eqb (blk y) was) then - dy / 2 else dy * (3 / 2)).
    unfold s_of at 1 2. cbn [s_y s_was].
    change (nltb (@maxHeight XR _) (nabs (Fin (y + dy')))) with (Rltb 10000 (Rabs (y + dy'))).
    destruct (Rltb 10000 (Rabs (y + dy')) && negb (blk y)); [reflexivity|].
    apply IH; auto.
  - destruct HT as [HT|[Hr Ht]].
    + apply orb_false_iff in G as [G _]. apply Rltb_false in G. lra.
    + cbn. eauto.
Qed.

Lemma start_fin : s_dy (search_start (@Ray_new XR _ c0 c0)) = Fin (/ 10000).
Proof.
  unfold search_start. cbn [s_dy]. rewrite prec_fin. cbn [nofZ NumXR nmul xmul]. f_equal.
  unfold prec. lra.
Qed.

Lemma search_start_rs fuel w : outcome (rs blk fuel w (/ 10000) 0 false 0)
  (search fuel e w (search_start (Ray_new c0 c0))).
Proof.
  apply search_rs; auto using start_fin. left. rewrite Rabs_pos_eq; unfold prec; lra.
Qed.

Lemma started w v : SearchProofs.start blk w (Some v) -> exists n, forall fuel, (n <= fuel)%nat ->
  exists s, search fuel e w (search_start (Ray_new c0 c0)) = Ok (Some s) /\
    s_ray s = chief ps z v /\ s_trace s = trace_values e (chief ps z v).
Proof.
  intros (n & Hn). exists n. intros fuel Hf. pose proof (search_start_rs fuel w) as H.
  now rewrite (Hn fuel Hf) in H.
Qed.
Lemma started_high w : SearchProofs.start blk w None -> exists n, forall fuel, (n <= fuel)%nat ->
  search fuel e w (search_start (Ray_new c0 c0)) = Ok None.
Proof.
  intros (n & Hn). exists n. intros fuel Hf. pose proof (search_start_rs fuel w) as H.
  now rewrite (Hn fuel Hf) in H.
Qed.
End Search.

Lemma first_blocked_tail {T} {N : Num T} (e : @elem T) r : rblk (traceThrough e r) = true ->
  first_blocked (trace_values e r) =
  mkStop (Some (rz (traceThrough e r))) (Some (rdiam (traceThrough e r))).
Proof.
  rewrite traceThrough_through. intros Hb. unfold trace_values, first_blocked.
  pose proof (trace_tail e 0 [r] ltac:(cbn; lia)) as H. cbn zeta in H.
  destruct (trace e 0 [r]) as [tr h]. cbn [fst snd] in H.
  destruct H as (pre & suf & -> & Fp & Hs & Fs). change (hget [r] 0) with r in Fs.
  assert (find rblk (pre ++ suf) = Some (through e r)) as ->; [|reflexivity].
  induction Fp as [|x pre Hx Fp IH]; cbn.
  - destruct suf as [|s t]; [congruence|]. inversion Fs; subst. cbn. now rewrite Hb.
  - now rewrite Hx.
Qed.

Lemma stop_has_finite e z d : @apertureStop XR _ e = Ok (mkStop (Some z) d) ->
  hasFiniteApertureDiameter e = true.
Proof. unfold apertureStop. destruct (hasFiniteApertureDiameter e); auto. discriminate. Qed.

Section Field.
Variables (e : @elem XR) (o : optic) (ps : list piece) (z : R).
Hypothesis Haim : aimed e o ps z.
Hypothesis Hz : z <> 0.

Lemma guard : exists d, apertureStop e = Ok (mkStop (Some (Fin z)) d) /\
  hasFiniteApertureDiameter e = true /\ neqb (Fin z) (@c0 XR _) = false.
Proof.
  destruct (am_stop _ _ _ _ Haim) as (d & Hd). exists d. split; auto.
  split; [eapply stop_has_finite; eauto|]. change (neqb (Fin z) (@c0 XR _)) with (Reqb z 0).
  now apply Reqb_neq.
Qed.

Lemma fieldStop_unfold fuel : fieldStop fuel e =
  bind (search fuel e true (search_start (Ray_new c0 c0)))
    (fun r => match r with None => Ok (mkStop None (Some ninf)) | Some s => Ok (first_blocked (s_trace s)) end).
Proof.
  destruct guard as (d & E & F & G). unfold fieldStop. rewrite E. cbn [bind st_z]. rewrite F, G.
  reflexivity.
Qed.

Lemma edge_blk h : field_edge e h -> forall y, rblk (traceThrough e (chief ps z y)) = Rltb h (Rabs y).
Proof.
  intros H y. destruct (H y) as (r & E & <-). rewrite (aimed_chief e o ps z y Haim) in E.
  now injection E as <-.
Qed.
Lemma no_edge_blk : no_field_edge e -> forall y, rblk (traceThrough e (chief ps z y)) = false.
Proof.
  intros H y. destruct (H y) as (r & E & <-). rewrite (aimed_chief e o ps z y Haim) in E.
  now injection E as <-.
Qed.

(** the field stop is where the chief ray from just outside the field stops *)
Theorem field_stop_found h : field_edge e h -> 3 / 80000 <= h < tried 42 ->
  exists n v, h < v <= h + 2 * prec /\ forall fuel, (n <= fuel)%nat ->
    fieldStop fuel e = Ok (mkStop (Some (rz (traceThrough e (chief ps z v))))
                                  (Some (rdiam (traceThrough e (chief ps z v))))).
Proof.
  intros He Hh. pose proof (edge_blk h He) as Hb.
  destruct (search_returns (fun y => Rltb h (Rabs y)) h ltac:(lra) (fun y => eq_refl) true Hh) as (v & Hv & Hs).
  destruct (started e o ps z _ Haim Hb true v Hs) as (n & Hn). exists n, v. split; [exact Hv|].
  intros fuel Hf. destruct (Hn fuel Hf) as (s & Es & _ & Et). rewrite fieldStop_unfold, Es.
  cbn [bind]. rewrite Et. f_equal. apply first_blocked_tail. rewrite Hb. apply Rltb_lt.
  cbn in Hv. rewrite Rabs_pos_eq; lra.
Qed.

Lemma out_position y : exists x, rz (traceThrough e (chief ps z y)) = Fin x /\ 0 <= x.
Proof.
  pose proof (values_nonneg e ps y (aim ps z * y) PInf None (am_pieces _ _ _ _ Haim)) as K.
  fold (chief ps z y) in K. rewrite Forall_forall in K. apply K.
  rewrite <- (trace_values_last e (chief ps z y) (chief ps z y)). apply last_in.
  unfold trace_values. pose proof (trace_is_ok e 0 [chief ps z y] ltac:(cbn; lia)) as H.
  destruct (trace e 0 [chief ps z y]) as [tr hh]. intros E. apply map_eq_nil in E. subst.
  now apply (t_nonempty _ _ _ _ _ H).
Qed.

Theorem half_field_found h : field_edge e h -> 3 / 80000 <= h < tried 42 ->
  exists n v, v <= h < v + 2 * prec /\ forall fuel, (n <= fuel)%nat ->
    halfFieldOfView fuel e = Ok (Fin v).
Proof.
  intros He Hh. pose proof (edge_blk h He) as Hb.
  destruct (field_stop_found h He Hh) as (n1 & v1 & _ & H1).
  destruct (search_returns (fun y => Rltb h (Rabs y)) h ltac:(lra) (fun y => eq_refl) false Hh) as (v & Hv & Hs).
  destruct (started e o ps z _ Haim Hb false v Hs) as (n & Hn).
  exists (n1 + n)%nat, v. split; [exact Hv|]. intros fuel Hf.
  unfold halfFieldOfView. rewrite (H1 fuel) by lia. cbn [bind st_z].
  destruct (out_position v1) as (x & Ex & Hx). rewrite Ex.
  destruct (transfer_upto e o ps x (am_canon _ _ _ _ Haim) (am_pieces _ _ _ _ Haim) Hx) as (t & Et & _).
  rewrite Et. cbn [bind]. destruct (Hn fuel ltac:(lia)) as (s & Es & Er & _). rewrite Es. cbn [bind].
  now rewrite Er.
Qed.

(** no aperture, or an aperture too far from the axis: reported as an infinite field *)
Theorem field_unlimited : no_field_edge e \/ (exists h, field_edge e h /\ tried 42 <= h) ->
  exists n, forall fuel, (n <= fuel)%nat ->
    fieldStop fuel e = Ok (mkStop None (Some PInf)) /\ halfFieldOfView fuel e = Ok PInf.
Proof.
  intros H.
  assert (exists blk, (forall y, rblk (traceThrough e (chief ps z y)) = blk y) /\
    SearchProofs.start blk true None) as (blk & Hb & Hs).
  { destruct H as [H|(h & He & Hh)].
    - exists (fun _ => false). split; [now apply no_edge_blk|]. now apply start_unlimited.
    - exists (fun y => Rltb h (Rabs y)). split; [now apply edge_blk|].
      apply (start_high _ h); auto. pose proof (tried_mono 1 42 ltac:(lia)).
      assert (tried 1 = 3 / 20000) by (unfold tried; rewrite step_1; lra). lra. }
  destruct (started_high e o ps z _ Haim Hb true Hs) as (n & Hn). exists n. intros fuel Hf.
  unfold halfFieldOfView. rewrite fieldStop_unfold, (Hn fuel Hf). cbn [bind st_z]. auto.
Qed.

(** a field smaller than 3.75e-5 makes the search run away *)
Theorem field_too_small h : 0 < h < 3 / 80000 -> field_edge e h ->
  forall fuel, fieldStop fuel e = Err OutOfFuel /\ halfFieldOfView fuel e = Err OutOfFuel.
Proof.
  intros Hh He fuel. pose proof (edge_blk h He) as Hb.
  assert (fieldStop fuel e = Err OutOfFuel) as E.
  { rewrite fieldStop_unfold. pose proof (search_start_rs e o ps z _ Haim Hb fuel true) as H.
    rewrite (search_runs_away (fun y => Rltb h (Rabs y)) h) in H; auto; try lra.
    cbn [outcome] in H. rewrite H. reflexivity. }
  split; auto. unfold halfFieldOfView. now rewrite E.
Qed.

(** the chief ray from the reported height gets through, the next ones do not *)
Theorem half_field_edge h v fuel : field_edge e h -> 3 / 80000 <= h < tried 42 ->
  halfFieldOfView fuel e = Ok v -> exists x, v = Fin x /\ x <= h < x + 2 * prec.
Proof.
  intros He Hh E. destruct (half_field_found h He Hh) as (n & x & Hx & H).
  pose proof (edge_blk h He) as Hb.
  (* more fuel gives the same answer *)
  assert (forall k blk w dy y was lst m q, rs blk k w dy y was lst = Some q ->
    rs blk (k + m) w dy y was lst = Some q) as HM.
  { clear. induction k as [|k IH]; intros blk w dy y was lst m q; cbn; [discriminate|].
    destruct (_ || _); auto. destruct (_ && _); auto. }
  assert (forall w f', (fuel <= f')%nat ->
    search fuel e w (search_start (Ray_new c0 c0)) = Err OutOfFuel \/
    match search fuel e w (search_start (Ray_new c0 c0)),
          search f' e w (search_start (Ray_new c0 c0)) with
    | Ok (Some s), Ok (Some s') => s_ray s = s_ray s' /\ s_trace s = s_trace s'
    | Ok None, Ok None => True | _, _ => False end) as HS.
  { intros w f' Hf. pose proof (search_start_rs e o ps z _ Haim Hb fuel w) as H1.
    pose proof (search_start_rs e o ps z _ Haim Hb f' w) as H2.
    destruct (rs _ fuel w _ _ _ _) as [q|] eqn:Eq; [|left; exact H1]. right.
    apply HM with (m := (f' - fuel)%nat) in Eq. replace (fuel + (f' - fuel))%nat with f' in Eq by lia.
    rewrite Eq in H2. destruct q as [v'|]; cbn [outcome] in H1, H2.
    - destruct H1 as (s & -> & A1 & A2), H2 as (s' & -> & B1 & B2). split; congruence.
    - now rewrite H1, H2. }
  exists x. split; auto. specialize (H (fuel + n)%nat ltac:(lia)).
  unfold halfFieldOfView in E, H. rewrite fieldStop_unfold in E, H.
  destruct (HS true (fuel + n)%nat ltac:(lia)) as [F|F]; [rewrite F in E; discriminate|].
  destruct (search fuel e true _) as [[s|]|], (search (fuel + n) e true _) as [[s'|]|];
    try contradiction; cbn [bind st_z] in E, H; try discriminate.
  destruct F as [_ F]. rewrite <- F in H.
  destruct (st_z (first_blocked (s_trace s))) as [zz|]; [|discriminate].
  destruct (transferMatrix e zz) as [t|]; cbn [bind] in E, H; [|discriminate].
  destruct (HS false (fuel + n)%nat ltac:(lia)) as [G|G]; [rewrite G in E; discriminate|].
  destruct (search fuel e false _) as [[s1|]|], (search (fuel + n) e false _) as [[s2|]|];
    try contradiction; cbn [bind] in E, H; try discriminate.
  destruct G as [G _]. rewrite <- G in H. congruence.
Qed.
End Field.
