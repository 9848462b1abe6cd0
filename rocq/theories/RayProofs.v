(** Ray propagation over exact numbers: composition, traces, transmitted sets. *)
From Coq Require Import ZArith Reals Lra Lia List Bool Sorted String.
From Verif Require Import Base Nums Optics Group Spec MatrixProofs ElementProofs GroupProofs
  TraceProofs.
Import ListNotations.
Open Scope R_scope.

(** ** Elements whose attributes are those of their contents *)
Inductive built : @elem XR -> optic -> Prop :=
| built_leaf k m o : describes m o -> physical o -> leaf_spec k o -> built (Leaf k m) o
| built_group g m e es o1 os o :
    Forall2 built (e :: es) (o1 :: os) -> chain (o1 :: os) ->
    describes m o -> physical o ->
    oM o = oM (path_optic o1 os) -> oL o = oL (path_optic o1 os) ->
    built (Group g m (e :: es)) o.

Lemma built_lib : forall e o, built e o -> lib e o.
Proof.
  induction e as [k m | gk m es IH] using elem_ind'; intros o H; inversion H; subst.
  - constructor; auto.
  - match goal with HF : Forall2 built _ _ |- _ => rename HF into HF' end.
    econstructor; eauto. clear -IH HF'. revert IH.
    induction HF'; intros IH; constructor; inversion IH; subst; auto.
Qed.

Lemma Forall2_built_lib es os : Forall2 built es os -> Forall2 lib es os.
Proof. induction 1; constructor; auto using built_lib. Qed.

Lemma tracks_ML m o : tracks m o -> exists o', describes m o' /\ oM o' = oM o /\ oL o' = oL o.
Proof.
  intros [H | [H1 H2]]; [eauto|]. eexists; split; [exact H2|]. cbn. auto.
Qed.

(** a group assembled by successive appends is built *)
Lemma append_built g e o os g' :
  (forall o1 t, os = o1 :: t -> tracks (gmat g) (path_optic o1 t)) ->
  Forall2 built (gelems g) os -> chain os -> built e o ->
  append_st g e = (g', None) ->
  exists os', Forall2 built (gelems g') os' /\ chain os' /\ os' <> [] /\
    (forall o1 t, os' = o1 :: t -> tracks (gmat g') (path_optic o1 t)).
Proof.
  intros HT HF HC He. unfold append_st.
  destruct (append_check (gelems g) e) as [e'|x] eqn:Ck; [|discriminate].
  assert (exists o', built e' o' /\ chain (os ++ [o'])) as (o' & He' & HC').
  { pose proof (Forall2_built_lib _ _ HF) as HFl.
    destruct (append_check_lib _ _ _ _ _ HFl HC (built_lib _ _ He) Ck) as (o' & L & C).
    exists o'. split; auto. unfold append_check in Ck.
    destruct (last_opt (gelems g)) as [le|].
    - destruct (neqb _ _).
      + injection Ck as <-. inversion He; subst; inversion L; subst.
        * constructor; auto.
        * (* group: descriptions agree *)
          assert (o' = o) as ->; [|auto].
          apply optic_eq.
          -- apply M2_eq; pose proof (d_A _ _ H1); pose proof (d_A _ _ H8);
             pose proof (d_B _ _ H1); pose proof (d_B _ _ H8);
             pose proof (d_C _ _ H1); pose proof (d_C _ _ H8);
             pose proof (d_D _ _ H1); pose proof (d_D _ _ H8); congruence.
          -- pose proof (d_L _ _ H1); pose proof (d_L _ _ H8); congruence.
          -- pose proof (d_nf _ _ H1); pose proof (d_nf _ _ H8); congruence.
          -- pose proof (d_nb _ _ H1); pose proof (d_nb _ _ H8); congruence.
          -- pose proof (d_fv _ _ H1) as E1; pose proof (d_fv _ _ H8) as E2.
             rewrite E1 in E2. destruct (ofv o), (ofv o'); cbn in E2; congruence.
          -- pose proof (d_bv _ _ H1) as E1; pose proof (d_bv _ _ H8) as E2.
             rewrite E1 in E2. destruct (obv o), (obv o'); cbn in E2; congruence.
      + destruct (isSpace e) eqn:Sp; [|discriminate]. injection Ck as <-.
        destruct e as [[] m|]; try discriminate. cbn in L |- *. inversion L; subst.
        constructor; auto.
    - injection Ck as <-. inversion He; subst; inversion L; subst.
      * constructor; auto.
      * assert (o' = o) as ->; [|auto].
        apply optic_eq.
        -- apply M2_eq; pose proof (d_A _ _ H1); pose proof (d_A _ _ H8);
             pose proof (d_B _ _ H1); pose proof (d_B _ _ H8);
             pose proof (d_C _ _ H1); pose proof (d_C _ _ H8);
             pose proof (d_D _ _ H1); pose proof (d_D _ _ H8); congruence.
        -- pose proof (d_L _ _ H1); pose proof (d_L _ _ H8); congruence.
        -- pose proof (d_nf _ _ H1); pose proof (d_nf _ _ H8); congruence.
        -- pose proof (d_nb _ _ H1); pose proof (d_nb _ _ H8); congruence.
        -- pose proof (d_fv _ _ H1) as E1; pose proof (d_fv _ _ H8) as E2.
             rewrite E1 in E2. destruct (ofv o), (ofv o'); cbn in E2; congruence.
        -- pose proof (d_bv _ _ H1) as E1; pose proof (d_bv _ _ H8) as E2.
             rewrite E1 in E2. destruct (obv o), (obv o'); cbn in E2; congruence. }
  assert (Forall2 built (gelems g ++ [e']) (os ++ [o'])) as HF' by (apply Forall2_app; auto).
  pose proof (Forall2_lib_desc _ _ (Forall2_built_lib _ _ HF')) as HD.
  destruct (gelems g ++ [e']) as [|e1 es1] eqn:Ee; [destruct (gelems g); discriminate|].
  destruct (os ++ [o']) as [|o1 os1] eqn:Eo; [destruct os; discriminate|].
  destruct (group_transfer_inf _ _ _ _ HD HC') as (p & G1 & G2 & G3 & _).
  cbn [ninf NumXR]. rewrite G1. intros [= <-].
  exists (o1 :: os1). cbn. split; auto. split; auto. split; [discriminate|].
  intros o2 t [= <- <-]. now apply tracks_copy.
Qed.

Lemma built_group_of g os : Forall2 built (gelems g) os -> chain os -> os <> [] ->
  (forall o1 t, os = o1 :: t -> tracks (gmat g) (path_optic o1 t)) ->
  exists o, built (grp_elem g) o /\ describes (gmat g) o.
Proof.
  intros HF HC Hn HT. destruct os as [|o1 t]; [congruence|].
  destruct (gelems g) as [|e es] eqn:Eg; [inversion HF|].
  pose proof (Forall2_lib_desc _ _ (Forall2_built_lib _ _ HF)) as HD.
  destruct (group_transfer_inf _ _ _ _ HD HC) as (p & _ & _ & P & _).
  specialize (HT o1 t eq_refl).
  assert (exists o, describes (gmat g) o /\ physical o /\ oM o = oM (path_optic o1 t) /\
            oL o = oL (path_optic o1 t)) as (o & Do & Po & EM & EL).
  { destruct HT as [H | [H1 H2]]; eauto. eexists; split; [exact H2|]. cbn.
    repeat split; cbn; auto; try lra. rewrite mdet_id; lra. }
  exists o. split; auto. unfold grp_elem. rewrite Eg. econstructor; eauto.
Qed.

(** ** Ideal propagation is the matrix product *)
Lemma leaf_ideal k m o y th z b d w : describes m o -> not_axicon (k, m) ->
  exists d' w',
  ideal (k, m) (fray y th z b d w) =
  fray (fst (mapp (oM o) (y, th))) (snd (mapp (oM o) (y, th))) (oL o + z) b d' w'.
Proof.
  intros D Hk. unfold ideal, fray, mapp; cbn [fst snd ry rth rz rblk].
  dsc D. cbn [nadd nmul NumXR xadd xmul].
  exists (mdiam m), None. destruct k; try reflexivity. contradiction.
Qed.

Lemma ideals_app (l l' : list (@kind XR * @mat XR)) r : ideals (l ++ l') r = ideals l' (ideals l r).
Proof. unfold ideals. apply fold_left_app. Qed.

Lemma ideals_path : forall e o, built e o -> Forall not_axicon (leaves e) ->
  forall y th z b d w, exists d' w',
  ideals (leaves e) (fray y th z b d w) =
  fray (fst (mapp (oM o) (y, th))) (snd (mapp (oM o) (y, th))) (z + oL o) b d' w'.
Proof.
  induction e as [k m | gk m es IH] using elem_ind'; intros o H HA y th z b d w;
    inversion H; subst.
  - cbn in HA. inversion HA; subst. cbn [leaves ideals fold_left].
    destruct (leaf_ideal k m o y th z b d w H2 H4) as (d' & w' & E).
    exists d', w'. rewrite E. f_equal; lra.
  - match goal with E : oM o = _, E' : oL o = _ |- _ => rewrite E, E'; clear E E' end.
    match goal with HF : Forall2 built _ _ |- _ => rename HF into HF0 end.
    cbn [leaves] in *.
    (* walk along the list *)
    assert (forall es os, Forall2 built es os ->
      Forall (fun e => forall o, built e o -> Forall not_axicon (leaves e) ->
        forall y th z b d w, exists d' w',
        ideals (leaves e) (fray y th z b d w) =
        fray (fst (mapp (oM o) (y, th))) (snd (mapp (oM o) (y, th))) (z + oL o) b d' w') es ->
      Forall not_axicon (flat_map leaves es) ->
      forall y th z b d w, exists d' w',
      ideals (flat_map leaves es) (fray y th z b d w) =
      fray (fst (mapp (mprod (map oM os)) (y, th))) (snd (mapp (mprod (map oM os)) (y, th)))
           (z + total_length os) b d' w') as HW.
    { clear. induction 1 as [|e o es os He HF IHF]; intros HI HA y th z b d w.
      - exists d, w. unfold ideals, total_length, mprod; cbn.
        unfold fray. f_equal; f_equal; ring.
      - cbn [flat_map] in *. apply Forall_app in HA as [HA1 HA2]. inversion HI; subst.
        destruct (H1 o He HA1 y th z b d w) as (d1 & w1 & E1).
        destruct (IHF H2 HA2 (fst (mapp (oM o) (y, th))) (snd (mapp (oM o) (y, th)))
                    (z + oL o) b d1 w1) as (d2 & w2 & E2).
        exists d2, w2. rewrite ideals_app, E1, E2.
        cbn [map]. rewrite mprod_cons, mapp_mmul.
        rewrite <- surjective_pairing. f_equal. unfold total_length; cbn. ring. }
    destruct (HW _ _ HF0 IH HA y th z b d w) as (d' & w' & E).
    exists d', w'. rewrite E, path_optic_prod, path_optic_L. reflexivity.
Qed.

(** the output of a path, when it is not blocked *)
Theorem through_path e o y th z b d w : built e o -> Forall not_axicon (leaves e) ->
  rblk (through e (fray y th z b d w)) = false ->
  exists d' w', through e (fray y th z b d w) =
  fray (fst (mapp (oM o) (y, th))) (snd (mapp (oM o) (y, th))) (z + oL o) false d' w'.
Proof.
  intros He HA Hb. pose proof (unblocked_ideal _ _ Hb) as E.
  destruct (ideals_path e o He HA y th z b d w) as (d' & w' & E').
  exists d', w'. rewrite E, E' in *. cbn in Hb. now subst.
Qed.

(** transferMatrix() of a path *)
Lemma transferMatrix_group gk m es (z : XR) :
  transferMatrix (Group gk m es) z = (p <- group_transfer es z;; Ok (Leaf KMatrix p)).
Proof.
  cbn [transferMatrix]. unfold group_transfer.
  destruct Matrix_default as [tm|]; reflexivity.
Qed.

Lemma transfer_full e o : built e o ->
  exists t o', transferMatrix e PInf = Ok t /\ describes (emat t) o' /\
    oM o' = oM o /\ oL o' = oL o.
Proof.
  intros H. inversion H; subst.
  - assert (transferMatrix (Leaf k m) PInf = Ok (Leaf k m)) as E.
    { cbn [transferMatrix]. unfold transfer_leaf. rewrite (d_L _ _ H0). cbn.
      destruct k; try reflexivity; destruct (Reqb _ _); reflexivity. }
    rewrite E. exists (Leaf k m), o. auto.
  - pose proof (Forall2_lib_desc _ _ (Forall2_built_lib _ _ H0)) as HD.
    destruct (group_transfer_inf _ _ _ _ HD H1) as (p & G1 & G2 & _).
    destruct (tracks_ML _ _ G2) as (o' & D' & EM & EL).
    rewrite transferMatrix_group, G1. cbn [bind].
    exists (Leaf KMatrix p), o'. repeat split; auto; try apply D'; congruence.
Qed.

(** C10 *)
Theorem trace_agrees e o y th z b d w : built e o -> Forall not_axicon (leaves e) ->
  let r := fray y th z b d w in
  rblk (traceThrough e r) = false ->
  exists t, transferMatrix e PInf = Ok t /\
    ry (traceThrough e r) = ry (mul_ray_new (emat t) r) /\
    rth (traceThrough e r) = rth (mul_ray_new (emat t) r) /\
    rz (traceThrough e r) = rz (mul_ray_new (emat t) r) /\
    rz (traceThrough e r) = Fin (z + oL o) /\ mL (emat e) = Fin (oL o).
Proof.
  intros He HA r. rewrite traceThrough_through. intros Hb.
  destruct (through_path e o y th z b d w He HA Hb) as (d' & w' & E).
  destruct (transfer_full e o He) as (t & o' & Et & D & EM & EL).
  exists t. split; auto. unfold r. rewrite E. unfold mul_ray_new, fray. cbn [ry rth rz].
  dsc D. cbn [nadd nmul NumXR xadd xmul]. rewrite EM, EL.
  repeat split; auto.
  - f_equal. lra.
  - apply lib_describes, built_lib in He || (apply built_lib in He; apply lib_describes in He).
    apply He.
Qed.

Lemma half_inf : ndiv PInf c2 = PInf.
Proof. unfold c2; cbn. destruct (Rlt_dec 2 0); [lra|reflexivity]. Qed.

(** ** Composition of multiplications (C01) *)
Definition linear (e : @elem XR) : Prop :=
  match e with Leaf (KAxicon _ _) _ => False | _ => True end.

Lemma times_ray_free e o y th z d w : describes (emat e) o -> linear e ->
  rblk (times_ray e (fray y th z false d w)) = false ->
  exists d' w', times_ray e (fray y th z false d w) =
    fray (fst (mapp (oM o) (y, th))) (snd (mapp (oM o) (y, th))) (oL o + z) false d' w'.
Proof.
  intros D HL.
  assert (forall m, describes m o -> rblk (mul_ray_new m (fray y th z false d w)) = false ->
    exists d' w', mul_ray_new m (fray y th z false d w) =
    fray (fst (mapp (oM o) (y, th))) (snd (mapp (oM o) (y, th))) (oL o + z) false d' w') as HX.
  { intros m Dm Hb. unfold mul_ray_new, fray in *. cbn [ry rth rz rblk] in *. rewrite Hb.
    dsc Dm. cbn [nadd nmul NumXR xadd xmul]. eauto. }
  destruct e as [k m|g m es]; cbn [times_ray emat linear] in *; unfold mul_ray_v;
    cbn [rblk fray]; intros Hb.
  - destruct k; try contradiction; apply HX; auto.
  - apply HX; auto.
Qed.

Lemma times_ray_blocked e r : linear e -> rblk r = true -> times_ray e r = r.
Proof.
  destruct e as [[]|]; cbn; intros H B; try contradiction; unfold mul_ray_v; now rewrite B.
Qed.

Lemma sequential es os : Forall2 (fun e o => describes (emat e) o) es os -> Forall linear es ->
  forall y th z d w,
  rblk (fold_left (fun r e => times_ray e r) es (fray y th z false d w)) = false ->
  exists d' w', fold_left (fun r e => times_ray e r) es (fray y th z false d w) =
    fray (fst (mapp (mprod (map oM os)) (y, th))) (snd (mapp (mprod (map oM os)) (y, th)))
         (z + total_length os) false d' w'.
Proof.
  induction 1 as [|e o es os He HF IH]; intros HL y th z d w Hb.
  - exists d, w. unfold total_length, mprod; cbn. unfold fray. f_equal; f_equal; ring.
  - inversion HL; subst. cbn [fold_left] in *.
    destruct (rblk (times_ray e (fray y th z false d w))) eqn:B.
    + exfalso. assert (forall es r, Forall linear es -> rblk r = true ->
        rblk (fold_left (fun r e => times_ray e r) es r) = true) as HS.
      { clear. induction es; intros r HL B; cbn; auto. inversion HL; subst.
        rewrite times_ray_blocked by auto. auto. }
      rewrite HS in Hb; auto. discriminate.
    + destruct (times_ray_free e o y th z d w He H1 B) as (d1 & w1 & E1). rewrite E1 in *.
      destruct (IH H2 _ _ _ _ _ Hb) as (d2 & w2 & E2). exists d2, w2. rewrite E2.
      cbn [map]. rewrite mprod_cons, mapp_mmul, <- surjective_pairing.
      f_equal. unfold total_length; cbn. ring.
Qed.

Theorem compose_sequential e es o os y th z d w :
  Forall2 (fun e o => describes (emat e) o) (e :: es) (o :: os) -> chain (o :: os) ->
  Forall linear (e :: es) ->
  let r := fray y th z false d w in
  let out := fold_left (fun r e => times_ray e r) (e :: es) r in
  rblk out = false ->
  exists p, group_transfer (e :: es) PInf = Ok p /\
    (forall gk m, transferMatrix (Group gk m (e :: es)) PInf = Ok (Leaf KMatrix p)) /\
    ry (mul_ray_v KMatrix p r) = ry out /\ rth (mul_ray_v KMatrix p r) = rth out /\
    rz (mul_ray_v KMatrix p r) = rz out /\ rblk (mul_ray_v KMatrix p r) = false.
Proof.
  intros HF HC HL r out Hb.
  destruct (group_transfer_inf _ _ _ _ HF HC) as (p & G1 & G2 & G3 & G4 & G5).
  destruct (sequential _ _ HF HL y th z d w Hb) as (d' & w' & E).
  destruct (tracks_ML _ _ G2) as (o' & D' & EM & EL).
  exists p. split; auto. split; [intros gk m; rewrite transferMatrix_group, G1; reflexivity|]. unfold out. unfold r at 2 4 6. rewrite E.
  unfold mul_ray_v, r; cbn [rblk fray]. unfold mul_ray_new, fray. cbn [ry rth rz rblk].
  dsc D'. rewrite G4, G5. cbn [nadd nmul NumXR xadd xmul].
  rewrite EM, EL, path_optic_prod, path_optic_L.
  rewrite half_inf.
  repeat split; auto; try (f_equal; ring).
Qed.

(** ** Positions along a trace (C11) *)
Definition zval (r : @ray XR) : R := match rz r with Fin z => z | _ => 0 end.
Definition zfin (r : @ray XR) : Prop := exists z, rz r = Fin z.

Definition leaf_len (km : @kind XR * @mat XR) : R :=
  match mL (snd km) with Fin l => l | _ => 0 end.
Definition nonneg_leaf (km : @kind XR * @mat XR) : Prop :=
  exists l, mL (snd km) = Fin l /\ 0 <= l.
Definition path_len (e : @elem XR) : R := fold_right Rplus 0 (map leaf_len (leaves e)).

Lemma path_len_nonneg e : Forall nonneg_leaf (leaves e) -> 0 <= path_len e.
Proof.
  unfold path_len. induction 1 as [|km l (x & E & Hx) HF IH]; cbn; [lra|].
  unfold leaf_len at 1. rewrite E. lra.
Qed.

Record z_ok (rid : nat) (h : @heap XR) (tr : list nat) (h' : @heap XR) (len : R) : Prop := {
  z_frame : forall i, (i < List.length h)%nat -> rz (hget h' i) = rz (hget h i);
  z_range : Forall (fun i => exists z, rz (hget h' i) = Fin z /\
              zval (hget h rid) <= z <= zval (hget h rid) + len) tr;
  z_sorted : StronglySorted (fun i j => zval (hget h' i) <= zval (hget h' j)) tr
}.

Lemma mul_ray_z k (m : @mat XR) rid h o h' l z : (rid < List.length h)%nat ->
  mul_ray k m rid h = (o, h') -> mL m = Fin l -> rz (hget h rid) = Fin z ->
  (forall i, (i < List.length h)%nat -> rz (hget h' i) = rz (hget h i)) /\
  (rz (hget h' o) = Fin z \/ rz (hget h' o) = Fin (l + z)).
Proof.
  intros Hr E HL Hz. destruct (mul_ray_spec _ _ _ _ _ _ Hr E) as (S1 & S2 & S3).
  assert (rz (hget h' o) = Fin z \/ rz (hget h' o) = Fin (l + z)) as HO.
  { rewrite S1. unfold mul_ray_v. destruct (rblk (hget h rid)).
    - left. destruct k; cbn; auto.
    - right. destruct k; cbn; rewrite HL, Hz; reflexivity. }
  split; auto. intros i Hi. destruct (Nat.eq_dec i rid) as [->|Hne]; [|rewrite S2; auto].
  destruct S3 as [(B & -> & _)|(B & _ & _ & K)]; [|now rewrite K].
  rewrite S1. unfold mul_ray_v. rewrite B. destruct k; cbn; auto.
Qed.

Lemma trace_leaf_z k (m : @mat XR) rid h tr h' : (rid < List.length h)%nat ->
  zfin (hget h rid) -> nonneg_leaf (k, m) -> trace_leaf k m rid h = (tr, h') ->
  z_ok rid h tr h' (leaf_len (k, m)).
Proof.
  intros Hr [z Hz] (l & HL & Hl). unfold trace_leaf, leaf_len. cbn [snd] in *. rewrite HL.
  destruct (nltb c0 (Fin l)).
  - set (h1 := if nltb (ndiv (mdiam m) c2) (nabs (ry (hget h rid)))
               then hset h rid (set_blk (hget h rid)) else h).
    assert (List.length h1 = List.length h) as L1
      by (unfold h1; destruct (nltb _ _); rewrite ?hset_length; auto).
    assert (forall i, (i < List.length h)%nat -> rz (hget h1 i) = rz (hget h i)) as G.
    { intros i Hi. unfold h1. destruct (nltb _ _); auto.
      destruct (Nat.eq_dec i rid) as [->|]; [rewrite hget_hset_eq; auto|].
      rewrite hget_hset_neq; auto. }
    destruct (mul_ray k m rid h1) as [o h2] eqn:E. intros [= <- <-].
    destruct (mul_ray_z k m rid h1 o h2 l z ltac:(rewrite L1; auto) E HL
                ltac:(rewrite G; auto)) as [K1 K2].
    assert (rz (hget h2 rid) = Fin z) as Kr by (rewrite K1, G; auto; lia).
    constructor.
    + intros i Hi. rewrite K1, G; auto. lia.
    + unfold zval. rewrite Hz. constructor; [exists z; split; auto; lra|].
      constructor; auto. destruct K2 as [K2|K2]; rewrite K2; eexists; split; eauto; lra.
    + constructor; [constructor; constructor|]. constructor; auto. unfold zval. rewrite Kr.
      destruct K2 as [K2|K2]; rewrite K2; lra.
  - destruct (mul_ray k m rid h) as [o h2] eqn:E. intros [= <- <-].
    destruct (mul_ray_z k m rid h o h2 l z Hr E HL Hz) as [K1 K2].
    constructor; auto.
    + unfold zval. rewrite Hz. constructor; auto.
      destruct K2 as [K2|K2]; rewrite K2; eexists; split; eauto; lra.
    + constructor; constructor.
Qed.

Lemma StronglySorted_app {A} (R : A -> A -> Prop) l l' :
  StronglySorted R l -> StronglySorted R l' ->
  (forall x y, In x l -> In y l' -> R x y) -> StronglySorted R (l ++ l').
Proof.
  induction 1 as [|x t Ht IH HF]; intros H2 H; cbn; auto. constructor.
  - apply IH; auto. intros; apply H; auto. right; auto.
  - apply Forall_app; split; auto. rewrite Forall_forall. intros; apply H; auto. left; auto.
Qed.

Lemma StronglySorted_impl_in {A} (R R' : A -> A -> Prop) l :
  (forall x y, In x l -> In y l -> R x y -> R' x y) ->
  StronglySorted R l -> StronglySorted R' l.
Proof.
  intros H HS. revert H. induction HS as [|x t Ht IH HF]; intros H; constructor.
  - apply IH. intros; apply H; try right; auto.
  - rewrite Forall_forall in *. intros y Hy. apply H; auto; [left|right]; auto.
Qed.

Theorem trace_positions : forall e rid h, (rid < List.length h)%nat ->
  zfin (hget h rid) -> Forall nonneg_leaf (leaves e) ->
  z_ok rid h (fst (trace e rid h)) (snd (trace e rid h)) (path_len e).
Proof.
  induction e as [k m | gk m es IH] using elem_ind'; intros rid h Hr Hz HN.
  - cbn [trace]. inversion HN; subst. destruct (trace_leaf k m rid h) as [tr h'] eqn:E. cbn.
    pose proof (trace_leaf_z _ _ _ _ _ _ Hr Hz H1 E) as Hok.
    unfold path_len; cbn [leaves map fold_right]. rewrite Rplus_0_r. exact Hok.
  - rewrite trace_group.
    assert (forall es acc h1 len,
       Forall (fun e => forall rid (h : @heap XR), (rid < List.length h)%nat ->
         zfin (hget h rid) -> Forall nonneg_leaf (leaves e) ->
         z_ok rid h (fst (trace e rid h)) (snd (trace e rid h)) (path_len e)) es ->
       Forall nonneg_leaf (flat_map leaves es) ->
       (exists r, trace_ok rid h acc h1 r) ->
       z_ok rid h acc h1 len -> 0 <= len ->
       z_ok rid h (fst (trace_loop es (List.last acc rid) acc h1))
                  (snd (trace_loop es (List.last acc rid) acc h1))
            (len + fold_right Rplus 0 (map leaf_len (flat_map leaves es)))) as HL.
    { clear IH HN. induction es0 as [|x t IHt]; intros acc h1 len HF HN [r HT] HZ Hlen;
        cbn [trace_loop flat_map map fold_right].
      - now rewrite Rplus_0_r.
      - inversion HF as [|? ? Hx HF']; subst. cbn [flat_map] in HN.
        apply Forall_app in HN as [HN1 HN2].
        set (c := List.last acc rid) in *.
        pose proof (trace_ok_last _ _ _ _ _ Hr HT) as Hc. fold c in Hc.
        assert (In c acc) as Hin by (apply last_in, HT).
        assert (exists zc, rz (hget h1 c) = Fin zc /\
          zval (hget h rid) <= zc <= zval (hget h rid) + len) as (zc & Ezc & Hzc).
        { pose proof (z_range _ _ _ _ _ HZ) as K. rewrite Forall_forall in K. apply K; auto. }
        specialize (Hx c h1 Hc (ex_intro _ zc Ezc) HN1).
        pose proof (trace_is_ok x c h1 Hc) as HTx.
        destruct (trace x c h1) as [tr h'] eqn:E. cbn [fst snd] in Hx, HTx.
        assert (trace_ok rid h (acc ++ tr) h' (through x (hget h1 c))) as HA
          by (eapply trace_ok_app; eauto).
        replace (List.last tr c) with (List.last (acc ++ tr) rid)
          by (rewrite last_app_ne by apply HTx; apply last_default, HTx).
        rewrite map_app, fold_right_app.
        replace (len + fold_right Rplus (fold_right Rplus 0 (map leaf_len (flat_map leaves t)))
                         (map leaf_len (leaves x)))
          with ((len + path_len x) + fold_right Rplus 0 (map leaf_len (flat_map leaves t))).
        2:{ unfold path_len. generalize (fold_right Rplus 0 (map leaf_len (flat_map leaves t))).
            generalize (map leaf_len (leaves x)). clear.
            induction l; intros; cbn; [ring|]. rewrite <- (Rplus_comm (fold_right _ _ _)).
            specialize (IHl r). lra. }
        assert (forall i, In i acc -> (i < List.length h1)%nat) as Hacc.
        { intros i Hi. pose proof (t_ids _ _ _ _ _ HT) as Hids. rewrite Forall_forall in Hids.
          pose proof (t_len _ _ _ _ _ HT). destruct (Hids _ Hi); lia. }
        assert (zval (hget h1 c) = zc) as Ev by (unfold zval; now rewrite Ezc).
        pose proof (path_len_nonneg x HN1) as HP.
        apply IHt; auto; [eexists; exact HA| |lra].
        constructor.
        + intros i Hi. rewrite (z_frame _ _ _ _ _ Hx).
          * apply HZ; auto.
          * pose proof (t_len _ _ _ _ _ HT). lia.
        + apply Forall_app; split.
          * pose proof (z_range _ _ _ _ _ HZ) as K. rewrite Forall_forall in K |- *.
            intros i Hi. destruct (K i Hi) as (zi & Ei & Hi'). exists zi.
            rewrite (z_frame _ _ _ _ _ Hx); auto. split; auto. lra.
          * pose proof (z_range _ _ _ _ _ Hx) as K. rewrite Forall_forall in K |- *.
            intros i Hi. destruct (K i Hi) as (zi & Ei & Hi'). exists zi. split; auto.
            rewrite Ev in Hi'. lra.
        + apply StronglySorted_app.
          * eapply StronglySorted_impl_in; [|apply (z_sorted _ _ _ _ _ HZ)].
            intros i j Hi Hj. unfold zval. rewrite !(z_frame _ _ _ _ _ Hx); auto.
          * apply Hx.
          * intros i j Hi Hj.
            pose proof (z_range _ _ _ _ _ Hx) as K. rewrite Forall_forall in K.
            destruct (K j Hj) as (zj & Ej & Hj'). rewrite Ev in Hj'.
            unfold zval. rewrite Ej. rewrite (z_frame _ _ _ _ _ Hx) by auto.
            assert (zval (hget h1 i) <= zval (hget h1 c)) as Hic.
            { pose proof (z_sorted _ _ _ _ _ HZ) as SS. clear -SS Hi HT.
              unfold c. assert (acc <> []) as Hn by apply HT. clear HT.
              induction SS as [|x t Ht IH HF]; [congruence|].
              destruct t as [|y t].
              - destruct Hi as [<-|[]]. cbn. lra.
              - change (List.last (x :: y :: t) rid) with (List.last (y :: t) rid).
                destruct Hi as [<-|Hi]; [|apply IH; auto; discriminate].
                rewrite Forall_forall in HF. apply HF. apply last_in. discriminate. }
            rewrite Ev in Hic. unfold zval in Hic. lra. }
    destruct Hz as [z Hz].
    specialize (HL es [rid] h 0 IH HN (ex_intro _ _ (trace_ok_self rid h))).
    unfold path_len. cbn [leaves]. rewrite <- (Rplus_0_l (fold_right _ _ _)). apply HL; [|lra].
    constructor; auto.
    + constructor; auto. exists z. split; auto. unfold zval. rewrite Hz. lra.
    + constructor; constructor.
Qed.

(** ** Apertures and transmitted rays (C13, C14) *)
Definition same_but_bigger (a b : @kind XR * @mat XR) : Prop :=
  fst a = fst b /\ mA (snd a) = mA (snd b) /\ mB (snd a) = mB (snd b) /\
  mC (snd a) = mC (snd b) /\ mD (snd a) = mD (snd b) /\ mL (snd a) = mL (snd b) /\
  nleb (mdiam (snd a)) (mdiam (snd b)) = true /\ nleb (mna (snd a)) (mna (snd b)) = true.

Lemma half_fin (d : R) : ndiv (Fin d) (@c2 XR _) = Fin (d / 2).
Proof. apply xdiv_fin. lra. Qed.
Lemma half_ninf : ndiv NInf (@c2 XR _) = NInf.
Proof. unfold c2; cbn. destruct (Rlt_dec 2 0); [lra|reflexivity]. Qed.
Lemma half_nan : ndiv NaN (@c2 XR _) = NaN.
Proof. reflexivity. Qed.
Ltac halves := rewrite ?half_fin, ?half_inf, ?half_ninf, ?half_nan.

Lemma half_mono (d d' v : XR) : nleb d d' = true ->
  nltb (ndiv d c2) v = false -> nltb (ndiv d' c2) v = false.
Proof.
  destruct d as [d| | |], d' as [d'| | |], v as [v| | |]; halves; cbn;
    try discriminate; auto.
  rewrite Rleb_true, !Rltb_false. lra.
Qed.
Lemma lt_mono (d d' v : XR) : nleb d d' = true -> nltb d v = false -> nltb d' v = false.
Proof.
  destruct d, d', v; cbn; try discriminate; auto. rewrite Rleb_true, !Rltb_false. lra.
Qed.

Lemma misses_bigger a b r : same_but_bigger a b ->
  misses (snd a) r = false -> misses (snd b) r = false.
Proof.
  intros (_ & _ & _ & _ & _ & _ & H1 & H2). unfold misses.
  rewrite !orb_false_iff. intros [G1 G2]. split; [eapply half_mono|eapply lt_mono]; eauto.
Qed.

Definition same_place (r s : @ray XR) : Prop :=
  ry r = ry s /\ rth r = rth s /\ rz r = rz s /\ rblk r = rblk s.

Lemma ideal_bigger a b r s : same_but_bigger a b -> same_place r s ->
  same_place (ideal a r) (ideal b s).
Proof.
  intros (E0 & E1 & E2 & E3 & E4 & E5 & _) (F1 & F2 & F3 & F4).
  unfold same_place, ideal; cbn. now rewrite E0, E1, E2, E3, E4, E5, F1, F2, F3, F4.
Qed.
Lemma ideals_bigger l l' : Forall2 same_but_bigger l l' -> forall r s, same_place r s ->
  same_place (ideals l r) (ideals l' s).
Proof.
  induction 1 as [|a b l l' H HF IH]; intros r s E; cbn; auto.
  apply IH. now apply ideal_bigger.
Qed.
Lemma misses_place m r s : same_place r s -> misses m r = misses m s.
Proof. intros (F1 & F2 & _). unfold misses. now rewrite F1, F2. Qed.

Lemma Forall2_split_r {A B} (P : A -> B -> Prop) l pre y post :
  Forall2 P l (pre ++ y :: post) ->
  exists pre' x post', l = pre' ++ x :: post' /\ Forall2 P pre' pre /\ P x y.
Proof.
  revert l; induction pre as [|b pre IH]; intros l H; inversion H; subst.
  - exists [], x, l0. auto.
  - destruct (IH _ H4) as (p & a & q & -> & F & Pa). exists (x :: p), a, q.
    repeat split; auto.
Qed.

Theorem bigger_apertures e e' r : Forall2 same_but_bigger (leaves e) (leaves e') ->
  rblk (through e r) = false ->
  rblk (through e' r) = false /\ ry (through e' r) = ry (through e r) /\
  rth (through e' r) = rth (through e r) /\ rz (through e' r) = rz (through e r).
Proof.
  intros HF Hb. rewrite !through_flatten in *.
  pose proof (through_leaves_free _ _ Hb) as (B & E & F).
  assert (same_place r r) as Srr by (repeat split).
  assert (through_leaves (leaves e') r = ideals (leaves e') r) as E'.
  { apply through_leaves_passes; auto. intros pre km post Eq. rewrite Eq in HF.
    destruct (Forall2_split_r _ _ _ _ _ HF) as (p & a & q & El & Fp & Pa).
    specialize (F p a q El). apply (misses_bigger a km) in F; auto.
    rewrite <- (misses_place _ _ _ (ideals_bigger _ _ Fp r r Srr)). exact F. }
  rewrite E', E. destruct (ideals_bigger _ _ HF r r Srr) as (G1 & G2 & G3 & G4).
  rewrite ideals_blk. auto.
Qed.

(** weighted average of two rays *)
Definition mix (t : R) (a b : R) : R := t * a + (1 - t) * b.

Lemma half_convex (d : XR) a b t : 0 <= t <= 1 ->
  nltb (ndiv d c2) (nabs (Fin a)) = false -> nltb (ndiv d c2) (nabs (Fin b)) = false ->
  nltb (ndiv d c2) (nabs (Fin (mix t a b))) = false.
Proof.
  destruct d as [d| | |]; halves; cbn; auto.
  intros Ht. rewrite !Rltb_false. unfold mix. intros H1 H2.
  eapply Rle_trans; [apply Rabs_triang|]. rewrite !Rabs_mult.
  rewrite (Rabs_pos_eq t), (Rabs_pos_eq (1 - t)) by lra. nra.
Qed.
Lemma lt_convex (d : XR) a b t : 0 <= t <= 1 ->
  nltb d (nabs (Fin a)) = false -> nltb d (nabs (Fin b)) = false ->
  nltb d (nabs (Fin (mix t a b))) = false.
Proof.
  cbn. destruct d; cbn; auto.
  intros Ht. rewrite !Rltb_false. unfold mix. intros H1 H2.
  eapply Rle_trans; [apply Rabs_triang|]. rewrite !Rabs_mult.
  rewrite (Rabs_pos_eq t), (Rabs_pos_eq (1 - t)) by lra. nra.
Qed.

(** all leaves of the path are described by real matrices *)
Definition finite_leaf (km : @kind XR * @mat XR) : Prop :=
  not_axicon km /\ exists o, describes (snd km) o.

Lemma built_finite_leaves : forall e o, built e o -> Forall not_axicon (leaves e) ->
  Forall finite_leaf (leaves e).
Proof.
  induction e as [k m | gk m es IH] using elem_ind'; intros o H HA; inversion H; subst.
  - inversion HA; subst. constructor; auto. split; eauto.
  - match goal with HF : Forall2 built _ _ |- _ => rename HF into HF' end.
    cbn [leaves] in *. revert IH HA. revert HF'. clear.
    generalize (e :: es0) (o1 :: os). clear.
    induction 1 as [|e o es os He HF IHF]; intros IH HA; [constructor|].
    cbn [flat_map] in *. apply Forall_app in HA. destruct HA as [HA1 HA2]. inversion IH; subst.
    apply Forall_app; split; eauto.
Qed.

Lemma ideals_fray l : Forall finite_leaf l ->
  exists M len, forall y th z b d w, exists d' w',
  ideals l (fray y th z b d w) =
  fray (fst (mapp M (y, th))) (snd (mapp M (y, th))) (z + len) b d' w'.
Proof.
  induction l as [|[k m] t IH]; intros H.
  - exists mid, 0. intros. exists d, w. unfold ideals, fray; cbn. f_equal; f_equal; ring.
  - inversion H as [|? ? [Ha [o Do]] Ht]; subst. destruct (IH Ht) as (M & len & HM).
    exists (mmul M (oM o)), (oL o + len). intros.
    destruct (leaf_ideal k m o y th z b d w Do Ha) as (d1 & w1 & E1).
    destruct (HM (fst (mapp (oM o) (y, th))) (snd (mapp (oM o) (y, th))) (oL o + z) b d1 w1)
      as (d2 & w2 & E2).
    exists d2, w2. unfold ideals in *; cbn [fold_left]. rewrite E1, E2.
    rewrite mapp_mmul, <- surjective_pairing. f_equal. ring.
Qed.

Theorem transmitted_convex e r1 r2 y1 th1 z1 d1 w1 y2 th2 z2 d2 w2 t z d w :
  Forall finite_leaf (leaves e) -> 0 <= t <= 1 ->
  r1 = fray y1 th1 z1 false d1 w1 -> r2 = fray y2 th2 z2 false d2 w2 ->
  rblk (through e r1) = false -> rblk (through e r2) = false ->
  rblk (through e (fray (mix t y1 y2) (mix t th1 th2) z false d w)) = false.
Proof.
  intros HF Ht -> -> H1 H2.
  match goal with |- ?x = _ => destruct x eqn:B; [|reflexivity] end. exfalso.
  apply blocked_iff in B as [B|(pre & km & post & El & Mi)]; [discriminate|].
  rewrite through_flatten in H1, H2.
  apply through_leaves_free in H1 as (_ & _ & F1).
  apply through_leaves_free in H2 as (_ & _ & F2).
  specialize (F1 pre km post El). specialize (F2 pre km post El).
  rewrite El in HF. apply Forall_app in HF as [HFp _].
  destruct (ideals_fray pre HFp) as (M & len & HM).
  destruct (HM y1 th1 z1 false d1 w1) as (a1 & b1 & E1).
  destruct (HM y2 th2 z2 false d2 w2) as (a2 & b2 & E2).
  destruct (HM (mix t y1 y2) (mix t th1 th2) z false d w) as (a3 & b3 & E3).
  rewrite E1 in F1. rewrite E2 in F2. rewrite E3 in Mi.
  unfold misses in *. cbn [fray ry rth fst snd mapp] in *.
  apply orb_false_iff in F1 as [F1a F1b]. apply orb_false_iff in F2 as [F2a F2b].
  replace (A_ M * mix t y1 y2 + B_ M * mix t th1 th2)
    with (mix t (A_ M * y1 + B_ M * th1) (A_ M * y2 + B_ M * th2)) in Mi by (unfold mix; ring).
  replace (C_ M * mix t y1 y2 + D_ M * mix t th1 th2)
    with (mix t (C_ M * y1 + D_ M * th1) (C_ M * y2 + D_ M * th2)) in Mi by (unfold mix; ring).
  rewrite (half_convex _ _ _ t Ht F1a F2a), (lt_convex _ _ _ t Ht F1b F2b) in Mi. discriminate.
Qed.

Theorem transmitted_symmetric e y th z d w z' d' w' :
  Forall finite_leaf (leaves e) ->
  rblk (through e (fray y th z false d w)) = false ->
  rblk (through e (fray (- y) (- th) z' false d' w')) = false.
Proof.
  intros HF H1.
  match goal with |- ?x = _ => destruct x eqn:B; [|reflexivity] end. exfalso.
  apply blocked_iff in B as [B|(pre & km & post & El & Mi)]; [discriminate|].
  rewrite through_flatten in H1.
  apply through_leaves_free in H1 as (_ & _ & F1).
  specialize (F1 pre km post El).
  rewrite El in HF. apply Forall_app in HF as [HFp _].
  destruct (ideals_fray pre HFp) as (M & len & HM).
  destruct (HM y th z false d w) as (a1 & b1 & E1).
  destruct (HM (- y) (- th) z' false d' w') as (a3 & b3 & E3).
  rewrite E1 in F1. rewrite E3 in Mi.
  unfold misses in *. cbn [fray ry rth fst snd mapp nabs NumXR xabs] in *.
  replace (A_ M * - y + B_ M * - th) with (- (A_ M * y + B_ M * th)) in Mi by ring.
  replace (C_ M * - y + D_ M * - th) with (- (C_ M * y + D_ M * th)) in Mi by ring.
  rewrite !Rabs_Ropp in Mi. congruence.
Qed.

(** ** The same facts about [traceThrough], the heap version *)
Lemma blocked_iff_trace {T} {N : Num T} (e : @elem T) r :
  rblk (traceThrough e r) = true <->
  rblk r = true \/
  exists pre km post, leaves e = pre ++ km :: post /\ misses (snd km) (ideals pre r) = true.
Proof. rewrite traceThrough_through. apply blocked_iff. Qed.

Lemma blocked_frozen_trace {T} {N : Num T} (e : @elem T) r :
  rblk r = true -> Forall not_axicon (leaves e) -> traceThrough e r = r.
Proof. rewrite traceThrough_through. apply blocked_frozen. Qed.

Lemma bigger_apertures_trace (e e' : @elem XR) r : Forall2 same_but_bigger (leaves e) (leaves e') ->
  rblk (traceThrough e r) = false ->
  rblk (traceThrough e' r) = false /\ ry (traceThrough e' r) = ry (traceThrough e r) /\
  rth (traceThrough e' r) = rth (traceThrough e r) /\ rz (traceThrough e' r) = rz (traceThrough e r).
Proof. rewrite !traceThrough_through. apply bigger_apertures. Qed.

Lemma transmitted_convex_trace e r1 r2 y1 th1 z1 (d1 : XR) w1 y2 th2 z2 (d2 : XR) w2 t z (d : XR) w :
  Forall finite_leaf (leaves e) -> 0 <= t <= 1 ->
  r1 = fray y1 th1 z1 false d1 w1 -> r2 = fray y2 th2 z2 false d2 w2 ->
  rblk (traceThrough e r1) = false -> rblk (traceThrough e r2) = false ->
  rblk (traceThrough e (fray (t * y1 + (1 - t) * y2) (t * th1 + (1 - t) * th2) z false d w)) = false.
Proof. rewrite !traceThrough_through. apply transmitted_convex. Qed.

Lemma transmitted_symmetric_trace e y th z (d : XR) w z' (d' : XR) w' :
  Forall finite_leaf (leaves e) ->
  rblk (traceThrough e (fray y th z false d w)) = false ->
  rblk (traceThrough e (fray (- y) (- th) z' false d' w')) = false.
Proof. rewrite !traceThrough_through. apply transmitted_symmetric. Qed.
