(** Intermediate conjugates (C26), systems assembled from focal lengths (C29) and
    microscope objectives (C31). *)
From Coq Require Import ZArith Reals Lra Lia List Bool String.
From Verif Require Import Base Nums Optics Group Spec MatrixProofs ElementProofs GroupProofs
  TraceProofs RayProofs CardinalProofs StrictProofs FlipProofs TransferProofs.
Import ListNotations.
Open Scope R_scope.

(** ** C26 *)
(** [(pos, mag)] is an image of the plane z = 0 seen after the elements [pre] *)
Definition image_after (pre : list optic) (pos mag : R) : Prop :=
  exists d, pos = total_length pre + d /\
    let M := mmul (free d) (mprod (map oM pre)) in
    B_ M = 0 /\ mag = A_ M.

Definition near (a b : R * R) : Prop :=
  Rabs (fst a - fst b) < 1/1000 /\ Rabs (snd a - snd b) < 1/1000.

Definition fin2 (p : R * R) : XR * XR := (Fin (fst p), Fin (snd p)).

Lemma total_length_snoc l o : total_length (l ++ [o]) = total_length l + oL o.
Proof.
  unfold total_length. rewrite map_app, fold_right_app. cbn.
  induction (map oL l); cbn; [lra|]. rewrite IHl0. lra.
Qed.

Lemma mprod_snoc l o : mprod (map oM (l ++ [o])) = mmul (oM o) (mprod (map oM l)).
Proof. unfold mprod. now rewrite map_app, fold_left_app. Qed.

Lemma forward_tracks m o : tracks m o -> physical o ->
  (D_ (oM o) <> 0 -> exists c, forwardConjugate m = Ok (Fin (- B_ (oM o) / D_ (oM o)), Some c) /\
     mA c = Fin (A_ (mmul (free (- B_ (oM o) / D_ (oM o))) (oM o)))) /\
  (D_ (oM o) = 0 -> forwardConjugate m = Ok (PInf, None)) /\ mL m = Fin (oL o).
Proof.
  intros T P.
  assert (exists o', describes m o' /\ physical o' /\ oM o' = oM o /\ oL o' = oL o) as
    (o' & D & P' & EM & EL).
  { destruct T as [D|[Ei D]]; [eauto|]. eexists. split; [exact D|]. split; [|cbn; auto].
    repeat split; cbn; try lra. rewrite mdet_id. lra. }
  rewrite <- EM, <- EL. split; [|split].
  - intros HD. destruct (forward_ok m o' D P' HD) as (c & E & Dc). exists c. split; auto.
    rewrite (d_A _ _ Dc). reflexivity.
  - intros HD. now apply (forward_none m o' D P').
  - apply D.
Qed.

Lemma near_dec pos mag (q : R * R) :
  areAbsolutelyAlmostEqual (fst (fin2 q)) (Fin pos) eps3 &&
  areAbsolutelyAlmostEqual (snd (fin2 q)) (Fin mag) eps3 = true <-> near q (pos, mag).
Proof.
  unfold areAbsolutelyAlmostEqual. rewrite eps3_val. cbn.
  rewrite andb_true_iff, !Rltb_true. unfold near; cbn. tauto.
Qed.

Section Loop.
Variable whole : list optic.

(** invariant of the loop after the prefix [pre] *)
Definition planes_ok (pre : list optic) (ps : list (R * R)) : Prop :=
  Forall (fun p => exists pre1 post, pre1 <> [] /\ whole = pre1 ++ post /\ fst p <> 0 /\
                    image_after pre1 (fst p) (snd p)) ps /\
  ForallOrdPairs (fun p q => ~ near p q) ps /\
  (forall pre1 post pos mag, pre = pre1 ++ post -> pre1 <> [] -> pos <> 0 ->
     image_after pre1 pos mag -> exists q, In q ps /\ (q = (pos, mag) \/ near q (pos, mag))).

Lemma image_unique pre pos mag pos' mag' : D_ (mprod (map oM pre)) <> 0 ->
  image_after pre pos mag -> image_after pre pos' mag' -> pos = pos' /\ mag = mag'.
Proof.
  intros HD (d & -> & HB & ->) (d' & -> & HB' & ->). cbn in *.
  assert (d = d') as ->; [|auto].
  apply (Rmult_eq_reg_r (D_ (mprod (map oM pre)))); auto. lra.
Qed.

Lemma image_none pre pos mag n : physical (pl n pre) -> D_ (mprod (map oM pre)) = 0 ->
  ~ image_after pre pos mag.
Proof.
  intros P HD (d & _ & HB & _). cbn in HB. rewrite HD in HB.
  assert (oM (pl n pre) = mprod (map oM pre)) as EM.
  { unfold pl, mprod. assert (forall l a, oM (fold_left (fun acc x => ocomp x acc) l a) =
       fold_left (fun acc M => mmul M acc) (map oM l) (oM a)) as HX.
    { induction l; intros; cbn; auto. now rewrite IHl. }
    now rewrite HX. }
  pose proof (physical_det _ P) as N. rewrite EM in N. unfold mdet in N. rewrite HD in N.
  apply N. assert (B_ (mprod (map oM pre)) = 0) as -> by lra. lra.
Qed.

Lemma pl_M n l : oM (pl n l) = mprod (map oM l).
Proof.
  unfold pl, mprod. assert (forall l a, oM (fold_left (fun acc x => ocomp x acc) l a) =
     fold_left (fun acc M => mmul M acc) (map oM l) (oM a)) as HX.
  { induction l0; intros; cbn; auto. now rewrite IHl0. }
  now rewrite HX.
Qed.

Lemma ordpairs_snoc {A} (P : A -> A -> Prop) l x : ForallOrdPairs P l ->
  (forall y, In y l -> P y x) -> ForallOrdPairs P (l ++ [x]).
Proof.
  induction 1 as [|a l Ha HF IH]; intros HX; cbn.
  - constructor; constructor.
  - constructor.
    + apply Forall_app. split; auto. constructor; [|constructor]. apply HX. now left.
    + apply IH. intros; apply HX. now right.
Qed.

Lemma conj_step es os : Forall2 (fun (e : @elem XR) o => describes (emat e) o) es os ->
  forall n pre tm ps, whole = pre ++ os -> n <> 0 -> matched n whole ->
  tracks tm (pl n pre) -> planes_ok pre ps ->
  exists ps', conj_loop es tm (map fin2 ps) = Ok (map fin2 ps') /\ planes_ok whole ps'.
Proof.
  induction 1 as [|e o es os He HF IH]; intros n pre tm ps Ew Hn HM HT HP.
  - rewrite app_nil_r in Ew. subst pre. exists ps. split; auto.
  - pose proof HM as HM0. rewrite Ew in HM0. apply matched_app in HM0 as [M1 M2].
    rewrite <- pl_nb in M2. cbn in M2. destruct M2 as (E & Po & M2).
    pose proof (physical_pl _ _ Hn M1) as Pp.
    destruct (mul_matrix_tracks _ _ _ _ He HT Po Pp E) as (p & K1 & K2 & _).
    rewrite <- pl_snoc in K2.
    assert (whole = (pre ++ [o]) ++ os) as Ew' by (rewrite <- app_assoc; exact Ew).
    assert (matched n (pre ++ [o])) as M1'.
    { apply matched_app. rewrite <- pl_nb. cbn. auto. }
    pose proof (physical_pl _ _ Hn M1') as Pp'.
    destruct (forward_tracks _ _ K2 Pp') as (F1 & F2 & FL).
    rewrite pl_M in F1, F2. rewrite pl_L in FL.
    cbn [conj_loop]. rewrite K1. cbn [bind].
    destruct HP as (H1 & H2 & H3).
    set (M := mprod (map oM (pre ++ [o]))) in *.
    destruct (Req_dec (D_ M) 0) as [HD|HD].
    + rewrite (F2 HD). cbn [bind]. rewrite FL.
      assert (planes_ok (pre ++ [o]) ps) as HP'.
      { split; auto. split; auto. intros pre1 post pos mag E1 N1 N2 Im.
        destruct post as [|x post] using rev_ind.
        - rewrite app_nil_r in E1. subst pre1. exfalso.
          revert Im. apply (image_none _ _ _ n Pp' HD).
        - rewrite app_assoc in E1. apply app_inj_tail in E1 as [E1 _]. eapply H3; eauto. }
      destruct (IH n (pre ++ [o]) p ps Ew' Hn HM K2 HP') as (ps' & J1 & J2).
      exists ps'. split; auto.
    + destruct (F1 HD) as (c & Ec & Ac). rewrite Ec. cbn [bind]. rewrite FL, Ac.
      set (d := - B_ M / D_ M) in *.
      set (pos := total_length (pre ++ [o]) + d).
      set (mag := A_ (mmul (free d) M)).
      change (nadd (Fin (total_length (pre ++ [o]))) (Fin d)) with (Fin pos).
      assert (image_after (pre ++ [o]) pos mag) as Im.
      { exists d. split; auto. fold M. split; auto. cbn. unfold d. field. auto. }
      assert (forall ps1, incl ps ps1 ->
         (pos <> 0 -> exists q, In q ps1 /\ (q = (pos, mag) \/ near q (pos, mag))) ->
         forall pre1 post pos' mag', pre ++ [o] = pre1 ++ post -> pre1 <> [] -> pos' <> 0 ->
         image_after pre1 pos' mag' ->
         exists q, In q ps1 /\ (q = (pos', mag') \/ near q (pos', mag'))) as HC.
      { intros ps1 Hi Hq pre1 post pos' mag' E1 N1 N2 Im'.
        destruct post as [|x post] using rev_ind.
        - rewrite app_nil_r in E1. subst pre1.
          destruct (image_unique _ _ _ _ _ HD Im Im') as [-> ->]. now apply Hq.
        - rewrite app_assoc in E1. apply app_inj_tail in E1 as [E1 _].
          destruct (H3 pre1 post pos' mag' E1 N1 N2 Im') as (q & Q1 & Q2). exists q. auto. }
      change (neqb (Fin pos) c0) with (Reqb pos 0).
      destruct (Req_dec pos 0) as [Hz|Hz].
      * rewrite Hz, Reqb_refl. cbn [negb].
        apply (IH n (pre ++ [o]) p ps Ew' Hn HM K2). split; auto. split; auto.
        apply HC; [apply incl_refl|]. intros; contradiction.
      * rewrite Reqb_neq by auto. cbn [negb].
        match goal with |- context [existsb ?f (map fin2 ps)] => set (test := f) end.
        destruct (existsb test (map fin2 ps)) eqn:Ex.
        -- apply (IH n (pre ++ [o]) p ps Ew' Hn HM K2). split; auto. split; auto.
           apply HC; [apply incl_refl|]. intros _.
           apply existsb_exists in Ex as (x & Hx & Tx). apply in_map_iff in Hx as (q & <- & Hq).
           exists q. split; auto. right. apply near_dec. exact Tx.
        -- change [(Fin pos, Fin mag)] with (map fin2 [(pos, mag)]). rewrite <- map_app.
           apply (IH n (pre ++ [o]) p (ps ++ [(pos, mag)]) Ew' Hn HM K2). split; [|split].
           ++ apply Forall_app. split; auto. constructor; [|constructor].
              exists (pre ++ [o]), os. repeat split; auto. destruct pre; discriminate.
           ++ apply ordpairs_snoc; auto. intros q Hq N. apply near_dec in N.
              assert (existsb test (map fin2 ps) = true) as C; [|congruence].
              apply existsb_exists. exists (fin2 q). split; [now apply in_map|exact N].
           ++ apply HC; [apply incl_appl, incl_refl|]. intros _.
              exists (pos, mag). split; [apply in_app_iff; right; now left|auto].
Qed.
End Loop.

Theorem conjugates_spec e os : Forall2 (fun (x : @elem XR) o => describes (emat x) o) (transferMatrices e) os ->
  chain os -> os <> [] ->
  exists ps, intermediateConjugates e = Ok (map fin2 ps) /\
    (forall p, In p ps -> exists pre post, pre <> [] /\ os = pre ++ post /\ fst p <> 0 /\
                           image_after pre (fst p) (snd p)) /\
    ForallOrdPairs (fun p q => ~ near p q) ps /\
    (forall pre post pos mag, os = pre ++ post -> pre <> [] -> pos <> 0 ->
       image_after pre pos mag -> exists q, In q ps /\ (q = (pos, mag) \/ near q (pos, mag))).
Proof.
  intros HF HC Hne. destruct os as [|o1 os]; [congruence|].
  unfold intermediateConjugates. rewrite Matrix_default_ok. cbn [bind].
  destruct (conj_step (o1 :: os) _ _ HF (onf o1) [] m_default []) as (ps & E & H1 & H2 & H3); auto.
  - apply HC.
  - now apply chain_matched.
  - apply tracks_default.
  - split; [constructor|]. split; [constructor|]. intros pre1 post pos mag E N.
    destruct pre1; [congruence|discriminate].
  - exists ps. split; auto. split; [|split; auto].
    intros p Hp. rewrite Forall_forall in H1. apply H1, Hp.
Qed.

(** the flattened elements of a path built by the library *)
Lemma canon_flat : forall e o, canon e o -> exists os,
  Forall2 (fun (x : @elem XR) o => describes (emat x) o) (transferMatrices e) os /\
  os <> [] /\ matched (onf o) os /\ o = pl (onf o) os.
Proof.
  induction e as [k m|gk m es IH] using elem_ind'; intros o Hc.
  - inversion Hc; subst. exists [o]. split; [repeat apply Forall2_cons; auto|]. split; [discriminate|].
    split; [cbn; auto|]. rewrite pl_cons by reflexivity. unfold pl; cbn. symmetry. apply ocomp_id_l.
  - inversion Hc as [|? e0 es0 o1 os HFc HC HG HD]; subst. cbn [transferMatrices].
    rewrite path_pl, pl_nf. pose proof (chain_matched _ _ HC) as HM. clear HC HG HD Hc.
    assert (forall es os, Forall2 canon es os -> forall n,
       Forall (fun e => forall o, canon e o -> exists os,
         Forall2 (fun (x : @elem XR) o => describes (emat x) o) (transferMatrices e) os /\
         os <> [] /\ matched (onf o) os /\ o = pl (onf o) os) es ->
       matched n os -> exists os',
       Forall2 (fun (x : @elem XR) o => describes (emat x) o) (flat_map transferMatrices es) os' /\
       (es <> [] -> os' <> []) /\ matched n os' /\ pl n os = pl n os') as HX.
    { clear. intros es os H. induction H as [|e o es os He HF IHF]; intros n HI HM.
      - exists []. split; [constructor|]. split; [congruence|]. split; constructor.
      - inversion HI as [|? ? HIe HI']; subst. cbn in HM. destruct HM as (<- & Po & HM).
        destruct (HIe o He) as (p1 & F1 & N1 & M1 & E1).
        destruct (IHF (onb o) HI' HM) as (p2 & F2 & _ & M2 & E2).
        exists (p1 ++ p2). split; [cbn; now apply Forall2_app|]. split.
        + intros _. destruct p1; [congruence|discriminate].
        + split.
          * apply matched_app. split; auto. rewrite <- pl_nb, <- E1. exact M2.
          * rewrite pl_cons by reflexivity. rewrite pl_app, <- E1. now rewrite E2. }
    destruct (HX _ _ HFc (onf o1) IH HM) as (os' & K1 & K2 & K3 & K4).
    exists os'. split; auto. split; [apply K2; discriminate|]. auto.
Qed.

Lemma matched_is_chain n os : matched n os -> chain os.
Proof. destruct os; cbn; tauto. Qed.

(** ** C29 *)
Lemma append_all_app (l : list (@elem XR)) : forall g l',
  append_all g (l ++ l') = (g' <- append_all g l;; append_all g' l').
Proof.
  induction l; intros; cbn; auto. destruct (append g a); cbn; auto.
Qed.

Definition space1 (d n : R) : @elem XR := Leaf KSpace (mat_of (o_space d n) PInf PInf false "").

Lemma append_adapt (g : @grp XR) le n d : last_opt (gelems g) = Some le -> mbi (emat le) = Fin n ->
  append g (space1 d 1) = append g (space1 d n).
Proof.
  intros El Eb. unfold append, append_st, append_check. rewrite El, Eb.
  change (mfi (emat (space1 d 1))) with (Fin 1). change (mfi (emat (space1 d n))) with (Fin n).
  change (neqb (Fin n) (Fin n)) with (Reqb n n). rewrite Reqb_refl.
  change (neqb (Fin n) (Fin 1)) with (Reqb n 1).
  destruct (Req_dec n 1) as [->|N]; [rewrite Reqb_refl; reflexivity|].
  rewrite Reqb_neq by auto. reflexivity.
Qed.

Lemma group_adapt es os le n d lab : Forall2 (fun (e : @elem XR) o => describes (emat e) o) es os ->
  chain os -> os <> [] -> last_opt es = Some le -> mbi (emat le) = Fin n ->
  MatrixGroup_new (es ++ [space1 d 1]) lab = MatrixGroup_new (es ++ [space1 d n]) lab.
Proof.
  intros HF HC Hn El Eb. unfold MatrixGroup_new, c0, c1. cbn [nofZ ninf NumXR].
  rewrite Matrix_init_ok; try reflexivity; try lra. cbn [bind].
  rewrite !append_all_app.
  match goal with |- context [append_all (mkGrp ?m []) es] =>
    destruct (assemble es os HF HC m Hn) as (g & K1 & K2 & _) end.
  rewrite K1. cbn [bind append_all].
  rewrite (append_adapt g le n d); auto. now rewrite K2.
Qed.

(** parallel light comes to a focus at the end of the path: A = 0 *)
Theorem to_focus e o : canon e o -> power o -> obv o = Some (oL o) ->
  exists s, ToFocus (emat e) = Ok s /\
  exists g, MatrixGroupE [e; s] = Ok g /\
  exists og, describes (emat g) og /\ A_ (oM og) = 0 /\ C_ (oM og) = C_ (oM o) /\
    oM og = mmul (free (- A_ (oM o) / C_ (oM o))) (oM o) /\
    onf og = onf o /\ onb og = onb o /\ oL og = oL o - A_ (oM o) / C_ (oM o) /\
    (forall y, fst (mapp (oM og) (y, 0)) = 0).
Proof.
  intros Hc H V. pose proof (canon_describes _ _ Hc) as D. pose proof (canon_physical _ _ Hc) as P.
  pose proof (power_C _ H) as HC.
  unfold ToFocus. rewrite (bfl_ok _ _ _ D P H V). cbn [bind].
  set (d := oL o - A_ (oM o) / C_ (oM o) - oL o).
  assert (d = - A_ (oM o) / C_ (oM o)) as Ed by (unfold d; field; auto).
  change (@c1 XR _) with (Fin 1). rewrite Space_ok by (try exact I; lra).
  exists (space1 d 1). split; [reflexivity|].
  unfold MatrixGroupE. change [e; space1 d 1] with ([e] ++ [space1 d 1]).
  assert (chain [o]) as Ch by (split; cbn; auto).
  rewrite (group_adapt [e] [o] e (onb o) d "" (Forall2_cons _ _ D (Forall2_nil _)) Ch
             ltac:(discriminate) eq_refl (d_nb _ _ D)).
  destruct (MatrixGroup_new_ok [e; space1 d (onb o)] [o; o_space d (onb o)] "")
    as (g & E & _ & _ & _ & _ & _ & HT).
  { constructor; auto. constructor; [apply mat_of_describes|constructor]. }
  { split; auto. cbn. split; auto. split; auto. apply p_space, P. }
  { discriminate. }
  cbn [app]. rewrite E. cbn [bind]. eexists. split; [reflexivity|].
  exists (path_optic o [o_space d (onb o)]). specialize (HT _ _ eq_refl).
  assert (C_ (oM (path_optic o [o_space d (onb o)])) = C_ (oM o)) as EC by (cbn; ring).
  assert (A_ (oM (path_optic o [o_space d (onb o)])) = 0) as EA.
  { cbn. rewrite Ed. field. auto. }
  split.
  { destruct HT as [HT|[Ei _]]; auto. exfalso. rewrite Ei in EC. cbn in EC. congruence. }
  split; auto. split; auto.
  split; [cbn; now rewrite <- Ed|]. split; [reflexivity|]. split; [reflexivity|].
  split; [cbn; rewrite Ed; field; auto|].
  intros y. unfold mapp. cbn [fst snd]. rewrite EA. ring.
Qed.

Theorem focus_to_focus e o : canon e o -> power o -> onf o = 1 ->
  ofv o = Some 0 -> obv o = Some (oL o) ->
  exists g, fromFocusToFocus e = Ok g /\
  exists og, describes (emat g) og /\
    oM og = mk2 0 (-1 / (onb o * C_ (oM o))) (C_ (oM o)) 0 /\ onf og = 1 /\ onb og = onb o /\
    oL og = oL o - A_ (oM o) / C_ (oM o) - D_ (oM o) / C_ (oM o).
Proof.
  intros Hc H Hn Vf V. pose proof (canon_describes _ _ Hc) as D. pose proof (canon_physical _ _ Hc) as P.
  pose proof (power_C _ H) as HC.
  unfold fromFocusToFocus. rewrite (bfl_ok _ _ _ D P H V), (ffl_ok _ _ _ D P H Vf). cbn [bind].
  set (d := oL o - A_ (oM o) / C_ (oM o) - oL o). set (d1 := 0 - D_ (oM o) / C_ (oM o)).
  assert (d = - A_ (oM o) / C_ (oM o)) as Ed by (unfold d; field; auto).
  assert (d1 = - D_ (oM o) / C_ (oM o)) as Ed1 by (unfold d1; field; auto).
  change (@c1 XR _) with (Fin 1). rewrite !Space_ok by (try exact I; lra). cbn [bind].
  change (@ninf XR _) with PInf. unfold MatrixGroupE. fold (space1 d 1). fold (space1 d1 1).
  change [space1 d1 1; e; space1 d 1] with ([space1 d1 1; e] ++ [space1 d 1]).
  assert (describes (emat (space1 d1 1)) (o_space d1 1)) as Ds by apply mat_of_describes.
  assert (chain [o_space d1 1; o]) as Ch.
  { split; [apply p_space; lra|]. cbn. auto. }
  rewrite (group_adapt [space1 d1 1; e] [o_space d1 1; o] e (onb o) d ""
             (Forall2_cons _ _ Ds (Forall2_cons _ _ D (Forall2_nil _))) Ch
             ltac:(discriminate) eq_refl (d_nb _ _ D)).
  destruct (MatrixGroup_new_ok [space1 d1 1; e; space1 d (onb o)] [o_space d1 1; o; o_space d (onb o)] "")
    as (g & E & _ & _ & _ & _ & _ & HT).
  { constructor; auto. constructor; auto. constructor; [apply mat_of_describes|constructor]. }
  { split; [apply p_space; lra|]. cbn. split; auto. split; auto. split; auto. split; auto.
    apply p_space, P. }
  { discriminate. }
  cbn [app]. rewrite E. cbn [bind]. eexists. split; [reflexivity|].
  exists (path_optic (o_space d1 1) [o; o_space d (onb o)]). specialize (HT _ _ eq_refl).
  assert (C_ (oM (path_optic (o_space d1 1) [o; o_space d (onb o)])) = C_ (oM o)) as EC by (cbn; ring).
  assert (A_ (oM (path_optic (o_space d1 1) [o; o_space d (onb o)])) = 0) as EA.
  { cbn. rewrite Ed. field. auto. }
  split.
  { destruct HT as [HT|[Ei _]]; auto. exfalso. rewrite Ei in EA. cbn in EA. lra. }
  split.
  { apply M2_eq; auto.
    - cbn. rewrite Ed, Ed1. destruct P as (P1 & P2 & P3). unfold mdet in P3. rewrite Hn in P3.
      assert (B_ (oM o) = (A_ (oM o) * D_ (oM o) - 1 / onb o) / C_ (oM o)) as ->.
      { rewrite <- P3. field. auto. }
      field. auto.
    - cbn. rewrite Ed1. field. auto. }
  split; [reflexivity|]. split; [reflexivity|]. cbn. rewrite Ed, Ed1. field. auto.
Qed.

(** ** C31 *)
Definition o_box (d : R) : optic := mkO mid d 1 1 None None.

Lemma p_box d : physical (o_box d).
Proof. repeat split; cbn; try lra. rewrite mdet_id. lra. Qed.

(** the elements of an objective, in one orientation or the other *)
Definition obj_es (fl : bool) (f na ftf ba wd : R) : list (@elem XR) :=
  [Leaf KAperture (mat_of o_aperture (Fin ba) PInf fl "backAperture");
   Leaf KSpace (mat_of (o_space f 1) PInf PInf fl "");
   Leaf KMatrix (mat_of (o_box (ftf - 2 * f)) PInf PInf fl "");
   Leaf (KLens (Fin f) (Fin 4)) (mat_of (o_lens f) PInf PInf fl "");
   Leaf KSpace (mat_of (o_space (f - wd) 1) PInf PInf fl "");
   Leaf KAperture (mat_of o_aperture (Fin (2 * (na * wd))) PInf fl "frontAperture");
   Leaf KSpace (mat_of (o_space wd 1) PInf PInf fl "")].
Definition obj_os (f ftf wd : R) : list optic :=
  [o_aperture; o_space f 1; o_box (ftf - 2 * f); o_lens f; o_space (f - wd) 1; o_aperture; o_space wd 1].

Lemma obj_flips fl f na ftf ba wd :
  Forall2 (fun e e' => flip e = Ok e') (obj_es fl f na ftf ba wd) (obj_es (negb fl) f na ftf ba wd).
Proof. repeat constructor. Qed.

Lemma obj_describes fl f na ftf ba wd :
  Forall2 (fun (e : @elem XR) o => describes (emat e) o) (obj_es fl f na ftf ba wd) (obj_os f ftf wd).
Proof. repeat apply Forall2_cons; try apply Forall2_nil; apply mat_of_describes. Qed.

Lemma matched_all_one os : Forall (fun o => physical o /\ onf o = 1 /\ onb o = 1) os -> matched 1 os.
Proof.
  induction 1 as [|o os (P & E1 & E2) HF IH]; cbn; auto. rewrite E2. auto.
Qed.

Lemma obj_all f ftf wd : Forall (fun o => physical o /\ onf o = 1 /\ onb o = 1) (obj_os f ftf wd).
Proof.
  repeat apply Forall_cons; try apply Forall_nil; (split; [|split; reflexivity]);
    auto using p_aperture, p_box, p_lens; apply p_space; lra.
Qed.

Lemma chain_of_matched n l : matched n l -> chain l.
Proof. destruct l; cbn; tauto. Qed.

Lemma mat_is m o : describes m o -> m = mat_of o (mdiam m) (mna m) (mflip m) (mlabel m).
Proof. intros D. destruct m; unfold mat_of; cbn in *. destruct D; cbn in *. congruence. Qed.

(** the group made of these elements, forward or in reverse order *)
Lemma obj_forward fl f na ftf ba wd (m : @mat XR) : f <> 0 ->
  exists g, append_all (mkGrp m []) (obj_es fl f na ftf ba wd) = Ok g /\
    gelems g = obj_es fl f na ftf ba wd /\
    exists vf vb, gmat g = mat_of (mkO (mk2 0 f (-1 / f) 0) ftf 1 1 vf vb)
      (mdiam m) (mna m) (mflip m) (mlabel m).
Proof.
  intros Hf.
  pose proof (matched_all_one _ (obj_all f ftf wd)) as HM.
  destruct (assemble _ _ (obj_describes fl f na ftf ba wd) (chain_of_matched _ _ HM) m)
    as (g & K1 & K2 & K3 & K4 & K5 & K6 & K7); [discriminate|].
  exists g. split; auto. split; auto. specialize (K7 _ _ eq_refl).
  match type of K7 with tracks _ ?o => set (P := o) in * end.
  assert (oM P = mk2 0 f (-1 / f) 0) as EM by (apply M2_eq; cbn; field; auto).
  exists (ofv P), (obv P).
  destruct K7 as [D|[Ei _]]; [|exfalso; rewrite EM in Ei; injection Ei; lra].
  replace (mkO (mk2 0 f (-1 / f) 0) ftf 1 1 (ofv P) (obv P)) with P.
  - rewrite <- K3, <- K4, <- K5, <- K6. now apply mat_is.
  - apply optic_eq; auto. cbn. ring.
Qed.

Lemma obj_backward fl f na ftf ba wd (m : @mat XR) : f <> 0 ->
  exists g, append_all (mkGrp m []) (rev (obj_es fl f na ftf ba wd)) = Ok g /\
    gelems g = rev (obj_es fl f na ftf ba wd) /\
    exists vf vb, gmat g = mat_of (mkO (mk2 0 f (-1 / f) 0) ftf 1 1 vf vb)
      (mdiam m) (mna m) (mflip m) (mlabel m).
Proof.
  intros Hf.
  assert (matched 1 (rev (obj_os f ftf wd))) as HM.
  { apply matched_all_one. apply Forall_rev, obj_all. }
  destruct (assemble _ _ (Forall2_rev _ _ _ (obj_describes fl f na ftf ba wd)) (chain_of_matched _ _ HM) m)
    as (g & K1 & K2 & K3 & K4 & K5 & K6 & K7); [discriminate|].
  exists g. split; auto. split; auto. specialize (K7 _ _ eq_refl).
  match type of K7 with tracks _ ?o => set (P := o) in * end.
  assert (oM P = mk2 0 f (-1 / f) 0) as EM by (apply M2_eq; cbn; field; auto).
  exists (ofv P), (obv P).
  destruct K7 as [D|[Ei _]]; [|exfalso; rewrite EM in Ei; injection Ei; lra].
  replace (mkO (mk2 0 f (-1 / f) 0) ftf 1 1 (ofv P) (obv P)) with P.
  - rewrite <- K3, <- K4, <- K5, <- K6. now apply mat_is.
  - apply optic_eq; auto. cbn. ring.
Qed.

Lemma ov_other (e : @elem XR) t m z : mlabel (emat e) = ""%string ->
  objective_vertices (e :: t) m z = objective_vertices t m (nadd z (mL (emat e))).
Proof. intros H. cbn [objective_vertices]. now rewrite H. Qed.
Lemma ov_front (e : @elem XR) t m z : mlabel (emat e) = "frontAperture"%string ->
  objective_vertices (e :: t) m z =
  objective_vertices t (if negb (mflip m) then set_bv m (Some z) else set_fv m (Some z))
    (nadd z (mL (emat e))).
Proof. intros H. cbn [objective_vertices]. now rewrite H. Qed.
Lemma ov_back (e : @elem XR) t m z : mlabel (emat e) = "backAperture"%string ->
  objective_vertices (e :: t) m z =
  objective_vertices t (if negb (mflip m) then set_fv m (Some z) else set_bv m (Some z))
    (nadd z (mL (emat e))).
Proof. intros H. cbn [objective_vertices]. now rewrite H. Qed.

Lemma ov_reversed fl f na ftf ba wd (m : @mat XR) : mflip m = true ->
  objective_vertices (rev (obj_es fl f na ftf ba wd)) m (Fin 0) =
  set_bv (set_fv m (Some (Fin wd))) (Some (Fin ftf)).
Proof.
  intros H. unfold obj_es. cbn [rev app].
  rewrite ov_other by reflexivity. rewrite ov_front by reflexivity. rewrite H. cbn [negb].
  rewrite !ov_other by reflexivity. rewrite ov_back by reflexivity. cbn [mflip set_fv]. rewrite H.
  cbn [negb objective_vertices].
  cbn [emat mL mat_of o_space o_aperture o_lens o_box oL nadd NumXR xadd].
  f_equal; [f_equal|]; do 2 f_equal; ring.
Qed.

Lemma ov_straight fl f na ftf ba wd (m : @mat XR) : mflip m = false ->
  objective_vertices (obj_es fl f na ftf ba wd) m (Fin 0) =
  set_bv (set_fv m (Some (Fin 0))) (Some (Fin (ftf - wd))).
Proof.
  intros H. unfold obj_es.
  rewrite ov_back by reflexivity. rewrite H. cbn [negb].
  rewrite !ov_other by reflexivity. rewrite ov_front by reflexivity. cbn [mflip set_fv]. rewrite H.
  rewrite !ov_other by reflexivity.
  cbn [negb objective_vertices].
  cbn [emat mL mat_of o_space o_aperture o_lens o_box oL nadd NumXR xadd].
  do 3 f_equal; ring.
Qed.

Theorem objective_full f na ftf ba wd : f <> 0 -> 0 < na * wd -> 0 < ba ->
  exists e e1, Objective (Fin f) (Fin na) (Fin ftf) (Fin ba) (Fin wd) = Ok e /\
    describes (emat e) (mkO (mk2 0 f (-1 / f) 0) ftf 1 1 (Some 0) (Some (ftf - wd))) /\
    mdiam (emat e) = Fin ba /\ mflip (emat e) = false /\
    flip e = Ok e1 /\
    describes (emat e1) (mkO (mk2 0 f (-1 / f) 0) ftf 1 1 (Some wd) (Some ftf)) /\
    mflip (emat e1) = true /\
    flip e1 = Ok e /\
    (exists m, e = Group (GObjective (Fin ftf) (Fin wd)) m (obj_es false f na ftf ba wd)) /\
    (exists m, e1 = Group (GObjective (Fin ftf) (Fin wd)) m (rev (obj_es true f na ftf ba wd))).
Proof.
  intros Hf Hna Hba.
  assert (Objective (Fin f) (Fin na) (Fin ftf) (Fin ba) (Fin wd) =
    (g <- MatrixGroup_new (obj_es false f na ftf ba wd) "";;
     Ok (Group (GObjective (Fin ftf) (Fin wd))
        (set_diam (set_bv (set_fv (gmat g) (Some (Fin 0))) (Some (Fin (ftf - wd)))) (Fin ba))
        (gelems g)))) as EO.
  { unfold Objective.
    assert (forall d lab, 0 < d -> ApertureL (Fin d) PInf lab =
      Ok (Leaf KAperture (mat_of o_aperture (Fin d) PInf false lab))) as HA.
    { intros d lab Hd. unfold ApertureL, c0, c1; cbn [nofZ ninf NumXR].
      pose proof (Matrix_init_optic o_aperture (Fin d) PInf lab p_aperture Hd I) as H.
      cbn [o_aperture oM oL onf onb ofv obv mid A_ B_ C_ D_ option_map] in H. now rewrite H. }
    change (@c1 XR _) with (Fin 1). change (@c0 XR _) with (Fin 0). change (@c2 XR _) with (Fin 2).
    change (@ninf XR _) with PInf.
    change (nmul (Fin 2) (nmul (Fin na) (Fin wd))) with (Fin (2 * (na * wd))).
    change (nsub (Fin ftf) (nmul (Fin 2) (Fin f))) with (Fin (ftf - 2 * f)).
    change (nsub (Fin f) (Fin wd)) with (Fin (f - wd)).
    change (nsub (Fin ftf) (Fin wd)) with (Fin (ftf - wd)).
    rewrite !HA by lra. cbn [bind]. rewrite !Space_ok by (try exact I; lra). cbn [bind].
    unfold MatrixE. pose proof (Matrix_init_optic (o_box (ftf - 2 * f)) PInf PInf ""%string (p_box _) I I) as HB.
    cbn [o_box oM oL onf onb ofv obv mid A_ B_ C_ D_ option_map] in HB.
    change (@ninf XR _) with PInf. rewrite HB. cbn [bind].
    rewrite Lens_ok by (auto; exact I). reflexivity. }
  rewrite EO. clear EO. unfold MatrixGroup_new, c0, c1. cbn [nofZ ninf NumXR].
  rewrite Matrix_init_ok; try reflexivity; try lra. cbn [bind].
  match goal with |- context [append_all (mkGrp ?m []) _] =>
    destruct (obj_forward false f na ftf ba wd m Hf) as (g & K1 & K2 & vf & vb & K3) end.
  rewrite K1. cbn [bind]. rewrite K2, K3. cbn [mat_of mdiam mna mflip mlabel] in *.
  eexists. 
  (* the flipped objective *)
  destruct (obj_backward true f na ftf ba wd
    (set_flip (set_diam (set_bv (set_fv (gmat g) (Some (Fin 0))) (Some (Fin (ftf - wd)))) (Fin ba)) true) Hf)
    as (g1 & L1 & L2 & vf1 & vb1 & L3).
  eexists. split; [reflexivity|].
  split; [constructor; reflexivity|]. split; [reflexivity|]. split; [reflexivity|].
  split.
  { rewrite flip_group, flip_loop_as.
    rewrite (flip_each_as _ _ _ (Forall2_rev _ _ _ (obj_flips false f na ftf ba wd))).
    rewrite K3 in L1. cbn [negb mflip set_diam set_bv set_fv mat_of] in *. rewrite L1.
    cbn [bind finish_flip]. rewrite L2, L3. reflexivity. }
  cbn [emat].
  set (m1 := objective_vertices _ _ _).
  assert (m1 = mat_of (mkO (mk2 0 f (-1 / f) 0) ftf 1 1 (Some wd) (Some ftf)) (Fin ba) PInf true "") as Em.
  { subst m1. rewrite K3. change (@c0 XR _) with (Fin 0). rewrite ov_reversed by reflexivity. reflexivity. }
  rewrite Em. split; [apply mat_of_describes|]. split; [reflexivity|].
  split; [|split; eexists; reflexivity].
  rewrite flip_group, flip_loop_as.
  rewrite rev_involutive.
  rewrite (flip_each_as _ _ _ (obj_flips true f na ftf ba wd)).
  cbn [negb mflip mat_of].
  match goal with |- context [append_all (mkGrp ?m []) _] =>
    destruct (obj_forward false f na ftf ba wd m Hf) as (g2 & N1 & N2 & vf2 & vb2 & N3) end.
  rewrite N1. cbn [bind finish_flip]. rewrite N2, N3.
  change (@c0 XR _) with (Fin 0). rewrite ov_straight by reflexivity. reflexivity.
Qed.

Theorem objective_ok f na ftf ba wd : f <> 0 -> 0 < na * wd -> 0 < ba ->
  exists e e1, Objective (Fin f) (Fin na) (Fin ftf) (Fin ba) (Fin wd) = Ok e /\
    describes (emat e) (mkO (mk2 0 f (-1 / f) 0) ftf 1 1 (Some 0) (Some (ftf - wd))) /\
    mdiam (emat e) = Fin ba /\ mflip (emat e) = false /\
    flip e = Ok e1 /\
    describes (emat e1) (mkO (mk2 0 f (-1 / f) 0) ftf 1 1 (Some wd) (Some ftf)) /\
    mflip (emat e1) = true /\
    flip e1 = Ok e.
Proof.
  intros Hf Hna Hba. destruct (objective_full f na ftf ba wd Hf Hna Hba) as (e & e1 & H1 & H2 & H3 & H4 & H5 & H6 & H7 & H8 & _).
  exists e, e1. auto 10.
Qed.

(** ** C23, C27 *)
Theorem flip_exchanges e o vf vb : canon e o -> Forall mirror_ok (leaves e) -> all_vsym e ->
  onf o = onb o -> power o -> ofv o = Some vf -> obv o = Some vb ->
  exists e', flip e = Ok e' /\
    frontFocalLength (emat e') = backFocalLength (emat e) /\
    backFocalLength (emat e') = frontFocalLength (emat e).
Proof.
  intros Hc Hm Hv En Hp Vf Vb.
  destruct (flip_canon e o Hc Hm) as (e' & o' & F & C & _ & _ & _ & HV).
  destruct (HV Hv) as [-> _]. exists e'. split; auto.
  apply (focal_lengths_swap (emat e) (emat e') o vf vb); auto using canon_describes.
  eapply canon_physical; eauto.
Qed.

Theorem flip_twice e o : canon e o -> Forall mirror_ok (leaves e) ->
  exists e', flip e = Ok e' /\ flip e' = Ok e.
Proof.
  intros Hc Hm. destruct (flip_canon e o Hc Hm) as (e' & o' & F & _ & _ & _ & F2 & _). eauto.
Qed.

Theorem flip_twice_leaf k (m : @mat XR) o : describes m o -> physical o -> leaf_spec k o ->
  exists e', flip (Leaf k m) = Ok e' /\ flip e' = Ok (Leaf k m).
Proof.
  intros D P S. destruct (flip_leaf_twice k m o D P S) as (k' & m' & o' & F & _ & _ & _ & _ & _ & _ & _ & _ & F2 & _).
  exists (Leaf k' m'). auto.
Qed.

(** no group inside the group *)
Definition flat (e : @elem XR) : Prop :=
  match e with
  | Leaf _ _ => True
  | Group _ _ es => Forall (fun x => match x with Leaf _ _ => True | Group _ _ _ => False end) es
  end.

Lemma matched_like l l' : Forall2 (fun a b => physical b /\ onf b = onf a /\ onb b = onb a) l l' ->
  forall n, matched n l -> matched n l'.
Proof.
  induction 1 as [|a b l l' (P & E1 & E2) HF IH]; intros n HM; cbn in *; auto.
  destruct HM as (E & Pa & HM). split; [congruence|]. split; auto. apply IH. congruence.
Qed.

Theorem flip_twice_flat e o : canon e o -> flat e -> exists e', flip e = Ok e' /\ flip e' = Ok e.
Proof.
  intros Hc Hf. inversion Hc as [k m o0 D P S|m e1 es o1 os HF HC HG HD]; subst.
  - now apply (flip_twice_leaf k m o).
  - cbn in Hf. remember (e1 :: es) as l eqn:El. remember (o1 :: os) as lo eqn:Elo.
    assert (exists l' lo', Forall2 (fun e e' => flip e = Ok e') l l' /\
      Forall2 (fun (e : @elem XR) o => describes (emat e) o) l' lo' /\
      Forall2 (fun a b => physical b /\ onf b = onb a /\ onb b = onf a) lo lo' /\
      Forall2 (fun e e' => flip e = Ok e') l' l) as (l' & lo' & F1 & F2 & F3 & F4).
    { clear HC HG HD El Elo Hc. induction HF as [|x o l lo Hx HF IH]; inversion Hf; subst.
      - exists [], []. repeat split; constructor.
      - destruct (IH H2) as (l' & lo' & A1 & A2 & A3 & A4).
        destruct x as [k0 m0|]; [|contradiction]. inversion Hx; subst.
        destruct (flip_leaf_twice k0 m0 o) as (k' & m' & o' & F & D & P & S & E1 & E2 & E3 & E4 & E5 & G & _);
          auto.
        exists (Leaf k' m' :: l'), (o' :: lo'). split; [constructor; auto|].
        split; [constructor; auto|]. split; constructor; auto. }
    assert (matched (onf o1) lo) as HM by (subst lo; now apply chain_matched).
    assert (onf o1 <> 0) as Hn by (subst lo; apply HC).
    assert (matched (List.last (map onb lo) (onf o1)) (rev lo')) as HM'.
    { apply (matched_like (rev (map orev lo))); [|now apply matched_rev].
      apply Forall2_rev. clear -F3. induction F3 as [|a b lo lo' (P & E1 & E2) HF IH]; constructor; auto. }
    assert (rev lo' <> []) as Hne.
    { intros E. apply (f_equal (@List.length _)) in E. rewrite rev_length in E.
      destruct lo'; [|discriminate]. inversion F3; subst; discriminate. }
    destruct (assemble (rev l') (rev lo') (Forall2_rev _ _ _ F2) (matched_is_chain _ _ HM')
      (set_flip m (negb (mflip m))) Hne) as (g & K1 & K2 & K3 & K4 & K5 & K6 & K7).
    exists (grp_elem g). split.
    { rewrite flip_group, flip_loop_as.
      rewrite (flip_each_as _ (rev l')) by now apply Forall2_rev. rewrite K1. reflexivity. }
    unfold grp_elem. rewrite flip_group, flip_loop_as, K2, rev_involutive.
    rewrite (flip_each_as _ l) by auto.
    destruct (assemble_canon l lo (set_flip (gmat g) (negb (mflip (gmat g)))))
      as (g2 & J1 & J2 & J3 & J4 & J5 & J6 & J7); auto; [subst lo; discriminate|].
    rewrite J1. cbn [bind finish_flip]. rewrite J2. do 2 f_equal.
    destruct (J7 o1 os Elo) as [D2 _].
    eapply describes_unique; eauto; cbn in *; try congruence.
    rewrite J5, K5. apply negb_involutive.
Qed.
