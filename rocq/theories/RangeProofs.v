(** What lies in the vertical range of a figure. *)
From Coq Require Import ZArith List Bool Reals Lra String.
From Verif Require Import Base Nums Optics Group Drawing Figures RayLines Range Scene FigureProofs FigurePlace
  Spec MatrixProofs ElementProofs GroupProofs TraceProofs CardinalProofs CardinalMore.
Import ListNotations.
Open Scope R_scope.
Open Scope list_scope.

(** ** Maxima *)
Lemma py_max_fin (l : list R) : l <> [] ->
  exists v, @py_max XR _ (map Fin l) = Ok (Fin v) /\ In v l /\ (forall y, In y l -> y <= v).
Proof.
  destruct l as [|x t]; [easy|]. intros _. cbn [map py_max].
  assert (forall t m, exists v, fold_left (fun m y => if nltb m y then y else m) (map Fin t) (Fin m) = Fin v /\
    (v = m \/ In v t) /\ m <= v /\ (forall y, In y t -> y <= v)) as K.
  { clear. induction t as [|y t IH]; intros m; cbn [map fold_left].
    - exists m. split; [auto|]. split; [auto|]. split; [lra|easy].
    - cbn [nltb NumXR xltb]. destruct (Rltb m y) eqn:E.
      + apply Rltb_true in E. destruct (IH y) as (v & H1 & H2 & H3 & H4). exists v. split; [auto|].
        split; [right; cbn; destruct H2; [left; congruence|auto]|]. split; [lra|]. intros z [<-|Hz]; [lra|auto].
      + apply Rltb_false in E. destruct (IH m) as (v & H1 & H2 & H3 & H4). exists v. split; [auto|].
        split; [cbn; destruct H2; [left; congruence|auto]|]. split; [lra|]. intros z [<-|Hz]; [lra|auto]. }
  destruct (K t x) as (v & H1 & H2 & H3 & H4). exists v. rewrite H1. split; [reflexivity|].
  split; [cbn; destruct H2; [left; congruence|auto]|]. intros y [<-|Hy]; auto.
Qed.
(** a line with finite heights *)
Definition has_heights (l : @line XR) (ys : list R) : Prop := l_y l = map Fin ys /\ ys <> [].
Lemma maxRayHeight_from_fin : forall lines yss m, Forall2 has_heights lines yss ->
  exists v, maxRayHeight_from (Fin m) lines = Ok (Fin v) /\ m <= v /\
    (forall ys y, In ys yss -> In y ys -> y <= v) /\ (v = m \/ exists ys, In ys yss /\ In v ys).
Proof.
  induction lines as [|l lines IH]; intros yss m F; inversion F as [|? ys ? yss' (E & Ne) F']; subst; cbn [maxRayHeight_from].
  - exists m. split; [auto|]. split; [lra|]. split; [easy|auto].
  - destruct (py_max_fin ys Ne) as (w & H1 & H2 & H3). rewrite E, H1. cbn [bind nltb NumXR xltb].
    destruct (Rltb m w) eqn:Lt.
    + apply Rltb_true in Lt. destruct (IH yss' w F') as (v & K1 & K2 & K3 & K4). exists v. split; [auto|]. split; [lra|].
      split.
      * intros zs y [<-|Hz] Hy; [specialize (H3 y Hy); lra|eauto].
      * right. destruct K4 as [->|(zs & A & B)]; [exists ys; split; [now left|auto]|exists zs; split; [now right|auto]].
    + apply Rltb_false in Lt. destruct (IH yss' m F') as (v & K1 & K2 & K3 & K4). exists v. split; [auto|]. split; [lra|].
      split.
      * intros zs y [<-|Hz] Hy; [specialize (H3 y Hy); lra|eauto].
      * destruct K4 as [->|(zs & A & B)]; [now left|right; exists zs; split; [now right|auto]].
Qed.
Theorem maxRayHeight_spec lines yss : Forall2 has_heights lines yss ->
  exists v, maxRayHeight lines = Ok (Fin v) /\ 0 <= v /\ (forall ys y, In ys yss -> In y ys -> y <= v) /\
    (v = 0 \/ exists ys, In ys yss /\ In v ys).
Proof. exact (maxRayHeight_from_fin lines yss 0). Qed.

(** ** Heights of graphics *)
(** the end points of the curves of a graphic are finite *)
Definition finite_graphic (g : graphic XR) : Prop :=
  forall c q, In c (gr_comp g) -> In q (xy c) -> exists y, snd q = Fin y.
(** no end point is further from the axis than h, and one is there *)
Definition as_tall_as (g : graphic XR) (h : R) : Prop :=
  (forall c q y, In c (gr_comp g) -> In q (xy c) -> snd q = Fin y -> Rabs y <= h) /\
  (h = 0 \/ exists c q y, In c (gr_comp g) /\ In q (xy c) /\ snd q = Fin y /\ Rabs y = h).

Lemma comp_height_fin (c : component XR) : (forall q, In q (xy c) -> exists y, snd q = Fin y) -> xy c <> [] ->
  exists h, comp_height c = Ok (Fin h) /\ 0 <= h /\ (forall q y, In q (xy c) -> snd q = Fin y -> Rabs y <= h) /\
    exists q y, In q (xy c) /\ snd q = Fin y /\ Rabs y = h.
Proof.
  intros F Ne. unfold comp_height. destruct (xy c) as [|p t]; [easy|].
  destruct (F p) as (y0 & E0); [now left|]. rewrite E0. change (nabs (Fin y0)) with (Fin (Rabs y0)).
  destruct (fold_max t (Rabs y0)) as (v & H1 & H2 & H3 & H4).
  { apply Forall_forall. intros q Hq. apply F. now right. }
  exists v. rewrite H1. split; [reflexivity|]. split; [pose proof (Rabs_pos y0); lra|]. split.
  - intros q y [<-|Hq] E; [rewrite E0 in E; injection E as <-; auto|].
    rewrite Forall_forall in H3. destruct (H3 q Hq) as (y' & E' & L). congruence.
  - destruct H4 as [->|H4]; [exists p, y0; split; [now left|auto]|].
    apply Exists_exists in H4. destruct H4 as (q & Hq & y & E & <-). exists q, y. split; [now right|auto].
Qed.
Lemma half_loop_fin : forall (l : list (component XR)) h0 rr, half_loop l (Fin h0) = Ok rr ->
  (forall c q, In c l -> In q (xy c) -> exists y, snd q = Fin y) ->
  exists h, rr = Fin h /\ h0 <= h /\ (forall c q y, In c l -> In q (xy c) -> snd q = Fin y -> Rabs y <= h) /\
    (h = h0 \/ exists c q y, In c l /\ In q (xy c) /\ snd q = Fin y /\ Rabs y = h).
Proof.
  induction l as [|c l IH]; intros h0 rr E F; cbn [half_loop] in E.
  - injection E as <-. exists h0. split; [auto|]. split; [lra|]. split; [easy|auto].
  - destruct (xy c) as [|p t] eqn:X; [unfold comp_height in E; rewrite X in E; discriminate|].
    destruct (comp_height_fin c) as (hc & C1 & C2 & C3 & C4); [intros q Hq; apply (F c); [now left|auto]|rewrite X; discriminate|].
    rewrite C1 in E. cbn [bind nltb NumXR xltb] in E.
    assert (forall c0 q, In c0 l -> In q (xy c0) -> exists y, snd q = Fin y) as F' by (intros; apply (F c0); [now right|auto]).
    destruct (Rltb h0 hc) eqn:Lt.
    + apply Rltb_true in Lt. destruct (IH hc rr E F') as (h & H1 & H2 & H3 & H4). exists h. split; [auto|]. split; [lra|]. split.
      * intros d q y [<-|Hd] Hq Ey; [specialize (C3 q y Hq Ey); lra|eauto].
      * right. destruct H4 as [->|(d & q & y & A & B & D)].
        -- destruct C4 as (q & y & Hq & Ey & Ry). exists c, q, y. split; [now left|auto].
        -- exists d, q, y. split; [now right|auto].
    + apply Rltb_false in Lt. destruct (IH h0 rr E F') as (h & H1 & H2 & H3 & H4). exists h. split; [auto|]. split; [lra|]. split.
      * intros d q y [<-|Hd] Hq Ey; [specialize (C3 q y Hq Ey); lra|eauto].
      * destruct H4 as [->|(d & q & y & A & B & D)]; [now left|right; exists d, q, y; split; [now right|auto]].
Qed.
Lemma halfHeight_fin g hh : finite_graphic g -> halfHeight g = Ok hh -> exists h, hh = Fin h /\ 0 <= h /\ as_tall_as g h.
Proof.
  intros F. unfold halfHeight. destruct (half_loop (gr_comp g) c0) as [rr|] eqn:E; [|discriminate]. cbn [bind].
  destruct (half_loop_fin _ 0 rr E F) as (h & -> & H2 & H3 & H4). change (neqb (Fin h) ninf) with false. intros H.
  injection H as <-. exists h. split; [auto|]. split; [auto|]. split; auto.
Qed.
Lemma tallest_fin : forall gs r0 rr, Forall finite_graphic gs -> tallest gs (Fin r0) = Ok rr ->
  exists r, rr = Fin r /\ r0 <= r /\
    (forall g c q y, In g gs -> In c (gr_comp g) -> In q (xy c) -> snd q = Fin y -> Rabs y <= r / 2) /\
    (r = r0 \/ exists g h, In g gs /\ as_tall_as g h /\ r = 2 * h).
Proof.
  induction gs as [|g gs IH]; intros r0 rr F E; cbn [tallest] in E.
  - injection E as <-. exists r0. split; [auto|]. split; [lra|]. split; [easy|auto].
  - inversion F as [|? ? Fg F']; subst. destruct (halfHeight g) as [hh|] eqn:Hg; [|discriminate].
    destruct (halfHeight_fin g hh Fg Hg) as (h & -> & H0 & HB & HA). cbn [bind] in E.
    change (nmul (Fin h) c2) with (Fin (h * 2)) in E. cbn [nltb NumXR xltb] in E.
    destruct (Rltb r0 (h * 2)) eqn:Lt.
    + apply Rltb_true in Lt. destruct (IH (h * 2) rr F' E) as (r & K1 & K2 & K3 & K4). exists r. split; [auto|]. split; [lra|]. split.
      * intros g' c q y [<-|Hg'] Hc Hq Ey; [specialize (HB c q y Hc Hq Ey); lra|eauto].
      * right. destruct K4 as [->|(g' & h' & A & B & C)].
        -- exists g, h. split; [now left|]. split; [split; auto|lra].
        -- exists g', h'. split; [now right|auto].
    + apply Rltb_false in Lt. destruct (IH r0 rr F' E) as (r & K1 & K2 & K3 & K4). exists r. split; [auto|]. split; [lra|]. split.
      * intros g' c q y [<-|Hg'] Hc Hq Ey; [specialize (HB c q y Hc Hq Ey); lra|eauto].
      * destruct K4 as [->|(g' & h' & A & B & C)]; [now left|right; exists g', h'; split; [now right|auto]].
Qed.

(** ** The images in the path *)
Lemma with_images_fin L oh : forall ps r0,
  exists r, with_images (Fin L) (Fin oh) (map fin2 ps) (Fin r0) = Fin r /\ r0 <= r /\
    (forall p, In p ps -> 0 <= fst p <= L -> oh * Rabs (snd p) <= r) /\
    (r = r0 \/ exists p, In p ps /\ 0 <= fst p <= L /\ r = oh * Rabs (snd p)).
Proof.
  unfold with_images. induction ps as [|p ps IH]; intros r0; cbn [map fold_left].
  - exists r0. split; [auto|]. split; [lra|]. split; [easy|auto].
  - destruct p as [z m]. cbn [fin2 fst snd nleb nltb nmul nabs NumXR xleb xltb xmul xabs].
    change (@c0 XR _) with (Fin 0). cbn [xleb]. destruct (Rleb 0 z && Rleb z L)%bool eqn:In_.
    + apply andb_prop in In_. destruct In_ as [A B]. apply Rleb_true in A, B.
      destruct (Rltb r0 (oh * Rabs m)) eqn:Lt.
      * apply Rltb_true in Lt. destruct (IH (oh * Rabs m)) as (r & K1 & K2 & K3 & K4). exists r. split; [auto|]. split; [lra|]. split.
        -- intros p [<-|Hp] Hz; [auto|auto].
        -- right. destruct K4 as [->|(p & C & D)]; [exists (z, m); split; [now left|auto]|exists p; split; [now right|auto]].
      * apply Rltb_false in Lt. destruct (IH r0) as (r & K1 & K2 & K3 & K4). exists r. split; [auto|]. split; [lra|]. split.
        -- intros p [<-|Hp] Hz; [cbn; lra|auto].
        -- destruct K4 as [->|(p & C & D)]; [now left|right; exists p; split; [now right|auto]].
    + destruct (IH r0) as (r & K1 & K2 & K3 & K4). exists r. split; [auto|]. split; [lra|]. split.
      * intros p [<-|Hp] Hz; [|auto]. exfalso. cbn [fst] in Hz. rewrite !Rleb_le in In_ by lra. discriminate.
      * destruct K4 as [->|(p & C & D)]; [now left|right; exists p; split; [now right|auto]].
Qed.

(** ** The range *)
(** both ends of the arrow of an object or image of this diameter *)
Definition arrow_within (d t : R) : Prop :=
  exists a b, arrow_ends (Fin d) = (Fin a, Fin b) /\ - t <= a <= t /\ - t <= b <= t.
Lemma arrow_within_ok d t : Rabs d / 2 <= t -> arrow_within d t.
Proof.
  intros H. exists (- d / 2), (- d / 2 + d). split; [unfold arrow_ends; change (nopp (Fin d)) with (Fin (- d)); rewrite half_fin; reflexivity|].
  unfold Rabs in H. destruct (Rcase_abs d); lra.
Qed.
Lemma ylim_fin r : ylim (Fin r) = (Fin (- (3 / 4 * r)), Fin (3 / 4 * r)).
Proof.
  unfold ylim. rewrite half_fin, ndec_fin by discriminate. cbn [nmul nopp NumXR xmul xopp].
  change (10 ^ 1)%Z with 10%Z. apply f_equal2; apply f_equal; lra.
Qed.
Theorem range_spec tan ds g lines oh rr m gs ps L :
  imagingDisplayRange tan ds g lines (Fin oh) = Ok rr ->
  0 <= oh -> maxRayHeight lines = Ok m -> graphics_loop tan ds m (Fin 0) = Ok gs -> Forall finite_graphic gs ->
  intermediateConjugates (grp_elem g) = Ok (map fin2 ps) -> mL (gmat g) = Fin L ->
  exists r t, rr = Fin r /\ ylim rr = (Fin (- t), Fin t) /\ t = 3 / 4 * r /\
    arrow_within oh t /\
    (forall p, In p ps -> 0 <= fst p <= L -> arrow_within (snd p * oh) t) /\
    (forall gr c q y, In gr gs -> In c (gr_comp gr) -> In q (xy c) -> snd q = Fin y -> - t <= y <= t) /\
    (r = oh \/ (exists gr h, In gr gs /\ as_tall_as gr h /\ r = 2 * h) \/
     exists p, In p ps /\ 0 <= fst p <= L /\ r = oh * Rabs (snd p)).
Proof.
  intros E Ho Em Eg F Ec EL. unfold imagingDisplayRange in E. rewrite Em in E. cbn [bind] in E.
  change (@c0 XR _) with (Fin 0) in E. rewrite Eg in E. cbn [bind] in E.
  destruct (tallest gs (Fin 0)) as [r0'|] eqn:Et; [|discriminate].
  destruct (tallest_fin gs 0 r0' F Et) as (r0 & -> & H1 & H2 & H3). cbn [bind] in E. rewrite Ec in E. cbn [bind] in E.
  change (neqb (Fin r0) ninf) with false in E. cbn [orb nleb NumXR xleb] in E. rewrite EL in E.
  assert (exists r1, (if Rleb r0 oh then Fin oh else Fin r0) = Fin r1 /\ r0 <= r1 /\ oh <= r1 /\ (r1 = oh \/ r1 = r0)) as (r1 & Er & A & B & C).
  { destruct (Rleb r0 oh) eqn:Le; [apply Rleb_true in Le; exists oh|]; [repeat split; auto; lra|].
    exists r0. split; [auto|]. split; [lra|]. split; [|auto]. destruct (Rle_dec r0 oh); [rewrite Rleb_le in Le by auto; discriminate|lra]. }
  rewrite Er in E. destruct (with_images_fin L oh ps r1) as (r & K1 & K2 & K3 & K4). rewrite K1 in E. injection E as <-.
  exists r, (3 / 4 * r). split; [auto|]. split; [apply ylim_fin|]. split; [auto|]. split; [|split; [|split]].
  - apply arrow_within_ok. rewrite Rabs_pos_eq by auto. lra.
  - intros p Hp Hz. apply arrow_within_ok. rewrite Rabs_mult, (Rabs_pos_eq oh) by auto. specialize (K3 p Hp Hz).
    assert (0 <= Rabs (snd p) * oh) by (apply Rmult_le_pos; [apply Rabs_pos|auto]). lra.
  - intros gr c q y Hg Hc Hq Ey. specialize (H2 gr c q y Hg Hc Hq Ey). unfold Rabs in H2. destruct (Rcase_abs y); lra.
  - destruct K4 as [->|K4]; [|auto]. destruct C as [->| ->]; [auto|]. destruct H3 as [->|H3]; [|auto]. left. lra.
Qed.

(** ** Paths of spaces, thin lenses and apertures have a range *)
Definition simple (d : drawable XR) : Prop :=
  match d with
  | DLens (LLeaf KSpace m) => exists l, mL m = Fin l
  | DLens (LLeaf (KLens f hh) m) => mL m = Fin 0 /\ (exists h, hh = Fin h /\ 0 < h) /\ (mdiam m = PInf \/ exists d, mdiam m = Fin d /\ 0 < d)
  | DLens (LLeaf KAperture m) => mL m = Fin 0 /\ exists d, mdiam m = Fin d /\ 0 < d
  | _ => False
  end.
Lemma reaches_finite h l x : Forall (reaches h) l -> finite_graphic (mkGraphic l x).
Proof.
  intros F c q Hc Hq. cbn [gr_comp] in Hc. rewrite Forall_forall in F. destruct (F c Hc) as [Fc _].
  rewrite Forall_forall in Fc. destruct (Fc q Hq) as (y & E & _). eauto.
Qed.
Definition sized (g : graphic XR) : Prop := finite_graphic g /\ exists h, halfHeight g = Ok (Fin h).
Lemma labelled_sized h l x : 0 <= h -> Forall (reaches h) l -> l <> [] -> exists g, labelled l x = Ok g /\ sized g.
Proof.
  intros H F Ne. destruct (labelled_reaches h l x H F Ne) as [E1 E2]. exists (mkGraphic l x). split; [auto|].
  split; [eapply reaches_finite; eauto|eauto].
Qed.
Lemma simple_graphic tan l x ms : simple (DLens l) ->
  exists o, GraphicOf tan l (Fin x) (Fin ms) = Ok o /\ match o with Some g => sized g | None => True end.
Proof.
  destruct l as [[]| | |]; cbn [simple]; try easy; intros S.
  - destruct S as (EL & (h & -> & Hh) & D). cbn [GraphicOf]. unfold LensGraphic, apertureComponents. rewrite EL.
    destruct D as [E|(d & E & Hd)]; rewrite E.
    + change (neqb PInf (@ninf XR _)) with true. cbn [andb negb].
      assert (exists k, (if nltb (Fin h) (Fin ms) then Fin ms else Fin h) = Fin k /\ 0 < k) as (k & -> & Hk).
      { cbn [nltb NumXR xltb]. destruct (Rltb h ms) eqn:Q; [apply Rltb_true in Q; exists ms; split; [auto|lra]|exists h; auto]. }
      assert (displayHalfHeight (Leaf (KLens f (Fin k)) m) = Fin k) as -> by (unfold displayHalfHeight; cbn [emat]; rewrite E; reflexivity).
      change (nmul (Fin k) c2) with (Fin (k * 2)).
      destruct (labelled_sized k [DoubleThinArrow (Fin (k * 2))] (Fin x)) as (g & E1 & E2); [lra| |discriminate|].
      { constructor; [apply arrow_reaches; lra|constructor]. }
      rewrite E1. eexists. split; [reflexivity|auto].
    + rewrite !diam_inf. cbn [andb negb].
      assert (displayHalfHeight (Leaf (KLens f (Fin h)) m) = Fin (d / 2)) as ->.
      { unfold displayHalfHeight. cbn [emat]. rewrite E, diam_inf. apply half_fin. }
      rewrite half_fin, c0_xr. change (nmul (Fin (d / 2)) c2) with (Fin (d / 2 * 2)).
      destruct (labelled_sized (d / 2) [DoubleThinArrow (Fin (d / 2 * 2)); ApertureBars (Fin (d / 2)) (Fin 0) (Fin 0)] (Fin x))
        as (g & E1 & E2); [lra| |discriminate|].
      { constructor; [apply arrow_reaches; lra|]. constructor; [apply reaches_bars; lra|constructor]. }
      rewrite E1. eexists. split; [reflexivity|auto].
  - exists None. split; [reflexivity|exact I].
  - destruct S as (EL & d & E & Hd). cbn [GraphicOf]. unfold ApertureGraphic, apertureComponents. rewrite E, diam_inf, EL, half_fin, c0_xr.
    destruct (labelled_sized (d / 2) [ApertureBars (Fin (d / 2)) (Fin 0) (Fin 0)] (Fin x)) as (g & E1 & E2); [lra| |discriminate|].
    { constructor; [apply reaches_bars; lra|constructor]. }
    cbn [negb]. rewrite E1. eexists. split; [reflexivity|auto].
Qed.
Lemma simple_length d : simple d -> exists l, drawable_L d = Fin l.
Proof. destruct d as [[[]| | |]| |]; cbn [simple drawable_L lens_mat]; try easy; [intros [-> _]; eauto|intros [-> _]; eauto]. Qed.
Lemma simple_graphics tan ms : forall ds z, Forall simple ds ->
  exists gs, graphics_loop tan ds (Fin ms) (Fin z) = Ok gs /\ Forall sized gs.
Proof.
  induction ds as [|d ds IH]; intros z F; cbn [graphics_loop]; [eauto|].
  inversion F as [|? ? S F']; subst. destruct (simple_length d S) as (l & ->). cbn [nadd NumXR xadd].
  destruct (IH (z + l) F') as (gs & E & K). destruct d as [o| |]; try (now cbn in S).
  destruct (simple_graphic tan o z ms S) as (og & Eo & Ko). rewrite Eo. cbn [bind]. rewrite E. cbn [bind].
  eexists. split; [reflexivity|]. apply Forall_app. split; [|auto]. destruct og; [constructor; auto|constructor].
Qed.
Lemma tallest_sized : forall gs r, Forall sized gs -> exists rr, tallest gs r = Ok rr.
Proof.
  induction gs as [|g gs IH]; intros r F; cbn [tallest]; [eauto|]. inversion F as [|? ? (_ & h & E) F']; subst.
  rewrite E. cbn [bind]. auto.
Qed.
Theorem range_exists tan ds g lines yss oh os : Forall simple ds -> Forall2 has_heights lines yss ->
  Forall2 (fun (x : @elem XR) o => describes (emat x) o) (transferMatrices (grp_elem g)) os -> chain os -> os <> [] ->
  exists rr m gs ps, imagingDisplayRange tan ds g lines (Fin oh) = Ok rr /\ maxRayHeight lines = Ok m /\
    graphics_loop tan ds m (Fin 0) = Ok gs /\ Forall finite_graphic gs /\
    intermediateConjugates (grp_elem g) = Ok (map fin2 ps).
Proof.
  intros S H HF HC Hne. destruct (maxRayHeight_spec lines yss H) as (m & M1 & _).
  destruct (simple_graphics tan m ds 0 S) as (gs & G1 & G2). destruct (tallest_sized gs (Fin 0) G2) as (r & R1).
  destruct (conjugates_spec _ os HF HC Hne) as (ps & P1 & _).
  eexists. exists (Fin m), gs, ps. split.
  { unfold imagingDisplayRange. rewrite M1. cbn [bind]. change (@c0 XR _) with (Fin 0). rewrite G1. cbn [bind]. rewrite R1. cbn [bind].
    rewrite P1. cbn [bind]. reflexivity. }
  split; [auto|]. split; [auto|]. split; [|auto]. eapply Forall_impl; [|exact G2]. now intros ? [].
Qed.

(** ** Laser figures *)
Theorem laser_range_spec tan ds lines w rr m gs :
  laserDisplayRange tan ds lines w = Ok rr -> maxRayHeight lines = Ok m -> graphics_loop tan ds m (Fin 0) = Ok gs ->
  Forall finite_graphic gs ->
  (exists r t, rr = Fin r /\ ylim rr = (Fin (- t), Fin t) /\ t = 3 / 4 * r /\
     (forall gr c q y, In gr gs -> In c (gr_comp gr) -> In q (xy c) -> snd q = Fin y -> - t <= y <= t) /\
     exists gr h, In gr gs /\ as_tall_as gr h /\ r = 2 * h) \/
  ((forall gr c q y, In gr gs -> In c (gr_comp gr) -> In q (xy c) -> snd q = Fin y -> y = 0) /\
   match w with Some w => rr = nmul w (Fin 3) | None => rr = Fin 100 end).
Proof.
  intros E Em Eg F. unfold laserDisplayRange in E. rewrite Em in E. cbn [bind] in E.
  change (@c0 XR _) with (Fin 0) in E. rewrite Eg in E. cbn [bind] in E.
  destruct (tallest gs (Fin 0)) as [r0'|] eqn:Et; [|discriminate].
  destruct (tallest_fin gs 0 r0' F Et) as (r & -> & H1 & H2 & H3). cbn [bind] in E.
  change (neqb (Fin r) ninf) with false in E. cbn [orb neqb NumXR xeqb] in E. destruct (Reqb r 0) eqn:Z.
  - right. assert (r = 0) as -> by (destruct (Req_dec r 0); [auto|rewrite Reqb_neq in Z by auto; discriminate]). split.
    + intros gr c q y Hg Hc Hq Ey. specialize (H2 gr c q y Hg Hc Hq Ey). unfold Rabs in H2. destruct (Rcase_abs y); lra.
    + destruct w; injection E as <-; reflexivity.
  - left. injection E as <-. exists r, (3 / 4 * r). split; [auto|]. split; [apply ylim_fin|]. split; [auto|]. split.
    + intros gr c q y Hg Hc Hq Ey. specialize (H2 gr c q y Hg Hc Hq Ey). unfold Rabs in H2. destruct (Rcase_abs y); lra.
    + destruct H3 as [->|H3]; [|auto]. rewrite Reqb_refl in Z. discriminate.
Qed.

(** ** Open lenses *)
Theorem open_lens_over_rays tan f hh m lines yss x :
  mdiam m = PInf -> 0 < hh -> Forall2 has_heights lines yss ->
  exists v g, maxRayHeight lines = Ok (Fin v) /\
    GraphicOf tan (LLeaf (KLens f (Fin hh)) m) (Fin x) (Fin v) = Ok (Some g) /\ halfHeight g = Ok (Fin (Rmax hh v)) /\
    (forall ys y, In ys yss -> In y ys -> y <= Rmax hh v) /\
    ((forall ys y, In ys yss -> In y ys -> exists zs, In zs yss /\ In (- y) zs) ->
     forall ys y, In ys yss -> In y ys -> Rabs y <= Rmax hh v).
Proof.
  intros Hm Hh F. destruct (maxRayHeight_spec lines yss F) as (v & H1 & H2 & H3 & _).
  destruct (open_lens_drawn tan f hh m x v Hm Hh) as (g & G1 & _ & G3 & _).
  exists v, g. split; [auto|]. split; [auto|]. split; [auto|]. split.
  - intros ys y A B. specialize (H3 ys y A B). pose proof (Rmax_r hh v). lra.
  - intros S ys y A B. pose proof (H3 ys y A B). destruct (S ys y A B) as (zs & C & D). pose proof (H3 zs (- y) C D).
    pose proof (Rmax_r hh v). unfold Rabs. destruct (Rcase_abs y); lra.
Qed.
