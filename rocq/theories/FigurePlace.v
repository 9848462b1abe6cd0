(** Where the elements of a path are drawn. *)
From Coq Require Import ZArith List Bool String Reals Lra Lia.
From Verif Require Import Base Nums Optics Drawing Figures MaterialsProofs FigureProofs.
Import ListNotations.
Open Scope R_scope.
Open Scope list_scope.
Local Notation pt a b := (Fin a, Fin b).

(** ** A graphic knows its position *)
Section Generic.
Context {T : Type} {N : Num T}.
Lemma labelled_x cs (x : T) g : labelled cs x = Ok g -> gr_x g = x.
Proof. unfold labelled. destruct (flat_map xy cs); [discriminate|]. destruct (halfHeight _); [|discriminate]. now intros [= <-]. Qed.
Lemma SurfacesGraphic_x tan ss h (x : T) g : SurfacesGraphic tan ss h x = Ok g -> gr_x g = x.
Proof.
  unfold SurfacesGraphic. destruct ss as [|a [|b t]]; cbn [pairs bind]; [discriminate| |].
  - destruct (SurfaceC _ _ _); [|discriminate]. apply labelled_x.
  - match goal with |- context [bind ?x _] => destruct x as [[|p ps]|]; try discriminate end. apply labelled_x.
Qed.
Lemma GraphicOf_x tan l (x ms : T) g : GraphicOf tan l x ms = Ok (Some g) -> gr_x g = x.
Proof.
  assert (forall r : res (graphic T), (forall g, r = Ok g -> gr_x g = x) -> (g' <- r;; Ok (Some g')) = Ok (Some g) -> gr_x g = x) as K.
  { intros [v|e] H; [|discriminate]. intros [= <-]. now apply H. }
  unfold GraphicOf. destruct l as [k m|m es|m es r1 r2 r3 t1 t2 n1 n2|m es r1 r2 t n]; [destruct k|..]; try discriminate;
    try (destruct (surfacesOf _ _) as [[|s ss]|]; [| |discriminate]; cbn [bind]);
    apply K; intros g'; apply labelled_x || apply SurfacesGraphic_x.
Qed.
End Generic.

(** ** Thin lenses and apertures *)
Lemma ndec_fin a k : (0 <= k)%Z -> @ndec XR _ a k = Fin (IZR a / IZR (10 ^ k)).
Proof. intros H. now apply ndec_xr. Qed.
Lemma half_fin d : ndiv (Fin d) (@c2 XR _) = Fin (d / 2).
Proof. cbn. destruct (Req_EM_T 2 0); [lra|reflexivity]. Qed.
Lemma diam_inf d : neqb (Fin d) (@ninf XR _) = false. Proof. reflexivity. Qed.

(** the two bars at the edges of an element of diameter d at x, when it has no thickness *)
Definition bars (sc x h : R) (cs : list (list (XR * XR))) : Prop :=
  line_in (pt (x - 5 / 1000 * sc) h) (pt (x + 5 / 1000 * sc) h) cs /\
  line_in (pt (x - 5 / 1000 * sc) (- h)) (pt (x + 5 / 1000 * sc) (- h)) cs.
Lemma ApertureBars_thin (h x : XR) : ApertureBars h x (Fin 0) =
  mkComp [[(nsub x (Fin (5/1000)), h); (nadd x (Fin (5/1000)), h)]; [(nsub x (Fin (5/1000)), nopp h); (nadd x (Fin (5/1000)), nopp h)]] false.
Proof.
  unfold ApertureBars. change (neqb (Fin 0) (@c0 XR _)) with (Reqb 0 0). rewrite Reqb_refl. cbn [negb].
  rewrite !ndec_fin by lia. change (10 ^ 2)%Z with 100%Z. change (10 ^ 3)%Z with 1000%Z.
  change (nleb (Fin (1 / 100)) (Fin (1 / 100))) with (Rleb (1/100) (1/100)). rewrite Rleb_le by lra. reflexivity.
Qed.
Lemma bars_drawn sc x h y cs0 : mkComp cs0 false = ApertureBars (Fin h) (Fin y) (Fin 0) ->
  bars sc (x + y * sc) h (map (map (place (Fin sc) (mkGraphic [] (Fin x)) (mkComp cs0 false))) cs0).
Proof.
  rewrite ApertureBars_thin. intros [= ->]. unfold bars, line_in. cbn [map In]. unfold place. cbn [co_fixed gr_x fst snd nadd nsub nopp nmul NumXR xadd xsub xopp xmul].
  split; left; [left|right; left];
    (apply f_equal2; [apply pt_eq; ring|apply f_equal2; [apply pt_eq; ring|reflexivity]]).
Qed.
Lemma place_any sc cs cs' x c p : @place XR _ sc (mkGraphic cs x) c p = place sc (mkGraphic cs' x) c p.
Proof. reflexivity. Qed.

Theorem aperture_drawn tan m d x ms : mdiam m = Fin d -> 0 < d -> mL m = Fin 0 ->
  exists g, GraphicOf tan (LLeaf KAperture m) (Fin x) ms = Ok (Some g) /\ gr_x g = Fin x /\ halfHeight g = Ok (Fin (d / 2)) /\
  forall sc, bars sc x (d / 2) (List.concat (drawn (Fin sc) g)).
Proof.
  intros Ed Hd EL. cbn [GraphicOf]. unfold ApertureGraphic, apertureComponents. rewrite Ed, diam_inf, EL, half_fin. cbn [negb].
  destruct (labelled_reaches (d / 2) [ApertureBars (Fin (d / 2)) c0 (Fin 0)] (Fin x)) as [E1 E2]; [lra| |discriminate|].
  { constructor; [|constructor]. rewrite c0_xr. apply reaches_bars. lra. }
  rewrite E1. cbn [bind]. eexists. split; [reflexivity|]. split; [reflexivity|]. split; [exact E2|].
  intros sc. rewrite c0_xr. cbn [drawn gr_comp map List.concat]. rewrite app_nil_r.
  pose proof (bars_drawn sc x (d / 2) 0) as K. rewrite ApertureBars_thin in *. cbn [co_curves].
  specialize (K _ eq_refl). replace (x + 0 * sc) with x in K by ring. exact K.
Qed.
Theorem open_aperture_fails tan (m : @mat XR) x ms : mdiam m = PInf -> GraphicOf tan (LLeaf KAperture m) x ms = Err IndexError.
Proof. intros E. cbn [GraphicOf]. unfold ApertureGraphic, apertureComponents. rewrite E. reflexivity. Qed.

(** a thin lens: the arrow spans its diameter, or at least the height that was asked for *)
Lemma arrow_reaches h : 0 < h -> reaches h (DoubleThinArrow (Fin (h * 2))).
Proof.
  intros Hh. assert (Rabs h = h) as A by (apply Rabs_right; lra). assert (Rabs (- h) = h) as B by (rewrite Rabs_Ropp; auto).
  unfold reaches, xy, DoubleThinArrow. rewrite half_fin. replace (h * 2 / 2) with h by lra.
  rewrite !ndec_fin by lia. change (10 ^ 2)%Z with 100%Z. rewrite half_fin.
  cbn [nsub nmul nopp NumXR xsub xadd xmul xopp co_curves linearBezierCurvesFrom app flat_map ends last].
  set (e := h + - (h * (12 / 100))). assert (0 < e < h) as He by (unfold e; lra).
  assert (Rabs e = e) as A' by (apply Rabs_right; lra). assert (Rabs (- e) = e) as B' by (rewrite Rabs_Ropp; auto).
  split.
  - repeat (constructor; [eexists; split; [reflexivity|]; rewrite ?A, ?B, ?A', ?B'; lra|]). constructor.
  - apply Exists_cons_hd. eexists. split; [reflexivity|exact B].
Qed.
Lemma arrow_line sc x h cs : line_in (pt x (- h)) (pt x h)
  (List.concat (drawn (Fin sc) (mkGraphic (DoubleThinArrow (Fin (h * 2)) :: cs) (Fin x)))).
Proof.
  left. cbn [drawn gr_comp map List.concat]. apply in_or_app. left. unfold DoubleThinArrow. rewrite half_fin.
  replace (h * 2 / 2) with h by lra. cbn [co_curves map]. left. unfold place.
  cbn [co_fixed gr_x fst snd nadd nmul nopp c0 NumXR xadd xmul xopp].
  apply f_equal2; [apply pt_eq; ring|apply f_equal2; [apply pt_eq; ring|reflexivity]].
Qed.
Theorem lens_drawn tan f hh m d x ms : mdiam m = Fin d -> 0 < d -> mL m = Fin 0 ->
  exists g, GraphicOf tan (LLeaf (KLens f hh) m) (Fin x) ms = Ok (Some g) /\ gr_x g = Fin x /\ halfHeight g = Ok (Fin (d / 2)) /\
  forall sc, line_in (pt x (- (d / 2))) (pt x (d / 2)) (List.concat (drawn (Fin sc) g)) /\ bars sc x (d / 2) (List.concat (drawn (Fin sc) g)).
Proof.
  intros Ed Hd EL. cbn [GraphicOf]. unfold LensGraphic, apertureComponents. rewrite Ed, !diam_inf, EL. cbn [andb negb].
  assert (displayHalfHeight (Leaf (KLens f hh) m) = Fin (d / 2)) as Eh.
  { unfold displayHalfHeight. cbn [emat]. rewrite Ed, diam_inf. cbn [negb]. apply half_fin. }
  rewrite Eh, half_fin, c0_xr. change (nmul (Fin (d / 2)) c2) with (Fin (d / 2 * 2)).
  destruct (labelled_reaches (d / 2) [DoubleThinArrow (Fin (d / 2 * 2)); ApertureBars (Fin (d / 2)) (Fin 0) (Fin 0)] (Fin x)) as [E1 E2]; [lra| |discriminate|].
  { constructor; [apply arrow_reaches; lra|]. constructor; [|constructor]. apply reaches_bars. lra. }
  rewrite E1. cbn [bind]. eexists. split; [reflexivity|]. split; [reflexivity|]. split; [exact E2|].
  intros sc. split; [apply arrow_line|]. cbn [drawn gr_comp map List.concat].
  pose proof (bars_drawn sc x (d / 2) 0) as K. rewrite ApertureBars_thin in *. cbn [co_curves].
  specialize (K _ eq_refl). replace (x + 0 * sc) with x in K by ring. rewrite app_nil_r.
  destruct K as [K1 K2]. split; [destruct K1 as [K1|K1]|destruct K2 as [K2|K2]]; [left|right|left|right]; apply in_or_app; right; assumption.
Qed.
Theorem open_lens_drawn tan f hh m x ms : mdiam m = PInf -> 0 < hh ->
  exists g, GraphicOf tan (LLeaf (KLens f (Fin hh)) m) (Fin x) (Fin ms) = Ok (Some g) /\ gr_x g = Fin x /\ halfHeight g = Ok (Fin (Rmax hh ms)) /\
  forall sc, line_in (pt x (- Rmax hh ms)) (pt x (Rmax hh ms)) (List.concat (drawn (Fin sc) g)).
Proof.
  intros Ed Hh. cbn [GraphicOf]. unfold LensGraphic, apertureComponents. rewrite Ed. change (neqb PInf (@ninf XR _)) with true. cbn [andb negb].
  assert ((if nltb (Fin hh) (Fin ms) then Fin ms else Fin hh) = Fin (Rmax hh ms)) as ->.
  { change (nltb (Fin hh) (Fin ms)) with (Rltb hh ms). unfold Rmax. destruct (Rle_dec hh ms) as [L|L].
    - destruct (Rle_lt_or_eq_dec _ _ L) as [L'| ->]; [rewrite Rltb_lt by auto; reflexivity|]. destruct (Rltb ms ms); reflexivity.
    - rewrite Rltb_ge by lra. reflexivity. }
  assert (displayHalfHeight (Leaf (KLens f (Fin (Rmax hh ms))) m) = Fin (Rmax hh ms)) as ->.
  { unfold displayHalfHeight. cbn [emat]. rewrite Ed. reflexivity. }
  assert (0 < Rmax hh ms) as Hp by (pose proof (Rmax_l hh ms); lra).
  change (nmul (Fin (Rmax hh ms)) c2) with (Fin (Rmax hh ms * 2)).
  destruct (labelled_reaches (Rmax hh ms) [DoubleThinArrow (Fin (Rmax hh ms * 2))] (Fin x)) as [E1 E2]; [lra| |discriminate|].
  { constructor; [apply arrow_reaches; lra|constructor]. }
  rewrite E1. cbn [bind]. eexists. split; [reflexivity|]. split; [reflexivity|]. split; [exact E2|]. intros sc. apply arrow_line.
Qed.

(** ** A matrix that is not one of the elements above: its box *)
Definition box (a b h : R) : list (list (XR * XR)) :=
  [[pt a (- h); pt a h]; [pt a h; pt b h]; [pt b h; pt b (- h)]; [pt b (- h); pt a (- h)]].
Lemma rectangle_reaches x l h : 0 < h -> reaches h (Rectangle (Fin x) (Fin (- h)) (Fin l) (Fin (2 * h))).
Proof.
  intros Hh. assert (Rabs h = h) as A by (apply Rabs_right; lra). assert (Rabs (- h) = h) as B by (rewrite Rabs_Ropp; auto).
  unfold reaches, xy, Rectangle. cbn [nadd NumXR xadd co_curves linearBezierCurvesFrom flat_map ends last app].
  replace (- h + 2 * h) with h by ring.
  split.
  - repeat (constructor; [eexists; split; [reflexivity|]; rewrite ?A, ?B; lra|]). constructor.
  - apply Exists_cons_hd. eexists. split; [reflexivity|exact B].
Qed.
Theorem matrix_drawn_twice_as_far tan m d l x ms : mdiam m = Fin d -> 0 < d -> mL m = Fin l ->
  exists g, GraphicOf tan (LLeaf KMatrix m) (Fin x) ms = Ok (Some g) /\ gr_x g = Fin x /\ halfHeight g = Ok (Fin (d / 2)) /\
  forall sc, hd_error (drawn sc g) = Some (box (2 * x) (2 * x + l) (d / 2)).
Proof.
  intros Ed Hd EL. cbn [GraphicOf surfacesOf surfaces forwardSurfaces bind lens_mat].
  assert ((if mflip m then turn_all (rev []) else @nil (@surface XR)) = []) as -> by (destruct (mflip m); reflexivity).
  unfold MatrixGraphic, rectangle, apertureComponents. rewrite Ed, half_fin, !diam_inf, EL. cbn [negb].
  change (nopp (Fin (d / 2))) with (Fin (- (d / 2))). change (nmul (@c2 XR _) (Fin (d / 2))) with (Fin (2 * (d / 2))). rewrite c0_xr.
  match goal with |- context [labelled ?cs _] => destruct (labelled_reaches (d / 2) cs (Fin x)) as [E1 E2] end; [lra| |discriminate|].
  { constructor; [apply rectangle_reaches; lra|]. constructor; [|constructor]. apply reaches_bars. lra. }
  rewrite E1. cbn [bind]. eexists. split; [reflexivity|]. split; [reflexivity|]. split; [exact E2|].
  intros sc. cbn [drawn gr_comp map hd_error]. unfold Rectangle, box. cbn [co_curves linearBezierCurvesFrom map]. unfold place.
  cbn [co_fixed gr_x fst snd nadd NumXR xadd]. replace (- (d / 2) + 2 * (d / 2)) with (d / 2) by field.
  replace (x + x) with (2 * x) by ring. replace (x + l + x) with (2 * x + l) by ring. reflexivity.
Qed.

(** ** The figure: every element that is not a space is drawn, at the sum of the lengths before it *)
Fixpoint run (ls : list R) : R := match ls with [] => 0 | a :: t => a + run t end.
Definition has_length (d : drawable XR) (l : R) : Prop := drawable_L d = Fin l.
Definition is_space (l : @lens_kind XR) : bool := match l with LLeaf KSpace _ => true | _ => false end.
Lemma GraphicOf_none tan l x ms : GraphicOf tan l x ms = Ok None -> is_space l = true.
Proof.
  unfold GraphicOf. destruct l as [k m|m es|m es r1 r2 r3 t1 t2 n1 n2|m es r1 r2 t n]; [destruct k|..]; try reflexivity;
  try (destruct (surfacesOf _ _) as [[|s ss]|]; [| |discriminate]; cbn [bind]);
  match goal with |- bind ?x _ = _ -> _ => destruct x; discriminate end.
Qed.
Theorem lens_in_figure tan ms pre l post : forall ls z gs, Forall2 has_length pre ls ->
  graphics_loop tan (pre ++ DLens l :: post) ms (Fin z) = Ok gs -> is_space l = false ->
  exists g, In g gs /\ GraphicOf tan l (Fin (z + run ls)) ms = Ok (Some g) /\ gr_x g = Fin (z + run ls).
Proof.
  induction pre as [|p pre IH]; intros ls z gs F H Hs.
  - inversion F; subst. cbn [app graphics_loop] in H. cbn [run]. rewrite Rplus_0_r.
    destruct (GraphicOf tan l (Fin z) ms) as [[g|]|] eqn:E; cbn [bind] in H; [| |discriminate].
    + destruct (graphics_loop tan post _ _); [|discriminate]. injection H as <-. exists g.
      split; [left; reflexivity|]. split; [reflexivity|]. eapply GraphicOf_x; eauto.
    + apply GraphicOf_none in E. congruence.
  - inversion F as [|? a ? ls' Ha F']; subst. cbn [app graphics_loop] in H.
    match type of H with bind ?x _ = _ => destruct x as [g0|]; [|discriminate] end. cbn [bind] in H.
    unfold has_length in Ha. rewrite Ha in H. change (nadd (Fin z) (Fin a)) with (Fin (z + a)) in H.
    destruct (graphics_loop tan (pre ++ DLens l :: post) ms (Fin (z + a))) as [r|] eqn:E; [|discriminate]. injection H as <-.
    destruct (IH ls' (z + a) r F' E Hs) as (g & Hg & H1 & H2). exists g. cbn [run].
    replace (z + (a + run ls')) with (z + a + run ls') by ring. split; [apply in_or_app; now right|auto].
Qed.
(** the elements of a group that is drawn one by one *)
Definition elem_length (e : @elem XR) (l : R) : Prop := mL (emat e) = Fin l.
Lemma standAlone_in tan pre k m post : forall ls z gs, Forall2 elem_length pre ls ->
  standAloneGraphics tan (pre ++ Leaf k m :: post) (Fin z) = Ok gs -> is_space (LLeaf k m) = false ->
  exists g, In g gs /\ GraphicOf tan (LLeaf k m) (Fin (z + run ls)) c0 = Ok (Some g) /\ gr_x g = Fin (z + run ls).
Proof.
  induction pre as [|p pre IH]; intros ls z gs F H Hs.
  - inversion F; subst. cbn [app standAloneGraphics] in H. cbn [run]. rewrite Rplus_0_r.
    destruct (GraphicOf tan (LLeaf k m) (Fin z) c0) as [[g|]|] eqn:E; cbn [bind] in H; [| |discriminate].
    + destruct (standAloneGraphics tan post _); [|discriminate]. injection H as <-. exists g.
      split; [left; reflexivity|]. split; [reflexivity|]. eapply GraphicOf_x; eauto.
    + apply GraphicOf_none in E. congruence.
  - inversion F as [|? a ? ls' Ha F']; subst. cbn [app standAloneGraphics] in H.
    match type of H with bind ?x _ = _ => destruct x as [g0|]; [|discriminate] end. cbn [bind] in H.
    unfold elem_length in Ha. rewrite Ha in H. change (nadd (Fin z) (Fin a)) with (Fin (z + a)) in H.
    destruct (standAloneGraphics tan (pre ++ Leaf k m :: post) (Fin (z + a))) as [r|] eqn:E; [|discriminate]. injection H as <-.
    destruct (IH ls' (z + a) r F' E Hs) as (g & Hg & H1 & H2). exists g. cbn [run].
    replace (z + (a + run ls')) with (z + a + run ls') by ring. split; [destruct g0; [right|]; exact Hg|auto].
Qed.
Theorem elem_in_group_in_figure tan ms pre mg epre k m epost post : forall ls es_ls z gs, Forall2 has_length pre ls -> Forall2 elem_length epre es_ls ->
  graphics_loop tan (pre ++ DGroup mg (epre ++ Leaf k m :: epost) :: post) ms (Fin z) = Ok gs -> is_space (LLeaf k m) = false ->
  exists g, In g gs /\ GraphicOf tan (LLeaf k m) (Fin (z + run ls + run es_ls)) c0 = Ok (Some g) /\ gr_x g = Fin (z + run ls + run es_ls).
Proof.
  induction pre as [|p pre IH]; intros ls es_ls z gs F Fe H Hs.
  - inversion F; subst. cbn [app graphics_loop] in H. cbn [run]. rewrite Rplus_0_r.
    destruct (MatrixGroupGraphic mg _ (Fin z)); [|discriminate]. cbn [bind] in H.
    change (nadd c0 (Fin z)) with (Fin (0 + z)) in H. rewrite Rplus_0_l in H.
    destruct (standAloneGraphics tan (epre ++ Leaf k m :: epost) (Fin z)) as [r|] eqn:E; [|discriminate]. cbn [bind] in H.
    destruct (graphics_loop tan post _ _); [|discriminate]. injection H as <-.
    destruct (standAlone_in tan epre k m epost es_ls z r Fe E Hs) as (g & Hg & H1 & H2).
    exists g. split; [apply in_or_app; now left|auto].
  - inversion F as [|? a ? ls' Ha F']; subst. cbn [app graphics_loop] in H.
    match type of H with bind ?x _ = _ => destruct x as [g0|]; [|discriminate] end. cbn [bind] in H.
    unfold has_length in Ha. rewrite Ha in H. change (nadd (Fin z) (Fin a)) with (Fin (z + a)) in H.
    match type of H with bind ?x _ = _ => destruct x as [r|] eqn:E; [|discriminate] end. injection H as <-.
    destruct (IH ls' es_ls (z + a) r F' Fe E Hs) as (g & Hg & H1 & H2). exists g. cbn [run].
    replace (z + (a + run ls')) with (z + a + run ls') by ring. split; [apply in_or_app; now right|auto].
Qed.
Lemma group_drawn m es d l x : largestDiameter (Group GGroup m es) = Fin d -> 0 < d -> mL m = Fin l ->
  exists g, @MatrixGroupGraphic XR _ m es (Fin x) = Ok g /\ halfHeight g = Ok (Fin (d / 2)).
Proof.
  intros Ed Hd EL. unfold MatrixGroupGraphic, rectangle. rewrite Ed, half_fin, !diam_inf, EL.
  change (nopp (Fin (d / 2))) with (Fin (- (d / 2))). change (nmul (@c2 XR _) (Fin (d / 2))) with (Fin (2 * (d / 2))).
  match goal with |- context [labelled ?cs _] => destruct (labelled_reaches (d / 2) cs (Fin x)) as [E1 E2] end; [lra| |discriminate|].
  { constructor; [apply rectangle_reaches; lra|constructor]. }
  rewrite E1. eexists. split; [reflexivity|exact E2].
Qed.
(** nothing else is drawn: as many graphics as elements that are not spaces *)
Definition graphics_of (d : drawable XR) : nat :=
  match d with
  | DLens l => if is_space l then 0%nat else 1%nat
  | DObjective _ _ _ _ _ _ _ => 1%nat
  | DGroup _ es => List.length (filter (fun e => match e with Leaf KSpace _ => false | _ => true end) es)
  end.
Lemma standAlone_count tan : forall es z gs, @standAloneGraphics XR _ tan es z = Ok gs ->
  List.length gs = List.length (filter (fun e => match e with Leaf KSpace _ => false | _ => true end) es).
Proof.
  induction es as [|e t IH]; intros z gs H; cbn [standAloneGraphics] in H; [injection H as <-; reflexivity|].
  match type of H with bind ?x _ = _ => destruct x as [g|] eqn:Eg; [|discriminate] end. cbn [bind] in H.
  match type of H with bind ?x _ = _ => destruct x as [r|] eqn:Er; [|discriminate] end. injection H as <-. specialize (IH _ _ Er).
  destruct e as [k m|gk m es'].
  - destruct g as [g|].
    + destruct k; cbn [filter List.length]; rewrite ?IH; try reflexivity. discriminate.
    + apply GraphicOf_none in Eg. destruct k; try discriminate. cbn [filter]. exact IH.
  - destruct (MatrixGroupGraphic m es' z); [|discriminate]. injection Eg as <-. cbn [filter List.length]. now rewrite IH.
Qed.
Theorem figure_count tan ms : forall ds z gs, graphics_loop tan ds ms z = Ok gs -> List.length gs = list_sum (map graphics_of ds).
Proof.
  induction ds as [|d t IH]; intros z gs H; cbn [graphics_loop] in H; [injection H as <-; reflexivity|].
  match type of H with bind ?x _ = _ => destruct x as [g0|] eqn:Eg; [|discriminate] end. cbn [bind] in H.
  destruct (graphics_loop tan t ms _) as [r|] eqn:E; [|discriminate]. injection H as <-.
  rewrite app_length, (IH _ _ E). cbn [map]. change (list_sum (graphics_of d :: map graphics_of t)) with (graphics_of d + list_sum (map graphics_of t))%nat. f_equal.
  destruct d as [l|m es|m es ftf wd back front na]; cbn [graphics_of].
  - destruct (GraphicOf tan l z ms) as [[g|]|] eqn:Ex; cbn [bind] in Eg; [| |discriminate]; injection Eg as <-.
    + destruct (is_space l) eqn:Es; [|reflexivity]. destruct l as [k m| | |]; try discriminate. destruct k; discriminate.
    + apply GraphicOf_none in Ex. rewrite Ex. reflexivity.
  - destruct (MatrixGroupGraphic m es z); [|discriminate]. cbn [bind] in Eg. eapply standAlone_count; eauto.
  - match type of Eg with bind ?x _ = _ => destruct x; [|discriminate] end. injection Eg as <-. reflexivity.
Qed.

(** ** Objectives *)
(** the outline: the back face at its distance and height, the front face at its own *)
Definition polygon (l : list (R * R)) : list (list (XR * XR)) :=
  @linearBezierCurvesFrom XR (map (fun p => pt (fst p) (snd p)) l).
Lemma objective_outline_ok ftf wd back front na fl : na <> 0 ->
  let h := back / 2 in let s := ftf - back / 2 / na in
  objective_outline (Fin ftf) (Fin wd) (Fin back) (Fin front) (Fin na) fl =
  Ok (map (fun p => pt (if fl then ftf - fst p else fst p) (snd p))
        [(0, h); (s, h); (ftf - wd, front / 2); (ftf - wd, - (front / 2)); (s, - h); (0, - h); (0, h)]).
Proof.
  intros Hn h s. unfold objective_outline. rewrite !half_fin, pdiv_fin by auto. cbn [bind].
  destruct fl; cbn [map fst snd nsub nadd nopp c0 NumXR xsub xadd xopp]; apply f_equal.
  - unfold s, h, Rminus. repeat (apply f_equal2; [apply pt_eq; ring|]). reflexivity.
  - unfold s, h, Rminus. repeat (apply f_equal2; [apply pt_eq; ring|]). reflexivity.
Qed.
(** what the bars of an objective show: the diameter of the group, and distances multiplied by the zoom factor *)
Lemma objective_bars_drawn sc x back : forall pre e post ls z c d, Forall2 (fun e l => mL (@emat XR e) = Fin l) pre ls ->
  mdiam (emat e) = Fin d -> mL (emat e) = Fin 0 -> 0 < back ->
  bars sc (x + (z + run ls) * sc) (back / 2)
    (List.concat (drawn (Fin sc) (mkGraphic (c :: objective_bars (pre ++ e :: post) (Fin back) (Fin z)) (Fin x)))).
Proof.
  intros pre e post ls z c d F Ed EL Hb.
  assert (exists cs0, In (mkComp cs0 false) (objective_bars (pre ++ e :: post) (Fin back) (Fin z)) /\
            mkComp cs0 false = ApertureBars (Fin (back / 2)) (Fin (z + run ls)) (Fin 0)) as (cs0 & Hi & E0).
  { revert ls z F. induction pre as [|p pre IH]; intros ls z F.
    - inversion F; subst. cbn [app objective_bars run]. rewrite Ed, diam_inf, EL, half_fin, Rplus_0_r. cbn [negb app].
      eexists. split; [left; apply ApertureBars_thin|symmetry; apply ApertureBars_thin].
    - inversion F as [|? a ? ls' Ha F']; subst. cbn [app objective_bars run]. rewrite Ha.
      change (nadd (Fin z) (Fin a)) with (Fin (z + a)). destruct (IH ls' (z + a) F') as (cs0 & Hi & E0). exists cs0.
      replace (z + (a + run ls')) with (z + a + run ls') by ring. split; [apply in_or_app; now right|exact E0]. }
  pose proof (bars_drawn sc x (back / 2) (z + run ls) cs0 E0) as K.
  assert (incl (map (map (place (Fin sc) (mkGraphic [] (Fin x)) (mkComp cs0 false))) cs0)
     (List.concat (drawn (Fin sc) (mkGraphic (c :: objective_bars (pre ++ e :: post) (Fin back) (Fin z)) (Fin x))))) as I.
  { intros cv Hc. apply in_concat. eexists. split; [|exact Hc]. unfold drawn. cbn [gr_comp]. apply in_map_iff.
    exists (mkComp cs0 false). split; [reflexivity|now right]. }
  destruct K as [K1 K2]. split; [destruct K1 as [K1|K1]|destruct K2 as [K2|K2]]; [left|right|left|right]; apply I; assumption.
Qed.
