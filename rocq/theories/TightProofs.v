(** Membership of rays, apertures of groups, and the outlines of lens arrows and axicons. *)
From Coq Require Import Reals Lra List Bool String ZArith Lia.
From Verif Require Import Base Nums Optics Group RaysModel TraceProofs Drawing Figures MaterialsProofs FigureProofs FigurePlace.
Import ListNotations.
Open Scope list_scope.

(** ** [x in rays] *)
Section Member.
Context {T : Type} {N : Num T}.
Lemma member_from : forall fuel x (s : @stats T) k, s_pos s = Z.of_nat k -> (k <= List.length (s_rays s))%nat ->
  (List.length (s_rays s) - k < fuel)%nat ->
  fst (member_loop fuel x s) = existsb (fun r => ray_eqb r x) (skipn k (s_rays s)) /\
  s_rays (snd (member_loop fuel x s)) = s_rays s.
Proof.
  induction fuel as [|fuel IH]; intros x s k Hp Hk Hf; [lia|]. cbn [member_loop]. unfold stats_next. rewrite Hp.
  destruct (Z.ltb_spec (Z.of_nat k) (Z.of_nat (List.length (s_rays s)))) as [Hl|Hl].
  - rewrite Nat2Z.id. destruct (nth_error (s_rays s) k) as [r|] eqn:E; [|apply nth_error_None in E; lia].
    assert (skipn k (s_rays s) = r :: skipn (S k) (s_rays s)) as ->.
    { clear - E. revert k E. induction (s_rays s) as [|a l IH]; intros [|k] E; try discriminate; cbn in *.
      - now injection E as ->.
      - now apply IH. }
    cbn [existsb]. destruct (ray_eqb r x); [split; reflexivity|]. cbn [orb].
    set (s1 := mkStats _ _ _ _ _ _ _ _). specialize (IH x s1 (S k)). subst s1. cbn [s_pos s_rays] in IH. apply IH; lia.
  - rewrite skipn_all2 by lia. split; reflexivity.
Qed.
Theorem member_spec x (s : @stats T) :
  fst (member x s) = existsb (fun r => ray_eqb r x) (s_rays s) /\ s_rays (snd (member x s)) = s_rays s.
Proof. unfold member. apply (member_from _ x (stats_iter s) 0); cbn [stats_iter s_pos s_rays]; lia. Qed.

(** ** Finite apertures *)
Theorem finite_leaves (e : @elem T) : hasFiniteApertureDiameter e = true <->
  exists k m, In (k, m) (leaves e) /\ neqb (mdiam m) ninf = false.
Proof.
  revert e. fix IH 1. intros [k m|g m es]; cbn [hasFiniteApertureDiameter leaves].
  - rewrite negb_true_iff. split; [intros H; exists k, m; split; [now left|exact H]|].
    intros (k' & m' & [E|[]] & Hm). injection E as <- <-. exact Hm.
  - induction es as [|e es IHes]; cbn [existsb flat_map].
    + split; [discriminate|]. intros (k' & m' & [] & _).
    + rewrite orb_true_iff, (IH e), IHes. split.
      * intros [(k' & m' & H1 & H2)|(k' & m' & H1 & H2)]; exists k', m'; (split; [apply in_or_app; tauto|exact H2]).
      * intros (k' & m' & H1 & H2). apply in_app_or in H1 as [H1|H1]; [left|right]; now exists k', m'.
Qed.
End Member.

(** ** The arrow of a lens *)
Open Scope R_scope.
Local Notation pt a b := (Fin a, Fin b).
Theorem lens_arrow h : 0 < h -> let c := DoubleThinArrow (Fin (h * 2)) in
  In [pt 0 (- h); pt 0 h] (co_curves c) /\
  (exists w y, 0 < w /\ 0 < y < h /\
     (forall s, s = 1 \/ s = -1 -> In [pt (- w) (s * y); pt 0 (s * h)] (co_curves c) /\ In [pt 0 (s * h); pt w (s * y)] (co_curves c)) /\
     forall p, In p (xy c) -> exists u v, p = pt u v /\ ((u = 0 /\ (v = h \/ v = - h)) \/ ((u = w \/ u = - w) /\ (v = y \/ v = - y)))).
Proof.
  intros Hh c. assert (Ec : co_curves c = [[pt 0 (- h); pt 0 h]; [pt (- (1 / 200)) (h - h * (12 / 100)); pt 0 h]; [pt 0 h; pt (1 / 200) (h - h * (12 / 100))];
    [pt (- (1 / 200)) (- (h - h * (12 / 100))); pt 0 (- h)]; [pt 0 (- h); pt (1 / 200) (- (h - h * (12 / 100)))]]).
  { unfold c, DoubleThinArrow. rewrite half_fin, !ndec_fin by lia. rewrite half_fin.
    change (10 ^ 2)%Z with 100%Z. change (@c0 XR _) with (Fin 0). cbn [nmul nsub nopp NumXR xmul xsub xadd xopp co_curves linearBezierCurvesFrom app].
    replace (h * 2 / 2) with h by lra. replace (1 / 100 / 2) with (1 / 200) by lra. reflexivity. }
  unfold xy. rewrite Ec. split; [now left|]. exists (1 / 200), (h - h * (12 / 100)). split; [lra|]. split; [lra|]. split.
  - intros s [->| ->].
    + rewrite !Rmult_1_l. split; [right; left; reflexivity|right; right; left; reflexivity].
    + replace (-1 * (h - h * (12 / 100))) with (- (h - h * (12 / 100))) by ring. replace (-1 * h) with (- h) by ring.
      split; [do 3 right; left; reflexivity|do 4 right; left; reflexivity].
  - intros p H. cbn [flat_map ends last app In] in H.
    repeat (destruct H as [<-|H]; [eexists _, _; split; [reflexivity|]; tauto|]). contradiction.
Qed.

(** ** Axicons *)
(** half of the height an element is drawn with *)
Definition drawn_half (m : @mat XR) (h : R) : Prop := (exists d, mdiam m = Fin d /\ h = d / 2) \/ (mdiam m = PInf /\ h = 4).
Lemma drawn_half_is n alpha m h : drawn_half m h -> displayHalfHeightOf (LLeaf (KAxicon n alpha) m) = Fin h.
Proof.
  unfold displayHalfHeightOf, displayHalfHeight. cbn [lens_mat]. intros [(d & E & ->)|[E ->]]; rewrite E.
  - change (negb (neqb (Fin d) ninf)) with true. cbn iota. apply half_fin.
  - reflexivity.
Qed.
(** the outline of an axicon: a triangle with its flat side at [flat] and its tip at [tip] *)
Definition triangle (flat tip h : R) (c : component XR) : Prop :=
  (In [pt flat (- h); pt flat h] (co_curves c) \/ In [pt flat h; pt flat (- h)] (co_curves c)) /\
  (In [pt flat h; pt tip 0] (co_curves c) \/ In [pt tip 0; pt flat h] (co_curves c)) /\
  (In [pt flat (- h); pt tip 0] (co_curves c) \/ In [pt tip 0; pt flat (- h)] (co_curves c)) /\
  forall p, In p (xy c) -> p = pt flat h \/ p = pt flat (- h) \/ p = pt tip 0.
Lemma triangle_reaches flat tip h c : 0 < h -> triangle flat tip h c -> reaches h c.
Proof.
  intros Hh (H1 & _ & _ & H4). assert (Rabs h = h) as A by (apply Rabs_right; lra). assert (Rabs (- h) = h) as B by (rewrite Rabs_Ropp; auto).
  split.
  - apply Forall_forall. intros p Hp. destruct (H4 p Hp) as [->|[->| ->]]; cbn [snd]; eexists; (split; [reflexivity|]);
      rewrite ?A, ?B, ?Rabs_R0; lra.
  - apply Exists_exists. exists (pt flat h). split; [|exists h; split; [reflexivity|exact A]].
    unfold xy. apply in_flat_map. destruct H1 as [H1|H1]; eexists; (split; [exact H1|]); cbn; tauto.
Qed.
(** the axicon with its flat side towards the light, and turned around *)
Theorem axicon_drawn tan n alpha m h x ms ta : drawn_half m h -> 0 < h -> tan (Fin alpha) = Fin ta ->
  let t := - (ta * h) in
  exists g outline bars, GraphicOf tan (LLeaf (KAxicon n (Fin alpha)) m) (Fin x) ms = Ok (Some g) /\
    gr_comp g = [outline; bars] /\ gr_x g = Fin x /\ halfHeight g = Ok (Fin h) /\
    triangle (if mflip m then t else 0) (if mflip m then 0 else t) h outline.
Proof.
  intros Hd Hh Ht t. cbn [GraphicOf surfacesOf]. rewrite (drawn_half_is _ _ _ _ Hd), Ht.
  change (nopp (nmul (Fin ta) (Fin h))) with (Fin t). change (@c0 XR _) with (Fin 0).
  assert (Fi : isfinite (Fin h) = true).
  { unfold isfinite. cbn [nsub NumXR xsub xadd xopp neqb xeqb c0 nofZ]. replace (h + - h) with 0 by ring. apply Reqb_true. reflexivity. }
  destruct (mflip m) eqn:Fl.
  - cbn [rev app turn_all bind]. unfold SurfacesGraphic. cbn [pairs]. unfold SurfacePair. rewrite Fi. cbn [negb].
    unfold turn, FlatInterface. cbn [su_shape su_n su_L getPathA]. rewrite Ht. cbn [bind getPathB su_shape su_L].
    assert (A1 : nsub c0 (nmul (Fin ta) (Fin h)) = Fin t) by (cbn; unfold t; f_equal; ring).
    assert (A2 : nadd c0 (Fin t) = Fin t) by (cbn; f_equal; ring).
    rewrite A1, A2, c0_xr. cbn [fst snd map pa_comp last pa_last pa_first app nopp nsub NumXR xopp xsub xadd bind].
    set (outline := mkComp _ true). set (bars := ApertureBars _ _ _).
    assert (Tr : triangle t 0 h outline).
    { unfold outline. split; [|split; [|split]].
      - right. cbn. tauto.
      - right. cbn. tauto.
      - left. cbn. tauto.
      - intros p Hp. unfold xy in Hp. cbn [co_curves flat_map ends last app In] in Hp.
        repeat (destruct Hp as [<-|Hp]; [tauto|]). contradiction. }
    destruct (labelled_reaches h [outline; bars] (Fin x)) as [E1 E2]; [lra| |discriminate|].
    { constructor; [exact (triangle_reaches _ _ _ _ Hh Tr)|]. constructor; [|constructor]. now apply reaches_bars. }
    rewrite E1. cbn [bind]. eexists _, outline, bars. split; [reflexivity|]. split; [reflexivity|]. split; [reflexivity|]. split; [exact E2|exact Tr].
  - cbn [bind]. unfold SurfacesGraphic. cbn [pairs]. unfold SurfacePair. rewrite Fi. cbn [negb].
    unfold FlatInterface. cbn [su_shape su_n su_L getPathA bind getPathB]. rewrite Ht. cbn [bind].
    assert (A2 : nadd c0 (Fin t) = Fin t) by (cbn; f_equal; ring).
    assert (A3 : nadd (Fin t) (nmul (Fin ta) (Fin h)) = Fin 0) by (cbn; unfold t; f_equal; ring).
    rewrite A2, A3, c0_xr.
    cbn [fst snd map pa_comp last pa_last pa_first app nopp nsub NumXR xopp xsub xadd bind].
    set (outline := mkComp _ true). set (bars := ApertureBars _ _ _).
    assert (Tr : triangle 0 t h outline).
    { unfold outline. split; [|split; [|split]].
      - left. cbn. tauto.
      - left. cbn. tauto.
      - right. cbn. tauto.
      - intros p Hp. unfold xy in Hp. cbn [co_curves flat_map ends last app In] in Hp.
        repeat (destruct Hp as [<-|Hp]; [tauto|]). contradiction. }
    destruct (labelled_reaches h [outline; bars] (Fin x)) as [E1 E2]; [lra| |discriminate|].
    { constructor; [exact (triangle_reaches _ _ _ _ Hh Tr)|]. constructor; [|constructor]. now apply reaches_bars. }
    rewrite E1. cbn [bind]. eexists _, outline, bars. split; [reflexivity|]. split; [reflexivity|]. split; [reflexivity|]. split; [exact E2|exact Tr].
Qed.

(** ** The first two for the real numbers *)
Lemma xeqb_fin (a : XR) (y : R) : neqb a (Fin y) = true <-> a = Fin y.
Proof. destruct a; cbn; split; try discriminate. { intros H. f_equal. now apply Reqb_true. } intros E. injection E as ->. now apply Reqb_true. Qed.
Theorem member_real (x : @ray XR) s y th : ry x = Fin y -> rth x = Fin th ->
  (fst (member x s) = true <-> exists r, In r (s_rays s) /\ ry r = Fin y /\ rth r = Fin th) /\
  s_rays (snd (member x s)) = s_rays s.
Proof.
  intros Hy Ht. destruct (member_spec x s) as [E1 E2]. split; [|exact E2]. rewrite E1, existsb_exists.
  assert (Q : forall r, ray_eqb r x = true <-> ry r = Fin y /\ rth r = Fin th).
  { intros r. unfold ray_eqb. rewrite Hy, Ht, <- !xeqb_fin. destruct (neqb (ry r) (Fin y)), (neqb (rth r) (Fin th)); cbn; intuition discriminate. }
  split; intros (r & H1 & H2); exists r; (split; [exact H1|]); now apply Q.
Qed.
Theorem finite_real (e : @elem XR) : hasFiniteApertureDiameter e = true <->
  exists k m, In (k, m) (leaves e) /\ mdiam m <> PInf.
Proof.
  rewrite finite_leaves. assert (Q : forall a : XR, neqb a ninf = false <-> a <> PInf).
  { intros [a| | |]; cbn; split; try discriminate; try reflexivity; intros H; congruence. }
  split; intros (k & m & H1 & H2); exists k, m; (split; [exact H1|]); now apply Q.
Qed.
