(** Paths of components, labels of graphics. *)
From Coq Require Import ZArith List Bool Reals Lra Lia.
From Verif Require Import Base Nums Optics Drawing Figures Outline FigureProofs FigurePlace.
Import ListNotations.
Open Scope list_scope.

(** ** What matplotlib draws for a path *)
Section Drawing.
Context {P : Type}.
Inductive stroke := Seg (p q : P) | Quad (p c q : P).
(** the pen moves on MOVETO, a straight stroke is drawn on LINETO, a curve on two CURVE3; nothing else is accepted *)
Fixpoint draw (pen : option P) (l : list (code * P)) : option (list stroke) :=
  match l with
  | [] => Some []
  | (MOVETO, p) :: t => draw (Some p) t
  | (LINETO, p) :: t =>
      match pen, draw (Some p) t with Some a, Some s => Some (Seg a p :: s) | _, _ => None end
  | (CURVE3, c) :: (CURVE3, p) :: t =>
      match pen, draw (Some p) t with Some a, Some s => Some (Quad a c p :: s) | _, _ => None end
  | (CURVE3, _) :: _ => None
  end.
(** the strokes of one curve *)
Definition strokes (c : list P) : list stroke :=
  match c with
  | [p; q] => [Seg p q]
  | [p; c; q] => [Quad p c q]
  | _ => []
  end.
(** strokes without length do not show *)
Inductive same_drawing : list stroke -> list stroke -> Prop :=
| sd_nil : same_drawing [] []
| sd_cons s l l' : same_drawing l l' -> same_drawing (s :: l) (s :: l')
| sd_dot p l l' : same_drawing l l' -> same_drawing (Seg p p :: l) l'.
(** the contours of a path: the pieces drawn without lifting the pen *)
Definition contours (l : list code) : nat := List.length (filter (fun k => match k with MOVETO => true | _ => false end) l).
End Drawing.
Arguments stroke P : clear implicits.

Lemma xeqb_eq x y : xeqb x y = true -> x = y.
Proof. destruct x, y; cbn; try discriminate; auto. unfold Reqb. destruct (Req_EM_T r r0); [now intros _; subst|discriminate]. Qed.
Lemma peqb_eq (p q : XR * XR) : peqb p q = true -> p = q.
Proof.
  destruct p, q. unfold peqb. cbn [fst snd]. intros H. apply andb_prop in H. destruct H as [H1 H2].
  apply xeqb_eq in H1. apply xeqb_eq in H2. now subst.
Qed.

Lemma combine_app {A B} (a : list A) (b : list B) : forall a' b', List.length a = List.length b ->
  combine (a ++ a') (b ++ b') = combine a b ++ combine a' b'.
Proof. revert b. induction a as [|x a IH]; intros [|y b] a' b' H; cbn in *; try discriminate; auto. f_equal. apply IH. lia. Qed.

Section Loop.
Notation curve := (list (XR * XR)).
Definition fine (c : curve) : Prop := List.length c = 2%nat \/ List.length c = 3%nat.

Lemma fine_cases c : fine c -> (exists p q, c = [p; q]) \/ (exists p q r, c = [p; q; r]).
Proof. destruct c as [|p [|q [|r [|s c]]]]; intros [H|H]; cbn in H; try discriminate; [left|right]; eauto. Qed.
Lemma join_length before (c : curve) k : List.length (join before c k) = List.length k.
Proof.
  unfold join. destruct (last_opt before); [|reflexivity]. destruct c; [reflexivity|]. destruct k; [reflexivity|]. now destruct (peqb _ _).
Qed.
Lemma codes_length (c : curve) k : curve_codes c = Ok k -> List.length k = List.length c.
Proof. destruct c as [|p [|q [|r [|s c]]]]; cbn; try discriminate; intros H; injection H as <-; reflexivity. Qed.

Lemma draw_move {P} pen (p : P) t : draw pen ((MOVETO, p) :: t) = draw (Some p) t. Proof. reflexivity. Qed.
Lemma draw_line {P} (a p : P) t : draw (Some a) ((LINETO, p) :: t) = option_map (cons (Seg a p)) (draw (Some p) t).
Proof. cbn. now destruct (draw (Some p) t). Qed.
Lemma draw_quad {P} (a c p : P) t : draw (Some a) ((CURVE3, c) :: (CURVE3, p) :: t) = option_map (cons (Quad a c p)) (draw (Some p) t).
Proof. cbn. now destruct (draw (Some p) t). Qed.
(** drawing goes on from the last point *)
Lemma draw_curve (coords : curve) (c : curve) k (rest : list (code * (XR * XR))) (s : list (stroke (XR * XR))) : curve_codes c = Ok k ->
  draw (last_opt c) rest = Some s ->
  exists s1, draw (last_opt coords) (combine (join coords c k) c ++ rest) = Some (s1 ++ s) /\ same_drawing s1 (strokes c).
Proof.
  intros E H. destruct c as [|p [|q [|r [|x c]]]]; cbn in E; try discriminate; injection E as <-.
  - change (last_opt [p; q]) with (Some q) in H. unfold join, Figures.point, Figures.curve in *. destruct (last_opt coords) as [a|]; [destruct (peqb p a) eqn:Q|]; cbn [combine app].
    + apply peqb_eq in Q. subst a. rewrite !draw_line, H. exists [Seg p p; Seg p q]. split; [reflexivity|repeat constructor].
    + rewrite draw_move, draw_line, H. exists [Seg p q]. split; [reflexivity|repeat constructor].
    + rewrite draw_move, draw_line, H. exists [Seg p q]. split; [reflexivity|repeat constructor].
  - change (last_opt [p; q; r]) with (Some r) in H. unfold join, Figures.point, Figures.curve in *. destruct (last_opt coords) as [a|]; [destruct (peqb p a) eqn:Q|]; cbn [combine app].
    + apply peqb_eq in Q. subst a. rewrite draw_line, draw_quad, H. exists [Seg p p; Quad p q r]. split; [reflexivity|repeat constructor].
    + rewrite draw_move, draw_quad, H. exists [Quad p q r]. split; [reflexivity|repeat constructor].
    + rewrite draw_move, draw_quad, H. exists [Quad p q r]. split; [reflexivity|repeat constructor].
Qed.
Lemma last_opt_app {A} (a b : list A) : b <> [] -> last_opt (a ++ b) = last_opt b.
Proof.
  intros Hb. induction a as [|x a IH]; [reflexivity|]. cbn [app]. destruct (a ++ b) eqn:E.
  - apply app_eq_nil in E. now destruct E.
  - rewrite <- IH. reflexivity.
Qed.
Lemma same_app {A} (a a' b b' : list (stroke A)) : same_drawing a a' -> same_drawing b b' -> same_drawing (a ++ b) (a' ++ b').
Proof. induction 1; intros; cbn; [auto|constructor; auto|constructor; auto]. Qed.

Lemma patch_loop_draws cs : forall coords codes, Forall fine cs -> List.length coords = List.length codes ->
  exists ps ks s, patch_loop cs coords codes = Ok (coords ++ ps, codes ++ ks) /\ List.length ps = List.length ks /\
    ps = concat cs /\ draw (last_opt coords) (combine ks ps) = Some s /\ same_drawing s (flat_map strokes cs).
Proof.
  induction cs as [|c t IH]; intros coords codes F L; cbn [patch_loop].
  - exists [], [], []. rewrite !app_nil_r. repeat split. constructor.
  - inversion F as [|? ? Fc Ft]; subst.
    assert (exists k, curve_codes c = Ok k) as (k & E) by (destruct (fine_cases c Fc) as [(p & q & ->)|(p & q & r & ->)]; eexists; reflexivity).
    rewrite E. cbn [bind].
    assert (c <> []) as Hc by (destruct Fc as [?|?]; destruct c; [discriminate..]).
    pose proof (codes_length c k E) as Lk. pose proof (join_length coords c k) as Lj.
    destruct (IH (coords ++ c) (codes ++ join coords c k) Ft ltac:(unfold Figures.point, Figures.curve in *; rewrite !app_length; lia)) as (ps & ks & s & E1 & L1 & P1 & D1 & S1).
    unfold Figures.point, Figures.curve in *. rewrite last_opt_app in D1 by exact Hc.
    destruct (draw_curve coords c k (combine ks ps) s E D1) as (s1 & D2 & S2).
    exists (c ++ ps), (join coords c k ++ ks), (s1 ++ s). rewrite E1, <- !app_assoc.
    split; [reflexivity|]. split; [rewrite !app_length; lia|]. split; [now subst|].
    split; [rewrite combine_app by lia; exact D2|]. cbn [flat_map]. now apply same_app.
Qed.

(** the path of a component draws its curves, in order, and nothing else *)
Theorem patch_draws (c : component XR) : Forall fine (co_curves c) ->
  exists ps ks s, patch c = Ok (ps, ks) /\ List.length ps = List.length ks /\ draw None (combine ks ps) = Some s /\
    same_drawing s (flat_map strokes (co_curves c)).
Proof.
  intros F. destruct (patch_loop_draws (co_curves c) [] [] F eq_refl) as (ps & ks & s & E & L & _ & D & Sd).
  exists ps, ks, s. auto.
Qed.
(** and a curve with one control point or more than three makes it raise *)
Theorem patch_raises (c : component XR) : (exists x, patch c = Err x) <-> Exists (fun k => ~ fine k) (co_curves c).
Proof.
  split.
  - intros (x & E). destruct (Forall_Exists_dec fine (fun k => ltac:(unfold fine; destruct (Nat.eq_dec (List.length k) 2), (Nat.eq_dec (List.length k) 3); tauto)) (co_curves c)) as [F|F]; [|exact F].
    destruct (patch_draws c F) as (ps & ks & s & E' & _). congruence.
  - intros H. unfold patch. enough (forall cs a b, Exists (fun k => ~ fine k) cs -> exists x, patch_loop (T:=XR) cs a b = Err x) as K by now apply K.
    clear. induction cs as [|c t IH]; intros a b H; [inversion H|]. cbn [patch_loop].
    destruct c as [|p [|q [|r [|u c]]]]; cbn [curve_codes bind]; eauto;
    (apply IH; inversion H as [? ? B|]; subst; [exfalso; apply B; unfold fine; cbn; tauto|auto]).
Qed.

(** ** Contours *)
(** finite points *)
Definition of_R (p : R * R) : XR * XR := (Fin (fst p), Fin (snd p)).
Definition point_dec (p q : R * R) : {p = q} + {p <> q}.
Proof.
  destruct p as [a b], q as [c d]. destruct (Req_EM_T a c) as [->|H]; [|right; congruence].
  destruct (Req_EM_T b d) as [->|H]; [left; reflexivity|right; congruence].
Defined.
(** how many curves start elsewhere than where the one before ended *)
Fixpoint breaks (end_ : option (R * R)) (cs : list (list (R * R))) : nat :=
  match cs with
  | [] => 0
  | c :: t =>
      (match end_, hd_error c with
       | Some p, Some q => if point_dec q p then 0 else 1
       | _, _ => 1
       end + breaks (last_opt c) t)%nat
  end.
Lemma peqb_of_R p q : peqb (of_R p) (of_R q) = if point_dec p q then true else false.
Proof.
  destruct p as [a b], q as [c d]. unfold peqb, of_R, point_dec. cbn [fst snd neqb NumXR xeqb]. unfold Reqb.
  destruct (Req_EM_T a c); [subst; cbn|reflexivity]. destruct (Req_EM_T b d); [subst|]; reflexivity.
Qed.
Lemma last_opt_map {A B} (f : A -> B) l : last_opt (map f l) = option_map f (last_opt l).
Proof. induction l as [|x [|y l] IH]; [reflexivity..|]. exact IH. Qed.
Lemma contours_app a b : contours (a ++ b) = (contours a + contours b)%nat.
Proof. unfold contours. now rewrite filter_app, app_length. Qed.
Lemma join_contours e (c : list (R * R)) k : curve_codes (map of_R c) = Ok k ->
  contours (join (match e with Some p => [of_R p] | None => [] end) (map of_R c) k) = breaks e [c].
Proof.
  intros E. destruct c as [|p [|q [|r [|x c]]]]; cbn in E; try discriminate; injection E as <-;
  (destruct e as [a|]; cbn [join last_opt map breaks hd_error]; [rewrite peqb_of_R; destruct (point_dec p a); reflexivity|reflexivity]).
Qed.
Lemma join_last before before' (c : curve) k : last_opt before = last_opt before' -> join before c k = join before' c k.
Proof. unfold join. now intros ->. Qed.
Lemma patch_loop_contours cs : forall coords codes ps ks,
  patch_loop (map (map of_R) cs) (map of_R coords) codes = Ok (ps, ks) -> contours ks = (contours codes + breaks (last_opt coords) cs)%nat.
Proof.
  induction cs as [|c t IH]; intros coords codes ps ks; cbn [map patch_loop].
  - intros H. injection H as _ <-. cbn. lia.
  - destruct (curve_codes (map of_R c)) as [k|] eqn:E; cbn [bind]; [|discriminate]. intros H.
    rewrite <- map_app in H. apply IH in H. rewrite H, contours_app.
    rewrite (join_last _ (match last_opt coords with Some p => [of_R p] | None => [] end)) by (rewrite last_opt_map; now destruct (last_opt coords)).
    rewrite (join_contours _ _ _ E). cbn [breaks].
    assert (c <> []) as Hc by (destruct c; [discriminate|easy]). rewrite last_opt_app by exact Hc. lia.
Qed.
(** the number of contours of the path: one, and one more wherever a curve starts elsewhere *)
Theorem patch_contours cs fixed ps ks : patch (mkComp (map (map of_R) cs) fixed) = Ok (ps, ks) -> contours ks = breaks None cs.
Proof. intros H. now apply (patch_loop_contours cs [] [] ps ks). Qed.
Fixpoint joined_R (l : list (list (R * R))) : Prop :=
  match l with
  | a :: ((b :: _) as t) => last_opt a = hd_error b /\ joined_R t
  | _ => True
  end.
Lemma joined_breaks cs : forall e, joined_R cs -> Forall (fun c => c <> []) cs ->
  match cs with c :: _ => e = hd_error c | [] => True end -> breaks e cs = 0%nat.
Proof.
  induction cs as [|c t IH]; intros e J F E; [reflexivity|]. cbn [breaks]. inversion F as [|? ? Hc Ft]; subst.
  destruct c as [|p c]; [easy|]. cbn [hd_error]. destruct (point_dec p p) as [_|n]; [|easy]. cbn [Nat.add].
  apply IH; [|exact Ft|]; destruct t; cbn in J; auto; apply J.
Qed.
End Loop.

(** the outline of a pair of surfaces is one contour that ends where it started *)
Lemma R_curves (l : list (list (XR * XR))) : Forall (Forall (fun p => exists q, p = of_R q)) l -> exists l', l = map (map of_R) l'.
Proof.
  induction 1 as [|c l Hc _ (l' & ->)]; [exists []; reflexivity|].
  assert (exists c', c = map of_R c') as (c' & ->).
  { induction Hc as [|p c (q & ->) _ (c' & ->)]; [exists []|exists (q :: c')]; reflexivity. }
  exists (c' :: l'). reflexivity.
Qed.
Lemma of_R_inj p q : of_R p = of_R q -> p = q.
Proof. destruct p, q. unfold of_R. cbn. congruence. Qed.
Lemma joined_of_R l : joined (map (map of_R) l) -> joined_R l.
Proof.
  induction l as [|a [|b l] IH]; cbn [map joined joined_R]; auto. intros [H J]. split; [|apply IH; exact J].
  unfold stop, start in H. rewrite last_opt_map in H. destruct (last_opt a) as [p|], b as [|q b]; cbn [map hd_error option_map] in H |- *; try discriminate; [|reflexivity].
  f_equal. apply of_R_inj. congruence.
Qed.
Theorem closed_is_one_contour (c : component XR) : closed (co_curves c) -> Forall fine (co_curves c) ->
  Forall (Forall (fun p => exists x y, p = (Fin x, Fin y))) (co_curves c) ->
  exists ps ks p, patch c = Ok (ps, ks) /\ contours ks = 1%nat /\ hd_error ps = Some p /\ last_opt ps = Some p.
Proof.
  intros [J (a & b & Ha & Hb & Hab)] F Q.
  assert (Forall (Forall (fun p => exists q, p = of_R q)) (co_curves c)) as Q'.
  { eapply Forall_impl; [|exact Q]. intros d. apply Forall_impl. intros p (x & y & ->). now exists (x, y). }
  destruct (patch_loop_draws (co_curves c) [] [] F eq_refl) as (ps & ks & s & E & L & P & _). cbn [app] in E.
  destruct (R_curves _ Q') as (l & El).
  assert (contours ks = 1%nat) as C1.
  { pose proof (patch_loop_contours l [] [] ps ks) as K. cbn [map] in K. rewrite <- El in K. rewrite (K E). cbn [contours filter List.length last_opt Nat.add].
    destruct l as [|c1 l]; [rewrite El in Ha; discriminate|]. rewrite El in J, F. apply joined_of_R in J.
    assert (Forall (fun c => c <> []) (c1 :: l)) as NE.
    { clear - F. revert F. generalize (c1 :: l). intros cs. rewrite Forall_map. apply Forall_impl. intros x [H|H] ->; discriminate. }
    cbn [breaks]. assert (breaks (last_opt c1) l = 0%nat) as ->; [|destruct (hd_error c1); reflexivity].
    apply joined_breaks; [destruct l; cbn in J; tauto|now inversion NE|destruct l; cbn in J; tauto]. }
  unfold start, stop in Hab.
  assert (a <> []) as Na. { destruct (co_curves c); [discriminate|]. injection Ha as ->. inversion F as [|? ? [H|H] _]; destruct a; [discriminate..]. }
  destruct a as [|p a]; [easy|]. cbn [hd_error] in Hab. exists ps, ks, p. split; [exact E|]. split; [exact C1|]. subst ps. split.
  - destruct (co_curves c); [discriminate|]. injection Ha as ->. reflexivity.
  - transitivity (last_opt b); [|exact Hab]. clear - Hb F. induction (co_curves c) as [|x l IH]; [discriminate|]. cbn [concat]. inversion F as [|? ? Fx Fl]; subst.
    destruct l as [|y l].
    + cbn [last_opt] in Hb. injection Hb as ->. cbn [concat]. now rewrite app_nil_r.
    + rewrite last_opt_app; [apply IH; [exact Hb|exact Fl]|]. cbn [concat]. inversion Fl as [|? ? [H|H] _]; destruct y; discriminate.
Qed.

(** the outline of the glass between two surfaces *)
Theorem pair_one_contour tan a b x h L : good a -> good b -> (0 < h)%R -> su_L a = Fin L -> L <> 0%R ->
  exists p ps ks q, SurfacePair tan a b (Fin h) (Fin x) = Ok p /\ patch (pa_comp p) = Ok (ps, ks) /\ contours ks = 1%nat /\
    hd_error ps = Some q /\ last_opt ps = Some q.
Proof.
  intros Ga Gb Hh EL HL. pose proof (pair_ok tan a b x h L Ga Gb Hh EL HL) as E.
  pose proof (pair_closed tan a b (Fin h) (Fin x) _ E) as C. cbn [pa_comp] in C.
  destruct (closed_is_one_contour _ C) as (ps & ks & q & E1 & E2 & E3 & E4).
  - cbn [co_curves]. unfold front_curves, back_curves. apply Forall_app. split.
    + destruct (su_shape a) as [[r| | |]| | |]; repeat (apply Forall_cons; [first [left; reflexivity|right; reflexivity]|]); apply Forall_nil.
    + destruct (su_shape b) as [[r| | |]| | |]; repeat (apply Forall_cons; [first [left; reflexivity|right; reflexivity]|]); apply Forall_nil.
  - cbn [co_curves]. unfold front_curves, back_curves. apply Forall_app. split.
    + destruct (su_shape a) as [[r| | |]| | |]; repeat constructor; eauto.
    + destruct (su_shape b) as [[r| | |]| | |]; repeat constructor; eauto.
  - exists (mkPair (mkComp (front_curves a x h ++ back_curves b (x + L) h (x + bend a h)) true)
        (Fin (x + bend a h)) (Fin (x + L + bend b h)) (Fin L)), ps, ks, q. auto.
Qed.
(** lines through a list of points that ends where it starts: arrows, boxes, objectives *)
Theorem polygon_one_contour (l : list (R * R)) p q fixed : let ps := p :: q :: l ++ [p] in
  exists xs ks, patch (mkComp (linearBezierCurvesFrom (map of_R ps)) fixed) = Ok (xs, ks) /\ contours ks = 1%nat /\
    hd_error xs = Some (of_R p) /\ last_opt xs = Some (of_R p).
Proof.
  intros ps.
  assert (forall l : list (R * R), Forall fine (linearBezierCurvesFrom (map of_R l)) /\
    Forall (Forall (fun p => exists x y, p = (Fin x, Fin y))) (linearBezierCurvesFrom (map of_R l)) /\ joined (linearBezierCurvesFrom (map of_R l))) as K.
  { clear. induction l as [|a [|b l] (F & G & J)]; [repeat constructor..|].
    change (linearBezierCurvesFrom (map of_R (a :: b :: l))) with ([of_R a; of_R b] :: linearBezierCurvesFrom (map of_R (b :: l))).
    split; [constructor; [now left|exact F]|]. split; [constructor; [repeat constructor; unfold of_R; eauto|exact G]|].
    destruct l as [|c l]; [exact I|]. split; [reflexivity|exact J]. }
  destruct (K ps) as (F & G & J).
  assert (forall (l : list (R * R)) a z, last_opt (linearBezierCurvesFrom (map of_R (a :: l ++ [z]))) = Some [of_R (last l a); of_R z]) as La.
  { clear. induction l as [|b l IH]; intros a z; [reflexivity|].
    change (linearBezierCurvesFrom (map of_R (a :: (b :: l) ++ [z]))) with ([of_R a; of_R b] :: linearBezierCurvesFrom (map of_R (b :: l ++ [z]))).
    rewrite last_shift, <- (IH b z). destruct (linearBezierCurvesFrom (map of_R (b :: l ++ [z]))) eqn:E; [|reflexivity].
    destruct l; discriminate. }
  destruct (closed_is_one_contour (mkComp (linearBezierCurvesFrom (map of_R ps)) fixed)) as (xs & ks & r & E1 & E2 & E3 & E4).
  - split; [exact J|]. exists [of_R p; of_R q], [of_R (last (q :: l) p); of_R p]. split; [reflexivity|]. split; [exact (La (q :: l) p p)|reflexivity].
  - exact F.
  - exact G.
  - exists xs, ks. split; [exact E1|]. split; [exact E2|].
    destruct (patch_loop_draws (linearBezierCurvesFrom (map of_R ps)) [] [] F eq_refl) as (ys & kk & s & E & _ & P & _).
    unfold patch in E1. cbn [co_curves] in E1. rewrite E in E1. injection E1 as <- <-. cbn [app] in *. subst ys.
    assert (r = of_R p) as -> by (cbn in E3; congruence). auto.
Qed.

(** ** Labels *)
Open Scope R_scope.
Fixpoint Rsum (l : list R) : R := match l with [] => 0 | a :: t => a + Rsum t end.
Lemma nsum_fin (l : list R) : forall a, fold_left nadd (map Fin l) (Fin a) = Fin (a + Rsum l).
Proof. induction l as [|b l IH]; intros a; cbn [map fold_left Rsum]; [f_equal; ring|]. cbn [nadd NumXR xadd]. rewrite IH. f_equal. ring. Qed.
Lemma Rsum_between a b l : Forall (fun x => a <= x <= b) l -> INR (List.length l) * a <= Rsum l <= INR (List.length l) * b.
Proof. induction 1 as [|x l H _ IH]; [cbn; lra|]. cbn [List.length Rsum]. rewrite S_INR. lra. Qed.
Lemma distinct_incl (l : list (XR * XR)) : incl (distinct l) l /\ (l <> [] -> distinct l <> []).
Proof.
  induction l as [|p l [IH1 IH2]]; [split; [easy|easy]|]. cbn [distinct]. destruct (existsb (peqb p) l) eqn:E.
  - split; [now apply incl_tl|]. intros _. apply IH2. destruct l; [discriminate|easy].
  - split; [|discriminate]. intros q [<-|H]; [now left|right; auto].
Qed.
Lemma Fin_list (l : list XR) : Forall (fun x => exists r, x = Fin r) l -> exists l', l = map Fin l'.
Proof. induction 1 as [|x l (r & ->) _ (l' & ->)]; [exists []|exists (r :: l')]; reflexivity. Qed.
(** the label of a graphic lies between its leftmost and its rightmost point, 30 % higher than the graphic *)
Theorem label_within cs x a b h : cs <> [] -> Forall (fun c => xy c <> []) cs -> halfHeight (mkGraphic cs (Fin x)) = Ok (Fin h) ->
  Forall (fun p => exists u v, p = (Fin u, Fin v) /\ a <= u <= b) (flat_map xy cs) ->
  exists u, label_shown cs (Fin x) = Ok (Fin (u + x), Fin (h * (13 / 10))) /\ a <= u <= b.
Proof.
  intros Hn F Hh Q. unfold label_shown, label_of, centroid.
  set (l := flat_map (fun c => distinct (xy c)) cs).
  assert (incl l (flat_map xy cs)) as I.
  { intros p Hp. unfold l in Hp. apply in_flat_map in Hp. destruct Hp as (c & Hc & Hp). apply in_flat_map. exists c. split; [exact Hc|]. now apply distinct_incl. }
  assert (l <> []) as NE.
  { unfold l. destruct cs as [|c cs]; [easy|]. inversion F as [|? ? Hc _]; subst. cbn [flat_map]. destruct (distinct_incl (xy c)) as [_ K].
    specialize (K Hc). destruct (distinct (xy c)); [easy|discriminate]. }
  assert (exists ux, map fst l = map Fin ux /\ Forall (fun u => a <= u <= b) ux /\ List.length ux = List.length l) as (ux & E1 & B & Ln).
  { clear - I Q. clearbody l. induction l as [|p l IH]; [exists []; repeat split; constructor|].
    destruct IH as (ux & E & B & Ln); [intros q Hq; apply I; now right|]. rewrite Forall_forall in Q. destruct (Q p (I p (or_introl eq_refl))) as (u & v & -> & Hu).
    exists (u :: ux). cbn. rewrite E, Ln. repeat split. constructor; auto. }
  destruct l as [|p t] eqn:El; [easy|]. rewrite <- El in *. cbn zeta. rewrite E1. unfold nsum at 1. rewrite c0_xr, nsum_fin. cbn [bind fst snd].
  assert (0 < INR (List.length l)) as Hpos by (apply lt_0_INR; rewrite El; cbn; lia).
  cbn [nofZ NumXR]. rewrite <- INR_IZR_INZ.
  assert (ndiv (Fin (0 + Rsum ux)) (Fin (INR (List.length l))) = Fin (Rsum ux / INR (List.length l))) as ->.
  { cbn [ndiv NumXR xdiv]. destruct (Req_EM_T (INR (List.length l)) 0) as [Z|_]; [lra|]. f_equal. f_equal. ring. }
  rewrite Hh. cbn [bind fst snd nadd nmul NumXR xadd].
  exists (Rsum ux / INR (List.length l)). split.
  - do 2 f_equal. rewrite FigurePlace.ndec_fin by lia. reflexivity.
  - apply Rsum_between in B. rewrite Ln in B. split.
    + apply (Rmult_le_reg_r (INR (List.length l))); [exact Hpos|]. unfold Rdiv. rewrite Rmult_assoc, Rinv_l by lra. lra.
    + apply (Rmult_le_reg_r (INR (List.length l))); [exact Hpos|]. unfold Rdiv. rewrite Rmult_assoc, Rinv_l by lra. lra.
Qed.
