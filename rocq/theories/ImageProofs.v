(** imageSize: the distance between the images of the two edges of the object. *)
From Coq Require Import ZArith Reals Lra Lia List Bool String Psatz.
From Verif Require Import Base Nums Optics Group Spec MatrixProofs ElementProofs GroupProofs TraceProofs RayProofs CardinalProofs StrictProofs Imaging ImagingProofs FieldProofs BeamProofs BeamMore ResonatorProofs LawProofs.
Import ListNotations.
Open Scope R_scope.

(** a ray that passes a path and then a space *)
Lemma passes e o r y th z : canon e o -> Forall not_axicon (leaves e) -> ry r = Fin y -> rth r = Fin th -> rz r = Fin z ->
  rblk (traceThrough e r) = false ->
  exists d' w', traceThrough e r = fray (fst (mapp (oM o) (y, th))) (snd (mapp (oM o) (y, th))) (z + oL o) false d' w'.
Proof.
  destruct r as [y0 t0 z0 bl di wv]. cbn [ry rth rz]. intros Hc Hn -> -> -> Hb. change (mkRay (Fin y) (Fin th) (Fin z) bl di wv) with (fray y th z bl di wv) in *.
  rewrite traceThrough_through in *. destruct (through_path e o y th z bl di wv (canon_built _ _ Hc) Hn Hb) as (d' & w' & E). exists d', w'. exact E.
Qed.
Lemma over_space d n y th z di wv : n <> 0 -> ry (traceThrough (Leaf KSpace (mat_of (o_space d n) PInf PInf false "")) (fray y th z false di wv)) = Fin (y + d * th).
Proof.
  intros Hn. rewrite traceThrough_through. unfold through, through_leaf, fray, o_space, free, mat_of. cbn [mL oL]. change (@c0 XR _) with (Fin 0). cbn [nltb NumXR xltb].
  destruct (Rltb 0 d); cbn; repeat match goal with |- context [Rlt_dec ?a ?b] => destruct (Rlt_dec a b); try lra end; cbn; f_equal; ring.
Qed.
Definition lands (e s : @elem XR) (h y : R) : Prop := forall r th z, ry r = Fin h -> rth r = Fin th -> rz r = Fin z ->
  rblk (traceThrough e r) = false -> ry (traceThrough s (traceThrough e r)) = Fin y.
Lemma lands_conj e o h : canon e o -> Forall not_axicon (leaves e) -> D_ (oM o) <> 0 ->
  lands e (Leaf KSpace (mat_of (o_space (- B_ (oM o) / D_ (oM o)) (onb o)) PInf PInf false "")) h
    ((A_ (oM o) + - B_ (oM o) / D_ (oM o) * C_ (oM o)) * h).
Proof.
  intros Hc Hn HD r th z H1 H2 H3 Hb. destruct (passes e o r h th z Hc Hn H1 H2 H3 Hb) as (d' & w' & ->).
  rewrite over_space by (apply (canon_physical _ _ Hc)). f_equal. unfold mapp. cbn [fst snd]. field. exact HD.
Qed.
Theorem image_size fuel e o (use : bool) h v d c : canon e o -> Forall not_axicon (leaves e) -> forwardConjugate (emat e) = Ok (Fin d, Some c) ->
  (if use then v = h else fieldOfView fuel e = Ok (Fin v)) ->
  exists s sp y1 y2, imageSize fuel e use (Fin h) = Ok (Fin s) /\ Space (Fin d) (Fin (onb o)) PInf = Ok sp /\
    lands e sp (v / 2) y1 /\ lands e sp (- (v / 2)) y2 /\ s = Rabs (y1 - y2).
Proof.
  intros Hc Hn Ef Hv. pose proof (canon_describes _ _ Hc) as D. pose proof (canon_physical _ _ Hc) as P.
  destruct (Req_dec (D_ (oM o)) 0) as [HD|HD].
  { destruct (forward_none _ _ D P HD) as [K _]. rewrite K in Ef. discriminate. }
  destruct (forward_ok _ _ D P HD) as (c' & K & Dc). rewrite K in Ef. injection Ef as Ed <-. subst d.
  set (a := A_ (oM o) + - B_ (oM o) / D_ (oM o) * C_ (oM o)).
  assert (mA c' = Fin a) as EA by (dsc Dc; f_equal; unfold a; cbn; field; exact HD).
  exists (Rabs (v * a)). eexists. exists (a * (v / 2)), (a * - (v / 2)). split; [|split; [apply Space_ok; [apply P|exact I]|]].
  - unfold imageSize. rewrite K. cbn [bind snd]. destruct use.
    + subst v. rewrite EA. reflexivity.
    + rewrite Hv. cbn [bind]. rewrite EA. reflexivity.
  - split; [now apply lands_conj|]. split; [now apply lands_conj|]. f_equal. field.
Qed.
(** the image of an unlimited field is unlimited *)
Theorem image_unlimited fuel e o h d c : canon e o -> forwardConjugate (emat e) = Ok (d, Some c) -> fieldOfView fuel e = Ok PInf ->
  imageSize fuel e false h = Ok PInf.
Proof.
  intros Hc Ef Hv. pose proof (canon_describes _ _ Hc) as D. pose proof (canon_physical _ _ Hc) as P.
  destruct (Req_dec (D_ (oM o)) 0) as [HD|HD].
  { destruct (forward_none _ _ D P HD) as [K _]. rewrite K in Ef. discriminate. }
  destruct (forward_ok _ _ D P HD) as (c' & K & Dc). rewrite K in Ef. injection Ef as Ed <-. subst d.
  unfold imageSize. rewrite K, Hv. cbn [bind snd]. dsc Dc. destruct P as (P1 & P2 & P3). unfold mdet in P3.
  assert (A_ (mmul (free (- B_ (oM o) / D_ (oM o))) (oM o)) <> 0) as HA.
  { cbn. intros H. assert (A_ (oM o) * D_ (oM o) - B_ (oM o) * C_ (oM o) = 0) as Z.
    { replace (A_ (oM o) * D_ (oM o) - B_ (oM o) * C_ (oM o)) with (D_ (oM o) * (1 * A_ (oM o) + - B_ (oM o) / D_ (oM o) * C_ (oM o))) by (field; exact HD). rewrite H. ring. }
    rewrite Z in P3. symmetry in P3. revert P3. apply Rmult_integral_contrapositive_currified; [exact P1|now apply Rinv_neq_0_compat]. }
  change (oM (ocomp (o_space (- B_ (oM o) / D_ (oM o)) (onb o)) o)) with (mmul (free (- B_ (oM o) / D_ (oM o))) (oM o)).
  set (a := A_ (mmul (free (- B_ (oM o) / D_ (oM o))) (oM o))) in *. clearbody a. change (nmul PInf (Fin a)) with (xsgninf a). unfold xsgninf.
  unfold Rltb, Reqb. repeat match goal with |- context [Rlt_dec ?x ?y] => destruct (Rlt_dec x y) | |- context [Req_EM_T ?x ?y] => destruct (Req_EM_T x y) end; try reflexivity; lra.
Qed.
(** without an image the size is infinite, and rays from one point leave parallel *)
Theorem image_at_infinity fuel e o use h : canon e o -> Forall not_axicon (leaves e) -> forwardConjugate (emat e) = Ok (PInf, None) ->
  imageSize fuel e use h = Ok PInf /\
  forall r1 r2 y t1 t2 z1 z2, ry r1 = Fin y -> ry r2 = Fin y -> rth r1 = Fin t1 -> rth r2 = Fin t2 -> rz r1 = Fin z1 -> rz r2 = Fin z2 ->
    rblk (traceThrough e r1) = false -> rblk (traceThrough e r2) = false -> rth (traceThrough e r1) = rth (traceThrough e r2).
Proof.
  intros Hc Hn Ef. pose proof (canon_describes _ _ Hc) as D. pose proof (canon_physical _ _ Hc) as P.
  split; [unfold imageSize; rewrite Ef; reflexivity|].
  assert (D_ (oM o) = 0) as HD.
  { destruct (Req_dec (D_ (oM o)) 0) as [HD|HD]; [exact HD|]. destruct (forward_ok _ _ D P HD) as (c' & K & _). rewrite K in Ef. discriminate. }
  intros r1 r2 y t1 t2 z1 z2 A1 A2 A3 A4 A5 A6 B1 B2.
  destruct (passes e o r1 y t1 z1 Hc Hn A1 A3 A5 B1) as (? & ? & ->). destruct (passes e o r2 y t2 z2 Hc Hn A2 A4 A6 B2) as (? & ? & ->).
  unfold fray, mapp. cbn [rth fst snd]. rewrite HD. f_equal. ring.
Qed.
