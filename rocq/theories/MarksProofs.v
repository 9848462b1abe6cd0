(** Proofs about the marks of a figure (Marks.v). *)
From Coq Require Import ZArith Reals Lra Lia List Bool String.
From Verif Require Import Base Nums Optics Group Spec MatrixProofs ElementProofs GroupProofs TraceProofs RayProofs
  CardinalProofs StrictProofs FlipProofs TransferProofs CardinalMore Imaging SearchProofs ImagingProofs FieldProofs FieldMore MaterialsProofs Marks.
Import ListNotations.
Open Scope list_scope.
Open Scope R_scope.

Lemma half_xr d : ndiv (Fin d) (@c2 XR _) = Fin (d / 2).
Proof. apply xdiv_fin. lra. Qed.
Lemma label_height r : nmul (ndiv (Fin r) (@c2 XR _)) (ndec 11 1) = Fin (r / 2 * (11 / 10)).
Proof. rewrite half_xr, ndec_xr by lia. reflexivity. Qed.

(** where the two stops are marked and how long the arrow of the field of view is *)
Lemma marks_of_field (e : @elem XR) o ps z : aimed e o ps z -> z <> 0 ->
  forall h, Forall2 thin_if_limiting (leaves e) ps -> field_edge e h -> 3 / 80000 <= h < tried 42 ->
  exists n v w i km, v <= h < v + 2 * prec /\ h < w <= h + 2 * prec /\ nth_error (leaves e) i = Some km /\
    misses (snd km) (after (leaves e) (chief ps z w) i) = true /\
    (forall j km', (j < i)%nat -> nth_error (leaves e) j = Some km' ->
       misses (snd km') (after (leaves e) (chief ps z w) j) = false) /\
    forall fuel range, (n <= fuel)%nat -> exists rays,
      displayMarks fuel e false true (Fin range) =
        Ok (mkMarks (Some (Fin (v * 2))) (chief ps z v :: rays) None
              [("AS"%string, Fin z, Fin (range / 2 * (11 / 10))); ("FS"%string, Fin (depth ps (S i)), Fin (range / 2 * (11 / 10)))]).
Proof.
  intros A Hz h Th E B.
  destruct (half_field_found e o ps z A Hz h E B) as (n1 & v & Hv & H1).
  destruct (field_stop_element e o ps z A Hz h Th E B) as (n2 & w & i & km & Hw & Hk & Hm & Hj & H2).
  exists (max n1 n2), v, w, i, km. split; [exact Hv|]. split; [exact Hw|]. split; [exact Hk|]. split; [exact Hm|]. split; [exact Hj|].
  intros fuel range Hf. destruct (am_stop _ _ _ _ A) as [d Hs].
  assert (HP : principalRay fuel e = Ok (Some (chief ps z v))).
  { unfold principalRay. rewrite H1 by lia. cbn [bind]. change (neqb (Fin v) ninf) with false. cbn iota.
    exact (aimed_chief e o ps z v A). }
  assert (HA : exists a, axialRay e = Ok a).
  { unfold axialRay. destruct d as [d|].
    - unfold marginalRays. rewrite Hs. cbn [bind st_z st_d].
      pose proof (aimed_chief e o ps z 0 A) as C. unfold chiefRayAt in C. rewrite Hs in C. cbn [bind st_z] in C.
      destruct (transferMatrix e (Fin z)) as [m|]; [|discriminate]. cbn [bind] in *.
      destruct (isImaging (emat m)); [discriminate|].
      destruct (pdiv _ (mB (emat m))) as [q|] eqn:Q in C; [|discriminate]. unfold pdiv in *.
      destruct (neqb (mB (emat m)) c0); [discriminate|]. cbn [bind].
      destruct (nltb _ _); eexists; reflexivity.
    - unfold marginalRays. rewrite Hs. cbn [bind st_z st_d]. eexists. reflexivity. }
  destruct HA as [a HA]. eexists. unfold displayMarks, setPrincipalAndAxialRays, stopsLabels. cbv zeta.
  rewrite Hs. cbn [bind st_z]. rewrite HP. cbn [bind]. rewrite HA. cbn [bind]. rewrite H2 by lia. cbn [bind st_z fst snd app].
  rewrite label_height. reflexivity.
Qed.

(** a path on which nothing is limited has no marks *)
Lemma no_marks {T} {N : Num T} fuel (e : @elem T) b b' range : hasFiniteApertureDiameter e = false ->
  displayMarks fuel e b b' range = Ok (mkMarks None [] None []).
Proof.
  intros H. unfold displayMarks, setPrincipalAndAxialRays, stopsLabels, graphicOfEntrancePupil, entrancePupil.
  assert (HS : apertureStop e = Ok (mkStop None (Some ninf))) by (unfold apertureStop; now rewrite H).
  assert (HF : fieldStop fuel e = Ok (mkStop None (Some ninf))) by (unfold fieldStop; rewrite HS; cbn [bind]; now rewrite H).
  rewrite HS, HF, H. cbn. destruct b, b'; reflexivity.
Qed.
(** no edge to the field: the aperture stop is marked, the field stop and the field of view are not *)
Lemma marks_unlimited (e : @elem XR) o ps z : aimed e o ps z -> z <> 0 ->
  no_field_edge e \/ (exists h, field_edge e h /\ tried 42 <= h) ->
  exists n, forall fuel range, (n <= fuel)%nat -> exists rays,
    displayMarks fuel e false true (Fin range) =
      Ok (mkMarks None rays None [("AS"%string, Fin z, Fin (range / 2 * (11 / 10)))]).
Proof.
  intros A Hz Hn. destruct (field_unlimited e o ps z A Hz Hn) as (n & H). exists n. intros fuel range Hf.
  destruct (H fuel Hf) as [H1 H2]. destruct (am_stop _ _ _ _ A) as [d Hs].
  assert (HA : exists a, axialRay e = Ok a).
  { unfold axialRay. destruct d as [d|].
    - unfold marginalRays. rewrite Hs. cbn [bind st_z st_d].
      pose proof (aimed_chief e o ps z 0 A) as C. unfold chiefRayAt in C. rewrite Hs in C. cbn [bind st_z] in C.
      destruct (transferMatrix e (Fin z)) as [m|]; [|discriminate]. cbn [bind] in *.
      destruct (isImaging (emat m)); [discriminate|].
      destruct (pdiv _ (mB (emat m))) as [q|] eqn:Q in C; [|discriminate]. unfold pdiv in *.
      destruct (neqb (mB (emat m)) c0); [discriminate|]. cbn [bind].
      destruct (nltb _ _); eexists; reflexivity.
    - unfold marginalRays. rewrite Hs. cbn [bind st_z st_d]. eexists. reflexivity. }
  destruct HA as [a HA]. eexists. unfold displayMarks, setPrincipalAndAxialRays, stopsLabels. cbv zeta.
  rewrite Hs. cbn [bind st_z]. unfold principalRay. rewrite H2. cbn [bind]. change (neqb PInf (@ninf XR _)) with true. cbn iota.
  cbn [bind]. rewrite HA. cbn [bind]. rewrite H1. cbn [bind st_z fst snd app option_map].
  rewrite label_height. reflexivity.
Qed.
(** the bars of the entrance pupil are as high as the pupil, which is imaged on the edge of the stop *)
Lemma pupil_bars (e : @elem XR) o ps z D : canon e o -> Forall2 is_piece (leaves e) ps -> onf o = 1 ->
  hasFiniteApertureDiameter e = true ->
  apertureStop e = Ok (mkStop (Some (Fin z)) (Some (Fin D))) -> A_ (matrix_to ps z) <> 0 ->
  exists x h, graphicOfEntrancePupil e = Ok (Some (Fin x, Fin h)) /\
    forall th, Rabs (fst (mapp (mmul (matrix_to ps z) (free (- x))) (h, th))) = Rabs D / 2.
Proof.
  intros C P O Hf Hs HA. destruct (entrance_pupil e o ps z D C P O Hf Hs HA) as (zp & Dp & E & I & M).
  exists zp, (Dp / 2). unfold graphicOfEntrancePupil. rewrite E. cbn [bind st_z st_d]. rewrite half_xr. split; [reflexivity|].
  intros th. rewrite I, Rabs_mult. rewrite <- M. unfold Rdiv. rewrite !Rabs_mult, (Rabs_pos_eq (/ 2)), Rabs_Rabsolu by lra. ring.
Qed.
(** the figure cannot be shown when the search for the field stop fails *)
Lemma marks_raise {T} {N : Num T} fuel (e : @elem T) b b' range x s : principalRay fuel e = Err x ->
  apertureStop e = Ok s -> st_z s <> None -> displayMarks fuel e b b' range = Err x.
Proof.
  intros H S Z. unfold displayMarks, setPrincipalAndAxialRays. rewrite S. cbn [bind]. destruct (st_z s); [|congruence].
  now rewrite H.
Qed.
