(** Concrete optical paths used to show that the hypotheses of the theorems can be met. *)
From Coq Require Import Reals Lra List Bool String ZArith.
From Verif Require Import Base Nums Optics Group Spec MatrixProofs ElementProofs GroupProofs
  TraceProofs RayProofs CardinalProofs StrictProofs FlipProofs.
Import ListNotations.
Open Scope R_scope.

Definition x_space (d n : R) : @elem XR := Leaf KSpace (mat_of (o_space d n) PInf PInf false "").
Definition x_lens (f diam : R) : @elem XR :=
  Leaf (KLens (Fin f) (Fin 4)) (mat_of (o_lens f) (Fin diam) PInf false "").
Definition x_interface (n1 n2 r : R) : @elem XR :=
  Leaf (KInterface (Fin n1) (Fin n2) (Fin r)) (mat_of (o_interface n1 n2 (Fin r)) PInf PInf false "").
Definition x_thick (n r1 r2 t : R) : @elem XR :=
  Leaf (KThickLens (Fin n) (Fin r1) (Fin r2)) (mat_of (o_thick n (Fin r1) (Fin r2) t) PInf PInf false "").
Definition x_aperture (diam : R) : @elem XR := Leaf KAperture (mat_of o_aperture (Fin diam) PInf false "").

(** the constructors return exactly these values *)
Lemma x_space_ok d n : n <> 0 -> Space (Fin d) (Fin n) PInf = Ok (x_space d n).
Proof. intros. apply Space_ok; cbn; auto. Qed.
Lemma x_lens_ok f diam : f <> 0 -> 0 < diam -> Lens (Fin f) (Fin diam) = Ok (x_lens f diam).
Proof. intros. apply Lens_ok; cbn; auto. Qed.
Lemma x_interface_ok n1 n2 r : n1 <> 0 -> n2 <> 0 -> r <> 0 ->
  DielectricInterface (Fin n1) (Fin n2) (Fin r) PInf = Ok (x_interface n1 n2 r).
Proof. intros. apply DielectricInterface_ok; cbn; auto. Qed.
Lemma x_thick_ok n r1 r2 t : n <> 0 -> r1 <> 0 -> r2 <> 0 ->
  ThickLens (Fin n) (Fin r1) (Fin r2) (Fin t) PInf = Ok (x_thick n r1 r2 t).
Proof. intros. apply ThickLens_ok; cbn; auto. Qed.
Lemma x_aperture_ok diam : 0 < diam -> Aperture (Fin diam) PInf = Ok (x_aperture diam).
Proof. intros. apply Aperture_ok; cbn; auto. Qed.

(** they are exactly described by their textbook optics *)
Lemma c_space d n : n <> 0 -> canon (x_space d n) (o_space d n).
Proof. intros. constructor; [apply mat_of_describes|now apply p_space|reflexivity]. Qed.
Lemma c_lens f diam : canon (x_lens f diam) (o_lens f).
Proof. constructor; [apply mat_of_describes|apply p_lens|reflexivity]. Qed.
Lemma c_interface n1 n2 r : n1 <> 0 -> n2 <> 0 -> r <> 0 ->
  canon (x_interface n1 n2 r) (o_interface n1 n2 (Fin r)).
Proof.
  intros. constructor; [apply mat_of_describes|now apply p_interface|].
  exists n1, n2. repeat split; auto.
Qed.
Lemma c_thick n r1 r2 t : n <> 0 -> r1 <> 0 -> r2 <> 0 ->
  canon (x_thick n r1 r2 t) (o_thick n (Fin r1) (Fin r2) t).
Proof.
  intros. constructor; [apply mat_of_describes|now apply p_thick|].
  exists n. repeat split; auto. rewrite o_thick_eq by auto. cbn [oL]. now rewrite <- o_thick_eq.
Qed.
Lemma c_aperture diam : canon (x_aperture diam) o_aperture.
Proof. constructor; [apply mat_of_describes|apply p_aperture|reflexivity]. Qed.

(** a path: space, thick lens, space, lens with an aperture, space *)
Definition sample : list (@elem XR) :=
  [x_space 10 1; x_thick (3/2) 100 (-100) 5; x_space 20 1; x_lens 50 25; x_space 30 1].
Definition sample_o : list optic :=
  [o_space 10 1; o_thick (3/2) (Fin 100) (Fin (-100)) 5; o_space 20 1; o_lens 50; o_space 30 1].

Lemma sample_canon : Forall2 canon sample sample_o.
Proof.
  repeat apply Forall2_cons; try apply Forall2_nil; try apply c_lens;
    try (apply c_space; lra); apply c_thick; lra.
Qed.
Lemma sample_describes : Forall2 (fun e o => describes (emat e) o) sample sample_o.
Proof. apply Forall2_canon_desc, sample_canon. Qed.
Lemma sample_chain : chain sample_o.
Proof.
  split; [apply p_space; lra|]. split; [reflexivity|]. split; [apply p_thick; lra|].
  split; [reflexivity|]. split; [apply p_space; lra|]. split; [reflexivity|].
  split; [apply p_lens|]. split; [reflexivity|]. split; [apply p_space; lra|]. exact I.
Qed.
Lemma sample_good : good sample_o.
Proof. right. intros o t [= <- _]. reflexivity. Qed.
Lemma sample_linear : Forall linear sample.
Proof. repeat constructor. Qed.

(** the same path as a group, and nested in another group *)
Lemma sample_group : exists g, MatrixGroup_new sample "" = Ok g /\ gelems g = sample /\
  canon (grp_elem g) (path_optic (o_space 10 1) (tl sample_o)).
Proof.
  destruct (MatrixGroup_canon sample sample_o "" sample_canon sample_chain sample_good)
    as (g & G1 & G2 & _ & _ & _ & _ & G); [discriminate|].
  exists g. split; [exact G1|]. split; [exact G2|]. apply (G (o_space 10 1) (tl sample_o) eq_refl).
Qed.

Lemma sample_nested : exists e o, canon e o /\ oL o = 70 /\
  leaves e = leaves (Group GGroup (emat (x_space 5 1)) (x_space 5 1 :: sample)).
Proof.
  destruct sample_group as (g & G1 & G2 & Gc).
  pose (os := [o_space 5 1; path_optic (o_space 10 1) (tl sample_o)]).
  destruct (MatrixGroup_canon [x_space 5 1; grp_elem g] os "")
    as (g' & K1 & K2 & _ & _ & _ & _ & K); try discriminate.
  - repeat apply Forall2_cons; try apply Forall2_nil; auto. apply c_space; lra.
  - split; [apply p_space; lra|]. split; [reflexivity|]. split; [|exact I].
    eapply canon_physical; eauto.
  - right. intros o t [= <- _]. reflexivity.
  - exists (grp_elem g'). eexists. split; [apply (K _ _ eq_refl)|]. split.
    + cbn. lra.
    + unfold grp_elem. rewrite K2. cbn [leaves flat_map]. unfold grp_elem. cbn [leaves].
      rewrite G2. now rewrite app_nil_r.
Qed.

(** ** A ray through the sample path *)
Lemma abs_fin (x : R) : nabs (Fin x) = Fin (Rabs x).
Proof. reflexivity. Qed.

Lemma positive_leaf_passes k (m : @mat XR) o y th z d w :
  describes m o -> mna m = PInf ->
  (mdiam m = PInf \/ exists D, mdiam m = Fin D /\ Rabs y <= D / 2) ->
  misses m (fray y th z false d w) = false /\
  (not_axicon (k, m) -> exists d' w', through_leaf k m (fray y th z false d w) =
     fray (A_ (oM o) * y + B_ (oM o) * th) (C_ (oM o) * y + D_ (oM o) * th) (oL o + z) false d' w').
Proof.
  intros D Hna Hd.
  assert (misses m (fray y th z false d w) = false) as Hm.
  { unfold misses. cbn [fray ry rth]. rewrite Hna. destruct Hd as [->|(D0 & -> & H)].
    - now rewrite half_inf.
    - rewrite half_fin, abs_fin. cbn. now rewrite Rltb_ge. }
  split; auto. intros Hx.
  pose proof (through_leaf_free (k, m) (fray y th z false d w) eq_refl Hm) as E.
  cbn [fst snd] in E. rewrite E. apply (leaf_ideal k m o y th z false d w D Hx).
Qed.

Definition ray1 : @ray XR := fray 1 (1/100) 0 false PInf None.
Lemma sample_passes :
  rblk (through_leaves (flat_map leaves sample) ray1) = false.
Proof.
  unfold sample, ray1. cbn [flat_map leaves app x_space x_thick x_lens].
  unfold through_leaves. cbn [fold_left fst snd].
  repeat (match goal with
  | |- context [through_leaf ?k (mat_of ?o ?dd ?na ?f ?l) (fray ?y ?th ?z false ?d ?w)] =>
      let H := fresh in let d' := fresh "d" in let w' := fresh "w" in let E := fresh in
      assert (exists d' w', through_leaf k (mat_of o dd na f l) (fray y th z false d w) =
         fray (A_ (oM o) * y + B_ (oM o) * th) (C_ (oM o) * y + D_ (oM o) * th) (oL o + z) false d' w') as H;
      [ refine (proj2 (positive_leaf_passes k (mat_of o dd na f l) o y th z d w _ _ _) _);
        [apply mat_of_describes|reflexivity| |exact I];
        first [left; reflexivity | right; eexists; split; [reflexivity|]]
      | destruct H as (d' & w' & E); rewrite E; clear E ]
  end).
  2: reflexivity.
  unfold o_thick. cbn. apply Rabs_le. split; lra.
Qed.

(** ** Sample facts quoted beside the property theorems *)
Lemma times_leaf k (m : @mat XR) r : not_axicon (k, m) -> rblk r = false -> misses m r = false ->
  times_ray (Leaf k m) r = through_leaf k m r.
Proof.
  intros Hx Hb Hm. pose proof (through_leaf_free (k, m) r Hb Hm) as E. cbn [fst snd] in E. rewrite E.
  unfold times_ray, mul_ray_v. rewrite Hb. unfold mul_ray_new, ideal. cbn [fst snd].
  unfold misses in Hm. apply orb_false_iff in Hm as [-> ->]. cbn [orb].
  destruct k; cbn in Hx; try tauto; reflexivity.
Qed.

Lemma times_leaves (es : list (@elem XR)) r : Forall (fun e => exists k m, e = Leaf k m /\ not_axicon (k, m)) es ->
  rblk r = false -> rblk (through_leaves (flat_map leaves es) r) = false ->
  fold_left (fun r e => times_ray e r) es r = through_leaves (flat_map leaves es) r.
Proof.
  intros HF. revert r. induction HF as [|e es (k & m & -> & Hx) HF IH]; intros r Hb H; auto.
  cbn [flat_map leaves app fold_left] in *. unfold through_leaves in *. cbn [fold_left fst snd] in *.
  destruct (rblk (through_leaf k m r)) eqn:E.
  { pose proof (through_leaves_blocked (flat_map leaves es) _ E) as K. unfold through_leaves in K.
    congruence. }
  pose proof (through_leaf_blocks k m r) as B. rewrite E, Hb in B. cbn in B.
  rewrite times_leaf by auto. apply IH; auto.
Qed.

Lemma sample_leaf_list : Forall (fun e => exists k m, e = Leaf k m /\ not_axicon (k, m)) sample.
Proof. repeat constructor; do 2 eexists; split; try reflexivity; exact I. Qed.

Lemma sample_times_passes : rblk (fold_left (fun r e => times_ray e r) sample ray1) = false.
Proof.
  rewrite times_leaves; auto using sample_leaf_list, sample_passes.
Qed.

Lemma gop_ok_sample : gop_ok (OLoad false sample).
Proof.
  cbn. apply Forall_forall. intros e He. pose proof sample_canon as HF.
  remember sample_o as os. clear Heqos.
  induction HF as [|x o es os Hx HF IH]; [destruct He|].
  destruct He as [<-|He]; auto. exists o. apply built_lib. now apply canon_built.
Qed.

Lemma sample_history :
  gop_ok (OLoad false sample) /\ gop_ok (OAppend (x_lens 50 25)) /\
  gelems (grun (mkGrp m_default []) [OLoad false sample]) = sample.
Proof.
  split; [exact gop_ok_sample|]. split.
  { exists (o_lens 50). apply built_lib, canon_built, c_lens. }
  cbn [grun fold_left gstep load_st]. unfold load_st. cbn [gmat].
  destruct (assemble sample sample_o sample_describes sample_chain m_default) as (g & K1 & K2 & _);
    [discriminate|].
  rewrite append_all_as in K1.
  unfold grun. cbn [fold_left gstep load_st gmat].
  destruct (append_all_st _ sample) as [g' [x|]] eqn:E; [discriminate|].
  cbn in K1. injection K1 as ->. exact K2.
Qed.

Lemma sample_trace : exists e o, built e o /\ Forall not_axicon (leaves e) /\
  oL o = 70 /\ rblk (traceThrough e ray1) = false.
Proof.
  destruct sample_nested as (e & o & Hc & HL & El). exists e, o.
  split; [now apply canon_built|]. rewrite El. split.
  { cbn. repeat constructor. }
  split; auto. rewrite traceThrough_through, through_flatten, El.
  cbn [leaves flat_map x_space]. cbn [app].
  unfold through_leaves. cbn [fold_left fst snd].
  unfold ray1.
  destruct (proj2 (positive_leaf_passes KSpace (mat_of (o_space 5 1) PInf PInf false "") (o_space 5 1)
     1 (1/100) 0 PInf None (mat_of_describes _ _ _ _ _) eq_refl (or_introl eq_refl)) I) as (d & w & E).
  rewrite E.
  assert (forall y th z d w, y = 21/20 -> th = 1/100 ->
    rblk (fold_left (fun r km => through_leaf (fst km) (snd km) r) (flat_map leaves sample)
      (fray y th z false d w)) = false) as HX.
  { clear. intros y th z d w -> ->. unfold sample. cbn [flat_map leaves app x_space x_thick x_lens].
    cbn [fold_left fst snd].
    repeat (match goal with
    | |- context [through_leaf ?k (mat_of ?o ?dd ?na ?f ?l) (fray ?y ?th ?z false ?d ?w)] =>
        let H := fresh in let d' := fresh "d" in let w' := fresh "w" in let E := fresh in
        assert (exists d' w', through_leaf k (mat_of o dd na f l) (fray y th z false d w) =
           fray (A_ (oM o) * y + B_ (oM o) * th) (C_ (oM o) * y + D_ (oM o) * th) (oL o + z) false d' w') as H;
        [ refine (proj2 (positive_leaf_passes k (mat_of o dd na f l) o y th z d w _ _ _) _);
          [apply mat_of_describes|reflexivity| |exact I];
          first [left; reflexivity | right; eexists; split; [reflexivity|]]
        | destruct H as (d' & w' & E); rewrite E; clear E ]
    end).
    2: reflexivity.
    unfold o_thick. cbn. apply Rabs_le. split; lra. }
  apply HX; cbn; lra.
Qed.

Lemma sample_nonneg : zfin ray1 /\ Forall nonneg_leaf (flat_map leaves sample).
Proof.
  split; [eexists; reflexivity|].
  repeat constructor; eexists; (split; [reflexivity|]); cbn; lra.
Qed.

Lemma sample_finite : exists e, Forall finite_leaf (leaves e) /\
  (exists pre m post, leaves e = pre ++ m :: post /\ mdiam (snd m) = Fin 25) /\
  rblk (traceThrough e ray1) = false.
Proof.
  destruct sample_group as (g & G1 & G2 & Gc). exists (grp_elem g).
  assert (leaves (grp_elem g) = flat_map leaves sample) as El
    by (unfold grp_elem; cbn [leaves]; now rewrite G2).
  split.
  - eapply built_finite_leaves; [eapply canon_built; eauto|]. rewrite El. cbn. repeat constructor.
  - rewrite El. split.
    + exists (flat_map leaves (firstn 3 sample)). do 2 eexists. split; [reflexivity|]. reflexivity.
    + rewrite traceThrough_through, through_flatten, El. exact sample_passes.
Qed.
