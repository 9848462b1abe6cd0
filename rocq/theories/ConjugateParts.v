(** Images and magnifications seen element by element: [transferMatrices] opens nested groups, and [magnification] is
    that of the rays. *)
From Coq Require Import Reals Lra List Bool String ZArith Floats.
From Verif Require Import Base Nums Optics Group Spec MatrixProofs ElementProofs GroupProofs
  TraceProofs RayProofs CardinalProofs StrictProofs FlipProofs TransferProofs CardinalMore Imaging ImagingProofs Samples Samples2.
Import ListNotations.
Open Scope list_scope.
Open Scope R_scope.

(** ** The flattened list *)
Lemma flat_leaves (e : @elem XR) : transferMatrices e = map (fun km => Leaf (fst km) (snd km)) (leaves e).
Proof.
  induction e as [k m|gk m es IH] using elem_ind'; [reflexivity|]. cbn [transferMatrices leaves].
  induction IH as [|x t Hx Ht IHt]; [reflexivity|]. cbn [flat_map]. now rewrite map_app, Hx, IHt.
Qed.

Lemma option_fin (a b : option R) : option_map Fin a = option_map Fin b -> a = b.
Proof. destruct a, b; cbn; congruence. Qed.
Lemma describes_unique m o o' : describes m o -> describes m o' -> o = o'.
Proof.
  intros D D'. destruct o as [[a b c d] L nf nb fv bv], o' as [[a' b' c' d'] L' nf' nb' fv' bv'].
  destruct D as [D1 D2 D3 D4 D5 D6 D7 D8 D9], D' as [E1 E2 E3 E4 E5 E6 E7 E8 E9]. cbn in *.
  rewrite D8 in E8. rewrite D9 in E9. apply option_fin in E8, E9. subst fv' bv'. congruence.
Qed.
Lemma forall2_unique (l : list (@kind XR * @mat XR)) : forall os os',
  Forall2 (fun km o => describes (snd km) o) l os -> Forall2 (fun km o => describes (snd km) o) l os' -> os = os'.
Proof.
  induction l as [|x l IH]; intros os os' H H'; inversion H; inversion H'; subst; [reflexivity|].
  f_equal; [eapply describes_unique; eassumption|now apply IH].
Qed.
Lemma forall2_flat (l : list (@kind XR * @mat XR)) os :
  Forall2 (fun (x : @elem XR) o => describes (emat x) o) (map (fun km => Leaf (fst km) (snd km)) l) os <->
  Forall2 (fun km o => describes (snd km) o) l os.
Proof.
  split.
  - revert os. induction l; intros os H; inversion H; subst; constructor; auto.
  - induction 1; constructor; auto.
Qed.

(** C26 for anything the library builds: the parts are the elements at the bottom of the tree *)
Lemma conjugates_parts e o os : canon e o -> Forall2 (fun km o => describes (snd km) o) (leaves e) os ->
  oM o = mprod (map oM os) /\
  exists ps, intermediateConjugates e = Ok (map fin2 ps) /\
    (forall p, In p ps -> exists pre post, pre <> [] /\ os = pre ++ post /\ fst p <> 0 /\
                           image_after pre (fst p) (snd p)) /\
    ForallOrdPairs (fun p q => ~ near p q) ps /\
    (forall pre post pos mag, os = pre ++ post -> pre <> [] -> pos <> 0 ->
       image_after pre pos mag -> exists q, In q ps /\ (q = (pos, mag) \/ near q (pos, mag))).
Proof.
  intros Hc HF. destruct (canon_flat _ _ Hc) as (os' & F' & Hn & HM & HO).
  assert (os' = os) as ->.
  { rewrite flat_leaves in F'. apply forall2_flat in F'. eapply forall2_unique; eassumption. }
  split; [rewrite HO; apply pl_M|].
  apply conjugates_spec; [exact F'|now apply matched_is_chain in HM|exact Hn].
Qed.

(** a lens and its image space in a group of their own *)
Definition inner_o : list optic := [o_lens 5; o_space 30 1].
Lemma nested_sample : exists g : @grp XR, exists o,
  MatrixGroup_new [x_lens 5 25; x_space 30 1] "" = Ok g /\
  (exists g', MatrixGroup_new [x_space 10 1; grp_elem g] "" = Ok g' /\ canon (grp_elem g') o /\
    Forall2 (fun km o => describes (snd km) o) (leaves (grp_elem g')) [o_space 10 1; o_lens 5; o_space 30 1] /\
    exists l, intermediateConjugates (grp_elem g') = Ok (map fin2 l) /\ exists q, In q l /\ (q = (20, -1) \/ near q (20, -1))).
Proof.
  assert (Forall2 canon [x_lens 5 25; x_space 30 1] inner_o) as F1.
  { constructor; [apply c_lens|]. constructor; [apply c_space; lra|constructor]. }
  assert (chain inner_o) as C1.
  { split; [apply p_lens|]. split; [reflexivity|]. split; [apply p_space; lra|exact I]. }
  destruct (MatrixGroup_canon _ _ "" F1 C1) as (g & G1 & G2 & _ & _ & _ & _ & G); [right; intros o t [= <- _]; reflexivity|discriminate|].
  specialize (G _ _ eq_refl). pose (oi := path_optic (o_lens 5) [o_space 30 1]). fold oi in G.
  assert (Forall2 canon [x_space 10 1; grp_elem g] [o_space 10 1; oi]) as F2.
  { constructor; [apply c_space; lra|]. constructor; [exact G|constructor]. }
  assert (chain [o_space 10 1; oi]) as C2.
  { split; [apply p_space; lra|]. split; [reflexivity|]. split; [exact (canon_physical _ _ G)|exact I]. }
  destruct (MatrixGroup_canon _ _ "" F2 C2) as (g' & H1 & H2 & _ & _ & _ & _ & H); [right; intros o t [= <- _]; reflexivity|discriminate|].
  specialize (H _ _ eq_refl).
  exists g, (path_optic (o_space 10 1) [oi]). split; [exact G1|]. exists g'. split; [exact H1|]. split; [exact H|].
  assert (Forall2 (fun km o => describes (snd km) o) (leaves (grp_elem g')) [o_space 10 1; o_lens 5; o_space 30 1]) as HF.
  { unfold grp_elem. cbn [leaves]. rewrite H2. cbn [flat_map leaves grp_elem]. rewrite G2.
    repeat apply Forall2_cons; try apply Forall2_nil; apply mat_of_describes. }
  split; [exact HF|]. destruct (conjugates_parts _ _ _ H HF) as (_ & ps & E & _ & _ & K).
  exists ps. split; [exact E|].
  apply (K [o_space 10 1; o_lens 5] [o_space 30 1]); [reflexivity|discriminate|lra|]. exists 10. cbn. repeat split; lra.
Qed.

(** ** Magnification *)
Lemma magnification_val m o : describes m o ->
  magnification m = if Rltb (Rabs (B_ (oM o))) (/ 100000) then Some (Fin (A_ (oM o)), Fin (D_ (oM o))) else None.
Proof.
  intros D. unfold magnification, isImaging, isAlmostZero. dsc D. now rewrite imaging_fin.
Qed.
Lemma magnification_spec m o : describes m o -> physical o ->
  (B_ (oM o) = 0 -> exists t a, magnification m = Some (Fin t, Fin a) /\
     (forall y th, fst (mapp (oM o) (y, th)) = t * y) /\
     (forall th, mapp (oM o) (0, th) = (0, a * th)) /\ t * a = onf o / onb o) /\
  (/ 100000 <= Rabs (B_ (oM o)) -> magnification m = None).
Proof.
  intros D P. rewrite (magnification_val m o D). split.
  - intros HB. exists (A_ (oM o)), (D_ (oM o)). rewrite HB, Rabs_R0. rewrite Rltb_lt by lra.
    split; [reflexivity|]. unfold mapp. cbn [fst snd]. rewrite HB. split; [intros; ring|].
    split; [intros th; f_equal; ring|]. destruct P as (_ & _ & P). unfold mdet in P. rewrite HB in P. lra.
  - intros H. now rewrite Rltb_ge.
Qed.
Lemma image_magnification m o : describes m o -> physical o -> D_ (oM o) <> 0 ->
  exists d c t a, forwardConjugate m = Ok (Fin d, Some c) /\ magnification c = Some (Fin t, Fin a) /\
    (forall y th, fst (mapp (mmul (free d) (oM o)) (y, th)) = t * y) /\
    (forall th, mapp (mmul (free d) (oM o)) (0, th) = (0, a * th)) /\ t * a = onf o / onb o.
Proof.
  intros D P HD. destruct (forward_spec m o D P HD) as (d & c & oc & E & Dc & HB & _ & Ef & Eb & EM & _).
  assert (physical oc) as Pc.
  { destruct P as (P1 & P2 & P3). unfold physical. rewrite Ef, Eb, EM. split; [exact P1|]. split; [exact P2|].
    rewrite <- P3. unfold mdet, mmul, free. cbn. ring. }
  destruct (proj1 (magnification_spec c oc Dc Pc) HB) as (t & a & K1 & K2 & K3 & K4).
  rewrite Ef, Eb in K4. rewrite EM in K2, K3. exists d, c, t, a. auto.
Qed.
