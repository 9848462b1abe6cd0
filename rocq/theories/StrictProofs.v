(** Groups whose attributes are exactly those of the pieces they contain: everything the
    library builds, except groups made only of identity matrices outside air. *)
From Coq Require Import ZArith Reals Lra Lia List Bool String.
From Verif Require Import Base Nums Optics Group Spec MatrixProofs ElementProofs GroupProofs
  TraceProofs RayProofs CardinalProofs.
Import ListNotations.
Open Scope R_scope.

(** some piece does something, or the path is in air *)
Definition good (os : list optic) : Prop :=
  (exists o, In o os /\ oM o <> mid) \/ (forall o t, os = o :: t -> onf o = 1).

Lemma M2_dec (P Q : M2) : {P = Q} + {P <> Q}.
Proof.
  destruct P as [a b c d], Q as [a' b' c' d'].
  destruct (Req_EM_T a a'); [|right; congruence].
  destruct (Req_EM_T b b'); [|right; congruence].
  destruct (Req_EM_T c c'); [|right; congruence].
  destruct (Req_EM_T d d'); [left|right]; congruence.
Qed.

Lemma mul_matrix_strict me tm o acc : describes me o -> tracks tm acc ->
  physical o -> physical acc -> onf o = onb acc -> describes tm acc \/ oM o <> mid ->
  exists p, mul_matrix me tm = Ok p /\ describes p (ocomp o acc) /\
            mdiam p = PInf /\ mna p = PInf.
Proof.
  intros He Ht Po Pa E [Hd|Hn].
  - now apply mul_matrix_matched.
  - destruct Ht as [Ht | [Hid Ht]]; [now apply mul_matrix_matched|].
    assert (isIdentity me = false) as Ie.
    { destruct (isIdentity me) eqn:I; auto. apply (isIdentity_describes _ _ He) in I. tauto. }
    assert (isIdentity tm = true) as It by (apply (isIdentity_describes _ _ Ht); auto).
    destruct (mul_matrix_gen _ _ _ _ (onf o) (onb o) He Ht) as (p & H1 & H2 & H3).
    + unfold mul_idx. rewrite Ie, It. dsc He. auto.
    + apply Po.
    + cbn. rewrite mdet_id, Rmult_1_r. apply Po.
    + exists p; split; auto. split; auto. cbn in *.
      rewrite mmul_id_r in H2.
      replace (ocomp o acc) with
        (mkO (oM o) (oL acc + oL o) (onf o) (onb o) (ofv (ocomp o acc)) (obv (ocomp o acc)));
        [exact H2|].
      apply optic_eq; try reflexivity.
      * cbn. rewrite Hid. symmetry; apply mmul_id_r.
      * cbn. rewrite E. symmetry. apply physical_id; auto.
Qed.

Lemma transfer_loop_strict es os tm acc :
  Forall2 (fun e o => describes (emat e) o) es os ->
  tracks tm acc -> physical acc -> matched (onb acc) os ->
  describes tm acc \/ (exists o, In o os /\ oM o <> mid) ->
  exists p, transfer_loop es tm PInf = Ok p /\ describes p (path_optic acc os).
Proof.
  intros HF. revert tm acc. induction HF as [|e o es os He HF IH]; intros tm acc Ht Pa Hm Hg.
  - exists tm. cbn. split; auto. destruct Hg as [|[? [[] _]]]; auto.
  - cbn in Hm. destruct Hm as (E & Po & Hm).
    cbn [transfer_loop]. rewrite (d_L _ _ He). cbn [nleb NumXR xleb].
    change (nsub PInf (Fin (oL o))) with PInf.
    assert (physical (ocomp o acc)) by (apply physical_ocomp; auto).
    destruct (M2_dec (oM o) mid) as [Mi|Mi].
    + destruct (mul_matrix_tracks _ _ _ _ He Ht Po Pa E) as (p & H1 & H2 & H3).
      rewrite H1. cbn [bind].
      apply IH; auto.
      destruct Hg as [Hg|(x & Hx & Hn)].
      * left. destruct (mul_matrix_strict _ _ _ _ He Ht Po Pa E (or_introl Hg)) as (p' & K1 & K2 & _).
        congruence.
      * right. destruct Hx as [->|Hx]; [tauto|eauto].
    + destruct (mul_matrix_strict _ _ _ _ He Ht Po Pa E (or_intror Mi)) as (p & H1 & H2 & H3).
      rewrite H1. cbn [bind]. apply IH; auto. left; auto.
Qed.

Lemma group_transfer_strict e es o os :
  Forall2 (fun e o => describes (emat e) o) (e :: es) (o :: os) ->
  chain (o :: os) -> good (o :: os) ->
  exists p, group_transfer (e :: es) PInf = Ok p /\ describes p (path_optic o os) /\
    physical (path_optic o os) /\ mdiam p = PInf /\ mna p = PInf.
Proof.
  intros HF HC HG.
  destruct (group_transfer_inf e es o os HF HC) as (p & G1 & G2 & G3 & G4 & G5).
  exists p. split; auto. split; auto.
  destruct HC as [Po Hm].
  destruct HG as [HG|HA].
  - unfold group_transfer in G1. rewrite Matrix_default_ok in G1. cbn [bind] in G1.
    pose (acc := mkO mid 0 (onf o) (onf o) None None).
    assert (tracks m_default acc) as Ht by (right; split; [reflexivity|apply default_describes]).
    assert (physical acc) as Pa.
    { unfold physical; cbn. destruct Po as (H & _ & _). repeat split; auto.
      rewrite mdet_id. field; auto. }
    destruct (transfer_loop_strict (e :: es) (o :: os) m_default acc HF Ht Pa) as (q & K1 & K2);
      [cbn; auto|right; auto|].
    rewrite G1 in K1. injection K1 as <-.
    unfold path_optic in *. cbn [fold_left] in K2.
    replace o with (ocomp o acc); auto.
    apply optic_eq; cbn; auto.
    + apply mmul_id_r.
    + ring.
    + destruct (ofv o); cbn; f_equal; ring.
    + destruct (obv o); cbn; f_equal; ring.
  - specialize (HA o os eq_refl).
    destruct G2 as [|[Hid Hd]]; auto.
    pose proof (physical_id _ G3 Hid) as En. rewrite path_optic_nf, HA in En.
    replace (path_optic o os) with
      (mkO mid (oL (path_optic o os)) 1 1 (ofv (path_optic o os)) (obv (path_optic o os))); auto.
    apply optic_eq; cbn; auto. now rewrite path_optic_nf.
Qed.

Lemma physical_path o os : chain (o :: os) -> physical (path_optic o os).
Proof.
  cbn. intros [P M]. revert o P M. induction os as [|x t IH]; intros o P M; cbn; auto.
  cbn in M. destruct M as (E & Px & M). apply IH; auto.
  now apply physical_ocomp.
Qed.

(** [canon e o]: an element as the library builds it, described exactly by [o] *)
Inductive canon : @elem XR -> optic -> Prop :=
| canon_leaf k m o : describes m o -> physical o -> leaf_spec k o -> canon (Leaf k m) o
| canon_group m e es o1 os :
    Forall2 canon (e :: es) (o1 :: os) -> chain (o1 :: os) -> good (o1 :: os) ->
    describes m (path_optic o1 os) ->
    canon (Group GGroup m (e :: es)) (path_optic o1 os).

Lemma canon_describes e o : canon e o -> describes (emat e) o.
Proof. destruct 1; auto. Qed.
Lemma canon_physical e o : canon e o -> physical o.
Proof. destruct 1; auto. now apply physical_path. Qed.

Lemma Forall2_canon_desc es os : Forall2 canon es os ->
  Forall2 (fun e o => describes (emat e) o) es os.
Proof. induction 1; constructor; auto using canon_describes. Qed.

Lemma Forall2_imp_in {A B} (P Q : A -> B -> Prop) l l' :
  Forall2 P l l' -> Forall (fun a => forall b, P a b -> Q a b) l -> Forall2 Q l l'.
Proof.
  induction 1; intros HF; constructor; inversion HF; subst; auto.
Qed.

Lemma canon_built : forall e o, canon e o -> built e o.
Proof.
  induction e as [k m | gk m es IH] using elem_ind'; intros o H; inversion H; subst.
  - constructor; auto.
  - econstructor; eauto using physical_path.
    eapply Forall2_imp_in; eauto.
Qed.

(** what the constructor builds *)
Lemma MatrixGroup_canon es os lab : Forall2 canon es os -> chain os -> good os -> os <> [] ->
  exists g, MatrixGroup_new es lab = Ok g /\ gelems g = es /\ mlabel (gmat g) = lab /\
    mdiam (gmat g) = PInf /\ mna (gmat g) = PInf /\ mflip (gmat g) = false /\
    forall o t, os = o :: t -> canon (grp_elem g) (path_optic o t).
Proof.
  intros HF HC HG Hn.
  destruct (MatrixGroup_new_ok es os lab (Forall2_canon_desc _ _ HF) HC Hn)
    as (g & K1 & K2 & K3 & K4 & K5 & K6 & K7).
  exists g. repeat split; auto. intros o t ->.
  destruct es as [|e es]; [inversion HF|].
  destruct (group_transfer_strict e es o t (Forall2_canon_desc _ _ HF) HC HG) as (p & G1 & G2 & _).
  assert (exists m, gmat g = copy_attrs m p) as [m Em].
  { rewrite <- K2 in G1.
    assert (in_step g) as S.
    { unfold MatrixGroup_new in K1. destruct (Matrix_init _ _ _ _ _ _ _ _ _ _ _ _); [|discriminate].
      cbn [bind] in K1. rewrite append_all_as in K1.
      destruct (append_all_st (mkGrp a []) (e :: es)) as [g' [x|]] eqn:E; [discriminate|].
      cbn in K1. injection K1 as ->. eapply append_all_in_step; eauto. intros C; now elim C. }
    destruct S as (p' & E' & S); [rewrite K2; discriminate|]. exists (gmat g). cbn [ninf NumXR] in E'. rewrite G1 in E'. injection E' as <-.
    exact S. }
  unfold grp_elem. rewrite K2. constructor; auto. rewrite Em.
  constructor; cbn; apply G2.
Qed.
