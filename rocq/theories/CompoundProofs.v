(** Images formed one element after the other. *)
From Coq Require Import Reals Lra List Bool String.
From Verif Require Import Base Nums Optics Group Spec MatrixProofs ElementProofs GroupProofs CardinalProofs StrictProofs TransferProofs.
Import ListNotations.
Open Scope list_scope.
Open Scope R_scope.

(** [imaged n x es d m]: with the object a distance [x] in front of the first of [es], in a medium of index [n], the image of each
    element being the object of the next, the last image is [d] behind the last one and [m] times as high as the object.
    Every stage is asked from the library: forwardConjugate of the element behind Space(x). *)
Inductive imaged : R -> R -> list (@elem XR) -> R -> R -> Prop :=
| im_nil n x : imaged n x [] (- x) 1
| im_cons n x e es s p d c a n' d' m :
    SpaceM (Fin x) (Fin n) PInf = Ok s -> mul_matrix (emat e) s = Ok p -> forwardConjugate p = Ok (Fin d, Some c) -> mA c = Fin a ->
    mbi (emat e) = Fin n' -> imaged n' (- d) es d' m -> imaged n x (e :: es) d' (a * m).

(** the matrix of what follows *)
Definition after_all (os : list optic) : M2 := fold_left (fun acc o => mmul (oM o) acc) os mid.
Lemma mmul_assoc P Q S : mmul P (mmul Q S) = mmul (mmul P Q) S.
Proof. unfold mmul. cbn. f_equal; ring. Qed.
Lemma after_acc os : forall M, fold_left (fun acc o => mmul (oM o) acc) os M = mmul (after_all os) M.
Proof.
  unfold after_all. induction os as [|o os IH]; intros M; cbn [fold_left].
  - destruct M. unfold mmul, mid; cbn. f_equal; ring.
  - rewrite IH, (IH (mmul (oM o) mid)), !mmul_assoc. f_equal. rewrite <- !mmul_assoc. f_equal. destruct (oM o); unfold mmul, mid; cbn; f_equal; ring.
Qed.
Lemma path_matrix os : forall o, oM (path_optic o os) = mmul (after_all os) (oM o).
Proof.
  intros o. rewrite <- after_acc. unfold path_optic. revert o. induction os as [|a os IH]; intros o; [reflexivity|]. cbn [fold_left]. rewrite IH. reflexivity.
Qed.

Lemma chain_physical os : forall o, chain (o :: os) -> physical (path_optic o os).
Proof.
  unfold path_optic. induction os as [|a os IH]; intros o (P & M); [exact P|]. cbn [fold_left]. destruct M as (E & Pa & M). apply IH. split; [|exact M].
  now apply physical_ocomp.
Qed.

Lemma imaged_matrix n x es d m : imaged n x es d m -> forall os, Forall2 (fun e o => describes (emat e) o) es os -> n <> 0 -> matched n os ->
  let Q := mmul (after_all os) (free x) in D_ Q <> 0 /\ d = - B_ Q / D_ Q /\ m = A_ Q + d * C_ Q.
Proof.
  induction 1 as [n x|n x e es s p d c a n' d' m ES EP EC EA EN HI IH]; intros os HF Hn HM.
  - inversion HF; subst. unfold after_all. cbn. repeat split; try field; try lra.
  - inversion HF as [|? o ? os' De HF']; subst. destruct HM as (Hof & Po & HM').
    rewrite SpaceM_ok in ES by (try exact I; exact Hn). injection ES as <-.
    destruct (mul_matrix_matched (emat e) (mat_of (o_space x n) PInf PInf false "") o (o_space x n) De (mat_of_describes _ _ _ _ _) Po (p_space _ _ Hn) Hof) as (p' & E & Dp & _).
    rewrite E in EP. injection EP as ->.
    assert (physical (ocomp o (o_space x n))) as Pp by (apply physical_ocomp; [exact Po|apply p_space; exact Hn|exact Hof]).
    destruct (Req_dec (D_ (oM (ocomp o (o_space x n)))) 0) as [Z|Z].
    { destruct (forward_none _ _ Dp Pp Z) as (F & _). rewrite F in EC. discriminate. }
    destruct (forward_ok _ _ Dp Pp Z) as (c' & F & Dc). rewrite F in EC. injection EC as <- <-.
    pose proof (d_nb _ _ De) as En. rewrite EN in En. injection En as ->.
    pose proof (d_A _ _ Dc) as Ea. rewrite EA in Ea. injection Ea as ->.
    specialize (IH os' HF' (proj1 (proj2 Po)) HM'). cbn zeta in *.
    unfold after_all. cbn [fold_left]. rewrite after_acc.
    cbn [ocomp o_space oM] in *. clear - IH Z.
    destruct (after_all os') as [A B C D], (oM o) as [a b c0 d]. unfold mmul, free, mid in *. cbn in *.
    destruct IH as (I1 & I2 & I3).
    set (q := c0 * x + d * 1) in *. set (w := a * x + b * 1) in *.
    assert (- (A * - (- w / q) + B * 1) / (C * - (- w / q) + D * 1) = d') as K by congruence.
    assert (C * w + D * q <> 0) as K0.
    { intros K0. apply I1. replace (C * - (- w / q) + D * 1) with ((C * w + D * q) / q) by (field; exact Z). rewrite K0. field. exact Z. }
    assert (C * - (- w / q) + D * 1 = (C * w + D * q) / q) as KD by (field; exact Z).
    assert (d' = - (A * w + B * q) / (C * w + D * q)) as Kd. { rewrite <- K, KD. field. repeat split; auto. }
    split; [|split].
    + intros H. apply K0. rewrite <- H. unfold w, q. ring.
    + rewrite Kd. unfold w, q. f_equal; ring.
    + rewrite I3, Kd. clearbody w q. field. split; assumption.
Qed.

Theorem image_of_images n x es os d m : es <> [] -> Forall2 (fun e o => describes (emat e) o) es os -> n <> 0 -> matched n os -> imaged n x es d m ->
  exists s g c, Space (Fin x) (Fin n) PInf = Ok s /\ MatrixGroup_new (s :: es) "" = Ok g /\ forwardConjugate (gmat g) = Ok (Fin d, Some c) /\ mA c = Fin m.
Proof.
  intros _ HF Hn HM HI. pose proof (imaged_matrix n x es d m HI os HF Hn HM) as K. cbn zeta in K.
  exists (Leaf KSpace (mat_of (o_space x n) PInf PInf false "")).
  assert (chain (o_space x n :: os)) as HC by (split; [now apply p_space|exact HM]).
  destruct (MatrixGroup_new_ok (Leaf KSpace (mat_of (o_space x n) PInf PInf false "") :: es) (o_space x n :: os) "") as (g & G1 & _ & _ & _ & _ & _ & G);
    [constructor; [apply mat_of_describes|exact HF]|exact HC|discriminate|].
  specialize (G _ _ eq_refl).
  assert (exists o, describes (gmat g) o /\ physical o /\ oM o = mmul (after_all os) (free x)) as (o & Do & Po & Eo).
  { destruct G as [G|(E & G)].
    - exists (path_optic (o_space x n) os). split; [exact G|]. split; [now apply chain_physical|]. apply path_matrix.
    - eexists. split; [exact G|]. split; [unfold physical, mdet; cbn; repeat split; lra|]. cbn [oM]. rewrite <- E. apply path_matrix. }
  destruct K as (K1 & K2 & K3). rewrite <- Eo in K1, K2, K3.
  destruct (forward_ok _ _ Do Po K1) as (c & F & Dc). rewrite <- K2 in F. rewrite <- K2 in Dc.
  exists g, c. split; [apply Space_ok; [exact Hn|exact I]|]. split; [exact G1|]. split; [exact F|].
  rewrite (d_A _ _ Dc), K3. f_equal. cbn. ring.
Qed.
