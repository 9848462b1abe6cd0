(** What the invariant of group histories (GroupProofs) means for the attributes of a
    group: C05, C06, C07. *)
From Coq Require Import Reals Lra List Bool String ZArith.
From Verif Require Import Base Nums Optics Group Spec MatrixProofs ElementProofs GroupProofs.
Import ListNotations.
Open Scope R_scope.

(** C05, any numbers *)
Theorem history_in_step {T} {N : Num T} (g0 : @grp T) (os : list (@gop T)) :
  gelems g0 = [] -> all_succeed g0 os ->
  let g := grun g0 os in
  gelems g <> [] ->
  exists p, group_transfer (gelems g) ninf = Ok p /\
    mA (gmat g) = mA p /\ mB (gmat g) = mB p /\ mC (gmat g) = mC p /\ mD (gmat g) = mD p /\
    mL (gmat g) = mL p /\ mfv (gmat g) = mfv p /\ mbv (gmat g) = mbv p /\
    mfi (gmat g) = mfi p /\ mbi (gmat g) = mbi p.
Proof.
  intros H0 Hs g Hne.
  destruct (grun_in_step os g0) as (p & E & K); auto.
  { intros C. congruence. }
  exists p. split; [exact E|]. unfold g. rewrite K. cbn. repeat split; reflexivity.
Qed.

(** C05, exact numbers, failed operations included *)
Theorem history_product (g0 : @grp XR) (ops : list (@gop XR)) :
  gelems g0 = [] -> Forall gop_ok ops ->
  let g := grun g0 ops in
  gelems g <> [] ->
  exists o t, let P := path_optic o t in
    Forall2 (fun e x => describes (emat e) x) (gelems g) (o :: t) /\ chain (o :: t) /\
    oM P = mprod (map oM (o :: t)) /\ oL P = total_length (o :: t) /\
    mA (gmat g) = Fin (A_ (oM P)) /\ mB (gmat g) = Fin (B_ (oM P)) /\
    mC (gmat g) = Fin (C_ (oM P)) /\ mD (gmat g) = Fin (D_ (oM P)) /\
    mL (gmat g) = Fin (oL P) /\ mfv (gmat g) = option_map Fin (ofv P) /\
    mbv (gmat g) = option_map Fin (obv P) /\
    (oM P <> mid -> mfi (gmat g) = mfi (emat (hd (grp_elem g) (gelems g))) /\
                    mbi (gmat g) = Fin (onb (List.last t o))).
Proof.
  intros H0 Hok g Hne.
  destruct (grun_inv ops g0) as (os & HF & HC & HT); auto.
  { exists []. rewrite H0. cbn. auto. }
  fold g in HF, HT. destruct os as [|o t]; [inversion HF; congruence|].
  exists o, t. cbn zeta. split; [now apply Forall2_lib_desc|]. split; auto.
  split; [apply path_optic_prod|]. split; [apply path_optic_L|].
  destruct HT as [D|[Hid D]].
  - dsc D. repeat split; auto.
    + rewrite path_optic_nf. inversion HF as [|e ? es ? He _ Eq]; subst. cbn.
      symmetry. apply (lib_describes _ _ He).
    + now rewrite path_optic_nb.
  - dsc D. cbn [oM oL ofv obv]. rewrite <- Hid. repeat split; auto; intros; congruence.
Qed.

Lemma matched_neighbours es os : Forall2 (fun e o => describes (emat e) o) es os ->
  forall n, matched n os -> forall pre a b post, es = pre ++ a :: b :: post ->
  mbi (emat a) = mfi (emat b).
Proof.
  induction 1 as [|e o es os He HF IH]; intros n HM pre a b post E.
  - destruct pre; discriminate.
  - cbn in HM. destruct HM as (_ & _ & HM). destruct pre as [|x pre]; cbn in E.
    + injection E as -> ->. inversion HF as [|? o2 ? os2 Hb _]; subst. cbn in HM.
      rewrite (d_nb _ _ He), (d_nf _ _ Hb). destruct HM as [-> _]. reflexivity.
    + injection E as -> ->. eapply IH; eauto.
Qed.

(** C06 *)
Theorem history_matched (g0 : @grp XR) (ops : list (@gop XR)) :
  gelems g0 = [] -> Forall gop_ok ops ->
  forall pre a b post, gelems (grun g0 ops) = pre ++ a :: b :: post ->
  mbi (emat a) = mfi (emat b).
Proof.
  intros H0 Hok pre a b post E.
  destruct (grun_inv ops g0) as (os & HF & HC & _); auto.
  { exists []. rewrite H0. cbn. auto. }
  destruct os as [|o t]; [inversion HF as [Q|]; rewrite <- Q in E; destruct pre; discriminate|].
  destruct HC as [P HM].
  eapply (matched_neighbours _ _ (Forall2_lib_desc _ _ HF) (onf o)); [cbn; auto|exact E].
Qed.

(** C07 *)
Theorem append_safe (g0 : @grp XR) (ops : list (@gop XR)) e o g' x :
  gelems g0 = [] -> Forall gop_ok ops -> lib e o ->
  append_st (grun g0 ops) e = (g', Some x) -> g' = grun g0 ops /\ x = ValueError.
Proof.
  intros H0 Hok He E.
  destruct (append_st_cases (grun g0 ops) e o) as [K|(g2 & K & _)]; auto.
  - apply grun_inv; auto. exists []. rewrite H0. cbn. auto.
  - rewrite K in E. now injection E as <- <-.
  - rewrite K in E. discriminate.
Qed.
