(** The rays an objective accepts. *)
From Coq Require Import ZArith List Bool String Lia Reals Lra.
From Verif Require Import Base Nums Optics Spec MatrixProofs ElementProofs TraceProofs RayProofs CardinalMore MaterialsProofs Objectives.
Import ListNotations.
Open Scope list_scope.
Open Scope R_scope.

Ltac tidy := cbn [o_space o_lens o_box o_aperture oM oL A_ B_ C_ D_ mid free thin].
(** ** One element *)
Definition wide (d : XR) (y : R) : Prop := d = PInf \/ exists x, d = Fin x /\ Rabs y <= x / 2.
Lemma leaf_pass k o d fl lab y th z (dd : XR) w : match k with KAxicon _ _ => False | _ => True end -> wide d y ->
  through_leaf k (mat_of o d PInf fl lab) (fray y th z false dd w) =
  fray (A_ (oM o) * y + B_ (oM o) * th) (C_ (oM o) * y + D_ (oM o) * th) (oL o + z) false d None.
Proof.
  intros Hk Hd. pose proof (through_leaf_free (k, mat_of o d PInf fl lab) (fray y th z false dd w) eq_refl) as H.
  cbn [fst snd] in H. rewrite H.
  - unfold ideal, fray. cbn. now destruct k.
  - unfold misses, fray. cbn [mdiam mna mat_of ry rth]. change (@c2 XR _) with (Fin 2).
    destruct Hd as [->|(x & -> & Hx)]; cbn.
    + destruct (Rlt_dec 2 0); [lra|reflexivity].
    + destruct (Req_EM_T 2 0); [lra|]. cbn. unfold Rltb. destruct (Rlt_dec (x / 2) (Rabs y)); [lra|reflexivity].
Qed.
Lemma leaf_block k o x fl lab y th z b (dd : XR) w : x / 2 < Rabs y ->
  rblk (through_leaf k (mat_of o (Fin x) PInf fl lab) (fray y th z b dd w)) = true.
Proof.
  intros H. rewrite through_leaf_blocks. unfold misses, fray. cbn [mdiam mna mat_of ry rth rblk]. change (@c2 XR _) with (Fin 2).
  cbn. destruct (Req_EM_T 2 0); [lra|]. cbn. unfold Rltb. destruct (Rlt_dec (x / 2) (Rabs y)); [|lra]. cbn. now destruct b.
Qed.
Lemma steps_cons (km : @kind XR * @mat XR) l r : through_leaves (km :: l) r = through_leaves l (through_leaf (fst km) (snd km) r).
Proof. reflexivity. Qed.

(** ** From the sample: the objective turned around *)
Section Objective.
Variables (f na ftf ba wd : R).
Hypotheses (Hf : f <> 0) (Hna : 0 < na) (Hwd : 0 < wd) (Hba : 0 < ba).

Definition leaves_of (es : list (@elem XR)) := flat_map leaves es.
Definition sample_ok (y th : R) : Prop := Rabs (y + wd * th) <= na * wd /\ Rabs (f * th) <= ba / 2.
Definition back_ok (y th : R) : Prop := Rabs y <= ba / 2 /\ Rabs (f * th + y * wd / f) <= na * wd.

Lemma pinf_wide y : wide PInf y. Proof. now left. Qed.
Ltac passw t := rewrite steps_cons; cbn [fst snd];
  rewrite leaf_pass; [tidy|exact I|first [apply pinf_wide|right; eexists; split; [reflexivity|t]]].
Ltac pass := passw idtac.

Lemma sample_trace y th z (dd : XR) w fl : 
  let out := through_leaves (leaves_of (rev (obj_es fl f na ftf ba wd))) (fray y th z false dd w) in
  (sample_ok y th -> out = fray (f * th) (- y / f) (ftf + z) false (Fin ba) None) /\
  (~ sample_ok y th -> rblk out = true).
Proof.
  unfold obj_es. cbn [rev app]. unfold leaves_of. cbn [flat_map leaves app]. cbv zeta.
  assert (f * (1 / f) = 1) as E by (field; auto).
  split.
  - intros [H1 H2]. pass.
    passw ltac:(replace (1 * y + wd * th) with (y + wd * th) by ring; replace (2 * (na * wd) / 2) with (na * wd) by field; exact H1).

    pass. pass. pass.
    pass.
    match goal with |- context [fray ?a _ _ _ _ _] => replace a with (f * th) by (field; auto) end.
    passw ltac:(exact H2).
    unfold through_leaves. cbn [fold_left]. unfold fray. f_equal; apply f_equal; field; auto.
  - intros Hn. rewrite steps_cons; cbn [fst snd]. rewrite leaf_pass by (exact I || apply pinf_wide). tidy.
    destruct (Rle_dec (Rabs (y + wd * th)) (na * wd)) as [H1|H1].
    + assert (ba / 2 < Rabs (f * th)) as H2. { apply Rnot_le_lt. intros H. apply Hn. split; auto. }
      passw ltac:(replace (1 * y + wd * th) with (y + wd * th) by ring; replace (2 * (na * wd) / 2) with (na * wd) by field; exact H1).

      pass. pass. pass.
      pass.
      match goal with |- context [fray ?a _ _ _ _ _] => replace a with (f * th) by (field; auto) end.
      rewrite steps_cons. cbn [fst snd]. apply through_leaves_blocked. now apply leaf_block.
    + rewrite steps_cons. cbn [fst snd]. apply through_leaves_blocked. apply leaf_block.
      replace (1 * y + wd * th) with (y + wd * th) by ring. lra.
Qed.
Lemma back_trace y th z (dd : XR) w fl :
  let out := through_leaves (leaves_of (obj_es fl f na ftf ba wd)) (fray y th z false dd w) in
  (back_ok y th -> out = fray (f * th) (- y / f) (ftf + z) false PInf None) /\
  (~ back_ok y th -> rblk out = true).
Proof.
  unfold obj_es, leaves_of. cbn [flat_map leaves app]. cbv zeta.
  split.
  - intros [H1 H2]. passw ltac:(exact H1).
    pass. pass. pass.
    pass.
    match goal with |- context [fray ?a _ _ _ _ _] => replace a with (f * th + y * wd / f) by (field; auto) end.
    passw ltac:(replace (2 * (na * wd) / 2) with (na * wd) by field; exact H2).
 pass.
    unfold through_leaves. cbn [fold_left]. unfold fray. f_equal; apply f_equal; field; auto.
  - intros Hn. destruct (Rle_dec (Rabs y) (ba / 2)) as [H1|H1].
    + assert (na * wd < Rabs (f * th + y * wd / f)) as H2. { apply Rnot_le_lt. intros H. apply Hn. split; auto. }
      passw ltac:(exact H1).
      pass. pass. pass.
      pass.
      match goal with |- context [fray ?a _ _ _ _ _] => replace a with (f * th + y * wd / f) by (field; auto) end.
      rewrite steps_cons. cbn [fst snd]. apply through_leaves_blocked. apply leaf_block. lra.
    + rewrite steps_cons. cbn [fst snd]. apply through_leaves_blocked. apply leaf_block. lra.
Qed.

Theorem objective_rays :
  exists e e1, Objective (Fin f) (Fin na) (Fin ftf) (Fin ba) (Fin wd) = Ok e /\ flip e = Ok e1 /\
  (forall y th z (dd : XR) w,
     (rblk (traceThrough e1 (fray y th z false dd w)) = false <-> sample_ok y th) /\
     (sample_ok y th -> traceThrough e1 (fray y th z false dd w) = fray (f * th) (- y / f) (ftf + z) false (Fin ba) None)) /\
  (forall y th z (dd : XR) w,
     (rblk (traceThrough e (fray y th z false dd w)) = false <-> back_ok y th) /\
     (back_ok y th -> traceThrough e (fray y th z false dd w) = fray (f * th) (- y / f) (ftf + z) false PInf None)).
Proof.
  assert (0 < na * wd) as Hp by (apply Rmult_lt_0_compat; auto).
  destruct (objective_full f na ftf ba wd Hf Hp Hba) as (e & e1 & H1 & _ & _ & _ & H5 & _ & _ & _ & (m & Em) & (m1 & Em1)).
  exists e, e1. split; [exact H1|]. split; [exact H5|].
  split; intros y th z dd w; rewrite traceThrough_through, through_flatten.
  - rewrite Em1. change (leaves (Group _ m1 (rev (obj_es true f na ftf ba wd)))) with (leaves_of (rev (obj_es true f na ftf ba wd))).
    destruct (sample_trace y th z dd w true) as [S1 S2]. split; [|exact S1]. split; intros H.
    + destruct (Rle_dec (Rabs (y + wd * th)) (na * wd)); [destruct (Rle_dec (Rabs (f * th)) (ba / 2)); [now split|]|];
        (rewrite S2 in H; [discriminate|unfold sample_ok; tauto]).
    + now rewrite (S1 H).
  - rewrite Em. change (leaves (Group _ m (obj_es false f na ftf ba wd))) with (leaves_of (obj_es false f na ftf ba wd)).
    destruct (back_trace y th z dd w false) as [S1 S2]. split; [|exact S1]. split; intros H.
    + destruct (Rle_dec (Rabs y) (ba / 2)); [destruct (Rle_dec (Rabs (f * th + y * wd / f)) (na * wd)); [now split|]|];
        (rewrite S2 in H; [discriminate|unfold back_ok; tauto]).
    + now rewrite (S1 H).
Qed.
(** light from the focus *)
Lemma axial_ok th : 0 < f -> (sample_ok 0 th <-> Rabs th <= na /\ Rabs th <= ba / (2 * f)).
Proof.
  intros Hfp. unfold sample_ok. rewrite Rplus_0_l, !Rabs_mult, (Rabs_right f), (Rabs_right wd) by lra. split; intros [H1 H2]; split.
  - apply (Rmult_le_reg_l wd); [auto|]. lra.
  - apply (Rmult_le_reg_l f); [auto|]. replace (f * (ba / (2 * f))) with (ba / 2) by (field; auto). exact H2.
  - rewrite (Rmult_comm na). apply Rmult_le_compat_l; lra.
  - apply (Rmult_le_compat_l f) in H2; [|lra]. replace (f * (ba / (2 * f))) with (ba / 2) in H2 by (field; auto). exact H2.
Qed.
End Objective.

(** ** The objectives of the catalogue *)
(** the parameters as numbers *)
Record params := mkParams { p_f : R; p_NA : R; p_ftf : R; p_back : R; p_wd : R; p_mag : option R; p_field : option R }.
Definition is_params (o : objective XR) (p : params) : Prop :=
  o = mkObjective (Fin (p_f p)) (Fin (p_NA p)) (Fin (p_ftf p)) (Fin (p_back p)) (Fin (p_wd p))
    (option_map Fin (p_mag p)) (option_map Fin (p_field p)).
Definition table : list (string * params) := [
  ("LUMPlanFL40X", mkParams (9/2) (8/10) 40 7 2 (Some 40) (Some (265/10)));
  ("XLUMPlanFLN20X", mkParams 9 1 80 22 2 (Some 20) (Some 22));
  ("MVPlapo2XC", mkParams 45 (1/2) 137 45 20 (Some 2) (Some (176/10)));
  ("UMPLFN20XW", mkParams 9 (1/2) 45 9 (35/10) (Some 20) (Some (265/10)));
  ("XLPLN25X", mkParams (36/5) (105/100) 75 18 2 (Some 25) (Some 18));
  ("LWD16X", mkParams (25/2) (156/100) 75 20 3 None None)]%string.
Lemma table_ok : Forall2 (fun o p => fst o = fst p /\ is_params (snd o) (snd p)) objectives table.
Proof.
  unfold objectives, table.
  repeat (apply Forall2_cons || apply Forall2_nil); (split; [reflexivity|]); unfold is_params;
    cbn [fst snd p_f p_NA p_ftf p_back p_wd p_mag p_field option_map]; rewrite ?ndec_xr by lia; cbn;
    repeat match goal with |- context [Req_EM_T ?a ?b] => destruct (Req_EM_T a b); [exfalso; lra|] end; cbn;
    f_equal; try (apply f_equal; lra); do 2 apply f_equal; lra.
Qed.
Definition sane (p : params) : Prop := 0 < p_f p /\ 0 < p_NA p /\ 0 < p_wd p /\ 0 < p_back p.
Lemma table_sane : Forall (fun p => sane (snd p)) table.
Proof. unfold table. repeat (apply Forall_cons || apply Forall_nil); unfold sane; cbn; lra. Qed.

(** the numerical aperture an objective really has *)
Definition reached (p : params) : R := Rmin (p_NA p) (p_back p / (2 * p_f p)).
Lemma objectives_in name (o : objective XR) : In (name, o) objectives ->
  exists p, In (name, p) table /\ is_params o p /\ sane p.
Proof.
  intros H. pose proof table_ok as T. pose proof table_sane as S.
  revert S T H. generalize (@objectives XR _) as l. generalize table as t.
  intros t l S T. revert S. induction T as [|[n1 o1] [n2 p2] l t [E1 E2] T IH]; intros S H; [destruct H|].
  inversion S as [|? ? S1 S2]; subst. cbn [fst snd] in *. destruct H as [H|H].
  - injection H as -> ->. subst. exists p2. split; [now left|]. split; [exact E2|exact S1].
  - destruct (IH S2 H) as (p & Hp & H2). exists p. split; [now right|exact H2].
Qed.
Theorem objective_NA name (o : objective XR) : In (name, o) objectives ->
  exists p e e1, is_params o p /\ In (name, p) table /\ build o = Ok e /\ flip e = Ok e1 /\
  forall th, rblk (traceThrough e1 (Ray_new (Fin 0) (Fin th))) = false <-> Rabs th <= reached p.
Proof.
  intros H. destruct (objectives_in _ _ H) as (p & Hp & E & (S1 & S2 & S3 & S4)).
  destruct (objective_rays (p_f p) (p_NA p) (p_ftf p) (p_back p) (p_wd p)) as (e & e1 & H1 & H2 & H3 & _); auto; [lra|].
  exists p, e, e1. split; [exact E|]. split; [exact Hp|]. split; [unfold build; now rewrite E|]. split; [exact H2|]. intros th.
  change (Ray_new (Fin 0) (Fin th)) with (fray 0 th 0 false PInf None). rewrite (proj1 (H3 0 th 0 PInf None)).
  rewrite axial_ok by (auto; lra). unfold reached. split; [intros [A B]; now apply Rmin_glb|intros A].
  split; eapply Rle_trans; try exact A; [apply Rmin_l|apply Rmin_r].
Qed.
(** the two objectives whose back aperture is too small for their numerical aperture *)
Definition vignetted : list string := ["LUMPlanFL40X"; "LWD16X"]%string.
Theorem objective_NA_reached name (o : objective XR) : In (name, o) objectives -> ~ In name vignetted ->
  exists na e e1, ob_NA o = Fin na /\ build o = Ok e /\ flip e = Ok e1 /\
  forall th, rblk (traceThrough e1 (Ray_new (Fin 0) (Fin th))) = false <-> Rabs th <= na.
Proof.
  intros H Hv. destruct (objective_NA _ _ H) as (p & e & e1 & Ep & Hp & H1 & H2 & H3).
  exists (p_NA p), e, e1. split; [now rewrite Ep|]. split; [exact H1|]. split; [exact H2|].
  assert (reached p = p_NA p) as E.
  { unfold reached. unfold table in Hp. cbn [In] in Hp.
    repeat (destruct Hp as [Hp|Hp]; [injection Hp as <- <-|]); try contradiction;
      try (exfalso; apply Hv; cbn; tauto); apply Rmin_left; cbn; lra. }
  rewrite <- E. exact H3.
Qed.

(** ** The largest optical invariant *)
Lemma front_invariant gk m d t th y ph : 0 < d ->
  opticalInvariant (Group gk m (Leaf KSpace (mat_of (o_space d 1) PInf PInf true "") :: t))
    (Ray_new (Fin 0) (Fin th)) (Ray_new (Fin y) (Fin ph)) (Fin 0) = Ok (Fin (th * y)).
Proof.
  intros Hd. unfold opticalInvariant. rewrite transferMatrix_group. unfold group_transfer. rewrite Matrix_default_ok. cbn [bind].
  cbn [transfer_loop emat mL mat_of o_space oL nleb NumXR xleb]. unfold Rleb. destruct (Rle_dec d 0); [lra|].
  cbn [transferMatrix transfer_leaf mL mat_of o_space oL nltb NumXR xltb]. unfold Rltb. destruct (Rlt_dec 0 d); [|lra].
  cbn [mfi mat_of o_space onf]. change (@ninf XR _) with PInf. rewrite Space_ok by (try exact I; lra). cbn [bind emat].
  destruct (first_tracks _ _ (mat_of_describes (o_space 0 1) PInf PInf false "") (p_space 0 1 ltac:(lra))) as (p & Ep & T & E1 & E2).
  rewrite Ep. cbn [bind emat].
  assert (describes p (o_space 0 1)) as D.
  { destruct T as [D|[_ D]]; [exact D|]. cbn [o_space oL ofv obv] in D. exact D. }
  assert (forall a b, traceThrough (Leaf KMatrix p) (Ray_new (Fin a) (Fin b)) = fray a b 0 false PInf None) as HT.
  { intros a b. rewrite traceThrough_through. cbn [through].
    rewrite (mat_is _ _ D), E1, E2. change (Ray_new (Fin a) (Fin b)) with (fray a b 0 false PInf None).
    rewrite leaf_pass by (exact I || now left). tidy. unfold fray. f_equal; apply f_equal; ring. }
  rewrite !HT. rewrite (d_nb _ _ D). cbn. apply (f_equal (fun x => Ok (Fin x))). ring.
Qed.
Theorem invariant_bound (o : objective XR) p v : is_params o p -> sane p -> maximumOpticalInvariant o = Ok v ->
  exists m fn, p_mag p = Some m /\ p_field p = Some fn /\ m <> 0 /\ v = Fin (fn / 2 / m * p_NA p) /\
  exists e e1, build o = Ok e /\ flip e = Ok e1 /\
  forall th y ph, rblk (traceThrough e1 (Ray_new (Fin 0) (Fin th))) = false -> Rabs y <= fn / 2 / m ->
    exists i, opticalInvariant e1 (Ray_new (Fin 0) (Fin th)) (Ray_new (Fin y) (Fin ph)) (Fin 0) = Ok (Fin i) /\
      Rabs i <= fn / 2 / m * p_NA p.
Proof.
  intros E (S1 & S2 & S3 & S4). rewrite E. unfold maximumOpticalInvariant. cbn [ob_mag ob_field ob_NA].
  destruct (p_mag p) as [m|]; [|discriminate]. destruct (p_field p) as [fn|]; [|discriminate]. cbn [option_map].
  unfold pdiv. change (@c0 XR _) with (Fin 0). change (@c2 XR _) with (Fin 2). cbn [neqb NumXR xeqb].
  destruct (Reqb m 0) eqn:Em; [discriminate|]. intros [= <-]. exists m, fn.
  assert (m <> 0) as Hm. { unfold Reqb in Em. destruct (Req_EM_T m 0); [discriminate|auto]. }
  split; [reflexivity|]. split; [reflexivity|]. split; [exact Hm|].
  split. { cbn. destruct (Req_EM_T 2 0); [lra|]. cbn. destruct (Req_EM_T m 0); [lra|]. reflexivity. }
  assert (0 < p_NA p * p_wd p) as Hp by (apply Rmult_lt_0_compat; auto).
  destruct (objective_rays (p_f p) (p_NA p) (p_ftf p) (p_back p) (p_wd p)) as (e & e1 & H1 & H2 & H3 & _); auto; [lra|].
  exists e, e1. split; [rewrite E; exact H1|]. split; [exact H2|]. intros th y ph H Hy. exists (th * y).
  split.
  { destruct (objective_full (p_f p) (p_NA p) (p_ftf p) (p_back p) (p_wd p) ltac:(lra) Hp S4) as (e' & e1' & F1 & _ & _ & _ & F5 & _ & _ & _ & _ & (m1 & ->)).
    assert (e' = e) by congruence. subst e'. rewrite H2 in F5. injection F5 as ->. now apply front_invariant. }
  change (Ray_new (Fin 0) (Fin th)) with (fray 0 th 0 false PInf None) in H. apply (proj1 (H3 0 th 0 PInf None)) in H.
  apply axial_ok in H as [H _]; auto; try lra. rewrite Rabs_mult, Rmult_comm.
  apply Rmult_le_compat; auto using Rabs_pos.
Qed.
