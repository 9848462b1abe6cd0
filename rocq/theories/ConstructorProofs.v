(** Facts about the constructors and the product of matrices: C01 (as an explicit
    product), C02, C03, C04, C09. *)
From Coq Require Import Reals Lra List Bool String.
From Verif Require Import Base Nums Optics Spec MatrixProofs ElementProofs GroupProofs
  TraceProofs RayProofs CardinalProofs.
Import ListNotations.
Open Scope R_scope.

(** ** C04 *)
Definition not_positive (x : XR) : Prop := match x with Fin r => r <= 0 | NInf => True | _ => False end.

Lemma not_positive_nleb d : nleb d (@c0 XR _) = true <-> not_positive d.
Proof.
  destruct d; cbn; try tauto; try (split; [discriminate|tauto]).
  change (@c0 XR _) with (Fin 0). cbn. split; intros H; now apply Rleb_true.
Qed.

Lemma det_tol a b c d fi bi : bi <> 0 ->
  areAbsolutelyNotEqual (det_of (Fin a) (Fin b) (Fin c) (Fin d)) (Fin (fi / bi)) (@eps5 XR _) = true
  <-> 1/100000 < Rabs (a * d - b * c - fi / bi).
Proof.
  intros H. rewrite det_of_fin. unfold areAbsolutelyNotEqual. rewrite eps5_val. cbn.
  split; intros K; now apply Rltb_true.
Qed.

Theorem Matrix_init_iff a b c d l fv bv fi bi diam na lab :
  (exists m, Matrix_init (Fin a) (Fin b) (Fin c) (Fin d) l fv bv (Fin fi) (Fin bi) diam na lab = Ok m)
  <-> ~ not_positive diam /\ ~ not_positive na /\ bi <> 0 /\
      Rabs (a * d - b * c - fi / bi) <= 1/100000.
Proof.
  unfold Matrix_init. rewrite <- !not_positive_nleb.
  destruct (nleb diam c0); [split; [intros [m E]; discriminate|intros ([] & _); auto]|].
  destruct (nleb na c0); [split; [intros [m E]; discriminate|intros (_ & [] & _); auto]|].
  destruct (Req_EM_T bi 0) as [->|Hb].
  - rewrite pdiv_zero. cbn. split; [intros [m E]; discriminate|]. intros (_ & _ & [] & _); auto.
  - rewrite pdiv_fin by auto. cbn [bind].
    destruct (areAbsolutelyNotEqual _ _ _) eqn:E.
    + apply det_tol in E; auto. split; [intros [m K]; discriminate|]. intros (_ & _ & _ & K). lra.
    + split; [|intros _; eauto]. intros _. repeat split; auto; try discriminate.
      apply Rnot_lt_le. intros K. apply det_tol in K; auto. congruence.
Qed.

Theorem Matrix_init_error a b c d l fv bv fi bi diam na lab e :
  Matrix_init (Fin a) (Fin b) (Fin c) (Fin d) l fv bv (Fin fi) (Fin bi) diam na lab = Err e ->
  (not_positive diam \/ not_positive na) /\ e = ValueError \/
  (bi = 0 /\ e = ZeroDivisionError) \/
  (bi <> 0 /\ 1/100000 < Rabs (a * d - b * c - fi / bi) /\ e = ValueError).
Proof.
  unfold Matrix_init. rewrite <- !not_positive_nleb.
  destruct (nleb diam c0); [intros [= <-]; auto|].
  destruct (nleb na c0); [intros [= <-]; auto|].
  destruct (Req_EM_T bi 0) as [->|Hb].
  - rewrite pdiv_zero. cbn. intros [= <-]. auto.
  - rewrite pdiv_fin by auto. cbn [bind].
    destruct (areAbsolutelyNotEqual _ _ _) eqn:E; [|discriminate].
    apply det_tol in E; auto. intros [= <-]. auto.
Qed.

(** any number type, hence IEEE doubles bit for bit *)
Theorem Matrix_init_stores {T} {N : Num T} (a b c d l : T) fv bv fi bi diam na lab m :
  Matrix_init a b c d l fv bv fi bi diam na lab = Ok m ->
  mA m = a /\ mB m = b /\ mC m = c /\ mD m = d /\ mL m = l /\ mfv m = fv /\ mbv m = bv /\
  mfi m = fi /\ mbi m = bi /\ mdiam m = diam /\ mna m = na /\ mflip m = false /\ mlabel m = lab /\
  nleb diam c0 = false /\ nleb na c0 = false /\ neqb bi c0 = false /\
  nltb eps5 (nabs (nsub (determinant m) (ndiv fi bi))) = false.
Proof.
  unfold Matrix_init, pdiv.
  destruct (nleb diam c0) eqn:E1; [discriminate|].
  destruct (nleb na c0) eqn:E2; [discriminate|].
  destruct (neqb bi c0) eqn:E3; [discriminate|]. cbn [bind].
  destruct (areAbsolutelyNotEqual _ _ _) eqn:E; [discriminate|].
  intros [= <-]. cbn. repeat split; auto.
Qed.

(** ** Products written out *)
(** [e1 * m], then [e2 * (e1 * m)], ... *)
Definition product {T} {N : Num T} (m : @mat T) (l : list (@elem T)) : res (@mat T) :=
  fold_left (fun acc e => a <- acc;; mul_matrix (emat e) a) l (Ok m).

Lemma product_err {T} {N : Num T} (l : list (@elem T)) x :
  fold_left (fun acc e => a <- acc;; mul_matrix (emat e) a) l (Err x) = Err x.
Proof. induction l; cbn; auto. Qed.

Lemma product_ok es os : Forall2 (fun e o => describes (emat e) o) es os ->
  forall m acc, describes m acc -> physical acc -> matched (onb acc) os ->
  exists p, product m es = Ok p /\ describes p (path_optic acc os) /\ physical (path_optic acc os).
Proof.
  intros HF. induction HF as [|e o es os He HF IH]; intros m acc D P HM.
  - exists m. auto.
  - cbn in HM. destruct HM as (E & Po & HM).
    destruct (mul_matrix_matched _ _ _ _ He D Po P E) as (p & K1 & K2 & _).
    unfold product. cbn [fold_left bind]. rewrite K1. apply IH; auto. now apply physical_ocomp.
Qed.

Lemma product_free e es o os : Forall2 (fun e o => describes (emat e) o) (e :: es) (o :: os) ->
  chain (o :: os) ->
  es <> [] -> forall p, product (emat e) es = Ok p -> mdiam p = PInf /\ mna p = PInf.
Proof.
  intros HF [P HM] Hne p.
  assert (forall m acc, describes m acc -> physical acc -> matched (onb acc) os ->
     product m es = Ok p -> mdiam p = PInf /\ mna p = PInf) as HX.
  { inversion HF as [|? ? ? ? _ HF']; subst. clear HF HM P. revert Hne.
    induction HF' as [|x q es os Hq HF IH]; intros Hne m acc D P HM K; [congruence|].
    cbn in HM. destruct HM as (E & Po & HM).
    destruct (mul_matrix_matched _ _ _ _ Hq D Po P E) as (p1 & K1 & K2 & K3).
    unfold product in K. cbn [fold_left bind] in K. rewrite K1 in K.
    destruct es as [|x2 es].
    - cbn in K. injection K as <-. auto.
    - apply (IH ltac:(discriminate) p1 (ocomp q acc)); auto. now apply physical_ocomp. }
  inversion HF; subst. apply (HX (emat e) o); auto.
Qed.

Lemma if_orb (a b : bool) : (if a || b then true else false) = false -> a = false /\ b = false.
Proof. destruct a, b; cbn; auto. Qed.

(** C01 *)
Theorem product_sequential e es o os y th z d w :
  Forall2 (fun e o => describes (emat e) o) (e :: es) (o :: os) -> chain (o :: os) ->
  Forall linear (e :: es) ->
  let r := fray y th z false d w in
  let out := fold_left (fun r e => times_ray e r) (e :: es) r in
  rblk out = false ->
  exists p, product (emat e) es = Ok p /\
    ry (mul_ray_v KMatrix p r) = ry out /\ rth (mul_ray_v KMatrix p r) = rth out /\
    rz (mul_ray_v KMatrix p r) = rz out /\ rblk (mul_ray_v KMatrix p r) = false.
Proof.
  intros HF HC HL r out Hb.
  destruct (sequential _ _ HF HL y th z d w Hb) as (d' & w' & E).
  pose proof HF as HF0. inversion HF0 as [|? ? ? ? He HF']; subst. destruct HC as [P HM].
  destruct (product_ok es os HF' (emat e) o He P HM) as (p & K1 & K2 & K3).
  exists p. split; auto. unfold out, r. rewrite E.
  pose proof (path_optic_prod o os) as EM. pose proof (path_optic_L o os) as EL.
  unfold mul_ray_v, mul_ray_new. cbn [rblk fray ry rth rz]. dsc K2. cbn [ry rth rz rblk].
  rewrite EM, EL.
  assert (nltb (ndiv (mdiam p) c2) (nabs (Fin y)) = false /\ nltb (mna p) (nabs (Fin th)) = false)
    as [N1 N2].
  { destruct es as [|e2 es].
    - unfold product in K1. cbn in K1. injection K1 as <-. unfold out in Hb. cbn [fold_left] in Hb. unfold times_ray in Hb.
      destruct e as [k m|g m l]; cbn [emat] in *.
      + unfold mul_ray_v in Hb. cbn [rblk r fray] in Hb.
        assert (rblk (mul_ray_new m r) = false) as Hb' by (destruct k; auto).
        unfold mul_ray_new in Hb'. cbn [rblk r fray ry rth] in Hb'.
        now apply if_orb in Hb'.
      + unfold mul_ray_v, mul_ray_new in Hb. cbn [rblk r fray ry rth] in Hb.
        now apply if_orb in Hb.
    - destruct (product_free _ _ _ _ HF (conj P HM) ltac:(discriminate) p K1) as [-> ->].
      rewrite half_inf. cbn. auto. }
  cbn [rblk fray]. rewrite N1, N2. cbn [orb].
  repeat split; cbn; f_equal; ring.
Qed.

(** ** C02 *)
Theorem mul_assoc (m1 m2 m3 : @mat XR) o1 o2 o3 :
  describes m1 o1 -> describes m2 o2 -> describes m3 o3 -> chain [o1; o2; o3] ->
  exists p, (x <- mul_matrix m3 m2;; mul_matrix x m1) = Ok p /\
            (x <- mul_matrix m2 m1;; mul_matrix m3 x) = Ok p /\
            describes p (ocomp o3 (ocomp o2 o1)).
Proof.
  intros D1 D2 D3 (P1 & E12 & P2 & E23 & P3 & _).
  destruct (mul_matrix_matched _ _ _ _ D3 D2 P3 P2 E23) as (p & K1 & K2 & K3 & K4).
  assert (physical (ocomp o3 o2)) as P32 by (apply physical_ocomp; auto).
  destruct (mul_matrix_matched _ _ _ _ K2 D1 P32 P1 E12) as (q & J1 & J2 & J3 & J4).
  destruct (mul_matrix_matched _ _ _ _ D2 D1 P2 P1 E12) as (p' & K1' & K2' & K3' & K4').
  assert (physical (ocomp o2 o1)) as P21 by (apply physical_ocomp; auto).
  destruct (mul_matrix_matched _ _ _ _ D3 K2' P3 P21 E23) as (q' & J1' & J2' & J3' & J4').
  rewrite ocomp_assoc in J2.
  assert (forall (a b c : @mat XR), mul_matrix a b = Ok c -> mflip c = false /\ mlabel c = ""%string) as HX.
  { intros a b c E. unfold mul_matrix in E. destruct (mul_idx a b).
    apply Matrix_init_stores in E. tauto. }
  exists q'. rewrite K1, K1'. cbn [bind]. rewrite J1. split; [|auto]. f_equal.
  rewrite (describes_mat_of _ _ J2), (describes_mat_of _ _ J2').
  destruct (HX _ _ _ J1) as [-> ->], (HX _ _ _ J1') as [-> ->]. congruence.
Qed.

(** ** C03 *)
(** every constructor on valid parameters returns a matrix described by its textbook optic *)
Theorem constructors_ok :
  (forall f diam, f <> 0 -> positive diam ->
     exists e, Lens (Fin f) diam = Ok e /\ describes (emat e) (o_lens f) /\ physical (o_lens f)) /\
  (forall r diam, r <> 0 -> positive diam ->
     exists e, CurvedMirror (Fin r) diam = Ok e /\ describes (emat e) (o_mirror r) /\ physical (o_mirror r)) /\
  (forall d n diam, n <> 0 -> positive diam ->
     exists e, Space (Fin d) (Fin n) diam = Ok e /\ describes (emat e) (o_space d n) /\
       physical (o_space d n)) /\
  (forall n1 n2 r diam, n1 <> 0 -> n2 <> 0 -> radius_ok r -> positive diam ->
     exists e, DielectricInterface (Fin n1) (Fin n2) r diam = Ok e /\
       describes (emat e) (o_interface n1 n2 r) /\ physical (o_interface n1 n2 r)) /\
  (forall n r1 r2 t diam, n <> 0 -> radius_ok r1 -> radius_ok r2 -> positive diam ->
     exists e, ThickLens (Fin n) r1 r2 (Fin t) diam = Ok e /\
       describes (emat e) (o_thick n r1 r2 t) /\ physical (o_thick n r1 r2 t)) /\
  (forall n t diam, n <> 0 -> positive diam ->
     exists e, DielectricSlab (Fin n) (Fin t) diam = Ok e /\
       describes (emat e) (o_thick n PInf PInf t) /\ physical (o_thick n PInf PInf t)) /\
  (forall diam na, positive diam -> positive na ->
     exists e, Aperture diam na = Ok e /\ describes (emat e) o_aperture /\ physical o_aperture).
Proof.
  repeat split; intros;
    (eexists; split;
      [ first [apply Lens_ok | apply CurvedMirror_ok | apply Space_ok | apply DielectricInterface_ok
              | apply ThickLens_ok | apply DielectricSlab_ok | apply Aperture_ok]; assumption
      | split; [apply mat_of_describes
               | first [apply p_lens | apply p_mirror | apply p_space | apply p_interface
                       | apply p_thick | apply p_aperture]; auto]]).
Qed.

Lemma physical_law m o : describes m o -> physical o ->
  determinant m = Fin (onf o / onb o) /\ mfi m = Fin (onf o) /\ mbi m = Fin (onb o) /\
  onf o <> 0 /\ onb o <> 0.
Proof.
  intros D (P1 & P2 & P3). rewrite (determinant_describes _ _ D), P3.
  repeat split; auto; apply D.
Qed.

Theorem product_law e es o os :
  Forall2 (fun e o => describes (emat e) o) (e :: es) (o :: os) -> chain (o :: os) ->
  exists p, product (emat e) es = Ok p /\ mfi p = mfi (emat e) /\
    mbi p = mbi (emat (List.last es e)) /\
    exists nf nb, mfi p = Fin nf /\ mbi p = Fin nb /\ nb <> 0 /\ determinant p = Fin (nf / nb).
Proof.
  intros HF [P HM]. inversion HF as [|? ? ? ? He HF']; subst.
  destruct (product_ok es os HF' (emat e) o He P HM) as (p & K1 & K2 & K3).
  destruct (physical_law _ _ K2 K3) as (L1 & L2 & L3 & L4 & L5).
  exists p. split; auto. rewrite L2, L3, path_optic_nf. split; [now rewrite (d_nf _ _ He)|].
  split.
  - rewrite path_optic_nb.
    assert (forall es os e o, describes (emat e) o ->
      Forall2 (fun e o => describes (emat e) o) es os ->
      mbi (emat (List.last es e)) = Fin (onb (List.last os o))) as HX.
    { clear. intros es os e o He HF. revert e o He. induction HF as [|x q es os Hq HF IH]; intros e o He.
      - cbn. apply He.
      - rewrite !last_cons_default. now apply IH. }
    symmetry. now apply HX.
  - exists (onf o), (onb (path_optic o os)). rewrite path_optic_nf in *. auto.
Qed.

(** ** C09 *)
Theorem thick_is_product n r1 r2 t diam : n <> 0 -> radius_ok r1 -> radius_ok r2 -> positive diam ->
  exists i1 s i2 e p,
    DielectricInterface (Fin 1) (Fin n) r1 diam = Ok i1 /\ Space (Fin t) (Fin n) PInf = Ok s /\
    DielectricInterface (Fin n) (Fin 1) r2 diam = Ok i2 /\
    ThickLens (Fin n) r1 r2 (Fin t) diam = Ok e /\
    product (emat i1) [s; i2] = Ok p /\
    mA (emat e) = mA p /\ mB (emat e) = mB p /\ mC (emat e) = mC p /\ mD (emat e) = mD p /\
    mL (emat e) = mL p /\ mfv (emat e) = mfv p /\ mbv (emat e) = mbv p /\
    mfi (emat e) = mfi p /\ mbi (emat e) = mbi p.
Proof.
  intros Hn H1 H2 Hd.
  destruct (product_ok
     [Leaf KSpace (mat_of (o_space t n) PInf PInf false "");
      Leaf (KInterface (Fin n) (Fin 1) r2) (mat_of (o_interface n 1 r2) diam PInf false "")]
     [o_space t n; o_interface n 1 r2]) with
     (m := mat_of (o_interface 1 n r1) diam PInf false "") (acc := o_interface 1 n r1)
     as (p & K1 & K2 & K3).
  { repeat constructor. }
  { apply mat_of_describes. }
  { apply p_interface; auto; lra. }
  { cbn. repeat split; auto; cbn; try lra.
    - unfold mdet; cbn. field; auto.
    - unfold mdet; cbn. field; auto. }
  do 4 eexists. exists p. split; [apply DielectricInterface_ok; auto; lra|].
  split; [apply Space_ok; cbn; auto|].
  split; [apply DielectricInterface_ok; auto; lra|].
  split; [apply ThickLens_ok; auto|].
  split; [exact K1|].
  assert (path_optic (o_interface 1 n r1) [o_space t n; o_interface n 1 r2] = o_thick n r1 r2 t) as E
    by (unfold path_optic, o_thick; reflexivity).
  rewrite E in K2. cbn [emat]. pose proof (mat_of_describes (o_thick n r1 r2 t) diam PInf false "") as D.
  dsc D. dsc K2. repeat split; reflexivity.
Qed.

Theorem singlet_is_thick n r1 r2 t diam : n <> 0 -> radius_ok r1 -> radius_ok r2 -> positive diam ->
  exists e s,
    ThickLens (Fin n) r1 r2 (Fin t) diam = Ok e /\ SingletLens r1 r2 (Fin t) (Fin n) diam = Ok s /\
    mA (emat e) = mA (emat s) /\ mB (emat e) = mB (emat s) /\ mC (emat e) = mC (emat s) /\
    mD (emat e) = mD (emat s) /\ mL (emat e) = mL (emat s) /\ mfv (emat e) = mfv (emat s) /\
    mbv (emat e) = mbv (emat s) /\ mdiam (emat e) = mdiam (emat s) /\
    mfi (emat e) = mfi (emat s) /\ mbi (emat e) = mbi (emat s).
Proof.
  intros Hn H1 H2 Hd. eexists. 
  unfold SingletLens. change (@c1 XR _) with (Fin 1).
  rewrite !DielectricInterface_ok by (auto; lra). cbn [bind].
  rewrite Space_ok by (cbn; auto). cbn [bind]. unfold CompoundLens.
  match goal with |- context [MatrixGroup_new ?l ?s] =>
    destruct (MatrixGroup_new_ok l [o_interface 1 n r1; o_space t n; o_interface n 1 r2] s)
      as (g & G1 & G2 & G3 & G4 & G5 & G6 & G7) end.
  { repeat constructor. }
  { cbn. repeat split; auto; cbn; try lra; try (unfold mdet; cbn; field; auto). }
  { discriminate. }
  rewrite G1. cbn [bind]. eexists. split; [apply ThickLens_ok; auto|]. split; [reflexivity|].
  specialize (G7 _ _ eq_refl).
  assert (path_optic (o_interface 1 n r1) [o_space t n; o_interface n 1 r2] = o_thick n r1 r2 t) as E
    by reflexivity.
  rewrite E in G7. cbn [emat set_diam mA mB mC mD mL mfv mbv mfi mbi mdiam].
  pose proof (mat_of_describes (o_thick n r1 r2 t) diam PInf false "") as D.
  destruct G7 as [Dg|[Hid Dg]].
  - dsc D. dsc Dg. repeat split; reflexivity.
  - dsc D. dsc Dg. cbn [oM oL onf onb ofv obv]. rewrite Hid. repeat split; reflexivity.
Qed.

Theorem slab_is_flat_thick n t diam : n <> 0 -> positive diam ->
  exists e s, ThickLens (Fin n) PInf PInf (Fin t) diam = Ok e /\
    DielectricSlab (Fin n) (Fin t) diam = Ok s /\ emat e = emat s.
Proof.
  intros. do 2 eexists. split; [apply ThickLens_ok; cbn; auto|]. split; [apply DielectricSlab_ok; auto|].
  reflexivity.
Qed.
