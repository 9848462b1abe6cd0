(** Chief and marginal rays of opposite points of the object. *)
From Coq Require Import ZArith Reals Lra Lia List Bool String Floats.
From Verif Require Import Base Nums Optics Imaging TraceProofs MirrorRays.
Import ListNotations.
Open Scope list_scope.

(** ** For any relation of numbers that means "opposite" *)
Section Opposite.
Context {T : Type} {N : Num T}.
Variable rel : T -> T -> Prop.
Definition rel_res (r r' : res T) : Prop := match r, r' with Ok a, Ok b => rel a b | Err x, Err y => x = y | _, _ => False end.
Hypothesis rel_opp : forall a, rel a (nopp a).
Hypothesis rel_sym : forall a b, rel a b -> rel b a.
Hypothesis rel_mul : forall m a b, rel a b -> rel (nmul m a) (nmul m b).
Hypothesis rel_sub : forall a b c d, rel a b -> rel c d -> rel (nsub a c) (nsub b d).
Hypothesis rel_div : forall a b m, rel a b -> rel (ndiv a m) (ndiv b m).
Hypothesis rel_ltb : forall a b c d, rel a b -> rel c d -> nltb b d = nltb c a.
Lemma rel_pdiv a b m : rel a b -> rel_res (pdiv a m) (pdiv b m).
Proof using rel_div. intros H. unfold pdiv. destruct (neqb m c0); cbn; [reflexivity|now apply rel_div]. Qed.
Definition opposite_chief (o o' : option (@ray T)) : Prop :=
  match o, o' with Some r, Some r' => similar rel r r' | None, None => True | _, _ => False end.
Definition opposite_pair (o o' : option (@ray T * @ray T)) : Prop :=
  match o, o' with Some (u, d), Some (u', d') => similar rel d u' /\ similar rel u d' | None, None => True | _, _ => False end.
Definition alike_res {A} (P : A -> A -> Prop) (r r' : res A) : Prop := match r, r' with Ok a, Ok b => P a b | Err x, Err y => x = y | _, _ => False end.
Lemma chief_opposite (e : @elem T) y y' : rel y y' -> alike_res opposite_chief (chiefRayAt e y) (chiefRayAt e y').
Proof using rel_mul rel_div.
  clear rel_sym rel_opp rel_sub rel_ltb. intros H. unfold chiefRayAt. destruct (apertureStop e) as [s|]; [|reflexivity]. cbn [bind]. destruct (st_z s) as [z|]; [|exact I].
  destruct (transferMatrix e z) as [m|]; [|reflexivity]. cbn [bind]. destruct (isImaging (emat m)); [exact I|].
  pose proof (rel_pdiv _ _ (mB (emat m)) (rel_mul (nopp (mA (emat m))) y y' H)) as D. unfold rel_res in D.
  destruct (pdiv _ _) as [t|], (pdiv (nmul _ y') _) as [t'|]; cbn; try contradiction; auto. repeat split; auto.
Qed.
Lemma marginal_opposite (e : @elem T) y y' : rel y y' -> alike_res opposite_pair (marginalRays e y) (marginalRays e y').
Proof.
  intros H. unfold marginalRays. destruct (apertureStop e) as [s|]; [|reflexivity]. cbn [bind]. destruct (st_z s) as [z|]; [|exact I].
  destruct (st_d s) as [d|]; [|exact I]. destruct (transferMatrix e z) as [m|]; [|reflexivity]. cbn [bind]. destruct (isImaging (emat m)); [exact I|].
  set (A := mA (emat m)). set (B := mB (emat m)).
  assert (rel (nsub (ndiv d c2) (nmul A y)) (nsub (ndiv (nopp d) c2) (nmul A y'))) as U by auto.
  assert (rel (nsub (ndiv (nopp d) c2) (nmul A y)) (nsub (ndiv d c2) (nmul A y'))) as V by auto.
  apply (rel_div _ _ B) in U, V. unfold pdiv. destruct (neqb B c0); [reflexivity|]. cbn [bind].
  rewrite (rel_ltb _ _ _ _ V U). destruct (nltb _ _); cbn; repeat split; auto.
Qed.
End Opposite.

(** ** Exact arithmetic *)
Lemma xopp_opp (a : XR) : nopp (nopp a) = a. Proof. destruct a; cbn; try reflexivity. f_equal. lra. Qed.
Ltac xcases := cbn; unfold xsgninf, Reqb, Rltb;
  repeat match goal with |- context [Rlt_dec ?a ?b] => destruct (Rlt_dec a b) | |- context [Req_EM_T ?a ?b] => destruct (Req_EM_T a b) end;
  try reflexivity; try (exfalso; lra); try (f_equal; lra).
Lemma mirror_mul m a b : mirror_x a b -> mirror_x (nmul m a) (nmul m b).
Proof. intros ->. unfold mirror_x. destruct m, a; xcases. Qed.
Lemma mirror_sub a b c d : mirror_x a b -> mirror_x c d -> mirror_x (nsub a c) (nsub b d).
Proof. intros -> ->. unfold mirror_x. destruct a, c; xcases. Qed.
Lemma mirror_div a b m : mirror_x a b -> mirror_x (ndiv a m) (ndiv b m).
Proof. intros ->. unfold mirror_x. destruct a, m; xcases; cbn; f_equal; field; assumption. Qed.
Lemma mirror_ltb a b c d : mirror_x a b -> mirror_x c d -> nltb b d = nltb c a.
Proof. intros -> ->. destruct a, c; xcases. Qed.
Lemma mirror_sym a b : mirror_x a b -> mirror_x b a. Proof. intros ->. unfold mirror_x. now rewrite xopp_opp. Qed.
Theorem chief_mirror (e : @elem XR) y : alike_res (opposite_chief mirror_x) (chiefRayAt e y) (chiefRayAt e (nopp y)).
Proof. exact (chief_opposite mirror_x mirror_mul mirror_div e y (nopp y) eq_refl). Qed.
Theorem marginal_mirror (e : @elem XR) y : alike_res (opposite_pair mirror_x) (marginalRays e y) (marginalRays e (nopp y)).
Proof.
  refine (marginal_opposite mirror_x _ mirror_sym mirror_mul mirror_sub mirror_div mirror_ltb e y (nopp y) eq_refl). reflexivity.
Qed.

(** ** Double precision *)
Lemma sim_sub a b c d : sim true a b -> sim true c d -> sim true (SF64sub a c) (SF64sub b d).
Proof.
  intros H1 H2. unfold SF64sub. apply sim_cases in H1, H2. destruct H1 as [(t & u & -> & ->)|E1], H2 as [(t' & u' & -> & ->)|E2].
  - cbn [SFsub]. destruct (Bool.eqb t (negb t')), (Bool.eqb u (negb u')); apply zeros.
  - subst d. destruct c; cbn [SFsub SFopp]; try (now right); destruct (Bool.eqb _ _), (Bool.eqb _ _); apply zeros.
  - subst b. destruct a; cbn [SFsub SFopp]; try (now right); destruct (Bool.eqb _ _), (Bool.eqb _ _); apply zeros.
  - subst b d. destruct a as [sa|sa| |sa ma ea], c as [sc|sc| |sc mc ec]; cbn [SFopp SFsub]; rewrite ?eqb_negb; try (now right).
    + destruct (Bool.eqb _ _); apply zeros.
    + right. destruct (Bool.eqb _ _); reflexivity.
    + rewrite !cond_neg. match goal with |- sim true (binary_normalize _ _ (?x - ?y) _ _) _ => replace (- x - - y)%Z with (- (x - y))%Z by ring end. apply normalize_opp.
Qed.
Lemma sim_div a b m : sim true a b -> sim true (SF64div a m) (SF64div b m).
Proof.
  intros H. unfold SF64div. apply sim_cases in H. destruct H as [(t & u & -> & ->)|E].
  - destruct m; cbn [SFdiv]; try apply zeros; now right.
  - subst b. destruct a as [sa|sa| |sa ma ea], m as [sm|sm| |sm mm em]; cbn [SFdiv SFopp]; try apply zeros; right; rewrite <- ?negb_xorb_l; try reflexivity.
    destruct (SFdiv_core_binary _ _ _ _ _ _) as [[q e] l]. apply round_opp.
Qed.
Lemma compare_opp x y : SFcompare (SFopp y) (SFopp x) = SFcompare x y.
Proof.
  destruct x as [sx|[]| |[] mx ex], y as [sy|[]| |[] my ey]; try reflexivity; cbn [SFopp negb SFcompare]; rewrite (Z.compare_antisym ex ey);
    destruct (Z.compare ex ey); cbn [CompOpp]; try reflexivity; f_equal; change (Pos.compare_cont Eq) with Pos.compare; now rewrite (Pos.compare_antisym mx my), ?CompOpp_involutive.
Qed.
Lemma sim_ltb a b c d : sim true a b -> sim true c d -> SFltb b d = SFltb c a.
Proof.
  intros H1 H2. unfold SFltb. apply sim_cases in H1, H2. destruct H1 as [(t & u & -> & ->)|E1], H2 as [(t' & u' & -> & ->)|E2].
  - reflexivity.
  - subst d. destruct c as [|[]| |[] ? ?]; reflexivity.
  - subst b. destruct a as [|[]| |[] ? ?]; reflexivity.
  - subst b d. now rewrite compare_opp.
Qed.
Lemma sim_sym a b : sim true a b -> sim true b a.
Proof. intros H. apply sim_cases in H as [(t & u & -> & ->)|E]; [apply zeros|]. subst b. right. destruct a; cbn; rewrite ?negb_involutive; reflexivity. Qed.
Lemma opp_fsim (a : float) : fsim true a (nopp a). Proof. unfold fsim. cbn [nopp NumF]. rewrite opp_spec. now right. Qed.
Lemma fsim_mul m (a b : float) : fsim true a b -> fsim true (nmul m a) (nmul m b).
Proof. intros H. unfold fsim. cbn [nmul NumF]. rewrite !mul_spec. now apply sim_mul. Qed.
Lemma fsim_sub (a b c d : float) : fsim true a b -> fsim true c d -> fsim true (nsub a c) (nsub b d).
Proof. intros H1 H2. unfold fsim. cbn [nsub NumF]. rewrite !sub_spec. now apply sim_sub. Qed.
Lemma fsim_div (a b m : float) : fsim true a b -> fsim true (ndiv a m) (ndiv b m).
Proof. intros H. unfold fsim. cbn [ndiv NumF]. rewrite !div_spec. now apply sim_div. Qed.
Lemma fsim_ltb (a b c d : float) : fsim true a b -> fsim true c d -> nltb b d = nltb c a.
Proof. intros H1 H2. cbn [nltb NumF]. rewrite !ltb_spec. now apply sim_ltb. Qed.
Lemma fsim_opposite a b : fsim true a b <-> opposite_float a b.
Proof. unfold opposite_float. rewrite same_float_sim. apply opp_sim. Qed.
Lemma similar_opposite r r' : similar (fsim true) r r' -> similar opposite_float r r'.
Proof. apply similar_weaken. intros a b. apply fsim_opposite. Qed.
Theorem chief_mirror_float (e : @elem float) y y' : opposite_float y y' -> alike_res (opposite_chief opposite_float) (chiefRayAt e y) (chiefRayAt e y').
Proof.
  intros H. apply fsim_opposite in H. pose proof (chief_opposite (fsim true)) as C. specialize (C fsim_mul fsim_div e y y' H). unfold alike_res in *.
  destruct (chiefRayAt e y) as [o|], (chiefRayAt e y') as [o'|]; auto. unfold opposite_chief in *. destruct o, o'; auto. now apply similar_opposite.
Qed.
Theorem marginal_mirror_float (e : @elem float) y y' : opposite_float y y' -> alike_res (opposite_pair opposite_float) (marginalRays e y) (marginalRays e y').
Proof.
  intros H. apply fsim_opposite in H. pose proof (marginal_opposite (fsim true)) as C.
  assert (alike_res (opposite_pair (fsim true)) (marginalRays e y) (marginalRays e y')) as D.
  { apply C; auto using opp_fsim, fsim_mul, fsim_sub, fsim_div, fsim_ltb. intros a b. apply sim_sym. }
  clear C. unfold alike_res in *. destruct (marginalRays e y) as [o|], (marginalRays e y') as [o'|]; auto. unfold opposite_pair in *.
  destruct o as [[u d]|], o' as [[u' d']|]; auto. destruct D as [D1 D2]. split; now apply similar_opposite.
Qed.
