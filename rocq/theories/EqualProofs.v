(** What == between elements implies. *)
From Coq Require Import ZArith List Bool String Lia Reals Lra.
From Verif Require Import Base Nums Optics Store.
Import ListNotations.
Open Scope list_scope.

(** ** Comparisons that succeed *)
Lemma xeqb_true (x y : XR) : neqb x y = true -> x = y.
Proof.
  change (@neqb XR _) with xeqb. destruct x, y; cbn; try discriminate; auto.
  intros H. unfold Reqb in H. destruct (Req_EM_T r r0); [now subst|discriminate].
Qed.
Lemma opt_eq_true {A} (f : A -> A -> bool) a b : (forall x y, f x y = true -> x = y) -> opt_eq f a b = true -> a = b.
Proof. intros H. destruct a, b; cbn; try discriminate; auto. intros E. now rewrite (H _ _ E). Qed.
Lemma list_eq_true {A} (f : A -> A -> bool) : (forall x y, f x y = true -> x = y) ->
  forall a b, list_eq f a b = true -> a = b.
Proof.
  intros H. induction a as [|x a IH]; destruct b as [|y b]; cbn; try discriminate; auto.
  intros E. apply andb_prop in E as [E1 E2]. now rewrite (H _ _ E1), (IH _ E2).
Qed.
Lemma mat_eq_true (m m' : @mat XR) : mat_eq m m' = true -> m = m'.
Proof.
  unfold mat_eq. intros H.
  repeat (apply andb_prop in H; destruct H as [H ?]).
  destruct m, m'; cbn in *.
  repeat match goal with
  | E : xeqb _ _ = true |- _ => apply xeqb_true in E; subst
  | E : opt_eq xeqb _ _ = true |- _ => apply (opt_eq_true _ _ _ xeqb_true) in E; subst
  | E : Bool.eqb _ _ = true |- _ => apply Bool.eqb_prop in E; subst
  | E : String.eqb _ _ = true |- _ => apply String.eqb_eq in E; subst
  end. reflexivity.
Qed.
Lemma kind_eq_true (k k' : @kind XR) : kind_eq k k' = true -> kind_dict k = kind_dict k'.
Proof.
  unfold kind_eq. apply list_eq_true. intros [a x] [b y] H. cbn in H. apply andb_prop in H as [H1 H2].
  apply String.eqb_eq in H1. apply xeqb_true in H2. now subst.
Qed.
Lemma gkind_eq_true (g g' : @gkind XR) : gkind_eq g g' = true -> g = g'.
Proof.
  destruct g, g'; cbn; try discriminate; auto. intros H. apply andb_prop in H as [H1 H2].
  apply xeqb_true in H1, H2. now subst.
Qed.

(** ** The trees of equal objects *)
Inductive alike : @elem XR -> @elem XR -> Prop :=
| alike_leaf k k' m : kind_dict k = kind_dict k' -> alike (Leaf k m) (Leaf k' m)
| alike_group gk m es es' : Forall2 alike es es' -> alike (Group gk m es) (Group gk m es').

Lemma equal_alike fuel : forall (s : @store XR) h i j e e',
  oeq fuel s h i j = Some true -> tree fuel s i = Some e -> tree fuel s j = Some e' -> alike e e'.
Proof.
  induction fuel as [|fuel IH]; intros s h i j e e'; [discriminate|]. cbn [oeq tree].
  destruct (oget s i) as [[k m|gk m kids c it]|], (oget s j) as [[k' m'|gk' m' kids' c' it']|]; try discriminate.
  - intros E [= <-] [= <-]. assert (kind_eq k k' && mat_eq m m' = true) as E' by congruence.
    apply andb_prop in E' as [E1 E2]. rewrite (mat_eq_true _ _ E2). constructor. now apply kind_eq_true.
  - destruct (gkind_eq gk gk' && mat_eq m m' && Nat.eqb it it' && _) eqn:E; [|discriminate].
    apply andb_prop in E as [E _]. apply andb_prop in E as [E _]. apply andb_prop in E as [E1 E2].
    apply gkind_eq_true in E1. apply mat_eq_true in E2. subst gk' m'. clear c c'.
    intros G. destruct (all_some (tree fuel s) kids) as [es|] eqn:T; [|discriminate]. intros [= <-].
    destruct (all_some (tree fuel s) kids') as [es'|] eqn:T'; [|discriminate]. intros [= <-]. constructor.
    revert kids' es es' G T T'. induction kids as [|x kids IHk]; intros [|y kids'] es es' G T T'; try discriminate.
    + injection T as <-. injection T' as <-. constructor.
    + destruct (oeq fuel s h x y) as [[|]|] eqn:Exy; try discriminate.
      cbn [all_some] in T, T'.
      destruct (tree fuel s x) as [ex|] eqn:Ex; [|discriminate].
      destruct (all_some (tree fuel s) kids) as [r|] eqn:Er; [|discriminate]. injection T as <-.
      destruct (tree fuel s y) as [ey|] eqn:Ey; [|discriminate].
      destruct (all_some (tree fuel s) kids') as [r'|] eqn:Er'; [|discriminate]. injection T' as <-.
      constructor; [eapply IH; eauto|eapply IHk; eauto].
Qed.

(** ** The same rays *)
Lemma dict_axicon (k k' : @kind XR) : kind_dict k = kind_dict k' ->
  (forall m rid h, mul_ray k m rid h = mul_ray k' m rid h).
Proof.
  intros E m rid h. destruct k, k'; cbn in E; try discriminate; try reflexivity.
  injection E as <- <-. reflexivity.
Qed.
Lemma alike_trace : forall e e', alike e e' -> forall rid h, trace e rid h = trace e' rid h.
Proof.
  fix IH 3. intros e e' H. destruct H as [k k' m E|gk m es es' F]; intros rid h.
  - cbn [trace]. unfold trace_leaf. now rewrite !(dict_axicon _ _ E).
  - cbn [trace]. generalize [rid] as acc. revert rid h.
    induction F as [|x y t t' A F IHF]; intros rid h acc; [reflexivity|].
    rewrite (IH x y A). destruct (trace y rid h). apply IHF.
Qed.
Lemma dict_diameter (k k' : @kind XR) m : kind_dict k = kind_dict k' ->
  largestDiameter (Leaf k m) = largestDiameter (Leaf k' m) /\ displayHalfHeight (Leaf k m) = displayHalfHeight (Leaf k' m).
Proof. intros E. destruct k, k'; cbn in E; try discriminate; auto. injection E as <- <-. auto. Qed.
Lemma alike_emat e e' : alike e e' -> emat e = emat e'.
Proof. now destruct 1. Qed.
Lemma alike_display e e' : alike e e' -> displayHalfHeight e = displayHalfHeight e'.
Proof. destruct 1; [now apply dict_diameter|reflexivity]. Qed.
Lemma alike_finite : forall e e', alike e e' -> hasFiniteApertureDiameter e = hasFiniteApertureDiameter e'.
Proof.
  fix IH 3. intros e e' H. destruct H as [k k' m E|gk m es es' F]; [reflexivity|]. cbn [hasFiniteApertureDiameter].
  induction F as [|x y t t' A F IHF]; [reflexivity|]. cbn [existsb]. now rewrite (IH x y A), IHF.
Qed.
Lemma alike_largest : forall e e', alike e e' -> largestDiameter e = largestDiameter e'.
Proof.
  fix IH 3. intros e e' H. destruct H as [k k' m E|gk m es es' F]; [now apply dict_diameter|]. cbn [largestDiameter].
  assert (existsb hasFiniteApertureDiameter es = existsb hasFiniteApertureDiameter es') as ->.
  { clear IH. induction F as [|x y t t' A F IHF]; [reflexivity|]. cbn [existsb]. now rewrite (alike_finite _ _ A), IHF. }
  assert (map largestDiameter es = map largestDiameter es') as ->.
  { induction F as [|x y t t' A F IHF]; [reflexivity|]. cbn [map]. now rewrite (IH x y A), IHF. }
  clear IH. destruct F as [|x y t t' A F]; [reflexivity|]. now rewrite (alike_display _ _ A).
Qed.

(** ** The same classes *)
Definition class_name {T} (k : @kind T) : string :=
  match k with
  | KMatrix => "Matrix" | KLens _ _ => "Lens" | KCurvedMirror => "CurvedMirror" | KSpace => "Space"
  | KInterface _ _ _ => "DielectricInterface" | KThickLens _ _ _ => "ThickLens" | KSlab _ _ _ => "DielectricSlab"
  | KAperture => "Aperture" | KAxicon _ _ => "Axicon"
  end%string.
Inductive same_classes {T} : @elem T -> @elem T -> Prop :=
| same_leaf k k' m m' : class_name k = class_name k' -> same_classes (Leaf k m) (Leaf k' m')
| same_group gk gk' m m' es es' : Forall2 same_classes es es' -> same_classes (Group gk m es) (Group gk' m' es').
Lemma same_classes_refl {T} : forall e : @elem T, same_classes e e.
Proof.
  fix IH 1. intros [k m|gk m es]; constructor; [reflexivity|]. induction es as [|x t IHt]; constructor; auto.
Qed.
Lemma alike_same : forall e e', alike e e' -> same_classes e e' -> e = e'.
Proof.
  fix IH 3. intros e e' H. destruct H as [k k' m E|gk m es es' F]; intros S.
  - inversion S as [? ? ? ? C|]; subst. f_equal. destruct k, k'; try discriminate; cbn in E; congruence.
  - inversion S as [|? ? ? ? ? ? C]; subst. f_equal. clear S. induction F as [|x y t t' A F IHF]; [reflexivity|].
    inversion C; subst. f_equal; [apply IH|apply IHF]; auto.
Qed.

Theorem equal_trace fuel (s : @store XR) h i j e e' :
  oeq fuel s h i j = Some true -> tree fuel s i = Some e -> tree fuel s j = Some e' ->
  (forall r, trace_values e r = trace_values e' r) /\
  (forall m, emat e = m <-> emat e' = m) /\
  hasFiniteApertureDiameter e = hasFiniteApertureDiameter e' /\
  largestDiameter e = largestDiameter e' /\ displayHalfHeight e = displayHalfHeight e'.
Proof.
  intros E T1 T2. pose proof (equal_alike _ _ _ _ _ _ _ E T1 T2) as A.
  split; [intros r; unfold trace_values; now rewrite (alike_trace _ _ A)|].
  split; [rewrite (alike_emat _ _ A); tauto|].
  split; [now apply alike_finite|]. split; [now apply alike_largest|now apply alike_display].
Qed.
Theorem equal_same_classes fuel (s : @store XR) h i j e e' :
  oeq fuel s h i j = Some true -> tree fuel s i = Some e -> tree fuel s j = Some e' -> same_classes e e' -> e = e'.
Proof. intros E T1 T2. apply alike_same. eapply equal_alike; eauto. Qed.
