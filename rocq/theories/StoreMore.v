(** The matrix of a group after an operation on it, and equality of groups. *)
From Coq Require Import ZArith List Bool String Lia Reals.
From Verif Require Import Base Nums Optics Group GroupProofs Store StoreProofs StoreTrace StoreHistory.
Import ListNotations.
Open Scope list_scope.

Section Generic.
Context {T : Type} {N : Num T}.
Local Notation elem := (@elem T).
Local Notation mat := (@mat T).
Local Notation heap := (@heap T).
Local Notation obj := (@obj T).
Local Notation store := (@store T).

(** the attributes of group [g] are those of the product of the attributes its elements have now *)
Definition product_ok (s : store) (g : nat) : Prop :=
  exists gk m kids c it os tm,
    oget s g = Some (OGroup gk m kids c it) /\ all_some (oget s) kids = Some os /\
    group_transfer (map shallow os) ninf = Ok tm /\
    (mA m, mB m, mC m, mD m, mL m) = (mA tm, mB tm, mC tm, mD tm, mL tm) /\
    (mfi m, mbi m, mfv m, mbv m) = (mfi tm, mbi tm, mfv tm, mbv tm).

Lemma oappend_product (s : store) g i s' : oappend s g i = (s', None) -> ~ In g (kids_of s' g) -> product_ok s' g.
Proof.
  unfold oappend. destruct (oget s g) as [[k m|gk m kids c it]|] eqn:Eg; try discriminate.
  destruct (oappend_check s kids i) as [s1|] eqn:E1; [|discriminate].
  set (s2 := oset s1 g (OGroup gk m (kids ++ [i]) c it)).
  destruct (all_some (oget s2) (kids ++ [i])) as [os|] eqn:Eo; [|discriminate].
  destruct (group_transfer (map shallow os) ninf) as [tm|] eqn:Et; [|discriminate]. intros [= <-] Hn.
  assert (g < List.length s2)%nat as Hl.
  { unfold s2. rewrite oset_length. destruct (oappend_check_alone (fun _ => False) _ _ _ _ E1) as (L & _).
    pose proof (oget_lt _ _ _ Eg). lia. }
  assert (oget (oset s2 g (OGroup gk (copy_attrs m tm) (kids ++ [i]) c it)) g =
          Some (OGroup gk (copy_attrs m tm) (kids ++ [i]) c it)) as E by now apply oget_oset_eq.
  unfold kids_of in Hn. rewrite E in Hn.
  exists gk, (copy_attrs m tm), (kids ++ [i]), c, it, os, tm. split; [exact E|]. split; [|auto].
  rewrite <- Eo. apply all_some_ext. intros x Hx. apply oget_oset_neq. intros ->. auto.
Qed.

Lemma oappend_all_last l : forall (s : store) g s', l <> [] -> oappend_all s g l = (s', None) ->
  exists s1 i, oappend s1 g i = (s', None).
Proof.
  induction l as [|i l IH]; intros s g s' Hn H; [congruence|]. cbn [oappend_all] in H.
  destruct (oappend s g i) as [s1 [x|]] eqn:E; [discriminate|].
  destruct l as [|j l]; [|eapply IH; eauto; discriminate]. injection H as <-. eauto.
Qed.

Lemma kids_set_kids (s : store) g l : kids_of (set_kids s g l) g = l \/ kids_of (set_kids s g l) g = [].
Proof.
  unfold set_kids. destruct (oget s g) as [[|gk m kids c it]|] eqn:E.
  - right. unfold kids_of. now rewrite E.
  - left. unfold kids_of. rewrite oget_oset_eq by (eapply oget_lt; eauto). reflexivity.
  - right. unfold kids_of. now rewrite E.
Qed.

Lemma orebuild_product (s : store) g l s' : orebuild s g l = (s', None) -> kids_of s' g <> [] ->
  ~ In g (kids_of s' g) -> product_ok s' g.
Proof.
  unfold orebuild. destruct l as [|i l].
  - cbn [oappend_all]. intros [= <-] Hn. destruct (kids_set_kids s g []) as [E|E]; rewrite E in Hn; congruence.
  - intros H Hn Hg. destruct (oappend_all_last (i :: l) _ _ _ ltac:(discriminate) H) as (s1 & j & E).
    eapply oappend_product; eauto.
Qed.



Theorem modified_group_product (s : store) o g s' :
  sstep s o = (s', None) -> modifies o g -> kids_of s' g <> [] -> ~ In g (kids_of s' g) -> product_ok s' g.
Proof.
  assert (forall s g i l s', oinsert s g i l = (s', None) -> kids_of s' g <> [] -> ~ In g (kids_of s' g) -> product_ok s' g) as HI.
  { intros s0 g0 i l s1 H. unfold oinsert in H. destruct (onew_group s0 l) as [tmp [s2 [x|]]]; [congruence|].
    eapply orebuild_product; eauto. }
  destruct o; cbn [modifies sstep]; try (intros ? []; fail); intros H <- Hk Hn.
  - eapply oappend_product; eauto.
  - unfold opop in H. destruct (pyindex _ _); [|discriminate]. eapply orebuild_product; eauto.
  - eapply HI; eauto.
  - unfold osetitem in H. destruct (opop s g0 i) as [s1 [x|]]; [discriminate|]. eapply HI; eauto.
  - unfold osetslice in H. eapply HI; eauto.
Qed.

(** ** Equality *)
(** every number compares equal to itself *)
Fixpoint self_equal (e : elem) : Prop :=
  match e with
  | Leaf k m => kind_eq k k = true /\ mat_eq m m = true
  | Group gk m es =>
      gkind_eq gk gk = true /\ mat_eq m m = true /\
      (fix go (l : list elem) : Prop := match l with [] => True | x :: t => self_equal x /\ go t end) es
  end.
Definition iteration_of (s : store) (i : nat) : nat :=
  match oget s i with Some (OGroup _ _ _ _ it) => it | _ => 0%nat end.
(** no group below [i] was traced or iterated over *)
Definition unused (fuel : nat) (s : store) (i : nat) : Prop :=
  forall j, In j (groups fuel s i) -> cache_of s j = None /\ iteration_of s j = 0%nat.


Theorem equal_elements_equal_groups fuel : forall (s : store) (h : heap) i j e,
  tree fuel s i = Some e -> tree fuel s j = Some e -> unused fuel s i -> unused fuel s j -> self_equal e ->
  oeq fuel s h i j = Some true.
Proof.
  induction fuel as [|f IH]; [discriminate|]. intros s h i j e Hi Hj Ui Uj He.
  cbn [oeq]. unfold unused in Ui, Uj. cbn [groups] in Ui, Uj.
  destruct (oget s i) as [[k m|gk m kids c it]|] eqn:Ei; [| |cbn [tree] in Hi; rewrite Ei in Hi; discriminate].
  - rewrite (tree_leaf _ _ _ _ _ Ei) in Hi. injection Hi as <-.
    destruct (oget s j) as [[k' m'|gk' m' kids' c' it']|] eqn:Ej; [| |cbn [tree] in Hj; rewrite Ej in Hj; discriminate].
    + rewrite (tree_leaf _ _ _ _ _ Ej) in Hj. injection Hj as -> ->. cbn in He. destruct He as (-> & ->). reflexivity.
    + rewrite (tree_group _ _ _ _ _ _ _ _ Ej) in Hj. destruct (all_some _ _); discriminate.
  - rewrite (tree_group _ _ _ _ _ _ _ _ Ei) in Hi. destruct (all_some (tree f s) kids) as [es|] eqn:Ek; [|discriminate].
    injection Hi as <-.
    destruct (oget s j) as [[k' m'|gk' m' kids' c' it']|] eqn:Ej; [| |cbn [tree] in Hj; rewrite Ej in Hj; discriminate].
    { rewrite (tree_leaf _ _ _ _ _ Ej) in Hj. discriminate. }
    rewrite (tree_group _ _ _ _ _ _ _ _ Ej) in Hj. destruct (all_some (tree f s) kids') as [es'|] eqn:Ek'; [|discriminate].
    injection Hj as -> -> ->. cbn [self_equal] in He. destruct He as (H1 & H2 & H3). rewrite H1, H2.
    destruct (Ui i (or_introl eq_refl)) as (C1 & I1). destruct (Uj j (or_introl eq_refl)) as (C2 & I2).
    unfold cache_of, iteration_of in C1, I1, C2, I2. rewrite Ei in C1, I1. rewrite Ej in C2, I2. subst c it c' it'.
    cbn [andb Nat.eqb opt_eq].
    assert (forall x, In x kids -> unused f s x) as Ux.
    { intros x Hx q Hq. apply Ui. right. apply in_concat. exists (groups f s x). split; auto. now apply in_map. }
    assert (forall x, In x kids' -> unused f s x) as Ux'.
    { intros x Hx q Hq. apply Uj. right. apply in_concat. exists (groups f s x). split; auto. now apply in_map. }
    clear Ui Uj Ei Ej. revert kids' es Ek Ek' Ux' H3. induction kids as [|x t IHt]; intros kids' es Ek Ek' Ux' H3.
    + injection Ek as <-. destruct kids' as [|y t']; [reflexivity|].
      apply all_some_cons in Ek'. destruct Ek' as (? & ? & ? & _). discriminate.
    + apply all_some_cons in Ek. destruct Ek as (ex & et & -> & Ex & Et).
      destruct kids' as [|y t']; [discriminate|]. apply all_some_cons in Ek'.
      destruct Ek' as (ey & et' & [= <- <-] & Ey & Et'). destruct H3 as (H3 & H4).
      rewrite (IH s h x y ex Ex Ey (Ux x (or_introl eq_refl)) (Ux' y (or_introl eq_refl)) H3).
      eapply IHt; eauto.
      * intros z Hz. apply Ux. now right.
      * intros z Hz. apply Ux'. now right.
Qed.
End Generic.

(** equal numbers are the same number, except in floating point *)
Lemma exact_xr (a b : XR) : neqb a b = true -> a = b.
Proof.
  change (@neqb XR _) with xeqb. destruct a, b; cbn [xeqb]; try discriminate; auto.
  unfold Reqb. destruct (Req_EM_T _ _); [now subst|discriminate].
Qed.

(** ** The matrices of groups that are not modified stay right *)
Lemma product_unchanged (s s' : @store XR) j : product_ok s j -> oget s' j = oget s j ->
  (forall x, In x (kids_of s j) -> oget s' x = oget s x) -> product_ok s' j.
Proof.
  intros (gk & m & kids & c & it & os & tm & A & B & C & D & E) Hj Hk.
  exists gk, m, kids, c, it, os, tm. rewrite Hj. split; [exact A|]. split; [|auto].
  rewrite <- B. apply all_some_ext. intros x Hx. apply Hk. unfold kids_of. now rewrite A.
Qed.
Theorem history_product (s : @store XR) l j : Forall finite_cut l -> in_air s -> product_ok s j ->
  (forall o, In o l -> ~ modifies o j /\ forall x, In x (kids_of s j) -> ~ modifies o x) ->
  product_ok (srun s l) j.
Proof.
  intros Hf Ha Hp Hm. destruct (srun_air l s Hf Ha) as (_ & L & U).
  pose proof Hp as (gk & m & kids & c & it & os & tm & A & B & _).
  apply (product_unchanged s); auto.
  - apply U; [eapply oget_lt; eauto|]. intros (o & Ho & Hmo). exact (proj1 (Hm o Ho) Hmo).
  - intros x Hx. assert (exists ox, oget s x = Some ox) as (ox & Ex).
    { unfold kids_of in Hx. rewrite A in Hx. clear -B Hx. revert os B. induction kids as [|y t IH]; intros os B; [destruct Hx|].
      apply all_some_cons in B. destruct B as (e & r & -> & E1 & E2). destruct Hx as [->|Hx]; eauto. }
    apply U; [eapply oget_lt; eauto|]. intros (o & Ho & Hmo). exact (proj2 (Hm o Ho) x Hx Hmo).
Qed.
