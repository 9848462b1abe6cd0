(** Proofs about histories of group operations. *)
From Coq Require Import ZArith Reals Lra Lia List Bool String.
From Verif Require Import Base Nums Optics Group Spec MatrixProofs ElementProofs.
Import ListNotations.

(** ** Induction on elements *)
Section ElemInd.
  Context {T : Type} (P : @elem T -> Prop).
  Hypothesis HL : forall k m, P (Leaf k m).
  Hypothesis HG : forall g m es, Forall P es -> P (Group g m es).
  Fixpoint elem_ind' (e : @elem T) : P e :=
    match e with
    | Leaf k m => HL k m
    | Group g m es =>
        HG g m es ((fix all (l : list elem) : Forall P l :=
          match l with [] => Forall_nil P | x :: t => Forall_cons x (elem_ind' x) (all t) end) es)
    end.
End ElemInd.

(** ** Facts that hold for every kind of numbers *)
Section Generic.
Context {T : Type} {N : Num T}.
Local Notation elem := (@elem T).
Local Notation grp := (@grp T).

(** the attributes of a group are exactly those of transferMatrix() *)
Definition in_step (g : grp) : Prop :=
  gelems g <> [] ->
  exists p, group_transfer (gelems g) ninf = Ok p /\ gmat g = copy_attrs (gmat g) p.

Lemma append_ok_in_step g e g' : append_st g e = (g', None) ->
  in_step g' /\ gelems g' <> [].
Proof.
  unfold append_st. destruct (append_check (gelems g) e) as [e'|x]; [|discriminate].
  destruct (group_transfer _ ninf) as [p|x] eqn:E; [|discriminate].
  intros [= <-]. cbn. split.
  - intros _. exists p. cbn. split; auto.
  - destruct (gelems g); discriminate.
Qed.

Lemma append_all_in_step g l g' : append_all_st g l = (g', None) ->
  in_step g -> in_step g'.
Proof.
  revert g; induction l as [|e t IH]; cbn; intros g H Hg.
  - now injection H as <-.
  - destruct (append_st g e) as [g1 [x|]] eqn:E; [discriminate|].
    apply IH in H; auto. eapply append_ok_in_step; eauto.
Qed.

Lemma rebuild_in_step g l g' : rebuild g l = (g', None) -> in_step g'.
Proof.
  unfold rebuild. intros H. eapply append_all_in_step; eauto. intros C; now elim C.
Qed.

Lemma insert_in_step g i l g' : insert_st g i l = (g', None) -> in_step g'.
Proof.
  unfold insert_st. destruct (MatrixGroup_new l ""); [|discriminate]. apply rebuild_in_step.
Qed.

Lemma flip_each_in_step g l g' : flip_each g l = (g', None) -> in_step g -> in_step g'.
Proof.
  revert g; induction l as [|e t IH]; cbn; intros g H Hg.
  - now injection H as <-.
  - destruct (flip e); [|discriminate].
    destruct (append_st g a) as [g1 [x|]] eqn:E; [discriminate|].
    apply IH in H; auto. eapply append_ok_in_step; eauto.
Qed.

Lemma gstep_in_step g o g' : gstep g o = (g', None) -> in_step g -> in_step g'.
Proof.
  destruct o; cbn; intros H Hg.
  - eapply append_ok_in_step; eauto.
  - unfold pop_st in H. destruct (pyindex _ i); [|discriminate]. eapply rebuild_in_step; eauto.
  - eapply insert_in_step; eauto.
  - unfold setitem_st in H. destruct (pop_st g i) as [g1 [x|]]; [discriminate|].
    eapply insert_in_step; eauto.
  - unfold setslice_st in H. eapply insert_in_step; eauto.
  - unfold load_st in H. destruct app.
    + eapply append_all_in_step; eauto.
    + eapply append_all_in_step; eauto. intros C; now elim C.
  - unfold flip_st in H. eapply flip_each_in_step; eauto. intros C; now elim C.
Qed.

(** all operations of the history succeed *)
Fixpoint all_succeed (g : grp) (os : list gop) : Prop :=
  match os with
  | [] => True
  | o :: t => snd (gstep g o) = None /\ all_succeed (fst (gstep g o)) t
  end.

Lemma grun_in_step os : forall g, in_step g -> all_succeed g os -> in_step (grun g os).
Proof.
  induction os as [|o t IH]; cbn; auto. intros g Hg [H1 H2].
  apply IH; auto. destruct (gstep g o) as [g' x] eqn:E; cbn in *; subst.
  eapply gstep_in_step; eauto.
Qed.

(** ** Which elements end up where *)
(** an element up to the index a Space takes from its neighbour *)
Definition shape (e : elem) : elem := if isSpace e then set_index e c1 else e.

Lemma shape_set_index e n : isSpace e = true -> shape (set_index e n) = shape e.
Proof. destruct e as [[] m|]; cbn; intros; try discriminate; reflexivity. Qed.

Lemma append_check_shape es e e' : append_check es e = Ok e' -> shape e' = shape e.
Proof.
  unfold append_check. destruct (last_opt es); [|intros [= <-]; auto].
  destruct (neqb _ _); [intros [= <-]; auto|].
  destruct (isSpace e) eqn:E; [|discriminate]. intros [= <-]. now apply shape_set_index.
Qed.

Lemma append_shape g e g' : append_st g e = (g', None) ->
  map shape (gelems g') = map shape (gelems g ++ [e]).
Proof.
  unfold append_st. destruct (append_check (gelems g) e) as [e'|x] eqn:C; [|discriminate].
  apply append_check_shape in C.
  destruct (group_transfer _ ninf) as [p|x] eqn:E; [|discriminate].
  intros [= <-]. cbn. rewrite !map_app; cbn. now rewrite C.
Qed.

Lemma append_all_shape g l g' : append_all_st g l = (g', None) ->
  map shape (gelems g') = map shape (gelems g ++ l).
Proof.
  revert g; induction l as [|e t IH]; cbn; intros g H.
  - injection H as <-. now rewrite app_nil_r.
  - destruct (append_st g e) as [g1 [x|]] eqn:E; [discriminate|].
    apply IH in H. apply append_shape in E. rewrite H, !map_app, E, map_app, <- app_assoc.
    reflexivity.
Qed.

Lemma append_all_as l : forall g, append_all g l = as_res (append_all_st g l).
Proof.
  induction l as [|e t IH]; intros; cbn; auto. unfold append.
  destruct (append_st g e) as [g1 [x|]]; cbn; auto.
Qed.

Lemma MatrixGroup_new_shape l lab g : MatrixGroup_new l lab = Ok g ->
  map shape (gelems g) = map shape l.
Proof.
  unfold MatrixGroup_new. destruct (Matrix_init _ _ _ _ _ _ _ _ _ _ _ _); cbn; [|discriminate].
  rewrite append_all_as. destruct (append_all_st _ l) as [g1 [x|]] eqn:E; cbn; [discriminate|].
  intros [= <-]. now apply append_all_shape in E.
Qed.

Lemma rebuild_shape g l g' : rebuild g l = (g', None) -> map shape (gelems g') = map shape l.
Proof. intros H. now apply append_all_shape in H. Qed.

Lemma pytake_map {A B} (f : A -> B) i l : map f (pytake i l) = pytake i (map f l).
Proof. unfold pytake. now rewrite map_length, firstn_map. Qed.
Lemma pydrop_map {A B} (f : A -> B) i l : map f (pydrop i l) = pydrop i (map f l).
Proof. unfold pydrop. now rewrite map_length, skipn_map. Qed.

Lemma insert_shape g i l g' : insert_st g i l = (g', None) ->
  map shape (gelems g') = map shape (pytake i (gelems g) ++ l ++ pydrop i (gelems g)).
Proof.
  unfold insert_st. destruct (MatrixGroup_new l "") eqn:E; [|discriminate].
  intros H. apply rebuild_shape in H. apply MatrixGroup_new_shape in E.
  rewrite H, !map_app, E. reflexivity.
Qed.

Lemma setitem_shape g (i : nat) l g' :
  (i < List.length (gelems g))%nat -> setitem_st g (Z.of_nat i) l = (g', None) ->
  map shape (gelems g') = map shape (firstn i (gelems g) ++ l ++ skipn (S i) (gelems g)).
Proof.
  intros Hi. unfold setitem_st, pop_st.
  assert (pyindex (List.length (gelems g)) (Z.of_nat i) = Some i) as ->.
  { unfold pyindex.
    destruct (Z.ltb_spec (Z.of_nat i) 0); [lia|].
    destruct (Z.leb_spec 0 (Z.of_nat i)); [|lia].
    destruct (Z.ltb_spec (Z.of_nat i) (Z.of_nat (List.length (gelems g)))); [|lia].
    cbn. now rewrite Nat2Z.id. }
  destruct (rebuild g (remove_nth i (gelems g))) as [g1 [x|]] eqn:E; [discriminate|].
  intros H. apply insert_shape in H. apply rebuild_shape in E.
  rewrite H, !map_app, pytake_map, pydrop_map, E. unfold remove_nth.
  rewrite map_app. clear -Hi.
  set (L := map shape (gelems g)).
  rewrite <- !firstn_map, <- !skipn_map. fold L.
  assert (i < List.length L)%nat as HL by (unfold L; now rewrite map_length).
  assert (List.length (firstn i L) = i) as H1 by (rewrite firstn_length; lia).
  unfold pytake, pydrop, pybound.
  destruct (Z.ltb_spec (Z.of_nat i) 0); [lia|].
  rewrite app_length, H1.
  replace (Z.to_nat _) with i.
  - rewrite firstn_app, H1, Nat.sub_diag, firstn_O, app_nil_r, firstn_firstn, Nat.min_id.
    rewrite skipn_app, H1, Nat.sub_diag, skipn_O.
    rewrite (skipn_all2 (firstn i L)) by (rewrite H1; lia). reflexivity.
  - rewrite Z.max_l, Z.min_l by lia. now rewrite Nat2Z.id.
Qed.

Lemma setslice_shape g (a b : nat) l g' :
  (a <= b <= List.length (gelems g))%nat ->
  setslice_st g (Some (Z.of_nat a)) (Some (Z.of_nat b)) l = (g', None) ->
  map shape (gelems g') = map shape (firstn a (gelems g) ++ l ++ skipn b (gelems g)).
Proof.
  intros Hi H. unfold setslice_st in H. apply insert_shape in H. rewrite H. cbn [gelems].
  f_equal. clear H. unfold pytake, pydrop, pybound. set (L := gelems g) in *.
  destruct (Z.ltb_spec (Z.of_nat a) 0); [lia|].
  destruct (Z.ltb_spec (Z.of_nat b) 0); [lia|].
  replace (Z.to_nat (Z.min (Z.max (Z.of_nat a) 0) (Z.of_nat (List.length L)))) with a by lia.
  replace (Z.to_nat (Z.min (Z.max (Z.of_nat b) 0) (Z.of_nat (List.length L)))) with b by lia.
  assert (List.length (firstn a L) = a) as H1 by (rewrite firstn_length; lia).
  rewrite app_length, H1, skipn_length.
  replace (Z.to_nat (Z.min (Z.max (Z.of_nat a) 0) (Z.of_nat (a + (List.length L - b))))) with a by lia.
  rewrite firstn_app, H1, Nat.sub_diag, firstn_O, app_nil_r, firstn_firstn, Nat.min_id.
  rewrite skipn_app, H1, Nat.sub_diag, skipn_O.
  rewrite (skipn_all2 (firstn a L)) by (rewrite H1; lia). reflexivity.
Qed.

(** ** Failed operations *)
Lemma append_mismatch_safe g e le :
  last_opt (gelems g) = Some le -> neqb (mbi (emat le)) (mfi (emat e)) = false ->
  isSpace e = false -> append_st g e = (g, Some ValueError).
Proof. intros H1 H2 H3. unfold append_st, append_check. now rewrite H1, H2, H3. Qed.

(** an append that raises because of indices changes nothing *)
Lemma append_raise_safe g e g' x :
  append_st g e = (g', Some x) -> g' = g \/ exists e', group_transfer (gelems g ++ [e']) ninf = Err x.
Proof.
  unfold append_st. destruct (append_check (gelems g) e) as [e'|y].
  - destruct (group_transfer _ ninf) eqn:E; intros [= <- <-]. right; eauto.
  - intros [= <- <-]; auto.
Qed.

Lemma pop_range_safe g i : pyindex (List.length (gelems g)) i = None ->
  pop_st g i = (g, Some IndexError).
Proof. intros H. unfold pop_st. now rewrite H. Qed.

Lemma insert_bad_safe g i l x : MatrixGroup_new l "" = Err x -> insert_st g i l = (g, Some x).
Proof. intros H. unfold insert_st. now rewrite H. Qed.

(** flip of a group is the top-level loop *)
Lemma flip_group gk (m : @mat T) es :
  flip (Group gk m es) =
  (g <- flip_loop (mkGrp (set_flip m (negb (mflip m))) []) es;; Ok (finish_flip gk g)).
Proof.
  cbn [flip]. f_equal.
  induction es as [|x t IH]; cbn; [reflexivity|]. now rewrite IH.
Qed.

Lemma flip_loop_as l : forall g, flip_loop g l = as_res (flip_each g (rev l)).
Proof.
  assert (forall l1 l2 g, flip_each g (l1 ++ l2) =
            match flip_each g l1 with (g', None) => flip_each g' l2 | r => r end) as HA.
  { induction l1 as [|e t IH]; intros; cbn; auto.
    destruct (flip e); auto. destruct (append_st g a) as [g1 [x|]]; auto. }
  induction l as [|e t IH]; intros; cbn; auto. rewrite IH, HA.
  destruct (flip_each g (rev t)) as [g1 [x|]]; cbn; auto.
  destruct (flip e); cbn; auto. unfold append.
  destruct (append_st g1 a) as [g2 [x|]]; cbn; auto.
Qed.
End Generic.

Open Scope R_scope.

(** ** Elements of the library, over exact numbers *)
(** what the class of a leaf guarantees about its attributes *)
Definition leaf_spec (k : @kind XR) (o : optic) : Prop :=
  match k with
  | KCurvedMirror => onf o = onb o /\ B_ (oM o) = 0
  | KInterface a b r =>
      exists n1 n2, a = Fin n1 /\ b = Fin n2 /\ radius_ok r /\
        oM o = oM (o_interface n1 n2 r) /\ onf o = n1 /\ onb o = n2
  | KThickLens n r1 r2 | KSlab n r1 r2 =>
      exists x, n = Fin x /\ x <> 0 /\ radius_ok r1 /\ radius_ok r2 /\
        oM o = oM (o_thick x r1 r2 (oL o)) /\ onf o = 1 /\ onb o = 1
  | _ => onf o = onb o
  end.

(** elements built from the classes of the library, groups included; [o] describes the
    attributes of the element itself *)
Inductive lib : @elem XR -> optic -> Prop :=
| lib_leaf k m o : describes m o -> physical o -> leaf_spec k o -> lib (Leaf k m) o
| lib_group g m es o os : describes m o -> physical o ->
    Forall2 lib es os -> chain os -> lib (Group g m es) o.

Lemma lib_describes e o : lib e o -> describes (emat e) o.
Proof. destruct 1; auto. Qed.
Lemma lib_physical e o : lib e o -> physical o.
Proof. destruct 1; auto. Qed.

Definition reindex (o : optic) (n : R) : optic := mkO (oM o) (oL o) n n (ofv o) (obv o).

Lemma lib_set_index e o n : lib e o -> isSpace e = true -> n <> 0 ->
  lib (set_index e (Fin n)) (reindex o n).
Proof.
  destruct 1 as [k m o Hd Hp Hs|]; cbn; [|discriminate].
  destruct k; try discriminate. intros _ Hn. constructor.
  - constructor; cbn; try apply Hd; reflexivity.
  - destruct Hp as (H1 & H2 & H3). cbn in Hs. repeat split; cbn; auto.
    rewrite H3, Hs. field; auto.
  - reflexivity.
Qed.

(** invariant of a group with current elements [es] and attributes [m] *)
Definition ginv (g : @grp XR) : Prop :=
  exists os, Forall2 lib (gelems g) os /\ chain os /\
    match os with [] => True | o :: t => tracks (gmat g) (path_optic o t) end.

Lemma tracks_copy m p o : tracks p o -> tracks (copy_attrs m p) o.
Proof.
  intros [H | [H1 H2]]; [left | right; split; auto].
  - constructor; apply H.
  - constructor; apply H2.
Qed.

Lemma matched_app n l l' :
  matched n (l ++ l') <-> matched n l /\ matched (List.last (map onb l) n) l'.
Proof.
  revert n; induction l as [|o t IH]; intros; [cbn; tauto|].
  change (map onb (o :: t)) with (onb o :: map onb t). rewrite last_cons_default.
  cbn [app matched]. rewrite IH. tauto.
Qed.

Lemma chain_snoc l o : chain (l ++ [o]) <->
  chain l /\ physical o /\ match last_opt l with Some x => onf o = onb x | None => True end.
Proof.
  destruct l as [|x t]; [cbn; tauto|].
  cbn [app chain]. rewrite matched_app. cbn [matched].
  replace (last_opt (x :: t)) with (Some (List.last t x)).
  - assert (forall t x, List.last (map onb t) (onb x) = onb (List.last t x)) as HL.
    { clear. induction t as [|y t IH]; intros; auto.
      change (map onb (y :: t)) with (onb y :: map onb t).
      rewrite !last_cons_default. apply IH. }
    rewrite HL. tauto.
  - clear. revert x; induction t as [|y t IH]; intros; auto.
    rewrite last_cons_default, IH. reflexivity.
Qed.

Lemma Forall2_last_opt {A B} (P : A -> B -> Prop) l l' : Forall2 P l l' ->
  match last_opt l, last_opt l' with
  | Some x, Some y => P x y
  | None, None => True
  | _, _ => False
  end.
Proof.
  induction 1 as [|x y l l' HP H IH]; cbn; auto.
  inversion H; subst; auto.
Qed.

Lemma physical_chain_in l o : chain l -> In o l -> physical o.
Proof.
  destruct l as [|x t]; [intros _ []|]. intros [Px Hm] [->|Hi]; auto.
  clear Px. revert Hm Hi. generalize (onb x) as n. induction t as [|y t IH]; intros n Hm [].
  - subst. apply Hm.
  - eapply IH; [apply Hm|auto].
Qed.

Lemma last_opt_in {A} (l : list A) x : last_opt l = Some x -> In x l.
Proof.
  induction l as [|y t IH]; cbn; [discriminate|].
  destruct t; [intros [= ->]; auto|]. intros H; right; auto.
Qed.

(** an element that passes the index check of append extends the chain *)
Lemma append_check_lib es os e o e' : Forall2 lib es os -> chain os -> lib e o ->
  append_check es e = Ok e' -> exists o', lib e' o' /\ chain (os ++ [o']).
Proof.
  intros HF HC He. unfold append_check.
  pose proof (Forall2_last_opt _ _ _ HF) as HL.
  destruct (last_opt es) as [le|], (last_opt os) as [lo|] eqn:EO; try contradiction.
  - pose proof (lib_describes _ _ HL) as Dl. pose proof (lib_describes _ _ He) as De.
    rewrite (d_nb _ _ Dl), (d_nf _ _ De). cbn [neqb NumXR xeqb].
    destruct (Reqb (onb lo) (onf o)) eqn:Eq.
    + intros [= <-]. exists o; split; auto. apply chain_snoc. rewrite EO.
      apply Reqb_true in Eq. repeat split; auto; eapply lib_physical; eauto.
    + destruct (isSpace e) eqn:Sp; [|discriminate]. intros [= <-].
      assert (onb lo <> 0) by (eapply lib_physical; eauto).
      exists (reindex o (onb lo)). split.
      * apply lib_set_index; auto.
      * apply chain_snoc. rewrite EO. split; auto. split; [|reflexivity].
        eapply lib_physical. apply lib_set_index; eauto.
  - intros [= <-]. exists o; split; auto. apply chain_snoc. rewrite EO.
    repeat split; auto; eapply lib_physical; eauto.
Qed.

Lemma Forall2_lib_desc es os : Forall2 lib es os ->
  Forall2 (fun e o => describes (emat e) o) es os.
Proof. induction 1; constructor; auto. now apply lib_describes. Qed.

Lemma append_st_cases g e o : ginv g -> lib e o ->
  (append_st g e = (g, Some ValueError)) \/
  (exists g', append_st g e = (g', None) /\ ginv g').
Proof.
  intros (os & HF & HC & HT) He. unfold append_st.
  destruct (append_check (gelems g) e) as [e'|x] eqn:Ck.
  - right. destruct (append_check_lib _ _ _ _ _ HF HC He Ck) as (o' & He' & HC').
    assert (Forall2 lib (gelems g ++ [e']) (os ++ [o'])) as HF'
      by (apply Forall2_app; auto).
    pose proof (Forall2_lib_desc _ _ HF') as HD.
    destruct (gelems g ++ [e']) as [|e1 es1] eqn:Ee; [destruct (gelems g); discriminate|].
    destruct (os ++ [o']) as [|o1 os1] eqn:Eo; [destruct os; discriminate|].
    destruct (group_transfer_inf _ _ _ _ HD HC') as (p & G1 & G2 & G3 & _).
    cbn [ninf NumXR]. rewrite G1. eexists; split; [reflexivity|].
    exists (o1 :: os1). cbn. split; auto. split; auto. now apply tracks_copy.
  - left. unfold append_check in Ck.
    destruct (last_opt (gelems g)); [|discriminate].
    destruct (neqb _ _); [discriminate|]. destruct (isSpace e); [discriminate|].
    now injection Ck as <-.
Qed.

Lemma append_st_inv g e o : ginv g -> lib e o -> ginv (fst (append_st g e)).
Proof.
  intros Hg He. destruct (append_st_cases g e o Hg He) as [-> | (g' & -> & H)]; auto.
Qed.

Definition libs (l : list (@elem XR)) : Prop := Forall (fun e => exists o, lib e o) l.

Lemma append_all_inv l : forall g, ginv g -> libs l -> ginv (fst (append_all_st g l)).
Proof.
  induction l as [|e t IH]; intros g Hg Hl; cbn; auto. inversion Hl; subst.
  destruct H1 as [o Ho]. pose proof (append_st_inv g e o Hg Ho) as H.
  destruct (append_st g e) as [g' [x|]]; cbn in *; auto.
Qed.

Lemma ginv_nil m : ginv (mkGrp m []).
Proof. exists []; cbn; auto. Qed.

Lemma ginv_libs g : ginv g -> libs (gelems g).
Proof.
  intros (os & HF & _). unfold libs. induction HF; constructor; eauto.
Qed.

Lemma rebuild_inv g l : libs l -> ginv (fst (rebuild g l)).
Proof. intros. apply append_all_inv; auto using ginv_nil. Qed.

Lemma libs_app l l' : libs l -> libs l' -> libs (l ++ l').
Proof. intros; apply Forall_app; auto. Qed.
Lemma libs_firstn n l : libs l -> libs (firstn n l).
Proof. unfold libs. revert n; induction l; intros [|n] H; cbn; auto. inversion H; constructor; auto. Qed.
Lemma libs_skipn n l : libs l -> libs (skipn n l).
Proof. unfold libs. revert n; induction l; intros [|n] H; cbn; auto. inversion H; auto. Qed.

Lemma MatrixGroup_new_libs l lab g : libs l -> MatrixGroup_new l lab = Ok g -> libs (gelems g).
Proof.
  unfold MatrixGroup_new. intros Hl.
  destruct (Matrix_init _ _ _ _ _ _ _ _ _ _ _ _) as [m|]; cbn; [|discriminate].
  rewrite append_all_as. pose proof (append_all_inv l (mkGrp m []) (ginv_nil m) Hl) as H.
  destruct (append_all_st (mkGrp m []) l) as [g1 [x|]]; cbn; [discriminate|].
  intros [= <-]. apply ginv_libs; auto.
Qed.

Lemma insert_inv g i l : libs (gelems g) -> libs l ->
  (ginv g \/ exists tmp, MatrixGroup_new l "" = Ok tmp) -> ginv (fst (insert_st g i l)).
Proof.
  intros Hg Hl Hor. unfold insert_st. destruct (MatrixGroup_new l "") as [tmp|x] eqn:E.
  - apply rebuild_inv. apply libs_app; [apply libs_firstn; auto|].
    apply libs_app; [|apply libs_skipn; auto]. eapply MatrixGroup_new_libs; eauto.
  - destruct Hor as [H | [t Ht]]; [exact H|discriminate].
Qed.

Lemma tracks_some m o : physical o -> tracks m o -> exists o', describes m o' /\ physical o'.
Proof.
  intros P [H | [H1 H2]]; [eauto|]. eexists; split; [exact H2|].
  unfold physical; cbn. rewrite mdet_id. repeat split; lra.
Qed.

(** ** Flipping keeps elements in the library *)
Lemma radius_ok_opp r : radius_ok r -> radius_ok (nopp r).
Proof. destruct r; cbn; auto. intros H H'. apply H. lra. Qed.
Lemma curv_opp r : radius_ok r -> curv (nopp r) = - curv r.
Proof.
  destruct r; cbn; auto; try (intros; lra). intros H. field. auto.
Qed.

Lemma flip_leaf_lib k m o e' : lib (Leaf k m) o -> flip_leaf k m = Ok e' ->
  exists o', lib e' o'.
Proof.
  intros HL Hf. inversion HL as [k0 m0 o0 Hd Hp Hs|]; subst.
  assert (forall k, (onf o = onb o) -> leaf_spec k (mkO (oM o) (oL o) (onb o) (onf o) (obv o) (ofv o)) ->
    exists o', lib (Leaf k (flip_mat m)) o') as Simple.
  { intros k' En Hk. eexists. constructor; [| |exact Hk].
    - constructor; cbn; apply Hd.
    - destruct Hp as (H1 & H2 & H3). unfold physical; cbn. repeat split; auto.
      rewrite H3, En. reflexivity. }
  destruct k as [|? ?| | |n1 n2 rr|nn rr1 rr2|nn rr1 rr2| |? ?];
    cbn [flip_leaf] in Hf; cbn [leaf_spec] in Hs;
    try (injection Hf as <-; apply Simple; cbn; auto; fail).
  - (* mirror *)
    destruct Hs as [En HB]. injection Hf as <-.
    exists (mkO (mk2 (A_ (oM o)) (B_ (oM o)) (- C_ (oM o)) (D_ (oM o))) (oL o)
                (onb o) (onf o) (obv o) (ofv o)).
    constructor.
    + constructor; cbn; dsc Hd; reflexivity.
    + destruct Hp as (H1 & H2 & H3). unfold physical; cbn. repeat split; auto.
      unfold mdet in *; cbn. rewrite HB in *. rewrite <- En in *. lra.
    + cbn; auto.
  - (* interface *)
    destruct Hs as (a & b & -> & -> & Hr & HM & E1 & E2).
    destruct Hp as (P1 & P2 & P3).
    rewrite interface_C_ok in Hf by (auto using radius_ok_opp; congruence).
    cbn [bind] in Hf. rewrite pdiv_fin in Hf by congruence. cbn [bind] in Hf.
    injection Hf as <-.
    exists (mkO (oM (o_interface b a (nopp rr))) (oL o) b a (obv o) (ofv o)).
    constructor.
    + constructor; cbn; dsc Hd; try rewrite HM; cbn; try reflexivity; congruence.
    + unfold physical; cbn. repeat split; try congruence.
      assert (a <> 0) by congruence. unfold mdet; cbn. field; auto.
    + cbn. exists b, a. repeat split; auto using radius_ok_opp.
  - (* thick lens *)
    destruct Hs as (x & -> & Hx & Hr1 & Hr2 & HM & E1 & E2).
    rewrite (d_L _ _ Hd) in Hf.
    rewrite thick_A_ok in Hf by auto using radius_ok_opp. cbn [bind] in Hf.
    rewrite thick_B_ok in Hf by auto. cbn [bind] in Hf.
    rewrite thick_C_ok in Hf by auto using radius_ok_opp. cbn [bind] in Hf.
    rewrite thick_D_ok in Hf by auto using radius_ok_opp. cbn [bind] in Hf.
    injection Hf as <-.
    exists (mkO (oM (o_thick x (nopp rr2) (nopp rr1) (oL o))) (oL o) 1 1 (obv o) (ofv o)).
    constructor.
    + constructor; cbn [emat set_ABCD mA mB mC mD mL mfi mbi mfv mbv flip_mat oM oL onf onb ofv obv];
        rewrite ?o_thick_eq by auto; cbn [oM A_ B_ C_ D_]; try reflexivity;
        dsc Hd; try reflexivity; congruence.
    + pose proof (p_thick x (nopp rr2) (nopp rr1) (oL o) Hx) as (Q1 & Q2 & Q3).
      unfold physical; cbn [oM onf onb]. repeat split; try lra. rewrite Q3.
      rewrite o_thick_eq by auto. reflexivity.
    + cbn. exists x. repeat split; auto using radius_ok_opp.
  - (* slab *)
    destruct Hs as (x & -> & Hx & Hr1 & Hr2 & HM & E1 & E2).
    rewrite (d_L _ _ Hd) in Hf.
    rewrite thick_A_ok in Hf by auto using radius_ok_opp. cbn [bind] in Hf.
    rewrite thick_B_ok in Hf by auto. cbn [bind] in Hf.
    rewrite thick_C_ok in Hf by auto using radius_ok_opp. cbn [bind] in Hf.
    rewrite thick_D_ok in Hf by auto using radius_ok_opp. cbn [bind] in Hf.
    injection Hf as <-.
    exists (mkO (oM (o_thick x (nopp rr2) (nopp rr1) (oL o))) (oL o) 1 1 (obv o) (ofv o)).
    constructor.
    + constructor; cbn [emat set_ABCD mA mB mC mD mL mfi mbi mfv mbv flip_mat oM oL onf onb ofv obv];
        rewrite ?o_thick_eq by auto; cbn [oM A_ B_ C_ D_]; try reflexivity;
        dsc Hd; try reflexivity; congruence.
    + pose proof (p_thick x (nopp rr2) (nopp rr1) (oL o) Hx) as (Q1 & Q2 & Q3).
      unfold physical; cbn [oM onf onb]. repeat split; try lra. rewrite Q3.
      rewrite o_thick_eq by auto. reflexivity.
    + cbn. exists x. repeat split; auto using radius_ok_opp.
Qed.

Lemma describes_set_flip m o b : describes m o -> describes (set_flip m b) o.
Proof. intros H; constructor; apply H. Qed.

Lemma describes_objective es : forall m o z, describes m o ->
  (forall e, In e es -> exists o', describes (emat e) o') ->
  describes (objective_vertices es m (Fin z))
            (mkO (oM o) (oL o) (onf o) (onb o)
               (match mfv (objective_vertices es m (Fin z)) with Some (Fin v) => Some v | _ => None end)
               (match mbv (objective_vertices es m (Fin z)) with Some (Fin v) => Some v | _ => None end)).
Proof.
  induction es as [|e t IH]; intros m o z Hm He.
  - cbn. constructor; cbn; try apply Hm.
    + dsc Hm. destruct (ofv o); reflexivity.
    + dsc Hm. destruct (obv o); reflexivity.
  - cbn [objective_vertices].
    destruct (He e) as [oe De]; [left; auto|].
    rewrite (d_L _ _ De). change (nadd (Fin z) (Fin (oL oe))) with (Fin (z + oL oe)).
    match goal with |- context [objective_vertices t ?x _] => set (m' := x) end.
    assert (exists o', describes m' o' /\ oM o' = oM o /\ oL o' = oL o /\ onf o' = onf o /\ onb o' = onb o)
      as (o' & Hm' & E1 & E2 & E3 & E4).
    { unfold m'.
      destruct (String.eqb _ _); [|destruct (String.eqb _ _)];
        try destruct (negb (mflip m)).
      - exists (mkO (oM o) (oL o) (onf o) (onb o) (ofv o) (Some z)).
        split; [|cbn; auto]. constructor; cbn; try apply Hm; reflexivity.
      - exists (mkO (oM o) (oL o) (onf o) (onb o) (Some z) (obv o)).
        split; [|cbn; auto]. constructor; cbn; try apply Hm; reflexivity.
      - exists (mkO (oM o) (oL o) (onf o) (onb o) (Some z) (obv o)).
        split; [|cbn; auto]. constructor; cbn; try apply Hm; reflexivity.
      - exists (mkO (oM o) (oL o) (onf o) (onb o) (ofv o) (Some z)).
        split; [|cbn; auto]. constructor; cbn; try apply Hm; reflexivity.
      - exists o; auto.
      - exists o; auto. }
    rewrite <- E1, <- E2, <- E3, <- E4.
    apply IH; auto. intros; apply He; right; auto.
Qed.

Lemma physical_same o o' : oM o' = oM o -> onf o' = onf o -> onb o' = onb o ->
  physical o -> physical o'.
Proof. unfold physical; intros -> -> ->; auto. Qed.

Lemma flip_each_inv l : forall g,
  (forall e, In e l -> exists o, lib e o) ->
  (forall e, In e l -> forall e', flip e = Ok e' -> exists o', lib e' o') ->
  ginv g -> ginv (fst (flip_each g l)).
Proof.
  induction l as [|e t IH]; intros g Hl Hf Hg; cbn; auto.
  destruct (flip e) as [e'|] eqn:E; cbn; auto.
  destruct (Hf e (or_introl eq_refl) _ E) as [o' Ho'].
  pose proof (append_st_inv g e' o' Hg Ho') as H.
  destruct (append_st g e') as [g' [x|]]; [exact H|].
  apply IH; [intros e1 H1; apply Hl; right; exact H1 | | exact H].
  intros e1 H1; apply Hf; right; exact H1.
Qed.

Lemma ginv_lib gk g : ginv g -> gelems g <> [] -> exists o, lib (Group gk (gmat g) (gelems g)) o.
Proof.
  intros (os & HF & HC & HT) Hne. destruct os as [|o t]; [inversion HF; congruence|].
  assert (physical (path_optic o t)) as PP.
  { destruct (gelems g) as [|e es]; [congruence|].
    destruct (group_transfer_inf e es o t) as (p & _ & _ & P & _); auto using Forall2_lib_desc. }
  destruct (tracks_some _ _ PP HT) as (o' & D' & P'). exists o'.
  apply (lib_group gk (gmat g) (gelems g) o' (o :: t)); auto.
Qed.

Lemma objective_fin gk g : ginv g -> gelems g <> [] -> exists o, lib (finish_flip gk g) o.
Proof.
  intros Hg Hne. destruct (ginv_lib gk g Hg Hne) as [o Ho]. destruct gk; cbn; eauto.
  inversion Ho as [|? ? ? ? os Hd Hp HF HC]; subst.
  eexists. econstructor; [|  |exact HF|exact HC].
  - apply describes_objective with (o := o); auto.
    intros e Hi. apply (Forall2_lib_desc) in HF.
    clear -HF Hi. induction HF; destruct Hi; subst; eauto.
  - eapply physical_same; [..|exact Hp]; reflexivity.
Qed.

Lemma flip_each_elems l : forall g : @grp XR, gelems g <> [] \/ l <> [] ->
  forall g', flip_each g l = (g', None) -> gelems g' <> [].
Proof.
  induction l as [|e t IH]; intros g H g'; cbn.
  - intros [= <-]. destruct H; auto.
  - destruct (flip e); [|discriminate].
    destruct (append_st g a) as [g1 [x|]] eqn:E; [discriminate|].
    apply IH. left. now apply append_ok_in_step in E.
Qed.

Lemma flip_lib : forall e o, lib e o -> forall e', flip e = Ok e' -> exists o', lib e' o'.
Proof.
  induction e as [k m | gk m es IH] using elem_ind'; intros o Ho e' Hf.
  - eapply flip_leaf_lib; eauto.
  - rewrite flip_group, flip_loop_as in Hf.
    inversion Ho as [|? ? ? ? os Hd Hp HF HC]; subst.
    destruct (flip_each _ (rev es)) as [g [x|]] eqn:E; cbn in Hf; [discriminate|].
    injection Hf as <-.
    destruct es as [|e0 es0].
    + cbn in E. injection E as <-. destruct gk; cbn.
      * exists o. econstructor; eauto using describes_set_flip.
      * exists o. econstructor; eauto using describes_set_flip.
    + apply objective_fin.
      * replace g with (fst (flip_each (mkGrp (set_flip m (negb (mflip m))) []) (rev (e0 :: es0))))
          by (rewrite E; reflexivity).
        apply flip_each_inv; [| |apply ginv_nil].
        -- intros e Hi. rewrite <- in_rev in Hi. clear -HF Hi.
           induction HF; destruct Hi; subst; eauto.
        -- intros e Hi e' He'. rewrite <- in_rev in Hi.
           rewrite Forall_forall in IH.
           assert (exists oe, lib e oe) as [oe Hoe]
             by (clear -HF Hi; induction HF; destruct Hi; subst; eauto).
           eapply IH; eauto.
      * eapply flip_each_elems; [|exact E]. right. cbn. destruct (rev es0); discriminate.
Qed.

(** ** Histories *)
Definition gop_ok (o : @gop XR) : Prop :=
  match o with
  | OAppend e => exists o, lib e o
  | OPop _ => True
  | OInsert _ l | OSetItem _ l | OLoad _ l => libs l
  | OSetSlice _ _ l => libs l /\ exists tmp, MatrixGroup_new l "" = Ok tmp
  | OFlip => True
  end.

Lemma gstep_inv g o : ginv g -> gop_ok o -> ginv (fst (gstep g o)).
Proof.
  intros Hg Ho. pose proof (ginv_libs _ Hg) as HL. destruct o; cbn in *.
  - destruct Ho as [o Ho]. eapply append_st_inv; eauto.
  - unfold pop_st. destruct (pyindex _ i); auto. apply rebuild_inv.
    unfold remove_nth. apply libs_app; auto using libs_firstn, libs_skipn.
  - apply insert_inv; auto.
  - unfold setitem_st, pop_st. destruct (pyindex _ i); auto.
    pose proof (rebuild_inv g (remove_nth n (gelems g))) as H.
    unfold remove_nth in *.
    specialize (H (libs_app _ _ (libs_firstn n _ HL) (libs_skipn (S n) _ HL))).
    destruct (rebuild _ _) as [g1 [x|]]; cbn in *; auto.
    apply insert_inv; auto. now apply ginv_libs.
  - unfold setslice_st. destruct Ho as [Ho1 Ho2]. apply insert_inv; auto.
    cbn. apply libs_app; [apply libs_firstn|apply libs_skipn]; auto.
  - unfold load_st. destruct app; apply append_all_inv; auto using ginv_nil.
  - unfold flip_st. apply flip_each_inv; [| |apply ginv_nil].
    + intros e Hi. rewrite <- in_rev in Hi. unfold libs in HL. rewrite Forall_forall in HL. auto.
    + intros e Hi e' He. rewrite <- in_rev in Hi. unfold libs in HL. rewrite Forall_forall in HL.
      destruct (HL _ Hi) as [oe Hoe]. eapply flip_lib; eauto.
Qed.

Lemma grun_inv os : forall g, ginv g -> Forall gop_ok os -> ginv (grun g os).
Proof.
  induction os as [|o t IH]; intros g Hg Ho; cbn; auto. inversion Ho; subst.
  apply IH; auto. apply gstep_inv; auto.
Qed.
