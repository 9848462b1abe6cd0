(** Histories of traces through nested groups when no ray is blocked. *)
From Coq Require Import ZArith List Bool String Lia.
From Verif Require Import Base Optics Group GroupProofs TraceProofs Store StoreProofs StoreTrace StoreHistory.
Import ListNotations.
Open Scope list_scope.

Section Generic.
Context {T : Type} {N : Num T}.
Local Notation elem := (@elem T).
Local Notation ray := (@ray T).
Local Notation mat := (@mat T).
Local Notation kind := (@kind T).
Local Notation heap := (@heap T).
Local Notation obj := (@obj T).
Local Notation store := (@store T).

(** the values of a trace that is not blocked *)
Fixpoint tvals (e : elem) (r : ray) : list ray :=
  match e with
  | Leaf k m => if nltb c0 (mL m) then [r; through_leaf k m r] else [through_leaf k m r]
  | Group _ _ es =>
      r :: (fix go (l : list elem) (r : ray) :=
              match l with [] => [] | x :: t => tvals x r ++ go t (through x r) end) es r
  end.
Fixpoint tvals_list (l : list elem) (r : ray) : list ray :=
  match l with [] => [] | x :: t => tvals x r ++ tvals_list t (through x r) end.
Lemma tvals_group gk m es r : tvals (Group gk m es) r = r :: tvals_list es r.
Proof. reflexivity. Qed.

Definition extends (h h' : heap) : Prop :=
  (List.length h <= List.length h')%nat /\ forall i, (i < List.length h)%nat -> hget h' i = hget h i.
Lemma extends_refl h : extends h h.
Proof. split; auto. Qed.
Lemma extends_trans a b c : extends a b -> extends b c -> extends a c.
Proof. intros (L1 & H1) (L2 & H2). split; [lia|]. intros. rewrite H2, H1; auto; lia. Qed.
Definition within (h : heap) (l : list nat) : Prop := Forall (fun j => j < List.length h)%nat l.
Lemma within_ext h h' l : extends h h' -> within h l -> within h' l.
Proof. intros (L & _) H. eapply Forall_impl; [|exact H]. cbn. intros. lia. Qed.
Lemma map_ext_heap h h' l : extends h h' -> within h l -> map (hget h') l = map (hget h) l.
Proof. intros (_ & H) W. apply map_ext_in. intros x Hx. unfold within in W. rewrite Forall_forall in W. auto. Qed.

Lemma through_loop_blk es (r : ray) : rblk (fold_left (fun r x => through x r) es r) = false -> rblk r = false.
Proof.
  revert r. induction es as [|x t IH]; intros r H; [exact H|]. cbn [fold_left] in H. apply IH in H.
  rewrite through_flatten in H. apply through_leaves_free in H. tauto.
Qed.

Lemma trace_extends e rid h : (rid < List.length h)%nat -> rblk (through e (hget h rid)) = false ->
  extends h (snd (trace e rid h)) /\ within (snd (trace e rid h)) (fst (trace e rid h)) /\
  fst (trace e rid h) <> [] /\
  hget (snd (trace e rid h)) (List.last (fst (trace e rid h)) rid) = through e (hget h rid).
Proof.
  intros Hr Hb. pose proof (trace_is_ok e rid h Hr) as H. split; [split; [apply H|]|split; [|split; apply H]].
  - intros i Hi. destruct (Nat.eq_dec i rid) as [->|Hn]; [|now apply (t_frame _ _ _ _ _ H)].
    apply (t_same _ _ _ _ _ H).
    destruct (Nat.eq_dec (List.last (fst (trace e rid h)) rid) rid) as [E|E]; [|now apply (t_in _ _ _ _ _ H)].
    pose proof (t_out _ _ _ _ _ H) as O. rewrite E in O. now rewrite O.
  - pose proof (t_len _ _ _ _ _ H). eapply Forall_impl; [|apply (t_ids _ _ _ _ _ H)]. cbn. intros. lia.
Qed.

Lemma leaf_tvals k m rid h : (rid < List.length h)%nat -> rblk (through_leaf k m (hget h rid)) = false ->
  map (hget (snd (trace_leaf k m rid h))) (fst (trace_leaf k m rid h)) = tvals (Leaf k m) (hget h rid).
Proof.
  intros Hr Hb. destruct (trace_extends (Leaf k m) rid h Hr Hb) as ((_ & E) & _ & _ & L).
  cbn [trace] in E, L. cbn [tvals]. specialize (E rid Hr). unfold trace_leaf in *.
  destruct (nltb c0 (mL m)).
  - match goal with |- context [mul_ray k m rid ?h1] => destruct (mul_ray k m rid h1) as [o h2] end.
    cbn [fst snd List.last map] in *. rewrite E. cbn [through] in L. now rewrite L.
  - destruct (mul_ray k m rid h) as [o h2]. cbn [fst snd List.last map] in *. cbn [through] in L. now rewrite L.
Qed.

Theorem trace_tvals : forall e rid h, (rid < List.length h)%nat -> rblk (through e (hget h rid)) = false ->
  map (hget (snd (trace e rid h))) (fst (trace e rid h)) = tvals e (hget h rid).
Proof.
  induction e as [k m|gk m es IH] using elem_ind'; intros rid h Hr Hb; [now apply leaf_tvals|].
  rewrite trace_group, tvals_group.
  assert (forall es cur acc h, Forall (fun e => forall rid h, (rid < List.length h)%nat ->
      rblk (through e (hget h rid)) = false ->
      map (hget (snd (trace e rid h))) (fst (trace e rid h)) = tvals e (hget h rid)) es ->
    (cur < List.length h)%nat -> within h acc ->
    rblk (fold_left (fun r x => through x r) es (hget h cur)) = false ->
    map (hget (snd (trace_loop es cur acc h))) (fst (trace_loop es cur acc h)) =
    map (hget h) acc ++ tvals_list es (hget h cur)) as HL.
  { clear. induction es as [|x t IHt]; intros cur acc h HF Hc Ha Hb; cbn [trace_loop tvals_list]; [now rewrite app_nil_r|].
    inversion HF as [|? ? Hx HF']; subst. cbn [fold_left] in Hb.
    pose proof (through_loop_blk _ _ Hb) as Hbx. specialize (Hx cur h Hc Hbx).
    destruct (trace_extends x cur h Hc Hbx) as (E & W & Nn & L). destruct (trace x cur h) as [tr h']. cbn [fst snd] in *.
    rewrite IHt; auto.
    - rewrite map_app, (map_ext_heap h h' acc E Ha), Hx, L, app_assoc. reflexivity.
    - unfold within in W. rewrite Forall_forall in W. apply W. now apply last_in.
    - apply Forall_app. split; [eapply within_ext; eauto|exact W].
    - now rewrite L. }
  rewrite HL; auto. constructor; auto.
Qed.

Corollary trace_values_tvals e r : rblk (through e r) = false -> trace_values e r = tvals e r.
Proof.
  intros H. pose proof (trace_tvals e 0 [r] ltac:(cbn; lia) H) as X. unfold trace_values.
  destruct (trace e 0 [r]). exact X.
Qed.

(** ** Positions: at one place in a path, rays differ in height and angle only *)
Definition at_pos (z d : T) (r : ray) : Prop := rz r = z /\ rdiam r = d /\ rwl r = None /\ rblk r = false.
Definition zafter (e : elem) (z : T) : T := fold_left (fun z km => nadd (mL (snd km)) z) (leaves e) z.
Definition dafter (e : elem) (d : T) : T := fold_left (fun _ km => mdiam (snd km)) (leaves e) d.
Lemma at_pos_through e z d r : at_pos z d r -> rblk (through e r) = false ->
  at_pos (zafter e z) (dafter e d) (through e r).
Proof.
  intros H Hb. rewrite (unblocked_ideal _ _ Hb). clear Hb. unfold zafter, dafter, ideals. revert z d r H.
  induction (leaves e) as [|km t IH]; intros z d r H; [exact H|]. cbn [fold_left]. apply IH.
  destruct H as (A & B & C & D). unfold at_pos, ideal. cbn. rewrite A. auto.
Qed.

(** the caches of the groups below [i], met at position [z] behind an element of diameter [d] *)
Fixpoint kids_inv (P : nat -> T -> T -> Prop) (tr : nat -> option elem) (l : list nat) (z d : T) : Prop :=
  match l with
  | [] => True
  | x :: t => P x z d /\ forall e, tr x = Some e -> kids_inv P tr t (zafter e z) (dafter e d)
  end.
Definition cache_right (h : heap) (e : elem) (z d : T) (c : option (nat * list nat)) : Prop :=
  match c with
  | None => True
  | Some (last, tr) =>
      (last < List.length h)%nat /\ within h tr /\ tr <> [] /\ at_pos z d (hget h last) /\
      rblk (through e (hget h last)) = false /\ map (hget h) tr = tvals e (hget h last)
  end.
Fixpoint ninv (fuel : nat) (s : store) (h : heap) (i : nat) (z d : T) : Prop :=
  match fuel with
  | O => True
  | S f =>
      match oget s i with
      | Some (OGroup gk m kids c it) =>
          (forall es, all_some (tree f s) kids = Some es -> cache_right h (Group gk m es) z d c) /\
          kids_inv (ninv f s h) (tree f s) kids z d
      | _ => True
      end
  end.

Lemma cache_right_ext h h' e z d c : extends h h' -> cache_right h e z d c -> cache_right h' e z d c.
Proof.
  intros E. destruct c as [[last tr]|]; auto. intros (A & B & C & D & F & G). pose proof E as (L & H).
  rewrite <- (H last A) in D, F. unfold cache_right. rewrite (map_ext_heap _ _ _ E B), (H last A) in *.
  split; [lia|]. split; [eapply within_ext; eauto|]. auto.
Qed.

Lemma kids_inv_impl (P P' : nat -> T -> T -> Prop) (tr tr' : nat -> option elem) l : forall z d, (forall x z d, In x l -> P x z d -> P' x z d) ->
  (forall x, In x l -> tr' x = tr x) -> kids_inv P tr l z d -> kids_inv P' tr' l z d.
Proof.
  induction l as [|x t IH]; intros z d H1 H2 H; [exact I|]. destruct H as (A & B). split.
  - apply H1; auto. now left.
  - intros e Et. rewrite H2 in Et by now left. apply IH; auto; intros; [apply H1; auto; now right|apply H2; now right].
Qed.

Lemma ninv_frame fuel : forall s s' h h' i z d, caches_only s s' -> extends h h' ->
  (forall j, In j (groups fuel s i) -> oget s' j = oget s j) -> ninv fuel s h i z d -> ninv fuel s' h' i z d.
Proof.
  induction fuel as [|f IH]; intros s s' h h' i z d Hs Hh Hg H; [exact I|].
  cbn [ninv groups] in *. destruct (oget s i) as [[k m|gk m kids c it]|] eqn:E.
  - specialize (Hs i). rewrite E in Hs. cbn in Hs. rewrite <- Hs. exact I.
  - rewrite (Hg i (or_introl eq_refl)), E. destruct H as (A & B). split.
    + intros es He. rewrite (all_some_ext (tree f s') (tree f s)) in He by (intros; now apply tree_caches).
      eapply cache_right_ext; eauto.
    + eapply kids_inv_impl; [| |exact B].
      * intros x zx dx Hx Px. apply (IH s s' h h'); auto. intros j Hj. apply Hg. right. apply in_concat.
        exists (groups f s x). split; auto. now apply in_map.
      * intros. now apply tree_caches.
  - specialize (Hs i). rewrite E in Hs. cbn in Hs. rewrite <- Hs. exact I.
Qed.

Lemma kids_inv_frame fuel s s' h h' l z d : caches_only s s' -> extends h h' ->
  (forall j, In j (List.concat (map (groups fuel s) l)) -> oget s' j = oget s j) ->
  kids_inv (ninv fuel s h) (tree fuel s) l z d -> kids_inv (ninv fuel s' h') (tree fuel s') l z d.
Proof.
  intros Hs Hh Hg H. eapply kids_inv_impl; [| |exact H].
  - intros x zx dx Hx Px. apply (ninv_frame _ s s' h h'); auto. intros j Hj. apply Hg. apply in_concat.
    exists (groups fuel s x). split; auto. now apply in_map.
  - intros. now apply tree_caches.
Qed.

Section Exact.
(** numbers compare equal only if they are the same *)
Hypothesis exact : forall a b : T, neqb a b = true -> a = b.

Lemma ray_eq_pos z d (r r' : ray) : at_pos z d r -> at_pos z d r' -> ray_eq r r' = true -> r = r'.
Proof.
  destruct r, r'. unfold at_pos, ray_eq. cbn. intros (-> & -> & -> & ->) (-> & -> & -> & ->) H.
  apply andb_true_iff in H. destruct H as (A & B). apply exact in A, B. now subst.
Qed.

Theorem nested_trace fuel : forall (s : store) i e rid (h : heap) z d,
  tree fuel s i = Some e -> NoDup (groups fuel s i) -> ninv fuel s h i z d ->
  (rid < List.length h)%nat -> at_pos z d (hget h rid) -> rblk (through e (hget h rid)) = false ->
  exists tr s' h', strace fuel s i rid h = Some (tr, s', h') /\
    map (hget h') tr = tvals e (hget h rid) /\ tr <> [] /\ within h' tr /\ extends h h' /\
    hget h' (List.last tr rid) = through e (hget h rid) /\
    caches_only s s' /\ (forall j, ~ In j (groups fuel s i) -> oget s' j = oget s j) /\
    ninv fuel s' h' i z d.
Proof.
  induction fuel as [|f IH]; [discriminate|]. intros s i e rid h z d Ht Hd Hi Hr Hp Hb.
  destruct (oget s i) as [[k m|gk m kids c it]|] eqn:E;
    [rewrite (tree_leaf _ _ _ _ _ E) in Ht|rewrite (tree_group _ _ _ _ _ _ _ _ E) in Ht|cbn [tree] in Ht; rewrite E in Ht; discriminate].
  - injection Ht as <-. cbn [strace]. rewrite E. pose proof (leaf_tvals k m rid h Hr Hb) as V.
    destruct (trace_extends (Leaf k m) rid h Hr Hb) as (X & W & Nn & L). cbn [trace] in *.
    destruct (trace_leaf k m rid h) as [tr h']. cbn [fst snd] in *. exists tr, s, h'.
    split; [reflexivity|]. split; [exact V|]. split; [exact Nn|]. split; [exact W|]. split; [exact X|].
    split; [exact L|]. split; [apply caches_refl|]. split; [auto|]. cbn [ninv]. rewrite E. exact I.
  - destruct (all_some (tree f s) kids) as [es|] eqn:Ek; [|discriminate]. injection Ht as <-.
    cbn [groups] in Hd. rewrite E in Hd. inversion Hd as [|? ? Hni Hdk]; subst.
    pose proof Hi as Hi0. cbn [ninv] in Hi. rewrite E in Hi. destruct Hi as (Hc & Hk). specialize (Hc es Ek).
    rewrite (strace_group _ _ _ _ _ _ _ _ _ _ E). destruct (cached h rid c) as [tr|] eqn:Ec.
    + unfold cached in Ec. destruct c as [[last tr']|]; [|discriminate]. destruct (ray_eq _ _) eqn:Eq; [|discriminate].
      injection Ec as ->. destruct Hc as (A & B & C & D & F & G). pose proof (ray_eq_pos _ _ _ _ Hp D Eq) as ER.
      exists tr, s, h. split; [reflexivity|]. rewrite ER. split; [exact G|]. split; [exact C|]. split; [exact B|].
      split; [apply extends_refl|]. split; [|split; [apply caches_refl|]; split; auto].
      assert (List.last (map (hget h) tr) (hget h last) = hget h (List.last tr rid)) as Lm.
      { clear -C. destruct tr as [|a tr]; [congruence|]. clear C. revert a.
        induction tr as [|b tr IH]; intros a; [reflexivity|]. exact (IH b). }
      rewrite <- Lm, G. clear -F. rewrite <- (trace_values_tvals _ _ F).
      unfold trace_values. pose proof (trace_is_ok (Group gk m es) 0 [hget h last] ltac:(cbn; lia)) as H.
      destruct (trace (Group gk m es) 0 [hget h last]) as [tr0 h0]. cbn [fst snd] in H.
      pose proof (t_out _ _ _ _ _ H) as O. pose proof (t_nonempty _ _ _ _ _ H) as Nn. change (hget [hget h last] 0) with (hget h last) in O.
      rewrite <- O. clear -Nn. destruct tr0 as [|a tr]; [congruence|]. clear Nn. revert a.
      induction tr as [|b tr IH]; intros a; [reflexivity|]. exact (IH b).
    + assert (forall l es0 s1 cur acc h1 z1 d1, all_some (tree f s) l = Some es0 -> caches_only s s1 ->
        NoDup (List.concat (map (groups f s) l)) ->
        kids_inv (ninv f s1 h1) (tree f s1) l z1 d1 ->
        (cur < List.length h1)%nat -> at_pos z1 d1 (hget h1 cur) ->
        rblk (fold_left (fun r x => through x r) es0 (hget h1 cur)) = false ->
        acc <> [] -> List.last acc cur = cur -> within h1 acc ->
        exists tr s2 h2, strace_loop f s1 l cur acc h1 = Some (acc ++ tr, s2, h2) /\
          map (hget h2) tr = tvals_list es0 (hget h1 cur) /\ within h2 tr /\ extends h1 h2 /\
          hget h2 (List.last (acc ++ tr) cur) = fold_left (fun r x => through x r) es0 (hget h1 cur) /\
          caches_only s1 s2 /\
          (forall j, ~ In j (List.concat (map (groups f s) l)) -> oget s2 j = oget s1 j) /\
          kids_inv (ninv f s2 h2) (tree f s2) l z1 d1) as HL.
      { induction l as [|x t IHl]; intros es0 s1 cur acc h1 z1 d1 He Hs Hnd Hkv Hcur Hpos Hblk Hacc Hlast Hwin.
        - injection He as <-. exists [], s1, h1. rewrite app_nil_r. cbn [strace_loop map tvals_list fold_left].
          split; [reflexivity|]. split; [reflexivity|]. split; [constructor|]. split; [apply extends_refl|].
          split; [now rewrite Hlast|]. split; [apply caches_refl|]. split; [auto|exact I].
        - apply all_some_cons in He. destruct He as (ex & et & -> & Ex & Et).
          cbn [map List.concat] in Hnd. apply NoDup_app_inv in Hnd. destruct Hnd as (N1 & N2 & N3).
          cbn [kids_inv] in Hkv. destruct Hkv as (K1 & K2). cbn [fold_left] in Hblk.
          pose proof (through_loop_blk _ _ Hblk) as Hbx.
          assert (tree f s1 x = Some ex) as Ex1 by now rewrite (tree_caches _ _ _ _ Hs).
          specialize (K2 ex Ex1).
          destruct (IH s1 x ex cur h1 z1 d1 Ex1 ltac:(now rewrite (groups_caches _ _ _ _ Hs)) K1 Hcur Hpos Hbx)
            as (tr & s2 & h2 & S1 & V & Nn & W & X & L & C & F & I2).
          rewrite (groups_caches _ _ _ _ Hs) in F.
          assert (kids_inv (ninv f s2 h2) (tree f s2) t (zafter ex z1) (dafter ex d1)) as K3.
          { apply (kids_inv_frame f s1 s2 h1 h2); auto. intros j Hj. apply F. intros Y. apply (N3 j Y).
            erewrite map_ext; [exact Hj|]. intros. symmetry. now apply groups_caches. }
          assert (List.last tr cur < List.length h2)%nat as Lc.
          { unfold within in W. rewrite Forall_forall in W. apply W. now apply last_in. }
          destruct (IHl et s2 (List.last tr cur) (acc ++ tr) h2 (zafter ex z1) (dafter ex d1) Et
                      (caches_trans _ _ _ Hs C) N2 K3 Lc) as (tr2 & s3 & h3 & S3 & V3 & W3 & X3 & L3 & C3 & F3 & I3).
          + rewrite L. now apply at_pos_through.
          + now rewrite L.
          + destruct acc; [congruence|discriminate].
          + rewrite last_app_ne by auto. now apply last_default.
          + apply Forall_app. split; [eapply within_ext; eauto|exact W].
          + exists (tr ++ tr2), s3, h3. cbn [strace_loop]. rewrite S1, S3, <- app_assoc. split; [reflexivity|].
            cbn [tvals_list fold_left]. split; [rewrite map_app, V3, L, (map_ext_heap h2 h3 tr X3 W), V; reflexivity|].
            split; [apply Forall_app; split; [eapply within_ext; eauto|exact W3]|].
            split; [eapply extends_trans; eauto|].
            split. { rewrite <- L, <- L3. f_equal. rewrite <- app_assoc.
              apply last_default. destruct acc; [congruence|discriminate]. }
            split; [eapply caches_trans; eauto|].
            split. { intros j Hj. cbn [map List.concat] in Hj. rewrite F3, F; auto; intros Y; apply Hj; apply in_or_app; auto. }
            cbn [kids_inv]. split.
            * apply (ninv_frame f s2 s3 h2 h3); auto. intros j Hj. apply F3. intros Y. apply (N3 j); auto.
              rewrite (groups_caches _ _ _ _ (caches_trans _ _ _ Hs C)) in Hj. exact Hj.
            * intros e0 E0. rewrite (tree_caches _ _ _ _ C3), (tree_caches _ _ _ _ C), Ex1 in E0. injection E0 as <-. exact I3. }
      destruct (HL kids es s rid [rid] h z d Ek (caches_refl s) Hdk Hk Hr Hp Hb ltac:(discriminate) eq_refl
                  ltac:(constructor; auto)) as (tr & s2 & h2 & S1 & V & W & X & L & C & F & I2).
      rewrite S1. exists ([rid] ++ tr), (set_cache s2 i rid ([rid] ++ tr)), h2. split; [reflexivity|].
      assert (map (hget h2) ([rid] ++ tr) = tvals (Group gk m es) (hget h rid)) as V2.
      { rewrite tvals_group, map_app, V. cbn [map app]. f_equal. apply X. exact Hr. }
      split; [exact V2|]. split; [discriminate|].
      assert (within h2 ([rid] ++ tr)) as W2 by (constructor; [destruct X; lia|exact W]).
      split; [exact W2|]. split; [exact X|]. split; [exact L|].
      assert (oget s2 i = oget s i) as Ei by (apply F; exact Hni).
      split; [eapply caches_trans; [exact C|apply caches_set_cache]|].
      split. { intros j Hj. cbn [groups] in Hj. rewrite E in Hj. rewrite set_cache_frame, F; auto.
               - intros Y. apply Hj. now right.
               - intros Y. apply Hj. now left. }
      rewrite E in Ei. cbn [ninv]. unfold set_cache at 1. rewrite Ei.
      rewrite oget_oset_eq by (eapply oget_lt; eauto). split.
      * intros es' He'. rewrite (all_some_ext (tree f (set_cache s2 i rid ([rid] ++ tr))) (tree f s)), Ek in He'.
        2:{ intros x _. rewrite (tree_caches _ _ _ _ (caches_set_cache s2 i rid _)). now apply tree_caches. }
        injection He' as <-. unfold cache_right. rewrite V2. destruct X as (XL & XH). rewrite (XH rid Hr).
        split; [lia|]. split; [exact W2|]. split; [discriminate|]. auto.
      * apply (kids_inv_frame f s2 _ h2 h2); auto using extends_refl, caches_set_cache.
        intros j Hj. apply set_cache_frame. intros ->. apply Hni. erewrite map_ext; [exact Hj|].
        intros. symmetry. now apply groups_caches.
Qed.

(** ** Histories *)
Theorem nested_history fuel l : forall (s : store) i e (h : heap),
  tree fuel s i = Some e -> NoDup (groups fuel s i) -> ninv fuel s h i c0 ninf ->
  Forall (fun r => at_pos c0 ninf r /\ rblk (through e r) = false) l ->
  exists trs s' h', shist fuel s h (map (pair i) l) = Some (trs, s', h') /\ caches_only s s' /\ extends h h' /\
    Forall2 (fun r tr => map (hget h') tr = trace_values e r) l trs.
Proof.
  induction l as [|r l IH]; intros s i e h Ht Hd Hi HF.
  - exists [], s, h. cbn. split; [reflexivity|]. split; [apply caches_refl|]. split; [apply extends_refl|constructor].
  - inversion HF as [|? ? (Hp & Hb) HF']; subst.
    assert (extends h (h ++ [r])) as X0.
    { split; [rewrite app_length; cbn; lia|]. intros. now apply hget_app. }
    destruct (nested_trace fuel s i e (List.length h) (h ++ [r]) c0 ninf Ht Hd)
      as (tr & s1 & h1 & S1 & V & Nn & W & X & _ & C & F & I1).
    + apply (ninv_frame fuel s s h (h ++ [r])); auto using caches_refl.
    + rewrite app_length. cbn. lia.
    + now rewrite hget_new.
    + now rewrite hget_new.
    + rewrite hget_new in V.
      destruct (IH s1 i e h1) as (trs & s2 & h2 & S2 & C2 & X2 & V2); auto.
      * now rewrite (tree_caches _ _ _ _ C).
      * now rewrite (groups_caches _ _ _ _ C).
      * cbn [map shist]. rewrite S1, S2. exists (tr :: trs), s2, h2. split; [reflexivity|].
        split; [eapply caches_trans; eauto|]. split; [eapply extends_trans; [|exact X2]; eapply extends_trans; eauto|].
        constructor; auto. rewrite (map_ext_heap h1 h2 tr X2 W), V. symmetry. now apply trace_values_tvals.
Qed.
End Exact.

Lemma ninv_cold fuel : forall s h i z d, (forall j, In j (groups fuel s i) -> cache_of s j = None) -> ninv fuel s h i z d.
Proof.
  induction fuel as [|f IH]; intros s h i z d H; [exact I|]. cbn [ninv groups] in *.
  destruct (oget s i) as [[|gk m kids c it]|] eqn:E; auto. split.
  - intros es _. pose proof (H i (or_introl eq_refl)) as Hc. unfold cache_of in Hc. rewrite E in Hc. now rewrite Hc.
  - assert (forall x, In x kids -> forall z d, ninv f s h x z d) as K.
    { intros x Hx z0 d0. apply IH. intros j Hj. apply H. right. apply in_concat. exists (groups f s x).
      split; auto. now apply in_map. }
    clear -K. revert z d. induction kids as [|x t IHt]; intros z d; [exact I|]. split; [apply K; now left|].
    intros e _. apply IHt. intros y Hy. apply K. now right.
Qed.
End Generic.
