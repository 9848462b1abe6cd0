(** Histories of traces: each returns what tracing without a cache returns, and what was returned
    keeps its values. *)
From Coq Require Import ZArith List Bool String Lia.
From Verif Require Import Base Optics Group GroupProofs TraceProofs Store StoreProofs StoreTrace.
Import ListNotations.
Open Scope list_scope.

Section Generic.
Context {T : Type} {N : Num T}.
Local Notation elem := (@elem T).
Local Notation ray := (@ray T).
Local Notation mat := (@mat T).
Local Notation kind := (@kind T).
Local Notation heap := (@heap T).
Local Notation obj := (@obj T).
Local Notation store := (@store T).

(** each step creates a ray object with the given values and traces it through object [fst] *)
Fixpoint shist (fuel : nat) (s : store) (h : heap) (l : list (nat * ray))
    : option (list (list nat) * store * heap) :=
  match l with
  | [] => Some ([], s, h)
  | (i, r) :: t =>
      match strace fuel s i (List.length h) (h ++ [r]) with
      | None => None
      | Some (tr, s', h') =>
          match shist fuel s' h' t with
          | None => None
          | Some (trs, s'', h'') => Some (tr :: trs, s'', h'')
          end
      end
  end.

(** ** Tracing keeps the heights and angles of existing rays, unless there is an axicon *)
Definition keeps_yth (h h' : heap) : Prop :=
  (List.length h <= List.length h')%nat /\
  forall i, (i < List.length h)%nat -> ry (hget h' i) = ry (hget h i) /\ rth (hget h' i) = rth (hget h i).
Lemma keeps_refl h : keeps_yth h h.
Proof. split; auto. Qed.
Lemma keeps_trans a b c : keeps_yth a b -> keeps_yth b c -> keeps_yth a c.
Proof.
  intros (L1 & H1) (L2 & H2). split; [lia|]. intros i Hi. destruct (H1 i Hi) as (<- & <-). apply H2. lia.
Qed.
Lemma keeps_blk (h : heap) i : keeps_yth h (hset h i (set_blk (hget h i))).
Proof.
  split; [rewrite hset_length; auto|]. intros j Hj. destruct (Nat.eq_dec i j) as [->|Hn].
  - rewrite hget_hset_eq by auto. destruct (hget h j); auto.
  - rewrite hget_hset_neq; auto.
Qed.
Lemma keeps_leaf k m i h : not_axicon (k, m) -> keeps_yth h (snd (trace_leaf k m i h)).
Proof.
  intros Hk. assert (forall h, keeps_yth h (snd (mul_ray k m i h))) as Hm.
  { intros h0. unfold mul_ray, mul_ray_base, halloc. destruct (rblk (hget h0 i)).
    - destruct k; try apply keeps_refl. now exfalso.
    - assert (keeps_yth h0 (h0 ++ [mul_ray_new m (hget h0 i)])) as K.
      { split; [rewrite app_length; cbn; lia|]. intros j Hj. rewrite hget_app by auto. auto. }
      destruct k; try exact K. now exfalso. }
  unfold trace_leaf. destruct (nltb c0 (mL m)).
  - match goal with |- context [mul_ray k m i ?h1] => assert (keeps_yth h h1) as K by (destruct (nltb _ _); [apply keeps_blk|apply keeps_refl]);
      specialize (Hm h1); destruct (mul_ray k m i h1) end. cbn [snd] in *. eapply keeps_trans; eauto.
  - specialize (Hm h). destruct (mul_ray k m i h). exact Hm.
Qed.
Lemma keeps_trace : forall e i h, Forall not_axicon (leaves e) -> keeps_yth h (snd (trace e i h)).
Proof.
  induction e as [k m|gk m es IH] using elem_ind'; intros i h HF.
  - cbn [leaves] in HF. inversion HF; subst. now apply keeps_leaf.
  - rewrite trace_group. cbn [leaves] in HF. generalize [i] as acc. revert i h. induction es as [|x t IHt]; intros i h acc.
    + apply keeps_refl.
    + inversion IH as [|? ? Hx IH']; subst. cbn [flat_map] in HF. apply Forall_app in HF. destruct HF as (F1 & F2).
      cbn [trace_loop]. specialize (Hx i h F1). destruct (trace x i h) as [tr h']. cbn [snd] in Hx.
      eapply keeps_trans; [exact Hx|]. apply IHt; auto.
Qed.

(** ** Paths without inner groups *)
Definition is_leaf (s : store) (i : nat) : Prop := exists k m, oget s i = Some (OLeaf k m).
(** the elements of every group are leaves *)
Definition flat (s : store) : Prop :=
  forall i gk m kids c it, oget s i = Some (OGroup gk m kids c it) -> Forall (is_leaf s) kids.

Lemma but_cache_sym a b : @but_cache T a b -> but_cache b a.
Proof. destruct a as [[|]|], b as [[|]|]; cbn; try congruence. intros (-> & -> & -> & ->). auto. Qed.
Lemma caches_sym a b : @caches_only T a b -> caches_only b a.
Proof. intros H j. apply but_cache_sym. auto. Qed.
Lemma leaf_caches s s' i : caches_only s s' -> is_leaf s i -> is_leaf s' i.
Proof.
  intros H (k & m & E). specialize (H i). rewrite E in H. unfold but_cache in H. exists k, m.
  destruct (oget s' i) as [[|]|]; congruence.
Qed.
Lemma flat_caches s s' : caches_only s s' -> flat s -> flat s'.
Proof.
  intros H Hf i gk m kids c it E. pose proof (H i) as Hi. rewrite E in Hi. unfold but_cache in Hi.
  destruct (oget s i) as [[|gk0 m0 kids0 c0 it0]|] eqn:E0; try discriminate.
  destruct Hi as (_ & _ & -> & _). eapply Forall_impl; [|eapply Hf; eauto]. intros x. now apply leaf_caches.
Qed.

(** the cache of every group holds the right trace of a ray of [R] *)
Definition caches_right (R : ray -> Prop) (s : store) (h : heap) : Prop :=
  forall i e last tr, tree 2 s i = Some e -> cache_of s i = Some (last, tr) ->
    (last < List.length h)%nat /\ Forall (fun j => j < List.length h)%nat tr /\
    exists r, R r /\ ry (hget h last) = ry r /\ rth (hget h last) = rth r /\ map (hget h) tr = trace_values e r.

Lemma strace_loop_leaves fuel (s : store) kids es : Forall (is_leaf s) kids -> all_some (tree (S fuel) s) kids = Some es ->
  forall cur acc h, strace_loop (S fuel) s kids cur acc h =
    Some (fst (trace_loop es cur acc h), s, snd (trace_loop es cur acc h)).
Proof.
  intros Hl. revert es. induction Hl as [|x t (k & m & Ex) Ht IH]; intros es He cur acc h.
  - injection He as <-. reflexivity.
  - apply all_some_cons in He. destruct He as (ex & et & -> & E1 & E2). cbn [tree] in E1. rewrite Ex in E1.
    injection E1 as <-. cbn [strace_loop strace trace_loop trace]. rewrite Ex.
    destruct (trace_leaf k m cur h) as [tr h']. apply IH. exact E2.
Qed.

Lemma tree_group fuel (s : store) i gk m kids c it : oget s i = Some (OGroup gk m kids c it) ->
  tree (S fuel) s i = match all_some (tree fuel s) kids with Some es => Some (Group gk m es) | None => None end.
Proof. intros E. cbn [tree]. now rewrite E. Qed.
Lemma tree_leaf fuel (s : store) i k m : oget s i = Some (OLeaf k m) -> tree (S fuel) s i = Some (Leaf k m).
Proof. intros E. cbn [tree]. now rewrite E. Qed.

(** the trace without a cache of a new ray of the history, with everything the invariant needs *)
Lemma flat_step (R : ray -> Prop) (s : store) (h : heap) i e r :
  (forall r r', R r -> R r' -> ray_eq r r' = true -> r = r') ->
  flat s -> (forall j e, tree 2 s j = Some e -> Forall not_axicon (leaves e)) ->
  tree 2 s i = Some e -> caches_right R s h -> R r ->
  exists tr s' h', strace 2 s i (List.length h) (h ++ [r]) = Some (tr, s', h') /\
    map (hget h') tr = trace_values e r /\ Forall (fun j => j < List.length h')%nat tr /\
    caches_only s s' /\ caches_right R s' h' /\ (List.length h <= List.length h')%nat /\
    forall j, (j < List.length h)%nat -> hget h' j = hget h j.
Proof.
  intros HR Hf Hax Ht Hc Hr.
  assert (List.length h < List.length (h ++ [r]))%nat as Hlt by (rewrite app_length; cbn; lia).
  pose proof (trace_is_ok e (List.length h) (h ++ [r]) Hlt) as HT.
  pose proof (trace_values_anywhere e (List.length h) (h ++ [r]) Hlt) as HV. rewrite hget_new in HV.
  pose proof (keeps_trace e (List.length h) (h ++ [r]) (Hax i e Ht)) as HK.
  (* the invariant survives a step that extends the heap *)
  assert (forall s' h', caches_only s s' -> (List.length h <= List.length h')%nat ->
    (forall j, (j < List.length h)%nat -> hget h' j = hget h j) ->
    (forall j, j <> i -> oget s' j = oget s j) ->
    (forall last tr, cache_of s' i = Some (last, tr) -> cache_of s' i = cache_of s i \/
      ((last < List.length h')%nat /\ Forall (fun j => j < List.length h')%nat tr /\
       ry (hget h' last) = ry r /\ rth (hget h' last) = rth r /\ map (hget h') tr = trace_values e r)) ->
    caches_right R s' h') as HI.
  { intros s' h' Hs Hl Hh Ho Hi j ej last tr Ej Cj. rewrite (tree_caches _ _ _ _ Hs) in Ej.
    assert (cache_of s' j = cache_of s j -> (last < List.length h')%nat /\
      Forall (fun j => j < List.length h')%nat tr /\
      exists r, R r /\ ry (hget h' last) = ry r /\ rth (hget h' last) = rth r /\ map (hget h') tr = trace_values ej r) as HO.
    { intros Es. rewrite Es in Cj. destruct (Hc j ej last tr Ej Cj) as (A & B & r' & C & D & E & F).
      split; [lia|]. split; [eapply Forall_impl; [|exact B]; cbn; intros; lia|]. exists r'. rewrite Hh by auto.
      split; auto. split; auto. split; auto. rewrite <- F. apply map_ext_in. intros x Hx.
      rewrite Forall_forall in B. apply Hh. now apply B. }
    destruct (Nat.eq_dec j i) as [->|Hn].
    - destruct (Hi last tr Cj) as [E|(A & B & C & D & E)]; [auto|]. split; auto. split; auto. exists r.
      assert (ej = e) as -> by congruence. auto.
    - apply HO. unfold cache_of. now rewrite Ho. }
  assert (forall j, (j < List.length h)%nat -> hget (snd (trace e (List.length h) (h ++ [r]))) j = hget h j) as HF.
  { intros j Hj. rewrite (t_frame _ _ _ _ _ HT); [now rewrite hget_app| |lia]. rewrite app_length. cbn. lia. }
  assert (List.length h <= List.length (snd (trace e (List.length h) (h ++ [r]))))%nat as HL.
  { pose proof (t_len _ _ _ _ _ HT) as X. rewrite app_length in X. cbn in X. lia. }
  assert (Forall (fun j => j < List.length (snd (trace e (List.length h) (h ++ [r]))))%nat
            (fst (trace e (List.length h) (h ++ [r])))) as HIds.
  { pose proof (t_len _ _ _ _ _ HT) as X. eapply Forall_impl; [|apply (t_ids _ _ _ _ _ HT)]. cbn. intros j Hj. lia. }
  pose proof Ht as Ht'. destruct (oget s i) as [[k m|gk m kids c it]|] eqn:E;
    [rewrite (tree_leaf _ _ _ _ _ E) in Ht|rewrite (tree_group _ _ _ _ _ _ _ _ E) in Ht|cbn [tree] in Ht; rewrite E in Ht; discriminate].
  - injection Ht as <-. cbn [strace]. rewrite E. cbn [trace] in *.
    destruct (trace_leaf k m (List.length h) (h ++ [r])) as [tr h'] eqn:El. cbn [fst snd] in *.
    exists tr, s, h'. split; [reflexivity|]. split; [exact HV|]. split; [exact HIds|]. split; [apply caches_refl|].
    split; [|split; auto]. apply HI; auto using caches_refl.
  - rewrite (strace_group _ _ _ _ _ _ _ _ _ _ E).
    destruct (cached (h ++ [r]) (List.length h) c) as [tr|] eqn:Ec.
    + unfold cached in Ec. destruct c as [[last tr']|]; [|discriminate].
      destruct (ray_eq _ _) eqn:Eq; [|discriminate]. injection Ec as ->.
      destruct (Hc i e last tr Ht' ltac:(unfold cache_of; now rewrite E)) as (A & B & r' & C & D & F & G).
      rewrite hget_new, hget_app in Eq by auto.
      assert (r = r') as <-.
      { apply HR; auto. unfold ray_eq in *. now rewrite D, F in Eq. }
      assert (forall j, (j < List.length h)%nat -> hget (h ++ [r]) j = hget h j) as HA by (intros; now apply hget_app).
      exists tr, s, (h ++ [r]). split; [reflexivity|]. split.
      { rewrite <- G. apply map_ext_in. intros x Hx. rewrite Forall_forall in B. apply HA. now apply B. }
      split; [eapply Forall_impl; [|exact B]; cbn; intros; rewrite app_length; cbn; lia|].
      split; [apply caches_refl|]. split; [|split; [lia|exact HA]].
      apply HI; auto using caches_refl. lia.
    + destruct (all_some (tree 1 s) kids) as [es|] eqn:Ek; [|discriminate]. injection Ht as <-.
      rewrite (strace_loop_leaves 0 s kids es (Hf _ _ _ _ _ _ E) Ek). rewrite !trace_group in *.
      destruct (trace_loop es (List.length h) [List.length h] (h ++ [r])) as [tr h']. cbn [fst snd] in *.
      exists tr, (set_cache s i (List.length h) tr), h'. split; [reflexivity|]. split; [exact HV|].
      split; [exact HIds|]. split; [apply caches_set_cache|]. split; [|split; auto].
      apply HI; auto using caches_set_cache.
      * intros j Hj. apply set_cache_frame. congruence.
      * intros last tr' Cl. right. unfold set_cache, cache_of in Cl. rewrite E in Cl.
        rewrite oget_oset_eq in Cl by (eapply oget_lt; eauto). injection Cl as <- <-.
        destruct HK as (K1 & K2). specialize (K2 _ Hlt). rewrite hget_new in K2. destruct K2 as (-> & ->).
        split; [lia|]. auto.
Qed.

Theorem flat_history (R : ray -> Prop) l : forall (s : store) (h : heap),
  (forall r r', R r -> R r' -> ray_eq r r' = true -> r = r') ->
  flat s -> (forall j e, tree 2 s j = Some e -> Forall not_axicon (leaves e)) ->
  caches_right R s h ->
  Forall (fun ir => R (snd ir) /\ tree 2 s (fst ir) <> None) l ->
  exists trs s' h', shist 2 s h l = Some (trs, s', h') /\ caches_only s s' /\ (List.length h <= List.length h')%nat /\
    (forall j, (j < List.length h)%nat -> hget h' j = hget h j) /\
    Forall2 (fun ir tr => exists e, tree 2 s (fst ir) = Some e /\ map (hget h') tr = trace_values e (snd ir)) l trs.
Proof.
  induction l as [|[i r] l IH]; intros s h HR Hf Hax Hc HF.
  - exists [], s, h. cbn. split; auto. split; [apply caches_refl|]. auto.
  - inversion HF as [|? ? (Hr & Ht) HF']; subst. cbn [fst snd] in *.
    destruct (tree 2 s i) as [e|] eqn:Et; [|congruence].
    destruct (flat_step R s h i e r HR Hf Hax Et Hc Hr) as (tr & s1 & h1 & E & V & Ids & C1 & C2 & L & F).
    destruct (IH s1 h1 HR (flat_caches _ _ C1 Hf)) as (trs & s2 & h2 & E2 & C3 & L2 & F2 & V2).
    + intros j ej. rewrite (tree_caches _ _ _ _ C1). apply Hax.
    + exact C2.
    + eapply Forall_impl; [|exact HF']. intros [j rj]. cbn [fst snd]. now rewrite (tree_caches _ _ _ _ C1).
    + cbn [shist]. rewrite E, E2. exists (tr :: trs), s2, h2. split; [reflexivity|].
      split; [eapply caches_trans; eauto|]. split; [lia|].
      split; [intros j Hj; rewrite F2, F; auto; lia|]. constructor.
      * exists e. cbn [fst snd]. split; auto. rewrite <- V. apply map_ext_in. intros x Hx.
        rewrite Forall_forall in Ids. apply F2. now apply Ids.
      * assert (forall (ls : list (nat * ray)) rs, Forall2 (fun ir tr => exists e, tree 2 s1 (fst ir) = Some e /\
          map (hget h2) tr = trace_values e (snd ir)) ls rs -> Forall2 (fun ir tr => exists e, tree 2 s (fst ir) = Some e /\
          map (hget h2) tr = trace_values e (snd ir)) ls rs) as X.
        { induction 1 as [|? ? ? ? (e' & A & B)]; constructor; auto. exists e'.
          now rewrite (tree_caches _ _ _ _ C1) in A. }
        now apply X.
Qed.
End Generic.
