(** Tracing with the cache of the groups: when it agrees with tracing without it. *)
From Coq Require Import ZArith List Bool String Lia.
From Verif Require Import Base Optics Group GroupProofs TraceProofs Store StoreProofs.
Import ListNotations.
Open Scope list_scope.

Section Generic.
Context {T : Type} {N : Num T}.
Local Notation elem := (@elem T).
Local Notation ray := (@ray T).
Local Notation mat := (@mat T).
Local Notation kind := (@kind T).
Local Notation heap := (@heap T).
Local Notation obj := (@obj T).
Local Notation store := (@store T).

(** ** A trace does not depend on what else is in the heap *)
Section Reloc.
Variables (base rid : nat).
Hypothesis Hrid : (rid < base)%nat.
Definition phi (k : nat) : nat := match k with O => rid | S k => base + k end.
Definition rel (h0 h : heap) : Prop :=
  (0 < List.length h0)%nat /\ List.length h = (base + List.length h0 - 1)%nat /\
  forall k, (k < List.length h0)%nat -> hget h (phi k) = hget h0 k.

Lemma phi_inj a b : phi a = phi b -> a = b.
Proof. destruct a, b; cbn; lia. Qed.
Lemma phi_lt h0 h k : rel h0 h -> (k < List.length h0)%nat -> (phi k < List.length h)%nat.
Proof. intros (P & L & _) H. rewrite L. destruct k; cbn; lia. Qed.
Lemma rel_set h0 h k r : rel h0 h -> (k < List.length h0)%nat -> rel (hset h0 k r) (hset h (phi k) r).
Proof.
  intros Hr Hk. pose proof (phi_lt _ _ _ Hr Hk) as Hp. destruct Hr as (P & L & H). split; [|split].
  - now rewrite hset_length.
  - rewrite !hset_length. auto.
  - intros j Hj. rewrite hset_length in Hj. destruct (Nat.eq_dec k j) as [->|Hn].
    + rewrite !hget_hset_eq by auto. reflexivity.
    + rewrite !hget_hset_neq; auto. intros E. now apply phi_inj in E.
Qed.
Lemma rel_alloc h0 h r : rel h0 h -> rel (h0 ++ [r]) (h ++ [r]) /\ List.length h = phi (List.length h0).
Proof.
  intros (P & L & H). assert (List.length h = phi (List.length h0)) as E.
  { destruct (List.length h0); cbn; lia. }
  split; auto. split; [|split].
  - rewrite app_length. cbn. lia.
  - rewrite !app_length. cbn. lia.
  - intros k Hk. rewrite app_length in Hk. cbn in Hk. destruct (Nat.eq_dec k (List.length h0)) as [->|Hn].
    + rewrite <- E, !hget_new. reflexivity.
    + rewrite !hget_app; [apply H; lia|lia|rewrite L; destruct k; cbn; lia].
Qed.

Lemma mul_ray_rel k m i h0 h : rel h0 h -> (i < List.length h0)%nat ->
  let '(o0, h0') := mul_ray k m i h0 in
  let '(o, h') := mul_ray k m (phi i) h in
  o = phi o0 /\ rel h0' h' /\ (o0 < List.length h0')%nat /\ (List.length h0 <= List.length h0')%nat.
Proof.
  intros Hr Hi. pose proof (proj2 (proj2 Hr) i Hi) as Ei. unfold mul_ray, mul_ray_base. rewrite Ei.
  destruct (rblk (hget h0 i)).
  - destruct k; auto 6. rewrite Ei. split; auto. split; [now apply rel_set|]. rewrite hset_length. auto.
  - unfold halloc. destruct (rel_alloc h0 h (mul_ray_new m (hget h0 i)) Hr) as (R1 & L1).
    assert (List.length h0 < List.length (h0 ++ [mul_ray_new m (hget h0 i)]))%nat as Hlt
      by (rewrite app_length; cbn; lia).
    destruct k; try (split; [exact L1|]; split; [exact R1|]; lia).
    split; [exact L1|]. rewrite !hget_new. rewrite hset_length. rewrite L1. split; [|lia].
    now apply rel_set.
Qed.

Lemma trace_leaf_rel k m i h0 h : rel h0 h -> (i < List.length h0)%nat ->
  let '(tr0, h0') := trace_leaf k m i h0 in
  let '(tr, h') := trace_leaf k m (phi i) h in
  tr = map phi tr0 /\ rel h0' h' /\ (List.last tr0 i < List.length h0')%nat /\
  (List.length h0 <= List.length h0')%nat /\ Forall (fun j => j < List.length h0')%nat tr0.
Proof.
  intros Hr Hi. pose proof (proj2 (proj2 Hr) i Hi) as Ei. unfold trace_leaf. rewrite Ei.
  destruct (nltb c0 (mL m)).
  - set (h0b := if nltb _ _ then hset h0 i _ else h0). set (hb := if nltb _ _ then hset h (phi i) _ else h).
    assert (rel h0b hb /\ List.length h0b = List.length h0) as (Hr1 & L1).
    { unfold h0b, hb. destruct (nltb _ _); auto. rewrite hset_length. split; auto. now apply rel_set. }
    pose proof (mul_ray_rel k m i h0b hb Hr1 ltac:(lia)) as H.
    destruct (mul_ray k m i h0b) as [o0 h0']. destruct (mul_ray k m (phi i) hb) as [o h'].
    destruct H as (-> & R1 & L & LL). cbn [List.last]. rewrite L1 in LL. split; auto. split; auto. split; auto.
    split; auto. constructor; [lia|]. constructor; auto.
  - pose proof (mul_ray_rel k m i h0 h Hr Hi) as H.
    destruct (mul_ray k m i h0) as [o0 h0']. destruct (mul_ray k m (phi i) h) as [o h'].
    destruct H as (-> & R1 & L & LL). cbn [List.last]. auto 8.
Qed.

Lemma last_map_phi l d : List.last (map phi l) (phi d) = phi (List.last l d).
Proof. revert d. induction l as [|x t IH]; intros d; [reflexivity|]. destruct t; [reflexivity|]. apply IH. Qed.

Lemma trace_rel : forall e i h0 h, rel h0 h -> (i < List.length h0)%nat ->
  let '(tr0, h0') := trace e i h0 in
  let '(tr, h') := trace e (phi i) h in
  tr = map phi tr0 /\ rel h0' h' /\ (List.last tr0 i < List.length h0')%nat /\
  (List.length h0 <= List.length h0')%nat /\ Forall (fun j => j < List.length h0')%nat tr0.
Proof.
  induction e as [k m|gk m es IH] using elem_ind'; intros i h0 h Hr Hi; [now apply trace_leaf_rel|].
  rewrite !trace_group.
  assert (forall es cur acc h0 h, Forall (fun e => forall i h0 h, rel h0 h -> (i < List.length h0)%nat ->
      let '(tr0, h0') := trace e i h0 in let '(tr, h') := trace e (phi i) h in
      tr = map phi tr0 /\ rel h0' h' /\ (List.last tr0 i < List.length h0')%nat /\
      (List.length h0 <= List.length h0')%nat /\ Forall (fun j => j < List.length h0')%nat tr0) es ->
    rel h0 h -> (cur < List.length h0)%nat -> Forall (fun j => j < List.length h0)%nat acc -> acc <> [] ->
    let '(tr0, h0') := trace_loop es cur acc h0 in
    let '(tr, h') := trace_loop es (phi cur) (map phi acc) h in
    tr = map phi tr0 /\ rel h0' h' /\ tr0 <> [] /\
    (List.length h0 <= List.length h0')%nat /\ Forall (fun j => j < List.length h0')%nat tr0) as HL.
  { clear. induction es as [|x t IHt]; intros cur acc h0 h HF Hr Hc Ha Hn; cbn [trace_loop].
    - split; [reflexivity|]. split; [assumption|]. split; [assumption|]. split; [lia|assumption].
    - inversion HF as [|? ? Hx HF']; subst. specialize (Hx cur h0 h Hr Hc).
      destruct (trace x cur h0) as [tr0 h0']. destruct (trace x (phi cur) h) as [tr h'].
      destruct Hx as (-> & R1 & L1 & LL & F1). rewrite last_map_phi, <- map_app.
      assert (Forall (fun j => j < List.length h0')%nat (acc ++ tr0)) as F2.
      { apply Forall_app. split; auto. eapply Forall_impl; [|exact Ha]. cbn. intros; lia. }
      specialize (IHt (List.last tr0 cur) (acc ++ tr0) h0' h' HF' R1 L1 F2 ltac:(destruct acc; [congruence|discriminate])).
      destruct (trace_loop t (List.last tr0 cur) (acc ++ tr0) h0').
      destruct (trace_loop t (phi (List.last tr0 cur)) (map phi (acc ++ tr0)) h').
      destruct IHt as (A & B & C & D & E). split; [assumption|]. split; [assumption|]. split; [assumption|].
      split; [lia|assumption]. }
  specialize (HL es i [i] h0 h IH Hr Hi ltac:(constructor; auto) ltac:(discriminate)). cbn [map] in HL.
  destruct (trace_loop es i [i] h0) as [tr0 h0']. destruct (trace_loop es (phi i) [phi i] h) as [tr h'].
  destruct HL as (A & B & C & D & E). split; auto. split; auto. split; auto.
  rewrite Forall_forall in E. apply E. now apply last_in.
Qed.
End Reloc.

Theorem trace_values_anywhere e rid (h : heap) : (rid < List.length h)%nat ->
  map (hget (snd (trace e rid h))) (fst (trace e rid h)) = trace_values e (hget h rid).
Proof.
  intros Hr. unfold trace_values.
  assert (rel (List.length h) rid [hget h rid] h) as H.
  { split; [cbn; lia|]. split; [cbn; lia|]. intros [|k] Hk; [reflexivity|cbn in Hk; lia]. }
  pose proof (trace_rel (List.length h) rid Hr e 0 [hget h rid] h H ltac:(cbn; lia)) as K. cbn [phi] in K.
  destruct (trace e 0 [hget h rid]) as [tr0 h0']. destruct (trace e rid h) as [tr h']. cbn [fst snd].
  destruct K as (-> & (_ & _ & R1) & _ & _ & F). rewrite map_map. apply map_ext_in.
  intros k Hk. rewrite Forall_forall in F. apply R1. now apply F.
Qed.

(** ** Stores that differ in caches only *)
Definition but_cache (a b : option obj) : Prop :=
  match a, b with
  | Some (OGroup gk m kids _ it), Some (OGroup gk' m' kids' _ it') =>
      gk = gk' /\ m = m' /\ kids = kids' /\ it = it'
  | _, _ => a = b
  end.
Definition caches_only (s s' : store) : Prop := forall j, but_cache (oget s j) (oget s' j).
Lemma but_cache_refl a : but_cache a a.
Proof. destruct a as [[]|]; cbn; auto. Qed.
Lemma but_cache_trans a b c : but_cache a b -> but_cache b c -> but_cache a c.
Proof.
  destruct a as [[|]|], b as [[|]|], c as [[|]|]; cbn; try congruence.
  intros (-> & -> & -> & ->) (-> & -> & -> & ->). auto.
Qed.
Lemma caches_refl s : caches_only s s.
Proof. intros j. apply but_cache_refl. Qed.
Lemma caches_trans a b c : caches_only a b -> caches_only b c -> caches_only a c.
Proof. intros H1 H2 j. eapply but_cache_trans; eauto. Qed.
Lemma caches_set_cache s i rid tr : caches_only s (set_cache s i rid tr).
Proof.
  unfold set_cache. destruct (oget s i) as [[|gk m kids c it]|] eqn:E; try apply caches_refl.
  intros j. destruct (Nat.eq_dec i j) as [->|Hn].
  - rewrite oget_oset_eq by (eapply oget_lt; eauto). rewrite E. cbn. auto.
  - rewrite oget_oset_neq by auto. apply but_cache_refl.
Qed.
Lemma set_cache_frame (s : store) i rid tr j : i <> j -> oget (set_cache s i rid tr) j = oget s j.
Proof. intros. unfold set_cache. destruct (oget s i) as [[|]|]; auto. now apply oget_oset_neq. Qed.

Lemma all_some_ext {A B} (f g : A -> option B) l : (forall x, In x l -> f x = g x) -> all_some f l = all_some g l.
Proof. induction l as [|x t IH]; intros H; cbn; auto. rewrite H, IH; auto; [intros; apply H; now right|now left]. Qed.
Lemma tree_caches fuel : forall s s' i, caches_only s s' -> tree fuel s' i = tree fuel s i.
Proof.
  induction fuel as [|fuel IH]; intros s s' i H; cbn [tree]; auto. specialize (H i) as Hi. unfold but_cache in Hi.
  destruct (oget s i) as [[|]|], (oget s' i) as [[|]|]; try congruence.
  destruct Hi as (-> & -> & -> & ->). rewrite (all_some_ext (tree fuel s') (tree fuel s)); auto.
Qed.

(** the groups below an object, in the order in which light meets them *)
Fixpoint groups (fuel : nat) (s : store) (i : nat) : list nat :=
  match fuel with
  | O => []
  | S fuel =>
      match oget s i with
      | Some (OGroup _ _ kids _ _) => i :: List.concat (map (groups fuel s) kids)
      | _ => []
      end
  end.
Lemma groups_caches fuel : forall s s' i, caches_only s s' -> groups fuel s' i = groups fuel s i.
Proof.
  induction fuel as [|fuel IH]; intros s s' i H; cbn [groups]; auto. specialize (H i) as Hi. unfold but_cache in Hi.
  destruct (oget s i) as [[|]|], (oget s' i) as [[|]|]; try congruence.
  destruct Hi as (-> & -> & -> & ->). f_equal. f_equal. apply map_ext. auto.
Qed.

Lemma strace_group fuel (s : store) i rid (h : heap) gk m kids cache it :
  oget s i = Some (OGroup gk m kids cache it) ->
  strace (S fuel) s i rid h =
  match cached h rid cache with
  | Some tr => Some (tr, s, h)
  | None =>
      match strace_loop fuel s kids rid [rid] h with
      | None => None
      | Some (tr, s', h') => Some (tr, set_cache s' i rid tr, h')
      end
  end.
Proof.
  intros E. cbn [strace]. rewrite E. destruct (cached h rid cache); auto.
  match goal with |- match ?a with _ => _ end = match ?b with _ => _ end => replace b with a; [reflexivity|] end.
  clear E. generalize [rid] as acc. generalize rid as cur. revert s h.
  induction kids as [|x t IH]; intros s h cur acc; [reflexivity|]. cbn [strace_loop].
  destruct (strace fuel s x cur h) as [[[tr s'] h']|]; auto.
Qed.

(** a leaf has no group below it, and a tree is not empty *)
Lemma all_some_cons {A B} (f : A -> option B) x l es : all_some f (x :: l) = Some es ->
  exists e t, es = e :: t /\ f x = Some e /\ all_some f l = Some t.
Proof. cbn. destruct (f x), (all_some f l); try discriminate. intros [= <-]. eauto. Qed.

Lemma NoDup_app_inv {A} (a b : list A) : NoDup (a ++ b) -> NoDup a /\ NoDup b /\ forall x, In x a -> ~ In x b.
Proof.
  induction a as [|x a IH]; cbn; intros H; [split; [constructor|split; auto]|].
  inversion H as [|? ? Hn Hd]; subst. destruct (IH Hd) as (A1 & A2 & A3). split; [|split; auto].
  - constructor; auto. intros Hx. apply Hn. apply in_or_app. now left.
  - intros y [<-|Hy]; auto. intros Hb. apply Hn. apply in_or_app. now right.
Qed.

Definition cache_of (s : store) (i : nat) : option (nat * list nat) :=
  match oget s i with Some (OGroup _ _ _ c _) => c | _ => None end.

(** ** The first trace through groups that were never used *)
Theorem cold_trace fuel : forall (s : store) i e rid (h : heap),
  tree fuel s i = Some e -> NoDup (groups fuel s i) ->
  (forall j, In j (groups fuel s i) -> cache_of s j = None) ->
  exists s', strace fuel s i rid h = Some (fst (trace e rid h), s', snd (trace e rid h)) /\
    caches_only s s' /\ (forall j, ~ In j (groups fuel s i) -> oget s' j = oget s j).
Proof.
  induction fuel as [|fuel IH]; [discriminate|]. intros s i e rid h Ht Hd Hc. cbn [tree] in Ht.
  destruct (oget s i) as [[k m|gk m kids c it]|] eqn:E; [| |discriminate].
  - injection Ht as <-. cbn [strace groups]. rewrite E. exists s. cbn [trace].
    destruct (trace_leaf k m rid h). split; [reflexivity|]. split; [apply caches_refl|auto].
  - destruct (all_some (tree fuel s) kids) as [es|] eqn:Ek; [|discriminate]. injection Ht as <-.
    cbn [groups] in Hd, Hc. rewrite E in Hd, Hc. inversion Hd as [|? ? Hni Hdk]; subst.
    assert (c = None) as -> by (specialize (Hc i (or_introl eq_refl)); unfold cache_of in Hc; now rewrite E in Hc).
    rewrite (strace_group _ _ _ _ _ _ _ _ _ _ E), trace_group. cbn [cached].
    assert (forall l es0 s1 cur acc h1, all_some (tree fuel s) l = Some es0 -> caches_only s s1 ->
      NoDup (List.concat (map (groups fuel s) l)) ->
      (forall j, In j (List.concat (map (groups fuel s) l)) -> oget s1 j = oget s j /\ cache_of s j = None) ->
      exists s2, strace_loop fuel s1 l cur acc h1 =
          Some (fst (trace_loop es0 cur acc h1), s2, snd (trace_loop es0 cur acc h1)) /\
        caches_only s1 s2 /\
        (forall j, ~ In j (List.concat (map (groups fuel s) l)) -> oget s2 j = oget s1 j)) as HL.
    { induction l as [|x t IHl]; intros es0 s1 cur acc h1 He Hs Hnd Hg.
      - injection He as <-. exists s1. split; [reflexivity|]. split; [apply caches_refl|auto].
      - apply all_some_cons in He. destruct He as (ex & et & -> & Ex & Et). cbn [map List.concat] in Hnd, Hg.
        apply NoDup_app_inv in Hnd. destruct Hnd as (N1 & N2 & N3).
        destruct (IH s1 x ex cur h1) as (s2 & S1 & S2 & S3).
        + rewrite (tree_caches _ _ _ _ Hs). exact Ex.
        + now rewrite (groups_caches _ _ _ _ Hs).
        + intros j Hj. rewrite (groups_caches _ _ _ _ Hs) in Hj.
          destruct (Hg j ltac:(apply in_or_app; now left)) as (G1 & G2). unfold cache_of in *. now rewrite G1.
        + rewrite (groups_caches _ _ _ _ Hs) in S3. cbn [strace_loop trace_loop]. rewrite S1.
          destruct (trace ex cur h1) as [tr h2]. cbn [fst snd].
          destruct (IHl et s2 (List.last tr cur) (acc ++ tr) h2 Et (caches_trans _ _ _ Hs S2) N2) as (s3 & L1 & L2 & L3).
          { intros j Hj. destruct (Hg j ltac:(apply in_or_app; now right)) as (G1 & G2). split; auto.
            rewrite S3; auto. intros X. exact (N3 j X Hj). }
          exists s3. split; [exact L1|]. split; [eapply caches_trans; eauto|].
          intros j Hj. cbn [map List.concat] in Hj. rewrite L3, S3; auto;
            intros X; apply Hj; apply in_or_app; auto. }
    destruct (HL kids es s rid [rid] h Ek (caches_refl s) Hdk) as (s2 & L1 & L2 & L3).
    { intros j Hj. split; auto. apply Hc. now right. }
    rewrite L1. eexists. split; [reflexivity|]. split.
    + eapply caches_trans; [exact L2|apply caches_set_cache].
    + intros j Hj. cbn [groups] in Hj. rewrite E in Hj. rewrite set_cache_frame, L3; auto.
      * intros X. apply Hj. now right.
      * intros X. apply Hj. now left.
Qed.
End Generic.
