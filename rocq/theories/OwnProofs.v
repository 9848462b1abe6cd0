(** Which element objects a path holds after it was edited. *)
From Coq Require Import ZArith List Bool String Lia.
From Verif Require Import Base Nums Optics Group Store StoreProofs.
Import ListNotations.
Open Scope list_scope.

(** ** Specification: the lists of Python *)
(** where index [i] is in a list of [n] things, for insertions and slices *)
Definition place (n : nat) (i : Z) : nat :=
  Z.to_nat (Z.min (Z.of_nat n) (Z.max 0 (if Z.ltb i 0 then i + Z.of_nat n else i))).
(** put [new] before index [i] *)
Definition put_at {A} (i : Z) (new l : list A) : list A := firstn (place (List.length l) i) l ++ new ++ skipn (place (List.length l) i) l.

Section Own.
Context {T : Type} {N : Num T}.
Local Notation obj := (@obj T).
Local Notation store := (@store T).

Lemma oappend_here (s : store) g i s' : oappend s g i = (s', None) -> kids_of s' g = kids_of s g ++ [i].
Proof.
  unfold oappend. destruct (oget s g) as [[k m|gk m kids c it]|] eqn:Eg; try discriminate.
  destruct (oappend_check s kids i) as [s1|] eqn:E1; [|discriminate].
  destruct (all_some _ _); [|discriminate]. destruct (group_transfer _ _) as [tm|]; [|discriminate]. intros [= <-].
  assert (g < List.length s)%nat as Hg by (eapply oget_lt; eauto).
  destruct (oappend_check_alone (fun _ => False) _ _ _ _ E1) as (L & _).
  unfold kids_of at 1. rewrite oget_oset_eq by (rewrite oset_length; lia). unfold kids_of. now rewrite Eg.
Qed.
Lemma oappend_elsewhere (s : store) g i j : j <> g -> kids_of (fst (oappend s g i)) j = kids_of s j.
Proof. intros H. destruct (oappend_kids s g i j) as [|[]]; auto. contradiction. Qed.
Lemma oappend_length (s : store) g i : List.length (fst (oappend s g i)) = List.length s.
Proof.
  unfold oappend. destruct (oget s g) as [[k m|gk m kids c it]|] eqn:Eg; auto.
  destruct (oappend_check s kids i) as [s1|] eqn:E1; auto.
  assert (List.length s1 = List.length s) as L.
  { unfold oappend_check in E1. destruct (oget s i); [|discriminate]. destruct (last_opt kids); [|now injection E1 as <-].
    destruct (oget s n); [|discriminate]. destruct (neqb _ _); [now injection E1 as <-|].
    destruct (is_space_obj _); [|discriminate]. injection E1 as <-. apply oset_length. }
  destruct (all_some _ _); cbn [fst]; rewrite ?oset_length; auto. destruct (group_transfer _ _); cbn [fst]; rewrite ?oset_length; auto.
Qed.

(** elements added until one is refused *)
Lemma oappend_all_here l : forall (s : store) g s' x, oappend_all s g l = (s', x) ->
  (exists pre post, l = pre ++ post /\ kids_of s' g = kids_of s g ++ pre /\ (x = None -> post = [])) /\
  (forall j, j <> g -> kids_of s' j = kids_of s j) /\ List.length s' = List.length s.
Proof.
  induction l as [|i l IH]; intros s g s' x H; cbn [oappend_all] in H.
  - injection H as <- <-. split; [exists [], []; rewrite (app_nil_r (kids_of s g)); auto|]. split; auto.
  - pose proof (oappend_kids s g i g) as K. pose proof (oappend_length s g i) as L. pose proof (oappend_elsewhere s g i) as O. destruct (oappend s g i) as [s1 [e|]] eqn:E; cbn [fst] in *.
    + injection H as <- <-. split; [|split; auto]. destruct K as [K|[_ K]].
      * exists [], (i :: l). rewrite app_nil_r. repeat split; auto. discriminate.
      * exists [i], l. repeat split; auto. discriminate.
    + apply oappend_here in E. destruct (IH _ _ _ _ H) as ((pre & post & -> & K1 & K2) & O1 & L1). split.
      * exists (i :: pre), post. split; auto. split; auto. rewrite K1, E, <- app_assoc. reflexivity.
      * split; [|lia]. intros j Hj. rewrite O1, O; auto.
Qed.
Lemma set_kids_here (s : store) g l : kids_of s g <> [] \/ l = [] -> kids_of (set_kids s g l) g = l.
Proof.
  unfold set_kids, kids_of. destruct (oget s g) as [[k m|gk m kids c it]|] eqn:E; intros [H|H]; try (now elim H); try (now rewrite E, H).
  - rewrite oget_oset_eq by (eapply oget_lt; eauto). reflexivity.
  - rewrite oget_oset_eq by (eapply oget_lt; eauto). reflexivity.
Qed.
Lemma set_kids_elsewhere (s : store) g l j : j <> g -> kids_of (set_kids s g l) j = kids_of s j.
Proof. intros H. unfold set_kids. destruct (oget s g) as [[]|]; auto. unfold kids_of. rewrite oget_oset_neq; auto. Qed.
Lemma set_kids_length (s : store) g l : List.length (set_kids s g l) = List.length s.
Proof. unfold set_kids. destruct (oget s g) as [[]|]; auto. apply oset_length. Qed.

(** a group whose elements are added anew has those that were accepted *)
Theorem orebuild_here (s : store) g l s' x : orebuild s g l = (s', x) ->
  exists pre post, l = pre ++ post /\ kids_of s' g = pre /\ (x = None -> post = []).
Proof.
  unfold orebuild. intros H. destruct (oappend_all_here _ _ _ _ _ H) as ((pre & post & E & K & Z) & _).
  rewrite set_kids_here in K by auto. exists pre, post. auto.
Qed.
Theorem onew_group_here (s : store) l g s' : onew_group s l = (g, (s', None)) -> g = List.length s /\ kids_of s' g = l /\
  (forall j, j <> g -> kids_of s' j = kids_of s j) /\ List.length s' = S (List.length s).
Proof.
  unfold onew_group. destruct (Matrix_init _ _ _ _ _ _ _ _ _ _ _ _) as [m|]; [|discriminate]. cbn [onew]. intros [= <- H].
  destruct (oappend_all_here _ _ _ _ _ H) as ((pre & post & E & K & Z) & O & L). split; auto.
  assert (forall j, kids_of (s ++ [OGroup GGroup m [] None 0]) j = kids_of s j) as K0.
  { intros j. unfold kids_of. destruct (Nat.lt_trichotomy j (List.length s)) as [Hj|[->|Hj]].
    - now rewrite oget_app.
    - rewrite oget_new. unfold oget. now rewrite (proj2 (nth_error_None _ _)) by lia.
    - unfold oget. rewrite !(proj2 (nth_error_None _ _)); auto; [lia|]. rewrite app_length. cbn. lia. }
  rewrite (Z eq_refl), app_nil_r in E. subst pre. rewrite K0 in K. split.
  - rewrite K. unfold kids_of, oget. now rewrite (proj2 (nth_error_None _ _)) by lia.
  - split; [intros j Hj; rewrite O; auto|]. rewrite L, app_length. cbn. lia.
Qed.

Lemma pybound_place n i : pybound n i = place n i.
Proof. unfold pybound, place. destruct (Z.ltb i 0); lia. Qed.

(** ** The operations *)
Theorem own_append (s : store) g i s' : sstep s (SAppend g i) = (s', None) -> kids_of s' g = kids_of s g ++ [i].
Proof. apply oappend_here. Qed.
Theorem own_pop (s : store) g i s' : sstep s (SPop g i) = (s', None) ->
  exists k, (k < List.length (kids_of s g))%nat /\ (i = Z.of_nat k \/ i = Z.of_nat k - Z.of_nat (List.length (kids_of s g)))%Z /\
  kids_of s' g = firstn k (kids_of s g) ++ skipn (S k) (kids_of s g).
Proof.
  cbn [sstep]. unfold opop, pyindex. set (l := kids_of s g).
  destruct (Z.leb_spec 0 (if Z.ltb i 0 then i + Z.of_nat (List.length l) else i)) as [L0|]; cbn [andb]; [|discriminate].
  destruct (Z.ltb_spec (if Z.ltb i 0 then i + Z.of_nat (List.length l) else i) (Z.of_nat (List.length l))) as [L1|]; [|discriminate]. intros H.
  destruct (orebuild_here _ _ _ _ _ H) as (pre & post & E & K & Z). rewrite (Z eq_refl), app_nil_r in E. subst pre.
  eexists. split; [|split; [|rewrite K; reflexivity]]; destruct (Z.ltb_spec i 0); lia.
Qed.
Theorem own_insert (s : store) g i l s' : (g < List.length s)%nat -> sstep s (SInsert g i l) = (s', None) ->
  kids_of s' g = put_at i l (kids_of s g).
Proof.
  intros Hg. cbn [sstep]. unfold oinsert. destruct (onew_group s l) as [tmp [s1 [e|]]] eqn:E; [discriminate|]. intros H.
  destruct (onew_group_here _ _ _ _ E) as (-> & K & O & _).
  destruct (orebuild_here _ _ _ _ _ H) as (pre & post & E' & K' & Z). rewrite (Z eq_refl), app_nil_r in E'. subst pre.
  rewrite K', K, O by lia. unfold put_at, pytake, pydrop. now rewrite pybound_place.
Qed.
Lemma opop_length (s : store) g i : List.length (fst (opop s g i)) = List.length s.
Proof.
  unfold opop. destruct (pyindex _ _); auto. unfold orebuild.
  destruct (oappend_all (set_kids s g []) g (remove_nth n (kids_of s g))) as [s' x] eqn:E. destruct (oappend_all_here _ _ _ _ _ E) as (_ & _ & L).
  cbn [fst]. rewrite L. apply set_kids_length.
Qed.
Theorem own_setitem (s : store) g (i : nat) l s' : (g < List.length s)%nat -> sstep s (SSetItem g (Z.of_nat i) l) = (s', None) ->
  (i < List.length (kids_of s g))%nat /\ kids_of s' g = firstn i (kids_of s g) ++ l ++ skipn (S i) (kids_of s g).
Proof.
  intros Hg. cbn [sstep]. unfold osetitem. destruct (opop s g (Z.of_nat i)) as [s1 [e|]] eqn:E; [discriminate|]. intros H.
  pose proof (opop_length s g (Z.of_nat i)) as L. rewrite E in L. cbn [fst] in L.
  destruct (own_pop _ _ _ _ E) as (k & Hk & Ek & K). assert (k = i) as -> by lia. split; auto.
  apply (own_insert s1) in H; [|lia]. rewrite H, K. unfold put_at.
  assert (List.length (firstn i (kids_of s g)) = i) as LF by (apply firstn_length_le; lia).
  replace (place _ (Z.of_nat i)) with i by (unfold place; rewrite app_length, LF; destruct (Z.ltb_spec (Z.of_nat i) 0); lia).
  rewrite firstn_app, skipn_app, LF, Nat.sub_diag. cbn [firstn skipn]. rewrite firstn_all2, skipn_all2, app_nil_r by lia. reflexivity.
Qed.
Theorem own_setslice (s : store) g (a b : nat) l s' : (g < List.length s)%nat -> (a <= b)%nat ->
  sstep s (SSetSlice g (Some (Z.of_nat a)) (Some (Z.of_nat b)) l) = (s', None) ->
  kids_of s' g = firstn a (kids_of s g) ++ l ++ skipn b (kids_of s g).
Proof.
  intros Hg Hab. cbn [sstep]. unfold osetslice. set (k := kids_of s g). unfold pytake, pydrop.
  replace (pybound (List.length k) (Z.of_nat a)) with (Nat.min a (List.length k)) by (unfold pybound; destruct (Z.ltb_spec (Z.of_nat a) 0); lia).
  replace (pybound (List.length k) (Z.of_nat b)) with (Nat.min b (List.length k)) by (unfold pybound; destruct (Z.ltb_spec (Z.of_nat b) 0); lia).
  intros H. apply own_insert in H; [|rewrite set_kids_length; exact Hg]. rewrite H.
  assert (firstn (Nat.min a (List.length k)) k = firstn a k) as F1.
  { destruct (Nat.le_ge_cases a (List.length k)); [now rewrite Nat.min_l|]. rewrite Nat.min_r by lia. rewrite !firstn_all2; auto. }
  assert (skipn (Nat.min b (List.length k)) k = skipn b k) as F2.
  { destruct (Nat.le_ge_cases b (List.length k)); [now rewrite Nat.min_l|]. rewrite Nat.min_r by lia. rewrite !skipn_all2; auto. }
  assert (kids_of (set_kids s g (firstn (Nat.min a (List.length k)) k ++ skipn (Nat.min b (List.length k)) k)) g = firstn a k ++ skipn b k) as E.
  { rewrite set_kids_here; [now rewrite F1, F2|]. destruct k as [|x k'] eqn:Ek; [right|left].
    - rewrite F1, F2. now rewrite firstn_nil, skipn_nil.
    - fold k in Ek. unfold k in Ek. rewrite Ek. discriminate. }
  rewrite E. unfold put_at. pose proof (firstn_length a k) as LF. pose proof (skipn_length b k) as LS.
  destruct (Nat.le_ge_cases a (List.length k)) as [La|La].
  - replace (place _ (Z.of_nat a)) with a by (unfold place; rewrite app_length, LF; destruct (Z.ltb_spec (Z.of_nat a) 0); lia).
    rewrite firstn_app, skipn_app, LF, Nat.min_l, Nat.sub_diag by auto. cbn [firstn skipn].
    rewrite (firstn_all2 (firstn a k)), (skipn_all2 (firstn a k)), app_nil_r by lia. reflexivity.
  - rewrite (skipn_all2 k) by lia. rewrite !app_nil_r, (firstn_all2 k) by lia.
    replace (place _ (Z.of_nat a)) with (List.length k) by (unfold place; destruct (Z.ltb_spec (Z.of_nat a) 0); lia).
    rewrite firstn_all, skipn_all, app_nil_r. reflexivity.
Qed.
Theorem own_new (s : store) l s' : sstep s (SNewGroup l) = (s', None) -> kids_of s' (List.length s) = l /\ List.length s' = S (List.length s).
Proof.
  cbn [sstep]. destruct (onew_group s l) as [g [s1 x]] eqn:E. cbn [snd]. intros [= -> ->]. destruct (onew_group_here _ _ _ _ E) as (-> & K & _ & L). auto.
Qed.
Theorem own_slice (s : store) g (a b : nat) s' : sstep s (SGetSlice g (Z.of_nat a) (Z.of_nat b)) = (s', None) -> (a <= b)%nat ->
  kids_of s' (List.length s) = skipn a (firstn b (kids_of s g)) /\ List.length s' = S (List.length s).
Proof.
  intros H Hab. cbn [sstep] in H. unfold ogetslice in H. set (k := kids_of s g) in *.
  apply (own_new s (pydrop (Z.of_nat a) (pytake (Z.of_nat b) k))) in H as [H L]. split; auto. rewrite H.
  assert (pytake (Z.of_nat b) k = firstn b k) as E.
  { unfold pytake. destruct (Nat.le_ge_cases b (List.length k)).
    - f_equal. unfold pybound. destruct (Z.ltb_spec (Z.of_nat b) 0); lia.
    - rewrite !firstn_all2; auto. unfold pybound. destruct (Z.ltb_spec (Z.of_nat b) 0); lia. }
  rewrite E. unfold pydrop. destruct (Nat.le_ge_cases a (List.length (firstn b k))).
  - f_equal. unfold pybound. destruct (Z.ltb_spec (Z.of_nat a) 0); lia.
  - rewrite !skipn_all2; auto. unfold pybound. destruct (Z.ltb_spec (Z.of_nat a) 0); lia.
Qed.

(** a sub path: a new Space, then the same objects that follow (or precede, in reverse order).
    [start s z l] is where the elements [l], laid out from [z], end *)
Definition len_of (s : store) (i : nat) : T := match oget s i with Some o => mL (omat o) | None => c0 end.
Definition start (s : store) (z : T) (l : list nat) : T := fold_left (fun z i => nadd z (len_of s i)) l z.
Lemma osubPath_loop_here l : forall (s : store) before z zs b g s', osubPath_loop s before l z zs b = (g, (s', None)) ->
  exists pre x post m sp, l = pre ++ x :: post /\ oget s x = Some (OLeaf KSpace m) /\
    nltb (start s z pre) zs = true /\ nltb zs (nadd (start s z pre) (mL m)) = true /\
    kids_of s' g = List.length s :: (if b then rev pre ++ before else post) /\ List.length s' = S (S (List.length s)) /\ g = S (List.length s) /\
    oget s' (List.length s) = Some (OLeaf KSpace sp) /\ mL sp = (if b then nsub zs (start s z pre) else nsub (nadd (start s z pre) (mL m)) zs).
Proof.
  induction l as [|x l IH]; intros s before z zs b g s' H; cbn [osubPath_loop] in H; [discriminate|].
  destruct (oget s x) as [o|] eqn:E; [|discriminate]. destruct (nltb z zs) eqn:Z1; cbn [andb] in H;
    [destruct (nltb zs (nadd z (mL (omat o)))) eqn:Z2|].
  - destruct (is_space_obj o) eqn:S; [|discriminate]. destruct o as [[] m|]; try discriminate. cbn [omat] in *.
    destruct (Space _ _ _) as [sp|] eqn:ES; [|discriminate]. cbn [onew] in H.
    destruct (onew_group_here _ _ _ _ H) as (-> & K & O & L).
    rewrite app_length in *. cbn [List.length] in *. rewrite Nat.add_1_r in *.
    assert (mL (emat sp) = (if b then nsub zs z else nsub (nadd z (mL m)) zs)) as EL.
    { unfold Space, SpaceM, Matrix_init in ES. destruct (nleb ninf c0); [discriminate|]. destruct (pdiv c1 c1) as [q|]; [|discriminate].
      cbn [bind] in ES. destruct (areAbsolutelyNotEqual _ _ _); [discriminate|]. now injection ES as <-. }
    pose proof (onew_group_alone (s ++ [OLeaf KSpace (emat sp)]) (List.length s :: (if b then before else l))) as (_ & A). rewrite H in A. cbn [snd fst] in A.
    destruct (A (List.length s)) as [E1|(m1 & n1 & E1 & E2)]; [rewrite app_length; cbn; lia|tauto| |]; rewrite oget_new in E1.
    + exists [], x, l, m, (emat sp). repeat split; auto.
    + injection E1 as <-. cbn [set_oindex] in E2. eexists [], x, l, m, _. repeat (split; [now auto|]). split; [exact E2|]. exact EL.
  - destruct (IH _ _ _ _ _ _ _ H) as (pre & y & post & m & sp & -> & E1 & F1 & F2 & K & L & G & Sp & EL). exists (x :: pre), y, post, m, sp. split; auto. split; auto.
    unfold start in *. cbn [fold_left]. unfold len_of at 2 4 6 8. rewrite E. repeat (split; [now auto|]). split; [|repeat (split; auto)].
    rewrite K. destruct b; auto. cbn [rev]. rewrite <- app_assoc. reflexivity.
  - destruct (IH _ _ _ _ _ _ _ H) as (pre & y & post & m & sp & -> & E1 & F1 & F2 & K & L & G & Sp & EL). exists (x :: pre), y, post, m, sp. split; auto. split; auto.
    unfold start in *. cbn [fold_left]. unfold len_of at 2 4 6 8. rewrite E. repeat (split; [now auto|]). split; [|repeat (split; auto)].
    rewrite K. destruct b; auto. cbn [rev]. rewrite <- app_assoc. reflexivity.
Qed.
Theorem own_subPath (s : store) g z b s' : sstep s (SSubPath g z b) = (s', None) ->
  exists pre x post m sp, kids_of s g = pre ++ x :: post /\ oget s x = Some (OLeaf KSpace m) /\
    nltb (start s c0 pre) z = true /\ nltb z (nadd (start s c0 pre) (mL m)) = true /\
    List.length s' = S (S (List.length s)) /\
    kids_of s' (S (List.length s)) = List.length s :: (if b then rev pre else post) /\
    oget s' (List.length s) = Some (OLeaf KSpace sp) /\
    mL sp = (if b then nsub z (start s c0 pre) else nsub (nadd (start s c0 pre) (mL m)) z).
Proof.
  cbn [sstep]. unfold osubPath. destruct (osubPath_loop s [] (kids_of s g) c0 z b) as [n [s1 x1]] eqn:E. cbn [snd]. intros [= -> ->].
  destruct (osubPath_loop_here _ _ _ _ _ _ _ _ E) as (pre & x & post & m & sp & E0 & E1 & F1 & F2 & K & L & G & Sp & EL). exists pre, x, post, m, sp. subst n.
  repeat (split; [now auto|]). split; [|auto]. rewrite K. destruct b; auto. now rewrite app_nil_r.
Qed.

(** flipping a path in place: the same elements in reverse order *)
Lemma oflip_loop_here fuel i : forall (s : store) l s1 acc s2, (forall j, incl (kids_of s1 j) (kids_of s j)) -> (i < List.length s1)%nat ->
  (forall x, In x (kids_of s i) -> ~ In i (reach fuel s x)) -> incl l (kids_of s i) ->
  kids_of s1 i = acc -> oflip_loop fuel i s1 l = (s2, None) -> kids_of s2 i = acc ++ l.
Proof.
  intros s l. induction l as [|x t IH]; intros s1 acc s2 HI Hi HR Hl Ha H; cbn [oflip_loop] in H.
  - injection H as <-. now rewrite app_nil_r.
  - destruct (oflip_frame fuel s1 x) as ((L & U) & K). destruct (oflip fuel s1 x) as [s1' [e|]]; [discriminate|]. cbn [fst] in *.
    assert (kids_of s1' i = acc) as Ka.
    { unfold kids_of. rewrite U; auto. intros X. apply (HR x); [apply Hl; now left|]. eapply reach_mono; eauto. }
    pose proof (oappend_elsewhere s1' i x) as O. pose proof (oappend_length s1' i x) as L2.
    destruct (oappend s1' i x) as [s1'' [e|]] eqn:E; [discriminate|]. cbn [fst] in *. apply oappend_here in E. rewrite Ka in E.
    rewrite (IH s1'' (acc ++ [x]) s2); auto; [now rewrite <- app_assoc| |lia|intros y Hy; apply Hl; now right].
    intros j. destruct (Nat.eq_dec j i) as [->|Hn].
    + rewrite E. intros y Hy. apply in_app_or in Hy as [Hy|[<-|[]]]; [|apply Hl; now left]. apply HI. now rewrite Ha.
    + rewrite O by auto. intros y Hy. apply HI. now apply K.
Qed.
Theorem own_flip fuel (s : store) i gk m kids c it s' : oget s i = Some (OGroup gk m kids c it) ->
  (forall x, In x kids -> ~ In i (reach fuel s x)) -> oflip (S fuel) s i = (s', None) -> kids_of s' i = rev kids.
Proof.
  intros E HR H. rewrite (oflip_group _ _ _ _ _ _ _ _ E) in H.
  set (s0 := oset s i (OGroup gk (set_flip m (negb (mflip m))) [] c it)) in *.
  destruct (oflip_loop fuel i s0 (rev kids)) as [s1 [e|]] eqn:EL; [discriminate|]. injection H as <-.
  assert (kids_of s i = kids) as Ek by (unfold kids_of; now rewrite E).
  assert (i < List.length s)%nat as Hi by (eapply oget_lt; eauto).
  rewrite (proj2 (ofinish_frame s1 i)). apply (oflip_loop_here fuel i s (rev kids) s0 [] s1); auto.
  - intros j. destruct (kids_of_oset s i (OGroup gk (set_flip m (negb (mflip m))) [] c it) j) as [X|[_ X]]; fold s0 in X; rewrite X; [apply incl_refl|intros y []].
  - unfold s0. now rewrite oset_length.
  - now rewrite Ek.
  - rewrite Ek. intros y Hy. now apply in_rev.
  - unfold kids_of, s0. now rewrite oget_oset_eq.
Qed.

(** an edit that raises: the path is left with what had been accepted so far *)
Theorem own_failed (s : store) g i s' e : sstep s (SPop g i) = (s', Some e) ->
  kids_of s' g = kids_of s g \/
  exists k pre post, (k < List.length (kids_of s g))%nat /\ firstn k (kids_of s g) ++ skipn (S k) (kids_of s g) = pre ++ post /\ kids_of s' g = pre.
Proof.
  cbn [sstep]. unfold opop, pyindex. set (l := kids_of s g).
  destruct (Z.leb_spec 0 (if Z.ltb i 0 then i + Z.of_nat (List.length l) else i)) as [L0|]; cbn [andb]; [|intros [= <- _]; now left].
  destruct (Z.ltb_spec (if Z.ltb i 0 then i + Z.of_nat (List.length l) else i) (Z.of_nat (List.length l))) as [L1|]; [|intros [= <- _]; now left]. intros H.
  destruct (orebuild_here _ _ _ _ _ H) as (pre & post & E & K & _). right. eexists _, pre, post. split; [|split; [exact E|exact K]]. lia.
Qed.
End Own.
