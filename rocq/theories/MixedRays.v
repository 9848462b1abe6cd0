(** Rays traced through paths without apertures, whatever was traced before (rays and beams, groups nested, shared or used twice): the
    heights and angles are those of the path.  Positions along the axis are not (C17_group_twice_refuted). *)
From Coq Require Import ZArith List Bool String Lia.
From Verif Require Import Base Nums Optics Store GroupProofs TraceProofs RayProofs StoreMore Beam MixedTrace MixedProofs.
Import ListNotations.
Open Scope list_scope.

Local Notation mobj := (mobj XR).
Local Notation mstore := (mstore XR).
Local Notation world := (world XR).
Local Notation elem := (@elem XR).
Local Notation heap := (@heap XR).
Local Notation kind := (@kind XR).
Local Notation mat := (@mat XR).

Definition yth (h : heap) (i : nat) : XR * XR := (ry (hget h i), rth (hget h i)).
Definition live (h : heap) (i : nat) : Prop := i < List.length h /\ rblk (hget h i) = false.
Definition no_stop (m : mat) : Prop := mdiam m = PInf /\ mna m = PInf.
Definition ystep (k : kind) (m : mat) (p : XR * XR) : XR * XR :=
  let t := nadd (nmul (mC m) (fst p)) (nmul (mD m) (snd p)) in
  (nadd (nmul (mA m) (fst p)) (nmul (mB m) (snd p)), match k with KAxicon n a => axicon_th n a (fst p) t | _ => t end).
Fixpoint yvals (e : elem) (p : XR * XR) : list (XR * XR) :=
  match e with
  | Leaf k m => if nltb c0 (mL m) then [p; ystep k m p] else [ystep k m p]
  | Group _ _ es =>
      p :: (fix go (l : list elem) (p : XR * XR) := match l with [] => [] | x :: t => yvals x p ++ go t (List.last (yvals x p) p) end) es p
  end.
Fixpoint yloop (l : list elem) (p : XR * XR) : list (XR * XR) := match l with [] => [] | x :: t => yvals x p ++ yloop t (List.last (yvals x p) p) end.
Lemma yvals_group gk m es p : yvals (Group gk m es) p = p :: yloop es p.
Proof. reflexivity. Qed.
Lemma yvals_some e p : yvals e p <> [].
Proof. destruct e as [k m|gk m es]; [cbn [yvals]; destruct (nltb c0 (mL m)); discriminate|]. rewrite yvals_group. discriminate. Qed.

(** ** One trace without a cache *)
Definition good_tr (h h' : heap) (tr : list nat) (v : list (XR * XR)) : Prop :=
  (exists a, h' = h ++ a) /\ Forall (live h') tr /\ map (yth h') tr = v.
Lemma live_app (h a : heap) i : live h i -> live (h ++ a) i.
Proof. intros [L B]. split; [rewrite app_length; lia|]. now rewrite hget_app. Qed.
Lemma yth_app (h a : heap) i : live h i -> yth (h ++ a) i = yth h i.
Proof. intros [L B]. unfold yth. now rewrite hget_app. Qed.
Lemma live_grow (h h' : heap) l : (exists a, h' = h ++ a) -> Forall (live h) l -> Forall (live h') l.
Proof. intros [a ->]. apply Forall_impl. intros i. apply live_app. Qed.
Lemma yth_grow (h h' : heap) l : (exists a, h' = h ++ a) -> Forall (live h) l -> map (yth h') l = map (yth h) l.
Proof. intros [a ->] F. induction F as [|i l H F IH]; [reflexivity|]. cbn [map]. now rewrite IH, yth_app. Qed.
Lemma app_grow (h h' h'' : heap) : (exists a, h' = h ++ a) -> (exists a, h'' = h' ++ a) -> exists a, h'' = h ++ a.
Proof. intros [a ->] [b ->]. exists (a ++ b). now rewrite app_assoc. Qed.
Lemma set_nth_end {A} (h : list A) a b : set_nth (List.length h) b (h ++ [a]) = h ++ [b].
Proof. induction h as [|x h IH]; [reflexivity|]. cbn. now rewrite IH. Qed.
Lemma wide_half (m : mat) y : no_stop m -> nltb (ndiv (mdiam m) c2) y = false.
Proof. intros [-> _]. rewrite half_inf. destruct y; reflexivity. Qed.
Lemma wide_na (m : mat) y : no_stop m -> nltb (mna m) y = false.
Proof. intros [_ ->]. destruct y; reflexivity. Qed.
Lemma mul_live k m i (h : heap) : no_stop m -> live h i ->
  exists r, mul_ray k m i h = (List.length h, h ++ [r]) /\ rblk r = false /\ (ry r, rth r) = ystep k m (yth h i).
Proof.
  intros W [L B]. unfold mul_ray, mul_ray_base. rewrite B. unfold halloc. set (r0 := mul_ray_new m (hget h i)).
  assert (rblk r0 = false) as B0.
  { unfold r0, mul_ray_new. cbn [rblk]. now rewrite (wide_half m _ W), (wide_na m _ W). }
  destruct k; try (exists r0; split; [reflexivity|split; [exact B0|reflexivity]]).
  eexists. split; [unfold hset; rewrite set_nth_end; reflexivity|]. rewrite hget_new. split; [exact B0|reflexivity].
Qed.
Lemma leaf_good k m i (h : heap) : no_stop m -> live h i ->
  good_tr h (snd (trace_leaf k m i h)) (fst (trace_leaf k m i h)) (yvals (Leaf k m) (yth h i)).
Proof.
  intros W L. destruct (mul_live k m i h W L) as (r & E & B & Y). unfold trace_leaf. rewrite (wide_half m _ W), E. cbn [yvals].
  assert (live (h ++ [r]) (List.length h)) as L'.
  { split; [rewrite app_length; cbn; lia|]. now rewrite hget_new. }
  assert (yth (h ++ [r]) (List.length h) = ystep k m (yth h i)) as Y' by (rewrite <- Y; unfold yth; now rewrite hget_new).
  destruct (nltb c0 (mL m)); cbn [fst snd]; (split; [exists [r]; reflexivity|]); split.
  - constructor; [now apply live_app|]. now constructor.
  - cbn [map]. now rewrite Y', yth_app.
  - now constructor.
  - cbn [map]. now rewrite Y'.
Qed.
Lemma last_in {A} (l : list A) d : l <> [] -> In (List.last l d) l.
Proof. intros H. destruct (exists_last H) as (u & v & ->). rewrite last_last. apply in_app_iff. right. now left. Qed.
Lemma last_map_ne {A B} (f : A -> B) l d d' : l <> [] -> List.last (map f l) d' = f (List.last l d).
Proof. intros H. destruct (exists_last H) as (u & v & ->). rewrite map_app; cbn [map]; now rewrite !last_last. Qed.
Definition wide (e : elem) : Prop := Forall (fun km => no_stop (snd km)) (leaves e).
Lemma trace_good : forall (e : elem) i h, wide e -> live h i -> good_tr h (snd (trace e i h)) (fst (trace e i h)) (yvals e (yth h i)).
Proof.
  induction e as [k m|gk m es IH] using elem_ind'; intros i h W L.
  - inversion W; subst. now apply leaf_good.
  - rewrite trace_group, yvals_group. unfold wide in W. cbn [leaves] in W.
    assert (forall es, Forall (fun e => forall i h, wide e -> live h i -> good_tr h (snd (trace e i h)) (fst (trace e i h)) (yvals e (yth h i))) es ->
      Forall (fun km => no_stop (snd km)) (flat_map leaves es) ->
      forall i h acc v, live h i -> Forall (live h) acc -> map (yth h) acc = v ->
      good_tr h (snd (trace_loop es i acc h)) (fst (trace_loop es i acc h)) (v ++ yloop es (yth h i))) as K.
    { clear. induction es as [|x t IHt]; intros IH W i h acc v L A V.
      - cbn. rewrite app_nil_r. split; [exists []; now rewrite app_nil_r|]. now split.
      - inversion IH as [|? ? Hx IH']; subst. cbn [flat_map] in W. apply Forall_app in W as [W1 W2]. specialize (Hx i h W1 L).
        cbn [trace_loop yloop]. destruct (trace x i h) as [tr h1]. cbn [fst snd] in Hx. destruct Hx as (X1 & X2 & X3).
        assert (tr <> []) as NE by (intros ->; cbn in X3; symmetry in X3; now apply yvals_some in X3).
        assert (live h1 (List.last tr i)) as L1 by (rewrite Forall_forall in X2; apply X2; now apply last_in).
        specialize (IHt IH' W2 (List.last tr i) h1 (acc ++ tr) (map (yth h) acc ++ yvals x (yth h i)) L1).
        destruct IHt as (Y1 & Y2 & Y3).
        + apply Forall_app. split; [now apply (live_grow h)|exact X2].
        + rewrite map_app, X3. now rewrite (yth_grow h h1 acc X1 A).
        + split; [now apply (app_grow h h1)|]. split; [exact Y2|]. rewrite Y3, <- app_assoc. do 2 f_equal. f_equal.
          rewrite <- X3. now rewrite (last_map_ne (yth h1) tr i). }
    apply (K es IH W i h [i] [yth h i] L); [now constructor|reflexivity].
Qed.
Definition heights (l : list (@ray XR)) : list (XR * XR) := map (fun r => (ry r, rth r)) l.
Lemma heights_of_trace e (r : @ray XR) : wide e -> rblk r = false -> heights (trace_values e r) = yvals e (ry r, rth r).
Proof.
  intros W B. destruct (trace_good e 0 [r] W) as (_ & _ & K); [now split; [cbn; lia|]|]. unfold trace_values.
  destruct (trace e 0 [r]) as [tr h]. unfold heights. rewrite map_map. exact K.
Qed.

(** ** With the cache *)
Definition grows2 (w w' : world) : Prop := (exists a, wr w' = wr w ++ a) /\ (exists l, wl w' = wl w ++ l).
Lemma grows2_refl w : grows2 w w. Proof. split; exists []; now rewrite app_nil_r. Qed.
Lemma grows2_trans a b c : grows2 a b -> grows2 b c -> grows2 a c.
Proof. intros [[x E1] [y E2]] [[x' E3] [y' E4]]. split; [exists (x ++ x'); now rewrite E3, E1, app_assoc|exists (y ++ y'); now rewrite E4, E2, app_assoc]. Qed.
Lemma grows2_list w w' i : grows2 w w' -> i < List.length (wl w) -> lget w' i = lget w i /\ i < List.length (wl w').
Proof. intros [_ [x E]] H. unfold lget. rewrite E, app_length. split; [now rewrite app_nth1|lia]. Qed.
Definition lok (w : world) (x : light) : Prop := match x with LRay i => live (wr w) i | LBeam _ => True end.
Definition good (w : world) (x : light) (l : nat) (e : elem) : Prop :=
  l < List.length (wl w) /\
  match x with
  | LRay j => exists ids, lget w l = map LRay ids /\ Forall (live (wr w)) ids /\ map (yth (wr w)) ids = yvals e (yth (wr w) j)
  | LBeam _ => exists ids, lget w l = map LBeam ids
  end.
Lemma lok_grows w w' x : grows2 w w' -> lok w x -> lok w' x.
Proof. intros [[a E] _]. destruct x; [|auto]. cbn. rewrite E. apply live_app. Qed.
Lemma good_grows w w' x l e : grows2 w w' -> lok w x -> good w x l e -> good w' x l e.
Proof.
  intros G L [A B]. destruct (grows2_list w w' l G A) as [E H]. split; [exact H|]. rewrite E. destruct x as [j|j]; [|exact B].
  destruct B as (ids & B1 & B2 & B3). exists ids. split; [exact B1|]. destruct G as [G _]. split; [now apply (live_grow (wr w))|].
  rewrite (yth_grow (wr w) (wr w') ids G B2), B3. destruct G as [a ->]. now rewrite yth_app.
Qed.
Definition caches2 (s : mstore) (w : world) : Prop :=
  forall i gk m kids x l, nth_error s i = Some (MGroup gk m kids (Some (x, l))) -> lok w x /\ forall n e, mtree n s i = Some e -> good w x l e.
Lemma caches2_grow s w w' : grows2 w w' -> caches2 s w -> caches2 s w'.
Proof.
  intros G C i gk m kids x l E. destruct (C _ _ _ _ _ _ E) as [K1 K2]. split; [now apply (lok_grows w)|]. intros n e H. apply (good_grows w); eauto.
Qed.
(** no element of the store has an aperture *)
Definition wide_store (s : mstore) : Prop := forall i k m, nth_error s i = Some (MLeaf k m) -> no_stop m.
Lemma wide_shape s s' : shape s s' -> wide_store s -> wide_store s'.
Proof.
  intros S W i k m E. pose proof (shape_nth s s' i S) as K. rewrite E in K. cbn in K. destruct (nth_error s i) as [[k' m'|]|] eqn:F; cbn in K; try discriminate.
  injection K as -> ->. exact (W i k m F).
Qed.
Lemma new_list_good (w : world) tr : grows2 w (snd (new_list w tr)) /\ wr (snd (new_list w tr)) = wr w.
Proof. split; [|reflexivity]. split; [exists []; cbn; now rewrite app_nil_r|]. exists [tr]. reflexivity. Qed.
Definition outcome2 (s : mstore) (w : world) (x : light) (e : elem) (s' : mstore) (w' : world) (r : res nat) : Prop :=
  shape s s' /\ grows2 w w' /\ caches2 s' w' /\
  match r with Ok l => good w' x l e | Err _ => match x with LRay _ => False | LBeam _ => True end end.
Lemma leaf_outcome2 s k m x w : no_stop m -> caches2 s w -> lok w x ->
  outcome2 s w x (Leaf k m) s (fst (mleaf k m x w)) (snd (mleaf k m x w)).
Proof.
  intros W C L. split; [reflexivity|]. destruct x as [i|i]; cbn [mleaf].
  - destruct (leaf_good k m i (wr w) W L) as (A1 & A2 & A3). destruct (trace_leaf k m i (wr w)) as [tr h]. cbn [fst snd] in A1, A2, A3.
    set (w0 := mkWorld h (wb w) (wl w)). assert (grows2 w w0) as G0 by (split; [exact A1|exists []; cbn; now rewrite app_nil_r]).
    pose proof (new_list_good w0 (map LRay tr)) as [G1 R1]. pose proof (new_list_get w0 (map LRay tr)) as [E1 E2].
    destruct (new_list w0 (map LRay tr)) as [l w']. cbn [fst snd] in *. pose proof (grows2_trans _ _ _ G0 G1) as G. split; [exact G|].
    split; [now apply (caches2_grow s w)|]. split; [exact E2|]. exists tr. split; [exact E1|]. rewrite R1. cbn [wr w0]. split; [exact A2|]. rewrite A3.
    destruct A1 as [a ->]. now rewrite yth_app.
  - destruct (leaf_beam k m (bget w i)) as [b|er].
    + cbn [new_beam]. set (w1 := mkWorld (wr w) (wb w ++ [b]) (wl w)). assert (grows2 w w1) as G0 by (split; exists []; cbn; now rewrite app_nil_r).
      pose proof (new_list_good w1 [LBeam (List.length (wb w))]) as [G1 _]. pose proof (new_list_get w1 [LBeam (List.length (wb w))]) as [E1 E2].
      destruct (new_list w1 _) as [l w2]. cbn [fst snd] in *. pose proof (grows2_trans _ _ _ G0 G1) as G. split; [exact G|].
      split; [now apply (caches2_grow s w)|]. split; [exact E2|]. now exists [List.length (wb w)].
    + cbn [fst snd]. split; [apply grows2_refl|]. split; [exact C|exact I].
Qed.
Definition loop_outcome2 (s : mstore) (w : world) (cur : light) (acc : list light) (es : list elem) (s' : mstore) (w' : world) (r : res (list light)) : Prop :=
  shape s s' /\ grows2 w w' /\ caches2 s' w' /\
  match cur with
  | LRay j => match r with
              | Ok tr => exists ids, tr = acc ++ map LRay ids /\ Forall (live (wr w')) ids /\ map (yth (wr w')) ids = yloop es (yth (wr w) j)
              | Err _ => False
              end
  | LBeam _ => match r with Ok tr => exists ids, tr = acc ++ map LBeam ids | Err _ => True end
  end.
Lemma loop_ok2 n :
  (forall (s : mstore) i x w e, mtree n s i = Some e -> wide_store s -> caches2 s w -> lok w x ->
    match mtrace n s i x w with (s', w', r) => outcome2 s w x e s' w' r end) ->
  forall kids es (s : mstore) cur acc w, all_some (mtree n s) kids = Some es -> wide_store s -> caches2 s w -> lok w cur ->
  match mloop (mtrace n) s kids cur acc w with (s', w', r) => loop_outcome2 s w cur acc es s' w' r end.
Proof.
  intros IH. induction kids as [|i kids IHk]; intros es s cur acc w A W C L.
  - injection A as <-. cbn [mloop]. split; [reflexivity|]. split; [apply grows2_refl|]. split; [exact C|]. destruct cur as [r|b].
    + exists []. split; [now rewrite app_nil_r|]. split; [constructor|reflexivity].
    + exists []. cbn. now rewrite app_nil_r.
  - cbn [all_some] in A. destruct (mtree n s i) as [e|] eqn:Ei; [|discriminate]. destruct (all_some (mtree n s) kids) as [es'|] eqn:Ek; [|discriminate]. injection A as <-.
    cbn [mloop]. pose proof (IH s i cur w e Ei W C L) as O. destruct (mtrace n s i cur w) as [[s1 w1] [l|er]].
    2:{ destruct O as (O1 & O2 & O3 & O4). split; [exact O1|]. split; [exact O2|]. split; [exact O3|]. now destruct cur. }
    destruct O as (O1 & O2 & O3 & O4 & O5). rewrite (all_some_ext _ _ kids (shape_tree s s1 O1 n)) in Ek. pose proof (wide_shape _ _ O1 W) as W1. destruct cur as [r|b].
    + destruct O5 as (ids & G & F & K). rewrite G. assert (ids <> []) as NE by (intros ->; cbn in K; symmetry in K; now apply yvals_some in K).
      destruct ids as [|a t]; [contradiction|]. cbn [map]. change (LRay a :: map LRay t) with (map LRay (a :: t)). rewrite last_map. set (c := List.last (a :: t) r).
      assert (lok w1 (LRay c)) as Lc by (change (live (wr w1) c); rewrite Forall_forall in F; apply F; now apply last_in).
      specialize (IHk es' s1 (LRay c) (acc ++ map LRay (a :: t)) w1 Ek W1 O3 Lc). destruct (mloop _ s1 kids _ _ w1) as [[s2 w2] q]. destruct IHk as (P1 & P2 & P3 & P4).
      split; [eapply shape_trans; eauto|]. split; [eapply grows2_trans; eauto|]. split; [exact P3|]. destruct q as [tr|]; [|exact P4].
      destruct P4 as (ids & -> & F' & K'). exists ((a :: t) ++ ids). split; [now rewrite map_app, app_assoc|]. destruct P2 as [P2 _].
      split; [apply Forall_app; split; [now apply (live_grow (wr w1))|exact F']|].
      rewrite map_app, (yth_grow (wr w1) (wr w2) _ P2 F), K, K'. cbn [yloop].
      assert (yth (wr w1) r = yth (wr w) r) as Er by (destruct O2 as [[x ->] _]; now apply yth_app). assert (yth (wr w1) c = List.last (yvals e (yth (wr w) r)) (yth (wr w) r)) as Ec.
      { rewrite <- Er, <- K. symmetry. now apply (last_map_ne (yth (wr w1)) (a :: t) r). }
      now rewrite Er, Ec.
    + destruct O5 as (ids & G). rewrite G. destruct ids as [|a t]; cbn [map].
      { split; [exact O1|]. split; [exact O2|]. split; [exact O3|]. exact I. }
      change (LBeam a :: map LBeam t) with (map LBeam (a :: t)). rewrite last_map. set (c := List.last (a :: t) b).
      specialize (IHk es' s1 (LBeam c) (acc ++ map LBeam (a :: t)) w1 Ek W1 O3 I). destruct (mloop _ s1 kids _ _ w1) as [[s2 w2] q]. destruct IHk as (P1 & P2 & P3 & P4).
      split; [eapply shape_trans; eauto|]. split; [eapply grows2_trans; eauto|]. split; [exact P3|]. destruct q as [tr|]; [|exact P4].
      destruct P4 as (ids & ->). exists ((a :: t) ++ ids). now rewrite map_app, app_assoc.
Qed.
Lemma equal_yth (h : heap) i j : ray_eq (hget h i) (hget h j) = true -> yth h i = yth h j.
Proof. unfold ray_eq, yth. intros E. apply andb_true_iff in E as [E1 E2]. apply exact_xr in E1, E2. now rewrite E1, E2. Qed.
Theorem trace_ok2 : forall n (s : mstore) i x w e, mtree n s i = Some e -> wide_store s -> caches2 s w -> lok w x ->
  match mtrace n s i x w with (s', w', r) => outcome2 s w x e s' w' r end.
Proof.
  induction n as [|n IH]; intros s i x w e E W C L; [discriminate|]. pose proof E as E0. cbn [mtree mtrace] in E |- *. destruct (nth_error s i) as [[k m|gk m kids c]|] eqn:O; [..|discriminate].
  - injection E as <-. pose proof (leaf_outcome2 s k m x w (W i k m O) C L) as Q. destruct (mleaf k m x w) as [w' r]. exact Q.
  - destruct (all_some (mtree n s) kids) as [es|] eqn:A; [|discriminate]. injection E as <-. destruct (hit w x c) as [l|] eqn:H.
    + split; [reflexivity|]. split; [apply grows2_refl|]. split; [exact C|]. destruct c as [[y l']|]; [|discriminate].
      destruct (C _ _ _ _ _ _ O) as [K1 K2]. specialize (K2 (S n) _ E0). destruct y as [r|b], x as [r'|b']; cbn in H; try discriminate.
      * destruct (ray_eq _ _) eqn:Q; [|discriminate]. injection H as ->. apply equal_yth in Q. destruct K2 as [K2 K3]. split; [exact K2|]. now rewrite Q.
      * destruct (Nat.eqb b' b); [|discriminate]. injection H as ->. exact K2.
    + pose proof (loop_ok2 n IH kids es s x [x] w A W C L) as Q. destruct (mloop (mtrace n) s kids x [x] w) as [[s1 w1] [tr|er]].
      2:{ destruct Q as (Q1 & Q2 & Q3 & Q4). split; [exact Q1|]. split; [exact Q2|]. split; [exact Q3|]. now destruct x. }
      destruct Q as (Q1 & Q2 & Q3 & Q4). pose proof (new_list_good w1 tr) as [G1 R1]. pose proof (new_list_get w1 tr) as [G2 G3].
      destruct (new_list w1 tr) as [l w2]. cbn [fst snd] in *.
      assert (shape s (set_mcache s1 i x l)) as SH by (eapply shape_trans; [exact Q1|apply shape_cache]).
      assert (grows2 w w2) as GW by (eapply grows2_trans; eauto).
      assert (good w2 x l (Group gk m es)) as V.
      { split; [exact G3|]. destruct x as [r|b].
        - destruct Q4 as (ids & -> & F & K). exists (r :: ids). rewrite G2, R1. split; [reflexivity|].
          destruct Q2 as [Q2 _]. assert (live (wr w1) r) as Lr by (destruct Q2 as [a ->]; now apply live_app).
          assert (yth (wr w1) r = yth (wr w) r) as Er by (destruct Q2 as [a ->]; now apply yth_app).
          split; [now constructor|]. cbn [map]. now rewrite yvals_group, K, Er.
        - destruct Q4 as (ids & ->). exists (b :: ids). now rewrite G2. }
      split; [exact SH|]. split; [exact GW|]. split; [|exact V].
      intros j gk' m' kids' y l' Hj. pose proof (shape_cache s1 i x l) as SC. unfold set_mcache in Hj, SC |- *.
      destruct (nth_error s1 i) as [[k1 m1|gk1 m1 kids1 c1]|] eqn:O1.
      1, 3: exact (caches2_grow s1 w1 w2 G1 Q3 _ _ _ _ _ _ Hj).
      apply nth_set_nth in Hj as [[-> Hj]|Hj].
      * injection Hj as -> -> -> -> ->. split; [now apply (lok_grows w)|].
        intros n' e' He'. rewrite <- (shape_tree _ _ SC), <- (shape_tree _ _ Q1) in He'. now rewrite (tree_det _ _ _ _ _ _ He' E0).
      * destruct (caches2_grow s1 w1 w2 G1 Q3 _ _ _ _ _ _ Hj) as [K1 K2]. split; [exact K1|].
        intros n' e' He'. apply (K2 n'). now rewrite (shape_tree _ _ SC).
Qed.
Lemma session_ok2 n : forall calls (s : mstore) w, wide_store s -> caches2 s w -> Forall (fun c => lok w (snd c) /\ mtree n s (fst c) <> None) calls ->
  match msession n s w calls with (s', w', rs) =>
    grows2 w w' /\
    Forall2 (fun c r => forall j, snd c = LRay j -> exists e l, mtree n s (fst c) = Some e /\ r = Ok l /\ good w' (LRay j) l e) calls rs
  end.
Proof.
  induction calls as [|[i x] calls IH]; intros s w W C F; cbn [msession].
  - split; [apply grows2_refl|constructor].
  - inversion F as [|? ? [F1 F2] F3]; subst. cbn [fst snd] in *. destruct (mtree n s i) as [e|] eqn:E; [|contradiction].
    pose proof (trace_ok2 n s i x w e E W C F1) as O. destruct (mtrace n s i x w) as [[s1 w1] r]. destruct O as (O1 & O2 & O3 & O4).
    specialize (IH s1 w1 (wide_shape _ _ O1 W) O3). assert (Forall (fun c => lok w1 (snd c) /\ mtree n s1 (fst c) <> None) calls) as F'.
    { revert F3. apply Forall_impl. intros [j y] [H1 H2]. cbn [fst snd] in *. split; [now apply (lok_grows w)|now rewrite <- (shape_tree _ _ O1)]. }
    specialize (IH F'). destruct (msession n s1 w1 calls) as [[s2 w2] rs]. destruct IH as (I2 & I4).
    split; [eapply grows2_trans; eauto|]. constructor.
    + intros j Hj. cbn [snd] in Hj. subst x. destruct r as [l|]; [|contradiction]. exists e, l. split; [exact E|]. split; [reflexivity|].
      apply (good_grows w1); [exact I2|now apply (lok_grows w)|exact O4].
    + clear F F' F3. induction I4 as [|c r' cs rs' H1 H2 IH4]; constructor; [|exact IH4].
      intros j Hj. destruct (H1 j Hj) as (e' & l & E1 & E2). exists e', l. rewrite (shape_tree _ _ O1). auto.
Qed.
Lemma wide_tree (s : mstore) : wide_store s -> forall n i e, mtree n s i = Some e -> wide e.
Proof.
  intros W. induction n as [|n IH]; intros i e E; [discriminate|]. cbn [mtree] in E. destruct (nth_error s i) as [[k m|gk m kids c]|] eqn:O; [..|discriminate].
  - injection E as <-. constructor; [exact (W i k m O)|constructor].
  - destruct (all_some (mtree n s) kids) as [es|] eqn:A; [|discriminate]. injection E as <-. unfold wide. cbn [leaves]. clear O. revert es A.
    induction kids as [|j kids IHk]; intros es A; cbn [all_some] in A; [injection A as <-; constructor|].
    destruct (mtree n s j) as [x|] eqn:X; [|discriminate]. destruct (all_some (mtree n s) kids) as [es'|]; [|discriminate]. injection A as <-.
    cbn [flat_map]. apply Forall_app. split; [exact (IH j x X)|now apply IHk].
Qed.
Theorem rays_in_session n calls (s : mstore) (w : world) :
  (forall i gk m kids c, nth_error s i = Some (MGroup gk m kids c) -> c = None) ->
  (forall i k m, nth_error s i = Some (MLeaf k m) -> mdiam m = PInf /\ mna m = PInf) ->
  Forall (fun c => mtree n s (fst c) <> None /\ forall i, snd c = LRay i -> i < List.length (wr w) /\ rblk (hget (wr w) i) = false) calls ->
  exists s' w' rs, msession n s w calls = (s', w', rs) /\
  (forall i, i < List.length (wr w) -> hget (wr w') i = hget (wr w) i) /\
  Forall2 (fun c r => forall i, snd c = LRay i -> exists e l ids, mtree n s (fst c) = Some e /\ r = Ok l /\ lget w' l = map LRay ids /\
    map (fun j => (ry (hget (wr w') j), rth (hget (wr w') j))) ids = map (fun r => (ry r, rth r)) (trace_values e (hget (wr w) i)) /\
    Forall (fun j => rblk (hget (wr w') j) = false) ids) calls rs.
Proof.
  intros H W F. assert (caches2 s w) as C by (intros i gk m kids x l E; apply H in E; discriminate).
  assert (Forall (fun c => lok w (snd c) /\ mtree n s (fst c) <> None) calls) as F'.
  { revert F. apply Forall_impl. intros [i x] [H1 H2]. cbn [fst snd] in *. split; [|exact H1]. destruct x; [exact (H2 _ eq_refl)|exact I]. }
  pose proof (session_ok2 n calls s w W C F') as O. destruct (msession n s w calls) as [[s' w'] rs]. exists s', w', rs. split; [reflexivity|]. destruct O as [G K].
  destruct G as [[a Ga] _]. split; [intros i L; rewrite Ga; now apply hget_app|].
  clear F'. induction K as [|c r cs rs' K1 K2 IH]; constructor; [|apply IH; now inversion F].
  intros i Hi. destruct (K1 i Hi) as (e & l & E1 & E2 & _ & ids & G1 & G2 & G3). exists e, l, ids. split; [exact E1|]. split; [exact E2|]. split; [exact G1|].
  inversion F as [|? ? [_ F2] _]; subst. destruct (F2 i Hi) as [L B]. split.
  - fold (heights (trace_values e (hget (wr w) i))). rewrite (heights_of_trace e _ (wide_tree s W _ _ _ E1) B). fold (yth (wr w) i).
    rewrite <- (yth_app (wr w) a i (conj L B)), <- Ga. exact G3.
  - revert G2. apply Forall_impl. now intros j [_ J].
Qed.
