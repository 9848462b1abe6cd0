(** Gaussian beams traced through a path that is also traced with rays: the cache never spoils a beam. *)
From Coq Require Import ZArith List Bool String Lia.
From Verif Require Import Base Optics Store Beam MixedTrace.
Import ListNotations.
Open Scope list_scope.

Section Proofs.
Context {T : Type} {N : Num T}.
Local Notation mobj := (mobj T).
Local Notation mstore := (mstore T).
Local Notation world := (world T).
Local Notation elem := (@elem T).

(** the same objects, caches aside *)
Definition plain (o : mobj) : mobj := match o with MGroup gk m kids _ => MGroup gk m kids None | _ => o end.
Definition shape (s s' : mstore) : Prop := map plain s = map plain s'.
Lemma shape_nth s s' i : shape s s' -> option_map plain (nth_error s i) = option_map plain (nth_error s' i).
Proof. intros E. rewrite <- !nth_error_map. unfold shape in E. now rewrite E. Qed.
Lemma all_some_ext {A B} (f g : A -> option B) l : (forall x, f x = g x) -> all_some f l = all_some g l.
Proof. intros E. induction l as [|x l IH]; cbn; [reflexivity|]. now rewrite E, IH. Qed.
Lemma shape_tree s s' : shape s s' -> forall n i, mtree n s i = mtree n s' i.
Proof.
  intros E. induction n as [|n IH]; intros i; [reflexivity|]. cbn [mtree]. pose proof (shape_nth s s' i E) as K.
  destruct (nth_error s i) as [[k m|gk m kids c]|], (nth_error s' i) as [[k' m'|gk' m' kids' c']|]; cbn in K; try discriminate; try reflexivity.
  - injection K as -> ->. reflexivity.
  - injection K as -> -> ->. now rewrite (all_some_ext _ _ kids' (fun x => IH x)).
Qed.
Lemma all_some_det {A B} (f g : A -> option B) l a b : (forall x y z, f x = Some y -> g x = Some z -> y = z) -> all_some f l = Some a -> all_some g l = Some b -> a = b.
Proof.
  intros E. revert a b. induction l as [|x l IH]; cbn; intros a b; [congruence|].
  destruct (f x) eqn:F, (g x) eqn:G; try discriminate; destruct (all_some f l) eqn:F1; try discriminate; destruct (all_some g l) eqn:G1; try discriminate.
  intros H1 H2. injection H1 as <-. injection H2 as <-. f_equal; [eauto|]. now apply IH.
Qed.
Lemma tree_det : forall n n' (s : mstore) i e e', mtree n s i = Some e -> mtree n' s i = Some e' -> e = e'.
Proof.
  induction n as [|n IH]; intros [|n'] s i e e'; cbn [mtree]; try discriminate.
  destruct (nth_error s i) as [[k m|gk m kids c]|]; try discriminate; [congruence|].
  destruct (all_some (mtree n s) kids) eqn:A; [|discriminate]. destruct (all_some (mtree n' s) kids) eqn:B; [|discriminate].
  intros H1 H2. injection H1 as <-. injection H2 as <-. f_equal. eapply all_some_det; eauto. 
Qed.
Lemma set_nth_map {A B} (f : A -> B) i x l : map f (set_nth i x l) = set_nth i (f x) (map f l).
Proof. revert i. induction l as [|a l IH]; intros [|i]; cbn; congruence. Qed.
Lemma set_nth_same {A} i (x : A) l : nth_error l i = Some x -> set_nth i x l = l.
Proof. revert i. induction l as [|a l IH]; intros [|i] H; cbn in *; try discriminate; [congruence|]. f_equal. auto. Qed.
Lemma shape_cache (s : mstore) i x l : shape s (set_mcache s i x l).
Proof.
  unfold set_mcache, shape. destruct (nth_error s i) as [[k m|gk m kids c]|] eqn:E; try reflexivity. rewrite set_nth_map. symmetry. apply set_nth_same.
  rewrite nth_error_map, E. reflexivity.
Qed.
Lemma shape_trans a b c : shape a b -> shape b c -> shape a c. Proof. unfold shape. congruence. Qed.

(** worlds only grow: beams and lists stay as they are *)
Definition grows (w w' : world) : Prop := (exists b, wb w' = wb w ++ b) /\ (exists l, wl w' = wl w ++ l).
Lemma grows_refl w : grows w w. Proof. split; exists []; now rewrite app_nil_r. Qed.
Lemma grows_trans a b c : grows a b -> grows b c -> grows a c.
Proof.
  intros [[x E1] [y E2]] [[x' E3] [y' E4]]. split; [exists (x ++ x')|exists (y ++ y')].
  - now rewrite E3, E1, app_assoc.
  - now rewrite E4, E2, app_assoc.
Qed.
Lemma grows_beam w w' i : grows w w' -> i < List.length (wb w) -> bget w' i = bget w i.
Proof. intros [[x E] _] H. unfold bget. rewrite E. now rewrite app_nth1. Qed.
Lemma grows_list w w' i : grows w w' -> i < List.length (wl w) -> lget w' i = lget w i.
Proof. intros [_ [x E]] H. unfold lget. rewrite E. now rewrite app_nth1. Qed.
Lemma grows_len w w' : grows w w' -> List.length (wb w) <= List.length (wb w') /\ List.length (wl w) <= List.length (wl w').
Proof. intros [[x E] [y E']]. rewrite E, E', !app_length. lia. Qed.

(** the list [l] of the world [w] is the trace of the beam [b] through [e] *)
Definition shows (w : world) (l b : nat) (e : elem) : Prop :=
  l < List.length (wl w) /\ exists ids, lget w l = map LBeam ids /\ Forall (fun j => j < List.length (wb w)) ids /\ beam_trace e (bget w b) = Ok (map (bget w) ids).
Definition rays_only (l : list light) : Prop := Forall (fun x => match x with LRay _ => True | LBeam _ => False end) l.
Definition entry_ok (s : mstore) (w : world) (i : nat) (x : light) (l : nat) : Prop :=
  match x with
  | LBeam b => b < List.length (wb w) /\ forall n e, mtree n s i = Some e -> shows w l b e
  | LRay _ => l < List.length (wl w) /\ rays_only (lget w l)
  end.
Definition caches_ok (s : mstore) (w : world) : Prop :=
  forall i gk m kids x l, nth_error s i = Some (MGroup gk m kids (Some (x, l))) -> entry_ok s w i x l.
Definition light_ok (w : world) (x : light) : Prop := match x with LBeam b => b < List.length (wb w) | LRay _ => True end.
Lemma map_grows w w' ids : grows w w' -> Forall (fun j => j < List.length (wb w)) ids -> map (bget w') ids = map (bget w) ids.
Proof. intros G F. apply map_ext_in. intros a Ha. rewrite Forall_forall in F. now apply grows_beam; auto. Qed.
Lemma bound_grows w w' ids : grows w w' -> Forall (fun j => j < List.length (wb w)) ids -> Forall (fun j => j < List.length (wb w')) ids.
Proof. intros G. apply grows_len in G. apply Forall_impl. lia. Qed.
Lemma shows_grows w w' l b e : grows w w' -> b < List.length (wb w) -> shows w l b e -> shows w' l b e.
Proof.
  intros G B (L & ids & E & F & K). pose proof (grows_len _ _ G) as [G1 G2]. split; [lia|]. exists ids. rewrite (grows_list _ _ _ G L). split; [exact E|].
  split; [now apply (bound_grows w)|]. rewrite (grows_beam _ _ _ G B), K. f_equal. symmetry. now apply map_grows.
Qed.
Lemma caches_grow s s' w w' : grows w w' -> s = s' -> caches_ok s w -> caches_ok s' w'.
Proof.
  intros G <- C i gk m kids x l E. pose proof (C _ _ _ _ _ _ E) as K. unfold entry_ok in *. pose proof (grows_len _ _ G) as [G1 G2]. destruct x as [r|b].
  - destruct K as [K1 K2]. split; [lia|]. now rewrite (grows_list _ _ _ G K1).
  - destruct K as [K1 K2]. split; [lia|]. intros n e Hn. apply (shows_grows w); auto. eauto.
Qed.
Lemma new_list_grows (w : world) l : grows w (snd (new_list w l)).
Proof. split; [exists []; cbn; now rewrite app_nil_r|]. exists [l]. reflexivity. Qed.
Lemma new_list_get (w : world) l : lget (snd (new_list w l)) (fst (new_list w l)) = l /\ fst (new_list w l) < List.length (wl (snd (new_list w l))).
Proof. cbn. unfold lget. cbn. rewrite app_nth2, Nat.sub_diag by lia. split; [reflexivity|]. rewrite app_length. cbn. lia. Qed.

(** what a call of trace() does *)
Definition outcome (s : mstore) (w : world) (x : light) (e : elem) (s' : mstore) (w' : world) (r : res nat) : Prop :=
  shape s s' /\ grows w w' /\ caches_ok s' w' /\
  match x with
  | LBeam b => match r with Ok l => shows w' l b e | Err er => beam_trace e (bget w b) = Err er end
  | LRay _ => match r with Ok l => l < List.length (wl w') /\ rays_only (lget w' l) | Err _ => True end
  end.
Lemma leaf_outcome s k m x w : caches_ok s w -> light_ok w x ->
  outcome s w x (Leaf k m) s (fst (mleaf k m x w)) (snd (mleaf k m x w)).
Proof.
  intros C L. unfold outcome. split; [reflexivity|]. destruct x as [i|i]; cbn [mleaf].
  - destruct (trace_leaf k m i (wr w)) as [tr h]. set (w0 := mkWorld h (wb w) (wl w)).
    assert (grows w w0) as G0 by (split; exists []; cbn; now rewrite app_nil_r). pose proof (new_list_grows w0 (map LRay tr)) as G1.
    pose proof (new_list_get w0 (map LRay tr)) as [E1 E2]. destruct (new_list w0 (map LRay tr)) as [l w']. cbn [fst snd] in *.
    pose proof (grows_trans _ _ _ G0 G1) as G. split; [exact G|]. split; [now apply (caches_grow s s w)|]. split; [exact E2|]. rewrite E1.
    unfold rays_only. apply Forall_map. now apply Forall_forall.
  - destruct (leaf_beam k m (bget w i)) as [b|er] eqn:B.
    + cbn [new_beam]. set (w1 := mkWorld (wr w) (wb w ++ [b]) (wl w)). assert (grows w w1) as G0 by (split; [exists [b]; reflexivity|exists []; cbn; now rewrite app_nil_r]).
      pose proof (new_list_grows w1 [LBeam (List.length (wb w))]) as G1. pose proof (new_list_get w1 [LBeam (List.length (wb w))]) as [E1 E2].
      destruct (new_list w1 _) as [l w2] eqn:W. cbn [fst snd] in *. pose proof (grows_trans _ _ _ G0 G1) as G. split; [exact G|].
      split; [now apply (caches_grow s s w)|]. cbn in L. split; [exact E2|]. exists [List.length (wb w)]. split; [exact E1|].
      injection W as W1 <-. split; [constructor; [cbn; rewrite app_length; cbn; lia|constructor]|].
      rewrite (grows_beam _ _ _ G L). cbn [beam_trace]. rewrite B. cbn [bind map]. do 2 f_equal. unfold bget. cbn. now rewrite app_nth2, Nat.sub_diag by lia.
    + cbn [fst snd]. split; [apply grows_refl|]. split; [exact C|]. cbn [beam_trace]. now rewrite B.
Qed.
Lemma beam_trace_nonempty (e : elem) b l : beam_trace e b = Ok l -> l <> [].
Proof.
  destruct e as [k m|g m es]; cbn [beam_trace].
  - destruct (leaf_beam k m b); [|discriminate]. cbn. intros E. now injection E as <-.
  - destruct (trace_elems beam_trace es b); [|discriminate]. cbn. intros E. now injection E as <-.
Qed.
Definition loop_outcome (s : mstore) (w : world) (cur : light) (acc : list light) (es : list elem) (s' : mstore) (w' : world) (r : res (list light)) : Prop :=
  shape s s' /\ grows w w' /\ caches_ok s' w' /\
  match cur with
  | LBeam b => match r with
               | Ok tr => exists ids, tr = acc ++ map LBeam ids /\ Forall (fun j => j < List.length (wb w')) ids /\ trace_elems beam_trace es (bget w b) = Ok (map (bget w') ids)
               | Err er => trace_elems beam_trace es (bget w b) = Err er
               end
  | LRay _ => match r with Ok tr => exists l, tr = acc ++ l /\ rays_only l | Err _ => True end
  end.
Lemma last_map {A B} (f : A -> B) l d : last (map f l) (f d) = f (last l d).
Proof. induction l as [|a l IH]; [reflexivity|]. destruct l; [reflexivity|]. exact IH. Qed.
Lemma loop_ok n :
  (forall (s : mstore) i x w e, mtree n s i = Some e -> caches_ok s w -> light_ok w x ->
    match mtrace n s i x w with (s', w', r) => outcome s w x e s' w' r end) ->
  forall kids es (s : mstore) cur acc w, all_some (mtree n s) kids = Some es -> caches_ok s w -> light_ok w cur ->
  match mloop (mtrace n) s kids cur acc w with (s', w', r) => loop_outcome s w cur acc es s' w' r end.
Proof.
  intros IH. induction kids as [|i kids IHk]; intros es s cur acc w A C L.
  - injection A as <-. cbn [mloop]. split; [reflexivity|]. split; [apply grows_refl|]. split; [exact C|]. destruct cur as [r|b].
    + exists []. split; [now rewrite app_nil_r|constructor].
    + exists []. split; [cbn; now rewrite app_nil_r|]. split; [constructor|reflexivity].
  - cbn [all_some] in A. destruct (mtree n s i) as [e|] eqn:Ei; [|discriminate]. destruct (all_some (mtree n s) kids) as [es'|] eqn:Ek; [|discriminate]. injection A as <-.
    cbn [mloop]. pose proof (IH s i cur w e Ei C L) as O. destruct (mtrace n s i cur w) as [[s1 w1] [l|er]].
    2:{ destruct O as (O1 & O2 & O3 & O4). split; [exact O1|]. split; [exact O2|]. split; [exact O3|]. destruct cur; [exact I|]. cbn [trace_elems]. now rewrite O4. }
    destruct O as (O1 & O2 & O3 & O4). rewrite (all_some_ext _ _ kids (shape_tree s s1 O1 n)) in Ek. destruct cur as [r|b].
    + destruct O4 as [O4 O5]. destruct (lget w1 l) as [|a t] eqn:G.
      { split; [exact O1|]. split; [exact O2|]. split; [exact O3|]. exact I. }
      assert (exists r', last (a :: t) (LRay r) = LRay r') as [r' ->].
      { assert (In (last (a :: t) (LRay r)) (a :: t)) as H.
        { destruct (exists_last (l := a :: t) ltac:(discriminate)) as (u & v & ->). rewrite last_last. apply in_app_iff. right. now left. }
        unfold rays_only in O5. rewrite Forall_forall in O5. specialize (O5 _ H). destruct (last (a :: t) (LRay r)); [eauto|contradiction]. }
      specialize (IHk es' s1 (LRay r') (acc ++ a :: t) w1 Ek O3 I). destruct (mloop _ s1 kids _ _ w1) as [[s2 w2] q]. destruct IHk as (P1 & P2 & P3 & P4).
      split; [eapply shape_trans; eauto|]. split; [eapply grows_trans; eauto|]. split; [exact P3|]. destruct q as [tr|]; [|exact I].
      destruct P4 as (l' & -> & R). exists ((a :: t) ++ l'). split; [now rewrite app_assoc|]. now apply Forall_app.
    + destruct O4 as (O4 & ids & G & F & K). rewrite G. cbn in L. rewrite (grows_beam _ _ _ O2 L) in K. pose proof (beam_trace_nonempty _ _ _ K) as NE.
      destruct ids as [|a t]; [contradiction|]. cbn [map].
      change (LBeam a :: map LBeam t) with (map LBeam (a :: t)). rewrite last_map. set (c := last (a :: t) b).
      assert (In c (a :: t)) as H.
      { unfold c. destruct (exists_last (l := a :: t) ltac:(discriminate)) as (u & v & ->). rewrite last_last. apply in_app_iff. right. now left. }
      assert (c < List.length (wb w1)) as Lc by (rewrite Forall_forall in F; now apply F).
      specialize (IHk es' s1 (LBeam c) (acc ++ map LBeam (a :: t)) w1 Ek O3 Lc). destruct (mloop _ s1 kids _ _ w1) as [[s2 w2] q]. destruct IHk as (P1 & P2 & P3 & P4).
      split; [eapply shape_trans; eauto|]. split; [eapply grows_trans; eauto|]. split; [exact P3|].
      assert (bget w1 c = last (map (bget w1) (a :: t)) (bget w b)) as Ec.
      { rewrite <- (grows_beam _ _ _ O2 L), last_map. reflexivity. }
      rewrite Ec in P4. destruct q as [tr|er]; cbn [trace_elems]; rewrite K; cbn [bind].
      * destruct P4 as (ids & -> & F' & K'). exists ((a :: t) ++ ids). split; [now rewrite map_app, app_assoc|].
        split; [apply Forall_app; split; [now apply (bound_grows w1)|exact F']|]. rewrite K'. cbn [bind]. rewrite map_app. now rewrite (map_grows w1 w2 _ P2 F).
      * now rewrite P4.
Qed.
Lemma nth_set_nth {A} i j (x : A) l y : nth_error (set_nth i x l) j = Some y -> (i = j /\ y = x) \/ (nth_error l j = Some y).
Proof.
  revert i j. induction l as [|a l IH]; intros [|i] [|j] H; cbn in *; try discriminate; auto.
  - left. split; [reflexivity|congruence].
  - destruct (IH _ _ H) as [[-> ->]|H']; auto.
Qed.
Theorem trace_ok : forall n (s : mstore) i x w e, mtree n s i = Some e -> caches_ok s w -> light_ok w x ->
  match mtrace n s i x w with (s', w', r) => outcome s w x e s' w' r end.
Proof.
  induction n as [|n IH]; intros s i x w e E C L; [discriminate|]. pose proof E as E0. cbn [mtree mtrace] in E |- *. destruct (nth_error s i) as [[k m|gk m kids c]|] eqn:O; [..|discriminate].
  - injection E as <-. pose proof (leaf_outcome s k m x w C L) as Q. destruct (mleaf k m x w) as [w' r]. exact Q.
  - destruct (all_some (mtree n s) kids) as [es|] eqn:A; [|discriminate]. injection E as <-. destruct (hit w x c) as [l|] eqn:H.
    + split; [reflexivity|]. split; [apply grows_refl|]. split; [exact C|]. destruct c as [[y l']|]; [|discriminate].
      pose proof (C _ _ _ _ _ _ O) as K. destruct y as [r|b], x as [r'|b']; cbn in H; try discriminate.
      * destruct (ray_eq _ _); [|discriminate]. injection H as ->. exact K.
      * destruct (Nat.eqb b' b) eqn:B; [|discriminate]. apply Nat.eqb_eq in B. subst b'. injection H as ->. destruct K as [_ K]. exact (K (S n) _ E0).
    + pose proof (loop_ok n IH kids es s x [x] w A C L) as Q. destruct (mloop (mtrace n) s kids x [x] w) as [[s1 w1] [tr|er]].
      2:{ destruct Q as (Q1 & Q2 & Q3 & Q4). split; [exact Q1|]. split; [exact Q2|]. split; [exact Q3|]. destruct x; [exact I|]. cbn [beam_trace]. now rewrite Q4. }
      destruct Q as (Q1 & Q2 & Q3 & Q4). pose proof (new_list_grows w1 tr) as G1. pose proof (new_list_get w1 tr) as [G2 G3].
      destruct (new_list w1 tr) as [l w2]. cbn [fst snd] in *.
      assert (shape s (set_mcache s1 i x l)) as SH by (eapply shape_trans; [exact Q1|apply shape_cache]).
      assert (grows w w2) as GW by (eapply grows_trans; eauto).
      assert (match x with LBeam b => shows w2 l b (Group gk m es) | LRay _ => l < List.length (wl w2) /\ rays_only (lget w2 l) end) as V.
      { destruct x as [r|b].
        - destruct Q4 as (t & -> & R). split; [exact G3|]. rewrite G2. constructor; [exact I|exact R].
        - destruct Q4 as (ids & -> & F & K). cbn in L. split; [exact G3|]. exists (b :: ids). rewrite G2. split; [reflexivity|].
          pose proof (grows_len _ _ GW) as [GL _]. split; [constructor; [lia|now apply (bound_grows w1)]|].
          cbn [beam_trace]. rewrite (grows_beam _ _ _ GW L), K. cbn [bind map]. rewrite (grows_beam _ _ _ GW L). do 2 f_equal. symmetry. now apply map_grows. }
      split; [exact SH|]. split; [exact GW|]. split; [|destruct x; exact V].
      intros j gk' m' kids' y l' Hj. pose proof (shape_cache s1 i x l) as SC. unfold set_mcache in Hj, SC |- *.
      destruct (nth_error s1 i) as [[k1 m1|gk1 m1 kids1 c1]|] eqn:O1.
      1, 3: exact (caches_grow s1 s1 w1 w2 G1 eq_refl Q3 _ _ _ _ _ _ Hj).
      apply nth_set_nth in Hj as [[-> Hj]|Hj].
      * injection Hj as -> -> -> -> ->. unfold entry_ok. destruct x as [r|b]; [exact V|]. cbn in L. pose proof (grows_len _ _ GW) as [GL _]. split; [lia|].
        intros n' e' He'. rewrite <- (shape_tree _ _ SC), <- (shape_tree _ _ Q1) in He'. now rewrite (tree_det _ _ _ _ _ _ He' E0).
      * pose proof (caches_grow s1 s1 w1 w2 G1 eq_refl Q3 _ _ _ _ _ _ Hj) as K. unfold entry_ok in *. destruct y; [exact K|]. destruct K as [K1 K2]. split; [exact K1|].
        intros n' e' He'. apply (K2 n'). now rewrite (shape_tree _ _ SC).
Qed.

(** a whole session, looked at when it is over *)
Lemma session_ok n : forall calls (s : mstore) w, caches_ok s w -> Forall (fun c => light_ok w (snd c) /\ mtree n s (fst c) <> None) calls ->
  match msession n s w calls with (s', w', rs) =>
    shape s s' /\ grows w w' /\ caches_ok s' w' /\
    Forall2 (fun c r => forall b, snd c = LBeam b -> exists e, mtree n s (fst c) = Some e /\
      match r with Ok l => shows w' l b e | Err er => beam_trace e (bget w b) = Err er end) calls rs
  end.
Proof.
  induction calls as [|[i x] calls IH]; intros s w C F; cbn [msession].
  - split; [reflexivity|]. split; [apply grows_refl|]. split; [exact C|constructor].
  - inversion F as [|? ? [F1 F2] F3]; subst. cbn [fst snd] in *. destruct (mtree n s i) as [e|] eqn:E; [|contradiction].
    pose proof (trace_ok n s i x w e E C F1) as O. destruct (mtrace n s i x w) as [[s1 w1] r]. destruct O as (O1 & O2 & O3 & O4).
    specialize (IH s1 w1 O3). assert (Forall (fun c => light_ok w1 (snd c) /\ mtree n s1 (fst c) <> None) calls) as F'.
    { revert F3. apply Forall_impl. intros [j y] [H1 H2]. cbn [fst snd] in *. split; [|now rewrite <- (shape_tree _ _ O1)].
      destruct y; [exact I|]. cbn in *. pose proof (grows_len _ _ O2). lia. }
    specialize (IH F'). destruct (msession n s1 w1 calls) as [[s2 w2] rs]. destruct IH as (I1 & I2 & I3 & I4).
    split; [eapply shape_trans; eauto|]. split; [eapply grows_trans; eauto|]. split; [exact I3|]. constructor.
    + intros b Hb. cbn [snd] in Hb. subst x. exists e. split; [exact E|]. destruct r as [l|er]; [|exact O4]. cbn in F1. pose proof (grows_len _ _ O2).
      apply (shows_grows w1); [exact I2|lia|exact O4].
    + assert (Forall (fun c => light_ok w (snd c)) calls) as FB by (revert F3; apply Forall_impl; tauto). clear F F' F3. revert FB.
      induction I4 as [|c r' cs rs' H1 H2 IH4]; intros FB; constructor.
      * intros b Hb. destruct (H1 b Hb) as (e' & E1 & E2). exists e'. rewrite (shape_tree _ _ O1). split; [exact E1|]. destruct r'; [exact E2|].
        inversion FB as [|? ? FB1 FB2]; subst. rewrite Hb in FB1. cbn in FB1. now rewrite <- (grows_beam _ _ _ O2 FB1).
      * apply IH4. now inversion FB.
Qed.
Lemma fresh_ok (s : mstore) w : (forall i gk m kids c, nth_error s i = Some (MGroup gk m kids c) -> c = None) -> caches_ok s w.
Proof. intros H i gk m kids x l E. apply H in E. discriminate. Qed.
Lemma calls_ok n (s : mstore) (w : world) calls :
  Forall (fun c => mtree n s (fst c) <> None /\ forall b, snd c = LBeam b -> b < List.length (wb w)) calls ->
  Forall (fun c => light_ok w (snd c) /\ mtree n s (fst c) <> None) calls.
Proof. apply Forall_impl. intros [i x] [H1 H2]. cbn [fst snd] in *. split; [|exact H1]. destruct x; [exact I|]. now apply H2. Qed.
Theorem beams_in_session n calls (s : mstore) (w : world) :
  (forall i gk m kids c, nth_error s i = Some (MGroup gk m kids c) -> c = None) ->
  Forall (fun c => mtree n s (fst c) <> None /\ forall b, snd c = LBeam b -> b < List.length (wb w)) calls ->
  exists s' w' rs, msession n s w calls = (s', w', rs) /\
  Forall2 (fun c r => forall b, snd c = LBeam b -> exists e, mtree n s (fst c) = Some e /\
    match r with
    | Ok l => exists ids, lget w' l = map LBeam ids /\ beam_trace e (bget w b) = Ok (map (bget w') ids)
    | Err er => beam_trace e (bget w b) = Err er
    end) calls rs.
Proof.
  intros H F. pose proof (session_ok n calls s w (fresh_ok s w H) (calls_ok n s w calls F)) as O. destruct (msession n s w calls) as [[s' w'] rs].
  exists s', w', rs. split; [reflexivity|]. destruct O as (_ & G & _ & K). induction K as [|c r cs rs' K1 K2 IH]; constructor.
  - intros b Hb. destruct (K1 b Hb) as (e & E & V). exists e. split; [exact E|]. destruct r as [l|]; [|exact V]. destruct V as (_ & ids & V1 & _ & V2). exists ids. split; [exact V1|].
    inversion F as [|? ? [_ FB] _]; subst. now rewrite (grows_beam _ _ _ G (FB b Hb)) in V2.
  - apply IH. now inversion F.
Qed.
Theorem session_frame n calls (s : mstore) (w : world) :
  (forall i gk m kids c, nth_error s i = Some (MGroup gk m kids c) -> c = None) ->
  Forall (fun c => mtree n s (fst c) <> None /\ forall b, snd c = LBeam b -> b < List.length (wb w)) calls ->
  exists s' w' rs, msession n s w calls = (s', w', rs) /\
  (forall b, b < List.length (wb w) -> bget w' b = bget w b) /\ (forall l, l < List.length (wl w) -> lget w' l = lget w l).
Proof.
  intros H F. pose proof (session_ok n calls s w (fresh_ok s w H) (calls_ok n s w calls F)) as O. destruct (msession n s w calls) as [[s' w'] rs].
  exists s', w', rs. split; [reflexivity|]. destruct O as (_ & G & _). split; intros; [now apply grows_beam|now apply grows_list].
Qed.
End Proofs.
