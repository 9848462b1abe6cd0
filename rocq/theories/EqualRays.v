(** Rays that compare equal are traced alike, unless one of them was blocked before. *)
From Coq Require Import Reals Lra List Bool String Lia.
From Verif Require Import Base Nums Optics TraceProofs EqualProofs.
Import ListNotations.
Open Scope list_scope.

Section Alike.
Context {T : Type} {N : Num T}.
(** same height, same angle, blocked alike; the position along the axis and the wavelength may differ *)
Definition alike (r r' : @ray T) : Prop := ry r = ry r' /\ rth r = rth r' /\ rblk r = rblk r'.
Lemma alike_refl r : alike r r. Proof. repeat split. Qed.
Lemma hget_alike (h h' : @heap T) i : Forall2 alike h h' -> alike (hget h i) (hget h' i).
Proof.
  intros H. revert i. induction H as [|r r' h h' Hr Hh IH]; intros i; unfold hget in *; [destruct i; apply alike_refl|].
  destruct i; [exact Hr|apply IH].
Qed.
Lemma set_nth_alike (h h' : @heap T) i r r' : Forall2 alike h h' -> alike r r' -> Forall2 alike (set_nth i r h) (set_nth i r' h').
Proof.
  intros H Hr. revert i. induction H as [|a a' h h' Ha Hh IH]; intros i; [destruct i; constructor|].
  destruct i; cbn; constructor; auto.
Qed.
Lemma new_alike m r r' : alike r r' -> alike (mul_ray_new m r) (mul_ray_new m r').
Proof. intros (H1 & H2 & H3). unfold mul_ray_new, alike. cbn. now rewrite H1, H2, H3. Qed.
Lemma th_alike r r' t : alike r r' -> alike (set_th r t) (set_th r' t).
Proof. intros (H1 & H2 & H3). repeat split; auto. Qed.
Lemma blk_alike r r' : alike r r' -> alike (set_blk r) (set_blk r').
Proof. intros (H1 & H2 & H3). repeat split; auto. Qed.
Lemma base_alike m i (h h' : @heap T) : Forall2 alike h h' ->
  fst (mul_ray_base m i h) = fst (mul_ray_base m i h') /\ Forall2 alike (snd (mul_ray_base m i h)) (snd (mul_ray_base m i h')).
Proof.
  intros H. unfold mul_ray_base. pose proof (hget_alike h h' i H) as A. destruct A as (A1 & A2 & A3). rewrite A3.
  destruct (rblk (hget h' i)); [now split|]. unfold halloc. cbn [fst snd]. split; [clear - H; induction H; cbn; congruence|].
  apply Forall2_app; [exact H|]. constructor; [|constructor]. apply new_alike. now apply hget_alike.
Qed.
Lemma mul_alike k m i (h h' : @heap T) : Forall2 alike h h' ->
  fst (mul_ray k m i h) = fst (mul_ray k m i h') /\ Forall2 alike (snd (mul_ray k m i h)) (snd (mul_ray k m i h')).
Proof.
  intros H. pose proof (base_alike m i h h' H) as [E1 E2]. unfold mul_ray. destruct (mul_ray_base m i h) as [o h1], (mul_ray_base m i h') as [o' h1'].
  cbn [fst snd] in *. subst o'. destruct k; cbn [fst snd]; auto. split; [reflexivity|]. apply set_nth_alike; [exact E2|].
  pose proof (hget_alike h h' i H) as (-> & _ & _). pose proof (hget_alike h1 h1' o E2) as B. destruct B as (B1 & B2 & B3). rewrite B2.
  apply th_alike. repeat split; auto.
Qed.
Lemma leaf_alike k m i (h h' : @heap T) : Forall2 alike h h' ->
  fst (trace_leaf k m i h) = fst (trace_leaf k m i h') /\ Forall2 alike (snd (trace_leaf k m i h)) (snd (trace_leaf k m i h')).
Proof.
  intros H. unfold trace_leaf. destruct (nltb c0 (mL m)).
  - set (g := if nltb (ndiv (mdiam m) c2) (nabs (ry (hget h i))) then hset h i (set_blk (hget h i)) else h).
    set (g' := if nltb (ndiv (mdiam m) c2) (nabs (ry (hget h' i))) then hset h' i (set_blk (hget h' i)) else h').
    assert (G : Forall2 alike g g').
    { unfold g, g'. pose proof (hget_alike h h' i H) as A. rewrite (proj1 A). destruct (nltb (ndiv (mdiam m) c2) (nabs (ry (hget h' i)))); [|exact H].
      apply set_nth_alike; [exact H|]. now apply blk_alike. }
    pose proof (mul_alike k m i g g' G) as [E1 E2]. destruct (mul_ray k m i g), (mul_ray k m i g'). cbn [fst snd] in *. now subst.
  - pose proof (mul_alike k m i h h' H) as [E1 E2]. destruct (mul_ray k m i h), (mul_ray k m i h'). cbn [fst snd] in *. now subst.
Qed.
Lemma trace_alike : forall (e : @elem T) i h h', Forall2 alike h h' ->
  fst (trace e i h) = fst (trace e i h') /\ Forall2 alike (snd (trace e i h)) (snd (trace e i h')).
Proof.
  fix IH 1. intros [k m|g m es] i h h' H; [now apply leaf_alike|]. cbn [trace]. generalize [i] as acc. revert i h h' H.
  induction es as [|x es IHes]; intros i h h' H acc; [now split|].
  pose proof (IH x i h h' H) as [E1 E2]. destruct (trace x i h) as [tr h1], (trace x i h') as [tr' h1']. cbn [fst snd] in E1, E2. subst tr'.
  apply IHes. exact E2.
Qed.
Theorem traced_alike (e : @elem T) r r' : alike r r' ->
  Forall2 alike (trace_values e r) (trace_values e r') /\ alike (traceThrough e r) (traceThrough e r').
Proof.
  intros H. pose proof (trace_alike e 0 [r] [r'] ltac:(constructor; [exact H|constructor])) as [E1 E2]. unfold trace_values, traceThrough.
  destruct (trace e 0 [r]) as [tr h], (trace e 0 [r']) as [tr' h']. cbn [fst snd] in *. subst tr'. split; [|now apply hget_alike].
  induction tr as [|i tr IH]; cbn [map]; constructor; [now apply hget_alike|exact IH].
Qed.
End Alike.

(** == of rays of real numbers *)
Lemma ray_eqb_true (r r' : @ray XR) : ray_eqb r r' = true -> ry r = ry r' /\ rth r = rth r'.
Proof.
  unfold ray_eqb. destruct (neqb (ry r) (ry r')) eqn:E1; cbn [negb]; [|discriminate]. destruct (neqb (rth r) (rth r')) eqn:E2; [|discriminate].
  intros _. split; now apply xeqb_true.
Qed.
Theorem equal_traced (e : @elem XR) (r r' : @ray XR) : ray_eqb r r' = true -> rblk r = rblk r' ->
  Forall2 (fun a b => ry a = ry b /\ rth a = rth b /\ rblk a = rblk b) (trace_values e r) (trace_values e r') /\
  (let o := traceThrough e r in let o' := traceThrough e r' in ry o = ry o' /\ rth o = rth o' /\ rblk o = rblk o').
Proof. intros E B. apply ray_eqb_true in E as [E1 E2]. apply traced_alike. repeat split; auto. Qed.
Lemma ray_eqb_sym (r r' : @ray XR) : ray_eqb r r' = ray_eqb r' r.
Proof.
  assert (S : forall a b : XR, neqb a b = neqb b a).
  { intros a b. destruct (neqb a b) eqn:E.
    - pose proof (xeqb_true _ _ E) as ->. now rewrite E.
    - destruct (neqb b a) eqn:E'; [|reflexivity]. pose proof (xeqb_true _ _ E') as ->. congruence. }
  unfold ray_eqb. rewrite (S (ry r)), (S (rth r)). reflexivity.
Qed.
Lemma ray_eqb_trans (r s t : @ray XR) : ray_eqb r s = true -> ray_eqb s t = true -> ray_eqb r t = true.
Proof.
  intros H1 H2. pose proof H1 as H3. apply ray_eqb_true in H1 as [E1 E2]. unfold ray_eqb in *. now rewrite E1, E2.
Qed.
