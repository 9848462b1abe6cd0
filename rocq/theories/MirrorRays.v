(** Rays that are related to each other (equal, or mirror images) are traced alike, in exact and in double precision. *)
From Coq Require Import ZArith Reals Lra Lia List Bool String Floats.
From Verif Require Import Base Nums Optics TraceProofs.
Import ListNotations.
Open Scope list_scope.

(** ** Any relation of numbers that the steps of a trace keep *)
Section Similar.
Context {T : Type} {N : Num T}.
Variable rel : T -> T -> Prop.
Hypothesis rel_0 : rel c0 c0.
Hypothesis rel_add : forall a b c d, rel a b -> rel c d -> rel (nadd a c) (nadd b d).
Hypothesis rel_mul : forall m a b, rel a b -> rel (nmul m a) (nmul m b).
Hypothesis rel_abs : forall x a b, rel a b -> nltb x (nabs a) = nltb x (nabs b).
Hypothesis rel_axicon : forall n al y y' t t', rel y y' -> rel t t' -> rel (axicon_th n al y t) (axicon_th n al y' t').

Definition similar (r r' : @ray T) : Prop := rel (ry r) (ry r') /\ rel (rth r) (rth r') /\ rblk r = rblk r'.
Lemma hget_similar (h h' : @heap T) i : Forall2 similar h h' -> similar (hget h i) (hget h' i).
Proof.
  intros H. revert i. induction H as [|r r' h h' Hr Hh IH]; intros i; unfold hget in *; [destruct i; repeat split; cbn; auto|].
  destruct i; [exact Hr|apply IH].
Qed.
Lemma set_nth_similar (h h' : @heap T) i r r' : Forall2 similar h h' -> similar r r' -> Forall2 similar (set_nth i r h) (set_nth i r' h').
Proof.
  intros H Hr. revert i. induction H as [|a a' h h' Ha Hh IH]; intros i; [destruct i; constructor|].
  destruct i; cbn; constructor; auto.
Qed.
Lemma new_similar m r r' : similar r r' -> similar (mul_ray_new m r) (mul_ray_new m r').
Proof.
  intros (H1 & H2 & H3). unfold mul_ray_new, similar. cbn [ry rth rblk]. rewrite (rel_abs _ _ _ H1), (rel_abs _ _ _ H2), H3. auto 6.
Qed.
Lemma blk_similar r r' : similar r r' -> similar (set_blk r) (set_blk r').
Proof. intros (H1 & H2 & H3). repeat split; auto. Qed.
Lemma base_similar m i (h h' : @heap T) : Forall2 similar h h' ->
  fst (mul_ray_base m i h) = fst (mul_ray_base m i h') /\ Forall2 similar (snd (mul_ray_base m i h)) (snd (mul_ray_base m i h')).
Proof.
  intros H. unfold mul_ray_base. pose proof (hget_similar h h' i H) as A. destruct A as (A1 & A2 & A3). rewrite A3.
  destruct (rblk (hget h' i)); [now split|]. unfold halloc. cbn [fst snd]. split; [clear - H; induction H; cbn; congruence|].
  apply Forall2_app; [exact H|]. constructor; [|constructor]. apply new_similar. now apply hget_similar.
Qed.
Lemma mul_similar k m i (h h' : @heap T) : Forall2 similar h h' ->
  fst (mul_ray k m i h) = fst (mul_ray k m i h') /\ Forall2 similar (snd (mul_ray k m i h)) (snd (mul_ray k m i h')).
Proof.
  intros H. pose proof (base_similar m i h h' H) as [E1 E2]. unfold mul_ray. destruct (mul_ray_base m i h) as [o h1], (mul_ray_base m i h') as [o' h1'].
  cbn [fst snd] in *. subst o'. destruct k; cbn [fst snd]; auto. split; [reflexivity|]. apply set_nth_similar; [exact E2|].
  pose proof (hget_similar h h' i H) as (A & _ & _). pose proof (hget_similar h1 h1' o E2) as B. destruct B as (B1 & B2 & B3).
  repeat split; cbn [set_th ry rth rblk]; auto.
Qed.
Lemma leaf_similar k m i (h h' : @heap T) : Forall2 similar h h' ->
  fst (trace_leaf k m i h) = fst (trace_leaf k m i h') /\ Forall2 similar (snd (trace_leaf k m i h)) (snd (trace_leaf k m i h')).
Proof.
  intros H. unfold trace_leaf. destruct (nltb c0 (mL m)).
  - set (g := if nltb (ndiv (mdiam m) c2) (nabs (ry (hget h i))) then hset h i (set_blk (hget h i)) else h).
    set (g' := if nltb (ndiv (mdiam m) c2) (nabs (ry (hget h' i))) then hset h' i (set_blk (hget h' i)) else h').
    assert (G : Forall2 similar g g').
    { unfold g, g'. pose proof (hget_similar h h' i H) as A. rewrite (rel_abs _ _ _ (proj1 A)). destruct (nltb (ndiv (mdiam m) c2) (nabs (ry (hget h' i)))); [|exact H].
      apply set_nth_similar; [exact H|]. now apply blk_similar. }
    pose proof (mul_similar k m i g g' G) as [E1 E2]. destruct (mul_ray k m i g), (mul_ray k m i g'). cbn [fst snd] in *. now subst.
  - pose proof (mul_similar k m i h h' H) as [E1 E2]. destruct (mul_ray k m i h), (mul_ray k m i h'). cbn [fst snd] in *. now subst.
Qed.
Lemma trace_similar : forall (e : @elem T) i h h', Forall2 similar h h' ->
  fst (trace e i h) = fst (trace e i h') /\ Forall2 similar (snd (trace e i h)) (snd (trace e i h')).
Proof.
  fix IH 1. intros [k m|g m es] i h h' H; [now apply leaf_similar|]. cbn [trace]. generalize [i] as acc. revert i h h' H.
  induction es as [|x es IHes]; intros i h h' H acc; [now split|].
  pose proof (IH x i h h' H) as [E1 E2]. destruct (trace x i h) as [tr h1], (trace x i h') as [tr' h1']. cbn [fst snd] in E1, E2. subst tr'.
  apply IHes. exact E2.
Qed.
Theorem traced_similar (e : @elem T) r r' : similar r r' ->
  Forall2 similar (trace_values e r) (trace_values e r') /\ similar (traceThrough e r) (traceThrough e r').
Proof.
  intros H. pose proof (trace_similar e 0 [r] [r'] ltac:(constructor; [exact H|constructor])) as [E1 E2]. unfold trace_values, traceThrough.
  destruct (trace e 0 [r]) as [tr h], (trace e 0 [r']) as [tr' h']. cbn [fst snd] in *. subst tr'. split; [|now apply hget_similar].
  induction tr as [|i tr IH]; cbn [map]; constructor; [now apply hget_similar|exact IH].
Qed.
End Similar.

(** ** Exact arithmetic: the other side of the axis *)
Definition mirror_x (a b : XR) : Prop := b = nopp a.
Lemma mirror_x_traced (e : @elem XR) r r' : similar mirror_x r r' ->
  Forall2 (similar mirror_x) (trace_values e r) (trace_values e r') /\ similar mirror_x (traceThrough e r) (traceThrough e r').
Proof.
  assert (forall a b c d, mirror_x a b -> mirror_x c d -> mirror_x (nadd a c) (nadd b d)) as A.
  { intros a b c d -> ->. unfold mirror_x. destruct a, c; cbn; try reflexivity. f_equal. lra. }
  apply traced_similar; unfold mirror_x in *.
  - cbn. f_equal. lra.
  - exact A.
  - intros m a b ->. destruct m, a; cbn; try reflexivity; [f_equal; lra|..]; unfold xsgninf, Rltb, Reqb;
      repeat match goal with |- context [Rlt_dec ?a ?b] => destruct (Rlt_dec a b) | |- context [Req_EM_T ?a ?b] => destruct (Req_EM_T a b) end;
      try reflexivity; lra.
  - intros x a b ->. destruct a; cbn; try reflexivity. now rewrite Rabs_Ropp.
  - intros n al y y' t t' -> ->. unfold axicon_th.
    assert (nltb c0 (nopp y) = nltb y c0) as ->.
    { destruct y; cbn; try reflexivity. unfold Rltb. destruct (Rlt_dec 0 (- r0)), (Rlt_dec r0 0); try reflexivity; lra. }
    assert (nltb (nopp y) c0 = nltb c0 y) as ->.
    { destruct y; cbn; try reflexivity. unfold Rltb. destruct (Rlt_dec (- r0) 0), (Rlt_dec 0 r0); try reflexivity; lra. }
    destruct (nltb c0 y) eqn:P, (nltb y c0) eqn:Q; try reflexivity.
    + exfalso. destruct y; cbn in P, Q; try discriminate. apply Rltb_true in P, Q. lra.
    + apply A; [reflexivity|]. destruct (deviationAngle n al); cbn; try reflexivity. f_equal. lra.
    + now apply A.
Qed.

(** ** Double precision *)
Definition zero_sf (x : spec_float) : Prop := exists s, x = S754_zero s.
(** equal ([s] = false) or opposite ([s] = true), the sign of zeros left open *)
Definition sim (s : bool) (x y : spec_float) : Prop := (zero_sf x /\ zero_sf y) \/ y = if s then SFopp x else x.
Definition fsim (s : bool) (a b : float) : Prop := sim s (Prim2SF a) (Prim2SF b).
Lemma round_opp s m e l : binary_round_aux prec emax (negb s) m e l = SFopp (binary_round_aux prec emax s m e l).
Proof.
  unfold binary_round_aux. destruct (shr_fexp _ _ _ _ _) as [r e']. destruct (shr_fexp _ _ _ _ _) as [r' e'']. destruct (shr_m r'); try reflexivity.
  destruct (Z.leb _ _); reflexivity.
Qed.
Lemma round_opp' s m e : binary_round prec emax (negb s) m e = SFopp (binary_round prec emax s m e).
Proof. unfold binary_round. destruct (shl_align _ _ _). apply round_opp. Qed.
Lemma normalize_opp z e : sim true (binary_normalize prec emax z e false) (binary_normalize prec emax (- z) e false).
Proof.
  destruct z as [|p|p]; cbn [Z.opp binary_normalize]; [left; split; eexists; reflexivity|right..].
  - apply (round_opp' false).
  - apply (round_opp' true).
Qed.
Lemma sim_refl x : sim false x x. Proof. now right. Qed.
Lemma cond_neg s m : cond_Zopp (negb s) m = (- cond_Zopp s m)%Z. Proof. destruct s; cbn; lia. Qed.
Lemma zeros s t u : sim s (S754_zero t) (S754_zero u). Proof. left. split; eexists; reflexivity. Qed.
Lemma sim_cases s x y : sim s x y -> (exists t u, x = S754_zero t /\ y = S754_zero u) \/ (y = if s then SFopp x else x).
Proof. intros [[[t ->] [u ->]]|H]; [left|right]; eauto. Qed.
Lemma eqb_negb a b : Bool.eqb (negb a) (negb b) = Bool.eqb a b. Proof. now destruct a, b. Qed.
Lemma sim_add s a b c d : sim s a b -> sim s c d -> sim s (SF64add a c) (SF64add b d).
Proof.
  intros H1 H2. unfold SF64add. apply sim_cases in H1, H2. destruct H1 as [(t & u & -> & ->)|E1], H2 as [(t' & u' & -> & ->)|E2].
  - cbn [SFadd]. destruct (Bool.eqb t t'), (Bool.eqb u u'); apply zeros.
  - subst d. destruct c, s; cbn [SFadd SFopp]; try (now right); destruct (Bool.eqb _ _), (Bool.eqb _ _); apply zeros.
  - subst b. destruct a, s; cbn [SFadd SFopp]; try (now right); destruct (Bool.eqb _ _), (Bool.eqb _ _); apply zeros.
  - destruct s; subst b d; [|now right]. destruct a as [sa|sa| |sa ma ea], c as [sc|sc| |sc mc ec]; cbn [SFopp SFadd]; rewrite ?eqb_negb; try (now right).
    + destruct (Bool.eqb _ _); apply zeros.
    + right. destruct (Bool.eqb _ _); reflexivity.
    + rewrite !cond_neg, <- Z.opp_add_distr. apply normalize_opp.
Qed.
Lemma sim_mul s m a b : sim s a b -> sim s (SF64mul m a) (SF64mul m b).
Proof.
  intros H. unfold SF64mul. apply sim_cases in H. destruct H as [(t & u & -> & ->)|E].
  - destruct m; cbn [SFmul]; try apply zeros; right; destruct s; reflexivity.
  - destruct s; subst b; [|now right]. destruct m as [sm|sm| |sm mm em], a as [sa|sa| |sa ma ea]; cbn [SFmul SFopp]; try apply zeros; right;
      rewrite <- ?negb_xorb_r; try reflexivity. apply round_opp.
Qed.
Lemma sim_abs s a b : sim s a b -> SFabs b = SFabs a.
Proof. intros H. apply sim_cases in H as [(t & u & -> & ->)|E]; [reflexivity|]. subst b. destruct s, a; reflexivity. Qed.
Definition zf : spec_float := S754_zero false.
Lemma sim_pos s a b : sim s a b -> SFltb zf b = (if s then SFltb a zf else SFltb zf a) /\ SFltb b zf = if s then SFltb zf a else SFltb a zf.
Proof.
  intros H. apply sim_cases in H as [(t & u & -> & ->)|E]; [destruct s; split; reflexivity|]. subst b. destruct s; [|split; reflexivity].
  destruct a as [sa|[]| |[] m e]; split; reflexivity.
Qed.
Lemma fsim_traced s (e : @elem float) r r' : similar (fsim s) r r' ->
  Forall2 (similar (fsim s)) (trace_values e r) (trace_values e r') /\ similar (fsim s) (traceThrough e r) (traceThrough e r').
Proof.
  assert (forall a b c d, fsim s a b -> fsim s c d -> fsim s (nadd a c) (nadd b d)) as A.
  { intros a b c d H1 H2. unfold fsim. cbn [nadd NumF]. rewrite !add_spec. now apply sim_add. }
  apply traced_similar.
  - apply (zeros s false false).
  - exact A.
  - intros m a b H. unfold fsim. cbn [nmul NumF]. rewrite !mul_spec. now apply sim_mul.
  - intros x a b H. cbn [nltb nabs NumF]. rewrite !ltb_spec, !abs_spec. now rewrite (sim_abs _ _ _ H).
  - intros n al y y' t t' Hy Ht. unfold axicon_th. cbn [nltb NumF]. rewrite !ltb_spec. change (Prim2SF c0) with zf.
    destruct (sim_pos _ _ _ Hy) as [-> ->]. set (d := deviationAngle n al).
    assert (fsim true (nopp d) d) as O1. { unfold fsim. cbn [nopp NumF]. rewrite opp_spec. right. now destruct (Prim2SF d) as [[]|[]| |[] ? ?]. }
    assert (fsim true d (nopp d)) as O2. { unfold fsim. cbn [nopp NumF]. rewrite opp_spec. now right. }
    destruct s.
    + destruct (SFltb zf (Prim2SF y)) eqn:P, (SFltb (Prim2SF y) zf) eqn:Q; auto.
      exfalso. destruct (Prim2SF y) as [[]|[]| |[] ? ?]; cbn in P, Q; discriminate.
    + destruct (SFltb zf (Prim2SF y)), (SFltb (Prim2SF y) zf); auto; apply A; auto; apply sim_refl.
Qed.

(** ** In the terms of Python *)
(** a == b, or both are nan *)
Definition same_float (a b : float) : Prop := neqb a b = true \/ (is_nan a = true /\ is_nan b = true).
Lemma nan_sf a : is_nan a = true <-> Prim2SF a = S754_nan.
Proof.
  unfold is_nan. rewrite eqb_spec. destruct (Prim2SF a) as [s|[]| |[] m e]; cbn; try (split; intros; congruence);
    unfold SFeqb, SFcompare; rewrite Z.compare_refl, Pos.compare_cont_refl; cbn; split; discriminate.
Qed.
Lemma eqb_sf x y : SFeqb x y = true <-> sim false x y /\ x <> S754_nan.
Proof.
  unfold SFeqb, SFcompare. split.
  - destruct x as [s|[]| |[] m e], y as [s'|[]| |[] m' e']; try discriminate; intros H; (split; [|discriminate]); try (now right); try apply zeros;
      destruct (Z.compare e e') eqn:E; try discriminate; apply Z.compare_eq_iff in E; subst; destruct (Pos.compare_cont Eq m m') eqn:P; try discriminate;
      apply Pos.compare_eq_iff in P; subst; now right.
  - intros [[[[s ->] [s' ->]]| ->] N]; [reflexivity|]. destruct x as [s|[]| |[] m e]; try reflexivity; try contradiction;
      rewrite Z.compare_refl, Pos.compare_cont_refl; reflexivity.
Qed.
Lemma same_float_sim a b : same_float a b <-> fsim false a b.
Proof.
  unfold same_float, fsim. cbn [neqb NumF]. rewrite eqb_spec, eqb_sf, !nan_sf. split.
  - intros [[H _]|[-> ->]]; [exact H|now right].
  - intros H. destruct (Prim2SF a) as [s|s| |s m e] eqn:E; try (left; split; [exact H|discriminate]). right. destruct H as [[[t H] _]|H]; [discriminate|auto].
Qed.
Lemma opp_sim a b : fsim true a b <-> fsim false (nopp a) b.
Proof.
  unfold fsim, sim. cbn [nopp NumF]. rewrite opp_spec. split; intros [[[s H] H']|H]; try (now right); left; split; auto.
  - rewrite H. eexists. reflexivity.
  - destruct (Prim2SF a); try discriminate. eexists. reflexivity.
Qed.
Lemma Forall2_weaken {A B} (P Q : A -> B -> Prop) l l' : (forall a b, P a b -> Q a b) -> Forall2 P l l' -> Forall2 Q l l'.
Proof. intros H F. induction F; constructor; auto. Qed.
Lemma similar_weaken {T} `{Num T} (P Q : T -> T -> Prop) r r' : (forall a b, P a b -> Q a b) -> similar P r r' -> similar Q r r'.
Proof. intros W (A & B & C). repeat split; auto. Qed.
Theorem equal_traced_float (e : @elem float) (r r' : @ray float) : ray_eqb r r' = true -> rblk r = rblk r' ->
  Forall2 (fun a b => same_float (ry a) (ry b) /\ same_float (rth a) (rth b) /\ rblk a = rblk b) (trace_values e r) (trace_values e r') /\
  (let o := traceThrough e r in let o' := traceThrough e r' in same_float (ry o) (ry o') /\ same_float (rth o) (rth o') /\ rblk o = rblk o').
Proof.
  intros E B. unfold ray_eqb in E. destruct (neqb (ry r) (ry r')) eqn:E1; [|discriminate]. destruct (neqb (rth r) (rth r')) eqn:E2; [|discriminate].
  destruct (fsim_traced false e r r') as [F G].
  { repeat split; auto; apply same_float_sim; now left. }
  split.
  - revert F. apply Forall2_weaken. intros a b. apply similar_weaken. apply same_float_sim.
  - cbv zeta. revert G. apply similar_weaken. apply same_float_sim.
Qed.
(** b is -a; the sign of a zero does not count, nan is opposite to itself *)
Definition opposite_float (a b : float) : Prop := same_float (nopp a) b.
Theorem mirror_traced_float (e : @elem float) (r r' : @ray float) : opposite_float (ry r) (ry r') -> opposite_float (rth r) (rth r') -> rblk r = rblk r' ->
  Forall2 (fun a b => opposite_float (ry a) (ry b) /\ opposite_float (rth a) (rth b) /\ rblk a = rblk b) (trace_values e r) (trace_values e r') /\
  (let o := traceThrough e r in let o' := traceThrough e r' in opposite_float (ry o) (ry o') /\ opposite_float (rth o) (rth o') /\ rblk o = rblk o').
Proof.
  intros E1 E2 B. destruct (fsim_traced true e r r') as [F G].
  { repeat split; auto; apply opp_sim, same_float_sim; assumption. }
  assert (forall a b, fsim true a b -> opposite_float a b) as W by (intros a b H; now apply same_float_sim, opp_sim).
  split.
  - revert F. apply Forall2_weaken. intros a b. now apply similar_weaken.
  - cbv zeta. revert G. now apply similar_weaken.
Qed.
Theorem mirror_traced (e : @elem XR) (r r' : @ray XR) : ry r' = nopp (ry r) -> rth r' = nopp (rth r) -> rblk r = rblk r' ->
  Forall2 (fun a b => ry b = nopp (ry a) /\ rth b = nopp (rth a) /\ rblk a = rblk b) (trace_values e r) (trace_values e r') /\
  (let o := traceThrough e r in let o' := traceThrough e r' in ry o' = nopp (ry o) /\ rth o' = nopp (rth o) /\ rblk o = rblk o').
Proof. intros E1 E2 B. exact (mirror_x_traced e r r' (conj E1 (conj E2 B))). Qed.
