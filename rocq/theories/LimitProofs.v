(** The search for the edge of the field, for every precision and every maximum height. *)
From Coq Require Import ZArith Reals Lra Lia List Bool Sorted String.
From Verif Require Import Base Nums Optics Group Spec MatrixProofs ElementProofs GroupProofs
  TraceProofs RayProofs StrictProofs FlipProofs TransferProofs Imaging SearchProofs ImagingProofs FieldProofs Limits Units ScaleProofs.
From Verif Require SearchAny.
Import ListNotations.
Open Scope list_scope.
Open Scope R_scope.

(** ** The constructor's values *)
Lemma search_default {T} {N : Num T} fuel e w : forall s : @search_state T, search_with precision maxHeight fuel e w s = search fuel e w s.
Proof.
  induction fuel as [|fuel IH]; intros s; [reflexivity|]. cbn [search_with search].
  destruct (_ || _); [|reflexivity]. destruct (search_step e s) as [s'|]; [|reflexivity]. cbn [bind]. now rewrite IH.
Qed.
Theorem field_default {T} {N : Num T} fuel (e : @elem T) :
  fieldStop_with precision maxHeight fuel e = fieldStop fuel e /\
  halfFieldOfView_with precision maxHeight fuel e = halfFieldOfView fuel e /\
  fieldOfView_with precision maxHeight fuel e = fieldOfView fuel e.
Proof.
  assert (fieldStop_with precision maxHeight fuel e = fieldStop fuel e) as E1.
  { unfold fieldStop_with, fieldStop. destruct (apertureStop e) as [a|]; [|reflexivity]. cbn [bind]. destruct (_ && _); [|reflexivity].
    now rewrite search_default. }
  assert (halfFieldOfView_with precision maxHeight fuel e = halfFieldOfView fuel e) as E2.
  { unfold halfFieldOfView_with, halfFieldOfView. rewrite E1. destruct (fieldStop fuel e) as [f|]; [|reflexivity]. cbn [bind].
    destruct (st_z f); [|reflexivity]. destruct (transferMatrix e _); [|reflexivity]. cbn [bind]. now rewrite search_default. }
  split; [exact E1|]. split; [exact E2|]. unfold fieldOfView_with, fieldOfView. now rewrite E2.
Qed.

(** ** On exact numbers *)
Section Search.
Variables (P Hm : R).
Hypothesis HP : 0 < P.
Variables (e : @elem XR) (o : optic) (ps : list TransferProofs.piece) (z : R) (blk : R -> bool).
Hypothesis Haim : aimed e o ps z.
Hypothesis Hblk : forall y, rblk (traceThrough e (chief ps z y)) = blk y.

Lemma search_rs_with : forall fuel w dy y was lst s,
  s_dy s = Fin dy -> s_y s = Fin y -> s_was s = was ->
  P < Rabs dy \/ (Imaging.s_ray s = chief ps z lst /\ Imaging.s_trace s = trace_values e (chief ps z lst)) ->
  outcome e ps z (SearchAny.rs P Hm blk fuel w dy y was lst) (search_with (Fin P) (Fin Hm) fuel e w s).
Proof.
  induction fuel as [|fuel IH]; intros w dy y was lst s E1 E2 E3 HT; [reflexivity|].
  cbn [SearchAny.rs search_with]. rewrite E1, E3.
  change (nltb (Fin P) (nabs (Fin dy))) with (Rltb P (Rabs dy)).
  destruct (Rltb P (Rabs dy) || negb (Bool.eqb was w)) eqn:G.
  - rewrite (step_of e o ps z blk Haim Hblk s dy y E1 E2). rewrite E3. cbn [bind]. cbn zeta.
    set (dy' := if negb (Bool.eqb (blk y) was) then - dy / 2 else dy * (3 / 2)).
    unfold s_of at 1 2. cbn [s_y s_was].
    change (nltb (Fin Hm) (nabs (Fin (y + dy')))) with (Rltb Hm (Rabs (y + dy'))).
    destruct (Rltb Hm (Rabs (y + dy')) && negb (blk y)); [reflexivity|].
    apply IH; auto.
  - destruct HT as [HT|[Hr Ht]].
    + apply orb_false_iff in G as [G _]. apply Rltb_false in G. lra.
    + cbn. eauto.
Qed.

Lemma start_rs_with fuel w : outcome e ps z (SearchAny.rs P Hm blk fuel w (100 * P) 0 false 0)
  (search_with (Fin P) (Fin Hm) fuel e w (search_start_with (Fin P) (Ray_new c0 c0))).
Proof.
  apply search_rs_with; auto.
  - unfold search_start_with. cbn [s_dy nofZ NumXR nmul xmul]. f_equal. lra.
  - left. rewrite Rabs_pos_eq; lra.
Qed.
Lemma started_with w v : SearchAny.start P Hm blk w (Some v) -> exists n, forall fuel, (n <= fuel)%nat ->
  exists s, search_with (Fin P) (Fin Hm) fuel e w (search_start_with (Fin P) (Ray_new c0 c0)) = Ok (Some s) /\
    Imaging.s_ray s = chief ps z v /\ Imaging.s_trace s = trace_values e (chief ps z v).
Proof.
  intros (n & Hn). exists n. intros fuel Hf. pose proof (start_rs_with fuel w) as H. now rewrite (Hn fuel Hf) in H.
Qed.
Lemma started_high_with w : SearchAny.start P Hm blk w None -> exists n, forall fuel, (n <= fuel)%nat ->
  search_with (Fin P) (Fin Hm) fuel e w (search_start_with (Fin P) (Ray_new c0 c0)) = Ok None.
Proof.
  intros (n & Hn). exists n. intros fuel Hf. pose proof (start_rs_with fuel w) as H. now rewrite (Hn fuel Hf) in H.
Qed.
End Search.

Section Field.
Variables (P Hm : R).
Variables (e : @elem XR) (o : optic) (ps : list TransferProofs.piece) (z : R).
Hypothesis Haim : aimed e o ps z.
Hypothesis Hz : z <> 0.

Lemma fieldStop_with_unfold fuel : fieldStop_with (Fin P) (Fin Hm) fuel e =
  bind (search_with (Fin P) (Fin Hm) fuel e true (search_start_with (Fin P) (Ray_new c0 c0)))
    (fun r => match r with None => Ok (mkStop None (Some ninf)) | Some s => Ok (first_blocked (Imaging.s_trace s)) end).
Proof.
  destruct (guard e o ps z Haim Hz) as (d & E & F & G). unfold fieldStop_with. rewrite E. cbn [bind st_z]. rewrite F, G. reflexivity.
Qed.

Theorem field_stop_found_with h : 0 < P -> field_edge e h -> 75 / 2 * P <= h -> 2 * h + 300 * P <= Hm ->
  exists n v, h < v <= h + 2 * P /\ forall fuel, (n <= fuel)%nat ->
    fieldStop_with (Fin P) (Fin Hm) fuel e =
      Ok (mkStop (Some (rz (traceThrough e (chief ps z v)))) (Some (rdiam (traceThrough e (chief ps z v))))).
Proof.
  intros HP He H1 H2. pose proof (edge_blk e o ps z Haim h He) as Hb.
  destruct (SearchAny.search_returns P Hm HP (fun y => Rltb h (Rabs y)) h ltac:(lra) (fun y => eq_refl) true H1 H2) as (v & Hv & Hs).
  destruct (started_with P Hm HP e o ps z _ Haim Hb true v Hs) as (n & Hn). exists n, v. split; [exact Hv|].
  intros fuel Hf. destruct (Hn fuel Hf) as (s & Es & _ & Et). rewrite fieldStop_with_unfold, Es.
  cbn [bind]. rewrite Et. f_equal. apply first_blocked_tail. rewrite Hb. apply Rltb_lt.
  cbn in Hv. rewrite Rabs_pos_eq; lra.
Qed.

Theorem half_field_found_with h : 0 < P -> field_edge e h -> 75 / 2 * P <= h -> 2 * h + 300 * P <= Hm ->
  exists n v, v <= h < v + 2 * P /\ forall fuel, (n <= fuel)%nat -> halfFieldOfView_with (Fin P) (Fin Hm) fuel e = Ok (Fin v).
Proof.
  intros HP He H1 H2. pose proof (edge_blk e o ps z Haim h He) as Hb.
  destruct (field_stop_found_with h HP He H1 H2) as (n1 & v1 & _ & F1).
  destruct (SearchAny.search_returns P Hm HP (fun y => Rltb h (Rabs y)) h ltac:(lra) (fun y => eq_refl) false H1 H2) as (v & Hv & Hs).
  destruct (started_with P Hm HP e o ps z _ Haim Hb false v Hs) as (n & Hn).
  exists (n1 + n)%nat, v. split; [exact Hv|]. intros fuel Hf.
  unfold halfFieldOfView_with. rewrite (F1 fuel) by lia. cbn [bind st_z].
  destruct (out_position e o ps z Haim v1) as (x & Ex & Hx). rewrite Ex.
  destruct (transfer_upto e o ps x (am_canon _ _ _ _ Haim) (am_pieces _ _ _ _ Haim) Hx) as (t & Et & _).
  rewrite Et. cbn [bind]. destruct (Hn fuel ltac:(lia)) as (s & Es & Er & _). rewrite Es. cbn [bind].
  now rewrite Er.
Qed.

Theorem field_found_with h : 0 < P -> field_edge e h -> 75 / 2 * P <= h -> 2 * h + 300 * P <= Hm ->
  exists n v, 2 * h - 4 * P < v <= 2 * h /\ forall fuel, (n <= fuel)%nat -> fieldOfView_with (Fin P) (Fin Hm) fuel e = Ok (Fin v).
Proof.
  intros HP He H1 H2. destruct (half_field_found_with h HP He H1 H2) as (n & v & Hv & H). exists n, (2 * v). split; [lra|].
  intros fuel Hf. unfold fieldOfView_with. rewrite (H fuel Hf). cbn [bind]. reflexivity.
Qed.

Theorem field_unlimited_with : 0 < P -> 150 * P <= Hm -> no_field_edge e \/ (exists h, field_edge e h /\ Hm <= h) ->
  exists n, forall fuel, (n <= fuel)%nat ->
    fieldStop_with (Fin P) (Fin Hm) fuel e = Ok (mkStop None (Some PInf)) /\ fieldOfView_with (Fin P) (Fin Hm) fuel e = Ok PInf.
Proof.
  intros HP HH H.
  assert (exists blk, (forall y, rblk (traceThrough e (chief ps z y)) = blk y) /\
    SearchAny.start P Hm blk true None) as (blk & Hb & Hs).
  { destruct H as [H|(h & He & Hh)].
    - exists (fun _ => false). split; [now apply (no_edge_blk e o)|]. now apply SearchAny.start_unlimited.
    - exists (fun y => Rltb h (Rabs y)). split; [now apply (edge_blk e o)|].
      apply (SearchAny.start_high P Hm HP _ h); auto; lra. }
  destruct (started_high_with P Hm HP e o ps z _ Haim Hb true Hs) as (n & Hn). exists n. intros fuel Hf.
  unfold fieldOfView_with, halfFieldOfView_with. rewrite fieldStop_with_unfold, (Hn fuel Hf). cbn [bind st_z]. split; [reflexivity|].
  cbn [c2 ninf NumXR nmul nofZ xmul]. unfold c2. cbn [nofZ NumXR nmul xmul xsgninf]. f_equal.
  unfold xsgninf. destruct (Rlt_dec 0 (IZR 2)); [reflexivity|lra].
Qed.

Theorem field_too_small_with h : 0 < P -> 150 * P <= Hm -> 0 < h < 75 / 2 * P -> field_edge e h ->
  forall fuel, fieldStop_with (Fin P) (Fin Hm) fuel e = Err OutOfFuel /\ fieldOfView_with (Fin P) (Fin Hm) fuel e = Err OutOfFuel.
Proof.
  intros HP HH Hh He fuel. pose proof (edge_blk e o ps z Haim h He) as Hb.
  assert (fieldStop_with (Fin P) (Fin Hm) fuel e = Err OutOfFuel) as E.
  { rewrite fieldStop_with_unfold. pose proof (start_rs_with P Hm HP e o ps z _ Haim Hb fuel true) as H.
    rewrite (SearchAny.search_runs_away P Hm HP (fun y => Rltb h (Rabs y)) h) in H; auto; try lra.
    cbn [outcome] in H. rewrite H. reflexivity. }
  split; auto. unfold fieldOfView_with, halfFieldOfView_with. now rewrite E.
Qed.

(** asked for a perfect answer, the search never leaves the axis *)
Theorem field_zero_precision : P = 0 -> 0 <= Hm -> no_field_edge e \/ (exists h, 0 < h /\ field_edge e h) ->
  forall fuel, fieldStop_with (Fin P) (Fin Hm) fuel e = Err OutOfFuel /\ fieldOfView_with (Fin P) (Fin Hm) fuel e = Err OutOfFuel.
Proof.
  intros HP HH H fuel.
  assert (exists blk, (forall y, rblk (traceThrough e (chief ps z y)) = blk y) /\ blk 0 = false) as (blk & Hb & B0).
  { destruct H as [H|(h & Hh & He)].
    - exists (fun _ => false). split; [now apply (no_edge_blk e o)|reflexivity].
    - exists (fun y => Rltb h (Rabs y)). split; [now apply (edge_blk e o)|]. rewrite Rabs_R0. apply Rltb_ge. lra. }
  assert (forall f s, s_dy s = Fin 0 -> s_y s = Fin 0 -> s_was s = false -> search_with (Fin P) (Fin Hm) f e true s = Err OutOfFuel) as K.
  { induction f as [|f IH]; intros s E1 E2 E3; [reflexivity|]. cbn [search_with]. rewrite E3. cbn [Bool.eqb negb]. rewrite orb_true_r.
    rewrite (step_of e o ps z blk Haim Hb s 0 0 E1 E2). rewrite B0, E3. cbn [Bool.eqb negb bind s_of s_y s_was].
    change (nltb (Fin Hm) (nabs (Fin (0 + 0 * (3 / 2))))) with (Rltb Hm (Rabs (0 + 0 * (3 / 2)))).
    replace (0 + 0 * (3 / 2)) with 0 by lra. rewrite Rabs_R0, Rltb_ge by lra. cbn [andb]. apply IH; cbn; f_equal; lra. }
  assert (fieldStop_with (Fin P) (Fin Hm) fuel e = Err OutOfFuel) as E.
  { rewrite fieldStop_with_unfold. rewrite K; auto. unfold search_start_with. cbn [s_dy nofZ NumXR nmul xmul]. f_equal. rewrite HP. lra. }
  split; auto. unfold fieldOfView_with, halfFieldOfView_with. now rewrite E.
Qed.
End Field.

(** ** The unit of length, when the precision and the maximum height are in it too *)
Section Unit.
Variables (k : R).
Hypothesis Hk : 0 < k.
Hypothesis Hi : 0 < / k.
Notation st := (stretch k).

Definition sstate (s : @search_state XR) : @search_state XR :=
  mkS (st (s_dy s)) (st (s_y s)) (s_was s) (sray k (Imaging.s_ray s)) (map (sray k) (Imaging.s_trace s)).

Variables (e : @elem XR) (s0 : @stop XR) (z : XR) (q : @elem XR).
Hypothesis HA : apertureStop e = Ok s0.
Hypothesis HZ : st_z s0 = Some z.
Hypothesis HT : transferMatrix e z = Ok q.
Hypothesis HI : isImaging (smat k (emat q)) = isImaging (emat q).

Lemma last_map {A B} (f : A -> B) l d : last (map f l) (f d) = f (last l d).
Proof. induction l as [|a [|b l] IH]; auto. Qed.
Lemma s_step s : search_step (selem k e) (sstate s) = rmap sstate (search_step e s).
Proof.
  unfold search_step. cbn [sstate s_y s_was s_dy]. rewrite (s_chief k Hk Hi e (s_y s) s0 z q HA HZ HT HI).
  destruct (chiefRayAt e (s_y s)) as [[r|]|]; cbn [rmap bind omap option_map]; try reflexivity.
  rewrite (s_trace_values k Hk Hi), last_map. cbn [sray rblk].
  assert (forall b : bool, (if b then ndiv (nopp (st (s_dy s))) c2 else nmul (st (s_dy s)) (ndec 15 1)) =
    st (if b then ndiv (nopp (s_dy s)) c2 else nmul (s_dy s) (ndec 15 1))) as E.
  { intros []; [now rewrite pull_opp, (st_half k Hk)|]. now rewrite (st_mul_l k Hk). }
  rewrite E, pull_add by assumption. reflexivity.
Qed.
Lemma s_search P H fuel w : forall s, search_with (st P) (st H) fuel (selem k e) w (sstate s) =
  rmap (omap sstate) (search_with P H fuel e w s).
Proof.
  induction fuel as [|fuel IH]; intros s; [reflexivity|]. cbn [search_with]. cbn [sstate s_dy s_was].
  rewrite pull_abs by assumption. rewrite (st_ltb k Hk). destruct (_ || _); [|reflexivity].
  change (mkS (st (s_dy s)) (st (s_y s)) (s_was s) (sray k (Imaging.s_ray s)) (map (sray k) (Imaging.s_trace s))) with (sstate s).
  rewrite s_step. destruct (search_step e s) as [s'|]; [|reflexivity]. cbn [rmap bind]. cbn [sstate s_y s_was].
  rewrite pull_abs by assumption. rewrite (st_ltb k Hk). destruct (_ && _); [reflexivity|]. apply IH.
Qed.
Lemma s_search_start P H fuel w : search_with (st P) (st H) fuel (selem k e) w (search_start_with (st P) (Ray_new c0 c0)) =
  rmap (omap sstate) (search_with P H fuel e w (search_start_with P (Ray_new c0 c0))).
Proof.
  rewrite <- s_search. f_equal. unfold search_start_with, sstate. cbn [s_dy s_y s_was Imaging.s_ray Imaging.s_trace map].
  rewrite (st_mul_l k Hk), (st_0 k Hk). f_equal. unfold Ray_new, sray. cbn [ry rth rz rblk rdiam rwl]. now rewrite !(st_0 k Hk), ?st_inf.
Qed.
Lemma s_first_blocked l : first_blocked (map (sray k) l) = sstop k (first_blocked l).
Proof.
  unfold first_blocked. assert (find rblk (map (sray k) l) = omap (sray k) (find rblk l)) as ->.
  { induction l as [|r l IH]; [reflexivity|]. cbn [map find]. cbn [sray rblk]. destruct (rblk r); [reflexivity|]. apply IH. }
  destruct (find rblk l); reflexivity.
Qed.
Lemma s_fieldStop P H fuel : fieldStop_with (st P) (st H) fuel (selem k e) = rmap (sstop k) (fieldStop_with P H fuel e).
Proof.
  unfold fieldStop_with. rewrite (s_apertureStop k Hk Hi), HA. cbn [rmap bind]. rewrite (s_hasFinite k). cbn [sstop st_z]. rewrite HZ. cbn [omap].
  rewrite (eqb_0 k Hk). destruct (_ && _); [|reflexivity]. rewrite s_search_start.
  destruct (search_with P H fuel e true _) as [[s|]|]; cbn [rmap bind omap]; try reflexivity. cbn [sstate Imaging.s_trace]. now rewrite s_first_blocked.
Qed.
Lemma s_half P H fuel : halfFieldOfView_with (st P) (st H) fuel (selem k e) = rmap st (halfFieldOfView_with P H fuel e).
Proof.
  unfold halfFieldOfView_with. rewrite s_fieldStop. destruct (fieldStop_with P H fuel e) as [f|]; [|reflexivity]. cbn [rmap bind sstop st_z].
  destruct (st_z f) as [zf|]; [|reflexivity]. cbn [omap]. rewrite (s_transfer k Hk Hi). destruct (transferMatrix e zf); [|reflexivity]. cbn [rmap bind].
  rewrite s_search_start. destruct (search_with P H fuel e false _) as [[s|]|]; reflexivity.
Qed.
Lemma s_field P H fuel : fieldOfView_with (st P) (st H) fuel (selem k e) = rmap st (fieldOfView_with P H fuel e).
Proof.
  unfold fieldOfView_with. rewrite s_half. destruct (halfFieldOfView_with P H fuel e) as [v|]; [|reflexivity]. cbn [rmap bind]. now rewrite (st_mul_r k Hk).
Qed.
End Unit.

Theorem units_field k ps e e' s z q q' prec high fuel : 0 < k -> assemble ps = Ok e -> assemble (map (in_unit (Fin k)) ps) = Ok e' ->
  apertureStop e = Ok s -> st_z s = Some z -> transferMatrix e z = Ok q -> transferMatrix e' (nmul (Fin k) z) = Ok q' -> isImaging (emat q') = isImaging (emat q) ->
  answer (nmul (Fin k)) (fieldOfView_with prec high fuel e) (fieldOfView_with (nmul (Fin k) prec) (nmul (Fin k) high) fuel e').
Proof.
  intros Hk A B. pose proof (inv_pos k Hk) as Hi. rewrite (units_elem k ps e e' Hk A B). rewrite !(unit_st k Hk), (s_transfer k Hk Hi). intros S Z X. rewrite X. cbn [rmap]. intros [= <-].
  rewrite (s_emat k). intros P. apply answer_rmap. rewrite (s_field k Hk Hi e s z q S Z X P). destruct (fieldOfView_with prec high fuel e) as [v|]; cbn [rmap]; [|reflexivity]. f_equal. symmetry. apply (unit_st k Hk).
Qed.

(** ** What the settings do not give *)
(** a field whose edge is below maxHeight is reported as unlimited *)
Theorem field_overlooked_with P Hm e o ps z h : aimed e o ps z -> z <> 0 -> 0 < P -> 150 * P <= Hm < 375 * P -> field_edge e h -> 150 * P <= h ->
  exists n, forall fuel, (n <= fuel)%nat -> fieldOfView_with (Fin P) (Fin Hm) fuel e = Ok PInf.
Proof.
  intros Haim Hz HP HH He Hh. pose proof (edge_blk e o ps z Haim h He) as Hb.
  assert (SearchAny.tried P 1 = 150 * P) as T1 by (unfold SearchAny.tried; rewrite SearchAny.step_1; lra).
  assert (SearchAny.tried P 2 = 375 * P) as T2 by (unfold SearchAny.tried; rewrite SearchAny.step_2; lra).
  assert (SearchAny.start P Hm (fun y => Rltb h (Rabs y)) true None) as Hs.
  { apply (SearchAny.start_grow P Hm HP _ h); auto; try lra. intros l. apply (SearchAny.grow_all P Hm HP _ true 1 ltac:(lra) 0); auto.
    intros i Hi. replace i with 1%nat by lia. rewrite T1. apply Rltb_ge. rewrite Rabs_pos_eq; lra. }
  destruct (started_high_with P Hm HP e o ps z _ Haim Hb true Hs) as (n & Hn). exists n. intros fuel Hf.
  unfold fieldOfView_with, halfFieldOfView_with. rewrite (fieldStop_with_unfold P Hm e o ps z Haim Hz), (Hn fuel Hf). cbn [bind st_z].
  unfold c2. cbn [ninf nofZ NumXR nmul xmul]. f_equal. unfold xsgninf. destruct (Rlt_dec 0 (IZR 2)); [reflexivity|lra].
Qed.
