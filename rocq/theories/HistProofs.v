(** Proofs about histograms of rays. *)
From Coq Require Import ZArith Reals Lra List Bool Lia.
From Verif Require Import Base Nums Optics RaysModel RaysProofs RaysMore.
Import ListNotations.
Open Scope list_scope.
Open Scope R_scope.

(** ** np.histogram *)
(** the bins: [bins] of them between [lo] and [hi], half-open except the last *)
Definition bin_start (lo hi : R) (bins i : Z) : R := lo + IZR i * ((hi - lo) / IZR bins).
Definition falls_in (lo hi : R) (bins i : Z) (v : R) : Prop :=
  bin_start lo hi bins i <= v /\ (v < bin_start lo hi bins (i + 1) \/ ((i + 1 = bins)%Z /\ v = hi)).
(** how many of [l] satisfy [P] *)
Inductive number_of (P : R -> Prop) : list R -> nat -> Prop :=
| no_nil : number_of P [] 0
| no_yes v l n : P v -> number_of P l n -> number_of P (v :: l) (S n)
| no_no v l n : ~ P v -> number_of P l n -> number_of P (v :: l) n.

Lemma bin_end lo hi bins : (0 < bins)%Z -> bin_start lo hi bins bins = hi.
Proof. intros H. unfold bin_start. field. apply IZR_lt in H. lra. Qed.
Lemma edge_xr lo hi bins i : (0 < bins)%Z -> edge (Fin lo) (Fin hi) bins i = Fin (bin_start lo hi bins i).
Proof.
  intros H. unfold edge. destruct (Z.eqb_spec i bins) as [->|_].
  - now rewrite bin_end.
  - cbn. destruct (Req_EM_T (IZR bins) 0) as [E|_]; [apply IZR_lt in H; lra|]. reflexivity.
Qed.
Lemma in_bin_xr lo hi bins i v : (0 < bins)%Z -> lo < hi -> (i < bins)%Z ->
  in_bin (Fin lo) (Fin hi) bins i (Fin v) = true <-> falls_in lo hi bins i v.
Proof.
  intros H Hlh Hi. unfold in_bin, falls_in. rewrite andb_true_iff, !edge_xr by auto.
  assert (Hw : 0 < (hi - lo) / IZR bins) by (apply Rdiv_lt_0_compat; [lra|now apply IZR_lt]).
  cbn [nleb nltb NumXR xleb xltb]. rewrite Rleb_true.
  destruct (Z.eqb_spec i (bins - 1)) as [E|E].
  - rewrite Rleb_true. assert (E1 : (i + 1 = bins)%Z) by lia. rewrite E1, bin_end by auto.
    split; intros [A B]; (split; [exact A|]); [|destruct B as [B|[_ B]]; lra].
    destruct (Req_dec v hi); [auto|left; lra].
  - rewrite Rltb_true. split; intros [A B]; (split; [exact A|]); auto.
    destruct B as [B|[B _]]; [exact B|lia].
Qed.
Lemma number_filter (P : R -> Prop) (f : XR -> bool) : (forall v, f (Fin v) = true <-> P v) ->
  forall l, number_of P l (List.length (filter f (map Fin l))).
Proof.
  intros H. induction l as [|v t IH]; [constructor|]. cbn.
  destruct (f (Fin v)) eqn:E.
  - cbn. constructor; [now apply H|exact IH].
  - constructor; [|exact IH]. intros K. apply H in K. congruence.
Qed.

(** every value between [lo] and [hi] falls in one bin only *)
Lemma one_bin lo hi bins v : (0 < bins)%Z -> lo < hi -> lo <= v <= hi ->
  exists i, (0 <= i < bins)%Z /\ falls_in lo hi bins i v /\
    forall j, (0 <= j < bins)%Z -> falls_in lo hi bins j v -> j = i.
Proof.
  intros Hb Hlh Hv. assert (Hb' : 0 < IZR bins) by now apply IZR_lt.
  set (w := (hi - lo) / IZR bins). assert (Hw : 0 < w) by (apply Rdiv_lt_0_compat; lra).
  assert (Hhi : hi = lo + IZR bins * w) by (unfold w; field; lra).
  assert (S : forall i j, (i <= j)%Z -> bin_start lo hi bins i <= bin_start lo hi bins j).
  { intros i j Hij. unfold bin_start. fold w. apply IZR_le in Hij. nra. }
  assert (U : forall i j, (0 <= i < bins)%Z -> (0 <= j < bins)%Z -> falls_in lo hi bins i v ->
     falls_in lo hi bins j v -> (j <= i)%Z).
  { intros i j Hi Hj [A1 A2] [B1 B2]. destruct (Z.le_gt_cases j i); [auto|exfalso].
    destruct A2 as [A2|[A2 _]]; [|lia]. pose proof (S (i + 1)%Z j ltac:(lia)). lra. }
  destruct (Req_dec v hi) as [Ev|Ev].
  - exists (bins - 1)%Z. split; [lia|].
    assert (F : falls_in lo hi bins (bins - 1) v).
    { split; [|right; split; [lia|exact Ev]].
      pose proof (S (bins - 1)%Z bins ltac:(lia)) as K. rewrite bin_end in K by auto. lra. }
    split; [exact F|]. intros j Hj HF.
    pose proof (U j (bins - 1)%Z Hj ltac:(lia) HF F). pose proof (U (bins - 1)%Z j ltac:(lia) Hj F HF). lia.
  - set (i := (up ((v - lo) / w) - 1)%Z).
    assert (Q : (v - lo) / w * w = v - lo) by (field; lra).
    destruct (archimed ((v - lo) / w)) as [A1 A2].
    assert (Q0 : 0 <= (v - lo) / w).
    { apply (Rmult_le_reg_r w); [exact Hw|]. rewrite Q. lra. }
    assert (Q1 : (v - lo) / w < IZR bins).
    { apply (Rmult_lt_reg_r w); [exact Hw|]. rewrite Q. lra. }
    assert (Hi : (0 <= i < bins)%Z).
    { unfold i. split.
      - assert (0 < up ((v - lo) / w))%Z by (apply lt_IZR; lra). lia.
      - assert (up ((v - lo) / w) < bins + 1)%Z by (apply lt_IZR; rewrite plus_IZR; lra). lia. }
    assert (F : falls_in lo hi bins i v).
    { unfold falls_in, bin_start. fold w. unfold i. rewrite plus_IZR, minus_IZR.
      assert (Ev' : v = lo + (v - lo) / w * w) by lra.
      split; [|left]; rewrite Ev' at 1 + idtac; nra. }
    exists i. split; [exact Hi|]. split; [exact F|]. intros j Hj HF.
    pose proof (U j i Hj Hi HF F). pose proof (U i j Hi Hj F HF). lia.
Qed.

(** ** Counting *)
Definition zsum (l : list Z) : Z := fold_right Z.add 0%Z l.
Lemma zsum_cons a l : zsum (a :: l) = (a + zsum l)%Z.
Proof. reflexivity. Qed.
Lemma zsum_add {A} (f g : A -> Z) l : zsum (map (fun i => f i + g i)%Z l) = (zsum (map f l) + zsum (map g l))%Z.
Proof. induction l as [|a t IH]; cbn; [reflexivity|]. unfold zsum in *. lia. Qed.
Lemma zsum_zero {A} (f : A -> Z) l : (forall i, In i l -> f i = 0%Z) -> zsum (map f l) = 0%Z.
Proof.
  induction l as [|a t IH]; intros H; [reflexivity|]. cbn. rewrite H by now left.
  assert (zsum (map f t) = 0%Z) by (apply IH; intros; apply H; now right). unfold zsum in *. lia.
Qed.
Lemma zsum_one (f : Z -> bool) l i : NoDup l -> In i l -> f i = true -> (forall j, In j l -> f j = true -> j = i) ->
  zsum (map (fun j => if f j then 1 else 0)%Z l) = 1%Z.
Proof.
  induction l as [|a t IH]; intros Hd Hi Hf HU; [destruct Hi|]. inversion Hd; subst. cbn [map]. rewrite zsum_cons.
  destruct Hi as [->|Hi].
  - rewrite Hf. rewrite (zsum_zero (fun j => if f j then 1 else 0)%Z t); [reflexivity|].
    intros j Hj. destruct (f j) eqn:E; [|reflexivity]. assert (j = i) by (apply HU; [now right|auto]). now subst.
  - destruct (f a) eqn:E; [assert (a = i) by (apply HU; [now left|auto]); now subst|].
    rewrite IH; auto. intros; apply HU; [now right|auto].
Qed.
Lemma zrange_in n i : In i (zrange n) <-> (0 <= i < n)%Z.
Proof.
  unfold zrange. rewrite in_map_iff. split.
  - intros (k & <- & H). apply in_seq in H. lia.
  - intros H. exists (Z.to_nat i). split; [lia|]. apply in_seq. lia.
Qed.
Lemma zrange_nodup n : NoDup (zrange n).
Proof.
  unfold zrange. apply FinFun.Injective_map_NoDup; [|apply seq_NoDup]. intros a b. lia.
Qed.
Lemma nth_zrange n i : (0 <= i < n)%Z -> nth_error (zrange n) (Z.to_nat i) = Some i.
Proof.
  intros H. unfold zrange. rewrite nth_error_map.
  rewrite (nth_error_nth' _ 0%nat) by (rewrite seq_length; lia). cbn. f_equal. rewrite seq_nth; lia.
Qed.
Lemma all_counted lo hi bins vals : (0 < bins)%Z -> lo < hi -> Forall (fun v => lo <= v <= hi) vals ->
  zsum (map (fun i => Z.of_nat (List.length (filter (in_bin (Fin lo) (Fin hi) bins i) (map Fin vals)))) (zrange bins)) =
  Z.of_nat (List.length vals).
Proof.
  intros Hb Hlh. induction 1 as [|v t Hv Ht IH].
  - apply zsum_zero. reflexivity.
  - replace (map (fun i => Z.of_nat (List.length (filter (in_bin (Fin lo) (Fin hi) bins i) (map Fin (v :: t))))) (zrange bins))
      with (map (fun i => (if in_bin (Fin lo) (Fin hi) bins i (Fin v) then 1 else 0) +
                 Z.of_nat (List.length (filter (in_bin (Fin lo) (Fin hi) bins i) (map Fin t))))%Z (zrange bins)).
    2:{ apply map_ext. intros i. cbn [map filter]. destruct (in_bin _ _ _ _ _); cbn [List.length]; lia. }
    rewrite (zsum_add (fun i => if in_bin (Fin lo) (Fin hi) bins i (Fin v) then 1 else 0)%Z), IH.
    destruct (one_bin lo hi bins v Hb Hlh Hv) as (i & Hi & HF & HU).
    rewrite (zsum_one (fun j => in_bin (Fin lo) (Fin hi) bins j (Fin v)) (zrange bins) i).
    + cbn [List.length]. lia.
    + apply zrange_nodup.
    + now apply zrange_in.
    + apply in_bin_xr; auto; lia.
    + intros j Hj HT. apply zrange_in in Hj. apply HU; [auto|]. apply in_bin_xr in HT; auto; lia.
Qed.

(** ** Centres *)
Lemma centres_map {T} {N : Num T} (f : Z -> T) : forall n k,
  centres (map f (map Z.of_nat (seq k (S n)))) =
  map (fun i => ndiv (nadd (f i) (f (i + 1)%Z)) c2) (map Z.of_nat (seq k n)).
Proof.
  induction n as [|n IH]; intros k; [reflexivity|].
  cbn [seq map]. specialize (IH (S k)). cbn [seq map] in IH.
  change (centres (f (Z.of_nat k) :: f (Z.of_nat (S k)) :: map f (map Z.of_nat (seq (S (S k)) n))))
    with (ndiv (nadd (f (Z.of_nat k)) (f (Z.of_nat (S k)))) c2 ::
          centres (f (Z.of_nat (S k)) :: map f (map Z.of_nat (seq (S (S k)) n)))).
  rewrite IH. replace (Z.of_nat (S k)) with (Z.of_nat k + 1)%Z by lia. reflexivity.
Qed.

(** the histogram [xs, cs] of [vals] between [lo] and [hi] *)
Record is_histogram (vals : list R) (bins : Z) (lo hi : R) (xs : list XR) (cs : list Z) : Prop := {
  h_xs : List.length xs = Z.to_nat bins;
  h_cs : List.length cs = Z.to_nat bins;
  h_centre : forall i, (0 <= i < bins)%Z ->
    nth_error xs (Z.to_nat i) = Some (Fin ((bin_start lo hi bins i + bin_start lo hi bins (i + 1)) / 2));
  h_count : forall i, (0 <= i < bins)%Z -> exists n,
    nth_error cs (Z.to_nat i) = Some (Z.of_nat n) /\ number_of (falls_in lo hi bins i) vals n;
  h_sum : (forall v, In v vals -> lo <= v <= hi) -> zsum cs = Z.of_nat (List.length vals)
}.
Lemma np_ok vals bins mn mx : (0 < bins)%Z -> mn <= mx ->
  exists lo hi xs cs, hist_of np_histogram (map Fin vals) bins (Fin mn) (Fin mx) = Ok (xs, cs) /\
    (mn < mx -> lo = mn /\ hi = mx) /\ (mn = mx -> lo = mn - 1/2 /\ hi = mn + 1/2) /\
    is_histogram vals bins lo hi xs cs.
Proof.
  intros Hb Hm.
  set (lo := if Req_EM_T mn mx then mn - 1/2 else mn).
  set (hi := if Req_EM_T mn mx then mx + 1/2 else mx).
  assert (Hlh : lo < hi) by (unfold lo, hi; destruct (Req_EM_T mn mx); lra).
  assert (E : np_histogram (map Fin vals) bins (Fin mn) (Fin mx) =
    Ok (map (fun i => Z.of_nat (List.length (filter (in_bin (Fin lo) (Fin hi) bins i) (map Fin vals)))) (zrange bins),
        map (edge (Fin lo) (Fin hi) bins) (zrange (bins + 1)))).
  { unfold np_histogram. destruct (Z.ltb_spec bins 1); [lia|].
    unfold finite. cbn. rewrite (proj2 (Rltb_false mx mn)) by lra. cbn.
    unfold lo, hi. destruct (Req_EM_T mn mx) as [Em|Em].
    - rewrite Em, Reqb_refl. destruct (Req_EM_T 2 0); [lra|]. reflexivity.
    - rewrite Reqb_neq by auto. reflexivity. }
  exists lo, hi. unfold hist_of. rewrite E. cbn [bind fst snd].
  eexists _, _. split; [reflexivity|].
  split; [intros; unfold lo, hi; destruct (Req_EM_T mn mx); lra|].
  split; [intros; unfold lo, hi; destruct (Req_EM_T mn mx); lra|].
  assert (Ec : centres (map (edge (Fin lo) (Fin hi) bins) (zrange (bins + 1))) =
               map (fun i => Fin ((bin_start lo hi bins i + bin_start lo hi bins (i + 1)) / 2)) (zrange bins)).
  { unfold zrange. replace (Z.to_nat (bins + 1)) with (S (Z.to_nat bins)) by lia.
    rewrite centres_map. apply map_ext. intros i. rewrite !edge_xr by auto. cbn.
    destruct (Req_EM_T 2 0); [lra|]. reflexivity. }
  rewrite Ec. constructor.
  - unfold zrange. now rewrite !map_length, seq_length.
  - unfold zrange. now rewrite !map_length, seq_length.
  - intros i Hi. rewrite nth_error_map, nth_zrange by auto. reflexivity.
  - intros i Hi. eexists. rewrite nth_error_map, nth_zrange by auto. split; [reflexivity|].
    apply number_filter. intros v. apply in_bin_xr; auto; lia.
  - intros H. apply all_counted; auto. now apply Forall_forall.
Qed.

(** ** Defaults *)
Lemma pymin_xr v t : exists m, pymin (map Fin (v :: t)) = Ok (Fin m) /\ In m (v :: t) /\
  forall x, In x (v :: t) -> m <= x.
Proof.
  cbn [map pymin].
  enough (H : forall t a, exists m,
    fold_left (fun m x => if nltb x m then x else m) (map Fin t) (Fin a) = Fin m /\ In m (a :: t) /\
    forall x, In x (a :: t) -> m <= x).
  { destruct (H t v) as (m & A & B). rewrite A. eauto. }
  clear. induction t as [|b t IH]; intros a.
  - exists a. cbn. split; [reflexivity|]. split; [auto|]. intros x [->|[]]. lra.
  - cbn [map fold_left]. cbn [nltb NumXR xltb].
    destruct (Rltb b a) eqn:E.
    + destruct (IH b) as (m & A & B & C). exists m. split; [exact A|]. split; [cbn in *; tauto|].
      apply Rltb_true in E. intros x [->|Hx]; [|now apply C]. pose proof (C b (or_introl eq_refl)). lra.
    + destruct (IH a) as (m & A & B & C). exists m. split; [exact A|]. split; [cbn in *; tauto|].
      apply Rltb_false in E. intros x [->|[->|Hx]]; [apply C; now left| |apply C; now right].
      pose proof (C a (or_introl eq_refl)). lra.
Qed.
Lemma pymax_xr v t : exists m, pymax (map Fin (v :: t)) = Ok (Fin m) /\ In m (v :: t) /\
  forall x, In x (v :: t) -> x <= m.
Proof.
  cbn [map pymax].
  enough (H : forall t a, exists m,
    fold_left (fun m x => if nltb m x then x else m) (map Fin t) (Fin a) = Fin m /\ In m (a :: t) /\
    forall x, In x (a :: t) -> x <= m).
  { destruct (H t v) as (m & A & B). rewrite A. eauto. }
  clear. induction t as [|b t IH]; intros a.
  - exists a. cbn. split; [reflexivity|]. split; [auto|]. intros x [->|[]]. lra.
  - cbn [map fold_left]. cbn [nltb NumXR xltb].
    destruct (Rltb a b) eqn:E.
    + destruct (IH b) as (m & A & B & C). exists m. split; [exact A|]. split; [cbn in *; tauto|].
      apply Rltb_true in E. intros x [->|Hx]; [|now apply C]. pose proof (C b (or_introl eq_refl)). lra.
    + destruct (IH a) as (m & A & B & C). exists m. split; [exact A|]. split; [cbn in *; tauto|].
      apply Rltb_false in E. intros x [->|[->|Hx]]; [apply C; now left| |apply C; now right].
      pose proof (C a (or_introl eq_refl)). lra.
Qed.

Lemma np_respects_eq : respects_eq (@np_histogram XR _).
Proof.
  intros l b x x' y y' Hx Hy.
  assert (E : forall a a' : XR, neqb a a' = true -> a = a').
  { intros [a| | |] [a'| | |]; cbn; try discriminate; auto. intros H. apply Reqb_true in H. now subst. }
  now rewrite (E _ _ Hx), (E _ _ Hy).
Qed.

(** ** Rays *)
Section History.
Context (l : list (@ray XR)) (os : list (@sop XR)) (bins : option Z) (vals : list R).
Let nb := match bins with Some b => b | None => 40%Z end.
Lemma default_spec : (0 < nb)%Z -> vals <> [] ->
  exists mn mx lo hi xs cs, In mn vals /\ In mx vals /\ (forall v, In v vals -> mn <= v <= mx) /\
    (mn < mx -> lo = mn /\ hi = mx) /\ (mn = mx -> lo = mn - 1/2 /\ hi = mn + 1/2) /\
    histogram_spec np_histogram (map Fin vals) bins None None = Ok (xs, cs) /\
    is_histogram vals nb lo hi xs cs /\ zsum cs = Z.of_nat (List.length vals).
Proof.
  intros Hb Hv. destruct vals as [|v t] eqn:E; [congruence|].
  destruct (pymin_xr v t) as (mn & M1 & M2 & M3). destruct (pymax_xr v t) as (mx & X1 & X2 & X3).
  assert (Hm : mn <= mx) by (apply M3; exact X2).
  destruct (np_ok (v :: t) nb mn mx Hb Hm) as (lo & hi & xs & cs & A & B & C & D).
  exists mn, mx, lo, hi, xs, cs. split; [exact M2|]. split; [exact X2|]. split; [auto|].
  split; [exact B|]. split; [exact C|]. split.
  - unfold histogram_spec, resolve. rewrite M1, X1. cbn [bind fst snd]. exact A.
  - split; [exact D|]. apply (h_sum _ _ _ _ _ _ D). intros x Hx. specialize (M3 x Hx). specialize (X3 x Hx).
    destruct (Req_dec mn mx) as [Em|Em]; [destruct (C Em); lra|]. destruct B; lra.
Qed.

Let s := srun np_histogram (stats_new l) os.
Let now := contents l os.
Theorem count_histogram : asked_before_load false os = true -> map ry now = map Fin vals -> vals <> [] ->
  (0 < nb)%Z ->
  exists mn mx lo hi xs cs, In mn vals /\ In mx vals /\ (forall v, In v vals -> mn <= v <= mx) /\
    (mn < mx -> lo = mn /\ hi = mx) /\ (mn = mx -> lo = mn - 1/2 /\ hi = mn + 1/2) /\
    fst (rayCountHistogram np_histogram s bins None None) = Ok (Some (xs, cs)) /\
    is_histogram vals nb lo hi xs cs /\ zsum cs = Z.of_nat (List.length now).
Proof.
  intros HA HV Hne Hb.
  destruct (stats_current np_histogram l os np_respects_eq HA) as (_ & _ & H & _).
  destruct (default_spec Hb Hne) as (mn & mx & lo & hi & xs & cs & A1 & A2 & A3 & A4 & A5 & A6 & A7 & A8).
  exists mn, mx, lo, hi, xs, cs. repeat (split; [assumption|]).
  split; [|split; [exact A7|]].
  - apply (proj1 (H bins None None)). fold now. rewrite HV. exact A6.
  - rewrite A8. f_equal. rewrite <- (map_length Fin vals), <- HV. apply map_length.
Qed.
Theorem angles_histogram : asked_before_load false os = true -> map rth now = map Fin vals -> vals <> [] ->
  (0 < nb)%Z ->
  exists mn mx lo hi xs cs, In mn vals /\ In mx vals /\ (forall v, In v vals -> mn <= v <= mx) /\
    (mn < mx -> lo = mn /\ hi = mx) /\ (mn = mx -> lo = mn - 1/2 /\ hi = mn + 1/2) /\
    fst (rayAnglesHistogram np_histogram s bins None None) = Ok (Some (xs, cs)) /\
    is_histogram vals nb lo hi xs cs /\ zsum cs = Z.of_nat (List.length now).
Proof.
  intros HA HV Hne Hb.
  destruct (stats_current np_histogram l os np_respects_eq HA) as (_ & _ & _ & H).
  destruct (default_spec Hb Hne) as (mn & mx & lo & hi & xs & cs & A1 & A2 & A3 & A4 & A5 & A6 & A7 & A8).
  exists mn, mx, lo, hi, xs, cs. repeat (split; [assumption|]).
  split; [|split; [exact A7|]].
  - apply (proj1 (H bins None None)). fold now. rewrite HV. exact A6.
  - rewrite A8. f_equal. rewrite <- (map_length Fin vals), <- HV. apply map_length.
Qed.
(** with bounds given by the caller *)
Theorem count_histogram_bounds mn mx : asked_before_load false os = true -> map ry now = map Fin vals ->
  (0 < nb)%Z -> mn < mx ->
  exists xs cs, fst (rayCountHistogram np_histogram s bins (Some (Fin mn)) (Some (Fin mx))) = Ok (Some (xs, cs)) /\
    is_histogram vals nb mn mx xs cs.
Proof.
  intros HA HV Hb Hm.
  destruct (stats_current np_histogram l os np_respects_eq HA) as (_ & _ & H & _).
  destruct (np_ok vals nb mn mx Hb ltac:(lra)) as (lo & hi & xs & cs & A & B & _ & D).
  destruct (B Hm) as [-> ->]. exists xs, cs. split; [|exact D].
  apply (proj1 (H bins (Some (Fin mn)) (Some (Fin mx)))). fold now. rewrite HV. exact A.
Qed.
Theorem angles_histogram_bounds mn mx : asked_before_load false os = true -> map rth now = map Fin vals ->
  (0 < nb)%Z -> mn < mx ->
  exists xs cs, fst (rayAnglesHistogram np_histogram s bins (Some (Fin mn)) (Some (Fin mx))) = Ok (Some (xs, cs)) /\
    is_histogram vals nb mn mx xs cs.
Proof.
  intros HA HV Hb Hm.
  destruct (stats_current np_histogram l os np_respects_eq HA) as (_ & _ & _ & H).
  destruct (np_ok vals nb mn mx Hb ltac:(lra)) as (lo & hi & xs & cs & A & B & _ & D).
  destruct (B Hm) as [-> ->]. exists xs, cs. split; [|exact D].
  apply (proj1 (H bins (Some (Fin mn)) (Some (Fin mx)))). fold now. rewrite HV. exact A.
Qed.
End History.
