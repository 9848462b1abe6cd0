(** The search of fieldStop and halfFieldOfView (imagingpath.py 606-636, 717-748), studied on
    real numbers: when it returns, what it returns, and when it never returns. *)
From Coq Require Import Reals Lra Lia List Bool.
From Verif Require Import Base Nums.
Open Scope R_scope.

Definition prec : R := / 1000000.

(** the loop on real numbers, for a chief ray from height [y] that is blocked iff [blk y];
    outer [None]: out of fuel, inner [None]: given up above 10000 *)
Section Search.
Variable blk : R -> bool.

Fixpoint rs (fuel : nat) (w : bool) (dy y : R) (was : bool) (lst : R) : option (option R) :=
  match fuel with
  | O => None
  | S fuel =>
      if Rltb prec (Rabs dy) || negb (Bool.eqb was w) then
        let b := blk y in
        let dy' := if negb (Bool.eqb b was) then - dy / 2 else dy * (3 / 2) in
        if Rltb 10000 (Rabs (y + dy')) && negb b then Some None
        else rs fuel w dy' (y + dy') b y
      else Some (Some lst)
  end.

(** the loop ends with [o], whatever the fuel above some bound *)
Definition conv w dy y was lst o : Prop :=
  exists n, forall fuel, (n <= fuel)%nat -> rs fuel w dy y was lst = Some o.

Lemma conv_done w dy y lst : Rabs dy <= prec -> conv w dy y w lst (Some lst).
Proof.
  intros H. exists 1%nat. intros [|f] Hf; [lia|]. cbn.
  rewrite Rltb_ge by exact H. rewrite eqb_reflx. reflexivity.
Qed.

Lemma conv_step w dy y was lst b dy' y' o : blk y = b ->
  prec < Rabs dy \/ was <> w ->
  dy' = (if negb (Bool.eqb b was) then - dy / 2 else dy * (3 / 2)) ->
  y' = y + dy' ->
  b = true \/ Rabs y' <= 10000 ->
  conv w dy' y' b y o -> conv w dy y was lst o.
Proof.
  intros Hb Hgo -> -> Hh (n & Hn). exists (S n). intros [|f] Hf; [lia|]. cbn.
  assert (Rltb prec (Rabs dy) || negb (Bool.eqb was w) = true) as ->.
  { destruct Hgo as [G|G]; [now rewrite Rltb_lt|].
    destruct was, w; try congruence; cbn; apply orb_true_r. }
  rewrite Hb.
  assert (Rltb 10000 (Rabs (y + (if negb (Bool.eqb b was) then - dy / 2 else dy * (3 / 2))))
            && negb b = false) as ->.
  { destruct Hh as [->|Hh]; [apply andb_false_r|]. now rewrite Rltb_ge. }
  apply Hn. lia.
Qed.

Lemma conv_high w dy y was lst dy' : blk y = false ->
  prec < Rabs dy -> was = false ->
  dy' = dy * (3 / 2) -> 10000 < Rabs (y + dy') ->
  conv w dy y was lst None.
Proof.
  intros Hb Hgo -> -> Hh. exists 1%nat. intros [|f] Hf; [lia|]. cbn.
  rewrite (Rltb_lt prec) by exact Hgo. rewrite Hb. cbn. now rewrite Rltb_lt.
Qed.

Lemma conv_fun w dy y was lst o o' :
  conv w dy y was lst o -> conv w dy y was lst o' -> o = o'.
Proof.
  intros (n & Hn) (n' & Hn'). specialize (Hn (n + n')%nat ltac:(lia)).
  specialize (Hn' (n + n')%nat ltac:(lia)). congruence.
Qed.

(** heights tried while no chief ray is blocked: y_k = 3 (1.5^k - 1) / 10000 *)
Definition step_k (k : nat) : R := (3/2) ^ k / 10000.
Definition tried (k : nat) : R := 3 * (step_k k - / 10000).

Lemma step_S k : step_k (S k) = step_k k * (3/2).
Proof. unfold step_k. cbn. field. Qed.
Lemma step_pos k : 0 < step_k k.
Proof.
  unfold step_k. apply Rmult_lt_0_compat; [apply pow_lt; lra|lra].
Qed.
Lemma step_mono k k' : (k <= k')%nat -> step_k k <= step_k k'.
Proof.
  intros H. induction H; [lra|]. rewrite step_S. pose proof (step_pos m). lra.
Qed.
Lemma step_0 : step_k 0 = / 10000.
Proof. unfold step_k. cbn. lra. Qed.
Lemma step_1 : step_k 1 = 3 / 20000.
Proof. rewrite step_S, step_0. lra. Qed.
Lemma step_2 : step_k 2 = 9 / 40000.
Proof. rewrite step_S, step_1. lra. Qed.
Lemma step_41 : 1658.5 < step_k 41 < 1658.6.
Proof. unfold step_k. cbn [pow]. split; lra. Qed.
Lemma step_42 : 2487 < step_k 42 < 2488.
Proof. rewrite step_S. pose proof step_41. lra. Qed.
Lemma tried_S k : tried (S k) = tried k + step_k (S k).
Proof. unfold tried. rewrite step_S. lra. Qed.
Lemma tried_pos k : 0 <= tried k.
Proof. unfold tried. pose proof (step_mono 0 k ltac:(lia)). rewrite step_0 in *. lra. Qed.
Lemma tried_mono k k' : (k <= k')%nat -> tried k <= tried k'.
Proof. intros H. unfold tried. pose proof (step_mono k k' H). lra. Qed.
Lemma tried_0 : tried 0 = 0.
Proof. unfold tried. rewrite step_0. lra. Qed.

(** growing phase *)
Lemma grow_all w : forall j k lst, (k + j = 42)%nat -> (1 <= k)%nat ->
  (forall i, (k <= i <= 42)%nat -> blk (tried i) = false) ->
  conv w (step_k k) (tried k) false lst None.
Proof.
  induction j as [|j IH]; intros k lst Hk Hk1 Hb.
  - replace k with 42%nat in * by lia.
    eapply (conv_high w (step_k 42) (tried 42) false lst _).
    + apply Hb. lia.
    + rewrite Rabs_pos_eq; unfold prec; pose proof step_42; lra.
    + reflexivity.
    + reflexivity.
    + rewrite <- step_S, <- tried_S. rewrite Rabs_pos_eq by apply tried_pos.
      unfold tried. rewrite step_S. pose proof step_42. lra.
  - eapply (conv_step w (step_k k) (tried k) false lst false (step_k (S k)) (tried (S k))).
    + apply Hb. lia.
    + left. rewrite Rabs_pos_eq by (pose proof (step_pos k); lra).
      pose proof (step_mono 0 k ltac:(lia)). rewrite step_0 in *. unfold prec. lra.
    + cbn. apply step_S.
    + apply tried_S.
    + right. rewrite Rabs_pos_eq by apply tried_pos.
      pose proof (tried_mono (S k) 42 ltac:(lia)). pose proof step_42.
      unfold tried in *. lra.
    + apply IH; try lia. intros; apply Hb; lia.
Qed.

Lemma grow_to w : forall j k n lst o, (n = k + j)%nat -> (1 <= k)%nat -> (n <= 42)%nat ->
  (forall i, (k <= i < n)%nat -> blk (tried i) = false) ->
  (forall l, conv w (step_k n) (tried n) false l o) ->
  conv w (step_k k) (tried k) false lst o.
Proof.
  induction j as [|j IH]; intros k n lst o Hn Hk1 Hn2 Hb Ho.
  - replace k with n in * by lia. apply Ho.
  - eapply (conv_step w (step_k k) (tried k) false lst false (step_k (S k)) (tried (S k))).
    + apply Hb. lia.
    + left. rewrite Rabs_pos_eq by (pose proof (step_pos k); lra).
      pose proof (step_mono 0 k ltac:(lia)). rewrite step_0 in *. unfold prec. lra.
    + cbn. apply step_S.
    + apply tried_S.
    + right. rewrite Rabs_pos_eq by apply tried_pos.
      pose proof (tried_mono (S k) 42 ltac:(lia)). pose proof step_42.
      unfold tried in *. lra.
    + apply (IH (S k) n); try lia; auto. intros; apply Hb; lia.
Qed.

(** ** With a threshold *)
Variable h : R.
Hypothesis Hh : 0 < h.
Hypothesis Hblk : forall y, blk y = Rltb h (Rabs y).

Lemma blk_yes y : h < y \/ y < - h -> blk y = true.
Proof. intros H. rewrite Hblk. apply Rltb_lt. unfold Rabs. destruct (Rcase_abs y); lra. Qed.
Lemma blk_no y : - h <= y <= h -> blk y = false.
Proof. intros H. rewrite Hblk. apply Rltb_ge. apply Rabs_le. lra. Qed.

(** what the loop may return, looking for a transmitted ([w = false]) or blocked ray *)
Definition result (w : bool) (v : R) : Prop :=
  if w then h < v <= h + 2 * prec else v <= h < v + 2 * prec.

(** the edge is bracketed by a transmitted height [a] and a blocked one [a + d] *)
Definition bracket (a d : R) : Prop :=
  0 < d /\ a <= h < a + d /\ - h <= a - d /\ a + 2 * d <= 10000.

(** just turned around at the blocked end, or at the transmitted end *)
Definition fromB w a d := exists v, result w v /\ conv w (- (d / 2)) (a + d / 2) true (a + d) (Some v).
Definition fromA w a d := exists v, result w v /\ conv w (d / 2) (a + d / 2) false a (Some v).

Lemma small_A a d : bracket a d -> d <= 2 * prec -> fromA false a d.
Proof.
  intros (H1 & H2 & _) Hd. exists a. split; [cbn; lra|].
  apply conv_done. rewrite Rabs_pos_eq; lra.
Qed.
Lemma small_B a d : bracket a d -> d <= 2 * prec -> fromB true a d.
Proof.
  intros (H1 & H2 & _) Hd. exists (a + d). split; [cbn; lra|].
  apply conv_done. rewrite Rabs_Ropp, Rabs_pos_eq; lra.
Qed.

(** one turn: from the blocked end to a new bracket seen from its transmitted end *)
Lemma turn_B w a d : bracket a d -> (2 * prec < d \/ w = false) ->
  (fromA w (a + d / 2) (d / 2) \/ blk (a + d / 2) = true) ->
  (fromA w (a - d / 4) (3 / 4 * d) \/ blk (a + d / 2) = false) -> fromB w a d.
Proof.
  intros (H1 & H2 & H3 & H4) Hw HA HB. unfold fromB.
  assert (prec < Rabs (- (d / 2)) \/ true <> w) as Hgo.
  { destruct Hw as [Hw| ->]; [left; rewrite Rabs_Ropp, Rabs_pos_eq; lra|right; discriminate]. }
  destruct (blk (a + d / 2)) eqn:E.
  - destruct HB as [(v & Hv & Hc)|]; [|discriminate]. exists v. split; auto.
    eapply (conv_step w _ _ _ _ true (- (3 / 4 * d)) (a - d / 4)); auto; try (cbn; lra).
    eapply (conv_step w _ _ _ _ false (3 / 4 * d / 2) (a - d / 4 + 3 / 4 * d / 2));
      [| | | | |exact Hc]; auto.
    + apply blk_no. lra.
    + destruct Hw as [Hw| ->]; [left; rewrite Rabs_Ropp, Rabs_pos_eq; lra|right; discriminate].
    + cbn. lra.
    + right. apply Rabs_le. lra.
  - destruct HA as [(v & Hv & Hc)|]; [|discriminate]. exists v. split; auto.
    eapply (conv_step w _ _ _ _ false (d / 2 / 2) (a + d / 2 + d / 2 / 2)); auto; try (cbn; lra).
    right. apply Rabs_le. lra.
Qed.

Lemma turn_A w a d : bracket a d -> (2 * prec < d \/ w = true) ->
  (fromB w a (d / 2) \/ blk (a + d / 2) = false) ->
  (fromB w (a + d / 2) (3 / 4 * d) \/ blk (a + d / 2) = true) -> fromA w a d.
Proof.
  intros (H1 & H2 & H3 & H4) Hw HB HA. unfold fromA.
  assert (prec < Rabs (d / 2) \/ false <> w) as Hgo.
  { destruct Hw as [Hw| ->]; [left; rewrite Rabs_pos_eq; lra|right; discriminate]. }
  destruct (blk (a + d / 2)) eqn:E.
  - destruct HB as [(v & Hv & Hc)|]; [|discriminate]. exists v. split; auto.
    eapply (conv_step w _ _ _ _ true (- (d / 2 / 2)) (a + d / 2 / 2)); auto; try (cbn; lra).
  - destruct HA as [(v & Hv & Hc)|]; [|discriminate]. exists v. split; auto.
    eapply (conv_step w _ _ _ _ false (3 / 4 * d) (a + 5 / 4 * d)); auto; try (cbn; lra).
    { right. apply Rabs_le. lra. }
    eapply (conv_step w _ _ _ _ true (- (3 / 4 * d / 2)) (a + d / 2 + 3 / 4 * d / 2)); auto.
    + apply blk_yes. lra.
    + destruct Hw as [Hw| ->]; [left; rewrite Rabs_pos_eq; lra|right; discriminate].
    + cbn. lra.
    + lra.
    + replace (a + 5 / 4 * d) with (a + d / 2 + 3 / 4 * d) by lra. exact Hc.
Qed.

Lemma bracket_half_up a d : bracket a d -> blk (a + d / 2) = false -> bracket (a + d / 2) (d / 2).
Proof.
  intros (H1 & H2 & H3 & H4) E. rewrite Hblk in E. apply Rltb_false in E.
  pose proof (Rle_abs (a + d / 2)). unfold bracket. lra.
Qed.
Lemma bracket_half_down a d : bracket a d -> blk (a + d / 2) = true -> bracket a (d / 2).
Proof.
  intros (H1 & H2 & H3 & H4) E. rewrite Hblk in E. apply Rltb_true in E.
  assert (h < a + d / 2) by (revert E; unfold Rabs; destruct (Rcase_abs (a + d/2)); lra).
  unfold bracket. lra.
Qed.
Lemma bracket_over_down a d : bracket a d -> blk (a + d / 2) = true ->
  bracket (a - d / 4) (3 / 4 * d).
Proof.
  intros H E. pose proof (bracket_half_down _ _ H E). unfold bracket in *. lra.
Qed.
Lemma bracket_over_up a d : bracket a d -> blk (a + d / 2) = false ->
  bracket (a + d / 2) (3 / 4 * d).
Proof.
  intros H E. pose proof (bracket_half_up _ _ H E). unfold bracket in *. lra.
Qed.

Lemma converges n : forall w a d, bracket a d -> d <= 2 * prec * (4 / 3) ^ n ->
  fromA w a d /\ fromB w a d.
Proof.
  induction n as [|n IH]; intros w a d HK Hd.
  - cbn in Hd. assert (d <= 2 * prec) as Hd' by lra.
    pose proof HK as (Hp & _). destruct w; split.
    + apply turn_A; auto.
      * destruct (blk (a + d / 2)) eqn:E; auto. left. apply small_B; [now apply bracket_half_down|lra].
      * destruct (blk (a + d / 2)) eqn:E; auto. left. apply small_B; [now apply bracket_over_up|lra].
    + apply small_B; auto.
    + apply small_A; auto.
    + apply turn_B; auto.
      * destruct (blk (a + d / 2)) eqn:E; auto. left. apply small_A; [now apply bracket_half_up|lra].
      * destruct (blk (a + d / 2)) eqn:E; auto. left. apply small_A; [now apply bracket_over_down|lra].
  - destruct (Rle_dec d (2 * prec)) as [Hs|Hs].
    + apply (IH w a d HK). pose proof (pow_R1_Rle (4/3) n ltac:(lra)).
      unfold prec in *. nra.
    + cbn in Hd. pose proof HK as (Hp & _). split.
      * apply turn_A; auto; [left; lra| |];
          destruct (blk (a + d / 2)) eqn:E; auto; left; apply IH;
            try (now apply bracket_half_down); try (now apply bracket_over_up); lra.
      * apply turn_B; auto; [left; lra| |];
          destruct (blk (a + d / 2)) eqn:E; auto; left; apply IH;
            try (now apply bracket_half_up); try (now apply bracket_over_down); lra.
Qed.

Lemma pow_big d : exists n, d <= 2 * prec * (4 / 3) ^ n.
Proof.
  destruct (Pow_x_infinity (4/3) ltac:(rewrite Rabs_pos_eq; lra) (Rabs d / (2 * prec))) as [n Hn].
  exists n. specialize (Hn n (le_n _)).
  rewrite (Rabs_pos_eq ((4/3) ^ n)) in Hn by (apply pow_le; lra).
  pose proof (Rle_abs d). unfold prec in *.
  assert (Rabs d = Rabs d / (2 * / 1000000) * (2 * / 1000000)) by field. nra.
Qed.

Lemma converges_A w a d : bracket a d -> fromA w a d.
Proof. destruct (pow_big d) as [n Hn]. intros. now apply (converges n). Qed.
Lemma converges_B w a d : bracket a d -> fromB w a d.
Proof. destruct (pow_big d) as [n Hn]. intros. now apply (converges n). Qed.

(** ** The whole search *)
Definition start w o := conv w (/ 10000) 0 false 0 o.

Lemma start_grow w o : (forall l, conv w (step_k 1) (tried 1) false l o) -> start w o.
Proof.
  intros H. unfold start. eapply (conv_step w _ _ _ _ false (step_k 1) (tried 1)).
  - apply blk_no. lra.
  - left. rewrite Rabs_pos_eq by lra. unfold prec. lra.
  - cbn. rewrite step_1. lra.
  - unfold tried. rewrite step_1. lra.
  - right. unfold tried. rewrite step_1. apply Rabs_le. lra.
  - apply H.
Qed.

Lemma start_high w : tried 42 <= h -> start w None.
Proof.
  intros H. apply start_grow. intros l. apply (grow_all w 41); try lia.
  intros i Hi. apply blk_no. pose proof (tried_pos i). pose proof (tried_mono i 42 ltac:(lia)). lra.
Qed.

(** first blocked height when the edge lies between two tried heights, the second not the first
    one tried *)
Lemma grow_turn w k l : (2 <= k <= 42)%nat -> tried (k - 1) <= h < tried k ->
  exists v, result w v /\ conv w (step_k k) (tried k) false l (Some v).
Proof.
  intros Hk Hb. destruct k as [|k]; [lia|]. replace (S k - 1)%nat with k in Hb by lia.
  assert (bracket (tried k) (step_k (S k))) as HK.
  { pose proof (step_pos (S k)). pose proof (step_mono (S k) 42 ltac:(lia)). pose proof step_42.
    pose proof (step_mono 1 k ltac:(lia)) as K1. rewrite step_1 in K1.
    rewrite tried_S in Hb. unfold bracket. split; [lra|]. split; [lra|].
    unfold tried in *. rewrite (step_S k) in *. lra. }
  destruct (converges_B w _ _ HK) as (v & Hv & Hc). exists v. split; auto.
  eapply (conv_step w _ _ _ _ true (- (step_k (S k) / 2)) (tried k + step_k (S k) / 2)).
  - apply blk_yes. lra.
  - left. rewrite Rabs_pos_eq by (pose proof (step_pos (S k)); lra).
    pose proof (step_mono 0 (S k) ltac:(lia)). rewrite step_0 in *. unfold prec. lra.
  - cbn [Bool.eqb negb]. lra.
  - rewrite tried_S. lra.
  - now left.
  - rewrite tried_S. exact Hc.
Qed.

Lemma start_far w : tried 1 <= h < tried 42 -> exists v, result w v /\ start w (Some v).
Proof.
  intros H.
  assert (exists k, (2 <= k <= 42)%nat /\ tried (k - 1) <= h < tried k) as (k & Hk & Hb).
  { assert (forall j, (j <= 41)%nat -> tried 1 <= h < tried (S j) -> 
      exists k, (2 <= k <= 42)%nat /\ tried (k - 1) <= h < tried k) as HX.
    { induction j as [|j IH]; intros Hj Hb; [lra|].
      destruct (Rlt_dec h (tried (S j))) as [Hs|Hs]; [apply IH; [lia|lra]|].
      exists (S (S j)). split; [lia|]. cbn [Nat.sub]. split; lra. }
    apply (HX 41%nat); auto. }
  assert (forall l, exists v, result w v /\ conv w (step_k k) (tried k) false l (Some v)) as HC.
  { intros l. now apply grow_turn. }
  destruct (HC 0) as (v & Hv & Hc). exists v. split; auto. apply start_grow. intros l.
  apply (grow_to w (k - 1) 1 k); try lia.
  - intros i Hi. apply blk_no. pose proof (tried_pos i).
    pose proof (tried_mono i (k - 1) ltac:(lia)). lra.
  - intros l'. destruct (HC l') as (v' & Hv' & Hc').
    destruct Hc as (n & Hn), Hc' as (n' & Hn'). exists (S (n + n'))%nat. intros fuel Hf.
    specialize (Hn fuel ltac:(lia)). specialize (Hn' fuel ltac:(lia)).
    (* the last height does not matter before the first round *)
    destruct fuel as [|f]; [lia|]. cbn [rs] in Hn |- *.
    rewrite (Rltb_lt prec) in *.
    2,3: rewrite Rabs_pos_eq by (pose proof (step_pos k); lra);
      pose proof (step_mono 0 k ltac:(lia)) as K0; rewrite step_0 in K0; unfold prec; lra.
    exact Hn.
Qed.

Ltac go := left; first [rewrite Rabs_pos_eq by lra | rewrite Rabs_left by lra]; unfold prec; lra.
Ltac inside := first [now left | right; apply Rabs_le; lra].

(** edges below the first height tried *)
Lemma start_near w : 3 / 80000 <= h < tried 1 -> exists v, result w v /\ start w (Some v).
Proof.
  intros H. assert (tried 1 = 3 / 20000) as E1 by (unfold tried; rewrite step_1; lra).
  rewrite E1 in H.
  assert (exists v, result w v /\
    forall l, conv w (step_k 1) (tried 1) false l (Some v)) as (v & Hv & Hc).
  2:{ exists v. split; auto. now apply start_grow. }
  rewrite step_1, E1.
  (* first turn, at 1.5e-4 *)
  assert (forall v, conv w (- (3/40000)) (3/40000) true (3/20000) (Some v) ->
    forall l, conv w (3/20000) (3/20000) false l (Some v)) as T1.
  { intros v Hc l. eapply (conv_step w _ _ _ _ true _ _); [|go| | | |exact Hc]; try (cbn; lra); try inside.
    apply blk_yes. lra. }
  destruct (Rle_dec (3/40000) h) as [H1|H1].
  { destruct (converges_A w (3/40000) (3/40000)) as (v & Hv & Hc); [unfold bracket; lra|].
    exists v. split; auto. apply T1.
    eapply (conv_step w _ _ _ _ false _ _); [|go| | | |exact Hc]; try (cbn; lra); try inside.
    apply blk_no. lra. }
  (* overshoot to -3.75e-5, transmitted, then up *)
  assert (forall v, conv w (27/320000) (33/320000) false (3/160000) (Some v) ->
    conv w (- (3/40000)) (3/40000) true (3/20000) (Some v)) as T2.
  { intros v Hc.
    eapply (conv_step w _ _ _ _ true (- (9/80000)) (- (3/80000))); try (cbn; lra); try inside; try go.
    { apply blk_yes. lra. }
    eapply (conv_step w _ _ _ _ false (9/160000) (3/160000)); try (cbn; lra); try inside; try go.
    { apply blk_no. lra. }
    eapply (conv_step w _ _ _ _ false (27/320000) (33/320000)); try (cbn; lra); try inside; try go.
    { apply blk_no. lra. }
    exact Hc. }
  assert (forall v, conv w (- (27/640000)) (39/640000) true (33/320000) (Some v) ->
    conv w (27/320000) (33/320000) false (3/160000) (Some v)) as T3.
  { intros v Hc.
    eapply (conv_step w _ _ _ _ true _ _); [|go| | | |exact Hc]; try (cbn; lra); try inside.
    apply blk_yes. lra. }
  destruct (Rle_dec (39/640000) h) as [H2|H2].
  { destruct (converges_A w (39/640000) (27/640000)) as (v & Hv & Hc); [unfold bracket; lra|].
    exists v. split; auto. apply T1, T2, T3.
    eapply (conv_step w _ _ _ _ false _ _); [|go| | | |exact Hc]; try (cbn; lra); try inside.
    apply blk_no. lra. }
  destruct (converges_B w (75/2560000) (243/5120000)) as (v & Hv & Hc); [unfold bracket; lra|].
  exists v. split; auto. apply T1, T2, T3.
  eapply (conv_step w _ _ _ _ true (- (81/1280000)) (- (3/1280000))); try (cbn; lra); try inside; try go.
  { apply blk_yes. lra. }
  eapply (conv_step w _ _ _ _ false (81/2560000) (75/2560000)); try (cbn; lra); try inside; try go.
  { apply blk_no. lra. }
  eapply (conv_step w _ _ _ _ false (243/5120000) (393/5120000)); try (cbn; lra); try inside; try go.
  { apply blk_no. lra. }
  eapply (conv_step w _ _ _ _ true _ _); [|go| | | |]; [| | | |].
  5:{ replace (393/5120000) with (75/2560000 + 243/5120000) by lra. exact Hc. }
  all: try (cbn; lra); try inside.
  apply blk_yes. lra.
Qed.

Theorem search_returns w : 3 / 80000 <= h < tried 42 -> exists v, result w v /\ start w (Some v).
Proof.
  intros H. destruct (Rle_dec (tried 1) h); [apply start_far|apply start_near]; lra.
Qed.

(** running away downwards *)
Lemma away w : forall fuel dy y lst, prec < - dy -> y < - h ->
  rs fuel w dy y true lst = None.
Proof.
  induction fuel as [|f IH]; intros dy y lst Hd Hy; auto. cbn.
  rewrite (Rltb_lt prec) by (rewrite Rabs_left; unfold prec in *; lra). cbn [orb].
  rewrite (blk_yes y) by lra. cbn. rewrite andb_false_r.
  apply IH; unfold prec in *; lra.
Qed.

Theorem search_runs_away w : h < 3 / 80000 -> forall fuel lst, rs fuel w (/ 10000) 0 false lst = None.
Proof.
  intros H [|[|[|f]]] lst; cbn [rs]; auto;
    rewrite (Rltb_lt prec) by (rewrite Rabs_pos_eq; unfold prec; lra); cbn [orb];
    rewrite (blk_no 0) by lra; cbn [Bool.eqb negb andb];
    rewrite andb_true_r, (Rltb_ge 10000) by (apply Rabs_le; lra); auto;
    rewrite (Rltb_lt prec) by (rewrite Rabs_pos_eq; unfold prec; lra); cbn [orb];
    rewrite (blk_yes (0 + / 10000 * (3 / 2))) by lra; cbn [Bool.eqb negb andb];
    rewrite andb_false_r; auto;
    rewrite (Rltb_lt prec) by (rewrite Rabs_left; unfold prec; lra); cbn [orb];
    match goal with |- context [blk ?y] => rewrite (blk_yes y) by lra end;
    cbn [Bool.eqb negb andb]; rewrite andb_false_r; auto.
  apply away; unfold prec; lra.
Qed.
End Search.

Lemma start_unlimited blk : (forall y, blk y = false) -> forall w, start blk w None.
Proof.
  intros H w. unfold start.
  eapply (conv_step blk w _ _ _ _ false (step_k 1) (tried 1)); auto.
  - left. rewrite Rabs_pos_eq by lra. unfold prec. lra.
  - cbn. rewrite step_1. lra.
  - unfold tried. rewrite step_1. lra.
  - right. unfold tried. rewrite step_1. apply Rabs_le. lra.
  - apply (grow_all blk w 41); auto.
Qed.
