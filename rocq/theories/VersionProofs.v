(** Proofs about the check for a new version (Version.v). *)
From Coq Require Import List Bool String Ascii ZArith NArith Lia DecimalString Decimal.
From Verif Require Import Base Format FormatProofs Version.
Import ListNotations.
Open Scope Z_scope.

(** the date and time of [t] is written with 19 characters and can be read back *)
Definition readable (date : Z -> string) (undate : string -> option Z) (t : datetime) : Prop :=
  String.length (date (t_s t)) = 19%nat /\ undate (date (t_s t)) = Some (t_s t).

Lemma substring_all : forall s, substring 0 (String.length s) s = s.
Proof. induction s as [|a s IH]; [reflexivity|]. cbn. now rewrite IH. Qed.
Lemma substring_app_l : forall a b, substring 0 (String.length a) (a ++ b) = a.
Proof. induction a as [|x a IH]; intros b; [destruct b; reflexivity|]. cbn. now rewrite IH. Qed.
Lemma substring_app_r : forall a b, substring (String.length a) (String.length b) (a ++ b) = b.
Proof. induction a as [|x a IH]; intros b; [apply substring_all|]. cbn. apply IH. Qed.
Lemma append_empty_r : forall a, (a ++ "")%string = a.
Proof. induction a as [|x a IH]; [reflexivity|]. cbn. now rewrite IH. Qed.

Lemma digits_of_uint : forall u, all_digits (NilEmpty.string_of_uint u) = true.
Proof. induction u; cbn; auto. Qed.
Lemma digits_decimal n : all_digits (decimal n) = true.
Proof.
  unfold decimal, NilZero.string_of_uint. destruct (N.to_uint n) eqn:E; [reflexivity|rewrite <- E; apply digits_of_uint..].
Qed.
Lemma digits_zeros : forall k s, all_digits (zeros k ++ s) = all_digits s.
Proof. induction k as [|k IH]; intros s; [reflexivity|]. cbn. apply IH. Qed.

(** a number below 10^k has at most k digits *)
Lemma of_uint_acc_lower : forall u acc, (10 ^ N.of_nat (String.length (NilEmpty.string_of_uint u)) * Npos acc <= Npos (Pos.of_uint_acc u acc))%N.
Proof.
  induction u; intros acc; [cbn [Pos.of_uint_acc NilEmpty.string_of_uint String.length N.of_nat]; lia|..];
  cbn [Pos.of_uint_acc NilEmpty.string_of_uint String.length];
  match goal with |- (_ <= N.pos (Pos.of_uint_acc _ ?a))%N => specialize (IHu a) end;
  rewrite Nat2N.inj_succ, N.pow_succ_r'; lia.
Qed.
Lemma decimal_length n k : (0 < k)%nat -> (n < 10 ^ N.of_nat k)%N -> (String.length (decimal n) <= k)%nat.
Proof.
  intros Hk H. unfold decimal, NilZero.string_of_uint.
  pose proof (DecimalN.Unsigned.of_to n) as E. destruct n as [|p]; [cbn; lia|].
  change (N.to_uint (N.pos p)) with (Pos.to_uint p) in *.
  assert (forall u, (N.of_uint u < 10 ^ N.of_nat k)%N -> unorm u = u -> u <> D0 Nil -> u <> Nil ->
    (String.length (NilEmpty.string_of_uint u) <= k)%nat) as G.
  { intros u Hu Hn H0 H1.
    assert (exists a w, (N.of_uint u = N.pos (Pos.of_uint_acc w a)) /\
      String.length (NilEmpty.string_of_uint u) = S (String.length (NilEmpty.string_of_uint w))) as (a & w & Ew & El).
    { destruct u as [|w|w|w|w|w|w|w|w|w|w]; [congruence| |eexists _, w; split; reflexivity..].
      exfalso. cbn in Hn. unfold unorm in Hn. cbn in Hn. destruct (nzhead w) eqn:Z; [injection Hn as <-; congruence|..];
      pose proof (f_equal nb_digits Hn) as L; cbn in L;
      (assert (nb_digits (nzhead w) <= nb_digits w)%nat as L2 by (apply DecimalFacts.nb_digits_nzhead));
      rewrite Z in L2; cbn in L2; lia. }
    rewrite Ew in Hu. pose proof (of_uint_acc_lower w a) as L. rewrite El.
    assert (10 ^ N.of_nat (String.length (NilEmpty.string_of_uint w)) < 10 ^ N.of_nat k)%N as X.
    { eapply N.le_lt_trans; [|exact Hu]. etransitivity; [|exact L]. nia. }
    apply N.pow_lt_mono_r_iff in X; lia. }
  assert (N1 : Pos.to_uint p <> Nil) by apply DecimalPos.Unsigned.to_uint_nonnil.
  assert (N0 : unorm (Pos.to_uint p) = Pos.to_uint p).
  { change (Pos.to_uint p) with (N.to_uint (N.pos p)). rewrite <- DecimalN.Unsigned.to_of. now rewrite DecimalN.Unsigned.of_to. }
  assert (G' : (String.length (NilEmpty.string_of_uint (Pos.to_uint p)) <= k)%nat).
  { apply G; [now rewrite E|exact N0| |exact N1]. intros Z. rewrite Z in E. discriminate. }
  destruct (Pos.to_uint p); [congruence|exact G'..].
Qed.

Lemma fraction_reads n : (0 < n)%Z -> (n < 1000000)%Z ->
  let f := decimal (Z.to_N n) in fraction (zeros (6 - String.length f) ++ f) = Some n.
Proof.
  intros H0 H1 f. assert (String.length f <= 6)%nat as L by (apply decimal_length; [lia|cbn; lia]).
  assert (String.length (zeros (6 - String.length f) ++ f) = 6)%nat as L6 by (rewrite length_app, length_zeros; lia).
  unfold fraction. rewrite L6, digits_zeros. unfold f at 1. rewrite digits_decimal. cbn [Nat.leb andb].
  destruct (zeros_read (6 - String.length f) f _ (decimal_reads (Z.to_N n))) as (v & Ev & Kv).
  rewrite Ev, Kv, DecimalN.Unsigned.of_to. f_equal. rewrite Z2N.id by lia. cbn. lia.
Qed.

Section Proofs.
Context (date : Z -> string) (undate : string -> option Z).

Lemma read_back t : readable date undate t -> 0 < t_us t < 1000000 -> strptime undate (isoformat date t) = Ok t.
Proof.
  intros [L R] H. unfold strptime, isoformat. destruct (Z.eqb_spec (t_us t) 0) as [E|_]; [lia|]. cbv zeta.
  set (f := decimal (Z.to_N (t_us t))). set (g := (zeros (6 - String.length f) ++ f)%string).
  rewrite <- L at 1. rewrite substring_app_l, R.
  replace (String.length (date (t_s t) ++ "." ++ g) - 19)%nat with (String.length ("." ++ g)) by (rewrite (length_app (date (t_s t))), L; lia).
  rewrite <- L at 1. rewrite substring_app_r. cbn [append].
  unfold g, f. rewrite fraction_reads by lia. destruct t; reflexivity.
Qed.
Lemma read_whole t : readable date undate t -> t_us t = 0 -> strptime undate (isoformat date t) = Err ValueError.
Proof.
  intros [L R] H. unfold strptime, isoformat. rewrite H. cbn [Z.eqb]. rewrite L. cbn [Nat.sub].
  rewrite <- L at 1. rewrite substring_all, R.
  replace (substring 19 0 (date (t_s t))) with EmptyString; [reflexivity|].
  generalize 19%nat (date (t_s t)). induction n as [|n IH]; intros [|a s]; try reflexivity. cbn. apply IH.
Qed.

Lemma check_due t now : readable date undate t -> 0 < t_us t < 1000000 ->
  lastCheckMoreThanADay undate (Some (isoformat date t)) now = Ok (2 * 86400000000 <=? instant now - instant t).
Proof.
  intros R H. unfold lastCheckMoreThanADay. rewrite read_back by assumption. cbn [bind]. f_equal.
  unfold days_between. set (d := instant now - instant t).
  destruct (Z.leb_spec (2 * 86400000000) d) as [K|K].
  - apply Z.ltb_lt. assert (2 <= d / 86400000000) by (apply Z.div_le_lower_bound; lia). lia.
  - apply Z.ltb_ge. assert (d / 86400000000 < 2) by (apply Z.div_lt_upper_bound; lia). lia.
Qed.

(** the time of the last check after the imports [l], [c] being the check before *)
Definition last_check (c : datetime) (l : list datetime) : datetime :=
  fold_left (fun c now => if 2 * 86400000000 <=? instant now - instant c then now else c) l c.

Definition fractional (t : datetime) : Prop := readable date undate t /\ 0 < t_us t < 1000000.
Lemma imports_from : forall l c, fractional c -> Forall fractional l ->
  imports date undate (Some (isoformat date c)) l = (Some (isoformat date (last_check c l)), repeat true (List.length l)).
Proof.
  induction l as [|now l IH]; intros c Hc Hl; [reflexivity|]. inversion_clear Hl.
  cbn [imports]. unfold at_import. rewrite check_due by apply Hc. cbn [bind].
  unfold last_check. cbn [fold_left List.length repeat].
  destruct (2 * 86400000000 <=? instant now - instant c); cbv zeta; fold (last_check now l); fold (last_check c l); rewrite IH; auto.
Qed.
Lemma imports_go_on t l : Forall fractional (t :: l) ->
  imports date undate None (t :: l) = (Some (isoformat date (last_check t l)), repeat true (List.length (t :: l))).
Proof. intros H. inversion_clear H. cbn [imports at_import lastCheckMoreThanADay bind]. cbv zeta. rewrite imports_from by assumption. reflexivity. Qed.
(** once a check is made on a whole second, no import succeeds any more *)
Lemma imports_stuck t l : readable date undate t -> t_us t = 0 ->
  imports date undate None (t :: l) = (Some (isoformat date t), true :: repeat false (List.length l)).
Proof.
  intros R H. cbn [imports at_import lastCheckMoreThanADay bind]. cbv zeta.
  enough (imports date undate (Some (isoformat date t)) l = (Some (isoformat date t), repeat false (List.length l))) as E by now rewrite E.
  induction l as [|now l IH]; [reflexivity|]. cbn [imports]. unfold at_import, lastCheckMoreThanADay.
  rewrite read_whole by assumption. cbn [bind]. cbv zeta. rewrite IH. reflexivity.
Qed.
(** the checks are two days apart *)
Lemma check_kept c l now : instant now - instant c < 2 * 86400000000 -> last_check c (now :: l) = last_check c l.
Proof. intros H. unfold last_check. cbn [fold_left]. destruct (Z.leb_spec (2 * 86400000000) (instant now - instant c)); [lia|reflexivity]. Qed.
End Proofs.

(** the k-th number of a release, 0 behind the end *)
Definition part (v : list N) (k : nat) : N := nth k v 0%N.
(** version numbers compare as the first parts in which they differ *)
Definition older (a b : list N) : Prop :=
  exists k, (part a k < part b k)%N /\ forall j, (j < k)%nat -> part a j = part b j.
Lemma release_ltb_older : forall a b, release_ltb a b = true <-> older a b.
Proof.
  assert (Nil : forall b, release_ltb [] b = true <-> older [] b).
  { induction b as [|y b IH]; cbn [release_ltb].
    - split; [discriminate|]. intros (k & H & _). unfold part in H. destruct k; cbn in H; lia.
    - rewrite orb_true_iff, N.ltb_lt. split.
      + intros [H|H]; [exists 0%nat; split; [exact H|lia]|].
        destruct (N.eq_dec y 0) as [->|Hy]; [|exists 0%nat; split; [cbn; lia|lia]].
        apply IH in H as (k & H & K). exists (S k). split; [destruct k; exact H|].
        intros [|j] Hj; [reflexivity|]. specialize (K j ltac:(lia)). unfold part in *. cbn in *. destruct j; exact K.
      + intros ([|k] & H & K); [left; exact H|]. right. apply IH. exists k. split.
        * unfold part in *. cbn in *. destruct k; exact H.
        * intros j Hj. specialize (K (S j) ltac:(lia)). unfold part in *. cbn in *. destruct j; exact K. }
  assert (NilR : forall a, ~ older a []).
  { intros a (k & H & _). unfold part in H. destruct k; cbn in H; lia. }
  induction a as [|x a IH]; intros b; [apply Nil|].
  destruct b as [|y b]; cbn [release_ltb]; [split; [discriminate|intros H; destruct (NilR _ H)]|].
  rewrite orb_true_iff, andb_true_iff, N.ltb_lt, N.eqb_eq. split.
  - intros [H|[-> H]]; [exists 0%nat; split; [exact H|lia]|]. apply IH in H as (k & H & K).
    exists (S k). split; [exact H|]. intros [|j] Hj; [reflexivity|]. apply (K j). lia.
  - intros ([|k] & H & K); [left; exact H|]. right. split; [apply (K 0%nat); lia|]. apply IH. exists k.
    split; [exact H|]. intros j Hj. apply (K (S j)). lia.
Qed.
Lemma older_than a b c : older a b -> ~ older c b -> older a c.
Proof.
  intros (k & H & K) N.
  assert (forall n, (exists j, (j < n)%nat /\ part c j <> part b j /\ forall i, (i < j)%nat -> part c i = part b i)
    \/ forall j, (j < n)%nat -> part c j = part b j) as First.
  { induction n as [|n [(j & L & D)|E]]; [right; lia|left; exists j; split; [lia|exact D]|].
    destruct (N.eq_dec (part c n) (part b n)) as [Q|Q].
    - right. intros j Hj. destruct (Nat.eq_dec j n) as [->|]; [exact Q|apply E; lia].
    - left. exists n. split; [lia|]. split; assumption. }
  destruct (First (S k)) as [(j & L & D & E)|E].
  - assert (part b j < part c j)%N as G.
    { destruct (N.lt_ge_cases (part c j) (part b j)) as [X|X]; [exfalso; apply N; exists j; auto|lia]. }
    destruct (Nat.eq_dec j k) as [->|].
    + exists k. split; [lia|]. intros i Hi. rewrite E, K by lia. reflexivity.
    + exists j. rewrite (K j) by lia. split; [exact G|]. intros i Hi. rewrite E, K by lia. reflexivity.
  - exists k. rewrite (E k) by lia. split; [exact H|]. intros i Hi. rewrite E, K by lia. reflexivity.
Qed.
Lemma all_some_map : forall (l : list (list N)), all_some (map Some l) = Some l.
Proof. induction l as [|a l IH]; [reflexivity|]. cbn. now rewrite IH. Qed.
(** a newer version is announced exactly when there is one, if the newest release is listed last *)
Lemma announced current l v : (forall w, In w l -> ~ older v w) ->
  checkLatestVersion current (map Some (l ++ [v])) = true <-> exists w, In w (l ++ [v]) /\ older current w.
Proof.
  intros M. unfold checkLatestVersion. rewrite all_some_map.
  assert (E : exists a t, l ++ [v] = a :: t /\ last t a = v).
  { destruct l as [|a t]; [exists v, []; auto|]. exists a, (t ++ [v]). split; [reflexivity|]. apply last_last. }
  destruct E as (a & t & E & La). rewrite E, La, <- E, release_ltb_older. split.
  - intros H. exists v. split; [apply in_or_app; right; left; reflexivity|exact H].
  - intros (w & Hw & H). apply in_app_or in Hw as [Hw|[<-|[]]]; [|exact H]. exact (older_than _ _ _ H (M w Hw)).
Qed.
Lemma announced_unreadable current l : In None l -> checkLatestVersion current l = false.
Proof.
  intros H. unfold checkLatestVersion. replace (all_some l) with (@None (list (list N))); [reflexivity|].
  induction l as [|[a|] l IH]; [destruct H| |reflexivity]. cbn. destruct H as [H|H]; [discriminate|].
  now rewrite <- IH.
Qed.

(** ** Fractions of a second with fewer than six digits *)
Local Open Scope string_scope.
Fixpoint zero_after (u : uint) : uint :=
  match u with
  | Nil => D0 Nil | D0 u => D0 (zero_after u) | D1 u => D1 (zero_after u) | D2 u => D2 (zero_after u) | D3 u => D3 (zero_after u)
  | D4 u => D4 (zero_after u) | D5 u => D5 (zero_after u) | D6 u => D6 (zero_after u) | D7 u => D7 (zero_after u)
  | D8 u => D8 (zero_after u) | D9 u => D9 (zero_after u)
  end.
Lemma pos_zero u : forall a, Pos.of_uint_acc (zero_after u) a = (10 * Pos.of_uint_acc u a)%positive.
Proof. induction u; intros a; cbn [zero_after Pos.of_uint_acc]; auto. Qed.
Lemma n_zero u : N.of_uint (zero_after u) = (10 * N.of_uint u)%N.
Proof.
  induction u; cbn [zero_after N.of_uint Pos.of_uint] in *; try exact IHu; try reflexivity;
    rewrite pos_zero; reflexivity.
Qed.
Lemma uint_zero s : NilEmpty.uint_of_string (s ++ "0") = option_map zero_after (NilEmpty.uint_of_string s).
Proof.
  induction s as [|a s IH]; [reflexivity|]. cbn [append NilEmpty.uint_of_string]. rewrite IH.
  destruct (NilEmpty.uint_of_string s) as [u|]; [|reflexivity]. cbn [option_map].
  destruct a as [[] [] [] [] [] [] [] []]; reflexivity.
Qed.
Lemma digits_app s : all_digits (s ++ "0") = all_digits s.
Proof. induction s as [|a s IH]; [reflexivity|]. cbn [append all_digits]. now rewrite IH. Qed.
Lemma len_app s : String.length (s ++ "0") = S (String.length s).
Proof. induction s as [|a s IH]; [reflexivity|]. cbn. now rewrite IH. Qed.
(** fewer than six digits: as if zeros followed *)
Theorem fraction_zero s : (1 <= String.length s < 6)%nat -> fraction (s ++ "0") = fraction s.
Proof.
  intros H. unfold fraction. rewrite len_app, digits_app, uint_zero.
  replace (1 <=? S (String.length s))%nat with true by (symmetry; apply Nat.leb_le; lia).
  replace (1 <=? String.length s)%nat with true by (symmetry; apply Nat.leb_le; lia).
  replace (S (String.length s) <=? 6)%nat with true by (symmetry; apply Nat.leb_le; lia).
  replace (String.length s <=? 6)%nat with true by (symmetry; apply Nat.leb_le; lia). cbn [andb].
  destruct (all_digits s); [|reflexivity]. destruct (NilEmpty.uint_of_string s) as [u|]; [|reflexivity]. cbn [option_map]. f_equal.
  rewrite n_zero. replace (6 - String.length s)%nat with (S (6 - S (String.length s))) by lia.
  rewrite Nat2Z.inj_succ, Z.pow_succ_r by lia. rewrite N2Z.inj_mul. cbn [Z.of_N]. ring.
Qed.
Theorem short_fraction (undate : string -> option Z) d f now : String.length d = 19%nat -> (1 <= String.length f < 6)%nat ->
  lastCheckMoreThanADay undate (Some (d ++ "." ++ f)) now = lastCheckMoreThanADay undate (Some (d ++ "." ++ f ++ "0")) now.
Proof.
  intros Hd Hf. unfold lastCheckMoreThanADay, strptime.
  assert (forall t, substring 0 19 (d ++ t) = d /\ substring 19 (String.length (d ++ t) - 19) (d ++ t) = t) as H.
  { intros t. replace (String.length (d ++ t) - 19)%nat with (String.length t).
    - rewrite <- Hd. split; [apply substring_app_l|apply substring_app_r].
    - rewrite <- Hd. clear. induction d as [|a d IH]; cbn in *; [now rewrite Nat.sub_0_r|exact IH]. }
  destruct (H ("." ++ f)) as [-> ->]. destruct (H ("." ++ f ++ "0")) as [-> ->]. cbn [append].
  destruct (undate d); [|reflexivity]. now rewrite fraction_zero by exact Hf.
Qed.
