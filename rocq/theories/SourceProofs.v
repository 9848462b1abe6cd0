(** Proofs about Lambertian and Gaussian sources (C88). *)
From Coq Require Import ZArith List Bool Lia Reals Lra ConstructiveEpsilon.
From Verif Require Import Base Nums Optics RaysModel RaysMore Sources MiscProofs.
Import ListNotations.
Open Scope list_scope.

(** ** Access to random rays of any subclass *)
Section Access.
Context {T : Type} {N : Num T}.
Local Notation ray := (@ray T).
Local Notation random_rays := (@random_rays T).
Variables (draw : random_rays -> res (ray * nat)) (q0 : random_rays).
(** the rays determined by the stream and the numbers used before each *)
Variables (rk : nat -> ray) (uk : nat -> nat).
Hypothesis chain : forall k q, same_params q0 q -> q_used q = uk k -> (Z.of_nat k < q_max q0)%Z ->
  draw q = Ok (rk k, uk (S k)).

Definition d_ok (q : random_rays) : Prop :=
  q_rays q = map rk (seq 0 (List.length (q_rays q))) /\
  q_used q = uk (List.length (q_rays q)) /\
  (Z.of_nat (List.length (q_rays q)) <= q_max q)%Z /\ same_params q0 q.

Lemma drawRay_ok q : d_ok q ->
  d_ok (snd (drawRay draw q)) /\ q_pos (snd (drawRay draw q)) = q_pos q /\
  ((Z.of_nat (List.length (q_rays q)) < q_max q)%Z ->
     fst (drawRay draw q) = Ok (rk (List.length (q_rays q))) /\
     List.length (q_rays (snd (drawRay draw q))) = S (List.length (q_rays q))) /\
  ((Z.of_nat (List.length (q_rays q)) = q_max q)%Z ->
     drawRay draw q = (Err AttributeError, q)).
Proof.
  intros (H1 & H2 & H3 & H4). unfold drawRay.
  destruct (Z.eqb_spec (Z.of_nat (List.length (q_rays q))) (q_max q)) as [E|E].
  - cbn [fst snd]. split; [split; [auto|split; [auto|split; auto]]|]. split; [reflexivity|].
    split; intros; [lia|reflexivity].
  - pose proof H4 as (EM & _).
    rewrite (chain (List.length (q_rays q)) q H4 H2) by lia. cbn [fst snd].
    assert (List.length (q_rays q ++ [rk (List.length (q_rays q))])
      = S (List.length (q_rays q))) as EL by (rewrite app_length; cbn; lia).
    split; [|split; [reflexivity|split]].
    + split; [|split; [|split]]; cbn [q_push q_rays q_used q_max].
      * rewrite EL, seq_S, map_app. cbn [map]. rewrite Nat.add_0_l. f_equal; auto.
      * now rewrite EL.
      * rewrite EL. lia.
      * exact H4.
    + intros _. split; [reflexivity|exact EL].
    + intros E'. congruence.
Qed.

Lemma draw_fill_ok fuel : forall q item, d_ok q -> (0 <= item < q_max q)%Z ->
  (item + 1 - Z.of_nat (List.length (q_rays q)) <= Z.of_nat fuel)%Z ->
  exists q', draw_fill draw fuel q item = (None, q') /\ d_ok q' /\
    (item < Z.of_nat (List.length (q_rays q')))%Z /\ q_pos q' = q_pos q.
Proof.
  induction fuel as [|fuel IH]; intros q item HQ Hi Hf; cbn [draw_fill].
  - destruct (Z.leb_spec (Z.of_nat (List.length (q_rays q))) item); [lia|].
    exists q. split; [reflexivity|]. split; [exact HQ|]. split; [lia|reflexivity].
  - destruct (Z.leb_spec (Z.of_nat (List.length (q_rays q))) item).
    + destruct (drawRay_ok q HQ) as (S2 & S3 & S4 & _).
      destruct (drawRay draw q) as [r q1]. cbn [fst snd] in *.
      destruct S4 as [-> EL]; [lia|].
      assert (q_max q1 = q_max q) as EM.
      { destruct HQ as (_ & _ & _ & (-> & _)), S2 as (_ & _ & _ & (-> & _)). reflexivity. }
      destruct (IH q1 item) as (q2 & F1 & F2 & F3 & F4); auto.
      { now rewrite EM. }
      { rewrite EL. lia. }
      exists q2. split; auto. split; auto. split; [auto|congruence].
    + exists q. split; [reflexivity|]. split; [exact HQ|]. split; [lia|reflexivity].
Qed.

Lemma draw_get_ok q i : d_ok q ->
  let j := if (i <? 0)%Z then (i + q_max q)%Z else i in
  fst (draw_get draw q i) =
    (if ((0 <=? j) && (j <? q_max q))%Z then Ok (rk (Z.to_nat j)) else Err IndexError) /\
  d_ok (snd (draw_get draw q i)) /\ q_pos (snd (draw_get draw q i)) = q_pos q.
Proof.
  intros HQ j. unfold draw_get. fold j.
  destruct (Z.ltb_spec j 0); cbn [orb].
  { destruct (Z.leb_spec 0 j); [lia|]. cbn. split; auto. }
  destruct (Z.leb_spec (q_max q) j).
  { destruct (Z.ltb_spec j (q_max q)); [lia|]. rewrite andb_false_r. cbn. split; auto. }
  destruct (Z.leb_spec 0 j); [|lia]. destruct (Z.ltb_spec j (q_max q)); [|lia]. cbn [andb].
  destruct (draw_fill_ok (S (Z.to_nat j)) q j HQ) as (q' & F1 & F2 & F3 & F4); [lia|lia|].
  rewrite F1. cbn [fst snd]. split; [|auto].
  destruct F2 as (G1 & _). rewrite G1, nth_error_map.
  rewrite (nth_error_nth' _ 0%nat) by (rewrite seq_length; lia).
  cbn. rewrite seq_nth by lia. reflexivity.
Qed.

Lemma draw_next_ok q : d_ok q -> (0 <= q_pos q)%Z ->
  fst (draw_next draw q) =
    (if (q_pos q <? q_max q)%Z then Some (Ok (rk (Z.to_nat (q_pos q)))) else None) /\
  d_ok (snd (draw_next draw q)) /\
  q_pos (snd (draw_next draw q)) = (if (q_pos q <? q_max q)%Z then q_pos q + 1 else q_pos q)%Z.
Proof.
  intros HQ HP. unfold draw_next.
  destruct (Z.leb_spec (q_max q) (q_pos q)).
  - destruct (Z.ltb_spec (q_pos q) (q_max q)); [lia|]. cbn. split; auto.
  - destruct (Z.ltb_spec (q_pos q) (q_max q)); [|lia].
    destruct (draw_get_ok q (q_pos q) HQ) as (G1 & G2 & G4).
    destruct (Z.ltb_spec (q_pos q) 0); [lia|].
    destruct (Z.leb_spec 0 (q_pos q)); [|lia].
    destruct (Z.ltb_spec (q_pos q) (q_max q)); [|lia]. cbn [andb] in G1.
    destruct (draw_get draw q (q_pos q)) as [r q']. cbn [fst snd] in *. subst r. cbn.
    split; [reflexivity|]. split; [exact G2|]. rewrite G4. lia.
Qed.

Lemma draw_step_ok q o : d_ok q -> (0 <= q_pos q)%Z ->
  d_ok (draw_step draw q o) /\ (0 <= q_pos (draw_step draw q o))%Z.
Proof.
  intros HQ HP. destruct o; cbn [draw_step].
  - destruct (draw_get_ok q i HQ) as (_ & G2 & G4). rewrite G4. auto.
  - split; [exact HQ|]. cbn; lia.
  - destruct (draw_next_ok q HQ HP) as (_ & G2 & G4). rewrite G4.
    split; auto. destruct (_ <? _)%Z; lia.
  - destruct (drawRay_ok q HQ) as (G2 & G3 & _). rewrite G3. auto.
Qed.

Lemma draw_run_ok os : forall q, d_ok q -> (0 <= q_pos q)%Z ->
  d_ok (draw_run draw q os) /\ (0 <= q_pos (draw_run draw q os))%Z.
Proof.
  induction os as [|o os IH]; intros q HQ HP; [cbn; auto|].
  unfold draw_run; cbn [fold_left]; fold (draw_run draw (draw_step draw q o) os).
  destruct (draw_step_ok q o HQ HP) as (A1 & A3). exact (IH _ A1 A3).
Qed.

Theorem draw_stable os : d_ok q0 -> q_pos q0 = 0%Z ->
  let mc := q_max q0 in
  let q := draw_run draw q0 os in
  random_len q = mc /\
  (forall i, (0 <= i < mc)%Z -> fst (draw_get draw q i) = Ok (rk (Z.to_nat i)) /\
                                fst (draw_get draw q (i - mc)) = Ok (rk (Z.to_nat i))) /\
  (forall i, (i < - mc \/ mc <= i)%Z -> fst (draw_get draw q i) = Err IndexError) /\
  (exists n, q_rays q = map rk (seq 0 n) /\ (Z.of_nat n <= mc)%Z) /\
  (forall fuel, (mc < Z.of_nat fuel)%Z ->
     draw_for draw fuel (q_set_pos q 0) = map (fun k => Ok (rk k)) (seq 0 (Z.to_nat mc))).
Proof.
  intros H0 HP mc q.
  assert (0 <= mc)%Z as Hm by (destruct H0 as (_ & _ & H & _); unfold mc; lia).
  destruct (draw_run_ok os q0 H0) as (HQ & _); [lia|]. fold q in HQ.
  pose proof HQ as (P1 & P2 & P3 & (EM & _)).
  split; [exact EM|]. split; [|split; [|split]].
  - intros i Hi. split.
    + destruct (draw_get_ok q i HQ) as (G & _). rewrite G, EM. fold mc.
      destruct (Z.ltb_spec i 0); [lia|]. destruct (Z.leb_spec 0 i); [|lia].
      destruct (Z.ltb_spec i mc); [|lia]. reflexivity.
    + destruct (draw_get_ok q (i - mc) HQ) as (G & _). rewrite G, EM. fold mc.
      destruct (Z.ltb_spec (i - mc) 0); [|lia]. replace (i - mc + mc)%Z with i by lia.
      destruct (Z.leb_spec 0 i); [|lia]. destruct (Z.ltb_spec i mc); [|lia]. reflexivity.
  - intros i Hi. destruct (draw_get_ok q i HQ) as (G & _). rewrite G, EM. fold mc.
    destruct (Z.ltb_spec i 0).
    + destruct (Z.leb_spec 0 (i + mc)); [lia|]. reflexivity.
    + destruct (Z.ltb_spec i mc); [lia|]. now rewrite andb_false_r.
  - exists (List.length (q_rays q)). split; [exact P1|]. rewrite EM in P3. exact P3.
  - assert (forall fuel k q', d_ok q' -> q_pos q' = Z.of_nat k -> (Z.of_nat k <= mc)%Z ->
      (mc - Z.of_nat k < Z.of_nat fuel)%Z ->
      draw_for draw fuel q' = map (fun k => Ok (rk k)) (seq k (Z.to_nat mc - k))) as K.
    { clear - Hm chain. induction fuel as [|fuel IH]; intros k q HQ Ek Hk Hf; [lia|].
      cbn [draw_for]. destruct (draw_next_ok q HQ) as (G1 & G2 & G4); [lia|].
      destruct (draw_next draw q) as [r q']. cbn [fst snd] in *.
      assert (q_max q = mc) as EM by (destruct HQ as (_ & _ & _ & (-> & _)); reflexivity).
      rewrite EM, Ek in *. destruct (Z.ltb_spec (Z.of_nat k) mc); subst r.
      - replace (Z.to_nat mc - k)%nat with (S (Z.to_nat mc - S k)) by lia.
        cbn [seq map]. rewrite Nat2Z.id. f_equal. apply IH; auto; lia.
      - replace (Z.to_nat mc - k)%nat with 0%nat by lia. reflexivity. }
    intros fuel Hf. rewrite (K fuel 0%nat (q_set_pos q 0)); auto; try lia.
    now rewrite Nat.sub_0_r.
Qed.
End Access.

(** the access functions of RaysModel are these with the uniform draw *)
Definition uniform {T} {N : Num T} (g : nat -> T) (q : @random_rays T) : res (@ray T * nat) :=
  Ok (Ray_new (nadd (q_ymin q) (nmul (g (S (q_used q))) (nsub (q_ymax q) (q_ymin q))))
              (nadd (q_thmin q) (nmul (g (q_used q)) (nsub (q_thmax q) (q_thmin q)))),
      S (S (q_used q))).
Lemma uniform_same {T} {N : Num T} (g : nat -> T) q : drawRay (uniform g) q = randomRay g q.
Proof. unfold drawRay, uniform, randomRay. destruct (_ =? _)%Z; reflexivity. Qed.

(** ** Rejection *)
Section Rejection.
Context {T : Type} {N : Num T}.
Variables (g : nat -> T) (law : T -> T) (lo hi : T).
Definition value (u : nat) : T := nadd lo (nmul (g u) (nsub hi lo)).
(** the pair drawn after [u] numbers is accepted *)
Definition accepted (u : nat) : bool := nltb (g (S u)) (law (value u)).

Lemma reject_first laws fuel : (forall u, laws (value u) = Ok (law (value u))) ->
  forall u n, accepted (u + 2 * n) = true ->
  (forall m, (m < n)%nat -> accepted (u + 2 * m) = false) -> (n < fuel)%nat ->
  reject g laws lo hi fuel u = Ok (value (u + 2 * n), (u + 2 * n + 2)%nat).
Proof.
  intros Hl. induction fuel as [|fuel IH]; intros u n A B F; [lia|].
  cbn [reject]. fold (value u). rewrite Hl. cbn [bind]. fold (accepted u).
  destruct n as [|n].
  - replace (u + 2 * 0)%nat with u in * by lia. rewrite A.
    f_equal. f_equal. lia.
  - pose proof (B 0%nat ltac:(lia)) as B0. replace (u + 2 * 0)%nat with u in B0 by lia.
    rewrite B0. rewrite (IH (S (S u)) n).
    + replace (S (S u) + 2 * n)%nat with (u + 2 * S n)%nat by lia. reflexivity.
    + replace (S (S u) + 2 * n)%nat with (u + 2 * S n)%nat by lia. exact A.
    + intros m Hm. replace (S (S u) + 2 * m)%nat with (u + 2 * S m)%nat by lia. apply B. lia.
    + lia.
Qed.

(** a stream that never stops being accepted *)
Variable ends : forall u, exists n, accepted (u + 2 * n) = true.
Definition first_wait (u : nat) : {n | accepted (u + 2 * n) = true /\
    forall m, accepted (u + 2 * m) = true -> (n <= m)%nat} :=
  epsilon_smallest (fun n => accepted (u + 2 * n) = true)
    (fun n => bool_dec (accepted (u + 2 * n)) true) (ends u).
Definition wait (u : nat) : nat := proj1_sig (first_wait u).

Lemma wait_spec u : accepted (u + 2 * wait u) = true /\
  forall m, (m < wait u)%nat -> accepted (u + 2 * m) = false.
Proof.
  unfold wait. destruct (first_wait u) as (n & A & B). cbn [proj1_sig]. split; [exact A|].
  intros m Hm. destruct (accepted (u + 2 * m)) eqn:E; [|reflexivity].
  specialize (B m E). lia.
Qed.

(** numbers used before the k-th ray: pairs that were rejected, the accepted pair, one more *)
Fixpoint used_before (k : nat) : nat :=
  match k with O => 0%nat | S k => (used_before k + 2 * wait (used_before k) + 3)%nat end.
Definition pick (k : nat) : nat := (used_before k + 2 * wait (used_before k))%nat.
Fixpoint longest (k : nat) : nat :=
  match k with O => 0%nat | S k => Nat.max (longest k) (S (wait (used_before k))) end.
Lemma longest_ok k : forall j, (j < k)%nat -> (wait (used_before j) < longest k)%nat.
Proof.
  induction k as [|k IH]; intros j Hj; [lia|]. cbn [longest].
  destruct (Nat.eq_dec j k) as [->|]; [lia|]. specialize (IH j ltac:(lia)). lia.
Qed.
End Rejection.

Open Scope R_scope.
(** ** Exact arithmetic *)
Definition xcos (x : XR) : XR := match x with Fin r => Fin (cos r) | _ => NaN end.
Definition xexp (x : XR) : XR :=
  match x with Fin r => Fin (exp r) | PInf => PInf | NInf => Fin 0 | NaN => NaN end.
(** the integer part of a number, towards zero *)
Definition trunc (r : R) : Z := if Rle_dec 0 r then Int_part r else (- Int_part (- r))%Z.
Definition xtrunc (x : XR) : Z := match x with Fin r => trunc r | _ => 0%Z end.

Lemma trunc_pos r : 0 <= r -> IZR (trunc r) <= r < IZR (trunc r) + 1.
Proof.
  intros H. unfold trunc. destruct (Rle_dec 0 r); [|lra].
  destruct (base_Int_part r). lra.
Qed.
Lemma trunc_unique r z : 0 <= r -> IZR z <= r < IZR z + 1 -> trunc r = z.
Proof.
  intros H [A B]. destruct (trunc_pos r H) as [C D].
  assert (IZR (trunc r) < IZR (z + 1)) by (rewrite plus_IZR; lra).
  assert (IZR z < IZR (trunc r + 1)) by (rewrite plus_IZR; lra).
  apply lt_IZR in H0, H1. lia.
Qed.

Lemma pi_2_fin : @pi_2 XR _ = Fin (PI / 2).
Proof. unfold pi_2. cbn. destruct (Req_EM_T 2 0); [lra|reflexivity]. Qed.
Lemma mpi_2_fin : @mpi_2 XR _ = Fin (- (PI / 2)).
Proof.
  unfold mpi_2. cbn. destruct (Req_EM_T 2 0); [lra|]. f_equal. lra.
Qed.

(** a number drawn between two bounds *)
Definition between (lo hi u : R) : R := lo + u * (hi - lo).
Lemma between_bounds lo hi u : lo <= hi -> 0 <= u < 1 -> lo <= between lo hi u <= hi.
Proof.
  intros H U. unfold between. assert (0 <= u * (hi - lo)) by (apply Rmult_le_pos; lra).
  assert (u * (hi - lo) <= 1 * (hi - lo)) by (apply Rmult_le_compat_r; lra). lra.
Qed.

(** what the histories of accesses give, for the rays [ray k] *)
Definition always_gives (draw : @random_rays XR -> res (@ray XR * nat)) (q0 : @random_rays XR)
    (mc : Z) (rk : nat -> @ray XR) : Prop :=
  forall os, let q := draw_run draw q0 os in
  random_len q = mc /\
  (forall i, (0 <= i < mc)%Z -> fst (draw_get draw q i) = Ok (rk (Z.to_nat i)) /\
                                fst (draw_get draw q (i - mc)) = Ok (rk (Z.to_nat i))) /\
  (forall i, (i < - mc \/ mc <= i)%Z -> fst (draw_get draw q i) = Err IndexError) /\
  (forall fuel, (mc < Z.of_nat fuel)%Z ->
     draw_for draw fuel (q_set_pos q 0) = map (fun k => Ok (rk k)) (seq 0 (Z.to_nat mc))).

(** the [k]-th value is the first accepted one after the [used k] numbers drawn before, out of the
    stream [g] taken in pairs *)
Definition drawn_by (g : nat -> R) (value : R -> R) (law : R -> R) (used pick : nat -> nat) : Prop :=
  used 0%nat = 0%nat /\
  forall k, used (S k) = (pick k + 3)%nat /\
    g (S (pick k)) < law (value (g (pick k))) /\
    exists n, pick k = (used k + 2 * n)%nat /\
      forall m, (m < n)%nat ->
        law (value (g (used k + 2 * m)%nat)) <= g (S (used k + 2 * m)).

Section Streams.
Variables (g : nat -> R) (law : R -> R) (xlaw : XR -> XR) (lo hi : R).
Hypothesis Hlaw : forall r, xlaw (Fin r) = Fin (law r).
Let G (n : nat) : XR := Fin (g n).

Lemma value_fin u : value G (Fin lo) (Fin hi) u = Fin (between lo hi (g u)).
Proof. reflexivity. Qed.

Lemma accepted_iff u : accepted G xlaw (Fin lo) (Fin hi) u = true <->
  g (S u) < law (between lo hi (g u)).
Proof.
  unfold accepted. rewrite value_fin, Hlaw. change (Rltb (g (S u)) (law (between lo hi (g u))) = true <->
    g (S u) < law (between lo hi (g u))). split; intros H; [now apply Rltb_true|now apply Rltb_lt].
Qed.

Hypothesis Hends : forall u, exists n, g (S (u + 2 * n)) < law (between lo hi (g (u + 2 * n)%nat)).
Lemma xends : forall u, exists n, accepted G xlaw (Fin lo) (Fin hi) (u + 2 * n) = true.
Proof. intros u. destruct (Hends u) as (n & H). exists n. now apply accepted_iff. Qed.

Lemma stream_drawn_by :
  drawn_by g (between lo hi) law (used_before _ _ _ _ xends) (pick _ _ _ _ xends).
Proof.
  split; [reflexivity|]. intros k. unfold pick.
  split; [cbn [used_before]; lia|].
  destruct (wait_spec G xlaw (Fin lo) (Fin hi) xends (used_before G xlaw (Fin lo) (Fin hi) xends k)) as [A B].
  split; [now apply accepted_iff|].
  eexists. split; [reflexivity|]. intros m Hm.
  specialize (B m Hm). apply Rnot_lt_le. intros C. apply accepted_iff in C. congruence.
Qed.

Lemma stream_reject laws fuel k : (forall r, laws (Fin r) = Ok (xlaw (Fin r))) ->
  (wait G xlaw (Fin lo) (Fin hi) xends (used_before G xlaw (Fin lo) (Fin hi) xends k) < fuel)%nat ->
  reject G laws (Fin lo) (Fin hi) fuel (used_before G xlaw (Fin lo) (Fin hi) xends k) =
  Ok (Fin (between lo hi (g (pick G xlaw (Fin lo) (Fin hi) xends k))),
      (pick G xlaw (Fin lo) (Fin hi) xends k + 2)%nat).
Proof.
  intros Hl Hf.
  destruct (wait_spec G xlaw (Fin lo) (Fin hi) xends (used_before G xlaw (Fin lo) (Fin hi) xends k)) as [A B].
  rewrite (reject_first G xlaw (Fin lo) (Fin hi) laws fuel) with (n := wait G xlaw (Fin lo) (Fin hi) xends (used_before G xlaw (Fin lo) (Fin hi) xends k)); auto.
  intros u. rewrite value_fin. apply Hl.
Qed.
End Streams.

Theorem random_lambertian (g : nat -> R) ylo yhi mc :
  (forall n, 0 <= g n < 1) -> ylo <= yhi -> (0 <= mc)%Z ->
  (forall u, exists n, g (S (u + 2 * n)) <
                       cos (between (- (PI / 2)) (PI / 2) (g (u + 2 * n)%nat))) ->
  let angle := between (- (PI / 2)) (PI / 2) in
  exists (used pick : nat -> nat) (enough : nat),
    drawn_by g angle cos used pick /\
    (forall k, let y := between ylo yhi (g (pick k + 2)%nat) in let th := angle (g (pick k)) in
       ylo <= y <= yhi /\ - (PI / 2) < th < PI / 2) /\
    forall fuel, (enough <= fuel)%nat ->
      always_gives (lambertian xcos (fun n => Fin (g n)) fuel)
        (RandomLambertianRays (Fin yhi) (Some (Fin ylo)) mc) mc
        (fun k => Ray_new (Fin (between ylo yhi (g (pick k + 2)%nat))) (Fin (angle (g (pick k))))).
Proof.
  intros Hg Hy Hm Hends angle.
  pose (E := xends g cos xcos (- (PI / 2)) (PI / 2) (fun r => eq_refl) Hends).
  pose (G := fun n => Fin (g n)).
  pose (used := used_before G xcos (Fin (- (PI/2))) (Fin (PI/2)) E).
  pose (pck := pick G xcos (Fin (- (PI/2))) (Fin (PI/2)) E).
  exists used, pck, (longest G xcos (Fin (- (PI/2))) (Fin (PI/2)) E (Z.to_nat mc)).
  assert (drawn_by g angle cos used pck) as D by apply stream_drawn_by.
  split; [exact D|]. split.
  - intros k y th. split; [apply between_bounds; auto|].
    destruct D as (_ & D). destruct (D k) as (_ & A & _). fold th in A.
    pose proof (Hg (S (pck k))) as B. pose proof PI_RGT_0 as P.
    assert (- (PI / 2) <= th <= PI / 2) as [L U] by (apply between_bounds; auto; lra).
    split.
    + destruct (Rle_lt_or_eq_dec _ _ L) as [|e]; [assumption|].
      rewrite <- e, cos_neg, cos_PI2 in A. lra.
    + destruct (Rle_lt_or_eq_dec _ _ U) as [|e]; [assumption|].
      rewrite e, cos_PI2 in A. lra.
  - intros fuel Hf os.
    set (q0 := RandomLambertianRays (Fin yhi) (Some (Fin ylo)) mc).
    set (rk := fun k => Ray_new (Fin (between ylo yhi (g (pck k + 2)%nat))) (Fin (angle (g (pck k))))).
    assert (forall k q, same_params q0 q -> q_used q = used k -> (Z.of_nat k < q_max q0)%Z ->
      lambertian xcos G fuel q = Ok (rk k, used (S k))) as CH.
    { intros k q (E0 & E1 & E2 & E3 & E4) EU Hk. unfold q0 in *.
      cbn [RandomLambertianRays q_max q_ymin q_ymax q_thmin q_thmax] in *.
      unfold lambertian. rewrite E1, E2, E3, E4, EU, pi_2_fin, mpi_2_fin.
      unfold used, G. rewrite (stream_reject g cos xcos (- (PI/2)) (PI/2) (fun r => eq_refl) Hends).
      - cbn [bind]. unfold rk, pck, E, G, used. f_equal. f_equal.
        destruct D as (_ & D). destruct (D k) as (D1 & _). unfold used, pck, E, G in D1. rewrite D1. lia.
      - reflexivity.
      - eapply Nat.lt_le_trans; [|exact Hf]. apply longest_ok. lia. }
    destruct (draw_stable (lambertian xcos G fuel) q0 rk used CH os) as (A1 & A2 & A3 & _ & A4).
    { split; [reflexivity|]. split; [reflexivity|]. split; [exact Hm|]. repeat split. }
    { reflexivity. }
    split; [exact A1|]. split; [exact A2|]. split; [exact A3|exact A4].
Qed.

Theorem random_gaussian (g : nat -> R) w mc :
  (forall n, 0 <= g n < 1) -> 0 < w -> (0 <= mc)%Z ->
  let law y := exp (- (y / w) ^ 2) in
  let height := between (- 4 * w) (4 * w) in
  (forall u, exists n, g (S (u + 2 * n)) < law (height (g (u + 2 * n)%nat))) ->
  exists (used pick : nat -> nat) (enough : nat),
    drawn_by g height law used pick /\
    (forall k, let y := height (g (pick k)) in
       let th := between (- (PI / 2)) (PI / 2) (g (pick k + 2)%nat) in
       - 4 * w <= y <= 4 * w /\ - (PI / 2) <= th <= PI / 2) /\
    forall fuel, (enough <= fuel)%nat ->
      always_gives (gaussian xexp (fun n => Fin (g n)) (Fin w) fuel)
        (GaussianProfileUniformRays (Fin w) mc) mc
        (fun k => Ray_new (Fin (height (g (pick k))))
                          (Fin (between (- (PI / 2)) (PI / 2) (g (pick k + 2)%nat)))).
Proof.
  intros Hg Hw Hm law height Hends.
  pose (xlaw := fun x : XR => match x with Fin r => Fin (law r) | _ => NaN end).
  pose (E := xends g law xlaw (- 4 * w) (4 * w) (fun r => eq_refl) Hends).
  pose (G := fun n => Fin (g n)).
  pose (used := used_before G xlaw (Fin (- 4 * w)) (Fin (4 * w)) E).
  pose (pck := pick G xlaw (Fin (- 4 * w)) (Fin (4 * w)) E).
  exists used, pck, (longest G xlaw (Fin (- 4 * w)) (Fin (4 * w)) E (Z.to_nat mc)).
  assert (drawn_by g height law used pck) as D by apply stream_drawn_by.
  split; [exact D|]. split.
  - intros k y th. pose proof PI_RGT_0. split; apply between_bounds; auto; lra.
  - intros fuel Hf os.
    set (q0 := GaussianProfileUniformRays (Fin w) mc).
    set (rk := fun k => Ray_new (Fin (height (g (pck k))))
                          (Fin (between (- (PI / 2)) (PI / 2) (g (pck k + 2)%nat)))).
    assert (forall k q, same_params q0 q -> q_used q = used k -> (Z.of_nat k < q_max q0)%Z ->
      gaussian xexp G (Fin w) fuel q = Ok (rk k, used (S k))) as CH.
    { intros k q (E0 & E1 & E2 & E3 & E4) EU Hk. unfold q0 in *.
      cbn [GaussianProfileUniformRays q_max q_ymin q_ymax q_thmin q_thmax] in *.
      unfold gaussian. rewrite E1, E2, E3, E4, EU, pi_2_fin, mpi_2_fin.
      change (nmul (nofZ (-4)) (Fin w)) with (Fin (- 4 * w)).
      change (nmul (nofZ 4) (Fin w)) with (Fin (4 * w)).
      unfold used, G. rewrite (stream_reject g law xlaw (- 4 * w) (4 * w) (fun r => eq_refl) Hends).
      - cbn [bind]. unfold rk, pck, E, G, used. f_equal. f_equal.
        destruct D as (_ & D). destruct (D k) as (D1 & _). unfold used, pck, E, G in D1. rewrite D1. lia.
      - intros r. unfold gaussian_law. change (nmul (nopp (Fin r)) (Fin r)) with (Fin (- r * r)).
        rewrite pdiv_fin by lra. cbn [bind]. rewrite pdiv_fin by lra. cbn [bind xexp xlaw].
        unfold law. f_equal. f_equal. f_equal. field. lra.
      - eapply Nat.lt_le_trans; [|exact Hf]. apply longest_ok. lia. }
    destruct (draw_stable (gaussian xexp G (Fin w) fuel) q0 rk used CH os) as (A1 & A2 & A3 & _ & A4).
    { split; [reflexivity|]. split; [reflexivity|]. split; [exact Hm|]. repeat split. }
    { reflexivity. }
    split; [exact A1|]. split; [exact A2|]. split; [exact A3|exact A4].
Qed.
