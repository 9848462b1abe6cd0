(** Proofs about lists of rays: serial and parallel tracing, iteration, statistics. *)
From Coq Require Import ZArith List Bool Lia Permutation.
From Verif Require Import Base Optics TraceProofs RaysModel.
Import ListNotations.
Open Scope list_scope.

(** the rays that get through, in order *)
Definition survivors {T} {N : Num T} (e : @elem T) (l : list (@ray T)) : list (@ray T) :=
  filter (fun r => negb (rblk r)) (map (traceThrough e) l).

Section Serial.
Context {T : Type} {N : Num T}.
Local Notation ray := (@ray T).
Local Notation elem := (@elem T).
Local Notation heap := (@heap T).

Lemma through_blocked (e : elem) (r : ray) : rblk r = true -> rblk (through e r) = true.
Proof. intros H. rewrite through_flatten. now apply through_leaves_blocked. Qed.

(** one trace seen from the list functions *)
Lemma trace_step (e : elem) rid (h : heap) : (rid < List.length h)%nat ->
  let tr := fst (trace e rid h) in
  let h1 := snd (trace e rid h) in
  let lst := List.last tr rid in
  let out := through e (hget h rid) in
  hget h1 lst = out /\
  (List.length h <= List.length h1)%nat /\
  (lst = rid \/ List.length h <= lst < List.length h1)%nat /\
  (forall i, (i < List.length h)%nat -> i <> rid -> hget h1 i = hget h i) /\
  (rblk out = false -> hget h1 rid = hget h rid) /\
  (hget h1 rid = hget h rid \/ (rblk (hget h1 rid) = true /\ rblk out = true)).
Proof.
  intros Hr tr h1 lst out. pose proof (trace_is_ok e rid h Hr) as K.
  fold tr h1 out in K.
  assert (hget h1 lst = out) as Eo by apply (t_out _ _ _ _ _ K).
  assert (lst = rid \/ List.length h <= lst < List.length h1)%nat as HL.
  { pose proof (t_ids _ _ _ _ _ K) as Hi. rewrite Forall_forall in Hi.
    apply Hi, last_in, (t_nonempty _ _ _ _ _ K). }
  assert (rblk out = false -> hget h1 rid = hget h rid) as Hu.
  { intros Hb. apply (t_same _ _ _ _ _ K).
    destruct (Nat.eq_dec lst rid) as [E|E].
    - rewrite <- E. now rewrite Eo.
    - now apply (t_in _ _ _ _ _ K). }
  split; [exact Eo|]. split; [apply (t_len _ _ _ _ _ K)|]. split; [exact HL|].
  split; [apply (t_frame _ _ _ _ _ K)|]. split; [exact Hu|].
  destruct (rblk out) eqn:B; [|left; auto].
  destruct (rblk (hget h1 rid)) eqn:B1; auto.
  left. now apply (t_same _ _ _ _ _ K).
Qed.

(** state of the ray objects in the middle of the list: inputs are untouched or have been
    blocked by a trace that does not let them through *)
Definition mid_inv (e : elem) (h0 h : heap) : Prop :=
  (List.length h0 <= List.length h)%nat /\
  forall i, (i < List.length h0)%nat ->
    hget h i = hget h0 i \/
    (rblk (hget h i) = true /\ rblk (through e (hget h0 i)) = true).

(** an output already collected: a ray object that later traces leave alone *)
Definition kept (e : elem) (h0 h : heap) (i : nat) (v : ray) : Prop :=
  hget h i = v /\ rblk v = false /\
  ((List.length h0 <= i < List.length h)%nat \/
   ((i < List.length h0)%nat /\ rblk (through e (hget h0 i)) = false)).

Lemma it_next_some (l : list nat) k lg x : nth_error l k = Some x ->
  it_next (mkIt l (Z.of_nat k) lg) = Some (x, mkIt l (Z.of_nat (S k)) lg).
Proof.
  intros H. assert (k < List.length l)%nat by (apply nth_error_Some; congruence).
  unfold it_next; cbn.
  destruct (Z.ltb_spec (Z.of_nat k) (Z.of_nat (List.length l))); [|lia].
  rewrite Nat2Z.id, H. do 2 f_equal. f_equal; lia.
Qed.

Lemma it_next_none (l : list nat) lg : it_next (mkIt l (Z.of_nat (List.length l)) lg) = None.
Proof.
  unfold it_next; cbn. destruct (Z.ltb_spec (Z.of_nat (List.length l)) (Z.of_nat (List.length l))); [lia|].
  reflexivity.
Qed.

Lemma progress_ok (l : list nat) k lg : (0 < k <= Z.of_nat (List.length l))%Z -> (0 < lg)%Z ->
  exists lg', displayProgress (mkIt l k lg) = Ok (mkIt l k lg') /\ (0 < lg')%Z.
Proof.
  intros Hk Hl. unfold displayProgress; cbn.
  destruct (Z.eqb_spec lg 0); [lia|].
  destruct (Z.eqb_spec (k mod lg) 0) as [E|E].
  - destruct (Z.eqb_spec (Z.of_nat (List.length l)) 0); [lia|].
    eexists; split; [reflexivity|]. destruct (Z.ltb_spec (Z.of_nat (List.length l)) (lg * 3)); lia.
  - eexists; split; [reflexivity|]. lia.
Qed.

Lemma kept_step (e : elem) h0 h rid i v : (rid < List.length h0)%nat -> mid_inv e h0 h ->
  kept e h0 h i v -> kept e h0 (snd (trace e rid h)) i v.
Proof.
  intros Hr (L & M) (E & B & P).
  destruct (trace_step e rid h ltac:(lia)) as (_ & L1 & _ & Fr & Hu & Hd).
  destruct P as [P|[P1 P2]].
  - split; [rewrite Fr; auto; lia|]. split; auto. left. lia.
  - split; [|split; auto].
    destruct (Nat.eq_dec i rid) as [->|Ne]; [|rewrite Fr; auto; lia].
    destruct Hd as [Hd|[Hd1 Hd2]]; [congruence|].
    exfalso. destruct (M rid P1) as [M1|[M1 M2]]; [rewrite M1 in Hd2|]; congruence.
Qed.

Lemma mid_step (e : elem) h0 h rid : (rid < List.length h0)%nat -> mid_inv e h0 h ->
  mid_inv e h0 (snd (trace e rid h)).
Proof.
  intros Hr (L & M).
  destruct (trace_step e rid h ltac:(lia)) as (_ & L1 & _ & Fr & Hu & Hd).
  split; [lia|]. intros i Hi. destruct (Nat.eq_dec i rid) as [->|Ne].
  - destruct Hd as [Hd|[Hd1 Hd2]].
    + rewrite Hd. auto.
    + right. split; auto. destruct (M rid Hr) as [M1|[M1 M2]]; auto.
      now rewrite M1 in Hd2.
  - rewrite Fr by lia. auto.
Qed.

Lemma tmt_loop_ok (e : elem) progress ids h0 : Forall (fun i => (i < List.length h0)%nat) ids ->
  forall todo fuel done lg acc vals h,
  ids = done ++ todo -> (List.length todo < fuel)%nat -> (0 < lg)%Z ->
  mid_inv e h0 h -> Forall2 (kept e h0 h) acc vals ->
  exists acc' vals' h',
    tmt_loop fuel e progress (mkIt ids (Z.of_nat (List.length done)) lg) acc h = (Ok acc', h') /\
    mid_inv e h0 h' /\ Forall2 (kept e h0 h') acc' vals' /\
    vals' = vals ++ survivors e (map (hget h0) todo).
Proof.
  intros Hids. induction todo as [|rid todo IH]; intros fuel done lg acc vals h E Hf Hl HM HK.
  - destruct fuel as [|fuel]; [cbn in Hf; lia|]. cbn [tmt_loop].
    rewrite app_nil_r in E. subst done. rewrite it_next_none.
    exists acc, vals, h. split; [reflexivity|]. split; auto. split; auto.
    cbn. now rewrite app_nil_r.
  - destruct fuel as [|fuel]; [cbn in Hf; lia|]. cbn [tmt_loop].
    assert (nth_error ids (List.length done) = Some rid) as En.
    { rewrite E, nth_error_app2, Nat.sub_diag; [reflexivity|lia]. }
    rewrite (it_next_some _ _ _ _ En).
    assert (rid < List.length h0)%nat as Hr.
    { rewrite Forall_forall in Hids. apply Hids. rewrite E. apply in_or_app. cbn; auto. }
    pose proof (mid_step e h0 h rid Hr HM) as HM1.
    assert (Forall2 (kept e h0 (snd (trace e rid h))) acc vals) as HK1.
    { clear -HK HM Hr. induction HK; constructor; auto. now apply kept_step. }
    destruct (trace_step e rid h ltac:(destruct HM; lia)) as (Eo & L1 & HL & Fr & Hu & Hd).
    destruct (trace e rid h) as [tr h1] eqn:ET. cbn [fst snd] in *.
    set (lst := List.last tr rid) in *.
    assert (exists lg', (if progress then displayProgress (mkIt ids (Z.of_nat (S (List.length done))) lg)
                         else Ok (mkIt ids (Z.of_nat (S (List.length done))) lg))
                        = Ok (mkIt ids (Z.of_nat (S (List.length done))) lg') /\ (0 < lg')%Z)
      as (lg' & EP & Hlg').
    { destruct progress; [|eexists; eauto]. apply progress_ok; auto.
      rewrite E, app_length. cbn [List.length]. lia. }
    rewrite EP.
    assert (S (List.length done) = List.length (done ++ [rid])) as Ed
      by (rewrite app_length; cbn; lia).
    rewrite Ed.
    assert (ids = (done ++ [rid]) ++ todo) as E' by (rewrite <- app_assoc; exact E).
    assert (rblk (hget h1 lst) = rblk (through e (hget h0 rid)) /\
            (rblk (hget h1 lst) = false -> hget h1 lst = through e (hget h0 rid) /\
               hget h rid = hget h0 rid)) as [EB EV].
    { destruct HM as (L & M). destruct (M rid Hr) as [M1|[M1 M2]].
      - rewrite Eo, M1. auto.
      - rewrite Eo. pose proof (through_blocked e _ M1). split; congruence. }
    cbn [map]. unfold survivors. cbn [map]. rewrite traceThrough_through. cbn [filter].
    rewrite <- EB. cbn in Hf.
    destruct (rblk (hget h1 lst)) eqn:B; cbn [negb].
    + edestruct (IH fuel (done ++ [rid]) lg' acc vals h1) as (a & v & h' & R1 & R2 & R3 & R4); eauto.
      { lia. }
      exists a, v, h'. auto.
    + destruct (EV eq_refl) as [EV1 EV2].
      edestruct (IH fuel (done ++ [rid]) lg' (acc ++ [lst]) (vals ++ [through e (hget h0 rid)]) h1)
        as (a & v & h' & R1 & R2 & R3 & R4); eauto.
      { lia. }
      { apply Forall2_app; auto. constructor; auto. split; [exact EV1|].
        split; [congruence|]. destruct HL as [HL|HL].
        - right. rewrite HL. split; auto.
        - left. destruct HM as (L & _). lia. }
      exists a, v, h'. split; auto. split; auto. split; auto.
      rewrite R4, <- app_assoc. reflexivity.
Qed.

(** C18 *)
Theorem many_through (e : elem) progress (o : rays_it) (h : heap) :
  Forall (fun i => (i < List.length h)%nat) (it_ids o) ->
  exists ids' h', traceManyThrough e progress o h = (Ok ids', h') /\
    map (hget h') ids' = survivors e (map (hget h) (it_ids o)) /\
    (forall i, (i < List.length h)%nat -> hget h' i <> hget h i ->
       rblk (hget h' i) = true /\ rblk (traceThrough e (hget h i)) = true).
Proof.
  intros Hi. unfold traceManyThrough, it_iter.
  destruct (tmt_loop_ok e progress (it_ids o) h Hi (it_ids o) (S (List.length (it_ids o))) [] 10000
              [] [] h) as (a & v & h' & R1 & R2 & R3 & R4); auto; try lia.
  { split; auto. }
  exists a, h'. split; [exact R1|]. split.
  - rewrite app_nil_l in R4. rewrite <- R4. clear -R3.
    induction R3 as [|i x l l' K _ IH]; cbn; [reflexivity|]. f_equal; auto. apply K.
  - intros i Hl Hne. destruct R2 as (_ & M). destruct (M i Hl) as [|[M1 M2]]; [congruence|].
    rewrite traceThrough_through. auto.
Qed.

Lemma hget_seq (l : list ray) : map (hget l) (seq 0 (List.length l)) = l.
Proof.
  apply nth_ext with (d := Ray_new c0 c0) (d' := Ray_new c0 c0).
  - now rewrite map_length, seq_length.
  - intros n Hn. rewrite map_length, seq_length in Hn.
    rewrite nth_indep with (d' := hget l 0) by (rewrite map_length, seq_length; auto).
    rewrite map_nth, seq_nth by auto. reflexivity.
Qed.

Lemma worker_ok (e : elem) progress (l : list ray) : worker e progress l = Ok (survivors e l).
Proof.
  unfold worker.
  destruct (many_through e progress (mkIt (seq 0 (List.length l)) 0 10000) l) as (ids & h' & E & V & _).
  { cbn. apply Forall_forall. intros i Hi. apply in_seq in Hi. lia. }
  rewrite E, V. cbn. now rewrite hget_seq.
Qed.
End Serial.

(** ** Parallel tracing *)
Lemma pool_length {A B} (f : A -> B) tasks sched : forall slots,
  List.length (pool f tasks sched slots) = List.length slots.
Proof.
  induction sched as [|i t IH]; intros; cbn; auto.
  destruct (nth_error tasks i); rewrite IH; auto.
  clear. revert i; induction slots; destruct i; cbn; auto.
Qed.

Lemma set_nth_nth {A} (l : list A) : forall i j x,
  nth_error (set_nth i x l) j =
  if Nat.eqb i j then (if Nat.ltb j (List.length l) then Some x else None) else nth_error l j.
Proof.
  induction l as [|a l IH]; intros [|i] [|j] x; cbn; auto.
  - destruct (Nat.eqb i j); reflexivity.
  - rewrite IH. destruct (Nat.eqb i j); auto.
Qed.

(** once every worker has finished, the slots hold every result in task order, whatever the
    order in which the workers finished *)
Lemma pool_complete {A B} (f : A -> B) tasks sched :
  (forall i, (i < List.length tasks)%nat -> In i sched) ->
  pool f tasks sched (map (fun _ => None) tasks) = map (fun a => Some (f a)) tasks.
Proof.
  intros HC.
  assert (forall sched slots j a, List.length slots = List.length tasks ->
            nth_error tasks j = Some a ->
            (In j sched \/ nth_error slots j = Some (Some (f a))) ->
            nth_error (pool f tasks sched slots) j = Some (Some (f a))) as K.
  { clear. induction sched as [|i t IH]; intros slots j a L Ha H; cbn.
    - destruct H as [[]|]; auto.
    - assert (j < List.length tasks)%nat by (apply nth_error_Some; congruence).
      destruct (nth_error tasks i) as [b|] eqn:Eb.
      + apply IH; auto.
        * rewrite <- L. clear. revert i; induction slots; destruct i; cbn; auto.
        * rewrite set_nth_nth. destruct (Nat.eqb_spec i j) as [->|Ne].
          -- right. destruct (Nat.ltb_spec j (List.length slots)); [congruence|lia].
          -- destruct H as [[|H]|H]; auto. congruence.
      + apply IH; auto. destruct H as [[->|H]|H]; auto. congruence. }
  apply nth_ext with (d := None) (d' := None).
  { rewrite pool_length, !map_length. reflexivity. }
  intros j Hj. rewrite pool_length, map_length in Hj.
  destruct (nth_error tasks j) as [a|] eqn:Ea; [|apply nth_error_None in Ea; lia].
  assert (nth_error (pool f tasks sched (map (fun _ => None) tasks)) j = Some (Some (f a))) as E1.
  { apply K; auto. now rewrite map_length. }
  assert (nth_error (map (fun a => Some (f a)) tasks) j = Some (Some (f a))) as E2.
  { rewrite nth_error_map, Ea. reflexivity. }
  apply nth_error_nth with (d := None) in E1, E2. congruence.
Qed.

Lemma pystep_split {A} p (l : list A) : (0 < p)%nat ->
  Permutation (List.concat (map (fun i => pystep i p l) (seq 0 p))) l.
Proof.
  intros Hp. induction l as [|x t IH].
  - clear. induction (seq 0 p); cbn; auto.
  - destruct p as [|p]; [lia|]. cbn [seq map List.concat pystep].
    rewrite <- seq_shift, map_map. cbn [pystep]. replace (S p - 1)%nat with p by lia.
    cbn [app]. apply perm_skip. rewrite <- IH at 2.
    rewrite seq_S, map_app, concat_app. cbn. rewrite app_nil_r.
    apply Permutation_app_comm.
Qed.

Section Parallel.
Context {T : Type} {N : Num T}.
Local Notation ray := (@ray T).
Local Notation elem := (@elem T).

Lemma survivors_app (e : elem) (l l' : list ray) :
  survivors e (l ++ l') = survivors e l ++ survivors e l'.
Proof. unfold survivors. now rewrite map_app, filter_app. Qed.

Lemma survivors_concat (e : elem) (ls : list (list ray)) :
  survivors e (List.concat ls) = List.concat (map (survivors e) ls).
Proof. induction ls; cbn [List.concat map]; auto. now rewrite survivors_app, IHls. Qed.

Lemma survivors_perm (e : elem) (l l' : list ray) :
  Permutation l l' -> Permutation (survivors e l) (survivors e l').
Proof.
  intros H. unfold survivors. apply (Permutation_map (traceThrough e)) in H.
  induction H; cbn; auto.
  - destruct (negb (rblk x)); auto.
  - destruct (negb (rblk x)), (negb (rblk y)); auto. constructor.
  - now transitivity (filter (fun r => negb (rblk r)) l'0).
Qed.

Lemma gather_ok {A B} (f : A -> list B) (l : list A) :
  gather (map (fun a => Some (Ok (f a))) l) = Ok (List.concat (map f l)).
Proof. induction l; cbn; auto. now rewrite IHl. Qed.

(** the exact result, for every schedule *)
Lemma parallel_exact (e : elem) progress p sched (l : list ray) : (0 < p)%Z ->
  (forall i, (i < Z.to_nat p)%nat -> In i sched) ->
  traceInParallel e progress p sched l =
    Ok (survivors e (List.concat (map (fun i => pystep i (Z.to_nat p) l) (seq 0 (Z.to_nat p))))).
Proof.
  intros Hp Hs. unfold traceInParallel.
  destruct (Z.leb_spec p 0); [lia|].
  rewrite pool_complete by (rewrite map_length, seq_length; auto).
  rewrite map_ext with (g := fun a => Some (Ok (survivors e a))) by (intros; now rewrite worker_ok).
  rewrite gather_ok, survivors_concat. reflexivity.
Qed.

(** C19 *)
Theorem parallel_same_rays (e : elem) progress p sched (l : list ray) :
  (forall i, (i < Z.to_nat p)%nat -> In i sched) ->
  exists out, traceInParallel e progress p sched l = Ok out /\
    Permutation out (survivors e l) /\
    ((p <= 1)%Z -> out = survivors e l).
Proof.
  intros Hs. destruct (Z.le_gt_cases p 0) as [Hp|Hp].
  - exists (survivors e l). unfold traceInParallel. destruct (Z.leb_spec p 0); [|lia].
    rewrite worker_ok. auto.
  - rewrite parallel_exact by (auto; lia). eexists; split; [reflexivity|]. split.
    + apply survivors_perm, pystep_split. lia.
    + intros. assert (p = 1)%Z as -> by lia.
      f_equal. change (Z.to_nat 1) with 1%nat. cbn [seq map List.concat]. rewrite app_nil_r.
      clear. induction l; cbn [pystep]; auto. change (1 - 1)%nat with 0%nat. now rewrite IHl.
Qed.
End Parallel.
