(** What is saved is what is loaded, and when save returns. *)
From Coq Require Import ZArith List Bool Lia.
From Verif Require Import Base Nums Optics Group RaysModel RaysMore Saving.
Import ListNotations.
Open Scope list_scope.
Open Scope nat_scope.

(** ** Round trips *)
(** a failed load changes nothing *)
Theorem failed_load {A} (o : held A) app d x : snd (load_rays o app d) = Some x -> fst (load_rays o app d) = o.
Proof.
  unfold load_rays. destruct (read d); [|reflexivity]. destruct app; [|discriminate]. destruct (is_list o); [discriminate|reflexivity].
Qed.
(** exactly the files with a pickled iterable of rays are accepted *)
Theorem load_accepts {A} (o : held A) d : snd (load_rays o false d) = None <-> exists l, d = Pickled (BList l) \/ d = Pickled (BTuple l).
Proof.
  unfold load_rays. destruct d as [| |[l|l| |]]; cbn; split; intros H; try discriminate H;
    try (destruct H as (k & [H|H]); discriminate H); try reflexivity; exists l; auto.
Qed.

(** operations of the objects number 0 to n-1 *)
Definition who {A} (op : fop A) : nat := match op with FSave i => i | FLoad i _ => i | FAppend i _ => i end.
Definition is_save {A} (op : fop A) : bool := match op with FSave _ => true | _ => false end.
Definition obj {A} (s : list (held A) * disk A) (i : nat) : held A := nth i (fst s) (mkHeld true []).
(** a user who only uses save: objects hold lists, the file is absent, torn or holds a list *)
Definition plain {A} (n : nat) (s : list (held A) * disk A) : Prop :=
  length (fst s) = n /\ Forall (fun o => is_list o = true) (fst s) /\
  (snd s = Absent \/ snd s = Torn \/ exists l, snd s = Pickled (BList l)).

Lemma put_length {A} (l : list (held A)) i o : i < length l -> length (put l i o) = length l.
Proof. intros H. unfold put. rewrite app_length, firstn_length. cbn [length]. rewrite skipn_length. lia. Qed.
Lemma put_Forall {A} P (l : list (held A)) i o : Forall P l -> P o -> Forall P (put l i o).
Proof.
  intros H Ho. unfold put. apply Forall_app. split; [|constructor; auto].
  - apply Forall_forall. intros x Hx. rewrite Forall_forall in H. apply H. rewrite <- (firstn_skipn i l). apply in_or_app. now left.
  - apply Forall_forall. intros x Hx. rewrite Forall_forall in H. apply H. rewrite <- (firstn_skipn (S i) l). apply in_or_app. now right.
Qed.
Lemma put_other {A} (l : list (held A)) : forall i j o d, i < length l -> j <> i -> nth j (put l i o) d = nth j l d.
Proof.
  unfold put. induction l as [|a l IH]; intros i j o d H Hj; [cbn in H; lia|].
  destruct i as [|i]; [destruct j as [|j]; [lia|reflexivity]|]. destruct j as [|j]; [reflexivity|]. cbn [firstn skipn app nth].
  cbn [length] in H. apply IH; lia.
Qed.

Lemma nth_list {A} (l : list (held A)) i : Forall (fun o => is_list o = true) l -> is_list (nth i l (mkHeld true [])) = true.
Proof.
  intros H. destruct (Nat.lt_ge_cases i (length l)) as [L|L]; [|now rewrite nth_overflow].
  rewrite Forall_forall in H. apply H. now apply nth_In.
Qed.
Lemma load_list {A} (o : held A) app d : is_list o = true -> (d = Absent \/ d = Torn \/ exists l, d = Pickled (BList l)) -> is_list (fst (load_rays o app d)) = true.
Proof. intros Ho [-> |[-> |(l & ->)]]; unfold load_rays; cbn; auto. rewrite Ho. now destruct app. Qed.

Lemma fstep_plain {A} n (s : list (held A) * disk A) op : plain n s -> who op < n -> plain n (fstep s op).
Proof.
  intros (L & F & D) W. destruct op as [i|i app|i a]; cbn [who] in W; unfold fstep; cbn [fst snd].
  - split; [exact L|]. split; [exact F|]. right. right. exists (things (nth i (fst s) (mkHeld true []))). unfold saved, saving, box. cbn. now rewrite (nth_list _ i F).
  - split; [cbn; rewrite put_length; lia|]. split; [|exact D]. apply put_Forall; auto. apply load_list; auto. now apply nth_list.
  - split; [cbn; rewrite put_length; lia|]. split; [|exact D]. apply put_Forall; auto. unfold append_ray. now rewrite (nth_list _ i F).
Qed.
Lemma frun_plain {A} n ops : forall s : list (held A) * disk A, plain n s -> Forall (fun op => who op < n) ops -> plain n (frun s ops).
Proof.
  induction ops as [|op ops IH]; intros s H F; [exact H|]. inversion F; subst. unfold frun. cbn [fold_left]. apply IH; auto. now apply fstep_plain.
Qed.
Lemma no_save {A} ops : forall s : list (held A) * disk A, forallb (fun op => negb (is_save op)) ops = true -> snd (frun s ops) = snd s.
Proof.
  induction ops as [|op ops IH]; intros s H; [reflexivity|]. cbn [forallb] in H. apply andb_prop in H as [H1 H2].
  unfold frun. cbn [fold_left]. change (snd (frun (fstep s op) ops) = snd s). rewrite IH by auto. now destruct op.
Qed.

(** load gives what the last save saved, whichever object saved it and whatever happened before and since *)
Theorem load_last_saved {A} n (s : list (held A) * disk A) before i since j :
  plain n s -> Forall (fun op => who op < n) (before ++ since) -> i < n -> j < n -> forallb (fun op => negb (is_save op)) since = true ->
  let s1 := frun s before in
  let s2 := frun s (before ++ FSave i :: since) in
  load_rays (obj s2 j) false (snd s2) = (mkHeld true (things (obj s1 i)), None) /\
  load_rays (obj s2 j) true (snd s2) = (mkHeld true (things (obj s2 j) ++ things (obj s1 i)), None).
Proof.
  intros P F Hi Hj NS s1 s2. apply Forall_app in F as [F1 F2].
  pose proof (frun_plain n before s P F1) as P1. fold s1 in P1.
  assert (s2 = frun (fstep s1 (FSave i)) since) as E2 by (unfold s2, s1, frun; now rewrite fold_left_app).
  assert (snd s2 = Pickled (BList (things (obj s1 i)))) as D.
  { rewrite E2, no_save by exact NS. cbn [fstep snd]. unfold saved, saving, box. cbn. destruct P1 as (_ & L1 & _). unfold obj. now rewrite (nth_list _ i L1). }
  assert (plain n s2) as P2 by (rewrite E2; apply frun_plain; auto; now apply fstep_plain).
  rewrite D. unfold load_rays. cbn. split; [reflexivity|]. destruct P2 as (_ & L2 & _). unfold obj at 1. now rewrite (nth_list _ j L2).
Qed.
(** every operation of such a user except load of a missing or torn file succeeds, and does not touch the other objects *)
Theorem others_untouched {A} n (s : list (held A) * disk A) op j : plain n s -> who op < n -> j <> who op -> obj (fstep s op) j = obj s j.
Proof. intros (L & _) W Hj. destruct op as [i|i app|i a]; cbn [who] in *; unfold obj, fstep; cbn [fst]; auto; apply put_other; lia. Qed.

(** interrupted at any moment, the file is the old one, torn, or the new one; the torn one is refused by load *)
Theorem killed_while_saving {A} (o : held A) old d : In d (old :: saving o) ->
  d = old \/ d = saved o \/ forall o' app, load_rays o' app d = (o', Some EndOfFile).
Proof. intros [<-|[<-|[<-|[]]]]; auto. Qed.

(** a group: a file that is refused leaves the group as it was; otherwise the elements are those of the file *)
Theorem group_refuses {T} {N : Num T} (g : @grp T) app d x : snd (load_group g app d) = Some (inl x) -> fst (load_group g app d) = g.
Proof. unfold load_group. destruct (read d) as [b|y]; [|reflexivity]. destruct (load_st g app (unbox b)) as [g' [z|]]; discriminate. Qed.

(** ** Random sources *)
(** the file has the first rays of the source: those that had been asked for; all of them after a loop over the source *)
Theorem random_saved {T} {N : Num T} (rnd : nat -> T) ymax ymin thmax thmin mc os : (0 <= mc)%Z ->
  let q := qrun rnd (RandomUniformRays ymax ymin thmax thmin mc) os in
  exists n, (Z.of_nat n <= mc)%Z /\
    saved_random q = Pickled (BList (map (fun k => kth rnd (lower ymax ymin) ymax (lower thmax thmin) thmax k) (seq 0 n))) /\
    (forall i r, fst (random_get rnd q i) = Ok r ->
       exists m, ((if (i <? 0)%Z then i + mc else i) < Z.of_nat m <= mc)%Z /\
         saved_random (snd (random_get rnd q i)) = Pickled (BList (map (fun k => kth rnd (lower ymax ymin) ymax (lower thmax thmin) thmax k) (seq 0 m)))).
Proof.
  intros Hm q.
  destruct (qrun_ok rnd os (RandomUniformRays ymax ymin thmax thmin mc)) as (HQ & HP & _); [now apply q_new_ok|cbn; lia|].
  fold q in HQ, HP. pose proof HP as HP0. destruct HP as (P1 & P2 & P3 & P4 & P5). cbn in P1, P2, P3, P4, P5.
  assert (q_kth rnd q = kth rnd (lower ymax ymin) ymax (lower thmax thmin) thmax) as EK by (unfold q_kth; now rewrite P2, P3, P4, P5).
  exists (length (q_rays q)). pose proof HQ as HQ0. destruct HQ as (H1 & H2 & H3). split; [rewrite <- P1; exact H3|].
  split; [unfold saved_random, saved, saving, box; cbn; rewrite H1 at 1; rewrite EK; reflexivity|].
  intros i r E. destruct (random_get_ok rnd q i HQ0) as (G1 & G2 & G3 & _). rewrite P1 in G1. rewrite E in G1.
  exists (length (q_rays (snd (random_get rnd q i)))). destruct G2 as (K1 & _ & K3). destruct G3 as (Q1 & Q).
  split.
  - rewrite Q1, P1 in K3. split; [|exact K3]. set (j := if (i <? 0)%Z then (i + mc)%Z else i) in *.
    destruct ((0 <=? j) && (j <? mc))%Z eqn:Ej; [|discriminate]. apply andb_prop in Ej as [J1 J2]. apply Z.leb_le in J1. apply Z.ltb_lt in J2.
    unfold random_get. rewrite P1. fold j. destruct (Z.ltb_spec j 0); [lia|]. destruct (Z.leb_spec mc j); [lia|]. cbn [orb].
    destruct (fill_ok rnd (S (Z.to_nat j)) q j HQ0) as (q' & F1 & _ & _ & F4 & _); [lia|lia|]. rewrite F1. cbn [snd]. exact F4.
  - unfold saved_random, saved, saving, box; cbn. rewrite K1 at 1. rewrite (same_kth rnd q), EK by (split; [exact Q1|exact Q]). reflexivity.
Qed.
(** before anything was asked from it, a source of any number of rays is saved as an empty list *)
Theorem random_saved_empty {T} {N : Num T} ymax ymin thmax thmin mc : saved_random (RandomUniformRays (T:=T) ymax ymin thmax thmin mc) = Pickled (BList []).
Proof. reflexivity. Qed.

(** ** Waiting *)
(** two answers follow each other when every answer between them was an exception *)
Definition agree (size : nat -> option Z) (i j : nat) : Prop :=
  i < j /\ (exists s, size i = Some s /\ size j = Some s) /\ forall k, i < k < j -> size k = None.

Lemma wait_size_ends size fuel : forall i old t n t', wait_size fuel size i old t = Some (n, t') ->
  (t <= t')%Z /\ i <= n /\ ((exists s, old = Some s /\ size n = Some s /\ forall k, i <= k < n -> size k = None) \/ exists m, i <= m /\ agree size m n) /\ (old = None -> (t + 10 <= t')%Z).
Proof.
  induction fuel as [|fuel IH]; intros i old t n t'; cbn [wait_size]; [discriminate|].
  destruct (size i) as [s|] eqn:E.
  - assert (forall old0, wait_size fuel size (S i) (Some s) (t + 10) = Some (n, t') -> old0 = old ->
      (t <= t')%Z /\ i <= n /\ ((exists s, old = Some s /\ size n = Some s /\ forall k, i <= k < n -> size k = None) \/ exists m, i <= m /\ agree size m n) /\ (old = None -> (t + 10 <= t')%Z)) as K.
    { intros _ H _. apply IH in H as (H1 & H2 & H3 & _). split; [lia|]. split; [lia|]. split; [|lia].
      right. destruct H3 as [(s' & [= <-] & H3 & H4)|(m & M1 & M2)].
      - exists i. split; [lia|]. split; [lia|]. split; [exists s; auto|]. intros k Hk. apply H4. lia.
      - exists m. split; [lia|exact M2]. }
    destruct old as [s'|]; [|intros H; now apply (K None)]. destruct (Z.eqb_spec s s') as [->|Hs]; [|intros H; now apply (K (Some s'))].
    intros [= <- <-]. split; [lia|]. split; [lia|]. split; [left; exists s'; split; auto; split; auto; intros; lia|discriminate].
  - intros H. apply IH in H as (H1 & H2 & H3 & H4). split; [lia|]. split; [lia|]. split; [|intros O; specialize (H4 O); lia].
    destruct H3 as [(s & E1 & E2 & E3)|(m & M1 & M2)]; [left; exists s; split; auto; split; auto; intros k Hk|right; exists m; split; [lia|auto]].
    destruct (Nat.eq_dec k i) as [->|]; [exact E|apply E3; lia].
Qed.
Lemma wait_size_some size j : forall i old t, (exists s, size j = Some s /\ ((old = Some s /\ forall k, i <= k < j -> size k = None) \/ exists m, i <= m < j /\ size m = Some s /\ forall k, m < k < j -> size k = None)) -> i <= j ->
  exists fuel r, forall f, fuel <= f -> wait_size f size i old t = Some r.
Proof.
  intros i. remember (j - i)%nat as n eqn:En. revert i En. induction n as [|n IH]; intros i En old t (s & Ej & H) Hij.
  - assert (i = j) as -> by lia. destruct H as [(-> & _)|(m & Hm & _)]; [|lia]. exists 1, (j, t). intros [|f] Hf; [lia|]. cbn [wait_size]. now rewrite Ej, Z.eqb_refl.
  - assert (forall old' t', (old' = Some s /\ forall k, S i <= k < j -> size k = None) \/ (exists m, S i <= m < j /\ size m = Some s /\ forall k, m < k < j -> size k = None) ->
      exists fuel r, forall f, fuel <= f -> wait_size f size (S i) old' t' = Some r) as K.
    { intros old' t' H'. apply (IH (S i) ltac:(lia) old' t'); [exists s; auto|lia]. }
    destruct (size i) as [u|] eqn:Eu.
    + assert (exists m, i <= m < j /\ size m = Some s /\ forall k, m < k < j -> size k = None) as (m & Hm & Em & Nm).
      { destruct H as [(-> & Nn)|H]; [|exact H]. specialize (Nn i ltac:(lia)). congruence. }
      assert (exists fuel r, forall f, fuel <= f -> wait_size f size (S i) (Some u) (t + 10) = Some r) as (fu & r & Hr).
      { apply K. destruct (Nat.eq_dec m i) as [->|]; [left; split; [congruence|intros; apply Nm; lia]|right; exists m; split; [lia|auto]]. }
      destruct old as [v|]; [destruct (Z.eq_dec u v) as [->|Hv]|].
      * exists 1, (i, t). intros [|f] Hf; [lia|]. cbn [wait_size]. now rewrite Eu, Z.eqb_refl.
      * exists (S fu), r. intros [|f] Hf; [lia|]. cbn [wait_size]. rewrite Eu. destruct (Z.eqb_spec u v); [contradiction|]. apply Hr. lia.
      * exists (S fu), r. intros [|f] Hf; [lia|]. cbn [wait_size]. rewrite Eu. apply Hr. lia.
    + destruct (K old (t + 1)%Z) as (fu & r & Hr).
      { destruct H as [(Ho & Nn)|(m & Hm & Em & Nm)]; [left; split; auto; intros; apply Nn; lia|].
        destruct (Nat.eq_dec m i) as [->|]; [congruence|]. right. exists m. split; [lia|auto]. }
      exists (S fu), r. intros [|f] Hf; [lia|]. cbn [wait_size]. rewrite Eu. apply Hr. lia.
Qed.

(** save returns exactly when the file appears and two successive answers to the question for its size agree *)
Theorem save_returns there size :
  (exists fuel t, waiting fuel there size = Some t) <-> (exists i, there i = true) /\ (exists i j, agree size i j).
Proof.
  assert (forall fuel i t n t', wait_exists fuel there i t = Some (n, t') -> there n = true) as E1.
  { induction fuel as [|fuel IH]; intros i t n t'; cbn [wait_exists]; [discriminate|]. destruct (there i) eqn:E; [intros [= <- <-]; exact E|apply IH]. }
  assert (forall k i t, there (i + k) = true -> exists fuel r, forall f, fuel <= f -> wait_exists f there i t = Some r) as E2.
  { induction k as [|k IH]; intros i t H.
    - exists 1, (i, t). intros [|f] Hf; [lia|]. cbn [wait_exists]. rewrite Nat.add_0_r in H. now rewrite H.
    - destruct (there i) eqn:E; [exists 1, (i, t); intros [|f] Hf; [lia|]; cbn [wait_exists]; now rewrite E|].
      destruct (IH (S i) (t + 1)%Z) as (fu & r & Hr); [now replace (S i + k) with (i + S k) by lia|].
      exists (S fu), r. intros [|f] Hf; [lia|]. cbn [wait_exists]. rewrite E. apply Hr. lia. }
  unfold waiting. split.
  - intros (fuel & t & H). destruct (wait_exists fuel there 0 0) as [[n t0]|] eqn:W; [|discriminate]. split; [exists n; eauto|].
    destruct (wait_size fuel size 0 None t0) as [[m t1]|] eqn:Z; [|discriminate]. apply wait_size_ends in Z as (_ & _ & [(s & D & _)|(k & _ & K)] & _); [discriminate|]. eauto.
  - intros ((n & Hn) & i & j & L & (s & Si & Sj) & Nn).
    destruct (E2 n 0 0%Z Hn) as (f1 & [n0 t0] & H1). destruct (wait_size_some size j 0 None t0) as (f2 & [m t1] & H2).
    { exists s. split; [exact Sj|]. right. exists i. split; [lia|auto]. } { lia. }
    exists (f1 + f2), t1. rewrite H1, H2 by lia. reflexivity.
Qed.
(** and it takes a second at least *)
Theorem save_takes_a_second fuel there size t : waiting fuel there size = Some t -> (10 <= t)%Z.
Proof.
  unfold waiting. assert (forall fuel i t n t', wait_exists fuel there i t = Some (n, t') -> (t <= t')%Z) as E1.
  { clear. induction fuel as [|fuel IH]; intros i t n t'; cbn [wait_exists]; [discriminate|]. destruct (there i) eqn:E; [intros [= <- <-]; lia|]. intros H. apply IH in H. lia. }
  destruct (wait_exists fuel there 0 0) as [[n t0]|] eqn:W; [|discriminate]. apply E1 in W.
  destruct (wait_size fuel size 0 None t0) as [[m t1]|] eqn:Z; [|discriminate]. apply wait_size_ends in Z as (_ & _ & _ & Z). intros [= <-]. specialize (Z eq_refl). lia.
Qed.
(** a file that another program keeps writing to is waited for forever *)
Theorem save_waits_forever there size : (forall i, exists s s', size i = Some s /\ size (S i) = Some s' /\ (s < s')%Z) -> forall fuel, waiting fuel there size = None.
Proof.
  intros H fuel. destruct (waiting fuel there size) as [t|] eqn:W; [|reflexivity]. exfalso.
  destruct (proj1 (save_returns there size) (ex_intro _ fuel (ex_intro _ t W))) as (_ & i & j & L & (s & Si & Sj) & Nn).
  assert (j = S i) as ->. { destruct (Nat.eq_dec j (S i)) as [|Hj]; auto. specialize (Nn (S i) ltac:(lia)). destruct (H i) as (? & ? & _ & E & _). congruence. }
  destruct (H i) as (? & ? & E & E' & Lt). rewrite Si in E. rewrite Sj in E'. injection E as <-. injection E' as <-. lia.
Qed.
