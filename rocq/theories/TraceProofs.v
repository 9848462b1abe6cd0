(** Proofs about tracing rays: the heap version agrees with propagation of values,
    and the structure of traces.  Everything here holds for any kind of numbers. *)
From Coq Require Import ZArith Lia List Bool Sorted.
From Verif Require Import Base Optics GroupProofs.
Import ListNotations.

Section Generic.
Context {T : Type} {N : Num T}.
Local Notation elem := (@elem T).
Local Notation ray := (@ray T).
Local Notation mat := (@mat T).
Local Notation kind := (@kind T).
Local Notation heap := (@heap T).

(** the elements met by light, groups opened *)
Fixpoint leaves (e : elem) : list (kind * mat) :=
  match e with
  | Leaf k m => [(k, m)]
  | Group _ _ es => flat_map leaves es
  end.

Definition through_leaves (l : list (kind * mat)) (r : ray) : ray :=
  fold_left (fun r km => through_leaf (fst km) (snd km) r) l r.

Lemma through_flatten e : forall r, through e r = through_leaves (leaves e) r.
Proof.
  induction e as [k m | gk m es IH] using elem_ind'; intros r; [reflexivity|].
  cbn. unfold through_leaves. revert r. induction IH as [|x t Hx Ht IHt]; intros; [reflexivity|].
  cbn. rewrite fold_left_app, Hx. apply IHt.
Qed.

(** ** Heap *)
Lemma hset_length (h : heap) i r : List.length (hset h i r) = List.length h.
Proof. unfold hset. revert i; induction h; intros [|i]; cbn; auto. Qed.
Lemma hget_hset_eq (h : heap) i r : (i < List.length h)%nat -> hget (hset h i r) i = r.
Proof.
  unfold hget, hset. revert i; induction h; intros [|i] H; cbn in *; try lia; auto.
  apply IHh. lia.
Qed.
Lemma hget_hset_neq (h : heap) i j r : i <> j -> hget (hset h i r) j = hget h j.
Proof.
  unfold hget, hset. revert i j; induction h; intros [|i] [|j] H; cbn; try congruence; auto.
Qed.
Lemma hget_app (h h' : heap) i : (i < List.length h)%nat -> hget (h ++ h') i = hget h i.
Proof. intros. unfold hget. now rewrite app_nth1. Qed.
Lemma hget_new (h : heap) r : hget (h ++ [r]) (List.length h) = r.
Proof. unfold hget. rewrite app_nth2, Nat.sub_diag by lia. reflexivity. Qed.

(** ** One multiplication *)
Lemma mul_ray_spec k (m : mat) rid (h : heap) o h' :
  (rid < List.length h)%nat -> mul_ray k m rid h = (o, h') ->
  hget h' o = mul_ray_v k m (hget h rid) /\
  (forall i, (i < List.length h)%nat -> i <> rid -> hget h' i = hget h i) /\
  ((rblk (hget h rid) = true /\ o = rid /\ List.length h' = List.length h) \/
   (rblk (hget h rid) = false /\ o = List.length h /\ List.length h' = S (List.length h) /\
    hget h' rid = hget h rid)).
Proof.
  intros Hr. unfold mul_ray, mul_ray_base, mul_ray_v.
  destruct (rblk (hget h rid)) eqn:B.
  - destruct k; intros [= <- <-]; (split; [|split]); auto.
    + now rewrite hget_hset_eq.
    + intros; now apply hget_hset_neq, not_eq_sym.
    + left; repeat split; auto. now rewrite hset_length.
  - unfold halloc. destruct k; intros [= <- <-]; (split; [|split]);
      rewrite ?hget_new; auto;
      try (intros; now apply hget_app);
      try (right; repeat split; [rewrite app_length; cbn; lia | now apply hget_app]).
    + rewrite hget_hset_eq; auto. rewrite app_length; cbn; lia.
    + intros. rewrite hget_hset_neq by lia. now apply hget_app.
    + right; repeat split.
      * rewrite hset_length, app_length; cbn; lia.
      * rewrite hget_hset_neq by lia. now apply hget_app.
Qed.

(** ** What a trace looks like *)
Record trace_ok (rid : nat) (h : heap) (tr : list nat) (h' : heap) (out : ray) : Prop := {
  t_len : (List.length h <= List.length h')%nat;
  t_ids : Forall (fun i => i = rid \/ List.length h <= i < List.length h')%nat tr;
  t_frame : forall i, (i < List.length h)%nat -> i <> rid -> hget h' i = hget h i;
  t_out : hget h' (List.last tr rid) = out;
  t_in : List.last tr rid <> rid -> rblk (hget h' rid) = false;
  t_same : rblk (hget h' rid) = false -> hget h' rid = hget h rid;
  t_unblocked : forall i, In i tr -> i <> List.last tr rid -> rblk (hget h' i) = false;
  t_sorted : Sorted le tr;
  t_nonempty : tr <> []
}.

Lemma trace_leaf_ok k (m : mat) rid h tr h' : (rid < List.length h)%nat ->
  trace_leaf k m rid h = (tr, h') -> trace_ok rid h tr h' (through_leaf k m (hget h rid)).
Proof.
  intros Hr. unfold trace_leaf, through_leaf. destruct (nltb c0 (mL m)).
  - set (h1 := if nltb (ndiv (mdiam m) c2) (nabs (ry (hget h rid)))
               then hset h rid (set_blk (hget h rid)) else h).
    assert (List.length h1 = List.length h) as L1
      by (unfold h1; destruct (nltb _ _); rewrite ?hset_length; auto).
    assert (hget h1 rid = if nltb (ndiv (mdiam m) c2) (nabs (ry (hget h rid)))
                          then set_blk (hget h rid) else hget h rid) as G1.
    { unfold h1; destruct (nltb _ _); auto. now rewrite hget_hset_eq. }
    assert (forall i, i <> rid -> hget h1 i = hget h i) as G2.
    { intros. unfold h1; destruct (nltb _ _); auto. rewrite hget_hset_neq; auto. }
    destruct (mul_ray k m rid h1) as [o h2] eqn:E. intros [= <- <-].
    destruct (mul_ray_spec _ _ _ _ _ _ ltac:(rewrite L1; exact Hr) E) as (S1 & S2 & S3).
    rewrite L1 in *. rewrite <- G1.
    constructor; cbn [List.last]; auto.
    + lia.
    + constructor; auto. constructor; auto. lia.
    + intros. rewrite S2, G2; auto.
    + intros Ho. destruct S3 as [(_ & ? & _)|(B & Eo & _ & K)]; [congruence|].
      now rewrite K.
    + intros Hb. destruct S3 as [(B & Eo & _)|(B & Eo & _ & K)].
      * subst o. rewrite S1 in Hb. unfold mul_ray_v in Hb. rewrite B in Hb.
        destruct k; cbn in Hb; congruence.
      * rewrite K in *. rewrite G1 in *.
        destruct (nltb (ndiv (mdiam m) c2) (nabs (ry (hget h rid)))); auto. discriminate.
    + intros i [<-|[<-|[]]] Hi; [|congruence].
      destruct S3 as [(_ & ? & _)|(B & Eo & _ & K)]; [congruence|]. now rewrite K.
    + repeat constructor. destruct S3 as [(_ & ? & _)|(B & Eo & _ & K)]; lia.
    + discriminate.
  - destruct (mul_ray k m rid h) as [o h2] eqn:E. intros [= <- <-].
    destruct (mul_ray_spec _ _ _ _ _ _ Hr E) as (S1 & S2 & S3).
    constructor; cbn [List.last]; auto.
    + lia.
    + constructor; auto. lia.
    + intros Ho. destruct S3 as [(_ & ? & _)|(B & Eo & _ & K)]; [congruence|].
      now rewrite K.
    + intros Hb. destruct S3 as [(B & Eo & _)|(B & Eo & _ & K)]; auto.
      subst o. rewrite S1 in Hb. unfold mul_ray_v in Hb. rewrite B in Hb.
      destruct k; cbn in Hb; congruence.
    + intros i [<-|[]] Hi; congruence.
    + discriminate.
Qed.

(** the nested loop of a group is the top-level one *)
Lemma trace_group gk (m : mat) es rid h :
  trace (Group gk m es) rid h = trace_loop es rid [rid] h.
Proof.
  cbn [trace]. generalize rid at 1 3. generalize [rid]. revert h.
  induction es as [|x t IH]; intros h acc cur; cbn; [reflexivity|].
  destruct (trace x cur h). apply IH.
Qed.

Lemma last_app_ne {A} (l l' : list A) d : l' <> [] -> List.last (l ++ l') d = List.last l' d.
Proof.
  intros Hn. induction l as [|x t IH]; [reflexivity|].
  cbn [app]. destruct (t ++ l') eqn:E.
  - destruct t; [cbn in E; congruence|discriminate].
  - cbn. exact IH.
Qed.
Lemma last_default {A} (l : list A) d d' : l <> [] -> List.last l d = List.last l d'.
Proof.
  induction l as [|x t IH]; intros; [congruence|]. destruct t; [reflexivity|].
  cbn in *. apply IH; discriminate.
Qed.
Lemma last_in {A} (l : list A) d : l <> [] -> In (List.last l d) l.
Proof.
  induction l as [|x t IH]; intros; [congruence|]. destruct t; [left; auto|].
  right. apply IH; discriminate.
Qed.

Lemma Sorted_app_le (l l' : list nat) d : Sorted le l -> Sorted le l' -> l <> [] ->
  (forall i, In i l' -> (List.last l d <= i)%nat) -> Sorted le (l ++ l').
Proof.
  induction l as [|x t IH]; intros H1 H2 Hn H; [congruence|].
  inversion H1 as [|? ? Hs Hh]; subst. destruct t as [|y t].
  - cbn. constructor; auto. destruct l' as [|z l']; constructor. apply H; left; auto.
  - cbn [app]. constructor.
    + apply IH; [exact Hs|exact H2|discriminate|exact H].
    + inversion Hh; subst. cbn. constructor. assumption.
Qed.

Lemma Sorted_le_last (l : list nat) d i : Sorted le l -> In i l -> (i <= List.last l d)%nat.
Proof.
  intros Hs. apply Sorted_StronglySorted in Hs; [|intros ? ? ?; lia].
  induction Hs as [|x t Ht IH HF]; [intros []|]. intros [<-|Hi].
  - destruct t; [cbn; lia|]. rewrite Forall_forall in HF. apply HF.
    change (List.last (x :: n :: t) d) with (List.last (n :: t) d).
    apply last_in; discriminate.
  - destruct t; [destruct Hi|]. change (List.last (x :: n :: t) d) with (List.last (n :: t) d). auto.
Qed.

(** composition: a trace followed by another one started from its last ray *)
Lemma trace_ok_app rid h tr h1 r1 tr2 h2 r2 : (rid < List.length h)%nat ->
  trace_ok rid h tr h1 r1 -> trace_ok (List.last tr rid) h1 tr2 h2 r2 ->
  trace_ok rid h (tr ++ tr2) h2 r2.
Proof.
  intros Hr H1 H2.
  assert (List.last (tr ++ tr2) rid = List.last tr2 (List.last tr rid)) as EL.
  { rewrite last_app_ne by apply H2. apply last_default, H2. }
  set (c := List.last tr rid) in *.
  assert (In c tr) as Hc by (apply last_in, H1).
  assert (c < List.length h1)%nat as Hcl.
  { pose proof (t_ids _ _ _ _ _ H1) as Hi. rewrite Forall_forall in Hi.
    destruct (Hi _ Hc) as [->|?]; [pose proof (t_len _ _ _ _ _ H1)|]; lia. }
  assert (c = rid \/ List.length h <= c)%nat as Hc2.
  { pose proof (t_ids _ _ _ _ _ H1) as Hi. rewrite Forall_forall in Hi.
    destruct (Hi _ Hc) as [->|?]; auto. lia. }
  constructor.
  - pose proof (t_len _ _ _ _ _ H1). pose proof (t_len _ _ _ _ _ H2). lia.
  - pose proof (t_len _ _ _ _ _ H1). pose proof (t_len _ _ _ _ _ H2).
    apply Forall_app; split.
    + eapply Forall_impl; [|apply (t_ids _ _ _ _ _ H1)]. cbn; intros; lia.
    + eapply Forall_impl; [|apply (t_ids _ _ _ _ _ H2)]. cbn; intros i [->|?].
      * destruct Hc2; [auto|right; lia].
      * right; lia.
  - intros i Hi Hne. rewrite (t_frame _ _ _ _ _ H2).
    + apply H1; auto.
    + pose proof (t_len _ _ _ _ _ H1). lia.
    + lia.
  - rewrite EL. apply H2.
  - rewrite EL. intros Hne. destruct (Nat.eq_dec c rid) as [Ec|Ec].
    + rewrite <- Ec. apply H2. congruence.
    + rewrite (t_frame _ _ _ _ _ H2); [|pose proof (t_len _ _ _ _ _ H1); lia|auto].
      now apply H1.
  - intros Hb. destruct (Nat.eq_dec c rid) as [Ec|Ec].
    + rewrite <- Ec in Hb |- *. pose proof (t_same _ _ _ _ _ H2 Hb) as E2. rewrite E2.
      rewrite E2 in Hb. clear E2. revert Hb. rewrite Ec. apply H1.
    + assert (hget h2 rid = hget h1 rid) as E2.
      { apply (t_frame _ _ _ _ _ H2); [pose proof (t_len _ _ _ _ _ H1); lia|congruence]. }
      rewrite E2 in *. now apply (t_same _ _ _ _ _ H1).
  - rewrite EL. intros i Hi Hne. apply in_app_or in Hi as [Hi|Hi].
    + destruct (Nat.eq_dec i c) as [->|Ei].
      * apply H2; congruence.
      * pose proof (t_ids _ _ _ _ _ H1) as Hids. rewrite Forall_forall in Hids.
        pose proof (t_len _ _ _ _ _ H1).
        rewrite (t_frame _ _ _ _ _ H2); [now apply H1| |auto].
        destruct (Hids _ Hi); lia.
    + apply H2; auto.
  - apply Sorted_app_le with (d := rid); try apply H1; try apply H2.
    intros i Hi. fold c. pose proof (t_ids _ _ _ _ _ H2) as Hids.
    rewrite Forall_forall in Hids. destruct (Hids _ Hi); lia.
  - destruct tr; [|discriminate]. cbn. apply H2.
Qed.

Lemma trace_ok_self rid (h : heap) : trace_ok rid h [rid] h (hget h rid).
Proof.
  constructor; cbn; auto.
  - congruence.
  - intros i [<-|[]]; congruence.
  - discriminate.
Qed.

Lemma trace_ok_last rid h tr h' out : (rid < List.length h)%nat ->
  trace_ok rid h tr h' out -> (List.last tr rid < List.length h')%nat.
Proof.
  intros Hr H. pose proof (t_ids _ _ _ _ _ H) as Hi. rewrite Forall_forall in Hi.
  pose proof (t_len _ _ _ _ _ H).
  destruct (Hi _ (last_in _ rid (t_nonempty _ _ _ _ _ H))); lia.
Qed.

Theorem trace_is_ok : forall e rid h, (rid < List.length h)%nat ->
  trace_ok rid h (fst (trace e rid h)) (snd (trace e rid h)) (through e (hget h rid)).
Proof.
  induction e as [k m | gk m es IH] using elem_ind'; intros rid h Hr.
  - cbn [trace through]. destruct (trace_leaf k m rid h) as [tr h'] eqn:E.
    now apply trace_leaf_ok.
  - rewrite trace_group. cbn [through].
    assert (forall es acc h0 h1 r, Forall (fun e => forall rid (h : heap), (rid < List.length h)%nat ->
       trace_ok rid h (fst (trace e rid h)) (snd (trace e rid h)) (through e (hget h rid))) es ->
       (rid < List.length h0)%nat ->
       trace_ok rid h0 acc h1 r ->
       trace_ok rid h0 (fst (trace_loop es (List.last acc rid) acc h1))
                       (snd (trace_loop es (List.last acc rid) acc h1))
                       (fold_left (fun r x => through x r) es r)) as HL.
    { clear. induction es as [|x t IHt]; intros acc h0 h1 r HF Hr0 H1; cbn [trace_loop fold_left].
      - exact H1.
      - inversion HF as [|? ? Hx HF']; subst.
        specialize (Hx (List.last acc rid) h1 (trace_ok_last _ _ _ _ _ Hr0 H1)).
        destruct (trace x (List.last acc rid) h1) as [tr h'] eqn:E. cbn in Hx.
        rewrite (t_out _ _ _ _ _ H1) in Hx.
        pose proof (trace_ok_app _ _ _ _ _ _ _ _ Hr0 H1 Hx) as HA.
        replace (List.last tr (List.last acc rid)) with (List.last (acc ++ tr) rid).
        + apply IHt; auto.
        + rewrite last_app_ne by apply Hx. apply last_default, Hx. }
    specialize (HL es [rid] h h (hget h rid) IH Hr (trace_ok_self rid h)).
    exact HL.
Qed.

(** the last ray of a trace is the propagated ray *)
Theorem traceThrough_through e r : traceThrough e r = through e r.
Proof.
  unfold traceThrough. pose proof (trace_is_ok e 0 [r] ltac:(cbn; lia)) as H.
  destruct (trace e 0 [r]) as [tr h]. cbn in H. apply (t_out _ _ _ _ _ H).
Qed.

(** ** Blocking *)
Definition misses (m : mat) (r : ray) : bool :=
  nltb (ndiv (mdiam m) c2) (nabs (ry r)) || nltb (mna m) (nabs (rth r)).

(** propagation through an element as if it had no aperture *)
Definition ideal (km : kind * mat) (r : ray) : ray :=
  let m := snd km in
  let y := nadd (nmul (mA m) (ry r)) (nmul (mB m) (rth r)) in
  let th := nadd (nmul (mC m) (ry r)) (nmul (mD m) (rth r)) in
  mkRay y (match fst km with
           | KAxicon n alpha => axicon_th n alpha (ry r) th
           | _ => th end)
        (nadd (mL m) (rz r)) (rblk r) (mdiam m) None.
Definition ideals (l : list (kind * mat)) (r : ray) : ray :=
  fold_left (fun r km => ideal km r) l r.

Definition not_axicon (km : kind * mat) : Prop :=
  match fst km with KAxicon _ _ => False | _ => True end.

Lemma through_leaf_free km r : rblk r = false -> misses (snd km) r = false ->
  through_leaf (fst km) (snd km) r = ideal km r.
Proof.
  destruct km as [k m]; unfold misses, through_leaf, mul_ray_v, ideal, mul_ray_new; cbn.
  intros Hb Hm. rewrite Hb. pose proof Hm as Hm'.
  apply orb_false_iff in Hm as [H1 H2]. rewrite H1, Hb, H2. cbn.
  destruct (nltb c0 (mL m)); destruct k; rewrite ?Hb, ?H1, ?H2; cbn; reflexivity.
Qed.

Lemma through_leaf_blocks k m r : rblk (through_leaf k m r) = rblk r || misses m r.
Proof.
  unfold misses, through_leaf, mul_ray_v, mul_ray_new, set_blk, set_th.
  destruct (rblk r) eqn:B; cbn.
  - destruct (nltb c0 (mL m)); destruct (nltb (ndiv (mdiam m) c2) (nabs (ry r)));
      cbn; rewrite ?B; cbn; destruct k; cbn; auto.
  - destruct (nltb c0 (mL m)) eqn:E0; destruct (nltb (ndiv (mdiam m) c2) (nabs (ry r))) eqn:E1;
      cbn; rewrite ?B; cbn; rewrite ?E1; cbn;
      destruct (nltb (mna m) (nabs (rth r))); destruct k; cbn; rewrite ?B; auto.
Qed.

Lemma through_leaf_keeps k m r : rblk r = true -> not_axicon (k, m) -> through_leaf k m r = r.
Proof.
  unfold not_axicon, through_leaf, mul_ray_v; cbn. intros B Hk. rewrite B.
  assert (set_blk r = r) as E by (destruct r; cbn in *; subst; reflexivity).
  destruct (nltb c0 (mL m)); destruct (nltb (ndiv (mdiam m) c2) (nabs (ry r)));
    rewrite ?E, ?B; cbn;
    destruct k; try contradiction; reflexivity.
Qed.

Lemma through_leaves_blocked l : forall r, rblk r = true -> rblk (through_leaves l r) = true.
Proof.
  induction l as [|[k m] t IH]; intros r H; cbn; auto.
  apply IH. rewrite through_leaf_blocks, H. reflexivity.
Qed.

(** the first miss on the way, or none *)
Lemma through_leaves_free l : forall r, rblk (through_leaves l r) = false ->
  rblk r = false /\ through_leaves l r = ideals l r /\
  forall pre km post, l = pre ++ km :: post -> misses (snd km) (ideals pre r) = false.
Proof.
  induction l as [|[k m] t IH]; intros r H; cbn in *.
  - split; auto. split; auto. intros [|] ? ? E; discriminate.
  - pose proof (IH _ H) as (B & E & F). rewrite through_leaf_blocks in B.
    apply orb_false_iff in B as [B1 B2].
    split; auto. pose proof (through_leaf_free (k, m) r B1 B2) as E1. cbn in E1.
    split.
    + unfold through_leaves in *; cbn. rewrite E. unfold ideals; cbn. now rewrite E1.
    + intros [|x pre] km post Eq; cbn in Eq; injection Eq as <- ->; cbn; auto.
      specialize (F pre km post eq_refl). rewrite E1 in F. exact F.
Qed.

Lemma through_leaves_passes l : forall r, rblk r = false ->
  (forall pre km post, l = pre ++ km :: post -> misses (snd km) (ideals pre r) = false) ->
  through_leaves l r = ideals l r.
Proof.
  induction l as [|[k m] t IH]; intros r B H; cbn; auto.
  pose proof (through_leaf_free (k, m) r B (H [] (k, m) t eq_refl)) as E1. cbn in E1.
  unfold through_leaves in *. cbn. rewrite E1. apply IH; auto.
  intros pre km post Eq. exact (H ((k, m) :: pre) km post (f_equal (cons (k, m)) Eq)).
Qed.

Lemma ideals_blk l : forall r, rblk (ideals l r) = rblk r.
Proof. unfold ideals. induction l; intros; cbn; auto. now rewrite IHl. Qed.

Theorem blocked_iff e r :
  rblk (through e r) = true <->
  rblk r = true \/
  exists pre km post, leaves e = pre ++ km :: post /\ misses (snd km) (ideals pre r) = true.
Proof.
  rewrite through_flatten. split.
  - intros H. destruct (rblk r) eqn:B; auto. right.
    assert (forall l r, rblk r = false -> rblk (through_leaves l r) = true ->
      exists pre km post, l = pre ++ km :: post /\ misses (snd km) (ideals pre r) = true) as HX.
    { clear. induction l as [|[k m] t IH]; cbn; intros r B H; [congruence|].
      destruct (misses m r) eqn:Mi.
      - exists [], (k, m), t. auto.
      - pose proof (through_leaf_free (k, m) r B Mi) as E1. cbn in E1.
        unfold through_leaves in H; cbn in H. rewrite E1 in H.
        destruct (IH (ideal (k, m) r) B H) as (pre & km & post & -> & G).
        exists ((k, m) :: pre), km, post. auto. }
    apply HX; auto.
  - intros [B | (pre & km & post & E & Mi)].
    + apply through_leaves_blocked; auto.
    + rewrite E. destruct (rblk (through_leaves (pre ++ km :: post) r)) eqn:B; auto.
      apply through_leaves_free in B as (_ & _ & F).
      rewrite (F pre km post eq_refl) in Mi. discriminate.
Qed.

(** an unblocked output ray is the ideal one *)
Theorem unblocked_ideal e r : rblk (through e r) = false -> through e r = ideals (leaves e) r.
Proof. rewrite through_flatten. intros H. now apply through_leaves_free in H. Qed.

Theorem blocked_frozen e r : rblk r = true -> Forall not_axicon (leaves e) -> through e r = r.
Proof.
  rewrite through_flatten. intros B. revert r B. induction (leaves e) as [|[k m] t IH]; intros r B H;
    cbn; auto. inversion H; subst. unfold through_leaves in *; cbn.
  rewrite through_leaf_keeps; auto.
Qed.

(** ** Shape of a trace, read at the end *)
Lemma Sorted_split_last (l : list nat) d : Sorted le l -> l <> [] ->
  exists pre suf, l = pre ++ suf /\ suf <> [] /\
    Forall (fun i => i <> List.last l d) pre /\ Forall (fun i => i = List.last l d) suf.
Proof.
  intros Hs. apply Sorted_StronglySorted in Hs; [|intros ? ? ?; lia].
  induction Hs as [|x t Ht IH HF]; [congruence|]. intros _.
  destruct t as [|y t].
  - exists [], [x]. split; [reflexivity|]. split; [discriminate|]. split; auto.
  - change (List.last (x :: y :: t) d) with (List.last (y :: t) d).
    destruct IH as (pre & suf & E & Hn & F1 & F2); [discriminate|].
    destruct (Nat.eq_dec x (List.last (y :: t) d)) as [Ex|Ex].
    + (* then every later entry is x *)
      exists [], (x :: y :: t). split; [reflexivity|]. split; [discriminate|]. split; auto.
      constructor; auto. rewrite Forall_forall in *. intros i Hi.
      specialize (HF i Hi).
      pose proof (Sorted_le_last (y :: t) d i (StronglySorted_Sorted Ht) Hi). lia.
    + exists (x :: pre), suf. split; [cbn; now rewrite <- E|]. split; auto.
Qed.

(** In a finished trace, the blocked entries form a tail and are all the same ray. *)
Theorem trace_tail e rid h : (rid < List.length h)%nat ->
  let tr := fst (trace e rid h) in
  let vs := map (hget (snd (trace e rid h))) tr in
  exists pre suf, vs = pre ++ suf /\
    Forall (fun r => rblk r = false) pre /\
    suf <> [] /\ Forall (fun r => r = through e (hget h rid)) suf.
Proof.
  intros Hr tr vs. pose proof (trace_is_ok e rid h Hr) as H. fold tr in H.
  destruct (Sorted_split_last tr rid (t_sorted _ _ _ _ _ H) (t_nonempty _ _ _ _ _ H))
    as (pre & suf & E & Hn & F1 & F2).
  exists (map (hget (snd (trace e rid h))) pre), (map (hget (snd (trace e rid h))) suf).
  split; [unfold vs; rewrite E; apply map_app|]. split; [|split].
  - rewrite Forall_map, Forall_forall in *. intros i Hi.
    apply (t_unblocked _ _ _ _ _ H); [rewrite E; apply in_or_app; auto|]. now apply F1.
  - destruct suf; [congruence|discriminate].
  - rewrite Forall_map, Forall_forall in *. intros i Hi. rewrite (F2 _ Hi).
    apply (t_out _ _ _ _ _ H).
Qed.

Lemma trace_first gk (m : mat) es rid h : exists t, fst (trace (Group gk m es) rid h) = rid :: t.
Proof.
  rewrite trace_group.
  assert (forall es c acc (h : heap), exists t, fst (trace_loop es c acc h) = acc ++ t) as HL.
  { clear. induction es as [|x t IH]; intros; cbn.
    - exists []. now rewrite app_nil_r.
    - destruct (trace x c h) as [tr h']. destruct (IH (List.last tr c) (acc ++ tr) h') as [u Hu].
      exists (tr ++ u). now rewrite app_assoc. }
  apply (HL es rid [rid] h).
Qed.

(** ** The caller's ray object *)
Theorem caller_ray e r : 
  let r' := hget (snd (trace e 0 [r])) 0 in rblk r' = false -> r' = r.
Proof. intros r' Hb. apply (t_same _ _ _ _ _ (trace_is_ok e 0 [r] ltac:(cbn; lia))). exact Hb. Qed.

(** other ray objects are never touched *)
Theorem other_rays e rid h i : (rid < List.length h)%nat -> (i < List.length h)%nat -> i <> rid ->
  hget (snd (trace e rid h)) i = hget h i.
Proof. intros. apply (t_frame _ _ _ _ _ (trace_is_ok e rid h H)); auto. Qed.
End Generic.
