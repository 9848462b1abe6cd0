(** What operations on one path leave alone in the store of element objects. *)
From Coq Require Import ZArith List Bool String Lia Reals.
From Verif Require Import Base Nums Optics Group Store.
Import ListNotations.
Open Scope list_scope.

Section Proofs.
Context {T : Type} {N : Num T}.
Local Notation obj := (@obj T).
Local Notation store := (@store T).
Local Notation heap := (@heap T).

Lemma oset_length (s : store) i o : List.length (oset s i o) = List.length s.
Proof. unfold oset. revert i. induction s as [|a s IH]; intros [|i]; cbn; auto. Qed.
Lemma oget_oset_eq (s : store) i o : (i < List.length s)%nat -> oget (oset s i o) i = Some o.
Proof.
  unfold oget, oset. revert i. induction s as [|a s IH]; intros [|i] H; cbn in *; try lia; auto.
  apply IH. lia.
Qed.
Lemma oget_oset_neq (s : store) i j o : i <> j -> oget (oset s i o) j = oget s j.
Proof.
  unfold oget, oset. revert i j. induction s as [|a s IH]; intros [|i] [|j] H; cbn; auto; try congruence.
Qed.
Lemma oget_lt (s : store) i o : oget s i = Some o -> (i < List.length s)%nat.
Proof. intros H. apply nth_error_Some. unfold oget in H. congruence. Qed.
Lemma oget_app (s : store) x i : (i < List.length s)%nat -> oget (s ++ x) i = oget s i.
Proof. intros. unfold oget. now apply nth_error_app1. Qed.
Lemma oget_new (s : store) o : oget (s ++ [o]) (List.length s) = Some o.
Proof. unfold oget. rewrite nth_error_app2 by lia. now rewrite Nat.sub_diag. Qed.

(** unchanged, or a Space with another index *)
Definition index_only (a b : option obj) : Prop :=
  a = b \/ exists m n, a = Some (OLeaf KSpace m) /\ b = Some (set_oindex (OLeaf KSpace m) n).

Lemma index_only_refl a : index_only a a.
Proof. now left. Qed.
Lemma index_only_trans a b c : index_only a b -> index_only b c -> index_only a c.
Proof.
  intros [->|(m & n & -> & ->)] H; auto. destruct H as [<-|(m' & n' & E & ->)].
  - right. eauto.
  - right. exists m, n'. split; auto. cbn in E. injection E as <-. reflexivity.
Qed.

(** objects outside [G] keep everything but the index of a Space; objects are not destroyed *)
Definition leaves_alone (G : nat -> Prop) (s s' : store) : Prop :=
  (List.length s <= List.length s')%nat /\
  forall j, (j < List.length s)%nat -> ~ G j -> index_only (oget s j) (oget s' j).

Lemma alone_refl G s : leaves_alone G s s.
Proof. split; auto. intros. apply index_only_refl. Qed.
Lemma alone_trans (G G' : nat -> Prop) s s' s'' :
  leaves_alone G s s' -> leaves_alone G' s' s'' ->
  (forall j, G' j -> G j \/ (List.length s <= j)%nat) -> leaves_alone G s s''.
Proof.
  intros (L1 & H1) (L2 & H2) HG. split; [lia|]. intros j Hj NG.
  eapply index_only_trans; [apply H1; auto|]. apply H2; [lia|].
  intros X. destruct (HG j X); [auto|lia].
Qed.
Lemma alone_weaken (G G' : nat -> Prop) s s' : leaves_alone G s s' -> (forall j, G j -> G' j) ->
  leaves_alone G' s s'.
Proof. intros (L & H) HG. split; auto. Qed.
Lemma alone_oset (G : nat -> Prop) (s : store) g (o : obj) : G g -> leaves_alone G s (oset s g o).
Proof.
  intros. split; [rewrite oset_length; lia|]. intros j Hj NG. rewrite oget_oset_neq; [|congruence].
  apply index_only_refl.
Qed.
Lemma alone_new (G : nat -> Prop) (s : store) (o : obj) : leaves_alone G s (s ++ [o]).
Proof.
  split; [rewrite app_length; cbn; lia|]. intros j Hj _. rewrite oget_app by auto. apply index_only_refl.
Qed.
Lemma alone_set_kids (G : nat -> Prop) (s : store) g l : G g -> leaves_alone G s (set_kids s g l).
Proof.
  intros. unfold set_kids. destruct (oget s g) as [[|]|]; try apply alone_refl. now apply alone_oset.
Qed.

Lemma oappend_check_alone (G : nat -> Prop) (s : store) kids i s' : oappend_check s kids i = Ok s' -> leaves_alone G s s'.
Proof.
  unfold oappend_check. destruct (oget s i) as [o|] eqn:E; [|discriminate].
  destruct (last_opt kids) as [l|]; [|intros [= <-]; apply alone_refl].
  destruct (oget s l) as [lo|]; [|discriminate].
  destruct (neqb _ _); [intros [= <-]; apply alone_refl|].
  destruct (is_space_obj o) eqn:ES; [|discriminate]. intros [= <-].
  destruct o as [[] m|]; try discriminate.
  split; [rewrite oset_length; lia|]. intros j Hj _. destruct (Nat.eq_dec i j) as [->|Hn].
  - right. exists m, (mbi (omat lo)). split; auto. rewrite oget_oset_eq by auto. reflexivity.
  - rewrite oget_oset_neq by auto. apply index_only_refl.
Qed.

Theorem oappend_alone s g i : leaves_alone (eq g) s (fst (oappend s g i)).
Proof.
  unfold oappend. destruct (oget s g) as [[k m|gk m kids c it]|] eqn:Eg; cbn [fst]; try apply alone_refl.
  destruct (oappend_check s kids i) as [s1|] eqn:E1; cbn [fst]; [|apply alone_refl].
  pose proof (oappend_check_alone (eq g) _ _ _ _ E1) as H1.
  assert (leaves_alone (eq g) s (oset s1 g (OGroup gk m (kids ++ [i]) c it))) as H2.
  { eapply (alone_trans _ (eq g)); [exact H1|apply alone_oset; reflexivity|]. intros j <-. now left. }
  destruct (all_some _ _); cbn [fst]; auto. destruct (group_transfer _ _); cbn [fst]; auto.
  eapply (alone_trans _ (eq g)); [exact H2|apply alone_oset; reflexivity|]. intros j <-. now left.
Qed.

Lemma oappend_all_alone l : forall s g, leaves_alone (eq g) s (fst (oappend_all s g l)).
Proof.
  induction l as [|i l IH]; intros s g; cbn [oappend_all fst]; [apply alone_refl|].
  pose proof (oappend_alone s g i) as H. destruct (oappend s g i) as [s' [x|]]; cbn [fst] in *; auto.
  eapply alone_trans; [exact H|apply IH|]. intros j <-. now left.
Qed.

Theorem orebuild_alone s g l : leaves_alone (eq g) s (fst (orebuild s g l)).
Proof.
  unfold orebuild. eapply alone_trans; [apply (alone_set_kids (eq g)); reflexivity|apply oappend_all_alone|].
  intros j <-. now left.
Qed.

Theorem opop_alone s g i : leaves_alone (eq g) s (fst (opop s g i)).
Proof.
  unfold opop. destruct (pyindex _ _); cbn [fst]; [apply orebuild_alone|apply alone_refl].
Qed.

(** a new group changes no old object but for Space indices *)
Theorem onew_group_alone s l : leaves_alone (fun _ => False) s (fst (snd (onew_group s l))).
Proof.
  unfold onew_group. destruct (Matrix_init _ _ _ _ _ _ _ _ _ _ _ _) as [m|x]; cbn [fst snd]; [|apply alone_refl].
  unfold onew. cbn [fst snd]. eapply alone_trans; [apply alone_new|apply oappend_all_alone|].
  intros j <-. right. lia.
Qed.

Theorem oinsert_alone s g i l : leaves_alone (eq g) s (fst (oinsert s g i l)).
Proof.
  unfold oinsert. pose proof (onew_group_alone s l) as H.
  destruct (onew_group s l) as [tmp [s1 [x|]]]; cbn [fst snd] in *.
  - eapply alone_weaken; [exact H|]. intros j [].
  - eapply alone_trans; [eapply alone_weaken; [exact H|intros j []]|apply orebuild_alone|].
    intros j <-. now left.
Qed.

Theorem osetitem_alone s g i l : leaves_alone (eq g) s (fst (osetitem s g i l)).
Proof.
  unfold osetitem. pose proof (opop_alone s g i) as H. destruct (opop s g i) as [s1 [x|]]; cbn [fst] in *; auto.
  eapply alone_trans; [exact H|apply oinsert_alone|]. intros j <-. now left.
Qed.

Theorem osetslice_alone s g a b l : leaves_alone (eq g) s (fst (osetslice s g a b l)).
Proof.
  unfold osetslice. eapply alone_trans; [apply (alone_set_kids (eq g)); reflexivity|apply oinsert_alone|].
  intros j <-. now left.
Qed.

Theorem osubPath_alone s g z b : leaves_alone (fun _ => False) s (fst (snd (osubPath s g z b))).
Proof.
  unfold osubPath. generalize (@nil nat) as before, c0 as z0. induction (kids_of s g) as [|x t IH]; intros before z0;
    cbn [osubPath_loop fst snd]; [apply alone_refl|].
  destruct (oget s x) as [o|]; cbn [fst snd]; [|apply alone_refl].
  destruct (_ && _); [|apply IH]. destruct (is_space_obj o); cbn [fst snd]; [|apply alone_refl].
  destruct (Space _ _ _) as [sp|]; cbn [fst snd]; [|apply alone_refl].
  unfold onew. eapply alone_trans; [apply alone_new|apply onew_group_alone|]. intros j [].
Qed.

(** ** Histories of operations *)
Inductive sop :=
| SAppend (g i : nat)
| SPop (g : nat) (i : Z)
| SInsert (g : nat) (i : Z) (l : list nat)
| SSetItem (g : nat) (i : Z) (l : list nat)
| SSetSlice (g : nat) (a b : option Z) (l : list nat)
| SNewGroup (l : list nat)
| SGetSlice (g : nat) (a b : Z)
| SSubPath (g : nat) (z : T) (backwards : bool).

(** the group the operation is called on, when the operation is meant to change it *)
Definition modifies (o : sop) : nat -> Prop :=
  match o with
  | SAppend g _ | SPop g _ | SInsert g _ _ | SSetItem g _ _ | SSetSlice g _ _ _ => eq g
  | SNewGroup _ | SGetSlice _ _ _ | SSubPath _ _ _ => fun _ => False
  end.

Definition sstep (s : store) (o : sop) : store * option exn :=
  match o with
  | SAppend g i => oappend s g i
  | SPop g i => opop s g i
  | SInsert g i l => oinsert s g i l
  | SSetItem g i l => osetitem s g i l
  | SSetSlice g a b l => osetslice s g a b l
  | SNewGroup l => snd (onew_group s l)
  | SGetSlice g a b => snd (ogetslice s g a b)
  | SSubPath g z b => snd (osubPath s g z b)
  end.
(** exceptions are caught by the user, who carries on *)
Definition srun (s : store) (l : list sop) : store := fold_left (fun s o => fst (sstep s o)) l s.

Lemma sstep_alone s o : leaves_alone (modifies o) s (fst (sstep s o)).
Proof.
  destruct o; cbn [modifies sstep]; auto using oappend_alone, opop_alone, oinsert_alone, osetitem_alone,
    osetslice_alone, onew_group_alone, osubPath_alone. apply onew_group_alone.
Qed.

Theorem srun_alone l : forall s, leaves_alone (fun j => exists o, In o l /\ modifies o j) s (srun s l).
Proof.
  induction l as [|o l IH]; intros s; [apply alone_refl|].
  unfold srun. cbn [fold_left]. eapply (alone_trans _ (fun j => exists o, In o l /\ modifies o j)).
  - eapply alone_weaken; [apply sstep_alone|]. intros j Hj. exists o. split; [now left|exact Hj].
  - apply IH.
  - intros j (o' & Ho & Hj). left. exists o'. split; [now right|assumption].
Qed.

(** objects outside [G] are unchanged *)
Definition unchanged (G : nat -> Prop) (s s' : store) : Prop :=
  (List.length s <= List.length s')%nat /\
  forall j, (j < List.length s)%nat -> ~ G j -> oget s' j = oget s j.
Lemma unchanged_refl G s : unchanged G s s.
Proof. split; auto. Qed.
Lemma unchanged_trans (G G' : nat -> Prop) s s' s'' :
  unchanged G s s' -> unchanged G' s' s'' ->
  (forall j, G' j -> G j \/ (List.length s <= j)%nat) -> unchanged G s s''.
Proof.
  intros (L1 & H1) (L2 & H2) HG. split; [lia|]. intros j Hj NG.
  rewrite H2, H1; auto; [lia|]. intros X. destruct (HG j X); [auto|lia].
Qed.
Lemma unchanged_weaken (G G' : nat -> Prop) s s' : unchanged G s s' -> (forall j, G j -> G' j) ->
  unchanged G' s s'.
Proof. intros (L & H) HG. split; auto. Qed.
Lemma unchanged_oset (G : nat -> Prop) (s : store) g (o : obj) : G g -> unchanged G s (oset s g o).
Proof.
  intros. split; [rewrite oset_length; lia|]. intros j Hj NG. rewrite oget_oset_neq; congruence.
Qed.
Lemma unchanged_new (G : nat -> Prop) (s : store) (o : obj) : unchanged G s (s ++ [o]).
Proof. split; [rewrite app_length; cbn; lia|]. intros j Hj _. now rewrite oget_app. Qed.
(** ** Flipping reaches the elements below the flipped object *)
Fixpoint reach (fuel : nat) (s : store) (i : nat) : list nat :=
  match fuel with
  | O => [i]
  | S fuel => i :: List.concat (map (reach fuel s) (kids_of s i))
  end.

Lemma oappend_unchanged (s : store) g i : unchanged (fun j => j = g \/ j = i) s (fst (oappend s g i)).
Proof.
  unfold oappend. destruct (oget s g) as [[k m|gk m kids c it]|] eqn:Eg; cbn [fst]; try apply unchanged_refl.
  destruct (oappend_check s kids i) as [s1|] eqn:E1; cbn [fst]; [|apply unchanged_refl].
  assert (unchanged (fun j => j = g \/ j = i) s s1) as H1.
  { unfold oappend_check in E1. destruct (oget s i) as [o|]; [|discriminate].
    destruct (last_opt kids) as [l|]; [|injection E1 as <-; apply unchanged_refl].
    destruct (oget s l) as [lo|]; [|discriminate].
    destruct (neqb _ _); [injection E1 as <-; apply unchanged_refl|].
    destruct (is_space_obj o); [|discriminate]. injection E1 as <-. apply unchanged_oset. now right. }
  assert (unchanged (fun j => j = g \/ j = i) s (oset s1 g (OGroup gk m (kids ++ [i]) c it))) as H2.
  { eapply (unchanged_trans _ (eq g)); [exact H1|apply unchanged_oset; reflexivity|]. intros j <-. left. now left. }
  destruct (all_some _ _); cbn [fst]; auto. destruct (group_transfer _ _); cbn [fst]; auto.
  eapply (unchanged_trans _ (eq g)); [exact H2|apply unchanged_oset; reflexivity|]. intros j <-. left. now left.
Qed.

(** the elements of the groups *)
Lemma oappend_check_kids (s : store) kids i s' : oappend_check s kids i = Ok s' -> forall j, kids_of s' j = kids_of s j.
Proof.
  intros H. destruct (oappend_check_alone (fun _ => False) _ _ _ _ H) as (L & A). intros j. unfold kids_of.
  destruct (Nat.lt_ge_cases j (List.length s)) as [Hj|Hj].
  - destruct (A j Hj ltac:(tauto)) as [->|(m & n & -> & ->)]; auto.
  - assert (List.length s' = List.length s) as L'.
    { unfold oappend_check in H. destruct (oget s i); [|discriminate]. destruct (last_opt kids); [|now injection H as <-].
      destruct (oget s n); [|discriminate]. destruct (neqb _ _); [now injection H as <-|].
      destruct (is_space_obj _); [|discriminate]. injection H as <-. apply oset_length. }
    unfold oget. rewrite !(proj2 (nth_error_None _ _)) by lia. reflexivity.
Qed.
Lemma kids_of_oset (s : store) g o j : kids_of (oset s g o) j = kids_of s j \/
  (j = g /\ kids_of (oset s g o) j = match o with OGroup _ _ k _ _ => k | _ => [] end).
Proof.
  destruct (Nat.eq_dec g j) as [->|Hn].
  - destruct (Nat.lt_ge_cases j (List.length s)) as [Hj|Hj].
    + right. split; auto. unfold kids_of. rewrite oget_oset_eq by auto. destruct o; auto.
    + left. unfold kids_of, oget. rewrite !(proj2 (nth_error_None _ _)); auto. now rewrite oset_length.
  - left. unfold kids_of. now rewrite oget_oset_neq.
Qed.
Lemma oappend_kids (s : store) g i j :
  kids_of (fst (oappend s g i)) j = kids_of s j \/ (j = g /\ kids_of (fst (oappend s g i)) j = kids_of s j ++ [i]).
Proof.
  unfold oappend. destruct (oget s g) as [[k m|gk m kids c it]|] eqn:Eg; cbn [fst]; auto.
  destruct (oappend_check s kids i) as [s1|] eqn:E1; cbn [fst]; auto.
  pose proof (oappend_check_kids _ _ _ _ E1) as K.
  assert (kids_of s g = kids) as Kg by (unfold kids_of; now rewrite Eg).
  assert (forall m', kids_of (oset s1 g (OGroup gk m' (kids ++ [i]) c it)) j = kids_of s j \/
    j = g /\ kids_of (oset s1 g (OGroup gk m' (kids ++ [i]) c it)) j = kids_of s j ++ [i]) as H1.
  { intros m'. destruct (kids_of_oset s1 g (OGroup gk m' (kids ++ [i]) c it) j) as [->|[-> ->]].
    - left. apply K.
    - right. rewrite Kg. auto. }
  destruct (all_some _ _); cbn [fst]; auto. destruct (group_transfer _ _) as [tm|]; cbn [fst]; auto.
  replace (oset (oset s1 g (OGroup gk m (kids ++ [i]) c it)) g (OGroup gk (copy_attrs m tm) (kids ++ [i]) c it))
    with (oset s1 g (OGroup gk (copy_attrs m tm) (kids ++ [i]) c it)); auto.
  unfold oset. clear. revert g. induction s1 as [|a s1 IH]; intros [|g]; cbn; auto. now rewrite <- IH.
Qed.

Lemma reach_mono fuel : forall (s s' : store) i, (forall j, incl (kids_of s' j) (kids_of s j)) ->
  incl (reach fuel s' i) (reach fuel s i).
Proof.
  induction fuel as [|fuel IH]; intros s s' i H; cbn [reach]; [apply incl_refl|].
  intros x [<-|Hx]; [now left|right]. apply in_concat in Hx. destruct Hx as (l & Hl & Hx).
  apply in_map_iff in Hl. destruct Hl as (k & <- & Hk). apply in_concat. exists (reach fuel s k).
  split; [apply in_map; apply H; exact Hk|]. now apply (IH s s').
Qed.

(** the loop of lines 475-481 as a top-level function *)
Fixpoint oflip_loop (fuel : nat) (i : nat) (s : store) (l : list nat) : store * option exn :=
  match l with
  | [] => (s, None)
  | x :: t =>
      match oflip fuel s x with
      | (s', Some e) => (s', Some e)
      | (s', None) =>
          match oappend s' i x with
          | (s'', Some e) => (s'', Some e)
          | (s'', None) => oflip_loop fuel i s'' t
          end
      end
  end.
Lemma oflip_group fuel (s : store) i gk m kids c it : oget s i = Some (OGroup gk m kids c it) ->
  oflip (S fuel) s i =
  match oflip_loop fuel i (oset s i (OGroup gk (set_flip m (negb (mflip m))) [] c it)) (rev kids) with
  | (s', None) => (ofinish s' i, None)
  | (s', Some e) => (s', Some e)
  end.
Proof.
  intros E. cbn [oflip]. rewrite E.
  generalize (oset s i (OGroup gk (set_flip m (negb (mflip m))) [] c it)) as s0. intros s0.
  match goal with |- match ?a with _ => _ end = match ?b with _ => _ end => replace b with a; [reflexivity|] end.
  revert s0. induction (rev kids) as [|x t IH]; intros s0; [reflexivity|]. cbn [oflip_loop].
  destruct (oflip fuel s0 x) as [s1 [e|]]; auto. destruct (oappend s1 i x) as [s2 [e|]]; auto.
Qed.

Lemma ofinish_frame (s : store) i : unchanged (eq i) s (ofinish s i) /\ forall j, kids_of (ofinish s i) j = kids_of s j.
Proof.
  unfold ofinish. destruct (oget s i) as [[|[|a b] m kids c it]|] eqn:E; try (split; [apply unchanged_refl|auto]).
  destruct (all_some _ _); [|split; [apply unchanged_refl|auto]]. split; [now apply unchanged_oset|].
  intros j. match goal with |- kids_of (oset s i ?o) j = _ => destruct (kids_of_oset s i o j) as [->|[-> ->]]; auto end.
  unfold kids_of. now rewrite E.
Qed.

Theorem oflip_frame fuel : forall (s : store) i,
  unchanged (fun j => In j (reach fuel s i)) s (fst (oflip fuel s i)) /\
  forall j, incl (kids_of (fst (oflip fuel s i)) j) (kids_of s j).
Proof.
  induction fuel as [|fuel IH]; intros s i; [split; [apply unchanged_refl|intros; apply incl_refl]|].
  destruct (oget s i) as [[k m|gk m kids c it]|] eqn:E.
  - cbn [oflip]. rewrite E. destruct (flip_leaf k m) as [e|]; cbn [fst]; [|split; [apply unchanged_refl|intros; apply incl_refl]].
    split; [apply unchanged_oset; now left|]. intros j.
    destruct (kids_of_oset s i (leaf_obj e) j) as [->|[-> ->]]; [apply incl_refl|].
    destruct e; cbn [leaf_obj]; apply incl_nil_l.
  - rewrite (oflip_group _ _ _ _ _ _ _ _ E).
    assert (kids_of s i = kids) as Ki by (unfold kids_of; now rewrite E).
    set (G := fun j => In j (reach (S fuel) s i)).
    assert (G i) as Gi by now left.
    assert (forall l s1, incl l kids -> unchanged G s s1 -> (forall j, incl (kids_of s1 j) (kids_of s j)) ->
      unchanged G s (fst (oflip_loop fuel i s1 l)) /\
      (forall j, incl (kids_of (fst (oflip_loop fuel i s1 l)) j) (kids_of s j))) as HL.
    { induction l as [|x t IHl]; intros s1 Hl U K; [split; auto|]. cbn [oflip_loop].
      destruct (IH s1 x) as (U2 & K2). destruct (oflip fuel s1 x) as [s2 e]. cbn [fst] in U2, K2.
      assert (forall j, In j (reach fuel s x) -> G j) as Gx.
      { intros j Hj. right. rewrite Ki. apply in_concat. exists (reach fuel s x). split; auto.
        apply in_map. apply Hl. now left. }
      assert (unchanged G s s2) as U3.
      { eapply unchanged_trans; [exact U|exact U2|]. intros j Hj. left. apply Gx. exact (reach_mono _ _ _ _ K _ Hj). }
      assert (forall j, incl (kids_of s2 j) (kids_of s j)) as K3 by (intros j; eapply incl_tran; eauto).
      destruct e as [e|]; [split; auto|].
      pose proof (oappend_unchanged s2 i x) as U4. pose proof (oappend_kids s2 i x) as K4.
      destruct (oappend s2 i x) as [s3 e]. cbn [fst] in U4, K4.
      assert (unchanged G s s3) as U5.
      { eapply unchanged_trans; [exact U3|exact U4|]. intros j [->| ->]; left; auto.
        apply Gx. destruct fuel; now left. }
      assert (forall j, incl (kids_of s3 j) (kids_of s j)) as K5.
      { intros j. destruct (K4 j) as [->|[-> ->]]; auto. apply incl_app; auto.
        intros y [<-|[]]. rewrite Ki. apply Hl. now left. }
      destruct e as [e|]; [split; auto|]. apply IHl; auto. intros y Hy. apply Hl. now right. }
    set (s0 := oset s i (OGroup gk (set_flip m (negb (mflip m))) [] c it)).
    destruct (HL (rev kids) s0) as (U & K).
    + intros y Hy. now apply in_rev.
    + now apply unchanged_oset.
    + intros j. unfold s0. match goal with |- incl (kids_of (oset s i ?o) j) _ =>
        destruct (kids_of_oset s i o j) as [->|[-> ->]] end; [apply incl_refl|apply incl_nil_l].
    + destruct (oflip_loop fuel i s0 (rev kids)) as [s1 [e|]]; cbn [fst] in *; [split; auto|].
      destruct (ofinish_frame s1 i) as (U2 & K2). split.
      * eapply unchanged_trans; [exact U|exact U2|]. intros j <-. now left.
      * intros j. rewrite K2. auto.
  - cbn [oflip]. rewrite E. split; [apply unchanged_refl|intros; apply incl_refl].
Qed.
End Proofs.

(** ** Where all indices are 1 nothing else changes at all *)
Section Air.
Local Notation obj := (@obj XR).
Local Notation store := (@store XR).

Lemma init_inv (a b c d l : XR) fv bv fi bi di na lb m :
  Matrix_init a b c d l fv bv fi bi di na lb = Ok m -> m = mkMat a b c d l fv bv fi bi di na false lb.
Proof.
  unfold Matrix_init. repeat (match goal with |- context [if ?x then _ else _] => destruct x end; try discriminate).
  destruct (pdiv fi bi); cbn [bind]; [|discriminate].
  match goal with |- context [if ?x then _ else _] => destruct x end; [discriminate|]. now intros [= <-].
Qed.

Definition air_mat (m : @mat XR) : Prop :=
  mfi m = Fin 1 /\ mbi m = Fin 1 /\ exists l, mL m = Fin l.
Definition in_air (s : store) : Prop := forall i o, oget s i = Some o -> air_mat (omat o).

Lemma mul_matrix_air (a b p : @mat XR) : mul_matrix a b = Ok p -> air_mat a -> air_mat b -> air_mat p.
Proof.
  intros H (A1 & A2 & la & A3) (B1 & B2 & lb & B3). unfold mul_matrix in H.
  assert (mul_idx a b = (Fin 1, Fin 1)) as E.
  { unfold mul_idx. rewrite A1, A2, B1, B2. destruct (isIdentity a), (isIdentity b); reflexivity. }
  rewrite E in H. apply init_inv in H. subst p. repeat split; auto. exists (la + lb)%R. cbn [mL]. now rewrite A3, B3.
Qed.

Lemma transfer_loop_air l : forall (tm p : @mat XR), Forall (fun e => air_mat (emat e)) l -> air_mat tm ->
  transfer_loop l tm PInf = Ok p -> air_mat p.
Proof.
  induction l as [|x t IH]; intros tm p HF Ht H; [injection H as <-; auto|].
  inversion HF as [|? ? Hx HF']; subst. cbn [transfer_loop] in H. pose proof Hx as (_ & _ & l & E).
  rewrite E in H. change (nleb (Fin l) PInf) with true in H. cbv iota in H.
  destruct (mul_matrix (emat x) tm) as [tm'|] eqn:Em; [|discriminate]. cbn [bind] in H.
  change (nsub PInf (Fin l)) with PInf in H. apply (IH tm'); auto. exact (mul_matrix_air _ _ _ Em Hx Ht).
Qed.

Lemma all_some_get (s : store) kids os : all_some (oget s) kids = Some os -> in_air s ->
  Forall (fun e => air_mat (emat e)) (map shallow os).
Proof.
  intros H Ha. revert os H. induction kids as [|k t IH]; intros os H; [injection H as <-; constructor|].
  cbn [all_some] in H. destruct (oget s k) as [o|] eqn:E; [|discriminate].
  destruct (all_some (oget s) t) as [r|]; [|discriminate]. injection H as <-. cbn [map]. constructor; auto.
  specialize (Ha k o E). destruct o; exact Ha.
Qed.

Lemma in_air_oset (s : store) i (o : obj) : in_air s -> air_mat (omat o) -> in_air (oset s i o).
Proof.
  intros H Ho j o' E. destruct (Nat.eq_dec i j) as [->|Hn].
  - pose proof (oget_lt _ _ _ E) as L. rewrite oset_length in L. rewrite oget_oset_eq in E by auto.
    injection E as <-. auto.
  - rewrite oget_oset_neq in E by auto. eauto.
Qed.
Lemma in_air_new (s : store) (o : obj) : in_air s -> air_mat (omat o) -> in_air (s ++ [o]).
Proof.
  intros H Ho j o' E. destruct (Nat.lt_ge_cases j (List.length s)) as [L|L].
  - rewrite oget_app in E by auto. eauto.
  - pose proof (oget_lt _ _ _ E) as L2. rewrite app_length in L2. cbn in L2.
    assert (j = List.length s) as -> by lia. rewrite oget_new in E. injection E as <-. auto.
Qed.

Lemma set_kids_air (s : store) g l : in_air s -> in_air (set_kids s g l) /\ unchanged (eq g) s (set_kids s g l).
Proof.
  intros. unfold set_kids. destruct (oget s g) as [[|]|] eqn:E; try (split; [auto|apply unchanged_refl]).
  split; [|now apply unchanged_oset]. apply in_air_oset; auto. apply (H g _ E).
Qed.

Definition air_step (G : nat -> Prop) (s s' : store) : Prop := in_air s' /\ unchanged G s s'.
Lemma air_trans (G G' : nat -> Prop) s s' s'' : air_step G s s' -> (in_air s' -> air_step G' s' s'') ->
  (forall j, G' j -> G j \/ (List.length s <= j)%nat) -> air_step G s s''.
Proof. intros (A & B) H HG. destruct (H A) as (C & D). split; auto. eapply unchanged_trans; eauto. Qed.
Lemma air_weaken (G G' : nat -> Prop) s s' : air_step G s s' -> (forall j, G j -> G' j) -> air_step G' s s'.
Proof. intros (A & B) H. split; auto. eapply unchanged_weaken; eauto. Qed.
Lemma air_refl G s : in_air s -> air_step G s s.
Proof. split; auto using unchanged_refl. Qed.

Lemma default_air m : @Matrix_default XR _ = Ok m -> air_mat m.
Proof.
  unfold Matrix_default. intros H. apply init_inv in H. subst m. repeat split; auto. exists 0%R. reflexivity.
Qed.

Lemma oappend_air (s : store) g i : in_air s -> air_step (eq g) s (fst (oappend s g i)).
Proof.
  intros Ha. unfold oappend. destruct (oget s g) as [[k m|gk m kids c it]|] eqn:Eg; cbn [fst];
    try (apply air_refl; assumption).
  assert (oappend_check s kids i = Ok s \/ exists x, oappend_check s kids i = Err x) as [E1|[x E1]].
  { unfold oappend_check. destruct (oget s i) as [o|] eqn:Eo; [|eauto].
    destruct (last_opt kids) as [l|]; [|eauto]. destruct (oget s l) as [lo|] eqn:El; [|eauto].
    destruct (Ha _ _ Eo) as (-> & _). destruct (Ha _ _ El) as (_ & -> & _).
    replace (@neqb XR _ (Fin 1) (Fin 1)) with true; [auto|]. symmetry. exact (Reqb_refl 1). }
  2:{ rewrite E1. now apply air_refl. }
  rewrite E1. cbn [fst].
  assert (air_mat m) as Hm by (apply (Ha _ _ Eg)).
  assert (air_step (eq g) s (oset s g (OGroup gk m (kids ++ [i]) c it))) as H2.
  { split; [apply in_air_oset; auto|apply unchanged_oset; reflexivity]. }
  destruct (all_some _ _) as [os|] eqn:Eo; cbn [fst]; auto.
  destruct (group_transfer _ _) as [tm|] eqn:Et; cbn [fst]; auto.
  eapply (air_trans _ (eq g)); [exact H2| |intros j <-; now left]. intros Ha2.
  split; [|apply unchanged_oset; reflexivity]. apply in_air_oset; auto. cbn [omat].
  unfold group_transfer in Et. destruct (@Matrix_default XR _) as [tm0|] eqn:E0; [|discriminate]. cbn [bind] in Et.
  pose proof (transfer_loop_air _ _ _ (all_some_get _ _ _ Eo Ha2) (default_air _ E0) Et) as (A & B & C).
  repeat split; auto.
Qed.

Lemma oappend_all_air l : forall (s : store) g, in_air s -> air_step (eq g) s (fst (oappend_all s g l)).
Proof.
  induction l as [|i l IH]; intros s g Ha; cbn [oappend_all fst]; [now apply air_refl|].
  pose proof (oappend_air s g i Ha) as H. destruct (oappend s g i) as [s' [x|]]; cbn [fst] in *; auto.
  eapply air_trans; [exact H|intros; now apply IH|]. intros j <-. now left.
Qed.
Lemma orebuild_air (s : store) g l : in_air s -> air_step (eq g) s (fst (orebuild s g l)).
Proof.
  intros Ha. unfold orebuild. eapply air_trans; [exact (set_kids_air s g [] Ha)|intros; now apply oappend_all_air|].
  intros j <-. now left.
Qed.
Lemma opop_air (s : store) g i : in_air s -> air_step (eq g) s (fst (opop s g i)).
Proof.
  intros. unfold opop. destruct (pyindex _ _); cbn [fst]; [now apply orebuild_air|now apply air_refl].
Qed.
Lemma onew_group_air (s : store) l : in_air s -> air_step (fun _ => False) s (fst (snd (onew_group s l))).
Proof.
  intros Ha. unfold onew_group. change (Matrix_init _ _ _ _ _ _ _ _ _ _ _ _) with (@Matrix_default XR _).
  destruct (@Matrix_default XR _) as [m|x] eqn:E; cbn [fst snd]; [|now apply air_refl].
  unfold onew. cbn [fst snd].
  assert (air_step (fun _ => False) s (s ++ [OGroup GGroup m [] None 0])) as H1
    by (split; [apply in_air_new; [exact Ha|exact (default_air _ E)]|apply unchanged_new]).
  eapply air_trans.
  - exact H1.
  - intros. now apply oappend_all_air.
  - intros j <-. right. lia.
Qed.
Lemma oinsert_air (s : store) g i l : in_air s -> air_step (eq g) s (fst (oinsert s g i l)).
Proof.
  intros Ha. unfold oinsert. pose proof (onew_group_air s l Ha) as H.
  destruct (onew_group s l) as [tmp [s1 [x|]]]; cbn [fst snd] in *.
  - eapply air_weaken; [exact H|]. intros j [].
  - eapply air_trans; [eapply air_weaken; [exact H|intros j []]|intros; now apply orebuild_air|].
    intros j <-. now left.
Qed.
Lemma osetitem_air (s : store) g i l : in_air s -> air_step (eq g) s (fst (osetitem s g i l)).
Proof.
  intros Ha. unfold osetitem. pose proof (opop_air s g i Ha) as H. destruct (opop s g i) as [s1 [x|]]; cbn [fst] in *; auto.
  eapply air_trans; [exact H|intros; now apply oinsert_air|]. intros j <-. now left.
Qed.
Lemma osetslice_air (s : store) g a b l : in_air s -> air_step (eq g) s (fst (osetslice s g a b l)).
Proof.
  intros Ha. unfold osetslice. match goal with |- context [set_kids s g ?x] => set (ks := x) end.
  eapply air_trans; [exact (set_kids_air s g ks Ha)|intros; now apply oinsert_air|].
  intros j <-. now left.
Qed.

Lemma space_air d (e : @elem XR) : Space (Fin d) c1 ninf = Ok e -> air_mat (emat e).
Proof.
  unfold Space, SpaceM. destruct (Matrix_init _ _ _ _ _ _ _ _ _ _ _ _) as [m|] eqn:E; [|discriminate].
  apply init_inv in E. subst m. cbn [bind]. intros [= <-]. repeat split; auto. exists d. reflexivity.
Qed.
Lemma osubPath_air (s : store) g zs b : in_air s ->
  air_step (fun _ => False) s (fst (snd (osubPath s g (Fin zs) b))).
Proof.
  intros Ha. unfold osubPath. change (@c0 XR _) with (Fin 0). generalize (@nil nat) as before, 0%R as z0.
  induction (kids_of s g) as [|x t IH]; intros before z0; cbn [osubPath_loop fst snd]; [now apply air_refl|].
  destruct (oget s x) as [o|] eqn:Eo; cbn [fst snd]; [|now apply air_refl].
  destruct (Ha _ _ Eo) as (_ & _ & l & El). rewrite El.
  destruct (_ && _); [|apply IH]. destruct (is_space_obj o); cbn [fst snd]; [|now apply air_refl].
  set (d := (if b then (zs - z0)%R else (z0 + l - zs)%R)).
  replace (if b then nsub (Fin zs) (Fin z0) else nsub (nadd (Fin z0) (Fin l)) (Fin zs)) with (Fin d)
    by (unfold d; destruct b; reflexivity).
  destruct (Space (Fin d) c1 ninf) as [sp|] eqn:Es; cbn [fst snd]; [|now apply air_refl].
  unfold onew.
  assert (air_step (fun _ => False) s (s ++ [OLeaf KSpace (emat sp)])) as H1
    by (split; [apply in_air_new; [exact Ha|exact (space_air _ _ Es)]|apply unchanged_new]).
  eapply (air_trans _ (fun _ => False)).
  - exact H1.
  - intros. now apply onew_group_air.
  - intros j [].
Qed.

(** cut positions are numbers *)
Definition finite_cut (o : @sop XR) : Prop := match o with SSubPath _ z _ => exists x, z = Fin x | _ => True end.
Lemma sstep_air (s : store) o : finite_cut o -> in_air s -> air_step (modifies o) s (fst (sstep s o)).
Proof.
  intros Hf Ha. destruct o; cbn [modifies sstep]; auto using oappend_air, opop_air, oinsert_air, osetitem_air,
    osetslice_air, onew_group_air. { now apply onew_group_air. } destruct Hf as [x ->]. now apply osubPath_air.
Qed.
Theorem srun_air l : forall (s : store), Forall finite_cut l -> in_air s ->
  in_air (srun s l) /\ unchanged (fun j => exists o, In o l /\ modifies o j) s (srun s l).
Proof.
  induction l as [|o l IH]; intros s Hf Ha; [now apply air_refl|].
  inversion Hf as [|? ? Ho Hl]; subst. unfold srun. cbn [fold_left].
  apply (air_trans (fun j => exists o', In o' (o :: l) /\ modifies o' j) (fun j => exists o, In o l /\ modifies o j) s
           (fst (sstep s o))).
  - eapply air_weaken; [apply sstep_air; assumption|]. intros j Hj. exists o. split; [now left|exact Hj].
  - intros. apply IH; auto.
  - intros j (o' & Ho' & Hj). left. exists o'. split; [now right|assumption].
Qed.
End Air.
