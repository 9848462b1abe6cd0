(** Proofs about the check boxes of a figure (Visibility.v). *)
From Coq Require Import List Bool String Lia Arith.
From Verif Require Import Base Scene Visibility.
Import ListNotations.
Open Scope list_scope.

(** the graphics with their components and the lines of each group [k] are all shown if [f k] and all hidden if not *)
Definition shows (f : string -> bool) (g : groups) : Prop :=
  (forall k l s, dget (g_graphics g) k = Some l -> In s l -> sh_vis s = f k /\ forall b, In b (sh_parts s) -> b = f k) /\
  (forall k l b, dget (g_lines g) k = Some l -> In b l -> b = f k).
(** there is something in the group [k] *)
Definition filled (g : groups) (k : string) : Prop :=
  (exists s l, dget (g_graphics g) k = Some (s :: l)) \/ (exists b l, dget (g_lines g) k = Some (b :: l)).
Definition distinct (g : groups) : Prop := NoDup (map fst (g_graphics g)) /\ NoDup (map fst (g_lines g)).

Lemma dget_dset {V} (d : dict V) k v j : dget (dset d k v) j = if String.eqb k j then Some v else dget d j.
Proof.
  induction d as [|[k' v'] d IH]; cbn [dset dget]; [reflexivity|].
  destruct (String.eqb_spec k' k) as [->|N]; cbn [dget].
  - destruct (String.eqb k j); reflexivity.
  - rewrite IH. destruct (String.eqb_spec k' j) as [->|]; [|reflexivity]. destruct (String.eqb_spec k j); congruence.
Qed.
Lemma dget_none {V} (d : dict V) k : ~ In k (map fst d) -> dget d k = None.
Proof.
  induction d as [|[k' v'] d IH]; intros H; [reflexivity|]. cbn in *. destruct (String.eqb_spec k' k); [tauto|]. apply IH. tauto.
Qed.
(** the first item of each group is what [visibility] looks at *)
Lemma firsts {A} (h : A -> bool) : forall (d : dict (list A)) (i : dict bool) k, NoDup (map fst d) ->
  dget (fold_left (fun e p => match snd p with s :: _ => dset e (fst p) (h s) | [] => e end) d i) k =
  match dget d k with Some (s :: _) => Some (h s) | _ => dget i k end.
Proof.
  induction d as [|[k' l] d IH]; intros i k ND; [reflexivity|]. inversion_clear ND as [|? ? Hn ND'].
  cbn [fold_left snd fst dget]. rewrite IH by assumption. destruct (String.eqb_spec k' k) as [->|Nk].
  - rewrite (dget_none d k Hn). destruct l; [reflexivity|]. rewrite dget_dset, String.eqb_refl. reflexivity.
  - destruct (dget d k) as [[|? ?]|]; try reflexivity; (destruct l; [reflexivity|]); rewrite dget_dset;
    (destruct (String.eqb_spec k' k); [contradiction|reflexivity]).
Qed.
Lemma visibility_at f g k : distinct g -> shows f g ->
  (filled g k -> dget (visibility g) k = Some (f k)) /\ (~ filled g k -> dget (visibility g) k = None).
Proof.
  intros [D1 D2] [S1 S2]. unfold visibility. cbv zeta.
  rewrite (firsts (fun b : bool => b) (g_lines g) _ k D2), (firsts sh_vis (g_graphics g) [] k D1). split.
  - intros [(s & l & E)|(b & l & E)].
    + destruct (dget (g_lines g) k) as [[|c m]|] eqn:F; rewrite ?E.
      * f_equal. exact (proj1 (S1 k (s :: l) s E (or_introl eq_refl))).
      * f_equal. exact (S2 k (c :: m) c F (or_introl eq_refl)).
      * f_equal. exact (proj1 (S1 k (s :: l) s E (or_introl eq_refl))).
    + rewrite E. f_equal. exact (S2 k (b :: l) b E (or_introl eq_refl)).
  - intros N. destruct (dget (g_lines g) k) as [[|c m]|] eqn:F; destruct (dget (g_graphics g) k) as [[|s l]|] eqn:E; try reflexivity;
    exfalso; apply N; solve [left; eauto | right; eauto].
Qed.

Lemma dget_at_key {V} (k j : string) (u : V -> V) (d : dict V) :
  dget (at_key k u d) j = if String.eqb j k then option_map u (dget d j) else dget d j.
Proof.
  induction d as [|[k' v] d IH]; cbn [at_key map fst snd]; [cbn; now destruct (String.eqb j k)|].
  fold (at_key k u d). destruct (String.eqb_spec k' k) as [->|N]; cbn [dget]; rewrite IH.
  - destruct (String.eqb_spec k j) as [->|]; [rewrite String.eqb_refl; reflexivity|]. reflexivity.
  - destruct (String.eqb_spec k' j) as [->|]; [|reflexivity]. destruct (String.eqb_spec j k); [congruence|reflexivity].
Qed.
Lemma keys_at_key {V} k (u : V -> V) (d : dict V) : map fst (at_key k u d) = map fst d.
Proof. unfold at_key. rewrite map_map. apply map_ext. intros [a b]. cbn. destruct (String.eqb a k); reflexivity. Qed.

Lemma set_distinct k b g : distinct g -> distinct (setGroupVisibility k b g).
Proof. intros [D1 D2]. split; cbn; now rewrite keys_at_key. Qed.
Lemma set_shows f k b g : shows f g -> shows (fun j => if String.eqb j k then b else f j) (setGroupVisibility k b g).
Proof.
  intros [S1 S2]. split.
  - intros j l s. cbn [g_graphics setGroupVisibility]. rewrite dget_at_key. destruct (String.eqb_spec j k) as [->|N]; [|apply S1].
    destruct (dget (g_graphics g) k) as [m|]; [|discriminate]. cbn. intros E. injection E as <-. intros H.
    apply in_map_iff in H as (t & <- & Ht). cbn. split; [reflexivity|]. intros c Hc. apply in_map_iff in Hc as (x & <- & _). reflexivity.
  - intros j l c. cbn [g_lines setGroupVisibility]. rewrite dget_at_key. destruct (String.eqb_spec j k) as [->|N]; [|apply S2].
    destruct (dget (g_lines g) k) as [m|]; [|discriminate]. cbn. intros E. injection E as <-. intros H.
    apply in_map_iff in H as (t & <- & _). reflexivity.
Qed.
Lemma set_filled k b g j : filled (setGroupVisibility k b g) j <-> filled g j.
Proof.
  unfold filled. cbn [g_graphics g_lines setGroupVisibility]. rewrite !dget_at_key. destruct (String.eqb j k); [|reflexivity].
  destruct (dget (g_graphics g) j) as [[|s l]|], (dget (g_lines g) j) as [[|c m]|]; cbn; split; intros [(x & y & H)|(x & y & H)];
  try discriminate H; first [left; do 2 eexists; reflexivity | right; do 2 eexists; reflexivity].
Qed.
Lemma set_labels k b g j : labels_drawn j (setGroupVisibility k b g) = labels_drawn j g.
Proof.
  unfold labels_drawn. cbn [g_graphics setGroupVisibility]. rewrite dget_at_key. destruct (String.eqb j k); [|reflexivity].
  destruct (dget (g_graphics g) j) as [l|]; [|reflexivity]. cbn. induction l as [|s l IH]; [reflexivity|]. cbn. now rewrite IH.
Qed.
Lemma shows_ext f f' g : (forall k, f k = f' k) -> shows f g -> shows f' g.
Proof. intros E [S1 S2]. split; intros; rewrite <- E; [eapply S1|eapply S2]; eauto. Qed.

(** how often the box of group [k] was clicked *)
Definition times (l : list string) (k : string) : nat := count_occ string_dec (map newlines_to_spaces l) k.
Lemma clicks_toggle : forall l f g, distinct g -> shows f g -> (forall x, In x l -> filled g (newlines_to_spaces x)) ->
  exists g', clicks l g = Ok g' /\ shows (fun k => xorb (f k) (Nat.odd (times l k))) g' /\
    (forall k, labels_drawn k g' = labels_drawn k g) /\ (forall k, filled g' k <-> filled g k) /\ distinct g'.
Proof.
  induction l as [|x l IH]; intros f g D S Fl.
  - exists g. split; [reflexivity|]. split; [|repeat split; try apply D; tauto]. apply (shows_ext f); [|exact S].
    intros k. cbn. now rewrite xorb_false_r.
  - cbn [clicks]. unfold onCheckBoxCallback. cbv zeta. set (k := newlines_to_spaces x).
    rewrite (proj1 (visibility_at f g k D S) (Fl x (or_introl eq_refl))). cbn [bind].
    destruct (IH _ _ (set_distinct k (negb (f k)) g D) (set_shows f k (negb (f k)) g S)) as (g' & E & Sg & Lg & Fg & Dg).
    { intros y Hy. apply set_filled. apply Fl. now right. }
    exists g'. split; [exact E|]. split.
    + eapply shows_ext; [|exact Sg]. intros j. cbv beta. unfold times. cbn [map]. fold k. cbn [count_occ].
      destruct (string_dec k j) as [Ek|Nk], (String.eqb_spec j k) as [Ej|Nj]; try congruence.
      rewrite Ej, Nat.odd_succ, <- Nat.negb_odd. destruct (f k), (Nat.odd _); reflexivity.
    + split; [intros j; rewrite Lg; apply set_labels|]. split; [|exact Dg]. intros j. rewrite Fg. apply set_filled.
Qed.
(** a box for each group with something in it, except for the elements *)
Lemma box_of_group f g k : distinct g -> shows f g ->
  dget (boxes g) k = if String.eqb k kElementsKey then None else dget (visibility g) k.
Proof.
  intros _ _. unfold boxes. induction (visibility g) as [|[j b] d IH]; [cbn; now destruct (String.eqb k kElementsKey)|].
  cbn [filter fst]. destruct (String.eqb_spec j kElementsKey) as [->|N]; cbn [negb dget]; rewrite IH.
  - destruct (String.eqb_spec k kElementsKey) as [->|Nk]; [reflexivity|]. destruct (String.eqb_spec kElementsKey k); [congruence|reflexivity].
  - destruct (String.eqb_spec j k) as [->|Nj]; [|reflexivity]. destruct (String.eqb_spec k kElementsKey); [congruence|reflexivity].
Qed.
Lemma boxes_shown f g k : distinct g -> shows f g -> k <> kElementsKey ->
  (filled g k -> dget (boxes g) k = Some (f k)) /\ (~ filled g k -> dget (boxes g) k = None).
Proof.
  intros D S N. rewrite (box_of_group f g k D S). destruct (String.eqb_spec k kElementsKey); [contradiction|].
  apply (visibility_at f g k D S).
Qed.
Lemma no_box f g x : distinct g -> shows f g -> ~ filled g (newlines_to_spaces x) -> onCheckBoxCallback x g = Err KeyError.
Proof. intros D S N. unfold onCheckBoxCallback. cbv zeta. now rewrite (proj2 (visibility_at f g _ D S) N). Qed.
