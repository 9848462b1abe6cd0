(** Proofs about Preferences objects. *)
From Coq Require Import ZArith List Bool String Lia Arith DecimalString.
From Verif Require Import Prefs.
Import ListNotations.
Open Scope list_scope.

(** ** Dictionaries *)
Lemma key_eqb_spec a b : reflect (a = b) (key_eqb a b).
Proof.
  destruct a as [s|x], b as [t|y]; cbn; try (constructor; congruence).
  - destruct (String.eqb_spec s t); constructor; congruence.
  - destruct (Z.eqb_spec x y); constructor; congruence.
Qed.
Lemma key_eqb_refl k : key_eqb k k = true.
Proof. destruct (key_eqb_spec k k); congruence. Qed.

Lemma dget_dset d k v k' : dget (dset d k v) k' = if key_eqb k' k then Some v else dget d k'.
Proof.
  induction d as [|[k0 v0] t IH]; cbn [dset dget].
  - reflexivity.
  - destruct (key_eqb_spec k k0) as [<-|E]; cbn [dget].
    + destruct (key_eqb k' k); reflexivity.
    + rewrite IH. destruct (key_eqb_spec k' k0) as [->|]; [|reflexivity].
      destruct (key_eqb_spec k0 k); congruence.
Qed.
Lemma dget_in d k : dget d k <> None <-> In k (map fst d).
Proof.
  induction d as [|[k0 v0] t IH]; cbn; [tauto|].
  destruct (key_eqb_spec k k0) as [->|E]; [split; [auto|congruence]|].
  rewrite IH. split; [auto|]. intros [|]; [congruence|auto].
Qed.
Lemma dset_keys d k v k' : In k' (map fst (dset d k v)) <-> k' = k \/ In k' (map fst d).
Proof.
  rewrite <- !dget_in, dget_dset. destruct (key_eqb_spec k' k); split; intros; auto; try congruence.
  destruct H; [congruence|auto].
Qed.

(** dictionaries that JSON keeps as they are: string keys, plain values, no key twice *)
Record wf (d : dict) : Prop := {
  wf_keys : Forall (fun kv => exists s, fst kv = KStr s) d;
  wf_vals : forallb (fun kv => jsonable (snd kv)) d = true;
  wf_nodup : NoDup (map fst d)
}.
Lemma wf_nil : wf [].
Proof. constructor; constructor. Qed.
Lemma wf_tail kv d : wf (kv :: d) -> wf d.
Proof.
  intros [A B C]. inversion A; inversion C; subst. cbn in B. apply andb_true_iff in B.
  constructor; tauto.
Qed.
Lemma wf_dset d s z : wf d -> wf (dset d (KStr s) (VJson z)).
Proof.
  intros [A B C]. constructor.
  - clear B C. induction A as [|[k v] t Hk Ht IH]; cbn; [constructor; cbn; eauto|].
    match goal with |- context [if ?b then _ else _] => destruct b end; constructor; cbn; eauto.
  - clear A C. induction d as [|[k v] t IH]; cbn; [reflexivity|]. cbn in B.
    apply andb_true_iff in B as [B1 B2].
    match goal with |- context [if ?b then _ else _] => destruct b end; cbn; rewrite ?B1, ?B2, ?IH; auto.
  - clear A B. induction d as [|[k v] t IH]; cbn [dset map].
    + constructor; [intros []|constructor].
    + inversion C; subst. destruct (key_eqb_spec (KStr s) k) as [<-|E]; cbn [map fst].
      * constructor; auto.
      * constructor; [|auto]. rewrite dset_keys. intros [|]; [congruence|auto].
Qed.

Lemma dset_fresh d k v : dget d k = None -> dset d k v = d ++ [(k, v)].
Proof.
  induction d as [|[k0 v0] t IH]; cbn; [reflexivity|].
  destruct (key_eqb k k0); [discriminate|]. intros H. now rewrite IH.
Qed.
Lemma reread_wf d : wf d -> reread d = d.
Proof.
  intros [A _ C]. unfold reread.
  enough (H : forall acc, NoDup (map fst (acc ++ d)) ->
     fold_left (fun a kv => dset a (json_key (fst kv)) (snd kv)) d acc = acc ++ d) by (apply (H []); exact C).
  clear C. induction A as [|[k v] t [s Hs] Ht IH]; intros acc Hn; cbn [fold_left].
  - now rewrite app_nil_r.
  - cbn [fst] in Hs. subst k. cbn [json_key fst snd]. rewrite dset_fresh.
    + rewrite IH; rewrite <- app_assoc; [reflexivity|exact Hn].
    + destruct (dget acc (KStr s)) eqn:E; [|reflexivity]. exfalso.
      assert (Hi : In (KStr s) (map fst acc)) by (apply dget_in; congruence).
      rewrite map_app in Hn. cbn in Hn. apply NoDup_remove_2 in Hn. apply Hn.
      apply in_or_app. auto.
Qed.
Lemma write_wf d : wf d -> writeToDisk d = ([Some Torn; Some (Whole d)], None).
Proof. intros H. unfold writeToDisk. now rewrite (wf_vals _ H), reread_wf. Qed.
Lemma setitem_wf d s z : wf d ->
  setitem d (KStr s) (VJson z) =
  mkOut [Some Torn; Some (Whole (dset d (KStr s) (VJson z)))] (dset d (KStr s) (VJson z)) (inl tt).
Proof. intros H. unfold setitem. now rewrite write_wf by now apply wf_dset. Qed.

(** ** Reading *)
(** what a file says *)
Definition fdict (f : file) : dict := match f with Some (Whole d) => d | _ => [] end.
(** [a] overridden by [b] *)
Definition over (b a : key -> option value) (k : key) : option value :=
  match b k with Some v => Some v | None => a k end.

(** contents passed through when [d] is updated from [l] *)
Lemma update_wf : forall l d, wf l -> wf d ->
  o_result (update d l) = inl tt /\ wf (o_dict (update d l)) /\
  (forall k, dget (o_dict (update d l)) k = over (dget l) (dget d) k) /\
  (l = [] -> o_files (update d l) = []) /\
  (l <> [] -> forall f, last_file f (o_files (update d l)) = Some (Whole (o_dict (update d l)))) /\
  Forall (fun f => f = Some Torn \/
     exists e, f = Some (Whole e) /\ wf e /\
       forall k, dget e k = dget d k \/ dget e k = dget (o_dict (update d l)) k)
    (o_files (update d l)).
Proof.
  induction l as [|[k v] t IH]; intros d Hl Hd.
  - cbn. repeat (split; auto). congruence.
  - assert (exists s z, k = KStr s /\ v = VJson z) as (s & z & -> & ->).
    { destruct Hl as [A B _]. inversion A as [|? ? [s Hs] ?]; subst. cbn in *. subst k.
      destruct v; [eauto|discriminate]. }
    cbn [update]. rewrite setitem_wf by auto. cbn [o_result o_dict o_files].
    destruct (IH (dset d (KStr s) (VJson z)) (wf_tail _ _ Hl) (wf_dset _ _ _ Hd))
      as (R1 & R2 & R3 & R4 & R5 & R6).
    assert (Hfin : forall k, dget (o_dict (update (dset d (KStr s) (VJson z)) t)) k =
                             over (dget ((KStr s, VJson z) :: t)) (dget d) k).
    { intros k. rewrite R3. unfold over. rewrite dget_dset. cbn [dget].
      destruct (key_eqb_spec k (KStr s)) as [->|]; [|reflexivity].
      destruct (dget t (KStr s)) eqn:E; [|reflexivity]. exfalso.
      pose proof (wf_nodup _ Hl) as Hn. cbn in Hn. inversion Hn as [|? ? Hni _]; subst.
      apply Hni, dget_in. congruence. }
    split; [exact R1|]. split; [exact R2|]. split; [exact Hfin|].
    split; [discriminate|]. split.
    + intros _ f. destruct t as [|kv t].
      * rewrite R4 by reflexivity. reflexivity.
      * unfold last_file in *.
        assert (Hne : o_files (update (dset d (KStr s) (VJson z)) (kv :: t)) <> []).
        { intros E. specialize (R5 ltac:(discriminate) None). rewrite E in R5. discriminate. }
        specialize (R5 ltac:(discriminate) f).
        destruct (o_files (update (dset d (KStr s) (VJson z)) (kv :: t))) eqn:E; [congruence|].
        exact R5.
    + constructor; [auto|]. constructor.
      * right. eexists. split; [reflexivity|]. split; [now apply wf_dset|].
        intros k. rewrite Hfin, dget_dset. unfold over. cbn [dget].
        destruct (key_eqb k (KStr s)); auto.
      * eapply Forall_impl; [|exact R6]. intros f [->|(e & -> & He & Hk)]; [auto|].
        right. exists e. split; [reflexivity|]. split; [auto|]. intros k.
        destruct (Hk k) as [H|H]; [|auto]. rewrite H, Hfin, dget_dset. unfold over. cbn [dget].
        destruct (key_eqb k (KStr s)); auto.
Qed.

(** ** Histories of several objects *)
(** what a user expects after [l]: the last value stored under each key since the last reset *)
Definition expect (M : key -> option value) (o : op) : key -> option value :=
  match o with
  | Set_ _ k v => fun k' => if key_eqb k' k then Some v else M k'
  | Reset _ => fun _ => None
  | _ => M
  end.
Definition expected (M : key -> option value) (l : list op) : key -> option value := fold_left expect l M.
(** the answer to prefs[k] when [M k] is stored *)
Definition says (x : option value) : answer := match x with Some v => Value v | None => Raised NoSuchKey end.

(** Histories in which an object stores a value only when it knows everything in the file: since
    its creation, its last prefs[key] or its last store, no other object stored anything ([up]
    lists the objects for which this holds, among [n]); only an object that is alone resets; keys
    are strings and values JSON numbers; nothing is deleted. *)
Definition mem (i : nat) (l : list nat) : bool := existsb (Nat.eqb i) l.
Definition polite_op (n : nat) (up : list nat) (o : op) : bool :=
  match o with
  | New _ => true
  | Get i _ => i <? n
  | Set_ i (KStr _) (VJson _) => mem i up
  | Set_ _ _ _ => false
  | Reset i => (n =? 1) && (i =? 0)
  | Del _ _ => false
  | Contains i _ => i <? n
  end.
Definition objects_after (n : nat) (o : op) : nat := match o with New [] => S n | _ => n end.
Definition up_after (n : nat) (up : list nat) (o : op) : list nat :=
  match o with
  | New [] => n :: up
  | Get i _ => i :: up
  | Set_ i _ _ => [i]
  | Reset i => [i]
  | _ => up
  end.
Fixpoint polite (n : nat) (up : list nat) (l : list op) : bool :=
  match l with
  | [] => true
  | o :: t => polite_op n up o && polite (objects_after n o) (up_after n up o) t
  end.

Record inv (w : world) (M : key -> option value) (n : nat) (up : list nat) : Prop := {
  i_n : List.length (w_objs w) = n;
  i_wf : wf (fdict (w_file w));
  i_file : forall k, dget (fdict (w_file w)) k = M k;
  i_obj : forall i d, nth_error (w_objs w) i = Some d ->
    wf d /\ (forall k, dget d k <> None -> M k <> None) /\
    (mem i up = true -> forall k, dget d k = M k);
  i_up : forall i, mem i up = true -> i < n;
  i_none : w_file w = None -> n = 0
}.

Lemma nth_set_obj l i j d : i < List.length l ->
  nth_error (set_obj l i d) j = if Nat.eqb j i then Some d else nth_error l j.
Proof.
  intros H. unfold set_obj. destruct (Nat.eqb_spec j i) as [->|E].
  - rewrite nth_error_app2; rewrite firstn_length_le by lia; [|lia]. now rewrite Nat.sub_diag.
  - destruct (Nat.lt_ge_cases j i).
    + rewrite nth_error_app1 by (rewrite firstn_length_le; lia).
      rewrite <- (firstn_skipn i l) at 2. rewrite nth_error_app1 by (rewrite firstn_length_le; lia).
      reflexivity.
    + rewrite nth_error_app2; rewrite firstn_length_le by lia; [|lia].
      replace (j - i) with (S (j - S i)) by lia. cbn.
      rewrite <- (firstn_skipn (S i) l) at 2.
      rewrite nth_error_app2; rewrite firstn_length_le by lia; [|lia]. reflexivity.
Qed.
Lemma length_set_obj l i d : i < List.length l -> List.length (set_obj l i d) = List.length l.
Proof.
  intros H. unfold set_obj. rewrite app_length. cbn [List.length]. rewrite firstn_length_le, skipn_length; lia.
Qed.
Lemma mem_cons i j l : mem i (j :: l) = (Nat.eqb i j || mem i l)%bool.
Proof. reflexivity. Qed.

(** reading with an object whose keys are all in the file *)
Lemma read_inv f M d : wf (fdict f) -> (forall k, dget (fdict f) k = M k) -> wf d ->
  (forall k, dget d k <> None -> M k <> None) -> f <> None ->
  o_result (readFromDisk f d) = inl tt /\ wf (o_dict (readFromDisk f d)) /\
  (forall k, dget (o_dict (readFromDisk f d)) k = M k) /\
  (let f' := last_file f (o_files (readFromDisk f d)) in
   f' <> None /\ wf (fdict f') /\ forall k, dget (fdict f') k = M k) /\
  Forall (fun g => g = Some Torn \/ exists e, g = Some (Whole e) /\ wf e /\
    forall k, dget e k = dget d k \/ dget e k = M k) (o_files (readFromDisk f d)).
Proof.
  intros Hw HM Hd Hsub Hf. unfold readFromDisk.
  destruct f as [[data|]|]; [| |congruence].
  - cbn [fdict] in *. destruct (update_wf data d Hw Hd) as (R1 & R2 & R3 & R4 & R5 & R6).
    assert (Hk : forall k, dget (o_dict (update d data)) k = M k).
    { intros k. rewrite R3. unfold over. rewrite HM. destruct (M k) eqn:E; [reflexivity|].
      destruct (dget d k) eqn:Ed; [|reflexivity]. exfalso. apply (Hsub k); congruence. }
    split; [exact R1|]. split; [exact R2|]. split; [exact Hk|]. split.
    + destruct data as [|kv t].
      * rewrite R4 by reflexivity. cbn. split; [congruence|]. split; [exact wf_nil|exact HM].
      * rewrite R5 by discriminate. cbn [fdict]. split; [congruence|]. split; [exact R2|exact Hk].
    + eapply Forall_impl; [|exact R6]. intros g [->|(e & -> & He & H)]; [auto|].
      right. exists e. split; [reflexivity|]. split; [exact He|]. intros k.
      rewrite <- (Hk k). apply H.
  - cbn. split; [reflexivity|]. split; [exact Hd|]. cbn [fdict] in HM. split.
    + intros k. destruct (dget d k) eqn:E; [|exact (HM k)].
      exfalso. apply (Hsub k); [congruence|]. now rewrite <- HM.
    + split; [|constructor]. split; [congruence|]. split; [exact wf_nil|exact HM].
Qed.

Definition w_of (x : list file * world * answer) : world := snd (fst x).
Definition files_of (x : list file * world * answer) : list file := fst (fst x).
Definition answer_of (x : list file * world * answer) : answer := snd x.

Lemma new_inv w M n up : inv w M n up ->
  let x := step w (New []) in
  inv (w_of x) M (S n) (n :: up) /\ answer_of x = Done.
Proof.
  intros [In Iw If Io Iu Inone]. cbn [step new_object].
  destruct (w_file w) as [c|] eqn:Ef.
  - destruct (read_inv (Some c) M [] Iw If wf_nil) as (R1 & R2 & R3 & (R4a & R4b & R4c) & _);
      [intros k H; now destruct H|congruence|].
    rewrite R1. cbn. split; [|reflexivity]. constructor; cbn.
    + rewrite app_length. cbn. lia.
    + exact R4b.
    + exact R4c.
    + intros i d H. destruct (Nat.lt_ge_cases i n) as [L|L].
      * rewrite nth_error_app1 in H by lia. destruct (Io i d H) as (A & B & C).
        split; [exact A|]. split; [exact B|]. intros Hm. apply C.
        destruct (Nat.eqb_spec i n); [lia|exact Hm].
      * rewrite nth_error_app2 in H by lia. rewrite In in H.
        destruct (i - n) as [|m] eqn:E; [|destruct m; discriminate]. injection H as <-.
        split; [exact R2|]. split; [intros k; now rewrite R3|]. intros _. exact R3.
    + intros i H. destruct (Nat.eqb_spec i n); [lia|]. cbn in H. specialize (Iu _ H). lia.
    + intros H. now elim R4a.
  - pose proof (Inone eq_refl) as E0. clear Inone. rewrite E0 in *.
    cbn. split; [|reflexivity].
    assert (HM : forall k, M k = None) by (intros k; now rewrite <- If).
    constructor; cbn.
    + rewrite app_length. cbn. lia.
    + exact wf_nil.
    + intros k. now rewrite HM.
    + intros i d H. rewrite nth_error_app2 in H by lia. rewrite In, Nat.sub_0_r in H.
      destruct i as [|i]; [|destruct i; discriminate]. injection H as <-.
      split; [exact wf_nil|]. split; [intros k H; now elim H|]. intros _ k. now rewrite HM.
    + intros i H. change (mem i (0 :: up) = true) in H. rewrite mem_cons in H.
      destruct (Nat.eqb_spec i 0); [lia|]. specialize (Iu _ H). lia.
    + discriminate.
Qed.

Lemma get_inv w M n up i k : inv w M n up -> i < n ->
  let x := step w (Get i k) in
  inv (w_of x) M n (i :: up) /\ answer_of x = says (M k).
Proof.
  intros [In Iw If Io Iu Inone] Hi. cbn [step].
  destruct (nth_error (w_objs w) i) as [d|] eqn:Ed; [|apply nth_error_None in Ed; lia].
  destruct (Io i d Ed) as (Hd & Hsub & Hsync).
  destruct (read_inv (w_file w) M d Iw If Hd Hsub) as (R1 & R2 & R3 & (R4a & R4b & R4c) & _).
  { intros E. specialize (Inone E). lia. }
  unfold finish, getitem. rewrite R1. cbn. rewrite R3. split.
  - constructor; cbn.
    + rewrite length_set_obj; lia.
    + exact R4b.
    + exact R4c.
    + intros j e H. rewrite nth_set_obj in H by lia. destruct (Nat.eqb_spec j i) as [->|E].
      * injection H as <-. split; [exact R2|]. split; [intros k'; now rewrite R3|]. intros _. exact R3.
      * destruct (Io j e H) as (A & B & C). auto.
    + intros j H. destruct (Nat.eqb_spec j i); [lia|]. exact (Iu _ H).
    + intros H. now elim R4a.
  - destruct (M k); reflexivity.
Qed.

Lemma set_inv w M n up i s z : inv w M n up -> mem i up = true ->
  let x := step w (Set_ i (KStr s) (VJson z)) in
  inv (w_of x) (expect M (Set_ i (KStr s) (VJson z))) n [i] /\ answer_of x = Done.
Proof.
  intros [In Iw If Io Iu Inone] Hm. cbn [step]. pose proof (Iu _ Hm) as Hi.
  destruct (nth_error (w_objs w) i) as [d|] eqn:Ed; [|apply nth_error_None in Ed; lia].
  destruct (Io i d Ed) as (Hd & Hsub & Hsync). specialize (Hsync Hm).
  unfold finish. rewrite setitem_wf by exact Hd. cbn. split; [|reflexivity].
  assert (HS : forall k, dget (dset d (KStr s) (VJson z)) k =
                         if key_eqb k (KStr s) then Some (VJson z) else M k).
  { intros k. rewrite dget_dset, Hsync. reflexivity. }
  constructor; cbn.
  - rewrite length_set_obj; lia.
  - now apply wf_dset.
  - exact HS.
  - intros j e H. rewrite nth_set_obj in H by lia. destruct (Nat.eqb_spec j i) as [->|E].
    + injection H as <-. split; [now apply wf_dset|]. split; [intros k; now rewrite HS|].
      intros _. exact HS.
    + destruct (Io j e H) as (A & B & C). split; [exact A|]. split.
      * intros k Hk. specialize (B k Hk). destruct (key_eqb _ _); [discriminate|exact B].
      * rewrite Bool.orb_false_r. discriminate || (intros F; discriminate).
  - intros j H. rewrite Bool.orb_false_r in H. apply Nat.eqb_eq in H. lia.
  - discriminate.
Qed.

Lemma reset_inv w M n up i : inv w M n up -> n = 1 -> i = 0 ->
  let x := step w (Reset i) in
  inv (w_of x) (expect M (Reset i)) n [i] /\ answer_of x = Done.
Proof.
  intros [In Iw If Io Iu Inone] Hn ->. rewrite Hn in *. clear Hn. cbn [step].
  destruct (w_objs w) as [|d [|? ?]] eqn:Eo; try discriminate. cbn.
  split; [|reflexivity]. rewrite Eo. constructor; cbn; auto; try discriminate.
  - exact wf_nil.
  - intros [|[|i]] e H; [|discriminate|discriminate]. injection H as <-.
    split; [exact wf_nil|]. split; [intros k H; exact H|]. reflexivity.
  - intros i H. rewrite Bool.orb_false_r in H. apply Nat.eqb_eq in H. lia.
Qed.

Lemma step_inv w M n up o : inv w M n up -> polite_op n up o = true ->
  inv (w_of (step w o)) (expect M o) (objects_after n o) (up_after n up o).
Proof.
  intros H Hp. destruct o as [kw|i k|i k v|i|i k|i k].
  - destruct kw as [|p t]; [exact (proj1 (new_inv _ _ _ _ H))|]. cbn. destruct w. exact H.
  - exact (proj1 (get_inv _ _ _ _ i k H (proj1 (Nat.ltb_lt _ _) Hp))).
  - destruct k as [s|?]; [|discriminate]. destruct v as [z|]; [|discriminate].
    exact (proj1 (set_inv _ _ _ _ i s z H Hp)).
  - apply andb_true_iff in Hp as [A B]. apply Nat.eqb_eq in A, B.
    exact (proj1 (reset_inv _ _ _ _ i H A B)).
  - discriminate.
  - cbn [step]. cbn in Hp. destruct (nth_error (w_objs w) i); exact H.
Qed.
Fixpoint objects_end (n : nat) (l : list op) : nat :=
  match l with [] => n | o :: t => objects_end (objects_after n o) t end.
Fixpoint up_end (n : nat) (up : list nat) (l : list op) : list nat :=
  match l with [] => up | o :: t => up_end (objects_after n o) (up_after n up o) t end.
Lemma run_inv : forall l w M n up, inv w M n up -> polite n up l = true ->
  inv (fst (run w l)) (expected M l) (objects_end n l) (up_end n up l).
Proof.
  induction l as [|o t IH]; intros w M n up H Hp; [exact H|].
  cbn [polite] in Hp. apply andb_true_iff in Hp as [Ho Ht].
  pose proof (step_inv _ _ _ _ o H Ho) as H1. specialize (IH _ _ _ _ H1 Ht).
  cbn [run]. destruct (step w o) as [[fs w'] a] eqn:E. unfold w_of in IH. cbn in IH.
  destruct (run w' t) as [w'' r] eqn:E2. cbn in *. exact IH.
Qed.

(** a file as Preferences objects leave it, or none, or an unreadable one *)
Definition sound_file (f : file) : Prop := wf (fdict f).
Lemma start_inv f : sound_file f -> inv (mkWorld f []) (dget (fdict f)) 0 [].
Proof.
  intros H. constructor; cbn; auto.
  - intros i d E. destruct i; discriminate.
  - discriminate.
Qed.

Lemma polite_gets f l i k : sound_file f -> polite 0 [] l = true -> i < objects_end 0 l ->
  answer_of (step (fst (run (mkWorld f []) l)) (Get i k)) = says (expected (dget (fdict f)) l k).
Proof.
  intros Hf Hp Hi. apply (get_inv _ _ (objects_end 0 l) (up_end 0 [] l)); [|exact Hi].
  apply run_inv; [now apply start_inv|exact Hp].
Qed.
(** [key in prefs] is right for objects that are up to date *)
Lemma polite_contains f l i k : sound_file f -> polite 0 [] l = true -> mem i (up_end 0 [] l) = true ->
  answer_of (step (fst (run (mkWorld f []) l)) (Contains i k)) =
  Bool (match expected (dget (fdict f)) l k with Some _ => true | None => false end).
Proof.
  intros Hf Hp Hi.
  destruct (run_inv l _ _ _ _ (start_inv f Hf) Hp) as [In Iw If Io Iu Inone].
  set (w := fst (run (mkWorld f []) l)) in *. pose proof (Iu _ Hi).
  cbn [step]. destruct (nth_error (w_objs w) i) as [d|] eqn:Ed; [|apply nth_error_None in Ed; lia].
  cbn. unfold contains. destruct (Io i d Ed) as (_ & _ & H'). now rewrite H'.
Qed.

(** one object alone: any gets, stores and resets are polite *)
Definition plain (o : op) : bool :=
  match o with
  | Get 0 _ | Set_ 0 (KStr _) (VJson _) | Reset 0 | Contains 0 _ => true
  | _ => false
  end.
Lemma alone_polite : forall l up, mem 0 up = true -> forallb plain l = true -> polite 1 up l = true.
Proof.
  induction l as [|o t IH]; intros up Hu Hl; [reflexivity|].
  cbn in Hl. apply andb_true_iff in Hl as [Ho Ht]. cbn [polite].
  assert (H : polite_op 1 up o = true /\ objects_after 1 o = 1 /\ mem 0 (up_after 1 up o) = true).
  { destruct o as [kw|[|i] k|[|i] k v|[|i]|[|i] k|[|i] k]; try discriminate; cbn in *; auto.
    destruct k; [|discriminate]. destruct v; [|discriminate]. auto. }
  destruct H as (A & B & C). rewrite A, B. cbn. now apply IH.
Qed.
Lemma alone_objects : forall l, forallb plain l = true -> objects_end 1 l = 1.
Proof.
  induction l as [|o t IH]; intros Hl; [reflexivity|].
  cbn in Hl. apply andb_true_iff in Hl as [Ho Ht]. cbn [objects_end].
  replace (objects_after 1 o) with 1; [now apply IH|].
  destruct o as [kw|[|i] k|[|i] k v|[|i]|[|i] k|[|i] k]; try discriminate; reflexivity.
Qed.
Lemma alone_gets f l k : sound_file f -> forallb plain l = true ->
  answer_of (step (fst (run (mkWorld f []) (New [] :: l))) (Get 0 k)) =
  says (expected (dget (fdict f)) l k).
Proof.
  intros Hf Hl. rewrite polite_gets; auto.
  - cbn [polite polite_op]. now apply alone_polite.
  - cbn [objects_end objects_after]. rewrite alone_objects by auto. auto.
Qed.

(** keyword arguments *)
Lemma kwargs_fail w kv t : step w (New (kv :: t)) = ([], w, Raised NoPathError).
Proof. destruct w. reflexivity. Qed.

(** ** Crashes *)
(** what prefs[k] answers in a process started on file [f] *)
Definition seen_after (f : file) (k : key) : answer :=
  answer_of (step (fst (run (mkWorld f []) [New []])) (Get 0 k)).
Lemma seen f k : sound_file f -> seen_after f k = says (dget (fdict f) k).
Proof. intros H. apply (alone_gets f [] k H eq_refl). Qed.

(** operations of an object that is up to date *)
Definition by_up (up : list nat) (o : op) : bool :=
  match o with
  | Get i _ => mem i up
  | New _ => false
  | _ => true
  end.
Lemma polite_app : forall l n up o, polite n up (l ++ [o]) = true ->
  polite n up l = true /\ polite_op (objects_end n l) (up_end n up l) o = true.
Proof.
  induction l as [|a t IH]; intros n up o H; cbn in *.
  - now rewrite andb_true_r in H.
  - apply andb_true_iff in H as [A B]. destruct (IH _ _ _ B) as [C D]. rewrite A. auto.
Qed.
Lemma crash_polite f l o : sound_file f -> polite 0 [] (l ++ [o]) = true ->
  by_up (up_end 0 [] l) o = true ->
  let w := fst (run (mkWorld f []) l) in
  let old := expected (dget (fdict f)) l in
  Forall (fun g => (forall k, seen_after g k = says (old k)) \/
                   (forall k, seen_after g k = says (expect old o k)) \/
                   (forall k, seen_after g k = Raised NoSuchKey)) (w_file w :: files_of (step w o)).
Proof.
  intros Hf Hp Hget w old. destruct (polite_app l 0 [] o Hp) as [Hl Ho]. clear Hp.
  pose proof (run_inv l _ _ _ _ (start_inv f Hf) Hl) as I. fold w old in I.
  constructor.
  - left. intros k. rewrite seen by apply I. now rewrite (i_file _ _ _ _ I).
  - assert (Torn_ok : forall k, seen_after (Some Torn) k = Raised NoSuchKey)
      by (intros k; now rewrite seen by exact wf_nil).
    assert (None_ok : forall k, seen_after None k = Raised NoSuchKey)
      by (intros k; now rewrite seen by exact wf_nil).
    assert (Whole_ok : forall d, wf d -> forall k, seen_after (Some (Whole d)) k = says (dget d k))
      by (intros d Hd k; now rewrite seen by exact Hd).
    destruct o as [kw|i k|i k v|i|i k|i k]; cbn [step].
    + discriminate.
    + cbn [by_up] in Hget. pose proof (i_up _ _ _ _ I _ Hget) as Hi.
      destruct (nth_error (w_objs w) i) as [d|] eqn:Ed; [|constructor].
      destruct (i_obj _ _ _ _ I i d Ed) as (Hd & Hsub & Hsync). specialize (Hsync Hget).
      destruct (read_inv (w_file w) old d (i_wf _ _ _ _ I) (i_file _ _ _ _ I) Hd Hsub)
        as (R1 & R2 & R3 & _ & R5).
      { intros E. pose proof (i_none _ _ _ _ I E). lia. }
      unfold finish, getitem, files_of. rewrite R1. cbn. eapply Forall_impl; [|exact R5].
      intros g [->|(e & -> & He & Hk)]; [auto|]. left. intros k'. rewrite Whole_ok by auto.
      destruct (Hk k') as [->| ->]; [now rewrite Hsync|reflexivity].
    + destruct (nth_error (w_objs w) i) as [d|] eqn:Ed; [|constructor].
      destruct k as [s|?]; [|discriminate]. destruct v as [z|]; [|discriminate].
      cbn in Ho. destruct (i_obj _ _ _ _ I i d Ed) as (Hd & Hsub & Hsync). specialize (Hsync Ho).
      unfold finish, files_of. rewrite setitem_wf by auto. cbn.
      constructor; [auto|]. constructor; [|constructor]. right. left. intros k'.
      rewrite Whole_ok by now apply wf_dset. rewrite dget_dset, Hsync. reflexivity.
    + destruct (nth_error (w_objs w) i) as [d|] eqn:Ed; [|constructor]. cbn.
      constructor; [auto|]. constructor; [auto|]. constructor; [|constructor].
      right. left. intros k'. now rewrite Whole_ok by exact wf_nil.
    + discriminate.
    + destruct (nth_error (w_objs w) i); constructor.
Qed.

(** ** del prefs[k] *)
Lemma dget_ddel d k k' : dget (ddel d k) k' = if key_eqb k' k then None else dget d k'.
Proof.
  induction d as [|[k0 v0] t IH]; cbn [ddel filter dget fst]; [now destruct (key_eqb k' k)|].
  fold (ddel t k). destruct (key_eqb_spec k k0) as [<-|E]; cbn [negb dget].
  - rewrite IH. now destruct (key_eqb_spec k' k).
  - rewrite IH. destruct (key_eqb_spec k' k0) as [->|]; [|reflexivity].
    destruct (key_eqb_spec k0 k); congruence.
Qed.
Lemma del_item : forall w i k,
  let x := step w (Del i k) in
  files_of x = [] /\ w_file (w_of x) = w_file w /\
  (answer_of (step w (Contains i k)) = Bool true -> answer_of x = Done /\
    answer_of (step (w_of x) (Contains i k)) = Bool false /\
    forall j k', (j, k') <> (i, k) ->
      answer_of (step (w_of x) (Contains j k')) = answer_of (step w (Contains j k'))) /\
  (answer_of (step w (Contains i k)) = Bool false -> answer_of x = Raised NoSuchKey /\
    forall j k', answer_of (step (w_of x) (Contains j k')) = answer_of (step w (Contains j k'))).
Proof.
  intros w i k. cbn [step]. destruct (nth_error (w_objs w) i) as [d|] eqn:Ed.
  2: { cbn. repeat split; discriminate. }
  assert (i < List.length (w_objs w)) as Hi by (apply nth_error_Some; congruence).
  unfold answer_of. cbn [snd step]. unfold contains, delitem.
  destruct (dget d k) as [v|] eqn:Ek; unfold finish, files_of, w_of; cbn [fst snd o_files o_dict o_result last_file List.last w_file w_objs].
  - do 2 (split; [reflexivity|]). split; [|discriminate]. intros _. split; [reflexivity|]. split.
    + rewrite nth_set_obj, Nat.eqb_refl by exact Hi. cbn [snd]. rewrite dget_ddel.
      now destruct (key_eqb_spec k k).
    + intros j k' N. rewrite nth_set_obj by exact Hi. destruct (Nat.eqb_spec j i) as [->|]; [|now destruct (nth_error (w_objs w) j)].
      rewrite Ed. cbn [snd]. rewrite dget_ddel. destruct (key_eqb_spec k' k) as [->|]; [congruence|reflexivity].
  - do 2 (split; [reflexivity|]). split; [discriminate|]. intros _. split; [reflexivity|].
    intros j k'. rewrite nth_set_obj by exact Hi. destruct (Nat.eqb_spec j i) as [->|]; [|now destruct (nth_error (w_objs w) j)]. now rewrite Ed.
Qed.
