(** Finding materials by name. *)
From Coq Require Import ZArith List Bool String Ascii Lia.
From Verif Require Import Base Nums Materials.
Import ListNotations.
Open Scope list_scope.

(** ** Equality up to letter case and dashes *)
Definition upper (a : ascii) : Prop := (65 <= nat_of_ascii a <= 90)%nat.
(** the same letter, perhaps in another case *)
Definition same_letter (a b : ascii) : Prop :=
  a = b \/ (upper a /\ nat_of_ascii b = nat_of_ascii a + 32)%nat
        \/ (upper b /\ nat_of_ascii a = nat_of_ascii b + 32)%nat.
(** two names that differ by letter case and by dashes inserted anywhere *)
Inductive same_name : string -> string -> Prop :=
| same_nil : same_name "" ""
| same_dash_l s t : same_name s t -> same_name (String "-" s) t
| same_dash_r s t : same_name s t -> same_name s (String "-" t)
| same_char a b s t : same_letter a b -> same_name s t -> same_name (String a s) (String b t).

Lemma lower_spec a b : lower_char a = lower_char b <-> same_letter a b.
Proof.
  unfold same_letter, upper, lower_char.
  set (n := nat_of_ascii a). set (m := nat_of_ascii b).
  assert (Hn : (n < 256)%nat) by apply nat_ascii_bounded.
  assert (Hm : (m < 256)%nat) by apply nat_ascii_bounded.
  assert (E : a = b <-> n = m).
  { unfold n, m. split; [congruence|]. intros H.
    rewrite <- (ascii_nat_embedding a), <- (ascii_nat_embedding b). now f_equal. }
  assert (Ha : a = ascii_of_nat n) by (unfold n; now rewrite ascii_nat_embedding).
  assert (Hb : b = ascii_of_nat m) by (unfold m; now rewrite ascii_nat_embedding).
  assert (I : forall i j, (i < 256)%nat -> (j < 256)%nat -> ascii_of_nat i = ascii_of_nat j -> i = j).
  { intros i j Hi Hj H. rewrite <- (nat_ascii_embedding i), <- (nat_ascii_embedding j) by auto.
    now f_equal. }
  rewrite E.
  destruct (Nat.leb_spec 65 n), (Nat.leb_spec n 90), (Nat.leb_spec 65 m), (Nat.leb_spec m 90); cbn [andb];
    try rewrite Ha at 1; try rewrite Hb at 1;
    (split; [intros F; try apply I in F; lia|intros F]);
    try (f_equal; lia).
Qed.

Lemma drop_dash_app s : lower (drop "-" (String "-" s)) = lower (drop "-" s).
Proof. reflexivity. Qed.
Lemma drop_other a s : a <> "-"%char -> drop "-" (String a s) = String a (drop "-" s).
Proof. intros H. cbn [drop]. destruct (Ascii.eqb_spec a "-"); congruence. Qed.
Lemma same_dash a : same_letter "-" a -> a = "-"%char.
Proof.
  intros [<-|[[H _]|[H1 H2]]]; [reflexivity| |].
  - unfold upper in H. change (nat_of_ascii "-") with 45%nat in H. lia.
  - unfold upper in H1. change (nat_of_ascii "-") with 45%nat in H2. lia.
Qed.
Lemma same_letter_sym a b : same_letter a b -> same_letter b a.
Proof. unfold same_letter. intuition congruence. Qed.

Lemma same_name_lower s t : same_name s t <-> lower (drop "-" s) = lower (drop "-" t).
Proof.
  split.
  - induction 1 as [|s t _ IH|s t _ IH|a b s t Hab _ IH]; auto.
    destruct (Ascii.eqb_spec a "-") as [->|Ha].
    + apply same_dash in Hab. subst b. exact IH.
    + assert (b <> "-"%char).
      { intros ->. apply same_letter_sym, same_dash in Hab. congruence. }
      rewrite !drop_other by auto. cbn [lower]. rewrite IH. f_equal. now apply lower_spec.
  - revert t. induction s as [|a s IHs].
    + induction t as [|b t IHt]; intros H; [constructor|].
      destruct (Ascii.eqb_spec b "-") as [->|Hb]; [constructor; auto|].
      rewrite drop_other in H by auto. discriminate.
    + destruct (Ascii.eqb_spec a "-") as [->|Ha]; [intros t H; constructor; auto|].
      induction t as [|b t IHt]; intros H.
      * rewrite drop_other in H by auto. discriminate.
      * destruct (Ascii.eqb_spec b "-") as [->|Hb]; [constructor; apply IHt; exact H|].
        rewrite !drop_other in H by auto. cbn [lower] in H. injection H as H1 H2.
        constructor; [now apply lower_spec|]. now apply IHs.
Qed.

(** ** Search *)
Lemma find_loop_ok {D} (l : list (string * D)) s c d : find_loop l s = Ok (c, d) ->
  In (c, d) l /\ areTheSame s (drop "_" c) = true.
Proof.
  induction l as [|[c' d'] t IH]; cbn; [discriminate|].
  destruct (areTheSame s (drop "_" c')) eqn:E; [intros [= <- <-]; auto|].
  intros H. destruct (IH H); auto.
Qed.
Lemma find_loop_err {D} (l : list (string * D)) s x : find_loop l s = Err x ->
  x = ValueError /\ forall c d, In (c, d) l -> areTheSame s (drop "_" c) = false.
Proof.
  induction l as [|[c' d'] t IH]; cbn; [intros [= <-]; split; [reflexivity|intros ? ? []]|].
  destruct (areTheSame s (drop "_" c')) eqn:E; [discriminate|].
  intros H. destruct (IH H) as [-> Hn]. split; [reflexivity|].
  intros c d [F|F]; [injection F as <- <-; exact E|eauto].
Qed.

(** class names have no dash; without underscores they are distinct in lower case *)
Definition names : list string := map fst catalogue_data.
Lemma names_catalogue {T} {N : Num T} : map fst (@catalogue T N) = names.
Proof. unfold catalogue, names. rewrite map_map. reflexivity. Qed.
Lemma names_printed : Forall (fun c => drop "-" (printed c) = drop "_" c) names.
Proof. vm_compute. repeat (apply Forall_cons; [reflexivity|]). apply Forall_nil. Qed.
Definition zz_dec (x y : Z * Z) : {x = y} + {x <> y}.
Proof. repeat decide equality. Defined.
Definition zzzz_dec (x y : (Z * Z) * (Z * Z)) : {x = y} + {x <> y}.
Proof. repeat decide equality. Defined.
Definition disp_eqb (a b : dispersion (Z * Z)) : bool :=
  match a, b with
  | DAir, DAir => true
  | DSell l, DSell l' | DSellSq l, DSellSq l' =>
      if list_eq_dec zzzz_dec l l' then true else false
  | DPoly a0 a1 a2 a3 a4 a5, DPoly b0 b1 b2 b3 b4 b5 =>
      if list_eq_dec zz_dec
           [a0; a1; a2; a3; a4; a5] [b0; b1; b2; b3; b4; b5] then true else false
  | _, _ => false
  end.
Lemma disp_eqb_ok a b : disp_eqb a b = true -> a = b.
Proof.
  destruct a, b; cbn [disp_eqb]; try discriminate; auto;
    match goal with |- context [if ?x then _ else _] => destruct x end; try discriminate; congruence.
Qed.
(** entries whose names are the same up to case and dashes are the same entry *)
Lemma no_clash : forallb (fun p => forallb (fun q =>
    if String.eqb (lower (drop "_" (fst p))) (lower (drop "_" (fst q)))
    then String.eqb (fst p) (fst q) && disp_eqb (snd p) (snd q) else true)
  catalogue_data) catalogue_data = true.
Proof. vm_compute. reflexivity. Qed.
Lemma clash {T} {N : Num T} c d c' d' : In (c, d) (@catalogue T N) -> In (c', d') (@catalogue T N) ->
  lower (drop "_" c) = lower (drop "_" c') -> c = c' /\ d = d'.
Proof.
  unfold catalogue. rewrite !in_map_iff. intros ([n0 d0] & E & H) ([n1 d1] & E' & H') Hl.
  cbn in E, E'. injection E as -> <-. injection E' as -> <-.
  pose proof no_clash as F. rewrite forallb_forall in F. specialize (F _ H). cbn beta in F.
  rewrite forallb_forall in F. specialize (F _ H'). cbn [fst snd] in F.
  rewrite Hl, String.eqb_refl in F. apply andb_true_iff in F as [F1 F2].
  apply String.eqb_eq in F1. apply disp_eqb_ok in F2. subst. auto.
Qed.

Lemma same_printed {T} {N : Num T} s c d : In (c, d) (@catalogue T N) ->
  (areTheSame (drop "-" s) (drop "_" c) = true <-> same_name s (printed c)).
Proof.
  intros H. rewrite same_name_lower. unfold areTheSame. rewrite String.eqb_eq.
  assert (Hc : In c names) by (rewrite <- (@names_catalogue T N); now apply (in_map fst) in H).
  pose proof names_printed as F. rewrite Forall_forall in F. rewrite (F c Hc). tauto.
Qed.

Lemma find_iff {T} {N : Num T} s c d :
  findByName (Some s) = Ok (c, d) <-> In (c, d) (@catalogue T N) /\ same_name s (printed c).
Proof.
  unfold findByName. split.
  - intros H. apply find_loop_ok in H as [H1 H2]. split; [auto|]. now apply (same_printed s c d H1).
  - intros [H1 H2]. apply (same_printed s c d H1) in H2.
    destruct (find_loop catalogue (drop "-" s)) as [[c' d']|x] eqn:E.
    + apply find_loop_ok in E as [E1 E2]. unfold areTheSame in *.
      apply String.eqb_eq in H2, E2. destruct (clash c' d' c d E1 H1) as [-> ->]; congruence.
    + apply find_loop_err in E as [_ E]. rewrite (E _ _ H1) in H2. discriminate.
Qed.
Lemma find_none {T} {N : Num T} s :
  (forall c d, In (c, d) (@catalogue T N) -> ~ same_name s (printed c)) <->
  @findByName T N (Some s) = Err ValueError.
Proof.
  split.
  - intros H. destruct (@findByName T N (Some s)) as [[c d]|x] eqn:E.
    + exfalso. destruct (proj1 (find_iff s c d) E) as [E1 E2]. exact (H c d E1 E2).
    + unfold findByName in E. apply find_loop_err in E as [-> _]. reflexivity.
  - intros H c d Hc Hs. assert (E : findByName (Some s) = Ok (c, d)) by (apply find_iff; auto).
    congruence.
Qed.
