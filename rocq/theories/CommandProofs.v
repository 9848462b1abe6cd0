(** What python -m raytracing does for each command line. *)
From Coq Require Import ZArith List Bool String Ascii Lia Permutation Sorted NArith.
From Verif Require Import Base Zemax ZemaxRead CommandLine.
Import ListNotations.
Open Scope string_scope.
Open Scope list_scope.

(** ** Sorting *)
Lemma ascii_trans a b c : Ascii.compare a b = Lt -> Ascii.compare b c = Lt -> Ascii.compare a c = Lt.
Proof. unfold Ascii.compare. rewrite !N.compare_lt_iff. lia. Qed.
Lemma ascii_refl a : Ascii.compare a a = Eq.
Proof. unfold Ascii.compare. apply N.compare_refl. Qed.
Lemma leb_cons a s b t : String.leb (String a s) (String b t) = true <->
  Ascii.compare a b = Lt \/ (a = b /\ String.leb s t = true).
Proof.
  unfold String.leb. cbn [String.compare]. destruct (Ascii.compare a b) eqn:E.
  - apply Ascii.compare_eq_iff in E. subst. split; [auto|]. intros [H|[_ H]]; [|exact H]. now discriminate.
  - split; auto.
  - split; [discriminate|]. intros [H|[-> _]]; [discriminate|]. rewrite ascii_refl in E. discriminate.
Qed.
Lemma leb_trans : forall a b c, String.leb a b = true -> String.leb b c = true -> String.leb a c = true.
Proof.
  induction a as [|x a IH]; intros b c H1 H2; [now destruct c|].
  destruct b as [|y b]; [discriminate|]. destruct c as [|z c]; [discriminate|].
  apply leb_cons in H1, H2. apply leb_cons. destruct H1 as [H1|[-> H1]], H2 as [H2|[-> H2]]; auto.
  - left. exact (ascii_trans _ _ _ H1 H2).
  - right. split; [reflexivity|]. exact (IH _ _ H1 H2).
Qed.
Lemma leb_anti a b : String.leb a b = true -> String.leb b a = true -> a = b.
Proof. intros H1 H2. now apply String.leb_antisym. Qed.
Lemma put_comm x y l : put x (put y l) = put y (put x l).
Proof.
  induction l as [|z l IH]; cbn [put].
  - destruct (String.leb x y) eqn:E1, (String.leb y x) eqn:E2; try reflexivity.
    + now rewrite (leb_anti _ _ E1 E2).
    + destruct (String.leb_total x y); congruence.
  - destruct (String.leb y z) eqn:Y, (String.leb x z) eqn:X; cbn [put].
    + rewrite Y, X. destruct (String.leb x y) eqn:E1, (String.leb y x) eqn:E2; try reflexivity.
      * now rewrite (leb_anti _ _ E1 E2).
      * destruct (String.leb_total x y); congruence.
    + rewrite Y, X. destruct (String.leb x y) eqn:E1; [|reflexivity].
      rewrite (leb_trans _ _ _ E1 Y) in X. discriminate.
    + rewrite Y, X. destruct (String.leb y x) eqn:E1; [|reflexivity].
      rewrite (leb_trans _ _ _ E1 X) in Y. discriminate.
    + rewrite Y, X. now rewrite IH.
Qed.
Lemma sort_perm l l' : Permutation l l' -> sort l = sort l'.
Proof.
  induction 1 as [|x l l' _ IH|x y l|l l' l'' _ IH1 _ IH2]; unfold sort in *; cbn [fold_right].
  - reflexivity.
  - now rewrite IH.
  - apply put_comm.
  - congruence.
Qed.
Lemma put_permutes x l : Permutation (x :: l) (put x l).
Proof.
  induction l as [|y l IH]; cbn [put]; [reflexivity|]. destruct (String.leb x y); [reflexivity|].
  rewrite perm_swap. now constructor.
Qed.
Lemma sort_permutes l : Permutation l (sort l).
Proof. induction l as [|x l IH]; cbn; [reflexivity|]. rewrite <- put_permutes. now constructor. Qed.
Lemma put_sorted x l : StronglySorted (fun a b => String.leb a b = true) l ->
  StronglySorted (fun a b => String.leb a b = true) (put x l).
Proof.
  induction 1 as [|y l Hs IH Hf]; cbn [put]; [constructor; constructor|].
  destruct (String.leb x y) eqn:E.
  - constructor; [now constructor|]. constructor; [exact E|]. revert Hf. apply Forall_impl. intros z Hz. exact (leb_trans _ _ _ E Hz).
  - constructor; [exact IH|]. apply (Permutation_Forall (put_permutes x l)). constructor; [|exact Hf].
    destruct (String.leb_total x y); congruence.
Qed.
Lemma sort_sorted l : StronglySorted (fun a b => String.leb a b = true) (sort l).
Proof. induction l as [|x l IH]; cbn; [constructor|]. now apply put_sorted. Qed.

Lemma stem_spec : forall f n, stem f = Some n <-> n <> ""%string /\ f = String.append n ".py".
Proof.
  induction f as [|a t IH]; intros n; cbn [stem].
  - split; [discriminate|]. intros [H E]. destruct n; [congruence|discriminate].
  - destruct (String.eqb_spec t ".py") as [->|Nt].
    + split.
      * intros [= <-]. split; [discriminate|reflexivity].
      * intros [Hn E]. destruct n as [|b n]; [congruence|]. cbn in E. injection E as -> E.
        destruct n as [|b2 n]; [reflexivity|]. exfalso. apply (f_equal String.length) in E. cbn in E. clear - E.
        assert (H : forall u, (String.length (String.append u ".py") = String.length u + 3)%nat)
          by (induction u as [|c u IHu]; cbn; [reflexivity|rewrite IHu; reflexivity]).
        rewrite H in E. lia.
    + destruct (stem t) as [u|] eqn:E.
      * destruct (proj1 (IH u) eq_refl) as [Hu Ht]. split.
        -- intros [= <-]. split; [discriminate|]. cbn. now rewrite Ht.
        -- intros [Hn En]. destruct n as [|b n]; [congruence|]. cbn in En. injection En as <- En.
           destruct n as [|b2 n]; [cbn in En; congruence|].
           assert (Some u = Some (String b2 n)) as [= ->]; [|reflexivity]. apply IH. split; [discriminate|exact En].
      * split; [discriminate|]. intros [Hn En]. destruct n as [|b n]; [congruence|]. cbn in En. injection En as <- En.
        destruct n as [|b2 n]; [cbn in En; congruence|].
        assert (@None string = Some (String b2 n)); [|discriminate]. apply IH. split; [discriminate|exact En].
Qed.
(** ex followed by digits, or fig followed by anything *)
Definition numbered_name (name : string) : Prop :=
  (exists ds, ds <> [] /\ Forall is_digit ds /\ name = ("ex" ++ numeral ds "")%string) \/
  (exists r, r <> ""%string /\ name = ("fig" ++ r)%string).
Lemma digit_char_inv a : is_digit_char a = true -> exists d, is_digit d /\ a = digit_char d.
Proof.
  unfold is_digit_char, digit. intros H. exists (nat_of_ascii a - 48)%nat.
  destruct (Nat.leb 48 (nat_of_ascii a) && Nat.leb (nat_of_ascii a) 57)%bool eqn:E; [|discriminate].
  apply andb_true_iff in E as [E1 E2]. apply Nat.leb_le in E1, E2. split; [unfold is_digit; lia|].
  unfold digit_char. replace (48 + (nat_of_ascii a - 48))%nat with (nat_of_ascii a) by lia. now rewrite ascii_nat_embedding.
Qed.
Lemma digit_char_is d : is_digit d -> is_digit_char (digit_char d) = true.
Proof. intros H. unfold is_digit_char. now rewrite digit_of_char. Qed.
Lemma all_digits_spec s : all_digits s = true <-> exists ds, Forall is_digit ds /\ s = numeral ds ""%string.
Proof.
  induction s as [|a s IH]; cbn [all_digits].
  - split; [|reflexivity]. intros _. now exists [].
  - rewrite andb_true_iff, IH. split.
    + intros [H1 (ds & H2 & ->)]. destruct (digit_char_inv a H1) as (d & Hd & ->). exists (d :: ds). split; [now constructor|reflexivity].
    + intros ([|d ds] & H & E); [discriminate|]. cbn [numeral] in E. injection E as -> ->. apply Forall_cons_iff in H as [H1 H2].
      split; [now apply digit_char_is|now exists ds].
Qed.
Lemma is_short_spec name : is_short name = true <-> numbered_name name.
Proof.
  unfold numbered_name. split.
  - intros H. destruct name as [|a [|b [|c t]]]; [discriminate| | |].
    { exfalso. destruct a as [[][][][][][][][]]; discriminate. }
    { exfalso. destruct a as [[][][][][][][][]]; try discriminate; destruct b as [[][][][][][][][]]; discriminate. }
    destruct (Ascii.eqb_spec a "e"%char) as [->|Na].
    + destruct (Ascii.eqb_spec b "x"%char) as [->|Nb].
      * cbn in H. apply andb_true_iff in H as [H1 H2]. left. destruct (digit_char_inv c H1) as (d & Hd & ->).
        apply all_digits_spec in H2 as (ds & Hds & ->). exists (d :: ds). split; [discriminate|]. split; [now constructor|reflexivity].
      * exfalso. cbn in H. destruct b as [[][][][][][][][]]; try discriminate. now apply Nb.
    + destruct (Ascii.eqb_spec a "f"%char) as [->|Na2];
        [|exfalso; destruct a as [[][][][][][][][]]; try discriminate; congruence].
      destruct (Ascii.eqb_spec b "i"%char) as [->|Nb];
        [|exfalso; cbn in H; destruct b as [[][][][][][][][]]; try discriminate; congruence].
      destruct (Ascii.eqb_spec c "g"%char) as [->|Nc];
        [|exfalso; cbn in H; destruct c as [[][][][][][][][]]; try discriminate; congruence].
      destruct t as [|d t]; [discriminate|]. right. exists (String d t). split; [discriminate|reflexivity].
  - intros [(ds & Hn & Hds & ->)|(r & Hr & ->)].
    + destruct Hds as [|d ds Hd Hds]; [congruence|]. cbn [numeral String.append is_short]. rewrite digit_char_is by exact Hd.
      apply all_digits_spec. now exists ds.
    + destruct r; [congruence|reflexivity].
Qed.
(** the files taken as examples *)
Theorem examples_found files :
  (forall name, In name (short_examples files) <-> In (name ++ ".py")%string files /\ numbered_name name) /\
  (forall name, In name (long_examples files) <->
     In (name ++ ".py")%string files /\ name <> ""%string /\ ~ numbered_name name /\
     ~ In name ["__init__"; "template"; "envexamples"]) /\
  (forall files', Permutation files files' ->
     short_examples files' = short_examples files /\ long_examples files' = long_examples files).
Proof.
  assert (Hs : forall name, In name (stems files) <-> In (name ++ ".py")%string files /\ name <> ""%string).
  { intros name. unfold stems. rewrite in_flat_map. split.
    - intros (f & Hf & Hn). apply (Permutation_in _ (Permutation_sym (sort_permutes files))) in Hf.
      destruct (stem f) as [n|] eqn:E; [|contradiction]. destruct Hn as [<-|[]]. apply stem_spec in E as [Hn ->]. auto.
    - intros [Hf Hn]. exists (name ++ ".py")%string. split; [exact (Permutation_in _ (sort_permutes files) Hf)|].
      assert (stem (name ++ ".py") = Some name) as -> by (apply stem_spec; auto). now left. }
  split; [|split].
  - intros name. unfold short_examples. rewrite filter_In, Hs, is_short_spec. split; [tauto|]. intros [H1 H2].
    split; [|exact H2]. split; [exact H1|]. intros ->. destruct H2 as [(ds & _ & _ & K)|(r & _ & K)]; discriminate.
  - intros name. unfold long_examples. rewrite filter_In, Hs, andb_true_iff, !negb_true_iff.
    assert (is_short name = false <-> ~ numbered_name name) as -> by (rewrite <- is_short_spec; destruct (is_short name); intuition congruence).
    assert (left_out name = false <-> ~ In name ["__init__"; "template"; "envexamples"]) as ->; [|tauto].
    unfold left_out. cbn [In].
    destruct (String.eqb_spec name "__init__"), (String.eqb_spec name "template"), (String.eqb_spec name "envexamples");
      cbn [orb]; intuition congruence.
  - intros files' P. unfold short_examples, long_examples, stems. now rewrite (sort_perm _ _ P).
Qed.
(** in the order of their files' names *)
Theorem examples_in_order files : NoDup files ->
  StronglySorted (fun a b => String.leb (a ++ ".py") (b ++ ".py") = true) (short_examples files) /\
  NoDup (short_examples files).
Proof.
  intros Nd. assert (Nd' := Permutation_NoDup (sort_permutes files) Nd). pose proof (sort_sorted files) as S.
  unfold short_examples, stems.
  set (l := sort files) in *. clearbody l. clear Nd files.
  induction S as [|f l S IH F]; [split; constructor|]. cbn [flat_map]. apply NoDup_cons_iff in Nd' as [N1 N2].
  destruct (IH N2) as [I1 I2]. destruct (stem f) as [n|] eqn:E; cbn [app]; [|split; assumption].
  apply stem_spec in E as [Hn ->]. cbn [filter]. destruct (is_short n); [|split; assumption].
  assert (H : forall m, In m (filter is_short (flat_map (fun f => match stem f with Some n => [n] | None => [] end) l)) ->
              In (m ++ ".py")%string l).
  { intros m Hm. apply filter_In in Hm as [Hm _]. apply in_flat_map in Hm as (g & Hg & Hm).
    destruct (stem g) as [n'|] eqn:E; [|contradiction]. destruct Hm as [<-|[]]. apply stem_spec in E as [_ ->]. exact Hg. }
  split.
  - constructor; [exact I1|]. apply Forall_forall. intros m Hm. rewrite Forall_forall in F. now apply F, H.
  - constructor; [|exact I2]. intros K. now apply N1, H.
Qed.

(** ** The numbers after -e *)
Fixpoint spaces (k : nat) : string := match k with O => ""%string | S k => String " " (spaces k) end.
(** a number as typed: some spaces, a sign, digits, some spaces *)
Record typed := mkTyped { t_left : nat; t_sign : sgn; t_digits : list nat; t_right : nat }.
Definition is_typed (t : typed) : Prop := Forall is_digit (t_digits t) /\ t_digits t <> [].
Definition typed_word (t : typed) : string :=
  (spaces (t_left t) ++ sgn_word (t_sign t) (numeral (t_digits t) (spaces (t_right t))))%string.
Definition typed_value (t : typed) : Z := (sgn_val (t_sign t) * number (t_digits t))%Z.
(** words separated by commas *)
Fixpoint commas (l : list string) : string :=
  match l with [] => ""%string | [w] => w | w :: t => (w ++ String "," (commas t))%string end.

Fixpoint no_comma (s : string) : bool :=
  match s with EmptyString => true | String a t => negb (Ascii.eqb a ","%char) && no_comma t end.
Lemma no_comma_app : forall a b, no_comma (a ++ b)%string = no_comma a && no_comma b.
Proof. induction a as [|x a IH]; intros b; cbn; [reflexivity|]. rewrite IH. apply andb_assoc. Qed.
Lemma split_word w : no_comma w = true -> split w = [w].
Proof.
  induction w as [|a w IH]; cbn [split no_comma]; [reflexivity|]. intros H. apply andb_true_iff in H as [H1 H2].
  rewrite (IH H2). apply negb_true_iff in H1. now rewrite H1.
Qed.
Lemma split_comma w s : no_comma w = true -> split (w ++ String "," s) = w :: split s.
Proof.
  intros H. induction w as [|a w IH].
  - cbn [String.append split]. destruct (split s) as [|v l] eqn:E.
    + exfalso. clear - E. induction s as [|a s IH]; [discriminate|]. cbn [split] in E.
      destruct (split s) as [|v l]; [now apply IH|]. destruct (Ascii.eqb a ","); discriminate.
    + reflexivity.
  - cbn [no_comma] in H. apply andb_true_iff in H as [H1 H2]. cbn [String.append split]. rewrite (IH H2).
    apply negb_true_iff in H1. now rewrite H1.
Qed.
Lemma split_commas l : l <> [] -> Forall (fun w => no_comma w = true) l -> split (commas l) = l.
Proof.
  induction l as [|w l IH]; [congruence|]. intros _ H. apply Forall_cons_iff in H as [H1 H2].
  destruct l as [|v l]; [now apply split_word|].
  change (commas (w :: v :: l)) with (w ++ String "," (commas (v :: l)))%string.
  rewrite split_comma by exact H1. rewrite IH; [reflexivity|congruence|exact H2].
Qed.

Lemma numeral_app ds r : numeral ds r = (numeral ds "" ++ r)%string.
Proof. induction ds as [|d ds IH]; cbn; [reflexivity|]. now rewrite IH. Qed.
Lemma digit_facts d : is_digit d -> is_space (digit_char d) = false /\ Ascii.eqb (digit_char d) ","%char = false.
Proof. intros H. unfold is_digit in H. do 10 (destruct d as [|d]; [split; reflexivity|]). lia. Qed.
Lemma spaces_comma k : no_comma (spaces k) = true.
Proof. induction k; cbn; auto. Qed.
Lemma numeral_comma ds r : Forall is_digit ds -> no_comma r = true -> no_comma (numeral ds r) = true.
Proof.
  intros H Hr. induction H as [|d ds Hd H IH]; [exact Hr|]. cbn [numeral no_comma]. rewrite IH.
  now rewrite (proj2 (digit_facts d Hd)).
Qed.
Lemma typed_comma t : is_typed t -> no_comma (typed_word t) = true.
Proof.
  intros [H _]. unfold typed_word. rewrite no_comma_app, spaces_comma. cbn [andb].
  destruct (t_sign t); cbn [sgn_word no_comma andb]; rewrite numeral_comma; auto using spaces_comma.
Qed.
Lemma lstrip_spaces k s : lstrip (spaces k ++ s) = lstrip s.
Proof. induction k; cbn; auto. Qed.
Lemma rstrip_spaces k : rstrip (spaces k) = ""%string.
Proof. induction k as [|k IH]; cbn [spaces rstrip]; [reflexivity|]. rewrite IH. reflexivity. Qed.
Lemma rstrip_char a s : is_space a = false -> rstrip (String a s) = String a (rstrip s).
Proof. intros H. cbn [rstrip]. destruct (rstrip s); [now rewrite H|reflexivity]. Qed.
Lemma rstrip_numeral ds r : Forall is_digit ds -> rstrip (numeral ds r) = numeral ds (rstrip r).
Proof.
  intros H. induction H as [|d ds Hd H IH]; [reflexivity|]. cbn [numeral].
  rewrite rstrip_char by exact (proj1 (digit_facts d Hd)). now rewrite IH.
Qed.
Lemma int_typed t : is_typed t -> int_of (typed_word t) = Ok (typed_value t).
Proof.
  intros [H Hn]. unfold int_of, typed_word, typed_value. rewrite lstrip_spaces.
  assert (lstrip (sgn_word (t_sign t) (numeral (t_digits t) (spaces (t_right t)))) =
          sgn_word (t_sign t) (numeral (t_digits t) (spaces (t_right t)))) as ->.
  { destruct (t_sign t); [|reflexivity|reflexivity]. cbn [sgn_word]. destruct H as [|d ds Hd H]; [congruence|].
    cbn [numeral lstrip]. now rewrite (proj1 (digit_facts d Hd)). }
  assert (rstrip (sgn_word (t_sign t) (numeral (t_digits t) (spaces (t_right t)))) =
          sgn_word (t_sign t) (numeral (t_digits t) "")) as ->.
  { destruct (t_sign t); cbn [sgn_word]; rewrite ?rstrip_char by reflexivity; rewrite rstrip_numeral by exact H;
      rewrite rstrip_spaces; reflexivity. }
  now apply py_int_numeral.
Qed.
Lemma ints_typed l : Forall is_typed l -> ints (map typed_word l) = Ok (map typed_value l).
Proof.
  induction 1 as [|t l Ht H IH]; [reflexivity|]. cbn [map ints]. rewrite int_typed by exact Ht. cbn [bind].
  rewrite IH. reflexivity.
Qed.
Lemma ints_bad before w after x : Forall is_typed before -> int_of w = Err x ->
  ints (map typed_word before ++ w :: after) = Err x.
Proof.
  intros H E. induction H as [|t l Ht H IH]; cbn [map app ints]; [now rewrite E|].
  rewrite int_typed by exact Ht. cbn [bind]. now rewrite IH.
Qed.

(** words with a character that no integer has *)
Fixpoint has_char (P : ascii -> bool) (s : string) : bool :=
  match s with EmptyString => false | String a t => P a || has_char P t end.
Definition strange (a : ascii) : bool :=
  negb (is_digit_char a || is_space a || Ascii.eqb a "+"%char || Ascii.eqb a "-"%char).
Lemma strange_space a : strange a = true -> is_space a = false.
Proof. unfold strange. destruct (is_digit_char a), (is_space a); cbn; congruence. Qed.
Lemma lstrip_strange s : has_char strange s = true -> has_char strange (lstrip s) = true.
Proof.
  induction s as [|a s IH]; [discriminate|]. cbn [lstrip]. destruct (is_space a) eqn:E; [|auto]. intros H. apply IH. cbn [has_char] in H.
  destruct (strange a) eqn:Sa; [|exact H]. apply strange_space in Sa. congruence.
Qed.
Lemma rstrip_strange s : has_char strange s = true -> has_char strange (rstrip s) = true.
Proof.
  induction s as [|a s IH]; [discriminate|]. cbn [has_char rstrip]. intros H. destruct (strange a) eqn:Sa.
  - destruct (rstrip s) as [|b u]; [rewrite (strange_space a Sa)|]; cbn [has_char]; now rewrite Sa.
  - cbn [orb] in H. specialize (IH H). destruct (rstrip s) as [|b u]; [discriminate|]. cbn [has_char] in *. now rewrite Sa.
Qed.
Lemma digits_strange : forall s v k, has_char strange s = true -> exists v' k' a t, digits s v k = (v', k', String a t).
Proof.
  induction s as [|a s IH]; intros v k H; [discriminate|]. cbn [digits]. destruct (digit a) as [d|] eqn:E; [|now exists v, k, a, s].
  apply IH. cbn [has_char] in H. destruct (strange a) eqn:Sa; [|exact H]. unfold strange, is_digit_char in Sa. rewrite E in Sa. discriminate.
Qed.
Lemma strange_refused w : has_char strange w = true -> int_of w = Err ValueError.
Proof.
  intros H. unfold int_of. apply lstrip_strange, rstrip_strange in H. set (s := rstrip (lstrip w)) in *. clearbody s.
  unfold py_int. destruct (sign s) as [g t] eqn:G. assert (K : has_char strange t = true).
  { unfold sign in G. destruct s as [|a s]; [discriminate|]. cbn [has_char] in H.
    destruct (Ascii.eqb_spec a "-") as [->|]; [injection G as <- <-; exact H|].
    destruct (Ascii.eqb_spec a "+") as [->|]; [injection G as <- <-; exact H|]. injection G as <- <-. exact H. }
  destruct (digits_strange t 0 0 K) as (v & k & a & u & ->). reflexivity.
Qed.
Lemma commas_cons_neq w l : no_comma w = true -> l <> [] -> no_comma (commas (w :: l)) = false.
Proof.
  intros H Hl. destruct l as [|v l]; [congruence|].
  change (commas (w :: v :: l)) with (w ++ String "," (commas (v :: l)))%string. rewrite no_comma_app, H. reflexivity.
Qed.
Lemma all_not_int : int_of "all" = Err ValueError.
Proof. reflexivity. Qed.
Lemma empty_not_int : int_of "" = Err ValueError.
Proof. reflexivity. Qed.
(** a text that is neither "all" nor empty is read as numbers *)
Lemma words_text l : l <> [] -> Forall (fun w => no_comma w = true) l ->
  (forall w, l = [w] -> w <> "all"%string /\ w <> ""%string) ->
  forall n, runExamples n (commas l) = ints l.
Proof.
  intros Hl Hc Hw n. unfold runExamples.
  assert (N : commas l <> "all"%string /\ commas l <> ""%string).
  { destruct l as [|w [|v l]]; [congruence|cbn; now apply Hw|].
    assert (F : no_comma (commas (w :: v :: l)) = false).
    { apply commas_cons_neq; [now apply Forall_inv in Hc|discriminate]. }
    split; intros E; rewrite E in F; discriminate. }
  destruct N as [N1 N2]. apply String.eqb_neq in N1, N2. rewrite N1, N2. now rewrite split_commas.
Qed.
Lemma typed_text ts n : ts <> [] -> Forall is_typed ts ->
  runExamples n (commas (map typed_word ts)) = Ok (map typed_value ts).
Proof.
  intros Hn H. rewrite words_text.
  - now apply ints_typed.
  - destruct ts; [congruence|discriminate].
  - apply Forall_forall. intros w Hw. apply in_map_iff in Hw as (t & <- & Ht). apply typed_comma.
    rewrite Forall_forall in H. auto.
  - intros w E. destruct ts as [|t [|t' ts]]; try discriminate. injection E as <-. apply Forall_inv in H.
    pose proof (int_typed t H) as I. split; intros E; rewrite E in I; discriminate.
Qed.

(** ** What is run *)
Section Main.
Variable E : Type.
Implicit Types (short : list E) (raises : E -> option exn).

Lemma item_in short k : (1 <= k <= Z.of_nat (List.length short))%Z ->
  exists e, item short (k - 1) = Some e /\ nth_error short (Z.to_nat (k - 1)) = Some e.
Proof.
  intros H. unfold item. rewrite (proj2 (Z.leb_le 0 (k - 1))) by lia.
  destruct (nth_error short (Z.to_nat (k - 1))) as [e|] eqn:En; [now exists e|]. apply nth_error_None in En. lia.
Qed.
(** example number [k], as the list -l numbers them *)
Definition numbered_as short (k : Z) (e : E) : Prop := In (k, e) (combine (one_to (List.length short)) short).
Lemma combine_seq : forall (l : list E) s k e,
  In (k, e) (combine (map Z.of_nat (seq s (List.length l))) l) <->
  (Z.of_nat s <= k)%Z /\ nth_error l (Z.to_nat (k - Z.of_nat s)) = Some e.
Proof.
  induction l as [|x l IH]; intros s k e; cbn [List.length seq map combine In].
  - split; [contradiction|]. intros [_ H]. destruct (Z.to_nat (k - Z.of_nat s)); discriminate.
  - rewrite IH. split.
    + intros [[= <- <-]|[H1 H2]].
      * split; [lia|]. now rewrite Z.sub_diag.
      * split; [lia|]. replace (Z.to_nat (k - Z.of_nat s)) with (S (Z.to_nat (k - Z.of_nat (S s)))) by lia. exact H2.
    + intros [H1 H2]. destruct (Z.eq_dec k (Z.of_nat s)) as [->|Nk].
      * left. rewrite Z.sub_diag in H2. cbn in H2. congruence.
      * right. split; [lia|]. replace (Z.to_nat (k - Z.of_nat s)) with (S (Z.to_nat (k - Z.of_nat (S s)))) in H2 by lia. exact H2.
Qed.
Lemma numbered_item short k e : numbered_as short k e <->
  (1 <= k <= Z.of_nat (List.length short))%Z /\ item short (k - 1) = Some e.
Proof.
  unfold numbered_as, one_to. rewrite combine_seq. change (Z.of_nat 1) with 1%Z. unfold item. split.
  - intros [H1 H2]. assert (Z.to_nat (k - 1) < List.length short)%nat by (apply nth_error_Some; congruence).
    split; [lia|]. rewrite (proj2 (Z.leb_le 0 (k - 1))) by lia. exact H2.
  - intros [H1 H2]. split; [lia|]. rewrite (proj2 (Z.leb_le 0 (k - 1))) in H2 by lia. exact H2.
Qed.

Lemma run_good short raises ks es rest : Forall2 (numbered_as short) ks es -> (forall e, In e es -> raises e = None) ->
  run short raises (ks ++ rest) = (map Ran es ++ fst (run short raises rest), snd (run short raises rest)).
Proof.
  induction 1 as [|k e ks es H F IH]; intros Hr; cbn [app map].
  - now destruct (run short raises rest).
  - apply numbered_item in H as [_ H]. cbn [run]. rewrite H, (Hr e) by now left.
    rewrite IH by (intros; apply Hr; now right). reflexivity.
Qed.

Definition plain (text : string) : args := mkArgs text false false false.
Lemma Forall2_impl {A B} (P Q : A -> B -> Prop) : (forall a b, P a b -> Q a b) -> forall l m, Forall2 P l m -> Forall2 Q l m.
Proof. intros H l m F. induction F; constructor; auto. Qed.
Lemma one_to_good short : Forall2 (numbered_as short) (one_to (List.length short)) short.
Proof.
  assert (G : forall l s, Forall2 (fun k e => In (k, e) (combine (map Z.of_nat (seq s (List.length l))) l))
            (map Z.of_nat (seq s (@List.length E l))) l).
  { induction l as [|x l IH]; intros s; cbn [List.length seq map combine]; constructor; [now left|].
    refine (Forall2_impl _ _ _ _ _ (IH (S s))). intros k e H. now right. }
  exact (G short 1%nat).
Qed.
Theorem all_run short raises : short <> [] -> (forall e, In e short -> raises e = None) ->
  exists ks, main short raises (plain "all") = (Announced ks :: map Ran short, None) /\
    Forall2 (numbered_as short) ks short.
Proof.
  intros Hs Hr. exists (one_to (List.length short)). split; [|apply one_to_good]. unfold main, plain. cbn [a_examples a_classes a_tests a_list].
  change (runExamples (List.length short) "all") with (@Ok (list Z) (one_to (List.length short))).
  pose proof (run_good short raises (one_to (List.length short)) short [] (one_to_good short) Hr) as R.
  rewrite app_nil_r in R. cbn [run fst snd] in R. rewrite app_nil_r in R.
  destruct short as [|x l]; [congruence|]. cbn [List.length] in *. unfold one_to in *. cbn [seq map] in *.
  rewrite R. reflexivity.
Qed.
Theorem chosen_run short raises ts es : ts <> [] -> Forall is_typed ts ->
  Forall2 (numbered_as short) (map typed_value ts) es -> (forall e, In e es -> raises e = None) ->
  main short raises (plain (commas (map typed_word ts))) = (Announced (map typed_value ts) :: map Ran es, None).
Proof.
  intros Hn Ht F Hr. unfold main, plain. cbn [a_examples a_classes a_tests a_list]. rewrite typed_text by assumption.
  pose proof (run_good short raises _ es [] F Hr) as R. rewrite app_nil_r in R. cbn [run fst snd] in R. rewrite app_nil_r in R.
  destruct (map typed_value ts) eqn:M; [destruct ts; [congruence|discriminate]|]. rewrite R. reflexivity.
Qed.
(** an example that fails, or a number beyond the last example, ends the run after those before it *)
Theorem stopped_run short raises ts t us es : Forall is_typed (ts ++ t :: us) ->
  Forall2 (numbered_as short) (map typed_value ts) es -> (forall e, In e es -> raises e = None) ->
  let text := commas (map typed_word (ts ++ t :: us)) in
  (forall e x, numbered_as short (typed_value t) e -> raises e = Some x ->
     main short raises (plain text) = (Announced (map typed_value (ts ++ t :: us)) :: map Ran (es ++ [e]), Some x)) /\
  ((Z.of_nat (List.length short) < typed_value t)%Z ->
     main short raises (plain text) = (Announced (map typed_value (ts ++ t :: us)) :: map Ran es, Some IndexError)).
Proof.
  intros Ht F Hr text. assert (Hn : ts ++ t :: us <> []) by (destruct ts; discriminate).
  assert (M : main short raises (plain text) =
    (Announced (map typed_value (ts ++ t :: us)) :: map Ran es ++ fst (run short raises (map typed_value (t :: us))),
     snd (run short raises (map typed_value (t :: us))))).
  { unfold main, plain, text. cbn [a_examples a_classes a_tests a_list]. rewrite typed_text by assumption.
    pose proof (run_good short raises _ es (map typed_value (t :: us)) F Hr) as R. rewrite <- map_app in R.
    destruct (map typed_value (ts ++ t :: us)) eqn:K; [destruct ts; discriminate|]. rewrite R. reflexivity. }
  rewrite M. cbn [map run]. split.
  - intros e x He Hx. apply numbered_item in He as [_ He]. rewrite He, Hx. cbn [fst snd]. rewrite !map_app. reflexivity.
  - intros Hk. unfold item. rewrite (proj2 (Z.leb_le 0 (typed_value t - 1))) by lia.
    rewrite (proj2 (nth_error_None short (Z.to_nat (typed_value t - 1)))) by lia. cbn [fst snd]. now rewrite app_nil_r.
Qed.
(** a word that is no integer: nothing is done at all, whatever the other options *)
Theorem refused short raises before w after c l t : Forall is_typed before -> Forall (fun v => no_comma v = true) (w :: after) ->
  has_char strange w = true \/ w = ""%string -> (before <> [] \/ after <> [] \/ (w <> "all"%string /\ w <> ""%string)) ->
  main short raises (mkArgs (commas (map typed_word before ++ w :: after)) c l t) = ([], Some ValueError).
Proof.
  intros Hb Hc Hw0 Hone.
  assert (Hw : int_of w = Err ValueError) by (destruct Hw0 as [Hw0| ->]; [now apply strange_refused|reflexivity]). unfold main. cbn [a_examples]. rewrite words_text.
  - now rewrite (ints_bad before w after ValueError).
  - destruct before; discriminate.
  - apply Forall_app. split; [|exact Hc]. apply Forall_forall. intros v Hv. apply in_map_iff in Hv as (t' & <- & Ht').
    apply typed_comma. rewrite Forall_forall in Hb. auto.
  - intros v Ev. destruct before as [|b before].
    + cbn [map app] in Ev. injection Ev as -> ->. destruct Hone as [H|[H|H]]; [congruence|congruence|exact H].
    + cbn [map app] in Ev. injection Ev as _ Ev. destruct (map typed_word before); discriminate.
Qed.
(** -c wins over -t, -t over -l, -l over -e *)
Theorem one_thing short raises text c l t ks : runExamples (List.length short) text = Ok ks ->
  main short raises (mkArgs text c l t) =
    if c then ([Classes], None) else if t then ([Tests], None)
    else if l then ([Listed (combine (one_to (List.length short)) short)], None)
    else main short raises (plain text).
Proof. intros H. unfold main, plain. cbn [a_examples a_classes a_tests a_list]. rewrite H. destruct c, t, l; reflexivity. Qed.
Lemma zero_typed : is_typed (mkTyped 0 Plain [0%nat] 0).
Proof. split; [constructor; [unfold is_digit; lia|constructor]|discriminate]. Qed.
(** -e 0 *)
Theorem zero_runs_last short raises e : raises e = None ->
  main (short ++ [e]) raises (plain "0") = ([Announced [0%Z]; Ran e], None).
Proof.
  intros Hr. unfold main, plain. cbn [a_examples a_classes a_tests a_list].
  change (runExamples (List.length (short ++ [e])) "0") with (@Ok (list Z) [0%Z]). cbn [run].
  unfold item. change (0 <=? 0 - 1)%Z with false. rewrite app_length. cbn [List.length].
  rewrite (proj2 (Z.leb_le 0 _)) by lia.
  replace (Z.to_nat (Z.of_nat (List.length short + 1) + (0 - 1))) with (List.length short) by lia.
  rewrite nth_error_app2 by lia. rewrite Nat.sub_diag. cbn [nth_error]. rewrite Hr. reflexivity.
Qed.
End Main.
