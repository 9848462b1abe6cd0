(** What the menu of the lens viewer lists and shows. *)
From Coq Require Import ZArith List Bool String Ascii Reals Lra Lia.
From Verif Require Import Base Nums Optics Materials Zemax Catalogue CatalogueChecks Scene LabelProofs Viewer.
Import ListNotations.
Open Scope string_scope.
Open Scope list_scope.

(** ** Texts *)
Fixpoint no_bracket (s : string) : bool :=
  match s with EmptyString => true | String a t => negb (Ascii.eqb a "["%char) && no_bracket t end.
Lemma before_bracket : forall a a' r r', no_bracket a = true -> no_bracket a' = true ->
  String.append a (String " " (String "[" r)) = String.append a' (String " " (String "[" r')) -> a = a'.
Proof.
  induction a as [|x a IH]; intros [|x' a'] r r' H H' E; cbn in *.
  - reflexivity.
  - injection E as <- E. apply andb_true_iff in H' as [_ H']. destruct a' as [|y a']; [discriminate|].
    cbn in E, H'. injection E as <- _. apply andb_true_iff in H' as [H' _]. discriminate.
  - injection E as -> E. apply andb_true_iff in H as [_ H]. destruct a as [|y a]; [discriminate|].
    cbn in E, H. injection E as -> _. apply andb_true_iff in H as [H _]. discriminate.
  - injection E as -> E. apply andb_true_iff in H as [_ H]. apply andb_true_iff in H' as [_ H'].
    now rewrite (IH a' r r' H H' E).
Qed.

(** ** The catalogue *)
Definition names_of : list string := map fst lens_data.
Lemma names_lenses : map fst (@lenses XR _) = names_of.
Proof. unfold lenses, names_of. rewrite map_map. reflexivity. Qed.
Fixpoint distinctb (l : list string) : bool :=
  match l with [] => true | x :: t => negb (existsb (String.eqb x) t) && distinctb t end.
Lemma distinctb_NoDup l : distinctb l = true -> NoDup l.
Proof.
  induction l as [|x t IH]; cbn [distinctb]; [constructor|]. intros H. apply andb_true_iff in H as [H1 H2].
  constructor; [|now apply IH]. intros K. rewrite negb_true_iff in H1.
  assert (X : existsb (String.eqb x) t = true); [|congruence].
  apply existsb_exists. exists x. split; [exact K|apply String.eqb_refl].
Qed.
Lemma labels_distinct : NoDup (map lens_label names_of).
Proof. apply distinctb_NoDup. vm_compute. reflexivity. Qed.
Lemma labels_plain : forallb (fun n => no_bracket (lens_label n)) names_of = true.
Proof. vm_compute. reflexivity. Qed.
Lemma NoDup_map_inj {A B} (f : A -> B) l : NoDup (map f l) -> forall x y, In x l -> In y l -> f x = f y -> x = y.
Proof.
  induction l as [|a l IH]; intros H x y Hx Hy E; [contradiction|]. cbn [map] in H. apply NoDup_cons_iff in H as [H1 H2].
  destruct Hx as [<-|Hx], Hy as [<-|Hy]; auto.
  - exfalso. apply H1. rewrite E. now apply in_map.
  - exfalso. apply H1. rewrite <- E. now apply in_map.
Qed.
Lemma names_distinct : NoDup names_of.
Proof. exact (NoDup_map_inv lens_label _ labels_distinct). Qed.

Lemma assoc_none {A} n (l : list (string * A)) : assoc n l = None <-> ~ In n (map fst l).
Proof.
  unfold assoc. induction l as [|[k v] l IH]; cbn [find fst map In]; [tauto|].
  destruct (String.eqb_spec k n) as [->|Nk]; [split; [discriminate|tauto]|]. rewrite IH. tauto.
Qed.
Lemma assoc_filter {A} (p : string -> bool) n (l : list (string * A)) :
  assoc n (filter (fun q => p (fst q)) l) = if p n then assoc n l else None.
Proof.
  unfold assoc. induction l as [|[k v] l IH]; cbn [filter find fst]; [destruct (p n); reflexivity|].
  destruct (String.eqb_spec k n) as [->|Nk].
  - destruct (p n) eqn:P; cbn [find fst]; [rewrite String.eqb_refl; reflexivity|]. exact IH.
  - destruct (p k); cbn [find fst]; [destruct (String.eqb_spec k n); [congruence|]|]; exact IH.
Qed.
Lemma assoc_some {A} n (c : A) l : NoDup (map fst l) -> assoc n l = Some c <-> In (n, c) l.
Proof.
  unfold assoc. induction l as [|[k v] l IH]; cbn [find fst map In]; intros Nd; [split; [discriminate|tauto]|].
  apply NoDup_cons_iff in Nd as [N1 N2]. destruct (String.eqb_spec k n) as [->|Nk].
  - cbn [snd]. split; [intros [= ->]; now left|]. intros [[= ->]|H]; [reflexivity|].
    exfalso. apply N1. now apply (in_map fst) in H.
  - rewrite IH by exact N2. split; [tauto|]. intros [[= -> _]|H]; [congruence|exact H].
Qed.

Lemma loop_inv {D : Type} (step : D -> string -> D) (P : list string -> D -> Prop) :
  (forall names d n, P names d -> P (names ++ [n]) (step d n)) ->
  forall names before d, P before d -> P (before ++ names) (fold_left step names d).
Proof.
  intros Hs. induction names as [|n names IH]; intros before d H; cbn [fold_left]; [now rewrite app_nil_r|].
  replace (before ++ n :: names) with ((before ++ [n]) ++ names) by (rewrite <- app_assoc; reflexivity).
  apply IH. now apply Hs.
Qed.

Section Menu.
Variable fmt : XR -> string.
(** the entry of the lens [name], and the lens *)
Definition entry_of (name : string) (k : string) (l : shown XR) : Prop :=
  exists c b f, In (name, c) (@lenses XR _) /\ construct c None = Ok b /\ CatalogueChecks.focal b f /\
    k = (lens_label name ++ " [f=" ++ fmt (Fin f) ++ " mm]")%string /\ l = (lens_label name, b).

Lemma step_known name d : In name names_of -> exists k l, entry_of name k l /\
  snd (fold_left (try_module fmt) [thorlabs; eo] (VName name, d)) = dset d k l.
Proof.
  intros Hn. rewrite <- names_lenses in Hn. apply in_map_iff in Hn as ([n c] & En & Hin). cbn in En. subst n.
  destruct (catalogue_at_reference name c Hin) as (b & f & x & f0 & x0 & Hb & Hf & _).
  exists (entry_text fmt (lens_label name) (Fin f)), (lens_label name, b). split.
  - exists c, b, f. do 3 (split; [assumption|]). split; reflexivity.
  - assert (Ha : assoc name (@lenses XR _) = Some c).
    { apply assoc_some; [rewrite names_lenses; exact names_distinct|exact Hin]. }
    cbn [fold_left]. unfold try_module at 2. cbn [fst snd].
    unfold thorlabs. rewrite (assoc_filter (fun n => negb (is_eo n))), Ha.
    destruct (is_eo name) eqn:Eo; cbn [negb].
    + unfold try_module. cbn [fst snd]. unfold eo. rewrite (assoc_filter is_eo), Ha, Eo, Hb. cbn [fst snd].
      unfold CatalogueChecks.focal in Hf. rewrite Hf. reflexivity.
    + rewrite Hb. cbn [fst snd]. unfold CatalogueChecks.focal in Hf. rewrite Hf. reflexivity.
Qed.
Lemma step_unknown name d : ~ In name names_of ->
  snd (fold_left (try_module fmt) [thorlabs; eo] (VName name, d)) = d.
Proof.
  intros Hn. rewrite <- names_lenses in Hn. apply assoc_none in Hn. cbn [fold_left]. unfold try_module at 2. cbn [fst snd].
  unfold thorlabs. rewrite (assoc_filter (fun n => negb (is_eo n))), Hn.
  destruct (negb (is_eo name)); unfold try_module; cbn [fst snd]; unfold eo; rewrite (assoc_filter is_eo), Hn;
    destruct (is_eo name); reflexivity.
Qed.

Lemma lenses_names name c : In (name, c) (@lenses XR _) -> In name names_of.
Proof. intros H. rewrite <- names_lenses. now apply (in_map fst) in H. Qed.
Lemma entry_name name name' k l l' : entry_of name k l -> entry_of name' k l' -> name = name'.
Proof.
  intros (c & b & f & Hin & _ & _ & -> & _) (c' & b' & f' & Hin' & _ & _ & E & _).
  apply lenses_names in Hin, Hin'. pose proof labels_plain as P. rewrite forallb_forall in P.
  apply (NoDup_map_inj _ _ labels_distinct); auto. apply (before_bracket _ _ _ _ (P _ Hin) (P _ Hin') E).
Qed.
Lemma entry_fun name k l k' l' : entry_of name k l -> entry_of name k' l' -> k = k' /\ l = l'.
Proof.
  intros (c & b & f & Hin & Hb & Hf & -> & ->) (c' & b' & f' & Hin' & Hb' & Hf' & -> & ->).
  assert (Nd : NoDup (map fst (@lenses XR _))) by (rewrite names_lenses; exact names_distinct).
  apply (assoc_some name c _ Nd) in Hin. apply (assoc_some name c' _ Nd) in Hin'.
  rewrite Hin in Hin'. injection Hin' as <-. rewrite Hb in Hb'. injection Hb' as <-.
  unfold CatalogueChecks.focal in *. rewrite Hf in Hf'. injection Hf' as <-. auto.
Qed.

Definition one_step (d : dict (shown XR)) (name : string) : dict (shown XR) :=
  snd (fold_left (try_module fmt) [thorlabs; eo] (VName name, d)).
Definition good_menu (names : list string) (d : dict (shown XR)) : Prop :=
  NoDup (map fst d) /\ forall k l, In (k, l) d <-> exists name, In name names /\ entry_of name k l.
Lemma in_names_dec name : {In name names_of} + {~ In name names_of}.
Proof. apply in_dec. exact string_dec. Qed.
Lemma dset_in {V} (d : dict V) k v : NoDup (map fst d) -> forall k' v',
  In (k', v') (dset d k v) <-> (k' = k /\ v' = v) \/ (k' <> k /\ In (k', v') d).
Proof.
  intros Nd k' v'. assert (Nd' := nodup_dset d k v Nd). split.
  - intros H. apply (in_dget _ _ _ Nd') in H. rewrite dget_dset in H. destruct (String.eqb_spec k k') as [->|Nk].
    + injection H as <-. auto.
    + right. split; [congruence|]. now apply dget_in.
  - intros [[-> ->]|[Nk H]]; apply dget_in; rewrite dget_dset.
    + now rewrite String.eqb_refl.
    + destruct (String.eqb_spec k k'); [congruence|]. now apply in_dget.
Qed.
Lemma good_step names d name : good_menu names d ->
  good_menu (names ++ [name]) (one_step d name).
Proof.
  intros [Nd H]. unfold one_step. destruct (in_names_dec name) as [Hn|Hn].
  - destruct (step_known name d Hn) as (k & l & He & ->). split; [now apply nodup_dset|].
    intros k' l'. rewrite (dset_in d k l Nd). split.
    + intros [[-> ->]|[Nk Hin]].
      * exists name. split; [apply in_or_app; right; now left|exact He].
      * apply H in Hin as (n & H1 & H2). exists n. split; [apply in_or_app; now left|exact H2].
    + intros (n & Hin & En). destruct (string_dec k' k) as [->|Nk].
      * left. split; [reflexivity|]. rewrite (entry_name _ _ _ _ _ En He) in En.
        exact (proj2 (entry_fun _ _ _ _ _ En He)).
      * right. split; [exact Nk|]. apply H. exists n. split; [|exact En]. apply in_app_or in Hin as [Hin|[<-|[]]]; [exact Hin|].
        exfalso. apply Nk. exact (proj1 (entry_fun _ _ _ _ _ En He)).
  - rewrite step_unknown by exact Hn. split; [exact Nd|]. intros k l. rewrite H. split.
    + intros (n & H1 & H2). exists n. split; [apply in_or_app; now left|exact H2].
    + intros (n & Hin & En). exists n. split; [|exact En]. apply in_app_or in Hin as [Hin|[<-|[]]]; [exact Hin|].
      exfalso. apply Hn. destruct En as (c & b & f & Hc & _). exact (lenses_names _ _ Hc).
Qed.
Lemma good_loop names : good_menu names (fold_left one_step names []).
Proof.
  apply (loop_inv one_step good_menu good_step names [] []).
  split; [constructor|]. intros k l. split; [contradiction|]. intros (n & [] & _).
Qed.
Lemma build_steps names : build_lens_dict fmt names [thorlabs; eo] = fold_left one_step names [].
Proof. unfold build_lens_dict, one_step. exact eq_refl. Qed.
Lemma good_dict names : good_menu names (build_lens_dict fmt names [thorlabs; eo]).
Proof. rewrite build_steps. apply good_loop. Qed.

Lemma dset_fresh {V} (d : dict V) k v : ~ In k (map fst d) -> dset d k v = d ++ [(k, v)].
Proof.
  induction d as [|[k' v'] d IH]; cbn [dset map fst In app]; [reflexivity|]. intros H.
  destruct (String.eqb_spec k' k) as [->|Nk]; [tauto|]. rewrite IH by tauto. reflexivity.
Qed.
(** names that are classes of the two modules *)
Definition offered (names : list string) : list string := filter (fun n => existsb (String.eqb n) names_of) names.
Lemma offered_known n : existsb (String.eqb n) names_of = true <-> In n names_of.
Proof.
  split.
  - intros H. apply existsb_exists in H as (m & H1 & H2). apply String.eqb_eq in H2. now subst.
  - intros H. apply existsb_exists. exists n. split; [exact H|apply String.eqb_refl].
Qed.
Definition ordered_menu (names : list string) (d : dict (shown XR)) : Prop :=
  NoDup names -> good_menu names d /\ Forall2 (fun n k => exists l, entry_of n k l) (offered names) (map fst d).
Lemma ordered_step names d n : ordered_menu names d -> ordered_menu (names ++ [n]) (one_step d n).
Proof.
  intros H Nd. assert (Nd0 : NoDup names) by (apply NoDup_remove_1 in Nd; now rewrite app_nil_r in Nd).
  destruct (H Nd0) as [G F]. split; [now apply good_step|]. unfold one_step, offered. rewrite filter_app. cbn [filter].
  destruct (existsb (String.eqb n) names_of) eqn:E.
  - apply offered_known in E. destruct (step_known n d E) as (k & l & He & ->).
    rewrite dset_fresh.
    + rewrite map_app. apply Forall2_app; [exact F|]. constructor; [|constructor]. now exists l.
    + intros Hk. apply in_map_iff in Hk as ([k' l'] & Ek & Hk). cbn in Ek. subst k'.
      destruct G as [_ G]. apply G in Hk as (n' & Hn' & He').
      rewrite (entry_name _ _ _ _ _ He' He) in Hn'.
      apply NoDup_remove_2 in Nd. apply Nd. apply in_or_app. now left.
  - rewrite step_unknown; [rewrite app_nil_r; exact F|]. intros K. apply offered_known in K. congruence.
Qed.
Lemma ordered_loop names : ordered_menu names (fold_left one_step names []).
Proof.
  apply (loop_inv one_step ordered_menu ordered_step names [] []). intros _. split; [|constructor].
  split; [constructor|]. intros k l. split; [contradiction|]. intros (n & [] & _).
Qed.

Theorem menu_of_viewer names (d : dict (shown XR)) : d = build_lens_dict fmt names [thorlabs; eo] ->
  NoDup (menu_items d) /\
  (forall name, In name names -> In name (map fst lens_data) ->
     exists i k l, selection d i = Ok (k, l) /\ entry_of name k l) /\
  (forall i, (i < List.length (menu_items d))%nat ->
     exists name k l, In name names /\ selection d i = Ok (k, l) /\ nth_error (menu_items d) i = Some k /\ entry_of name k l) /\
  (NoDup names -> Forall2 (fun n k => exists l, entry_of n k l) (offered names) (menu_items d)).
Proof.
  intros ->. destruct (good_dict names) as [Nd H]. set (d := build_lens_dict fmt names [thorlabs; eo]) in *.
  split; [exact Nd|]. split; [|split].
  - intros name Hin Hn. destruct (step_known name [] Hn) as (k & l & He & _).
    assert (Hk : In (k, l) d) by (apply H; now exists name).
    destruct (In_nth_error (map fst d) k (in_map fst _ _ Hk)) as (i & Hi).
    exists i, k, l. split; [|exact He]. unfold selection, menu_items. rewrite Hi.
    now rewrite (in_dget _ _ _ Nd Hk).
  - intros i Hi. destruct (nth_error (menu_items d) i) as [k|] eqn:E; [|apply nth_error_None in E; lia].
    assert (Hk := nth_error_In _ _ E). apply in_map_iff in Hk as ([k' l] & Ek & Hk). cbn in Ek. subst k'.
    destruct (proj1 (H k l) Hk) as (name & H1 & H2). exists name, k, l. split; [exact H1|]. split; [|split; [reflexivity|exact H2]].
    unfold selection. rewrite E, (in_dget _ _ _ Nd Hk). reflexivity.
  - intros Ndn. unfold d. rewrite build_steps. exact (proj2 (ordered_loop names Ndn)).
Qed.
End Menu.
