(** ToConjugate, displayWithObject and the text of printClassHierarchy. *)
From Coq Require Import ZArith Reals Lra Lia List Bool String Ascii.
From Verif Require Import Base Nums Optics Group Spec MatrixProofs ElementProofs GroupProofs TraceProofs RayProofs
  CardinalProofs StrictProofs CardinalMore LawProofs Imaging Display DisplayProofs Classes ClassProofs.
Import ListNotations.
Open Scope string_scope.
Open Scope list_scope.
Open Scope R_scope.

(** ** ToConjugate *)
Theorem to_conjugate e o : canon e o -> D_ (oM o) <> 0 ->
  let d := - B_ (oM o) / D_ (oM o) in
  exists s g, ToConjugate (emat e) = Ok s /\ isSpace s = true /\ mL (emat s) = Fin d /\
    MatrixGroupE [e; s] = Ok g /\
    mA (emat g) = Fin (A_ (oM o) + d * C_ (oM o)) /\ mB (emat g) = Fin 0 /\ mC (emat g) = Fin (C_ (oM o)) /\
    mD (emat g) = Fin (D_ (oM o)) /\ mL (emat g) = Fin (oL o + d) /\
    (forall y th, mapp (mmul (free d) (oM o)) (y, th) =
       ((A_ (oM o) + d * C_ (oM o)) * y, C_ (oM o) * y + D_ (oM o) * th)).
Proof.
  intros Hc HD d. pose proof (canon_describes _ _ Hc) as D. pose proof (canon_physical _ _ Hc) as P.
  destruct (forward_spec _ _ D P HD) as (d' & c & oc & E & Dc & B0 & _ & _ & _ & Em & _).
  assert (d' = d) as ->.
  { rewrite Em in B0. cbn in B0. unfold d. apply (Rmult_eq_reg_r (D_ (oM o))); [|exact HD].
    replace (- B_ (oM o) / D_ (oM o) * D_ (oM o)) with (- B_ (oM o)) by (field; exact HD). lra. }
  unfold ToConjugate. rewrite E. cbn [bind fst]. change (nltb (nabs (Fin d)) (@ninf XR _)) with true. cbv iota.
  change (@c1 XR _) with (Fin 1). change (@ninf XR _) with PInf. rewrite Space_ok by (try exact I; lra).
  assert (chain [o]) as Ch by (split; cbn; auto).
  destruct (MatrixGroup_new_ok [e; space1 d (onb o)] [o; o_space d (onb o)] "")
    as (g & Eg & _ & _ & _ & _ & _ & HT).
  { constructor; auto. constructor; [apply mat_of_describes|constructor]. }
  { split; auto. cbn. split; auto. split; auto. apply p_space, P. }
  { discriminate. }
  exists (space1 d 1), (grp_elem g). split; [reflexivity|]. split; [reflexivity|]. split; [reflexivity|].
  split.
  { unfold MatrixGroupE. change [e; space1 d 1] with ([e] ++ [space1 d 1])%list.
    rewrite (group_adapt [e] [o] e (onb o) d "" (Forall2_cons _ _ D (Forall2_nil _)) Ch
               ltac:(discriminate) eq_refl (d_nb _ _ D)).
    cbn [app]. rewrite Eg. reflexivity. }
  specialize (HT _ _ eq_refl). apply tracks_matrix in HT as (T1 & T2 & T3 & T4 & T5).
  cbn [emat grp_elem]. rewrite T1, T2, T3, T4, T5.
  cbn [path_optic fold_left ocomp oM oL o_space free mmul A_ B_ C_ D_].
  assert (d * D_ (oM o) = - B_ (oM o)) as Hd by (unfold d; field; exact HD).
  split; [f_equal; ring|]. split; [f_equal; lra|]. split; [f_equal; ring|]. split; [f_equal; ring|].
  split; [f_equal; cbn; ring|].
  intros y th. unfold mapp. cbn [mmul free A_ B_ C_ D_ fst snd].
  f_equal; [|ring]. transitivity ((A_ (oM o) + d * C_ (oM o)) * y + (B_ (oM o) + d * D_ (oM o)) * th); [ring|].
  rewrite Hd. ring.
Qed.
Theorem to_conjugate_none e o : canon e o -> D_ (oM o) = 0 -> ToConjugate (emat e) = Err ValueError.
Proof.
  intros Hc HD. destruct (forward_none _ _ (canon_describes _ _ Hc) (canon_physical _ _ Hc) HD) as [E _].
  unfold ToConjugate. rewrite E. reflexivity.
Qed.

(** ** displayWithObject *)
Section With.
Context {T : Type} {N : Num T}.
Variables (e : @elem T) (fuel : nat) (drange : res T) (pytan : T -> T).

Lemma param_set (p : @path T) k v k' :
  designParams (p_fig (path_param p k v)) k' = if keyb k k' then v else designParams (p_fig p) k'.
Proof.
  unfold path_param, designParams. cbn [p_fig set_param f_styles f_current]. rewrite styleb_refl.
  unfold upd. reflexivity.
Qed.
Lemma flag_set (p : @path T) k v k' : flag (path_param p k v) k' = if keyb k k' then truthy v else flag p k'.
Proof. unfold flag. rewrite param_set. now destruct (keyb k k'). Qed.

Theorem with_object (p : @path T) diameter fan remove x p' l d :
  displayWithObject e fuel drange pytan p diameter fan remove = (x, p', l, d) ->
  p_height p' = diameter /\
  (forall f, d = Some f -> x = None /\ d_rays f = [Obj diameter] /\
     d_params f RemoveBlockedRaysCompletely = SBool remove /\
     d_params f LimitObjectToFieldOfView = SBool false /\ d_params f OnlyPrincipalAndAxialRays = SBool false /\
     d_object f = negb (flag p ShowFOV) /\
     (forall k, user_key k = true -> k <> RemoveBlockedRaysCompletely -> k <> LimitObjectToFieldOfView ->
        k <> OnlyPrincipalAndAxialRays -> d_params f k = designParams (p_fig p) k)) /\
  (d = None -> x <> None) /\
  (special_rays e fuel = Ok tt -> fan <> None -> exists f, d = Some f).
Proof.
  unfold displayWithObject.
  destruct (default_fan e drange pytan _) as [a|y] eqn:Ef.
  2:{ intros H. injection H as <- <- <- <-. split; [reflexivity|]. split; [discriminate|]. split; [discriminate|].
      intros _ Hf. destruct fan; [discriminate Ef|congruence]. }
  unfold display. cbn [a_limit a_only a_remove a_list a_rays app].
  set (p0 := mkPath diameter (p_fan p) (p_fig p) (p_design p)).
  set (q := path_param _ RemoveBlockedRaysCompletely _).
  assert (applyDesign e fuel q = (None, q)) as ->.
  { assert (flag q LimitObjectToFieldOfView = false) as F1 by (unfold q; rewrite !flag_set; reflexivity).
    assert (flag q OnlyPrincipalAndAxialRays = false) as F2 by (unfold q; rewrite !flag_set; reflexivity).
    unfold applyDesign. rewrite F1. cbv zeta iota. rewrite F2. reflexivity. }
  cbn [andb existsb is_obj orb].
  destruct (special_rays e fuel) as [[]|y] eqn:Es.
  2:{ intros H. injection H as <- <- <- <-. split; [reflexivity|]. split; [discriminate|]. split; [discriminate|].
      intros F. discriminate F. }
  intros H. injection H as <- <- <- <-.
  set (r := path_param q ShowObjectImage (SBool true)).
  assert (p_height (figure_flags r [Obj diameter]) = diameter) as Hh.
  { unfold figure_flags. cbn [existsb is_lamp orb]. destruct (flag r ShowFOV); reflexivity. }
  split; [exact Hh|]. split; [|split; [discriminate|eauto]].
  intros f H. injection H as <-. cbn [d_rays d_params d_object].
  assert (forall k, k <> ShowObjectImage ->
    designParams (p_fig (figure_flags r [Obj diameter])) k = designParams (p_fig q) k) as Hk.
  { intros k Nk. unfold figure_flags. cbn [existsb is_lamp orb].
    destruct (flag r ShowFOV); unfold r; rewrite ?param_set; destruct (keyb_spec ShowObjectImage k); congruence. }
  split; [reflexivity|]. split; [reflexivity|].
  split; [rewrite Hk by discriminate; unfold q; rewrite param_set; reflexivity|].
  split; [rewrite Hk by discriminate; unfold q; rewrite !param_set; reflexivity|].
  split; [rewrite Hk by discriminate; unfold q; rewrite !param_set; reflexivity|].
  split.
  - unfold figure_flags. cbn [existsb is_lamp orb].
    assert (flag r ShowFOV = flag p ShowFOV) as -> by (unfold r, q; rewrite !flag_set; reflexivity).
    destruct (flag p ShowFOV); [rewrite flag_set; reflexivity|]. unfold r. rewrite flag_set. reflexivity.
  - intros k Uk N1 N2 N3. rewrite Hk.
    + unfold q. rewrite !param_set. destruct (keyb_spec RemoveBlockedRaysCompletely k); [congruence|].
      destruct (keyb_spec OnlyPrincipalAndAxialRays k); [congruence|].
      destruct (keyb_spec LimitObjectToFieldOfView k); [congruence|]. reflexivity.
    + intros ->. discriminate Uk.
Qed.
End With.

(** ** The text of printClassHierarchy *)
Definition quote : ascii := "034"%char.
Fixpoint no_quote (s : string) : bool :=
  match s with EmptyString => true | String a t => negb (Ascii.eqb a quote) && no_quote t end.
Lemma quoted_inj : forall a a' r r', no_quote a = true -> no_quote a' = true ->
  String.append a (String quote r) = String.append a' (String quote r') -> a = a' /\ r = r'.
Proof.
  induction a as [|x a IH]; intros [|x' a'] r r' H H' E; cbn in *.
  - injection E as ->. auto.
  - injection E as <- _. apply andb_true_iff in H' as [H' _]. discriminate.
  - injection E as -> _. apply andb_true_iff in H as [H _]. discriminate.
  - injection E as -> E. apply andb_true_iff in H as [_ H]. apply andb_true_iff in H' as [_ H'].
    destruct (IH a' r r' H H' E) as [-> ->]. auto.
Qed.
Lemma edge_text_inj a b a' b' : no_quote a = true -> no_quote a' = true -> no_quote b = true -> no_quote b' = true ->
  edge_text (a, b) = edge_text (a', b') -> a = a' /\ b = b'.
Proof.
  intros H1 H2 H3 H4 E. unfold edge_text in E. cbn [fst snd String.append] in E. injection E as E.
  apply quoted_inj in E as [-> E]; [|assumption|assumption]. cbn [String.append] in E. injection E as E.
  apply quoted_inj in E as [-> _]; auto.
Qed.
Fixpoint plain_names (c : class) : bool :=
  match c with Class n subs => no_quote n && forallb plain_names subs end.
Lemma plain_edges : forall c a b, plain_names c = true -> In (a, b) (printAllChilds c) ->
  no_quote a = true /\ no_quote b = true.
Proof.
  fix IH 1. intros [n subs] a b H Hin. cbn [plain_names] in H. apply andb_true_iff in H as [Hn H].
  cbn [printAllChilds] in Hin. induction subs as [|s subs IHs]; [contradiction|].
  cbn [forallb flat_map] in *. apply andb_true_iff in H as [Hs H].
  destruct Hin as [E|Hin].
  - injection E as <- <-. split; [exact Hn|]. destruct s. cbn in *. apply andb_true_iff in Hs as [Hs _]. exact Hs.
  - apply in_app_or in Hin as [Hin|Hin]; [exact (IH s a b Hs Hin)|auto].
Qed.
Theorem printed_text c : plain_names c = true ->
  exists first last middle, printClassHierarchy c = (first ++ middle ++ last)%list /\
    first = ["# Paste this in the text field of http://www.graphviz.org"; "digraph G {"; "  rankdir=""LR"";"] /\ last = ["}"] /\
    forall a b, no_quote a = true -> no_quote b = true ->
      (In ("""" ++ a ++ """ -> """ ++ b ++ """")%string middle <->
       exists p d, (p = c \/ derived c p) /\ In d (subclasses p) /\ class_name p = a /\ class_name d = b).
Proof.
  intros Hc. eexists _, _, (map edge_text (printAllChilds c)). split; [reflexivity|].
  split; [reflexivity|]. split; [reflexivity|]. intros a b Ha Hb. rewrite <- printed_edges.
  change ("""" ++ a ++ """ -> """ ++ b ++ """")%string with (edge_text (a, b)).
  rewrite in_map_iff. split.
  - intros ([a' b'] & E & Hin). destruct (plain_edges c a' b' Hc Hin) as [P1 P2].
    apply edge_text_inj in E as [-> ->]; auto.
  - intros Hin. exists (a, b). auto.
Qed.
