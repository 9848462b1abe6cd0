(** Which warnings are shown in each mode. *)
From Coq Require Import List Bool String Arith Lia.
From Verif Require Import Base Modes.
Import ListNotations.
Open Scope list_scope.

(** ** Comparisons *)
Lemma category_eqb_eq a b : category_eqb a b = true <-> a = b.
Proof.
  destruct a, b; cbn; split; intros H; try discriminate; try reflexivity; try (apply Nat.eqb_eq in H; now subst);
    injection H as ->; apply Nat.eqb_refl.
Qed.
Lemma key_eqb_eq a b : key_eqb a b = true <-> a = b.
Proof.
  destruct a as [[t c] n], b as [[t' c'] n']. unfold key_eqb. cbn [fst snd]. rewrite !andb_true_iff, String.eqb_eq, category_eqb_eq, Nat.eqb_eq.
  split; [intros [[-> ->] ->]; reflexivity|intros [= -> -> ->]; auto].
Qed.
Lemma once_eqb_eq a b : once_eqb a b = true <-> a = b.
Proof.
  destruct a as [t c], b as [t' c']. unfold once_eqb. cbn [fst snd]. rewrite andb_true_iff, String.eqb_eq, category_eqb_eq.
  split; [intros [-> ->]; reflexivity|intros [= -> ->]; auto].
Qed.
Lemma existsb_key k ks : existsb (key_eqb k) ks = true <-> In k ks.
Proof.
  rewrite existsb_exists. split; [intros (x & H & E); apply key_eqb_eq in E; now subst|intros H; exists k; split; [auto|now apply key_eqb_eq]].
Qed.
Lemma existsb_once k ks : existsb (once_eqb k) ks = true <-> In k ks.
Proof.
  rewrite existsb_exists. split; [intros (x & H & E); apply once_eqb_eq in E; now subst|intros H; exists k; split; [auto|now apply once_eqb_eq]].
Qed.

(** ** The filters of a mode *)
(** the warnings of the package: hints, notes, other UserWarnings and deprecations *)
Definition concerned (x : warning) : bool := subclass (w_cat x) CUser || subclass (w_cat x) CDeprecation.
Definition main_action (m : mode) : action := match m with Beginner => ADefault | Expert => AOnce | Silent => AIgnore end.
Lemma mode_filters m w : exists rest, filters (set_mode m w) =
  mkFilter (main_action m) None CUser None 0 :: mkFilter (main_action m) None CDeprecation None 0 :: rest.
Proof.
  destruct m; unfold set_mode, beginnerMode, expertMode, silentMode, filterwarnings, add_filter at 1; cbn [filters];
    (match goal with |- context [filters (add_filter ?f ?w')] => unfold add_filter at 1; cbn [filters remove_first] end);
    eexists; reflexivity.
Qed.
Lemma mode_action mt m w x : concerned x = true -> action_of mt (filters (set_mode m w)) x = main_action m.
Proof.
  intros C. destruct (mode_filters m w) as (rest & ->). unfold action_of. cbn [find].
  unfold applies at 1. cbn [f_msg f_cat f_mod f_line Nat.eqb]. rewrite !andb_true_r, !andb_true_l. unfold concerned in C.
  destruct (subclass (w_cat x) CUser); [cbn; reflexivity|]. cbn [orb] in C. cbn [orb andb].
  unfold applies at 1. cbn [f_msg f_cat f_mod f_line Nat.eqb]. rewrite C. reflexivity.
Qed.

(** ** Histories *)
(** what the user and the package can do: choose a mode, add any filter, warn *)
Inductive event := EMode (m : mode) | EFilter (f : filter) | EWarn (x : warning).
Definition step mt (w : world) (e : event) : world :=
  match e with EMode m => set_mode m w | EFilter f => add_filter f w | EWarn x => fst (warn mt w x) end.
Definition start (fs : list filter) : world := mkWorld fs 1 (fun _ => (0, [])) [].
Definition run mt fs (es : list event) : world := fold_left (step mt) es (start fs).

Definition sane (w : world) : Prop := forall m, fst (registries w m) <= version w.
Lemma warn_frame mt w x : filters (fst (warn mt w x)) = filters w /\ version (fst (warn mt w x)) = version w.
Proof.
  unfold warn. repeat match goal with |- context [if ?b then _ else _] => destruct b | |- context [match ?a with AError => _ | _ => _ end] => destruct a end;
    split; reflexivity.
Qed.
Lemma sane_add f w : sane w -> sane (add_filter f w).
Proof. intros S m. cbn. specialize (S m). lia. Qed.
Lemma sane_mode m w : sane w -> sane (set_mode m w).
Proof. intros S. destruct m; cbn; unfold beginnerMode, expertMode, silentMode, filterwarnings; repeat apply sane_add; assumption. Qed.
Lemma sane_set w m ks os : sane w -> sane (set_registry w m ks os).
Proof. intros S m'. cbn. destruct (String.eqb m' m); cbn; [lia|apply S]. Qed.
Lemma sane_warn mt w x : sane w -> sane (fst (warn mt w x)).
Proof.
  intros S. unfold warn. repeat match goal with |- context [if ?b then _ else _] => destruct b | |- context [match ?a with AError => _ | _ => _ end] => destruct a end;
    cbn [fst]; now apply sane_set.
Qed.
Lemma sane_run mt fs es : sane (run mt fs es).
Proof.
  unfold run. assert (sane (start fs)) as S by (intros m; cbn; lia). revert S. generalize (start fs).
  induction es as [|e es IH]; intros w S; cbn; [auto|]. apply IH. destruct e; cbn; [now apply sane_mode|now apply sane_add|now apply sane_warn].
Qed.
Lemma version_mode m w : version (set_mode m w) = 4 + version w.
Proof. destruct m; reflexivity. Qed.
Lemma registries_mode m w : registries (set_mode m w) = registries w.
Proof. destruct m; reflexivity. Qed.
Lemma once_mode m w : once (set_mode m w) = once w.
Proof. destruct m; reflexivity. Qed.
Lemma fresh m w mo : sane w -> registry_of (set_mode m w) mo = [].
Proof.
  intros S. unfold registry_of. rewrite version_mode, registries_mode. destruct (Nat.eqb_spec (fst (registries w mo)) (4 + version w)) as [E|]; [|reflexivity].
  specialize (S mo). lia.
Qed.

(** ** What happens after a mode is chosen *)
Definition the_key (x : warning) : key := (w_text x, w_cat x, w_line x).
Definition the_once (x : warning) : string * category := (w_text x, w_cat x).
Lemma registry_set w m ks os m' : registry_of (set_registry w m ks os) m' = if String.eqb m' m then ks else registry_of w m'.
Proof. unfold registry_of, set_registry. cbn. destruct (String.eqb m' m); cbn; [now rewrite Nat.eqb_refl|reflexivity]. Qed.
Lemma concerned_key x y : w_cat x = w_cat y -> concerned x = concerned y.
Proof. unfold concerned. now intros ->. Qed.

Section After.
Variable mt : string -> string -> bool.
Variable a : action.
Variable fs : list filter.
Hypothesis Ha : forall x, concerned x = true -> action_of mt fs x = a.

Hypothesis Hm : a <> AModule /\ a <> AError /\ a <> AAlways.

(** one warning: what it adds to the registries that matters for a concerned key *)
Lemma warn_registry w x : filters w = fs -> forall m y, concerned y = true ->
  (In (the_key y) (registry_of (fst (warn mt w x)) m) <->
   In (the_key y) (registry_of w m) \/ (m = w_module x /\ the_key x = the_key y /\ a <> AIgnore)).
Proof.
  intros Hf m y Cy. unfold warn. fold (the_key x). rewrite Hf.
  destruct (existsb (key_eqb (the_key x)) (registry_of w (w_module x))) eqn:Ek.
  - cbn [fst]. rewrite registry_set. destruct (String.eqb_spec m (w_module x)) as [->|N].
    + apply existsb_key in Ek. split; [auto|]. intros [H|(_ & E & _)]; [auto|]. now rewrite <- E.
    + intuition congruence.
  - destruct (concerned x) eqn:Cx.
    + rewrite (Ha x Cx). destruct Hm as (M1 & M2 & M3). destruct a eqn:Ea; try congruence; cbn [fst];
        repeat match goal with |- context [if existsb ?f ?l then _ else _] => destruct (existsb f l) end; cbn [fst]; rewrite registry_set;
        (destruct (String.eqb_spec m (w_module x)) as [->|N]; [|intuition congruence]); cbn [In]; intuition (try discriminate).
    + assert (the_key x <> the_key y) as N by (intros E; injection E as _ E _; rewrite (concerned_key x y E) in Cx; congruence).
      assert ((w_text x, w_cat x, 0) <> the_key y) as N0 by (intros E; injection E as _ E _; rewrite (concerned_key x y E) in Cx; congruence).
      destruct (action_of mt fs x); cbn [fst];
        repeat match goal with |- context [if existsb ?f ?l then _ else _] => destruct (existsb f l) end; cbn [fst]; rewrite registry_set;
        (destruct (String.eqb_spec m (w_module x)) as [->|N']; [|intuition congruence]); cbn [In]; intuition congruence.
Qed.
Lemma warn_once w x : filters w = fs -> forall y, concerned y = true ->
  (In (the_once y) (once (fst (warn mt w x))) ->
   In (the_once y) (once w) \/ a = AOnce /\ the_once x = the_once y) /\
  (In (the_once y) (once w) -> In (the_once y) (once (fst (warn mt w x)))).
Proof.
  intros Hf y Cy. unfold warn. fold (the_once x). rewrite Hf.
  destruct (existsb (key_eqb _) _); [cbn; tauto|].
  destruct (concerned x) eqn:Cx.
  - rewrite (Ha x Cx). destruct a; cbn [fst];
      repeat match goal with |- context [if existsb ?f ?l then _ else _] => destruct (existsb f l) end; cbn; tauto.
  - assert (the_once x <> the_once y) as N by (intros E; injection E as _ E; rewrite (concerned_key x y E) in Cx; congruence).
    destruct (action_of mt fs x); cbn [fst];
      repeat match goal with |- context [if existsb ?f ?l then _ else _] => destruct (existsb f l) end; cbn; tauto.
Qed.
End After.

Definition at_place (x y : warning) : Prop := w_module y = w_module x /\ the_key y = the_key x.

Lemma outcomes_at mt : forall l w pre x post, l = pre ++ x :: post ->
  nth_error (snd (warn_all mt w l)) (List.length pre) = Some (snd (warn mt (fst (warn_all mt w pre)) x)).
Proof.
  intros l w pre. revert l w. induction pre as [|y pre IH]; intros l w x post ->; [reflexivity|].
  cbn [app warn_all List.length nth_error fst snd]. now apply IH with (post := post).
Qed.
Lemma filters_all mt : forall l w, filters (fst (warn_all mt w l)) = filters w.
Proof. induction l as [|x l IH]; intros w; cbn; [reflexivity|]. rewrite IH. apply warn_frame. Qed.

(** silent: nothing at all *)
Theorem silent_hides mt fs es l : let w := set_mode Silent (run mt fs es) in
  forall pre x post, l = pre ++ x :: post -> concerned x = true -> nth_error (snd (warn_all mt w l)) (List.length pre) = Some Hidden.
Proof.
  intros w pre x post E C. rewrite (outcomes_at mt l w pre x post E). f_equal.
  assert (action_of mt (filters (fst (warn_all mt w pre))) x = AIgnore) as A by (rewrite filters_all; now apply mode_action).
  unfold warn. rewrite A. destruct (existsb _ _); reflexivity.
Qed.
(** beginner: each warning at its first time at a place (module, line, text, kind) since the mode was chosen *)
Lemma beginner_registry mt : forall l w, (forall x, concerned x = true -> action_of mt (filters w) x = ADefault) ->
  forall m y, concerned y = true ->
  (In (the_key y) (registry_of (fst (warn_all mt w l)) m) <->
   In (the_key y) (registry_of w m) \/ exists z, In z l /\ w_module z = m /\ the_key z = the_key y).
Proof.
  induction l as [|x l IH]; intros w Ha m y Cy; cbn [warn_all fst].
  - split; [auto|]. intros [H|(z & [] & _)]; auto.
  - rewrite IH; [|intros z Cz; destruct (warn_frame mt w x) as [-> _]; auto|auto].
    rewrite (warn_registry mt ADefault (filters w) Ha ltac:(repeat split; discriminate) w x eq_refl m y Cy). split.
    + intros [[H|(-> & E & _)]|(z & Hz & E)]; [auto| |right; exists z; split; [now right|auto]].
      right. exists x. split; [now left|auto].
    + intros [H|(z & [->|Hz] & E1 & E2)]; [auto| |right; exists z; auto]. left. right. split; [auto|split; [auto|discriminate]].
Qed.
Theorem beginner_shows mt fs es l : let w := set_mode Beginner (run mt fs es) in
  forall pre x post, l = pre ++ x :: post -> concerned x = true ->
  exists o, nth_error (snd (warn_all mt w l)) (List.length pre) = Some o /\
    (o = Shown <-> ~ exists y, In y pre /\ at_place x y) /\ (o = Hidden <-> exists y, In y pre /\ at_place x y).
Proof.
  intros w pre x post E C. rewrite (outcomes_at mt l w pre x post E). eexists. split; [reflexivity|].
  assert (HA : forall z, concerned z = true -> action_of mt (filters w) z = ADefault) by (intros z Cz; now apply mode_action).
  assert (A : action_of mt (filters (fst (warn_all mt w pre))) x = ADefault) by (rewrite filters_all; auto).
  pose proof (beginner_registry mt pre w HA (w_module x) x C) as R. unfold w in R at 2. rewrite fresh in R by apply sane_run.
  unfold warn. rewrite A. fold (the_key x).
  destruct (existsb (key_eqb (the_key x)) (registry_of (fst (warn_all mt w pre)) (w_module x))) eqn:Ek.
  - apply existsb_key in Ek. apply R in Ek. destruct Ek as [[]|(z & Hz & E1 & E2)]. cbn [snd].
    assert (exists y, In y pre /\ at_place x y) as K by (exists z; split; [auto|split; auto]). split; split; intros; auto; try discriminate. tauto.
  - cbn [snd]. assert (~ exists y, In y pre /\ at_place x y) as K.
    { intros (y & Hy & E1 & E2). assert (existsb (key_eqb (the_key x)) (registry_of (fst (warn_all mt w pre)) (w_module x)) = true); [|congruence].
      apply existsb_key. apply R. right. exists y. auto. }
    split; split; intros; auto; try discriminate. tauto.
Qed.
(** expert: each text of each kind once in a session, hints included *)
Definition seen_before mt fs es (x : warning) : Prop := In (the_once x) (once (run mt fs es)).
Lemma expert_state mt : forall l w, (forall x, concerned x = true -> action_of mt (filters w) x = AOnce) ->
  (forall y m, concerned y = true -> In (the_key y) (registry_of w m) -> In (the_once y) (once w)) ->
  (forall y m, concerned y = true -> In (the_key y) (registry_of (fst (warn_all mt w l)) m) -> In (the_once y) (once (fst (warn_all mt w l)))) /\
  (forall y, concerned y = true ->
     (In (the_once y) (once (fst (warn_all mt w l))) <-> In (the_once y) (once w) \/ exists z, In z l /\ the_once z = the_once y)).
Proof.
  induction l as [|x l IH]; intros w Ha Hi; cbn [warn_all fst].
  - split; [auto|]. intros y Cy. split; [auto|]. intros [H|(z & [] & _)]; auto.
  - pose proof (warn_registry mt AOnce (filters w) Ha ltac:(repeat split; discriminate) w x eq_refl) as Rg.
    pose proof (warn_once mt AOnce (filters w) Ha ltac:(repeat split; discriminate) w x eq_refl) as On.
    assert (Sx : concerned x = true -> In (the_once x) (once (fst (warn mt w x)))).
    { intros Cx. unfold warn. fold (the_key x) (the_once x). rewrite (Ha x Cx).
      destruct (existsb (key_eqb (the_key x)) (registry_of w (w_module x))) eqn:Ek.
      - cbn. apply existsb_key in Ek. eauto.
      - destruct (existsb (once_eqb (the_once x)) (once w)) eqn:Eo; cbn; [now apply existsb_once|now left]. }
    assert (Sy : forall y, concerned y = true -> the_once x = the_once y -> In (the_once y) (once (fst (warn mt w x)))).
    { intros y Cy E. rewrite <- E. apply Sx. injection E as _ E. now rewrite (concerned_key x y E). }
    destruct (IH (fst (warn mt w x))) as [I1 I2].
    { intros z Cz. destruct (warn_frame mt w x) as [-> _]. auto. }
    { intros y m Cy H. apply (Rg m y Cy) in H. destruct H as [H|(-> & E & _)].
      - apply (On y Cy). eauto.
      - apply Sy; [auto|]. unfold the_key in E. unfold the_once. congruence. }
    split; [exact I1|]. intros y Cy. rewrite (I2 y Cy). destruct (On y Cy) as [O1 O2]. split.
    + intros [H|(z & Hz & E)]; [|right; exists z; split; [now right|auto]]. destruct (O1 H) as [H'|[_ E]]; [auto|].
      right. exists x. split; [now left|auto].
    + intros [H|(z & [->|Hz] & E)]; [auto| |right; exists z; auto]. left. now apply Sy.
Qed.
Theorem expert_shows mt fs es l : let w := set_mode Expert (run mt fs es) in
  forall pre x post, l = pre ++ x :: post -> concerned x = true ->
  exists o, nth_error (snd (warn_all mt w l)) (List.length pre) = Some o /\
    (o = Shown <-> ~ seen_before mt fs es x /\ ~ exists y, In y pre /\ the_once y = the_once x) /\ (o = Shown \/ o = Hidden).
Proof.
  intros w pre x post E C. rewrite (outcomes_at mt l w pre x post E). eexists. split; [reflexivity|].
  assert (HA : forall z, concerned z = true -> action_of mt (filters w) z = AOnce) by (intros z Cz; now apply mode_action).
  assert (A : action_of mt (filters (fst (warn_all mt w pre))) x = AOnce) by (rewrite filters_all; auto).
  destruct (expert_state mt pre w HA) as [R1 R2].
  { intros y m _. unfold w. rewrite fresh by apply sane_run. easy. }
  specialize (R2 x C). unfold w in R2 at 2. rewrite once_mode in R2. fold (seen_before mt fs es x) in R2.
  unfold warn. rewrite A. fold (the_key x) (the_once x).
  destruct (existsb (key_eqb (the_key x)) (registry_of (fst (warn_all mt w pre)) (w_module x))) eqn:Ek.
  - apply existsb_key in Ek. apply R1 in Ek; [|auto]. apply R2 in Ek. cbn [snd]. split; [|auto]. split; [discriminate|]. tauto.
  - destruct (existsb (once_eqb (the_once x)) (once (fst (warn_all mt w pre)))) eqn:Eo; cbn [snd].
    + apply existsb_once in Eo. apply R2 in Eo. split; [|auto]. split; [discriminate|tauto].
    + split; [|auto]. split; [|auto]. intros _. assert (~ In (the_once x) (once (fst (warn_all mt w pre)))) as K; [|tauto].
      intros H. apply existsb_once in H. congruence.
Qed.
(** a text is in the registry of the action "once" only when it has been shown before in the session *)
Theorem seen_before_shown mt fs es x : seen_before mt fs es x ->
  exists pre y post, es = pre ++ EWarn y :: post /\ the_once y = the_once x /\ snd (warn mt (run mt fs pre) y) = Shown.
Proof.
  unfold seen_before. revert es. refine (rev_ind _ _ _); [intros []|]. intros e es IH H.
  assert (run mt fs (es ++ [e]) = step mt (run mt fs es) e) as R by (unfold run; now rewrite fold_left_app). rewrite R in H.
  assert (In (the_once x) (once (run mt fs es)) -> exists pre y post, es ++ [e] = pre ++ EWarn y :: post /\ the_once y = the_once x /\ snd (warn mt (run mt fs pre) y) = Shown) as K.
  { intros H'. destruct (IH H') as (pre & y & post & -> & E). exists pre, y, (post ++ [e]). split; [now rewrite <- app_assoc|auto]. }
  destruct e as [m|f|y]; cbn [step] in H; [rewrite once_mode in H; auto|auto|].
  revert H. destruct (warn mt (run mt fs es) y) as [w' o] eqn:Ew. cbn [fst]. intros H.
  assert (In (the_once x) (once (run mt fs es)) \/ the_once y = the_once x /\ o = Shown) as [H'|[E1 E2]]; [|auto|].
  { revert Ew. unfold warn. fold (the_once y).
    repeat match goal with |- context [if ?b then _ else _] => destruct b | |- context [match ?a with AError => _ | _ => _ end] => destruct a end;
      intros [= <- <-]; cbn in H; auto; destruct H as [H|H]; auto. }
  exists es, y, []. split; [reflexivity|]. split; [auto|]. now rewrite Ew.
Qed.
(** the mode chosen when the package is imported *)
Theorem import_saved m env : import_mode (Some (mode_name m)) false = (m, Some (mode_name m)) /\
  fst (import_mode None false) = Beginner /\ import_mode env true = (Expert, Some "expert"%string).
Proof. destruct m; cbn; auto. Qed.
