(** Proofs about the settings of a figure (C89, C90). *)
From Coq Require Import ZArith List Bool String.
From Verif Require Import Base Nums Optics Imaging Display.
Import ListNotations.
Open Scope string_scope.
Open Scope list_scope.

Section Proofs.
Context {T : Type} {N : Num T}.
Local Notation op := (@op T).
Local Notation path := (@path T).
Local Notation setting := (@setting T).

Lemma keyb_spec a b : reflect (a = b) (keyb a b).
Proof. unfold keyb. destruct (key_eq_dec a b); constructor; auto. Qed.
Lemma styleb_spec a b : reflect (a = b) (styleb a b).
Proof. destruct a, b; constructor; congruence. Qed.
Lemma styleb_refl a : styleb a a = true.
Proof. destruct a; reflexivity. Qed.

(** ** Specification: which value is in force *)
(** a call of design that is accepted *)
Definition valid_call (name : option string) (kw : list (key * setting)) : bool :=
  forallb (fun kv => design_key (fst kv)) kw &&
  match name with None => true | Some s => match style_named s with Some _ => true | None => false end end.

(** the style in force after a history, latest operation first *)
Fixpoint style_in_force (ops : list op) : style :=
  match ops with
  | [] => Default
  | ODesign (Some s) kw :: r =>
      if valid_call (Some s) kw then match style_named s with Some st => st | None => style_in_force r end
      else style_in_force r
  | _ :: r => style_in_force r
  end.

Definition given (k : key) (kw : list (key * setting)) : option setting :=
  option_map snd (find (fun kv => keyb (fst kv) k) (rev kw)).

(** the last value given for [k] by a call that was made (or that chose) style [st] *)
Fixpoint last_given (st : style) (k : key) (ops : list op) : option setting :=
  match ops with
  | [] => None
  | ODesign name kw :: r =>
      if valid_call name kw && styleb (style_in_force ops) st
      then match given k kw with Some v => Some v | None => last_given st k r end
      else last_given st k r
  | _ :: r => last_given st k r
  end.

(** settings made by the user with design() only *)
Definition user_key (k : key) : bool := design_key k && negb (keyb k ShowObjectImage).

Definition is_display (o : op) : bool := match o with ODisplay _ => true | _ => false end.

(** ** Setting parameters *)
Lemma set_params_styles kw : forall f : @figure T,
  f_current (fold_left (fun f kv => set_param f (fst kv) (snd kv)) kw f) = f_current f /\
  forall st k, f_styles (fold_left (fun f kv => set_param f (fst kv) (snd kv)) kw f) st k =
    if styleb st (f_current f) then match given k kw with Some v => v | None => f_styles f st k end
    else f_styles f st k.
Proof.
  induction kw as [|[k v] kw IH] using rev_ind; intros f.
  - cbn. split; [reflexivity|]. intros st k. now destruct (styleb st (f_current f)).
  - rewrite fold_left_app. cbn [fold_left fst snd]. destruct (IH f) as [C S].
    split; [exact C|]. intros st k'. cbn [set_param f_styles f_current]. rewrite C.
    unfold given. rewrite rev_app_distr. cbn [rev app find fst snd].
    destruct (styleb st (f_current f)) eqn:E.
    + unfold upd. destruct (keyb_spec k k') as [->|n]; [reflexivity|].
      rewrite S, E. reflexivity.
    + rewrite S, E. reflexivity.
Qed.

Lemma design_valid (p : path) name kw : p_design p = Method ->
  design p name kw = (if valid_call name kw then
     Ok (mkPath (p_height p) (p_fan p)
          (fold_left (fun f kv => set_param f (fst kv) (snd kv)) kw
             (mkFig (f_styles (p_fig p)) (match name with
                | Some s => match style_named s with Some st => st | None => f_current (p_fig p) end
                | None => f_current (p_fig p) end))) Method)
     else Err (if forallb (fun kv => design_key (fst kv)) kw then ValueError else TypeError)).
Proof.
  intros M. unfold design. rewrite M. unfold fig_design, valid_call.
  destruct (forallb _ kw) eqn:F; cbn [negb andb bind].
  - destruct name as [s|].
    + destruct (style_named s) as [st|]; [|reflexivity]. cbn [bind]. reflexivity.
    + cbn [bind]. destruct (p_fig p). reflexivity.
  - reflexivity.
Qed.

Section System.
Variables (e : @elem T) (fuel : nat) (drange : res T) (pytan : T -> T).
Local Notation run := (run e fuel drange pytan).
Local Notation step := (step e fuel drange pytan).
Local Notation display := (display e fuel drange pytan).

(** ** Histories before the first figure *)
Lemma before_first os : existsb is_display os = false ->
  p_design (run os) = Method /\
  f_current (p_fig (run os)) = style_in_force (rev os) /\
  forall st k, user_key k = true ->
    f_styles (p_fig (run os)) st k =
    match last_given st k (rev os) with Some v => v | None => style_params st k end.
Proof.
  induction os as [|o os IH] using rev_ind; intros ND.
  { repeat split. }
  rewrite existsb_app in ND. apply orb_false_iff in ND as [ND NO]. cbn in NO.
  destruct (IH ND) as (M & C & S). clear IH.
  unfold Display.run. rewrite fold_left_app. fold (run os). cbn [fold_left].
  rewrite rev_app_distr. cbn [rev app].
  destruct o as [name kw|h|a]; [| |discriminate]; cbn [Display.step].
  - rewrite (design_valid _ name kw M). cbn [last_given].
    destruct (valid_call name kw) eqn:V.
    + match goal with |- context [mkFig (f_styles (p_fig (run os))) ?st] => set (st0 := st) end.
      destruct (set_params_styles kw (mkFig (f_styles (p_fig (run os))) st0)) as [C1 S1].
      cbn [p_design p_fig f_current] in *.
      assert (style_in_force (ODesign name kw :: rev os) = st0) as ST.
      { cbn [style_in_force]. unfold st0. destruct name as [s|]; [|symmetry; exact C].
        rewrite V. unfold valid_call in V. destruct (style_named s); [reflexivity|].
        rewrite andb_false_r in V. discriminate. }
      split; [reflexivity|]. split; [rewrite C1; symmetry; exact ST|].
      intros st k U. rewrite S1. cbn [f_styles andb]. rewrite ST.
      destruct (styleb_spec st st0) as [->|n].
      * rewrite styleb_refl. destruct (given k kw); [reflexivity|now apply S].
      * destruct (styleb_spec st0 st); [congruence|now apply S].
    + split; [exact M|].
      split; [cbn [style_in_force]; destruct name as [s|]; [rewrite V|]; exact C|]. cbn [andb]. exact S.
  - unfold set_objectHeight. destruct (nltb h c0).
    + split; [exact M|]. split; [exact C|exact S].
    + cbn [path_param p_design p_fig set_param f_current f_styles style_in_force last_given].
      split; [exact M|]. split; [exact C|]. intros st k U. rewrite <- S by exact U.
      destruct (styleb _ _); [|reflexivity]. unfold upd.
      destruct (keyb_spec LimitObjectToFieldOfView k) as [<-|]; [discriminate|reflexivity].
Qed.

(** ** What display keeps *)
Definition same_design (p p' : path) : Prop :=
  p_design p' = p_design p /\ f_current (p_fig p') = f_current (p_fig p) /\ p_fan p' = p_fan p /\
  forall st k, user_key k = true -> f_styles (p_fig p') st k = f_styles (p_fig p) st k.
Lemma same_refl p : same_design p p.
Proof. repeat split. Qed.
Lemma same_trans p q r : same_design p q -> same_design q r -> same_design p r.
Proof.
  intros (A1 & A2 & A3 & A4) (B1 & B2 & B3 & B4).
  split; [congruence|]. split; [congruence|]. split; [congruence|].
  intros st k U. rewrite B4, A4; auto.
Qed.
Lemma same_param p k v : user_key k = false -> same_design p (path_param p k v).
Proof.
  intros U. split; [reflexivity|]. split; [reflexivity|]. split; [reflexivity|].
  intros st k' U'. cbn [path_param p_fig set_param f_styles].
  destruct (styleb _ _); [|reflexivity]. unfold upd.
  destruct (keyb_spec k k') as [<-|]; [congruence|reflexivity].
Qed.
Lemma same_height p h p' : set_objectHeight p h = Ok p' -> same_design p p' /\ p_height p' = h.
Proof.
  unfold set_objectHeight. destruct (nltb h c0); [discriminate|]. intros E. injection E as <-.
  split; [|reflexivity].
  eapply same_trans; [|apply same_param; reflexivity]. repeat split.
Qed.
Lemma same_apply p x p' : applyDesign e fuel p = (x, p') -> same_design p p'.
Proof.
  unfold applyDesign. intros H.
  match type of H with (match ?L with _ => _ end = _) => destruct L as [y q] eqn:E end.
  assert (same_design p q) as S.
  { destruct (flag p LimitObjectToFieldOfView); [|injection E as _ <-; apply same_refl].
    destruct (fieldOfView fuel e) as [fov|]; [|injection E as _ <-; apply same_refl].
    match type of E with (match ?A with _ => _ end = _) => destruct A as [p1|] eqn:A1 end;
      [|injection E as _ <-; apply same_refl].
    assert (q = p1) as -> by (destruct (imageSize fuel e false (p_height p1)); injection E as _ <-; reflexivity).
    destruct (negb (neqb fov ninf)).
    - apply (same_height p fov p1 A1).
    - injection A1 as <-. now apply same_param. }
  destruct y; [injection H as _ <-; exact S|].
  destruct (flag q OnlyPrincipalAndAxialRays); [|injection H as _ <-; exact S].
  destruct (apertureStop e) as [s|]; [|injection H as _ <-; exact S].
  destruct (st_z s); [destruct (principalRay fuel e) as [[r|]|]|]; injection H as _ <-; auto;
    eapply same_trans; [exact S|now apply same_param|exact S|now apply same_param].
Qed.

Lemma same_flags p l : same_design p (figure_flags p l) /\ p_height (figure_flags p l) = p_height p /\
  p_fan (figure_flags p l) = p_fan p.
Proof.
  unfold figure_flags. set (q := if existsb is_lamp l then _ else p).
  assert (same_design p q /\ p_height q = p_height p /\ p_fan q = p_fan p) as (A & B & C).
  { unfold q. destruct (existsb is_lamp l); (split; [|split; reflexivity]);
      [now apply same_param|apply same_refl]. }
  destruct (flag q ShowFOV); [|auto]. split; [|auto].
  eapply same_trans; [exact A|now apply same_param].
Qed.

Definition callers (a : @args T) : list shown :=
  match a_list a with Some l => l | None => [] end ++ match a_rays a with Some r => [r] | None => [] end.

(** what display does, in one statement *)
Lemma display_facts p a x p' l d : display p a = (x, p', l, d) ->
  exists q, same_design p q /\ p_height p' = p_height q /\
  (match d with
   | None => x <> None /\ p' = q /\ (l = callers a \/ (existsb is_obj (callers a) = false /\ l = callers a ++ [Obj (p_height q)]))
   | Some w => x = None /\ p_fig p' = Figure_new /\ p_design p' = Dict (designParams (p_fig q)) /\
       p_fan p' = p_fan q /\
       d_params w = designParams (p_fig q) /\ d_rays w = l /\
       l = callers a ++ (if existsb is_obj (callers a) then [] else [Obj (p_height q)]) /\
       (existsb is_obj (callers a) = false -> exists v, default_fan e drange pytan q = Ok v)
   end).
Proof.
  unfold Display.display. intros H.
  set (p1 := match a_limit a with Some b => path_param p LimitObjectToFieldOfView (SBool b) | None => p end) in *.
  set (p2 := match a_only a with Some b => path_param p1 OnlyPrincipalAndAxialRays (SBool b) | None => p1 end) in *.
  set (p3 := path_param p2 RemoveBlockedRaysCompletely (SBool (a_remove a))) in *.
  assert (same_design p p1) as S1
    by (unfold p1; destruct (a_limit a); [now apply same_param|apply same_refl]).
  assert (same_design p p2) as S2
    by (eapply same_trans; [exact S1|unfold p2; destruct (a_only a); [now apply same_param|apply same_refl]]).
  assert (same_design p p3) as S3 by (eapply same_trans; [exact S2|now apply same_param]).
  assert (match a_rays a with
          | Some r => match a_list a with Some l => l | None => [] end ++ [r]
          | None => match a_list a with Some l => l | None => [] end
          end = callers a) as EL.
  { unfold callers. destruct (a_rays a); [reflexivity|now rewrite app_nil_r]. }
  rewrite EL in H. clear EL.
  destruct (applyDesign e fuel p3) as [x4 p4] eqn:E4.
  pose proof (same_trans _ _ _ S3 (same_apply _ _ _ E4)) as S4.
  destruct x4 as [x4|].
  { injection H as <- <- <- <-. exists p4. split; [exact S4|]. split; [reflexivity|].
    split; [discriminate|]. split; [reflexivity|now left]. }
  set (em := match callers a with [] => true | _ => false end) in *.
  set (p5 := if em then path_param p4 ShowFOV (SBool (flag p4 OnlyPrincipalAndAxialRays)) else p4) in *.
  assert (same_design p p5) as S5
    by (eapply same_trans; [exact S4|unfold p5; destruct em; [now apply same_param|apply same_refl]]).
  match type of H with (match ?A with _ => _ end = _) => destruct A as [u|] eqn:A1 end.
  2:{ injection H as <- <- <- <-. exists p5. split; [exact S5|]. split; [reflexivity|].
      split; [discriminate|]. split; [reflexivity|now left]. }
  clear A1 u.
  destruct (existsb is_obj (callers a)) eqn:EO.
  - set (p6 := path_param p5 ShowObjectImage (SBool true)) in *.
    assert (same_design p p6) as S6 by (eapply same_trans; [exact S5|now apply same_param]).
    destruct (special_rays e fuel) as [u|x7].
    2:{ injection H as <- <- <- <-. exists p6. split; [exact S6|]. split; [reflexivity|].
        split; [discriminate|]. split; [reflexivity|now left]. }
    injection H as <- <- <- <-. exists (figure_flags p6 (callers a)).
    split.
    { eapply same_trans; [exact S6|]. apply same_flags. }
    cbn [p_height p_fig p_design d_params d_rays]. split; [reflexivity|]. split; [reflexivity|].
    split; [reflexivity|]. split; [reflexivity|]. split; [reflexivity|]. split; [reflexivity|]. split; [reflexivity|].
    split; [now rewrite app_nil_r|discriminate].
  - destruct (default_fan e drange pytan p5) as [v|x6] eqn:EF; cbn [bind] in H.
    2:{ injection H as <- <- <- <-. exists p5. split; [exact S5|]. split; [reflexivity|].
        split; [discriminate|]. split; [reflexivity|now left]. }
    destruct (special_rays e fuel) as [u|x7].
    2:{ injection H as <- <- <- <-. exists p5. split; [exact S5|]. split; [reflexivity|].
        split; [discriminate|]. split; [reflexivity|]. right. auto. }
    injection H as <- <- <- <-.
    set (l := callers a ++ [Obj (p_height p5)]).
    assert (same_design p (figure_flags p5 l) /\ p_height (figure_flags p5 l) = p_height p5 /\
            p_fan (figure_flags p5 l) = p_fan p5) as (S7 & EH & EFn).
    { destruct (same_flags p5 l) as (A1 & A2 & A3). split; [|auto]. eapply same_trans; [exact S5|exact A1]. }
    exists (figure_flags p5 l). split; [exact S7|].
    cbn [p_height p_fig p_design d_params d_rays]. split; [reflexivity|]. split; [reflexivity|].
    split; [reflexivity|]. split; [reflexivity|]. split; [reflexivity|]. split; [reflexivity|]. split; [reflexivity|].
    split; [now rewrite EH|]. intros _. exists v. unfold default_fan in *. now rewrite EFn.
Qed.

(** ** C89: the first figure uses what the user asked for *)
Theorem first_figure os a x p' l d k :
  existsb is_display os = false -> display (run os) a = (x, p', l, Some d) -> user_key k = true ->
  let st := style_in_force (rev os) in
  d_params d k = match last_given st k (rev os) with Some v => v | None => style_params st k end.
Proof.
  intros ND E U st. destruct (before_first os ND) as (_ & C & S).
  destruct (display_facts _ _ _ _ _ _ E) as (q & (_ & C' & _ & S') & _ & _ & _ & _ & _ & -> & _).
  unfold designParams. rewrite C', C, S', S by exact U. reflexivity.
Qed.

(** ** C89: a figure makes the path forget *)
Lemma step_dict p o : (exists m, p_design p = Dict m) -> exists m, p_design (step p o) = Dict m.
Proof.
  intros (m & M). destruct o as [name kw|h|a]; cbn [Display.step].
  - unfold design. rewrite M. eauto.
  - destruct (set_objectHeight p h) as [q|] eqn:E; [|eauto].
    destruct (same_height _ _ _ E) as ((-> & _) & _). eauto.
  - destruct (display p a) as [[[x p'] l] d] eqn:E. cbn [fst snd].
    destruct (display_facts _ _ _ _ _ _ E) as (q & (D & _) & _ & F).
    destruct d as [w|]; [destruct F as (_ & _ & -> & _); eauto|].
    destruct F as (_ & -> & _). rewrite D. eauto.
Qed.
Definition defaults (p : path) : Prop :=
  f_current (p_fig p) = Default /\
  forall k, user_key k = true -> f_styles (p_fig p) Default k = default_params k.
Lemma step_defaults p o : (exists m, p_design p = Dict m) -> defaults p -> defaults (step p o).
Proof.
  intros (m & M) (C & D).
  assert (forall q, same_design p q -> defaults q) as K.
  { intros q (_ & C' & _ & S'). split; [congruence|]. intros k U. rewrite S' by exact U. auto. }
  destruct o as [name kw|h|a]; cbn [Display.step].
  - unfold design. rewrite M. split; auto.
  - destruct (set_objectHeight p h) as [q|] eqn:E; [|split; auto].
    apply K. apply (same_height _ _ _ E).
  - destruct (display p a) as [[[x p'] l] d] eqn:E. cbn [fst snd].
    destruct (display_facts _ _ _ _ _ _ E) as (q & S & _ & F).
    destruct d as [w|]; [destruct F as (_ & F & _)|destruct F as (_ & -> & _); now apply K].
    unfold defaults. rewrite F. split; [reflexivity|]. intros k _. reflexivity.
Qed.

Theorem forgotten p a x p' l d os :
  display p a = (x, p', l, Some d) ->
  (forall name kw, design (fold_left step os p') name kw = Err TypeError) /\
  (forall a2 x2 p2 l2 d2 k, display (fold_left step os p') a2 = (x2, p2, l2, Some d2) ->
     user_key k = true -> d_params d2 k = default_params k).
Proof.
  intros E. destruct (display_facts _ _ _ _ _ _ E) as (q & _ & _ & _ & F & M & _).
  assert (forall os, (exists m, p_design (fold_left step os p') = Dict m) /\
                     defaults (fold_left step os p')) as K.
  { induction os0 as [|o os0 IH] using rev_ind.
    - cbn. split; [eauto|]. unfold defaults. rewrite F. split; [reflexivity|]. intros k _. reflexivity.
    - rewrite fold_left_app. cbn [fold_left]. destruct IH as [I1 I2].
      split; [now apply step_dict|now apply step_defaults]. }
  destruct (K os) as ((m & I1) & (C & I2)). split.
  - intros name kw. unfold design. now rewrite I1.
  - intros a2 x2 p2 l2 d2 k E2 U.
    destruct (display_facts _ _ _ _ _ _ E2) as (q2 & (_ & C2 & _ & S2) & _ & _ & _ & _ & _ & -> & _).
    unfold designParams. rewrite C2, C, S2 by exact U. now apply I2.
Qed.

(** ** C89: object height *)
Lemma flag_param (p : path) k v k' : flag (path_param p k v) k' = if keyb k k' then truthy v else flag p k'.
Proof.
  unfold flag, designParams. cbn [path_param p_fig set_param f_styles f_current].
  rewrite styleb_refl. unfold upd. destruct (keyb k k'); reflexivity.
Qed.

(** the height after applyDesign *)
Lemma apply_height (p : path) x p' : applyDesign e fuel p = (x, p') ->
  p_height p' = p_height p \/
  (flag p LimitObjectToFieldOfView = true /\ exists f, fieldOfView fuel e = Ok f /\ p_height p' = f /\
     neqb f ninf = false).
Proof.
  unfold applyDesign. intros H.
  match type of H with (match ?L with _ => _ end = _) => destruct L as [y q] eqn:E end.
  assert (p_height p' = p_height q) as EQ.
  { destruct y; [injection H as _ <-; reflexivity|].
    destruct (flag q OnlyPrincipalAndAxialRays); [|injection H as _ <-; reflexivity].
    destruct (apertureStop e) as [s|]; [|injection H as _ <-; reflexivity].
    destruct (st_z s); [destruct (principalRay fuel e) as [[r|]|]|]; injection H as _ <-; reflexivity. }
  rewrite EQ. clear EQ H.
  destruct (flag p LimitObjectToFieldOfView) eqn:FL; [|injection E as _ <-; now left].
  destruct (fieldOfView fuel e) as [fov|] eqn:EF; [|injection E as _ <-; now left].
  destruct (neqb fov ninf) eqn:EI; cbn [negb] in E.
  - left. destruct (imageSize _ _ _ _); injection E as _ <-; reflexivity.
  - destruct (set_objectHeight p fov) as [p1|] eqn:E1; [|injection E as _ <-; now left].
    right. split; [reflexivity|]. exists fov. split; [reflexivity|].
    assert (q = p1) as -> by (destruct (imageSize fuel e false (p_height p1)); injection E as _ <-; reflexivity).
    split; [apply (same_height _ _ _ E1)|exact EI].
Qed.

(** the limit flag seen by applyDesign *)
Definition limit_seen (p : path) (a : @args T) : bool :=
  match a_limit a with Some b => b | None => flag p LimitObjectToFieldOfView end.

Lemma display_height p a x p' l d : display p a = (x, p', l, d) ->
  p_height p' = p_height p \/
  (limit_seen p a = true /\ exists f, fieldOfView fuel e = Ok f /\ p_height p' = f /\ neqb f ninf = false).
Proof.
  unfold Display.display. intros H.
  set (p1 := match a_limit a with Some b => path_param p LimitObjectToFieldOfView (SBool b) | None => p end) in *.
  set (p2 := match a_only a with Some b => path_param p1 OnlyPrincipalAndAxialRays (SBool b) | None => p1 end) in *.
  set (p3 := path_param p2 RemoveBlockedRaysCompletely (SBool (a_remove a))) in *.
  assert (p_height p3 = p_height p) as H3.
  { unfold p3, p2, p1. destruct (a_only a), (a_limit a); reflexivity. }
  assert (flag p3 LimitObjectToFieldOfView = limit_seen p a) as F3.
  { unfold p3, limit_seen. rewrite flag_param. cbn [keyb key_eq_dec].
    unfold p2. destruct (a_only a); [rewrite flag_param|]; unfold p1; destruct (a_limit a);
      try rewrite flag_param; reflexivity. }
  destruct (applyDesign e fuel p3) as [x4 p4] eqn:E4.
  assert (p_height p' = p_height p4) as H4.
  { destruct x4 as [x4|]; [injection H as _ <- _ _; reflexivity|].
    match type of H with (match ?A with _ => _ end = _) => destruct A as [u|] eqn:A1 end;
      [|injection H as _ <- _ _; match goal with |- context [if ?b then _ else _] => destruct b end; reflexivity].
    match type of H with (match ?A with _ => _ end = _) => destruct A as [[l6 p6]|] eqn:A2 end;
      [|injection H as _ <- _ _; match goal with |- context [if ?b then _ else _] => destruct b end; reflexivity].
    assert (p_height p6 = p_height p4) as H6.
    { destruct (existsb is_obj _); [injection A2 as _ <-|
        match type of A2 with (bind ?D _ = _) => destruct D; [|discriminate] end; cbn [bind] in A2; injection A2 as _ <-];
      match goal with |- context [if ?b then _ else _] => destruct b end; reflexivity. }
    destruct (special_rays e fuel); injection H as _ <- _ _; [|exact H6].
    cbn [p_height]. rewrite <- H6. unfold figure_flags.
    destruct (existsb is_lamp _); destruct (flag _ ShowFOV); reflexivity. }
  rewrite H4, <- H3, <- F3. exact (apply_height _ _ _ E4).
Qed.

(** the flag after operations of the user *)
Lemma design_flag p os : Forall (fun o => exists name kw, o = ODesign name kw /\ name = None) os ->
  flag (fold_left step os p) LimitObjectToFieldOfView = flag p LimitObjectToFieldOfView /\
  p_height (fold_left step os p) = p_height p.
Proof.
  revert p. induction os as [|o os IH]; intros p F; [split; reflexivity|].
  inversion F as [|? ? (name & kw & -> & ->) F']; subst. cbn [fold_left].
  destruct (IH (step p (ODesign None kw)) F') as [A B]. rewrite A, B. clear A B IH F F'.
  cbn [Display.step]. unfold design. destruct (p_design p) eqn:M; [|split; reflexivity].
  unfold fig_design. destruct (forallb _ kw) eqn:V; cbn [negb bind]; [|split; reflexivity].
  split; [|reflexivity]. unfold flag, designParams. cbn [p_fig].
  destruct (set_params_styles kw (p_fig p)) as [C S]. rewrite C, S, styleb_refl.
  assert (given LimitObjectToFieldOfView kw = None) as ->; [|reflexivity].
  unfold given. destruct (find _ (rev kw)) as [[k v]|] eqn:E; [|reflexivity].
  apply find_some in E as [I E]. apply in_rev in I. cbn [fst] in E.
  destruct (keyb_spec k LimitObjectToFieldOfView) as [->|]; [|discriminate].
  rewrite forallb_forall in V. specialize (V _ I). discriminate.
Qed.

Theorem height_shown p h os a x p' l d :
  nltb h c0 = false -> Forall (fun o => exists name kw, o = ODesign name kw /\ name = None) os ->
  a_limit a <> Some true ->
  display (fold_left step os (step p (OHeight h))) a = (x, p', l, Some d) ->
  p_height p' = h /\
  (existsb is_obj (callers a) = false -> d_rays d = callers a ++ [Obj h]).
Proof.
  intros Hh F La E.
  destruct (design_flag (step p (OHeight h)) os F) as [FL HH].
  assert (p_height (step p (OHeight h)) = h /\
          flag (step p (OHeight h)) LimitObjectToFieldOfView = false) as [H1 H2].
  { cbn [Display.step]. unfold set_objectHeight. rewrite Hh. split; [reflexivity|].
    rewrite flag_param. reflexivity. }
  assert (p_height p' = h) as HP.
  { destruct (display_height _ _ _ _ _ _ E) as [A|(A & _)]; [congruence|].
    unfold limit_seen in A. rewrite FL, H2 in A. destruct (a_limit a) as [[]|]; congruence. }
  split; [exact HP|]. intros EO.
  destruct (display_facts _ _ _ _ _ _ E) as (q & _ & Hq & _ & _ & _ & _ & _ & Hd & Hl & _).
  rewrite Hd, Hl, EO. congruence.
Qed.

(** the last accepted height of a history *)
Fixpoint last_height (ops : list op) : T :=
  match ops with
  | [] => nofZ 10
  | OHeight h :: r => if nltb h c0 then last_height r else h
  | _ :: r => last_height r
  end.
Theorem height_without_field os f : fieldOfView fuel e = Ok f -> neqb f ninf = true ->
  p_height (run os) = last_height (rev os).
Proof.
  intros EF EI. induction os as [|o os IH] using rev_ind; [reflexivity|].
  unfold Display.run. rewrite fold_left_app. fold (run os). cbn [fold_left].
  rewrite rev_app_distr. cbn [rev app last_height].
  destruct o as [name kw|h|a]; cbn [Display.step].
  - rewrite <- IH. unfold design. destruct (p_design (run os)); [|reflexivity].
    destruct (fig_design _ _ _); reflexivity.
  - unfold set_objectHeight. destruct (nltb h c0); [exact IH|reflexivity].
  - rewrite <- IH. destruct (display (run os) a) as [[[x p'] l] d] eqn:E. cbn [fst snd].
    destruct (display_height _ _ _ _ _ _ E) as [A|(_ & f' & E' & _ & C)]; [exact A|].
    congruence.
Qed.

(** a field is imposed again at the second figure *)
Theorem height_lost p a1 x1 p1 l1 d1 a2 x2 p2 l2 d2 f :
  fieldOfView fuel e = Ok f -> neqb f ninf = false -> nltb f c0 = false ->
  display p a1 = (x1, p1, l1, Some d1) -> a_limit a2 = None ->
  display p1 a2 = (x2, p2, l2, Some d2) ->
  p_height p2 = f /\ (existsb is_obj (callers a2) = false -> d_rays d2 = callers a2 ++ [Obj f]).
Proof.
  intros EF EI F0 E1 L2 E2.
  destruct (display_facts _ _ _ _ _ _ E1) as (q1 & _ & _ & _ & FN & _).
  assert (p_height p2 = f) as HP.
  { assert (flag p1 LimitObjectToFieldOfView = true) as FL.
    { unfold flag. rewrite FN. reflexivity. }
    clear E1 FN q1. unfold Display.display in E2. rewrite L2 in E2.
    set (q2 := match a_only a2 with Some b => path_param p1 OnlyPrincipalAndAxialRays (SBool b) | None => p1 end) in *.
    set (q3 := path_param q2 RemoveBlockedRaysCompletely (SBool (a_remove a2))) in *.
    assert (flag q3 LimitObjectToFieldOfView = true) as F3.
    { unfold q3, q2. rewrite flag_param. cbn. destruct (a_only a2); [rewrite flag_param|]; exact FL. }
    destruct (applyDesign e fuel q3) as [x4 p4] eqn:E4.
    destruct x4 as [x4|]; [discriminate|].
    assert (p_height p4 = f) as H4.
    { unfold applyDesign in E4. rewrite F3, EF, EI in E4. cbn [negb] in E4.
      assert (set_objectHeight q3 f = Ok (path_param (mkPath f (p_fan q3) (p_fig q3) (p_design q3))
                LimitObjectToFieldOfView (SBool false))) as ES by (unfold set_objectHeight; now rewrite F0).
      rewrite ES in E4.
      destruct (imageSize _ _ _ _); [|discriminate].
      match type of E4 with (if ?b then _ else _) = _ => destruct b end;
        [|injection E4 as <-; reflexivity].
      destruct (apertureStop e) as [s|]; [|discriminate].
      destruct (st_z s); [destruct (principalRay fuel e) as [[r|]|]|]; try discriminate; injection E4 as <-; reflexivity. }
    match type of E2 with (match ?A with _ => _ end = _) => destruct A as [u|] eqn:A1 end; [|discriminate].
    match type of E2 with (match ?A with _ => _ end = _) => destruct A as [[l6 p6]|] eqn:A2 end; [|discriminate].
    assert (p_height p6 = p_height p4) as H6.
    { destruct (existsb is_obj _); [injection A2 as _ <-|
        match type of A2 with (bind ?D _ = _) => destruct D; [|discriminate] end; cbn [bind] in A2; injection A2 as _ <-];
      match goal with |- context [if ?b then _ else _] => destruct b end; reflexivity. }
    destruct (special_rays e fuel); [|discriminate]. injection E2 as _ <- _ _.
    cbn [p_height]. rewrite <- H4, <- H6. unfold figure_flags.
    destruct (existsb is_lamp _); destruct (flag _ ShowFOV); reflexivity. }
  split; [exact HP|]. intros EO.
  destruct (display_facts _ _ _ _ _ _ E2) as (q & _ & Hq & _ & _ & _ & _ & _ & Hd & Hl & _).
  rewrite Hd, Hl, EO. congruence.
Qed.

(** ** C90: the caller's list *)
Theorem list_only_grows p a x p' l d : display p a = (x, p', l, d) ->
  exists rest, l = callers a ++ rest /\ (rest = [] \/ rest = [Obj (p_height p')]) /\
    (existsb is_obj (callers a) = true -> rest = []) /\
    (d <> None -> existsb is_obj (callers a) = false -> rest = [Obj (p_height p')]).
Proof.
  intros E. destruct (display_facts _ _ _ _ _ _ E) as (q & _ & Hq & F). rewrite Hq.
  destruct d as [w|].
  - destruct F as (_ & _ & _ & _ & _ & _ & -> & _). destruct (existsb is_obj (callers a)).
    + exists []. repeat split; auto. discriminate.
    + exists [Obj (p_height q)]. repeat split; auto; discriminate.
  - destruct F as (_ & _ & [->|[EO ->]]).
    + exists []. rewrite app_nil_r. repeat split; auto. congruence.
    + exists [Obj (p_height q)]. repeat split; auto; congruence.
Qed.

(** ** C90: a path without length *)
Theorem no_length p a x p' l d : neqb (mL (emat e)) c0 = true -> p_fan p = None ->
  existsb is_obj (callers a) = false -> display p a = (x, p', l, d) -> x <> None /\ d = None.
Proof.
  intros EL EF EO E. destruct (display_facts _ _ _ _ _ _ E) as (q & (_ & _ & Fq & _) & _ & F).
  destruct d as [w|]; [|destruct F as (Hx & _); auto]. exfalso.
  destruct F as (_ & _ & _ & _ & _ & _ & _ & F). destruct (F EO) as (v & K).
  unfold default_fan in K. rewrite Fq, EF in K. destruct drange as [r|]; [|discriminate].
  cbn [bind] in K. destruct (pdiv r c2); [|discriminate]. cbn [bind] in K.
  unfold pdiv in K. rewrite EL in K. discriminate.
Qed.
End System.
End Proofs.
