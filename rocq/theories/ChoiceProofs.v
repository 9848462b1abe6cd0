(** What a style of figures changes (Display.v), boxes whose names are written on several lines (Visibility.v) and the
    size of a group drawn inside a group (Figures.v). *)
From Coq Require Import Reals Lra List Bool String Ascii ZArith Arith.
From Verif Require Import Base Nums Optics Group Spec MatrixProofs ElementProofs GroupProofs TraceProofs RayProofs
  CardinalProofs StrictProofs Imaging Drawing RaysModel RaysMore MiscProofs Figures FigureProofs FigurePlace
  Display DisplayProofs Scene Visibility VisibilityProofs.
Import ListNotations.
Open Scope list_scope.
Open Scope R_scope.

(** ** Styles *)
Section Styles.
Context {T : Type} {N : Num T}.
Context (e : @elem T) (fuel : nat) (drange : res T) (pytan : T -> T).
(** calls of design() that only name a style *)
Definition only_styles (o : @op T) : Prop := match o with ODesign _ kw => kw = [] | OHeight _ => True | ODisplay _ => False end.
(** the colours of the last style that exists among the names given, latest first *)
Fixpoint grey (names : list (@op T)) : bool :=
  match names with
  | [] => false
  | ODesign (Some s) _ :: r => if string_dec s "publication" then true
                               else if in_dec string_dec s ["default"; "presentation"]%string then false else grey r
  | _ :: r => grey r
  end.
Definition colour_key (k : key) : Prop := k = RayColors \/ k = ImageColor \/ k = ObjectColor.

Lemma styles_last_given st k (os : list (@op T)) : Forall only_styles os -> last_given st k os = None.
Proof.
  induction 1 as [|o os Ho _ IH]; [reflexivity|]. cbn [last_given]. destruct o as [name kw|h|a]; [|exact IH|destruct Ho].
  cbn in Ho. subst kw. destruct (valid_call name [] && _); exact IH.
Qed.
Lemma grey_style (os : list (@op T)) : Forall only_styles os ->
  grey os = match style_in_force os with Publication => true | _ => false end.
Proof.
  induction 1 as [|o os Ho _ IH]; [reflexivity|]. cbn [grey style_in_force]. destruct o as [[s|] kw|h|a]; try exact IH.
  cbn in Ho. subst kw. unfold valid_call, style_named. cbn [forallb andb].
  destruct (string_dec s "default") as [->|N1]; [reflexivity|].
  destruct (string_dec s "publication") as [->|N2]; [reflexivity|].
  destruct (string_dec s "presentation") as [->|N3]; [reflexivity|].
  destruct (in_dec string_dec s ["default"; "presentation"]%string) as [[H|[H|[]]]|_]; [congruence|congruence|exact IH].
Qed.
Lemma styles_not_display (os : list (@op T)) : Forall only_styles os -> existsb is_display os = false.
Proof. induction 1 as [|[name kw|h|a] os Ho _ IH]; cbn; auto. destruct Ho. Qed.

Lemma style_colours os a x p' l d a0 x0 p0 l0 d0 k :
  Forall only_styles os -> display e fuel drange pytan (run e fuel drange pytan os) a = (x, p', l, Some d) ->
  display e fuel drange pytan ImagingPath_new a0 = (x0, p0, l0, Some d0) -> user_key k = true ->
  (~ colour_key k -> d_params d k = d_params d0 k) /\
  (d_params d RayColors, d_params d ImageColor, d_params d ObjectColor) =
    (if grey (rev os) then (SList ["0.4"; "0.2"; "0.6"]%string, SText "0.3"%string, SText "0.1"%string)
     else (SList ["b"; "r"; "g"]%string, SText "r"%string, SText "b"%string)).
Proof.
  intros Hs E E0 U. assert (Forall only_styles (rev os)) as Hr by now apply Forall_rev.
  pose proof (styles_not_display os Hs) as Hd.
  assert (forall j, user_key j = true -> d_params d j = style_params (style_in_force (rev os)) j) as K.
  { intros j Uj. pose proof (first_figure e fuel drange pytan os a x p' l d j Hd E Uj) as F. cbv zeta in F.
    now rewrite styles_last_given in F. }
  assert (d_params d0 k = style_params Default k) as K0.
  { exact (first_figure e fuel drange pytan [] a0 x0 p0 l0 d0 k eq_refl E0 U). }
  split.
  - intros Hk. rewrite K, K0 by exact U.
    destruct (style_in_force (rev os)); try reflexivity. cbn [style_params]. unfold upd.
    destruct k; try reflexivity; exfalso; apply Hk; unfold colour_key; tauto.
  - rewrite !K by reflexivity. rewrite grey_style by exact Hr. destruct (style_in_force (rev os)); reflexivity.
Qed.
End Styles.

(** ** Boxes with names on several lines *)
(** [label] is [k] with some of its spaces written as line breaks *)
Inductive broken : string -> string -> Prop :=
| broken_end : broken "" ""
| broken_same a s t : a <> "010"%char -> broken s t -> broken (String a s) (String a t)
| broken_line s t : broken s t -> broken (String "010"%char s) (String " "%char t).
Lemma broken_joined s t : broken s t -> newlines_to_spaces s = t.
Proof.
  induction 1 as [|a s t Ha _ IH|s t _ IH]; cbn [newlines_to_spaces]; [reflexivity| |].
  - destruct (Ascii.eqb_spec a "010"%char) as [E|_]; [contradiction|now rewrite IH].
  - cbn. now rewrite IH.
Qed.
Lemma broken_click f g label k : distinct g -> shows f g -> broken label k -> filled g k ->
  exists g', onCheckBoxCallback label g = Ok g' /\ shows (fun j => if String.eqb j k then negb (f j) else f j) g'.
Proof.
  intros D S B F. pose proof (broken_joined _ _ B) as E.
  destruct (clicks_toggle [label] f g D S) as (g' & C & S' & _).
  { intros x [<-|[]]. now rewrite E. }
  cbn [clicks] in C. destruct (onCheckBoxCallback label g) as [g1|]; [|discriminate]. cbn [bind] in C. injection C as ->.
  exists g'. split; [reflexivity|]. eapply shows_ext; [|exact S']. intros j. unfold times. cbn [map count_occ]. rewrite E.
  destruct (string_dec k j) as [->|Nj].
  - rewrite String.eqb_refl. cbn. now rewrite xorb_true_r.
  - destruct (String.eqb_spec j k) as [->|_]; [congruence|]. cbn. now rewrite xorb_false_r.
Qed.

(** ** A group inside a group *)
Lemma group_size m es l x : Forall not_lens es -> (exists e, In e es /\ mdiam (emat e) <> PInf) -> mL m = Fin l ->
  exists g e d, @MatrixGroupGraphic XR _ m es (Fin x) = Ok g /\ halfHeight g = Ok (Fin (d / 2)) /\
    In e es /\ mdiam (emat e) = Fin d /\ (forall e' d', In e' es -> mdiam (emat e') = Fin d' -> d' <= d).
Proof.
  intros HF Hn EL. destruct (group_diameter GGroup m es HF Hn) as (e & d & Hi & Ed & Eg & Hm).
  assert (0 < d) as Hd.
  { rewrite Forall_forall in HF. specialize (HF _ Hi). destruct e as [k m0|]; [|destruct HF].
    cbn [emat] in Ed. destruct k; cbn in HF; rewrite ?Ed in HF; cbn in HF; tauto. }
  destruct (group_drawn m es d l x Eg Hd EL) as (g & E1 & E2). exists g, e, d. auto.
Qed.
