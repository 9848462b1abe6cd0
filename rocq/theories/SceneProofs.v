(** Proofs about what a figure shows (C93, C94). *)
From Coq Require Import ZArith List Bool String Ascii Permutation Lia.
From Verif Require Import Base Optics Group Imaging Scene.
Import ListNotations.
Open Scope string_scope.
Open Scope list_scope.

(** ** Specification *)
(** the elements of a list that no later element hides *)
Fixpoint kept {A} (hides : A -> A -> bool) (l : list A) : list A :=
  match l with
  | [] => []
  | s :: t => if existsb (hides s) t then kept hides t else s :: kept hides t
  end.

Lemma kept_map {A B} (f : A -> B) hides l :
  kept hides (map f l) = map f (kept (fun s t => hides (f s) (f t)) l).
Proof.
  induction l as [|s t IH]; [reflexivity|]. cbn [map kept]. rewrite IH.
  replace (existsb (hides (f s)) (map f t)) with (existsb (fun t0 => hides (f s) (f t0)) t).
  - now destruct (existsb _ t).
  - clear. induction t; cbn; congruence.
Qed.
Lemma existsb_same {A} (f g : A -> bool) l : (forall x, In x l -> f x = g x) -> existsb f l = existsb g l.
Proof. induction l; cbn; intros H; [reflexivity|]. rewrite H by auto. rewrite IHl by auto. reflexivity. Qed.
Lemma kept_same {A} (h1 h2 : A -> A -> bool) l :
  (forall s t, In s l -> In t l -> h1 s t = h2 s t) -> kept h1 l = kept h2 l.
Proof.
  induction l as [|s t IH]; cbn [kept]; intros H; [reflexivity|].
  rewrite (existsb_same (h1 s) (h2 s) t) by (intros; apply H; cbn; auto).
  rewrite IH by (intros; apply H; cbn; auto). reflexivity.
Qed.
Lemma kept_all {A} (hides : A -> A -> bool) l :
  ForallOrdPairs (fun s t => hides s t = false) l -> kept hides l = l.
Proof.
  induction 1 as [|s t H HF IH]; [reflexivity|]. cbn [kept]. rewrite IH.
  replace (existsb (hides s) t) with false; [reflexivity|]. symmetry.
  clear -H. induction H as [|x t H]; [reflexivity|]. cbn. now rewrite H.
Qed.
Lemma kept_incl {A} (hides : A -> A -> bool) l : incl (kept hides l) l.
Proof.
  induction l as [|s t IH]; [apply incl_refl|]. cbn [kept].
  destruct (existsb _ t); [apply incl_tl, IH|]. intros x [->|H]; [now left|right; now apply IH].
Qed.

(** ** Writing to a dictionary of lists *)
Section Ops.
Context {V : Type}.
Inductive op := Put (k : string) (v : list V) | Ext (k : string) (v : list V).
Definition op_key o := match o with Put k _ | Ext k _ => k end.
Definition op_val o := match o with Put _ v | Ext _ v => v end.
Definition get0 (d : dict (list V)) k := match dget d k with Some v => v | None => [] end.
Definition run1 (d : dict (list V)) o :=
  match o with Put k v => dset d k v | Ext k v => dset d k (get0 d k ++ v) end.
Definition covers (o later : op) : bool :=
  match later with Put k _ => String.eqb (op_key o) k | Ext _ _ => false end.
Definition overwritten (k : string) (l : list op) : bool := existsb (fun o => covers (Ext k []) o) l.
Definition without (d : dict (list V)) (l : list op) : dict (list V) :=
  filter (fun kv => negb (overwritten (fst kv) l)) d.

Lemma keys_dset (d : dict (list V)) k v : NoDup (map fst d) -> NoDup (map fst (dset d k v)) /\
  (forall k', In k' (map fst (dset d k v)) -> k' = k \/ In k' (map fst d)).
Proof.
  induction d as [|[k' v'] d IH]; cbn [dset map fst]; intros H.
  - split; [repeat constructor; intros []|]. intros k0 [<-|[]]. now left.
  - inversion H as [|? ? H1 H2]; subst. destruct (String.eqb k' k) eqn:E.
    + cbn [map fst]. split; [exact H|]. intros k0 Hk. now right.
    + destruct (IH H2) as (A & B). cbn [map fst]. split.
      * constructor; [|exact A]. intros Hk. apply B in Hk as [->|Hk]; [|contradiction].
        rewrite String.eqb_refl in E. discriminate.
      * intros k0 [<-|Hk]; [right; now left|]. destruct (B _ Hk); [now left|right; now right].
Qed.
Lemma dget_none (d : dict (list V)) k : dget d k = None -> ~ In k (map fst d).
Proof.
  induction d as [|[k' v'] d IH]; cbn [dget map fst]; intros H; [intros []|].
  destruct (String.eqb k' k) eqn:E; [discriminate|]. apply String.eqb_neq in E.
  intros [->|Hk]; [congruence|]. now apply IH.
Qed.

(** writing to a key that is overwritten later changes nothing of what is left *)
Lemma without_covered d k v l : overwritten k l = true -> without (dset d k v) l = without d l.
Proof.
  intros H. unfold without. induction d as [|[k' v'] d IH]; cbn [dset filter fst].
  - now rewrite H.
  - destruct (String.eqb k' k) eqn:E; cbn [filter fst].
    + apply String.eqb_eq in E. subst k'. now rewrite H.
    + now rewrite IH.
Qed.
(** writing to a key that is not *)
Lemma without_kept d k v l : NoDup (map fst d) -> overwritten k l = false ->
  Permutation (all_of (without (dset d k v) l)) (all_of (without d (Put k v :: l)) ++ v).
Proof.
  intros ND H. unfold without, all_of. induction d as [|[k' v'] d IH].
  - cbn [dset filter fst]. rewrite H. cbn [negb flat_map snd app]. now rewrite app_nil_r.
  - inversion ND as [|? ? N1 N2]; subst. cbn [dset]. destruct (String.eqb k' k) eqn:E.
    + apply String.eqb_eq in E. subst k'. cbn [filter fst]. rewrite H. cbn [negb flat_map snd].
      replace (overwritten k (Put k v :: l)) with true
        by (unfold overwritten; cbn; now rewrite String.eqb_refl). cbn [negb].
      replace (filter (fun kv => negb (overwritten (fst kv) (Put k v :: l))) d)
        with (filter (fun kv => negb (overwritten (fst kv) l)) d); [apply Permutation_app_comm|].
      cbn [map fst] in N1. clear -N1. induction d as [|[k' v'] d IH]; [reflexivity|]. cbn [filter fst map] in *.
      replace (overwritten k' (Put k v :: l)) with (overwritten k' l).
      * rewrite IH by (intros Hk; apply N1; now right). reflexivity.
      * unfold overwritten. cbn. destruct (String.eqb k' k) eqn:E; [|reflexivity].
        apply String.eqb_eq in E. subst. exfalso. apply N1. now left.
    + cbn [filter fst].
      replace (overwritten k' (Put k v :: l)) with (overwritten k' l) by (unfold overwritten; cbn; now rewrite E).
      destruct (overwritten k' l); cbn [negb flat_map snd]; [now apply IH|].
      rewrite <- app_assoc. apply Permutation_app_head. now apply IH.
Qed.
Lemma without_ext d k v l : NoDup (map fst d) -> overwritten k l = false ->
  Permutation (all_of (without (dset d k (get0 d k ++ v)) l)) (all_of (without d l) ++ v).
Proof.
  intros ND H. unfold without, all_of. induction d as [|[k' v'] d IH].
  - cbn [dset filter fst get0 dget]. rewrite H. cbn [negb flat_map snd app]. now rewrite app_nil_r.
  - inversion ND as [|? ? N1 N2]; subst. cbn [dset get0 dget]. unfold get0 in *. cbn [dget].
    destruct (String.eqb k' k) eqn:E.
    + apply String.eqb_eq in E. subst k'. cbn [filter fst]. rewrite H. cbn [negb flat_map snd].
      rewrite <- !app_assoc. apply Permutation_app_head, Permutation_app_comm.
    + cbn [filter fst]. destruct (overwritten k' l); cbn [negb flat_map snd]; [now apply IH|].
      rewrite <- app_assoc. apply Permutation_app_head. now apply IH.
Qed.

Lemma run_all : forall l d, NoDup (map fst d) ->
  Permutation (all_of (fold_left run1 l d)) (all_of (without d l) ++ flat_map op_val (kept covers l)).
Proof.
  induction l as [|o l IH]; intros d ND.
  - cbn [fold_left kept flat_map]. rewrite app_nil_r. unfold without.
    replace (filter _ d) with d; [reflexivity|]. clear. induction d as [|x d IH]; [reflexivity|]. cbn in *. now rewrite <- IH.
  - cbn [fold_left]. assert (NoDup (map fst (run1 d o))) as ND1 by (destruct o; now apply keys_dset).
    rewrite (IH _ ND1). cbn [kept].
    assert (existsb (covers o) l = overwritten (op_key o) l) as -> by (destruct o; reflexivity).
    destruct (overwritten (op_key o) l) eqn:E.
    + apply Permutation_app_tail. destruct o as [k v|k v]; cbn [run1 op_key] in *.
      * rewrite without_covered by assumption. unfold without. erewrite filter_ext; [reflexivity|].
        intros [k' v']. cbn [fst]. unfold overwritten in *. cbn.
        destruct (String.eqb k' k) eqn:Ek; [|reflexivity]. apply String.eqb_eq in Ek. subst k'. now rewrite E.
      * rewrite without_covered by assumption. unfold without. erewrite filter_ext; [reflexivity|].
        intros [k' v']. reflexivity.
    + cbn [flat_map]. rewrite app_assoc. apply Permutation_app_tail. destruct o as [k v|k v]; cbn [run1 op_key op_val] in *.
      * now apply without_kept.
      * rewrite without_ext by assumption. apply Permutation_app_tail. unfold without. erewrite filter_ext; [reflexivity|].
        intros [k' v']. reflexivity.
Qed.
End Ops.
Arguments op : clear implicits.

(** ** Keys *)
(** the name of a class has no space in it *)
Definition identifier (name : string) : Prop := forall a b, name <> (a ++ " " ++ b)%string.

Lemma append_assoc (a b c : string) : ((a ++ b) ++ c)%string = (a ++ (b ++ c))%string.
Proof. induction a; cbn; congruence. Qed.
Lemma append_inj a b c : (a ++ b)%string = (a ++ c)%string -> b = c.
Proof. induction a; cbn; intros H; [exact H|]. injection H. auto. Qed.
Lemma append_inj_r (a b : string) c : (a ++ String c "")%string = (b ++ String c "")%string -> a = b.
Proof.
  revert b. induction a as [|x a IH]; intros [|y b]; cbn; intros H; try reflexivity.
  - destruct b; discriminate.
  - destruct a; discriminate.
  - injection H as -> H. f_equal. now apply IH.
Qed.

Section Lines.
Context {T : Type} {NT : Num T} {Line : Type}.
Variables fmt1 fmt2 : T -> string.
Local Notation source := (@source T Line).

(** [later] takes the place of [s] among the lines: both are objects (or both lamps) away from the entrance whose
    positions are written in the same way *)
Definition hides_lines (s later : source) : bool :=
  match s_kind s, s_kind later with
  | SObject, SObject =>
      negb (neqb (s_z s) c0) && negb (neqb (s_z later) c0) && String.eqb (fmt1 (s_z s)) (fmt1 (s_z later))
  | SLamp, SLamp =>
      negb (neqb (s_z s) c0) && negb (neqb (s_z later) c0) && String.eqb (fmt2 (s_z s)) (fmt2 (s_z later))
  | _, _ => false
  end.

Definition line_op (s : source) : op Line :=
  match s_kind s with
  | SObject =>
      if neqb (s_z s) c0 then Ext kObjectImageKey (s_lines s) else Put (kObjectImageZKey fmt1 (s_z s)) (s_lines s)
  | SLamp => if neqb (s_z s) c0 then Ext kLampKey (s_lines s) else Put (kLampZKey fmt2 (s_z s)) (s_lines s)
  | SOther name => Ext name (s_lines s)
  end.

Lemma has_dset {V} (d : dict V) k v k' : dget d k' <> None -> dget (dset d k v) k' <> None.
Proof.
  induction d as [|[k0 v0] d IH]; cbn [dget dset]; [congruence|].
  destruct (String.eqb k0 k) eqn:E; cbn [dget]; destruct (String.eqb k0 k') eqn:E'; auto; discriminate.
Qed.

Lemma lines_run : forall l d, dget d kObjectImageKey <> None -> dget d kLampKey <> None ->
  setLinesFromRaysList fmt1 fmt2 d l = Ok (fold_left run1 (map line_op l) d).
Proof.
  induction l as [|s l IH]; intros d H1 H2; [reflexivity|]. cbn [setLinesFromRaysList map fold_left].
  assert (add_lines fmt1 fmt2 d s = Ok (run1 d (line_op s))) as E.
  { unfold add_lines, line_op, dextend. destruct (s_kind s) as [| |name].
    - destruct (neqb (s_z s) c0); [|reflexivity]. cbn [run1]. unfold get0. destruct (dget d kObjectImageKey); [reflexivity|congruence].
    - destruct (neqb (s_z s) c0); [|reflexivity]. cbn [run1]. unfold get0. destruct (dget d kLampKey); [reflexivity|congruence].
    - cbn [run1]. unfold get0. now destruct (dget d name). }
  rewrite E. cbn [bind]. apply IH; destruct (line_op s); cbn [run1]; now apply has_dset.
Qed.

Lemma zkey_obj z z' : String.eqb (kObjectImageZKey fmt1 z) (kObjectImageZKey fmt1 z') = String.eqb (fmt1 z) (fmt1 z').
Proof.
  destruct (String.eqb (fmt1 z) (fmt1 z')) eqn:E.
  - apply String.eqb_eq in E. unfold kObjectImageZKey. rewrite E. apply String.eqb_refl.
  - apply String.eqb_neq in E. apply String.eqb_neq. intros H. apply E. unfold kObjectImageZKey in H.
    apply append_inj in H. now apply append_inj_r in H.
Qed.
Lemma zkey_lamp z z' : String.eqb (kLampZKey fmt2 z) (kLampZKey fmt2 z') = String.eqb (fmt2 z) (fmt2 z').
Proof.
  destruct (String.eqb (fmt2 z) (fmt2 z')) eqn:E.
  - apply String.eqb_eq in E. unfold kLampZKey. rewrite E. apply String.eqb_refl.
  - apply String.eqb_neq in E. apply String.eqb_neq. intros H. apply E. unfold kLampZKey in H.
    apply append_inj in H. now apply append_inj_r in H.
Qed.
Lemma not_identifier_obj z name : identifier name -> String.eqb name (kObjectImageZKey fmt1 z) = false.
Proof. intros H. apply String.eqb_neq. exact (H "Object/Image" ("(z=" ++ fmt1 z ++ ")")%string). Qed.
Lemma not_identifier_lamp z name : identifier name -> String.eqb name (kLampZKey fmt2 z) = false.
Proof. intros H. apply String.eqb_neq. exact (H "Lamp" ("(z=" ++ fmt2 z ++ ")")%string). Qed.

Definition named (s : source) : Prop := match s_kind s with SOther name => identifier name | _ => True end.

Lemma covers_lines s t : named s -> covers (line_op s) (line_op t) = hides_lines s t.
Proof.
  unfold named, line_op, hides_lines. intros H.
  destruct (s_kind s) as [| |name], (s_kind t) as [| |name']; destruct (neqb (s_z s) c0), (neqb (s_z t) c0);
    cbn [covers op_key negb andb]; try reflexivity; try apply zkey_obj; try apply zkey_lamp;
    try (now apply not_identifier_obj); now apply not_identifier_lamp.
Qed.

Theorem lines_drawn l : Forall named l ->
  exists d, setLinesFromRaysList fmt1 fmt2 lineGroups0 l = Ok d /\
    Permutation (all_of d) (flat_map s_lines (kept hides_lines l)).
Proof.
  intros H. rewrite lines_run by discriminate. eexists. split; [reflexivity|].
  rewrite run_all by (repeat constructor; cbn; intuition discriminate).
  replace (all_of (without lineGroups0 (map line_op l))) with (@nil Line).
  - cbn [app]. rewrite kept_map.
    rewrite (kept_same _ hides_lines l).
    + induction (kept hides_lines l) as [|s t IH]; [reflexivity|]. cbn [map flat_map].
      apply Permutation_app; [|exact IH]. unfold line_op.
      destruct (s_kind s); try destruct (neqb _ _); reflexivity.
    + intros s t Hs _. apply covers_lines. rewrite Forall_forall in H. now apply H.
  - unfold without, lineGroups0, all_of. cbn [filter fst]. repeat (destruct (negb _)); reflexivity.
Qed.

Corollary all_lines_drawn l : Forall named l -> ForallOrdPairs (fun s t => hides_lines s t = false) l ->
  exists d, setLinesFromRaysList fmt1 fmt2 lineGroups0 l = Ok d /\ Permutation (all_of d) (flat_map s_lines l).
Proof.
  intros H HF. destruct (lines_drawn l H) as (d & E & P). exists d. split; [exact E|]. now rewrite kept_all in P.
Qed.

(** ** Graphics *)
Variable g : @grp T.
Variables objectColor imageColor : string.
(** [later] takes the place of [s] among the graphics: the same, and also at the entrance *)
Definition hides_graphics (s later : source) : bool :=
  match s_kind s, s_kind later with
  | SObject, SObject =>
      if neqb (s_z s) c0 then neqb (s_z later) c0
      else negb (neqb (s_z later) c0) && String.eqb (fmt1 (s_z s)) (fmt1 (s_z later))
  | SLamp, SLamp =>
      if neqb (s_z s) c0 then neqb (s_z later) c0
      else negb (neqb (s_z later) c0) && String.eqb (fmt2 (s_z s)) (fmt2 (s_z later))
  | _, _ => false
  end.
(** what should be drawn for [s]; [images s] are its images *)
Definition pictures_of (images : source -> list (@picture T)) (s : source) : list (@picture T) :=
  match s_kind s with
  | SObject => PObject (nmul (s_yMax s) c2) (s_z s) objectColor (s_label s) :: images s
  | SLamp => [PLamp (nmul (s_yMax s) c2) (s_z s) (s_label s)]
  | SOther _ => []
  end.
Definition images_are (images : source -> list (@picture T)) (l : list source) : Prop :=
  forall s, In s l -> s_kind s = SObject ->
    graphicsOfConjugatePlanes g (nmul (s_yMax s) c2) imageColor (s_z s) = Ok (images s).

Definition graphic_op (images : source -> list (@picture T)) (s : source) : op (@picture T) :=
  match s_kind s with
  | SObject => Put (if neqb (s_z s) c0 then kObjectImageKey else kObjectImageZKey fmt1 (s_z s)) (pictures_of images s)
  | SLamp => Put (if neqb (s_z s) c0 then kLampKey else kLampZKey fmt2 (s_z s)) (pictures_of images s)
  | SOther _ => Ext kElementsKey []
  end.

Lemma dset_get {V} (d : dict V) k v : dget (dset d k v) k = Some v.
Proof.
  induction d as [|[k0 v0] d IH]; cbn [dget dset]; [now rewrite String.eqb_refl|].
  destruct (String.eqb k0 k) eqn:E; cbn [dget]; now rewrite E.
Qed.
Lemma dset_dset {V} (d : dict V) k v w : dset (dset d k v) k w = dset d k w.
Proof.
  induction d as [|[k0 v0] d IH]; cbn [dset]; [now rewrite String.eqb_refl|].
  destruct (String.eqb k0 k) eqn:E; cbn [dset]; rewrite E; [reflexivity|]. now rewrite IH.
Qed.
Lemma dset_same {V} (d : dict V) k v : dget d k = Some v -> dset d k v = d.
Proof.
  induction d as [|[k0 v0] d IH]; cbn [dset dget]; [discriminate|].
  destruct (String.eqb k0 k) eqn:E; [now intros [= ->]|]. intros H. now rewrite IH.
Qed.

Lemma graphics_run images : forall l d, images_are images l -> dget d kElementsKey <> None ->
  setGraphicsFromRaysList fmt1 fmt2 g true true objectColor imageColor d l =
    Ok (fold_left run1 (map (graphic_op images) l) d).
Proof.
  induction l as [|s l IH]; intros d H H1; [reflexivity|]. cbn [setGraphicsFromRaysList map fold_left].
  assert (add_graphics fmt1 fmt2 g true true objectColor imageColor d s = Ok (run1 d (graphic_op images s))) as E.
  { unfold add_graphics, graphic_op, pictures_of. destruct (s_kind s) as [| |name] eqn:Ek.
    - rewrite dset_get, (H s) by (cbn; auto). cbn [bind]. unfold dextend. rewrite dset_get, dset_dset. reflexivity.
    - reflexivity.
    - cbn [run1]. unfold get0. destruct (dget d kElementsKey) eqn:Ed; [|congruence]. rewrite app_nil_r.
      now rewrite (dset_same d kElementsKey _ Ed). }
  rewrite E. cbn [bind]. apply IH; [intros s' Hs'; apply H; now right|].
  destruct (graphic_op images s); cbn [run1]; now apply has_dset.
Qed.

Theorem graphics_drawn images l : images_are images l ->
  exists d, setGraphicsFromRaysList fmt1 fmt2 g true true objectColor imageColor graphicGroups0 l = Ok d /\
    Permutation (all_of d) (flat_map (pictures_of images) (kept hides_graphics l)).
Proof.
  intros H. rewrite (graphics_run images) by (auto; discriminate). eexists. split; [reflexivity|].
  rewrite run_all by (repeat constructor; cbn; intuition discriminate).
  replace (all_of (without graphicGroups0 (map (graphic_op images) l))) with (@nil (@picture T)).
  - cbn [app]. rewrite kept_map. rewrite (kept_same _ hides_graphics l).
    + induction (kept hides_graphics l) as [|s t IH]; [reflexivity|]. cbn [map flat_map].
      apply Permutation_app; [|exact IH]. unfold graphic_op, pictures_of. destruct (s_kind s); reflexivity.
    + intros s t _ _. unfold graphic_op, hides_graphics.
      destruct (s_kind s) as [| |name], (s_kind t) as [| |name']; destruct (neqb (s_z s) c0), (neqb (s_z t) c0);
        cbn [covers op_key negb andb]; try reflexivity; try apply zkey_obj; try apply zkey_lamp.
  - unfold without, graphicGroups0, all_of. cbn [filter fst]. repeat (destruct (negb _)); reflexivity.
Qed.

(** hiding the object and showing its images: KeyError away from the entrance *)
Theorem images_only (s : source) : s_kind s = SObject -> neqb (s_z s) c0 = false ->
  setGraphicsFromRaysList fmt1 fmt2 g false true objectColor imageColor graphicGroups0 [s] = Err KeyError.
Proof.
  intros Hk Hz. cbn [setGraphicsFromRaysList]. unfold add_graphics. rewrite Hk, Hz. reflexivity.
Qed.

(** the colour asked for in ObjectRays(color=...) changes nothing *)
Theorem color_ignored showObject showImages d (s : source) c :
  add_graphics fmt1 fmt2 g showObject showImages objectColor imageColor d
    (mkSource (s_kind s) (s_z s) (s_yMax s) c (s_label s) (s_lines s)) =
  add_graphics fmt1 fmt2 g showObject showImages objectColor imageColor d s.
Proof. reflexivity. Qed.

(** a group that is hidden at first is that of the principal rays, or the objects at the entrance when asked or
    when there is a lamp *)
Theorem hidden_groups showFOV showObjectImage (l : list source) key :
  group_visible showFOV showObjectImage l key = false <->
  (key = kPrincipalKey /\ showFOV = false) \/
  (key = kObjectImageKey /\ (showFOV = true \/ showObjectImage = false \/ exists s, In s l /\ s_kind s = SLamp)).
Proof.
  unfold group_visible.
  assert (existsb is_lamp l = true <-> exists s, In s l /\ s_kind s = SLamp) as EL.
  { rewrite existsb_exists. split; intros (s & Hs & K); exists s; split; auto; unfold is_lamp in *.
    - now destruct (s_kind s). - now rewrite K. }
  rewrite <- EL. destruct (String.eqb_spec key kPrincipalKey) as [E1|E1], (String.eqb_spec key kObjectImageKey) as [E2|E2];
    try (subst; discriminate);
    destruct showFOV, showObjectImage, (existsb is_lamp l); cbn; intuition congruence.
Qed.
End Lines.
