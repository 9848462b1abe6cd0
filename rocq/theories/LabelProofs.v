(** Which points of interest a figure marks, and where. *)
From Coq Require Import ZArith NArith List Bool String Ascii Reals Lra Lia Floats DecimalString DecimalN.
From Verif Require Import Base Nums Optics Spec MatrixProofs ElementProofs CardinalProofs Drawing Figures FigurePlace Format Scene
  SceneProofs CardinalMore FormatProofs Labels.
Import ListNotations.
Open Scope string_scope.
Open Scope list_scope.

(** ** Labels at the same place *)
Lemma dget_dset {V} (d : dict V) k v k' : dget (dset d k v) k' = if String.eqb k k' then Some v else dget d k'.
Proof.
  induction d as [|(a, w) d IH]; cbn [dset dget]; [reflexivity|].
  destruct (String.eqb_spec a k) as [->|Na]; cbn [dget].
  - destruct (String.eqb k k'); reflexivity.
  - rewrite IH. destruct (String.eqb_spec a k') as [->|Na']; [|reflexivity].
    destruct (String.eqb_spec k k'); [congruence|reflexivity].
Qed.
Lemma keys_of_dset {V} (d : dict V) k v : forall x, In x (map fst (dset d k v)) <-> x = k \/ In x (map fst d).
Proof.
  induction d as [|(a, w) d IH]; intros x; cbn [dset map fst]; [cbn; intuition congruence|].
  destruct (String.eqb_spec a k) as [->|Na]; cbn [map fst In]; [intuition congruence|]. rewrite IH. intuition congruence.
Qed.
Lemma nodup_dset {V} (d : dict V) k v : NoDup (map fst d) -> NoDup (map fst (dset d k v)).
Proof.
  induction d as [|(a, w) d IH]; intros Nd; cbn [dset map fst]; [constructor; [easy|constructor]|].
  cbn [map fst] in Nd. inversion Nd as [|? ? Na Nd']; subst.
  destruct (String.eqb_spec a k) as [->|Nk]; cbn [map fst]; constructor; auto.
  intros H. apply keys_of_dset in H. destruct H; [congruence|auto].
Qed.
Lemma dget_in {V} (d : dict V) k v : dget d k = Some v -> In (k, v) d.
Proof.
  induction d as [|(a, w) d IH]; cbn [dget]; [discriminate|]. destruct (String.eqb_spec a k) as [->|].
  - intros [= ->]. now left.
  - intros H. right. auto.
Qed.
Lemma in_dget {V} (d : dict V) k v : NoDup (map fst d) -> In (k, v) d -> dget d k = Some v.
Proof.
  induction d as [|(a, w) d IH]; intros Nd H; [easy|]. cbn [map fst] in Nd. inversion Nd as [|? ? Na Nd']; subst. cbn [dget].
  destruct H as [[= -> ->]|H]; [now rewrite String.eqb_refl|]. destruct (String.eqb_spec a k) as [->|]; [|auto].
  exfalso. apply Na. now apply (in_map fst) in H.
Qed.
Lemma concat_snoc sep x : forall l, l <> [] -> String.concat sep (l ++ [x]) = (String.concat sep l ++ sep ++ x)%string.
Proof.
  induction l as [|a l IH]; [easy|]. intros _. destruct l as [|b l]; [reflexivity|].
  change (String.concat sep ((a :: b :: l) ++ [x])) with (a ++ sep ++ String.concat sep ((b :: l) ++ [x]))%string.
  rewrite IH by discriminate. change (String.concat sep (a :: b :: l)) with (a ++ sep ++ String.concat sep (b :: l))%string.
  now rewrite !append_assoc.
Qed.
Definition here (k : string) (l : list (string * string)) : list string :=
  map snd (filter (fun p => String.eqb (fst p) k) l).
Lemma here_snoc k l p : here k (l ++ [p]) = here k l ++ (if String.eqb (fst p) k then [snd p] else []).
Proof. unfold here. rewrite filter_app, map_app. cbn. now destruct (String.eqb (fst p) k). Qed.
Lemma gather_spec : forall l, NoDup (map fst (gather l)) /\
  forall k, dget (gather l) k = match here k l with [] => None | _ => Some (String.concat ", " (here k l)) end.
Proof.
  induction l as [|p l [IN IH]] using rev_ind; [split; [constructor|reflexivity]|].
  unfold gather in *. rewrite fold_left_app. cbn [fold_left]. set (d := fold_left add_label l []) in *. split.
  - unfold add_label. destruct (dget d (fst p)); now apply nodup_dset.
  - intros k. rewrite here_snoc. unfold add_label. destruct p as [a lab]. cbn [fst snd].
    destruct (String.eqb_spec a k) as [->|Na].
    + rewrite (IH k). destruct (here k l) as [|b t] eqn:E; rewrite dget_dset, String.eqb_refl; [reflexivity|].
      assert (b :: t <> []) as Ne by discriminate. rewrite (concat_snoc ", " lab (b :: t) Ne).
      destruct ((b :: t) ++ [lab]) eqn:E'; [now apply app_eq_nil in E'|]. reflexivity.
    + rewrite app_nil_r. destruct (dget d a); rewrite dget_dset; destruct (String.eqb_spec a k); try congruence; apply IH.
Qed.
Lemma here_in k lab l : In lab (here k l) <-> In (k, lab) l.
Proof.
  unfold here. rewrite in_map_iff. split.
  - intros ((a, b) & <- & H). apply filter_In in H. destruct H as [H E]. cbn in E. apply String.eqb_eq in E. cbn. now subst.
  - intros H. exists (k, lab). split; [reflexivity|]. apply filter_In. split; [auto|cbn; apply String.eqb_refl].
Qed.
Theorem gather_complete l k lab : In (k, lab) l -> exists labs, In (k, String.concat ", " labs) (gather l) /\ In lab labs.
Proof.
  intros H. destruct (gather_spec l) as [_ G]. exists (here k l). apply here_in in H. split; [|auto].
  apply dget_in. rewrite G. destruct (here k l); [easy|reflexivity].
Qed.
Theorem gather_sound l k text : In (k, text) (gather l) ->
  exists labs, labs <> [] /\ text = String.concat ", " labs /\ forall lab, In lab labs -> In (k, lab) l.
Proof.
  intros H. destruct (gather_spec l) as [Nd G]. apply in_dget in H; [|auto]. rewrite G in H.
  exists (here k l). destruct (here k l) eqn:E; [discriminate|]. rewrite <- E in *. injection H as <-.
  split; [rewrite E; discriminate|]. split; [reflexivity|]. intros lab Hl. now apply here_in.
Qed.

(** ** The points of the elements of a path *)
Section Path.
Context {T : Type} {NT : Num T}.
Variable fmt3 : T -> string.
Local Notation drawable := (drawable T).
(** where the element after [pre] starts *)
Definition after (pre : list drawable) (z : T) : T := fold_left (fun z d => nadd z (drawable_L d)) pre z.
(** how many of the elements have points of interest *)
Fixpoint having_points (pre : list drawable) (z : T) : nat :=
  match pre with
  | [] => O
  | d :: t => (match pointsOfInterest d z with Ok (_ :: _) => 1 | _ => 0 end) + having_points t (nadd z (drawable_L d))
  end%nat.

Lemma entries_of_in many i : forall l es, entries_of fmt3 many i l = Ok es ->
  forall k lab', In (k, lab') es <-> exists F lab, In (Some F, lab) l /\ k = fmt3 F /\ lab' = (if many then numbered lab i else lab).
Proof.
  induction l as [|([F|], lab) l IH]; intros es H k lab'; cbn [entries_of] in H; try discriminate.
  - injection H as <-. split; [easy|]. intros (? & ? & [] & _).
  - destruct (entries_of fmt3 many i l) as [r|]; [|discriminate]. injection H as <-. cbn [In]. rewrite (IH r eq_refl). split.
    + intros [[= <- <-]|(F' & lab0 & H & E)]; [exists F, lab; split; [now left|auto]|exists F', lab0; split; [now right|auto]].
    + intros (F' & lab0 & [[= -> ->]|H] & -> & ->); [now left|right; exists F', lab0; auto].
Qed.
Lemma entries_in many : forall ds z i es, entries fmt3 many ds z i = Ok es ->
  forall k lab', In (k, lab') es <->
    exists pre d post l F lab, ds = pre ++ d :: post /\ pointsOfInterest d (after pre z) = Ok l /\ In (Some F, lab) l /\
      k = fmt3 F /\ lab' = (if many then numbered lab (S (i + having_points pre z)) else lab).
Proof.
  induction ds as [|d ds IH]; intros z i es H k lab'; cbn [entries] in H.
  - injection H as <-. split; [easy|]. intros (pre & d & post & _ & _ & _ & E & _). now destruct pre.
  - destruct (pointsOfInterest d z) as [l|] eqn:El; [|discriminate]. cbn [bind] in H. cbv zeta in H.
    set (j := match l with [] => i | _ => S i end) in H.
    destruct (entries_of fmt3 many j l) as [a|] eqn:Ea; [|discriminate]. cbn [bind] in H.
    destruct (entries fmt3 many ds (nadd z (drawable_L d)) j) as [r|] eqn:Er; [|discriminate]. injection H as <-.
    assert (Hj : forall pre, (j + having_points pre (nadd z (drawable_L d)) = i + having_points (d :: pre) z)%nat).
    { intros pre. cbn [having_points]. rewrite El. unfold j. destruct l; lia. }
    rewrite in_app_iff, (entries_of_in many j l a Ea), (IH _ _ _ Er). split.
    + intros [(F & lab & HF & -> & ->)|(pre & d' & post & l' & F & lab & -> & E & HF & -> & ->)].
      * exists [], d, ds, l, F, lab. split; [reflexivity|]. split; [exact El|]. split; [auto|]. split; [auto|].
        cbn [having_points]. destruct many; [|auto]. apply f_equal. unfold j. destruct l; [easy|lia].
      * exists (d :: pre), d', post, l', F, lab. split; [reflexivity|]. split; [exact E|]. split; [auto|]. split; [auto|].
        now rewrite <- Hj.
    + intros (pre & d' & post & l' & F & lab & E & Ep & HF & -> & ->). destruct pre as [|d0 pre].
      * injection E as <- <-. left. cbn [after fold_left] in Ep. assert (l' = l) as -> by congruence. exists F, lab.
        split; [auto|]. split; [auto|]. destruct many; [|auto]. apply f_equal. cbn [having_points]. unfold j. destruct l; [easy|lia].
      * injection E as <- ->. right. exists pre, d', post, l', F, lab. split; [auto|]. split; [exact Ep|]. split; [auto|]. split; [auto|].
        now rewrite Hj.
Qed.

(** what is written for a point of the element after [pre] in the path [ds] *)
Definition written (ds pre : list drawable) (label : string) : string :=
  if several ds then numbered label (S (having_points pre c0)) else label.
Definition is_space (d : drawable) : Prop := exists m, d = DLens (LLeaf KSpace m).
Lemma space_physical d : is_physical d = false <-> is_space d.
Proof.
  split; [|intros (m & ->); reflexivity].
  destruct d as [l| |]; cbn; try discriminate; destruct l; cbn; try discriminate; destruct k; try discriminate; intros _; eexists; reflexivity.
Qed.
(** a number is written exactly when the path has two elements that are not spaces *)
Theorem written_names ds pre label :
  ((exists a d b d' c, ds = a ++ d :: b ++ d' :: c /\ ~ is_space d /\ ~ is_space d') ->
     written ds pre label = numbered label (S (having_points pre c0))) /\
  ((forall a d b d' c, ds = a ++ d :: b ++ d' :: c -> is_space d \/ is_space d') -> written ds pre label = label).
Proof.
  unfold written, several. split.
  - intros (a & d & b & d' & c & -> & Hd & Hd').
    assert (forall x, ~ is_space x -> is_physical x = true) as P.
    { intros x Hx. destruct (is_physical x) eqn:E; [reflexivity|]. apply space_physical in E. easy. }
    rewrite filter_app, app_length. cbn [filter]. rewrite (P d Hd). rewrite filter_app. cbn [filter]. rewrite (P d' Hd').
    cbn [List.length]. rewrite app_length. cbn [List.length].
    replace (Nat.ltb 1 _) with true by (symmetry; apply Nat.ltb_lt; lia). reflexivity.
  - intros H. replace (Nat.ltb 1 _) with false; [reflexivity|]. symmetry. apply Nat.ltb_ge.
    induction ds as [|x ds IH]; [cbn; lia|]. cbn [filter].
    assert (forall a d b d' c, ds = a ++ d :: b ++ d' :: c -> is_space d \/ is_space d') as H'.
    { intros a d b d' c ->. exact (H (x :: a) d b d' c eq_refl). }
    specialize (IH H'). destruct (is_physical x) eqn:Ex; [|exact IH]. cbn [List.length].
    replace (filter is_physical ds) with (@nil drawable); [cbn; lia|]. symmetry.
    assert (forall y, In y ds -> is_physical y = false) as Hy.
    { intros y Hy. apply in_split in Hy as (b & c & ->). destruct (H [] x b y c eq_refl) as [Hx|Hs].
      - apply space_physical in Hx. congruence.
      - apply space_physical. exact Hs. }
    clear - Hy. induction ds as [|y ds IH]; [reflexivity|]. cbn [filter]. rewrite (Hy y) by (left; reflexivity). apply IH. intros z Hz. apply Hy. now right.
Qed.
(** the element after [pre] has a point of interest at F *)
Definition has_point (ds pre : list drawable) (F : T) (label : string) : Prop :=
  exists d post l, ds = pre ++ d :: post /\ pointsOfInterest d (after pre c0) = Ok l /\ In (Some F, label) l.
Theorem points_spec parse show ds ps : points fmt3 parse show ds = Ok ps ->
  exists marks, ps = map (fun p => (parse (fst p), if show then Some (snd p) else None)) marks /\
    NoDup (map fst marks) /\
    (forall pre F label, has_point ds pre F label ->
       exists labs, In (fmt3 F, String.concat ", " labs) marks /\ In (written ds pre label) labs) /\
    (forall k text, In (k, text) marks -> exists labs, labs <> [] /\ text = String.concat ", " labs /\
       forall lab', In lab' labs -> exists pre F label, has_point ds pre F label /\ k = fmt3 F /\ lab' = written ds pre label).
Proof.
  unfold points. destruct (entries fmt3 (several ds) ds c0 0) as [es|] eqn:E; [|discriminate]. intros H. injection H as <-.
  pose proof (entries_in _ _ _ _ _ E) as In_. exists (gather es). split; [reflexivity|]. split; [apply gather_spec|]. split.
  - intros pre F label (d & post & l & -> & Ep & HF). apply gather_complete. apply In_.
    exists pre, d, post, l, F, label. split; [auto|]. split; [auto|]. split; [auto|]. split; reflexivity.
  - intros k text H. apply gather_sound in H. destruct H as (labs & Ne & -> & Hl). exists labs. split; [auto|]. split; [auto|].
    intros lab' Hin. apply Hl, In_ in Hin. destruct Hin as (pre & d & post & l & F & label & -> & Ep & HF & -> & ->).
    exists pre, F, label. split; [exists d, post, l; auto|]. split; reflexivity.
Qed.
(** there are no marks at all only when a catalogue lens has no power *)
Lemma entries_of_ok many i : forall l, Forall (fun p => fst p <> None) l -> exists es, entries_of fmt3 many i l = Ok es.
Proof.
  induction l as [|([F|], lab) l IH]; intros Fa; cbn [entries_of]; [eauto| |]; inversion Fa as [|? ? H Fa']; subst.
  - destruct (IH Fa') as (r & ->). cbn [bind]. eauto.
  - now cbn in H.
Qed.
Lemma entries_ok many : forall ds z i, (forall pre d post, ds = pre ++ d :: post ->
    exists l, pointsOfInterest d (after pre z) = Ok l /\ Forall (fun p => fst p <> None) l) ->
  exists es, entries fmt3 many ds z i = Ok es.
Proof.
  induction ds as [|d ds IH]; intros z i H; cbn [entries]; [eauto|].
  destruct (H [] d ds eq_refl) as (l & E & F). cbn [after fold_left] in E. rewrite E. cbn [bind]. cbv zeta.
  destruct (entries_of_ok many (match l with [] => i | _ => S i end) l F) as (a & ->). cbn [bind].
  destruct (IH (nadd z (drawable_L d)) (match l with [] => i | _ => S i end)) as (r & ->); [|cbn [bind]; eauto].
  intros pre d' post ->. apply (H (d :: pre) d' post). reflexivity.
Qed.
End Path.

(** ** Focal points *)
Open Scope R_scope.
Lemma after_fin : forall pre ls z, Forall2 has_length pre ls -> after pre (Fin z) = Fin (z + run ls).
Proof.
  induction pre as [|d pre IH]; intros ls z F; inversion F as [|? a ? ls' Ha F']; subst; cbn [after fold_left run].
  - apply f_equal. lra.
  - unfold has_length in Ha. rewrite Ha. change (nadd (Fin z) (Fin a)) with (Fin (z + a)). specialize (IH ls' (z + a) F').
    unfold after in IH. rewrite IH. apply f_equal. lra.
Qed.
(** f1 and f2 are the focal points of the optics o placed at z *)
Definition focal (o : optic) (z f1 f2 : R) : Prop :=
  (forall th, snd (mapp (mmul (oM o) (free (z - f1))) (0, th)) = 0) /\
  (forall y, fst (mapp (mmul (free (f2 - (z + oL o))) (oM o)) (y, 0)) = 0).
(** the matrix of an element that marks its focal points *)
Definition focusing (d : drawable XR) : option (@mat XR) :=
  match d with
  | DLens (LLeaf (KLens _ _ | KCurvedMirror | KThickLens _ _ _ | KSlab _ _ _) m) => Some m
  | DLens (LCompound m _ | LDoublet m _ _ _ _ _ _ _ _ | LSinglet m _ _ _ _ _) => Some m
  | _ => None
  end.
Definition catalogue (d : drawable XR) : bool :=
  match d with DLens (LCompound _ _ | LDoublet _ _ _ _ _ _ _ _ _ | LSinglet _ _ _ _ _ _) => true | _ => false end.
Lemma focusing_points d m o z : focusing d = Some m -> describes m o -> physical o ->
  (power o -> exists f1 f2, pointsOfInterest d (Fin z) = Ok [(Some (Fin f1), "$F_f$"); (Some (Fin f2), "$F_b$")] /\ focal o z f1 f2) /\
  (~ power o -> pointsOfInterest d (Fin z) = Ok (if catalogue d then [(None, "$F_f$"); (None, "$F_b$")] else [])).
Proof.
  intros Hd D P. split; intros W.
  - destruct (focus_spec m o z D P W) as (f1 & f2 & E & A & B). exists f1, f2. split; [|split; auto].
    destruct d as [[[]| | |]| |]; cbn in Hd; try discriminate; injection Hd as ->; cbn [pointsOfInterest];
      unfold focal_points, compound_points; rewrite E; reflexivity.
  - pose proof (focus_none m o z D W) as E.
    destruct d as [[[]| | |]| |]; cbn in Hd; try discriminate; injection Hd as ->; cbn [pointsOfInterest catalogue];
      unfold focal_points, compound_points; rewrite E; reflexivity.
Qed.
(** every lens, mirror and catalogue lens of a figure has both its focal points marked *)
Theorem focal_points_marked fmt3 parse show pre d post ls m o ps : Forall2 has_length pre ls ->
  focusing d = Some m -> describes m o -> physical o -> power o ->
  points fmt3 parse show (pre ++ d :: post) = Ok ps ->
  exists f1 f2, focal o (run ls) f1 f2 /\ forall F label, (F, label) = (f1, "$F_f$") \/ (F, label) = (f2, "$F_b$") ->
    exists labs, In (parse (fmt3 (Fin F)), if show then Some (String.concat ", " labs) else None) ps /\
      In (written (pre ++ d :: post) pre label) labs.
Proof.
  intros HL Hd D P W E. destruct (points_spec fmt3 parse show _ ps E) as (marks & -> & _ & C & _).
  destruct (focusing_points d m o (0 + run ls) Hd D P) as [K _]. destruct (K W) as (f1 & f2 & Ep & Fo).
  rewrite Rplus_0_l in Fo. exists f1, f2. split; [auto|]. intros F label HF.
  destruct (C pre (Fin F) label) as (labs & A & B).
  { exists d, post, [(Some (Fin f1), "$F_f$"); (Some (Fin f2), "$F_b$")]. split; [reflexivity|]. split.
    - change (@c0 XR _) with (Fin 0). rewrite (after_fin pre ls 0 HL). exact Ep.
    - destruct HF as [[= -> ->]|[= -> ->]]; cbn; auto. }
  exists labs. split; [|auto]. apply (in_map (fun p => (parse (fst p), if show then Some (snd p) else None))) in A. exact A.
Qed.
(** elements whose points of interest are their focal points, or that have none *)
Definition plain (d : drawable XR) : Prop :=
  match focusing d with
  | Some m => exists o, describes m o /\ physical o /\ (power o \/ catalogue d = false)
  | None => match d with DObjective _ _ _ _ _ _ _ => False | _ => True end
  end.
Lemma plain_points d z : plain d -> exists l, pointsOfInterest d (Fin z) = Ok l /\ Forall (fun p => fst p <> None) l /\
  (l = [] \/ exists m o f1 f2, focusing d = Some m /\ describes m o /\ physical o /\ power o /\ focal o z f1 f2 /\
     l = [(Some (Fin f1), "$F_f$"); (Some (Fin f2), "$F_b$")]).
Proof.
  unfold plain. destruct (focusing d) as [m|] eqn:E.
  - intros (o & D & P & C). destruct (focusing_points d m o z E D P) as [A B].
    destruct (Rlt_dec (1 / 100000) (Rabs (C_ (oM o)))) as [W|W].
    + destruct (A W) as (f1 & f2 & Ep & Fo). exists [(Some (Fin f1), "$F_f$"); (Some (Fin f2), "$F_b$")]. split; [auto|].
      split; [constructor; [easy|constructor; [easy|constructor]]|]. right. exists m, o, f1, f2. auto 10.
    + destruct C as [C|C]; [easy|]. exists []. rewrite (B W), C. split; [auto|]. split; [constructor|]. now left.
  - intros H. exists []. split; [|split; [constructor|now left]].
    destruct d as [[[]| | |]| |]; cbn in E; try discriminate; try easy.
Qed.
Lemma lengths_before : forall ds pre d post ls, Forall2 has_length ds ls -> ds = pre ++ d :: post ->
  Forall2 has_length pre (firstn (List.length pre) ls).
Proof.
  intros ds pre. revert ds. induction pre as [|a pre IH]; intros ds d post ls F E; [constructor|]. subst ds.
  inversion F as [|? b ? ls' Hb F']; subst. cbn. constructor; [auto|]. eapply IH; eauto.
Qed.
(** in a path of such elements every mark is at focal points, and every label on it names one of them *)
Theorem focal_marks_only fmt3 parse show ds ls : Forall2 has_length ds ls -> Forall plain ds ->
  exists marks, points fmt3 parse show ds = Ok (map (fun p => (parse (fst p), if show then Some (snd p) else None)) marks) /\
    NoDup (map fst marks) /\
    forall k text, In (k, text) marks -> exists labs, labs <> [] /\ text = String.concat ", " labs /\
      forall lab', In lab' labs -> exists pre d post m o f1 f2 F label, ds = pre ++ d :: post /\ focusing d = Some m /\
        describes m o /\ focal o (run (firstn (List.length pre) ls)) f1 f2 /\
        ((F, label) = (f1, "$F_f$") \/ (F, label) = (f2, "$F_b$")) /\ k = fmt3 (Fin F) /\ lab' = written ds pre label.
Proof.
  intros HL HP.
  assert (Z : forall pre d post, ds = pre ++ d :: post ->
    after pre (@c0 XR _) = Fin (run (firstn (List.length pre) ls)) /\ plain d).
  { intros pre d post E. split.
    - change (@c0 XR _) with (Fin 0). rewrite (after_fin pre _ 0 (lengths_before ds pre d post ls HL E)). now rewrite Rplus_0_l.
    - rewrite Forall_forall in HP. apply HP. rewrite E. apply in_elt. }
  destruct (entries_ok fmt3 (several ds) ds c0 0) as (es & Ee).
  { intros pre d post E. destruct (Z pre d post E) as [-> Pd]. destruct (plain_points d (run (firstn (List.length pre) ls)) Pd) as (l & A & B & _).
    exists l. auto. }
  assert (exists ps, points fmt3 parse show ds = Ok ps) as (ps & Ep) by (unfold points; rewrite Ee; cbn [bind]; eauto).
  destruct (points_spec fmt3 parse show ds ps Ep) as (marks & -> & Nd & _ & So). exists marks. split; [auto|]. split; [auto|].
  intros k text H. destruct (So k text H) as (labs & Ne & Et & Hl). exists labs. split; [auto|]. split; [auto|].
  intros lab' Hin. destruct (Hl lab' Hin) as (pre & F & label & (d & post & l & E & El & HF) & -> & ->).
  destruct (Z pre d post E) as [Ez Pd]. rewrite Ez in El.
  destruct (plain_points d (run (firstn (List.length pre) ls)) Pd) as (l' & A & _ & K). rewrite El in A. injection A as <-.
  destruct K as [->|(m & o & f1 & f2 & Ef & D & _ & _ & Fo & ->)]; [easy|].
  cbn in HF. destruct HF as [[= <- <-]|[[= <- <-]|[]]].
  - exists pre, d, post, m, o, f1, f2, f1, "$F_f$". auto 15.
  - exists pre, d, post, m, o, f1, f2, f2, "$F_b$". auto 15.
Qed.
(** ** Objectives: the marks are its two focal points, F_b the one next to the back aperture *)
Theorem objective_marks f ftf z fv bv : f <> 0 -> focal (mkO (mk2 0 f (-1 / f) 0) ftf 1 1 fv bv) z z (z + ftf).
Proof.
  intros Hf. unfold focal, mapp, mmul, free; cbn. split; intros; field; auto.
Qed.
Theorem objective_marked f na ftf ba wd (flipped : bool) :
  f <> 0 -> 0 < na * wd -> 0 < ba ->
  exists e e' m es o, Objective (Fin f) (Fin na) (Fin ftf) (Fin ba) (Fin wd) = Ok e /\
    (if flipped then flip e else Ok e) = Ok e' /\ e' = Group (GObjective (Fin ftf) (Fin wd)) m es /\ describes m o /\
    (forall z, focal o z z (z + ftf)) /\
    forall fmt3 parse show pre ls post front ps,
      let ds := pre ++ DObjective m es (Fin ftf) (Fin wd) (Fin ba) front (Fin na) :: post in
      Forall2 has_length pre ls -> points fmt3 parse show ds = Ok ps ->
      forall F label,
        (F, label) = (run ls, if flipped then "$F_f$" else "$F_b$") \/
        (F, label) = (run ls + ftf, if flipped then "$F_b$" else "$F_f$") ->
        exists labs, In (parse (fmt3 (Fin F)), if show then Some (String.concat ", " labs) else None) ps /\
          In (written ds pre label) labs.
Proof.
  intros Hf Hna Hba.
  destruct (objective_full f na ftf ba wd Hf Hna Hba) as (e & e1 & E & D & _ & Fl & F1 & D1 & Fl1 & _ & (m & ->) & (m1 & ->)).
  cbn [emat] in D, D1, Fl, Fl1.
  assert (K : forall m es (b : bool), mflip m = b -> forall fmt3 parse show pre ls post front ps,
      let ds := pre ++ DObjective m es (Fin ftf) (Fin wd) (Fin ba) front (Fin na) :: post in
      Forall2 has_length pre ls -> points fmt3 parse show ds = Ok ps ->
      forall F label,
        (F, label) = (run ls, if b then "$F_f$" else "$F_b$") \/
        (F, label) = (run ls + ftf, if b then "$F_b$" else "$F_f$") ->
        exists labs, In (parse (fmt3 (Fin F)), if show then Some (String.concat ", " labs) else None) ps /\
          In (written ds pre label) labs).
  { clear. intros m es b Hm fmt3 parse show pre ls post front ps ds HL E F label HF.
    destruct (points_spec fmt3 parse show _ ps E) as (marks & -> & _ & C & _).
    destruct (C pre (Fin F) label) as (labs & A & B).
    { exists (DObjective m es (Fin ftf) (Fin wd) (Fin ba) front (Fin na)), post.
      exists (objective_points b (Fin ftf) (Fin (run ls))). split; [reflexivity|]. split.
      - change (@c0 XR _) with (Fin 0). rewrite (after_fin pre ls 0 HL), Rplus_0_l. cbn [pointsOfInterest]. now rewrite Hm.
      - unfold objective_points. change (nadd (Fin (run ls)) (Fin ftf)) with (Fin (run ls + ftf)).
        destruct b, HF as [[= -> ->]|[= -> ->]]; cbn; auto. }
    exists labs. split; [|auto]. apply (in_map (fun p => (parse (fst p), if show then Some (snd p) else None))) in A. exact A. }
  destruct flipped.
  - do 2 eexists. exists m1. eexists. eexists. split; [exact E|]. split; [exact F1|]. split; [reflexivity|]. split; [exact D1|].
    split; [intros z; now apply objective_marks|]. exact (K m1 _ true Fl1).
  - do 2 eexists. exists m. eexists. eexists. split; [exact E|]. split; [reflexivity|]. split; [reflexivity|]. split; [exact D|].
    split; [intros z; now apply objective_marks|]. exact (K m _ false Fl).
Qed.

(** ** On doubles: a mark is where "%.3f" of its focal points says *)
Theorem marks_close parse show ds ps pre F label : points (fixed 3) parse show ds = Ok ps -> has_point ds pre F label -> finite F ->
  exists s labs neg n, In (parse s, if show then Some (String.concat ", " labs) else None) ps /\
    In (written ds pre label) labs /\ reads 3 s neg n /\
    Rabs ((if neg then - (IZR (Z.of_N n) / 1000) else IZR (Z.of_N n) / 1000) - value F) <= 1 / 2000.
Proof.
  intros E HF Fi. destruct (points_spec (fixed 3) parse show ds ps E) as (marks & -> & _ & C & _).
  destruct (C pre F label HF) as (labs & A & B). destruct (fixed_close 3 F Fi) as (neg & n & R & Cl).
  exists (fixed 3 F), labs, neg, n. split; [|split; [auto|split; [auto|]]].
  - apply (in_map (fun p => (parse (fst p), if show then Some (snd p) else None))) in A. exact A.
  - replace (10 ^ 3) with 1000 in Cl by (simpl; lra). lra.
Qed.
(** points named by the same mark are at most 0.001 apart *)
Theorem marks_apart parse show ds ps : points (fixed 3) parse show ds = Ok ps ->
  exists marks, ps = map (fun p => (parse (fst p), if show then Some (snd p) else None)) marks /\ NoDup (map fst marks) /\
    forall k text, In (k, text) marks -> exists labs, labs <> [] /\ text = String.concat ", " labs /\
      forall a b, In a labs -> In b labs -> exists pre F label pre' F' label',
        has_point ds pre F label /\ a = written ds pre label /\ has_point ds pre' F' label' /\ b = written ds pre' label' /\
        (finite F -> finite F' -> Rabs (value F - value F') <= 1 / 1000).
Proof.
  intros E. destruct (points_spec (fixed 3) parse show ds ps E) as (marks & -> & Nd & _ & So). exists marks. split; [auto|].
  split; [auto|]. intros k text H. destruct (So k text H) as (labs & Ne & Et & Hl). exists labs. split; [auto|]. split; [auto|].
  intros a b Ha Hb. destruct (Hl a Ha) as (pre & F & label & H1 & E1 & ->). destruct (Hl b Hb) as (pre' & F' & label' & H2 & E2 & ->).
  exists pre, F, label, pre', F', label'. split; [auto|]. split; [auto|]. split; [auto|]. split; [auto|]. intros Fi Fi'.
  pose proof (fixed_same 3 F F' Fi Fi' (eq_trans (eq_sym E1) E2)) as Cl. replace (10 ^ 3) with 1000 in Cl by (simpl; lra). lra.
Qed.
