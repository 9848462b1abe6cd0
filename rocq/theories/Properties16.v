(** Property theorems C99-C104: the warning modes, the check for new versions, the lists of classes, the placement of
    labels, the check boxes and the marks of a figure.  Each theorem is closed by a lemma proved elsewhere; the examples
    show that its hypotheses can be met. *)
From Coq Require Import Reals Lra List Bool String Ascii ZArith NArith Floats Lia.
From Verif Require Import Base Nums Optics Group Spec MatrixProofs ElementProofs GroupProofs TraceProofs RayProofs CardinalProofs
  StrictProofs FlipProofs TransferProofs CardinalMore Samples Samples2 Samples3 Imaging SearchProofs ImagingProofs FieldProofs FieldMore
  GroupRefutations ImagingRefutations Format FormatProofs Scene Modes ModeProofs ModeRefutations Version VersionProofs VersionRefutations
  Classes ClassProofs Overlap OverlapProofs OverlapRefutations Visibility VisibilityProofs Marks MarksProofs MarksRefutations.
Import ListNotations.
Set Warnings "-inexact-float".
Open Scope string_scope.
Open Scope list_scope.

(** ** C99 *)
(** in silent mode no warning of the package is shown, whatever happened before; [run mt fs es]: the state of the warnings
    module after modes were chosen, filters added and warnings given, [mt] decides the matching of patterns *)
Theorem C99_silent :
  forall mt fs es l,
  let w := set_mode Silent (run mt fs es) in
  forall pre x post, l = pre ++ x :: post -> concerned x = true -> nth_error (snd (warn_all mt w l)) (List.length pre) = Some Hidden.
Proof. exact silent_hides. Qed.
Print Assumptions C99_silent.

(** in beginner mode every warning is shown, once for each place since the mode was chosen *)
Theorem C99_beginner :
  forall mt fs es l,
  let w := set_mode Beginner (run mt fs es) in
  forall pre x post, l = pre ++ x :: post -> concerned x = true ->
  exists o, nth_error (snd (warn_all mt w l)) (List.length pre) = Some o /\
    (o = Shown <-> ~ exists y, In y pre /\ at_place x y) /\ (o = Hidden <-> exists y, In y pre /\ at_place x y).
Proof. exact beginner_shows. Qed.
Print Assumptions C99_beginner.

(** in expert mode every text is shown once in the session for each kind of warning *)
Theorem C99_expert :
  forall mt fs es l,
  let w := set_mode Expert (run mt fs es) in
  forall pre x post, l = pre ++ x :: post -> concerned x = true ->
  exists o, nth_error (snd (warn_all mt w l)) (List.length pre) = Some o /\
    (o = Shown <-> ~ seen_before mt fs es x /\ ~ exists y, In y pre /\ the_once y = the_once x) /\ (o = Shown \/ o = Hidden).
Proof. exact expert_shows. Qed.
Print Assumptions C99_expert.

(** where "seen before" means that it was really shown *)
Theorem C99_seen :
  forall mt fs es x,
  seen_before mt fs es x ->
  exists pre y post, es = pre ++ EWarn y :: post /\ the_once y = the_once x /\ snd (warn mt (run mt fs pre) y) = Shown.
Proof. exact seen_before_shown. Qed.
Print Assumptions C99_seen.

(** the mode that was saved is the mode of the next import *)
Theorem C99_import :
  forall m env,
  import_mode (Some (mode_name m)) false = (m, Some (mode_name m)) /\
  fst (import_mode None false) = Beginner /\ import_mode env true = (Expert, Some "expert"%string).
Proof. exact import_saved. Qed.
Print Assumptions C99_import.

(** expert mode does not ignore the hints for beginners, though it has a filter to do so *)
Theorem C99_expert_refuted :
  In (mkFilter AIgnore None CHint None 0) (filters (set_mode Expert (start []))) /\ w_cat hint = CHint /\
  snd (warn no_patterns (set_mode Expert (start [])) hint) = Shown.
Proof. exact expert_hint_shown. Qed.
Print Assumptions C99_expert_refuted.

(** beginner mode does not always show the hints, though it has a filter to do so *)
Theorem C99_beginner_refuted :
  In (mkFilter AAlways None CHint None 0) (filters (set_mode Beginner (start []))) /\ w_cat hint = CHint /\
  snd (warn_all no_patterns (set_mode Beginner (start [])) [hint; hint]) = [Shown; Hidden].
Proof. exact beginner_hint_hidden. Qed.
Print Assumptions C99_beginner_refuted.

(** RAYTRACING_EXPERT stays in force when it is no longer set *)
Theorem C99_environment_refuted :
  fst (import_mode None false) = Beginner /\
  fst (import_mode (snd (import_mode None true)) false) = Expert.
Proof. exact expert_sticks. Qed.
Print Assumptions C99_environment_refuted.

Example C99_example : concerned hint = true /\
  snd (warn_all no_patterns (set_mode Expert (run no_patterns [] [EMode Beginner; EWarn hint])) [hint; hint]) = [Shown; Hidden] /\
  snd (warn_all no_patterns (set_mode Silent (run no_patterns [] [EMode Beginner; EWarn hint])) [hint; hint]) = [Hidden; Hidden].
Proof. split; [|split]; vm_compute; reflexivity. Qed.

(** ** C100 *)
Open Scope Z_scope.
(** a check is made two days after the last one or later, if the last one was not on a whole second;
    [readable]: dates are written with 19 characters and can be read back *)
Theorem C100_due :
  forall (date : Z -> string) (undate : string -> option Z) t now,
  readable date undate t -> 0 < t_us t < 1000000 ->
  lastCheckMoreThanADay undate (Some (isoformat date t)) now = Ok (2 * 86400000000 <=? instant now - instant t).
Proof. exact check_due. Qed.
Print Assumptions C100_due.

(** imports at any times, none on a whole second: all succeed, the preference is the time of the last check *)
Theorem C100_imports :
  forall (date : Z -> string) (undate : string -> option Z) t l,
  Forall (fractional date undate) (t :: l) ->
  imports date undate None (t :: l) = (Some (isoformat date (last_check t l)), repeat true (List.length (t :: l))).
Proof. exact imports_go_on. Qed.
Print Assumptions C100_imports.

(** a check on a whole second: no later import succeeds, ever *)
Theorem C100_imports_refuted :
  forall (date : Z -> string) (undate : string -> option Z) t l,
  readable date undate t -> t_us t = 0 ->
  imports date undate None (t :: l) = (Some (isoformat date t), true :: repeat false (List.length l)).
Proof. exact imports_stuck. Qed.
Print Assumptions C100_imports_refuted.

(** no check is made though the last one was more than a day ago *)
Theorem C100_day_refuted :
  exists t now, readable digits19 undigits19 t /\ 86400000000 < instant now - instant t /\
  lastCheckMoreThanADay undigits19 (Some (isoformat digits19 t)) now = Ok false.
Proof. exact no_check_after_a_day. Qed.
Print Assumptions C100_day_refuted.

(** a fraction of a second with fewer than six digits is read as if zeros followed *)
Theorem C100_short :
  forall (undate : string -> option Z) d f now,
  String.length d = 19%nat -> (1 <= String.length f < 6)%nat ->
  lastCheckMoreThanADay undate (Some (d ++ "." ++ f)%string) now = lastCheckMoreThanADay undate (Some (d ++ "." ++ f ++ "0")%string) now.
Proof. exact short_fraction. Qed.
Print Assumptions C100_short.

(** a newer version is announced exactly when there is one, if the newest is the last in the list *)
Theorem C100_announced :
  forall current l v,
  (forall w, In w l -> ~ older v w) ->
  checkLatestVersion current (map Some (l ++ [v])) = true <-> exists w, In w (l ++ [v]) /\ older current w.
Proof. exact announced. Qed.
Print Assumptions C100_announced.

(** nothing is announced if a release is not a version number *)
Theorem C100_unreadable :
  forall current l,
  In None l -> checkLatestVersion current l = false.
Proof. exact announced_unreadable. Qed.
Print Assumptions C100_unreadable.

(** a newer version that is not the last in the list *)
Theorem C100_newest_refuted :
  exists current releases v, In (Some v) releases /\ older current v /\
  checkLatestVersion current releases = false.
Proof. exact newer_not_announced. Qed.
Print Assumptions C100_newest_refuted.

(** a newer version next to a release that is not a version number *)
Theorem C100_name_refuted :
  exists current releases v, In (Some v) releases /\ older current v /\
  checkLatestVersion current releases = false.
Proof. exact unreadable_hides. Qed.
Print Assumptions C100_name_refuted.

Example C100_example : Forall (fractional digits19 undigits19) [noon; mkTime 1700100000 5; mkTime 1700200000 7] /\
  last_check noon [mkTime 1700100000 5; mkTime 1700200000 7] = mkTime 1700200000 7 /\
  readable digits19 undigits19 noon_sharp /\ t_us noon_sharp = 0.
Proof.
  split; [|split; [reflexivity|split; [apply noon_readable|reflexivity]]].
  repeat constructor; vm_compute; reflexivity.
Qed.
Example C100_announced_example : (forall w, In w [[1; 3; 9]; [1; 3; 10]]%N -> ~ older [1; 3; 12]%N w) /\
  checkLatestVersion [1; 3; 10]%N (map Some ([[1; 3; 9]; [1; 3; 10]] ++ [[1; 3; 12]])%N) = true.
Proof.
  split; [|vm_compute; reflexivity]. intros w [<-|[<-|[]]] H; apply release_ltb_older in H; discriminate.
Qed.
Close Scope Z_scope.

(** ** C101 *)
(** allSubclasses returns the names of the derived classes from which no other class is derived *)
Theorem C101_leaves :
  forall c n, In n (allSubclasses c) <-> exists d, derived c d /\ subclasses d = [] /\ class_name d = n.
Proof. exact allSubclasses_leaves. Qed.
Print Assumptions C101_leaves.

(** printClassHierarchy prints an arrow for every class and every class directly derived from it, at any depth *)
Theorem C101_edges :
  forall c a b, In (a, b) (printAllChilds c) <->
  exists p d, (p = c \/ derived c p) /\ In d (subclasses p) /\ class_name p = a /\ class_name d = b.
Proof. exact printed_edges. Qed.
Print Assumptions C101_edges.

(** so that every derived class occurs *)
Theorem C101_all_printed :
  forall c d,
  derived c d -> exists a, In (a, class_name d) (printAllChilds c).
Proof. exact printed_all. Qed.
Print Assumptions C101_all_printed.

(** the docstring promises all subclasses: a class with subclasses of its own is not returned *)
Definition group_classes : class :=
  Class "MatrixGroup" [Class "CompoundLens" [Class "AchromatDoubletLens" []; Class "SingletLens" []]; Class "ImagingPath" []].
Theorem C101_inner_refuted :
  exists c d, derived c d /\ ~ In (class_name d) (allSubclasses c).
Proof.
  exists group_classes, (Class "CompoundLens" [Class "AchromatDoubletLens" []; Class "SingletLens" []]).
  split; [apply derived_child; left; reflexivity|]. vm_compute. intros [H|[H|[H|[]]]]; discriminate.
Qed.
Print Assumptions C101_inner_refuted.
Example C101_example : allSubclasses group_classes = ["AchromatDoubletLens"; "SingletLens"; "ImagingPath"] /\
  List.length (printAllChilds group_classes) = 4%nat.
Proof. split; vm_compute; reflexivity. Qed.

Open Scope R_scope.
(** ** C102 *)
(** moving the labels apart leaves no trace: resetting brings each label back where it was, exactly *)
Theorem C102_reset :
  forall (v : bbox XR) ls ms,
  finite_box v -> Forall finite_label ls -> updateLabels v ls = Ok ms ->
  map resetPosition ms = map resetPosition ls.
Proof. exact update_reset. Qed.
Print Assumptions C102_reset.

(** so the labels after a zoom do not depend on the zooms before *)
Theorem C102_again :
  forall (v : bbox XR) w ls ms,
  finite_box v -> Forall finite_label ls -> updateLabels v ls = Ok ms ->
  updateLabels w ms = updateLabels w ls.
Proof. exact update_again. Qed.
Print Assumptions C102_again.

(** all labels are kept, and only moved sideways *)
Theorem C102_sideways :
  forall (v : bbox XR) ls ms,
  finite_box v -> Forall finite_label ls -> updateLabels v ls = Ok ms ->
  all_moved (map resetPosition ls) ms.
Proof. exact update_moved. Qed.
Print Assumptions C102_sideways.

(** labels that do not touch stay where they are *)
Theorem C102_apart :
  forall (v : bbox XR) ls bs,
  all_boxes v ls = Ok bs -> apart v ls -> fixLabelOverlaps v ls = Ok ls.
Proof. exact fix_apart. Qed.
Print Assumptions C102_apart.

(** no two labels touch at the end, unless labels were still moved by the last round *)
Theorem C102_stops_partial :
  forall (v : bbox XR) ls ms,
  (2 <= List.length ls)%nat -> fixLabelOverlaps v ls = Ok ms ->
  apart v ms \/ exists ks, one_round v ks = Ok (ms, false).
Proof. exact fix_stops. Qed.
Print Assumptions C102_stops_partial.

(** two labels at the same height, in data units, with some room around them, end side by side with a gap between them;
    they move in opposite ways and not further than half of the larger one [m] *)
Theorem C102_two :
  forall v0 v1 w0 w1 x d o a b y0 y1 x' d' o' a' b' z0 z1 m,
  inside v0 v1 w0 w1 (o + x + a) (o + x + b) y0 y1 -> inside v0 v1 w0 w1 (o' + x' + a') (o' + x' + b') z0 z1 ->
  12 / 10 * (b - a) <= m -> 12 / 10 * (b' - a') <= m ->
  v0 + m <= o + x + a -> o + x + b <= v1 - m -> v0 + m <= o' + x' + a' -> o' + x' + b' <= v1 - m ->
  y0 <= z1 -> z0 <= y1 ->
  exists X X', fixLabelOverlaps (rb v0 v1 w0 w1) [rl x d o 1 a b y0 y1; rl x' d' o' 1 a' b' z0 z1] =
    Ok [rl X (d + (X - x)) o 1 a b y0 y1; rl X' (d' + (X' - x')) o' 1 a' b' z0 z1]
  /\ (o + X + b + (b - a + (b' - a')) / 10 <= o' + X' + a' \/ o' + X' + b' + (b - a + (b' - a')) / 10 <= o + X + a)
  /\ Rabs (X - x) <= m / 2 /\ X - x = - (X' - x').
Proof. exact fix_two_apart. Qed.
Print Assumptions C102_two.

(** two labels never leave the display *)
Theorem C102_two_inside :
  forall v0 v1 w0 w1 A B,
  fits v0 v1 w0 w1 A -> fits v0 v1 w0 w1 B ->
  exists A' B', fixLabelOverlaps (rb v0 v1 w0 w1) [A; B] = Ok [A'; B'] /\ fits v0 v1 w0 w1 A' /\ fits v0 v1 w0 w1 B'.
Proof. exact fix_two_inside. Qed.
Print Assumptions C102_two_inside.

(** three labels in a wide display: two still overlap *)
Theorem C102_overlap_refuted :
  exists ms l m, updateLabels f_view f_three = Ok ms /\ nth_error ms 1%nat = Some l /\ nth_error ms 2%nat = Some m
  /\ (bx0 (text_box l) <? bx1 (text_box m))%float = true /\ (bx0 (text_box m) <? bx1 (text_box l))%float = true.
Proof. exact three_overlap. Qed.
Print Assumptions C102_overlap_refuted.

(** three labels inside of the display: one is pushed over its edge *)
Theorem C102_inside_refuted :
  (forall l, In l f_edge -> (bx0 f_view <=? bx0 (text_box l))%float = true) /\
  exists ms l, updateLabels f_view f_edge = Ok ms /\ In l ms /\ (bx0 (text_box l) <? bx0 f_view)%float = true.
Proof. exact edge_left. Qed.
Print Assumptions C102_inside_refuted.

(** five labels inside of the display: one is pushed out and the figure cannot be shown *)
Theorem C102_raises_refuted :
  (forall l, In l f_five -> (bx0 f_view <=? bx0 (text_box l))%float = true) /\
  updateLabels f_view f_five = Err AttributeError.
Proof. exact five_raise. Qed.
Print Assumptions C102_raises_refuted.

(** a label in units of the axes is moved in data units *)
Theorem C102_note_refuted :
  isRenderedOn f_view f_note = true /\ updateLabels f_view [f_low; f_note] = Err AttributeError.
Proof. exact note_lost. Qed.
Print Assumptions C102_note_refuted.

(** on doubles labels are not exactly where they were *)
Theorem C102_reset_refuted :
  exists x dx, resetPosition (translate (f_label x) dx) <> f_label x.
Proof. exact reset_inexact. Qed.
Print Assumptions C102_reset_refuted.

Example C102_example : exists ms, updateLabels (rb 0 100 (-5) 5) [rl 40 0 0 1 0 10 0 1; rl 45 0 0 1 0 10 0 1] = Ok ms /\
  inside 0 100 (-5) 5 (0 + 40 + 0) (0 + 40 + 10) 0 1 /\ inside 0 100 (-5) 5 (0 + 45 + 0) (0 + 45 + 10) 0 1 /\
  12 / 10 * (10 - 0) <= 12 /\ 0 + 12 <= 0 + 40 + 0 /\ 0 + 45 + 10 <= 100 - 12.
Proof.
  destruct (fix_two_apart 0 100 (-5) 5 40 0 0 0 10 0 1 45 0 0 0 10 0 1 12) as (X & X' & E & _); try (unfold inside; lra).
  eexists. split; [|unfold inside; lra]. unfold updateLabels. cbn [map]. cbv zeta. rewrite !reset_real.
  replace (40 - 0) with 40 by lra. replace (45 - 0) with 45 by lra. cbn [List.filter].
  assert (R : forall x, 0 <= x <= 90 -> isRenderedOn (rb 0 100 (-5) 5) (rl x 0 0 1 0 10 0 1) = true).
  { intros x Hx. unfold isRenderedOn. rewrite text_box_real, cut_real. cbv zeta.
    rewrite (Rmax_right 0), (Rmin_right 100), (Rmax_right (-5)), (Rmin_right 5) by lra. now rewrite !Rleb_le by lra. }
  rewrite !R by lra. rewrite E. reflexivity.
Qed.

(** ** C103 *)
(** after any clicks on boxes each group is wholly shown or wholly hidden, as the number of clicks on its box says, and no
    other group; the labels next to the graphics are always the same *)
Theorem C103_clicks :
  forall l f g, distinct g -> shows f g -> (forall x, In x l -> filled g (newlines_to_spaces x)) ->
  exists g', clicks l g = Ok g' /\ shows (fun k => xorb (f k) (Nat.odd (times l k))) g' /\
    (forall k, labels_drawn k g' = labels_drawn k g) /\ (forall k, filled g' k <-> filled g k) /\ distinct g'.
Proof. exact clicks_toggle. Qed.
Print Assumptions C103_clicks.

(** there is a box for each group with something in it, checked when the group is shown *)
Theorem C103_boxes :
  forall f g k,
  distinct g -> shows f g -> k <> kElementsKey ->
  (filled g k -> dget (boxes g) k = Some (f k)) /\ (~ filled g k -> dget (boxes g) k = None).
Proof. exact boxes_shown. Qed.
Print Assumptions C103_boxes.

(** and no other box *)
Theorem C103_no_box :
  forall f g x,
  distinct g -> shows f g -> ~ filled g (newlines_to_spaces x) -> onCheckBoxCallback x g = Err KeyError.
Proof. exact no_box. Qed.
Print Assumptions C103_no_box.

(** a hidden object keeps its label *)
Definition labelled : groups := mkGroups [(kObjectImageKey, [mkShape true [true] (Some "Cell")])] [(kObjectImageKey, [true; true])].
Theorem C103_label_refuted :
  exists g g' s, clicks [kObjectImageKey] g = Ok g' /\ dget (g_graphics g') kObjectImageKey = Some [s] /\
    sh_vis s = false /\ labels_drawn kObjectImageKey g' = ["Cell"].
Proof. do 3 eexists. split; [|split; [|split]]; [exact (eq_refl (clicks [kObjectImageKey] labelled))|reflexivity..]. Qed.
Print Assumptions C103_label_refuted.
Example C103_example : distinct labelled /\ shows (fun _ => true) labelled /\ filled labelled kObjectImageKey /\
  newlines_to_spaces kObjectImageKey = kObjectImageKey.
Proof.
  split; [|split; [|split; [|reflexivity]]].
  - split; repeat constructor; cbn; tauto.
  - split; intros k l s H; cbn [labelled g_graphics g_lines dget] in H; destruct (String.eqb _ k); try discriminate; injection H as <-.
    + intros [<-|[]]. split; [reflexivity|]. intros b [<-|[]]. reflexivity.
    + intros [<-|[<-|[]]]; reflexivity.
  - left. do 2 eexists. reflexivity.
Qed.

(** ** C104 *)
(** a path with an edge of the field at height [h]: the figure marks the aperture stop at its place, the field stop at the
    element that cuts off the chief ray just above the edge, and shows an arrow from -v to v with v the edge (to 2e-6);
    the chief ray from the edge is drawn first *)
Theorem C104_field :
  forall (e : @elem XR) o ps z,
  aimed e o ps z -> z <> 0 ->
  forall h, Forall2 thin_if_limiting (leaves e) ps -> field_edge e h -> 3 / 80000 <= h < tried 42 ->
  exists n v w i km, v <= h < v + 2 * prec /\ h < w <= h + 2 * prec /\ nth_error (leaves e) i = Some km /\
    misses (snd km) (after (leaves e) (chief ps z w) i) = true /\
    (forall j km', (j < i)%nat -> nth_error (leaves e) j = Some km' ->
       misses (snd km') (after (leaves e) (chief ps z w) j) = false) /\
    forall fuel range, (n <= fuel)%nat -> exists rays,
      displayMarks fuel e false true (Fin range) =
        Ok (mkMarks (Some (Fin (v * 2))) (chief ps z v :: rays) None
              [("AS"%string, Fin z, Fin (range / 2 * (11 / 10))); ("FS"%string, Fin (depth ps (S i)), Fin (range / 2 * (11 / 10)))]).
Proof. exact marks_of_field. Qed.
Print Assumptions C104_field.

(** without an edge of the field (or one further than about 7463) only the aperture stop is marked *)
Theorem C104_no_field :
  forall (e : @elem XR) o ps z,
  aimed e o ps z -> z <> 0 ->
  no_field_edge e \/ (exists h, field_edge e h /\ tried 42 <= h) ->
  exists n, forall fuel range, (n <= fuel)%nat -> exists rays,
    displayMarks fuel e false true (Fin range) =
      Ok (mkMarks None rays None [("AS"%string, Fin z, Fin (range / 2 * (11 / 10)))]).
Proof. exact marks_unlimited. Qed.
Print Assumptions C104_no_field.

(** when no element has a diameter nothing is marked *)
Theorem C104_nothing :
  forall T (N : Num T) fuel (e : @elem T) b b' range,
  hasFiniteApertureDiameter e = false ->
  displayMarks fuel e b b' range = Ok (mkMarks None [] None []).
Proof. exact @no_marks. Qed.
Print Assumptions C104_nothing.

(** the edges of the bars of the entrance pupil are imaged on the edge of the aperture stop *)
Theorem C104_pupil :
  forall (e : @elem XR) o ps z D,
  canon e o -> Forall2 is_piece (leaves e) ps -> onf o = 1 ->
  hasFiniteApertureDiameter e = true ->
  apertureStop e = Ok (mkStop (Some (Fin z)) (Some (Fin D))) -> A_ (matrix_to ps z) <> 0 ->
  exists x h, graphicOfEntrancePupil e = Ok (Some (Fin x, Fin h)) /\
    forall th, Rabs (fst (mapp (mmul (matrix_to ps z) (free (- x))) (h, th))) = Rabs D / 2.
Proof. exact pupil_bars. Qed.
Print Assumptions C104_pupil.

(** an aperture on an image of the object: the figure cannot be shown *)
Theorem C104_raises_refuted :
  exists (e : @elem float) s1 l s2 a,
  Space n15 c1 ninf = Ok s1 /\ Lens c1 ninf = Ok l /\ Space (fz 3) c1 ninf = Ok s2 /\
  Aperture (fz 10) ninf = Ok a /\ built [s1; l; s2; a] e /\
  forall fuel b b' r, displayMarks (S fuel) e b b' r = Err TypeError.
Proof. exact figure_raises. Qed.
Print Assumptions C104_raises_refuted.

(** a small aperture on the object: the figure is never shown *)
Theorem C104_hangs_refuted :
  exists (e : @elem float) a1 s a2,
  Aperture (ndec 5 5) ninf = Ok a1 /\ Space (fz 10) c1 ninf = Ok s /\ Aperture (fz 10) ninf = Ok a2 /\
  built [a1; s; a2] e /\ forall fuel b b' r, displayMarks fuel e b b' r = Err OutOfFuel.
Proof. exact figure_hangs. Qed.
Print Assumptions C104_hangs_refuted.

(** an object in glass: the entrance pupil cannot be shown *)
Theorem C104_pupil_refuted :
  exists (e : @elem float) s i,
  Space (fz 10) n15 ninf = Ok s /\ DielectricInterface n15 c1 ninf (fz 4) = Ok i /\ built [s; i] e /\
  displayMarks 100 e true true (fz 10) = Err ValueError.
Proof. exact pupil_raises. Qed.
Print Assumptions C104_pupil_refuted.

(** an aperture stop is marked where there is no element with a diameter *)
Theorem C104_object_refuted :
  exists (e : @elem float) s l a y,
  Space (fz 20) c1 ninf = Ok s /\ Lens (fz 10) ninf = Ok l /\ Aperture (fz 10) ninf = Ok a /\ built [s; l; s; a] e /\
  displayMarks 100 e false true (fz 10) = Ok (mkMarks None [] None [("AS"%string, c0, y)]).
Proof. exact stop_marked_at_object. Qed.
Print Assumptions C104_object_refuted.

Example C104_example : exists e, aimed e camera_optic camera_pieces 30 /\ field_edge e (65 / 4) /\
  Forall2 thin_if_limiting (leaves e) camera_pieces /\ 3 / 80000 <= 65 / 4 < tried 42.
Proof.
  destruct camera_exists as (e & C). exists e. split; [now apply camera_aimed|].
  split; [now apply camera_edge|]. split; [apply (ca_limit e C)|]. pose proof tried_42. lra.
Qed.
Example C104_pupil_example : exists e, canon e camera_optic /\ Forall2 is_piece (leaves e) camera_pieces /\ onf camera_optic = 1 /\
  hasFiniteApertureDiameter e = true /\ apertureStop e = Ok (mkStop (Some (Fin 30)) (Some (Fin 10))) /\ A_ (matrix_to camera_pieces 30) <> 0.
Proof.
  destruct camera_exists as (e & C). exists e. split; [apply (ca_canon e C)|]. split; [apply (ca_pieces e C)|].
  split; [reflexivity|]. split; [apply (ca_finite e C)|]. split; [now apply camera_stop|]. rewrite camera_matrix. cbn. lra.
Qed.
