(** Property theorems about figures: what a style changes (C89), boxes whose names are on several lines (C103), groups
    inside groups (C85).  Each theorem is closed by a lemma proved elsewhere; the examples show that its hypotheses can
    be met. *)
From Coq Require Import Reals Lra List Bool String Ascii ZArith Floats.
From Verif Require Import Base Nums Optics Group Spec MatrixProofs ElementProofs GroupProofs TraceProofs RayProofs
  CardinalProofs StrictProofs Imaging Drawing RaysModel RaysMore MiscProofs Figures FigureProofs FigurePlace Samples
  GroupRefutations ImagingRefutations EfficiencyRefutations Display DisplayProofs DisplayRefutations
  Scene Visibility VisibilityProofs ChoiceProofs.
Import ListNotations.
Open Scope list_scope.
Open Scope R_scope.

(** ** C89: styles *)
(** after any history of styles and object heights the figure has the colours of the last style that exists, and
    otherwise the settings of the figure of a new path *)
Theorem C89_styles : forall T (N : Num T) e fuel drange pytan os a x p' l d a0 x0 p0 l0 d0 k,
  Forall (@only_styles T) os -> display e fuel drange pytan (run e fuel drange pytan os) a = (x, p', l, Some d) ->
  display e fuel drange pytan ImagingPath_new a0 = (x0, p0, l0, Some d0) -> user_key k = true ->
  (~ colour_key k -> d_params d k = d_params d0 k) /\
  (d_params d RayColors, d_params d ImageColor, d_params d ObjectColor) =
    (if grey (rev os) then (SList ["0.4"; "0.2"; "0.6"]%string, SText "0.3"%string, SText "0.1"%string)
     else (SList ["b"; "r"; "g"]%string, SText "r"%string, SText "b"%string)).
Proof. exact @style_colours. Qed.
Print Assumptions C89_styles.
Example C89_styles_example :
  let os := [OHeight (fz 4); ODesign (Some "publication"%string) []; ODesign (Some "poster"%string) []] in
  let show := display two_apertures 100 (Ok (fz 30)) (fun x => x) in
  Forall only_styles os /\ grey (rev os) = true /\ grey (rev (os ++ [ODesign (Some "presentation"%string) []])) = false /\
  snd (show (run two_apertures 100 (Ok (fz 30)) (fun x => x) os) plain) <> None /\
  snd (show ImagingPath_new plain) <> None /\ user_key FillImage = true /\ ~ colour_key FillImage.
Proof.
  cbv zeta. split; [repeat constructor|]. split; [reflexivity|]. split; [reflexivity|].
  split; [vm_compute; discriminate|]. split; [vm_compute; discriminate|]. split; [reflexivity|].
  intros [H|[H|H]]; discriminate H.
Qed.

(** ** C103: a box whose name is written on several lines switches its group *)
Theorem C103_lines :
  forall f g label k, distinct g -> shows f g -> broken label k -> filled g k ->
  exists g', onCheckBoxCallback label g = Ok g' /\ shows (fun j => if String.eqb j k then negb (f j) else f j) g'.
Proof. exact broken_click. Qed.
Print Assumptions C103_lines.
Example C103_lines_example :
  let g := mkGroups [] [(kPrincipalKey, [true; true])] in
  distinct g /\ shows (fun _ => true) g /\ filled g kPrincipalKey /\
  broken ("Principal/axial" ++ String "010" "rays")%string kPrincipalKey.
Proof.
  cbv zeta. split; [split; repeat constructor; cbn; tauto|]. split.
  { split; intros k l s H; cbn [g_graphics g_lines dget] in H; [discriminate|].
    destruct (String.eqb _ k); [|discriminate]. injection H as <-. intros [<-|[<-|[]]]; reflexivity. }
  split; [right; do 2 eexists; reflexivity|]. unfold kPrincipalKey. cbn.
  repeat first [apply broken_same; [discriminate|] | apply broken_line]. constructor.
Qed.

(** ** C85: a group inside a group is as high as the largest aperture in it *)
Theorem C85_group_size :
  forall m es l x, Forall not_lens es -> (exists e, In e es /\ mdiam (emat e) <> PInf) -> mL m = Fin l ->
  exists g e d, @MatrixGroupGraphic XR _ m es (Fin x) = Ok g /\ halfHeight g = Ok (Fin (d / 2)) /\
    In e es /\ mdiam (emat e) = Fin d /\ (forall e' d', In e' es -> mdiam (emat e') = Fin d' -> d' <= d).
Proof. exact group_size. Qed.
Print Assumptions C85_group_size.
Example C85_group_size_example :
  Forall not_lens [x_aperture 10; x_space 5 1; x_aperture 20] /\
  (exists e, In e [x_aperture 10; x_space 5 1; x_aperture 20] /\ mdiam (emat e) <> PInf).
Proof.
  split; [repeat constructor; cbn; lra|]. exists (x_aperture 10). split; [now left|discriminate].
Qed.
