(** Property theorems C93-C94: what a figure shows for the rays given to display().  Each theorem is closed by a lemma
    proved elsewhere; the examples show that its hypotheses can be met. *)
From Coq Require Import Reals Lra List Bool String Ascii ZArith Floats Lia Permutation.
From Verif Require Import Base Nums Optics Group Spec MatrixProofs ElementProofs GroupProofs
  TraceProofs RayProofs CardinalProofs StrictProofs FlipProofs Samples CardinalMore Imaging FieldMore GroupRefutations
  ImagingRefutations Format Scene SceneProofs SceneImages SceneRefutations.
Import ListNotations.
Set Warnings "-inexact-float".
Open Scope string_scope.
Open Scope list_scope.
Open Scope R_scope.

(** ** C93 *)
(** the lines of the figure are those of all sources of rays, except the ones that a later source takes the place of:
    an object (lamp) away from the entrance whose position is written like that of a later object (lamp); [fmt1] and
    [fmt2] are any ways of writing numbers, class names have no spaces *)
Theorem C93_lines : forall (T Line : Type) (NT : Num T) (fmt1 fmt2 : T -> string) (l : list (@source T Line)),
  Forall (fun s => match s_kind s with SOther name => identifier name | _ => True end) l ->
  exists d, setLinesFromRaysList fmt1 fmt2 lineGroups0 l = Ok d /\
    Permutation (all_of d) (flat_map s_lines (kept (hides_lines fmt1 fmt2) l)).
Proof. intros. now apply lines_drawn. Qed.
Print Assumptions C93_lines.

(** all lines, when no two positions are written in the same way *)
Theorem C93_all_lines : forall (T Line : Type) (NT : Num T) (fmt1 fmt2 : T -> string) (l : list (@source T Line)),
  Forall (fun s => match s_kind s with SOther name => identifier name | _ => True end) l ->
  ForallOrdPairs (fun s t => hides_lines fmt1 fmt2 s t = false) l ->
  exists d, setLinesFromRaysList fmt1 fmt2 lineGroups0 l = Ok d /\ Permutation (all_of d) (flat_map s_lines l).
Proof. intros. now apply all_lines_drawn. Qed.
Print Assumptions C93_all_lines.

(** objects 0.04 mm apart: the lines of the first are lost *)
Theorem C93_objects_refuted :
  exists a b d, nltb c0 (s_z a) = true /\ nltb (s_z a) (s_z b) = true /\
    s_kind a = SObject /\ s_kind b = SObject /\ setLinesFromRaysList (fixed 1) (fixed 2) lineGroups0 [a; b] = Ok d /\
    s_lines a = [1%nat] /\ all_of d = [2%nat].
Proof. exact lines_lost. Qed.
Print Assumptions C93_objects_refuted.

(** lamps 0.004 mm apart *)
Theorem C93_lamps_refuted :
  exists a b d, nltb c0 (s_z a) = true /\ nltb (s_z a) (s_z b) = true /\
    s_kind a = SLamp /\ s_kind b = SLamp /\ setLinesFromRaysList (fixed 1) (fixed 2) lineGroups0 [a; b] = Ok d /\
    s_lines a = [1%nat] /\ all_of d = [2%nat].
Proof. exact lamp_lines_lost. Qed.
Print Assumptions C93_lamps_refuted.

(** the groups hidden at first: the principal rays unless showFOV is set; the objects at the entrance when showFOV is
    set, when the design says so, and when there is a lamp *)
Theorem C93_hidden : forall (T Line : Type) showFOV showObjectImage (l : list (@source T Line)) key,
  group_visible showFOV showObjectImage l key = false <->
  (key = "Principal/axial rays" /\ showFOV = false) \/
  (key = "Object/Image" /\ (showFOV = true \/ showObjectImage = false \/ exists s, In s l /\ s_kind s = SLamp)).
Proof. intros. apply hidden_groups. Qed.
Print Assumptions C93_hidden.

Lemma identifier_ok name : ~ In " "%char (list_ascii_of_string name) -> identifier name.
Proof.
  intros H a b ->. apply H. clear H. induction a as [|c a IH]; cbn; [now left|]. right. exact IH.
Qed.
Definition scene : list (@source float nat) :=
  [src SObject c0 c1 None [1%nat; 2%nat]; src SObject c0 c1 None [3%nat]; src SObject (fz 10) c1 None [4%nat];
   src SLamp (fz 10) c1 None [5%nat]; src (SOther "UniformRays") c0 c1 None [6%nat]; src SLamp (ndec 1001 2) c1 None [7%nat];
   src SObject (ndec 101 1) c1 None [8%nat]; src (SOther "UniformRays") c0 c1 None [9%nat]].
Example C93_example :
  Forall (fun s => match s_kind s with SOther name => identifier name | _ => True end) scene /\
  ForallOrdPairs (fun s t => hides_lines (fixed 1) (fixed 2) s t = false) scene.
Proof.
  split.
  - repeat apply Forall_cons; try apply Forall_nil; cbn [src s_kind]; try exact I; apply identifier_ok; cbn; intuition discriminate.
  - unfold scene. repeat apply FOP_cons; try apply FOP_nil; repeat apply Forall_cons; try apply Forall_nil; vm_compute; reflexivity.
Qed.

(** ** C94 *)
(** the arrows and lamps of the figure: those of all sources and the images of all objects, except the ones that a
    later source takes the place of *)
Theorem C94_graphics : forall (T Line : Type) (NT : Num T) (fmt1 fmt2 : T -> string) (g : @grp T)
    (objectColor imageColor : string) (images : @source T Line -> list (@picture T)) (l : list source),
  (forall s, In s l -> s_kind s = SObject ->
     graphicsOfConjugatePlanes g (nmul (s_yMax s) c2) imageColor (s_z s) = Ok (images s)) ->
  exists d, setGraphicsFromRaysList fmt1 fmt2 g true true objectColor imageColor graphicGroups0 l = Ok d /\
    Permutation (all_of d)
      (flat_map (fun s => match s_kind s with
                          | SObject => PObject (nmul (s_yMax s) c2) (s_z s) objectColor (s_label s) :: images s
                          | SLamp => [PLamp (nmul (s_yMax s) c2) (s_z s) (s_label s)]
                          | SOther _ => []
                          end) (kept (hides_graphics fmt1 fmt2) l)).
Proof. intros. now apply graphics_drawn. Qed.
Print Assumptions C94_graphics.

(** the images of an object at the entrance: where all rays from a point of the object meet again *)
Theorem C94_images_at_entrance : forall (g : @grp XR) os d color,
  Forall2 (fun (x : @elem XR) o => describes (emat x) o) (transferMatrices (grp_elem g)) os -> chain os -> os <> [] ->
  exists ps, graphicsOfConjugatePlanes g (Fin d) color (Fin 0) =
      Ok (map (fun p => PImage (Fin (snd p * d)) (Fin (fst p + 0)) color) ps) /\
    (forall p, In p ps -> focused os (fst p) (snd p)) /\
    (forall pos mag, pos <> 0 -> focused os pos mag -> exists q, In q ps /\ (q = (pos, mag) \/ near q (pos, mag))).
Proof. exact images_at_entrance. Qed.
Print Assumptions C94_images_at_entrance.

(** the images of an object inside the path, behind and in front of it, for single elements; those in front when
    the elements before the object are symmetric *)
Theorem C94_images_inside : forall (g : @grp XR) pre x post pos o qos zs d color,
  gelems g = pre ++ x :: post ->
  Forall2 (fun e o => describes (emat e) o) (pre ++ x :: post) (pos ++ o :: qos) ->
  Forall single (pre ++ x :: post) ->
  List.length pre = List.length pos -> chain (pos ++ o :: qos) ->
  Forall (fun o => 0 <= oL o) pos -> is_Space x = true -> oM o = free (oL o) -> onf o = 1 -> onb o = 1 ->
  Forall symmetric pos -> zs <> 0 ->
  total_length pos < zs < total_length pos + oL o ->
  let behind := o_space (total_length pos + oL o - zs) 1 :: qos in
  let before := pos ++ [o_space (zs - total_length pos) 1] in
  exists fs bs, graphicsOfConjugatePlanes g (Fin d) color (Fin zs) =
      Ok (map (fun p => PImage (Fin (snd p * d)) (Fin (fst p + zs)) color) fs ++
          map (fun p => PImage (Fin (snd p * d)) (Fin (- fst p + zs)) color) bs) /\
    (forall p, In p fs -> focused behind (fst p) (snd p)) /\
    (forall p, In p bs -> focused_from before (fst p) (snd p)) /\
    (forall p mag, p <> 0 -> focused behind p mag -> exists q, In q fs /\ (q = (p, mag) \/ near q (p, mag))).
Proof. exact images_inside. Qed.
Print Assumptions C94_images_inside.

(** the arrows are centred on the axis, and the arrow of an image ends where the rays from the end of the arrow of
    the object pass *)
Theorem C94_arrows : forall d mag, exists e, arrow_ends (Fin d) = (Fin (- e), Fin e) /\ e = d / 2 /\
  arrow_ends (Fin (mag * d)) = (Fin (- (mag * e)), Fin (mag * e)).
Proof. exact arrow_tips. Qed.
Print Assumptions C94_arrows.

(** of two objects at the entrance only the last is drawn *)
Theorem C94_two_objects_refuted :
  exists g a b d dl, MatrixGroup_new [fspace 100; flens 50; fspace 150] "" = Ok g /\
    s_kind a = SObject /\ s_kind b = SObject /\ s_yMax a = fz 2 /\ s_yMax b = c1 /\
    setLinesFromRaysList (fixed 1) (fixed 2) lineGroups0 [a; b] = Ok dl /\ all_of dl = [1%nat; 2%nat] /\
    setGraphicsFromRaysList (fixed 1) (fixed 2) g true true "b" "r" graphicGroups0 [a; b] = Ok d /\
    all_of d = [PObject (fz 2) c0 "b" None; PImage (fz (-2)) (fz 200) "r"].
Proof. exact arrow_lost. Qed.
Print Assumptions C94_two_objects_refuted.

(** the colour given to ObjectRays is not used *)
Theorem C94_color_refuted :
  exists g (a : @source float nat) d, MatrixGroup_new [fspace 100; flens 50; fspace 150] "" = Ok g /\ s_kind a = SObject /\
    s_color a = Some "g" /\
    setGraphicsFromRaysList (fixed 1) (fixed 2) g true true "b" "r" graphicGroups0 [a] = Ok d /\
    all_of d = [PObject (fz 2) c0 "b" None; PImage (fz (-2)) (fz 200) "r"].
Proof. exact wrong_color. Qed.
Print Assumptions C94_color_refuted.

(** an image in front of an unsymmetric lens is drawn in the wrong place *)
Theorem C94_place_refuted :
  exists s t g m x e r1 r2,
    Space (fz 300) c1 ninf = Ok s /\ ThickLens n15 (fz 50) ninf (fz 20) ninf = Ok t /\
    MatrixGroup_new [s; t; s] "" = Ok g /\
    graphicsOfConjugatePlanes g c1 "r" (fz 520) = Ok [PImage m x "r"] /\
    nltb c0 x = true /\ nltb x (fz 300) = true /\
    Space (nsub (fz 300) x) c1 ninf = Ok e /\
    traceThrough (fpath [e; t; fspace 200]) (Ray_new c0 (ndec 1 1)) = r1 /\
    traceThrough (fpath [e; t; fspace 200]) (Ray_new c0 (ndec (-1) 1)) = r2 /\
    nltb (nabs (nsub (rz r1) (nsub (fz 520) x))) (ndec 1 6) = true /\
    nltb (ndec 25 2) (nabs (nsub (ry r1) (ry r2))) = true.
Proof. exact wrong_place. Qed.
Print Assumptions C94_place_refuted.

(** showObject = False with showImages = True raises for every object away from the entrance *)
Theorem C94_images_only_refuted : exists (g : @grp float) (s : @source float nat),
  MatrixGroup_new [fspace 100; flens 50; fspace 150] "" = Ok g /\ s_kind s = SObject /\ s_z s = fz 10 /\
  setGraphicsFromRaysList (fixed 1) (fixed 2) g false true "b" "r" graphicGroups0 [s] = Err KeyError.
Proof.
  exists fspaces, (src SObject (fz 10) c1 None [1%nat]). vm_compute. repeat split.
Qed.
Print Assumptions C94_images_only_refuted.

(** the path of the examples: two lenses, with an object between them *)
Definition relay : list (@elem XR) := [x_space 100 1; x_lens 50 25] ++ x_space 200 1 :: [x_lens 50 25; x_space 100 1].
Definition relay_o : list optic := [o_space 100 1; o_lens 50] ++ o_space 200 1 :: [o_lens 50; o_space 100 1].
Lemma relay_describes : Forall2 (fun (e : @elem XR) o => describes (emat e) o) relay relay_o.
Proof. repeat apply Forall2_cons; try apply Forall2_nil; apply mat_of_describes. Qed.
Lemma relay_chain : chain relay_o.
Proof.
  split; [apply p_space; lra|]. split; [reflexivity|]. split; [apply p_lens|]. split; [reflexivity|].
  split; [apply p_space; lra|]. split; [reflexivity|]. split; [apply p_lens|]. split; [reflexivity|].
  split; [apply p_space; lra|]. exact I.
Qed.
Lemma symmetric_lens f : f <> 0 -> symmetric (o_lens f).
Proof.
  intros Hf. split; [apply p_lens|]. split; [reflexivity|]. split; [reflexivity|].
  apply mrev_sym; [reflexivity|]. unfold mdet; cbn. ring.
Qed.
Example C94_example : exists g, MatrixGroup_new relay "" = Ok g /\ gelems g = relay /\
  Forall2 (fun (e : @elem XR) o => describes (emat e) o) (transferMatrices (grp_elem g)) relay_o /\
  Forall single relay /\ chain relay_o /\ Forall (fun o => 0 <= oL o) [o_space 100 1; o_lens 50] /\
  Forall symmetric [o_space 100 1; o_lens 50] /\
  total_length [o_space 100 1; o_lens 50] < 250 < total_length [o_space 100 1; o_lens 50] + oL (o_space 200 1) /\
  focused relay_o 200 (-1) /\ focused (o_space 50 1 :: [o_lens 25; o_space 100 1]) 100 (-1) /\
  focused_from ([o_space 100 1; o_lens 50] ++ [o_space 100 1]) 200 (-1).
Proof.
  destruct (MatrixGroup_new_ok relay relay_o "" relay_describes relay_chain ltac:(discriminate)) as (g & E & Eg & _).
  exists g. split; [exact E|]. split; [exact Eg|].
  assert (Forall single relay) as HS by (repeat apply Forall_cons; try apply Forall_nil; reflexivity).
  split; [unfold grp_elem; cbn [transferMatrices]; rewrite Eg, flat_single by exact HS; exact relay_describes|].
  split; [exact HS|]. split; [exact relay_chain|].
  split; [repeat apply Forall_cons; try apply Forall_nil; cbn; lra|].
  split; [apply Forall_cons; [apply symmetric_space|apply Forall_cons; [apply symmetric_lens; lra|apply Forall_nil]]|].
  split; [unfold total_length; cbn; lra|].
  split; [|split].
  - exists [o_space 100 1; o_lens 50], [o_space 200 1; o_lens 50; o_space 100 1], 100.
    split; [discriminate|]. split; [reflexivity|]. split; [unfold total_length; cbn; lra|].
    intros y th. unfold leaves_at, mprod, mmul, free. cbn. field.
  - exists [o_space 50 1; o_lens 25], [o_space 100 1], 50.
    split; [discriminate|]. split; [reflexivity|]. split; [unfold total_length; cbn; lra|].
    intros y th. unfold leaves_at, mprod, mmul, free. cbn. field.
  - exists [o_space 100 1], [o_lens 50; o_space 100 1], 100.
    split; [discriminate|]. split; [reflexivity|]. split; [unfold total_length; cbn; lra|].
    split; [lra|]. intros y th. unfold leaves_at, mprod, mmul, free. cbn. field.
Qed.
