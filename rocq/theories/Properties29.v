(** Property theorems: figures of laser cavities (C92), the space to an image (C29), displayWithObject (C89) and the
    printed hierarchy of classes (C101). *)
From Coq Require Import Reals Lra List Bool String ZArith Floats Lia.
From Verif Require Import Base Nums Optics Group Spec MatrixProofs ElementProofs GroupProofs TraceProofs RayProofs
  CardinalProofs StrictProofs Samples Beam BeamProofs BeamMore BeamFigure BeamFigureProofs CavityFigure Imaging
  GroupRefutations ImagingRefutations EfficiencyRefutations
  Display DisplayProofs DisplayRefutations Classes ClassProofs RemainingProofs.
Import ListNotations.
Set Warnings "-inexact-float".
Open Scope string_scope.
Open Scope list_scope.
Open Scope R_scope.

(** ** C92 *)
(** the figure of a stable cavity in air shows its only mode, from one end to the other, and the width at the end of
    the round trip is the width at its start; an unstable cavity is shown without a beam *)
Theorem C92_cavity : forall (N : nat) (es : list (@elem XR)) os ps len, (1 <= N)%nat ->
  Forall2 canon es os -> Forall2 true_space es os -> chain os -> os <> [] ->
  Forall2 piece_of (flat_map leaves es) ps -> matched 1 ps ->
  onf (hd o_aperture os) = 1 -> onb (last os o_aperture) = 1 ->
  let M := mprod (map oM os) in 1 / 100000 < Rabs (C_ M) ->
  exists g, MatrixGroup_new es "" = Ok g /\
    ((A_ M + D_ M) * (A_ M + D_ M) < 4 ->
     exists q, round_trip M q /\ 0 < snd q /\ (forall q', round_trip M q' -> 0 < snd q' -> q' = q) /\
     let wl := 6328 / 10000000 in
     exists xs ws bs, LaserCavity_display N (Fin len) g =
         Ok ([(map Fin xs, map Fin ws); (map Fin xs, map (fun w => Fin (- w)) ws)],
             flat_map (arrows_for (total_length os) len wl) bs) /\
       Forall2 (fun x w => exists q' n', beam_at ps q 1 x q' n' /\ 0 < snd q' /\ 0 < n' /\ w = w_spec q' wl n') xs ws /\
       hd_error xs = Some 0 /\ last xs 0 = total_length ps /\
       hd_error ws = Some (w_spec q wl 1) /\ last ws 0 = w_spec q wl 1 /\
       Forall (fun p => exists n', beam_at ps q 1 (fst p) (snd p) n') bs) /\
    (4 <= (A_ M + D_ M) * (A_ M + D_ M) -> LaserCavity_display N (Fin len) g = Ok ([], [])).
Proof. exact cavity_figure. Qed.
Print Assumptions C92_cavity.

(** a lens between two spaces: stable for f = 50, unstable for f = 2 *)
Example C92_cavity_example : let es f := [x_space 10 1; x_lens f 25; x_space 10 1] in
  let os f := [o_space 10 1; o_lens f; o_space 10 1] in
  let M f := mprod (map oM (os f)) in
  (forall f, f = 50 \/ f = 2 -> Forall2 canon (es f) (os f) /\ Forall2 true_space (es f) (os f) /\ chain (os f) /\
    Forall2 piece_of (flat_map leaves (es f)) (os f) /\ matched 1 (os f) /\
    onf (hd o_aperture (os f)) = 1 /\ onb (last (os f) o_aperture) = 1 /\ 1 / 100000 < Rabs (C_ (M f))) /\
  (A_ (M 50) + D_ (M 50)) * (A_ (M 50) + D_ (M 50)) < 4 /\ 4 <= (A_ (M 2) + D_ (M 2)) * (A_ (M 2) + D_ (M 2)).
Proof.
  cbv zeta. split; [|split; cbn; lra]. intros f Hf.
  assert (Forall positive_leaf (flat_map leaves [x_space 10 1; x_lens f 25; x_space 10 1])) as P.
  { cbn [flat_map leaves app x_space x_lens].
    repeat apply Forall_cons; try apply Forall_nil; (split; [cbn; lra|split; [cbn; lra|exact I]]). }
  split; [repeat apply Forall2_cons; try apply Forall2_nil; try apply c_lens; apply c_space; lra|].
  split; [repeat apply Forall2_cons; try apply Forall2_nil; intros H; try discriminate; reflexivity|].
  split; [split; [apply p_space; lra|]; split; [reflexivity|]; split; [apply p_lens|]; split; [reflexivity|];
          split; [apply p_space; lra|exact I]|].
  split.
  { cbn [flat_map leaves app x_space x_lens] in *.
    repeat match goal with H : Forall _ (_ :: _) |- _ => inversion_clear H end.
    repeat apply Forall2_cons; try apply Forall2_nil;
    (split; [apply mat_of_describes|]; split; [first [apply p_space; lra|apply p_lens]|];
     split; [assumption|intros K; first [discriminate|reflexivity]]). }
  split; [split; [reflexivity|]; split; [apply p_space; lra|]; split; [reflexivity|]; split; [apply p_lens|];
          split; [reflexivity|]; split; [apply p_space; lra|exact I]|].
  split; [reflexivity|]. split; [reflexivity|].
  destruct Hf as [-> | ->]; cbn; rewrite Rabs_left; lra.
Qed.

(** ** C29 *)
(** ToConjugate(element) is the space to the image of the front of the element: after it B = 0, so that where light
    arrives depends on where it started only *)
Theorem C29_to_conjugate : forall (e : @elem XR) o, canon e o -> D_ (oM o) <> 0 ->
  let d := - B_ (oM o) / D_ (oM o) in
  exists s g, ToConjugate (emat e) = Ok s /\ isSpace s = true /\ mL (emat s) = Fin d /\
    MatrixGroupE [e; s] = Ok g /\
    mA (emat g) = Fin (A_ (oM o) + d * C_ (oM o)) /\ mB (emat g) = Fin 0 /\ mC (emat g) = Fin (C_ (oM o)) /\
    mD (emat g) = Fin (D_ (oM o)) /\ mL (emat g) = Fin (oL o + d) /\
    (forall y th, mapp (mmul (free d) (oM o)) (y, th) =
       ((A_ (oM o) + d * C_ (oM o)) * y, C_ (oM o) * y + D_ (oM o) * th)).
Proof. exact to_conjugate. Qed.
Print Assumptions C29_to_conjugate.
(** an image at infinity raises *)
Theorem C29_to_conjugate_none : forall (e : @elem XR) o,
  canon e o -> D_ (oM o) = 0 -> ToConjugate (emat e) = Err ValueError.
Proof. exact to_conjugate_none. Qed.
Print Assumptions C29_to_conjugate_none.
(** an object 100 in front of a lens of focal length 50, and one in its focal plane *)
Example C29_to_conjugate_example :
  exists e o e' o', canon e o /\ oM o = mk2 1 100 (-1 / 50) (-1) /\ canon e' o' /\ D_ (oM o') = 0.
Proof.
  assert (forall d, exists e, canon e (path_optic (o_space d 1) [o_lens 50])) as K.
  { intros d.
    assert (Forall2 canon [x_space d 1; x_lens 50 25] [o_space d 1; o_lens 50]) as F
      by (repeat apply Forall2_cons; try apply Forall2_nil; try apply c_lens; apply c_space; lra).
    destruct (MatrixGroup_canon _ _ "" F) as (g & _ & _ & _ & _ & _ & _ & G);
      [split; [apply p_space; lra|]; split; [reflexivity|]; split; [apply p_lens|exact I]
      |right; intros o t [= <- _]; reflexivity|discriminate|].
    exists (grp_elem g). exact (G _ _ eq_refl). }
  destruct (K 100) as [e He], (K 50) as [e' He']. eexists e, _, e', _.
  split; [exact He|]. split; [apply M2_eq; cbn; lra|]. split; [exact He'|]. cbn. lra.
Qed.

(** ** C89 *)
(** displayWithObject shows the one object asked for, whatever the settings about objects; all other settings of the
    user are in force, and the diameter becomes the object height *)
Theorem C89_with_object : forall T (N : Num T) e fuel drange pytan (p : @path T) diameter fan remove x p' l d,
  displayWithObject e fuel drange pytan p diameter fan remove = (x, p', l, d) ->
  p_height p' = diameter /\
  (forall f, d = Some f -> x = None /\ d_rays f = [Obj diameter] /\
     d_params f RemoveBlockedRaysCompletely = SBool remove /\
     d_params f LimitObjectToFieldOfView = SBool false /\ d_params f OnlyPrincipalAndAxialRays = SBool false /\
     d_object f = negb (flag p ShowFOV) /\
     (forall k, user_key k = true -> k <> RemoveBlockedRaysCompletely -> k <> LimitObjectToFieldOfView ->
        k <> OnlyPrincipalAndAxialRays -> d_params f k = designParams (p_fig p) k)) /\
  (d = None -> x <> None) /\
  (special_rays e fuel = Ok tt -> fan <> None -> exists f, d = Some f).
Proof. exact @with_object. Qed.
Print Assumptions C89_with_object.
Example C89_with_object_example : exists e, is_two_apertures e /\ special_rays e 100 = Ok tt /\
  user_key RayColors = true /\
  snd (displayWithObject e 100 (Ok (fz 30)) (fun x => x) ImagingPath_new (fz 7) (Some (fz 1)) true) <> None.
Proof.
  exists two_apertures. split; [exact two_apertures_built|]. split; [vm_compute; reflexivity|].
  split; [reflexivity|]. vm_compute. discriminate.
Qed.

(** ** C101 *)
(** printClassHierarchy: between a fixed start and end, the arrow of a name to another is printed exactly when a class
    of the first name has a direct subclass of the second name (names contain no quotes) *)
Theorem C101_text : forall c, plain_names c = true ->
  exists first last middle, printClassHierarchy c = (first ++ middle ++ last)%list /\
    first = ["# Paste this in the text field of http://www.graphviz.org"; "digraph G {"; "  rankdir=""LR"";"] /\ last = ["}"] /\
    forall a b, no_quote a = true -> no_quote b = true ->
      (In ("""" ++ a ++ """ -> """ ++ b ++ """")%string middle <->
       exists p d, (p = c \/ derived c p) /\ In d (subclasses p) /\ class_name p = a /\ class_name d = b).
Proof. exact printed_text. Qed.
Print Assumptions C101_text.
Example C101_text_example :
  plain_names (Class "MatrixGroup" [Class "CompoundLens" [Class "SingletLens" []]; Class "ImagingPath" []]) = true.
Proof. reflexivity. Qed.
