(** Property theorems C92: the figures of laser paths.  Each theorem is closed by a lemma proved
    elsewhere; the examples show that its hypotheses can be met. *)
From Coq Require Import Reals Lra List Bool String ZArith Floats Lia.
From Verif Require Import Base Nums Optics Group Spec MatrixProofs ElementProofs GroupProofs
  TraceProofs RayProofs CardinalProofs StrictProofs FlipProofs Samples Beam BeamProofs BeamMore GroupRefutations
  BeamRefutations Properties4 BeamFigure BeamFigureProofs BeamFigureRefutations.
Import ListNotations.
Set Warnings "-inexact-float".
Open Scope string_scope.
Open Scope list_scope.
Open Scope R_scope.

(** ** C92 *)
(** the two lines of the figure: they are mirror images, they start at the entrance and end at the exit, and each
    of their points is the width of the true beam there, from the given beam to the beam after all pieces ([beam_at]: the complex radius after the first pieces of
    the path and some distance into the next when it is a space; [w_spec]: its width in that medium) *)
Theorem C92_lines : forall (N : nat) (es : list (@elem XR)) os ps, (1 <= N)%nat ->
  Forall2 canon es os -> Forall2 true_space es os -> chain os -> os <> [] ->
  Forall2 piece_of (flat_map leaves es) ps -> let n := onf (hd o_aperture os) in matched n ps -> 0 < n ->
  exists g, MatrixGroup_new es "" = Ok g /\
    forall q wl cl, 0 < snd q -> 0 < wl ->
    exists xs ws, beamTraceLines N g (fbeam q wl 0 n cl) =
        Ok [(map Fin xs, map Fin ws); (map Fin xs, map (fun w => Fin (- w)) ws)] /\
      Forall2 (fun x w => exists q' n', beam_at ps q n x q' n' /\ 0 < snd q' /\ 0 < n' /\ w = w_spec q' wl n') xs ws /\
      hd_error xs = Some 0 /\ last xs 0 = total_length ps /\
      hd_error ws = Some (w_spec q wl n) /\ last ws 0 = w_spec (after ps q) wl (index_after n ps).
Proof. exact drawn_lines. Qed.
Print Assumptions C92_lines.

(** the arrows: two for each beam of the trace whose waist, continued straight on, is inside the path *)
Theorem C92_marks : forall (es : list (@elem XR)) os ps,
  Forall2 canon es os -> chain os -> os <> [] -> Forall2 piece_of (flat_map leaves es) ps ->
  let n := onf (hd o_aperture os) in matched n ps -> 0 < n ->
  exists g, MatrixGroup_new es "" = Ok g /\
    forall q wl cl len, 0 < snd q -> 0 < wl ->
    exists bs l, beam_trace (grp_elem g) (fbeam q wl 0 n cl) = Ok l /\
      map (fun b : @beam XR => (bz b, bq b)) l = map (fun p => (Fin (fst p), fcx (snd p))) bs /\
      Forall (fun p => exists n', beam_at ps q n (fst p) (snd p) n') bs /\
      beamWaistAnnotations (Fin len) g (fbeam q wl 0 n cl) = Ok (flat_map (arrows_for (total_length os) len wl) bs).
Proof. exact waist_marks. Qed.
Print Assumptions C92_marks.

(** the marked place is the only narrowest place; the marked width is the width there times the root of the index *)
Theorem C92_narrowest : forall q wl n, 0 < snd q -> 0 < wl -> 0 < n ->
  (forall t, w_spec (further q (- fst q)) wl n <= w_spec (further q t) wl n) /\
  (forall t, w_spec (further q t) wl n = w_spec (further q (- fst q)) wl n -> t = - fst q) /\
  R_sqrt.sqrt (snd q * wl / PI) = R_sqrt.sqrt n * w_spec (further q (- fst q)) wl n.
Proof. exact narrowest. Qed.
Print Assumptions C92_narrowest.

(** in glass the arrows do not touch the beam *)
Theorem C92_marks_in_glass_refuted :
  exists s g b x w a, Space (fz 10) n15 ninf = Ok s /\ MatrixGroup_new [s] "" = Ok g /\
    GaussianBeam None (Some c1) ninf n15 wl_default c0 = Ok b /\
    match LaserPath_display 2 c1 g (Some b) None with
    | Ok (((x' :: _, w' :: _) :: _), a' :: _) => x' = x /\ w' = w /\ a' = a
    | _ => False
    end /\
    fst (a_to a) = x /\ nltb w (ndec 101 2) = true /\ nltb (ndec 12 1) (snd (a_to a)) = true.
Proof. exact wide_mark. Qed.
Print Assumptions C92_marks_in_glass_refuted.

(** no beam can be drawn through a path with an axicon in it, however deep *)
Theorem C92_axicon : forall (e : @elem XR) n a m, In (KAxicon n a, m) (leaves e) ->
  forall b l, beam_trace e b <> Ok l.
Proof. exact axicon_refuses. Qed.
Print Assumptions C92_axicon.

Lemma sample_pieces : Forall2 piece_of (flat_map leaves sample) sample_o.
Proof.
  pose proof sample_positive as P. cbn [sample flat_map leaves app x_space x_thick x_lens] in *.
  repeat match goal with H : Forall _ (_ :: _) |- _ => inversion_clear H end.
  repeat apply Forall2_cons; try apply Forall2_nil;
    (split; [apply mat_of_describes|]; split; [first [apply p_space; lra|apply p_lens|apply p_thick; lra]|];
     split; [assumption|intros K; first [discriminate|reflexivity]]).
Qed.
Lemma sample_matched : matched (onf (hd o_aperture sample_o)) sample_o.
Proof. split; [reflexivity|exact sample_chain]. Qed.
Example C92_example : Forall2 canon sample sample_o /\ Forall2 true_space sample sample_o /\ chain sample_o /\
  sample_o <> [] /\ Forall2 piece_of (flat_map leaves sample) sample_o /\
  matched (onf (hd o_aperture sample_o)) sample_o /\ 0 < onf (hd o_aperture sample_o).
Proof.
  split; [exact sample_canon|]. split; [exact sample_spaces|]. split; [exact sample_chain|].
  split; [discriminate|]. split; [exact sample_pieces|]. split; [exact sample_matched|]. cbn. lra.
Qed.
(** a waist is drawn: one inside a path of one space *)
Example C92_arrows_example : arrows_for 10 1 (1/2) (0, (-4, PI)) =
  [mkArrow (Fin 4, Fin (R_sqrt.sqrt (1/2) + 1)) (Fin 4, Fin (R_sqrt.sqrt (1/2)));
   mkArrow (Fin 4, Fin (- (R_sqrt.sqrt (1/2) + 1))) (Fin 4, Fin (- R_sqrt.sqrt (1/2)))].
Proof.
  pose proof PI_RGT_0. unfold arrows_for. cbn [fst snd]. replace (0 - -4) with 4 by lra.
  replace (PI * (1/2) / PI) with (1/2) by (field; lra).
  destruct (Rle_dec 0 4); [|lra]. destruct (Rle_dec 4 10); [|lra]. reflexivity.
Qed.
Example C92_axicon_example : exists (e : @elem XR) n a m, In (KAxicon n a, m) (leaves e).
Proof.
  pose (m := mat_of o_aperture PInf PInf false "").
  exists (Group GGroup m [Leaf (KAxicon (Fin (3/2)) (Fin 1)) m]), (Fin (3/2)), (Fin 1), m. left. reflexivity.
Qed.
