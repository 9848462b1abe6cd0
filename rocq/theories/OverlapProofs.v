(** Proofs about the placement of labels (Overlap.v). *)
From Coq Require Import ZArith List Bool Reals Lra Lia.
From Verif Require Import Base Nums MaterialsProofs Overlap.
Import ListNotations.
Open Scope R_scope.

Local Notation lab := (label XR).
Local Notation box := (bbox XR).
Definition rl (x d o u a b y0 y1 : R) : lab := mkLabel (Fin x) (Fin d) (Fin o) (Fin u) (Fin a) (Fin b) (Fin y0) (Fin y1).
Definition rb (x0 x1 y0 y1 : R) : box := mkBox (Fin x0) (Fin x1) (Fin y0) (Fin y1).
(** all the numbers of a label or of a box are finite *)
Definition finite_label (l : lab) : Prop := exists x d o u a b y0 y1, l = rl x d o u a b y0 y1.
Definition finite_box (v : box) : Prop := exists x0 x1 y0 y1, v = rb x0 x1 y0 y1.
(** [m] is [l] moved sideways *)
Definition moved (l m : lab) : Prop := exists d, m = translate l (Fin d).

Lemma label_eq (x d o u a b y0 y1 x' d' : R) : x = x' -> d = d' -> rl x d o u a b y0 y1 = rl x' d' o u a b y0 y1.
Proof. intros -> ->. reflexivity. Qed.
Lemma translate_real x d o u a b y0 y1 dx : translate (rl x d o u a b y0 y1) (Fin dx) = rl (x + dx) (d + dx) o u a b y0 y1.
Proof. reflexivity. Qed.
Lemma reset_real x d o u a b y0 y1 : resetPosition (rl x d o u a b y0 y1) = rl (x - d) 0 o u a b y0 y1.
Proof. reflexivity. Qed.
Lemma moved_refl l : finite_label l -> moved l l.
Proof. intros (x & d & o & u & a & b & y0 & y1 & ->). exists 0. rewrite translate_real. apply label_eq; lra. Qed.
Lemma moved_trans l m n : finite_label l -> moved l m -> moved m n -> moved l n.
Proof.
  intros (x & d & o & u & a & b & y0 & y1 & ->) [e ->] [f ->]. exists (e + f). rewrite !translate_real.
  apply label_eq; lra.
Qed.
Lemma moved_finite l m : finite_label l -> moved l m -> finite_label m.
Proof. intros (x & d & o & u & a & b & y0 & y1 & ->) [e ->]. rewrite translate_real. repeat eexists. Qed.
Lemma moved_reset l m : finite_label l -> moved l m -> resetPosition m = resetPosition l.
Proof.
  intros (x & d & o & u & a & b & y0 & y1 & ->) [e ->]. rewrite translate_real, !reset_real. apply label_eq; lra.
Qed.
Lemma reset_finite l : finite_label l -> finite_label (resetPosition l).
Proof. intros (x & d & o & u & a & b & y0 & y1 & ->). rewrite reset_real. repeat eexists. Qed.
Lemma reset_reset l : finite_label l -> resetPosition (resetPosition l) = resetPosition l.
Proof. intros (x & d & o & u & a & b & y0 & y1 & ->). rewrite !reset_real. apply label_eq; lra. Qed.

Lemma text_box_real x d o u a b y0 y1 : text_box (rl x d o u a b y0 y1) = rb (o + u * x + a) (o + u * x + b) y0 y1.
Proof. reflexivity. Qed.
Lemma tmax_real a b : tmax (Fin a) (Fin b) = Fin (Rmax a b).
Proof.
  unfold tmax. change (nltb (Fin a) (Fin b)) with (Rltb a b). unfold Rltb, Rmax.
  destruct (Rlt_dec a b), (Rle_dec a b); f_equal; try reflexivity; lra.
Qed.
Lemma tmin_real a b : tmin (Fin a) (Fin b) = Fin (Rmin a b).
Proof.
  unfold tmin. change (nltb (Fin b) (Fin a)) with (Rltb b a). unfold Rltb, Rmin.
  destruct (Rlt_dec b a), (Rle_dec a b); f_equal; try reflexivity; lra.
Qed.
Lemma cut_real x0 x1 y0 y1 p q s t : cut (rb x0 x1 y0 y1) (rb p q s t) =
  let c := rb (Rmax x0 p) (Rmin x1 q) (Rmax y0 s) (Rmin y1 t) in
  if Rleb (Rmax x0 p) (Rmin x1 q) && Rleb (Rmax y0 s) (Rmin y1 t) then Some c else None.
Proof.
  unfold cut, rb. cbn [bx0 bx1 by0 by1]. rewrite !tmax_real, !tmin_real. reflexivity.
Qed.
Lemma half_real d : ndiv (Fin d) (@c2 XR _) = Fin (d / 2).
Proof. apply xdiv_fin. lra. Qed.
Lemma expanded_real x0 x1 y0 y1 : expanded (rb x0 x1 y0 y1) = rb (x0 - (x1 - x0) / 10) (x1 + (x1 - x0) / 10) y0 y1.
Proof.
  unfold expanded, rb. cbn [bx0 bx1 by0 by1]. rewrite ndec_xr by lia.
  change (nsub (Fin x1) (Fin x0)) with (Fin (x1 - x0)).
  change (nmul (Fin (12 / IZR (10 ^ 1))) (Fin (x1 - x0))) with (Fin (12 / IZR (10 ^ 1) * (x1 - x0))).
  change (nsub (Fin ?a) (Fin ?b)) with (Fin (a - b)). rewrite half_real.
  change (nsub (Fin x0) (Fin ?b)) with (Fin (x0 - b)). change (nadd (Fin x1) (Fin ?b)) with (Fin (x1 + b)).
  change (10 ^ 1)%Z with 10%Z. f_equal; f_equal; lra.
Qed.

Lemma boundingBox_finite (v : box) l b : finite_box v -> finite_label l -> boundingBox v l = Ok b -> finite_box b.
Proof.
  intros (x0 & x1 & y0 & y1 & ->) (x & d & o & u & a & e & z0 & z1 & ->). unfold boundingBox.
  rewrite text_box_real, cut_real. cbv zeta. destruct (_ && _); [|discriminate]. rewrite expanded_real.
  intros H. injection H as <-. repeat eexists.
Qed.
Lemma translateLabel_moved (v : box) b l dx : finite_box v -> finite_box b -> finite_label l ->
  moved l (translateLabel v b l (Fin dx)).
Proof.
  intros (x0 & x1 & y0 & y1 & ->) (p & q & s & t & ->) F. unfold translateLabel. cbn [bx0 bx1 rb].
  assert (finite_label (translate l (Fin dx))) as F1 by (apply (moved_finite l); [exact F|exists dx; reflexivity]).
  change (nadd (Fin ?a) (Fin ?b)) with (Fin (a + b)). change (nsub (Fin ?a) (Fin ?b)) with (Fin (a - b)).
  destruct (nltb _ _); [|destruct (nltb _ _)]; try (exists dx; reflexivity);
  (apply (moved_trans l (translate l (Fin dx))); [exact F|exists dx; reflexivity|eexists; reflexivity]).
Qed.
Lemma spacing_finite a b : finite_box a -> finite_box b -> exists r, requiredSpacing a b = Fin r.
Proof.
  intros (x0 & x1 & y0 & y1 & ->) (p & q & s & t & ->). unfold requiredSpacing. cbn [bx0 bx1 rb].
  destruct (nltb _ _); eexists; reflexivity.
Qed.

Definition all_moved (ls ms : list lab) : Prop := Forall2 moved ls ms.
Lemma all_moved_refl ls : Forall finite_label ls -> all_moved ls ls.
Proof. induction 1; constructor; [now apply moved_refl|assumption]. Qed.
Lemma all_moved_trans : forall ls ms ns, Forall finite_label ls -> all_moved ls ms -> all_moved ms ns -> all_moved ls ns.
Proof.
  intros ls ms ns F H. revert ns F. induction H; intros ns F K; inversion K; subst; constructor; inversion_clear F.
  - eapply moved_trans; eauto.
  - now apply IHForall2.
Qed.
Lemma all_moved_finite ls ms : Forall finite_label ls -> all_moved ls ms -> Forall finite_label ms.
Proof. intros F H. induction H; [constructor|]. inversion_clear F. constructor; [eapply moved_finite; eauto|auto]. Qed.
Lemma at_index_moved f : (forall l, finite_label l -> moved l (f l)) -> forall ls n, Forall finite_label ls -> all_moved ls (at_index n f ls).
Proof.
  intros H. induction ls as [|l ls IH]; intros n F; [destruct n; constructor|]. inversion_clear F.
  destruct n; cbn; constructor; auto using moved_refl, all_moved_refl. now apply all_moved_refl. now apply IH.
Qed.
Lemma nth_finite bs n : Forall finite_box bs -> finite_box (nth n bs no_box).
Proof.
  intros F. revert n. induction F; intros [|n]; cbn; auto; unfold no_box; repeat eexists.
Qed.
Lemma one_pair_moved (v : box) bs s p : finite_box v -> Forall finite_box bs -> Forall finite_label (fst s) ->
  all_moved (fst s) (fst (one_pair v bs s p)).
Proof.
  intros V B F. unfold one_pair. destruct (overlaps _ _); [|now apply all_moved_refl]. cbv zeta. cbn [fst].
  pose proof (nth_finite bs (fst p) B) as B1. pose proof (nth_finite bs (snd p) B) as B2.
  destruct (spacing_finite _ _ B1 B2) as [r ->]. change (nopp (Fin r)) with (Fin (- r)). rewrite !half_real.
  assert (K : forall b, finite_box b -> forall d l, finite_label l -> moved l (translateLabel v b l (Fin d)))
    by (intros; now apply translateLabel_moved).
  pose proof (at_index_moved _ (K _ B1 (- r / 2)) (fst s) (fst p) F) as M1.
  eapply all_moved_trans; [exact F|exact M1|]. apply at_index_moved; [apply K; exact B2|].
  eapply all_moved_finite; eauto.
Qed.
Lemma pairs_moved (v : box) (bs : list box) : finite_box v -> Forall finite_box bs -> forall ps s, Forall finite_label (fst s) ->
  all_moved (fst s) (fst (fold_left (one_pair v bs) ps s)).
Proof.
  intros V B. induction ps as [|p ps IH]; intros s F; [now apply all_moved_refl|]. cbn [fold_left].
  pose proof (one_pair_moved v bs s p V B F) as M. eapply all_moved_trans; [exact F|exact M|]. apply IH.
  eapply all_moved_finite; eauto.
Qed.
Lemma all_boxes_finite (v : box) : finite_box v -> forall ls bs, Forall finite_label ls -> all_boxes v ls = Ok bs -> Forall finite_box bs.
Proof.
  intros V. induction ls as [|l ls IH]; intros bs F; cbn [all_boxes]; [intros H; injection H as <-; constructor|].
  inversion_clear F. destruct (boundingBox v l) as [b|] eqn:E; [|discriminate]. cbn [bind].
  destruct (all_boxes v ls) as [cs|]; [|discriminate]. cbn [bind]. intros K. injection K as <-.
  constructor; [eapply boundingBox_finite; eauto|now apply IH].
Qed.
Lemma one_round_moved (v : box) ls r : finite_box v -> Forall finite_label ls -> one_round v ls = Ok r -> all_moved ls (fst r).
Proof.
  intros V F. unfold one_round. destruct (all_boxes v ls) as [bs|] eqn:E; [|discriminate]. cbn [bind].
  intros H. injection H as <-. apply (pairs_moved v bs V (all_boxes_finite v V ls bs F E) _ (ls, true)). exact F.
Qed.
Lemma rounds_moved (v : box) : finite_box v -> forall n ls ms, Forall finite_label ls -> rounds n v ls = Ok ms -> all_moved ls ms.
Proof.
  intros V. induction n as [|n IH]; intros ls ms F; cbn [rounds]; [intros H; injection H as <-; now apply all_moved_refl|].
  destruct (one_round v ls) as [r|] eqn:E; [|discriminate]. cbn [bind]. pose proof (one_round_moved v ls r V F E) as M.
  destruct (snd r); [intros H; injection H as <-; exact M|]. intros H.
  eapply all_moved_trans; [exact F|exact M|]. apply IH; [eapply all_moved_finite; eauto|exact H].
Qed.
Lemma fix_moved (v : box) ls ms : finite_box v -> Forall finite_label ls -> fixLabelOverlaps v ls = Ok ms -> all_moved ls ms.
Proof.
  intros V F. unfold fixLabelOverlaps. destruct (length ls <? 2)%nat; [intros H; injection H as <-; now apply all_moved_refl|].
  now apply rounds_moved.
Qed.
Lemma put_back_moved (v : box) : forall ls ms, Forall finite_label ls -> all_moved (filter (isRenderedOn v) ls) ms ->
  all_moved ls (put_back v ls ms).
Proof.
  induction ls as [|l ls IH]; intros ms F M; [constructor|]. inversion_clear F. cbn [filter put_back] in *.
  destruct (isRenderedOn v l).
  - inversion M; subst. constructor; [assumption|now apply IH].
  - constructor; [now apply moved_refl|now apply IH].
Qed.
Lemma resets_finite ls : Forall finite_label ls -> Forall finite_label (map resetPosition ls).
Proof. induction 1; constructor; [now apply reset_finite|assumption]. Qed.
Lemma filter_finite (f : lab -> bool) ls : Forall finite_label ls -> Forall finite_label (filter f ls).
Proof. induction 1; cbn; [constructor|]. destruct (f x); [constructor|]; assumption. Qed.

(** the labels are only moved sideways, all of them are kept *)
Lemma update_moved (v : box) ls ms : finite_box v -> Forall finite_label ls -> updateLabels v ls = Ok ms ->
  all_moved (map resetPosition ls) ms.
Proof.
  intros V F. unfold updateLabels. destruct (fixLabelOverlaps _ _) as [m|] eqn:E; [|discriminate]. cbn [bind].
  intros H. injection H as <-. apply put_back_moved; [now apply resets_finite|].
  eapply fix_moved; [exact V| |exact E]. apply filter_finite. now apply resets_finite.
Qed.
(** resetting brings every label back where it was *)
Lemma update_reset (v : box) ls ms : finite_box v -> Forall finite_label ls -> updateLabels v ls = Ok ms ->
  map resetPosition ms = map resetPosition ls.
Proof.
  intros V F H. pose proof (update_moved v ls ms V F H) as M. clear H. revert ms M.
  induction F as [|l ls Hl F IH]; intros ms M; inversion M; subst; [reflexivity|]. cbn [map]. f_equal; [|now apply IH].
  rewrite (moved_reset (resetPosition l)); [now apply reset_reset|now apply reset_finite|assumption].
Qed.
(** what was shown before does not matter *)
Lemma update_again (v : box) w ls ms : finite_box v -> Forall finite_label ls -> updateLabels v ls = Ok ms ->
  updateLabels w ms = updateLabels w ls.
Proof. intros V F H. unfold updateLabels. now rewrite (update_reset v ls ms V F H). Qed.

(** no two of the labels touch *)
Definition apart (v : box) (ls : list lab) : Prop :=
  ForallOrdPairs (fun l m => forall b c, boundingBox v l = Ok b -> boundingBox v m = Ok c -> overlaps b c = false) ls.
Lemma all_boxes_nth (v : box) : forall ls bs i b, all_boxes v ls = Ok bs -> nth_error bs i = Some b ->
  exists l, nth_error ls i = Some l /\ boundingBox v l = Ok b.
Proof.
  induction ls as [|l ls IH]; intros bs i b; cbn [all_boxes]; [intros H; injection H as <-; destruct i; discriminate|].
  destruct (boundingBox v l) as [b0|] eqn:E; [|discriminate]. cbn [bind].
  destruct (all_boxes v ls) as [cs|] eqn:K; [|discriminate]. cbn [bind]. intros H. injection H as <-.
  destruct i as [|i]; cbn; [intros H; injection H as <-; eauto|]. intros H. exact (IH cs i b eq_refl H).
Qed.
Lemma all_boxes_length (v : box) : forall ls bs, all_boxes v ls = Ok bs -> length bs = length ls.
Proof.
  induction ls as [|l ls IH]; intros bs; cbn [all_boxes]; [intros H; injection H as <-; reflexivity|].
  destruct (boundingBox v l) as [b0|]; [|discriminate]. cbn [bind].
  destruct (all_boxes v ls) as [cs|]; [|discriminate]. cbn [bind]. intros H. injection H as <-. cbn. f_equal. now apply IH.
Qed.
Lemma in_combinations : forall n k i j, In (i, j) (combinations (seq k n)) <-> (k <= i < j /\ j < k + n)%nat.
Proof.
  induction n as [|n IH]; intros k i j; cbn [seq combinations]; [split; [intros []|lia]|].
  rewrite in_app_iff, in_map_iff, IH. split.
  - intros [(x & E & Hx)|H]; [|lia]. injection E as <- <-. apply in_seq in Hx. lia.
  - intros H. destruct (Nat.eq_dec i k) as [->|]; [|right; lia]. left. exists j. split; [reflexivity|]. apply in_seq. lia.
Qed.
Lemma apart_nth (v : box) : forall ls, apart v ls -> forall i j l m, (i < j)%nat -> nth_error ls i = Some l -> nth_error ls j = Some m ->
  forall b c, boundingBox v l = Ok b -> boundingBox v m = Ok c -> overlaps b c = false.
Proof.
  induction 1 as [|l ls H A IH]; intros i j p q Hij Hp Hq; [destruct i; discriminate|].
  destruct j as [|j]; [lia|]. destruct i as [|i]; cbn in *.
  - injection Hp as <-. apply nth_error_In in Hq. rewrite Forall_forall in H. exact (H q Hq).
  - apply (IH i j); [lia|assumption|assumption].
Qed.
Lemma nth_apart (v : box) : forall ls, (forall i j l m, (i < j)%nat -> nth_error ls i = Some l -> nth_error ls j = Some m ->
  forall b c, boundingBox v l = Ok b -> boundingBox v m = Ok c -> overlaps b c = false) -> apart v ls.
Proof.
  induction ls as [|l ls IH]; intros H; [constructor|]. constructor.
  - apply Forall_forall. intros m Hm. apply In_nth_error in Hm as [j Hj]. exact (H 0%nat (S j) l m ltac:(lia) eq_refl Hj).
  - apply IH. intros i j p q Hij Hp Hq. exact (H (S i) (S j) p q ltac:(lia) Hp Hq).
Qed.
Lemma pairs_clean (v : box) (bs : list box) : forall ps s, (forall p, In p ps -> overlaps (nth (fst p) bs no_box) (nth (snd p) bs no_box) = false) ->
  fold_left (one_pair v bs) ps s = s.
Proof.
  induction ps as [|p ps IH]; intros s H; [reflexivity|]. cbn [fold_left]. unfold one_pair at 2.
  rewrite (H p (or_introl eq_refl)). apply IH. intros q Hq. apply H. now right.
Qed.
Lemma pairs_flag (v : box) (bs : list box) : forall ps s, snd (fold_left (one_pair v bs) ps s) = true ->
  fold_left (one_pair v bs) ps s = s /\ forall p, In p ps -> overlaps (nth (fst p) bs no_box) (nth (snd p) bs no_box) = false.
Proof.
  assert (D : forall ps ls, snd (fold_left (one_pair v bs) ps (ls, false)) = false).
  { induction ps as [|p ps IH]; intros ls; [reflexivity|]. cbn [fold_left]. unfold one_pair at 2.
    destruct (overlaps _ _); apply IH. }
  induction ps as [|p ps IH]; intros s H; [split; [reflexivity|intros p []]|]. cbn [fold_left] in *. unfold one_pair at 2 in H.
  unfold one_pair at 2. destruct (overlaps _ _) eqn:E; [cbv zeta in H; rewrite D in H; discriminate|].
  destruct (IH s H) as [K L]. split; [exact K|]. intros q [<-|Hq]; [exact E|now apply L].
Qed.
Lemma round_clean (v : box) ls bs : all_boxes v ls = Ok bs -> apart v ls -> one_round v ls = Ok (ls, true).
Proof.
  intros B A. unfold one_round. rewrite B. cbn [bind]. rewrite pairs_clean; [reflexivity|].
  intros [i j] H. apply in_combinations in H. cbn [fst snd]. pose proof (all_boxes_length v ls bs B) as L.
  assert (exists b, nth_error bs i = Some b) as [b Hb] by (destruct (nth_error bs i) eqn:E; eauto; apply nth_error_None in E; lia).
  assert (exists b, nth_error bs j = Some b) as [c Hc] by (destruct (nth_error bs j) eqn:E; eauto; apply nth_error_None in E; lia).
  rewrite (nth_error_nth _ _ _ Hb), (nth_error_nth _ _ _ Hc).
  destruct (all_boxes_nth v ls bs i b B Hb) as (l & Hl & Bl). destruct (all_boxes_nth v ls bs j c B Hc) as (m & Hm & Bm).
  exact (apart_nth v ls A i j l m ltac:(lia) Hl Hm b c Bl Bm).
Qed.
(** labels that do not touch stay where they are *)
Lemma fix_apart (v : box) ls bs : all_boxes v ls = Ok bs -> apart v ls -> fixLabelOverlaps v ls = Ok ls.
Proof.
  intros B A. unfold fixLabelOverlaps. destruct (length ls <? 2)%nat; [reflexivity|]. cbn [rounds].
  now rewrite (round_clean v ls bs B A).
Qed.
Lemma round_flag (v : box) ls ms : one_round v ls = Ok (ms, true) -> ms = ls /\ apart v ms.
Proof.
  unfold one_round. destruct (all_boxes v ls) as [bs|] eqn:B; [|discriminate]. cbn [bind]. intros H. injection H as H.
  pose proof (pairs_flag v bs (combinations (seq 0 (length ls))) (ls, true)) as P. rewrite H in P.
  destruct (P eq_refl) as [E O]. injection E as <-. split; [reflexivity|]. apply nth_apart.
  intros i j l m Hij Hl Hm b c Hb Hc. assert (j < length ms)%nat as Lj by (apply nth_error_Some; congruence).
  specialize (O (i, j)). cbn [fst snd] in O.
  assert (N : forall k p q, nth_error ms k = Some p -> boundingBox v p = Ok q -> nth k bs no_box = q).
  { intros k p q Hp Hq. assert (k < length bs)%nat as Lk by (rewrite (all_boxes_length v ms bs B); apply nth_error_Some; congruence).
    destruct (nth_error bs k) as [q'|] eqn:E; [|apply nth_error_None in E; lia].
    destruct (all_boxes_nth v ms bs k q' B E) as (p' & Hp' & Hq'). rewrite (nth_error_nth _ _ _ E). congruence. }
  rewrite <- (N i l b Hl Hb), <- (N j m c Hm Hc). apply O. apply in_combinations. lia.
Qed.
(** the labels are apart at the end, unless some were still moved by the fifth and last round *)
Lemma fix_stops (v : box) ls ms : (2 <= length ls)%nat -> fixLabelOverlaps v ls = Ok ms ->
  apart v ms \/ exists ks, one_round v ks = Ok (ms, false).
Proof.
  intros L. unfold fixLabelOverlaps. destruct (Nat.ltb_spec (length ls) 2) as [K|_]; [lia|].
  assert (G : forall n ls, rounds (S n) v ls = Ok ms -> apart v ms \/ exists ks, one_round v ks = Ok (ms, false)).
  { induction n as [|n IH]; intros ks; cbn [rounds]; destruct (one_round v ks) as [[k c]|] eqn:E; try discriminate; cbn [bind fst snd].
    - destruct c; intros H; injection H as <-; [left; now apply (round_flag v ks k)|right; eauto].
    - destruct c; [intros H; injection H as <-; left; now apply (round_flag v ks k)|]. apply IH. }
  apply (G 4%nat).
Qed.

(** two labels *)
(** the text of a label from [p] to [q] inside a display from [v0] to [v1] and from [w0] to [w1] *)
Definition inside (v0 v1 w0 w1 p q y0 y1 : R) : Prop := v0 <= p /\ p < q /\ q <= v1 /\ w0 <= y0 /\ y0 <= y1 /\ y1 <= w1.
Lemma box_inside v0 v1 w0 w1 x d o a b y0 y1 : inside v0 v1 w0 w1 (o + 1 * x + a) (o + 1 * x + b) y0 y1 ->
  boundingBox (rb v0 v1 w0 w1) (rl x d o 1 a b y0 y1) =
  Ok (rb (o + 1 * x + a - (b - a) / 10) (o + 1 * x + b + (b - a) / 10) y0 y1).
Proof.
  intros (H1 & H2 & H3 & H4 & H5 & H6). unfold boundingBox. rewrite text_box_real, cut_real. cbv zeta.
  rewrite (Rmax_right v0), (Rmax_right w0), (Rmin_right v1), (Rmin_right w1) by lra.
  rewrite !Rleb_le by lra. cbn [andb]. rewrite expanded_real. f_equal. f_equal; lra.
Qed.
Definition held (v0 v1 p q dx : R) : R := if Rltb (p + dx) v0 then v0 - p else if Rltb v1 (q + dx) then v1 - q else dx.
Lemma translateLabel_real v0 v1 w0 w1 p q s t x d o u a b y0 y1 dx :
  translateLabel (rb v0 v1 w0 w1) (rb p q s t) (rl x d o u a b y0 y1) (Fin dx) =
  rl (x + held v0 v1 p q dx) (d + held v0 v1 p q dx) o u a b y0 y1.
Proof.
  unfold translateLabel, held. cbn [bx0 bx1 rb]. rewrite translate_real.
  change (nltb (nadd (Fin p) (Fin dx)) (Fin v0)) with (Rltb (p + dx) v0).
  change (nltb (Fin v1) (nadd (Fin q) (Fin dx))) with (Rltb v1 (q + dx)).
  change (nsub (Fin v0) (nadd (Fin p) (Fin dx))) with (Fin (v0 - (p + dx))).
  change (nsub (Fin v1) (nadd (Fin q) (Fin dx))) with (Fin (v1 - (q + dx))).
  destruct (Rltb _ _); [|destruct (Rltb _ _)]; rewrite ?translate_real; apply label_eq; lra.
Qed.
Definition spacing (p q r s : R) : R := if Rltb q s then q - r else p - s.
Definition touching (p q y0 y1 r s z0 z1 : R) : bool := Rleb p s && Rleb r q && Rleb y0 z1 && Rleb z0 y1.
Lemma round_two (v : box) A B p q y0 y1 r s z0 z1 :
  boundingBox v A = Ok (rb p q y0 y1) -> boundingBox v B = Ok (rb r s z0 z1) ->
  one_round v [A; B] = Ok (if touching p q y0 y1 r s z0 z1 then
    ([translateLabel v (rb p q y0 y1) A (Fin (- spacing p q r s / 2)); translateLabel v (rb r s z0 z1) B (Fin (spacing p q r s / 2))], false)
    else ([A; B], true)).
Proof.
  intros HA HB. unfold one_round. cbn [all_boxes]. rewrite HA, HB. cbn [bind]. f_equal.
  change (combinations (seq 0 (length [A; B]))) with [(0%nat, 1%nat)]. cbn [fold_left]. unfold one_pair.
  cbn [fst snd nth].
  change (overlaps (rb p q y0 y1) (rb r s z0 z1)) with (touching p q y0 y1 r s z0 z1).
  destruct (touching _ _ _ _ _ _ _ _); [|reflexivity]. cbv zeta. cbn [at_index].
  assert (requiredSpacing (rb p q y0 y1) (rb r s z0 z1) = Fin (spacing p q r s)) as ->.
  { unfold requiredSpacing, spacing. cbn [bx0 bx1 rb]. change (nltb (Fin q) (Fin s)) with (Rltb q s).
    destruct (Rltb q s); reflexivity. }
  change (nopp (Fin (spacing p q r s))) with (Fin (- spacing p q r s)). now rewrite !half_real.
Qed.

(** two labels stay inside of the display *)
Lemma held_inside v0 v1 p q dx : q - p <= v1 - v0 -> v0 <= p + held v0 v1 p q dx /\ q + held v0 v1 p q dx <= v1.
Proof.
  intros H. unfold held, Rltb. destruct (Rlt_dec _ _); [lra|]. destruct (Rlt_dec _ _); lra.
Qed.
Definition fits (v0 v1 w0 w1 : R) (l : lab) : Prop :=
  exists x d o a b y0 y1, l = rl x d o 1 a b y0 y1 /\ inside v0 v1 w0 w1 (o + 1 * x + a) (o + 1 * x + b) y0 y1
    /\ 12 / 10 * (b - a) <= v1 - v0.
Lemma rounds_fit v0 v1 w0 w1 : forall n A B, fits v0 v1 w0 w1 A -> fits v0 v1 w0 w1 B ->
  exists A' B', rounds n (rb v0 v1 w0 w1) [A; B] = Ok [A'; B'] /\ fits v0 v1 w0 w1 A' /\ fits v0 v1 w0 w1 B'.
Proof.
  induction n as [|n IH]; intros A B FA FB; [exists A, B; auto|].
  pose proof FA as (x & d & o & a & b & y0 & y1 & -> & IA & WA). pose proof FB as (x' & d' & o' & a' & b' & z0 & z1 & -> & IB & WB).
  cbn [rounds]. erewrite round_two; [|apply box_inside; eassumption..]. cbn [bind].
  destruct (touching _ _ _ _ _ _ _ _); cbn [fst snd].
  - rewrite !translateLabel_real. set (h := held _ _ _ _ _). set (h' := held v0 v1 (o' + 1 * x' + a' - _) _ _).
    assert (v0 <= o + 1 * x + a - (b - a) / 10 + h /\ o + 1 * x + b + (b - a) / 10 + h <= v1) as [] by (apply held_inside; lra).
    assert (v0 <= o' + 1 * x' + a' - (b' - a') / 10 + h' /\ o' + 1 * x' + b' + (b' - a') / 10 + h' <= v1) as [] by (apply held_inside; lra).
    unfold inside in *. apply IH; eexists _, _, _, _, _, _, _; (split; [reflexivity|]); unfold inside; split; lra.
  - do 2 eexists. split; [reflexivity|]. split; assumption.
Qed.
Lemma fix_two_inside v0 v1 w0 w1 A B : fits v0 v1 w0 w1 A -> fits v0 v1 w0 w1 B ->
  exists A' B', fixLabelOverlaps (rb v0 v1 w0 w1) [A; B] = Ok [A'; B'] /\ fits v0 v1 w0 w1 A' /\ fits v0 v1 w0 w1 B'.
Proof. intros FA FB. apply (rounds_fit v0 v1 w0 w1 5 A B FA FB). Qed.

(** with room around them, two labels that touch are put side by side *)
Lemma rounds_still v0 v1 w0 w1 : forall n A B p q y0 y1 r s z0 z1,
  finite_label A -> finite_label B ->
  boundingBox (rb v0 v1 w0 w1) A = Ok (rb p q y0 y1) -> boundingBox (rb v0 v1 w0 w1) B = Ok (rb r s z0 z1) ->
  v0 <= p -> q <= v1 -> v0 <= r -> s <= v1 -> p < q -> r < s -> q = r \/ s = p ->
  rounds n (rb v0 v1 w0 w1) [A; B] = Ok [A; B].
Proof.
  induction n as [|n IH]; intros A B p q y0 y1 r s z0 z1 FA FB HA HB H1 H2 H3 H4 H5 H6 H7; [reflexivity|].
  cbn [rounds]. rewrite (round_two _ _ _ _ _ _ _ _ _ _ _ HA HB). cbn [bind].
  destruct (touching _ _ _ _ _ _ _ _); cbn [fst snd]; [|reflexivity].
  assert (spacing p q r s = 0) as ->.
  { unfold spacing. destruct H7; unfold Rltb; destruct (Rlt_dec q s); lra. }
  pose proof FA as (x & d & o & u & a & b & e & f & ->). pose proof FB as (x' & d' & o' & u' & a' & b' & e' & f' & ->).
  rewrite !translateLabel_real.
  assert (forall g h, v0 <= g -> h <= v1 -> forall z, z = 0 -> held v0 v1 g h z = 0) as Z.
  { intros g h G H z ->. unfold held, Rltb. destruct (Rlt_dec _ _); [lra|]. destruct (Rlt_dec _ _); lra. }
  rewrite !Z by lra. rewrite !Rplus_0_r. eapply IH; eassumption.
Qed.
Lemma rounds_S n (v : box) ls : rounds (S n) v ls = bind (one_round v ls) (fun r => if snd r then Ok (fst r) else rounds n v (fst r)).
Proof. reflexivity. Qed.
Lemma fix_two_apart v0 v1 w0 w1 x d o a b y0 y1 x' d' o' a' b' z0 z1 m :
  inside v0 v1 w0 w1 (o + x + a) (o + x + b) y0 y1 -> inside v0 v1 w0 w1 (o' + x' + a') (o' + x' + b') z0 z1 ->
  12 / 10 * (b - a) <= m -> 12 / 10 * (b' - a') <= m ->
  v0 + m <= o + x + a -> o + x + b <= v1 - m -> v0 + m <= o' + x' + a' -> o' + x' + b' <= v1 - m ->
  y0 <= z1 -> z0 <= y1 ->
  exists X X', fixLabelOverlaps (rb v0 v1 w0 w1) [rl x d o 1 a b y0 y1; rl x' d' o' 1 a' b' z0 z1] =
    Ok [rl X (d + (X - x)) o 1 a b y0 y1; rl X' (d' + (X' - x')) o' 1 a' b' z0 z1]
  /\ (o + X + b + (b - a + (b' - a')) / 10 <= o' + X' + a' \/ o' + X' + b' + (b - a + (b' - a')) / 10 <= o + X + a)
  /\ Rabs (X - x) <= m / 2 /\ X - x = - (X' - x').
Proof.
  intros IA IB Ma Mb Ra1 Ra2 Rb1 Rb2 Y1 Y2. unfold inside in *.
  assert (HA : boundingBox (rb v0 v1 w0 w1) (rl x d o 1 a b y0 y1) = Ok (rb (o + 1 * x + a - (b - a) / 10) (o + 1 * x + b + (b - a) / 10) y0 y1))
    by (apply box_inside; unfold inside; lra).
  assert (HB : boundingBox (rb v0 v1 w0 w1) (rl x' d' o' 1 a' b' z0 z1) = Ok (rb (o' + 1 * x' + a' - (b' - a') / 10) (o' + 1 * x' + b' + (b' - a') / 10) z0 z1))
    by (apply box_inside; unfold inside; lra).
  unfold fixLabelOverlaps. cbn [length Nat.ltb Nat.leb]. rewrite rounds_S. rewrite (round_two _ _ _ _ _ _ _ _ _ _ _ HA HB). cbn [bind].
  set (p := o + 1 * x + a - (b - a) / 10) in *. set (q := o + 1 * x + b + (b - a) / 10) in *.
  set (r := o' + 1 * x' + a' - (b' - a') / 10) in *. set (s := o' + 1 * x' + b' + (b' - a') / 10) in *.
  destruct (touching p q y0 y1 r s z0 z1) eqn:E; cbn [fst snd].
  - unfold touching in E. apply andb_true_iff in E as [E _]. apply andb_true_iff in E as [E _]. apply andb_true_iff in E as [E1 E2].
    apply Rleb_true in E1. apply Rleb_true in E2.
    set (k := spacing p q r s).
    assert (Hk : Rabs k <= m /\ ((q < s /\ k = q - r) \/ (s <= q /\ k = p - s))).
    { unfold k, spacing, Rltb. destruct (Rlt_dec q s).
      - split; [|left; split; lra]. rewrite Rabs_pos_eq by lra. unfold p, q, r, s in *. lra.
      - split; [|right; split; lra]. rewrite Rabs_left1 by lra. unfold p, q, r, s in *. lra. }
    destruct Hk as [Hm Hk]. rewrite !translateLabel_real.
    assert (forall g h z, v0 + m / 2 <= g -> h <= v1 - m / 2 -> Rabs z <= m / 2 -> held v0 v1 g h z = z) as Z.
    { intros g h z G H Hz. unfold held, Rltb. assert (- (m / 2) <= z <= m / 2) as Hz' by (split; [pose proof (Rle_abs (- z)) as Q; rewrite Rabs_Ropp in Q; lra|pose proof (Rle_abs z); lra]).
      destruct (Rlt_dec _ _); [lra|]. destruct (Rlt_dec _ _); lra. }
    assert (Rabs (k / 2) <= m / 2) as K2 by (unfold Rdiv; rewrite Rabs_mult, (Rabs_pos_eq (/ 2)) by lra; lra).
    assert (Rabs (- k / 2) <= m / 2) as K1 by (replace (- k / 2) with (- (k / 2)) by lra; now rewrite Rabs_Ropp).
    rewrite (Z p q), (Z r s) by (assumption || unfold p, q, r, s; lra).
    exists (x + - k / 2), (x' + k / 2).
    pose proof (Rle_abs (k / 2)) as K3. pose proof (Rle_abs (- k / 2)) as K4. 
    split; [|split].
    + erewrite rounds_still; [f_equal; f_equal; [apply label_eq; lra|f_equal; apply label_eq; lra]|repeat eexists|repeat eexists| | |..];
        [apply box_inside; unfold inside; unfold p, q, r, s in *; lra|apply box_inside; unfold inside; unfold p, q, r, s in *; lra| | | | | | |];
        unfold p, q, r, s in *; lra.
    + destruct Hk as [[? Hk]|[? Hk]]; [left|right]; rewrite Hk; unfold p, q, r, s; lra.
    + split; [replace (x + - k / 2 - x) with (- k / 2) by lra; exact K1|lra].
  - exists x, x'. split; [f_equal; f_equal; [apply label_eq; lra|f_equal; apply label_eq; lra]|].
    split; [|split; [rewrite Rminus_eq_0, Rabs_R0; unfold p, q, r, s in *; lra|lra]].
    unfold touching in E. rewrite (Rleb_le y0 z1 Y1), (Rleb_le z0 y1 Y2), !andb_true_r in E.
    apply andb_false_iff in E as [E|E]; [right|left]; unfold Rleb in E; destruct (Rle_dec _ _); try discriminate;
    unfold p, q, r, s in *; lra.
Qed.
