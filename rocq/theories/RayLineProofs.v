(** Proofs about the lines drawn for rays (C91). *)
From Coq Require Import ZArith List Bool Lia Reals Lra String.
From Verif Require Import Base Nums Optics Imaging Drawing RayLines StrictProofs.
Import ListNotations.
Open Scope list_scope.
Open Scope R_scope.

(** rounding to the nearest integer, halves to the even one *)
Definition round_even (r : R) : Z :=
  let f := Int_part r in
  if Rlt_dec (r - IZR f) (1/2) then f
  else if Rlt_dec (1/2) (r - IZR f) then (f + 1)%Z
  else if Z.even f then f else (f + 1)%Z.
Definition xround (x : XR) : Z := match x with Fin r => round_even r | _ => 0%Z end.

Lemma round_near r : Rabs (IZR (round_even r) - r) <= 1/2.
Proof.
  unfold round_even. destruct (base_Int_part r) as [A B].
  destruct (Rlt_dec (r - IZR (Int_part r)) (1/2)); [apply Rabs_le; lra|].
  destruct (Rlt_dec (1/2) (r - IZR (Int_part r))).
  - rewrite plus_IZR. apply Rabs_le. lra.
  - destruct (Z.even _); [|rewrite plus_IZR]; apply Rabs_le; lra.
Qed.
Lemma near_bounds i r : Rabs (IZR i - r) <= 1/2 -> r - 1/2 <= IZR i <= r + 1/2.
Proof. unfold Rabs. destruct (Rcase_abs _); lra. Qed.
Lemma round_mono r s : r <= s -> (round_even r <= round_even s)%Z.
Proof.
  intros H. destruct (Z.le_gt_cases (round_even r) (round_even s)) as [|G]; [assumption|].
  pose proof (near_bounds _ _ (round_near r)). pose proof (near_bounds _ _ (round_near s)).
  assert (IZR (round_even s) + 1 <= IZR (round_even r)) by (rewrite <- plus_IZR; apply IZR_le; lia).
  assert (r = s) by lra. subst. lia.
Qed.
Lemma round_range r n : 0 <= r <= IZR n -> (0 <= round_even r <= n)%Z.
Proof.
  intros [A B]. pose proof (near_bounds _ _ (round_near r)) as [C D]. split.
  - assert (IZR (-1) < IZR (round_even r)) as L by lra. apply lt_IZR in L. lia.
  - assert (IZR (round_even r) < IZR (n + 1)) as L by (rewrite plus_IZR; lra). apply lt_IZR in L. lia.
Qed.
Lemma round_int z : round_even (IZR z) = z.
Proof.
  pose proof (near_bounds _ _ (round_near (IZR z))) as [C D].
  assert (IZR (round_even (IZR z)) < IZR (z + 1)) as L by (rewrite plus_IZR; lra).
  assert (IZR z < IZR (round_even (IZR z) + 1)) as L' by (rewrite plus_IZR; lra).
  apply lt_IZR in L, L'. lia.
Qed.

(** ** Specification *)
(** the points drawn for a trace: those of its unblocked rays; none of a blocked ray if [rm] *)
Definition points (rm : bool) (t : list (@ray XR)) : list (XR * XR) :=
  if (rm && existsb rblk t)%bool then []
  else map (fun r : @ray XR => (rz r, ry r)) (filter (fun r : @ray XR => negb (rblk r)) t).
(** where the drawing of a trace starts *)
Definition start (rm : bool) (t : list (@ray XR)) : option R :=
  match points rm t with (_, Fin y) :: _ => Some y | _ => None end.
Definition is_drawn (rm : bool) (t : list (@ray XR)) : bool :=
  match points rm t with [] => false | _ => true end.
(** [m] is the largest distance from the axis of a starting point *)
Definition greatest (rm : bool) (ts : list (list (@ray XR))) (m : R) : Prop :=
  (forall t y, In t ts -> start rm t = Some y -> Rabs y <= m) /\
  (m = 0 \/ exists t y, In t ts /\ start rm t = Some y /\ Rabs y = m).
(** starting points are finite *)
Definition finite_starts (rm : bool) (ts : list (list (@ray XR))) : Prop :=
  forall t, In t ts -> is_drawn rm t = true -> start rm t <> None.

Lemma rearrange_points rm t :
  rearrangeRayTraceForPlotting rm t = (map fst (points rm t), map snd (points rm t)).
Proof.
  assert (forall (l : list (@ray XR)) x y, rearrange_loop rm l x y =
    if (rm && existsb rblk l)%bool then ([], [])
    else (x ++ map rz (filter (fun r : @ray XR => negb (rblk r)) l), y ++ map ry (filter (fun r : @ray XR => negb (rblk r)) l))) as K.
  { induction l as [|r l IH]; intros x y; cbn [rearrange_loop existsb filter].
    - rewrite andb_false_r. cbn. now rewrite !app_nil_r.
    - destruct (rblk r); cbn [negb orb].
      + destruct rm; [reflexivity|]. rewrite IH. reflexivity.
      + rewrite IH. destruct (rm && existsb rblk l)%bool; [reflexivity|]. cbn [map].
        now rewrite <- !app_assoc. }
  unfold rearrangeRayTraceForPlotting. rewrite K. unfold points.
  destruct (rm && existsb rblk t)%bool; [reflexivity|]. rewrite !map_map. reflexivity.
Qed.

Lemma max_height_greatest rm ts : finite_starts rm ts ->
  exists m, max_height rm ts = Fin m /\ 0 <= m /\ greatest rm ts m.
Proof.
  intros F. unfold max_height.
  assert (forall (ts : list (list (@ray XR))) m0, finite_starts rm ts -> 0 <= m0 ->
    exists m, fold_left (fun m t => match snd (rearrangeRayTraceForPlotting rm t) with
       | [] => m | y :: _ => if nltb m (nabs y) then nabs y else m end) ts (Fin m0) = Fin m /\
      m0 <= m /\ (forall t y, In t ts -> start rm t = Some y -> Rabs y <= m) /\
      (m = m0 \/ exists t y, In t ts /\ start rm t = Some y /\ Rabs y = m)) as K.
  { clear ts F. induction ts as [|t ts IH]; intros m0 F P.
    - exists m0. cbn. split; [reflexivity|]. split; [lra|]. split; [tauto|now left].
    - assert (finite_starts rm ts) as F' by (intros u Hu; apply F; now right).
      cbn [fold_left]. rewrite rearrange_points. cbn [snd].
      destruct (points rm t) as [|[z y] l] eqn:E; cbn [map snd].
      + destruct (IH m0 F' P) as (m & Em & L & A & B). exists m. split; [exact Em|]. split; [exact L|].
        split.
        * intros u v [<-|Hu] Hv; [unfold start in Hv; rewrite E in Hv; discriminate|eauto].
        * destruct B as [->|(u & v & Hu & B)]; [now left|right; exists u, v; split; [now right|exact B]].
      + assert (start rm t <> None) as S by (apply F; [now left|unfold is_drawn; now rewrite E]).
        unfold start in S. rewrite E in S. destruct y as [y| | |]; try congruence.
        assert (start rm t = Some y) as Sy by (unfold start; now rewrite E).
        change (nabs (Fin y)) with (Fin (Rabs y)).
        change (nltb (Fin m0) (Fin (Rabs y))) with (Rltb m0 (Rabs y)).
        destruct (Rltb m0 (Rabs y)) eqn:C.
        * apply Rltb_true in C. destruct (IH (Rabs y) F' (Rabs_pos y)) as (m & Em & L & A & B).
          exists m. split; [exact Em|]. split; [lra|]. split.
          -- intros u v [<-|Hu] Hv; [rewrite Sy in Hv; injection Hv as <-; exact L|eauto].
          -- right. destruct B as [->|(u & v & Hu & B)]; [exists t, y; repeat split; auto; now left|].
             exists u, v. split; [now right|exact B].
        * apply Rltb_false in C. destruct (IH m0 F' P) as (m & Em & L & A & B).
          exists m. split; [exact Em|]. split; [exact L|]. split.
          -- intros u v [<-|Hu] Hv; [rewrite Sy in Hv; injection Hv as <-; lra|eauto].
          -- destruct B as [->|(u & v & Hu & B)]; [now left|right; exists u, v; split; [now right|exact B]]. }
  destruct (K ts 0 F ltac:(lra)) as (m & Em & L & A & B). exists m.
  split; [exact Em|]. split; [exact L|]. split; [exact A|exact B].
Qed.

(** which colour a starting height gets, out of [n] *)
Definition relative (m y : R) : R := (y + m) / (2 * m).
Definition shade (n : nat) (m y : R) : nat := Z.to_nat (round_even (relative m y * IZR (Z.of_nat n - 1))).

Lemma relative_bounds m y : 0 < m -> Rabs y <= m -> 0 <= relative m y <= 1.
Proof.
  intros M A. unfold relative.
  assert (- m <= y <= m) as [L U] by (revert A; unfold Rabs; destruct (Rcase_abs y); lra).
  assert (0 < / (2 * m)) by (apply Rinv_0_lt_compat; lra). split.
  - apply Rmult_le_pos; lra.
  - apply Rmult_le_reg_r with (2 * m); [lra|]. unfold Rdiv. rewrite Rmult_assoc, Rinv_l by lra. lra.
Qed.
Lemma shade_range n m y : (1 <= n)%nat -> 0 < m -> Rabs y <= m ->
  (0 <= round_even (relative m y * IZR (Z.of_nat n - 1)) <= Z.of_nat n - 1)%Z.
Proof.
  intros Hn M A. destruct (relative_bounds m y M A) as [L U]. apply round_range.
  assert (0 <= IZR (Z.of_nat n - 1)) by (apply IZR_le; lia). split; [apply Rmult_le_pos; lra|].
  apply Rle_trans with (1 * IZR (Z.of_nat n - 1)); [apply Rmult_le_compat_r; lra|lra].
Qed.

Theorem shade_facts n m : (1 <= n)%nat -> 0 < m ->
  (forall y, Rabs y <= m -> (shade n m y < n)%nat /\
     Rabs (INR (shade n m y) - (y + m) / (2 * m) * (INR n - 1)) <= 1 / 2) /\
  (forall y1 y2, - m <= y1 <= y2 -> y2 <= m -> (shade n m y1 <= shade n m y2)%nat) /\
  shade n m (- m) = 0%nat /\ shade n m m = (n - 1)%nat.
Proof.
  intros Hn M. split; [|split; [|split]].
  - intros y A. pose proof (shade_range n m y Hn M A) as [L U]. unfold shade. split; [lia|].
    rewrite INR_IZR_INZ, Z2Nat.id by exact L.
    replace (INR n - 1) with (IZR (Z.of_nat n - 1)) by (rewrite minus_IZR, <- INR_IZR_INZ; reflexivity).
    apply round_near.
  - intros y1 y2 [A B] C. unfold shade. apply Z2Nat.inj_le.
    1,2: apply shade_range; auto; apply Rabs_le; lra.
    apply round_mono. apply Rmult_le_compat_r; [apply IZR_le; lia|].
    unfold relative. apply Rmult_le_compat_r; [left; apply Rinv_0_lt_compat; lra|lra].
  - unfold shade, relative. replace ((- m + m) / (2 * m) * IZR (Z.of_nat n - 1)) with (IZR 0).
    + rewrite round_int. reflexivity.
    + unfold Rdiv. rewrite Rplus_opp_l, !Rmult_0_l. reflexivity.
  - unfold shade, relative. replace ((m + m) / (2 * m) * IZR (Z.of_nat n - 1)) with (IZR (Z.of_nat n - 1)).
    + rewrite round_int. lia.
    + field. lra.
Qed.

(** the line that must be drawn for a trace *)
Definition line_for (rm : bool) (dz : R) (m : R) (cs : list string) (t : list (@ray XR)) (l : @line XR) : Prop :=
  l_x l = map (fun p => nadd (fst p) (Fin dz)) (points rm t) /\
  l_y l = map snd (points rm t) /\
  exists y, start rm t = Some y /\
    nth_error cs (if Req_EM_T m 0 then 1%nat else shade (List.length cs) m y) = Some (l_color l).

Lemma draw_lines_ok rm cs dz m : forall ts, finite_starts rm ts -> 0 <= m ->
  (forall t y, In t ts -> start rm t = Some y -> Rabs y <= m) ->
  (1 <= List.length cs)%nat -> (m = 0 -> (2 <= List.length cs)%nat) ->
  exists ls, draw_lines xround rm (Colours cs) (Fin m) (Fin dz) ts = Ok ls /\
    Forall2 (line_for rm dz m cs) (filter (is_drawn rm) ts) ls.
Proof.
  induction ts as [|t ts IH]; intros F M A L1 L2; [exists []; split; [reflexivity|constructor]|].
  assert (finite_starts rm ts) as F' by (intros u Hu; apply F; now right).
  destruct (IH F' M ltac:(intros; eapply A; [right|]; eassumption) L1 L2) as (ls & E & B).
  cbn [draw_lines filter]. rewrite rearrange_points.
  destruct (points rm t) as [|[z y] l] eqn:EP; cbn [map snd fst].
  - exists ls. split; [exact E|]. unfold is_drawn at 1. rewrite EP. exact B.
  - assert (start rm t <> None) as S by (apply F; [now left|unfold is_drawn; now rewrite EP]).
    unfold start in S. rewrite EP in S. destruct y as [y| | |]; try congruence.
    assert (start rm t = Some y) as Sy by (unfold start; now rewrite EP).
    pose proof (A t y (or_introl eq_refl) Sy) as Ay.
    assert (exists i c, color_index xround (Colours cs) (Fin m) (Fin y) = Ok i /\
      color_at (Colours cs) i = Ok c /\
      nth_error cs (if Req_EM_T m 0 then 1%nat else shade (List.length cs) m y) = Some c) as (i & c & C1 & C2 & C3).
    { unfold color_index. change (neqb (Fin m) c0) with (Reqb m 0).
      destruct (Req_EM_T m 0) as [->|n].
      - rewrite Reqb_refl.
        destruct (nth_error cs 1) as [c|] eqn:EN.
        + exists 1%Z, c. split; [reflexivity|]. split; [|reflexivity]. cbn [color_at].
          change (Z.to_nat 1) with 1%nat. now rewrite EN.
        + apply nth_error_None in EN. specialize (L2 eq_refl). lia.
      - rewrite (Reqb_neq m 0 n). assert (0 < m) as P by lra.
        change (nmul (Fin m) c2) with (Fin (m * 2)). change (nadd (Fin y) (Fin m)) with (Fin (y + m)).
        rewrite pdiv_fin by lra. cbn [bind colors_len].
        change (nmul (Fin ((y + m) / (m * 2))) (nofZ (Z.of_nat (List.length cs) - 1)))
          with (Fin ((y + m) / (m * 2) * IZR (Z.of_nat (List.length cs) - 1))). cbn [xround].
        replace ((y + m) / (m * 2)) with (relative m y) by (unfold relative; now rewrite (Rmult_comm m 2)).
        destruct (Z.eqb_spec (Z.of_nat (List.length cs)) 0) as [|_]; [lia|].
        pose proof (shade_range (List.length cs) m y L1 P Ay) as [R1 R2].
        rewrite Z.mod_small by lia. fold (shade (List.length cs) m y).
        destruct (nth_error cs (shade (List.length cs) m y)) as [c|] eqn:EN.
        + exists (round_even (relative m y * IZR (Z.of_nat (List.length cs) - 1))), c.
          split; [reflexivity|]. split; [|reflexivity]. cbn [color_at].
          fold (shade (List.length cs) m y). now rewrite EN.
        + apply nth_error_None in EN. unfold shade in EN. lia. }
    rewrite C1. cbn [bind]. rewrite C2. cbn [bind]. rewrite E. cbn [bind].
    eexists. split; [reflexivity|]. unfold is_drawn at 1. rewrite EP. constructor; [|exact B].
    unfold line_for. cbn [l_x l_y l_color]. rewrite EP. cbn [map fst snd]. rewrite map_map.
    split; [reflexivity|]. split; [reflexivity|]. exists y. split; [exact Sy|exact C3].
Qed.

Theorem ray_lines rm cs dz ts : finite_starts rm ts -> (2 <= List.length cs)%nat ->
  exists m ls, 0 <= m /\ greatest rm ts m /\
    lines_of_traces xround rm (Colours cs) (Fin dz) ts = Ok ls /\
    Forall2 (line_for rm dz m cs) (filter (is_drawn rm) ts) ls.
Proof.
  intros F L. destruct (max_height_greatest rm ts F) as (m & E & M & G).
  destruct (draw_lines_ok rm cs dz m ts F M (proj1 G) ltac:(lia) ltac:(lia)) as (ls & D & B).
  exists m, ls. split; [exact M|]. split; [exact G|]. split; [|exact B].
  unfold lines_of_traces. now rewrite E.
Qed.

(** one colour: all goes well unless every ray starts on the axis *)
Theorem one_colour_lines rm c dz ts : finite_starts rm ts ->
  (exists m ls, 0 < m /\ greatest rm ts m /\
    lines_of_traces xround rm (Colours [c]) (Fin dz) ts = Ok ls /\
    Forall2 (line_for rm dz m [c]) (filter (is_drawn rm) ts) ls) \/
  ((forall t y, In t ts -> start rm t = Some y -> y = 0) /\
   lines_of_traces xround rm (Colours [c]) (Fin dz) ts =
     (if existsb (is_drawn rm) ts then Err IndexError else Ok [])).
Proof.
  intros F. destruct (max_height_greatest rm ts F) as (m & E & M & G).
  destruct (Req_EM_T m 0) as [->|n].
  - right. split.
    + intros t y Ht Hy. pose proof (proj1 G t y Ht Hy). pose proof (Rabs_pos y).
      destruct (Req_EM_T y 0); [assumption|]. pose proof (Rabs_pos_lt y n). lra.
    + unfold lines_of_traces. rewrite E. clear - F. induction ts as [|t ts IH]; [reflexivity|].
      assert (finite_starts rm ts) as F' by (intros u Hu; apply F; now right).
      cbn [draw_lines existsb]. rewrite rearrange_points. unfold is_drawn at 1.
      destruct (points rm t) as [|[z y] l]; cbn [map fst snd orb]; [exact (IH F')|].
      unfold color_index. change (neqb (Fin 0) c0) with (Reqb 0 0). rewrite Reqb_refl. reflexivity.
  - left. destruct (draw_lines_ok rm [c] dz m ts F M (proj1 G)) as (ls & D & B);
      [cbn; lia|intros; congruence|].
    exists m, ls. split; [lra|]. split; [exact G|]. split; [|exact B].
    unfold lines_of_traces. now rewrite E.
Qed.

(** rays that start at dz: the line of the part before dz lies to its left *)
Lemma leftwards_points rm t : points rm (map leftwards t) =
  map (fun p => (nopp (nabs (fst p)), snd p)) (points rm t).
Proof.
  unfold points.
  assert (existsb rblk (map leftwards t) = existsb rblk t) as ->.
  { induction t as [|r t IH]; [reflexivity|]. cbn [map existsb]. rewrite IH. reflexivity. }
  destruct (rm && existsb rblk t)%bool; [reflexivity|].
  induction t as [|r t IH]; [reflexivity|]. cbn [map filter leftwards rblk].
  destruct (rblk r); cbn [negb]; [exact IH|]. cbn [map fst snd leftwards rz ry]. now rewrite IH.
Qed.

(** the colours in force (figure.py 384-391) *)
Definition colours_for (own : option colors) (lamp : bool) (design lampdesign : colors) : colors :=
  match own with Some c => c | None => if lamp then lampdesign else design end.

(** the lines of rays emitted inside the path: those of the part after the source, then those of the
    part before it, which lie on its left *)
Theorem source_inside rm d1 d2 e es own lamp dz rays f b cs :
  dz <> 0 -> colours_for own lamp d1 d2 = Colours cs -> (2 <= List.length cs)%nat ->
  subPath es (Fin dz) false = Ok f -> subPath es (Fin dz) true = Ok b ->
  let after := map (trace_values (Group GGroup (gmat f) (gelems f))) rays in
  let before := map (trace_values (Group GGroup (gmat b) (gelems b))) rays in
  finite_starts rm after -> finite_starts rm before ->
  exists m la lb, rayTraceLines xround rm d1 d2 e es own lamp (Fin dz) rays = Ok (la ++ lb) /\
    greatest rm (after ++ before) m /\
    Forall2 (line_for rm dz m cs) (filter (is_drawn rm) after) la /\
    Forall2 (fun t l => l_y l = map snd (points rm t) /\
                        l_x l = map (fun p => nadd (nopp (nabs (fst p))) (Fin dz)) (points rm t) /\
                        (forall x, In (Fin x) (l_x l) -> x <= dz))
            (filter (is_drawn rm) before) lb.
Proof.
  intros D C L Hf Hb after before Fa Fb.
  assert (forall t, start rm (map leftwards t) = start rm t) as SL.
  { intros t. unfold start. rewrite leftwards_points. destruct (points rm t) as [|[? ?] ?]; reflexivity. }
  assert (forall t, is_drawn rm (map leftwards t) = is_drawn rm t) as DL.
  { intros t. unfold is_drawn. rewrite leftwards_points. destruct (points rm t); reflexivity. }
  assert (finite_starts rm (after ++ map (map leftwards) before)) as F.
  { intros t Ht Hd. apply in_app_or in Ht as [Ht|Ht]; [now apply Fa|].
    apply in_map_iff in Ht as (u & <- & Hu). rewrite SL. rewrite DL in Hd. now apply Fb. }
  destruct (ray_lines rm cs dz _ F L) as (m & ls & M & G & E & B).
  rewrite filter_app in B. apply Forall2_app_inv_l in B as (la & lb & Ba & Bb & ->).
  exists m, la, lb. split; [|split; [|split; [exact Ba|]]].
  - unfold rayTraceLines. fold (colours_for own lamp d1 d2). rewrite C.
    change (neqb (Fin dz) c0) with (Reqb dz 0). rewrite (Reqb_neq dz 0 D). cbn [negb].
    rewrite Hf, Hb. cbn [bind]. fold after. unfold before in E. rewrite map_map in E. exact E.
  - destruct G as [G1 G2]. split.
    + intros t y Ht Hy. apply in_app_or in Ht as [Ht|Ht].
      * apply (G1 t y); [apply in_or_app; now left|exact Hy].
      * apply (G1 (map leftwards t) y); [apply in_or_app; right; now apply in_map|now rewrite SL].
    + destruct G2 as [->|(t & y & Ht & Hy & A)]; [now left|right].
      apply in_app_or in Ht as [Ht|Ht]; [exists t, y; split; [apply in_or_app; now left|split; assumption]|].
      apply in_map_iff in Ht as (u & <- & Hu). rewrite SL in Hy.
      exists u, y. split; [apply in_or_app; now right|split; assumption].
  - clear - Bb DL. revert lb Bb. induction before as [|t ts IH]; intros lb Bb; cbn [map filter] in *.
    + inversion Bb. constructor.
    + rewrite DL in Bb. destruct (is_drawn rm t); [|exact (IH _ Bb)].
      inversion Bb as [|? l ? lb' Hl Hls]; subst. constructor; [|exact (IH _ Hls)].
      destruct Hl as (X & Y & _). rewrite leftwards_points in X, Y. rewrite map_map in X, Y. cbn [fst snd] in X, Y.
      split; [exact Y|]. split; [exact X|]. intros x Hx. rewrite X in Hx.
      apply in_map_iff in Hx as ([z y] & Hz & _). cbn [fst] in Hz.
      destruct z as [z| | |]; cbn in Hz; try discriminate. injection Hz as <-. pose proof (Rabs_pos z). lra.
Qed.
