(** Proofs about the figures of laser paths (C92). *)
From Coq Require Import Reals Lra List Bool String ZArith Lia.
From Verif Require Import Base Nums Optics Group Spec MatrixProofs ElementProofs GroupProofs
  TraceProofs RayProofs CardinalProofs StrictProofs Beam BeamProofs BeamMore BeamFigure.
Import ListNotations.
Open Scope list_scope.
Open Scope R_scope.

(** ** Specification *)
(** the complex radius after the pieces [ps], and the index there *)
Definition after (ps : list optic) (q : C2) : C2 := fold_left (fun q o => mobius (oM o) q) ps q.
Definition index_after (n : R) (ps : list optic) : R := last (map onb ps) n.
(** the beam a distance [t] further in the same medium *)
Definition further (q : C2) (t : R) : C2 := (fst q + t, snd q).
(** the beam at depth [x], with its index: after some pieces, or inside the next one if it is free space *)
Definition beam_at (ps : list optic) (q : C2) (n x : R) (q' : C2) (n' : R) : Prop :=
  exists i t, (i <= List.length ps)%nat /\ x = total_length (firstn i ps) + t /\
    q' = further (after (firstn i ps) q) t /\ n' = index_after n (firstn i ps) /\
    (t = 0 \/ exists o s, nth_error ps i = Some o /\ o = o_space (oL o) (onf o) /\ 0 <= s <= 1 /\ t = s * oL o).

(** the pieces of an element *)
Definition piece_of (km : @kind XR * @mat XR) (o : optic) : Prop :=
  describes (snd km) o /\ physical o /\ positive_leaf km /\ (fst km = KSpace -> o = o_space (oL o) (onf o)).

Lemma further_0 q : further q 0 = q.
Proof. destruct q. unfold further. cbn. f_equal. ring. Qed.
Lemma after_app a b q : after (a ++ b) q = after b (after a q).
Proof. apply fold_left_app. Qed.
Lemma index_after_app n a b : index_after n (a ++ b) = index_after (index_after n a) b.
Proof. unfold index_after. rewrite map_app. apply last_app. Qed.
Lemma mobius_free d q : mobius (free d) q = further q d.
Proof.
  destruct q as [x y]. unfold mobius, further, c2div, normsq, c2add, c2scale, c2real, free. cbn.
  apply c2_eq; cbn; field.
Qed.

Lemma beam_at_left ps ps2 q n x q' n' : beam_at ps q n x q' n' -> beam_at (ps ++ ps2) q n x q' n'.
Proof.
  intros (i & t & Hi & -> & -> & -> & Ht). exists i, t.
  assert (firstn i (ps ++ ps2) = firstn i ps) as F.
  { rewrite firstn_app. replace (i - List.length ps)%nat with 0%nat by lia. cbn. apply app_nil_r. }
  rewrite F. split; [rewrite app_length; lia|]. split; [reflexivity|]. split; [reflexivity|].
  split; [reflexivity|]. destruct Ht as [->|(o & s & Ho & Hs)]; [now left|right].
  exists o, s. split; [|exact Hs]. rewrite nth_error_app1; [exact Ho|].
  apply nth_error_Some. congruence.
Qed.
Lemma beam_at_right ps ps2 q n x q' n' : beam_at ps2 (after ps q) (index_after n ps) x q' n' ->
  beam_at (ps ++ ps2) q n (total_length ps + x) q' n'.
Proof.
  intros (i & t & Hi & -> & -> & -> & Ht). exists (List.length ps + i)%nat, t.
  rewrite firstn_app_2, total_app, after_app, index_after_app.
  split; [rewrite app_length; lia|]. split; [ring|]. split; [reflexivity|]. split; [reflexivity|].
  destruct Ht as [->|(o & s & Ho & Hs)]; [now left|right]. exists o, s. split; [|exact Hs].
  rewrite nth_error_app2 by lia. replace (_ - _)%nat with i by lia. exact Ho.
Qed.
Lemma beam_at_start ps q n : beam_at ps q n 0 q n.
Proof.
  exists 0%nat, 0. cbn. rewrite further_0. split; [lia|]. split; [unfold total_length; cbn; ring|].
  split; [reflexivity|]. split; [reflexivity|now left].
Qed.
Lemma beam_at_end ps q n : beam_at ps q n (total_length ps) (after ps q) (index_after n ps).
Proof.
  exists (List.length ps), 0. rewrite firstn_all, further_0. split; [lia|]. split; [ring|].
  split; [reflexivity|]. split; [reflexivity|now left].
Qed.

(** a beam of a trace that started at depth [z] *)
Definition on (ps : list optic) (q : C2) (wl z n : R) (b : @beam XR) : Prop :=
  exists x q' n' cl, b = fbeam q' wl (z + x) n' cl /\ beam_at ps q n x q' n' /\ 0 < snd q' /\ 0 < n'.

Lemma on_left ps ps2 q wl z n b : on ps q wl z n b -> on (ps ++ ps2) q wl z n b.
Proof. intros (x & q' & n' & cl & E & B & P). exists x, q', n', cl. auto using beam_at_left. Qed.
Lemma on_right ps ps2 q wl z n b : on ps2 (after ps q) wl (z + total_length ps) (index_after n ps) b ->
  on (ps ++ ps2) q wl z n b.
Proof.
  intros (x & q' & n' & cl & E & B & P). exists (total_length ps + x), q', n', cl.
  split; [rewrite E; f_equal; ring|]. split; [now apply beam_at_right|exact P].
Qed.

(** the trace through some pieces *)
Definition traced (ps : list optic) (l : list (@beam XR)) (q : C2) (wl z n : R) (cl : bool) : Prop :=
  Forall (on ps q wl z n) l /\ 0 < snd (after ps q) /\ 0 < index_after n ps /\
  exists cl', last l (fbeam q wl z n cl) = fbeam (after ps q) wl (z + total_length ps) (index_after n ps) cl'.

Lemma traced_nil q wl z n cl : 0 < snd q -> 0 < n -> traced [] [] q wl z n cl.
Proof.
  intros. split; [constructor|]. split; [exact H|]. split; [exact H0|]. exists cl.
  unfold total_length. cbn. now rewrite Rplus_0_r.
Qed.
Lemma traced_app ps1 ps2 l1 l2 q wl z n cl cl' : traced ps1 l1 q wl z n cl ->
  traced ps2 l2 (after ps1 q) wl (z + total_length ps1) (index_after n ps1) cl' ->
  last l1 (fbeam q wl z n cl) = fbeam (after ps1 q) wl (z + total_length ps1) (index_after n ps1) cl' ->
  traced (ps1 ++ ps2) (l1 ++ l2) q wl z n cl.
Proof.
  intros (A1 & A2 & A3 & _) (B1 & B2 & B3 & c2 & B4) E. split; [|split; [|split]].
  - apply Forall_app. split; [revert A1; apply Forall_impl; intros; now apply on_left|].
    revert B1. apply Forall_impl. intros. now apply on_right.
  - rewrite after_app. exact B2.
  - rewrite index_after_app. exact B3.
  - exists c2. rewrite last_app, E, B4, after_app, index_after_app, total_app. f_equal. ring.
Qed.

Lemma leaf_traced km o : piece_of km o -> forall q wl z cl, 0 < snd q -> 0 < wl ->
  exists b, leaf_beam (fst km) (snd km) (fbeam q wl z (onf o) cl) = Ok b /\ traced [o] [b] q wl z (onf o) cl.
Proof.
  intros (D & Ph & (P1 & P2 & P3) & _) q wl z cl Hq Hw.
  destruct (describes_positive _ _ D (conj P1 P2)) as [N1 N2].
  destruct (mul_beam_ok (snd km) o q wl z cl D Ph N1 N2 Hq Hw) as (cl' & E & _).
  rewrite (leaf_beam_plain _ _ _ P3), E.
  assert (0 < snd (mobius (oM o) q)) as U.
  { apply mobius_up; [exact Hq|]. apply sign_det; [exact Ph|now split]. }
  eexists. split; [reflexivity|]. unfold traced. cbn [after fold_left index_after map last].
  split; [|split; [exact U|split; [exact N2|]]].
  - constructor; [|constructor]. exists (total_length [o]), (mobius (oM o) q), (onb o), cl'.
    split; [unfold total_length; cbn; f_equal; ring|]. split; [apply (beam_at_end [o] q (onf o))|]. split; assumption.
  - exists cl'. unfold total_length; cbn. f_equal. ring.
Qed.

(** elements nested to any depth *)
Lemma elem_traced : forall e ps n, Forall2 piece_of (leaves e) ps -> matched n ps -> 0 < n ->
  forall q wl z cl, 0 < snd q -> 0 < wl ->
  exists l, beam_trace e (fbeam q wl z n cl) = Ok l /\ traced ps l q wl z n cl.
Proof.
  induction e as [k m|gk m es IH] using elem_ind'; intros ps n HF HM Hn q wl z cl Hq Hw.
  - cbn [leaves] in HF. inversion HF as [|km o ? ? H1 H2]; subst. inversion H2; subst.
    destruct HM as (<- & _). destruct (leaf_traced _ _ H1 q wl z cl Hq Hw) as (b & E & Tr).
    exists [b]. cbn [beam_trace fst snd] in *. rewrite E. split; [reflexivity|exact Tr].
  - cbn [leaves] in HF. cbn [beam_trace].
    assert (forall ps n q z cl, Forall2 piece_of (flat_map leaves es) ps -> matched n ps -> 0 < n -> 0 < snd q ->
      exists l, trace_elems beam_trace es (fbeam q wl z n cl) = Ok l /\ traced ps l q wl z n cl) as K.
    { clear - IH Hw. induction es as [|e es IHes]; intros ps n q z cl HF HM Hn Hq.
      - inversion HF; subst. exists []. split; [reflexivity|]. now apply traced_nil.
      - cbn [flat_map] in HF. apply Forall2_app_inv_l in HF as (ps1 & ps2 & F1 & F2 & ->).
        inversion IH as [|? ? He Hes]; subst.
        assert (matched n ps1 /\ matched (index_after n ps1) ps2) as [M1 M2].
        { clear - HM. revert n HM. induction ps1 as [|o ps1 IHp]; intros n HM; [split; [exact I|exact HM]|].
          destruct HM as (A & B & C). destruct (IHp _ C) as [C1 C2]. split; [split; auto|].
          replace (index_after n (o :: ps1)) with (index_after (onb o) ps1); [exact C2|].
          change (o :: ps1) with ([o] ++ ps1). now rewrite index_after_app. }
        destruct (He ps1 n F1 M1 Hn q wl z cl Hq Hw) as (l1 & E1 & T1).
        pose proof T1 as (_ & U1 & V1 & cl1 & L1).
        destruct (IHes Hes ps2 (index_after n ps1) (after ps1 q) (z + total_length ps1) cl1 F2 M2 V1 U1)
          as (l2 & E2 & T2).
        exists (l1 ++ l2). cbn [trace_elems]. rewrite E1. cbn [bind]. rewrite L1, E2. cbn [bind].
        split; [reflexivity|]. eapply traced_app; eauto. }
    destruct (K ps n q z cl HF HM Hn Hq) as (l & E & Tr). rewrite E. cbn [bind].
    eexists. split; [reflexivity|]. destruct Tr as (A1 & A2 & A3 & cl' & A4).
    split; [constructor; [|exact A1]|].
    + exists 0, q, n, cl. split; [now rewrite Rplus_0_r|]. split; [apply beam_at_start|]. split; assumption.
    + split; [exact A2|]. split; [exact A3|]. exists cl'. rewrite <- A4. destruct l; reflexivity.
Qed.

Lemma matched_app n ps1 ps2 : matched n (ps1 ++ ps2) -> matched n ps1 /\ matched (index_after n ps1) ps2.
Proof.
  revert n. induction ps1 as [|o ps1 IHp]; intros n HM; [split; [exact I|exact HM]|].
  destruct HM as (A & B & C). destruct (IHp _ C) as [C1 C2]. split; [split; auto|].
  replace (index_after n (o :: ps1)) with (index_after (onb o) ps1); [exact C2|].
  change (o :: ps1) with ([o] ++ ps1). now rewrite index_after_app.
Qed.

(** free space cut in pieces: the beams inside *)
Lemma pieces_traced d0 m q wl z n : 0 < snd q -> 0 < wl -> 0 < n -> (m <> 0)%nat ->
  forall k cl, (k <= m)%nat ->
  exists l, trace_elems beam_trace (repeat (Leaf KSpace (mat_of (o_space (d0 / INR m) n) PInf PInf false "")) k)
      (fbeam (further q (INR (m - k) / INR m * d0)) wl (z + INR (m - k) / INR m * d0) n cl) = Ok l /\
    Forall (on [o_space d0 n] q wl z n) l /\
    exists cl', last l (fbeam (further q (INR (m - k) / INR m * d0)) wl (z + INR (m - k) / INR m * d0) n cl) =
      fbeam (further q d0) wl (z + d0) n cl'.
Proof.
  intros Hq Hw Hn Hm0. assert (0 < INR m) as Hm by (apply lt_0_INR; lia).
  induction k as [|k IH]; intros cl Hk.
  - exists []. cbn. split; [reflexivity|]. split; [constructor|]. exists cl.
    rewrite Nat.sub_0_r. replace (INR m / INR m * d0) with d0 by (field; lra). reflexivity.
  - cbn [repeat trace_elems beam_trace leaf_beam].
    set (q1 := further q (INR (m - S k) / INR m * d0)).
    destruct (mul_beam_ok (mat_of (o_space (d0 / INR m) n) PInf PInf false "") (o_space (d0 / INR m) n) q1 wl
      (z + INR (m - S k) / INR m * d0) cl) as (cl1 & E & _); auto.
    { apply mat_of_describes. }
    { apply p_space. lra. }
    cbn [o_space onf onb oL oM] in E.
    change (mat_of {| oM := free (d0 / INR m); oL := d0 / INR m; onf := n; onb := n; ofv := None; obv := None |} PInf PInf false "")
      with (mat_of (o_space (d0 / INR m) n) PInf PInf false "") in E.
    rewrite E. cbn [bind last].
    assert (INR (m - k) = INR (m - S k) + 1) as EI.
    { replace (m - k)%nat with (S (m - S k)) by lia. now rewrite S_INR. }
    assert (mobius (free (d0 / INR m)) q1 = further q (INR (m - k) / INR m * d0)) as EQ.
    { rewrite mobius_free. unfold q1, further. cbn [fst snd]. f_equal. rewrite EI. field. lra. }
    assert (d0 / INR m + (z + INR (m - S k) / INR m * d0) = z + INR (m - k) / INR m * d0) as EZ.
    { rewrite EI. field. lra. }
    rewrite EQ, EZ.
    destruct (IH cl1 ltac:(lia)) as (l & El & Fl & cl' & Ll). rewrite El. cbn [bind].
    eexists. split; [reflexivity|]. split.
    + constructor; [|exact Fl].
      exists (INR (m - k) / INR m * d0), (further q (INR (m - k) / INR m * d0)), n, cl1.
      split; [reflexivity|]. split; [|split; [exact Hq|exact Hn]].
      exists 0%nat, (INR (m - k) / INR m * d0). cbn [firstn after fold_left index_after map last List.length].
      split; [lia|]. split; [unfold total_length; cbn; ring|]. split; [reflexivity|]. split; [reflexivity|].
      right. exists (o_space d0 n), (INR (m - k) / INR m). split; [reflexivity|]. split; [reflexivity|].
      split; [|reflexivity]. assert (0 <= INR (m - k) <= INR m) as [B1 B2].
      { split; [apply pos_INR|apply le_INR; lia]. }
      split; [apply Rmult_le_pos; [lra|left; now apply Rinv_0_lt_compat]|].
      apply Rmult_le_reg_r with (INR m); [exact Hm|]. unfold Rdiv. rewrite Rmult_assoc, Rinv_l by lra. lra.
    + exists cl'. rewrite last_app. exact Ll.
Qed.

Lemma trace_elems_app {T} {NT : Num T} f : forall es1 es2 b l1, trace_elems (T := T) f es1 b = Ok l1 ->
  trace_elems f (es1 ++ es2) b = (r <- trace_elems f es2 (last l1 b);; Ok (l1 ++ r)).
Proof.
  induction es1 as [|e es1 IH]; intros es2 b l1 H; cbn [trace_elems app] in *.
  - injection H as <-. cbn. now destruct (trace_elems f es2 b).
  - destruct (f e b) as [l|]; [|discriminate]. cbn [bind] in *.
    destruct (trace_elems f es1 (last l b)) as [r|] eqn:E; [|discriminate]. cbn [bind] in H. injection H as <-.
    rewrite (IH es2 _ _ E), last_app. destruct (trace_elems f es2 _); [|reflexivity]. cbn [bind]. now rewrite app_assoc.
Qed.

(** the path with its spaces cut *)
Lemma drawn_traced N es : (1 <= N)%nat -> forall ps n es', Forall2 piece_of (flat_map leaves es) ps ->
  matched n ps -> 0 < n -> highResolution N es = Ok es' ->
  forall q wl z cl, 0 < snd q -> 0 < wl ->
  exists l, trace_elems beam_trace es' (fbeam q wl z n cl) = Ok l /\ traced ps l q wl z n cl.
Proof.
  intros HN. induction es as [|e es IH]; intros ps n es' HF HM Hn HR q wl z cl Hq Hw.
  - cbn in HR. injection HR as <-. inversion HF; subst. exists []. split; [reflexivity|]. now apply traced_nil.
  - cbn [flat_map] in HF. apply Forall2_app_inv_l in HF as (ps1 & ps2 & F1 & F2 & ->).
    destruct (matched_app _ _ _ HM) as [M1 M2].
    cbn [highResolution] in HR. destruct (highResolution N es) as [r|] eqn:ER; [|discriminate]. cbn [bind] in HR.
    assert (exists h, es' = h ++ r /\ exists l1, trace_elems beam_trace h (fbeam q wl z n cl) = Ok l1 /\
      traced ps1 l1 q wl z n cl) as (h & -> & l1 & E1 & T1).
    { assert ((exists m, e = Leaf KSpace m) \/ es' = e :: r) as [(m & ->)| ->].
      { destruct e as [k m|]; [|right; now injection HR]. destruct k; try (right; now injection HR).
        left. now exists m. }
      - cbn [leaves] in F1. inversion F1 as [|km o ? ? H1 H2]; subst. inversion H2; subst.
        destruct H1 as (D & Ph & _ & Sp). specialize (Sp eq_refl). cbn [snd] in D.
        destruct M1 as (En & _). assert (0 < INR N) as HI by (apply lt_0_INR; lia).
        rewrite (d_L _ _ D), (d_nf _ _ D) in HR.
        change (nofZ (Z.of_nat N)) with (Fin (IZR (Z.of_nat N))) in HR. rewrite <- INR_IZR_INZ in HR.
        rewrite pdiv_fin in HR by lra. cbn [bind] in HR. change (@ninf XR _) with PInf in HR.
        rewrite Space_ok in HR by (cbn; auto; lra). cbn [bind] in HR. injection HR as <-.
        eexists. split; [reflexivity|]. rewrite En in *.
        destruct (pieces_traced (oL o) N q wl z n Hq Hw Hn ltac:(lia) N cl ltac:(lia)) as (l & El & Fl & cl' & Ll).
        rewrite Nat.sub_diag in El, Ll. cbn [INR] in El, Ll.
        replace (0 / INR N * oL o) with 0 in * by (unfold Rdiv; ring). rewrite further_0, Rplus_0_r in *.
        exists l. split; [exact El|].
        assert (after [o] q = further q (oL o)) as EA.
        { cbn. rewrite Sp at 1. cbn [o_space oM]. apply mobius_free. }
        assert (index_after n [o] = n) as EI by (cbn; rewrite Sp; reflexivity).
        assert (total_length [o] = oL o) as ET by (unfold total_length; cbn; ring).
        rewrite <- Sp in Fl.
        split; [exact Fl|]. rewrite EA, EI, ET. split; [exact Hq|]. split; [exact Hn|]. exists cl'. exact Ll.
      - exists [e]. split; [reflexivity|]. destruct (elem_traced e ps1 n F1 M1 Hn q wl z cl Hq Hw) as (l & E & Tr).
        exists l. split; [|exact Tr]. cbn [trace_elems]. rewrite E. cbn [bind]. now rewrite app_nil_r. }
    pose proof T1 as (_ & U1 & V1 & cl1 & L1).
    destruct (IH ps2 (index_after n ps1) r F2 M2 V1 eq_refl (after ps1 q) wl (z + total_length ps1) cl1 U1 Hw)
      as (l2 & E2 & T2).
    exists (l1 ++ l2). split; [|eapply traced_app; eauto].
    rewrite (trace_elems_app _ _ _ _ _ E1), L1, E2. reflexivity.
Qed.

(** ** The lines *)
(** the two sides of the beam: widths [ws] at depths [xs] *)
Definition two_lines (xs ws : list R) : list (list XR * list XR) :=
  [(map Fin xs, map Fin ws); (map Fin xs, map (fun w => Fin (- w)) ws)].
(** [w] is the half width of the beam at depth [x] *)
Definition wide_at (ps : list optic) (q : C2) (wl n x w : R) : Prop :=
  exists q' n', beam_at ps q n x q' n' /\ 0 < snd q' /\ 0 < n' /\ w = w_spec q' wl n'.

Lemma rearrange_on ps q wl n l : 0 < wl -> Forall (on ps q wl 0 n) l ->
  exists xs ws, rearrangeBeamTrace l = Ok (map Fin xs, map Fin ws) /\ map bz l = map Fin xs /\
    Forall2 (wide_at ps q wl n) xs ws /\ map bw l = map (fun w => Ok (Fin w)) ws.
Proof.
  intros Hw. induction l as [|b l IH]; intros HF.
  - exists [], []. split; [reflexivity|]. split; [reflexivity|]. split; [constructor|reflexivity].
  - inversion HF as [|? ? Hb Hl]; subst. destruct (IH Hl) as (xs & ws & E1 & E2 & E3 & E4).
    destruct Hb as (x & q' & n' & cl & -> & B & P1 & P2).
    exists (x :: xs), (w_spec q' wl n' :: ws). cbn [rearrangeBeamTrace].
    rewrite bw_fin by assumption. cbn [bind]. rewrite E1. cbn [bind map fst snd bz fbeam].
    rewrite Rplus_0_l, E2. split; [reflexivity|]. split; [reflexivity|].
    split; [constructor; [|exact E3]; exists q', n'; auto|].
    rewrite E4. f_equal. apply bw_fin; assumption.
Qed.

Theorem drawn_lines N es os ps : (1 <= N)%nat ->
  Forall2 canon es os -> Forall2 true_space es os -> chain os -> os <> [] ->
  Forall2 piece_of (flat_map leaves es) ps -> let n := onf (hd o_aperture os) in matched n ps -> 0 < n ->
  exists g, MatrixGroup_new es "" = Ok g /\
    forall q wl cl, 0 < snd q -> 0 < wl ->
    exists xs ws, beamTraceLines N g (fbeam q wl 0 n cl) = Ok (two_lines xs ws) /\
      Forall2 (wide_at ps q wl n) xs ws /\ hd_error xs = Some 0 /\ last xs 0 = total_length ps /\
      hd_error ws = Some (w_spec q wl n) /\ last ws 0 = w_spec (after ps q) wl (index_after n ps).
Proof.
  intros HN HF HT HC Hn0 HL n HM Hn.
  assert (Forall positive_leaf (flat_map leaves es)) as HP.
  { clear - HL. induction HL as [|? ? ? ? (_ & _ & H & _)]; constructor; auto. }
  destruct (MatrixGroup_new_ok es os "" (Forall2_canon_desc _ _ HF) HC Hn0) as (g & G1 & G2 & _).
  exists g. split; [exact G1|]. intros q wl cl Hq Hw.
  destruct os as [|o t]; [congruence|]. cbn [hd] in n.
  assert (es <> []) as Hes by (intros ->; inversion HF).
  destruct (highResolution_ok N es (o :: t) HN HF HT HP) as (es' & os' & E & F1 & F2 & F3 & _ & _ & _ & F7).
  assert (matched (onf o) (o :: t)) as HM0 by (split; [reflexivity|exact HC]).
  pose proof (F3 _ HM0) as HM'. specialize (F7 Hes).
  assert (chain os') as HC'.
  { destruct os' as [|o' t']; [congruence|]. cbn in HM' |- *. tauto. }
  destruct (MatrixGroup_new_ok es' os' "" (Forall2_canon_desc _ _ F1) HC' F7) as (h & K1 & K2 & _).
  destruct (drawn_traced N es HN ps n es' HL HM Hn E q wl 0 cl Hq Hw) as (l & El & A1 & A2 & A3 & cl' & A4).
  assert (Forall (on ps q wl 0 n) (fbeam q wl 0 n cl :: l)) as Al.
  { constructor; [|exact A1]. exists 0, q, n, cl. split; [now rewrite Rplus_0_r|]. split; [apply beam_at_start|]. now split. }
  destruct (rearrange_on ps q wl n _ Hw Al) as (xs & ws & R1 & R2 & R3 & R4).
  exists xs, ws. unfold beamTraceLines, drawn_beams. rewrite G2, E. cbn [bind]. rewrite K1. cbn [bind].
  unfold grp_elem. rewrite K2. cbn [beam_trace]. rewrite El. cbn [bind]. rewrite R1. cbn [bind].
  split; [|split; [exact R3|]].
  - unfold two_lines. rewrite map_map. reflexivity.
  - destruct xs as [|x xs]; [discriminate|]. cbn [map bz fbeam] in R2. injection R2 as R0 R2.
    split; [cbn; now rewrite <- R0|].
    assert (forall (l : list (@beam XR)) xs d b, map bz l = map Fin xs -> bz b = Fin d ->
      Fin (last xs d) = bz (last l b)) as LA.
    { clear. induction l as [|b l IH]; intros [|x xs] d b0 H H0; cbn [map] in H; try discriminate; [symmetry; exact H0|].
      injection H as Hb H. destruct l as [|b1 l], xs as [|x1 xs]; try discriminate; [symmetry; exact Hb|].
      exact (IH (x1 :: xs) d b0 H H0). }
    specialize (LA l xs 0 (fbeam q wl 0 n cl) R2 eq_refl). rewrite A4 in LA. cbn [bz fbeam] in LA.
    rewrite Rplus_0_l in LA. injection LA as LA. subst x. split; [destruct xs; exact LA|].
    destruct ws as [|w ws]; [discriminate|]. cbn [map] in R4. injection R4 as R4 R5.
    assert (w = w_spec q wl n) as ->.
    { rewrite bw_fin in R4 by assumption. now injection R4. }
    split; [reflexivity|].
    assert (forall (l : list (@beam XR)) ws d b, map bw l = map (fun w => Ok (Fin w)) ws -> bw b = Ok (Fin d) ->
      Ok (Fin (last ws d)) = bw (last l b)) as LB.
    { clear. induction l as [|b l IH]; intros [|x xs] d b0 H H0; cbn [map] in H; try discriminate; [symmetry; exact H0|].
      injection H as Hb H. destruct l as [|b1 l], xs as [|x1 xs]; try discriminate; [symmetry; exact Hb|].
      exact (IH (x1 :: xs) d b0 H H0). }
    specialize (LB l ws _ (fbeam q wl 0 n cl) R5 (bw_fin _ _ _ _ _ Hq Hw Hn)). rewrite A4 in LB.
    rewrite bw_fin in LB by assumption. injection LB as LB. rewrite <- LB.
    destruct ws as [|w1 ws]; [reflexivity|]. cbn [last]. clear. revert w1. induction ws as [|w2 ws IH]; intros w1; [reflexivity|].
    apply IH.
Qed.

(** ** The waists *)
(** the two arrows for a beam at depth [x] with complex radius [q], when its waist is inside *)
Definition arrows_for (L len wl : R) (p : R * C2) : list (@arrow XR) :=
  let at_ := fst p - fst (snd p) in
  let size := sqrt (snd (snd p) * wl / PI) in
  if Rle_dec 0 at_ then
    if Rle_dec at_ L then
      [mkArrow (Fin at_, Fin (size + len)) (Fin at_, Fin size);
       mkArrow (Fin at_, Fin (- (size + len))) (Fin at_, Fin (- size))]
    else []
  else [].

Lemma marks_on ps q wl n L len l : 0 < wl -> Forall (on ps q wl 0 n) l ->
  exists bs, map (fun b : @beam XR => (bz b, bq b)) l = map (fun p => (Fin (fst p), fcx (snd p))) bs /\
    Forall (fun p => exists n', beam_at ps q n (fst p) (snd p) n') bs /\
    marks_of (Fin L) (Fin len) l = Ok (flat_map (arrows_for L len wl) bs).
Proof.
  intros Hw. pose proof PI_RGT_0 as HPI. induction l as [|b l IH]; intros HF.
  - exists []. split; [reflexivity|]. split; [constructor|reflexivity].
  - inversion HF as [|? ? Hb Hl]; subst. destruct (IH Hl) as (bs & E1 & E2 & E3).
    destruct Hb as (x & q' & n' & cl & -> & B & P1 & P2). rewrite Rplus_0_l.
    exists ((x, q') :: bs). split; [cbn [map fbeam bz bq fst snd]; now rewrite E1|].
    split; [constructor; [exists n'; exact B|exact E2]|].
    cbn [marks_of flat_map].
    assert (bwo (fbeam q' wl x n' cl) = Ok (Some (Fin (sqrt (snd q' * wl / PI))))) as ->.
    { unfold bwo, bzo. cbn [fbeam bq fcx im bwl]. change (nltb c0 (Fin (snd q'))) with (Rltb 0 (snd q')).
      rewrite Rltb_lt by exact P1. change (nmul (Fin (snd q')) (Fin wl)) with (Fin (snd q' * wl)).
      change (@npi XR _) with (Fin PI). rewrite pdiv_fin by lra. cbn [bind]. unfold psqrt.
      change (nltb (Fin (snd q' * wl / PI)) c0) with (Rltb (snd q' * wl / PI) 0).
      assert (0 < snd q' * wl / PI) as Pq by (apply Rdiv_lt_0_compat; [now apply Rmult_lt_0_compat|lra]).
      rewrite Rltb_ge by lra. cbn [bind]. cbn [nsqrt NumXR xsqrt]. rewrite ?Rltb_ge by lra.
      destruct (Rlt_dec (snd q' * wl / PI) 0); [lra|]. reflexivity. }
    cbn [bind]. unfold waistPosition. cbn [fbeam bz bq fcx re].
    change (nadd (Fin x) (nopp (Fin (fst q')))) with (Fin (x - fst q')).
    change (nleb c0 (Fin (x - fst q'))) with (Rleb 0 (x - fst q')).
    change (nleb (Fin (x - fst q')) (Fin L)) with (Rleb (x - fst q') L).
    unfold arrows_for. cbn [fst snd].
    destruct (Rle_dec 0 (x - fst q')) as [A|A].
    + rewrite Rleb_le by exact A. destruct (Rle_dec (x - fst q') L) as [C|C].
      * rewrite Rleb_le by exact C. cbn [negb andb]. rewrite E3. cbn [bind app]. do 3 f_equal.
        f_equal. f_equal. f_equal.
        change (nadd (nopp (Fin (sqrt (snd q' * wl / PI)))) (nopp (Fin len))) with (Fin (- sqrt (snd q' * wl / PI) + - len)).
        f_equal. ring.
      * rewrite Rleb_gt by lra. cbn [negb andb]. exact E3.
    + rewrite Rleb_gt by lra. cbn [negb andb]. exact E3.
Qed.

Theorem waist_marks es os ps :
  Forall2 canon es os -> chain os -> os <> [] -> Forall2 piece_of (flat_map leaves es) ps ->
  let n := onf (hd o_aperture os) in matched n ps -> 0 < n ->
  exists g, MatrixGroup_new es "" = Ok g /\
    forall q wl cl len, 0 < snd q -> 0 < wl ->
    exists bs l, beam_trace (grp_elem g) (fbeam q wl 0 n cl) = Ok l /\
      map (fun b : @beam XR => (bz b, bq b)) l = map (fun p => (Fin (fst p), fcx (snd p))) bs /\
      Forall (fun p => exists n', beam_at ps q n (fst p) (snd p) n') bs /\
      beamWaistAnnotations (Fin len) g (fbeam q wl 0 n cl) = Ok (flat_map (arrows_for (total_length os) len wl) bs).
Proof.
  intros HF HC Hn0 HL n HM Hn.
  destruct (MatrixGroup_new_ok es os "" (Forall2_canon_desc _ _ HF) HC Hn0) as (g & G1 & G2 & _ & _ & _ & _ & G3).
  exists g. split; [exact G1|]. intros q wl cl len Hq Hw.
  assert (Forall2 piece_of (leaves (grp_elem g)) ps) as HL'.
  { unfold grp_elem. cbn [leaves]. now rewrite G2. }
  destruct (elem_traced (grp_elem g) ps n HL' HM Hn q wl 0 cl Hq Hw) as (l & El & A1 & _).
  destruct (marks_on ps q wl n (total_length os) len l Hw A1) as (bs & B1 & B2 & B3).
  exists bs, l. split; [exact El|]. split; [exact B1|]. split; [exact B2|].
  unfold beamWaistAnnotations. rewrite El. cbn [bind].
  replace (mL (gmat g)) with (Fin (total_length os)); [exact B3|].
  destruct os as [|o t]; [congruence|]. pose proof (G3 o t eq_refl) as Tk.
  assert (mL (gmat g) = Fin (oL (path_optic o t))) as TL
    by (destruct Tk as [D|(_ & D)]; dsc D; reflexivity).
  rewrite TL, MatrixProofs.path_optic_L. reflexivity.
Qed.

(** what the arrows of a beam in a medium of index [n] mark: the narrowest place, and [sqrt n] times
    the width there *)
Theorem narrowest q wl n : 0 < snd q -> 0 < wl -> 0 < n ->
  (forall t, w_spec (further q (- fst q)) wl n <= w_spec (further q t) wl n) /\
  (forall t, w_spec (further q t) wl n = w_spec (further q (- fst q)) wl n -> t = - fst q) /\
  sqrt (snd q * wl / PI) = sqrt n * w_spec (further q (- fst q)) wl n.
Proof.
  intros Hq Hw Hn. pose proof PI_RGT_0 as HPI.
  assert (0 < wl / (n * PI * snd q)) as HK.
  { apply Rdiv_lt_0_compat; [lra|]. apply Rmult_lt_0_compat; [apply Rmult_lt_0_compat; lra|lra]. }
  assert (forall t, wl * normsq (further q t) / (n * PI * snd q) =
    wl / (n * PI * snd q) * ((fst q + t) * (fst q + t) + snd q * snd q)) as E.
  { intros t. unfold normsq, further. cbn [fst snd]. field. repeat split; lra. }
  assert (forall t, 0 <= wl / (n * PI * snd q) * ((fst q + t) * (fst q + t) + snd q * snd q)) as P.
  { intros t. apply Rmult_le_pos; [lra|]. pose proof (Rle_0_sqr (fst q + t)). unfold Rsqr in *. nra. }
  unfold w_spec. cbn [further snd]. split; [|split].
  - intros t. rewrite !E. apply sqrt_le_1; auto. apply Rmult_le_compat_l; [lra|].
    pose proof (Rle_0_sqr (fst q + t)). unfold Rsqr in *. nra.
  - intros t Ht. rewrite !E in Ht. apply sqrt_inj in Ht; auto.
    apply Rmult_eq_reg_l in Ht; [|lra]. assert ((fst q + t) * (fst q + t) = 0) as Z by nra.
    apply Rmult_integral in Z. lra.
  - rewrite <- sqrt_mult; [|lra|rewrite E; auto]. f_equal. rewrite E. field. repeat split; lra.
Qed.

(** ** Axicons and missing beams *)
(** a beam cannot be traced through an axicon, however deep it is in the path *)
Theorem axicon_refuses {T} {NT : Num T} : forall (e : @elem T) n a m, In (KAxicon n a, m) (leaves e) ->
  forall b l, beam_trace e b <> Ok l.
Proof.
  induction e as [k m0|gk m0 es IH] using elem_ind'; intros n a m Hin b l H.
  - cbn [leaves] in Hin. destruct Hin as [E|[]]. injection E as -> ->. discriminate.
  - cbn [leaves] in Hin. cbn [beam_trace] in H.
    destruct (trace_elems beam_trace es b) as [r|] eqn:E; [|discriminate]. clear H.
    revert b r E. induction IH as [|e es He IH IHes]; intros b r E; [contradiction|].
    cbn [trace_elems] in E. destruct (beam_trace e b) as [l1|] eqn:E1; [|discriminate]. cbn [bind] in E.
    destruct (trace_elems beam_trace es (last l1 b)) as [l2|] eqn:E2; [|discriminate].
    cbn [flat_map] in Hin. apply in_app_or in Hin as [Hin|Hin]; [exact (He _ _ _ Hin _ _ E1)|].
    exact (IHes Hin _ _ E2).
Qed.
Theorem nothing_given {T} {NT : Num T} N len (g : @grp T) : LaserPath_display N len g None None = Err TypeError.
Proof. reflexivity. Qed.
