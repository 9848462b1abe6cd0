(** The figure of a laser cavity: the mode is drawn, and its outline closes on itself. *)
From Coq Require Import ZArith Reals Lra Lia List Bool String.
From Verif Require Import Base Nums Optics Group Spec MatrixProofs ElementProofs GroupProofs TraceProofs RayProofs
  CardinalProofs StrictProofs Beam BeamProofs BeamMore LawProofs CavityProofs BeamFigure BeamFigureProofs.
Import ListNotations.
Open Scope R_scope.

Lemma mode_beam q : mode q = fbeam q (6328 / 10000000) 0 1 false.
Proof. unfold mode, fbeam, wl_default. now rewrite ndec_val by (cbn; lra). Qed.

Lemma fcx_inj p q : fcx p = fcx q -> p = q.
Proof. destruct p, q. intros H. injection H as -> ->. reflexivity. Qed.
(** the pieces of a path act on beams like its elements *)
Lemma pieces_are_path es os ps q wl : Forall2 canon es os -> chain os -> good os -> os <> [] ->
  Forall2 piece_of (flat_map leaves es) ps -> let n := onf (hd o_aperture os) in matched n ps -> 0 < n ->
  0 < snd q -> 0 < wl -> after ps q = mobius (mprod (map oM os)) q /\ index_after n ps = onb (last os o_aperture).
Proof.
  intros HF HC HG HN HL n HM Hn Hq Hw.
  assert (Forall positive_leaf (flat_map leaves es)) as HP.
  { clear - HL. induction HL as [|? ? ? ? (_ & _ & H & _)]; constructor; auto. }
  destruct (MatrixGroup_canon es os "" HF HC HG HN) as (g & G1 & G2 & _ & _ & _ & _ & G).
  destruct os as [|o t]; [congruence|]. cbn [hd] in n. pose proof (G o t eq_refl) as Hg.
  assert (Forall positive_leaf (leaves (grp_elem g))) as HPg by (unfold grp_elem; cbn [leaves]; now rewrite G2).
  destruct (beam_trace_ok _ _ Hg HPg) as [_ K].
  destruct (K q wl 0 false Hq Hw) as (l & cl3 & E3 & _ & _ & L3 & _).
  rewrite MatrixProofs.path_optic_nf in E3, L3.
  assert (Forall2 piece_of (leaves (grp_elem g)) ps) as HL' by (unfold grp_elem; cbn [leaves]; now rewrite G2).
  destruct (elem_traced (grp_elem g) ps n HL' HM Hn q wl 0 false Hq Hw) as (l' & El & _ & _ & _ & cl & A4).
  unfold n in El, A4. rewrite E3 in El. injection El as <-. rewrite L3 in A4.
  pose proof (f_equal bq A4) as Kq. pose proof (f_equal bn A4) as Kn. cbn [bq bn fbeam] in Kq, Kn.
  apply fcx_inj in Kq. injection Kn as Kn. rewrite MatrixProofs.path_optic_M in Kq. rewrite MatrixProofs.path_optic_nb in Kn.
  rewrite last_cons_default. cbn [map]. rewrite mprod_cons. split; [congruence|]. unfold n. congruence.
Qed.

Theorem cavity_figure (N : nat) es os ps len : (1 <= N)%nat ->
  Forall2 canon es os -> Forall2 true_space es os -> chain os -> os <> [] ->
  Forall2 piece_of (flat_map leaves es) ps -> matched 1 ps ->
  onf (hd o_aperture os) = 1 -> onb (last os o_aperture) = 1 ->
  let M := mprod (map oM os) in 1 / 100000 < Rabs (C_ M) ->
  exists g, MatrixGroup_new es "" = Ok g /\
    ((A_ M + D_ M) * (A_ M + D_ M) < 4 ->
     exists q, round_trip M q /\ 0 < snd q /\ (forall q', round_trip M q' -> 0 < snd q' -> q' = q) /\
     let wl := 6328 / 10000000 in
     exists xs ws bs, LaserCavity_display N (Fin len) g =
         Ok ([(map Fin xs, map Fin ws); (map Fin xs, map (fun w => Fin (- w)) ws)],
             flat_map (arrows_for (total_length os) len wl) bs) /\
       Forall2 (fun x w => exists q' n', beam_at ps q 1 x q' n' /\ 0 < snd q' /\ 0 < n' /\ w = w_spec q' wl n') xs ws /\
       hd_error xs = Some 0 /\ last xs 0 = total_length ps /\
       hd_error ws = Some (w_spec q wl 1) /\ last ws 0 = w_spec q wl 1 /\
       Forall (fun p => exists n', beam_at ps q 1 (fst p) (snd p) n') bs) /\
    (4 <= (A_ M + D_ M) * (A_ M + D_ M) -> LaserCavity_display N (Fin len) g = Ok ([], [])).
Proof.
  intros HN HF HT HC Hn0 HL HM E1 E2 M HP.
  destruct (drawn_lines N es os ps HN HF HT HC Hn0 HL) as (g & G1 & GL); [now rewrite E1|lra|].
  destruct (waist_marks es os ps HF HC Hn0 HL) as (g' & G2 & GM); [now rewrite E1|lra|].
  rewrite G1 in G2. injection G2 as <-. rewrite E1 in GL, GM.
  exists g. split; [exact G1|].
  assert (matrix_is (gmat g) M) as HMm.
  { destruct (group_tracks es os (Forall2_canon_desc _ _ HF) HC Hn0) as (g' & G2 & H). rewrite G1 in G2.
    injection G2 as <-. destruct os as [|o t]; [easy|]. specialize (H _ _ eq_refl).
    apply tracks_matrix in H as (H1 & H2 & H3 & H4 & _). unfold matrix_is, M. cbn [map]. rewrite mprod_cons, <- MatrixProofs.path_optic_M. auto. }
  assert (mdet M = 1) as HD.
  { destruct os as [|o t]; [easy|]. pose proof (physical_path o t HC) as (_ & _ & Hd).
    rewrite MatrixProofs.path_optic_M, MatrixProofs.path_optic_nf, MatrixProofs.path_optic_nb in Hd. cbn [hd] in E1.
    rewrite last_cons_default in E2. unfold M. cbn [map]. rewrite mprod_cons, Hd, E1, E2. lra. }
  destruct (stable_iff (gmat g) M HMm HP HD) as [S1 S2].
  split.
  - intros L. apply S1 in L. unfold LaserCavity_display. rewrite L. cbn [bind].
    destruct (modes_ok (gmat g) M HMm HP ltac:(lra)) as (q1 & q2 & l & _ & R1 & R2 & RA & EL & LL & LI & _).
    unfold isStable in L. rewrite EL in L. cbn [bind] in L. injection L as L. apply Nat.ltb_lt in L.
    destruct l as [|b [|b' l]]; [cbn in L; lia| |cbn in LL; lia].
    destruct (proj1 (LI b) (or_introl eq_refl)) as [Hb Fb].
    assert (exists q, b = mode q /\ round_trip M q) as (q & -> & RT) by (destruct Hb as [-> | ->]; eauto).
    rewrite mode_finite in Fb. injection Fb as Fb. destruct (Rlt_dec 0 (snd q)) as [Pq|]; [|discriminate].
    assert (0 < 6328 / 10000000) as Hw by lra.
    exists q. split; [exact RT|]. split; [exact Pq|]. split.
    { intros q' RT' Pq'. assert (In (mode q') [mode q]) as [I|[]].
      { apply LI. split; [destruct (RA q' RT') as [-> | ->]; auto|]. rewrite mode_finite.
        destruct (Rlt_dec 0 (snd q')); [reflexivity|contradiction]. }
      unfold mode, fcx in I. injection I as I1 I2. apply c2_eq; congruence. }
    cbv zeta. destruct (GL q (6328 / 10000000) false Pq Hw) as (xs & ws & B1 & B2 & B3 & B4 & B5 & B6).
    destruct (GM q (6328 / 10000000) false len Pq Hw) as (bs & l & _ & _ & C1 & C2).
    exists xs, ws, bs. rewrite EL. cbn [bind map displayGaussianBeam]. rewrite mode_beam, B1. cbn [bind]. rewrite C2. cbn [bind fst snd].
    rewrite !app_nil_r. split; [reflexivity|]. split; [exact B2|]. split; [exact B3|]. split; [exact B4|]. split; [exact B5|].
    split; [|exact C1]. rewrite B6.
    assert (good os) as HG by (right; intros o t ->; exact E1).
    destruct (pieces_are_path es os ps q (6328 / 10000000) HF HC HG Hn0 HL) as [Ka Kn]; rewrite ?E1; auto; try lra.
    rewrite E1 in Kn. rewrite Ka, Kn, E2. f_equal. exact (proj2 RT).
  - intros L. apply S2 in L. unfold LaserCavity_display. rewrite L. reflexivity.
Qed.
