(** Drawing the lenses of the catalogues in both orientations. *)
From Coq Require Import ZArith List Bool String Reals Lra Lia.
From Verif Require Import Base Nums Optics Drawing Materials Catalogue MaterialsProofs LensProofs MiscProofs CatalogueProofs CatalogueLens
  CatalogueChecks Figures FigureProofs FigureLens.
Import ListNotations.
Open Scope R_scope.
Open Scope list_scope.

(** the data of a lens class has a plane surface *)
Definition plane_data {A M} (c : lens_class A M) : Prop :=
  match c with
  | LDoubletD d _ => d_R1 d = None \/ d_R2 d = None \/ d_R3 d = None
  | LSingletD s _ => s_R1 s = None \/ s_R2 s = None
  end.
(** turning a lens over k times *)
Fixpoint flips (k : nat) (l : @lens_kind XR) : res (@lens_kind XR) :=
  match k with O => Ok l | S k => l <- flip_lens l;; flips k l end.

Lemma CompoundLens_diam (l : list (@elem XR)) d e : CompoundLens l d = Ok e -> mdiam (emat e) = d.
Proof. unfold CompoundLens. destruct (MatrixGroup_new l "") as [g|]; [|discriminate]. cbn [bind]. now intros [= <-]. Qed.
Lemma CompoundLens_turn (l : list (@elem XR)) d e : CompoundLens l d = Ok e -> mflip (emat e) = false.
Proof. intros H. apply CompoundLens_mflip in H as (m & es & -> & Hm). exact Hm. Qed.
Lemma rad_fine o : radb o = true -> radius_fine (radius (omap lit o)).
Proof.
  destruct o as [p|]; cbn [radb omap radius]; [|intros; now left]. intros H. destruct (nzb_ok p H) as [H1 ->]. right. eauto.
Qed.
Lemma rad_plane o : radb o = true -> (radius (omap (@lit XR _) o) = PInf <-> o = None).
Proof.
  destruct o as [p|]; cbn [radb omap radius]; [|intros; split; reflexivity]. intros H. destruct (nzb_ok p H) as [H1 ->]. split; discriminate.
Qed.
Lemma len_fine p : posb p = true -> length_fine (lit p).
Proof. intros H. destruct (posb_ok p H) as [H1 ->]. exists (litR p). split; [reflexivity|lra]. Qed.

Ltac binds H := repeat match type of H with bind ?x _ = _ => let E := fresh "E" in destruct x eqn:E; [|discriminate H]; cbn [bind] in H end.
Theorem object_stored c wl l : readyb c = true -> lens_object (resolved c) wl = Ok l ->
  stored l /\ mflip (lens_mat l) = false /\ mdiam (lens_mat l) = Fin (litR (diameter c)) /\ 0 < litR (diameter c) /\
  (has_plane l <-> plane_data c).
Proof.
  intros Hr H. unfold lens_object in H.
  destruct (construct (resolved c) wl) as [b|] eqn:E; [|discriminate]. cbn [bind] in H.
  destruct c as [d t|s t]; cbn [resolved resolve_class] in *; cbn [readyb] in Hr; rewrite !andb_true_iff in Hr.
  - destruct Hr as (((((((((((((P1 & P2) & P3) & P4) & P5) & P6) & Q1) & Q2) & Q3) & F1) & F3) & N1) & N2) & N3).
    destruct (b_elem b) as [|k m es] eqn:Eb; [discriminate|]. binds H. injection H as <-.
    cbn [d_R1 d_R2 d_R3 d_tc1 d_tc2 stored lens_mat has_plane plane_data diameter].
    assert (AchromatDoubletLens (mkDoublet (lit (d_fa d)) (lit (d_fb d)) (omap lit (d_R1 d)) (omap lit (d_R2 d)) (omap lit (d_R3 d)) (lit (d_tc1 d))
        (lit (d_tc2 d)) (lit (d_te d)) (lit (d_diam d)) (omap lit (d_n1 d)) (omap lit (d_n2 d))
        (match d_mat1 d with Some m => material catalogue m | None => None end)
        (match d_mat2 d with Some m => material catalogue m | None => None end) (omap lit (d_ref d))) wl = Ok b) as E1.
    { revert E. cbn [construct]. destruct t, wl; easy || auto. }
    clear E. unfold AchromatDoubletLens in E1.
    destruct (doublet_indices _ wl) as [nn|]; [|discriminate]. cbn [bind] in E1.
    destruct (AchromatDoublet _ _ _ _ _ _ _ _) as [e|] eqn:E2; [|discriminate]. cbn [bind] in E1. binds E1. injection E1 as <-. cbn [b_elem] in Eb. subst e.
    unfold AchromatDoublet in E2. binds E2. destruct (posb_ok _ P3) as [L3 E3'].
    pose proof (CompoundLens_diam _ _ _ E2) as D. pose proof (CompoundLens_turn _ _ _ E2) as F. cbn [emat d_diam] in D, F.
    rewrite E3' in D.
    split; [|split; [exact F|split; [exact D|split; [exact L3|]]]].
    + split; [now apply rad_fine|]. split; [now apply rad_fine|]. split; [now apply rad_fine|]. split; now apply len_fine.
    + rewrite !rad_plane by auto. reflexivity.
  - destruct Hr as ((((((((((P1 & P3) & P4) & P5) & P6) & Q1) & Q2) & F1) & F3) & N1) & N3).
    destruct (b_elem b) as [|k m es] eqn:Eb; [discriminate|]. binds H. injection H as <-.
    cbn [s_R1 s_R2 s_tc stored lens_mat has_plane plane_data diameter].
    assert (SingletLensC (mkSinglet (lit (s_f s)) (lit (s_fb s)) (omap lit (s_R1 s)) (omap lit (s_R2 s)) (lit (s_tc s)) (lit (s_te s))
        (lit (s_diam s)) (omap lit (s_n s)) (match s_mat s with Some m => material catalogue m | None => None end) (omap lit (s_ref s))) wl = Ok b) as E1.
    { revert E. cbn [construct]. destruct t, wl; easy || auto. }
    clear E. unfold SingletLensC in E1.
    destruct (singlet_index _ wl) as [nn|]; [|discriminate]. cbn [bind] in E1.
    destruct (SingletLens _ _ _ _ _) as [e|] eqn:E2; [|discriminate]. cbn [bind] in E1. binds E1. injection E1 as <-. cbn [b_elem] in Eb. subst e.
    unfold SingletLens in E2. binds E2. destruct (posb_ok _ P3) as [L3 E3'].
    pose proof (CompoundLens_diam _ _ _ E2) as D. pose proof (CompoundLens_turn _ _ _ E2) as F. cbn [emat s_diam] in D, F.
    rewrite E3' in D.
    split; [|split; [exact F|split; [exact D|split; [exact L3|]]]].
    + split; [now apply rad_fine|]. split; [now apply rad_fine|]. now apply len_fine.
    + rewrite !rad_plane by auto. reflexivity.
Qed.
Lemma flips_stored k : forall l l', stored l -> flips k l = Ok l' ->
  stored l' /\ mdiam (lens_mat l') = mdiam (lens_mat l) /\ mflip (lens_mat l') = xorb (Nat.odd k) (mflip (lens_mat l)) /\
  (has_plane l' <-> has_plane l).
Proof.
  induction k as [|k IH]; cbn [flips]; intros l l' St H.
  - injection H as <-. change (Nat.odd 0) with false. rewrite xorb_false_l. tauto.
  - destruct (flip_lens l) as [l1|] eqn:E; [|discriminate]. cbn [bind] in H.
    destruct (flipped_lens _ _ St E) as (S1 & D1 & F1 & P1). destruct (IH _ _ S1 H) as (S2 & D2 & F2 & P2).
    split; [exact S2|]. split; [congruence|]. split; [|tauto]. rewrite F2, F1, Nat.odd_succ, <- Nat.negb_odd.
    destruct (Nat.odd k), (mflip (lens_mat l)); reflexivity.
Qed.
Lemma lenses_data name c : In (name, c) (@lenses XR _) -> exists d, In (name, d) lens_data /\ c = resolved d.
Proof. unfold lenses. rewrite in_map_iff. intros ((n & d) & [= <- <-] & H). eauto. Qed.
Lemma plane_resolved d : plane_data (resolved d) <-> plane_data d.
Proof.
  assert (forall o : option (Z * Z), omap (@lit XR _) o = None <-> o = None) as K by (intros [x|]; cbn; split; congruence).
  destruct d as [d t|s t]; cbn; rewrite !K; reflexivity.
Qed.
(** every lens of the catalogues, after any number of flips *)
Theorem catalogue_drawn tan name c wl l k l' x ms : In (name, c) (@lenses XR _) -> lens_object c wl = Ok l -> flips k l = Ok l' ->
  (Nat.odd k = false \/ ~ plane_data c) ->
  exists ss d g, surfaces l' = Ok ss /\ diameter c = Fin d /\ GraphicOf tan l' (Fin x) ms = Ok (Some g) /\ halfHeight g = Ok (Fin (d / 2)) /\
  forall sc v s, In (v, s) (placed x ss) -> drawn_surface s v (d / 2) (List.concat (drawn sc g)).
Proof.
  intros Hc Ho Hk Hp. apply lenses_data in Hc as (d & Hd & ->). destruct (wide_strong _ _ Hd) as [Kr _].
  destruct (object_stored _ _ _ Kr Ho) as (St & Hf & Ed & Pd & Hpl). destruct (flips_stored k _ _ St Hk) as (S' & D' & F' & P').
  destruct (stored_drawn tan l' (litR (diameter d)) x ms S') as (ss & g & E1 & E2 & E3 & E4); [congruence|exact Pd| |].
  - rewrite F', Hf, xorb_false_r. intros Ho'. destruct Hp as [Hp|Hp]; [congruence|]. rewrite plane_resolved in Hp. tauto.
  - exists ss, (litR (diameter d)), g. split; [exact E1|]. split; [|auto].
    clear -Kr. destruct d as [d t|s t]; cbn [readyb] in Kr; rewrite !andb_true_iff in Kr; cbn [resolved resolve_class diameter d_diam s_diam]; apply posb_ok; tauto.
Qed.
Theorem catalogue_turned_fails tan name c wl l k l' x ms : In (name, c) (@lenses XR _) -> lens_object c wl = Ok l -> flips k l = Ok l' ->
  Nat.odd k = true -> plane_data c -> GraphicOf tan l' (Fin x) ms = Err ZeroDivisionError.
Proof.
  intros Hc Ho Hk Hp Hpl. apply lenses_data in Hc as (d & Hd & ->). destruct (wide_strong _ _ Hd) as [Kr _].
  destruct (object_stored _ _ _ Kr Ho) as (St & Hf & Ed & Pd & Hpl'). destruct (flips_stored k _ _ St Hk) as (S' & D' & F' & P').
  apply (stored_turned_fails tan l' (litR (diameter d)) x ms S'); auto; [congruence|rewrite F', Hf, xorb_false_r; exact Hp|].
  rewrite plane_resolved in Hpl. tauto.
Qed.
(** the lens object exists whenever the class can be called *)
Lemma object_exists c wl b : construct c wl = Ok b -> exists l : @lens_kind XR, lens_object c wl = Ok l.
Proof.
  intros H. unfold lens_object. rewrite H. cbn [bind]. destruct c as [d t|s t].
  - assert (AchromatDoubletLens d wl = Ok b) as E1 by (revert H; cbn [construct]; destruct t, wl; easy || auto).
    unfold AchromatDoubletLens in E1. destruct (doublet_indices d wl) as [nn|]; [|discriminate]. cbn [bind] in E1.
    destruct (AchromatDoublet _ _ _ _ _ _ _ _) as [e|] eqn:E2; [|discriminate]. cbn [bind] in E1. binds E1. injection E1 as <-. cbn [b_elem].
    unfold AchromatDoublet in E2. binds E2. apply CompoundLens_mflip in E2 as (m & es & -> & _). cbn [bind]. eexists; reflexivity.
  - assert (SingletLensC s wl = Ok b) as E1 by (revert H; cbn [construct]; destruct t, wl; easy || auto).
    unfold SingletLensC in E1. destruct (singlet_index s wl) as [nn|]; [|discriminate]. cbn [bind] in E1.
    destruct (SingletLens _ _ _ _ _) as [e|] eqn:E2; [|discriminate]. cbn [bind] in E1. binds E1. injection E1 as <-. cbn [b_elem].
    unfold SingletLens in E2. binds E2. apply CompoundLens_mflip in E2 as (m & es & -> & _). cbn [bind]. eexists; reflexivity.
Qed.
Theorem wide_object name c w : In (name, c) (@lenses XR _) -> takes c = true -> 35/100 <= w <= 5/2 ->
  exists l, lens_object c (Some (Fin w)) = Ok l.
Proof. intros H1 H2 H3. destruct (catalogue_wide _ _ _ H1 H2 H3) as (b & _ & _ & _ & _ & Hb & _). eapply object_exists; eauto. Qed.
