(** Which elements can be drawn, and where: catalogue lenses in both orientations, thin lenses, apertures, matrices
    and objectives. *)
From Coq Require Import ZArith List Bool String Reals Lra Lia Psatz.
From Verif Require Import Base Nums Optics Drawing Figures MaterialsProofs MiscProofs FigureProofs.
Import ListNotations.
Open Scope R_scope.
Open Scope list_scope.
Local Notation pt a b := (Fin a, Fin b).

(** ** A plane that was turned around has radius -inf *)
Definition plane_turned (s : @surface XR) : Prop := su_shape s = Spherical NInf.
Fixpoint mixed_list (ss : list (@surface XR)) : Prop :=
  match ss with
  | [] => True
  | a :: t => (good a \/ plane_turned a) /\ match t with [] => True | _ => exists l, su_L a = Fin l /\ l <> 0 end /\ mixed_list t
  end.
Lemma pairs_fail tan h : 0 < h -> forall ss z, mixed_list ss -> (2 <= List.length ss)%nat -> Exists plane_turned ss ->
  pairs tan ss (Fin h) (Fin z) = Err ZeroDivisionError.
Proof.
  intros Hh. induction ss as [|a t IH]; intros z G Hl E; [cbn in Hl; lia|].
  destruct t as [|b t]; [cbn in Hl; lia|]. destruct G as (Ga & (L & EL & HL) & Gt).
  change (pairs tan (a :: b :: t) (Fin h) (Fin z)) with
    (p <- SurfacePair tan a b (Fin h) (Fin z);; r <- pairs tan (b :: t) (Fin h) (nadd (Fin z) (pa_L p));; Ok (p :: r)).
  destruct Ga as [Ga|Ga].
  2:{ unfold SurfacePair. rewrite isfinite_fin. cbn [negb]. unfold getPathA. rewrite Ga. cbn [neqb NumXR xeqb ninf].
      rewrite sag_flat by auto. reflexivity. }
  pose proof Gt as ([Gb|Gb] & _).
  2:{ unfold SurfacePair. rewrite isfinite_fin. cbn [negb]. rewrite (front_ok tan a z h L) by auto. cbn [bind].
      unfold getPathB. rewrite Gb. cbn [neqb NumXR xeqb ninf]. rewrite sag_flat by auto. reflexivity. }
  rewrite (pair_ok tan a b z h L) by auto. cbn [bind pa_L nadd NumXR xadd].
  inversion E as [? ? Pa|? ? Et]; subst; [unfold good in Ga; unfold plane_turned in Pa; rewrite Pa in Ga; contradiction|].
  destruct t as [|c t].
  - inversion Et as [? ? Pb|? ? Et']; subst; [unfold good in Gb; unfold plane_turned in Pb; rewrite Pb in Gb; contradiction|inversion Et'].
  - rewrite IH; auto. cbn; lia.
Qed.
Lemma surfaces_fail tan ss h x : 0 < h -> mixed_list ss -> (2 <= List.length ss)%nat -> Exists plane_turned ss ->
  SurfacesGraphic tan ss (Fin h) (Fin x) = Err ZeroDivisionError.
Proof.
  intros Hh G Hl E. unfold SurfacesGraphic. destruct ss as [|a [|b t]]; [cbn in Hl; lia|cbn in Hl; lia|].
  rewrite c0_xr, pairs_fail by auto. reflexivity.
Qed.

(** ** Catalogue lenses *)
(** a radius of the data: a sphere or a plane *)
Definition radius_fine (r : XR) : Prop := r = PInf \/ exists x, r = Fin x /\ x <> 0.
Definition length_fine (l : XR) : Prop := exists x, l = Fin x /\ x <> 0.
(** radii and thicknesses as stored by the lens *)
Definition stored (l : @lens_kind XR) : Prop :=
  match l with
  | LDoublet _ _ r1 r2 r3 t1 t2 _ _ => radius_fine r1 /\ radius_fine r2 /\ radius_fine r3 /\ length_fine t1 /\ length_fine t2
  | LSinglet _ _ r1 r2 t _ => radius_fine r1 /\ radius_fine r2 /\ length_fine t
  | _ => False
  end.
Definition has_plane (l : @lens_kind XR) : Prop :=
  match l with
  | LDoublet _ _ r1 r2 r3 _ _ _ _ => r1 = PInf \/ r2 = PInf \/ r3 = PInf
  | LSinglet _ _ r1 r2 _ _ => r1 = PInf \/ r2 = PInf
  | _ => False
  end.
Lemma good_radius r n l : radius_fine r -> good (SphericalInterface r n l).
Proof. intros [->|(x & -> & H)]; exact H || exact I. Qed.
Lemma turned_radius r n l s : radius_fine r -> s = mkSurf (Spherical (nopp r)) n l -> r <> PInf -> good s.
Proof. intros [->|(x & -> & H)] -> Hp; [easy|]. unfold good. cbn. lra. Qed.
Lemma turned_mixed r n l s : radius_fine r -> s = mkSurf (Spherical (nopp r)) n l -> good s \/ plane_turned s.
Proof. intros [->|(x & -> & H)] ->; [right; reflexivity|left]. unfold good. cbn. lra. Qed.

Lemma half_diam l d : match l with LLeaf _ _ => False | _ => True end -> mdiam (lens_mat l) = Fin d ->
  displayHalfHeightOf l = Fin (d / 2).
Proof.
  intros Hl E. unfold displayHalfHeightOf, displayHalfHeight. destruct l; try contradiction; cbn [lens_mat] in *; rewrite E;
    cbn; (destruct (Req_EM_T 2 0); [lra|reflexivity]).
Qed.
Theorem stored_drawn tan l d x ms : stored l -> mdiam (lens_mat l) = Fin d -> 0 < d ->
  (mflip (lens_mat l) = true -> ~ has_plane l) ->
  exists ss g, surfaces l = Ok ss /\ GraphicOf tan l (Fin x) ms = Ok (Some g) /\ halfHeight g = Ok (Fin (d / 2)) /\
  forall sc v s, In (v, s) (placed x ss) -> drawn_surface s v (d / 2) (List.concat (drawn sc g)).
Proof.
  intros St Ed Hd Hp. assert (0 < d / 2) as Hh by lra.
  assert (exists ss, surfaces l = Ok ss /\ good_list ss /\ ss <> []) as (ss & Es & G & Hn).
  { unfold surfaces. destruct l as [k m|m es|m es r1 r2 r3 t1 t2 n1 n2|m es r1 r2 t n]; try contradiction; cbn [forwardSurfaces bind lens_mat] in *.
    - destruct St as (H1 & H2 & H3 & (a1 & E1 & N1) & (a2 & E2 & N2)). destruct (mflip m).
      + eexists. split; [reflexivity|]. split; [|discriminate]. specialize (Hp eq_refl). cbn [has_plane] in Hp.
        cbn [rev app turn_all turn su_shape su_n su_L SphericalInterface good_list].
        split; [eapply turned_radius; [exact H3|reflexivity|tauto]|]. split; [cbn; eauto|].
        split; [eapply turned_radius; [exact H2|reflexivity|tauto]|]. split; [cbn; eauto|].
        split; [eapply turned_radius; [exact H1|reflexivity|tauto]|]. auto.
      + eexists. split; [reflexivity|]. split; [|discriminate]. cbn [good_list].
        split; [now apply good_radius|]. split; [cbn; eauto|]. split; [now apply good_radius|]. split; [cbn; eauto|].
        split; [now apply good_radius|]. auto.
    - destruct St as (H1 & H2 & (a1 & E1 & N1)). destruct (mflip m).
      + eexists. split; [reflexivity|]. split; [|discriminate]. specialize (Hp eq_refl). cbn [has_plane] in Hp.
        cbn [rev app turn_all turn su_shape su_n su_L SphericalInterface good_list].
        split; [eapply turned_radius; [exact H2|reflexivity|tauto]|]. split; [cbn; eauto|].
        split; [eapply turned_radius; [exact H1|reflexivity|tauto]|]. auto.
      + eexists. split; [reflexivity|]. split; [|discriminate]. cbn [good_list].
        split; [now apply good_radius|]. split; [cbn; eauto|]. split; [now apply good_radius|]. auto. }
  exists ss. destruct (surfaces_drawn tan ss (d / 2) x G Hn Hh) as (g & Eg & Hg & D). exists g.
  split; [exact Es|]. split; [|split; [exact Hg|exact D]].
  unfold GraphicOf, surfacesOf.
  destruct l as [k m|m es|m es r1 r2 r3 t1 t2 n1 n2|m es r1 r2 t n]; try contradiction;
    rewrite Es; cbn [bind]; (rewrite (half_diam _ d) by (cbn; auto)); rewrite Eg; destruct ss; easy || reflexivity.
Qed.
Theorem stored_turned_fails tan l d x ms : stored l -> mdiam (lens_mat l) = Fin d -> 0 < d ->
  mflip (lens_mat l) = true -> has_plane l -> GraphicOf tan l (Fin x) ms = Err ZeroDivisionError.
Proof.
  intros St Ed Hd Hf Hp. assert (0 < d / 2) as Hh by lra.
  assert (exists ss, surfaces l = Ok ss /\ mixed_list ss /\ (2 <= List.length ss)%nat /\ Exists plane_turned ss) as (ss & Es & G & Hn & HE).
  { unfold surfaces. destruct l as [k m|m es|m es r1 r2 r3 t1 t2 n1 n2|m es r1 r2 t n]; try contradiction; cbn [forwardSurfaces bind lens_mat] in *; rewrite Hf.
    - destruct St as (H1 & H2 & H3 & (a1 & E1 & N1) & (a2 & E2 & N2)). eexists. split; [reflexivity|]. cbn [has_plane] in Hp.
      cbn [rev app turn_all turn su_shape su_n su_L SphericalInterface mixed_list]. split; [|split; [cbn; lia|]].
      + split; [eapply turned_mixed; [exact H3|reflexivity]|]. split; [cbn; eauto|].
        split; [eapply turned_mixed; [exact H2|reflexivity]|]. split; [cbn; eauto|].
        split; [eapply turned_mixed; [exact H1|reflexivity]|]. auto.
      + destruct Hp as [-> |[-> | ->]]; [do 2 apply Exists_cons_tl; apply Exists_cons_hd|apply Exists_cons_tl, Exists_cons_hd|apply Exists_cons_hd]; reflexivity.
    - destruct St as (H1 & H2 & (a1 & E1 & N1)). eexists. split; [reflexivity|]. cbn [has_plane] in Hp.
      cbn [rev app turn_all turn su_shape su_n su_L SphericalInterface mixed_list]. split; [|split; [cbn; lia|]].
      + split; [eapply turned_mixed; [exact H2|reflexivity]|]. split; [cbn; eauto|].
        split; [eapply turned_mixed; [exact H1|reflexivity]|]. auto.
      + destruct Hp as [-> | ->]; [apply Exists_cons_tl, Exists_cons_hd|apply Exists_cons_hd]; reflexivity. }
  pose proof (surfaces_fail tan ss (d / 2) x Hh G Hn HE) as Eg.
  unfold GraphicOf, surfacesOf.
  destruct l as [k m|m es|m es r1 r2 r3 t1 t2 n1 n2|m es r1 r2 t n]; try contradiction;
    rewrite Es; cbn [bind]; (rewrite (half_diam _ d) by (cbn; auto)); rewrite Eg; (destruct ss; [cbn in Hn; lia|reflexivity]).
Qed.

(** flipping keeps the diameter *)
Section Diameter.
Context {T : Type} {N : Num T}.
Lemma append_mdiam (g : @grp T) e g' : append g e = Ok g' -> mdiam (gmat g') = mdiam (gmat g).
Proof.
  unfold append, append_st. destruct (append_check _ _); [|discriminate].
  destruct (group_transfer _ _); [|discriminate]. cbn. intros [= <-]. reflexivity.
Qed.
Lemma flip_group_mdiam (m : @mat T) es e' : flip (Group GGroup m es) = Ok e' ->
  exists m' es', e' = Group GGroup m' es' /\ mflip m' = negb (mflip m) /\ mdiam m' = mdiam m.
Proof.
  intros H. pose proof H as H0. apply flip_group_mflip in H0 as (m' & es' & -> & Hf). exists m', es'. do 2 (split; [auto|]). clear Hf.
  rewrite GroupProofs.flip_group in H.
  destruct (flip_loop _ es) as [g|] eqn:E; [|discriminate]. injection H as <- _. revert g E.
  induction es as [|x t IH]; cbn [flip_loop]; intros g E; [injection E as <-; reflexivity|].
  destruct (flip_loop _ t) as [g0|]; [|discriminate]. cbn [bind] in E.
  destruct (flip x); [|discriminate]. cbn [bind] in E. apply append_mdiam in E. rewrite E. now apply IH.
Qed.
End Diameter.
Theorem flipped_lens (l l1 : @lens_kind XR) : stored l -> flip_lens l = Ok l1 ->
  stored l1 /\ mdiam (lens_mat l1) = mdiam (lens_mat l) /\ mflip (lens_mat l1) = negb (mflip (lens_mat l)) /\
  (has_plane l1 <-> has_plane l).
Proof.
  destruct l as [k m|m es|m es r1 r2 r3 t1 t2 n1 n2|m es r1 r2 t n]; try contradiction; cbn [flip_lens]; intros St;
    (destruct (flip (Group GGroup m es)) as [e1|] eqn:E1; [|discriminate]); cbn [bind];
    apply flip_group_mdiam in E1 as (m1 & es1 & -> & H1 & H2); intros [= <-]; cbn [lens_mat]; tauto.
Qed.
