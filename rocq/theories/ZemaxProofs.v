(** Proofs about lenses read from Zemax files. *)
From Coq Require Import ZArith Reals Lra List Bool String Ascii Lia.
From Verif Require Import Base Nums Optics Spec MatrixProofs ElementProofs GroupProofs CardinalProofs
  BeamProofs BeamMore Materials MaterialsProofs NamesProofs Zemax.
Import ListNotations.
Open Scope list_scope.
Open Scope R_scope.

(** ** Which surfaces form the lens *)
Section Surfaces.
Context {T : Type} {N : Num T}.
Lemma lens_loop_air (pre l : list (surface T)) : Forall (fun s => is_air s = true) pre ->
  lens_loop false (pre ++ l) = lens_loop false l.
Proof. induction 1 as [|s t Hs Ht IH]; cbn; [reflexivity|]. now rewrite Hs. Qed.
Lemma lens_loop_glass (glass l : list (surface T)) b : Forall (fun s => is_air s = false) glass ->
  glass <> [] -> lens_loop b (glass ++ l) = glass ++ lens_loop true l.
Proof.
  intros H. revert b. induction H as [|s t Hs Ht IH]; intros b Hn; [congruence|].
  cbn. rewrite Hs. f_equal. destruct t as [|s' t']; [reflexivity|]. apply IH. discriminate.
Qed.
(** the lens: the first run of glass surfaces and the air surface that closes it *)
Lemma lens_surfaces (pre glass rest : list (surface T)) air :
  Forall (fun s => is_air s = true) pre -> Forall (fun s => is_air s = false) glass ->
  glass <> [] -> is_air air = true ->
  lens_loop false (pre ++ glass ++ air :: rest) = glass ++ [air].
Proof.
  intros H1 H2 H3 H4. rewrite lens_loop_air, lens_loop_glass by auto. cbn. now rewrite H4.
Qed.
Lemma lens_surfaces_open (pre glass : list (surface T)) :
  Forall (fun s => is_air s = true) pre -> Forall (fun s => is_air s = false) glass ->
  lens_loop false (pre ++ glass) = glass.
Proof.
  intros H1 H2. rewrite lens_loop_air by auto. destruct glass as [|s t]; [reflexivity|].
  rewrite <- (app_nil_r (s :: t)) at 1. rewrite lens_loop_glass by (auto; discriminate).
  cbn. now rewrite app_nil_r.
Qed.

(** ** What the group is made of *)
(** the elements described by the surfaces [ls], whose glasses have indices [ns], for light coming
    from index [n] *)
Fixpoint prescription (n : T) (ns : list T) (ls : list (surface T)) : list (res (@elem T)) :=
  match ns, ls with
  | n' :: ns', s :: ls' =>
      DielectricInterface n n' (sf_R s) (sf_diam s) ::
      (if is_air s then [] else [Space (sf_spacing s) n' ninf]) ++ prescription n' ns' ls'
  | _, _ => []
  end.
End Surfaces.

(** a surface of index [n] that a lens can have *)
Record good_surface (w : XR) (s : surface XR) (n : R) : Prop := {
  g_n : real_index (sf_mat s) w = Ok (Fin n);
  g_n0 : n <> 0;
  g_R : radius_ok (sf_R s);
  g_d : positive (sf_diam s);
  g_s : is_air s = false -> exists d, sf_spacing s = Fin d
}.
Definition spacing (s : surface XR) : R := match sf_spacing s with Fin d => d | _ => 0 end.
Fixpoint pieces (n : R) (ns : list R) (ls : list (surface XR)) : list optic :=
  match ns, ls with
  | n' :: ns', s :: ls' =>
      o_interface n n' (sf_R s) :: (if is_air s then [] else [o_space (spacing s) n']) ++ pieces n' ns' ls'
  | _, _ => []
  end.
Definition glass_length (ls : list (surface XR)) : R :=
  fold_right Rplus 0 (map spacing (filter (fun s => negb (is_air s)) ls)).

Lemma total_length_cons o l : total_length (o :: l) = oL o + total_length l.
Proof. reflexivity. Qed.
Lemma total_length_app l l' : total_length (l ++ l') = total_length l + total_length l'.
Proof. induction l as [|o t IH]; [cbn; unfold total_length; cbn; lra|]. cbn [app]. rewrite !total_length_cons, IH. lra. Qed.

Lemma real_index_air w n (s : string * dispersion XR) (m : R) :
  real_index s w = Ok (Fin m) -> snd s = DAir -> n = 1 -> m = n.
Proof.
  intros H E ->. unfold real_index in H. rewrite E in H. unfold index_of in H.
  destruct (_ || _)%bool; [discriminate|]. cbn in H. injection H as <-. reflexivity.
Qed.
Lemma air_index w (s : string * dispersion XR) (m : XR) name :
  real_index s w = Ok m -> real_index (name, DAir) w = Ok (Fin 1).
Proof.
  unfold real_index, index_of. cbn [snd]. destruct (_ || _)%bool; [discriminate|]. reflexivity.
Qed.

Lemma group_loop_ok w : forall ls ns, Forall2 (good_surface w) ls ns ->
  forall n prev (g : @grp XR), n <> 0 -> real_index prev w = Ok (Fin n) ->
  exists es, map Ok es = prescription (Fin n) (map Fin ns) ls /\
    Forall2 (fun e o => describes (emat e) o) es (pieces n ns ls) /\
    matched n (pieces n ns ls) /\ total_length (pieces n ns ls) = glass_length ls /\
    List.last (map onb (pieces n ns ls)) n = List.last ns n /\
    group_loop g w prev ls = append_all g es.
Proof.
  induction 1 as [|s n' ls ns [Gn Gn0 GR Gd Gs] HF IH]; intros n prev g Hn Hp.
  - exists []. cbn. unfold total_length, glass_length. cbn. repeat split; auto.
  - pose (i := Leaf (KInterface (Fin n) (Fin n') (sf_R s))
                 (mat_of (o_interface n n' (sf_R s)) (sf_diam s) PInf false "")).
    assert (Hi : DielectricInterface (Fin n) (Fin n') (sf_R s) (sf_diam s) = Ok i)
      by now apply DielectricInterface_ok.
    assert (Pi : physical (o_interface n n' (sf_R s))) by now apply p_interface.
    cbn [prescription map pieces group_loop]. rewrite Hp, Gn. cbn [bind]. rewrite Hi. cbn [bind].
    unfold glass_length. cbn [filter].
    destruct (is_air s) eqn:Ea; cbn [negb app].
    + assert (Eap : forall g', exists es, map Ok es = prescription (Fin n') (map Fin ns) ls /\
        Forall2 (fun e o => describes (emat e) o) es (pieces n' ns ls) /\
        matched n' (pieces n' ns ls) /\ total_length (pieces n' ns ls) = glass_length ls /\
        List.last (map onb (pieces n' ns ls)) n' = List.last ns n' /\
        group_loop g' w (sf_mat s) ls = append_all g' es) by (intros g'; now apply IH).
      destruct (Eap g) as (es & E1 & E2 & E3 & E4 & E5 & _).
      exists (i :: es). cbn [map]. rewrite <- E1. split; [reflexivity|].
      split; [constructor; [apply mat_of_describes|exact E2]|].
      split; [split; [reflexivity|]; split; [exact Pi|exact E3]|].
      split; [rewrite total_length_cons, E4; cbn; unfold glass_length; lra|].
      split; [rewrite !last_cons_default; exact E5|].
      cbn [append_all]. destruct (append g i) as [g1|x]; [|reflexivity]. cbn [bind].
      destruct (Eap g1) as (es' & E1' & _ & _ & _ & _ & E6'). rewrite E6'.
      f_equal. rewrite <- E1' in E1.
      clear - E1. revert es' E1. induction es as [|a t IHt]; intros [|b t'] H; try discriminate; auto.
      cbn in H. injection H as -> H. f_equal. auto.
    + destruct (Gs eq_refl) as [d Ed].
      pose (sp := Leaf KSpace (mat_of (o_space d n') PInf PInf false "")).
      assert (Hsp : Space (sf_spacing s) (Fin n') PInf = Ok sp)
        by (rewrite Ed; apply Space_ok; cbn; auto).
      assert (Ps : physical (o_space d n')) by now apply p_space.
      assert (Es : spacing s = d) by (unfold spacing; now rewrite Ed).
      change (@ninf XR NumXR) with PInf. rewrite Hsp, Es.
      assert (Eap : forall g', exists es, map Ok es = prescription (Fin n') (map Fin ns) ls /\
        Forall2 (fun e o => describes (emat e) o) es (pieces n' ns ls) /\
        matched n' (pieces n' ns ls) /\ total_length (pieces n' ns ls) = glass_length ls /\
        List.last (map onb (pieces n' ns ls)) n' = List.last ns n' /\
        group_loop g' w (sf_mat s) ls = append_all g' es) by (intros g'; now apply IH).
      destruct (Eap g) as (es & E1 & E2 & E3 & E4 & E5 & _).
      exists (i :: sp :: es). cbn [map]. rewrite <- E1. split; [reflexivity|].
      split; [constructor; [apply mat_of_describes|]; constructor; [apply mat_of_describes|exact E2]|].
      split; [split; [reflexivity|]; split; [exact Pi|]; split; [reflexivity|]; split; [exact Ps|exact E3]|].
      split; [rewrite !total_length_cons, E4; cbn; rewrite Es; unfold glass_length; lra|].
      split; [rewrite !last_cons_default; exact E5|].
      cbn [append_all]. destruct (append g i) as [g1|x]; [|reflexivity]. cbn [bind].
      destruct (append g1 sp) as [g2|x]; [|reflexivity]. cbn [bind].
      destruct (Eap g2) as (es' & E1' & _ & _ & _ & _ & E6'). rewrite E6'.
      f_equal. rewrite <- E1' in E1.
      clear - E1. revert es' E1. induction es as [|a t IHt]; intros [|b t'] H; try discriminate; auto.
      cbn in H. injection H as -> H. f_equal. auto.
Qed.

(** ** The lens *)
Lemma map_Ok_inj {A} (l l' : list A) : map Ok l = map Ok l' -> l = l'.
Proof.
  revert l'. induction l as [|a t IH]; intros [|b t'] H; try discriminate; auto.
  cbn in H. injection H as -> H. f_equal. auto.
Qed.
Lemma group_of_lens w ls ns : Forall2 (good_surface w) ls ns -> ls <> [] ->
  exists g0 g, MatrixGroup_new (T:=XR) [] "" = Ok g0 /\ group_loop g0 w ("Air"%string, DAir) ls = Ok g /\
    map Ok (gelems g) = prescription (Fin 1) (map Fin ns) ls /\
    mfi (gmat g) = Fin 1 /\ mL (gmat g) = Fin (glass_length ls) /\
    (List.last ns 1 = 1 -> mbi (gmat g) = Fin 1).
Proof.
  intros Hgood Hne.
  assert (Hw : real_index ("Air"%string, DAir) w = Ok (Fin 1)).
  { inversion Hgood as [|? ? ? ? G _]; subst; [congruence|]. exact (air_index _ _ _ _ (g_n _ _ _ G)). }
  destruct (MatrixGroup_new (T:=XR) [] "") as [g0|x] eqn:Eg.
  2:{ exfalso. unfold MatrixGroup_new, c0, c1 in Eg. cbn [nofZ ninf NumXR] in Eg.
      rewrite Matrix_init_ok in Eg; try reflexivity; try lra. discriminate. }
  exists g0.
  destruct (group_loop_ok w ls ns Hgood 1 ("Air"%string, DAir) g0 ltac:(lra) Hw)
    as (es & E1 & E2 & E3 & E4 & E5 & E6).
  rewrite E6.
  assert (Hnew : append_all g0 es = MatrixGroup_new es "").
  { unfold MatrixGroup_new in Eg |- *. destruct (Matrix_init _ _ _ _ _ _ _ _ _ _ _ _); [|discriminate].
    cbn [bind] in *. cbn in Eg. injection Eg as <-. reflexivity. }
  rewrite Hnew.
  destruct (pieces 1 ns ls) as [|o os] eqn:Ep.
  { exfalso. inversion Hgood; subst; [congruence|]. discriminate. }
  assert (HC : chain (o :: os)) by (cbn in E3 |- *; tauto).
  destruct (MatrixGroup_new_ok es (o :: os) "" E2 HC ltac:(discriminate)) as (g & G1 & G2 & _ & _ & _ & _ & G7).
  exists g. split; [reflexivity|]. split; [exact G1|]. split; [now rewrite G2|].
  specialize (G7 _ _ eq_refl).
  assert (Hf : onf (path_optic o os) = 1) by (rewrite path_optic_nf; apply E3).
  assert (HL : oL (path_optic o os) = glass_length ls) by (rewrite path_optic_L, <- total_length_cons; exact E4).
  assert (Hb : onb (path_optic o os) = List.last ns 1).
  { rewrite path_optic_nb, <- E5. cbn [map]. rewrite last_cons_default.
    clear. revert o. induction os as [|a t IH]; intros o; [reflexivity|].
    cbn [map]. rewrite !last_cons_default. apply IH. }
  destruct G7 as [D|[_ D]]; rewrite (d_nf _ _ D), (d_nb _ _ D), (d_L _ _ D); cbn [onf onb oL];
    rewrite ?Hf, ?Hb, HL; repeat split; intros; congruence.
Qed.

Lemma closed_last w glass air ns : Forall2 (good_surface w) (glass ++ [air]) ns -> is_air air = true ->
  List.last ns 1 = 1.
Proof.
  intros Hgood Hair. apply Forall2_app_inv_l in Hgood as (n1 & n2 & _ & F & ->).
  inversion F as [|? n ? ? G F']; subst. inversion F'; subst. rewrite last_last.
  apply (real_index_air w 1 (sf_mat air)); [apply G| |reflexivity].
  unfold is_air in Hair. destruct (snd (sf_mat air)); (reflexivity || discriminate).
Qed.
Lemma glass_length_all glass : Forall (fun s => is_air s = false) glass ->
  glass_length glass = fold_right Rplus 0 (map spacing glass).
Proof.
  intros Hgl. unfold glass_length.
  replace (filter (fun s => negb (is_air s)) glass) with glass; [reflexivity|].
  induction Hgl as [|s t Hs Ht IH]; [reflexivity|]. cbn. rewrite Hs. cbn. now f_equal.
Qed.
Lemma glass_length_closed glass air : is_air air = true -> glass_length (glass ++ [air]) = glass_length glass.
Proof.
  intros Hair. unfold glass_length. rewrite filter_app. cbn [filter]. rewrite Hair. cbn [negb].
  now rewrite app_nil_r.
Qed.

(** *** The indices come from the catalogue *)
Lemma found_in (s : string) (c : string * dispersion XR) : findByName (Some s) = Ok c -> In c catalogue.
Proof. intros H. destruct c as [n d]. apply (proj1 (find_iff s n d)) in H. tauto. Qed.
Lemma surfaceInfo_catalogue (z : reader XR) i s : surfaceInfo z i = Ok (Some s) -> In (sf_mat s) catalogue.
Proof.
  unfold surfaceInfo. intros H.
  destruct (rawSurfaceInfo (z_lines z) i) as [[b|]|]; [|discriminate|discriminate]. cbn [bind] in H.
  assert (K : forall m : string * dispersion XR,
     match lookup b "GLAS" with
     | Some p => w <- first_word p;; findByName (Some w)
     | None => Ok ("Air"%string, DAir)
     end = Ok m -> In m catalogue).
  { intros m. destruct (lookup b "GLAS") as [p|].
    - destruct (first_word p) as [w|]; [|discriminate]. cbn [bind]. apply found_in.
    - intros E. injection E as <-. left. reflexivity. }
  match type of H with (bind ?x _ = _) => destruct x as [m|] eqn:Em; [|discriminate] end.
  specialize (K m eq_refl). cbn [bind] in H.
  repeat match type of H with
  | (bind ?x _ = _) => destruct x; [cbn [bind] in H|discriminate H]
  end.
  injection H as <-. exact K.
Qed.
Lemma surfaces_catalogue (z : reader XR) : forall fuel i l, surfaces_loop z fuel i = Ok l ->
  Forall (fun s => In (sf_mat s) catalogue) l.
Proof.
  induction fuel as [|f IH]; intros i l H; cbn [surfaces_loop] in H.
  - injection H as <-. constructor.
  - destruct (surfaceInfo z i) as [[s|]|] eqn:E; [| |discriminate]; cbn [bind] in H.
    + destruct (surfaces_loop z f (i + 1)) as [r|] eqn:Er; [|discriminate]. cbn [bind] in H.
      injection H as <-. constructor; [now apply surfaceInfo_catalogue in E|eauto].
    + injection H as <-. constructor.
Qed.

(** a surface as a lens can have it *)
Record sound_surface (s : surface XR) : Prop := {
  s_R : radius_ok (sf_R s);
  s_d : positive (sf_diam s);
  s_s : is_air s = false -> exists d, sf_spacing s = Fin d
}.
Definition index_is (w : XR) (s : surface XR) (n : R) : Prop := index_of (snd (sf_mat s)) w = Ok (PReal (Fin n)).
Lemma sound_good w s : In (sf_mat s) catalogue -> 28/100 <= w <= 7 -> sound_surface s ->
  exists n, index_is (Fin w) s n /\ 1 <= n /\ good_surface (Fin w) s n.
Proof.
  intros HI Hw [HR Hd Hs]. destruct (sf_mat s) as [name d] eqn:E.
  destruct (catalogue_good name d w HI (or_introl Hw)) as (n & Hn & H1).
  exists n. unfold index_is. rewrite E. split; [exact Hn|]. split; [exact H1|].
  constructor; auto; [|lra]. unfold real_index. rewrite E. cbn [snd]. now rewrite Hn.
Qed.
Lemma sound_all w : forall ls, Forall (fun s => In (sf_mat s) catalogue) ls -> 28/100 <= w <= 7 ->
  Forall sound_surface ls ->
  exists ns, Forall2 (index_is (Fin w)) ls ns /\ Forall (fun n => 1 <= n) ns /\ Forall2 (good_surface (Fin w)) ls ns.
Proof.
  induction ls as [|s t IH]; intros HI Hw HS; [exists []; repeat constructor|].
  inversion HI; inversion HS; subst. destruct IH as (ns & A & B & C); auto.
  destruct (sound_good w s) as (n & a & b & c); auto. exists (n :: ns). auto.
Qed.

Theorem lens_group (z : reader XR) w pre glass air rest :
  z_wavelength z = Fin w -> 28/100 <= w <= 7 ->
  surfaces z = Ok (pre ++ glass ++ air :: rest) ->
  Forall (fun s => is_air s = true) pre -> Forall (fun s => is_air s = false) glass ->
  glass <> [] -> is_air air = true -> Forall sound_surface (glass ++ [air]) ->
  exists g ns, matrixGroup z = Ok g /\ Forall2 (index_is (Fin w)) (glass ++ [air]) ns /\
    Forall (fun n => 1 <= n) ns /\
    map Ok (gelems g) = prescription (Fin 1) (map Fin ns) (glass ++ [air]) /\
    mfi (gmat g) = Fin 1 /\ mbi (gmat g) = Fin 1 /\
    mL (gmat g) = Fin (fold_right Rplus 0 (map spacing glass)).
Proof.
  intros Hz Hw Hs Hpre Hgl Hne Hair Hgood.
  assert (HC : Forall (fun s => In (sf_mat s) catalogue) (glass ++ [air])).
  { pose proof (surfaces_catalogue _ _ _ _ Hs) as H. rewrite !Forall_app in *. destruct H as (_ & H & H').
    inversion H'; subst. auto. }
  destruct (sound_all w _ HC Hw Hgood) as (ns & A & B & C).
  destruct (group_of_lens (Fin w) _ _ C) as (g0 & g & G1 & G2 & G3 & G4 & G5 & G6); [destruct glass; discriminate|].
  exists g, ns. unfold matrixGroup, lensSurfaces. rewrite Hs. rewrite G1. cbn [bind].
  rewrite lens_surfaces, Hz by auto.
  rewrite glass_length_closed, glass_length_all in G5 by auto.
  repeat (split; [first [assumption | now apply G6, (closed_last (Fin w) glass air)]|]). assumption.
Qed.
(** a file whose last surfaces are glass *)
Theorem lens_group_open (z : reader XR) w pre glass :
  z_wavelength z = Fin w -> 28/100 <= w <= 7 -> surfaces z = Ok (pre ++ glass) ->
  Forall (fun s => is_air s = true) pre -> Forall (fun s => is_air s = false) glass ->
  glass <> [] -> Forall sound_surface glass ->
  exists g ns, matrixGroup z = Ok g /\ Forall2 (index_is (Fin w)) glass ns /\
    Forall (fun n => 1 <= n) ns /\
    map Ok (gelems g) = prescription (Fin 1) (map Fin ns) glass /\
    mfi (gmat g) = Fin 1 /\ mL (gmat g) = Fin (fold_right Rplus 0 (map spacing glass)).
Proof.
  intros Hz Hw Hs Hpre Hgl Hne Hgood.
  assert (HC : Forall (fun s => In (sf_mat s) catalogue) glass).
  { pose proof (surfaces_catalogue _ _ _ _ Hs) as H. rewrite !Forall_app in *. tauto. }
  destruct (sound_all w _ HC Hw Hgood) as (ns & A & B & C).
  destruct (group_of_lens (Fin w) _ _ C Hne) as (g0 & g & G1 & G2 & G3 & G4 & G5 & G6).
  exists g, ns. unfold matrixGroup, lensSurfaces. rewrite Hs. rewrite G1. cbn [bind].
  rewrite lens_surfaces_open, Hz by auto. rewrite glass_length_all in G5 by auto. auto 7.
Qed.
(** a file without glass: an empty group *)
Theorem no_lens (z : reader XR) l : surfaces z = Ok l -> Forall (fun s => is_air s = true) l ->
  exists g, matrixGroup z = Ok g /\ gelems g = [].
Proof.
  intros Hs Hl.
  destruct (MatrixGroup_new (T:=XR) [] "") as [g0|x] eqn:Eg.
  2:{ exfalso. unfold MatrixGroup_new, c0, c1 in Eg. cbn [nofZ ninf NumXR] in Eg.
      rewrite Matrix_init_ok in Eg; try reflexivity; try lra. discriminate. }
  exists g0. unfold matrixGroup, lensSurfaces. rewrite Eg, Hs. cbn [bind].
  rewrite <- (app_nil_r l), lens_loop_air by auto. split; [reflexivity|].
  unfold MatrixGroup_new in Eg. destruct (Matrix_init _ _ _ _ _ _ _ _ _ _ _ _); [|discriminate].
  cbn in Eg. injection Eg as <-. reflexivity.
Qed.

(** ** A file *)
Definition words (n : string) (p : list string) := mkLine n p.
Open Scope string_scope.
Definition singlet : list line :=
  [words "UNIT" ["MM"; "X"; "W"]; words "WAVM" ["1"; "0.5876"; "1"];
   words "SURF" ["0"]; words "CURV" ["0.0"]; words "DISZ" ["INFINITY"];
   words "SURF" ["1"]; words "CURV" ["0.02"]; words "DISZ" ["4.0"]; words "GLAS" ["N-BK7"]; words "DIAM" ["12.7"];
   words "SURF" ["2"]; words "CURV" ["-0.02"]; words "DISZ" ["95.5"]; words "DIAM" ["12.7"]].

Definition bk7 : string * dispersion XR :=
  match findByName (Some "N-BK7") with Ok c => c | Err _ => ("", DAir) end.
Definition singlet_reader : reader XR := mkReader singlet c1 (ndec 5876 4).
Definition singlet_surfaces : list (surface XR) :=
  [mkSurface PInf PInf ("Air", DAir) PInf;
   mkSurface (Fin 50) (Fin (254 / 10)) bk7 (Fin 4);
   mkSurface (Fin (-50)) (Fin (254 / 10)) ("Air", DAir) (Fin (955 / 10))].
Lemma singlet_read : ZMXReader_init singlet = Ok singlet_reader.
Proof. reflexivity. Qed.
Lemma surface_info (z : reader XR) i b m cw cr c rr d sw sr s :
  rawSurfaceInfo (z_lines z) i = Ok (Some b) ->
  match lookup b "GLAS" with Some p => w <- first_word p;; findByName (Some w) | None => Ok ("Air", DAir) end = Ok m ->
  lookup b "CURV" = Some (cw :: cr) -> py_float cw = Ok c ->
  (if neqb c c0 then Ok ninf else q <- pdiv c1 c;; Ok (nmul q (z_factor z))) = Ok rr ->
  match lookup b "DIAM" with
  | Some p => w <- first_word p;; d <- py_float w;; Ok (nmul (nmul c2 d) (z_factor z)) | None => Ok ninf end = Ok d ->
  lookup b "DISZ" = Some (sw :: sr) -> py_float sw = Ok s ->
  surfaceInfo z i = Ok (Some (mkSurface rr d m (nmul s (z_factor z)))).
Proof.
  intros H1 H2 H3 H4 H5 H6 H7 H8. unfold surfaceInfo. rewrite H1. cbn [bind]. rewrite H2. cbn [bind].
  rewrite H3. cbn [bind first_word]. rewrite H4. cbn [bind]. rewrite H5. cbn [bind]. rewrite H6. cbn [bind].
  rewrite H7. cbn [bind first_word]. rewrite H8. reflexivity.
Qed.
Lemma singlet_surface0 : surfaceInfo singlet_reader 0 = Ok (Some (mkSurface PInf PInf ("Air", DAir) PInf)).
Proof.
  erewrite (surface_info _ _ _ ("Air", DAir) _ _ (ndec 0 1) PInf PInf _ _ PInf); try reflexivity.
  - cbn. unfold xsgninf. destruct (Rlt_dec 0 1); [|lra]. destruct (Req_EM_T 1 0); [lra|]. reflexivity.
  - rewrite ndec_xr by lia. cbn. unfold Rdiv. rewrite Rmult_0_l, Reqb_refl. reflexivity.
Qed.
Lemma singlet_surface1 : surfaceInfo singlet_reader 1 =
  Ok (Some (mkSurface (Fin 50) (Fin (254 / 10)) bk7 (Fin 4))).
Proof.
  erewrite (surface_info _ _ _ bk7 _ _ (ndec 2 2) (Fin 50) (Fin (254/10)) _ _ (ndec 40 1)); try reflexivity.
  - rewrite ndec_xr by lia. cbn. replace (40 / 10 * 1) with 4 by lra. reflexivity.
  - rewrite ndec_xr by lia. cbn. unfold pdiv. cbn. rewrite ?Reqb_neq by lra. cbn.
    destruct (Req_EM_T (2/100) 0); [lra|]. cbn. apply (f_equal (fun x => Ok (Fin x))). field.
  - change (lookup _ "DIAM") with (Some ["12.7"]). cbn [first_word bind].
    change (py_float "12.7") with (Ok (ndec 127 1) : res XR). rewrite ndec_xr by lia. cbn. apply (f_equal (fun x => Ok (Fin x))). field.
Qed.
Lemma singlet_surface2 : surfaceInfo singlet_reader 2 =
  Ok (Some (mkSurface (Fin (-50)) (Fin (254 / 10)) ("Air", DAir) (Fin (955/10)))).
Proof.
  erewrite (surface_info _ _ _ ("Air", DAir) _ _ (ndec (-2) 2) (Fin (-50)) (Fin (254/10)) _ _ (ndec 955 1)); try reflexivity.
  - rewrite ndec_xr by lia. cbn. now rewrite Rmult_1_r.
  - rewrite ndec_xr by lia. cbn. unfold pdiv. cbn. rewrite ?Reqb_neq by lra. cbn.
    destruct (Req_EM_T (-2/100) 0); [lra|]. cbn. apply (f_equal (fun x => Ok (Fin x))). field.
  - change (lookup _ "DIAM") with (Some ["12.7"]). cbn [first_word bind].
    change (py_float "12.7") with (Ok (ndec 127 1) : res XR). rewrite ndec_xr by lia. cbn. apply (f_equal (fun x => Ok (Fin x))). field.
Qed.
Lemma singlet_ok : surfaces singlet_reader = Ok singlet_surfaces.
Proof.
  unfold surfaces. change (Z.to_nat 1000) with (4 + Z.to_nat 996)%nat.
  cbn [Nat.add surfaces_loop]. rewrite singlet_surface0. cbn [bind].
  change (0 + 1)%Z with 1%Z. rewrite singlet_surface1. cbn [bind].
  change (1 + 1)%Z with 2%Z. rewrite singlet_surface2. cbn [bind]. reflexivity.
Qed.
