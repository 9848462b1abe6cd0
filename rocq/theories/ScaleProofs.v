(** Choice of the unit of length: what happens when every length given to the library is multiplied by the same factor. *)
From Coq Require Import ZArith Reals Lra Lia List Bool String Psatz.
From Verif Require Import Base Nums Optics Imaging Units Spec MatrixProofs ElementProofs GroupProofs TraceProofs RayProofs.
Import ListNotations.
Open Scope R_scope.

(** ** Lengths in another unit *)
Definition stretch (k : R) (x : XR) : XR := match x with Fin r => Fin (k * r) | x => x end.
Definition omap {A B} (f : A -> B) (o : option A) : option B := match o with Some a => Some (f a) | None => None end.
Definition rmap {A B} (f : A -> B) (r : res A) : res B := match r with Ok a => Ok (f a) | Err x => Err x end.
(** B, L, the vertices and the diameter are lengths, C is the inverse of a length *)
Definition smat (k : R) (m : @mat XR) : @mat XR :=
  mkMat (mA m) (stretch k (mB m)) (stretch (/ k) (mC m)) (mD m) (stretch k (mL m)) (omap (stretch k) (mfv m)) (omap (stretch k) (mbv m))
    (mfi m) (mbi m) (stretch k (mdiam m)) (mna m) (mflip m) (mlabel m).
(** the height of the arrow drawn for a lens is not an optical quantity *)
Definition skind (k : R) (x : @kind XR) : @kind XR :=
  match x with
  | KLens f hh => KLens (stretch k f) hh
  | KInterface n1 n2 r => KInterface n1 n2 (stretch k r)
  | KThickLens n a b => KThickLens n (stretch k a) (stretch k b)
  | KSlab n a b => KSlab n (stretch k a) (stretch k b)
  | x => x
  end.
Definition sgkind (k : R) (g : @gkind XR) : @gkind XR :=
  match g with GGroup => GGroup | GObjective a b => GObjective (stretch k a) (stretch k b) end.
Fixpoint selem (k : R) (e : @elem XR) : @elem XR :=
  match e with
  | Leaf x m => Leaf (skind k x) (smat k m)
  | Group g m es => Group (sgkind k g) (smat k m) (map (selem k) es)
  end.
Definition sgrp (k : R) (g : @grp XR) : @grp XR := mkGrp (smat k (gmat g)) (map (selem k) (gelems g)).
Definition sray (k : R) (r : @ray XR) : @ray XR := mkRay (stretch k (ry r)) (rth r) (stretch k (rz r)) (rblk r) (stretch k (rdiam r)) (rwl r).

(** ** Arithmetic *)
Section Scale.
Context (k : R) (Hk : 0 < k).
Notation st := (stretch k).
Notation si := (stretch (/ k)).
Lemma inv_pos : 0 < / k. Proof. now apply Rinv_0_lt_compat. Qed.

Ltac cases := unfold xsgninf, Reqb, Rltb, Rleb in *;
  repeat match goal with
  | |- context [Rlt_dec ?a ?b] => destruct (Rlt_dec a b)
  | |- context [Rle_dec ?a ?b] => destruct (Rle_dec a b)
  | |- context [Req_EM_T ?a ?b] => destruct (Req_EM_T a b)
  end.
Ltac xr := pose proof inv_pos as Hi; intros; repeat match goal with x : XR |- _ => destruct x end; cbn; cases; cbn; try reflexivity; try (exfalso; nra).

Lemma st_add x y : st (nadd x y) = nadd (st x) (st y). Proof. xr. f_equal. ring. Qed.
Lemma st_opp x : st (nopp x) = nopp (st x). Proof. xr. f_equal. ring. Qed.
Lemma st_sub x y : st (nsub x y) = nsub (st x) (st y). Proof. change (nsub x y) with (nadd x (nopp y)). now rewrite st_add, st_opp. Qed.
Lemma st_abs x : st (nabs x) = nabs (st x). Proof. xr. now rewrite Rabs_mult, (Rabs_pos_eq k) by lra. Qed.
Lemma st_mul_l x y : nmul (st x) y = st (nmul x y). Proof. xr. f_equal. ring. Qed.
Lemma st_mul_r x y : nmul x (st y) = st (nmul x y). Proof. xr. f_equal. ring. Qed.
Lemma st_st a b x : stretch a (stretch b x) = stretch (a * b) x. Proof. destruct x; cbn; auto. f_equal. ring. Qed.
Lemma st_1 x : stretch 1 x = x. Proof. destruct x; cbn; auto. f_equal. ring. Qed.
Lemma st_si x : st (si x) = x. Proof. rewrite st_st, Rinv_r by lra. apply st_1. Qed.
Lemma si_st x : si (st x) = x. Proof. rewrite st_st, Rinv_l by lra. apply st_1. Qed.
Lemma st_ltb x y : nltb (st x) (st y) = nltb x y. Proof. xr. Qed.
Lemma st_leb x y : nleb (st x) (st y) = nleb x y. Proof. xr. Qed.
Lemma st_eqb x y : neqb (st x) (st y) = neqb x y. Proof. xr. Qed.
Lemma st_0 : st c0 = c0. Proof. xr. f_equal. ring. Qed.
Lemma st_inf : st ninf = ninf. Proof. reflexivity. Qed.
Lemma st_half x : ndiv (st x) c2 = st (ndiv x c2). Proof. xr; try lra; f_equal; field. Qed.
Lemma eqb_0 x : neqb (st x) c0 = neqb x c0. Proof. rewrite <- st_0 at 1. apply st_eqb. Qed.
Lemma leb_0 x : nleb (st x) c0 = nleb x c0. Proof. rewrite <- st_0 at 1. apply st_leb. Qed.
Lemma ltb_0 x : nltb (st x) c0 = nltb x c0. Proof. rewrite <- st_0 at 1. apply st_ltb. Qed.
Lemma ltb_0l x : nltb c0 (st x) = nltb c0 x. Proof. rewrite <- st_0 at 1. apply st_ltb. Qed.
Lemma eqb_inf x : neqb (st x) ninf = neqb x ninf. Proof. now destruct x. Qed.
Lemma div_num x y : pdiv (st x) y = rmap st (pdiv x y).
Proof. unfold pdiv. destruct (neqb y c0) eqn:E; [reflexivity|]. cbn [rmap]. f_equal. revert E. xr; intros; try discriminate; try (exfalso; nra); f_equal; field; lra. Qed.
Lemma div_both x y : pdiv (st x) (st y) = pdiv x y.
Proof. unfold pdiv. rewrite eqb_0. destruct (neqb y c0) eqn:E; [reflexivity|]. f_equal. revert E. xr; intros; try discriminate; try (exfalso; nra); f_equal; field; lra. Qed.
End Scale.

(** ** Matrices and elements *)
Section Elements.
Context (k : R) (Hk : 0 < k) (Hi : 0 < / k).
Notation st := (stretch k).
Notation si := (stretch (/ k)).
Lemma pull_add j x y : 0 < j -> nadd (stretch j x) (stretch j y) = stretch j (nadd x y). Proof. intros. symmetry. now apply st_add. Qed.
Lemma pull_sub j x y : 0 < j -> nsub (stretch j x) (stretch j y) = stretch j (nsub x y). Proof. intros. symmetry. now apply st_sub. Qed.
Lemma pull_opp j x : 0 < j -> nopp (stretch j x) = stretch j (nopp x). Proof. intros. symmetry. now apply st_opp. Qed.
Lemma pull_abs j x : 0 < j -> nabs (stretch j x) = stretch j (nabs x). Proof. intros. symmetry. now apply st_abs. Qed.
Lemma div_den x y : pdiv x (st y) = rmap si (pdiv x y).
Proof. rewrite <- (st_si k Hk x) at 1. rewrite div_both by assumption. now apply div_num. Qed.
Lemma div_den_num x y : pdiv (st x) (st y) = pdiv x y. Proof. now apply div_both. Qed.
Ltac pull := rewrite ?(st_mul_l k Hk), ?(st_mul_r k Hk), ?(st_mul_l (/ k) Hi), ?(st_mul_r (/ k) Hi), ?(st_si k Hk), ?(si_st k Hk),
  ?pull_add, ?pull_sub, ?pull_opp, ?(pull_abs k), ?(eqb_0 k Hk), ?(eqb_0 (/ k) Hi), ?(leb_0 k Hk), ?(ltb_0 k Hk), ?(ltb_0l k Hk), ?(eqb_inf k), ?(st_eqb k Hk), ?(st_ltb k Hk), ?(st_leb k Hk), ?(st_half k Hk) by assumption.

Lemma s_det a b c d : det_of a (st b) (si c) d = det_of a b c d.
Proof. unfold det_of. now pull. Qed.
Lemma s_init a b c d l fv bv fi bi diam na lab :
  Matrix_init a (st b) (si c) d (st l) (omap st fv) (omap st bv) fi bi (st diam) na lab = rmap (smat k) (Matrix_init a b c d l fv bv fi bi diam na lab).
Proof.
  unfold Matrix_init. rewrite s_det. pull. destruct (nleb diam c0); [reflexivity|]. destruct (nleb na c0); [reflexivity|].
  destruct (pdiv fi bi) as [q|x]; [|reflexivity]. cbn [bind]. destruct (areAbsolutelyNotEqual _ _ _); reflexivity.
Qed.
Lemma s_default : @Matrix_default XR _ = rmap (smat k) Matrix_default.
Proof. unfold Matrix_default. rewrite <- s_init. now rewrite !st_0, st_inf. Qed.
Lemma s_identity m : isIdentity (smat k m) = isIdentity m.
Proof. unfold isIdentity, smat. cbn [mA mB mC mD]. now pull. Qed.
Lemma s_mul_fv a b : mul_fv (smat k a) (smat k b) = omap st (mul_fv a b).
Proof. unfold mul_fv, smat. cbn [mfv mL]. destruct (mfv b), (mfv a); cbn; auto. now rewrite st_add. Qed.
Lemma s_mul_bv a b : mul_bv (smat k a) (smat k b) = omap st (mul_bv a b).
Proof. unfold mul_bv, smat. cbn [mbv mL]. destruct (mbv a); cbn; auto. now rewrite st_add. Qed.
Lemma s_mul a b : mul_matrix (smat k a) (smat k b) = rmap (smat k) (mul_matrix a b).
Proof.
  unfold mul_matrix. rewrite s_mul_fv, s_mul_bv.
  assert (mul_idx (smat k a) (smat k b) = mul_idx a b) as -> by (unfold mul_idx; now rewrite !s_identity).
  destruct (mul_idx a b) as [fi bi]. rewrite <- s_init. rewrite st_inf. unfold smat. cbn [mA mB mC mD mL]. pull. reflexivity.
Qed.
(** constructors *)
Lemma bind_rmap {A B C} (f : A -> B) (r : res A) (g : B -> res C) : bind (rmap f r) g = bind r (fun a => g (f a)).
Proof. now destruct r. Qed.
Lemma rmap_bind {A B C} (f : B -> C) (r : res A) (g : A -> res B) : rmap f (bind r g) = bind r (fun a => rmap f (g a)).
Proof. now destruct r. Qed.
Ltac build := rewrite <- s_init; cbn [omap]; rewrite ?(st_0 k Hk), ?(st_0 (/ k) Hi), ?st_inf; reflexivity.
Lemma leaf_res x (r r' : res (@mat XR)) : r' = rmap (smat k) r -> bind r' (fun m => Ok (Leaf (skind k x) m)) = rmap (selem k) (bind r (fun m => Ok (Leaf x m))).
Proof. intros ->. now destruct r. Qed.
Lemma s_Lens f d : Lens (st f) (st d) = rmap (selem k) (Lens f d).
Proof.
  unfold Lens. rewrite div_den. destruct (pdiv _ f) as [c|x]; [|reflexivity]. cbn [rmap bind].
  apply (leaf_res (KLens f (nofZ 4))). build.
Qed.
Lemma s_CurvedMirror r d : CurvedMirror (st r) (st d) = rmap (selem k) (CurvedMirror r d).
Proof.
  unfold CurvedMirror. rewrite div_den. destruct (pdiv _ r) as [c|x]; [|reflexivity]. cbn [rmap bind].
  apply (leaf_res KCurvedMirror). build.
Qed.
Lemma s_SpaceM d n diam : SpaceM (st d) n (st diam) = rmap (smat k) (SpaceM d n diam).
Proof. unfold SpaceM. build. Qed.
Lemma s_Space d n diam : Space (st d) n (st diam) = rmap (selem k) (Space d n diam).
Proof. apply (leaf_res KSpace). apply s_SpaceM. Qed.
Lemma s_InterfaceM n1 n2 r d : InterfaceM n1 n2 (st r) (st d) = rmap (smat k) (InterfaceM n1 n2 r d).
Proof.
  unfold InterfaceM, interface_C. rewrite (st_mul_r k Hk), div_den. destruct (pdiv _ (nmul n2 r)) as [c|x]; [|reflexivity]. cbn [rmap bind].
  destruct (pdiv n1 n2) as [q|x]; [|reflexivity]. cbn [bind]. build.
Qed.
Lemma s_DielectricInterface n1 n2 r d : DielectricInterface n1 n2 (st r) (st d) = rmap (selem k) (DielectricInterface n1 n2 r d).
Proof. apply (leaf_res (KInterface n1 n2 r)). apply s_InterfaceM. Qed.
Lemma s_thick_A n a t : thick_A n (st a) (st t) = thick_A n a t.
Proof. unfold thick_A. now rewrite (st_mul_l k Hk), (st_mul_r k Hk), div_den_num. Qed.
Lemma s_thick_D n b t : thick_D n (st b) (st t) = thick_D n b t.
Proof. unfold thick_D. now rewrite (st_mul_l k Hk), (st_mul_r k Hk), div_den_num. Qed.
Lemma s_thick_C n a b t : thick_C n (st a) (st b) (st t) = rmap si (thick_C n a b t).
Proof.
  unfold thick_C. rewrite !div_den. destruct (pdiv c1 a) as [x|]; [|reflexivity]. cbn [rmap bind]. destruct (pdiv c1 b) as [y|]; [|reflexivity]. cbn [rmap bind].
  assert (pdiv (nmul (st t) (nsub n c1)) (nmul (nmul n (st a)) (st b)) = rmap si (pdiv (nmul t (nsub n c1)) (nmul (nmul n a) b))) as ->.
  { rewrite (st_mul_l k Hk), (st_mul_r k Hk n a), (st_mul_l k Hk _ (st b)), (st_mul_r k Hk), div_den_num. apply div_den. }
  destruct (pdiv _ (nmul (nmul n a) b)) as [w|]; [|reflexivity]. cbn [rmap bind]. f_equal. do 3 pull. reflexivity.
Qed.
Lemma s_ThickLensM n a b t d : ThickLensM n (st a) (st b) (st t) (st d) = rmap (smat k) (ThickLensM n a b t d).
Proof.
  unfold ThickLensM, thick_B. rewrite s_thick_A, s_thick_D, s_thick_C, (div_num k Hk).
  destruct (thick_A n a t); [|reflexivity]. cbn [bind]. destruct (pdiv t n); [|reflexivity]. cbn [rmap bind].
  destruct (thick_C n a b t); [|reflexivity]. cbn [rmap bind]. destruct (thick_D n b t); [|reflexivity]. cbn [bind]. build.
Qed.
Lemma s_ThickLens n a b t d : ThickLens n (st a) (st b) (st t) (st d) = rmap (selem k) (ThickLens n a b t d).
Proof. apply (leaf_res (KThickLens n a b)). apply s_ThickLensM. Qed.
Lemma s_DielectricSlab n t d : DielectricSlab n (st t) (st d) = rmap (selem k) (DielectricSlab n t d).
Proof. refine (leaf_res (KSlab n ninf ninf) _ _ _). rewrite <- s_ThickLensM. now rewrite st_inf. Qed.
Lemma s_Aperture d na lab : ApertureL (st d) na lab = rmap (selem k) (ApertureL d na lab).
Proof. apply (leaf_res KAperture). build. Qed.
Lemma s_Axicon alpha n d : Axicon alpha n (st d) = rmap (selem k) (Axicon alpha n d).
Proof. apply (leaf_res (KAxicon n alpha)). build. Qed.
Lemma s_MatrixE a b c d l fv bv fi bi : MatrixE a (st b) (si c) d (st l) (omap st fv) (omap st bv) fi bi = rmap (selem k) (MatrixE a b c d l fv bv fi bi).
Proof. apply (leaf_res KMatrix). build. Qed.

(** ** Groups *)
Lemma s_emat e : emat (selem k e) = smat k (emat e). Proof. now destruct e. Qed.
Lemma s_transfer_leaf x m u : transfer_leaf (skind k x) (smat k m) (st u) = rmap (selem k) (transfer_leaf x m u).
Proof.
  assert (forall y, y = x -> (if neqb (mL (smat k m)) c0 then Ok (Leaf (skind k y) (smat k m)) else if nleb (mL (smat k m)) (st u) then Ok (Leaf (skind k y) (smat k m)) else Err TypeError) =
    rmap (selem k) (if neqb (mL m) c0 then Ok (Leaf y m) else if nleb (mL m) u then Ok (Leaf y m) else Err TypeError)) as G.
  { intros y _. cbn [smat mL]. pull. destruct (neqb (mL m) c0); [reflexivity|]. destruct (nleb (mL m) u); reflexivity. }
  specialize (G x eq_refl). destruct x; try exact G; clear G; cbn [skind transfer_leaf]; cbn [smat mL mfi mdiam]; pull.
  - destruct (nltb u (mL m)); [|reflexivity]. rewrite <- s_Space. now rewrite st_inf.
  - destruct (nleb (mL m) u); [reflexivity|]. rewrite s_SpaceM. destruct (SpaceM u n (mdiam m)) as [s|]; [|reflexivity]. cbn [rmap bind].
    rewrite s_InterfaceM. match goal with |- context [rmap (smat k) ?q] => destruct q as [i|] end; [|reflexivity]. cbn [rmap bind]. rewrite s_mul. now destruct (mul_matrix s i).
  - destruct (nleb (mL m) u); [reflexivity|]. rewrite s_SpaceM. destruct (SpaceM u n (mdiam m)) as [s|]; [|reflexivity]. cbn [rmap bind].
    assert (InterfaceM c1 n ninf (st (mdiam m)) = rmap (smat k) (InterfaceM c1 n ninf (mdiam m))) as -> by (rewrite <- s_InterfaceM; now rewrite st_inf).
    destruct (InterfaceM c1 n ninf (mdiam m)) as [i|]; [|reflexivity]. cbn [rmap bind]. rewrite s_mul. now destruct (mul_matrix s i).
Qed.
Lemma s_transfer e u : transferMatrix (selem k e) (st u) = rmap (selem k) (transferMatrix e u).
Proof.
  revert u. induction e as [x m|g m es IH] using elem_ind'; intros u; [apply s_transfer_leaf|].
  cbn [selem]. rewrite !transferMatrix_group. unfold group_transfer. rewrite s_default at 1.
  destruct Matrix_default as [tm|]; [|reflexivity]. cbn [rmap bind].
  assert (forall tm u, transfer_loop (map (selem k) es) (smat k tm) (st u) = rmap (smat k) (transfer_loop es tm u)) as L.
  { clear tm u. induction IH as [|x t Hx _ IHt]; intros tm u; [reflexivity|]. cbn [map transfer_loop]. rewrite s_emat. cbn [smat mL]. pull.
    destruct (nleb (mL (emat x)) u).
    - rewrite s_mul. destruct (mul_matrix (emat x) tm) as [tm'|]; [|reflexivity]. cbn [rmap bind]. apply IHt.
    - rewrite Hx. destruct (transferMatrix x u) as [p|]; [|reflexivity]. cbn [rmap bind]. rewrite s_emat. apply s_mul. }
  rewrite L. now destruct (transfer_loop es tm u).
Qed.
Lemma s_group_transfer es u : group_transfer (map (selem k) es) (st u) = rmap (smat k) (group_transfer es u).
Proof.
  pose proof (s_transfer (Group GGroup (mkMat c0 c0 c0 c0 c0 None None c0 c0 c0 c0 false "") es) u) as H. cbn [selem] in H.
  rewrite !transferMatrix_group in H. destruct (group_transfer (map (selem k) es) (st u)), (group_transfer es u); cbn in H |- *; congruence.
Qed.
Lemma last_map es : last_opt (map (selem k) es) = omap (selem k) (last_opt es).
Proof. induction es as [|a [|b t] IH]; auto. Qed.
Lemma s_set_index e n : set_index (selem k e) n = selem k (set_index e n). Proof. now destruct e. Qed.
Lemma s_isSpace e : isSpace (selem k e) = isSpace e. Proof. destruct e as [[] m|]; reflexivity. Qed.
Lemma s_check es e : append_check (map (selem k) es) (selem k e) = rmap (selem k) (append_check es e).
Proof.
  unfold append_check. rewrite last_map. destruct (last_opt es) as [le|]; [|reflexivity]. cbn [omap]. rewrite !s_emat. cbn [smat mbi mfi].
  destruct (neqb _ _); [reflexivity|]. rewrite s_isSpace. destruct (isSpace e); [|reflexivity]. cbn [rmap]. now rewrite s_set_index.
Qed.
Lemma s_append_st g e : append_st (sgrp k g) (selem k e) = (sgrp k (fst (append_st g e)), snd (append_st g e)).
Proof.
  unfold append_st. cbn [sgrp gelems gmat]. rewrite s_check. destruct (append_check (gelems g) e) as [e'|x]; [|reflexivity]. cbn [rmap].
  assert (map (selem k) (gelems g) ++ [selem k e'] = map (selem k) (gelems g ++ [e']))%list as -> by now rewrite map_app.
  change (group_transfer (map (selem k) (gelems g ++ [e'])%list) ninf) with (group_transfer (map (selem k) (gelems g ++ [e'])%list) (st ninf)).
  rewrite s_group_transfer. destruct (group_transfer (gelems g ++ [e']) ninf); reflexivity.
Qed.
Lemma s_append g e : append (sgrp k g) (selem k e) = rmap (sgrp k) (append g e).
Proof. unfold append. rewrite s_append_st. destruct (append_st g e) as [g' [x|]]; reflexivity. Qed.
Lemma s_group es lab : MatrixGroup_new (map (selem k) es) lab = rmap (sgrp k) (MatrixGroup_new es lab).
Proof.
  unfold MatrixGroup_new.
  assert (Matrix_init c1 c0 c0 c1 c0 None None c1 c1 ninf ninf lab = rmap (smat k) (Matrix_init c1 c0 c0 c1 c0 None None c1 c1 ninf ninf lab)) as E by build.
  destruct (Matrix_init c1 c0 c0 c1 c0 None None c1 c1 ninf ninf lab) as [m|]; [|reflexivity]. injection E as E. cbn [bind].
  assert (forall g, append_all (sgrp k g) (map (selem k) es) = rmap (sgrp k) (append_all g es)) as L.
  { induction es as [|e t IH]; intros g; [reflexivity|]. cbn [map append_all]. rewrite s_append. destruct (append g e); [apply IH|reflexivity]. }
  rewrite <- L. unfold sgrp. cbn [gmat gelems map]. now rewrite <- E.
Qed.

(** ** Rays *)
Lemma s_new m r : mul_ray_new (smat k m) (sray k r) = sray k (mul_ray_new m r).
Proof.
  unfold mul_ray_new, smat, sray. cbn [mA mB mC mD mL mdiam mna ry rth rz rblk rdiam rwl]. do 3 pull. reflexivity.
Qed.
Lemma s_hget h i : hget (map (sray k) h) i = sray k (hget h i).
Proof.
  unfold hget. assert (Ray_new c0 c0 = sray k (Ray_new c0 c0)) as E by (unfold sray, Ray_new; cbn [ry rth rz rblk rdiam rwl]; now rewrite (st_0 k Hk)).
  rewrite E at 1. apply map_nth.
Qed.
Lemma s_hset h i r : hset (map (sray k) h) i (sray k r) = map (sray k) (hset h i r).
Proof. unfold hset. revert i. induction h as [|a t IH]; intros [|i]; cbn; auto. now rewrite IH. Qed.
Lemma s_mul_ray x m i h : mul_ray (skind k x) (smat k m) i (map (sray k) h) = (fst (mul_ray x m i h), map (sray k) (snd (mul_ray x m i h))).
Proof.
  assert (mul_ray_base (smat k m) i (map (sray k) h) = (fst (mul_ray_base m i h), map (sray k) (snd (mul_ray_base m i h)))) as B.
  { unfold mul_ray_base. rewrite s_hget. cbn [sray rblk]. destruct (rblk (hget h i)); [reflexivity|]. unfold halloc. cbn [fst snd]. rewrite map_app, map_length, s_new. reflexivity. }
  unfold mul_ray. rewrite B. destruct (mul_ray_base m i h) as [o h1]. cbn [fst snd]. destruct x; try reflexivity. cbn [skind fst snd]. f_equal.
  rewrite !s_hget. rewrite <- s_hset. f_equal. unfold sray, set_th. cbn [ry rth rz rblk rdiam rwl]. f_equal. unfold axicon_th. now pull.
Qed.
Lemma s_trace_leaf x m i h : trace_leaf (skind k x) (smat k m) i (map (sray k) h) = (fst (trace_leaf x m i h), map (sray k) (snd (trace_leaf x m i h))).
Proof.
  unfold trace_leaf. cbn [smat mL mdiam]. pull. destruct (nltb c0 (mL m)).
  - rewrite s_hget. cbn [sray ry]. do 2 pull.
    set (b := nltb (ndiv (mdiam m) c2) (nabs (ry (hget h i)))). 
    assert ((if b then hset (map (sray k) h) i (set_blk (sray k (hget h i))) else map (sray k) h) = map (sray k) (if b then hset h i (set_blk (hget h i)) else h)) as E.
    { destruct b; [|reflexivity]. rewrite <- s_hset. reflexivity. }
    change (mkRay (st (ry (hget h i))) (rth (hget h i)) (st (rz (hget h i))) (rblk (hget h i)) (st (rdiam (hget h i))) (rwl (hget h i))) with (sray k (hget h i)).
    rewrite E. change (mkMat (mA m) (st (mB m)) (si (mC m)) (mD m) (st (mL m)) (omap st (mfv m)) (omap st (mbv m)) (mfi m) (mbi m) (st (mdiam m)) (mna m) (mflip m) (mlabel m)) with (smat k m).
    rewrite s_mul_ray. now destruct (mul_ray x m i _).
  - change (mkMat (mA m) (st (mB m)) (si (mC m)) (mD m) (st (mL m)) (omap st (mfv m)) (omap st (mbv m)) (mfi m) (mbi m) (st (mdiam m)) (mna m) (mflip m) (mlabel m)) with (smat k m).
    rewrite s_mul_ray. now destruct (mul_ray x m i h).
Qed.
Lemma s_trace e : forall i h, trace (selem k e) i (map (sray k) h) = (fst (trace e i h), map (sray k) (snd (trace e i h))).
Proof.
  induction e as [x m|g m es IH] using elem_ind'; intros i h; [apply s_trace_leaf|]. cbn [selem]. rewrite !trace_group.
  generalize [i] as acc. generalize i as cur. revert h. induction IH as [|x t Hx _ IHt]; intros h cur acc; [reflexivity|]. cbn [map trace_loop].
  rewrite Hx. destruct (trace x cur h) as [tr h']. cbn [fst snd]. apply IHt.
Qed.
Lemma s_trace_values e r : trace_values (selem k e) (sray k r) = map (sray k) (trace_values e r).
Proof.
  unfold trace_values. change [sray k r] with (map (sray k) [r]). rewrite s_trace. destruct (trace e 0 [r]) as [tr h]. cbn [fst snd].
  rewrite map_map. apply map_ext. intros i. apply s_hget.
Qed.
Lemma s_traceThrough e r : traceThrough (selem k e) (sray k r) = sray k (traceThrough e r).
Proof.
  unfold traceThrough. change [sray k r] with (map (sray k) [r]). rewrite s_trace. destruct (trace e 0 [r]) as [tr h]. cbn [fst snd]. apply s_hget.
Qed.

(** ** Apertures *)
Lemma s_hasFinite e : hasFiniteApertureDiameter (selem k e) = hasFiniteApertureDiameter e.
Proof.
  induction e as [x m|g m es IH] using elem_ind'; cbn [selem hasFiniteApertureDiameter]; [cbn [smat mdiam]; now rewrite eqb_inf|].
  induction IH as [|x t Hx _ IHt]; [reflexivity|]. cbn [map existsb]. now rewrite Hx, IHt.
Qed.
Lemma s_stop_loop l : forall q z d, stop_loop (map (sray k) l) q (st z) (st d) = rmap (fun zd => (st (fst zd), st (snd zd))) (stop_loop l q z d).
Proof.
  induction l as [|r t IH]; intros q z d; [reflexivity|]. cbn [map stop_loop sray ry rdiam rz]. rewrite div_den_num.
  destruct (pdiv (ry r) (rdiam r)) as [v|]; [|reflexivity]. cbn [bind]. destruct (nltb q (nabs v)); apply IH.
Qed.
Definition sstop (s : @stop XR) : @stop XR := mkStop (omap st (st_z s)) (omap st (st_d s)).
Lemma s_probe : probe = sray k probe.
Proof. unfold probe, Ray_new, sray. cbn [ry rth rz rblk rdiam rwl]. now rewrite (st_0 k Hk). Qed.
Lemma s_apertureStop e : apertureStop (selem k e) = rmap sstop (apertureStop e).
Proof.
  unfold apertureStop. rewrite s_hasFinite. destruct (hasFiniteApertureDiameter e); [|reflexivity].
  rewrite s_probe at 1. rewrite s_trace_values. pose proof (s_stop_loop (trace_values e probe) c0 c0 ninf) as H. rewrite (st_0 k Hk), st_inf in H. rewrite H.
  now destruct (stop_loop (trace_values e probe) c0 c0 ninf) as [[z d]|].
Qed.

(** ** Conjugates, focal lengths, chief and marginal rays *)
Lemma s_forward m : forwardConjugate (smat k m) = rmap (fun p => (st (fst p), omap (smat k) (snd p))) (forwardConjugate m).
Proof.
  unfold forwardConjugate. cbn [smat mD mB mbi]. destruct (neqb (mD m) c0); [reflexivity|]. pull. rewrite (div_num k Hk).
  destruct (pdiv (nopp (mB m)) (mD m)) as [d|]; [|reflexivity]. cbn [rmap bind].
  change (SpaceM (st d) (mbi m) ninf) with (SpaceM (st d) (mbi m) (st ninf)). rewrite s_SpaceM. destruct (SpaceM d (mbi m) ninf) as [sp|]; [|reflexivity]. cbn [rmap bind].
  change (mul_matrix (smat k sp) _) with (mul_matrix (smat k sp) (smat k m)). rewrite s_mul. now destruct (mul_matrix sp m).
Qed.
Lemma s_backward m : backwardConjugate (smat k m) = rmap (fun p => (st (fst p), smat k (snd p))) (backwardConjugate m).
Proof.
  unfold backwardConjugate. cbn [smat mA mB].
  assert ((if negb (neqb (mA m) c0) then pdiv (nopp (st (mB m))) (mA m) else Ok ninf) = rmap st (if negb (neqb (mA m) c0) then pdiv (nopp (mB m)) (mA m) else Ok ninf)) as ->.
  { destruct (negb (neqb (mA m) c0)); [|reflexivity]. pull. apply (div_num k Hk). }
  destruct (if negb (neqb (mA m) c0) then pdiv (nopp (mB m)) (mA m) else Ok ninf) as [d|]; [|reflexivity]. cbn [rmap bind].
  change (SpaceM (st d) c1 ninf) with (SpaceM (st d) c1 (st ninf)). rewrite s_SpaceM. destruct (SpaceM d c1 ninf) as [sp|]; [|reflexivity]. cbn [rmap bind].
  change (mul_matrix _ (smat k sp)) with (mul_matrix (smat k m) (smat k sp)). rewrite s_mul. destruct (mul_matrix m sp) as [c|]; [|reflexivity].
  cbn [rmap bind fst snd]. unfold set_ABCD, smat. cbn [mA mB mC mD mL mfv mbv mfi mbi mdiam mna mflip mlabel]. now rewrite (st_0 k Hk).
Qed.
Lemma s_flip_leaf x m : flip_leaf (skind k x) (smat k m) = rmap (selem k) (flip_leaf x m).
Proof.
  destruct x; try reflexivity; cbn [skind flip_leaf smat mA mB mC mD mL].
  - cbn [rmap selem]. unfold set_ABCD, flip_mat, smat. cbn. now rewrite (st_opp (/ k) Hi).
  - unfold interface_C. do 3 pull. rewrite div_den. match goal with |- context [rmap si ?q] => destruct q as [c|] end; [|reflexivity]. cbn [rmap bind].
    match goal with |- context [pdiv ?a ?b] => destruct (pdiv a b) as [d|] end; reflexivity.
  - pull. rewrite s_thick_A. match goal with |- context [thick_A ?a ?b ?c] => destruct (thick_A a b c) as [q|] end; [|reflexivity]. cbn [bind].
    unfold thick_B. rewrite (div_num k Hk). destruct (pdiv (mL m) n) as [q'|]; [|reflexivity]. cbn [rmap bind].
    rewrite s_thick_C. match goal with |- context [rmap si ?q] => destruct q as [c|] end; [|reflexivity]. cbn [rmap bind].
    rewrite s_thick_D. match goal with |- context [thick_D ?a ?b ?c] => destruct (thick_D a b c) end; reflexivity.
  - pull. rewrite s_thick_A. match goal with |- context [thick_A ?a ?b ?c] => destruct (thick_A a b c) as [q|] end; [|reflexivity]. cbn [bind].
    unfold thick_B. rewrite (div_num k Hk). destruct (pdiv (mL m) n) as [q'|]; [|reflexivity]. cbn [rmap bind].
    rewrite s_thick_C. match goal with |- context [rmap si ?q] => destruct q as [c|] end; [|reflexivity]. cbn [rmap bind].
    rewrite s_thick_D. match goal with |- context [thick_D ?a ?b ?c] => destruct (thick_D a b c) end; reflexivity.
Qed.
Lemma s_finish gk g : finish_flip (sgkind k gk) (sgrp k g) = selem k (finish_flip gk g).
Proof.
  destruct gk as [|a b]; [reflexivity|]. cbn [sgkind finish_flip selem sgrp gmat gelems]. f_equal.
  rewrite <- (st_0 k Hk) at 1. generalize (@c0 XR _) as z. generalize (gmat g) as m. induction (gelems g) as [|e t IH]; intros m z; [reflexivity|].
  cbn [map objective_vertices]. rewrite s_emat. cbn [smat mlabel mL mflip]. rewrite (pull_add k _ _ Hk). rewrite <- IH. f_equal.
  destruct (String.eqb _ _); [destruct (negb (mflip m)); reflexivity|]. destruct (String.eqb _ _); [destruct (negb (mflip m)); reflexivity|]. reflexivity.
Qed.
Lemma s_flip e : flip (selem k e) = rmap (selem k) (flip e).
Proof.
  induction e as [x m|g m es IH] using elem_ind'; [apply s_flip_leaf|]. cbn [selem flip].
  match goal with |- bind (?F (map (selem k) es)) _ = rmap _ (bind (?G es) _) => assert (F (map (selem k) es) = rmap (sgrp k) (G es)) as E end.
  { induction IH as [|x t Hx _ IHt]; [reflexivity|]. cbn [map]. rewrite IHt.
    match goal with |- bind (rmap _ ?q) _ = _ => destruct q as [g'|] end; [|reflexivity]. cbn [rmap bind]. rewrite Hx. destruct (flip x) as [x'|]; [|reflexivity]. cbn [rmap bind].
    apply s_append. }
  rewrite E. match goal with |- bind (rmap _ ?q) _ = _ => destruct q as [g'|] end; [|reflexivity]. cbn [rmap bind]. f_equal. apply s_finish.
Qed.
Lemma div_inv x y : pdiv x (si y) = rmap st (pdiv x y).
Proof. rewrite <- (si_st k Hk x) at 1. rewrite (div_both (/ k) Hi). now apply div_num. Qed.
Definition spair (p : XR * XR) : XR * XR := (st (fst p), st (snd p)).
Lemma s_focal m : hasPower (smat k m) = hasPower m -> effectiveFocalLengths (smat k m) = rmap spair (effectiveFocalLengths m).
Proof.
  intros E. unfold effectiveFocalLengths. rewrite E. destruct (hasPower m); [|reflexivity]. cbn [smat mC mfi mbi]. rewrite !div_inv.
  destruct (pdiv _ (mC m)); [|reflexivity]. cbn [rmap bind]. destruct (pdiv (mfi m) (mbi m)); [|reflexivity]. cbn [bind]. rewrite div_inv.
  destruct (pdiv _ (mC m)); reflexivity.
Qed.
Lemma s_planes m z : hasPower (smat k m) = hasPower m -> principalPlanePositions (smat k m) (st z) = rmap (omap spair) (principalPlanePositions m z).
Proof.
  intros E. unfold principalPlanePositions. rewrite E. destruct (hasPower m); [|reflexivity]. cbn [smat mC mfi mbi mA mD mL].
  destruct (pdiv (mfi m) (mbi m)); [|reflexivity]. cbn [bind]. rewrite !div_inv. destruct (pdiv _ (mC m)); [|reflexivity]. cbn [rmap bind].
  destruct (pdiv _ (mC m)); [|reflexivity]. cbn [rmap bind omap spair fst snd]. do 3 pull. reflexivity.
Qed.
Lemma s_foci m z : hasPower (smat k m) = hasPower m -> focusPositions (smat k m) (st z) = rmap (omap spair) (focusPositions m z).
Proof.
  intros E. unfold focusPositions. rewrite (s_focal m E), (s_planes m z E), E. destruct (hasPower m); [|reflexivity].
  destruct (effectiveFocalLengths m) as [f|]; [|reflexivity]. cbn [rmap bind]. destruct (principalPlanePositions m z) as [[[p1 p2]|]|]; [|reflexivity|reflexivity].
  cbn [rmap bind omap spair fst snd]. do 2 pull. reflexivity.
Qed.
Lemma s_bfl m : hasPower (smat k m) = hasPower m -> backFocalLength (smat k m) = rmap (omap st) (backFocalLength m).
Proof.
  intros E. unfold backFocalLength. rewrite (s_focal m E), E. pose proof (s_planes m c0 E) as P. rewrite (st_0 k Hk) in P. rewrite P. cbn [smat mbv].
  destruct (mbv m) as [bv|]; [|reflexivity]. cbn [omap]. destruct (hasPower m); [|reflexivity].
  destruct (effectiveFocalLengths m) as [f|]; [|reflexivity]. cbn [rmap bind]. destruct (principalPlanePositions m c0) as [[[p1 p2]|]|]; [|reflexivity|reflexivity].
  cbn [rmap bind omap spair fst snd]. do 3 pull. reflexivity.
Qed.
Lemma s_ffl m : hasPower (smat k m) = hasPower m -> frontFocalLength (smat k m) = rmap (omap st) (frontFocalLength m).
Proof.
  intros E. unfold frontFocalLength. rewrite (s_focal m E), E. pose proof (s_planes m c0 E) as P. rewrite (st_0 k Hk) in P. rewrite P. cbn [smat mfv].
  destruct (mfv m) as [fv|]; [|reflexivity]. cbn [omap]. destruct (hasPower m); [|reflexivity].
  destruct (effectiveFocalLengths m) as [f|]; [|reflexivity]. cbn [rmap bind]. destruct (principalPlanePositions m c0) as [[[p1 p2]|]|]; [|reflexivity|reflexivity].
  cbn [rmap bind omap spair fst snd]. do 4 pull. reflexivity.
Qed.
Lemma s_chief e y s z q : apertureStop e = Ok s -> st_z s = Some z -> transferMatrix e z = Ok q -> isImaging (smat k (emat q)) = isImaging (emat q) ->
  chiefRayAt (selem k e) (st y) = rmap (omap (sray k)) (chiefRayAt e y).
Proof.
  intros A B C D. unfold chiefRayAt. rewrite s_apertureStop, A. cbn [rmap bind sstop st_z]. rewrite B. cbn [omap]. rewrite s_transfer, C. cbn [rmap bind]. rewrite s_emat, D.
  destruct (isImaging (emat q)); [reflexivity|]. cbn [smat mA mB]. pull. rewrite div_den_num. destruct (pdiv _ _) as [th|]; [|reflexivity]. cbn [rmap bind omap].
  unfold Ray_new, sray. cbn [ry rth rz rblk rdiam rwl]. now rewrite (st_0 k Hk).
Qed.
Lemma s_marginal e y s z d q : apertureStop e = Ok s -> st_z s = Some z -> st_d s = Some d -> transferMatrix e z = Ok q -> isImaging (smat k (emat q)) = isImaging (emat q) ->
  marginalRays (selem k e) (st y) = rmap (omap (fun p => (sray k (fst p), sray k (snd p)))) (marginalRays e y).
Proof.
  intros A B B' C D. unfold marginalRays. rewrite s_apertureStop, A. cbn [rmap bind sstop st_z st_d]. rewrite B, B'. cbn [omap]. rewrite s_transfer, C. cbn [rmap bind]. rewrite s_emat, D.
  destruct (isImaging (emat q)); [reflexivity|]. cbn [smat mA mB]. do 3 pull. rewrite !div_den_num. destruct (pdiv _ _) as [up|]; [|reflexivity]. cbn [bind].
  destruct (pdiv _ _) as [down|]; [|reflexivity]. cbn [bind].
  assert (forall th, Ray_new (st y) th = sray k (Ray_new y th)) as R by (intros th; unfold Ray_new, sray; cbn [ry rth rz rblk rdiam rwl]; now rewrite (st_0 k Hk)).
  destruct (nltb up down); cbn [rmap omap fst snd]; now rewrite !R.
Qed.

(** ** Whole systems *)
Lemma part_ind' (P : part XR -> Prop) : (forall a b c d l fv bv fi bi, P (PMatrix a b c d l fv bv fi bi)) -> (forall f d, P (PLens f d)) -> (forall r d, P (PMirror r d)) ->
  (forall d n w, P (PSpace d n w)) -> (forall a b r d, P (PInterface a b r d)) -> (forall n a b t d, P (PThickLens n a b t d)) -> (forall n t d, P (PSlab n t d)) ->
  (forall d na, P (PAperture d na)) -> (forall a n d, P (PAxicon a n d)) -> (forall l, Forall P l -> P (PGroup l)) -> forall p, P p.
Proof.
  intros H1 H2 H3 H4 H5 H6 H7 H8 H9 H10. fix IH 1. destruct p; [apply H1|apply H2|apply H3|apply H4|apply H5|apply H6|apply H7|apply H8|apply H9|].
  apply H10. induction l as [|x t IHt]; constructor; [apply IH|exact IHt].
Qed.
Lemma unit_st x : nmul (Fin k) x = st x.
Proof. destruct x as [r| | |]; cbn; auto; unfold xsgninf; destruct (Rlt_dec 0 k); auto; contradiction. Qed.
Lemma unit_si x : ndiv x (Fin k) = si x.
Proof.
  destruct x as [r| | |]; cbn; unfold xsgninf; repeat match goal with |- context [Req_EM_T ?a ?b] => destruct (Req_EM_T a b); [exfalso; lra|] end;
    repeat match goal with |- context [Rlt_dec ?a ?b] => destruct (Rlt_dec a b) end; try reflexivity; try (exfalso; lra). f_equal. unfold Rdiv. ring.
Qed.
Lemma s_piece p : piece (in_unit (Fin k) p) = rmap (selem k) (piece p).
Proof.
  induction p as [a b c d l fv bv fi bi|f d|r d|d n w|a b r d|n a b t d|n t d|d na|a n d|l IH] using part_ind'; cbn [in_unit piece]; rewrite ?unit_st, ?unit_si;
    auto using s_Lens, s_CurvedMirror, s_Space, s_DielectricInterface, s_ThickLens, s_DielectricSlab, s_Axicon.
  - rewrite <- s_MatrixE. destruct fv, bv; cbn [omap]; rewrite ?unit_st; reflexivity.
  - apply s_Aperture.
  - match goal with |- bind (?F (map (in_unit (Fin k)) l)) _ = _ => assert (F (map (in_unit (Fin k)) l) = rmap (map (selem k)) (F l)) as E end.
    { induction IH as [|x t Hx _ IHt]; [reflexivity|]. cbn [map]. rewrite Hx. destruct (piece x) as [e|]; [|reflexivity]. cbn [rmap bind]. rewrite IHt.
      match goal with |- bind (rmap _ ?q) _ = _ => destruct q as [es|] end; reflexivity. }
    rewrite E. match goal with |- bind (rmap _ ?q) _ = _ => destruct q as [es|] end; [|reflexivity]. cbn [rmap bind]. unfold MatrixGroupE. rewrite s_group.
    destruct (MatrixGroup_new es "") as [g|]; reflexivity.
Qed.
Lemma unit_ray r : ray_in_unit (Fin k) r = sray k r.
Proof. unfold ray_in_unit, sray. now rewrite !unit_st. Qed.
Lemma unit_omap o : length_in_unit (Fin k) o = omap st o.
Proof. destruct o; [|reflexivity]. cbn [omap length_in_unit]. now rewrite unit_st. Qed.
End Elements.

(** ** The statements *)
(** a matrix in the new unit, in terms of its public attributes *)
Definition matrix_in_unit (k : XR) (m m' : @mat XR) : Prop :=
  mA m' = mA m /\ mB m' = nmul k (mB m) /\ mC m' = ndiv (mC m) k /\ mD m' = mD m /\ mL m' = nmul k (mL m) /\
  mfv m' = length_in_unit k (mfv m) /\ mbv m' = length_in_unit k (mbv m) /\ mfi m' = mfi m /\ mbi m' = mbi m.
Definition pair_in_unit (k : XR) (p : XR * XR) : XR * XR := (nmul k (fst p), nmul k (snd p)).
Definition stop_in_unit (k : XR) (s : @stop XR) : @stop XR := mkStop (length_in_unit k (st_z s)) (length_in_unit k (st_d s)).
(** the same answer of a call, or the same exception *)
Definition answer {A B} (f : A -> B) (r : res A) (r' : res B) : Prop :=
  match r, r' with Ok a, Ok b => b = f a | Err x, Err y => x = y | _, _ => False end.
Lemma answer_rmap {A B} (f : A -> B) r r' : r' = rmap f r -> answer f r r'. Proof. intros ->. now destruct r. Qed.

Lemma smat_unit k m : 0 < k -> matrix_in_unit (Fin k) m (smat k m).
Proof.
  intros Hk. unfold matrix_in_unit, smat. cbn [mA mB mC mD mL mfv mbv mfi mbi].
  repeat split; symmetry; auto using unit_st, unit_si, unit_omap.
Qed.
(** the unit of length is a matter of taste: the same systems can be built ... *)
Theorem units_build k ps : 0 < k ->
  match assemble ps, assemble (map (in_unit (Fin k)) ps) with
  | Ok e, Ok e' => matrix_in_unit (Fin k) (emat e) (emat e')
  | Err x, Err y => x = y
  | _, _ => False
  end.
Proof.
  intros Hk. pose proof (inv_pos k Hk) as Hi. pose proof (s_piece k Hk Hi (PGroup ps)) as E. cbn [in_unit] in E. unfold assemble. rewrite E.
  destruct (piece (PGroup ps)) as [e|x]; cbn [rmap]; auto. rewrite s_emat. now apply smat_unit.
Qed.
Lemma units_elem k ps e e' : 0 < k -> assemble ps = Ok e -> assemble (map (in_unit (Fin k)) ps) = Ok e' -> e' = selem k e.
Proof.
  intros Hk A B. pose proof (inv_pos k Hk) as Hi. pose proof (s_piece k Hk Hi (PGroup ps)) as E. cbn [in_unit] in E. unfold assemble in A, B. rewrite A, B in E. now injection E.
Qed.
(** ... rays take the same path through them ... *)
Theorem units_rays k ps e e' r : 0 < k -> assemble ps = Ok e -> assemble (map (in_unit (Fin k)) ps) = Ok e' ->
  trace_values e' (ray_in_unit (Fin k) r) = map (ray_in_unit (Fin k)) (trace_values e r).
Proof.
  intros Hk A B. pose proof (inv_pos k Hk) as Hi. rewrite (units_elem k ps e e' Hk A B), (unit_ray k Hk), (s_trace_values k Hk Hi). apply map_ext. intros x. now rewrite (unit_ray k Hk).
Qed.
(** ... the same part of the system is the aperture stop ... *)
Theorem units_stop k ps e e' : 0 < k -> assemble ps = Ok e -> assemble (map (in_unit (Fin k)) ps) = Ok e' ->
  answer (stop_in_unit (Fin k)) (apertureStop e) (apertureStop e').
Proof.
  intros Hk A B. pose proof (inv_pos k Hk) as Hi. rewrite (units_elem k ps e e' Hk A B). apply answer_rmap. rewrite (s_apertureStop k Hk Hi).
  destruct (apertureStop e) as [s|]; [|reflexivity]. cbn [rmap]. unfold sstop, stop_in_unit. now rewrite !(unit_omap k Hk).
Qed.
(** ... images are formed at the same places, with the same magnification ... *)
Theorem units_images k ps e e' : 0 < k -> assemble ps = Ok e -> assemble (map (in_unit (Fin k)) ps) = Ok e' ->
  match forwardConjugate (emat e), forwardConjugate (emat e') with
  | Ok (d, None), Ok (d', None) => d' = nmul (Fin k) d
  | Ok (d, Some c), Ok (d', Some c') => d' = nmul (Fin k) d /\ matrix_in_unit (Fin k) c c'
  | Err x, Err y => x = y
  | _, _ => False
  end /\
  match backwardConjugate (emat e), backwardConjugate (emat e') with
  | Ok (d, c), Ok (d', c') => d' = nmul (Fin k) d /\ matrix_in_unit (Fin k) c c'
  | Err x, Err y => x = y
  | _, _ => False
  end.
Proof.
  intros Hk A B. pose proof (inv_pos k Hk) as Hi. rewrite (units_elem k ps e e' Hk A B), (s_emat k). rewrite (s_forward k Hk Hi), (s_backward k Hk Hi). split.
  - destruct (forwardConjugate (emat e)) as [[d [c|]]|]; cbn [rmap fst snd omap]; auto; [split; [symmetry; now apply unit_st|now apply smat_unit]|symmetry; now apply unit_st].
  - destruct (backwardConjugate (emat e)) as [[d c]|]; cbn [rmap fst snd]; auto. split; [symmetry; now apply unit_st|now apply smat_unit].
Qed.
(** ... and a system that is turned around in one unit is turned around in the other *)
Theorem units_flip k ps e e' r : 0 < k -> assemble ps = Ok e -> assemble (map (in_unit (Fin k)) ps) = Ok e' ->
  match flip e, flip e' with
  | Ok f, Ok f' => matrix_in_unit (Fin k) (emat f) (emat f') /\ trace_values f' (ray_in_unit (Fin k) r) = map (ray_in_unit (Fin k)) (trace_values f r)
  | Err x, Err y => x = y
  | _, _ => False
  end.
Proof.
  intros Hk A B. pose proof (inv_pos k Hk) as Hi. rewrite (units_elem k ps e e' Hk A B), (s_flip k Hk Hi). destruct (flip e) as [f|]; cbn [rmap]; auto.
  split; [rewrite s_emat; now apply smat_unit|]. rewrite (unit_ray k Hk), (s_trace_values k Hk Hi). apply map_ext. intros x. now rewrite (unit_ray k Hk).
Qed.
(** partial: focal lengths agree only while both numbers C are beyond the absolute tolerance or neither is *)
Theorem units_focal k ps e e' z : 0 < k -> assemble ps = Ok e -> assemble (map (in_unit (Fin k)) ps) = Ok e' -> hasPower (emat e') = hasPower (emat e) ->
  answer (pair_in_unit (Fin k)) (effectiveFocalLengths (emat e)) (effectiveFocalLengths (emat e')) /\
  answer (option_map (pair_in_unit (Fin k))) (principalPlanePositions (emat e) z) (principalPlanePositions (emat e') (nmul (Fin k) z)) /\
  answer (option_map (pair_in_unit (Fin k))) (focusPositions (emat e) z) (focusPositions (emat e') (nmul (Fin k) z)) /\
  answer (length_in_unit (Fin k)) (backFocalLength (emat e)) (backFocalLength (emat e')) /\
  answer (length_in_unit (Fin k)) (frontFocalLength (emat e)) (frontFocalLength (emat e')).
Proof.
  intros Hk A B. pose proof (inv_pos k Hk) as Hi. rewrite (units_elem k ps e e' Hk A B), (s_emat k). intros P. rewrite (unit_st k Hk).
  assert (forall p, spair k p = pair_in_unit (Fin k) p) as Q by (intros p; unfold spair, pair_in_unit; now rewrite !(unit_st k Hk)).
  rewrite (s_focal k Hk Hi _ P), (s_planes k Hk Hi _ _ P), (s_foci k Hk Hi _ _ P), (s_bfl k Hk Hi _ P), (s_ffl k Hk Hi _ P). repeat split; apply answer_rmap.
  - now destruct (effectiveFocalLengths (emat e)) as [p|]; cbn [rmap]; rewrite ?Q.
  - now destruct (principalPlanePositions (emat e) z) as [[p|]|]; cbn [rmap omap option_map]; rewrite ?Q.
  - now destruct (focusPositions (emat e) z) as [[p|]|]; cbn [rmap omap option_map]; rewrite ?Q.
  - now destruct (backFocalLength (emat e)) as [p|]; cbn [rmap]; rewrite ?(unit_omap k Hk).
  - now destruct (frontFocalLength (emat e)) as [p|]; cbn [rmap]; rewrite ?(unit_omap k Hk).
Qed.
(** partial: the chief and the marginal rays, while the part of the system up to the stop images in both units or in neither *)
Theorem units_chief k ps e e' y s z d q q' : 0 < k -> assemble ps = Ok e -> assemble (map (in_unit (Fin k)) ps) = Ok e' ->
  apertureStop e = Ok s -> st_z s = Some z -> st_d s = Some d ->
  transferMatrix e z = Ok q -> transferMatrix e' (nmul (Fin k) z) = Ok q' -> isImaging (emat q') = isImaging (emat q) ->
  answer (option_map (ray_in_unit (Fin k))) (chiefRayAt e y) (chiefRayAt e' (nmul (Fin k) y)) /\
  answer (option_map (fun p => (ray_in_unit (Fin k) (fst p), ray_in_unit (Fin k) (snd p)))) (marginalRays e y) (marginalRays e' (nmul (Fin k) y)).
Proof.
  intros Hk A B. pose proof (inv_pos k Hk) as Hi. rewrite (units_elem k ps e e' Hk A B). rewrite !(unit_st k Hk), (s_transfer k Hk Hi). intros S Z D X. rewrite X. cbn [rmap]. intros [= <-].
  rewrite (s_emat k). intros P. split; apply answer_rmap.
  - rewrite (s_chief k Hk Hi e y s z q S Z X P). destruct (chiefRayAt e y) as [[c|]|]; cbn; auto. now rewrite (unit_ray k Hk).
  - rewrite (s_marginal k Hk Hi e y s z d q S Z D X P). destruct (marginalRays e y) as [[[c c']|]|]; cbn [rmap omap option_map fst snd]; auto. now rewrite !(unit_ray k Hk).
Qed.
