(** Which rays the elements made by the public constructors stop. *)
From Coq Require Import ZArith List Bool String Reals Lra.
From Verif Require Import Base Nums Optics Units TraceProofs RayProofs.
Import ListNotations.

Section StopEach.
Context {T : Type} {N : Num T}.
(** the diameter and the largest angle given to a constructor; no limit where there is no such argument *)
Definition opening (p : part T) : T * T :=
  match p with
  | PMatrix _ _ _ _ _ _ _ _ _ | PGroup _ => (ninf, ninf)
  | PLens _ d | PMirror _ d | PSpace _ _ d | PInterface _ _ _ d | PThickLens _ _ _ _ d | PSlab _ _ d | PAxicon _ _ d => (d, ninf)
  | PAperture d na => (d, na)
  end.
Definition single (p : part T) : Prop := match p with PGroup _ => False | _ => True end.
Lemma init_opening a b c d l fv bv fi bi di na lb m : Matrix_init a b c d l fv bv fi bi di na lb = Ok m -> mdiam m = di /\ mna m = na.
Proof.
  unfold Matrix_init. destruct (nleb di c0); [discriminate|]. destruct (nleb na c0); [discriminate|]. destruct (pdiv fi bi); [|discriminate].
  cbn [bind]. destruct (areAbsolutelyNotEqual _ _ _); [discriminate|]. intros E. injection E as <-. split; reflexivity.
Qed.
Lemma piece_leaf (p : part T) e : single p -> piece p = Ok e -> exists k m, e = Leaf k m /\ mdiam m = fst (opening p) /\ mna m = snd (opening p).
Proof.
  assert (forall A (r : res A) B (f : A -> res B) x, (y <- r;; f y) = Ok x -> exists y, r = Ok y /\ f y = Ok x) as S.
  { intros A [y|] B f x E; [eauto|discriminate]. }
  destruct p; intros P E; try contradiction; cbn [piece] in E; unfold MatrixE, Lens, CurvedMirror, Space, SpaceM, DielectricInterface, InterfaceM, ThickLens, DielectricSlab, ThickLensM,
    Aperture, ApertureL, Axicon in E;
    repeat (apply S in E as (? & ? & E)); try (injection E as <-);
    repeat match goal with H : (_ <- _;; _) = Ok _ |- _ => apply S in H as (? & ? & H) end;
    match goal with H : Matrix_init _ _ _ _ _ _ _ _ _ _ _ _ = Ok _ |- _ => apply init_opening in H as [? ?] end; do 2 eexists; split; try reflexivity; cbn; auto.
Qed.
Theorem each_stops (p : part T) e r : single p -> piece p = Ok e ->
  (rblk (traceThrough e r) = true <->
   rblk r = true \/ nltb (ndiv (fst (opening p)) c2) (nabs (ry r)) = true \/ nltb (snd (opening p)) (nabs (rth r)) = true).
Proof.
  intros P E. destruct (piece_leaf p e P E) as (k & m & -> & <- & <-). rewrite blocked_iff_trace. cbn [leaves]. split.
  - intros [H|(pre & km & post & E1 & M)]; [now left|right]. destruct pre as [|x pre]; [|destruct pre; discriminate]. injection E1 as <- _.
    cbn [ideals fold_left snd] in M. unfold misses in M. now apply orb_true_iff in M.
  - intros [H|H]; [now left|right]. exists [], (k, m), []. split; [reflexivity|]. cbn. unfold misses. now apply orb_true_iff.
Qed.
End StopEach.

(** ** A path sends a ray through the elements it was given, whatever indices it gave to them *)
Section Given.
Context {T : Type} {N : Num T}.
Lemma through_index (e : @elem T) n r : through (set_index e n) r = through e r.
Proof. destruct e as [k m|g m es]; cbn [set_index through]; [|reflexivity]. unfold through_leaf, mul_ray_v, mul_ray_new. cbn. reflexivity. Qed.
Lemma append_through (g g' : @grp T) e r : append g e = Ok g' -> through (grp_elem g') r = through e (through (grp_elem g) r).
Proof.
  unfold append, append_st. destruct (append_check (gelems g) e) as [e'|] eqn:C; [|discriminate].
  destruct (group_transfer _ _); [|discriminate]. cbn [as_res]. intros E. injection E as <-. unfold grp_elem. cbn [gelems gmat through]. rewrite fold_left_app. cbn [fold_left].
  revert C. unfold append_check. destruct (last_opt (gelems g)); [|intros C; now injection C as <-]. destruct (neqb _ _); [intros C; now injection C as <-|].
  destruct (isSpace e); [|discriminate]. intros C. injection C as <-. apply through_index.
Qed.
Lemma append_all_through (l : list (@elem T)) : forall g g' r, append_all g l = Ok g' -> through (grp_elem g') r = fold_left (fun r e => through e r) l (through (grp_elem g) r).
Proof.
  induction l as [|e l IH]; intros g g' r; cbn [append_all]; [intros E; now injection E as <-|].
  destruct (append g e) as [g1|] eqn:A; [|discriminate]. cbn [bind]. intros E. rewrite (IH _ _ r E). cbn [fold_left]. now rewrite (append_through _ _ _ r A).
Qed.
Theorem path_of_given (l : list (@elem T)) lab g r : MatrixGroup_new l lab = Ok g ->
  traceThrough (grp_elem g) r = fold_left (fun r e => traceThrough e r) l r.
Proof.
  unfold MatrixGroup_new. destruct (Matrix_init _ _ _ _ _ _ _ _ _ _ _ _) as [m|]; [|discriminate]. cbn [bind]. intros E. rewrite traceThrough_through, (append_all_through _ _ _ r E).
  cbn [grp_elem gelems through fold_left]. clear E. revert r. induction l as [|e l IH]; intros r; [reflexivity|]. cbn [fold_left]. now rewrite traceThrough_through.
Qed.
Theorem append_given (g g' : @grp T) e r : append g e = Ok g' -> traceThrough (grp_elem g') r = traceThrough e (traceThrough (grp_elem g) r).
Proof. intros E. rewrite !traceThrough_through. now apply append_through. Qed.
End Given.
