(** Specification of what rounding may do: the same system and the same ray in exact
    arithmetic, and how large the terms that are added on the way can be. *)
From Coq Require Import ZArith Reals List Bool Floats.
From Verif Require Import Base Nums Optics Spec TraceProofs Rounding RoundingOps.
Import ListNotations.
Open Scope R_scope.

(** the number a double stands for *)
Definition XF (f : float) : XR :=
  match Prim2SF f with
  | S754_nan => NaN
  | S754_infinity false => PInf
  | S754_infinity true => NInf
  | _ => Fin (FR f)
  end.
Definition XFo (o : option float) : option XR := option_map XF o.
(** the same ray, matrix, element in exact arithmetic: every double is taken for the
    number it stands for *)
Definition xray (r : @ray float) : @ray XR :=
  mkRay (XF (ry r)) (XF (rth r)) (XF (rz r)) (rblk r) (XF (rdiam r)) (XFo (rwl r)).
Definition xmat (m : @mat float) : @mat XR :=
  mkMat (XF (mA m)) (XF (mB m)) (XF (mC m)) (XF (mD m)) (XF (mL m)) (XFo (mfv m)) (XFo (mbv m))
    (XF (mfi m)) (XF (mbi m)) (XF (mdiam m)) (XF (mna m)) (mflip m) (mlabel m).
Definition xkind (k : @kind float) : @kind XR :=
  match k with
  | KMatrix => KMatrix | KCurvedMirror => KCurvedMirror | KSpace => KSpace | KAperture => KAperture
  | KLens f h => KLens (XF f) (XF h)
  | KInterface a b c => KInterface (XF a) (XF b) (XF c)
  | KThickLens a b c => KThickLens (XF a) (XF b) (XF c)
  | KSlab a b c => KSlab (XF a) (XF b) (XF c)
  | KAxicon a b => KAxicon (XF a) (XF b)
  end.
Definition xgkind (g : @gkind float) : @gkind XR :=
  match g with GGroup => GGroup | GObjective a b => GObjective (XF a) (XF b) end.
Fixpoint xelem (e : @elem float) : @elem XR :=
  match e with
  | Leaf k m => Leaf (xkind k) (xmat m)
  | Group g m es => Group (xgkind g) (xmat m) (map xelem es)
  end.

(** a limit is a finite number or +infinity *)
Definition limit (f : float) : Prop := ffin f \/ XF f = PInf.
(** matrices whose entries and length are finite and whose openings are numbers;
    axicons are left out *)
Record tame (km : @kind float * @mat float) : Prop := mkTame {
  tA : ffin (mA (snd km)); tB : ffin (mB (snd km)); tC : ffin (mC (snd km)); tD : ffin (mD (snd km));
  tL : ffin (mL (snd km));
  tdiam : limit (mdiam (snd km)); tna : limit (mna (snd km));
  tkind : not_axicon km }.

(** ** How large the terms can be *)
(** the smallest normal double; anything smaller counts as this *)
Definition tiny : R := p2 (-1022).
(** bounds of height, angle and position: the absolute values of all the terms added up *)
Record size := mkSize { szy : R; szt : R; szz : R }.
Definition size0 (r : @ray float) : size := mkSize (Rabs (FR (ry r)) + tiny) (Rabs (FR (rth r)) + tiny) (Rabs (FR (rz r)) + tiny).
Definition sizeS (s : size) (km : @kind float * @mat float) : size :=
  let m := snd km in
  mkSize (Rabs (FR (mA m)) * szy s + Rabs (FR (mB m)) * szt s + tiny)
         (Rabs (FR (mC m)) * szy s + Rabs (FR (mD m)) * szt s + tiny)
         (Rabs (FR (mL m)) + szz s + tiny).
Definition sizes (l : list (@kind float * @mat float)) (s : size) : size := fold_left sizeS l s.
(** no term is near the largest double *)
Definition modest (l : list (@kind float * @mat float)) (r : @ray float) : Prop :=
  forall pre post, l = pre ++ post ->
  szy (sizes pre (size0 r)) <= p2 1020 /\ szt (sizes pre (size0 r)) <= p2 1020 /\ szz (sizes pre (size0 r)) <= p2 1020.

(** one part in 2^50 for every element met *)
Definition part (n : nat) : R := INR n * p2 (-50).
(** [v] is further than [tol] from the limit *)
Definition away (v tol : R) (lim : XR) : Prop :=
  match lim with Fin d => tol < Rabs (v - d) | PInf => True | _ => False end.
(** the exact ray is not at the very edge of an opening that it reaches *)
Definition off_the_edges (e : @elem float) (r : @ray float) : Prop :=
  forall pre km post, leaves e = pre ++ km :: post ->
  let x := through_leaves (map (fun km => (xkind (fst km), xmat (snd km))) pre) (xray r) in
  rblk x = false ->
  let s := sizes pre (size0 r) in
  let n := S (List.length pre) in
  exists y th, ry x = Fin y /\ rth x = Fin th /\
    away (Rabs y) (part n * (szy s + Rabs (FR (mdiam (snd km))) / 2)) (ndiv (XF (mdiam (snd km))) c2) /\
    away (Rabs th) (part n * szt s) (XF (mna (snd km))).

(** ** The path as a product of matrices of real numbers *)
Definition rmat (km : @kind float * @mat float) : M2 :=
  mk2 (FR (mA (snd km))) (FR (mB (snd km))) (FR (mC (snd km))) (FR (mD (snd km))).
Definition rlength (l : list (@kind float * @mat float)) : R := fold_right (fun km s => FR (mL (snd km)) + s) 0 l.
(** the elements of a group, each with the matrix it has (a group in a group counts as
    one matrix) *)
Definition members (es : list (@elem float)) : list (@kind float * @mat float) := map (fun e => (KMatrix, emat e)) es.
Definition is_leaf (e : @elem float) : Prop := match e with Leaf _ _ => True | Group _ _ _ => False end.
(** the rays that pick the columns of a matrix *)
Definition unit_y : @ray float := Ray_new c1 c0.
Definition unit_th : @ray float := Ray_new c0 c1.
