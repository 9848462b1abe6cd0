(** Bit-exact runs of the model of the marks of a figure on IEEE doubles in which a property fails. *)
From Coq Require Import ZArith List Bool String Floats.
From Verif Require Import Base Nums Optics GroupRefutations Drawing Figures FigureRefutations Format Labels ElementFigure RangeRefutations.
Import ListNotations.
Open Scope string_scope.
Open Scope list_scope.

(** a CompoundLens made of these elements *)
Definition compound (es : list (@elem float)) (diam : float) : option (drawable float) :=
  match CompoundLens es diam with Ok (Group GGroup m es) => Some (DLens (LCompound m es)) | _ => None end.
(** C97: a plane-parallel window of glass built as a CompoundLens: the figure cannot be drawn *)
Lemma window_raises :
  exists a s b d, DielectricInterface c1 (ndec 15 1) ninf (fz 25) = Ok a /\ Space (fz 5) (ndec 15 1) ninf = Ok s /\
    DielectricInterface (ndec 15 1) c1 ninf (fz 25) = Ok b /\ compound [a; s; b] (fz 25) = Some d /\
    forall parse show, points (fixed 3) parse show [d] = Err TypeError.
Proof.
  pose (a := the (DielectricInterface c1 (ndec 15 1) ninf (fz 25))). pose (s := the (Space (fz 5) (ndec 15 1) ninf)).
  pose (b := the (DielectricInterface (ndec 15 1) c1 ninf (fz 25))).
  exists a, s, b. eexists. split; [vm_compute; reflexivity|]. split; [vm_compute; reflexivity|]. split; [vm_compute; reflexivity|].
  split; [vm_compute; reflexivity|]. intros parse show. vm_compute. reflexivity.
Qed.

(** C97: the front focal points of the two lenses are at 0 and at -1.1e-16: there are two marks at 0, not one *)
Lemma twice_at_zero :
  exists s1 l1 s2 l2 ds, Space (ndec 1 1) c1 ninf = Ok s1 /\ Lens (ndec 1 1) (fz 25) = Ok l1 /\
    Space (ndec 7 1) c1 ninf = Ok s2 /\ Lens (ndec 8 1) (fz 25) = Ok l2 /\ all_drawn [s1; l1; s2; l2] = Some ds /\
    forall parse, exists rest, points (fixed 3) parse true ds =
      Ok ((parse "0.000", Some "${F_f}_1$") :: (parse "0.200", Some "${F_b}_1$") :: (parse "-0.000", Some "${F_f}_2$") :: rest).
Proof.
  pose (s1 := the (Space (ndec 1 1) c1 ninf)). pose (l1 := the (Lens (ndec 1 1) (fz 25))).
  pose (s2 := the (Space (ndec 7 1) c1 ninf)). pose (l2 := the (Lens (ndec 8 1) (fz 25))).
  exists s1, l1, s2, l2, (thed (all_drawn [s1; l1; s2; l2])). split; [vm_compute; reflexivity|]. split; [vm_compute; reflexivity|].
  split; [vm_compute; reflexivity|]. split; [vm_compute; reflexivity|]. split; [vm_compute; reflexivity|].
  intros parse. eexists. vm_compute. reflexivity.
Qed.

(** C98: an objective of focal length 9 whose focal points are at 0 and 75: its figure marks F_f at 57 and F_b at 75 too,
    the focal points that the lens inside would have in air *)
Definition shown_at (marks : list (mark float)) (x : float) (text : string) : Prop := exists y, In (mkMark x y (Some text)) marks.
Lemma objective_display :
  exists m es, Objective (fz 9) (ndec 8 1) (fz 75) (fz 18) (fz 3) = Ok (Group (GObjective (fz 75) (fz 3)) m es) /\
    focusPositions m c0 = Ok (Some (c0, fz 75)) /\
    forall parse, exists marks pl,
      display no_tan (fixed 1) (fixed 3) parse (DObjective m es (fz 75) (fz 3) (fz 18) (ndec 48 1) (ndec 8 1)) = Ok (marks, pl) /\
      shown_at marks (parse "57.000") "$F_f$" /\ shown_at marks (parse "75.000") "$F_f$, $F_b$".
Proof.
  pose (e := the (Objective (fz 9) (ndec 8 1) (fz 75) (fz 18) (fz 3))). exists (emat e), (match e with Group _ _ es => es | _ => [] end).
  split; [vm_compute; reflexivity|]. split; [vm_compute; reflexivity|].
  intros parse. do 2 eexists. split; [vm_compute; reflexivity|]. split; eexists; vm_compute; auto 10.
Qed.
(** C98: elements that have no figure: a Space, and a Matrix made without vertices *)
Lemma no_figure :
  exists s m k, Space (fz 100) c1 ninf = Ok (Leaf KSpace s) /\
    MatrixE c1 c0 (ndec (-1) 1) c1 c0 None None c1 c1 = Ok (Leaf k m) /\
    (forall parse, display no_tan (fixed 1) (fixed 3) parse (DLens (LLeaf KSpace s)) = Err AttributeError) /\
    (forall parse, display no_tan (fixed 1) (fixed 3) parse (DLens (LLeaf k m)) = Err TypeError).
Proof.
  exists (emat (the (Space (fz 100) c1 ninf))), (emat (the (MatrixE c1 c0 (ndec (-1) 1) c1 c0 None None c1 c1))), KMatrix.
  split; [vm_compute; reflexivity|]. split; [vm_compute; reflexivity|]. split; intros parse; vm_compute; reflexivity.
Qed.
