(** Bit-exact runs of the model on IEEE doubles in which a property of partial transfer
    matrices, cardinal points or flips fails. *)
From Coq Require Import ZArith List Bool String Floats.
From Verif Require Import Base Nums Optics Group Objective GroupProofs TraceProofs GroupRefutations.
Import ListNotations.

Definition thef (r : res float) : float := match r with Ok x => x | Err _ => nan end.

(** C08: the black box of an Objective cannot be cut *)
Lemma objective_cannot_be_cut :
  exists (e : @elem float),
    Objective (fz 9) (ndec 8 1) (fz 75) (fz 18) (fz 3) = Ok e /\
    transferMatrix e (fz 20) = Err TypeError.
Proof. exists (the (Objective (fz 9) (ndec 8 1) (fz 75) (fz 18) (fz 3))). vm_compute. split; reflexivity. Qed.

(** C20: in a path that starts in glass the invariant jumps between z = 0 and z = 10 *)
Lemma invariant_jumps :
  exists (s e : @elem float) r1 r2 i0 i10,
    Space (fz 10) n15 ninf = Ok s /\ MatrixGroupE [s] = Ok e /\
    r1 = Ray_new c0 c1 /\ r2 = Ray_new c1 c0 /\
    opticalInvariant e r1 r2 c0 = Ok i0 /\ opticalInvariant e r1 r2 (fz 10) = Ok i10 /\
    i0 = c1 /\ i10 = n15.
Proof.
  pose (s := the (Space (fz 10) n15 ninf)). pose (e := the (MatrixGroupE [s])).
  exists s, e, (Ray_new c0 c1), (Ray_new c1 c0), c1, n15. vm_compute. repeat split.
Qed.

(** C20: a single element with an aperture freezes one of the rays and not the other *)
Lemma invariant_clipped :
  exists (e : @elem float) r1 r2 i,
    Space (fz 10) c1 (fz 3) = Ok e /\ r1 = Ray_new c1 c1 /\ r2 = Ray_new (fz 2) c1 /\
    opticalInvariant e r1 r2 (fz 10) = Ok i /\
    neqb i (nmul c1 (nsub (nmul (rth r1) (ry r2)) (nmul (ry r1) (rth r2)))) = false.
Proof.
  exists (the (Space (fz 10) c1 (fz 3))), (Ray_new c1 c1), (Ray_new (fz 2) c1),
    (thef (opticalInvariant (the (Space (fz 10) c1 (fz 3))) (Ray_new c1 c1) (Ray_new (fz 2) c1) (fz 10))).
  vm_compute. repeat split.
Qed.

(** C23: a flipped thick lens has a front vertex behind its back vertex, and its back focal
    length is not the front focal length of the original *)
Lemma thick_lens_vertices :
  exists (e e' : @elem float) ffl bfl',
    ThickLens n15 (fz 100) (fz (-100)) (fz 10) ninf = Ok e /\ flip e = Ok e' /\
    mfv (emat e') = Some (fz 10) /\ mbv (emat e') = Some c0 /\
    frontFocalLength (emat e) = Ok (Some ffl) /\ backFocalLength (emat e') = Ok (Some bfl') /\
    nltb (nadd ffl c1) bfl' = true.
Proof.
  pose (e := the (ThickLens n15 (fz 100) (fz (-100)) (fz 10) ninf)). pose (e' := the (flip e)).
  pose (un := fun r : res (option float) => match r with Ok (Some x) => x | _ => nan end).
  exists e, e', (un (frontFocalLength (emat e))), (un (backFocalLength (emat e'))).
  vm_compute. repeat split.
Qed.

(** C25: the conjugate behind an element whose front is in glass raises *)
Lemma backward_in_glass :
  exists (e : @elem float),
    Space (fz 10) n15 ninf = Ok e /\
    neqb (mA (emat e)) c0 = false /\ backwardConjugate (emat e) = Err ValueError.
Proof. exists (the (Space (fz 10) n15 ninf)). vm_compute. repeat split. Qed.

(** C27: a group of glass elements, legally built, that cannot be flipped *)
Definition gm (a b c d : Z) : res (@elem float) :=
  MatrixE (fz a) (fz b) (fz c) (fz d) c0 None None n15 n15.
Lemma flip_raises :
  exists (e1 e2 e3 s inner middle outer : @elem float),
    gm 1 1 0 1 = Ok e1 /\ gm 1 0 1 1 = Ok e2 /\ gm 1 (-1) (-1) 2 = Ok e3 /\
    Space (fz 10) n15 ninf = Ok s /\
    MatrixGroupE [e1; e2; e3] = Ok inner /\ MatrixGroupE [inner] = Ok middle /\
    MatrixGroupE [middle; s] = Ok outer /\
    flip outer = Err ValueError.
Proof.
  pose (e1 := the (gm 1 1 0 1)). pose (e2 := the (gm 1 0 1 1)). pose (e3 := the (gm 1 (-1) (-1) 2)).
  pose (s := the (Space (fz 10) n15 ninf)). pose (inner := the (MatrixGroupE [e1; e2; e3])).
  pose (middle := the (MatrixGroupE [inner])).
  exists e1, e2, e3, s, inner, middle, (the (MatrixGroupE [middle; s])). vm_compute. repeat split.
Qed.

(** C28: a flipped Matrix keeps A and D; a flipped mirror changes its curvature *)
Lemma matrix_flip_wrong :
  exists (e e' : @elem float) r out back,
    MatrixE (fz 2) c0 c0 (ndec 5 1) c0 None None c1 c1 = Ok e /\ flip e = Ok e' /\
    r = Ray_new c1 c0 /\ out = traceThrough e r /\
    back = traceThrough e' (Ray_new (ry out) (nopp (rth out))) /\
    neqb (ry back) (ry r) = false.
Proof.
  pose (e := the (MatrixE (fz 2) c0 c0 (ndec 5 1) c0 None None c1 c1)).
  exists e, (the (flip e)), (Ray_new c1 c0). do 2 eexists.
  split; [vm_compute; reflexivity|]. split; [vm_compute; reflexivity|]. split; [reflexivity|].
  split; [reflexivity|]. split; [reflexivity|]. vm_compute. reflexivity.
Qed.
Lemma mirror_flip_wrong :
  exists (e e' : @elem float) r out back,
    CurvedMirror (fz 10) ninf = Ok e /\ flip e = Ok e' /\
    r = Ray_new c1 c0 /\ out = traceThrough e r /\
    back = traceThrough e' (Ray_new (ry out) (nopp (rth out))) /\
    neqb (rth back) (nopp (rth r)) = false.
Proof.
  pose (e := the (CurvedMirror (fz 10) ninf)).
  exists e, (the (flip e)), (Ray_new c1 c0). do 2 eexists.
  split; [vm_compute; reflexivity|]. split; [vm_compute; reflexivity|]. split; [reflexivity|].
  split; [reflexivity|]. split; [reflexivity|]. vm_compute. reflexivity.
Qed.

(** C29: when the last vertex is not the end of the element, light does not come to a focus *)
Lemma to_focus_misses :
  exists (e s g : @elem float) l sp,
    Space (fz 10) c1 ninf = Ok sp /\ Lens (fz 50) ninf = Ok l /\
    MatrixGroupE [sp; l; sp] = Ok e /\ hasPower (emat e) = true /\
    ToFocus (emat e) = Ok s /\ MatrixGroupE [e; s] = Ok g /\
    nltb (ndec 1 1) (nabs (mA (emat g))) = true.
Proof.
  pose (sp := the (Space (fz 10) c1 ninf)). pose (l := the (Lens (fz 50) ninf)).
  pose (e := the (MatrixGroupE [sp; l; sp])). pose (s := the (ToFocus (emat e))).
  exists e, s, (the (MatrixGroupE [e; s])), l, sp. vm_compute. repeat split.
Qed.
Lemma focus_to_focus_misses :
  exists (e g : @elem float) l sp,
    Space (fz 10) c1 ninf = Ok sp /\ Lens (fz 50) ninf = Ok l /\
    MatrixGroupE [sp; l; sp] = Ok e /\ hasPower (emat e) = true /\
    fromFocusToFocus e = Ok g /\
    nltb (ndec 1 1) (nabs (mA (emat g))) = true.
Proof.
  pose (sp := the (Space (fz 10) c1 ninf)). pose (l := the (Lens (fz 50) ninf)).
  pose (e := the (MatrixGroupE [sp; l; sp])).
  exists e, (the (fromFocusToFocus e)), l, sp. vm_compute. repeat split.
Qed.
(** an element in glass, and an element whose vertices are unknown, raise *)
Lemma focus_to_focus_raises :
  exists (e e' : @elem float),
    DielectricInterface n15 c1 (fz 10) ninf = Ok e /\ fromFocusToFocus e = Err ValueError /\
    MatrixE c1 c0 (ndec (-2) 2) c1 c0 None None c1 c1 = Ok e' /\ hasPower (emat e') = true /\
    fromFocusToFocus e' = Err TypeError.
Proof.
  exists (the (DielectricInterface n15 c1 (fz 10) ninf)),
    (the (MatrixE c1 c0 (ndec (-2) 2) c1 c0 None None c1 c1)).
  vm_compute. repeat split.
Qed.

(** C31: the stored magnification hides the method *)
Lemma magnification_hidden : forall (f na ftf ba wd : float) e,
  Objective f na ftf ba wd = Ok e -> call_magnification e = Err TypeError.
Proof.
  intros f na ftf ba wd e H. unfold Objective in H.
  repeat match type of H with (bind ?x _) = _ => destruct x; [cbn [bind] in H|discriminate] end.
  injection H as <-. reflexivity.
Qed.
Lemma magnification_raises :
  exists (e : @elem float),
    Objective (fz 9) (ndec 8 1) (fz 75) (fz 18) (fz 3) = Ok e /\
    call_magnification e = Err TypeError.
Proof. exists (the (Objective (fz 9) (ndec 8 1) (fz 75) (fz 18) (fz 3))). vm_compute. split; reflexivity. Qed.
