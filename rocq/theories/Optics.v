(** Model of rays, matrices, optical elements and groups:
    /repo/raytracing/ray.py, matrix.py, matrixgroup.py, utils.py, axicon.py.
    Elements are values here; ray objects live in a heap because tracing
    mutates them.  The last-trace cache of groups is modelled in Store.v. *)
From Coq Require Import ZArith List Bool String.
From Verif Require Import Base.
Import ListNotations.
Open Scope num_scope.

Section Model.
Context {T : Type} {N : Num T}.

(** ** utils.py *)
(** utils.py 85-100 *)
Definition isAlmostZero (v eps : T) : bool := nabs v <? eps.
(** utils.py 103-118 *)
Definition isNotZero (v eps : T) : bool := eps <? nabs v.
(** utils.py 121-140 *)
Definition areAbsolutelyAlmostEqual (l r eps : T) : bool := nabs (l - r) <? eps.
(** utils.py 167-168 *)
Definition areAbsolutelyNotEqual (l r eps : T) : bool := eps <? nabs (l - r).
(** default tolerance of utils.py, 1e-3 *)
Definition eps3 : T := ndec 1 3.
(** matrix.py 116: Matrix.__epsilon__ = 1e-5 *)
Definition eps5 : T := ndec 1 5.

(** ** Ray (ray.py) *)
(** ray.py 39-47: attributes of a Ray object *)
Record ray := mkRay {
  ry : T; rth : T; rz : T;
  rblk : bool;            (* isBlocked *)
  rdiam : T;              (* apertureDiameter *)
  rwl : option T          (* wavelength *)
}.

(** ray.py 39-47: Ray(y, theta) *)
Definition Ray_new (y th : T) : ray := mkRay y th c0 false ninf None.

Definition set_blk (r : ray) : ray :=
  mkRay (ry r) (rth r) (rz r) true (rdiam r) (rwl r).
Definition set_th (r : ray) (th : T) : ray :=
  mkRay (ry r) th (rz r) (rblk r) (rdiam r) (rwl r).

(** ray.py 258-268: __eq__ compares y and theta only *)
Definition ray_eqb (a b : ray) : bool :=
  if negb (ry a =? ry b) then false
  else if negb (rth a =? rth b) then false
  else true.

(** ray.py 180-206: at *)
Definition ray_at (r : ray) (z : T) : ray :=
  let o := mkRay (ry r + (z - rz r) * rth r) (rth r) z false ninf None in
  if rblk r then set_blk o else o.

(** ray.py 235-244: the loop of along; [last] is rayTrace[-1] *)
Fixpoint along_loop (last closest : ray) (l : list ray) (z : T) : ray :=
  match l with
  | [] => last
  | r :: t =>
      if rz r =? z then r
      else if z <? rz r then ray_at closest z
      else along_loop last r t z
  end.

(** ray.py 209-244: along; rayTrace[0] raises IndexError on an empty trace *)
Definition along (tr : list ray) (z : T) : res ray :=
  match tr with
  | [] => Err IndexError
  | r0 :: _ => Ok (along_loop (List.last tr r0) r0 tr z)
  end.

(** ray.py 71-115: fan *)
Definition fan_delta (rmin rmax : T) (n : Z) : res T :=
  if (2 <=? n)%Z then Ok (ndiv (rmax - rmin) (nofZ (n - 1)))
  else if (n =? 1)%Z then Ok c0
  else Err ValueError.

Definition zrange (n : Z) : list Z := map Z.of_nat (seq 0 (Z.to_nat n)).

Definition fan (y rmin rmax : T) (n : Z) : res (list ray) :=
  d <- fan_delta rmin rmax n;;
  Ok (map (fun i => Ray_new y (rmin + nofZ i * d)) (zrange n)).

(** ray.py 120-178: fanGroup *)
Definition fanGroup (ymin ymax : T) (m : Z) (rmin rmax : T) (n : Z) : res (list ray) :=
  dr <- fan_delta rmin rmax n;;
  dh <- fan_delta ymin ymax m;;
  Ok (flat_map (fun j => map (fun i =>
        Ray_new (ymin + nofZ j * dh) (rmin + nofZ i * dr)) (zrange n)) (zrange m)).

(** ** Matrix (matrix.py 39-1442) *)
(** attributes set by Matrix.__init__, matrix.py 134-158 *)
Record mat := mkMat {
  mA : T; mB : T; mC : T; mD : T; mL : T;
  mfv : option T; mbv : option T;      (* frontVertex, backVertex *)
  mfi : T; mbi : T;                    (* frontIndex, backIndex *)
  mdiam : T; mna : T;                  (* apertureDiameter, apertureNA *)
  mflip : bool;                        (* isFlipped *)
  mlabel : string
}.

(** matrix.py 165-167 *)
Definition isIdentity (m : mat) : bool :=
  (mA m =? c1) && (mD m =? c1) && (mB m =? c0) && (mC m =? c0).

(** matrix.py 169-182 *)
Definition det_of (a b c d : T) : T :=
  if c =? c0 then a * d else a * d - b * c.
Definition determinant (m : mat) : T := det_of (mA m) (mB m) (mC m) (mD m).

(** matrix.py 118-163: Matrix.__init__ *)
Definition Matrix_init (a b c d l : T) (fv bv : option T) (fi bi diam na : T)
    (label : string) : res mat :=
  if diam <=? c0 then Err ValueError
  else if na <=? c0 then Err ValueError
  else
    q <- pdiv fi bi;;
    if areAbsolutelyNotEqual (det_of a b c d) q eps5 then Err ValueError
    else Ok (mkMat a b c d l fv bv fi bi diam na false label).

(** Matrix() with default arguments, matrix.py 118-132 *)
Definition Matrix_default : res mat :=
  Matrix_init c1 c0 c0 c1 c0 None None c1 c1 ninf ninf "".

(** matrix.py 325-332: vertices of a product *)
Definition mul_fv (l r : mat) : option T :=
  match mfv r, mfv l with
  | None, Some v => Some (mL r + v)
  | x, _ => x
  end.
Definition mul_bv (l r : mat) : option T :=
  match mbv l with
  | Some v => Some (mL r + v)
  | None => mbv r
  end.

(** matrix.py 334-342: indices of a product *)
Definition mul_idx (l r : mat) : T * T :=
  if isIdentity l then (mfi r, mbi r)
  else if isIdentity r then (mfi l, mbi l)
  else (mfi r, mbi l).

(** matrix.py 249-344: mul_matrix, [l * r] *)
Definition mul_matrix (l r : mat) : res mat :=
  let a := mA l * mA r + mB l * mC r in
  let b := mA l * mB r + mB l * mD r in
  let c := mC l * mA r + mD l * mC r in
  let d := mC l * mB r + mD l * mD r in
  let len := mL l + mL r in
  let (fi, bi) := mul_idx l r in
  Matrix_init a b c d len (mul_fv l r) (mul_bv l r) fi bi ninf ninf "".

(** ** Elements *)
(** Subclass-specific attributes of the classes of matrix.py 1445-2006 and axicon.py.
    ToConjugate and ToFocus (matrix.py 1685-1710) are [KSpace]. *)
Inductive kind :=
| KMatrix
| KLens (f halfHeight : T)
| KCurvedMirror
| KSpace
| KInterface (n1 n2 R : T)
| KThickLens (n R1 R2 : T)
| KSlab (n R1 R2 : T)
| KAperture
| KAxicon (n alpha : T).

(** [GObjective ftf wd]: specialtylenses.Objective with its focusToFocusLength and
    workingDistance; all other groups are [GGroup]. *)
Inductive gkind := GGroup | GObjective (ftf wd : T).

Inductive elem :=
| Leaf (k : kind) (m : mat)
| Group (g : gkind) (m : mat) (es : list elem).

Definition emat (e : elem) : mat := match e with Leaf _ m => m | Group _ m _ => m end.

(** isinstance(matrix, Space) *)
Definition isSpace (e : elem) : bool := match e with Leaf KSpace _ => true | _ => false end.

(** matrix.py 118-163 as an element *)
Definition MatrixE (a b c d l : T) (fv bv : option T) (fi bi : T) : res elem :=
  m <- Matrix_init a b c d l fv bv fi bi ninf ninf "";; Ok (Leaf KMatrix m).

(** matrix.py 1469-1477 *)
Definition Lens (f diam : T) : res elem :=
  c <- pdiv (- c1) f;;
  m <- Matrix_init c1 c0 c c1 c0 (Some c0) (Some c0) c1 c1 diam ninf "";;
  Ok (Leaf (KLens f (nofZ 4)) m).

(** matrix.py 1573-1579 *)
Definition CurvedMirror (R diam : T) : res elem :=
  c <- pdiv c2 R;;
  m <- Matrix_init c1 c0 c c1 c0 (Some c0) (Some c0) c1 c1 diam ninf "";;
  Ok (Leaf KCurvedMirror m).

(** matrix.py 1651-1662 *)
Definition SpaceM (d n diam : T) : res mat :=
  Matrix_init c1 d c0 c1 d None None n n diam ninf "".
Definition Space (d n diam : T) : res elem :=
  m <- SpaceM d n diam;; Ok (Leaf KSpace m).

(** matrix.py 1730-1747 *)
Definition interface_C (n1 n2 R : T) : res T := pdiv (- (n2 - n1)) (n2 * R).
Definition InterfaceM (n1 n2 R diam : T) : res mat :=
  c <- interface_C n1 n2 R;;
  d <- pdiv n1 n2;;
  Matrix_init c1 c0 c d c0 (Some c0) (Some c0) n1 n2 diam ninf "".
Definition DielectricInterface (n1 n2 R diam : T) : res elem :=
  m <- InterfaceM n1 n2 R diam;; Ok (Leaf (KInterface n1 n2 R) m).

(** matrix.py 1819-1822 (also 1900-1903) *)
Definition thick_A (n R1 t : T) : res T :=
  x <- pdiv (t * (c1 - n)) (n * R1);; Ok (x + c1).
Definition thick_B (n t : T) : res T := pdiv t n.
Definition thick_C (n R1 R2 t : T) : res T :=
  x <- pdiv c1 R1;;
  y <- pdiv c1 R2;;
  w <- pdiv (t * (n - c1)) (n * R1 * R2);;
  Ok (- (n - c1) * (x - y + w)).
Definition thick_D (n R2 t : T) : res T :=
  x <- pdiv (t * (n - c1)) (n * R2);; Ok (x + c1).

(** matrix.py 1812-1828 *)
Definition ThickLensM (n R1 R2 t diam : T) : res mat :=
  a <- thick_A n R1 t;;
  b <- thick_B n t;;
  c <- thick_C n R1 R2 t;;
  d <- thick_D n R2 t;;
  Matrix_init a b c d t (Some c0) (Some t) c1 c1 diam ninf "".
Definition ThickLens (n R1 R2 t diam : T) : res elem :=
  m <- ThickLensM n R1 R2 t diam;; Ok (Leaf (KThickLens n R1 R2) m).

(** matrix.py 1934-1939 *)
Definition DielectricSlab (n t diam : T) : res elem :=
  m <- ThickLensM n ninf ninf t diam;; Ok (Leaf (KSlab n ninf ninf) m).

(** matrix.py 1995-2006 *)
Definition ApertureL (diam na : T) (label : string) : res elem :=
  m <- Matrix_init c1 c0 c0 c1 c0 None None c1 c1 diam na label;;
  Ok (Leaf KAperture m).
Definition Aperture (diam na : T) : res elem := ApertureL diam na "".

(** axicon.py 30-35 *)
Definition Axicon (alpha n diam : T) : res elem :=
  m <- Matrix_init c1 c0 c0 c1 c0 None None c1 c1 diam ninf "";;
  Ok (Leaf (KAxicon n alpha) m).

(** ** Transfer matrices *)
(** transferMatrix(upTo): matrix.py 491-535 (Matrix), 1664-1683 (Space),
    1860-1879 (ThickLens), 1946-1965 (DielectricSlab), matrixgroup.py 273-324. *)
Definition transfer_leaf (k : kind) (m : mat) (upTo : T) : res elem :=
  match k with
  | KSpace =>
      if upTo <? mL m then Space upTo (mfi m) ninf else Ok (Leaf k m)
  | KThickLens n R1 _ =>
      if mL m <=? upTo then Ok (Leaf k m)
      else s <- SpaceM upTo n (mdiam m);;
           i <- InterfaceM c1 n R1 (mdiam m);;
           p <- mul_matrix s i;; Ok (Leaf KMatrix p)
  | KSlab n _ _ =>
      if mL m <=? upTo then Ok (Leaf k m)
      else s <- SpaceM upTo n (mdiam m);;
           i <- InterfaceM c1 n ninf (mdiam m);;
           p <- mul_matrix s i;; Ok (Leaf KMatrix p)
  | _ =>
      if mL m =? c0 then Ok (Leaf k m)
      else if mL m <=? upTo then Ok (Leaf k m)
      else Err TypeError
  end.

Fixpoint transferMatrix (e : elem) (upTo : T) : res elem :=
  match e with
  | Leaf k m => transfer_leaf k m upTo
  | Group _ _ es =>
      tm0 <- Matrix_default;;
      tm <- (fix go (l : list elem) (tm : mat) (distance : T) : res mat :=
               match l with
               | [] => Ok tm
               | x :: t =>
                   if mL (emat x) <=? distance then
                     tm' <- mul_matrix (emat x) tm;;
                     go t tm' (distance - mL (emat x))
                   else
                     p <- transferMatrix x distance;;
                     mul_matrix (emat p) tm
               end) es tm0 upTo;;
      Ok (Leaf KMatrix tm)
  end.

(** the loop of matrixgroup.py 316-322 as a top-level function *)
Fixpoint transfer_loop (l : list elem) (tm : mat) (distance : T) : res mat :=
  match l with
  | [] => Ok tm
  | x :: t =>
      if mL (emat x) <=? distance then
        tm' <- mul_matrix (emat x) tm;;
        transfer_loop t tm' (distance - mL (emat x))
      else
        p <- transferMatrix x distance;;
        mul_matrix (emat p) tm
  end.

Definition group_transfer (es : list elem) (upTo : T) : res mat :=
  tm0 <- Matrix_default;; transfer_loop es tm0 upTo.

(** ** Groups: append and friends (values) *)
(** a group under construction: its own attributes and its elements *)
Record grp := mkGrp { gmat : mat; gelems : list elem }.

(** matrixgroup.py 83-91: copy the attributes of the transfer matrix *)
Definition copy_attrs (g t : mat) : mat :=
  mkMat (mA t) (mB t) (mC t) (mD t) (mL t) (mfv t) (mbv t) (mfi t) (mbi t)
        (mdiam g) (mna g) (mflip g) (mlabel g).

Definition set_index (e : elem) (n : T) : elem :=
  match e with
  | Leaf k m => Leaf k (mkMat (mA m) (mB m) (mC m) (mD m) (mL m) (mfv m) (mbv m)
                              n n (mdiam m) (mna m) (mflip m) (mlabel m))
  | Group g m es => Group g (mkMat (mA m) (mB m) (mC m) (mD m) (mL m) (mfv m) (mbv m)
                              n n (mdiam m) (mna m) (mflip m) (mlabel m)) es
  end.

(** matrixgroup.py 70-79: index check of append; the element that is added *)
Definition append_check (es : list elem) (e : elem) : res elem :=
  match last_opt es with
  | None => Ok e
  | Some le =>
      if mbi (emat le) =? mfi (emat e) then Ok e
      else if isSpace e then Ok (set_index e (mbi (emat le)))
      else Err ValueError
  end.

(** matrixgroup.py 38-91: append; the state of the group afterwards and the exception
    raised, if any.  A failed index check leaves the group alone; if the product itself
    raises, the element has already been added. *)
Definition append_st (g : grp) (e : elem) : grp * option exn :=
  match append_check (gelems g) e with
  | Err x => (g, Some x)
  | Ok e' =>
      let es := (gelems g ++ [e'])%list in
      match group_transfer es ninf with
      | Err x => (mkGrp (gmat g) es, Some x)
      | Ok tm => (mkGrp (copy_attrs (gmat g) tm) es, None)
      end
  end.

(** an operation whose exception propagates to the caller *)
Definition as_res {A} (r : A * option exn) : res A :=
  match r with (a, None) => Ok a | (_, Some x) => Err x end.

Definition append (g : grp) (e : elem) : res grp := as_res (append_st g e).

Fixpoint append_all (g : grp) (l : list elem) : res grp :=
  match l with
  | [] => Ok g
  | e :: t => g' <- append g e;; append_all g' t
  end.

(** matrixgroup.py 19-36: MatrixGroup(elements, label) *)
Definition MatrixGroup_new (l : list elem) (label : string) : res grp :=
  m <- Matrix_init c1 c0 c0 c1 c0 None None c1 c1 ninf ninf label;;
  append_all (mkGrp m []) l.

Definition grp_elem (g : grp) : elem := Group GGroup (gmat g) (gelems g).
Definition MatrixGroupE (l : list elem) : res elem :=
  g <- MatrixGroup_new l "";; Ok (grp_elem g).

(** ** Flips *)
(** matrix.py 1386-1397: Matrix.flipOrientation *)
Definition flip_mat (m : mat) : mat :=
  mkMat (mA m) (mB m) (mC m) (mD m) (mL m) (mbv m) (mfv m) (mbi m) (mfi m)
        (mdiam m) (mna m) (negb (mflip m)) (mlabel m).
Definition set_ABCD (m : mat) (a b c d : T) : mat :=
  mkMat a b c d (mL m) (mfv m) (mbv m) (mfi m) (mbi m) (mdiam m) (mna m)
        (mflip m) (mlabel m).

(** matrix.py 1348-1397, 1611-1622, 1755-1773, 1881-1904 *)
Definition flip_leaf (k : kind) (m : mat) : res elem :=
  let m1 := flip_mat m in
  match k with
  | KCurvedMirror => Ok (Leaf k (set_ABCD m1 (mA m) (mB m) (- mC m) (mD m)))
  | KInterface a b R =>
      c <- interface_C b a (- R);;
      d <- pdiv b a;;
      Ok (Leaf (KInterface b a (- R)) (set_ABCD m1 (mA m) (mB m) c d))
  | KThickLens n R1 R2 =>
      a <- thick_A n (- R2) (mL m);;
      b <- thick_B n (mL m);;
      c <- thick_C n (- R2) (- R1) (mL m);;
      d <- thick_D n (- R1) (mL m);;
      Ok (Leaf (KThickLens n (- R2) (- R1)) (set_ABCD m1 a b c d))
  | KSlab n R1 R2 =>
      a <- thick_A n (- R2) (mL m);;
      b <- thick_B n (mL m);;
      c <- thick_C n (- R2) (- R1) (mL m);;
      d <- thick_D n (- R1) (mL m);;
      Ok (Leaf (KSlab n (- R2) (- R1)) (set_ABCD m1 a b c d))
  | _ => Ok (Leaf k m1)
  end.

Definition set_flip (m : mat) (b : bool) : mat :=
  mkMat (mA m) (mB m) (mC m) (mD m) (mL m) (mfv m) (mbv m) (mfi m) (mbi m)
        (mdiam m) (mna m) b (mlabel m).
Definition set_fv (m : mat) (v : option T) : mat :=
  mkMat (mA m) (mB m) (mC m) (mD m) (mL m) v (mbv m) (mfi m) (mbi m)
        (mdiam m) (mna m) (mflip m) (mlabel m).
Definition set_bv (m : mat) (v : option T) : mat :=
  mkMat (mA m) (mB m) (mC m) (mD m) (mL m) (mfv m) v (mfi m) (mbi m)
        (mdiam m) (mna m) (mflip m) (mlabel m).

(** specialtylenses.py 418-432: vertices of a flipped Objective, from the labels *)
Fixpoint objective_vertices (es : list elem) (m : mat) (z : T) : mat :=
  match es with
  | [] => m
  | e :: t =>
      let m' :=
        if String.eqb (mlabel (emat e)) "frontAperture" then
          if negb (mflip m) then set_bv m (Some z) else set_fv m (Some z)
        else if String.eqb (mlabel (emat e)) "backAperture" then
          if negb (mflip m) then set_fv m (Some z) else set_bv m (Some z)
        else m in
      objective_vertices t m' (z + mL (emat e))
  end.

(** matrixgroup.py 470-483 and specialtylenses.py 415-432 *)
Definition finish_flip (gk : gkind) (g : grp) : elem :=
  match gk with
  | GGroup => Group gk (gmat g) (gelems g)
  | GObjective _ _ => Group gk (objective_vertices (gelems g) (gmat g) c0) (gelems g)
  end.

Fixpoint flip (e : elem) : res elem :=
  match e with
  | Leaf k m => flip_leaf k m
  | Group gk m es =>
      g <- (fix go (l : list elem) : res grp :=
              match l with
              | [] => Ok (mkGrp (set_flip m (negb (mflip m))) [])
              | x :: t => g <- go t;; x' <- flip x;; append g x'
              end) es;;
      Ok (finish_flip gk g)
  end.

(** the loop of matrixgroup.py 475-481 as a top-level function (last element first) *)
Fixpoint flip_loop (start : grp) (l : list elem) : res grp :=
  match l with
  | [] => Ok start
  | x :: t => g <- flip_loop start t;; x' <- flip x;; append g x'
  end.

(** ** Tracing rays through the heap of ray objects *)
Definition heap := list ray.
Definition hget (h : heap) (i : nat) : ray := nth i h (Ray_new c0 c0).
Definition hset (h : heap) (i : nat) (r : ray) : heap := set_nth i r h.
Definition halloc (h : heap) (r : ray) : nat * heap := (List.length h, (h ++ [r])%list).

(** matrix.py 405-413: the ray computed by mul_ray for an unblocked input *)
Definition mul_ray_new (m : mat) (r : ray) : ray :=
  mkRay (mA m * ry r + mB m * rth r) (mC m * ry r + mD m * rth r) (mL m + rz r)
        (if (ndiv (mdiam m) c2 <? nabs (ry r)) || (mna m <? nabs (rth r))
         then true else rblk r)
        (mdiam m) None.

(** matrix.py 346-415: Matrix.mul_ray; a blocked ray is returned as the same object *)
Definition mul_ray_base (m : mat) (rid : nat) (h : heap) : nat * heap :=
  let r := hget h rid in
  if rblk r then (rid, h) else halloc h (mul_ray_new m r).

(** axicon.py 37-53 *)
Definition deviationAngle (n alpha : T) : T := (n - c1) * alpha.

(** axicon.py 102-105: change of the output angle, from the input height *)
Definition axicon_th (n alpha y th : T) : T :=
  if c0 <? y then th + - deviationAngle n alpha
  else if y <? c0 then th + deviationAngle n alpha
  else th.

(** matrix.py 346-415 and axicon.py 80-108 *)
Definition mul_ray (k : kind) (m : mat) (rid : nat) (h : heap) : nat * heap :=
  let (o, h1) := mul_ray_base m rid h in
  match k with
  | KAxicon n alpha =>
      let out := hget h1 o in
      (o, hset h1 o (set_th out (axicon_th n alpha (ry (hget h rid)) (rth out))))
  | _ => (o, h1)
  end.

(** matrix.py 605-666: Matrix.trace of a Ray *)
Definition trace_leaf (k : kind) (m : mat) (rid : nat) (h : heap) : list nat * heap :=
  if c0 <? mL m then
    let h1 := if ndiv (mdiam m) c2 <? nabs (ry (hget h rid))
              then hset h rid (set_blk (hget h rid)) else h in
    let (o, h2) := mul_ray k m rid h1 in ([rid; o], h2)
  else
    let (o, h2) := mul_ray k m rid h in ([o], h2).

(** matrixgroup.py 404-444 on a cache miss *)
Fixpoint trace (e : elem) (rid : nat) (h : heap) : list nat * heap :=
  match e with
  | Leaf k m => trace_leaf k m rid h
  | Group _ _ es =>
      (fix go (l : list elem) (cur : nat) (acc : list nat) (h : heap) :=
         match l with
         | [] => (acc, h)
         | x :: t =>
             let (tr, h') := trace x cur h in
             go t (List.last tr cur) (acc ++ tr)%list h'
         end) es rid [rid] h
  end.

(** the loop of matrixgroup.py 434-438 as a top-level function *)
Fixpoint trace_loop (l : list elem) (cur : nat) (acc : list nat) (h : heap)
    : list nat * heap :=
  match l with
  | [] => (acc, h)
  | x :: t =>
      let (tr, h') := trace x cur h in
      trace_loop t (List.last tr cur) (acc ++ tr)%list h'
  end.

(** the trace of a fresh ray object, read back from the heap *)
Definition trace_values (e : elem) (r : ray) : list ray :=
  let (tr, h) := trace e 0 [r] in map (hget h) tr.

(** matrix.py 668-707: traceThrough *)
Definition traceThrough (e : elem) (r : ray) : ray :=
  let (tr, h) := trace e 0 [r] in hget h (List.last tr 0%nat).

(** ** Ray tracing on values, used to state and prove things about the heap version *)
Definition mul_ray_v (k : kind) (m : mat) (r : ray) : ray :=
  let o := if rblk r then r else mul_ray_new m r in
  match k with
  | KAxicon n alpha => set_th o (axicon_th n alpha (ry r) (rth o))
  | _ => o
  end.

Definition through_leaf (k : kind) (m : mat) (r : ray) : ray :=
  if c0 <? mL m then
    mul_ray_v k m (if ndiv (mdiam m) c2 <? nabs (ry r) then set_blk r else r)
  else mul_ray_v k m r.

Fixpoint through (e : elem) (r : ray) : ray :=
  match e with
  | Leaf k m => through_leaf k m r
  | Group _ _ es => fold_left (fun r x => through x r) es r
  end.

(** Matrix * Ray for any element, groups included (matrix.py 346-415) *)
Definition times_ray (e : elem) (r : ray) : ray :=
  match e with
  | Leaf k m => mul_ray_v k m r
  | Group _ m _ => mul_ray_v KMatrix m r
  end.

(** ** Apertures *)
(** matrix.py 481-489, matrixgroup.py 446-451 *)
Fixpoint hasFiniteApertureDiameter (e : elem) : bool :=
  match e with
  | Leaf _ m => negb (mdiam m =? ninf)
  | Group _ _ es => existsb hasFiniteApertureDiameter es
  end.

(** matrix.py 1399-1418, 1513-1527 *)
Definition displayHalfHeight (e : elem) : T :=
  match e with
  | Leaf (KLens _ hh) m => if negb (mdiam m =? ninf) then ndiv (mdiam m) c2 else hh
  | Leaf _ m | Group _ m _ => if negb (mdiam m =? ninf) then ndiv (mdiam m) c2 else nofZ 4
  end.

(** matrix.py 469-479, 1529-1539, matrixgroup.py 453-468 *)
Fixpoint largestDiameter (e : elem) : T :=
  match e with
  | Leaf (KLens _ hh) _ => hh
  | Leaf _ m => mdiam m
  | Group _ _ es =>
      if existsb hasFiniteApertureDiameter es then
        fold_left (fun mx d => if negb (d =? ninf) && (mx <? d) then d else mx)
                  (map largestDiameter es) c0
      else match es with
           | [] => ninf
           | x :: _ => displayHalfHeight x * c2
           end
  end.

(** ** Cardinal points and conjugates (matrix.py 899-1346) *)
(** matrix.py 899-926 *)
Definition isImaging (m : mat) : bool := isAlmostZero (mB m) eps5.
(** matrix.py 928-946 *)
Definition hasPower (m : mat) : bool := isNotZero (mC m) eps5.

(** matrix.py 987-1031 (f1, f2) *)
Definition effectiveFocalLengths (m : mat) : res (T * T) :=
  if hasPower m then
    f2 <- pdiv (- c1) (mC m);;
    q <- pdiv (mfi m) (mbi m);;
    f1 <- pdiv (- q) (mC m);;
    Ok (f1, f2)
  else Ok (ninf, ninf).

(** matrix.py 1180-1214; [None] when there is no power *)
Definition principalPlanePositions (m : mat) (z : T) : res (option (T * T)) :=
  if hasPower m then
    q <- pdiv (mfi m) (mbi m);;
    x <- pdiv (q - mD m) (mC m);;
    y <- pdiv (c1 - mA m) (mC m);;
    Ok (Some (z - x, z + mL m + y))
  else Ok None.

(** matrix.py 1033-1082 *)
Definition backFocalLength (m : mat) : res (option T) :=
  match mbv m with
  | Some bv =>
      if hasPower m then
        f <- effectiveFocalLengths m;;
        p <- principalPlanePositions m c0;;
        match p with
        | Some (_, p2) => Ok (Some (p2 + snd f - bv))
        | None => Err TypeError
        end
      else Ok None
  | None => Ok None
  end.

(** matrix.py 1084-1134 *)
Definition frontFocalLength (m : mat) : res (option T) :=
  match mfv m with
  | Some fv =>
      if hasPower m then
        f <- effectiveFocalLengths m;;
        p <- principalPlanePositions m c0;;
        match p with
        | Some (p1, _) => Ok (Some (- (p1 - fst f - fv)))
        | None => Err TypeError
        end
      else Ok None
  | None => Ok None
  end.

(** matrix.py 1136-1178 *)
Definition focusPositions (m : mat) (z : T) : res (option (T * T)) :=
  if hasPower m then
    f <- effectiveFocalLengths m;;
    p <- principalPlanePositions m z;;
    match p with
    | Some (p1, p2) => Ok (Some (p1 - fst f, p2 + snd f))
    | None => Err TypeError
    end
  else Ok None.

(** matrix.py 1216-1262 *)
Definition forwardConjugate (m : mat) : res (T * option mat) :=
  if mD m =? c0 then Ok (ninf, None)
  else
    d <- pdiv (- mB m) (mD m);;
    s <- SpaceM d (mbi m) ninf;;
    c <- mul_matrix s m;;
    Ok (d, Some c).

(** matrix.py 1264-1311 *)
Definition backwardConjugate (m : mat) : res (T * mat) :=
  d <- (if negb (mA m =? c0) then pdiv (- mB m) (mA m) else Ok ninf);;
  s <- SpaceM d c1 ninf;;
  c <- mul_matrix m s;;
  Ok (d, set_ABCD c (mA c) c0 (mC c) (mD c)).

(** matrix.py 1313-1346 *)
Definition magnification (m : mat) : option (T * T) :=
  if isImaging m then Some (mA m, mD m) else None.

(** matrix.py 207-214 *)
Definition fromFocusToFocus (e : elem) : res elem :=
  ffl <- frontFocalLength (emat e);;
  bfl <- backFocalLength (emat e);;
  match ffl, bfl with
  | Some f, Some b =>
      s1 <- Space f c1 ninf;;
      s2 <- Space b c1 ninf;;
      MatrixGroupE [s1; e; s2]
  | _, _ => Err TypeError       (* float(None) *)
  end.

(** matrix.py 1705-1710 *)
Definition ToFocus (m : mat) : res elem :=
  b <- backFocalLength m;;
  match b with
  | Some d => Space d c1 ninf
  | None => Err ValueError
  end.

(** matrix.py 1693-1698; [isfin] is numpy.isfinite *)
Definition ToConjugate (m : mat) : res elem :=
  c <- forwardConjugate m;;
  if nabs (fst c) <? ninf then Space (fst c) c1 ninf else Err ValueError.

(** matrix.py 546-603 *)
Definition opticalInvariant (e : elem) (r1 r2 : ray) (z : T) : res T :=
  m <- transferMatrix e z;;
  let o1 := traceThrough m r1 in
  let o2 := traceThrough m r2 in
  Ok (mbi (emat m) * (rth o1 * ry o2 - ry o1 * rth o2)).

(** matrix.py 537-544, matrixgroup.py 326-363 *)
Fixpoint transferMatrices (e : elem) : list elem :=
  match e with
  | Leaf k m => [Leaf k m]
  | Group _ _ es => flat_map transferMatrices es
  end.

(** matrixgroup.py 391-401: the loop over the flattened matrices *)
Fixpoint conj_loop (l : list elem) (tm : mat) (planes : list (T * T))
    : res (list (T * T)) :=
  match l with
  | [] => Ok planes
  | e :: t =>
      tm' <- mul_matrix (emat e) tm;;
      fc <- forwardConjugate tm';;
      let (d, oc) := fc in
      let pos := mL tm' + d in
      let planes' :=
        if negb (pos =? c0) then
          match oc with
          | None => planes
          | Some c =>
              let mag := mA c in
              if existsb (fun pm => areAbsolutelyAlmostEqual (fst pm) pos eps3
                                    && areAbsolutelyAlmostEqual (snd pm) mag eps3) planes
              then planes else (planes ++ [(pos, mag)])%list
          end
        else planes in
      conj_loop t tm' planes'
  end.

(** matrixgroup.py 365-402 *)
Definition intermediateConjugates (e : elem) : res (list (T * T)) :=
  tm0 <- Matrix_default;; conj_loop (transferMatrices e) tm0 [].

(** ** components.py *)
(** components.py 48-53 *)
Definition System2f (f diam : T) : res elem :=
  s1 <- Space f c1 ninf;;
  l <- Lens f diam;;
  s2 <- Space f c1 ninf;;
  MatrixGroupE [s1; l; s2].

(** components.py 23-31 *)
Definition System4f (f1 f2 diam1 diam2 : T) : res elem :=
  s1 <- Space f1 c1 ninf;;
  l1 <- Lens f1 diam1;;
  s2 <- Space f1 c1 ninf;;
  s3 <- Space f2 c1 ninf;;
  l2 <- Lens f2 diam2;;
  s4 <- Space f2 c1 ninf;;
  MatrixGroupE [s1; l1; s2; s3; l2; s4].

(** ** specialtylenses.py *)
Definition set_diam (m : mat) (d : T) : mat :=
  mkMat (mA m) (mB m) (mC m) (mD m) (mL m) (mfv m) (mbv m) (mfi m) (mbi m)
        d (mna m) (mflip m) (mlabel m).

(** specialtylenses.py 24-32: CompoundLens *)
Definition CompoundLens (l : list elem) (diam : T) : res elem :=
  g <- MatrixGroup_new l "";;
  Ok (Group GGroup (set_diam (gmat g) diam) (gelems g)).

(** specialtylenses.py 183-193: elements of AchromatDoubletLens (the later checks: [verify] in Catalogue.v) *)
Definition AchromatDoublet (R1 R2 R3 tc1 tc2 na nb diam : T) : res elem :=
  e1 <- DielectricInterface c1 na R1 diam;;
  e2 <- Space tc1 na ninf;;
  e3 <- DielectricInterface na nb R2 diam;;
  e4 <- Space tc2 nb ninf;;
  e5 <- DielectricInterface nb c1 R3 diam;;
  CompoundLens [e1; e2; e3; e4; e5] diam.

(** specialtylenses.py 295-304: elements of SingletLens *)
Definition SingletLens (R1 R2 tc n diam : T) : res elem :=
  e1 <- DielectricInterface c1 n R1 diam;;
  e2 <- Space tc n ninf;;
  e3 <- DielectricInterface n c1 R2 diam;;
  CompoundLens [e1; e2; e3] diam.

(** specialtylenses.py 362-401: Objective *)
Definition Objective (f na ftf backAperture wd : T) : res elem :=
  let frontAperture := c2 * (na * wd) in
  e1 <- ApertureL backAperture ninf "backAperture";;
  e2 <- Space f c1 ninf;;
  e3 <- MatrixE c1 c0 c0 c1 (ftf - c2 * f) None None c1 c1;;
  e4 <- Lens f ninf;;
  e5 <- Space (f - wd) c1 ninf;;
  e6 <- ApertureL frontAperture ninf "frontAperture";;
  e7 <- Space wd c1 ninf;;
  g <- MatrixGroup_new [e1; e2; e3; e4; e5; e6; e7] "";;
  Ok (Group (GObjective ftf wd)
        (set_diam (set_bv (set_fv (gmat g) (Some c0)) (Some (ftf - wd))) backAperture)
        (gelems g)).

End Model.
