(** Bit-exact runs on IEEE doubles in which hidden state of element objects shows. *)
From Coq Require Import ZArith List Bool String Floats.
From Verif Require Import Base Nums Optics Group Spec GroupProofs TraceProofs Store StoreProofs StoreTrace
  StoreHistory GroupRefutations ImagingRefutations.
Import ListNotations.
Open Scope list_scope.

(** a store of new element objects and a path made of some of them *)
Definition objects (l : list (@elem float)) : @store float := map leaf_obj l.
Definition new_path (s : @store float) (l : list nat) : nat * @store float :=
  let '(g, (s', _)) := onew_group s l in (g, s').
Definition fray0 (y th : float) : @ray float := Ray_new y th.

(** a path of a Space(10) is traced, a Lens is appended, an equal ray is traced: the trace stops
    before the lens *)
Lemma stale_after_append :
  exists (s : @store float) g i r tr s1 h1 s2 e tr2 s3 h2,
    objects [fspace 10; flens 10] = firstn 2 s /\ onew_group (firstn 2 s) [0] = (g, (s, None)) /\ i = 1%nat /\
    r = Ray_new (fz 1) c0 /\
    strace 2 s g 0 [r] = Some (tr, s1, h1) /\ oappend s1 g i = (s2, None) /\
    tree 2 s2 g = Some e /\ strace 2 s2 g (List.length h1) (h1 ++ [r]) = Some (tr2, s3, h2) /\
    tr2 = tr /\ (List.length tr2 < List.length (trace_values e r))%nat.
Proof.
  pose (s := snd (new_path (objects [fspace 10; flens 10]) [0%nat])). pose (g := 2%nat).
  pose (r := fray0 (fz 1) c0).
  pose (x1 := match strace 2 s g 0 [r] with Some x => x | None => ([], [], []) end).
  pose (s2 := fst (oappend (snd (fst x1)) g 1)).
  pose (x2 := match strace 2 s2 g (List.length (snd x1)) (snd x1 ++ [r]) with Some x => x | None => ([], [], []) end).
  exists s, g, 1%nat, r, (fst (fst x1)), (snd (fst x1)), (snd x1), s2,
    (match tree 2 s2 g with Some e => e | None => fspace 1 end), (fst (fst x2)), (snd (fst x2)), (snd x2).
  split; [vm_compute; reflexivity|]. split; [vm_compute; reflexivity|]. split; [reflexivity|]. split; [reflexivity|].
  split; [vm_compute; reflexivity|]. split; [vm_compute; reflexivity|]. split; [vm_compute; reflexivity|].
  split; [vm_compute; reflexivity|]. split; [vm_compute; reflexivity|]. vm_compute. repeat constructor.
Qed.

(** the user moves the ray object and traces it again: the old trace is returned *)
Lemma stale_after_moving_ray :
  exists (s : @store float) g r r' tr s1 h1 e,
    tree 2 s g = Some e /\ cache_of s g = None /\ r = Ray_new (fz 1) c0 /\ r' = Ray_new (fz 2) c0 /\
    strace 2 s g 0 [r] = Some (tr, s1, h1) /\
    (* the same object with another height *)
    strace 2 s1 g 0 (hset h1 0 r') = Some (tr, s1, hset h1 0 r') /\
    ry (hget (hset h1 0 r') (List.last tr 0)) = fz 1 /\ ry (traceThrough e r') = fz 2.
Proof.
  pose (s := snd (new_path (objects [fspace 10]) [0%nat])). pose (g := 1%nat).
  pose (r := fray0 (fz 1) c0).
  pose (x1 := match strace 2 s g 0 [r] with Some x => x | None => ([], [], []) end).
  exists s, g, r, (fray0 (fz 2) c0), (fst (fst x1)), (snd (fst x1)), (snd x1),
    (match tree 2 s g with Some e => e | None => fspace 1 end).
  vm_compute. repeat split.
Qed.

(** two rays that differ in position only: the second gets the trace of the first *)
Lemma stale_position :
  exists (s : @store float) g r r' tr s1 h1 tr2 s2 h2 e,
    tree 2 s g = Some e /\ cache_of s g = None /\ r = Ray_new (fz 1) c0 /\
    r' = mkRay (fz 1) c0 (fz 5) false ninf None /\
    strace 2 s g 0 [r] = Some (tr, s1, h1) /\
    strace 2 s1 g (List.length h1) (h1 ++ [r']) = Some (tr2, s2, h2) /\
    map rz (map (hget h2) tr2) = [fz 0; fz 0; fz 10] /\
    map rz (trace_values e r') = [fz 5; fz 5; fz 15].
Proof.
  pose (s := snd (new_path (objects [fspace 10]) [0%nat])). pose (g := 1%nat).
  pose (r := fray0 (fz 1) c0). pose (r' := mkRay (fz 1) (@c0 float _) (fz 5) false (@ninf float _) None).
  pose (x1 := match strace 2 s g 0 [r] with Some x => x | None => ([], [], []) end).
  pose (x2 := match strace 2 (snd (fst x1)) g (List.length (snd x1)) (snd x1 ++ [r']) with Some x => x | None => ([], [], []) end).
  exists s, g, r, r', (fst (fst x1)), (snd (fst x1)), (snd x1), (fst (fst x2)), (snd (fst x2)), (snd x2),
    (match tree 2 s g with Some e => e | None => fspace 1 end).
  vm_compute. repeat split.
Qed.

(** the same group object twice in a path: a horizontal ray ends at 10 instead of 20 *)
Lemma group_twice :
  exists (s : @store float) g outer r tr s1 h1 e,
    oget s outer = Some (OGroup GGroup (emat e) [g; g] None 0) /\ tree 3 s outer = Some e /\
    cache_of s g = None /\ r = Ray_new (fz 1) c0 /\
    strace 3 s outer 0 [r] = Some (tr, s1, h1) /\
    rz (hget h1 (List.last tr 0)) = fz 10 /\ rz (traceThrough e r) = fz 20 /\ mL (emat e) = fz 20.
Proof.
  pose (p := new_path (objects [fspace 10]) [0%nat]). pose (q := new_path (snd p) [fst p; fst p]).
  pose (s := snd q). pose (r := fray0 (fz 1) c0).
  pose (x1 := match strace 3 s (fst q) 0 [r] with Some x => x | None => ([], [], []) end).
  exists s, (fst p), (fst q), r, (fst (fst x1)), (snd (fst x1)), (snd x1),
    (match tree 3 s (fst q) with Some e => e | None => fspace 1 end).
  vm_compute. repeat split.
Qed.

(** a ray blocked by the first aperture reaches an inner group as a ray that went through before
    did: the inner group returns the old, unblocked trace *)
Lemma blocked_ray_revived :
  exists (s : @store float) outer e r1 r2 tr1 s1 h1 tr2 s2 h2,
    tree 3 s outer = Some e /\ NoDup (groups 3 s outer) /\
    (forall j, In j (groups 3 s outer) -> cache_of s j = None) /\
    r1 = Ray_new c0 (ndec 5 1) /\ r2 = Ray_new (fz 5) (ndec 5 1) /\
    strace 3 s outer 0 [r1] = Some (tr1, s1, h1) /\ rblk (hget h1 (List.last tr1 0)) = false /\
    strace 3 s1 outer (List.length h1) (h1 ++ [r2]) = Some (tr2, s2, h2) /\
    (* blocked on the way, not blocked at the end *)
    existsb (fun i => rblk (hget h2 i)) tr2 = true /\
    rblk (hget h2 (List.last tr2 0)) = false /\ rblk (traceThrough e r2) = true.
Proof.
  pose (p := new_path (objects [fap (fz 8); fspace 10; fspace 10]) [2%nat]).
  pose (q := new_path (snd p) [0; 1; fst p]%nat). pose (s := snd q).
  pose (r1 := fray0 c0 (ndec 5 1)). pose (r2 := fray0 (fz 5) (ndec 5 1)).
  pose (x1 := match strace 3 s (fst q) 0 [r1] with Some x => x | None => ([], [], []) end).
  pose (x2 := match strace 3 (snd (fst x1)) (fst q) (List.length (snd x1)) (snd x1 ++ [r2]) with Some x => x | None => ([], [], []) end).
  exists s, (fst q), (match tree 3 s (fst q) with Some e => e | None => fspace 1 end), r1, r2,
    (fst (fst x1)), (snd (fst x1)), (snd x1), (fst (fst x2)), (snd (fst x2)), (snd x2).
  split; [vm_compute; reflexivity|]. split.
  { replace (groups 3 s (fst q)) with [4; 3]%nat by (vm_compute; reflexivity).
    repeat constructor; cbn; intuition discriminate. }
  split.
  { replace (groups 3 s (fst q)) with [4; 3]%nat by (vm_compute; reflexivity).
    intros j [<-|[<-|[]]]; vm_compute; reflexivity. }
  vm_compute. repeat split.
Qed.

(** the element behind an inner group blocks a ray: afterwards the inner group alone returns a
    blocked trace for an equal ray it lets through *)
Lemma inner_trace_spoiled :
  exists (s : @store float) inner outer e r tr1 s1 h1 tr2 s2 h2,
    tree 2 s inner = Some e /\ cache_of s inner = None /\ r = Ray_new (fz 5) c0 /\
    strace 3 s outer 0 [r] = Some (tr1, s1, h1) /\
    strace 2 s1 inner (List.length h1) (h1 ++ [r]) = Some (tr2, s2, h2) /\
    rblk (hget h2 (List.last tr2 0)) = true /\ rblk (traceThrough e r) = false.
Proof.
  pose (p := new_path (objects [fspace 10; the (Space (fz 10) c1 (fz 5))]) [0%nat]).
  pose (q := new_path (snd p) [fst p; 1%nat]). pose (s := snd q). pose (r := fray0 (fz 5) c0).
  pose (x1 := match strace 3 s (fst q) 0 [r] with Some x => x | None => ([], [], []) end).
  pose (x2 := match strace 2 (snd (fst x1)) (fst p) (List.length (snd x1)) (snd x1 ++ [r]) with Some x => x | None => ([], [], []) end).
  exists s, (fst p), (fst q), (match tree 2 s (fst p) with Some e => e | None => fspace 1 end), r,
    (fst (fst x1)), (snd (fst x1)), (snd x1), (fst (fst x2)), (snd (fst x2)), (snd x2).
  vm_compute. repeat split.
Qed.

(** ** Shared elements *)
(** building a second path puts a shared Space into glass: the first path now starts with a Space
    of index 1.5, while its own index is still 1 *)
Lemma shared_space_changed :
  exists (s s' : @store float) a b m m',
    oget s 2 = Some (OGroup GGroup (omat a) [0%nat] None 0) /\ a = OGroup GGroup (omat a) [0%nat] None 0 /\
    oget s 0 = Some (OLeaf KSpace m) /\ onew_group s [1; 0]%nat = (b, (s', None)) /\
    oget s' 2 = oget s 2 /\ oget s' 0 = Some (OLeaf KSpace m') /\
    mfi m = fz 1 /\ mfi m' = ndec 15 1 /\ mfi (omat a) = fz 1.
Proof.
  pose (s := snd (new_path (objects [fspace 10; the (DielectricInterface c1 (ndec 15 1) (fz 20) ninf)]) [0%nat])).
  pose (q := new_path s [1; 0]%nat).
  exists s, (snd q), (match oget s 2 with Some o => o | None => leaf_obj (fspace 1) end), (fst q),
    (match oget s 0 with Some o => omat o | None => dummy end),
    (match oget (snd q) 0 with Some o => omat o | None => dummy end).
  vm_compute. repeat split.
Qed.

(** flipping one path flips the elements of another; the matrix of the other does not follow *)
Lemma shared_element_flipped :
  exists (s s' : @store float) a b e e',
    kids_of s a = [0%nat] /\ kids_of s b = [0%nat] /\ a <> b /\
    tree 2 s b = Some e /\ oflip 2 s a = (s', None) /\ tree 2 s' b = Some e' /\
    emat e' = emat e /\
    map (fun km => mA (snd km)) (leaves e) = [mA (emat e)] /\
    map (fun km => PrimFloat.eqb (mA (snd km)) (mA (emat e'))) (leaves e') = [false].
Proof.
  pose (p := new_path (objects [the (ThickLens (ndec 15 1) (fz 20) (fz (-40)) (fz 5) ninf)]) [0%nat]).
  pose (q := new_path (snd p) [0%nat]). pose (s := snd q).
  exists s, (fst (oflip 2 s (fst p))), (fst p), (fst q),
    (match tree 2 s (fst q) with Some e => e | None => fspace 1 end),
    (match tree 2 (fst (oflip 2 s (fst p))) (fst q) with Some e => e | None => fspace 1 end).
  split; [vm_compute; reflexivity|]. split; [vm_compute; reflexivity|].
  split; [vm_compute; discriminate|]. vm_compute. repeat split.
Qed.

(** an element that occurs twice is flipped twice: it keeps its orientation *)
Lemma element_twice_not_flipped :
  exists (s s' : @store float) g k m m',
    kids_of s g = [0; 0]%nat /\ oget s 0 = Some (OLeaf k m) /\ oflip 2 s g = (s', None) /\
    oget s' 0 = Some (OLeaf k m') /\ (mA m', mB m', mC m', mD m') = (mA m, mB m, mC m, mD m) /\ mflip m' = false /\
    PrimFloat.eqb (mA m) (mD m) = false.
Proof.
  pose (q := new_path (objects [the (ThickLens (ndec 15 1) (fz 20) (fz (-40)) (fz 5) ninf)]) [0; 0]%nat).
  pose (s := snd q).
  exists s, (fst (oflip 2 s (fst q))), (fst q), (KThickLens (ndec 15 1) (fz 20) (fz (-40))),
    (match oget s 0 with Some o => omat o | None => dummy end),
    (match oget (fst (oflip 2 s (fst q))) 0 with Some o => omat o | None => dummy end).
  vm_compute. repeat split.
Qed.

(** asking for a part of a path of glass changes the path *)
Lemma subPath_changes_path :
  exists (s s' : @store float) g n e e',
    tree 2 s g = Some e /\ osubPath s g (fz 5) false = (n, (s', None)) /\ tree 2 s' g = Some e' /\
    map (fun km => mfi (snd km)) (leaves e) = [ndec 15 1; ndec 15 1] /\
    map (fun km => mfi (snd km)) (leaves e') = [ndec 15 1; fz 1].
Proof.
  pose (q := new_path (objects [the (Space (fz 10) (ndec 15 1) ninf); the (Space (fz 5) (ndec 15 1) ninf)]) [0; 1]%nat).
  pose (s := snd q). pose (x := osubPath s (fst q) (fz 5) false).
  exists s, (fst (snd x)), (fst q), (fst x), (match tree 2 s (fst q) with Some e => e | None => fspace 1 end),
    (match tree 2 (fst (snd x)) (fst q) with Some e => e | None => fspace 1 end).
  vm_compute. repeat split.
Qed.

(** a lens is appended to a group that is part of a path: the matrix of the path does not follow *)
Lemma outer_matrix_stale :
  exists (s s' : @store float) inner outer e e',
    kids_of s outer = [inner] /\ kids_of s inner = [0%nat] /\ tree 3 s outer = Some e /\
    oappend s inner 1 = (s', None) /\ tree 3 s' outer = Some e' /\ emat e' = emat e /\
    mC (emat e') = fz 0 /\ mC (match oget s' inner with Some o => omat o | None => dummy end) = ndec (-1) 1.
Proof.
  pose (p := new_path (objects [fspace 10; flens 10]) [0%nat]). pose (q := new_path (snd p) [fst p]).
  pose (s := snd q). pose (s' := fst (oappend s (fst p) 1)).
  exists s, s', (fst p), (fst q), (match tree 3 s (fst q) with Some e => e | None => fspace 1 end),
    (match tree 3 s' (fst q) with Some e => e | None => fspace 1 end).
  vm_compute. repeat split.
Qed.

(** ** Equality *)
(** two paths of equal elements are equal until a ray is traced through one of them *)
Lemma equality_changes_with_trace :
  exists (s : @store float) a b r tr s1 h1,
    onew_group (objects [fspace 10; fspace 10]) [0%nat] = (a, (firstn 3 s, None)) /\
    onew_group (firstn 3 s) [1%nat] = (b, (s, None)) /\
    oeq 2 s [r] a b = Some true /\ strace 2 s a 0 [r] = Some (tr, s1, h1) /\ oeq 2 s1 h1 a b = Some false.
Proof.
  pose (p := new_path (objects [fspace 10; fspace 10]) [0%nat]). pose (q := new_path (snd p) [1%nat]).
  pose (s := snd q). pose (r := fray0 (fz 1) c0).
  pose (x1 := match strace 2 s (fst p) 0 [r] with Some x => x | None => ([], [], []) end).
  exists s, (fst p), (fst q), r, (fst (fst x1)), (snd (fst x1)), (snd x1).
  vm_compute. repeat split.
Qed.
(** or until one of them is used in a loop *)
Lemma equality_changes_with_iteration :
  exists (s : @store float) a b,
    oeq 2 s [] a b = Some true /\ oeq 2 (oiterate s a) [] a b = Some false.
Proof.
  pose (p := new_path (objects [fspace 10; fspace 10]) [0%nat]). pose (q := new_path (snd p) [1%nat]).
  exists (snd q), (fst p), (fst q). vm_compute. repeat split.
Qed.
