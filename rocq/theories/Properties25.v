(** Property theorem C122: which element objects a path holds after it was edited.  Objects are
    numbers into a store; [kids_of s g] lists the elements of path [g]; [sstep] runs an operation
    and gives the store and the exception, if one was raised. *)
From Coq Require Import ZArith List Bool String Floats Lia.
From Verif Require Import Base Nums Optics Group Samples Store StoreProofs StoreRefutations GroupRefutations ImagingRefutations OwnProofs.
Import ListNotations.
Open Scope list_scope.

Theorem C122_append : forall T (N : Num T) (s : @store T) g i s',
  sstep s (SAppend g i) = (s', None) -> kids_of s' g = kids_of s g ++ [i].
Proof. exact @own_append. Qed.
Print Assumptions C122_append.
(** [i] counts from the front or, when negative, from the back *)
Theorem C122_pop : forall T (N : Num T) (s : @store T) g i s',
  sstep s (SPop g i) = (s', None) ->
  exists k, (k < List.length (kids_of s g))%nat /\
    (i = Z.of_nat k \/ i = Z.of_nat k - Z.of_nat (List.length (kids_of s g)))%Z /\
    kids_of s' g = firstn k (kids_of s g) ++ skipn (S k) (kids_of s g).
Proof. exact @own_pop. Qed.
Print Assumptions C122_pop.
Theorem C122_insert : forall T (N : Num T) (s : @store T) g i l s', (g < List.length s)%nat ->
  sstep s (SInsert g i l) = (s', None) -> kids_of s' g = put_at i l (kids_of s g).
Proof. exact @own_insert. Qed.
Print Assumptions C122_insert.
Theorem C122_set_item : forall T (N : Num T) (s : @store T) g (i : nat) l s', (g < List.length s)%nat ->
  sstep s (SSetItem g (Z.of_nat i) l) = (s', None) ->
  (i < List.length (kids_of s g))%nat /\ kids_of s' g = firstn i (kids_of s g) ++ l ++ skipn (S i) (kids_of s g).
Proof. exact @own_setitem. Qed.
Print Assumptions C122_set_item.
Theorem C122_set_slice : forall T (N : Num T) (s : @store T) g (a b : nat) l s', (g < List.length s)%nat -> (a <= b)%nat ->
  sstep s (SSetSlice g (Some (Z.of_nat a)) (Some (Z.of_nat b)) l) = (s', None) ->
  kids_of s' g = firstn a (kids_of s g) ++ l ++ skipn b (kids_of s g).
Proof. exact @own_setslice. Qed.
Print Assumptions C122_set_slice.
Theorem C122_new_path : forall T (N : Num T) (s : @store T) l s', sstep s (SNewGroup l) = (s', None) ->
  kids_of s' (List.length s) = l /\ List.length s' = S (List.length s).
Proof. exact @own_new. Qed.
Print Assumptions C122_new_path.
(** a slice is a new path with the elements [a], ..., [b - 1] themselves *)
Theorem C122_slice : forall T (N : Num T) (s : @store T) g (a b : nat) s',
  sstep s (SGetSlice g (Z.of_nat a) (Z.of_nat b)) = (s', None) -> (a <= b)%nat ->
  kids_of s' (List.length s) = skipn a (firstn b (kids_of s g)) /\ List.length s' = S (List.length s).
Proof. exact @own_slice. Qed.
Print Assumptions C122_slice.
(** a sub path starts with a new Space, what is left of the Space that was cut; the others are the
    elements after it, or those before it in reverse order *)
Theorem C122_sub_path : forall T (N : Num T) (s : @store T) g z b s',
  sstep s (SSubPath g z b) = (s', None) ->
  exists pre x post m sp, kids_of s g = pre ++ x :: post /\ oget s x = Some (OLeaf KSpace m) /\
    nltb (start s c0 pre) z = true /\ nltb z (nadd (start s c0 pre) (mL m)) = true /\
    List.length s' = S (S (List.length s)) /\
    kids_of s' (S (List.length s)) = List.length s :: (if b then rev pre else post) /\
    oget s' (List.length s) = Some (OLeaf KSpace sp) /\
    mL sp = (if b then nsub z (start s c0 pre) else nsub (nadd (start s c0 pre) (mL m)) z).
Proof. exact @own_subPath. Qed.
Print Assumptions C122_sub_path.
(** flipped in place, a path that does not contain itself has the same elements in reverse order *)
Theorem C122_flip : forall T (N : Num T) fuel (s : @store T) i gk m kids c it s',
  oget s i = Some (OGroup gk m kids c it) -> (forall x, In x kids -> ~ In i (reach fuel s x)) ->
  oflip (S fuel) s i = (s', None) -> kids_of s' i = rev kids.
Proof. exact @own_flip. Qed.
Print Assumptions C122_flip.
(** when the elements that are left no longer fit, those from the first that does not are lost *)
Theorem C122_pop_raises : forall T (N : Num T) (s : @store T) g i s' e, sstep s (SPop g i) = (s', Some e) ->
  kids_of s' g = kids_of s g \/
  exists k pre post, (k < List.length (kids_of s g))%nat /\
    firstn k (kids_of s g) ++ skipn (S k) (kids_of s g) = pre ++ post /\ kids_of s' g = pre.
Proof. exact @own_failed. Qed.
Print Assumptions C122_pop_raises.

(** path 4 has the elements 0, 1, 2, 3 *)
Definition own_demo : @store float :=
  snd (new_path (objects [fap (fz 8); fspace 10; flens 10; fspace 10]) [0; 1; 2; 3]%nat).
Definition kids_after (g : nat) (p : @store float * option exn) : list nat * option exn := (kids_of (fst p) g, snd p).
Example C122_example :
  kids_after 4 (sstep own_demo (SAppend 4 1)) = ([0; 1; 2; 3; 1], None) /\
  kids_after 4 (sstep own_demo (SPop 4 (-2))) = ([0; 1; 3], None) /\
  kids_after 4 (sstep own_demo (SInsert 4 (-1) [1; 2])) = ([0; 1; 2; 1; 2; 3], None) /\
  kids_after 4 (sstep own_demo (SSetItem 4 2 [0; 2])) = ([0; 1; 0; 2; 3], None) /\
  kids_after 4 (sstep own_demo (SSetSlice 4 (Some 1%Z) (Some 3%Z) [2])) = ([0; 2; 3], None) /\
  kids_after 5 (sstep own_demo (SGetSlice 4 1 3)) = ([1; 2], None) /\
  kids_after 6 (sstep own_demo (SSubPath 4 (fz 12) false)) = ([5], None) /\
  kids_after 6 (sstep own_demo (SSubPath 4 (fz 12) true)) = ([5; 2; 1; 0], None) /\
  kids_after 4 (oflip 2 own_demo 4) = ([3; 2; 1; 0], None).
Proof. repeat split; vm_compute; reflexivity. Qed.
